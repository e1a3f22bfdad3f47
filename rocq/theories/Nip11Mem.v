(** Model of src/relay_nip11.c: who owns the memory of a relay information. *)
From Verif Require Import Base Heap RelayProto EventMem.
Open Scope nat_scope.

(** The pointers of a nostr_relay_info_t that the functions below follow
    (include/nostr_relay_protocol.h:734-769).  Memory that is not from malloc is a
    block that is not live.  The entries of an array are those up to its count. *)
Record minfo : Set := mkMinfo {
  m_nips : option nat; m_values : list Z;
  m_retention : option nat; m_ret : list (option nat);                   (* kinds *)
  m_admission : option nat; m_adm : list (option nat * option nat);      (* unit, kinds *)
  m_subscription : option nat; m_sub : list (option nat * option nat);
  m_publication : option nat; m_pub : list (option nat * option nat);
  m_countries : option nat; m_langs : option nat; m_tags : option nat }.
(** after nostr_relay_info_init, and after the memset of nostr_relay_info_free *)
Definition minfo0 : minfo := mkMinfo None [] None [] None [] None [] None [] None None None.
Definition with_nips (m : minfo) (p : option nat) (l : list Z) : minfo :=
  mkMinfo p l (m_retention m) (m_ret m) (m_admission m) (m_adm m) (m_subscription m) (m_sub m) (m_publication m) (m_pub m) (m_countries m) (m_langs m) (m_tags m).

Section Mem.
Variable grant : nat -> bool.
(** src/relay_nip11.c:43-66 nostr_relay_info_set_nips.  [nips]: what the pointer
    points at ([None]: NULL); [src]: the heap block it points into, if any. *)
Definition set_nips (m : minfo) (nips : option (list Z)) (src : option nat) : M (minfo * option rerr) :=
  let! _ := hfree (m_nips m) in
  match nips with
  | None | Some [] => mret (with_nips m None [], None)
  | Some l =>
    let! p := ealloc grant in
    match p with
    | None => mret (with_nips m None [], Some RMemory)
    | Some b =>
      let! _ := match src with Some _ => huse src | None => mret tt end in
      mret (with_nips m (Some b) l, None)
    end
  end.
(** src/relay_nip11.c:68-84 nostr_relay_info_add_nip; the size of the array does
    not wrap *)
Definition add_nip (m : minfo) (z : Z) : M (minfo * option rerr) :=
  let! p := erealloc grant (m_nips m) in
  match p with
  | None => mret (m, Some RMemory)
  | Some b => let! _ := huse (Some b) in mret (with_nips m (Some b) (m_values m ++ [z]), None)
  end.
End Mem.
(** the loops of nostr_relay_info_free: read the entry, release what it has *)
Fixpoint free_kinds (a : nat) (l : list (option nat)) : M unit :=
  match l with
  | [] => mret tt
  | k :: r => let! _ := huse (Some a) in let! _ := hfree k in free_kinds a r
  end.
Fixpoint free_units (a : nat) (l : list (option nat * option nat)) : M unit :=
  match l with
  | [] => mret tt
  | (u, _) :: r => let! _ := huse (Some a) in let! _ := hfree u in free_units a r
  end.
Fixpoint free_pubs (a : nat) (l : list (option nat * option nat)) : M unit :=
  match l with
  | [] => mret tt
  | (u, k) :: r => let! _ := huse (Some a) in let! _ := hfree k in let! _ := huse (Some a) in let! _ := hfree u in free_pubs a r
  end.
Definition free_array {A} (f : nat -> list A -> M unit) (a : option nat) (l : list A) : M unit :=
  match a with None => mret tt | Some b => let! _ := f b l in hfree (Some b) end.
(** src/relay_nip11.c:86-135 nostr_relay_info_free *)
Definition info_free (m : minfo) : M minfo :=
  let! _ := free_array free_kinds (m_retention m) (m_ret m) in
  let! _ := free_array free_units (m_admission m) (m_adm m) in
  let! _ := free_array free_units (m_subscription m) (m_sub m) in
  let! _ := free_array free_pubs (m_publication m) (m_pub m) in
  let! _ := hfree (m_nips m) in
  let! _ := hfree (m_countries m) in
  let! _ := hfree (m_langs m) in
  let! _ := hfree (m_tags m) in
  mret minfo0.

(** A program filling in the list of NIPs. *)
Inductive nip_op : Set := OSet (nips : option (list Z)) | OAdd (z : Z) | OFree.
Definition do_op (grant : nat -> bool) (m : minfo) (o : nip_op) : M (minfo * option rerr) :=
  match o with
  | OSet l => set_nips grant m l None
  | OAdd z => add_nip grant m z
  | OFree => let! m := info_free m in mret (m, None)
  end.
Fixpoint do_ops (grant : nat -> bool) (m : minfo) (l : list nip_op) : M (minfo * list (option rerr)) :=
  match l with
  | [] => mret (m, [])
  | o :: r => let! (m, x) := do_op grant m o in let! (m, xs) := do_ops grant m r in mret (m, x :: xs)
  end.
