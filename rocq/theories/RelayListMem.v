(** Memory of src/nip65.c: the blocks of a relay list and of the arrays of addresses it
    hands out.  realloc takes a new block and releases the old one. *)
From Verif Require Import Base Heap Event GiftWrap Nip65 EventMem ListMem.
Open Scope N_scope.

(** include/nostr.h nostr_relay_list_entry and nostr_relay_list as they lie in memory *)
Record rentry : Set := mkRe { re_url : option cell; re_read : bool; re_write : bool }.
Definition zero_entry : rentry := mkRe None false false.
Record crelays : Set := mkCr { cr_self : nat; cr_array : nat; cr_slots : list rentry; cr_count : nat }.

(** src/nip65.c:44-55 nostr_relay_list_free *)
Fixpoint free_entries (a n : nat) (sl : list rentry) : M unit :=
  match n, sl with
  | O, _ => mret tt
  | S n', x :: r =>
    let! _ := huse (Some a) in
    let! _ := free_cell (re_url x) in
    free_entries a n' r
  | S _, [] => fun _ => Undef
  end.
Definition relays_free (p : option crelays) : M unit :=
  match p with
  | None => mret tt
  | Some c =>
    let! _ := huse (Some (cr_self c)) in
    let! _ := free_entries (cr_array c) (cr_count c) (cr_slots c) in
    let! _ := hfree (Some (cr_array c)) in
    hfree (Some (cr_self c))
  end.
(** src/nip65.c:103-107 *)
Fixpoint known (a n : nat) (sl : list rentry) (url : list N) : M bool :=
  match n, sl with
  | O, _ => mret false
  | S n', x :: r =>
    let! _ := huse (Some a) in
    let! t := read_cell (re_url x) in
    if beq t url then mret true else known a n' r url
  | S _, [] => fun _ => Undef
  end.
(** A store into the array *)
Definition put_entry (sl : list rentry) (i : nat) (x : rentry) : M (list rentry) :=
  fun h => if (i <? length sl)%nat then Ok (firstn i sl ++ x :: skipn (S i) sl, h) else Undef.
(** src/nip65.c:308-317 nostr_relay_list_free_urls *)
Fixpoint free_copies (n : nat) (l : list cell) : M unit :=
  match n, l with
  | O, _ => mret tt
  | S n', x :: r => let! _ := free_cell (Some x) in free_copies n' r
  | S _, [] => fun _ => Undef
  end.
Definition free_urls (p : option (nat * list cell)) (n : nat) : M unit :=
  match p with
  | None => mret tt
  | Some (a, l) => let! _ := huse (Some a) in let! _ := free_copies n l in hfree (Some a)
  end.

Section Mem.
Variable grant : nat -> bool.
(** src/nip65.c:20-42 nostr_relay_list_create *)
Definition relays_create : M (option crelays * option err) :=
  let! s := ealloc grant in
  match s with
  | None => mret (None, Some EMemory)
  | Some s =>
    let! a := ealloc grant in
    match a with
    | None => let! _ := hfree (Some s) in mret (None, Some EMemory)
    | Some a => let! _ := huse (Some s) in mret (Some (mkCr s a (repeat zero_entry 8) 0), None)
    end
  end.
(** src/nip65.c:109-131; the sizes do not wrap *)
Definition relays_grow (c : crelays) : M (crelays * option err) :=
  let cap := length (cr_slots c) in
  if (cap <=? cr_count c)%nat then
    let nc := if (MAX_RELAY_COUNT <? cap * 2)%nat then MAX_RELAY_COUNT else (cap * 2)%nat in
    if (nc <=? cr_count c)%nat then mret (c, Some EMemory)
    else
      let! p := erealloc grant (Some (cr_array c)) in
      match p with
      | None => mret (c, Some EMemory)
      | Some p => mret (mkCr (cr_self c) p (cr_slots c ++ repeat zero_entry (nc - cap)) (cr_count c), None)
      end
  else mret (c, None).
(** src/nip65.c:89-141 nostr_relay_list_add *)
Definition relays_add (c : crelays) (url : arg) (rd wr : bool) : M (crelays * option err) :=
  if negb rd && negb wr then mret (c, Some EInvalidParam)
  else
    let! _ := read_arg url in
    if negb (is_valid_relay_url (snd url)) then mret (c, Some EInvalidParam)
    else
      let! _ := huse (Some (cr_self c)) in
      if (MAX_RELAY_COUNT <=? cr_count c)%nat then mret (c, Some EInvalidParam)
      else
        let! k := known (cr_array c) (cr_count c) (cr_slots c) (snd url) in
        if k : bool then mret (c, Some EInvalidParam)
        else
          let! x := relays_grow c in
          match x with
          | (c, Some e) => mret (c, Some e)
          | (c, None) =>
            let! _ := read_arg url in
            let! p := dup grant (Some (snd url)) in
            let! _ := huse (Some (cr_array c)) in
            match p with
            | None =>
              let! sl := put_entry (cr_slots c) (cr_count c) zero_entry in
              mret (mkCr (cr_self c) (cr_array c) sl (cr_count c), Some EMemory)
            | Some _ =>
              let! sl := put_entry (cr_slots c) (cr_count c) (mkRe p rd wr) in
              mret (mkCr (cr_self c) (cr_array c) sl (S (cr_count c)), None)
            end
          end.
(** src/nip65.c:198-228, the loop; the event's blocks are the caller's *)
Fixpoint relays_read (c : crelays) (ts : list (list (list N))) : M (crelays * option err) :=
  match ts with
  | [] => mret (c, None)
  | t :: r =>
    match t with
    | n :: url :: more =>
      if beq n (bs "r") then
        let wr := match more with m :: _ => negb (beq m (bs "read")) | [] => true end in
        let rd := match more with m :: _ => if beq m (bs "read") then true else negb (beq m (bs "write")) | [] => true end in
        let! x := relays_add c (None, url) rd wr in
        match x with
        | (c, Some EMemory) => mret (c, Some EMemory)
        | (c, _) => relays_read c r
        end
      else relays_read c r
    | _ => relays_read c r
    end
  end.
(** src/nip65.c:183-231 nostr_relay_list_from_event.  [old]: what the variable held *)
Definition relays_from_event (old : option crelays) (e : event) : M (option crelays * option err) :=
  if negb (ev_kind e =? KIND_RELAY_LIST) then mret (old, Some EInvalidEvent)
  else
    let! x := relays_create in
    match x with
    | (Some c, None) =>
      let! y := relays_read c (ev_tags e) in
      match y with
      | (c, Some x) => let! _ := relays_free (Some c) in mret (None, Some x)
      | (c, None) => mret (Some c, None)
      end
    | _ => mret x
    end.
(** src/nip65.c:163-179, the loop over the entries *)
Variable lim : option ev_limits.
Fixpoint add_entries (ev : cevent) (a n : nat) (sl : list rentry) : M (cevent * option err) :=
  match n, sl with
  | O, _ => mret (ev, None)
  | S n', x :: r =>
    let! _ := huse (Some a) in
    let! u := read_cell (re_url x) in
    let! y := EventMem.add_tag grant lim ev (entry_tag (mkEntry u (re_read x) (re_write x))) in
    match y with
    | (ev, None) => add_entries ev a n' r
    | (ev, Some e) => mret (ev, Some e)
    end
  | S _, [] => fun _ => Undef
  end.
(** src/nip65.c:143-181 nostr_relay_list_to_event; [lit]: the block of the literal text *)
Definition relays_to_event (c : crelays) (now : Z) (lit : nat) : M (option cevent * option err) :=
  let! x := event_create grant now in
  match x with
  | (Some ev, None) =>
    let e := ce_val ev in
    let ev := with_val ev (mkEvent (ev_id e) (ev_pubkey e) now KIND_RELAY_LIST (ev_tags e) (ev_content e) (ev_sig e)) in
    let! y := EventMem.set_content grant ev lit [] in
    match y with
    | (ev, Some x) => discard ev x
    | (ev, None) =>
      let! _ := huse (Some (cr_self c)) in
      let! z := add_entries ev (cr_array c) (cr_count c) (cr_slots c) in
      keep z
    end
  | _ => mret x
  end.
(** src/nip65.c:249-294 get_relays_by_flag: what ends up in *urls and, if it is written,
    in *count *)
Fixpoint matching (a : nat) (for_read : bool) (n : nat) (sl : list rentry) : M nat :=
  match n, sl with
  | O, _ => mret O
  | S n', x :: r =>
    let! _ := huse (Some a) in
    let! k := matching a for_read n' r in
    mret (if if for_read then re_read x else re_write x then S k else k)
  | S _, [] => fun _ => Undef
  end.
(** [u]: the new array, of [room] places; the loop ends after [m] addresses *)
Fixpoint copy (u room m a : nat) (for_read : bool) (done : list cell) (n : nat) (sl : list rentry) : M (option (list cell)) :=
  match n, sl with
  | O, _ => mret (Some done)
  | S n', x :: r =>
    if negb (length done <? m)%nat then mret (Some done)
    else
    let! _ := huse (Some a) in
    if if for_read then re_read x else re_write x then
      let! t := read_cell (re_url x) in
      let! p := dup grant (Some t) in
      let! _ := huse (Some u) in
      if negb (length done <? room)%nat then fun _ => Undef
      else
      match p with
      | None => let! _ := free_copies (length done) done in let! _ := hfree (Some u) in mret None
      | Some p => copy u room m a for_read (done ++ [p]) n' r
      end
    else copy u room m a for_read done n' r
  | S _, [] => fun _ => Undef
  end.
Definition relays_by_flag (c : crelays) (for_read : bool) : M ((option (nat * list cell) * option nat) * option err) :=
  let! _ := huse (Some (cr_self c)) in
  let! n := matching (cr_array c) for_read (cr_count c) (cr_slots c) in
  match n with
  | O => mret ((None, Some O), None)
  | _ =>
    let! u := ealloc grant in
    match u with
    | None => mret ((None, None), Some EMemory)
    | Some u =>
      let! l := copy u n n (cr_array c) for_read [] (cr_count c) (cr_slots c) in
      match l with
      | None => mret ((None, None), Some EMemory)
      | Some l => mret ((Some (u, l), Some n), None)
      end
    end
  end.

(** ** A program with one relay list *)
Inductive rop : Set := RNew | RRead (e : event) | RAdd (url : arg) (rd wr : bool) | RQuery (for_read : bool) | RFree.
Definition rstep (v : option crelays) (o : rop) : M (option crelays) :=
  match o, v with
  | RNew, None => let! x := relays_create in mret (fst x)
  | RRead e, None => let! x := relays_from_event None e in mret (fst x)
  | RAdd u rd wr, Some c => let! x := relays_add c u rd wr in mret (Some (fst x))
  | RQuery f, Some c => let! x := relays_by_flag c f in let! _ := match x with ((p, Some n), None) => free_urls p n | _ => mret tt end in mret (Some c)
  | RFree, _ => let! _ := relays_free v in mret None
  | _, _ => mret v
  end.
Fixpoint rrun (v : option crelays) (os : list rop) : M (option crelays) :=
  match os with
  | [] => mret v
  | o :: r => let! v := rstep v o in rrun v r
  end.
End Mem.
