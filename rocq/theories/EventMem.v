(** Memory of src/event.c: which blocks an event owns, and how creating,
    changing, importing and destroying one allocates and releases them.  Tags
    as bytes in the arena are in Arena.v; here the arena is one block with a
    capacity.  realloc takes a new block and releases the old one. *)
From Verif Require Import Base Heap Arena Json Event.
Open Scope N_scope.

(** nostr_event as it lies in memory: its own block, the arena struct and the
    arena's memory, the tag array, the content, and what it says. *)
Record cevent : Set := mkCe {
  ce_self : nat; ce_arena : nat; ce_mem : nat; ce_cap : N; ce_used : N; ce_tags : option nat; ce_content : option nat; ce_val : event }.
Definition with_val (c : cevent) (e : event) : cevent := mkCe (ce_self c) (ce_arena c) (ce_mem c) (ce_cap c) (ce_used c) (ce_tags c) (ce_content c) e.
Definition with_content (c : cevent) (p : option nat) (t : option (list N)) : cevent :=
  let e := ce_val c in
  mkCe (ce_self c) (ce_arena c) (ce_mem c) (ce_cap c) (ce_used c) (ce_tags c) p (mkEvent (ev_id e) (ev_pubkey e) (ev_created e) (ev_kind e) (ev_tags e) t (ev_sig e)).
Definition with_tagblock (c : cevent) (p : option nat) : cevent := mkCe (ce_self c) (ce_arena c) (ce_mem c) (ce_cap c) (ce_used c) p (ce_content c) (ce_val c).
Definition with_mem (c : cevent) (p : nat) (cap : N) : cevent := mkCe (ce_self c) (ce_arena c) p cap (ce_used c) (ce_tags c) (ce_content c) (ce_val c).
Definition with_used (c : cevent) (u : N) : cevent := mkCe (ce_self c) (ce_arena c) (ce_mem c) (ce_cap c) u (ce_tags c) (ce_content c) (ce_val c).
(** one more tag, its pointers and strings taken from the arena *)
Definition with_tag (c : cevent) (vs : list (list N)) (n : N) : cevent :=
  let e := ce_val c in
  mkCe (ce_self c) (ce_arena c) (ce_mem c) (ce_cap c) (ce_used c + n) (ce_tags c) (ce_content c)
    (mkEvent (ev_id e) (ev_pubkey e) (ev_created e) (ev_kind e) (ev_tags e ++ [vs]) (ev_content e) (ev_sig e)).

Section Mem.
(** Which attempts to allocate succeed. *)
Variable grant : nat -> bool.
Definition ealloc : M (option nat) :=
  fun h => if grant (h_next h) then Ok (Some (h_next h), mkHeap (S (h_next h)) (h_next h :: h_live h))
           else Ok (None, mkHeap (S (h_next h)) (h_live h)).
Definition erealloc (old : option nat) : M (option nat) :=
  let! p := ealloc in
  match p with None => mret None | Some q => let! _ := hfree old in mret (Some q) end.

(** src/event.c:45-65 tag_arena_create: on failure the pointer it stored stays
    in the event, which its callers release at once *)
Definition arena_create : M (option (nat * nat)) :=
  let! a := ealloc in
  match a with
  | None => mret None
  | Some a =>
    let! m := ealloc in
    match m with
    | None => let! _ := hfree (Some a) in mret None
    | Some m => mret (Some (a, m))
    end
  end.
Definition blank (now : Z) : event := mkEvent (repeat 0 32) (repeat 0 32) now 0 [] None (repeat 0 64).
(** src/event.c:87-105 nostr_event_create.  First component: the pointer left in
    the caller's variable (a failing arena leaves the released event there). *)
Definition event_create (now : Z) : M (option cevent * option err) :=
  let! s := ealloc in
  match s with
  | None => mret (None, Some EMemory)
  | Some s =>
    let! r := arena_create in
    match r with
    | None => let! _ := hfree (Some s) in mret (Some (mkCe s s s 0 0 None None (blank 0)), Some EMemory)
    | Some (a, m) => let! _ := huse (Some s) in mret (Some (mkCe s a m 1024 0 None None (blank now)), None)
    end
  end.
(** src/event.c:107-117 nostr_event_destroy, 67-74 tag_arena_destroy *)
Definition event_destroy (p : option cevent) : M unit :=
  match p with
  | None => mret tt
  | Some c =>
    let! _ := huse (Some (ce_self c)) in
    let! _ := hfree (ce_content c) in
    let! _ := huse (Some (ce_arena c)) in
    let! _ := hfree (Some (ce_mem c)) in
    let! _ := hfree (Some (ce_arena c)) in
    let! _ := hfree (ce_tags c) in
    hfree (Some (ce_self c))
  end.
(** src/event.c:119-132 nostr_event_set_content; the text lies in block [src] *)
Definition set_content (c : cevent) (src : nat) (t : list N) : M (cevent * option err) :=
  let! _ := huse (Some (ce_self c)) in
  let! _ := hfree (ce_content c) in
  let! _ := huse (Some src) in
  let! p := ealloc in
  match p with
  | None => mret (with_content c None None, Some EMemory)
  | Some q => mret (with_content c (Some q) (Some t), None)
  end.
(** src/event.c:148-159 *)
Definition strings_bytes (vs : list (list N)) : N := fold_right (fun v n => N.of_nat (length v) + 1 + n) 0 vs.
Definition tag_bytes (vs : list (list N)) : N := 8 * N.of_nat (length vs) + strings_bytes vs.
Variable lim : option ev_limits.
(** src/event.c:197-224: the tag array grows, then the arena gives the space *)
Definition place_tag (c : cevent) (vs : list (list N)) : M (cevent * option err) :=
  let! t := erealloc (ce_tags c) in
  match t with
  | None => mret (c, Some EMemory)
  | Some q =>
    let c := with_tagblock c (Some q) in
    if ce_cap c - ce_used c <? 8 * N.of_nat (length vs) then mret (c, Some EMemory)
    else if ce_cap c - ce_used c <? tag_bytes vs then mret (with_used c (ce_used c + 8 * N.of_nat (length vs)), Some EMemory)
    else let! _ := huse (Some (ce_mem c)) in mret (with_tag c vs (tag_bytes vs), None)
  end.
(** src/event.c:134-225 nostr_event_add_tag with non-NULL values.  The
    overflow checks (145-163) amount to one on the total. *)
Definition add_tag (c : cevent) (vs : list (list N)) : M (cevent * option err) :=
  let! _ := huse (Some (ce_self c)) in
  match vs with
  | [] => mret (c, Some EInvalidParam)
  | _ =>
    if match lim with Some l => max_tags l <=? N.of_nat (length (ev_tags (ce_val c))) | None => false end then mret (c, Some EInvalidParam)
    else if SIZE_MAX <? tag_bytes vs then mret (c, Some EInvalidParam)
    else
      let! _ := huse (Some (ce_arena c)) in
      if ce_cap c <? w64 (ce_used c + tag_bytes vs) then
        match grow 65 (ce_cap c) (w64 (ce_used c + tag_bytes vs)) with
        | Ok cap =>
          let! m := erealloc (Some (ce_mem c)) in
          match m with
          | None => mret (c, Some EMemory)
          | Some m => place_tag (with_mem c m cap) vs
          end
        | Err x => mret (c, Some x)
        | Undef => fun _ => Undef
        end
      else place_tag c vs
  end.

(** src/event.c:542-573, the tags of an imported event; false: give up *)
Fixpoint import_tags_m (c : cevent) (l : list json) : M (cevent * bool) :=
  match l with
  | [] => mret (c, true)
  | j :: r =>
    match tag_values j with
    | None => import_tags_m c r
    | Some vs =>
      let! t := ealloc in
      match t with
      | None => mret (c, false)
      | Some t =>
        let! _ := huse (Some t) in
        let! x := add_tag c vs in
        let! _ := hfree (Some t) in
        match x with
        | (c, None) => import_tags_m c r
        | (c, Some _) => mret (c, false)
        end
      end
    end
  end.
Variable parse : list N -> option json.
Definition give_up (c : cevent) (root : nat) (x : err) : M (option cevent * option err) :=
  let! _ := event_destroy (Some c) in
  let! _ := hfree (Some root) in
  mret (Some c, Some x).
(** src/event.c:577-587 *)
Definition import_sig (c : cevent) (root : nat) (j : json) : M (option cevent * option err) :=
  match hex_field 64 (jget (bs "sig") j) with
  | Ok s =>
    let e := ce_val c in
    let! _ := hfree (Some root) in
    mret (Some (with_val c (mkEvent (ev_id e) (ev_pubkey e) (ev_created e) (ev_kind e) (ev_tags e) (ev_content e) s)), None)
  | Err x => give_up c root x
  | Undef => fun _ => Undef
  end.
(** src/event.c:524-575 *)
Definition import_taglist (c : cevent) (root : nat) (j : json) : M (option cevent * option err) :=
  match jget (bs "tags") j with
  | Some (JArr l) =>
    if match lim with Some m => max_tags m <? N.of_nat (length l) | None => false end then give_up c root EInvalidParam
    else match l with
    | [] => import_sig c root j
    | _ =>
      let! t := ealloc in
      match t with
      | None => give_up c root EMemory
      | Some t =>
        let! x := import_tags_m (with_tagblock c (Some t)) l in
        match x with
        | (c, true) => import_sig c root j
        | (c, false) => give_up c root EMemory
        end
      end
    end
  | _ => import_sig c root j
  end.
(** src/event.c:508-522 *)
Definition import_content (c : cevent) (root : nat) (j : json) : M (option cevent * option err) :=
  match jget (bs "content") j with
  | Some (JStr s) =>
    if match lim with Some l => max_content l <? N.of_nat (length s) | None => false end then give_up c root EInvalidParam
    else
      let! p := ealloc in
      match p with
      | None => give_up c root EMemory
      | Some p => import_taglist (with_content c (Some p) (Some s)) root j
      end
  | _ => import_taglist c root j
  end.
(** src/event.c:456-591 nostr_event_from_json; [old] is what the caller's
    variable holds, the parsed tree is one block *)
Definition from_json (old : option cevent) (text : list N) : M (option cevent * option err) :=
  match parse text with
  | None => mret (old, Some EJsonParse)
  | Some j =>
    let! root := ealloc in
    match root with
    | None => mret (old, Some EJsonParse)
    | Some root =>
      let! s := ealloc in
      match s with
      | None => let! _ := hfree (Some root) in mret (None, Some EMemory)
      | Some s =>
        let! r := arena_create in
        match r with
        | None =>
          let! _ := hfree (Some s) in
          let! _ := hfree (Some root) in
          mret (Some (mkCe s s s 0 0 None None (blank 0)), Some EMemory)
        | Some (a, m) =>
          let c e := mkCe s a m 1024 0 None None e in
          let! _ := huse (Some s) in
          match hex_field 32 (jget (bs "id") j) with
          | Ok id =>
            match hex_field 32 (jget (bs "pubkey") j) with
            | Ok pk =>
              match match jget (bs "created_at") j with Some (JNum n) => j_int64 n | _ => Ok 0%Z end with
              | Ok t =>
                import_content (c (mkEvent id pk t (match jget (bs "kind") j with Some (JNum n) => Z.to_N (j_int32 n mod 65536) | _ => 0 end) [] None (repeat 0 64))) root j
              | _ => fun _ => Undef
              end
            | Err x => give_up (c (blank 0)) root x
            | Undef => fun _ => Undef
            end
          | Err x => give_up (c (blank 0)) root x
          | Undef => fun _ => Undef
          end
        end
      end
    end
  end.

(** ** A program with one event variable.  [careful]: the program treats the
    variable as empty after a failing call, as it must; otherwise it keeps
    what the call left there. *)
Inductive op : Set := New (now : Z) | Import (text : list N) | Content (src : nat) (t : list N) | Tag (vs : list (list N)) | Destroy.
Variable careful : bool.
Definition left_by (x : option cevent * option err) : option cevent :=
  match x with (p, None) => p | (p, Some _) => if careful then None else p end.
Definition step (v : option cevent) (o : op) : M (option cevent) :=
  match o, v with
  | New now, None => let! x := event_create now in mret (left_by x)
  | Import t, None => let! x := from_json None t in mret (left_by x)
  | Content src t, Some c => let! x := set_content c src t in mret (Some (fst x))
  | Tag vs, Some c => let! x := add_tag c vs in mret (Some (fst x))
  | Destroy, _ => let! _ := event_destroy v in mret None
  | _, _ => mret v
  end.
Fixpoint run (v : option cevent) (os : list op) : M (option cevent) :=
  match os with
  | [] => mret v
  | o :: r => let! v' := step v o in run v' r
  end.
End Mem.
