(** Model of src/nip10.c when memory may run out.  What the functions look for is in
    Nip10.v. *)
From Verif Require Import Base Heap Event EventMem Nip10 Nip21Mem.
Open Scope N_scope.

(** src/nip10.c:59-64 *)
Definition is_e (t : list (list N)) : bool := match t with n :: _ :: _ => beq n (bs "e") | _ => false end.
Definition e_count (ts : list (list (list N))) : nat := length (filter is_e ts).

Section Mem.
Variable grant : nat -> bool.
Variable lim : option ev_limits.

(** src/nip10.c:80-84: fill the array of [n] entries *)
Fixpoint fill_e_tags (n : nat) (ts : list (list (list N))) : res (list e_tag_info) :=
  match ts, n with
  | t :: r, S m =>
    do i <- parse_e_tag t;
    match i with
    | Some x => do l <- fill_e_tags m r; Ok (x :: l)
    | None => fill_e_tags n r
    end
  | _, _ => Ok []
  end.
(** src/nip10.c:105-145 find_e_tag_by_marker with collect_e_tags (51-92): the array
    lives until the answer is copied *)
Definition find_e_tag_m (ts : list (list (list N))) (marker : list N) (last : bool) (id_size relay_size : N) : M (ans (list N * list N)) :=
  if id_size <? 65 then mret (inr EInvalidParam)
  else if (e_count ts =? 0)%nat then mret (inr ENotFound)
  else
    let! p := ealloc grant in
    match p with
    | None => mret (inr EMemory)
    | Some b =>
      let! _ := huse (Some b) in
      let! l := lift (fill_e_tags (e_count ts) ts) in
      match l with
      | inr _ => fun _ => Undef
      | inl [] => let! _ := hfree (Some b) in mret (inr ENotFound)
      | inl (first :: more) =>
        let! _ := huse (Some b) in
        let r := match find (fun i => beq (et_marker i) marker) (first :: more) with
                 | Some i => copy_id_and_relay i id_size relay_size
                 | None => if negb last then copy_id_and_relay first id_size relay_size
                           else copy_id_and_relay (List.last more first) id_size relay_size
                 end in
        let! _ := hfree (Some b) in
        mret (inl r)
      end
    end.
(** src/nip10.c:147-157 *)
Definition get_root_id_m (e : event) := find_e_tag_m (ev_tags e) (bs "root") false.
Definition get_reply_id_m (e : event) := find_e_tag_m (ev_tags e) (bs "reply") true.
(** src/nip10.c:209-222 nostr_event_is_reply *)
Definition is_reply_m (e : event) : M bool :=
  let! r := get_reply_id_m e 65 0 in
  mret match r with inl (_ :: _, _) => true | _ => false end.

(** src/nip10.c:175-197 nostr_event_add_reply_tags *)
Definition add_reply_tags_m (c : cevent) (root root_relay root_pubkey reply reply_relay reply_pubkey : option (list N)) : M (cevent * option err) :=
  match root, reply with
  | None, None => mret (c, Some EInvalidParam)
  | _, _ =>
    let! v := match root with Some id => EventMem.add_tag grant lim c (e_tag id root_relay (bs "root") root_pubkey) | None => mret (c, None) end in
    match v with
    | (c, Some x) => mret (c, Some x)
    | (c, None) =>
      match reply with
      | None => mret (c, None)
      | Some id => EventMem.add_tag grant lim c (e_tag id reply_relay (bs "reply") reply_pubkey)
      end
    end
  end.
(** src/nip10.c:199-207 nostr_event_add_mention_tag *)
Definition add_mention_tag_m (c : cevent) (pubkey : list N) (hint : option (list N)) : M (cevent * option err) :=
  EventMem.add_tag grant lim c ([bs "p"; pubkey] ++ match hint with Some h => [h] | None => [] end).
End Mem.
