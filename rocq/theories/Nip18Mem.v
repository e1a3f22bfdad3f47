(** Model of src/nip18.c and src/nip25.c when memory may run out.  What the
    functions compute is in Nip18.v; here is what they allocate and release and
    what becomes of the caller's event.  Texts of the caller, and literals, lie in
    blocks that are not the library's. *)
From Verif Require Import Base Heap Dec Event EventMem Nip18 Nip21 Nip21Mem Nip46Mem.
Open Scope N_scope.

Section Mem.
Variable grant : nat -> bool.
Variable lim : option ev_limits.
Notation made := (M (option cevent * option err)).

(** add a tag, or release the event and clear the caller's variable: src/nip18.c:60-64,
    67-71, 77-81 with cleanup_event (30-34); src/nip25.c:57-61, 64-68, 74-78 (28-32) *)
Definition tag_or_quit (c : cevent) (vs : list (list N)) (k : cevent -> made) : made :=
  let! v := EventMem.add_tag grant lim c vs in
  match v with
  | (c, Some x) => abandon c x
  | (c, None) => k c
  end.
(** src/nip18.c:84-102: the address is put together in a block of its own *)
Definition address_tag (c : cevent) (kind : N) (pubkey : list N) (d : list N) : made :=
  let! p := ealloc grant in
  match p with
  | None => abandon c EMemory
  | Some b =>
    let! _ := huse (Some b) in
    let! v := EventMem.add_tag grant lim c [bs "a"; dec_N kind ++ bs ":" ++ pubkey ++ bs ":" ++ d] in
    let! _ := hfree (Some b) in
    match v with
    | (c, Some x) => abandon c x
    | (c, None) => mret (Some c, None)
    end
  end.
(** a new event of a kind with a content: src/nip18.c:47-57, src/nip25.c:44-54 *)
Definition start (now : Z) (kind : N) (src : nat) (content : list N) (k : cevent -> made) : made :=
  let! v := event_create grant now in
  match v with
  | (p, Some x) => mret (p, Some x)
  | (None, None) => fun _ => Undef
  | (Some c, None) =>
    let! v := set_content grant (with_kind c kind) src content in
    match v with
    | (c, Some x) => abandon c x
    | (c, None) => k c
    end
  end.
(** src/nip18.c:36-106 nostr_repost_create; [src]: where the content lies *)
Definition repost_create_m (now : Z) (id pubkey relay : list N) (kind : N) (d : option (list N)) (src : nat) (json : option (list N)) : made :=
  if negb (is_valid_hex_string id 64) || negb (is_valid_hex_string pubkey 64) then mret (None, Some EInvalidParam)
  else
    start now (if kind =? 1 then 6 else 16) src (match json with Some j => j | None => [] end) (fun c =>
    tag_or_quit c [bs "e"; id; relay] (fun c =>
    tag_or_quit c [bs "p"; pubkey] (fun c =>
    let last c := match d with Some d => address_tag c kind pubkey d | None => mret (Some c, None) end in
    if ev_kind (ce_val c) =? 16 then tag_or_quit c [bs "k"; dec_N kind] last else last c))).
(** src/nip25.c:34-82 nostr_reaction_create *)
Definition reaction_create_m (now : Z) (src : nat) (content : option (list N)) (id pubkey : list N) (relay : option (list N)) (kind : N) : made :=
  if negb (is_valid_hex_string id 64) || negb (is_valid_hex_string pubkey 64) then mret (None, Some EInvalidParam)
  else
    start now 7 src (match content with Some c => c | None => bs "+" end) (fun c =>
    tag_or_quit c [bs "e"; id; match relay with Some r => r | None => [] end; pubkey] (fun c =>
    tag_or_quit c ([bs "p"; pubkey] ++ match relay with Some r => [r] | None => [] end) (fun c =>
    if 0 <? kind then tag_or_quit c [bs "k"; dec_N kind] (fun c => mret (Some c, None)) else mret (Some c, None)))).

(** src/nip18.c:204-282: the tag copies the relay's text, then the relays of the
    reference are released (255, 273) *)
Fixpoint quote_loop_m (fuel : nat) (c : cevent) (s : list N) : M (cevent * option err) :=
  match fuel with
  | O => fun _ => Undef
  | S fuel' =>
    let! _ := huse (ce_content c) in
    match find_nostr_uri (S (length s)) s with
    | Ok None => mret (c, None)
    | Ok (Some (pos, len)) =>
      let! p := ealloc grant in
      match p with
      | None => mret (c, Some EMemory)
      | Some b =>
        let! _ := huse (Some b) in
        let! r := uri_parse_m grant (firstn len pos) in
        let! _ := hfree (Some b) in
        match r with
        | (_, inr _) => quote_loop_m fuel' c (skipn 1 pos)
        | (u, inl e) =>
          match quote_tag e with
          | None => quote_loop_m fuel' c (skipn len pos)
          | Some t =>
            let! _ := use_all (firstn 1 (cu_blocks u)) in
            let! v := EventMem.add_tag grant lim c t in
            let! _ := uri_free_m u in
            match v with
            | (c, Some x) => mret (c, Some x)
            | (c, None) => quote_loop_m fuel' c (skipn len pos)
            end
          end
        end
      end
    | Err _ | Undef => fun _ => Undef
    end
  end.
(** src/nip18.c:192-285 nostr_quote_tags_from_content *)
Definition quote_tags_m (c : cevent) : M (cevent * option err) :=
  let! _ := huse (Some (ce_self c)) in
  match ev_content (ce_val c) with
  | None | Some [] => mret (c, None)
  | Some s => quote_loop_m (S (length s)) c s
  end.
End Mem.
