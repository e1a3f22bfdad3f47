(** Model of src/nip18.c (reposts, quote tags) and src/nip25.c (reactions).
    Tag values are strings; allocation succeeds. *)
From Verif Require Import Base Dec Hex Nip26 Nip21 Event GiftWrap.
Open Scope N_scope.

(** src/nip18.c:16-28 and src/nip25.c:14-26 is_valid_hex_string *)
Definition is_valid_hex_string (s : list N) (n : nat) : bool :=
  (length s =? n)%nat && forallb (fun c => match hex_nibble c with Some _ => true | None => false end) s.
(** src/event.c:87-105 nostr_event_create, 119-132 nostr_event_set_content and
    the assignment to the kind field *)
Definition fresh (now : Z) (kind : N) (content : list N) : event :=
  mkEvent (repeat 0 32) (repeat 0 32) now kind [] (Some content) (repeat 0 64).

(** src/nip18.c:108-118, src/nip25.c:84-94 copy_str_safe into a buffer of [size]
    bytes: what the buffer then holds as a string ([None]: nothing written).
    strncpy fills [n] bytes, the NUL goes to place [n]. *)
Definition copy_str_safe (size : N) (src : option (list N)) : res (option (list N)) :=
  if size =? 0 then Ok None
  else match src with
       | None => Ok (Some [])
       | Some s => let n := size - 1 in if size <=? n then Undef else Ok (Some (firstn (N.to_nat n) s))
       end.
(** src/nip18.c:151-155: strtoul of a whole value without error *)
Definition whole_number (v : list N) : option N :=
  match strtoul_checked v with Some (k, []) => Some k | _ => None end.

Section Limits.
Variable lim : option ev_limits.

(** src/nip18.c:36-106 nostr_repost_create *)
Definition repost_create (now : Z) (id pubkey relay : list N) (kind : N) (d json : option (list N)) : res event :=
  if negb (is_valid_hex_string id 64) || negb (is_valid_hex_string pubkey 64) then Err EInvalidParam
  else
    let e0 := fresh now (if kind =? 1 then 6 else 16) (match json with Some j => j | None => [] end) in
    do e1 <- add_tag lim e0 [bs "e"; id; relay];
    do e2 <- add_tag lim e1 [bs "p"; pubkey];
    do e3 <- (if ev_kind e2 =? 16 then add_tag lim e2 [bs "k"; dec_N kind] else Ok e2);
    match d with
    | Some d => add_tag lim e3 [bs "a"; dec_N kind ++ bs ":" ++ pubkey ++ bs ":" ++ d]
    | None => Ok e3
    end.

(** src/nip18.c:131-134: the variables of the loop *)
Record found18 : Set := mkFound { f_e : option (list N); f_relay : option (list N); f_p : option (list N); f_kind : N }.
(** src/nip18.c:136-157, one tag *)
Definition repost_step (f : found18) (t : list (list N)) : found18 :=
  match t with
  | name :: value :: r =>
    if beq name (bs "e") then
      mkFound (Some value) (match r with x :: _ => Some x | [] => f_relay f end) (f_p f) (f_kind f)
    else if beq name (bs "p") then mkFound (f_e f) (f_relay f) (Some value) (f_kind f)
    else if beq name (bs "k") then
      match whole_number value with
      | Some k => if k <=? 65535 then mkFound (f_e f) (f_relay f) (f_p f) k else f
      | None => f
      end
    else f
  | _ => f
  end.
(** What the caller's buffers hold after a call *)
Record repost_out : Set := mkRepost { ro_id : option (list N); ro_pubkey : option (list N); ro_relay : option (list N); ro_kind : N }.
(** src/nip18.c:120-166 nostr_repost_parse, with the buffer sizes (0: none) *)
Definition repost_parse (e : event) (id_size pubkey_size relay_size : N) : res (repost_out * res unit) :=
  if negb (ev_kind e =? 6) && negb (ev_kind e =? 16) then Err EInvalidEvent
  else
    let f := fold_left repost_step (ev_tags e) (mkFound None None None (if ev_kind e =? 6 then 1 else 0)) in
    do i <- copy_str_safe id_size (f_e f);
    do p <- copy_str_safe pubkey_size (f_p f);
    do r <- copy_str_safe relay_size (f_relay f);
    Ok (mkRepost i p r (f_kind f), match f_e f with Some _ => Ok tt | None => Err ENotFound end).

(** src/nip25.c:34-82 nostr_reaction_create *)
Definition reaction_create (now : Z) (content : option (list N)) (id pubkey : list N) (relay : option (list N)) (kind : N) : res event :=
  if negb (is_valid_hex_string id 64) || negb (is_valid_hex_string pubkey 64) then Err EInvalidParam
  else
    let e0 := fresh now 7 (match content with Some c => c | None => bs "+" end) in
    do e1 <- add_tag lim e0 [bs "e"; id; match relay with Some r => r | None => [] end; pubkey];
    do e2 <- add_tag lim e1 ([bs "p"; pubkey] ++ match relay with Some r => [r] | None => [] end);
    if 0 <? kind then add_tag lim e2 [bs "k"; dec_N kind] else Ok e2.

(** src/nip25.c:120-140, one tag; the kind is kept whether or not it is asked for *)
Definition reaction_step (f : found18) (t : list (list N)) : found18 :=
  match t with
  | name :: value :: _ =>
    if beq name (bs "e") then mkFound (Some value) (f_relay f) (f_p f) (f_kind f)
    else if beq name (bs "p") then mkFound (f_e f) (f_relay f) (Some value) (f_kind f)
    else if beq name (bs "k") then
      match whole_number value with
      | Some k => mkFound (f_e f) (f_relay f) (f_p f) (if 65535 <? k then 65535 else k)
      | None => f
      end
    else f
  | _ => f
  end.
Record reaction_out : Set := mkReaction { xo_content : option (list N); xo_id : option (list N); xo_pubkey : option (list N); xo_kind : N }.
(** src/nip25.c:96-146 nostr_reaction_parse *)
Definition reaction_parse (e : event) (content_size id_size pubkey_size : N) : res (reaction_out * res unit) :=
  if negb (ev_kind e =? 7) then Err EInvalidEvent
  else
    do c <- copy_str_safe content_size (ev_content e);
    let f := fold_left reaction_step (ev_tags e) (mkFound None None None 0) in
    do i <- copy_str_safe id_size (f_e f);
    do p <- copy_str_safe pubkey_size (f_p f);
    Ok (mkReaction c i p (f_kind f), match f_e f with Some _ => Ok tt | None => Err ENotFound end).
(** src/nip25.c:148-159 nostr_reaction_is_like *)
Definition is_like (e : event) : res bool :=
  if negb (ev_kind e =? 7) then Err EInvalidEvent
  else Ok (match ev_content e with None => true | Some c => beq c [] || beq c (bs "+") end).
(** src/nip25.c:161-171 nostr_reaction_is_dislike *)
Definition is_dislike (e : event) : res bool :=
  if negb (ev_kind e =? 7) then Err EInvalidEvent
  else Ok (match ev_content e with None => false | Some c => beq c (bs "-") end).

(** src/nip18.c:168-171 is_bech32_char *)
Definition is_bech32_char (c : N) : bool := ((97 <=? c) && (c <=? 122)) || ((48 <=? c) && (c <=? 57)).
(** src/nip18.c:181-183: the run of such characters *)
Fixpoint run_length (s : list N) : nat :=
  match s with
  | c :: r => if is_bech32_char c then S (run_length r) else O
  | [] => O
  end.
(** strstr: the suffix where the needle starts *)
Fixpoint strstr (needle s : list N) : option (list N) :=
  if prefixb needle s then Some s
  else match s with [] => None | _ :: r => strstr needle r end.
(** src/nip18.c:173-190 find_nostr_uri: the suffix at pos, and uri_len; running
    out of [fuel] counts as non-termination *)
Fixpoint find_nostr_uri (fuel : nat) (s : list N) : res (option (list N * nat)) :=
  match fuel with
  | O => Undef
  | S fuel' =>
    match strstr (bs "nostr:") s with
    | None => Ok None
    | Some pos =>
      let start := skipn 6 pos in
      if prefixb (bs "note1") start || prefixb (bs "nevent1") start || prefixb (bs "naddr1") start
      then Ok (Some (pos, (6 + run_length start)%nat))
      else find_nostr_uri fuel' (skipn 6 pos)
    end
  end.
(** src/nip18.c:225-276: the q tag; an address is printed into 512 bytes and the
    identifier is a C string *)
Definition quote_tag (p : entity) : option (list (list N)) :=
  match p with
  | Note id => Some [bs "q"; hex_encode id; []; []]
  | Nevent id rs au _ =>
    Some [bs "q"; hex_encode id; match rs with r :: _ => r | [] => [] end; match au with Some a => hex_encode a | None => [] end]
  | Naddr i pk k rs =>
    Some [bs "q"; firstn 511 (dec_N k ++ bs ":" ++ hex_encode pk ++ bs ":" ++ until_nul i); match rs with r :: _ => r | [] => [] end; []]
  | _ => None
  end.
(** src/nip18.c:204-282, the loop from pos *)
Fixpoint quote_loop (fuel : nat) (e : event) (s : list N) : res (event * res unit) :=
  match fuel with
  | O => Undef
  | S fuel' =>
    do f <- find_nostr_uri (S (length s)) s;
    match f with
    | None => Ok (e, Ok tt)
    | Some (pos, len) =>
      match uri_parse (firstn len pos) with
      | Undef => Undef
      | Err _ => quote_loop fuel' e (skipn 1 pos)
      | Ok p =>
        match quote_tag p with
        | None => quote_loop fuel' e (skipn len pos)
        | Some t =>
          match add_tag lim e t with
          | Ok e' => quote_loop fuel' e' (skipn len pos)
          | Err er => Ok (e, Err er)
          | Undef => Undef
          end
        end
      end
    end
  end.
(** src/nip18.c:192-285 nostr_quote_tags_from_content: the event afterwards and
    the result *)
Definition quote_tags (e : event) : res (event * res unit) :=
  match ev_content e with
  | None | Some [] => Ok (e, Ok tt)
  | Some c => quote_loop (S (length c)) e c
  end.
End Limits.
