(** Model of src/relay_protocol.c: validation, kinds, tag access, expiry,
    replaceable precedence, deletion requests, hex helpers. *)
From Verif Require Import Base Dec Hex Strto Event Nip05.
Open Scope N_scope.

(** include/nostr_relay_protocol.h, nostr_relay_error_t *)
Inductive rerr : Set :=
| RInvalidJson | RMissingField | RInvalidId | RInvalidPubkey | RInvalidSig | RInvalidCreatedAt | RInvalidKind
| RInvalidTags | RInvalidContent | RIdMismatch | RSigMismatch | RFutureEvent | RExpiredEvent
| RInvalidSubId | RTooManyFilters | RBufferTooSmall | RMemory | RUnknownMessageType.
Inductive rres (A : Type) : Type := ROk (a : A) | RErr (e : rerr) | RUndef.
Arguments ROk {A} a.
Arguments RErr {A} e.
Arguments RUndef {A}.
Definition rbind {A B} (r : rres A) (f : A -> rres B) : rres B :=
  match r with ROk a => f a | RErr e => RErr e | RUndef => RUndef end.
Notation "'rdo' x <- e ; k" := (rbind e (fun x => k))
  (at level 200, x pattern, e at level 100, k at level 200).

(** src/relay_protocol.c:69, 85: the accepted hex characters *)
Definition lower_hex_char (c : N) : bool := ((48 <=? c) && (c <=? 57)) || ((97 <=? c) && (c <=? 102)).
(** src/relay_protocol.c:60-74 nostr_validate_hex64 *)
Definition validate_hex64 (s : list N) : bool := (length s =? 64)%nat && forallb lower_hex_char s.
(** src/relay_protocol.c:76-90 nostr_validate_hex_prefix *)
Definition validate_hex_prefix (s : list N) : bool :=
  negb (length s =? 0)%nat && (length s <=? 64)%nat && forallb lower_hex_char s.
(** src/relay_protocol.c:92-106 nostr_validate_subscription_id *)
Definition validate_subscription_id (s : list N) : bool :=
  negb (length s =? 0)%nat && (length s <=? 64)%nat && forallb (fun c => (32 <=? c) && (c <=? 126)) s.
(** src/relay_protocol.c:108-112 nostr_validate_timestamp; [now] is time(NULL).
    The 64-bit addition may overflow. *)
Definition validate_timestamp (now t max_future : Z) : rres bool :=
  let limit := (now + max_future)%Z in
  if (limit <? - 2 ^ 63)%Z || (2 ^ 63 <=? limit)%Z then RUndef else ROk (t <=? limit)%Z.
(** src/relay_protocol.c:114-150 nostr_validate_address *)
Definition validate_address (s : list N) : bool :=
  match split_char 58 s with
  | None => false
  | Some (kind, rest) =>
    match kind with
    | [] => false
    | _ =>
      forallb (fun c => (48 <=? c) && (c <=? 57)) kind &&
      match split_char 58 rest with
      | None => false
      | Some (pk, _) => (length pk =? 64)%nat && forallb lower_hex_char pk
      end
    end
  end.

(** include/nostr_relay_protocol.h, nostr_kind_type_t; src/relay_protocol.c:157-189 *)
Inductive kind_type : Set := KRegular | KReplaceable | KEphemeral | KAddressable.
Definition kind_get_type (kind : Z) : kind_type :=
  if (20000 <=? kind)%Z && (kind <? 30000)%Z then KEphemeral
  else if (30000 <=? kind)%Z && (kind <? 40000)%Z then KAddressable
  else if (kind =? 0)%Z || (kind =? 3)%Z || ((10000 <=? kind)%Z && (kind <? 20000)%Z) then KReplaceable
  else KRegular.
Definition kind_is_regular (k : Z) : bool := match kind_get_type k with KRegular => true | _ => false end.
Definition kind_is_replaceable (k : Z) : bool := match kind_get_type k with KReplaceable => true | _ => false end.
Definition kind_is_ephemeral (k : Z) : bool := match kind_get_type k with KEphemeral => true | _ => false end.
Definition kind_is_addressable (k : Z) : bool := match kind_get_type k with KAddressable => true | _ => false end.

(** src/relay_protocol.c:191-205 nostr_event_get_tag_value.  A NULL value in a
    tag is not modelled (tags are lists of strings). *)
Fixpoint tag_value (ts : list (list (list N))) (name : list N) : option (list N) :=
  match ts with
  | [] => None
  | t :: r =>
    match t with
    | n :: v :: _ => if beq n name then Some v else tag_value r name
    | _ => tag_value r name
    end
  end.
(** src/relay_protocol.c:212-227 nostr_event_get_tag_values *)
Fixpoint tag_values_max (ts : list (list (list N))) (name : list N) (max : nat) : list (list N) :=
  match ts with
  | [] => []
  | t :: r =>
    match max with
    | O => []
    | Datatypes.S max' =>
      match t with
      | n :: v :: _ => if beq n name then v :: tag_values_max r name max' else tag_values_max r name max
      | _ => tag_values_max r name max
      end
    end
  end.
(** src/relay_protocol.c:229-243 nostr_event_has_tag; 809-823 nostr_event_find_tag *)
Fixpoint find_tag (ts : list (list (list N))) (name : list N) : option (list (list N)) :=
  match ts with
  | [] => None
  | t :: r =>
    match t with
    | n :: _ => if beq n name then Some t else find_tag r name
    | [] => find_tag r name
    end
  end.
Definition has_tag (ts : list (list (list N))) (name : list N) : bool :=
  match find_tag ts name with Some _ => true | None => false end.

(** src/relay_protocol.c:258-271 nostr_event_get_expiration *)
Definition get_expiration (e : event) : Z :=
  match tag_value (ev_tags e) (bs "expiration") with
  | None => 0%Z
  | Some s =>
    let '(v, rest) := strtoll s in
    match rest with
    | [] => if (v <? 0)%Z then 0%Z else v
    | _ => 0%Z
    end
  end.
(** src/relay_protocol.c:273-280 nostr_event_is_expired *)
Definition is_expired (e : event) (now : Z) : bool :=
  let x := get_expiration e in
  if (x =? 0)%Z then false else (x <? now)%Z.

(** memcmp of 32 bytes, src/relay_protocol.c:426-429: negative, zero, positive *)
Fixpoint memcmp (n : nat) (a b : list N) : Z :=
  match n with
  | O => 0%Z
  | Datatypes.S n' =>
    match a, b with
    | x :: a', y :: b' => if x =? y then memcmp n' a' b' else if x <? y then (-1)%Z else 1%Z
    | _, _ => 0%Z
    end
  end.
(** src/relay_protocol.c:431-447 nostr_event_compare_replaceable and
    nostr_event_compare_addressable *)
Definition compare_replaceable (a b : event) : Z :=
  if (ev_created a <? ev_created b)%Z then (-1)%Z
  else if (ev_created b <? ev_created a)%Z then 1%Z
  else
    let c := memcmp 32 (ev_id a) (ev_id b) in
    if (c <? 0)%Z then 1%Z else if (0 <? c)%Z then (-1)%Z else 0%Z.

Section Validate.
Variable ser : event -> list N.
Variable sha256 : list N -> list N.
Variable schnorr_verify : list N -> list N -> list N -> bool.
Variable pubkey_parses : list N -> bool.
(** src/relay_protocol.c:449-509 nostr_event_validate_full; [now] is the clock
    at the timestamp test, [now2] at the expiry test.  The message and field
    texts of the result are not modelled. *)
Definition validate_full (parse : bool) (e : event) (max_future now now2 : Z) : rres unit :=
  rdo ok <- validate_timestamp now (ev_created e) max_future;
  if negb ok then RErr RFutureEvent
  else if is_expired e now2 then RErr RExpiredEvent
  else if negb (beq (ev_id e) (ev_id (compute_id ser sha256 e))) then RErr RIdMismatch
  else match event_verify ser sha256 schnorr_verify pubkey_parses parse e with
       | Ok _ => ROk tt
       | Err _ => RErr RSigMismatch
       | Undef => RUndef
       end.
End Validate.

(** src/relay_protocol.c:313-394, the end of both serializers: the text is copied
    with its terminator into [buf], whose real size is [cap] and declared size is
    [buf_size]; result: status, *out_len, and the buffer's new contents *)
Definition put_text (text : list N) (buf : list N) (buf_size : N) : res (option rerr * N * list N) :=
  let len := N.of_nat (length text) in
  if buf_size <=? len then Ok (Some RBufferTooSmall, len, buf)
  else if (length buf <? length text + 1)%nat then Undef
  else Ok (None, len, text ++ [0] ++ skipn (length text + 1) buf).
Definition serialize_into (text : list N) (buf : list N) (buf_size : N) : res (option rerr * N * list N) :=
  if buf_size =? 0 then Ok (Some RInvalidJson, 0, buf) else put_text text buf buf_size.

(** ** Deletion requests *)
(** include/nostr_relay_protocol.h, nostr_deletion_request_t *)
Record deletion : Set := mkDeletion {
  d_pubkey : list N; d_reason : option (list N); d_ids : list (list N); d_addresses : list (list N) }.
(** src/relay_protocol.c:588-609, the second loop.  The arrays were sized by the
    first loop (562-571); see RelayMem.v for the bounds. *)
Fixpoint deletion_refs (ts : list (list (list N))) : list (list N) * list (list N) :=
  match ts with
  | [] => ([], [])
  | t :: r =>
    let '(es, xs) := deletion_refs r in
    match t with
    | n :: v :: _ =>
      if beq n (bs "e") then (if validate_hex64 v then v :: es else es, xs)
      else if beq n (bs "a") then (es, if validate_address v then v :: xs else xs)
      else (es, xs)
    | _ => (es, xs)
    end
  end.
(** src/relay_protocol.c:534-613 nostr_deletion_parse, allocation succeeding *)
Definition deletion_parse (e : event) : rres deletion :=
  if negb (ev_kind e =? 5) then RErr RInvalidKind
  else
    let '(es, xs) := deletion_refs (ev_tags e) in
    ROk (mkDeletion (hex_encode (ev_pubkey e))
           (match ev_content e with Some (c :: r) => Some (c :: r) | _ => None end) es xs).
(** src/relay_protocol.c:615-638 nostr_deletion_authorized *)
Definition deletion_authorized (d : deletion) (target : event) : bool :=
  if negb (beq (d_pubkey d) (hex_encode (ev_pubkey target))) then false
  else existsb (fun i => beq i (hex_encode (ev_id target))) (d_ids d).
(** src/relay_protocol.c:640-676 nostr_deletion_authorized_address: the address
    is built in a 256-byte buffer *)
Definition deletion_authorized_address (d : deletion) (target : event) : bool :=
  if negb (kind_is_addressable (Z.of_N (ev_kind target))) then false
  else if negb (beq (d_pubkey d) (hex_encode (ev_pubkey target))) then false
  else
    let dtag := match tag_value (ev_tags target) (bs "d") with Some v => v | None => [] end in
    let address := dec_N (ev_kind target) ++ bs ":" ++ hex_encode (ev_pubkey target) ++ bs ":" ++ dtag in
    if (256 <=? length address)%nat then false
    else existsb (fun a => beq a address) (d_addresses d).

(** ** Tag iteration *)
(** src/relay_protocol.c:678-731: the iterator is an index into the event's
    tags; one step gives the tag's name and remaining values, or [None] (false)
    at the end and at an empty tag, in both cases having advanced past it. *)
Definition iter_next (ts : list (list (list N))) (i : nat) : option (list (list N)) * nat :=
  match nth_error ts i with Some t => (Some t, Datatypes.S i) | None => (None, i) end.
Definition iter_next_info (ts : list (list (list N))) (i : nat) : option (list N * list (list N)) * nat :=
  let '(t, i') := iter_next ts i in
  match t with
  | Some (n :: vs) => (Some (n, vs), i')
  | _ => (None, i')
  end.
(** while (nostr_tag_iterator_next_info(&it, &tag)) ..., at most [fuel] rounds *)
Fixpoint iter_all (fuel : nat) (ts : list (list (list N))) (i : nat) : list (list N * list (list N)) :=
  match fuel with
  | O => []
  | Datatypes.S fuel' =>
    match iter_next_info ts i with
    | (Some x, i') => x :: iter_all fuel' ts i'
    | (None, _) => []
    end
  end.
(** src/relay_protocol.c:733-741 nostr_tag_is_indexable *)
Definition tag_is_indexable (name : list N) : bool :=
  match name with
  | [c] => ((97 <=? c) && (c <=? 122)) || ((65 <=? c) && (c <=? 90))
  | _ => false
  end.

(** src/relay_protocol.c:848-938 nostr_event_get_e_tags_binary and
    nostr_event_get_p_tags_binary: the first loop (856-863) counts; the second
    (876-887) stores 32 bytes at result[idx], out of bounds when the count was
    too small. *)
Definition binary_tag (name : list N) (t : list (list N)) : option (list N) :=
  match t with
  | n :: v :: _ => if beq n name && validate_hex64 v then Some v else None
  | _ => None
  end.
Fixpoint count_binary (name : list N) (ts : list (list (list N))) : nat :=
  match ts with
  | [] => O
  | t :: r => match binary_tag name t with Some _ => Datatypes.S (count_binary name r) | None => count_binary name r end
  end.
Fixpoint fill_binary (name : list N) (ts : list (list (list N))) (count idx : nat) : res (list (list N)) :=
  match ts with
  | [] => Ok []
  | t :: r =>
    if (count <=? idx)%nat then Ok []
    else
      match binary_tag name t with
      | Some v =>
        (* 831-846 hex_string_to_bytes; sscanf %2x into unsigned int, cast to uint8_t *)
        match (if (length v =? 64)%nat then scan_bytes 32 v else None) with
        | Some b => if (idx <? count)%nat then do l <- fill_binary name r count (Datatypes.S idx); Ok (b :: l) else Undef
        | None => fill_binary name r count idx
        end
      | None => fill_binary name r count idx
      end
  end.
(** [ok] is the outcome of malloc; [None] is a NULL result with count 0 *)
Definition tags_binary (name : list N) (e : event) (ok : bool) : res (option (list (list N))) :=
  let n := count_binary name (ev_tags e) in
  if (n =? 0)%nat || negb ok then Ok None
  else do l <- fill_binary name (ev_tags e) n 0; Ok (Some l).

(** src/relay_protocol.c:940-975 nostr_hex_to_bytes: [hex] is the readable
    memory, [hex_len] the declared length, [out] the real output buffer and
    [out_size] its declared size.  Result: status and final buffer (a failure
    leaves the bytes converted so far). *)
Fixpoint hex_to_bytes_loop (n i : nat) (hex out : list N) : res (option rerr * list N) :=
  match n with
  | O => Ok (None, out)
  | Datatypes.S n' =>
    match nth_error hex (2 * i), nth_error hex (2 * i + 1) with
    | Some c1, Some c2 =>
      match hex_nibble c1, hex_nibble c2 with
      | Some a, Some b =>
        if (i <? length out)%nat
        then hex_to_bytes_loop n' (Datatypes.S i) hex (firstn i out ++ [N.lor (N.shiftl a 4) b] ++ skipn (Datatypes.S i) out)
        else Undef
      | _, _ => Ok (Some RInvalidId, out)
      end
    | _, _ => Undef
    end
  end.
Definition relay_hex_to_bytes (hex : list N) (hex_len : nat) (out : list N) (out_size : nat) : res (option rerr * list N) :=
  if negb (hex_len mod 2 =? 0)%nat then Ok (Some RInvalidId, out)
  else if (out_size <? hex_len / 2)%nat then Ok (Some RBufferTooSmall, out)
  else hex_to_bytes_loop (hex_len / 2) 0 hex out.
(** src/relay_protocol.c:977-987 nostr_bytes_to_hex: the text before the NUL *)
Definition relay_bytes_to_hex (bytes : list N) : list N :=
  flat_map (fun b => [nth (N.to_nat (N.land (N.shiftr b 4) 15)) (bs "0123456789abcdef") 0;
                      nth (N.to_nat (N.land b 15)) (bs "0123456789abcdef") 0]) bytes.
