(** Model of src/event.c. *)
From Verif Require Import Base Dec Json Hex.
Open Scope N_scope.

(** include/nostr.h:165-175 nostr_event.  Tags are lists of C strings; the
    arena that stores them is modelled separately in Arena.v. *)
Record event : Set := mkEvent {
  ev_id : list N; ev_pubkey : list N; ev_created : Z; ev_kind : N;
  ev_tags : list (list (list N)); ev_content : option (list N); ev_sig : list N }.

Definition content_of (e : event) : list N :=
  match ev_content e with Some c => c | None => [] end.

(** src/event.c:241-273, one character of escape_json_string.  cJSON's string
    printer uses the same table. *)
Definition escape_char (c : N) : list N :=
  if c =? 34 then [92; 34]
  else if c =? 92 then [92; 92]
  else if c =? 10 then [92; 110]
  else if c =? 13 then [92; 114]
  else if c =? 9 then [92; 116]
  else if c =? 8 then [92; 98]
  else if c =? 12 then [92; 102]
  else if c <? 32 then [92; 117; 48; 48] ++ hex_byte c
  else [c].
(** src/event.c:228-280 escape_json_string (allocation assumed to succeed) *)
Definition escape_json (s : list N) : list N := flat_map escape_char s.
Definition quote (s : list N) : list N := [34] ++ escape_json s ++ [34].

Fixpoint join_comma (l : list (list N)) : list N :=
  match l with
  | [] => []
  | [x] => x
  | x :: r => x ++ [44] ++ join_comma r
  end.

Definition ser_tag (vs : list (list N)) : list N := [91] ++ join_comma (map quote vs) ++ [93].

(** src/event.c:283-364 serialize_for_id, as text; [num] prints created_at. *)
Definition serialize_with (num : Z -> list N) (e : event) : list N :=
  [91; 48; 44; 34] ++ hex_encode (ev_pubkey e) ++ [34; 44] ++
  num (ev_created e) ++ [44] ++ dec_N (ev_kind e) ++ [44; 91] ++
  join_comma (map ser_tag (ev_tags e)) ++ [93; 44] ++ quote (content_of e) ++ [93].

(** The build without cJSON (src/event.c:317-362): PRId64. *)
Definition serialize_own (e : event) : list N := serialize_with dec_Z e.
(** The cJSON build (src/event.c:285-316): created_at goes through a double;
    [fmt] is cJSON's text for an integral double. *)
Definition serialize_cjson (fmt : Z -> list N) (e : event) : list N :=
  serialize_with (fun z => fmt (round53 z)) e.

(** ** src/event.c:317-362 with the malloc'ed buffer of [json_size] bytes. *)
Definition json_size (e : event) : N :=
  512 + N.of_nat (length (escape_json (content_of e))) +
  fold_right (fun vs a => fold_right (fun v a => N.of_nat (length v) * 6 + 4 + a) 0 vs + a) 0 (ev_tags e).

(** A write: [Put c] is result[pos++] = c, [Fmt s] is
    pos += snprintf(result + pos, json_size - pos, ...) producing [s]. *)
Inductive wop : Set := Put (c : N) | Fmt (s : list N).

(** Run writes at [pos]; [out] is what the buffer holds as a C string.  The
    size argument json_size - pos is unsigned: beyond the end it wraps and
    snprintf writes out of bounds; at the end it writes nothing, and strlen
    (378) finds no terminator. *)
Fixpoint run_writes (size : N) (pos : N) (out : list N) (ops : list wop) : res (list N) :=
  match ops with
  | [] => Ok out
  | Put c :: r => if pos <? size then run_writes size (pos + 1) (out ++ [c]) r else Undef
  | Fmt s :: r =>
    if size <=? pos then Undef
    else
      let len := N.of_nat (length s) in
      if pos + len <? size then run_writes size (pos + len) (out ++ s) r
      else run_writes size (pos + len) (out ++ firstn (N.to_nat (size - pos - 1)) s) r
  end.

Fixpoint value_ops (first : bool) (vs : list (list N)) : list wop :=
  match vs with
  | [] => []
  | v :: r => (if first then [] else [Put 44]) ++ [Fmt (quote v)] ++ value_ops false r
  end.
Fixpoint tag_ops (first : bool) (ts : list (list (list N))) : list wop :=
  match ts with
  | [] => []
  | vs :: r => (if first then [] else [Put 44]) ++ [Put 91] ++ value_ops true vs ++ [Put 93] ++ tag_ops false r
  end.
Definition serialize_ops (e : event) : list wop :=
  [Fmt ([91; 48; 44; 34] ++ hex_encode (ev_pubkey e) ++ [34; 44] ++ dec_Z (ev_created e) ++ [44] ++
        dec_N (ev_kind e) ++ [44; 91])] ++
  tag_ops true (ev_tags e) ++ [Fmt ([93; 44] ++ quote (content_of e) ++ [93])].
Definition serialize_buffer (e : event) : res (list N) :=
  run_writes (json_size e) 0 [] (serialize_ops e).

Section Crypto.
Variable ser : event -> list N.               (* serialize_for_id *)
Variable sha256 : list N -> list N.
Variable pubkey_of : list N -> option (list N).
Variable schnorr_sign : list N -> list N -> list N -> option (list N).
  (* secret, auxiliary randomness, digest *)
Variable schnorr_verify : list N -> list N -> list N -> bool.
  (* public key, digest, signature *)
Variable pubkey_parses : list N -> bool.

(** src/event.c:366-383 nostr_event_compute_id *)
Definition compute_id (e : event) : event :=
  mkEvent (sha256 (ser e)) (ev_pubkey e) (ev_created e) (ev_kind e) (ev_tags e) (ev_content e) (ev_sig e).

Definition set_pubkey (e : event) (pk : list N) : event :=
  mkEvent (ev_id e) pk (ev_created e) (ev_kind e) (ev_tags e) (ev_content e) (ev_sig e).
Definition set_sig (e : event) (s : list N) : event :=
  mkEvent (ev_id e) (ev_pubkey e) (ev_created e) (ev_kind e) (ev_tags e) (ev_content e) s.

(** src/event.c:593-692 nostr_event_sign; the event is updated in place, so an
    error leaves a partially updated event (first component).  [rnd] is the
    RNG draw, [None] when nostr_random_bytes fails. *)
Definition event_sign (e : event) (sk : list N) (rnd : option (list N)) : event * res unit :=
  match pubkey_of sk with
  | None => (e, Err EInvalidKey)
  | Some pk =>
    let e := compute_id (set_pubkey e pk) in
    match rnd with
    | None => (e, Err EMemory)
    | Some r =>
      match schnorr_sign sk r (ev_id e) with
      | None => (e, Err EInvalidSignature)
      | Some s => (set_sig e s, Ok tt)
      end
    end
  end.

(** src/event.c:694-762 nostr_event_verify; [parse] tells the secp256k1 build,
    which parses the public key first (733-757), from the noscrypt one. *)
Definition event_verify (parse : bool) (e : event) : res unit :=
  let tmp := compute_id e in
  do d <- constant_time_memcmp (ev_id e) (ev_id tmp) 32;
  if negb (fst d =? 0) then Err EInvalidEvent
  else if parse && negb (pubkey_parses (ev_pubkey e)) then Err EInvalidKey
  else if schnorr_verify (ev_pubkey e) (ev_id e) (ev_sig e) then Ok tt
  else Err EInvalidSignature.
End Crypto.

(** ** JSON export and import (cJSON build) *)

(** src/event.c:385-440 nostr_event_to_json, the tree that is printed *)
Definition event_to_tree (e : event) : json :=
  JObj [ (bs "id", JStr (hex_encode (ev_id e)));
         (bs "pubkey", JStr (hex_encode (ev_pubkey e)));
         (bs "created_at", jint (ev_created e));
         (bs "kind", jint (Z.of_N (ev_kind e)));
         (bs "tags", JArr (map (fun vs => JArr (map JStr vs)) (ev_tags e)));
         (bs "content", JStr (content_of e));
         (bs "sig", JStr (hex_encode (ev_sig e))) ].

(** src/event.c:442-454 hex_to_bytes *)
Definition hex_to_bytes (s : list N) (n : nat) : option (list N) :=
  if negb (length s =? n * 2)%nat then None else scan_bytes n s.

(** The configuration limits read by the importer; [None] when no
    configuration is set. *)
Record ev_limits : Set := mkEvLimits { max_content : N; max_tags : N }.

(** One element of the tags array, src/event.c:541-573: [None] if skipped. *)
Definition tag_values (j : json) : option (list (list N)) :=
  match j with
  | JArr [] => None
  | JArr l => Some (map (fun v => match v with JStr s => s | _ => [] end) l)
  | _ => None
  end.
Fixpoint import_tags (l : list json) : list (list (list N)) :=
  match l with
  | [] => []
  | j :: r => match tag_values j with Some vs => vs :: import_tags r | None => import_tags r end
  end.

Definition hex_field (n : nat) (f : option json) : res (list N) :=
  match f with
  | Some (JStr s) => match hex_to_bytes s n with Some b => Ok b | None => Err EInvalidEvent end
  | _ => Ok (repeat 0 n)
  end.

(** src/event.c:456-591 nostr_event_from_json on the parsed tree.  Allocation
    failures are not modelled; add_tag cannot fail otherwise, because the
    number of tags was checked against max_tags. *)
Definition event_from_tree (lim : option ev_limits) (j : json) : res event :=
  do id <- hex_field 32 (jget (bs "id") j);
  do pk <- hex_field 32 (jget (bs "pubkey") j);
  do created <- match jget (bs "created_at") j with
                | Some (JNum n) => j_int64 n
                | _ => Ok 0%Z
                end;
  let kind := match jget (bs "kind") j with
              | Some (JNum n) => Z.to_N (j_int32 n mod 65536)
              | _ => 0
              end in
  do content <- match jget (bs "content") j with
                | Some (JStr s) =>
                  match lim with
                  | Some l => if max_content l <? N.of_nat (length s) then Err EInvalidParam else Ok (Some s)
                  | None => Ok (Some s)
                  end
                | _ => Ok None
                end;
  do tags <- match jget (bs "tags") j with
             | Some (JArr l) =>
               match lim with
               | Some m => if max_tags m <? N.of_nat (length l) then Err EInvalidParam else Ok (import_tags l)
               | None => Ok (import_tags l)
               end
             | _ => Ok []
             end;
  do sg <- hex_field 64 (jget (bs "sig") j);
  Ok (mkEvent id pk created kind tags content sg).

(** src/event.c:385-440 and 456-591 with the library's printer and parser *)
Definition event_to_json (print : json -> list N) (e : event) : list N := print (event_to_tree e).
Definition event_from_json (parse : list N -> option json) (lim : option ev_limits) (s : list N) : res event :=
  match parse s with
  | None => Err EJsonParse
  | Some j => event_from_tree lim j
  end.
