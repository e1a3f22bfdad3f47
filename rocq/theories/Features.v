(** Model of src/features.c (what the library says about its build) and of the texts
    for error codes: src/key.c:715-732, src/relay_protocol.c:16-58. *)
From Verif Require Import Base.
Open Scope N_scope.

(** ** The build *)
(** include/nostr_features.h.in:30-58: what cmake may define; [b_nip n]:
    NOSTR_FEATURE_NIPn is defined.  ENCODING is always on.  THREADING may be defined with
    the value 0 (CMakeLists.txt:49-54), which means it is off; the code asks whether it is
    defined. *)
Record build : Set := mkBuild { b_nip : N -> bool; b_relay : bool; b_relay_protocol : bool; b_hd_keys : bool; b_json : bool; b_threading : option N }.

(** src/features.c:5-67 nostr_feature_nip_supported: the cases of the switch *)
Definition switch_nips : list N := [4; 5; 10; 13; 17; 25; 44; 46; 47; 49; 51; 57; 59; 65].
Definition nip_supported (b : build) (n : Z) : bool := existsb (fun k => (Z.of_N k =? n)%Z && b_nip b k) switch_nips.

(** src/features.c:69-103 *)
Definition relay_available (b : build) : bool := b_relay b.
Definition hd_keys_available (b : build) : bool := b_hd_keys b.
Definition json_available (b : build) : bool := b_json b.
Definition relay_protocol_available (b : build) : bool := b_relay_protocol b.

(** ** The list *)
(** The static buffer: its bytes, the length used so far, the room left. *)
Record listing : Set := mkListing { l_bytes : list N; l_pos : nat; l_left : nat }.
(** snprintf(buf + pos, room, text): the bytes of the buffer afterwards *)
Definition snprintf_at (bytes : list N) (pos room : nat) (text : list N) : list N :=
  match room with
  | O => bytes
  | S k => let w := firstn k text ++ [0] in firstn pos bytes ++ w ++ skipn (pos + length w) bytes
  end.
(** src/features.c:114-117 APPEND_FEATURE; the texts have no conversions *)
Definition append (l : listing) (text : list N) : listing :=
  let bytes := snprintf_at (l_bytes l) (l_pos l) (l_left l) text in
  if (0 <? length text)%nat && (length text <? l_left l)%nat then mkListing bytes (l_pos l + length text) (l_left l - length text)
  else mkListing bytes (l_pos l) (l_left l).
(** src/features.c:119-181: what is appended *)
Definition pieces (b : build) : list (list N) :=
  [bs "std,events,keys"; bs ",encoding"] ++
  (if b_nip b 4 then [bs ",nip04"] else []) ++ (if b_nip b 5 then [bs ",nip05"] else []) ++ (if b_nip b 10 then [bs ",nip10"] else []) ++
  (if b_nip b 13 then [bs ",nip13"] else []) ++ (if b_nip b 17 then [bs ",nip17"] else []) ++ (if b_nip b 25 then [bs ",nip25"] else []) ++
  (if b_nip b 44 then [bs ",nip44"] else []) ++ (if b_nip b 46 then [bs ",nip46"] else []) ++ (if b_nip b 47 then [bs ",nip47"] else []) ++
  (if b_nip b 49 then [bs ",nip49"] else []) ++ (if b_nip b 51 then [bs ",nip51"] else []) ++ (if b_nip b 57 then [bs ",nip57"] else []) ++
  (if b_nip b 59 then [bs ",nip59"] else []) ++ (if b_nip b 65 then [bs ",nip65"] else []) ++
  (if b_relay b then [bs ",relay"] else []) ++ (if b_relay_protocol b then [bs ",relay-protocol"] else []) ++
  (if b_hd_keys b then [bs ",hd-keys"] else []) ++ (if b_json b then [bs ",json-enhanced"] else []) ++
  (match b_threading b with Some _ => [bs ",threading"] | None => [] end).
(** What a caller reads: the bytes up to the first NUL. *)
Fixpoint cstr (l : list N) : option (list N) :=
  match l with [] => None | c :: r => if c =? 0 then Some [] else option_map (cons c) (cstr r) end.
Definition SIZE : nat := 512.
Definition blank : listing := mkListing (repeat 0 SIZE) 0 SIZE.
(** src/features.c:105-188 nostr_feature_list_enabled, one thread *)
Definition list_enabled (b : build) : option (list N) := cstr (l_bytes (fold_left append (pieces b) blank)).

(** ** Several threads in nostr_feature_list_enabled *)
(** A call: about to look at [initialized]; about to append (what is left to append,
    its own position and room); about to set [initialized]; returned with the pointer. *)
Inductive at_ : Set := Look | Adding (todo : list (list N)) (pos room : nat) | Marking | Returned.
Record shared : Set := mkShared { s_bytes : list N; s_init : bool; s_at : nat -> at_ }.
Definition put (s : shared) (i : nat) (a : at_) : nat -> at_ := fun j => if Nat.eqb j i then a else s_at s j.
Inductive fstep (b : build) (s : shared) (i : nat) : shared -> Prop :=
| FLook : s_at s i = Look -> fstep b s i (mkShared (s_bytes s) (s_init s) (put s i (if s_init s then Returned else Adding (pieces b) 0 SIZE)))
| FAdd t ts pos room : s_at s i = Adding (t :: ts) pos room ->
    fstep b s i (let l := append (mkListing (s_bytes s) pos room) t in mkShared (l_bytes l) (s_init s) (put s i (Adding ts (l_pos l) (l_left l))))
| FAdded pos room : s_at s i = Adding [] pos room -> fstep b s i (mkShared (s_bytes s) (s_init s) (put s i Marking))
| FMark : s_at s i = Marking -> fstep b s i (mkShared (s_bytes s) true (put s i Returned)).
Definition fstart : shared := mkShared (repeat 0 SIZE) false (fun _ => Look).
Inductive freach (b : build) : shared -> Prop :=
| FR0 : freach b fstart
| FRS s i s' : freach b s -> fstep b s i s' -> freach b s'.

(** ** Texts for error codes *)
(** src/key.c:715-732 nostr_error_string, by the value of the enum (include/nostr.h:66-80) *)
Definition error_string (code : Z) : string :=
  match code with
  | 0 => "Success" | 1 => "Invalid key" | 2 => "Invalid event" | 3 => "Invalid signature" | 4 => "Memory allocation failed"
  | 5 => "JSON parsing error" | 6 => "Encoding error" | 7 => "Connection error" | 8 => "Protocol error" | 9 => "Not found"
  | 10 => "Timeout" | 11 => "Invalid parameter" | _ => "Unknown error"
  end%Z%string.
(** src/relay_protocol.c:16-40, include/nostr_relay_protocol.h:35-56 *)
Definition relay_error_string (code : Z) : string :=
  match code with
  | 0 => "OK" | 1 => "invalid JSON" | 2 => "missing required field" | 3 => "invalid event ID" | 4 => "invalid pubkey"
  | 5 => "invalid signature" | 6 => "invalid created_at" | 7 => "invalid kind" | 8 => "invalid tags" | 9 => "invalid content"
  | 10 => "event ID mismatch" | 11 => "signature verification failed" | 12 => "event created_at too far in future"
  | 13 => "event has expired" | 14 => "invalid subscription ID" | 15 => "too many filters" | 16 => "buffer too small"
  | 17 => "memory allocation failed" | 18 => "unknown message type" | _ => "unknown error"
  end%Z%string.
(** src/relay_protocol.c:42-58 nostr_validation_error_format: the result and the buffer
    afterwards; [message], [field]: the texts in the result.  [buf]: the caller's
    [buf_size] bytes. *)
Definition error_format (message field : list N) (buf : list N) : nat * list N :=
  match length buf with
  | O => (O, buf)
  | _ =>
    let text := bs "invalid:" ++ bs " " ++ message ++ match field with [] => [] | _ => bs " for field '" ++ field ++ bs "'" end in
    (if (0 <? length text)%nat && (length text <? length buf)%nat then length text else O, snprintf_at buf 0 (length buf) text)
  end.
