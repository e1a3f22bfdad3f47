(** Model of src/utils.c (hex, constant-time compare) and of the hex
    conversions of src/key.c. *)
From Verif Require Import Base.
Open Scope N_scope.

(** src/utils.c:14-24 nostr_constant_time_memcmp; also counts loop iterations.
    The two buffers are given as lists, [n] is the byte count; reading past
    either list is [Undef]. *)
Fixpoint memcmp_loop (n : nat) (a b : list N) (diff : N) (steps : nat) : res (N * nat) :=
  match n with
  | O => Ok (diff, steps)
  | S n' =>
    match a, b with
    | x :: a', y :: b' => memcmp_loop n' a' b' (N.lor diff (N.lxor x y)) (S steps)
    | _, _ => Undef
    end
  end.
Definition constant_time_memcmp (a b : list N) (n : nat) : res (N * nat) :=
  memcmp_loop n a b 0 0.

(** src/utils.c:47-52 hex_char_to_nibble (-1 is None) *)
Definition hex_nibble (c : N) : option N :=
  if (48 <=? c) && (c <=? 57) then Some (c - 48)
  else if (97 <=? c) && (c <=? 102) then Some (c - 97 + 10)
  else if (65 <=? c) && (c <=? 70) then Some (c - 65 + 10)
  else None.

(** src/utils.c:58-63: the loop, two characters at a time.  Returns the bytes
    stored so far and whether it failed. *)
Fixpoint hex_decode_loop (s : list N) : list N * bool :=
  match s with
  | h :: l :: r =>
    match hex_nibble h, hex_nibble l with
    | Some a, Some b =>
      let '(out, ok) := hex_decode_loop r in (N.lor (N.shiftl a 4) b :: out, ok)
    | _, _ => ([], false)
    end
  | _ => ([], true)
  end.

(** src/utils.c:54-65 nostr_hex_decode: the stored bytes and the return value
    ([None] is -1; the cast of the count to int is not modelled, i.e. strings
    below 4 GiB). *)
Definition hex_decode (s : list N) (out_len : nat) : list N * option nat :=
  if negb (length s mod 2 =? 0)%nat || (out_len <? length s / 2)%nat then ([], None)
  else
    let '(out, ok) := hex_decode_loop s in
    (out, if ok then Some (length s / 2)%nat else None).

(** The digit written by printf %x *)
Definition hexdigit (v : N) : N := if v <? 10 then 48 + v else 87 + v.
(** sprintf "%02x" of a byte *)
Definition hex_byte (b : N) : list N := [hexdigit (b / 16); hexdigit (b mod 16)].
(** src/utils.c:67-73 nostr_hex_encode: the text before the final NUL.  Writes
    2*len+1 bytes. *)
Definition hex_encode (bytes : list N) : list N := flat_map hex_byte bytes.

(** isspace in the C locale *)
Definition isspace (c : N) : bool := (c =? 32) || ((9 <=? c) && (c <=? 13)).
Fixpoint skip_ws (s : list N) : list N :=
  match s with
  | c :: r => if isspace c then skip_ws r else s
  | [] => []
  end.

(** sscanf(s, "%2hhx", &b) of glibc: skips white space, then at most two
    characters: optional sign, optional 0x (glibc consumes a lone "0x" as 0),
    hex digits.  [None] when nothing is converted. *)
Definition scan_digits2 (s : list N) : option N :=
  match s with
  | c :: r =>
    match hex_nibble c with
    | None => None
    | Some a =>
      match r with
      | d :: _ => if (c =? 48) && ((d =? 120) || (d =? 88)) then Some 0
                  else match hex_nibble d with
                       | Some b => Some (a * 16 + b)
                       | None => Some a
                       end
      | [] => Some a
      end
    end
  | [] => None
  end.
Definition scan_digits1 (s : list N) : option N :=
  match s with c :: _ => hex_nibble c | [] => None end.
Definition scan_hh (s : list N) : option N :=
  let s := skip_ws s in
  match s with
  | c :: r =>
    if c =? 43 then scan_digits1 r
    else if c =? 45 then match scan_digits1 r with
                         | Some v => Some ((256 - v) mod 256)
                         | None => None
                         end
    else scan_digits2 s
  | [] => None
  end.

(** src/key.c:388-392 / 419-423: n bytes, the i-th scanned at hex + 2*i *)
Fixpoint scan_bytes (n : nat) (s : list N) : option (list N) :=
  match n with
  | O => Some []
  | S n' =>
    match scan_hh s with
    | None => None
    | Some b => match scan_bytes n' (skipn 2 s) with
                | None => None
                | Some l => Some (b :: l)
                end
    end
  end.

(** src/key.c:379-395 nostr_key_from_hex and 410-426 nostr_privkey_from_hex
    (identical bodies) *)
Definition key_from_hex (s : list N) : res (list N) :=
  if negb (length s =? 64)%nat then Err EInvalidKey
  else match scan_bytes 32 s with
       | Some k => Ok k
       | None => Err EInvalidKey
       end.

(** src/key.c:397-408 nostr_key_to_hex and 428-439 nostr_privkey_to_hex *)
Definition key_to_hex (key : list N) (hex_size : nat) : res (list N) :=
  if (hex_size <? 65)%nat then Err EInvalidParam
  else Ok (hex_encode key).
