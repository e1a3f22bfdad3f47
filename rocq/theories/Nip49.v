(** Model of src/nip49.c (encrypted private keys), with NOSTR_FEATURE_NIP49. *)
From Verif Require Import Base Bech32 Nip21.
Open Scope N_scope.

(** ** HChaCha20, which the library implements itself *)
Definition m32 (x : N) : N := x mod 4294967296.

(** src/nip49.c:24-35 load32_le, store32_le *)
Definition load32_le (p : list N) : N :=
  match p with
  | b0 :: b1 :: b2 :: b3 :: _ =>
    N.lor (N.lor (N.lor b0 (N.shiftl b1 8)) (N.shiftl b2 16)) (N.shiftl b3 24)
  | _ => 0
  end.
Definition store32_le (v : N) : list N :=
  [N.land v 255; N.land (N.shiftr v 8) 255; N.land (N.shiftr v 16) 255; N.land (N.shiftr v 24) 255].

(** src/nip49.c:57 ROTL32 on uint32_t *)
Definition rotl32 (v n : N) : N := N.lor (m32 (N.shiftl v n)) (N.shiftr v (32 - n)).

(** src/nip49.c:58-62 QR, on four entries of the state array *)
Definition upd (l : list N) (i : nat) (v : N) : list N := firstn i l ++ v :: skipn (S i) l.
Definition qr (s : list N) (a b c d : nat) : list N :=
  let g i s := nth i s 0 in
  let s := upd s a (m32 (g a s + g b s)) in
  let s := upd s d (N.lxor (g d s) (g a s)) in
  let s := upd s d (rotl32 (g d s) 16) in
  let s := upd s c (m32 (g c s + g d s)) in
  let s := upd s b (N.lxor (g b s) (g c s)) in
  let s := upd s b (rotl32 (g b s) 12) in
  let s := upd s a (m32 (g a s + g b s)) in
  let s := upd s d (N.lxor (g d s) (g a s)) in
  let s := upd s d (rotl32 (g d s) 8) in
  let s := upd s c (m32 (g c s + g d s)) in
  let s := upd s b (N.lxor (g b s) (g c s)) in
  upd s b (rotl32 (g b s) 7).

(** src/nip49.c:64-73, one iteration *)
Definition double_round (s : list N) : list N :=
  let s := qr s 0 4 8 12 in
  let s := qr s 1 5 9 13 in
  let s := qr s 2 6 10 14 in
  let s := qr s 3 7 11 15 in
  let s := qr s 0 5 10 15 in
  let s := qr s 1 6 11 12 in
  let s := qr s 2 7 8 13 in
  qr s 3 4 9 14.

Definition rounds (n : nat) (s : list N) : list N := Nat.iter n double_round s.

(** src/nip49.c:37-84 hchacha20 *)
Definition hchacha20 (key nonce : list N) : list N :=
  let s := [0x61707865; 0x3320646e; 0x79622d32; 0x6b206574] ++
           map (fun i => load32_le (skipn (i * 4) key)) (seq 0 8) ++
           map (fun i => load32_le (skipn (i * 4) nonce)) (seq 0 4) in
  let s := rounds 10 s in
  flat_map (fun i => store32_le (nth i s 0)) (seq 0 4) ++
  flat_map (fun i => store32_le (nth (12 + i) s 0)) (seq 0 4).

Section Lib.
(** OpenSSL: scrypt (None on failure); ChaCha20-Poly1305 sealing (None on
    failure); opening: what the update call wrote over the output (None if a
    call before it failed or it failed itself) and whether the final call
    accepted the tag. *)
Variable scrypt : list N -> list N -> N -> option (list N).
Variable seal : list N -> list N -> list N -> list N -> option (list N * list N).
Variable open : list N -> list N -> list N -> list N -> list N -> option (list N) * bool.

(** src/nip49.c:86-136; key, 24-byte nonce, associated data, plaintext *)
Definition nonce12 (nonce : list N) : list N := [0; 0; 0; 0] ++ firstn 8 (skipn 16 nonce).
Definition xseal (key nonce aad pt : list N) : option (list N * list N) :=
  seal (hchacha20 key nonce) (nonce12 nonce) aad pt.

(** src/nip49.c:138-189: return value and the output buffer afterwards *)
Definition xopen (key nonce aad ct tag out : list N) : bool * list N :=
  match open (hchacha20 key nonce) (nonce12 nonce) aad ct tag with
  | (None, _) => (false, out)
  | (Some pt, ok) => (ok, pt)
  end.

(** src/nip49.c:207-245 decode_ncryptsec *)
Definition decode_ncryptsec (s : list N) : res (list N) :=
  if negb (prefixb (bs "ncryptsec1") s) then Err EEncoding
  else if (length s <? 20)%nat || (200 <? length s)%nat then Err EEncoding
  else if (160 <? length s - 10)%nat then Err EEncoding
  else
    do data <- decode_chars 160 0 (skipn 10 s);
    if negb (verify_checksum (bs "ncryptsec") data) then Err EEncoding
    else
      let payload := convert_bits (firstn (length data - 6) data) 91 5 8 false in
      if (length payload =? 91)%nat then Ok payload else Err EEncoding.

(** src/nip49.c:296-310: the characters written to the caller's buffer of
    [size] bytes *)
Definition encode_ncryptsec (payload : list N) (size : nat) : res (list N) :=
  let data := convert_bits payload 146 8 5 true in
  if (length data =? 0)%nat then Err EEncoding
  else match create_checksum (bs "ncryptsec") data with
       | None => Err EEncoding
       | Some ck =>
         let s := bs "ncryptsec1" ++ map charset_get data ++ map charset_get ck in
         if (length s + 1 <=? size)%nat then Ok s else Undef
       end.

(** src/nip49.c:287-294, the layout of the payload *)
Definition payload (log_n : N) (salt nonce : list N) (security : N) (ct mac : list N) : list N :=
  [2; log_n] ++ salt ++ nonce ++ [security] ++ ct ++ mac.

(** src/nip49.c:247-322 nostr_ncryptsec_encrypt (non-NULL arguments);
    [salt] and [nonce] are the RNG draws *)
Definition ncryptsec_encrypt (key password : list N) (log_n : N) (size : nat)
           (salt nonce : option (list N)) : res (list N) :=
  if (length password =? 0)%nat || (log_n <? 16) || (22 <? log_n) || (size <? 163)%nat
  then Err EInvalidParam
  else match salt, nonce with
       | Some salt, Some nonce =>
         match scrypt password salt log_n with
         | None => Err EEncoding
         | Some k =>
           match xseal k nonce [2] key with
           | None => Err EEncoding
           | Some (ct, mac) => encode_ncryptsec (payload log_n salt nonce 2 ct mac) size
           end
         end
       | _, _ => Err EMemory
       end.

(** src/nip49.c:324-381 nostr_ncryptsec_decrypt: the code returned and the
    caller's key buffer afterwards; [out] is its content before the call. *)
Definition ncryptsec_decrypt (s password out : list N) : res unit * list N :=
  if (length password =? 0)%nat then (Err EInvalidParam, out)
  else match decode_ncryptsec s with
       | Undef => (Undef, out)
       | Err e => (Err e, out)
       | Ok p =>
         if negb (nth 0 p 0 =? 2) then (Err ENotSupported, out)
         else
           let log_n := nth 1 p 0 in
           if (log_n <? 16) || (22 <? log_n) then (Err EInvalidParam, out)
           else
             let salt := firstn 16 (skipn 2 p) in
             let nonce := firstn 24 (skipn 18 p) in
             let security := nth 42 p 0 in
             if 2 <? security then (Err EInvalidParam, out)
             else
               let ct := firstn 32 (skipn 43 p) in
               let mac := firstn 16 (skipn 75 p) in
               match scrypt password salt log_n with
               | None => (Err EEncoding, out)
               | Some k =>
                 match xopen k nonce [security] ct mac out with
                 | (true, pt) => (Ok tt, pt)
                 | (false, _) => (Err EInvalidSignature, repeat 0 32)
                 end
               end
       end.

(** src/nip49.c:383-410 nostr_ncryptsec_validate *)
Definition ncryptsec_validate (s : list N) : res unit :=
  match decode_ncryptsec s with
  | Undef => Undef
  | Err e => Err e
  | Ok p =>
    if negb (nth 0 p 0 =? 2) then Err ENotSupported
    else if (nth 1 p 0 <? 16) || (22 <? nth 1 p 0) then Err EInvalidParam
    else if 2 <? nth (2 + 16 + 24) p 0 then Err EInvalidParam
    else Ok tt
  end.
End Lib.
