(** Model of src/bech32.c (checksum, bit regrouping, key/id encoders). *)
From Verif Require Import Base.
Open Scope N_scope.

(** src/bech32.c:10 BECH32_CHARSET *)
Definition charset : list N := bs "qpzry9x8gf2tvdw0s3jn54khce6mua7l".

(** src/bech32.c:12 BECH32_GENERATOR *)
Definition G0 : N := 0x3b6a57b2.
Definition G1 : N := 0x26508e6d.
Definition G2 : N := 0x1ea119fa.
Definition G3 : N := 0x3d4233dd.
Definition G4 : N := 0x2a1462b3.

(** src/bech32.c:19-21, the inner loop over j = 0..4 *)
Definition sel (b : bool) (g : N) : N := if b then g else 0.
Definition genmix (top chk : N) : N :=
  N.lxor (N.lxor (N.lxor (N.lxor (N.lxor chk
    (sel (N.testbit top 0) G0)) (sel (N.testbit top 1) G1))
    (sel (N.testbit top 2) G2)) (sel (N.testbit top 3) G3))
    (sel (N.testbit top 4) G4).

(** src/bech32.c:17-21, one iteration.  [chk] stays below 2^30, so the
    uint32_t arithmetic never wraps. *)
Definition polystep (chk v : N) : N :=
  genmix (N.shiftr chk 25) (N.lxor (N.shiftl (N.land chk 0x1ffffff) 5) v).

(** src/bech32.c:14-24 bech32_polymod *)
Definition polymod_from (chk : N) (vs : list N) : N := fold_left polystep vs chk.
Definition polymod (vs : list N) : N := polymod_from 1 vs.

(** src/bech32.c:33 [hrp[i] >> 5] on a signed char, stored in a uint8_t *)
Definition hrp_hi (c : N) : N := if c <? 128 then c / 32 else c / 32 + 248.
(** src/bech32.c:37 [hrp[i] & 31] *)
Definition hrp_lo (c : N) : N := c mod 32.

(** src/bech32.c:26-40 bech32_hrp_expand; None is the -1 return.  The
    SIZE_MAX guard (line 28) is subsumed by the ret_size guard (line 30). *)
Definition hrp_expand (hrp : list N) (ret_size : nat) : option (list N) :=
  if (ret_size <? length hrp * 2 + 1)%nat then None
  else Some (map hrp_hi hrp ++ [0] ++ map hrp_lo hrp).

(** src/bech32.c:42-57 bech32_verify_checksum (malloc assumed to succeed) *)
Definition verify_checksum (hrp data : list N) : bool :=
  match hrp_expand hrp 84 with
  | None => false
  | Some e => polymod (e ++ data) =? 1
  end.

(** src/bech32.c:73-75: the six 5-bit digits, most significant first *)
Definition cksum_digits (p : N) : list N :=
  map (fun i => N.land (N.shiftr p (5 * (5 - i))) 31) [0; 1; 2; 3; 4; 5].

(** src/bech32.c:59-78 bech32_create_checksum; None is the 0 return
    (malloc assumed to succeed) *)
Definition create_checksum (hrp data : list N) : option (list N) :=
  match hrp_expand hrp 84 with
  | None => None
  | Some e => Some (cksum_digits (N.lxor (polymod (e ++ data ++ repeat 0 6)) 1))
  end.

(** src/bech32.c:91-95, the inner while loop.  State: acc, bits, output so
    far; [None] is the [return 0] of line 93.  [fuel] bounds the iterations
    (the loop runs at most [bits] times since tobits >= 1). *)
Fixpoint cb_drain (fuel : nat) (tobits : N) (outlen : nat)
         (acc bits : N) (out : list N) : option (N * list N) :=
  match fuel with
  | O => Some (bits, out)
  | S f =>
    if tobits <=? bits then
      let bits' := bits - tobits in
      if (outlen <=? length out)%nat then None
      else cb_drain f tobits outlen acc bits'
             (out ++ [N.land (N.shiftr acc bits') (2 ^ tobits - 1)])
    else Some (bits, out)
  end.

(** src/bech32.c:87-96, the outer loop *)
Fixpoint cb_loop (frombits tobits : N) (outlen : nat)
         (inp : list N) (acc bits : N) (out : list N)
  : option (N * N * list N) :=
  match inp with
  | [] => Some (acc, bits, out)
  | v :: rest =>
    if negb (N.shiftr v frombits =? 0) then None
    else
      let acc' := N.land (N.lor (N.shiftl acc frombits mod 2 ^ 32) v)
                         (2 ^ (frombits + tobits - 1) - 1) in
      match cb_drain (N.to_nat (bits + frombits)) tobits outlen acc'
                     (bits + frombits) out with
      | None => None
      | Some (bits', out') => cb_loop frombits tobits outlen rest acc' bits' out'
      end
  end.

(** src/bech32.c:80-108 bech32_convert_bits.  The result is the list of
    values written; [] is the [return 0] (failure or nothing written). *)
Definition convert_bits (inp : list N) (outlen : nat) (frombits tobits : N)
           (pad : bool) : list N :=
  match cb_loop frombits tobits outlen inp 0 0 [] with
  | None => []
  | Some (acc, bits, out) =>
    if pad then
      if bits =? 0 then out
      else if (outlen <=? length out)%nat then []
      else out ++ [N.land (N.shiftl acc (tobits - bits) mod 2 ^ 32) (2 ^ tobits - 1)]
    else if (frombits <=? bits)
            || negb (N.land (N.shiftl acc (tobits - bits) mod 2 ^ 32)
                            (2 ^ tobits - 1) =? 0)
         then []
         else out
  end.

(** src/bech32.c:110-115 bech32_charset_decode; None is -1 *)
Fixpoint index_of (c : N) (l : list N) : option N :=
  match l with
  | [] => None
  | x :: r => if x =? c then Some 0
              else match index_of c r with
                   | Some i => Some (i + 1)
                   | None => None
                   end
  end.
Definition charset_decode (c : N) : option N := index_of c charset.

(** BECH32_CHARSET[v]; the table has 33 entries (with the NUL), values here
    are 5-bit *)
Definition charset_get (v : N) : N := nth (N.to_nat v) charset 0.

(** The common tail of the three encoders (src/bech32.c:133-148, 220-234,
    291-305): checksum, then prefix, '1', data and checksum characters and a
    NUL are stored in the caller's buffer of [size] bytes; a store outside the
    buffer is [Undef]. *)
Definition encode_out (prefix data : list N) (size : nat) : res (list N) :=
  match create_checksum prefix data with
  | None => Err EEncoding
  | Some ck =>
    let s := prefix ++ [49 (* '1' *)] ++ map charset_get data ++ map charset_get ck in
    if (length s + 1 <=? size)%nat then Ok s else Undef
  end.

(** src/bech32.c:117-151 nostr_key_to_bech32 (non-NULL arguments) *)
Definition key_to_bech32 (key prefix : list N) (size : nat) : res (list N) :=
  if (length prefix =? 0)%nat || (size <? length prefix + 1 + 52 + 6 + 1)%nat
  then Err EInvalidParam
  else
    let data := convert_bits key 52 8 5 true in
    if (length data =? 0)%nat then Err EEncoding
    else encode_out prefix data size.

(** src/bech32.c:205-237 nostr_privkey_to_bech32 *)
Definition privkey_to_bech32 (key : list N) (size : nat) : res (list N) :=
  if (size <? 64)%nat then Err EInvalidParam
  else
    let data := convert_bits key 52 8 5 true in
    if (length data =? 0)%nat then Err EEncoding
    else encode_out (bs "nsec") data size.

(** src/bech32.c:276-308 nostr_event_id_to_bech32 *)
Definition event_id_to_bech32 (id : list N) (size : nat) : res (list N) :=
  if (size <? 64)%nat then Err EInvalidParam
  else
    let data := convert_bits id 52 8 5 true in
    if (length data =? 0)%nat then Err EEncoding
    else encode_out (bs "note") data size.

(** The character loop of the decoders (src/bech32.c:183-189, 254-260,
    325-331): value [i] is stored in a buffer of [cap] bytes; a store at or
    beyond [cap] is [Undef]. *)
Fixpoint decode_chars (cap i : nat) (s : list N) : res (list N) :=
  match s with
  | [] => Ok []
  | c :: r =>
    match charset_decode c with
    | None => Err EEncoding
    | Some v => if (i <? cap)%nat
                then do r' <- decode_chars cap (S i) r; Ok (v :: r')
                else Undef
    end
  end.

(** src/bech32.c:163-169: index of the last '1' (None is sep = -1) *)
Fixpoint last_sep (i : nat) (s : list N) (found : option nat) : option nat :=
  match s with
  | [] => found
  | c :: r => last_sep (S i) r (if c =? 49 then Some i else found)
  end.

(** Common tail of the decoders (src/bech32.c:191-202, 262-273, 333-344):
    checksum over all values, regroup all but the last six.  [len-5-6] is a
    size_t subtraction; with fewer than six values it wraps and
    bech32_convert_bits reads uninitialised stack: [Undef]. *)
Definition decode_tail (hrp data : list N) : res (list N) :=
  if verify_checksum hrp data then
    if (length data <? 6)%nat then Undef
    else
      let dec := convert_bits (firstn (length data - 6) data) 32 5 8 false in
      if (length dec =? 32)%nat then Ok dec else Err EEncoding
  else Err EEncoding.

(** src/bech32.c:153-203 nostr_key_from_bech32 *)
Definition key_from_bech32 (s : list N) : res (list N) :=
  let len := length s in
  if (len <? 8)%nat || (90 <? len)%nat then Err EEncoding
  else
    match last_sep 0 s None with
    | None => Err EEncoding
    | Some sep =>
      if (sep =? 0)%nat || (len <? sep + 7)%nat || (84 <=? sep)%nat
      then Err EEncoding
      else
        let hrp := firstn sep s in
        do data <- decode_chars 84 0 (skipn (sep + 1) s);
        decode_tail hrp data
    end.

(** src/bech32.c:239-274 and 310-345, which differ only in the prefix *)
Definition fixed_from_bech32 (hrp s : list N) : res (list N) :=
  if negb (prefixb (hrp ++ [49]) s) then Err EEncoding
  else
    let len := length s in
    if (len <? 8)%nat || (90 <? len)%nat then Err EEncoding
    else
      do data <- decode_chars 84 0 (skipn 5 s);
      decode_tail hrp data.

(** src/bech32.c:239-274 nostr_privkey_from_bech32 *)
Definition privkey_from_bech32 (s : list N) : res (list N) :=
  fixed_from_bech32 (bs "nsec") s.
(** src/bech32.c:310-345 nostr_event_id_from_bech32 *)
Definition event_id_from_bech32 (s : list N) : res (list N) :=
  fixed_from_bech32 (bs "note") s.
