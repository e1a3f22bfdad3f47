(** Model of src/nip21.c (NIP-19 TLV entities, nostr: URIs), with
    NOSTR_FEATURE_ENCODING.  malloc is assumed to succeed. *)
From Verif Require Import Base Bech32.
Open Scope N_scope.

Definition blen (l : list N) : N := N.of_nat (length l).

(** src/nip21.c:15-58 decode_bech32_to_bytes *)
Definition decode_bech32_to_bytes (s hrp : list N) (out_size : N) : res (list N) :=
  let len := blen s in
  let hrp_len := blen hrp in
  let max_data_chars := (out_size * 8 + 4) / 5 + 6 in
  if (len <? hrp_len + 8) || (hrp_len + 1 + max_data_chars <? len) then Err EEncoding
  else if negb (prefixb hrp s) || negb (nth (length hrp) s 0 =? 49) then Err EEncoding
  else
    let chars := skipn (length hrp + 1) s in
    (* data is malloc'ed with exactly this many bytes *)
    do data <- decode_chars (length chars) 0 chars;
    if negb (verify_checksum hrp data) then Err EEncoding
    else if (length data <? 7)%nat then Err EEncoding
    else
      let out := convert_bits (firstn (length data - 6) data) (N.to_nat out_size) 5 8 false in
      if (length out =? 0)%nat then Err EEncoding else Ok out.

(** src/nip21.c:60-98 encode_bytes_to_bech32; a store outside the caller's
    buffer is [Undef]; so is the use of an uninitialised checksum when
    bech32_create_checksum fails. *)
Definition encode_bytes_to_bech32 (data hrp : list N) (out_size : N) : res (list N) :=
  let conv := convert_bits data (N.to_nat ((blen data * 8 + 4) / 5)) 8 5 true in
  if (length conv =? 0)%nat then Err EEncoding
  else if out_size <? blen hrp + 1 + blen conv + 6 + 1 then Err EInvalidParam
  else match create_checksum hrp conv with
       | None => Undef
       | Some ck =>
         let s := hrp ++ [49] ++ map charset_get conv ++ map charset_get ck in
         if blen s + 1 <=? out_size then Ok s else Undef
       end.

(** src/nip21.c:100-109 is_valid_relay_url, on the [len] bytes at url *)
Definition is_valid_relay_url (url : list N) : bool :=
  negb (blen url <? 6) && negb (256 <=? blen url)
  && (prefixb (bs "wss://") url || prefixb (bs "ws://") url)
  && forallb (fun c => (0x21 <=? c) && (c <=? 0x7e)) url.

(** Fields filled by parse_tlv.  [special] is the last value copied (the
    callers use only its first special_len bytes). *)
Record tlv_state := { special : list N; relays : list (list N);
                      author : option (list N); kind : option N }.
(** src/nip21.c:117-119 *)
Definition tlv_init : tlv_state :=
  {| special := []; relays := []; author := None; kind := None |}.

(** [len] bytes at data + pos; reading outside is [Undef] *)
Definition slice (data : list N) (pos len : nat) : res (list N) :=
  if (pos + len <=? length data)%nat then Ok (firstn len (skipn pos data)) else Undef.

Definition be32 (b : list N) : N :=
  match b with
  | [b0; b1; b2; b3] => N.lor (N.lor (N.lor (N.shiftl b0 24) (N.shiftl b1 16)) (N.shiftl b2 8)) b3
  | _ => 0
  end.

(** src/nip21.c:127-162, the switch, for the value [v] of type [ty].
    [special_size] is the capacity of the special buffer (the store of a
    longer value never happens because of the check); [want_relays] is
    relays != NULL with room for 16; [want_ak] is author/kind pointers != NULL.
    [None] is goto cleanup_error. *)
Definition tlv_switch (special_size : nat) (want_relays want_ak : bool)
           (ty : N) (v : list N) (st : tlv_state) : option tlv_state :=
  match ty with
  | 0 => if (special_size <? length v)%nat then None
         else Some {| special := v; relays := relays st; author := author st; kind := kind st |}
  | 1 => if want_relays && (length (relays st) <? 16)%nat then
           if is_valid_relay_url v
           then Some {| special := special st; relays := relays st ++ [v];
                        author := author st; kind := kind st |}
           else Some st
         else Some st
  | 2 => if want_ak && (length v =? 32)%nat
         then Some {| special := special st; relays := relays st;
                      author := Some v; kind := kind st |}
         else Some st
  | 3 => if want_ak && (length v =? 4)%nat
         then Some {| special := special st; relays := relays st;
                      author := author st; kind := Some (be32 v) |}
         else Some st
  | _ => Some st
  end.

(** src/nip21.c:121-166: the loop at position [pos]; running out of [fuel]
    counts as non-termination ([Undef]). *)
Fixpoint parse_loop (fuel : nat) (special_size : nat) (want_relays want_ak : bool)
         (data : list N) (pos : nat) (st : tlv_state) : res tlv_state :=
  match fuel with
  | O => Undef
  | S fuel' =>
    if (pos + 2 <=? length data)%nat then
      do t <- slice data pos 1;
      do l <- slice data (pos + 1) 1;
      let len := N.to_nat (nth 0 l 0) in
      let pos := (pos + 2)%nat in
      if (length data <? pos + len)%nat then Err EEncoding
      else
        do v <- slice data pos len;
        match tlv_switch special_size want_relays want_ak (nth 0 t 0) v st with
        | None => Err EEncoding
        | Some st' => parse_loop fuel' special_size want_relays want_ak data (pos + len) st'
        end
    else Ok st
  end.

(** src/nip21.c:111-177 parse_tlv *)
Definition parse_tlv (special_size : nat) (want_relays want_ak : bool) (data : list N)
  : res tlv_state :=
  parse_loop (S (length data)) special_size want_relays want_ak data 0 tlv_init.

(** One type-length-value record as written by build_tlv *)
Definition tlv_rec (ty : N) (v : list N) : list N := ty :: blen v :: v.

(** src/nip21.c:195-206: relays that are too long or do not fit are skipped *)
Fixpoint build_relays (out_size : N) (out : list N) (rs : list (list N)) : list N :=
  match rs with
  | [] => out
  | r :: rest =>
    if (255 <? blen r) || (out_size <? blen out + 2 + blen r)
    then build_relays out_size out rest
    else build_relays out_size (out ++ tlv_rec 1 r) rest
  end.

Definition be32_bytes (k : N) : list N :=
  [N.land (N.shiftr k 24) 255; N.land (N.shiftr k 16) 255; N.land (N.shiftr k 8) 255; N.land k 255].

(** src/nip21.c:179-227 build_tlv; the bytes written ([] is return 0).  The
    relays array has [relay_count] non-NULL entries. *)
Definition build_tlv (out_size : N) (sp : list N) (rs : list (list N))
           (au : option (list N)) (k : option N) : list N :=
  if (0 <? blen sp) && ((255 <? blen sp) || (out_size <? 2 + blen sp)) then []
  else
    let out := if 0 <? blen sp then tlv_rec 0 sp else [] in
    let out := build_relays out_size out (firstn 16 rs) in
    match au with
    | Some a =>
      if out_size <? blen out + 2 + 32 then []
      else
        let out := out ++ 2 :: 32 :: a in
        match k with
        | Some k => if out_size <? blen out + 2 + 4 then [] else out ++ 3 :: 4 :: be32_bytes k
        | None => out
        end
    | None =>
      match k with
      | Some k => if out_size <? blen out + 2 + 4 then [] else out ++ 3 :: 4 :: be32_bytes k
      | None => out
      end
    end.

(** include/nostr.h:1229-1280, the tagged union nostr_uri.  Relay arrays are
    lists; an identifier/url is the C string in its fixed array. *)
Inductive entity :=
| Npub (k : list N) | Nsec (k : list N) | Note (k : list N)
| Nprofile (pk : list N) (rs : list (list N))
| Nevent (id : list N) (rs : list (list N)) (au : option (list N)) (k : option N)
| Naddr (ident pk : list N) (k : N) (rs : list (list N))
| Nrelay (url : list N).

(** src/nip21.c:229-240 nostr_nprofile_encode *)
Definition nprofile_encode (pk : list N) (rs : list (list N)) (size : N) : res (list N) :=
  let t := build_tlv 4096 pk rs None None in
  if (length t =? 0)%nat then Err EEncoding
  else encode_bytes_to_bech32 t (bs "nprofile") size.

(** src/nip21.c:242-264 nostr_nprofile_decode *)
Definition nprofile_decode (s : list N) : res entity :=
  do data <- decode_bech32_to_bytes s (bs "nprofile") 4096;
  do st <- parse_tlv 32 true false data;
  if (length (special st) =? 32)%nat then Ok (Nprofile (special st) (relays st)) else Err EEncoding.

(** src/nip21.c:279-291 nostr_nevent_encode *)
Definition nevent_encode (id : list N) (rs : list (list N)) (au : option (list N)) (k : option N)
           (size : N) : res (list N) :=
  let t := build_tlv 4096 id rs au k in
  if (length t =? 0)%nat then Err EEncoding
  else encode_bytes_to_bech32 t (bs "nevent") size.

(** src/nip21.c:293-316 nostr_nevent_decode *)
Definition nevent_decode (s : list N) : res entity :=
  do data <- decode_bech32_to_bytes s (bs "nevent") 4096;
  do st <- parse_tlv 32 true true data;
  if (length (special st) =? 32)%nat
  then Ok (Nevent (special st) (relays st) (author st) (kind st)) else Err EEncoding.

(** src/nip21.c:323-335 nostr_naddr_encode; [ident] is the C string (at most
    255 characters in its 256-byte array) *)
Definition naddr_encode (ident pk : list N) (k : N) (rs : list (list N)) (size : N) : res (list N) :=
  let t := build_tlv 4096 ident rs (Some pk) (Some k) in
  if (length t =? 0)%nat then Err EEncoding
  else encode_bytes_to_bech32 t (bs "naddr") size.

(** src/nip21.c:337-366 nostr_naddr_decode *)
Definition naddr_decode (s : list N) : res entity :=
  do data <- decode_bech32_to_bytes s (bs "naddr") 4096;
  do st <- parse_tlv 256 true true data;
  match author st, kind st with
  | Some a, Some k =>
    if (256 <=? length (special st))%nat then Err EEncoding
    else Ok (Naddr (special st) a k (relays st))
  | _, _ => Err EEncoding
  end.

(** src/nip21.c:373-385 nostr_nrelay_encode *)
Definition nrelay_encode (url : list N) (size : N) : res (list N) :=
  if (blen url =? 0) || (256 <=? blen url) then Err EInvalidParam
  else encode_bytes_to_bech32 (tlv_rec 0 url) (bs "nrelay") size.

(** src/nip21.c:387-410 nostr_nrelay_decode *)
Definition nrelay_decode (s : list N) : res entity :=
  do data <- decode_bech32_to_bytes s (bs "nrelay") 512;
  do st <- parse_tlv 256 false false data;
  if (length (special st) =? 0)%nat || (256 <=? length (special st))%nat then Err EEncoding
  else Ok (Nrelay (special st)).

Definition rmap {A B} (f : A -> B) (r : res A) : res B :=
  match r with Ok a => Ok (f a) | Err e => Err e | Undef => Undef end.

(** src/nip21.c:412-456 nostr_uri_parse *)
Definition uri_parse (uri : list N) : res entity :=
  if negb (prefixb (bs "nostr:") uri) then Err EEncoding
  else
    let e := skipn 6 uri in
    if prefixb (bs "npub1") e then rmap Npub (key_from_bech32 e)
    else if prefixb (bs "nsec1") e then rmap Nsec (privkey_from_bech32 e)
    else if prefixb (bs "note1") e then rmap Note (event_id_from_bech32 e)
    else if prefixb (bs "nprofile1") e then nprofile_decode e
    else if prefixb (bs "nevent1") e then nevent_decode e
    else if prefixb (bs "naddr1") e then naddr_decode e
    else if prefixb (bs "nrelay1") e then nrelay_decode e
    else Err EEncoding.

(** src/nip21.c:458-496 nostr_uri_encode into a buffer of [size] bytes *)
Definition uri_encode (e : entity) (size : N) : res (list N) :=
  if size <? 7 then Err EInvalidParam
  else
    let sz := size - 6 in
    rmap (fun s => bs "nostr:" ++ s)
      (match e with
       | Npub k => key_to_bech32 k (bs "npub") (N.to_nat sz)
       | Nsec k => privkey_to_bech32 k (N.to_nat sz)
       | Note k => event_id_to_bech32 k (N.to_nat sz)
       | Nprofile pk rs => nprofile_encode pk rs sz
       | Nevent id rs au k => nevent_encode id rs au k sz
       | Naddr i pk k rs => naddr_encode i pk k rs sz
       | Nrelay url => nrelay_encode url sz
       end).
