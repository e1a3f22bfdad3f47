(** Model of src/bech32.c and src/nip21.c when memory may run out.  What the
    functions compute is in Bech32.v and Nip21.v; here is what they allocate and
    release, which blocks the caller's variable points to afterwards, and what
    becomes of the answer. *)
From Verif Require Import Base Heap Bech32 Nip21 EventMem.
Open Scope N_scope.

(** An answer: a value or an error. *)
Definition ans (A : Type) : Type := (A + err)%type.
(** code that allocates nothing *)
Definition lift {A} (r : res A) : M (ans A) :=
  match r with Ok a => mret (inl a) | Err e => mret (inr e) | Undef => fun _ => Undef end.

Section Mem.
Variable grant : nat -> bool.

(** ** src/bech32.c *)
(** src/bech32.c:42-57 bech32_verify_checksum *)
Definition verify_m (hrp data : list N) : M bool :=
  match hrp_expand hrp 84 with
  | None => mret false
  | Some e =>
    let! p := ealloc grant in
    match p with
    | None => mret false
    | Some b =>
      let! _ := huse (Some b) in
      let! _ := hfree (Some b) in
      mret (polymod (e ++ data) =? 1)
    end
  end.
(** src/bech32.c:59-78 bech32_create_checksum; None: 0 is returned and the
    caller's array is not written *)
Definition create_m (hrp data : list N) : M (option (list N)) :=
  match hrp_expand hrp 84 with
  | None => mret None
  | Some e =>
    let! p := ealloc grant in
    match p with
    | None => mret None
    | Some b =>
      let! _ := huse (Some b) in
      let! _ := hfree (Some b) in
      mret (Some (cksum_digits (N.lxor (polymod (e ++ data ++ repeat 0 6)) 1)))
    end
  end.
(** src/bech32.c:133-148, 220-234, 291-305 *)
Definition encode_out_m (prefix data : list N) (size : nat) : M (ans (list N)) :=
  let! ck := create_m prefix data in
  match ck with
  | None => mret (inr EEncoding)
  | Some ck =>
    let s := prefix ++ [49] ++ map charset_get data ++ map charset_get ck in
    let! _ := hassert (length s + 1 <=? size)%nat in
    mret (inl s)
  end.
(** src/bech32.c:117-151 nostr_key_to_bech32 *)
Definition key_to_bech32_m (key prefix : list N) (size : nat) : M (ans (list N)) :=
  if (length prefix =? 0)%nat || (size <? length prefix + 1 + 52 + 6 + 1)%nat then mret (inr EInvalidParam)
  else
    let data := convert_bits key 52 8 5 true in
    if (length data =? 0)%nat then mret (inr EEncoding) else encode_out_m prefix data size.
(** src/bech32.c:205-237 nostr_privkey_to_bech32, 276-308 nostr_event_id_to_bech32 *)
Definition fixed_to_bech32_m (hrp key : list N) (size : nat) : M (ans (list N)) :=
  if (size <? 64)%nat then mret (inr EInvalidParam)
  else
    let data := convert_bits key 52 8 5 true in
    if (length data =? 0)%nat then mret (inr EEncoding) else encode_out_m hrp data size.
(** src/bech32.c:191-202, 262-273, 333-344 *)
Definition decode_tail_m (hrp data : list N) : M (ans (list N)) :=
  let! ok := verify_m hrp data in
  if ok then
    let! _ := hassert (6 <=? length data)%nat in
    let dec := convert_bits (firstn (length data - 6) data) 32 5 8 false in
    if (length dec =? 32)%nat then mret (inl dec) else mret (inr EEncoding)
  else mret (inr EEncoding).
Definition chars_m (cap : nat) (s : list N) (k : list N -> M (ans (list N))) : M (ans (list N)) :=
  let! d := lift (decode_chars cap 0 s) in
  match d with inr e => mret (inr e) | inl data => k data end.
(** src/bech32.c:153-203 nostr_key_from_bech32 *)
Definition key_from_bech32_m (s : list N) : M (ans (list N)) :=
  let len := length s in
  if (len <? 8)%nat || (90 <? len)%nat then mret (inr EEncoding)
  else
    match last_sep 0 s None with
    | None => mret (inr EEncoding)
    | Some sep =>
      if (sep =? 0)%nat || (len <? sep + 7)%nat || (84 <=? sep)%nat then mret (inr EEncoding)
      else chars_m 84 (skipn (sep + 1) s) (decode_tail_m (firstn sep s))
    end.
(** src/bech32.c:239-274 nostr_privkey_from_bech32, 310-345 nostr_event_id_from_bech32 *)
Definition fixed_from_bech32_m (hrp s : list N) : M (ans (list N)) :=
  if negb (prefixb (hrp ++ [49]) s) then mret (inr EEncoding)
  else
    let len := length s in
    if (len <? 8)%nat || (90 <? len)%nat then mret (inr EEncoding)
    else chars_m 84 (skipn 5 s) (decode_tail_m hrp).

(** ** src/nip21.c *)
(** src/nip21.c:15-58 decode_bech32_to_bytes *)
Definition decode_bytes_m (s hrp : list N) (out_size : N) : M (ans (list N)) :=
  let len := blen s in
  let hrp_len := blen hrp in
  let max_data_chars := (out_size * 8 + 4) / 5 + 6 in
  if (len <? hrp_len + 8) || (hrp_len + 1 + max_data_chars <? len) then mret (inr EEncoding)
  else if negb (prefixb hrp s) || negb (nth (length hrp) s 0 =? 49) then mret (inr EEncoding)
  else
    let! p := ealloc grant in
    match p with
    | None => mret (inr EMemory)
    | Some b =>
      let! _ := huse (Some b) in
      let chars := skipn (length hrp + 1) s in
      let! d := lift (decode_chars (length chars) 0 chars) in
      match d with
      | inr e => let! _ := hfree (Some b) in mret (inr e)
      | inl data =>
        let! ok := verify_m hrp data in
        if negb ok then let! _ := hfree (Some b) in mret (inr EEncoding)
        else if (length data <? 7)%nat then let! _ := hfree (Some b) in mret (inr EEncoding)
        else
          let out := convert_bits (firstn (length data - 6) data) (N.to_nat out_size) 5 8 false in
          let! _ := huse (Some b) in
          let! _ := hfree (Some b) in
          if (length out =? 0)%nat then mret (inr EEncoding) else mret (inl out)
      end
    end.
(** src/nip21.c:60-98 encode_bytes_to_bech32: the answer of
    bech32_create_checksum is not looked at, so when it fails the six characters
    are looked up at indeterminate places *)
Definition encode_bytes_m (data hrp : list N) (out_size : N) : M (ans (list N)) :=
  let! p := ealloc grant in
  match p with
  | None => mret (inr EMemory)
  | Some b =>
    let conv := convert_bits data (N.to_nat ((blen data * 8 + 4) / 5)) 8 5 true in
    let! _ := huse (Some b) in
    if (length conv =? 0)%nat then let! _ := hfree (Some b) in mret (inr EEncoding)
    else if out_size <? blen hrp + 1 + blen conv + 6 + 1 then let! _ := hfree (Some b) in mret (inr EInvalidParam)
    else
      let! ck := create_m hrp conv in
      match ck with
      | None => fun _ => Undef
      | Some ck =>
        let s := hrp ++ [49] ++ map charset_get conv ++ map charset_get ck in
        let! _ := hassert (blen s + 1 <=? out_size) in
        let! _ := huse (Some b) in
        let! _ := hfree (Some b) in
        mret (inl s)
      end
  end.

(** src/nip21.c:266-272 free_relay_array, and the loop of lines 168-176; the
    caller's pointers are cleared *)
Fixpoint free_all (l : list nat) : M unit :=
  match l with
  | [] => mret tt
  | b :: r => let! _ := hfree (Some b) in free_all r
  end.
(** src/nip21.c:127-162, the switch; [bl]: the blocks of the relays read so far *)
Definition tlv_switch_m (special_size : nat) (want_relays want_ak : bool) (ty : N) (v : list N) (st : tlv_state) (bl : list nat)
  : M (option (tlv_state * list nat)) :=
  match ty with
  | 1 =>
    if want_relays && (length (relays st) <? 16)%nat then
      if is_valid_relay_url v then
        let! p := ealloc grant in
        match p with
        | None => mret None
        | Some b =>
          let! _ := huse (Some b) in
          mret (Some ({| special := special st; relays := relays st ++ [v]; author := author st; kind := kind st |}, bl ++ [b]))
        end
      else mret (Some (st, bl))
    else mret (Some (st, bl))
  | _ => mret (option_map (fun st => (st, bl)) (tlv_switch special_size want_relays want_ak ty v st))
  end.
(** src/nip21.c:121-177: the blocks in the caller's array afterwards, and the
    fields or the error *)
Fixpoint parse_loop_m (fuel special_size : nat) (want_relays want_ak : bool) (data : list N) (pos : nat) (st : tlv_state) (bl : list nat)
  : M (list nat * ans tlv_state) :=
  match fuel with
  | O => fun _ => Undef
  | S fuel' =>
    if (pos + 2 <=? length data)%nat then
      let! t := lift (slice data pos 1) in
      let! l := lift (slice data (pos + 1) 1) in
      match t, l with
      | inl t, inl l =>
        let len := N.to_nat (nth 0 l 0) in
        let pos := (pos + 2)%nat in
        if (length data <? pos + len)%nat then let! _ := free_all bl in mret ([], inr EEncoding)
        else
          let! v := lift (slice data pos len) in
          match v with
          | inl v =>
            let! r := tlv_switch_m special_size want_relays want_ak (nth 0 t 0) v st bl in
            match r with
            | None => let! _ := free_all bl in mret ([], inr EEncoding)
            | Some (st, bl) => parse_loop_m fuel' special_size want_relays want_ak data (pos + len) st bl
            end
          | inr _ => fun _ => Undef
          end
      | _, _ => fun _ => Undef
      end
    else mret (bl, inl st)
  end.
(** src/nip21.c:111-177 parse_tlv *)
Definition parse_tlv_m (special_size : nat) (want_relays want_ak : bool) (data : list N) : M (list nat * ans tlv_state) :=
  parse_loop_m (S (length data)) special_size want_relays want_ak data 0 tlv_init [].

(** What all decoders do: bytes, fields, then [ok] makes the entity; otherwise
    the relays are released (src/nip21.c:242-264 nostr_nprofile_decode, 293-316
    nostr_nevent_decode, 337-366 nostr_naddr_decode, 387-410
    nostr_nrelay_decode). *)
Definition decode_m (s hrp : list N) (out_size : N) (special_size : nat) (want_relays want_ak : bool) (ok : tlv_state -> option entity) : M (list nat * ans entity) :=
  let! d := decode_bytes_m s hrp out_size in
  match d with
  | inr e => mret ([], inr e)
  | inl data =>
    let! r := parse_tlv_m special_size want_relays want_ak data in
    match r with
    | (bl, inr e) => let! _ := free_all bl in mret ([], inr e)
    | (bl, inl st) =>
      match ok st with
      | Some e => mret (bl, inl e)
      | None => let! _ := free_all bl in mret ([], inr EEncoding)
      end
    end
  end.
(** src/nip21.c:242-264 *)
Definition nprofile_decode_m (s : list N) : M (list nat * ans entity) :=
  decode_m s (bs "nprofile") 4096 32 true false (fun st => if (length (special st) =? 32)%nat then Some (Nprofile (special st) (relays st)) else None).
(** src/nip21.c:293-316 *)
Definition nevent_decode_m (s : list N) : M (list nat * ans entity) :=
  decode_m s (bs "nevent") 4096 32 true true (fun st => if (length (special st) =? 32)%nat then Some (Nevent (special st) (relays st) (author st) (kind st)) else None).
(** src/nip21.c:337-366 *)
Definition naddr_decode_m (s : list N) : M (list nat * ans entity) :=
  decode_m s (bs "naddr") 4096 256 true true (fun st =>
    match author st, kind st with
    | Some a, Some k => if (256 <=? length (special st))%nat then None else Some (Naddr (special st) a k (relays st))
    | _, _ => None
    end).
(** src/nip21.c:387-410 *)
Definition nrelay_decode_m (s : list N) : M (list nat * ans entity) :=
  decode_m s (bs "nrelay") 512 256 false false (fun st => if (length (special st) =? 0)%nat || (256 <=? length (special st))%nat then None else Some (Nrelay (special st))).

(** The caller's nostr_uri: does its type have relays, and the blocks its relay
    pointers name (as many as relay_count). *)
Record curi : Set := mkCu { cu_relays : bool; cu_blocks : list nat }.
Definition no_relays {A} (f : A -> entity) (m : M (ans A)) : M (curi * ans entity) :=
  let! r := m in
  mret (mkCu false [], match r with inl a => inl (f a) | inr e => inr e end).
Definition with_relays (m : M (list nat * ans entity)) : M (curi * ans entity) :=
  let! r := m in
  mret (mkCu true (fst r), snd r).
(** src/nip21.c:412-456 nostr_uri_parse *)
Definition uri_parse_m (uri : list N) : M (curi * ans entity) :=
  if negb (prefixb (bs "nostr:") uri) then mret (mkCu false [], inr EEncoding)
  else
    let e := skipn 6 uri in
    if prefixb (bs "npub1") e then no_relays Npub (key_from_bech32_m e)
    else if prefixb (bs "nsec1") e then no_relays Nsec (fixed_from_bech32_m (bs "nsec") e)
    else if prefixb (bs "note1") e then no_relays Note (fixed_from_bech32_m (bs "note") e)
    else if prefixb (bs "nprofile1") e then with_relays (nprofile_decode_m e)
    else if prefixb (bs "nevent1") e then with_relays (nevent_decode_m e)
    else if prefixb (bs "naddr1") e then with_relays (naddr_decode_m e)
    else if prefixb (bs "nrelay1") e then let! r := nrelay_decode_m e in mret (mkCu false (fst r), snd r)
    else mret (mkCu false [], inr EEncoding).
(** src/nip21.c:498-515 nostr_uri_free: the counts are zero afterwards *)
Definition uri_free_m (u : curi) : M curi :=
  let! _ := if cu_relays u then free_all (cu_blocks u) else mret tt in
  mret (mkCu (cu_relays u) []).

(** src/nip21.c:195-206 reads the relays, the first sixteen *)
Fixpoint use_all (l : list nat) : M unit :=
  match l with
  | [] => mret tt
  | b :: r => let! _ := huse (Some b) in use_all r
  end.
Definition tlv_m (t : list N) (hrp : list N) (size : N) : M (ans (list N)) :=
  if (length t =? 0)%nat then mret (inr EEncoding) else encode_bytes_m t hrp size.
(** src/nip21.c:458-496 nostr_uri_encode *)
Definition uri_encode_m (u : curi) (e : entity) (size : N) : M (ans (list N)) :=
  if size <? 7 then mret (inr EInvalidParam)
  else
    let sz := size - 6 in
    let! _ := if cu_relays u then use_all (firstn 16 (cu_blocks u)) else mret tt in
    let! r := match e with
              | Npub k => key_to_bech32_m k (bs "npub") (N.to_nat sz)
              | Nsec k => fixed_to_bech32_m (bs "nsec") k (N.to_nat sz)
              | Note k => fixed_to_bech32_m (bs "note") k (N.to_nat sz)
              | Nprofile pk rs => tlv_m (build_tlv 4096 pk rs None None) (bs "nprofile") sz
              | Nevent id rs au k => tlv_m (build_tlv 4096 id rs au k) (bs "nevent") sz
              | Naddr i pk k rs => tlv_m (build_tlv 4096 i rs (Some pk) (Some k)) (bs "naddr") sz
              | Nrelay url => if (blen url =? 0) || (256 <=? blen url) then mret (inr EInvalidParam) else encode_bytes_m (tlv_rec 0 url) (bs "nrelay") sz
              end in
    mret (match r with inl s => inl (bs "nostr:" ++ s) | inr x => inr x end).
End Mem.
