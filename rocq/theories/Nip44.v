(** Model of src/nip44.c (the noscrypt build). *)
From Verif Require Import Base Heap Nip21.
Open Scope N_scope.

(** src/nip44.c:44-51: the doubling loop; [None] is the early [return 0].
    33 iterations suffice for a 32-bit counter. *)
Fixpoint np_loop (fuel : nat) (np len : N) : option N :=
  match fuel with
  | O => None
  | S f =>
    if np <=? len then
      if 2147483647 <? np then None else np_loop f (np * 2) len
    else Some np
  end.

(** src/nip44.c:36-60 calc_padded_len (results are uint32) *)
Definition calc_padded_len (len : N) : N :=
  if len <=? 32 then 32
  else match np_loop 33 1 len with
       | None => 0
       | Some np =>
         let np := np / 2 in
         let chunk := if np <=? 256 then 32 else np / 8 in
         (chunk * ((len - 1) / chunk + 1)) mod 2 ^ 32
       end.

(** The two limits of the current configuration that the code reads
    (src/nip44.c:68-70, 105-106); without a configuration they are 1, 65535. *)
Record limits : Set := mkLimits { lim_min : N; lim_max : N }.
Definition default_limits : limits := mkLimits 1 65535.

(** src/nip44.c:62-90 pad_plaintext.  The allocation is assumed to succeed;
    the copy of the plaintext must fit the calloc'ed block. *)
Definition pad_plaintext (l : limits) (pt : list N) : res (list N) :=
  if (blen pt <? lim_min l) || (lim_max l <? blen pt) then Err EMemory
  else
    let pad_len := (2 + calc_padded_len (blen pt mod 2 ^ 32)) mod 2 ^ 32 in
    if pad_len <? 2 + blen pt then Undef
    else Ok ([N.shiftr (blen pt) 8 mod 256; blen pt mod 256] ++ pt ++
             repeat 0 (N.to_nat (pad_len - 2 - blen pt))).

(** src/nip44.c:92-128 unpad_plaintext *)
Definition unpad_plaintext (l : limits) (buf : list N) : res (list N) :=
  match buf with
  | hi :: lo :: body =>
    let len := N.lor (N.shiftl hi 8) lo mod 2 ^ 16 in
    if (len =? 0) || (lim_max l <? len) then Err EInvalidParam
    else if negb (blen buf =? 2 + calc_padded_len len) then Err EInvalidParam
    else if blen body <? len then Undef
    else Ok (firstn (N.to_nat len) body)
  | _ => Err EInvalidParam
  end.

Section Crypto.
(** noscrypt and the base64 codec are parameters. *)
Variable nc_encrypt : list N -> list N -> list N -> list N -> option (list N * list N).
  (* secret, public, nonce, data -> ciphertext, HMAC key *)
Variable nc_mac : list N -> list N -> list N.            (* HMAC key, data *)
Variable nc_verify : list N -> list N -> list N -> list N -> list N -> bool.
  (* secret, public, nonce, data, mac *)
Variable nc_decrypt : list N -> list N -> list N -> list N -> option (list N).
Variable b64enc : list N -> list N.
Variable b64dec : list N -> option (list N).

(** src/nip44.c:248-361 nostr_nip44_encrypt; [nonce] is the RNG draw ([None]
    if RAND_bytes fails).  Allocation failures are not modelled here (see
    [nip44_encrypt_heap]). *)
Definition nip44_encrypt (l : limits) (sk pk : list N) (nonce : option (list N)) (pt : list N)
  : res (list N) :=
  match nonce with
  | None => Err EMemory
  | Some nonce =>
    do padded <- pad_plaintext l pt;
    match nc_encrypt sk pk nonce padded with
    | None => Err EInvalidSignature
    | Some (ct, hk) =>
      let mac := nc_mac hk (nonce ++ ct) in
      Ok (b64enc ([2] ++ nonce ++ ct ++ mac))
    end
  end.

(** src/nip44.c:363-485 nostr_nip44_decrypt.  A base64 failure that leaves
    payload_len = (size_t)-1 (BIO_read = -1 passes the [<= 0] test) is rejected
    by the length check, so both kinds of failure give the same code. *)
Definition nip44_decrypt (l : limits) (sk pk : list N) (text : list N) : res (list N) :=
  if match text with c :: _ => c =? 35 | [] => false end then Err ENotSupported
  else
    match b64dec text with
    | None => Err EInvalidParam
    | Some payload =>
      if (blen payload <? 97) || (65600 <? blen payload) then Err EInvalidParam
      else
        match payload with
        | [] => Undef
        | v :: rest =>
          if negb (v =? 2) then Err ENotSupported
          else
            let elen := (length payload - 65)%nat in
            let nonce := firstn 32 rest in
            let ct := firstn elen (skipn 32 rest) in
            let mac := skipn (length payload - 32) payload in
            if negb (nc_verify sk pk nonce (nonce ++ ct) mac) then Err EInvalidSignature
            else
              match nc_decrypt sk pk nonce ct with
              | None => Err EEncoding
              | Some padded => unpad_plaintext l padded
              end
        end
    end.
End Crypto.

(** ** Heap behaviour.  The outcome of every allocation and library call is a
    parameter; sizes are kept where a write has to fit. *)

(** src/nip44.c:220-245 base64_decode (OpenSSL): [rd] is BIO_read's result.
    Returns (0 / -1, value left in *output, value left in *output_len). *)
Definition base64_decode_heap (alloc_ok : bool) (rd : Z)
  : M (bool * option nat * N) :=
  let! out := hmalloc alloc_ok in
  match out with
  | None => mret (false, None, 0)
  | Some p =>
    let! _ := huse (Some p) in
    let n := Z.to_N (rd mod 2 ^ 64) in           (* size_t = int *)
    if n =? 0 then
      let! _ := hfree (Some p) in mret (false, Some p, n)
    else mret (true, Some p, n)
  end.

(** Outcomes of the library calls during one nip04_decrypt call. *)
Record outcomes04 : Set := mkOut04 {
  o_dup : bool; o_marker : bool;
  o_alloc1 : bool; o_read1 : Z;
  o_alloc2 : bool; o_read2 : Z;
  o_ecdh : bool; o_ctx : bool; o_init : bool; o_alloc3 : bool;
  o_update : option N; o_final : option N; o_alloc4 : bool }.

(** src/nip44.c:674-685, the cleanup block *)
Definition nip04_cleanup (ctx input_copy enc iv dec : option nat) (code : res (option nat))
  : M (res (option nat)) :=
  let! _ := hfree ctx in
  let! _ := hfree input_copy in
  let! _ := hfree enc in
  let! _ := hfree iv in
  let! _ := (match dec with None => mret tt | Some _ => huse dec end) in
  let! _ := hfree dec in
  mret code.

(** src/nip44.c:587-686 nostr_nip04_decrypt (OpenSSL build).  The result is the
    error code or the buffer handed to the caller in *plaintext. *)
Definition nip04_decrypt (o : outcomes04) : M (res (option nat)) :=
  let! copy := hmalloc (o_dup o) in
  match copy with
  | None => mret (Err EMemory)
  | Some _ =>
    let! _ := huse copy in
    if negb (o_marker o) then
      let! _ := hfree copy in mret (Err EInvalidParam)
    else
    let! r1 := base64_decode_heap (o_alloc1 o) (o_read1 o) in
    let '(ok1, enc, enc_len) := r1 in
    if negb ok1 then nip04_cleanup None copy enc None None (Err EInvalidParam) else
    let! _ := huse copy in
    let! r2 := base64_decode_heap (o_alloc2 o) (o_read2 o) in
    let '(ok2, iv, iv_len) := r2 in
    if negb ok2 || negb (iv_len =? 16) then
      nip04_cleanup None copy enc iv None (Err EInvalidParam) else
    if negb (o_ecdh o) then nip04_cleanup None copy enc iv None (Err EInvalidKey) else
    let! ctx := hmalloc (o_ctx o) in
    match ctx with
    | None => nip04_cleanup None copy enc iv None (Err EMemory)
    | Some _ =>
      let! _ := huse iv in
      if negb (o_init o) then nip04_cleanup ctx copy enc iv None (Err EInvalidParam) else
      let cap := (enc_len + 16) mod 2 ^ 64 in
      let! dec := hmalloc (o_alloc3 o) in
      match dec with
      | None => nip04_cleanup ctx copy enc iv None (Err EMemory)
      | Some _ =>
        let! _ := huse enc in
        match o_update o with
        | None => nip04_cleanup ctx copy enc iv dec (Err EInvalidParam)
        | Some n1 =>
          let! _ := hassert (n1 <=? cap) in
          match o_final o with
          | None => nip04_cleanup ctx copy enc iv dec (Err EInvalidParam)
          | Some n2 =>
            let! _ := hassert (n1 + n2 <=? cap) in
            let! out := hmalloc (o_alloc4 o) in
            match out with
            | None => nip04_cleanup ctx copy enc iv dec (Err EMemory)
            | Some _ =>
              let! _ := huse dec in
              let! _ := huse out in
              nip04_cleanup ctx copy enc iv dec (Ok out)
            end
          end
        end
      end
    end
  end.

(** Outcomes during one nip44_decrypt call. *)
Record outcomes44 : Set := mkOut44 {
  q_alloc1 : bool; q_read : Z; q_version : bool;
  q_alloc2 : bool; q_mac : bool; q_alloc3 : bool; q_props : bool; q_dec : bool;
  q_unpad : bool; q_alloc4 : bool; q_alloc5 : bool }.

Definition nip44_cleanup (payload dec unp : option nat) (code : res (option nat))
  : M (res (option nat)) :=
  let! _ := hfree payload in
  let! _ := hfree dec in
  let! _ := hfree unp in
  mret code.

(** src/nip44.c:363-485, heap view of nostr_nip44_decrypt *)
Definition nip44_decrypt_heap (o : outcomes44) : M (res (option nat)) :=
  let! r1 := base64_decode_heap (q_alloc1 o) (q_read o) in
  let '(ok1, payload, plen) := r1 in
  if negb ok1 then mret (Err EInvalidParam) else
  if (plen <? 97) || (65600 <? plen) then
    let! _ := hfree payload in mret (Err EInvalidParam) else
  let! _ := huse payload in
  if negb (q_version o) then
    let! _ := hfree payload in mret (Err ENotSupported) else
  let! mp := hmalloc (q_alloc2 o) in
  match mp with
  | None => nip44_cleanup payload None None (Err EMemory)
  | Some _ =>
    let! _ := huse mp in
    let! _ := huse payload in
    let! _ := hfree mp in
    if negb (q_mac o) then nip44_cleanup payload None None (Err EInvalidSignature) else
    let! dec := hmalloc (q_alloc3 o) in
    match dec with
    | None => nip44_cleanup payload None None (Err EMemory)
    | Some _ =>
      if negb (q_props o) then nip44_cleanup payload dec None (Err EInvalidParam) else
      let! _ := huse payload in
      let! _ := huse dec in
      if negb (q_dec o) then nip44_cleanup payload dec None (Err EEncoding) else
      if negb (q_unpad o) then nip44_cleanup payload dec None (Err EInvalidParam) else
      let! unp := hmalloc (q_alloc4 o) in
      match unp with
      | None => nip44_cleanup payload dec None (Err EInvalidParam)
      | Some _ =>
        let! _ := huse unp in
        let! out := hmalloc (q_alloc5 o) in
        match out with
        | None => nip44_cleanup payload dec unp (Err EMemory)
        | Some _ =>
          let! _ := huse out in
          nip44_cleanup payload dec unp (Ok out)
        end
      end
    end
  end.

(** Outcomes during one nip44_encrypt call. *)
Record outcomes44e : Set := mkOut44e {
  e_rand : bool; e_pad_len : bool; e_alloc1 : bool; e_alloc2 : bool; e_props : bool;
  e_enc : bool; e_alloc3 : bool; e_mac : bool; e_alloc4 : bool; e_alloc5 : bool }.

(** src/nip44.c:248-361, heap view of nostr_nip44_encrypt (OpenSSL base64:
    BIO objects are assumed to be released by BIO_free_all). *)
Definition nip44_encrypt_heap (o : outcomes44e) : M (res (option nat)) :=
  if negb (e_rand o) then nip44_cleanup None None None (Err EMemory) else
  if negb (e_pad_len o) then nip44_cleanup None None None (Err EMemory) else
  let! padded := hmalloc (e_alloc1 o) in
  match padded with
  | None => nip44_cleanup None None None (Err EMemory)
  | Some _ =>
    let! _ := huse padded in
    let! enc := hmalloc (e_alloc2 o) in
    match enc with
    | None => nip44_cleanup padded None None (Err EMemory)
    | Some _ =>
      if negb (e_props o) then nip44_cleanup padded enc None (Err EInvalidParam) else
      let! _ := huse padded in
      let! _ := huse enc in
      let! _ := hfree padded in
      (* padded_plaintext = NULL *)
      if negb (e_enc o) then nip44_cleanup None enc None (Err EInvalidSignature) else
      let! mi := hmalloc (e_alloc3 o) in
      match mi with
      | None => nip44_cleanup None enc None (Err EMemory)
      | Some _ =>
        let! _ := huse mi in
        let! _ := huse enc in
        let! _ := hfree mi in
        if negb (e_mac o) then nip44_cleanup None enc None (Err EInvalidSignature) else
        let! payload := hmalloc (e_alloc4 o) in
        match payload with
        | None => nip44_cleanup None enc None (Err EMemory)
        | Some _ =>
          let! _ := huse payload in
          let! _ := huse enc in
          let! _ := hfree enc in
          let! out := hmalloc (e_alloc5 o) in
          match out with
          | None => nip44_cleanup None None payload (Err EMemory)
          | Some _ =>
            let! _ := huse payload in
            let! _ := huse out in
            nip44_cleanup None None payload (Ok out)
          end
        end
      end
    end
  end.

(** Outcomes during one nip04_encrypt call; [f_len] is strlen(plaintext),
    [f_update]/[f_final] the byte counts written by the cipher. *)
Record outcomes04e : Set := mkOut04e {
  f_ecdh : bool; f_rand : bool; f_ctx : bool; f_init : bool; f_len : N; f_alloc1 : bool;
  f_update : option N; f_final : option N; f_alloc2 : bool; f_alloc3 : bool; f_alloc4 : bool }.

Definition nip04e_cleanup (ctx enc content iv : option nat) (code : res (option nat))
  : M (res (option nat)) :=
  let! _ := hfree ctx in
  let! _ := hfree enc in
  let! _ := hfree content in
  let! _ := hfree iv in
  mret code.

(** src/nip44.c:502-585 nostr_nip04_encrypt (OpenSSL build) *)
Definition nip04_encrypt (o : outcomes04e) : M (res (option nat)) :=
  if negb (f_ecdh o) then mret (Err EInvalidKey) else
  if negb (f_rand o) then nip04e_cleanup None None None None (Err EMemory) else
  let! ctx := hmalloc (f_ctx o) in
  match ctx with
  | None => nip04e_cleanup None None None None (Err EMemory)
  | Some _ =>
    if negb (f_init o) then nip04e_cleanup ctx None None None (Err EInvalidParam) else
    let cap := f_len o + 16 in
    let! enc := hmalloc (f_alloc1 o) in
    match enc with
    | None => nip04e_cleanup ctx None None None (Err EMemory)
    | Some _ =>
      match f_update o with
      | None => nip04e_cleanup ctx enc None None (Err EInvalidParam)
      | Some n1 =>
        let! _ := huse enc in
        let! _ := hassert (n1 <=? cap) in
        match f_final o with
        | None => nip04e_cleanup ctx enc None None (Err EInvalidParam)
        | Some n2 =>
          let! _ := huse enc in
          let! _ := hassert (n1 + n2 <=? cap) in
          let! content := hmalloc (f_alloc2 o) in
          match content with
          | None => nip04e_cleanup ctx enc None None (Err EMemory)
          | Some _ =>
            let! _ := huse enc in
            let! _ := huse content in
            let! iv := hmalloc (f_alloc3 o) in
            match iv with
            | None => nip04e_cleanup ctx enc content None (Err EMemory)
            | Some _ =>
              let! _ := huse iv in
              let! out := hmalloc (f_alloc4 o) in
              match out with
              | None => nip04e_cleanup ctx enc content iv (Err EMemory)
              | Some _ =>
                let! _ := huse content in
                let! _ := huse iv in
                let! _ := huse out in
                nip04e_cleanup ctx enc content iv (Ok out)
              end
            end
          end
        end
      end
    end
  end.
