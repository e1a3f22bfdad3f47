(** What secrets a call leaves in memory: src/key.c, src/event.c, src/nip44.c,
    src/nip49.c, src/nip26.c, src/nip59.c, src/nip17.c, src/nip47.c, src/hd_key.c,
    src/bech32.c (the build with noscrypt).

    A function is its control flow and what it does to the places that may hold a
    secret.  Every test is open (both branches may be taken), every loop may run any
    number of times: a superset of the C executions.  A place is a local variable,
    a heap block, or an object of the caller; freeing a block leaves its bytes in
    memory.  Not modelled: copies in registers, copies a compiler makes, and what
    the cryptographic libraries keep. *)
From Coq Require Import String List Bool.
Import ListNotations.
Open Scope string_scope.
Open Scope list_scope.

(** [Key]: a private key, or bytes from which one can be computed (seed, mnemonic,
    chain code with key, shared secret, key of a cipher); [Text]: the plaintext of a
    message; [Noise]: the random bytes of a signature. *)
Inductive kind : Set := Key | Text | Noise.
Definition place : Set := string.
Definition kind_eqb (a b : kind) : bool := match a, b with Key, Key | Text, Text | Noise, Noise => true | _, _ => false end.

Inductive prog : Set :=
| Skip
| Put (k : kind) (x : place)          (* a secret of this kind is written to [x] *)
| Copy (x y : place)                  (* [y] gets what [x] holds; an earlier block or frame of this name may still be there *)
| Wipe (x : place)                    (* secure_wipe over the whole of [x] *)
| Seq (p q : prog)
| Or (p q : prog)
| Star (p : prog)
| Ret (ok : bool)
| Call (p q : prog).                  (* call [p]; if it reports an error, [q] *)
Infix ";;" := Seq (at level 61, right associativity).
(** [when p]: an if statement without else *)
Definition when (p : prog) : prog := Or p Skip.
Definition fail : prog := Ret false.

Definition mem : Set := place -> kind -> bool.
Definition set (m : mem) (x : place) (v : kind -> bool) : mem := fun y => if String.eqb y x then v else m y.
(** [run p m o m']: [o = None] if the end of [p] is reached, [Some ok] if it returns. *)
Inductive run : prog -> mem -> option bool -> mem -> Prop :=
| RSkip m : run Skip m None m
| RPut k x m : run (Put k x) m None (set m x (fun j => kind_eqb j k || m x j))
| RCopy x y m : run (Copy x y) m None (set m y (fun j => m x j || m y j))
| RWipe x m : run (Wipe x) m None (set m x (fun _ => false))
| RSeq p q m m1 o m2 : run p m None m1 -> run q m1 o m2 -> run (p ;; q) m o m2
| RSeqRet p q m b m1 : run p m (Some b) m1 -> run (p ;; q) m (Some b) m1
| ROrL p q m o m1 : run p m o m1 -> run (Or p q) m o m1
| ROrR p q m o m1 : run q m o m1 -> run (Or p q) m o m1
| RStar0 p m : run (Star p) m None m
| RStarS p m m1 o m2 : run p m None m1 -> run (Star p) m1 o m2 -> run (Star p) m o m2
| RStarRet p m b m1 : run p m (Some b) m1 -> run (Star p) m (Some b) m1
| RRet b m : run (Ret b) m (Some b) m
| RCallOk p q m m1 : run p m (Some true) m1 -> run (Call p q) m None m1
| RCallErr p q m m1 o m2 : run p m (Some false) m1 -> run q m1 o m2 -> run (Call p q) m o m2.

(** ** src/key.c *)
(** key.c:283-377 nostr_key_generate.  Rejected candidates are no keys. *)
Definition p_generate (privkey : place) : prog :=
  when fail ;;                                                             (* 284-294 *)
  Star (when fail) ;;                                                      (* 302-312 rejected candidates *)
  Or (Wipe "generate.nc_secret" ;; fail) (Put Key "generate.nc_secret") ;; (* 314-317, 303 *)
  when (Wipe "generate.nc_secret" ;; fail) ;;                              (* 320-323 *)
  Copy "generate.nc_secret" privkey ;;                                     (* 326 *)
  Wipe "generate.nc_secret" ;; Ret true.                                   (* 329-377 *)
(** key.c:441-491 nostr_key_ecdh *)
Definition p_ecdh (privkey shared : place) : prog :=
  when fail ;;
  Copy privkey "ecdh.nc_secret" ;;                                         (* 459 *)
  when (Wipe "ecdh.nc_secret" ;; fail) ;;                                  (* 462-465 *)
  Put Key "ecdh.shared_point" ;; Copy "ecdh.shared_point" shared ;;        (* 462-467 *)
  Wipe "ecdh.nc_secret" ;; Wipe "ecdh.shared_point" ;; Ret true.
(** key.c:534-601 nostr_keypair_from_private_key *)
Definition p_from_key (privkey kp : place) : prog :=
  when fail ;;
  Copy privkey kp ;; Copy privkey "from_key.nc_secret" ;;                  (* 547-553 *)
  when (Wipe "from_key.nc_secret" ;; Wipe kp ;; fail) ;;                   (* 555-559 *)
  when (Wipe "from_key.nc_secret" ;; Wipe kp ;; fail) ;;                   (* 561-565 *)
  Wipe "from_key.nc_secret" ;; Ret true.                                   (* 567-600 *)
(** key.c:520-532 nostr_keypair_from_private_hex; nostr_privkey_from_hex stores byte
    by byte and fails at the first bad pair (410-426) *)
Definition p_from_hex (kp : place) : prog :=
  when fail ;;
  Star (Put Key kp ;; when fail) ;;                                        (* 418-423 *)
  Call (p_from_key kp kp) fail ;; Ret true.
(** key.c:621-684 nostr_keypair_validate *)
Definition p_validate (kp : place) : prog :=
  when fail ;;
  Copy kp "validate.nc_secret" ;;                                          (* 639 *)
  when (Wipe "validate.nc_secret" ;; fail) ;;                              (* 642-645 *)
  when (Wipe "validate.nc_secret" ;; fail) ;;                              (* 647-650 *)
  Wipe "validate.nc_secret" ;; Or (Ret true) fail.                         (* 653-655 *)
(** key.c:704-713 nostr_keypair_destroy *)
Definition p_destroy (kp : place) : prog := Wipe kp ;; Ret true.

(** ** src/event.c:593-692 nostr_event_sign *)
Definition p_sign (privkey : place) : prog :=
  when fail ;;
  Copy privkey "sign.nc_secret" ;;                                         (* 609 *)
  when (Wipe "sign.nc_secret" ;; fail) ;;                                  (* 611-614 *)
  when (Wipe "sign.nc_secret" ;; fail) ;;                                  (* 618-622 *)
  when (Wipe "sign.nc_secret" ;; fail) ;;                                  (* 625-628 *)
  Put Noise "sign.random32" ;;
  when (Wipe "sign.nc_secret" ;; Wipe "sign.random32" ;; fail) ;;          (* 630-634 *)
  Wipe "sign.nc_secret" ;; Wipe "sign.random32" ;; Ret true.

(** ** src/nip44.c *)
(** nip44.c:62-90 pad_plaintext *)
Definition p_pad (text padded : place) : prog := when fail ;; Copy text padded ;; Ret true.
(** nip44.c:248-361 nostr_nip44_encrypt.  The label encrypt_cleanup (354-360). *)
Definition enc_cleanup (ok : bool) : prog := Wipe "enc.nc_secret" ;; Wipe "enc.hmac_key" ;; Ret ok.
Definition p_encrypt (privkey text : place) : prog :=
  when fail ;;                                                             (* 264-278 *)
  Copy privkey "enc.nc_secret" ;;                                          (* 280 *)
  when (enc_cleanup false) ;;                                              (* 285-288 *)
  Call (p_pad text "enc.padded") (enc_cleanup false) ;;                    (* 290-294 *)
  when (enc_cleanup false) ;;                                              (* 296-300 *)
  when (enc_cleanup false) ;;                                              (* 302-308 *)
  Put Key "enc.hmac_key" ;;                                                (* 310 *)
  when (enc_cleanup false) ;;                                              (* 311-316 *)
  when (enc_cleanup false) ;;                                              (* 319-323 *)
  when (enc_cleanup false) ;;                                              (* 330-333 *)
  when (enc_cleanup false) ;;                                              (* 336-340 *)
  Or (enc_cleanup true) (enc_cleanup false).                               (* 350-360 *)
(** nip44.c:92-128 unpad_plaintext *)
Definition p_unpad (padded result : place) : prog := when fail ;; Copy padded result ;; Ret true.
(** nip44.c:363-485 nostr_nip44_decrypt; decrypt_cleanup: 479-484 *)
Definition dec_cleanup (ok : bool) : prog := Wipe "dec.nc_secret" ;; Ret ok.
Definition p_decrypt (privkey plaintext : place) : prog :=
  when fail ;;                                                             (* 381-409 *)
  Copy privkey "dec.nc_secret" ;;                                          (* 416 *)
  when (dec_cleanup false) ;;                                              (* 421-425 *)
  when (dec_cleanup false) ;;                                              (* 438-441 *)
  when (dec_cleanup false) ;;                                              (* 443-447 *)
  when (dec_cleanup false) ;;                                              (* 451-456 *)
  when (dec_cleanup false) ;;                                              (* 458-462 *)
  Put Text "dec.decrypted" ;;                                              (* 458 *)
  Call (p_unpad "dec.decrypted" "dec.unpadded") (dec_cleanup false) ;;     (* 464-467 *)
  when (dec_cleanup false) ;;                                              (* 469-473 *)
  Copy "dec.unpadded" plaintext ;;                                         (* 475 *)
  dec_cleanup true.
(** nip44.c:502-585 nostr_nip04_encrypt; what the cipher writes is no plaintext *)
Definition enc4_cleanup (ok : bool) : prog := Wipe "enc4.shared" ;; Ret ok.
Definition p_encrypt4 (privkey : place) : prog :=
  when fail ;;
  Call (p_ecdh privkey "enc4.shared") fail ;;                              (* 522-524 *)
  Star (when (enc4_cleanup false)) ;;                                      (* 526-574 *)
  enc4_cleanup true.
(** nip44.c:587-686 nostr_nip04_decrypt.  A failing EVP_DecryptUpdate or _Final may
    have written part of the plaintext. *)
Definition dec4_cleanup (ok : bool) : prog := Wipe "dec4.shared" ;; Wipe "dec4.decrypted" ;; Ret ok.
Definition p_decrypt4 (privkey plaintext : place) : prog :=
  when fail ;;                                                             (* 602-616 *)
  Star (when (dec4_cleanup false)) ;;                                      (* 622-630 *)
  Call (p_ecdh privkey "dec4.shared") (dec4_cleanup false) ;;              (* 632-635 *)
  Star (when (dec4_cleanup false)) ;;                                      (* 637-652 *)
  Put Text "dec4.decrypted" ;;
  when (dec4_cleanup false) ;; when (dec4_cleanup false) ;;                (* 654-662 *)
  when (dec4_cleanup false) ;;                                             (* 666-670 *)
  Copy "dec4.decrypted" plaintext ;;                                       (* 672 *)
  dec4_cleanup true.

(** ** src/nip49.c *)
(** nip49.c:37-84 hchacha20 *)
Definition p_hchacha (key subkey : place) : prog := Copy key "hchacha.state" ;; Copy "hchacha.state" subkey ;; Wipe "hchacha.state" ;; Ret true.
(** nip49.c:86-136, 138-189 the two ciphers *)
Definition p_seal (key : place) : prog :=
  Call (p_hchacha key "xchacha.subkey") Skip ;; Star Skip ;; Wipe "xchacha.subkey" ;; Or (Ret true) fail.
Definition p_open (key plaintext : place) : prog :=
  Call (p_hchacha key "xchacha.subkey") Skip ;;
  Star (when (Wipe "xchacha.subkey" ;; fail)) ;;
  Put Key plaintext ;;                                                     (* 178: a private key *)
  Wipe "xchacha.subkey" ;; Or (Ret true) fail.
(** nip49.c:247-322 nostr_ncryptsec_encrypt *)
Definition enc49_cleanup (ok : bool) : prog := Wipe "enc49.symmetric_key" ;; Ret ok.
Definition p_encrypt49 (privkey : place) : prog :=
  when fail ;; when (enc49_cleanup false) ;;
  Put Key "enc49.symmetric_key" ;; when (enc49_cleanup false) ;;           (* 275 *)
  Call (p_seal "enc49.symmetric_key") (enc49_cleanup false) ;;             (* 278-283 *)
  when (enc49_cleanup false) ;; when (enc49_cleanup false) ;;              (* 296-302 *)
  enc49_cleanup true.
(** nip49.c:324-381 nostr_ncryptsec_decrypt *)
Definition p_decrypt49 (privkey : place) : prog :=
  when fail ;; when (Wipe "dec49.symmetric_key" ;; fail) ;;
  Put Key "dec49.symmetric_key" ;; when (Wipe "dec49.symmetric_key" ;; fail) ;;
  Call (p_open "dec49.symmetric_key" privkey)
       (Wipe privkey ;; Wipe "dec49.symmetric_key" ;; fail) ;;             (* 366-373 *)
  Wipe "dec49.symmetric_key" ;; Ret true.

(** ** src/nip26.c:184-279 nostr_delegation_create *)
Definition p_delegate (privkey : place) : prog :=
  when fail ;;
  Copy privkey "deleg.nc_secret" ;;                                        (* 211 *)
  when (Wipe "deleg.nc_secret" ;; fail) ;;                                 (* 213-216 *)
  when (Wipe "deleg.nc_secret" ;; fail) ;;                                 (* 221-224 *)
  Put Noise "deleg.random32" ;;
  when (Wipe "deleg.nc_secret" ;; fail) ;;                                 (* 226-229 *)
  Wipe "deleg.nc_secret" ;; Wipe "deleg.random32" ;;                       (* 231-232 *)
  when fail ;; when fail ;; Ret true.                                      (* 266-276 *)

(** ** src/nip59.c, src/nip17.c *)
(** nip59.c:73-86, 364-378, nip17.c:131-145, 309-321: the public key of a private one *)
Definition p_public (privkey secret : place) : prog :=
  Copy privkey secret ;; when (Wipe secret ;; fail) ;; Wipe secret ;; Ret true.
(** nip59.c:328-429, nip17.c:92-195 create_seal *)
Definition p_seal_event (privkey rumor json : place) : prog :=
  when fail ;;
  Copy rumor json ;;                                                       (* the JSON text *)
  Call (p_encrypt privkey json) fail ;;
  when fail ;; when fail ;;
  Call (p_public privkey "seal.nc_secret") fail ;;
  when fail ;; when fail ;;
  Call (p_sign privkey) fail ;; Ret true.
(** nip59.c:431-539, nip17.c:197-290 create_gift_wrap; a seal holds no plaintext *)
Definition p_gift : prog :=
  when fail ;;
  Call (p_generate "gift.ephemeral") fail ;;
  when (Wipe "gift.ephemeral" ;; fail) ;;                                  (* to JSON *)
  Call (p_encrypt "gift.ephemeral" "gift.seal_json") (Wipe "gift.ephemeral" ;; fail) ;;
  Star (when (Wipe "gift.ephemeral" ;; fail)) ;;                           (* create .. compute_id *)
  Call (p_sign "gift.ephemeral") (Wipe "gift.ephemeral" ;; fail) ;;
  Wipe "gift.ephemeral" ;; Ret true.
(** nip59.c:37-218 nostr_nip59_wrap_event *)
Definition p_wrap (privkey event : place) : prog :=
  when fail ;;
  Copy event "wrap.event_json" ;; when fail ;;                             (* 53-66 *)
  Call (p_public privkey "wrap.nc_secret") fail ;;                         (* 73-86 *)
  Call (p_encrypt privkey "wrap.event_json") fail ;;
  when fail ;; when fail ;; Call (p_sign privkey) fail ;;
  p_gift.
(** nip59.c:220-285 nostr_nip59_unwrap_event, nip17.c:394-464 nostr_nip17_unwrap_dm:
    both decryptions give a JSON text that is parsed and wiped.  The parsed seal
    holds no plaintext, the parsed event is the caller's. *)
Definition p_unwrap (privkey event : place) : prog :=
  when fail ;;
  Call (p_decrypt privkey "unwrap.seal_json") fail ;;
  Wipe "unwrap.seal_json" ;;
  when fail ;; when fail ;; when fail ;;
  Call (p_decrypt privkey "unwrap.event_json") fail ;;
  Or (Copy "unwrap.event_json" event) (Wipe "unwrap.event_json" ;; fail) ;;
  Wipe "unwrap.event_json" ;; Ret true.
(** nip17.c:292-392 nostr_nip17_send_dm: the rumor is an event on the heap *)
Definition p_send_dm (privkey content : place) : prog :=
  when fail ;;
  Call (p_public privkey "dm.nc_secret") fail ;;                           (* 309-321 *)
  when fail ;; Copy content "dm.rumor" ;; Star (when fail) ;;              (* 343-380 *)
  Call (p_seal_event privkey "dm.rumor" "seal.json") fail ;;               (* 382-386 *)
  Call p_gift fail ;; Ret true.                                            (* 388-391 *)

(** ** src/nip46.c *)
(** nip46.c:12-71 nostr_nip46_parse_request; [request]: the caller's struct *)
Definition p_parse_request (privkey request : place) : prog :=
  when fail ;;
  Call (p_decrypt privkey "n46.decrypted") fail ;;                         (* 30-34 *)
  when fail ;; Copy "n46.decrypted" "n46.root" ;;                          (* 37-41 *)
  Copy "n46.root" request ;; Ret true.                                     (* 43-64 *)
(** nip46.c:73-152 nostr_nip46_create_response *)
Definition p_create_response (privkey response : place) : prog :=
  when fail ;; Copy response "n46.content_obj" ;;                          (* 82-98 *)
  when fail ;; Copy "n46.content_obj" "n46.content_str" ;;                 (* 100-104 *)
  Call (p_encrypt privkey "n46.content_str") fail ;;                       (* 107-112 *)
  Star (when fail) ;; Call (p_sign privkey) fail ;; Ret true.              (* 114-149 *)

(** ** src/nip47.c *)
(** nip47.c:556-656, 786-844 reading a response or a notification; [outs]: what the
    caller gets *)
Definition p_parse_answer (privkey outs : place) : prog :=
  when fail ;;
  Call (p_decrypt privkey "n47.decrypted") fail ;;
  when fail ;; Copy "n47.decrypted" "n47.root" ;;
  Copy "n47.root" outs ;; Ret true.
(** nip47.c:415-554 nostr_nip47_create_request_event *)
Definition p_request (conn params : place) : prog :=
  when fail ;;
  Copy conn "request.nc_secret" ;;                                         (* 436 *)
  when fail ;;                                                             (* 438-442 *)
  Star (when fail) ;;                                                      (* 464-517 *)
  Copy params "request.payload" ;;                                         (* 518-519 *)
  Or (Call (p_encrypt conn "request.payload") fail) fail ;;                (* 521-536 *)
  Star (when fail) ;;
  Call (p_sign conn) fail ;; Ret true.
(** nip47.c:155-264 nostr_nip47_parse_connection_uri: params is a copy of the query;
    free_connection (94-111) wipes the secret *)
Definition p_connect (uri conn : place) : prog :=
  when fail ;;
  Copy uri "connect.params" ;;                                             (* 183 *)
  Star (Or (Wipe conn ;; fail)                                             (* a failing parameter *)
        (Or Skip (Put Key conn))) ;;                                       (* 229-241 *)
  Or (Wipe conn ;; fail) (Ret true).                                       (* 257-263 *)
(** nip47.c:846-850 nostr_nip47_free_connection *)
Definition p_disconnect (conn : place) : prog := Wipe conn ;; Ret true.

(** ** src/hd_key.c *)
(** hd_key.c:37-99 nostr_hd_key_from_seed *)
Definition p_from_seed (seed master : place) : prog :=
  when fail ;; Wipe master ;; when fail ;;                                 (* 42-50: memset, HMAC *)
  Put Key "seed.hash" ;; Copy "seed.hash" master ;;                        (* 48-53 *)
  Copy master "seed.nc_seckey" ;;                                          (* 59 *)
  when (Wipe "seed.hash" ;; Wipe master ;; fail) ;;                        (* 61-65 *)
  Wipe "seed.nc_seckey" ;;                                                 (* 69 *)
  Wipe "seed.hash" ;; Ret true.                                            (* 97 *)
(** hd_key.c:101-206 nostr_hd_key_derive *)
Definition p_derive (parent child : place) : prog :=
  when fail ;; Wipe child ;;                                               (* 107 memset *)
  Or (Copy parent "derive.data") (when fail) ;;                            (* 112-130 *)
  when (Wipe "derive.data" ;; fail) ;;                                     (* 135-138 *)
  Put Key "derive.hash" ;; Copy "derive.hash" child ;;                     (* 140 chain code *)
  Copy parent "derive.privkey" ;;                                          (* 143 *)
  when (Wipe "derive.hash" ;; Wipe "derive.data" ;; Wipe "derive.privkey" ;; fail) ;;      (* 145-150 *)
  Put Key "derive.privkey" ;; Copy "derive.privkey" child ;;               (* 152 *)
  Copy "derive.privkey" "derive.seckey" ;;                                 (* 158 *)
  when (Wipe "derive.hash" ;; Wipe "derive.data" ;; Wipe "derive.privkey" ;; Wipe "derive.seckey" ;; fail) ;; (* 160-166 *)
  Wipe "derive.seckey" ;; Wipe "derive.data" ;; Wipe "derive.privkey" ;; Wipe "derive.hash" ;; Ret true.
(** hd_key.c:208-279 nostr_hd_key_derive_path *)
Definition p_derive_path (master derived : place) : prog :=
  when fail ;; when (Copy master derived ;; Ret true) ;; when fail ;;      (* 210-227 *)
  Copy master "path.current" ;;                                            (* 230 *)
  Star (when (Wipe "path.current" ;; fail) ;;                              (* 246-251 *)
        Call (p_derive "path.current" "path.next") (Wipe "path.current" ;; fail) ;;        (* 258-264 *)
        Wipe "path.current" ;; Copy "path.next" "path.current" ;; Wipe "path.next") ;;     (* 266-268 *)
  Copy "path.current" derived ;; Wipe "path.current" ;; Ret true.
(** hd_key.c:281-294 nostr_hd_key_to_keypair *)
Definition p_to_keypair (hd kp : place) : prog := when fail ;; Wipe kp ;; Copy hd kp ;; Ret true.
(** hd_key.c:315-377 nostr_mnemonic_generate; the hash of the entropy is not counted *)
Definition p_mnemonic (out : place) : prog :=
  when fail ;; when fail ;;                                                (* 317-336 *)
  Put Key "mnemonic.entropy" ;; Copy "mnemonic.entropy" "mnemonic.combined" ;;
  Star (when (Wipe "mnemonic.entropy" ;; Wipe "mnemonic.combined" ;; fail) ;; Put Key out) ;;    (* 346-370 *)
  Wipe "mnemonic.entropy" ;; Wipe "mnemonic.combined" ;; Ret true.
(** hd_key.c:379-458 nostr_mnemonic_validate; indices: the words as numbers *)
Definition p_mnemonic_validate (words : place) : prog :=
  when fail ;; Copy words "words.copy" ;;                                  (* 386 *)
  Star (when (Wipe "words.copy" ;; fail) ;; Copy words "words.indices") ;; (* 396-405 *)
  when (Wipe "words.copy" ;; fail) ;; Wipe "words.copy" ;;                 (* 407-414 *)
  when fail ;;                                                             (* 424-426 *)
  Copy "words.indices" "words.entropy" ;;                                  (* 431-441 *)
  Wipe "words.entropy" ;; Or fail (Ret true).                              (* 450-457 *)
(** hd_key.c:478-562 nostr_mnemonic_to_seed, with utf8proc (489-533) and without
    (534-561) *)
Definition p_to_seed_utf8 (words pass seed : place) : prog :=
  when fail ;; Call (p_mnemonic_validate words) fail ;;
  when fail ;; Copy words "toseed.mnemonic" ;;                             (* 491-494 *)
  when (when fail ;; Copy pass "toseed.passphrase") ;;                     (* 496-503 *)
  when fail ;;                                                             (* 508-513 *)
  Copy pass "toseed.salt" ;;
  Or (Put Key seed ;; Wipe "toseed.salt" ;; Wipe "toseed.mnemonic" ;; Wipe "toseed.passphrase" ;; Ret true)
     (Wipe "toseed.salt" ;; Wipe "toseed.mnemonic" ;; Wipe "toseed.passphrase" ;; fail).   (* 520-533 *)
Definition p_to_seed (words pass seed : place) : prog :=
  when fail ;; Call (p_mnemonic_validate words) fail ;;
  when fail ;; when fail ;;                                                (* 535-545 *)
  Copy pass "toseed.salt" ;;                                               (* 547-550 *)
  Or (Put Key seed ;; Wipe "toseed.salt" ;; Ret true) (Wipe "toseed.salt" ;; fail).        (* 553-560 *)
(** hd_key.c:564-598 nostr_mnemonic_to_keypair *)
Definition p_to_kp (words pass kp : place) : prog :=
  when fail ;;
  Call (p_to_seed words pass "tokp.seed") fail ;;
  Call (p_from_seed "tokp.seed" "tokp.master") (Wipe "tokp.seed" ;; fail) ;;
  Wipe "tokp.seed" ;;
  Call (p_derive_path "tokp.master" "tokp.derived") (Wipe "tokp.master" ;; fail) ;;
  Wipe "tokp.master" ;;
  Call (p_to_keypair "tokp.derived" kp) (Wipe "tokp.derived" ;; fail) ;;
  Wipe "tokp.derived" ;; Ret true.

(** ** src/bech32.c *)
(** bech32.c:205-237 nostr_privkey_to_bech32 *)
Definition p_to_nsec (privkey out : place) : prog :=
  when fail ;; Copy privkey "tonsec.data" ;; when fail ;; when fail ;; Copy "tonsec.data" out ;; Ret true.
(** bech32.c:239-274 nostr_privkey_from_bech32 *)
Definition p_from_nsec (text privkey : place) : prog :=
  when fail ;; Star (when fail ;; Copy text "fromnsec.data") ;; when fail ;;
  Copy "fromnsec.data" "fromnsec.decoded" ;; when fail ;;
  Copy "fromnsec.decoded" privkey ;; Ret true.
