(** Model of the key pair object and the random generator of src/key.c:119-209,
    441-713 (the build with noscrypt). *)
From Verif Require Import Base Hex GiftWrap.
Open Scope N_scope.

(** include/nostr.h:118-122 *)
Record keypair : Set := mkKP { kp_sk : list N; kp_pk : list N; kp_init : bool }.
Definition zeros : list N := repeat 0 32.

(** src/key.c:410-426 nostr_privkey_from_hex into a buffer holding [old]: bytes are
    stored one by one, so a failing call leaves a new beginning *)
Fixpoint scan_into (n : nat) (s old : list N) : list N * bool :=
  match n with
  | O => ([], true)
  | S n' =>
    match scan_hh s with
    | None => (old, false)
    | Some b => let '(r, ok) := scan_into n' (skipn 2 s) (tl old) in (b :: r, ok)
    end
  end.

Section KeyPair.
Variable pubkey_of : list N -> option (list N).
Variable seckey_valid : list N -> bool.
(** memcpy between the same object is undefined in ISO C; most libraries leave the
    bytes as they are.  [strict]: ISO C *)
Variable strict : bool.

(** src/key.c:493-503 nostr_keypair_init *)
Definition kp_new : keypair := mkKP zeros zeros false.
(** src/key.c:505-518 nostr_keypair_generate; [started]: what nostr_init says *)
Definition kp_generate (started : option err) (draws : list (option (list N))) (k : keypair) : keypair * option err :=
  match started with
  | Some e => (k, Some e)
  | None =>
    match key_generate pubkey_of seckey_valid draws with
    | Ok (sk, pk) => (mkKP sk pk true, None)
    | Err e => (k, Some e)
    | Undef => (k, None)
    end
  end.
(** src/key.c:534-601 nostr_keypair_from_private_key *)
Definition kp_from_key (started : option err) (sk : list N) (k : keypair) : keypair * option err :=
  match started with
  | Some e => (k, Some e)
  | None =>
    if negb (seckey_valid sk) then (mkKP zeros (kp_pk k) (kp_init k), Some EInvalidKey)
    else match pubkey_of sk with
         | None => (mkKP zeros (kp_pk k) (kp_init k), Some EInvalidKey)
         | Some pk => (mkKP sk pk true, None)
         end
  end.
(** src/key.c:520-532 nostr_keypair_from_private_hex *)
Definition kp_from_hex (started : option err) (s : list N) (k : keypair) : res (keypair * option err) :=
  if negb (length s =? 64)%nat then Ok (k, Some EInvalidKey)
  else
    let '(sk, ok) := scan_into 32 s (kp_sk k) in
    let k1 := mkKP sk (kp_pk k) (kp_init k) in
    if negb ok then Ok (k1, Some EInvalidKey)
    else match started with
         | None => if strict then Undef else Ok (kp_from_key None sk k1)
         | Some _ => Ok (kp_from_key started sk k1)
         end.
(** src/key.c:603-619 nostr_keypair_export_private_hex, _public_hex *)
Definition kp_private_hex (k : keypair) (size : nat) : res (list N) := if negb (kp_init k) then Err EInvalidParam else key_to_hex (kp_sk k) size.
Definition kp_public_hex (k : keypair) (size : nat) : res (list N) := if negb (kp_init k) then Err EInvalidParam else key_to_hex (kp_pk k) size.
(** src/key.c:621-684 nostr_keypair_validate *)
Definition kp_validate (started : option err) (k : keypair) : res unit :=
  if negb (kp_init k) then Err EInvalidParam
  else match started with
       | Some e => Err e
       | None =>
         if negb (seckey_valid (kp_sk k)) then Err EInvalidKey
         else match pubkey_of (kp_sk k) with
              | None => Err EInvalidKey
              | Some pk => do d <- constant_time_memcmp (kp_pk k) pk 32; if fst d =? 0 then Ok tt else Err EInvalidKey
              end
       end.
(** src/key.c:686-702 nostr_keypair_public_key, _private_key *)
Definition kp_public (k : keypair) : option (list N) := if kp_init k then Some (kp_pk k) else None.
Definition kp_private (k : keypair) : option (list N) := if kp_init k then Some (kp_sk k) else None.
(** src/key.c:704-713 nostr_keypair_destroy *)
Definition kp_destroy (k : keypair) : keypair := kp_new.

Inductive kop : Set := KInit | KGenerate (started : option err) (draws : list (option (list N))) | KFromKey (started : option err) (sk : list N) | KFromHex (started : option err) (s : list N) | KDestroy.
Definition kp_step (o : kop) (k : keypair) : res (keypair * option err) :=
  match o with
  | KInit => Ok (kp_new, None)
  | KGenerate st d => Ok (kp_generate st d k)
  | KFromKey st sk => Ok (kp_from_key st sk k)
  | KFromHex st s => kp_from_hex st s k
  | KDestroy => Ok (kp_destroy k, None)
  end.
Fixpoint kp_run (l : list kop) (k : keypair) : res keypair :=
  match l with [] => Ok k | o :: r => do x <- kp_step o k; kp_run r (fst x) end.
End KeyPair.

(** src/key.c:441-491 nostr_key_ecdh; [shared]: NCGetSharedSecret *)
Definition key_ecdh (shared : list N -> list N -> option (list N)) (started : option err) (sk pk : list N) : res (list N) :=
  match started with
  | Some e => Err e
  | None => match shared sk pk with None => Err EInvalidKey | Some p => Ok (firstn 32 p) end
  end.

(** ** Random bytes *)
(** src/key.c:187-195 and 199-206: the buffer in pieces of at most [limit] bytes
    (INT_MAX for RAND_bytes, 1024 for mbedtls_ctr_drbg_random).  [draw i n]: the
    library's [i]-th answer to a request for [n] bytes.  The result: what was
    written, the sizes asked for, and the return value. *)
Fixpoint random_loop (draw : nat -> nat -> option (list N)) (limit fuel i len : nat) : list N * list nat * bool :=
  match fuel with
  | O => ([], [], true)
  | S f =>
    if (len =? 0)%nat then ([], [], true)
    else
      let chunk := if (limit <? len)%nat then limit else len in
      match draw i chunk with
      | None => ([], [chunk], false)
      | Some b => let '(r, q, ok) := random_loop draw limit f (S i) (len - chunk) in (b ++ r, chunk :: q, ok)
      end
  end.
(** src/key.c:198-208 with OpenSSL *)
Definition random_bytes (draw : nat -> nat -> option (list N)) (len : nat) : list N * list nat * bool := random_loop draw (N.to_nat 2147483647) len 0 len.
(** src/key.c:126-197 with mbedTLS: the generator is seeded once.  What happens to
    the lock and the two library objects is recorded. *)
Inductive rng_event : Set := RLock | RUnlock | RSetup | RSeed (ok : bool) | RFree | RDraw (n : nat).
Definition random_bytes_mbed (seed : bool) (draw : nat -> nat -> option (list N)) (seeded : bool) (len : nat) : bool * list rng_event * list N * bool :=
  if negb seeded && negb seed then (false, [RLock; RSetup; RSeed false; RFree; RUnlock], [], false)
  else
    let '(b, q, ok) := random_loop draw 1024 len 0 len in
    (true, [RLock] ++ (if seeded then [] else [RSetup; RSeed true]) ++ map RDraw q ++ [RUnlock], b, ok).
