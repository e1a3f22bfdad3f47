(** The encrypted messages of NIP-44 version 2, from its text, over the
    primitives it names.  Nothing here mentions the model. *)
From Verif Require Import Base Nip21 Nip44Spec.
Open Scope N_scope.

(** The first coordinate of the product of a private and a public key, HKDF
    extract (salt, input) and expand (key, info, size), ChaCha20 (key, nonce,
    data), HMAC-SHA256 (key, data), and base64. *)
Record prims : Type := mkPrims {
  shared : list N -> list N -> option (list N);
  extract : list N -> list N -> list N;
  expand : list N -> list N -> N -> list N;
  chacha : list N -> list N -> list N -> list N;
  hmac : list N -> list N -> list N;
  base64 : list N -> list N }.
Record prims_ok (P : prims) : Prop := {
  p_len : forall k n d, length (chacha P k n d) = length d;
  p_bytes : forall k n d, bytes_ok d -> bytes_ok (chacha P k n d);
  p_twice : forall k n d, bytes_ok d -> chacha P k n (chacha P k n d) = d;
  p_mac : forall k d, length (hmac P k d) = 32%nat /\ bytes_ok (hmac P k d) }.

(** "hkdf_expand(OKM=conversation_key, info=nonce, L=76): chacha_key (bytes
    0..32), chacha_nonce (bytes 32..44), hmac_key (bytes 44..76)" *)
Definition message_keys (P : prims) (x nonce : list N) : list N := expand P (extract P (bs "nip44-v2") x) nonce 76.
Definition cipher (P : prims) (keys d : list N) : list N := chacha P (firstn 32 keys) (firstn 12 (skipn 32 keys)) d.
Definition tag (P : prims) (keys d : list N) : list N := hmac P (firstn 32 (skipn 44 keys)) d.
(** "[plaintext_length: u16][plaintext][zero_bytes]" *)
Definition padded (m : list N) : list N :=
  [blen m / 256; blen m mod 256] ++ m ++ repeat 0 (N.to_nat (nip44_spec_padded (blen m) - blen m)).
(** "base64_encode(concat(version, nonce, ciphertext, mac))" *)
Definition nip44_text (P : prims) (sk pk nonce m t : list N) : Prop :=
  exists x, shared P sk pk = Some x /\
    let keys := message_keys P x nonce in
    let ct := cipher P keys (padded m) in
    t = base64 P ([2] ++ nonce ++ ct ++ tag P keys (nonce ++ ct)).

(** noscrypt does the part from the key agreement to the cipher. *)
Record noscrypt44 (P : prims)
  (nce : list N -> list N -> list N -> list N -> option (list N * list N)) (ncm : list N -> list N -> list N)
  (ncv : list N -> list N -> list N -> list N -> list N -> bool)
  (ncd : list N -> list N -> list N -> list N -> option (list N)) : Prop := {
  n_enc : forall sk pk n d, nce sk pk n d =
    option_map (fun x => (cipher P (message_keys P x n) d, firstn 32 (skipn 44 (message_keys P x n)))) (shared P sk pk);
  n_mac : forall hk d, ncm hk d = hmac P hk d;
  n_ver : forall sk pk n d mac, ncv sk pk n d mac = true <->
    exists x, shared P sk pk = Some x /\ mac = tag P (message_keys P x n) d;
  n_dec : forall sk pk n d, ncd sk pk n d = option_map (fun x => cipher P (message_keys P x n) d) (shared P sk pk) }.

(** The lengths at which the library pads as NIP-44 does. *)
Definition common_length (n : N) : Prop := n <= 256 \/ N.odd ((n - 1) / (2 ^ N.log2 n / 8)) = true.
