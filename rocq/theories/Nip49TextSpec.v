(** The encrypted private keys of NIP-49, from its text. *)
From Verif Require Import Base Nip49Spec Bip173Spec.
Open Scope N_scope.

(** The symmetric key is scrypt of the password in Unicode normal form NFKC
    with 2^LOG_N rounds; the private key is sealed with XChaCha20-Poly1305 and
    the key security byte as associated data; the bech32 text holds the version
    number 2, LOG_N, the salt, the nonce, the security byte and what was sealed. *)
Definition encrypted_key
  (scrypt : list N -> list N -> N -> option (list N))
  (seal : list N -> list N -> list N -> list N -> option (list N * list N))
  (nfkc : list N -> list N)
  (key password : list N) (log_n : N) (salt nonce : list N) (sec : N) (s : list N) : Prop :=
  exists k ct mac,
    scrypt (nfkc password) salt log_n = Some k /\
    seal (spec_hchacha k (firstn 16 nonce)) (repeat 0 4 ++ skipn 16 nonce) [sec] key = Some (ct, mac) /\
    bech32_text (bs "ncryptsec") ([2; log_n] ++ salt ++ nonce ++ [sec] ++ ct ++ mac) s.

(** scrypt is asked for 32 bytes. *)
Definition scrypt_ok (scrypt : list N -> list N -> N -> option (list N)) : Prop :=
  forall p s n k, scrypt p s n = Some k -> length k = 32%nat /\ bytes_ok k.
