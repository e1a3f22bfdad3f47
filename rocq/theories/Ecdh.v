(** Model of nostr_key_ecdh (src/key.c:441-491) in the build with libsecp256k1; the
    build with noscrypt is [key_ecdh] of KeyPair.v. *)
From Verif Require Import Base KeyPair.
Open Scope N_scope.

Section Secp.
Variable point : Type.
(** secp256k1_ec_pubkey_parse; secp256k1_ecdh with no hash function given;
    secp256k1_ec_seckey_verify, secp256k1_ec_pubkey_create and the two functions that
    give the x-only form *)
Variable parse : list N -> option point.
Variable ecdh : point -> list N -> option (list N).
Variable create : list N -> option point.
Variable xonly : point -> list N.

(** src/key.c:471-484 *)
Definition key_ecdh_secp (started : option err) (sk pk : list N) : res (list N) :=
  match started with
  | Some e => Err e
  | None =>
    match parse (2 :: pk) with
    | None => Err EInvalidKey
    | Some q => match ecdh q sk with None => Err EInvalidKey | Some s => Ok s end
    end
  end.
(** src/key.c:571-592: the public key of a pair; the parity is thrown away *)
Definition public_secp (sk : list N) : option (list N) := match create sk with None => None | Some q => Some (xonly q) end.
End Secp.
