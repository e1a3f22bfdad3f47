(** Independent vocabulary for the bech32 properties. *)
From Verif Require Import Base.

(** BIP-173 data alphabet. *)
Definition bech32_alphabet : list N := bs "qpzry9x8gf2tvdw0s3jn54khce6mua7l".

(** Number of positions at which two strings differ (equal lengths). *)
Fixpoint hamming (a b : list N) : nat :=
  match a, b with
  | x :: a', y :: b' => (if N.eqb x y then 0 else 1) + hamming a' b'
  | _, _ => 0
  end.

(** A 32-byte value. *)
Definition bytes32 (k : list N) : Prop := length k = 32 /\ bytes_ok k.

(** Undefined behaviour does not occur. *)
Definition safe {A} (r : res A) : Prop := r <> Undef.
