(** What a block cipher promises, and what it is to alter a message without its key. *)
From Verif Require Import Base.
Open Scope N_scope.

(** A permutation of the blocks of 16 bytes for every key of 32 bytes *)
Record block_ok (E D : list N -> list N -> list N) : Prop := mkBlock {
  b_len : forall key b, length key = 32%nat -> length b = 16%nat -> bytes_ok b -> length (E key b) = 16%nat /\ bytes_ok (E key b);
  b_inv : forall key b, length key = 32%nat -> length b = 16%nat -> bytes_ok b -> D key (E key b) = b }.
(** Two messages of fewer than 16 bytes, or two of the same length that are the same
    from their byte 16 on *)
Definition first_block_apart (m m' : list N) : Prop :=
  (length m < 16 /\ length m' < 16)%nat \/ (length m = length m' /\ skipn 16 m = skipn 16 m').
