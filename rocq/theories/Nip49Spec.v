(** Independent specification for NIP-49: HChaCha20 as a 4x4 matrix of words
    (draft-irtf-cfrg-xchacha), and the contract of the library calls. *)
From Verif Require Import Base.
Open Scope N_scope.

Definition word := N.
Definition add32 (a b : word) : word := (a + b) mod 2 ^ 32.
Definition rot (n : N) (v : word) : word := N.lor ((v * 2 ^ n) mod 2 ^ 32) (v / 2 ^ (32 - n)).

(** RFC 8439, 2.1 *)
Definition quarter (q : word * word * word * word) : word * word * word * word :=
  let '(a, b, c, d) := q in
  let a := add32 a b in let d := rot 16 (N.lxor d a) in
  let c := add32 c d in let b := rot 12 (N.lxor b c) in
  let a := add32 a b in let d := rot 8 (N.lxor d a) in
  let c := add32 c d in let b := rot 7 (N.lxor b c) in
  (a, b, c, d).

Definition row : Type := word * word * word * word.
Definition matrix : Type := row * row * row * row.
Definition columns (m : matrix) : matrix :=
  let '((a0, a1, a2, a3), (b0, b1, b2, b3), (c0, c1, c2, c3), (d0, d1, d2, d3)) := m in
  let '(a0, b0, c0, d0) := quarter (a0, b0, c0, d0) in
  let '(a1, b1, c1, d1) := quarter (a1, b1, c1, d1) in
  let '(a2, b2, c2, d2) := quarter (a2, b2, c2, d2) in
  let '(a3, b3, c3, d3) := quarter (a3, b3, c3, d3) in
  ((a0, a1, a2, a3), (b0, b1, b2, b3), (c0, c1, c2, c3), (d0, d1, d2, d3)).
Definition left1 (r : row) : row := let '(a, b, c, d) := r in (b, c, d, a).
Definition shift_rows (m : matrix) : matrix :=
  let '(a, b, c, d) := m in (a, left1 b, left1 (left1 c), left1 (left1 (left1 d))).
Definition unshift_rows (m : matrix) : matrix :=
  let '(a, b, c, d) := m in (a, left1 (left1 (left1 b)), left1 (left1 c), left1 d).
Definition two_rounds (m : matrix) : matrix := unshift_rows (columns (shift_rows (columns m))).

Fixpoint le_word (l : list N) : N := match l with [] => 0 | b :: r => b + 256 * le_word r end.
Definition word_at (l : list N) (i : nat) : word := le_word (firstn 4 (skipn (4 * i) l)).
Definition row_at (l : list N) (i : nat) : row :=
  (word_at l (4 * i), word_at l (4 * i + 1), word_at l (4 * i + 2), word_at l (4 * i + 3)).
Definition le_word_bytes (w : word) : list N :=
  [w mod 256; w / 256 mod 256; w / 65536 mod 256; w / 16777216 mod 256].
Definition row_bytes (r : row) : list N :=
  let '(a, b, c, d) := r in le_word_bytes a ++ le_word_bytes b ++ le_word_bytes c ++ le_word_bytes d.

Definition spec_hchacha (key nonce : list N) : list N :=
  let m := (row_at (bs "expand 32-byte k") 0, row_at key 0, row_at key 1, row_at nonce 0) in
  let '(a, _, _, d) := Nat.iter 10 two_rounds m in
  row_bytes a ++ row_bytes d.

(** Sealing then opening with the same inputs gives the plaintext back, and
    sealing keeps the length and produces a 16-byte tag. *)
Definition aead_contract
  (seal : list N -> list N -> list N -> list N -> option (list N * list N))
  (open : list N -> list N -> list N -> list N -> list N -> option (list N) * bool) : Prop :=
  forall k n a p c t, seal k n a p = Some (c, t) ->
    length c = length p /\ length t = 16%nat /\ bytes_ok c /\ bytes_ok t /\ open k n a c t = (Some p, true).
