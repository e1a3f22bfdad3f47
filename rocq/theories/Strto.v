(** C library integer scanning (strtol, strtoll, strtoul, atoi; base 10, glibc). *)
From Verif Require Import Base Dec.
Open Scope N_scope.

(** isspace in the C locale *)
Definition is_space (c : N) : bool := (c =? 32) || ((9 <=? c) && (c <=? 13)).
Fixpoint skip_space (s : list N) : list N :=
  match s with
  | c :: r => if is_space c then skip_space r else s
  | [] => []
  end.

(** optional sign, then digits: (negative, digits, rest) *)
Definition scan_sign (s : list N) : bool * list N :=
  match s with
  | c :: r => if c =? 45 then (true, r) else if c =? 43 then (false, r) else (false, s)
  | [] => (false, [])
  end.
Definition scan_int (s : list N) : option (bool * N * list N) :=
  let '(neg, r) := scan_sign (skip_space s) in
  let '(d, t) := span_digits r in
  match d with [] => None | _ => Some (neg, undec d, t) end.

(** strtol/strtoll (64-bit): value, and the text at *endptr (the whole text
    when there are no digits) *)
Definition strtoll (s : list N) : Z * list N :=
  match scan_int s with
  | None => (0%Z, s)
  | Some (neg, v, t) =>
    let z := if neg then (- Z.of_N v)%Z else Z.of_N v in
    (Z.max (- 2 ^ 63) (Z.min z (2 ^ 63 - 1)), t)
  end.
(** strtoul (64-bit): a minus sign negates modulo 2^64 *)
Definition strtoul (s : list N) : N * list N :=
  match scan_int s with
  | None => (0, s)
  | Some (neg, v, t) =>
    (if 18446744073709551615 <? v then 18446744073709551615
     else if neg then (18446744073709551616 - v) mod 18446744073709551616 else v, t)
  end.
(** conversion to int / uint32_t *)
Definition to_i32 (z : Z) : Z := ((z + 2 ^ 31) mod 2 ^ 32 - 2 ^ 31)%Z.
Definition to_u32 (n : N) : N := n mod 4294967296.
(** glibc: atoi is (int) strtol *)
Definition atoi (s : list N) : Z := to_i32 (fst (strtoll s)).

Lemma digit_not_space c : is_digit c = true -> is_space c = false /\ (c =? 45) = false /\ (c =? 43) = false.
Proof.
  unfold is_digit, is_space. intros H. apply andb_true_iff in H. destruct H as (A & B).
  apply N.leb_le in A, B.
  rewrite (proj2 (N.eqb_neq c 32)), (proj2 (N.eqb_neq c 45)), (proj2 (N.eqb_neq c 43)) by lia.
  rewrite (proj2 (N.leb_gt c 13)) by lia. rewrite andb_false_r. auto.
Qed.

(** a printed number scans back *)
Lemma scan_int_dec n r : match r with c :: _ => is_digit c = false | [] => True end ->
  scan_int (dec_N n ++ r) = Some (false, n, r).
Proof.
  intros R. unfold scan_int. destruct (dec_head_digit n) as (c & t & E & D).
  destruct (digit_not_space c D) as (S1 & S2 & S3).
  assert (SS : skip_space (dec_N n ++ r) = dec_N n ++ r) by (rewrite E; cbn [app skip_space]; rewrite S1; reflexivity).
  rewrite SS.
  assert (SG : scan_sign (dec_N n ++ r) = (false, dec_N n ++ r)) by (rewrite E; cbn [app scan_sign]; rewrite S2, S3; reflexivity).
  rewrite SG, (span_digits_app _ _ (dec_is_digits n) R), undec_dec. rewrite E. reflexivity.
Qed.
Lemma strtoul_dec n r : n < 2 ^ 64 -> match r with c :: _ => is_digit c = false | [] => True end ->
  strtoul (dec_N n ++ r) = (n, r).
Proof.
  intros H R. unfold strtoul. rewrite (scan_int_dec _ _ R). rewrite (proj2 (N.ltb_ge _ _)) by lia. reflexivity.
Qed.
Lemma strtoll_dec n r : n < 2 ^ 63 -> match r with c :: _ => is_digit c = false | [] => True end ->
  strtoll (dec_N n ++ r) = (Z.of_N n, r).
Proof.
  intros H R. unfold strtoll. rewrite (scan_int_dec _ _ R). cbn beta iota zeta.
  f_equal. lia.
Qed.
Lemma to_i32_id z : (- 2 ^ 31 <= z < 2 ^ 31)%Z -> to_i32 z = z.
Proof. intros H. unfold to_i32. rewrite Z.mod_small; lia. Qed.
Lemma to_i32_range z : (- 2 ^ 31 <= to_i32 z < 2 ^ 31)%Z.
Proof. unfold to_i32. pose proof (Z.mod_pos_bound (z + 2 ^ 31) (2 ^ 32) ltac:(lia)). lia. Qed.
Lemma atoi_dec n : n < 2 ^ 31 -> atoi (dec_N n) = Z.of_N n.
Proof.
  intros H. unfold atoi. rewrite <- (app_nil_r (dec_N n)), strtoll_dec by (exact I || lia).
  apply to_i32_id. cbn [fst]. lia.
Qed.
