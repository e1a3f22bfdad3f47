(** Decimal printing and scanning of integers (printf %d/%u/PRId64, strtoul). *)
From Verif Require Import Base.
Open Scope N_scope.

Fixpoint dec_digits (fuel : nat) (n : N) : list N :=
  match fuel with
  | O => []
  | S f => if n <? 10 then [48 + n] else dec_digits f (n / 10) ++ [48 + n mod 10]
  end.
(** printf "%u" *)
Definition dec_N (n : N) : list N := dec_digits (S (N.size_nat n)) n.
(** printf "%d" *)
Definition dec_Z (z : Z) : list N :=
  match z with
  | Zneg p => 45 :: dec_N (Npos p)
  | _ => dec_N (Z.to_N z)
  end.

Definition is_digit (c : N) : bool := (48 <=? c) && (c <=? 57).
(** value of a digit string *)
Definition undec_from (a : N) (s : list N) : N := fold_left (fun a c => a * 10 + (c - 48)) s a.
Definition undec (s : list N) : N := undec_from 0 s.

(** leading digits and the rest *)
Fixpoint span_digits (s : list N) : list N * list N :=
  match s with
  | c :: r => if is_digit c then let '(d, t) := span_digits r in (c :: d, t) else ([], s)
  | [] => ([], [])
  end.

Lemma undec_from_app a x y : undec_from a (x ++ y) = undec_from (undec_from a x) y.
Proof. unfold undec_from. apply fold_left_app. Qed.

Lemma dec_digits_ok : forall f n, n < 10 ^ N.of_nat f ->
  undec (dec_digits f n) = n /\ Forall (fun c => is_digit c = true) (dec_digits f n) /\
  (length (dec_digits f n) <= f)%nat.
Proof.
  induction f as [|f IH]; intros n H.
  - simpl in H. assert (n = 0) by lia. subst. repeat split; [constructor|simpl; lia].
  - cbn [dec_digits]. destruct (N.ltb_spec n 10) as [G|G].
    + repeat split.
      * unfold undec, undec_from. cbn [fold_left]. lia.
      * constructor; [|constructor]. apply andb_true_iff. split; apply N.leb_le; lia.
      * cbn [length]. lia.
    + assert (Q : n / 10 < 10 ^ N.of_nat f).
      { apply N.div_lt_upper_bound; [lia|]. rewrite Nat2N.inj_succ, N.pow_succ_r' in H. exact H. }
      destruct (IH _ Q) as (I1 & I2 & I3). repeat split.
      * unfold undec. rewrite undec_from_app. fold (undec (dec_digits f (n / 10))). rewrite I1.
        unfold undec_from. cbn [fold_left].
        clear. pose proof (N.div_mod n 10 ltac:(lia)) as D. set (q := n / 10) in *. set (r := n mod 10) in *.
        clearbody q r. lia.
      * apply Forall_app. split; [exact I2|]. constructor; [|constructor].
        clear. pose proof (N.mod_lt n 10 ltac:(lia)) as D. set (r := n mod 10) in *. clearbody r.
        apply andb_true_iff. split; apply N.leb_le; lia.
      * rewrite app_length. cbn [length]. lia.
Qed.

Lemma size_nat_bound n : n < 2 ^ N.of_nat (N.size_nat n).
Proof.
  destruct n as [|p]; [reflexivity|]. cbn [N.size_nat].
  induction p as [p IH|p IH|]; cbn [Pos.size_nat]; [| |reflexivity];
    rewrite Nat2N.inj_succ, N.pow_succ_r'; set (x := 2 ^ _) in *; clearbody x; lia.
Qed.

Lemma dec_fuel n : n < 10 ^ N.of_nat (S (N.size_nat n)).
Proof.
  eapply N.lt_le_trans; [apply size_nat_bound|].
  etransitivity; [apply (N.pow_le_mono_r 2 (N.of_nat (N.size_nat n)) (N.of_nat (S (N.size_nat n)))); lia|].
  apply N.pow_le_mono_l. lia.
Qed.

Lemma undec_dec n : undec (dec_N n) = n.
Proof. apply dec_digits_ok, dec_fuel. Qed.
Lemma dec_is_digits n : Forall (fun c => is_digit c = true) (dec_N n).
Proof. apply dec_digits_ok, dec_fuel. Qed.
Lemma dec_inj a b : dec_N a = dec_N b -> a = b.
Proof. intros H. rewrite <- (undec_dec a), H. apply undec_dec. Qed.

Lemma dec_digits_indep : forall f g n, n < 10 ^ N.of_nat f -> n < 10 ^ N.of_nat g ->
  (0 < f)%nat -> (0 < g)%nat -> dec_digits f n = dec_digits g n.
Proof.
  induction f as [|f IH]; intros g n Hf Hg F G; [lia|].
  destruct g as [|g]; [lia|]. cbn [dec_digits].
  destruct (N.ltb_spec n 10); [reflexivity|]. f_equal.
  rewrite Nat2N.inj_succ, N.pow_succ_r' in Hf, Hg.
  apply IH; try (apply N.div_lt_upper_bound; lia).
  - destruct f; [|lia]. change (10 ^ N.of_nat 0) with 1 in Hf. lia.
  - destruct g; [|lia]. change (10 ^ N.of_nat 0) with 1 in Hg. lia.
Qed.

(** A k-digit bound on the printed length. *)
Lemma dec_length n k : (0 < k)%nat -> n < 10 ^ N.of_nat k -> (length (dec_N n) <= k)%nat.
Proof.
  intros K H. unfold dec_N.
  rewrite (dec_digits_indep _ k) by (try apply dec_fuel; lia).
  apply dec_digits_ok. exact H.
Qed.

Lemma dec_nonempty n : dec_N n <> [].
Proof.
  unfold dec_N. cbn [dec_digits]. destruct (n <? 10); [discriminate|].
  intros E. apply app_eq_nil in E. destruct E. discriminate.
Qed.

Lemma dec_head_digit n : exists c r, dec_N n = c :: r /\ is_digit c = true.
Proof.
  pose proof (dec_nonempty n). pose proof (dec_is_digits n) as F.
  destruct (dec_N n) as [|c r]; [congruence|]. inversion F; subst. eauto.
Qed.

Lemma span_digits_app s r : Forall (fun c => is_digit c = true) s ->
  match r with c :: _ => is_digit c = false | [] => True end ->
  span_digits (s ++ r) = (s, r).
Proof.
  induction 1 as [|c s H F IH]; intros R; cbn [app span_digits].
  - destruct r as [|c r]; [reflexivity|]. cbn [span_digits]. rewrite R. reflexivity.
  - rewrite H, IH by exact R. reflexivity.
Qed.

Lemma dec_Z_inj a b : dec_Z a = dec_Z b -> a = b.
Proof.
  assert (P : forall p z, dec_N (Npos p) <> [] /\ 45 :: dec_N (Npos p) <> dec_N z).
  { intros p z. split; [apply dec_nonempty|]. intros E.
    pose proof (dec_is_digits z) as F. rewrite <- E in F. inversion F. discriminate. }
  destruct a as [|p|p], b as [|q|q]; cbn [dec_Z]; intros E; auto;
    try (exfalso; eapply P; eassumption); try (exfalso; eapply P; symmetry; eassumption).
  - apply dec_inj in E. discriminate.
  - apply dec_inj in E. discriminate.
  - apply dec_inj in E. cbn in E. congruence.
  - injection E as E. apply dec_inj in E. congruence.
Qed.

(** int64 values print in at most 20 characters. *)
Lemma dec_Z_length z : (- 2 ^ 63 <= z < 2 ^ 63)%Z -> (length (dec_Z z) <= 20)%nat.
Proof.
  intros H. destruct z as [|p|p]; cbn [dec_Z].
  - cbn. lia.
  - assert ((length (dec_N (Z.to_N (Zpos p))) <= 19)%nat); [|lia].
    apply dec_length; [lia|]. change (10 ^ N.of_nat 19) with 10000000000000000000. lia.
  - assert ((length (dec_N (Npos p)) <= 19)%nat); [|cbn [length]; lia].
    apply dec_length; [lia|]. change (10 ^ N.of_nat 19) with 10000000000000000000. lia.
Qed.
