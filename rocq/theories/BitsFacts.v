(** Big-endian bit strings and regrouping (used by bech32, NIP-06). *)
From Verif Require Import Base BaseFacts.
Open Scope N_scope.

(** [bitsof w v]: the [w] low bits of [v], most significant first. *)
Fixpoint bitsof (w : nat) (v : N) : list bool :=
  match w with
  | O => []
  | S k => N.testbit v (N.of_nat k) :: bitsof k v
  end.

(** [flat w l]: concatenation of the [w]-bit groups of [l]. *)
Definition flat (w : nat) (l : list N) : list bool := flat_map (bitsof w) l.

Lemma bitsof_length w v : length (bitsof w v) = w.
Proof. induction w; simpl; auto. Qed.

Lemma flat_length w l : length (flat w l) = (w * length l)%nat.
Proof.
  unfold flat. induction l; simpl; [lia|].
  rewrite app_length, bitsof_length, IHl. lia.
Qed.

Lemma flat_app w a b : flat w (a ++ b) = flat w a ++ flat w b.
Proof. unfold flat. apply flat_map_app. Qed.

Lemma bitsof_ext w a b :
  (forall i, (i < N.of_nat w) -> N.testbit a i = N.testbit b i) ->
  bitsof w a = bitsof w b.
Proof.
  induction w; simpl; intros H; auto.
  rewrite H by lia. f_equal. apply IHw. intros; apply H; lia.
Qed.

Lemma bitsof_inv w a b :
  bitsof w a = bitsof w b ->
  forall i, i < N.of_nat w -> N.testbit a i = N.testbit b i.
Proof.
  induction w; simpl; intros H i Hi; [lia|].
  injection H as H1 H2.
  destruct (N.eq_dec i (N.of_nat w)) as [->|]; auto. apply IHw; auto; lia.
Qed.

Lemma testbit_high w v i : v < 2 ^ w -> w <= i -> N.testbit v i = false.
Proof.
  intros H1 H2.
  rewrite <- (N.mod_small v (2 ^ w)) by auto.
  apply N.mod_pow2_bits_high; auto.
Qed.

Lemma bitsof_inj w a b :
  a < 2 ^ N.of_nat w -> b < 2 ^ N.of_nat w -> bitsof w a = bitsof w b -> a = b.
Proof.
  intros Ha Hb H. apply N.bits_inj. intros i.
  destruct (N.lt_ge_cases i (N.of_nat w)).
  - eapply bitsof_inv; eauto.
  - rewrite !(testbit_high (N.of_nat w)) by auto. reflexivity.
Qed.

Lemma bitsof_add a b v :
  bitsof (a + b) v = bitsof a (N.shiftr v (N.of_nat b)) ++ bitsof b v.
Proof.
  induction a; simpl; auto.
  rewrite N.shiftr_spec by lia. f_equal.
  - f_equal; lia.
  - auto.
Qed.

Lemma bitsof_zero w : bitsof w 0 = repeat false w.
Proof. induction w; cbn [bitsof repeat]; rewrite ?N.bits_0; congruence. Qed.

Lemma flat_inj w l1 l2 :
  (0 < w)%nat ->
  Forall (fun v => v < 2 ^ N.of_nat w) l1 ->
  Forall (fun v => v < 2 ^ N.of_nat w) l2 ->
  flat w l1 = flat w l2 -> l1 = l2.
Proof.
  intros W. revert l2; induction l1 as [|a l1 IH]; intros l2 F1 F2 E.
  - destruct l2 as [|b l2]; auto.
    apply (f_equal (@length bool)) in E. rewrite !flat_length in E. simpl in E. nia.
  - destruct l2 as [|b l2].
    + apply (f_equal (@length bool)) in E. rewrite !flat_length in E. simpl in E. nia.
    + unfold flat in E. simpl in E.
      apply app_inv_length in E as [E1 E2]; [|rewrite !bitsof_length; auto].
      inversion F1; inversion F2; subst.
      f_equal; [eapply bitsof_inj; eauto|apply IH; auto].
Qed.

Lemma flat_zero_repeat w n : flat w (repeat 0 n) = repeat false (w * n).
Proof.
  induction n; simpl; [now rewrite Nat.mul_0_r|].
  unfold flat in *. simpl. rewrite IHn, bitsof_zero.
  rewrite <- repeat_app. f_equal. lia.
Qed.
