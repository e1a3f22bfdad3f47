(** Lemmas about the model of src/bech32.c. *)
From Verif Require Import Base BaseFacts BitsFacts Bech32.
Open Scope N_scope.

(** * Linearity of the checksum polynomial *)

Lemma lxor4 a b c d : N.lxor (N.lxor a b) (N.lxor c d) = N.lxor (N.lxor a c) (N.lxor b d).
Proof.
  rewrite !N.lxor_assoc. f_equal. rewrite <- !N.lxor_assoc. f_equal. apply N.lxor_comm.
Qed.

Lemma sel_xor b1 b2 g : sel (xorb b1 b2) g = N.lxor (sel b1 g) (sel b2 g).
Proof.
  destruct b1, b2; simpl; rewrite ?N.lxor_0_l, ?N.lxor_0_r, ?N.lxor_nilpotent; auto.
Qed.

Lemma genmix_xor t1 t2 c1 c2 :
  genmix (N.lxor t1 t2) (N.lxor c1 c2) = N.lxor (genmix t1 c1) (genmix t2 c2).
Proof.
  unfold genmix. rewrite !N.lxor_spec, !sel_xor.
  rewrite !(lxor4 _ (sel (N.testbit t1 _) _)). reflexivity.
Qed.

Lemma land_lxor a b c : N.land (N.lxor a b) c = N.lxor (N.land a c) (N.land b c).
Proof.
  apply N.bits_inj. intros i. rewrite !N.land_spec, !N.lxor_spec, !N.land_spec.
  destruct (N.testbit a i), (N.testbit b i), (N.testbit c i); reflexivity.
Qed.

Lemma polystep_xor a b v w :
  polystep (N.lxor a b) (N.lxor v w) = N.lxor (polystep a v) (polystep b w).
Proof.
  unfold polystep.
  rewrite N.shiftr_lxor, land_lxor, N.shiftl_lxor, lxor4, genmix_xor. reflexivity.
Qed.

Fixpoint xorl (a b : list N) : list N :=
  match a, b with
  | x :: a', y :: b' => N.lxor x y :: xorl a' b'
  | _, _ => []
  end.

Lemma xorl_length a b : length a = length b -> length (xorl a b) = length a.
Proof. revert b; induction a; destruct b; simpl; intros; try discriminate; auto. Qed.

Lemma polymod_from_xor vs ws a b :
  length vs = length ws ->
  N.lxor (polymod_from a vs) (polymod_from b ws) = polymod_from (N.lxor a b) (xorl vs ws).
Proof.
  revert ws a b; induction vs as [|v vs IH]; destruct ws as [|w ws]; simpl;
    intros a b L; try discriminate; auto.
  injection L as L. unfold polymod_from in *. simpl. rewrite IH by auto.
  rewrite polystep_xor. reflexivity.
Qed.

Lemma polymod_from_app a vs ws :
  polymod_from a (vs ++ ws) = polymod_from (polymod_from a vs) ws.
Proof. unfold polymod_from. apply fold_left_app. Qed.

(** * Size of the checksum register *)

Lemma lxor_lt n a b : a < 2 ^ n -> b < 2 ^ n -> N.lxor a b < 2 ^ n.
Proof.
  intros Ha Hb.
  destruct (N.eq_dec (N.lxor a b) 0) as [->|Hn]; [lia|].
  apply N.log2_lt_pow2; [lia|].
  pose proof (N.log2_lxor a b).
  destruct (N.eq_dec a 0) as [->|Ha0].
  { rewrite N.lxor_0_l in *. apply N.log2_lt_pow2; lia. }
  destruct (N.eq_dec b 0) as [->|Hb0].
  { rewrite N.lxor_0_r in *. apply N.log2_lt_pow2; lia. }
  apply N.log2_lt_pow2 in Ha; [|lia]. apply N.log2_lt_pow2 in Hb; [|lia]. lia.
Qed.

Lemma sel_lt n b g : g < 2 ^ n -> sel b g < 2 ^ n.
Proof. destruct b; simpl; lia. Qed.

Lemma polystep_lt c v : v < 2 ^ 30 -> polystep c v < 2 ^ 30.
Proof.
  intros Hv. unfold polystep, genmix.
  repeat apply lxor_lt; try (apply sel_lt; reflexivity); auto.
  change 0x1ffffff with (N.ones 25). rewrite N.land_ones, N.shiftl_mul_pow2.
  pose proof (N.mod_lt c (2 ^ 25)). change (2 ^ 30) with (2 ^ 25 * 2 ^ 5).
  apply N.mul_lt_mono_pos_r; lia.
Qed.

Lemma polymod_from_lt a vs :
  a < 2 ^ 30 -> Forall (fun v => v < 2 ^ 30) vs -> polymod_from a vs < 2 ^ 30.
Proof.
  revert a; induction vs as [|v vs IH]; unfold polymod_from; simpl; intros a Ha F; auto.
  inversion F; subst. apply IH; auto. apply polystep_lt; auto.
Qed.

(** * Appending six 5-bit digits *)

Lemma genmix_0 c : genmix 0 c = c.
Proof. unfold genmix. rewrite !N.bits_0. simpl. rewrite !N.lxor_0_r. auto. Qed.

Lemma polystep_small c v :
  c < 2 ^ 25 -> polystep c v = N.lxor (c * 32) v.
Proof.
  intros H. unfold polystep.
  replace (N.shiftr c 25) with 0
    by (rewrite N.shiftr_div_pow2, N.div_small; auto).
  rewrite genmix_0. change 0x1ffffff with (N.ones 25).
  rewrite N.land_ones, N.mod_small by auto.
  rewrite N.shiftl_mul_pow2. reflexivity.
Qed.

Lemma lxor_mul32 a b : b < 32 -> N.lxor (a * 32) b = a * 32 + b.
Proof.
  intros H. symmetry. apply N.add_nocarry_lxor.
  change 32 with (2 ^ 5) in *. rewrite <- N.shiftl_mul_pow2.
  apply N.bits_inj. intros i. rewrite N.land_spec, N.bits_0.
  destruct (N.lt_ge_cases i 5).
  - rewrite N.shiftl_spec_low by auto. reflexivity.
  - rewrite (testbit_high 5 b) by auto. apply andb_false_r.
Qed.

Definition pack (l : list N) : N := fold_left (fun a v => a * 32 + v) l 0.

Lemma pack_lt_gen l a k :
  a < 2 ^ (5 * k) -> Forall (fun v => v < 32) l ->
  fold_left (fun a v => a * 32 + v) l a < 2 ^ (5 * (k + N.of_nat (length l))).
Proof.
  revert a k; induction l as [|v l IH]; simpl length; intros a k Ha F.
  - simpl. rewrite N.add_0_r. auto.
  - inversion F; subst. cbn [fold_left].
    replace (5 * (k + N.of_nat (S (length l)))) with (5 * ((k + 1) + N.of_nat (length l))) by lia.
    apply IH; auto.
    replace (5 * (k + 1)) with (5 * k + 5) by lia. rewrite N.pow_add_r.
    change (2 ^ 5) with 32. nia.
Qed.

Lemma polymod_small_gen l a k :
  a < 2 ^ (5 * k) -> k + N.of_nat (length l) <= 6 -> Forall (fun v => v < 32) l ->
  polymod_from a l = fold_left (fun a v => a * 32 + v) l a.
Proof.
  revert a k; induction l as [|v l IH]; simpl length; intros a k Ha Hk F; auto.
  inversion F; subst. unfold polymod_from in *. cbn [fold_left].
  rewrite polystep_small.
  - rewrite lxor_mul32 by auto. apply (IH _ (k + 1)); auto; try lia.
    replace (5 * (k + 1)) with (5 * k + 5) by lia. rewrite N.pow_add_r.
    change (2 ^ 5) with 32. nia.
  - eapply N.lt_le_trans; eauto. apply N.pow_le_mono_r; lia.
Qed.

Lemma xorl_repeat0 l : xorl (repeat 0 (length l)) l = l.
Proof. induction l; cbn [repeat length xorl]; rewrite ?N.lxor_0_l; congruence. Qed.

Lemma polymod_append_digits a l :
  (length l <= 6)%nat -> Forall (fun v => v < 32) l ->
  polymod_from a l = N.lxor (polymod_from a (repeat 0 (length l))) (pack l).
Proof.
  intros L F.
  assert (P0 : polymod_from 0 l = pack l)
    by (unfold pack; apply (polymod_small_gen _ _ 0); auto; try reflexivity; lia).
  rewrite <- P0, polymod_from_xor by (rewrite repeat_length; auto).
  rewrite N.lxor_0_r, xorl_repeat0. reflexivity.
Qed.

Lemma cksum_digits_lt p : Forall (fun v => v < 32) (cksum_digits p).
Proof.
  unfold cksum_digits.
  repeat constructor; change 31 with (N.ones 5); rewrite N.land_ones;
    (apply N.mod_lt; discriminate).
Qed.

Lemma digit_eq p k : N.land (N.shiftr p k) 31 = (p / 2 ^ k) mod 32.
Proof.
  change 31 with (N.ones 5). rewrite N.land_ones, N.shiftr_div_pow2. reflexivity.
Qed.

Ltac divlia := zify; Z.to_euclidean_division_equations; lia.

Lemma pack_cksum p : p < 2 ^ 30 -> pack (cksum_digits p) = p.
Proof.
  intros H. unfold cksum_digits, pack. cbn [map fold_left].
  rewrite !digit_eq.
  change (2 ^ (5 * (5 - 0))) with 33554432.
  change (2 ^ (5 * (5 - 1))) with 1048576.
  change (2 ^ (5 * (5 - 2))) with 32768.
  change (2 ^ (5 * (5 - 3))) with 1024.
  change (2 ^ (5 * (5 - 4))) with 32.
  change (2 ^ (5 * (5 - 5))) with 1.
  change (2 ^ 30) with 1073741824 in H.
  divlia.
Qed.

Lemma cksum_pack a b c d e f :
  Forall (fun v => v < 32) [a; b; c; d; e; f] ->
  cksum_digits (pack [a; b; c; d; e; f]) = [a; b; c; d; e; f].
Proof.
  intros H. repeat match goal with H : Forall _ (_ :: _) |- _ => inversion H; clear H; subst end.
  unfold cksum_digits, pack. cbn [map fold_left].
  rewrite !digit_eq.
  change (2 ^ (5 * (5 - 0))) with 33554432.
  change (2 ^ (5 * (5 - 1))) with 1048576.
  change (2 ^ (5 * (5 - 2))) with 32768.
  change (2 ^ (5 * (5 - 3))) with 1024.
  change (2 ^ (5 * (5 - 4))) with 32.
  change (2 ^ (5 * (5 - 5))) with 1.
  repeat f_equal; divlia.
Qed.

(** * Bit regrouping *)

Lemma bitsof_land w v : bitsof w (N.land v (2 ^ N.of_nat w - 1)) = bitsof w v.
Proof.
  apply bitsof_ext. intros i Hi.
  rewrite N.sub_1_r, <- N.ones_equiv, N.land_ones, N.mod_pow2_bits_low; auto.
Qed.

Lemma land_lt v t : N.land v (2 ^ t - 1) < 2 ^ t.
Proof.
  rewrite N.sub_1_r, <- N.ones_equiv, N.land_ones. apply N.mod_lt.
  apply N.pow_nonzero; lia.
Qed.

Lemma cb_drain_spec t outlen acc :
  (0 < t)%nat ->
  forall fuel bits out bits' out',
  (N.to_nat bits <= fuel)%nat ->
  cb_drain fuel (N.of_nat t) outlen acc bits out = Some (bits', out') ->
  exists new, out' = out ++ new /\ bits' < N.of_nat t /\
    bitsof (N.to_nat bits) acc = flat t new ++ bitsof (N.to_nat bits') acc /\
    Forall (fun v => v < 2 ^ N.of_nat t) new /\
    ((length out <= outlen)%nat -> (length out' <= outlen)%nat).
Proof.
  intros T. induction fuel as [|fuel IH]; intros bits out bits' out' Hf E.
  - simpl in E. injection E as <- <-. exists []. rewrite app_nil_r. simpl.
    repeat split; auto; lia.
  - cbn [cb_drain] in E.
    destruct (N.leb_spec (N.of_nat t) bits) as [Hb|Hb].
    + destruct (Nat.leb_spec outlen (length out)) as [|Ho]; [discriminate|].
      apply IH in E as (new & -> & Hlt & Hbits & Hf2 & Hlen); [|lia].
      eexists (_ :: new). rewrite <- app_assoc. simpl.
      split; [reflexivity|]. split; [auto|]. split; [|split].
      * replace (N.to_nat bits) with (t + N.to_nat (bits - N.of_nat t))%nat by lia.
        rewrite bitsof_add, Hbits.
        unfold flat. simpl. rewrite bitsof_land, N2Nat.id, <- app_assoc. reflexivity.
      * constructor; auto. apply land_lt.
      * intros _. rewrite !app_length in *. simpl in *. lia.
    + injection E as <- <-. exists []. rewrite app_nil_r. simpl. repeat split; auto.
Qed.

Lemma cb_drain_some t outlen acc :
  (0 < t)%nat ->
  forall fuel bits out,
  (N.of_nat t * N.of_nat (length out) + bits < N.of_nat t * N.of_nat outlen + N.of_nat t) ->
  exists r, cb_drain fuel (N.of_nat t) outlen acc bits out = Some r.
Proof.
  intros T. induction fuel as [|fuel IH]; intros bits out H; cbn [cb_drain]; eauto.
  destruct (N.leb_spec (N.of_nat t) bits) as [Hb|Hb]; eauto.
  destruct (Nat.leb_spec outlen (length out)) as [Ho|Ho].
  - nia.
  - apply IH. rewrite app_length. simpl. nia.
Qed.

Lemma acc_bits acc v f t bits :
  (0 < t)%nat -> (f + t <= 33)%nat -> bits < N.of_nat t -> v < 2 ^ N.of_nat f ->
  bitsof (N.to_nat (bits + N.of_nat f))
         (N.land (N.lor (N.shiftl acc (N.of_nat f) mod 2 ^ 32) v)
                 (2 ^ (N.of_nat f + N.of_nat t - 1) - 1)) =
  bitsof (N.to_nat bits) acc ++ bitsof f v.
Proof.
  intros T FT Hb Hv.
  replace (N.to_nat (bits + N.of_nat f)) with (N.to_nat bits + f)%nat by lia.
  rewrite bitsof_add.
  rewrite N.sub_1_r, <- N.ones_equiv, N.land_ones.
  f_equal; apply bitsof_ext; intros i Hi.
  - rewrite N.shiftr_spec by lia. rewrite N.mod_pow2_bits_low by lia.
    rewrite N.lor_spec. rewrite (testbit_high (N.of_nat f) v) by lia.
    rewrite orb_false_r, N.mod_pow2_bits_low by lia.
    rewrite N.shiftl_spec_high by lia. f_equal; lia.
  - rewrite N.mod_pow2_bits_low by lia.
    rewrite N.lor_spec, N.mod_pow2_bits_low by lia.
    rewrite N.shiftl_spec_low by lia. reflexivity.
Qed.

Lemma shiftr_zero v f : (N.shiftr v f =? 0) = true <-> v < 2 ^ f.
Proof.
  rewrite N.eqb_eq, N.shiftr_div_pow2.
  split; intros H.
  - destruct (N.lt_ge_cases v (2 ^ f)); auto.
    exfalso. assert (P : 2 ^ f <> 0) by (apply N.pow_nonzero; lia).
    pose proof (N.div_le_mono (2 ^ f) v (2 ^ f) P H0).
    rewrite N.div_same in H1 by auto. lia.
  - apply N.div_small; auto.
Qed.

Lemma cb_loop_spec f t outlen :
  (0 < t)%nat -> (f + t <= 33)%nat ->
  forall inp acc bits out acc' bits' out',
  bits < N.of_nat t ->
  cb_loop (N.of_nat f) (N.of_nat t) outlen inp acc bits out = Some (acc', bits', out') ->
  Forall (fun v => v < 2 ^ N.of_nat f) inp /\
  exists new, out' = out ++ new /\ bits' < N.of_nat t /\
    bitsof (N.to_nat bits) acc ++ flat f inp = flat t new ++ bitsof (N.to_nat bits') acc' /\
    Forall (fun v => v < 2 ^ N.of_nat t) new /\
    ((length out <= outlen)%nat -> (length out' <= outlen)%nat).
Proof.
  intros T FT. induction inp as [|v inp IH]; intros acc bits out acc' bits' out' Hb E.
  - simpl in E. injection E as <- <- <-. split; auto. exists [].
    rewrite !app_nil_r. simpl. repeat split; auto.
  - cbn [cb_loop] in E.
    destruct (N.shiftr v (N.of_nat f) =? 0) eqn:Z; [|discriminate].
    apply shiftr_zero in Z. simpl negb in E. cbv iota in E.
    destruct (cb_drain _ _ _ _ _ _) as [[b1 o1]|] eqn:D; [|discriminate].
    apply cb_drain_spec in D as (n1 & -> & Hb1 & Hbits & Hn1 & Hl1); [|auto|lia].
    apply IH in E as (Fi & n2 & -> & Hb2 & Hbits2 & Hn2 & Hl2); [|auto].
    split; [constructor; auto|].
    exists (n1 ++ n2). rewrite <- app_assoc.
    repeat split; auto.
    + rewrite flat_app, <- app_assoc, <- Hbits2, app_assoc, <- Hbits.
      rewrite acc_bits by auto. unfold flat. simpl. rewrite app_assoc. reflexivity.
    + apply Forall_app; auto.
    + intros H. rewrite <- app_assoc in Hl2. auto.
Qed.

Lemma cb_loop_some f t outlen :
  (0 < t)%nat -> (f + t <= 33)%nat ->
  forall inp acc bits out,
  bits < N.of_nat t ->
  Forall (fun v => v < 2 ^ N.of_nat f) inp ->
  (N.of_nat t * N.of_nat (length out) + bits + N.of_nat f * N.of_nat (length inp)
     < N.of_nat t * N.of_nat outlen + N.of_nat t) ->
  exists r, cb_loop (N.of_nat f) (N.of_nat t) outlen inp acc bits out = Some r.
Proof.
  intros T FT. induction inp as [|v inp IH]; intros acc bits out Hb F H; cbn [cb_loop]; eauto.
  inversion F; subst.
  replace (N.shiftr v (N.of_nat f) =? 0) with true by (symmetry; apply shiftr_zero; auto).
  simpl negb. cbv iota.
  set (acc1 := N.land _ _).
  destruct (cb_drain_some t outlen acc1 T (N.to_nat (bits + N.of_nat f))
              (bits + N.of_nat f) out) as [[b1 o1] D].
  { simpl length in H. nia. }
  rewrite D. apply cb_drain_spec in D as (n1 & -> & Hb1 & Hbits & Hn1 & Hl1); [|auto|lia].
  apply IH; auto.
  apply (f_equal (@length bool)) in Hbits.
  rewrite app_length, !bitsof_length, flat_length in Hbits.
  rewrite app_length. simpl length in H. nia.
Qed.

Lemma shl_bits acc t bits :
  (t <= 32)%nat -> (0 < bits) -> bits < N.of_nat t ->
  bitsof t (N.land (N.shiftl acc (N.of_nat t - bits) mod 2 ^ 32) (2 ^ N.of_nat t - 1))
  = bitsof (N.to_nat bits) acc ++ repeat false (t - N.to_nat bits).
Proof.
  intros T B1 B2. rewrite bitsof_land.
  replace t with (N.to_nat bits + (t - N.to_nat bits))%nat at 1 by lia.
  rewrite bitsof_add. f_equal.
  - apply bitsof_ext. intros i Hi. rewrite N.shiftr_spec by lia.
    rewrite N.mod_pow2_bits_low by lia.
    rewrite N.shiftl_spec_high by lia. f_equal; lia.
  - rewrite <- bitsof_zero. apply bitsof_ext. intros i Hi.
    rewrite N.mod_pow2_bits_low by lia.
    rewrite N.shiftl_spec_low by lia. rewrite N.bits_0. reflexivity.
Qed.

(** Padding conversion: the output spells the input bits followed by zeros. *)
Lemma convert_pad_spec f t outlen inp :
  (0 < t)%nat -> (t <= 32)%nat -> (f + t <= 33)%nat ->
  Forall (fun v => v < 2 ^ N.of_nat f) inp ->
  (f * length inp <= t * outlen)%nat ->
  let out := convert_bits inp outlen (N.of_nat f) (N.of_nat t) true in
  Forall (fun v => v < 2 ^ N.of_nat t) out /\
  exists k, (k < t)%nat /\ flat t out = flat f inp ++ repeat false k.
Proof.
  intros T T32 FT F H. unfold convert_bits.
  destruct (cb_loop_some f t outlen T FT inp 0 0 []) as [[[acc bits] out] E]; auto; try lia.
  { simpl length. nia. }
  rewrite E.
  apply cb_loop_spec in E as (_ & new & -> & Hb & Hbits & Hn & Hl); auto; try lia.
  simpl in Hbits, Hl. cbn [app].
  destruct (N.eqb_spec bits 0) as [->|Hz].
  - simpl in Hbits. rewrite app_nil_r in Hbits. split; auto.
    exists O. split; [lia|]. rewrite app_nil_r. auto.
  - pose proof (f_equal (@length bool) Hbits) as HL.
    rewrite app_length, bitsof_length, !flat_length in HL.
    assert (HL' : (length new < outlen)%nat) by nia.
    destruct (Nat.leb_spec outlen (length new)); [lia|].
    split.
    + apply Forall_app; split; auto. constructor; auto. apply land_lt.
    + exists (t - N.to_nat bits)%nat. split; [lia|].
      rewrite flat_app. unfold flat at 2. simpl. rewrite app_nil_r.
      rewrite shl_bits by (auto; lia). rewrite app_assoc, <- Hbits. reflexivity.
Qed.

(** Strict conversion: success means the input bits are the output bits plus
    fewer than [f] zero bits. *)
Lemma convert_nopad_spec f t outlen inp :
  (0 < t)%nat -> (t <= 32)%nat -> (f <= t)%nat -> (f + t <= 33)%nat ->
  let out := convert_bits inp outlen (N.of_nat f) (N.of_nat t) false in
  out <> [] ->
  Forall (fun v => v < 2 ^ N.of_nat f) inp /\
  Forall (fun v => v < 2 ^ N.of_nat t) out /\ (length out <= outlen)%nat /\
  exists k, (k < f)%nat /\ flat f inp = flat t out ++ repeat false k.
Proof.
  intros T T32 Hft FT. unfold convert_bits. cbv zeta.
  destruct (cb_loop _ _ _ _ _ _ _) as [[[acc bits] out]|] eqn:E; [|congruence].
  apply cb_loop_spec in E as (Fi & new & -> & Hb & Hbits & Hn & Hl); auto; try lia.
  simpl in Hbits, Hl. cbn [app].
  destruct (N.leb_spec (N.of_nat f) bits) as [|Hf]; [cbn [orb]; congruence|].
  cbn [orb]. destruct (_ =? 0) eqn:Z; cbn [negb]; [|congruence].
  intros _. apply N.eqb_eq in Z. split; auto. split; auto. split; [apply Hl; lia|].
  exists (N.to_nat bits). split; [lia|]. rewrite Hbits. f_equal.
  destruct (N.eq_dec bits 0) as [->|Hz]; [reflexivity|].
  pose proof (shl_bits acc t bits T32 ltac:(lia) Hb) as S. rewrite Z in S.
  rewrite bitsof_zero in S.
  replace t with (N.to_nat bits + (t - N.to_nat bits))%nat in S at 1 by lia.
  rewrite repeat_app in S. apply app_inv_length in S as [S _]; auto.
  rewrite repeat_length, bitsof_length. reflexivity.
Qed.

Lemma convert_nopad_ok f t outlen inp out k :
  (0 < t)%nat -> (t <= 32)%nat -> (f <= t)%nat -> (f + t <= 33)%nat ->
  Forall (fun v => v < 2 ^ N.of_nat f) inp ->
  Forall (fun v => v < 2 ^ N.of_nat t) out ->
  (k < f)%nat -> (length out <= outlen)%nat ->
  flat f inp = flat t out ++ repeat false k ->
  convert_bits inp outlen (N.of_nat f) (N.of_nat t) false = out.
Proof.
  intros T T32 Hft FT Fi Fo Hk Hlen E.
  pose proof (f_equal (@length bool) E) as HL.
  rewrite app_length, repeat_length, !flat_length in HL.
  unfold convert_bits.
  destruct (cb_loop_some f t outlen T FT inp 0 0 []) as [[[acc bits] o] D]; auto; try lia.
  { simpl length. nia. }
  rewrite D. apply cb_loop_spec in D as (_ & new & -> & Hb & Hbits & Hn & Hl); auto; try lia.
  simpl in Hbits, Hl. cbn [app].
  pose proof (f_equal (@length bool) Hbits) as HL2.
  rewrite app_length, bitsof_length, !flat_length in HL2.
  assert (length new = length out) by nia.
  rewrite E in Hbits.
  apply app_inv_length in Hbits as [Ho Hz]; [|rewrite !flat_length; lia].
  apply flat_inj in Ho; auto. subst new.
  assert (Hbk : N.to_nat bits = k)
    by (apply (f_equal (@length bool)) in Hz; rewrite repeat_length, bitsof_length in Hz; auto).
  destruct (N.leb_spec (N.of_nat f) bits); [lia|].
  replace (_ =? 0) with true; [reflexivity|].
  symmetry. apply N.eqb_eq.
  destruct (N.eq_dec bits 0) as [->|Hnz].
  - rewrite N.sub_0_r. rewrite N.sub_1_r, <- N.ones_equiv, N.land_ones.
    apply N.bits_inj. intros i. rewrite N.bits_0.
    destruct (N.lt_ge_cases i (N.of_nat t)).
    + rewrite !N.mod_pow2_bits_low by lia. apply N.shiftl_spec_low; auto.
    + apply N.mod_pow2_bits_high; auto.
  - apply (bitsof_inj t); [apply land_lt|pose proof (N.pow_nonzero 2 (N.of_nat t)); lia|].
    rewrite shl_bits by (auto; lia). rewrite <- Hz, bitsof_zero, <- repeat_app.
    f_equal. lia.
Qed.

(** * Alphabet *)

Lemma charset_get_decode v : v < 32 -> charset_decode (charset_get v) = Some v.
Proof.
  intros H.
  assert (A : forallb (fun i => match charset_decode (charset_get (N.of_nat i)) with
                                | Some w => w =? N.of_nat i | None => false end) (seq 0 32) = true)
    by (vm_compute; reflexivity).
  rewrite forallb_forall in A. specialize (A (N.to_nat v)).
  rewrite N2Nat.id in A. destruct (charset_decode (charset_get v)) as [w|].
  - f_equal. apply N.eqb_eq, A, in_seq. lia.
  - discriminate A. apply in_seq. lia.
Qed.

Lemma index_of_nth c l i : index_of c l = Some i ->
  nth (N.to_nat i) l 0 = c /\ i < N.of_nat (length l).
Proof.
  revert i; induction l as [|x l IH]; simpl; intros i H; [discriminate|].
  destruct (N.eqb_spec x c) as [->|].
  - injection H as <-. split; auto. lia.
  - destruct (index_of c l) as [j|]; [|discriminate]. injection H as <-.
    destruct (IH j eq_refl) as [H1 H2]. split; [|lia].
    replace (N.to_nat (j + 1)) with (S (N.to_nat j)) by lia. auto.
Qed.

Lemma charset_decode_get c v : charset_decode c = Some v -> charset_get v = c /\ v < 32.
Proof. intros H. apply index_of_nth in H as [H1 H2]. split; auto. Qed.

Lemma charset_no_sep v : v < 32 -> charset_get v <> 49.
Proof.
  intros H E. pose proof (charset_get_decode v H) as D. rewrite E in D.
  vm_compute in D. discriminate.
Qed.

Lemma decode_chars_ok cap i d :
  Forall (fun v => v < 32) d -> (i + length d <= cap)%nat ->
  decode_chars cap i (map charset_get d) = Ok d.
Proof.
  revert i; induction d as [|v d IH]; simpl; intros i F H; auto.
  inversion F; subst. rewrite charset_get_decode by auto.
  destruct (Nat.ltb_spec i cap); [|lia]. rewrite IH; auto. lia.
Qed.

Lemma decode_chars_inv cap i s d :
  decode_chars cap i s = Ok d ->
  s = map charset_get d /\ Forall (fun v => v < 32) d /\
  (d <> [] -> (i + length d <= cap)%nat).
Proof.
  revert i d; induction s as [|c s IH]; simpl; intros i d H.
  - injection H as <-. simpl. repeat split; auto; congruence.
  - destruct (charset_decode c) as [v|] eqn:E; [|discriminate].
    apply charset_decode_get in E as [E1 E2].
    destruct (Nat.ltb_spec i cap); [|discriminate].
    apply bind_ok in H as (d' & H1 & H2). injection H2 as <-.
    apply IH in H1 as (-> & F & L). simpl. subst c. repeat split; auto.
    intros _. destruct d'; simpl in *; [lia|]. assert (S i + S (length d') <= cap)%nat; [|lia].
    apply L. congruence.
Qed.

Lemma decode_chars_undef cap i s :
  decode_chars cap i s = Undef -> (cap < i + length s)%nat.
Proof.
  revert i; induction s as [|c s IH]; simpl; intros i H; [discriminate|].
  destruct (charset_decode c); [|discriminate].
  destruct (Nat.ltb_spec i cap); [|lia].
  apply bind_undef in H as [H|(? & ? & ?)]; [|discriminate].
  apply IH in H. lia.
Qed.

Lemma last_sep_none i s f : (forall c, In c s -> c <> 49) -> last_sep i s f = f.
Proof.
  revert i f; induction s as [|c s IH]; simpl; intros i f H; auto.
  destruct (N.eqb_spec c 49) as [->|]; [exfalso; eapply H; eauto|]. apply IH; auto.
Qed.

Lemma last_sep_app p t i f :
  (forall c, In c t -> c <> 49) -> last_sep i (p ++ 49 :: t) f = Some (i + length p)%nat.
Proof.
  revert i f; induction p as [|c p IH]; simpl; intros i f H.
  - rewrite last_sep_none by auto. f_equal. lia.
  - rewrite IH by auto. f_equal. lia.
Qed.

Lemma last_sep_spec s : forall i f,
  last_sep i s f = f /\ (forall c, In c s -> c <> 49) \/
  exists p t, s = p ++ 49 :: t /\ last_sep i s f = Some (i + length p)%nat /\
              (forall c, In c t -> c <> 49).
Proof.
  induction s as [|c s IH]; simpl; intros i f.
  - left. split; auto.
  - destruct (IH (S i) (if c =? 49 then Some i else f)) as [[E H]|(p & t & -> & E & H)].
    + destruct (N.eqb_spec c 49) as [->|Hc].
      * right. exists [], s. rewrite E. simpl. repeat split; auto.
      * left. split; auto. intros x [<-|]; auto.
    + right. exists (c :: p), t. rewrite E. simpl. repeat split; auto.
Qed.

(** * Checksum round trip *)

Lemma hrp_hi_lt c : c < 256 -> hrp_hi c < 2 ^ 30.
Proof.
  intros H. unfold hrp_hi. change (2 ^ 30) with 1073741824.
  destruct (N.ltb_spec c 128); divlia.
Qed.

Lemma hrp_expand_lt hrp n e :
  bytes_ok hrp -> hrp_expand hrp n = Some e -> Forall (fun v => v < 2 ^ 30) e.
Proof.
  unfold hrp_expand. intros B H. destruct (_ <? _)%nat; [discriminate|].
  injection H as <-. apply Forall_app. split; [|constructor; [reflexivity|]].
  - rewrite Forall_map. eapply Forall_impl; [|exact B]. apply hrp_hi_lt.
  - rewrite Forall_map. eapply Forall_impl; [|exact B]. intros c Hc.
    unfold hrp_lo. change (2 ^ 30) with 1073741824. divlia.
Qed.

Lemma Some_inj {A} (x y : A) : Some x = Some y -> x = y.
Proof. intros H. injection H. auto. Qed.

Lemma verify_iff hrp e d ck :
  bytes_ok hrp -> hrp_expand hrp 84 = Some e ->
  Forall (fun v => v < 32) d -> Forall (fun v => v < 32) ck -> length ck = 6%nat ->
  (verify_checksum hrp (d ++ ck) = true <-> create_checksum hrp d = Some ck).
Proof.
  intros B E Fd Fc L. unfold verify_checksum, create_checksum. rewrite E.
  unfold polymod. rewrite !app_assoc, !(polymod_from_app 1 (e ++ d)).
  assert (F30 : Forall (fun v => v < 2 ^ 30) (e ++ d)).
  { apply Forall_app; split; [eapply hrp_expand_lt; eauto|].
    eapply Forall_impl; [|exact Fd]. intros v Hv. eapply N.lt_trans; [exact Hv|reflexivity]. }
  assert (P : polymod_from 1 (e ++ d) < 2 ^ 30) by (apply polymod_from_lt; auto; reflexivity).
  set (a := polymod_from 1 (e ++ d)) in *.
  rewrite (polymod_append_digits a ck) by (auto; lia). rewrite L.
  assert (P0 : polymod_from a (repeat 0 6) < 2 ^ 30)
    by (apply polymod_from_lt; auto; apply Forall_repeat; reflexivity).
  set (q := polymod_from a (repeat 0 6)) in *.
  assert (Q1 : N.lxor q 1 < 2 ^ 30) by (apply lxor_lt; auto; reflexivity).
  rewrite N.eqb_eq. split; intros H.
  - f_equal.
    destruct ck as [|c0 [|c1 [|c2 [|c3 [|c4 [|c5 [|]]]]]]]; try discriminate L.
    rewrite <- (cksum_pack _ _ _ _ _ _ Fc). f_equal.
    rewrite <- H. rewrite <- N.lxor_assoc, N.lxor_nilpotent. apply N.lxor_0_l.
  - apply Some_inj in H. rewrite <- H, pack_cksum by auto.
    rewrite <- N.lxor_assoc, N.lxor_nilpotent. apply N.lxor_0_l.
Qed.

Lemma create_checksum_digits hrp d ck :
  create_checksum hrp d = Some ck -> Forall (fun v => v < 32) ck /\ length ck = 6%nat.
Proof.
  unfold create_checksum. destruct (hrp_expand hrp 84); [|discriminate].
  intros H. apply Some_inj in H. subst ck. split; [apply cksum_digits_lt|reflexivity].
Qed.

Lemma create_checksum_some hrp d :
  (length hrp <= 41)%nat -> exists ck, create_checksum hrp d = Some ck.
Proof.
  intros H. unfold create_checksum, hrp_expand.
  destruct (Nat.ltb_spec 84 (length hrp * 2 + 1)); [lia|]. eauto.
Qed.

(** * Payload of 32 bytes *)

Lemma key_data key :
  length key = 32%nat -> bytes_ok key ->
  let d := convert_bits key 52 8 5 true in
  length d = 52%nat /\ Forall (fun v => v < 32) d /\
  flat 5 d = flat 8 key ++ repeat false 4.
Proof.
  intros L B.
  destruct (convert_pad_spec 8 5 52 key) as (F & k & Hk & E); try lia; auto.
  change (N.of_nat 8) with 8 in *. change (N.of_nat 5) with 5 in *. cbv zeta.
  pose proof (f_equal (@length bool) E) as H.
  rewrite app_length, repeat_length, !flat_length in H.
  set (d := convert_bits key 52 8 5 true) in *.
  assert (length d = 52 /\ k = 4)%nat as [? ->] by lia. auto.
Qed.

Lemma decode_data d out :
  length out = 32%nat -> bytes_ok out -> Forall (fun v => v < 32) d ->
  (convert_bits d 32 5 8 false = out <-> d = convert_bits out 52 8 5 true).
Proof.
  intros L B F. destruct (key_data out L B) as (L1 & F1 & E1). split; intros H.
  - destruct (convert_nopad_spec 5 8 32 d) as (_ & _ & Hl & k & Hk & E); try lia.
    { change (N.of_nat 5) with 5. change (N.of_nat 8) with 8. rewrite H.
      destruct out; simpl in L; congruence. }
    change (N.of_nat 5) with 5 in *. change (N.of_nat 8) with 8 in *. rewrite H in E.
    pose proof (f_equal (@length bool) E) as HL.
    rewrite app_length, repeat_length, !flat_length in HL.
    assert (k = 4)%nat as -> by lia.
    apply (flat_inj 5); auto; try lia. congruence.
  - apply (convert_nopad_ok 5 8 32 d out 4); auto; try lia. congruence.
Qed.

Lemma convert_nopad_bytes d : bytes_ok (convert_bits d 32 5 8 false).
Proof.
  destruct (convert_bits d 32 5 8 false) as [|x l] eqn:E; [constructor|].
  destruct (convert_nopad_spec 5 8 32 d) as (_ & H & _); try lia;
    change (N.of_nat 5) with 5 in *; change (N.of_nat 8) with 8 in *.
  - congruence.
  - rewrite E in H. exact H.
Qed.

(** * What the decoders' common tail accepts *)

Lemma decode_tail_ok hrp data key :
  bytes_ok hrp -> Forall (fun v => v < 32) data ->
  (decode_tail hrp data = Ok key <->
   length key = 32%nat /\ bytes_ok key /\
   exists ck, create_checksum hrp (convert_bits key 52 8 5 true) = Some ck /\
              data = convert_bits key 52 8 5 true ++ ck).
Proof.
  intros B F. unfold decode_tail. split.
  - destruct (verify_checksum hrp data) eqn:V; [|discriminate].
    destruct (Nat.ltb_spec (length data) 6); [discriminate|].
    destruct (Nat.eqb_spec (length (convert_bits (firstn (length data - 6) data) 32 5 8 false)) 32)
      as [L|]; [|discriminate].
    intros E. injection E as E. rewrite E in L.
    pose proof (convert_nopad_bytes (firstn (length data - 6) data)) as BK. rewrite E in BK.
    split; auto. split; auto.
    rewrite <- (firstn_skipn (length data - 6) data) in F, V |- *.
    apply Forall_app in F as [F1 F2].
    apply decode_data in E; auto.
    assert (L6 : length (skipn (length data - 6) data) = 6%nat) by (rewrite skipn_length; lia).
    exists (skipn (length data - 6) data). rewrite <- E. split; auto.
    unfold verify_checksum in V. destruct (hrp_expand hrp 84) eqn:X; [|discriminate].
    eapply verify_iff; eauto. unfold verify_checksum. rewrite X. auto.
  - intros (L & BK & ck & C & ->).
    destruct (create_checksum_digits _ _ _ C) as [Fc Lc].
    destruct (key_data key L BK) as (L1 & F1 & _).
    assert (X : exists e, hrp_expand hrp 84 = Some e).
    { unfold create_checksum in C. destruct (hrp_expand hrp 84); [eauto|discriminate]. }
    destruct X as (e & X).
    replace (verify_checksum hrp _) with true.
    2: { symmetry. eapply verify_iff; eauto. }
    rewrite app_length, Lc, L1. simpl Nat.ltb. cbv iota.
    replace (52 + 6 - 6)%nat with 52%nat by lia.
    rewrite firstn_app_exact by auto.
    replace (convert_bits (convert_bits key 52 8 5 true) 32 5 8 false) with key.
    + rewrite L. reflexivity.
    + symmetry. apply decode_data; auto.
Qed.

(** The string produced for a 32-byte value under a prefix. *)
Lemma encode_out_ok prefix key size :
  length key = 32%nat -> bytes_ok key -> (length prefix <= 41)%nat ->
  (length prefix + 60 <= size)%nat ->
  exists ck, create_checksum prefix (convert_bits key 52 8 5 true) = Some ck /\
   encode_out prefix (convert_bits key 52 8 5 true) size =
   Ok (prefix ++ 49 :: map charset_get (convert_bits key 52 8 5 true ++ ck)).
Proof.
  intros L B P S. destruct (create_checksum_some prefix (convert_bits key 52 8 5 true) P) as (ck & C).
  exists ck. split; auto. unfold encode_out. rewrite C.
  destruct (key_data key L B) as (L1 & F1 & _).
  destruct (create_checksum_digits _ _ _ C) as [Fc Lc].
  rewrite map_app. simpl app.
  match goal with |- context [(?a <=? size)%nat] => destruct (Nat.leb_spec a size) as [|X] end; auto.
  rewrite app_length in X. simpl length in X. rewrite app_length, !map_length in X. lia.
Qed.
