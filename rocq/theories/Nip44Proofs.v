(** Lemmas about the NIP-44 padding. *)
From Verif Require Import Base BaseFacts Nip21 Heap Nip44 Nip44Spec Base64.
Open Scope N_scope.

(** [2^k <= len] up to k: the loop climbs to the first power above len. *)
Lemma np_loop_ok len : forall f k, len < 2 ^ 31 -> 2 ^ k <= 2 * len \/ k = 0 ->
  (N.to_nat (N.log2 len + 1 - k) < f)%nat -> 0 < len ->
  np_loop f (2 ^ k) len = Some (2 ^ (N.log2 len + 1)).
Proof.
  induction f as [|f IH]; intros k Hl Hk Hf H0; [lia|].
  pose proof (N.log2_spec len H0) as (L1 & L2).
  rewrite N.add_1_r in *.
  cbn [np_loop]. destruct (N.leb_spec (2 ^ k) len) as [Hle|Hgt].
  - assert (k <= N.log2 len).
    { destruct (N.le_gt_cases k (N.log2 len)) as [|G]; auto.
      exfalso. assert (2 ^ N.succ (N.log2 len) <= 2 ^ k) by (apply N.pow_le_mono_r; lia). lia. }
    assert (k < 31).
    { apply N.log2_lt_pow2 in Hl; lia. }
    assert (2 ^ k <= 2 ^ 30) by (apply N.pow_le_mono_r; lia).
    change (2 ^ 30) with 1073741824 in *.
    replace (2147483647 <? 2 ^ k) with false by (symmetry; apply N.ltb_ge; lia).
    replace (2 ^ k * 2) with (2 ^ (k + 1)) by (rewrite N.pow_add_r; reflexivity).
    rewrite IH.
    + reflexivity.
    + exact Hl.
    + left. rewrite N.pow_add_r. change (2 ^ 1) with 2. lia.
    + lia.
    + exact H0.
  - assert (E : k = N.succ (N.log2 len)).
    { assert (N.log2 len < k).
      { destruct (N.le_gt_cases k (N.log2 len)) as [G|]; auto.
        exfalso. assert (2 ^ k <= 2 ^ N.log2 len) by (apply N.pow_le_mono_r; lia). lia. }
      destruct Hk as [Hk| ->]; [|lia].
      destruct (N.le_gt_cases k (N.succ (N.log2 len))) as [|G]; [lia|].
      exfalso.
      assert (2 ^ (N.succ (N.succ (N.log2 len))) <= 2 ^ k) by (apply N.pow_le_mono_r; lia).
      rewrite N.pow_succ_r' in H1. lia. }
    subst k. reflexivity.
Qed.

Definition code_chunk (len : N) : N :=
  if 2 ^ N.log2 len <=? 256 then 32 else 2 ^ N.log2 len / 8.

Lemma calc_closed len : 32 < len < 2 ^ 31 - 1 ->
  calc_padded_len len = (code_chunk len * ((len - 1) / code_chunk len + 1)) mod 2 ^ 32.
Proof.
  intros H. unfold calc_padded_len.
  replace (len <=? 32) with false by (symmetry; apply N.leb_gt; lia).
  change 1 with (2 ^ 0) at 1. rewrite np_loop_ok.
  - replace (2 ^ (N.log2 len + 1) / 2) with (2 ^ N.log2 len).
    + reflexivity.
    + rewrite N.pow_add_r. change (2 ^ 1) with 2. rewrite N.div_mul; lia.
  - lia.
  - right; reflexivity.
  - assert (N.log2 len < 31) by (apply N.log2_lt_pow2; lia). lia.
  - lia.
Qed.

Lemma chunk_pos len : 0 < code_chunk len.
Proof.
  unfold code_chunk. destruct (N.leb_spec (2 ^ N.log2 len) 256); [lia|].
  apply N.div_str_pos. lia.
Qed.

Lemma chunk_le len : 32 < len -> code_chunk len <= len.
Proof.
  intros H. unfold code_chunk. pose proof (N.log2_spec len ltac:(lia)).
  destruct (N.leb_spec (2 ^ N.log2 len) 256); [lia|].
  assert (2 ^ N.log2 len / 8 <= 2 ^ N.log2 len) by (apply N.div_le_upper_bound; lia). lia.
Qed.

Lemma round_bounds c n : 0 < c -> 0 < n ->
  n <= c * ((n - 1) / c + 1) < n + c.
Proof.
  intros Hc Hn. pose proof (N.div_mod (n - 1) c ltac:(lia)).
  pose proof (N.mod_lt (n - 1) c ltac:(lia)).
  set (q := (n - 1) / c) in *. set (r := (n - 1) mod c) in *.
  rewrite N.mul_add_distr_l. lia.
Qed.

Lemma calc_closed16 len : 32 < len < 65536 ->
  calc_padded_len len = code_chunk len * ((len - 1) / code_chunk len + 1).
Proof.
  intros H. rewrite calc_closed by lia. apply N.mod_small.
  pose proof (round_bounds (code_chunk len) len (chunk_pos len) ltac:(lia)).
  pose proof (chunk_le len ltac:(lia)). lia.
Qed.

(** The chunk is a power of two dividing 65536. *)
Lemma chunk_divides len : 32 < len < 65536 -> (code_chunk len | 65536).
Proof.
  intros H. unfold code_chunk.
  destruct (N.leb_spec (2 ^ N.log2 len) 256); [exists 2048; reflexivity|].
  assert (N.log2 len < 16) by (apply N.log2_lt_pow2; lia).
  assert (8 < N.log2 len).
  { destruct (N.le_gt_cases (N.log2 len) 8) as [G|]; auto. exfalso.
    assert (2 ^ N.log2 len <= 2 ^ 8) by (apply N.pow_le_mono_r; lia).
    change (2 ^ 8) with 256 in *. lia. }
  set (k := N.log2 len) in *.
  replace (2 ^ k / 8) with (2 ^ (k - 3)).
  - exists (2 ^ (16 - (k - 3))). rewrite <- N.pow_add_r.
    replace (16 - (k - 3) + (k - 3)) with 16 by lia. reflexivity.
  - replace k with (k - 3 + 3) at 2 by lia. rewrite N.pow_add_r. change (2 ^ 3) with 8.
    rewrite N.div_mul; lia.
Qed.

Lemma calc_bounds len : 1 <= len < 65536 ->
  len <= calc_padded_len len <= 65536 /\ 32 <= calc_padded_len len.
Proof.
  intros H. destruct (N.le_gt_cases len 32).
  - unfold calc_padded_len. replace (len <=? 32) with true by (symmetry; apply N.leb_le; lia). lia.
  - rewrite calc_closed16 by lia.
    pose proof (round_bounds (code_chunk len) len (chunk_pos len) ltac:(lia)).
    destruct (chunk_divides len ltac:(lia)) as (q & Hq).
    pose proof (chunk_pos len).
    assert ((len - 1) / code_chunk len < q) by (apply N.div_lt_upper_bound; lia).
    set (c := code_chunk len) in *. set (d := (len - 1) / c) in *. nia.
Qed.

(** Lengths up to 61440 are padded to at most 61440. *)
Lemma calc_small len : 1 <= len -> len <= 61440 -> calc_padded_len len <= 61440.
Proof.
  intros H H'. destruct (N.le_gt_cases len 32).
  { unfold calc_padded_len. replace (len <=? 32) with true by (symmetry; apply N.leb_le; lia). lia. }
  rewrite calc_closed16 by lia.
  assert (D : exists q, 61440 = q * code_chunk len).
  { unfold code_chunk.
    destruct (N.leb_spec (2 ^ N.log2 len) 256); [exists 1920; reflexivity|].
    assert (N.log2 len < 16) by (apply N.log2_lt_pow2; lia).
    assert (8 < N.log2 len).
    { destruct (N.le_gt_cases (N.log2 len) 8) as [G|]; auto. exfalso.
      assert (2 ^ N.log2 len <= 2 ^ 8) by (apply N.pow_le_mono_r; lia).
      change (2 ^ 8) with 256 in *. lia. }
    assert (N.log2 len = 9 \/ N.log2 len = 10 \/ N.log2 len = 11 \/ N.log2 len = 12 \/
            N.log2 len = 13 \/ N.log2 len = 14 \/ N.log2 len = 15) as C by lia.
    destruct C as [->|[->|[->|[->|[->|[->| ->]]]]]].
    - exists 960; reflexivity. - exists 480; reflexivity. - exists 240; reflexivity.
    - exists 120; reflexivity. - exists 60; reflexivity. - exists 30; reflexivity.
    - exists 15; reflexivity. }
  destruct D as (q & Hq). pose proof (chunk_pos len).
  assert ((len - 1) / code_chunk len < q) by (apply N.div_lt_upper_bound; lia).
  set (c := code_chunk len) in *. set (d := (len - 1) / c) in *. nia.
Qed.

Lemma calc_large len : 61440 < len < 65536 -> calc_padded_len len = 65536.
Proof.
  intros H. rewrite calc_closed16 by lia.
  assert (E : N.log2 len = 15).
  { apply N.log2_unique; [lia|]. change (2 ^ 15) with 32768. change (2 ^ N.succ 15) with 65536. lia. }
  unfold code_chunk. rewrite E. change (2 ^ 15 <=? 256) with false. cbv iota.
  change (2 ^ 15 / 8) with 4096.
  replace ((len - 1) / 4096) with 15; [reflexivity|].
  apply N.div_unique with (len - 1 - 61440); lia.
Qed.

(** *** Comparison with the published formula *)
Lemma log2_pred_pow len k : 0 < k -> 2 ^ k < len < 2 ^ (k + 1) -> N.log2 (len - 1) = k.
Proof.
  intros K H. apply N.log2_unique; [lia|]. rewrite <- N.add_1_r. lia.
Qed.

Lemma odd_double_chunk c m : 0 < c ->
  c * (m / c + 1) = 2 * c * (m / (2 * c) + 1) <-> N.odd (m / c) = true.
Proof.
  intros Hc.
  replace (m / (2 * c)) with (m / c / 2) by (rewrite N.div_div by lia; f_equal; lia).
  set (q := m / c).
  pose proof (N.div_mod q 2 ltac:(lia)). pose proof (N.mod_lt q 2 ltac:(lia)).
  assert (O : N.b2n (N.odd q) = q mod 2) by (rewrite <- N.bit0_odd; apply N.bit0_mod).
  assert (q mod 2 = 0 \/ q mod 2 = 1) as [E|E] by lia; rewrite E in *;
    destruct (N.odd q); try discriminate O.
  - split; intros G; [|discriminate]. exfalso.
    assert (q / 2 * 2 + 1 = 2 * (q / 2 + 1)); [|lia]. nia.
  - split; intros G; [reflexivity|]. replace q with (2 * (q / 2) + 1) at 1 by lia. nia.
Qed.

Lemma spec_closed len : 256 < len < 65536 -> len <> 2 ^ N.log2 len ->
  nip44_spec_padded len =
  2 * (2 ^ N.log2 len / 8) * ((len - 1) / (2 * (2 ^ N.log2 len / 8)) + 1).
Proof.
  intros H Hne. pose proof (N.log2_spec len ltac:(lia)) as (L1 & L2).
  assert (8 <= N.log2 len).
  { change 8 with (N.log2 256). apply N.log2_le_mono. lia. }
  unfold nip44_spec_padded.
  replace (len <=? 32) with false by (symmetry; apply N.leb_gt; lia).
  rewrite (log2_pred_pow len (N.log2 len)) by (rewrite ?N.add_1_r; lia).
  rewrite N.shiftl_1_l. set (k := N.log2 len) in *.
  assert (P : 2 ^ 9 <= 2 ^ (k + 1)) by (apply N.pow_le_mono_r; lia).
  change (2 ^ 9) with 512 in P.
  replace (2 ^ (k + 1) <=? 256) with false by (symmetry; apply N.leb_gt; lia).
  replace (2 ^ (k + 1) / 8) with (2 * (2 ^ k / 8)); [reflexivity|].
  replace (k + 1) with (k - 3 + 4) by lia. replace k with (k - 3 + 3) at 1 by lia.
  rewrite !N.pow_add_r. change (2 ^ 3) with 8. change (2 ^ 4) with (2 * 8).
  rewrite N.mul_assoc, !N.div_mul by lia. lia.
Qed.

Lemma spec_pow k : 8 <= k < 16 ->
  nip44_spec_padded (2 ^ k) = 2 ^ k /\ calc_padded_len (2 ^ k) = 2 ^ k /\
  (8 < k -> N.odd ((2 ^ k - 1) / (2 ^ k / 8)) = true).
Proof.
  intros H.
  assert (k = 8 \/ k = 9 \/ k = 10 \/ k = 11 \/ k = 12 \/ k = 13 \/ k = 14 \/ k = 15) as C by lia.
  destruct C as [->|[->|[->|[->|[->|[->|[->| ->]]]]]]]; repeat split; reflexivity.
Qed.

Lemma small_agree len : 1 <= len <= 256 -> calc_padded_len len = nip44_spec_padded len.
Proof.
  intros H. destruct (N.le_gt_cases len 32) as [|G].
  { unfold calc_padded_len, nip44_spec_padded.
    replace (len <=? 32) with true by (symmetry; apply N.leb_le; lia). reflexivity. }
  rewrite calc_closed16 by lia. unfold nip44_spec_padded.
  replace (len <=? 32) with false by (symmetry; apply N.leb_gt; lia).
  assert (N.log2 (len - 1) < 8) by (apply N.log2_lt_pow2; lia).
  rewrite N.shiftl_1_l.
  assert (2 ^ (N.log2 (len - 1) + 1) <= 2 ^ 8) by (apply N.pow_le_mono_r; lia).
  change (2 ^ 8) with 256 in *.
  replace (2 ^ (N.log2 (len - 1) + 1) <=? 256) with true by (symmetry; apply N.leb_le; lia).
  unfold code_chunk. pose proof (N.log2_spec len ltac:(lia)).
  replace (2 ^ N.log2 len <=? 256) with true by (symmetry; apply N.leb_le; lia).
  reflexivity.
Qed.

Lemma calc_vs_spec len : 256 < len < 65536 ->
  (calc_padded_len len = nip44_spec_padded len <->
   N.odd ((len - 1) / (2 ^ N.log2 len / 8)) = true).
Proof.
  intros H. pose proof (N.log2_spec len ltac:(lia)) as (L1 & L2).
  assert (8 <= N.log2 len).
  { change 8 with (N.log2 256). apply N.log2_le_mono. lia. }
  assert (N.log2 len < 16) by (apply N.log2_lt_pow2; lia).
  destruct (N.eq_dec len (2 ^ N.log2 len)) as [E|E].
  - assert (8 < N.log2 len).
    { destruct (N.eq_dec (N.log2 len) 8) as [E8|]; [|lia].
      rewrite E8 in E. change (2 ^ 8) with 256 in E. lia. }
    destruct (spec_pow (N.log2 len) ltac:(lia)) as (S1 & S2 & S3).
    rewrite <- E in S1, S2. rewrite S1, S2. split; [intros _|reflexivity].
    rewrite E at 1. auto.
  - rewrite spec_closed by assumption. rewrite calc_closed16 by lia.
    assert (P : 0 < 2 ^ N.log2 len / 8).
    { apply N.div_str_pos. assert (2 ^ 8 <= 2 ^ N.log2 len) by (apply N.pow_le_mono_r; lia).
      change (2 ^ 8) with 256 in *. lia. }
    replace (code_chunk len) with (2 ^ N.log2 len / 8).
    + apply odd_double_chunk. exact P.
    + unfold code_chunk. destruct (N.leb_spec (2 ^ N.log2 len) 256); [|reflexivity].
      assert (2 ^ 8 <= 2 ^ N.log2 len) by (apply N.pow_le_mono_r; lia).
      change (2 ^ 8) with 256 in *. replace (2 ^ N.log2 len) with 256 by lia. reflexivity.
Qed.

(** *** pad / unpad *)
Definition limits_ok (l : limits) : Prop := 1 <= lim_min l /\ lim_min l <= lim_max l /\ lim_max l <= 65535.

Lemma blen_app a b : blen (a ++ b) = blen a + blen b.
Proof. unfold blen. rewrite app_length. lia. Qed.
Lemma blen_cons x a : blen (x :: a) = 1 + blen a.
Proof. unfold blen. cbn [length]. lia. Qed.
Lemma blen_repeat (x : N) n : blen (repeat x (N.to_nat n)) = n.
Proof. unfold blen. rewrite repeat_length. lia. Qed.

Lemma pad_ok l pt : limits_ok l -> lim_min l <= blen pt <= lim_max l ->
  pad_plaintext l pt =
  Ok ([blen pt / 256; blen pt mod 256] ++ pt ++
      repeat 0 (N.to_nat (calc_padded_len (blen pt) - blen pt))).
Proof.
  intros (L1 & L2 & L3) H. unfold pad_plaintext.
  replace (blen pt <? lim_min l) with false by (symmetry; apply N.ltb_ge; lia).
  replace (lim_max l <? blen pt) with false by (symmetry; apply N.ltb_ge; lia).
  cbn [orb].
  pose proof (calc_bounds (blen pt) ltac:(lia)) as (B1 & B2).
  rewrite (N.mod_small (blen pt)) by (change (2 ^ 32) with 4294967296; lia).
  rewrite (N.mod_small (2 + _)) by (change (2 ^ 32) with 4294967296; lia).
  replace (2 + calc_padded_len (blen pt) <? 2 + blen pt) with false
    by (symmetry; apply N.ltb_ge; lia).
  rewrite N.shiftr_div_pow2. change (2 ^ 8) with 256.
  rewrite (N.mod_small (blen pt / 256)) by (apply N.div_lt_upper_bound; lia).
  replace (2 + calc_padded_len (blen pt) - 2 - blen pt) with (calc_padded_len (blen pt) - blen pt) by lia.
  reflexivity.
Qed.

Lemma lor_bytes hi lo : lo < 256 -> N.lor (N.shiftl hi 8) lo = hi * 256 + lo.
Proof.
  intros H. rewrite N.shiftl_mul_pow2. change (2 ^ 8) with 256.
  rewrite <- N.lxor_lor, <- N.add_nocarry_lxor; auto.
  all: apply N.bits_inj; intros i; rewrite N.land_spec, N.bits_0;
    change 256 with (2 ^ 8); destruct (N.lt_ge_cases i 8).
  1,3: rewrite N.mul_pow2_bits_low by lia; reflexivity.
  all: rewrite (N.bits_above_log2 lo i), andb_false_r; auto;
    destruct (N.eq_dec lo 0) as [->|]; [cbn; lia|];
    assert (N.log2 lo < 8) by (apply N.log2_lt_pow2; [lia|change (2 ^ 8) with 256; lia]); lia.
Qed.

Lemma unpad_char l buf pt : limits_ok l -> bytes_ok buf ->
  (unpad_plaintext l buf = Ok pt <->
   exists hi lo tail, buf = hi :: lo :: pt ++ tail /\ blen pt = hi * 256 + lo /\
     1 <= blen pt <= lim_max l /\ blen buf = 2 + calc_padded_len (blen pt)).
Proof.
  intros (L1 & L2 & L3) Hb. split.
  - intros E. unfold unpad_plaintext in E. destruct buf as [|hi [|lo body]]; try discriminate.
    inversion Hb as [|? ? Hhi H1]; subst. inversion H1 as [|? ? Hlo H2]; subst.
    unfold byte_ok in *. rewrite lor_bytes in E by assumption.
    change (2 ^ 16) with 65536 in E. rewrite N.mod_small in E by lia.
    destruct (N.eqb_spec (hi * 256 + lo) 0); [discriminate|].
    destruct (N.ltb_spec (lim_max l) (hi * 256 + lo)); [discriminate|]. cbn [orb] in E.
    destruct (N.eqb_spec (blen (hi :: lo :: body)) (2 + calc_padded_len (hi * 256 + lo)));
      cbn [negb] in E; [|discriminate].
    destruct (N.ltb_spec (blen body) (hi * 256 + lo)); [discriminate|].
    injection E as <-.
    assert (P : blen (firstn (N.to_nat (hi * 256 + lo)) body) = hi * 256 + lo).
    { unfold blen in *. rewrite firstn_length. lia. }
    exists hi, lo, (skipn (N.to_nat (hi * 256 + lo)) body). rewrite firstn_skipn, P.
    split; [reflexivity|]. split; [reflexivity|]. split; [lia|]. assumption.
  - intros (hi & lo & tail & -> & Hl & Hr & Hc).
    inversion Hb as [|? ? Hhi H1]; subst. inversion H1 as [|? ? Hlo H2]; subst.
    unfold byte_ok in *. unfold unpad_plaintext. rewrite lor_bytes by assumption.
    change (2 ^ 16) with 65536. rewrite N.mod_small by lia. rewrite <- Hl.
    replace (blen pt =? 0) with false by (symmetry; apply N.eqb_neq; lia).
    replace (lim_max l <? blen pt) with false by (symmetry; apply N.ltb_ge; lia). cbn [orb].
    rewrite Hc, N.eqb_refl. cbn [negb].
    replace (blen (pt ++ tail) <? blen pt) with false
      by (symmetry; apply N.ltb_ge; rewrite blen_app; lia).
    f_equal. apply firstn_app_exact. unfold blen. lia.
Qed.

Lemma unpad_safe l buf : limits_ok l -> bytes_ok buf -> unpad_plaintext l buf <> Undef.
Proof.
  intros (L1 & L2 & L3) Hb. unfold unpad_plaintext. destruct buf as [|hi [|lo body]]; try discriminate.
  set (len := N.lor (N.shiftl hi 8) lo mod 2 ^ 16).
  assert (len < 65536) by (apply N.mod_lt; discriminate).
  destruct (N.eqb_spec len 0); [discriminate|].
  destruct (N.ltb_spec (lim_max l) len); [discriminate|]. cbn [orb].
  destruct (N.eqb_spec (blen (hi :: lo :: body)) (2 + calc_padded_len len)); cbn [negb]; [|discriminate].
  destruct (N.ltb_spec (blen body) len) as [G|]; [|discriminate].
  exfalso. pose proof (calc_bounds len ltac:(lia)). rewrite !blen_cons in *. lia.
Qed.

Lemma pad_bytes l pt buf : bytes_ok pt -> pad_plaintext l pt = Ok buf -> bytes_ok buf.
Proof.
  intros Hb E. unfold pad_plaintext in E.
  destruct (_ || _); [discriminate|]. destruct (_ <? _); [discriminate|]. injection E as <-.
  cbn [app]. constructor; [apply N.mod_lt; discriminate|].
  constructor; [apply N.mod_lt; discriminate|].
  apply Forall_app_iff. split; [exact Hb|]. apply Forall_repeat. unfold byte_ok. lia.
Qed.

Lemma pad_length l pt buf : limits_ok l -> pad_plaintext l pt = Ok buf ->
  lim_min l <= blen pt <= lim_max l /\ blen buf = 2 + calc_padded_len (blen pt).
Proof.
  intros L E.
  assert (R : lim_min l <= blen pt <= lim_max l).
  { unfold pad_plaintext in E.
    destruct (N.ltb_spec (blen pt) (lim_min l)); [discriminate|].
    destruct (N.ltb_spec (lim_max l) (blen pt)); [discriminate|]. lia. }
  rewrite pad_ok in E by assumption. injection E as <-. split; [exact R|].
  destruct L as (L1 & L2 & L3). pose proof (calc_bounds (blen pt) ltac:(lia)).
  cbn [app]. rewrite !blen_cons, blen_app, blen_repeat. lia.
Qed.
