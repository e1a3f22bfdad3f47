(** C176: bech32 strings are those of BIP-173, and references written by other
    clients are read. *)
From Verif Require Import Base BaseFacts BitsFacts Bech32 Bech32Spec Bech32Proofs Bech32Lemmas2 Bech32Props.
From Verif Require Import Nip21 Nip21Spec Nip21Proofs Nip21Props Bip173Spec.
Open Scope N_scope.

(** ** The checksum register holds the remainder *)

Lemma add_coefs_xorl a b : add_coefs a b = xorl a b.
Proof. revert b. induction a; destruct b; simpl; auto. Qed.

Lemma pack_snoc l v : pack (l ++ [v]) = pack l * 32 + v.
Proof. unfold pack. rewrite fold_left_app. reflexivity. Qed.

Lemma lxor_lt32 a b : a < 32 -> b < 32 -> N.lxor a b < 32.
Proof. apply (lxor_lt 5). Qed.

Lemma lxor_digits a b c d : c < 32 -> d < 32 ->
  N.lxor (a * 32 + c) (b * 32 + d) = N.lxor a b * 32 + N.lxor c d.
Proof.
  intros C D. rewrite <- !lxor_mul32 by (auto using lxor_lt32). rewrite lxor4. f_equal.
  change 32 with (2 ^ 5). rewrite <- !N.shiftl_mul_pow2. symmetry. apply N.shiftl_lxor.
Qed.

Lemma pack_xorl_gen l : forall l' a b, length l = length l' ->
  Forall (fun v => v < 32) l -> Forall (fun v => v < 32) l' ->
  fold_left (fun a v => a * 32 + v) (xorl l l') (N.lxor a b) =
  N.lxor (fold_left (fun a v => a * 32 + v) l a) (fold_left (fun a v => a * 32 + v) l' b).
Proof.
  induction l as [|x l IH]; destruct l' as [|y l']; intros a b L F F'; try discriminate; auto.
  inversion F; inversion F'; subst. cbn [xorl fold_left].
  rewrite <- lxor_digits by auto. apply IH; auto.
Qed.

Lemma pack_xorl l l' : length l = length l' ->
  Forall (fun v => v < 32) l -> Forall (fun v => v < 32) l' ->
  pack (xorl l l') = N.lxor (pack l) (pack l').
Proof. intros. unfold pack. rewrite <- pack_xorl_gen by auto. reflexivity. Qed.

Definition below32 : list N := map N.of_nat (seq 0 32).
Lemma in_below32 c : c < 32 -> In c below32.
Proof.
  intros H. unfold below32. apply in_map_iff. exists (N.to_nat c). split; [lia|]. apply in_seq. lia.
Qed.

Lemma generator_row c : c < 32 ->
  genmix c 0 = pack (map (fmul c) generator) /\ Forall (fun v => v < 32) (map (fmul c) generator).
Proof.
  intros H.
  assert (A : forallb (fun c => (genmix c 0 =? pack (map (fmul c) generator))
                && forallb (fun v => v <? 32) (map (fmul c) generator)) below32 = true)
    by (vm_compute; reflexivity).
  rewrite forallb_forall in A. specialize (A c (in_below32 c H)).
  apply andb_true_iff in A as [A B]. apply N.eqb_eq in A. split; auto.
  rewrite forallb_forall in B. apply Forall_forall. intros v V. apply N.ltb_lt. auto.
Qed.

Lemma xorl_lt l : forall l', Forall (fun v => v < 32) l -> Forall (fun v => v < 32) l' ->
  Forall (fun v => v < 32) (xorl l l').
Proof.
  induction l as [|x l IH]; destruct l' as [|y l']; intros F F'; simpl; auto.
  inversion F; inversion F'; subst. constructor; auto using lxor_lt32.
Qed.

Lemma pack_lt5 l : length l = 5%nat -> Forall (fun v => v < 32) l -> pack l < 2 ^ 25.
Proof.
  intros L F. pose proof (pack_lt_gen l 0 0 ltac:(reflexivity) F) as H. rewrite L in H. exact H.
Qed.

Lemma pack_cons c l : pack (c :: l) = c * 2 ^ (5 * N.of_nat (length l)) + pack l.
Proof.
  unfold pack. cbn [fold_left]. change (0 * 32 + c) with c.
  assert (G : forall l a, fold_left (fun a v => a * 32 + v) l a =
              a * 2 ^ (5 * N.of_nat (length l)) + fold_left (fun a v => a * 32 + v) l 0).
  { clear. induction l as [|x l IH]; intros a; cbn [fold_left length].
    - change (2 ^ (5 * N.of_nat 0)) with 1. lia.
    - rewrite IH, (IH (0 * 32 + x)).
      replace (5 * N.of_nat (S (length l))) with (5 + 5 * N.of_nat (length l)) by lia.
      rewrite N.pow_add_r. change (2 ^ 5) with 32. lia. }
  apply G.
Qed.

Lemma step_bridge r v : length r = 6%nat -> Forall (fun v => v < 32) r -> v < 32 ->
  polystep (pack r) v = pack (divide_step r v) /\
  length (divide_step r v) = 6%nat /\ Forall (fun v => v < 32) (divide_step r v).
Proof.
  intros L F V. destruct r as [|c t]; [discriminate|]. injection L as L.
  inversion F as [|? ? Fc Ft]; subst. destruct (generator_row c Fc) as [G FG].
  unfold divide_step. rewrite add_coefs_xorl.
  assert (LG : length (t ++ [v]) = length (map (fmul c) generator)).
  { rewrite app_length, map_length, L. reflexivity. }
  assert (FT : Forall (fun v => v < 32) (t ++ [v])) by (apply Forall_app; auto).
  split; [|split; [rewrite xorl_length by auto; rewrite app_length, L; reflexivity|apply xorl_lt; auto]].
  rewrite pack_xorl by auto. rewrite <- G.
  pose proof (pack_lt5 t L Ft) as PT.
  assert (E : pack (c :: t) = c * 2 ^ 25 + pack t) by (rewrite pack_cons, L; reflexivity).
  unfold polystep. rewrite E.
  replace (N.shiftr (c * 2 ^ 25 + pack t) 25) with c.
  2: { rewrite N.shiftr_div_pow2. rewrite N.add_comm, N.div_add by discriminate.
       rewrite N.div_small by auto. reflexivity. }
  change 0x1ffffff with (N.ones 25). rewrite N.land_ones.
  replace ((c * 2 ^ 25 + pack t) mod 2 ^ 25) with (pack t).
  2: { rewrite N.add_comm, N.mod_add by discriminate. rewrite N.mod_small; auto. }
  rewrite N.shiftl_mul_pow2. change (2 ^ 5) with 32. rewrite lxor_mul32 by auto.
  rewrite <- pack_snoc.
  rewrite <- (N.lxor_0_r (pack (t ++ [v]))) at 1. rewrite <- (N.lxor_0_l c) at 1.
  rewrite genmix_xor, genmix_0. reflexivity.
Qed.

Lemma remainder_bridge vs : forall r, length r = 6%nat -> Forall (fun v => v < 32) r ->
  Forall (fun v => v < 32) vs ->
  polymod_from (pack r) vs = pack (fold_left divide_step vs r) /\
  length (fold_left divide_step vs r) = 6%nat /\ Forall (fun v => v < 32) (fold_left divide_step vs r).
Proof.
  induction vs as [|v vs IH]; intros r L F V; [auto|].
  inversion V as [|? ? V1 V2]; subst. destruct (step_bridge r v L F V1) as (E & L' & F').
  unfold polymod_from in *. cbn [fold_left]. rewrite E. apply IH; auto.
Qed.

Lemma pack6_inj a b : length a = 6%nat -> length b = 6%nat ->
  Forall (fun v => v < 32) a -> Forall (fun v => v < 32) b -> pack a = pack b -> a = b.
Proof.
  intros La Lb Fa Fb E.
  destruct a as [|a0 [|a1 [|a2 [|a3 [|a4 [|a5 [|]]]]]]]; try discriminate.
  destruct b as [|b0 [|b1 [|b2 [|b3 [|b4 [|b5 [|]]]]]]]; try discriminate.
  rewrite <- (cksum_pack _ _ _ _ _ _ Fa), <- (cksum_pack _ _ _ _ _ _ Fb), E. reflexivity.
Qed.

Lemma expand_ascii hrp : ascii_text hrp -> (length hrp <= 41)%nat ->
  hrp_expand hrp 84 = Some (expanded hrp) /\ Forall (fun v => v < 32) (expanded hrp).
Proof.
  intros A L. unfold hrp_expand, expanded.
  destruct (Nat.ltb_spec 84 (length hrp * 2 + 1)); [lia|]. split.
  - f_equal. f_equal. apply map_ext_in. intros c I. unfold ascii_text in A. rewrite Forall_forall in A.
    unfold hrp_hi. destruct (N.ltb_spec c 128); auto. specialize (A c I). cbv beta in A. lia.
  - unfold ascii_text in A. apply Forall_app. split; [|apply Forall_cons; [reflexivity|]].
    + rewrite Forall_map. eapply Forall_impl; [|exact A]. cbv beta. intros c H1.
      apply N.div_lt_upper_bound; lia.
    + rewrite Forall_map. eapply Forall_impl; [|exact A]. cbv beta. intros c H1.
      apply N.mod_lt. discriminate.
Qed.

Lemma codeword_iff hrp d : ascii_text hrp -> (length hrp <= 41)%nat -> Forall (fun v => v < 32) d ->
  (verify_checksum hrp d = true <-> codeword hrp d).
Proof.
  intros A L F. destruct (expand_ascii hrp A L) as [E FE].
  unfold verify_checksum, codeword, remainder. rewrite E. unfold polymod.
  change 1 with (pack [0; 0; 0; 0; 0; 1]) at 1 2.
  destruct (remainder_bridge (expanded hrp ++ d) [0; 0; 0; 0; 0; 1]) as (B & B1 & B2); auto.
  - repeat constructor.
  - apply Forall_app; auto.
  - rewrite B, N.eqb_eq. split; [|congruence].
    intros H. apply pack6_inj; auto. repeat constructor.
Qed.

(** ** Regrouping *)

Definition bval (l : list bool) (a : N) : N := fold_left (fun a b => 2 * a + N.b2n b) l a.

Lemma bval_app l l' a : bval (l ++ l') a = bval l' (bval l a).
Proof. apply fold_left_app. Qed.

Lemma bval_bits w v : forall a, bval (bitsof w v) a = a * 2 ^ N.of_nat w + v mod 2 ^ N.of_nat w.
Proof.
  induction w as [|w IH]; intros a.
  - cbn [bitsof bval fold_left]. change (2 ^ N.of_nat 0) with 1. rewrite N.mod_1_r. lia.
  - unfold bval in *. cbn [bitsof fold_left]. rewrite IH.
    replace (N.of_nat (S w)) with (N.of_nat w + 1) by lia.
    rewrite N.pow_add_r. change (2 ^ 1) with 2.
    assert (P : 2 ^ N.of_nat w <> 0) by (apply N.pow_nonzero; discriminate).
    rewrite (N.mod_mul_r v (2 ^ N.of_nat w) 2) by (auto; discriminate).
    rewrite N.testbit_spec' . lia.
Qed.

Lemma bval_flat w l : Forall (fun v => v < 2 ^ N.of_nat w) l -> forall a,
  bval (flat w l) a = fold_left (fun a d => a * 2 ^ N.of_nat w + d) l a.
Proof.
  induction 1 as [|v l V F IH]; intros a; [reflexivity|].
  change (flat w (v :: l)) with (bitsof w v ++ flat w l).
  rewrite bval_app, bval_bits, IH, N.mod_small by auto. reflexivity.
Qed.

Lemma bval_zeros k : forall a, bval (repeat false k) a = a * 2 ^ N.of_nat k.
Proof.
  induction k as [|k IH]; intros a; [cbn; lia|].
  unfold bval in *. cbn [repeat fold_left N.b2n]. rewrite IH.
  replace (N.of_nat (S k)) with (1 + N.of_nat k) by lia. rewrite N.pow_add_r. change (2 ^ 1) with 2. lia.
Qed.

Lemma bval_from l : forall a, bval l a = a * 2 ^ N.of_nat (length l) + bval l 0 /\
  bval l 0 < 2 ^ N.of_nat (length l).
Proof.
  induction l as [|b l IH]; intros a.
  - cbn. split; [lia|reflexivity].
  - unfold bval in *. cbn [fold_left length].
    destruct (IH (2 * a + N.b2n b)) as [E1 _]. destruct (IH (2 * 0 + N.b2n b)) as [E2 B].
    rewrite E1, E2. replace (N.of_nat (S (length l))) with (1 + N.of_nat (length l)) by lia.
    rewrite N.pow_add_r. change (2 ^ 1) with 2. split; [lia|]. destruct b; cbn [N.b2n]; lia.
Qed.

Lemma bval_inj l : forall l', length l = length l' -> bval l 0 = bval l' 0 -> l = l'.
Proof.
  induction l as [|b l IH]; destruct l' as [|b' l']; intros L E; try discriminate; auto.
  injection L as L. unfold bval in *. cbn [fold_left] in E.
  change (2 * 0 + N.b2n b) with (N.b2n b) in E. change (2 * 0 + N.b2n b') with (N.b2n b') in E.
  destruct (bval_from l (N.b2n b)) as [E1 B1]. destruct (bval_from l' (N.b2n b')) as [E2 B2].
  unfold bval in *. rewrite E1, E2, L in E. rewrite L in B1.
  set (P := 2 ^ N.of_nat (length l')) in *. clearbody P.
  destruct b, b'; cbn [N.b2n] in E; try lia; f_equal; apply IH; auto; lia.
Qed.

Definition conv (p : list N) : list N := convert_bits p (N.to_nat ((blen p * 8 + 4) / 5)) 8 5 true.

Lemma regrouped_flat p d : bytes_ok p -> Forall (fun v => v < 32) d ->
  (regrouped p d <-> exists k, (k < 5)%nat /\ flat 5 d = flat 8 p ++ repeat false k).
Proof.
  intros B F. unfold regrouped.
  assert (N5 : number 32 d = bval (flat 5 d) 0) by (unfold number; rewrite bval_flat by exact F; reflexivity).
  assert (N8 : number 256 p = bval (flat 8 p) 0) by (unfold number; rewrite bval_flat by exact B; reflexivity).
  split.
  - intros (_ & k & K & L & E). exists k. split; auto. apply bval_inj.
    + rewrite app_length, !flat_length, repeat_length. lia.
    + rewrite bval_app, bval_zeros, <- N5, <- N8. exact E.
  - intros (k & K & E). split; auto. exists k. split; auto.
    pose proof (f_equal (@length bool) E) as L. rewrite app_length, !flat_length, repeat_length in L.
    split; auto. rewrite N5, N8, E, bval_app, bval_zeros. reflexivity.
Qed.

Lemma regrouped_conv p d : bytes_ok p -> (1 <= length p)%nat -> (regrouped p d <-> d = conv p).
Proof.
  intros B L. destruct (convert_bytes p B L) as (F & U & Lo & k & K & E). cbv zeta in *. fold (conv p) in *.
  split.
  - intros R. pose proof (proj1 R) as Fd. apply regrouped_flat in R as (k' & K' & E'); auto.
    assert (length (flat 5 d) = length (flat 5 (conv p))).
    { rewrite E', E, !app_length, !repeat_length. 
      pose proof (f_equal (@length bool) E') as H. pose proof (f_equal (@length bool) E) as H0.
      rewrite app_length, !flat_length, repeat_length in H, H0. lia. }
    assert (k' = k). { rewrite E', E, !app_length, !repeat_length in H. lia. }
    subst k'. apply (flat_inj 5); auto; try lia. congruence.
  - intros ->. apply regrouped_flat; eauto.
Qed.

Lemma letter_get v : letter v = charset_get v.
Proof. reflexivity. Qed.

(** The texts of the specification are those the code writes. *)
Lemma text_iff hrp p s : ascii_text hrp -> (length hrp <= 41)%nat -> bytes_ok p -> (1 <= length p)%nat ->
  (bech32_text hrp p s <-> exists ck, create_checksum hrp (conv p) = Some ck /\
     s = hrp ++ 49 :: map charset_get (conv p ++ ck)).
Proof.
  intros A L B L1. destruct (convert_bytes p B L1) as (F & _). cbv zeta in F. fold (conv p) in F.
  destruct (expand_ascii hrp A L) as [E _].
  assert (Bh : bytes_ok hrp) by (eapply Forall_impl; [|exact A]; cbv beta; unfold byte_ok; intros; lia).
  unfold bech32_text. split.
  - intros (d & ck & R & Fc & Lc & C & ->). apply regrouped_conv in R; auto. subst d.
    exists ck. split; [|reflexivity]. apply (verify_iff hrp (expanded hrp)); auto.
    apply codeword_iff; auto. apply Forall_app; auto.
  - intros (ck & C & ->). destruct (create_checksum_digits _ _ _ C) as [Fc Lc].
    exists (conv p), ck. split; [apply regrouped_conv; auto|]. split; [|split; [|split]]; auto.
    apply codeword_iff; auto; [apply Forall_app; auto|]. apply (verify_iff hrp (expanded hrp)); auto.
Qed.

Lemma conv32 k : length k = 32%nat -> conv k = convert_bits k 52 8 5 true.
Proof. intros L. unfold conv, blen. rewrite L. reflexivity. Qed.

(** ** Keys and ids *)

Lemma ascii_bytes l : ascii_text l -> bytes_ok l.
Proof. intros A. eapply Forall_impl; [|exact A]. cbv beta. unfold byte_ok. intros. lia. Qed.

Lemma encode_out_text hrp k size s : bytes32 k -> ascii_text hrp -> (length hrp <= 41)%nat ->
  encode_out hrp (convert_bits k 52 8 5 true) size = Ok s -> bech32_text hrp k s.
Proof.
  intros [L B] A Lh H. unfold encode_out in H.
  destruct (create_checksum _ _) as [ck|] eqn:C; [|discriminate]. cbv zeta in H.
  match type of H with (if ?b then _ else _) = _ => destruct b; [|discriminate] end.
  apply text_iff; auto; [lia|]. exists ck. rewrite (conv32 k L). split; auto.
  assert (s = hrp ++ [49] ++ map charset_get (convert_bits k 52 8 5 true) ++ map charset_get ck) as -> by congruence.
  rewrite map_app. reflexivity.
Qed.

Theorem C176_keys_written : forall k hrp size s, bytes32 k -> ascii_text hrp -> (length hrp <= 41)%nat ->
  (key_to_bech32 k hrp size = Ok s -> bech32_text hrp k s) /\
  (privkey_to_bech32 k size = Ok s -> bech32_text (bs "nsec") k s) /\
  (event_id_to_bech32 k size = Ok s -> bech32_text (bs "note") k s).
Proof.
  intros k hrp size s K A L. unfold key_to_bech32, privkey_to_bech32, event_id_to_bech32. cbv zeta.
  split; [|split]; intros H.
  - destruct (_ || _)%bool; [discriminate|]. destruct (_ =? 0)%nat; [discriminate|].
    eapply encode_out_text; eauto.
  - destruct (_ <? _)%nat; [discriminate|]. destruct (_ =? 0)%nat; [discriminate|].
    eapply encode_out_text; eauto; [repeat constructor|simpl; lia].
  - destruct (_ <? _)%nat; [discriminate|]. destruct (_ =? 0)%nat; [discriminate|].
    eapply encode_out_text; eauto; [repeat constructor|simpl; lia].
Qed.
Print Assumptions C176_keys_written.

Theorem C176_keys_read : forall s k, ascii_text s ->
  (key_from_bech32 s = Ok k <->
     bytes32 k /\ exists hrp, (1 <= length hrp <= 31)%nat /\ bech32_text hrp k s) /\
  (privkey_from_bech32 s = Ok k <-> bytes32 k /\ bech32_text (bs "nsec") k s) /\
  (event_id_from_bech32 s = Ok k <-> bytes32 k /\ bech32_text (bs "note") k s).
Proof.
  intros s k A.
  assert (FX : forall hrp, length hrp = 4%nat -> ascii_text hrp ->
    (fixed_from_bech32 hrp s = Ok k <-> bytes32 k /\ bech32_text hrp k s)).
  { intros hrp Lh Ah. rewrite (fixed_from_ok hrp s k Lh (ascii_bytes hrp Ah)).
    split; intros [K H]; (split; [exact K|]); destruct K as [L B].
    - apply text_iff; auto; try lia. rewrite (conv32 k L). auto.
    - apply text_iff in H; auto; try lia. rewrite (conv32 k L) in H. auto. }
  split; [|split; apply FX; auto; repeat constructor].
  rewrite (key_from_ok s k (ascii_bytes s A)). split; intros [K H]; (split; [exact K|]); destruct K as [L B].
  - destruct H as (hrp & ck & Lh & C & E). exists hrp. split; auto.
    assert (ascii_text hrp) by (rewrite E in A; apply Forall_app in A; apply A).
    apply text_iff; auto; try lia. rewrite (conv32 k L). eauto.
  - destruct H as (hrp & Lh & H).
    assert (Ah : ascii_text hrp).
    { destruct H as (d & ck & _ & _ & _ & _ & E). rewrite E in A. apply Forall_app in A. apply A. }
    apply text_iff in H; auto; try lia. rewrite (conv32 k L) in H. destruct H as (ck & H). eauto.
Qed.
Print Assumptions C176_keys_read.

(** A payload has one text under a prefix, and a text one payload. *)
Theorem C176_unique : forall hrp p p' s s', ascii_text hrp -> (length hrp <= 41)%nat ->
  bytes_ok p -> bytes_ok p' -> (1 <= length p)%nat -> (1 <= length p')%nat ->
  bech32_text hrp p s -> bech32_text hrp p' s' -> (p = p' <-> s = s').
Proof.
  intros hrp p p' s s' A L B B' L1 L1' T T'. split.
  - intros <-. apply text_iff in T as (ck & C & ->), T' as (ck' & C' & ->); auto. congruence.
  - intros <-.
    destruct T as (d & ck & R & Fc & Lc & _ & E). destruct T' as (d' & ck' & R' & Fc' & Lc' & _ & E').
    rewrite E in E'. apply app_inv_head in E'. cbn [bs app] in E'. apply (f_equal (@tl N)) in E'. cbn [tl] in E'.
    assert (D : d ++ ck = d' ++ ck').
    { pose proof (proj1 R). pose proof (proj1 R').
      assert (F : Forall (fun v => v < 32) (d ++ ck)) by (apply Forall_app; auto).
      assert (F' : Forall (fun v => v < 32) (d' ++ ck')) by (apply Forall_app; auto).
      revert E' F F'. clear. generalize (d ++ ck) (d' ++ ck'). intros l.
      induction l as [|x l IH]; intros [|y l0] E F F'; try discriminate; auto.
      inversion F; inversion F'; subst. cbn [map] in E.
      assert (E1 : letter x = letter y) by congruence.
      assert (E2 : map letter l = map letter l0) by congruence.
      f_equal; [apply get_inj; auto|apply IH; auto]. }
    assert (LL : length d = length d') by (apply (f_equal (@length N)) in D; rewrite !app_length in D; lia).
    apply app_inv_length in D as [D _]; auto. subst d'.
    pose proof (proj1 R) as F. apply regrouped_flat in R as (k & K & H), R' as (k' & K' & H'); auto.
    assert (HL : length (flat 8 p) = length (flat 8 p')).
    { rewrite H in H'. apply (f_equal (@length bool)) in H'.
      rewrite !app_length, !repeat_length, !flat_length in H'. rewrite !flat_length. lia. }
    rewrite H in H'. apply app_inv_length in H' as [H' _]; auto.
    apply (flat_inj 8) in H'; auto. lia.
Qed.
Print Assumptions C176_unique.

(** ** References *)

Lemma encode_bytes_text data hrp size s : ascii_text hrp -> (length hrp <= 41)%nat -> bytes_ok data ->
  (1 <= length data)%nat -> encode_bytes_to_bech32 data hrp size = Ok s -> bech32_text hrp data s.
Proof.
  intros A L B L1 H. unfold encode_bytes_to_bech32 in H. cbv zeta in H. fold (conv data) in H.
  destruct (_ =? 0)%nat; [discriminate|]. destruct (_ <? _); [discriminate|].
  destruct (create_checksum _ _) as [ck|] eqn:C; [|discriminate].
  match type of H with (if ?b then _ else _) = _ => destruct b; [|discriminate] end.
  apply text_iff; auto. exists ck. split; auto. rewrite map_app. change (49 :: ?x) with ([49] ++ x). congruence.
Qed.

Lemma be32_big k : k < 2 ^ 32 -> be32_bytes k = big_endian4 k.
Proof.
  intros K. unfold be32_bytes, big_endian4. change 255 with (N.ones 8).
  rewrite !N.land_ones, !N.shiftr_div_pow2. change (2 ^ 8) with 256.
  rewrite (N.mod_small (k / 2 ^ 24)); auto. apply N.div_lt_upper_bound; [discriminate|].
  change (2 ^ 24 * 256) with (2 ^ 32). auto.
Qed.

Lemma payload_bytes l : Forall item_ok l -> bytes_ok (payload l).
Proof.
  induction 1 as [|[ty v] l (H1 & H2 & H3) F IH]; [constructor|].
  cbn [payload flat_map]. apply Forall_app. split; auto. unfold item_bytes. cbn [fst snd] in *.
  constructor; [exact H1|]. constructor; auto. unfold byte_ok. lia.
Qed.

Lemma build_is_records sp rs au k :
  bytes_ok sp -> (1 <= length sp <= 255)%nat -> relays_fit rs ->
  (match au with Some a => key_ok a | None => True end) ->
  (match k with Some v => v < 2 ^ 32 | None => True end) ->
  build_tlv 4096 sp rs au k =
    payload ((0, sp) :: map (pair 1) rs ++ opt au (pair 2) ++ opt k (fun k => (3, big_endian4 k))) /\
  bytes_ok (build_tlv 4096 sp rs au k) /\ (1 <= length (build_tlv 4096 sp rs au k))%nat.
Proof.
  intros B [L0 L] R A K. 
  assert (E : build_tlv 4096 sp rs au k = payload (entity_items sp rs au k)).
  { destruct R as (R1 & R2 & R3). apply build_tlv_fit; auto.
    - apply fit_lengths; auto.
    - destruct au; auto. apply A.
    - unfold blen. lia. }
  pose proof (entity_items_ok sp rs au k B L (proj1 (proj2 R)) A) as F.
  assert (EI : entity_items sp rs au k =
     (0, sp) :: map (pair 1) rs ++ opt au (pair 2) ++ opt k (fun k => (3, big_endian4 k))).
  { unfold entity_items. destruct sp; [simpl in L0; lia|]. cbn [special_items app].
    assert (EA : opt_items 2 (fun a : list N => a) au = opt au (pair 2)) by (destruct au; reflexivity).
    assert (EK : opt_items 3 be32_bytes k = opt k (fun k => (3, big_endian4 k))); [|rewrite EA, EK; reflexivity].
    destruct k; cbn [opt_items opt]; [rewrite be32_big by auto|]; reflexivity. }
  rewrite E. split; [congruence|]. split; [apply payload_bytes; auto|].
  rewrite EI. cbn [payload flat_map item_bytes app length]. lia.
Qed.

Lemma rmap_ok {A B} (f : A -> B) r s : rmap f r = Ok s -> exists a, r = Ok a /\ s = f a.
Proof. destruct r; cbn [rmap]; intros; try discriminate. exists a. split; congruence. Qed.

(** Every reference written is the BIP-173 text of the records NIP-19 asks
    for. *)
Theorem C176_refs_written_partial : forall e size s, entity_ok e ->
  (forall pk k rs, e <> Naddr [] pk k rs) ->
  uri_encode e size = Ok s ->
  exists t, s = bs "nostr:" ++ t /\ bech32_text (prefix_of e) (written_bytes e) t.
Proof.
  intros e size s OK NE H. unfold uri_encode in H. destruct (_ <? _); [discriminate|].
  cbv zeta in H. apply rmap_ok in H as (t & H & ->). exists t. split; [reflexivity|].
  destruct e as [k|k|k|pk rs|id rs au k|ident pk k rs|url]; cbn [entity_ok prefix_of written_bytes] in *.
  - eapply (proj1 (C176_keys_written k (bs "npub") _ _ OK ltac:(repeat constructor) ltac:(simpl; lia))); eauto.
  - eapply (proj1 (proj2 (C176_keys_written k (bs "npub") _ _ OK ltac:(repeat constructor) ltac:(simpl; lia)))); eauto.
  - eapply (proj2 (proj2 (C176_keys_written k (bs "npub") _ _ OK ltac:(repeat constructor) ltac:(simpl; lia)))); eauto.
  - destruct OK as ([L B] & R). destruct (build_is_records pk rs None None B) as (E & Bb & Lb); auto; try lia.
    unfold nprofile_encode in H. cbv zeta in H. destruct (_ =? 0)%nat; [discriminate|].
    apply encode_bytes_text in H; auto; [|repeat constructor|simpl; lia].
    rewrite E in H. cbn [opt app] in H. rewrite app_nil_r in H. exact H.
  - destruct OK as ([L B] & R & A & K). destruct (build_is_records id rs au k B) as (E & Bb & Lb); auto; try lia.
    unfold nevent_encode in H. cbv zeta in H. destruct (_ =? 0)%nat; [discriminate|].
    apply encode_bytes_text in H; auto; [|repeat constructor|simpl; lia].
    rewrite E in H. exact H.
  - destruct OK as (CI & LI & KO & K & R).
    assert (L1 : (1 <= length ident)%nat).
    { destruct ident; [exfalso; eapply NE; reflexivity|]. cbn [length]. lia. }
    destruct (build_is_records ident rs (Some pk) (Some k) (cstr_bytes _ CI)) as (E & Bb & Lb); auto.
    unfold naddr_encode in H. cbv zeta in H. destruct (_ =? 0)%nat; [discriminate|].
    apply encode_bytes_text in H; auto; [|repeat constructor|simpl; lia].
    rewrite E in H. exact H.
  - destruct OK as (C & L). unfold nrelay_encode in H. destruct (_ || _)%bool; [discriminate|].
    apply encode_bytes_text in H; auto; [|repeat constructor|simpl; lia| |simpl; lia].
    + cbn [records payload flat_map]. rewrite app_nil_r. exact H.
    + unfold tlv_rec, blen. constructor; [reflexivity|]. constructor; [unfold byte_ok; lia|].
      apply cstr_bytes; auto.
Qed.
Print Assumptions C176_refs_written_partial.

(** An address without identifier is written without its first record, which
    NIP-19 asks to be there and empty. *)
Definition plain_addr : entity := Naddr [] (repeat 1 32) 10002 [].

Theorem C176_refs_written_refuted : ~ (forall e size s, entity_ok e -> uri_encode e size = Ok s ->
  exists t, s = bs "nostr:" ++ t /\ bech32_text (prefix_of e) (written_bytes e) t).
Proof.
  intros H.
  assert (OK : entity_ok plain_addr).
  { cbn [plain_addr entity_ok]. split; [constructor|]. split; [simpl; lia|]. split.
    - split; [reflexivity|]. apply Forall_repeat. reflexivity.
    - split; [reflexivity|]. split; [simpl; lia|]. split; [constructor|]. simpl. lia. }
  destruct (C06_uri_roundtrip plain_addr 6700 OK ltac:(lia)) as (s & E & _).
  destruct (H plain_addr 6700 s OK E) as (t & -> & T).
  unfold uri_encode in E. change (6700 <? 7) with false in E. cbv iota zeta in E.
  apply rmap_ok in E as (t' & E & S). apply app_inv_head in S. subst t'.
  cbn [plain_addr] in E. unfold naddr_encode in E. cbv zeta in E.
  set (b := build_tlv 4096 [] [] (Some (repeat 1 32)) (Some 10002)) in E.
  assert (EB : b = 2 :: 32 :: repeat 1 32 ++ [3; 4; 0; 0; 39; 18]) by (vm_compute; reflexivity).
  clearbody b. subst b. destruct (_ =? 0)%nat; [discriminate|].
  apply encode_bytes_text in E; [|repeat constructor|simpl; lia|repeat constructor|simpl; lia].
  assert (W : written_bytes plain_addr = 0 :: 0 :: 2 :: 32 :: repeat 1 32 ++ [3; 4; 0; 0; 39; 18])
    by (vm_compute; reflexivity).
  rewrite W in T. change (prefix_of plain_addr) with (bs "naddr") in T.
  eapply (C176_unique (bs "naddr") _ _ t t) in T; [| | | | | | |exact E];
    try (repeat constructor; fail); try (simpl; lia).
  assert (X := proj2 T eq_refl).
  discriminate X.
Qed.
Print Assumptions C176_refs_written_refuted.

Lemma picks_filter P f l : (forall v, f v = true <-> P v) -> forall l', picks P l l' <-> l' = filter f l.
Proof.
  intros FP l'. split.
  - induction 1 as [|v l l' V H IH|v l l' V H IH]; cbn [filter]; auto.
    + apply FP in V. rewrite V. congruence.
    + destruct (f v) eqn:E; auto. apply FP in E. contradiction.
  - intros ->. induction l as [|v l IH]; cbn [filter]; [constructor|].
    destruct (f v) eqn:E; constructor; auto; [apply FP; auto|]. intros V. apply FP in V. congruence.
Qed.

Lemma final_last P f l o : (forall v, f v = true <-> P v) -> (final P l o <-> last_such f l = o).
Proof.
  intros FP. unfold final, last_such. split.
  - intros (kept & K & E). apply (picks_filter P f l FP) in K. subst kept. destruct o as [v|].
    + destruct E as (b & ->). rewrite rev_app_distr. reflexivity.
    + rewrite E. reflexivity.
  - intros <-. exists (filter f l). split; [apply (picks_filter P f); auto|].
    destruct (rev (filter f l)) as [|v r] eqn:E.
    + apply (f_equal (@rev _)) in E. rewrite rev_involutive in E. exact E.
    + exists (rev r). apply (f_equal (@rev _)) in E. rewrite rev_involutive in E. exact E.
Qed.

Lemma hints_iff items rs : hints items rs <-> rs = firstn 16 (filter is_valid_relay_url (values 1 items)).
Proof.
  unfold hints. split.
  - intros (k & K & ->). apply (picks_filter _ _ _ relay_valid_iff) in K. congruence.
  - intros ->. eexists. split; [|reflexivity]. apply (picks_filter _ _ _ relay_valid_iff). reflexivity.
Qed.

Lemma len_iff n v : (length v =? n)%nat = true <-> of_length n v.
Proof. apply Nat.eqb_eq. Qed.
Lemma any_iff v : (fun _ : list N => true) v = true <-> any_value v.
Proof. unfold any_value. tauto. Qed.

Lemma author_iff items a : author_is items a <-> last_such (fun v => length v =? 32)%nat (values 2 items) = a.
Proof. apply final_last. apply len_iff. Qed.
Lemma kind_iff items k :
  kind_is items k <-> option_map be_value (last_such (fun v => length v =? 4)%nat (values 3 items)) = k.
Proof.
  unfold kind_is. split.
  - intros (o & F & ->). apply (final_last _ _ _ _ (len_iff 4)) in F. rewrite F. reflexivity.
  - intros <-. eexists. split; [|reflexivity]. apply (final_last _ _ _ _ (len_iff 4)). reflexivity.
Qed.
Lemma main_iff items v : main_is items v <-> last_such (fun _ => true) (values 0 items) = Some v.
Proof. apply final_last. apply any_iff. Qed.
Lemma last_none l : last_such (fun _ => true) l = None <-> l = [].
Proof.
  rewrite <- (final_last any_value (fun _ => true) l None any_iff). unfold final. split.
  - intros (k & K & ->). apply (picks_filter _ _ _ any_iff) in K. symmetry in K.
    destruct l; [auto|discriminate].
  - intros ->. exists []. split; [constructor|reflexivity].
Qed.

Lemma read_bytes hrp items s size : ascii_text hrp -> (length hrp <= 41)%nat -> Forall item_ok items ->
  N.of_nat (length (payload items)) <= size -> bech32_text hrp (payload items) s ->
  decode_bech32_to_bytes s hrp size = if (length items =? 0)%nat then Err EEncoding else Ok (payload items).
Proof.
  intros A L F S T. destruct items as [|i items].
  - cbn [length Nat.eqb]. destruct T as (d & ck & R & Fc & Lc & _ & ->).
    destruct R as (_ & k & K & LD & _). cbn [payload flat_map length] in LD.
    unfold decode_bech32_to_bytes. cbv zeta.
    match goal with |- context [(?a <? ?b) || _] => destruct (N.ltb_spec a b) as [|X] end; [reflexivity|].
    unfold blen in X. rewrite !app_length, map_length, app_length in X. cbn [bs length] in X. lia.
  - cbn [length Nat.eqb].
    assert (L1 : (1 <= length (payload (i :: items)))%nat) by (simpl; lia).
    apply text_iff in T as (ck & C & ->); auto using payload_bytes.
    unfold conv in *. apply decode_bytes_ok; auto using payload_bytes, ascii_bytes.
Qed.

Lemma parse_items ss wr wa items : Forall item_ok items ->
  parse_tlv ss wr wa (payload items) =
  if forallb (fun v => length v <=? ss)%nat (values 0 items) then Ok (reading wr wa items) else Err EEncoding.
Proof.
  intros F. rewrite <- (app_nil_r (payload items)). rewrite parse_tlv_items by (auto; simpl; lia).
  rewrite run_spec by auto. destruct (forallb _ _); [|reflexivity]. unfold reading, tlv_init.
  cbn [special relays author kind length app Nat.sub].
  destruct (last_such (fun v => length v =? 32)%nat (values 2 items)),
    (last_such (fun v => length v =? 4)%nat (values 3 items)); reflexivity.
Qed.

Lemma fits_iff ss items :
  forallb (fun v => length v <=? ss)%nat (values 0 items) = true <->
  Forall (fun v => (length v <= ss)%nat) (values 0 items).
Proof.
  rewrite forallb_forall, Forall_forall. split; intros H v V; specialize (H v V); apply Nat.leb_le; auto.
Qed.

Lemma values_short ty items : Forall item_ok items -> Forall (fun v => (length v <= 255)%nat) (values ty items).
Proof.
  intros F. unfold values. rewrite Forall_map. rewrite Forall_forall in *. intros i I.
  apply filter_In in I as [I _]. apply (F i I).
Qed.

Lemma last_in f l v : last_such f l = Some v -> In v l.
Proof.
  unfold last_such. destruct (rev (filter f l)) as [|x r] eqn:E; [discriminate|]. intros H.
  assert (x = v) by congruence. subst x.
  assert (In v (rev (filter f l))) by (rewrite E; left; auto). apply in_rev in H0. apply filter_In in H0. apply H0.
Qed.

Definition ref_prefixes : list (list N) := [bs "nprofile"; bs "nevent"; bs "naddr"; bs "nrelay"].

Lemma uri_dispatch hrp x : In hrp ref_prefixes ->
  uri_parse (bs "nostr:" ++ hrp ++ bs "1" ++ x) =
  match hrp with
  | 110 :: 112 :: _ => nprofile_decode (hrp ++ bs "1" ++ x)
  | 110 :: 101 :: _ => nevent_decode (hrp ++ bs "1" ++ x)
  | 110 :: 97 :: _ => naddr_decode (hrp ++ bs "1" ++ x)
  | _ => nrelay_decode (hrp ++ bs "1" ++ x)
  end.
Proof.
  intros I. unfold uri_parse. destruct (prefix_nostr (hrp ++ bs "1" ++ x)) as [-> ->]. cbn [negb].
  destruct I as [<-|[<-|[<-|[<-|[]]]]]; reflexivity.
Qed.

Theorem C176_refs_read : forall hrp items s e, In hrp ref_prefixes -> Forall item_ok items ->
  (length (payload items) <= if beq hrp (bs "nrelay") then 512 else 4096)%nat ->
  bech32_text hrp (payload items) s ->
  (uri_parse (bs "nostr:" ++ s) = Ok e <-> prefix_of e = hrp /\ denotes items e).
Proof.
  intros hrp items s e I F L T.
  assert (exists x, s = hrp ++ bs "1" ++ x) as (x & SX).
  { destruct T as (d & ck & _ & _ & _ & _ & ->). eauto. }
  assert (E : uri_parse (bs "nostr:" ++ s) =
    match hrp with
    | 110 :: 112 :: _ => nprofile_decode s
    | 110 :: 101 :: _ => nevent_decode s
    | 110 :: 97 :: _ => naddr_decode s
    | _ => nrelay_decode s
    end) by (rewrite SX; apply uri_dispatch; auto).
  rewrite E. clear E x SX.
  destruct I as [<-|[<-|[<-|[<-|[]]]]].
  - change (nprofile_decode s = Ok e <-> prefix_of e = bs "nprofile" /\ denotes items e).
    unfold nprofile_decode.
    change (beq (bs "nprofile") (bs "nrelay")) with false in L. cbv iota in L.
    rewrite (read_bytes (bs "nprofile") items s 4096) by (auto; try (repeat constructor; fail); simpl; lia).
    destruct (Nat.eqb_spec (length items) 0) as [Z|Z].
    { destruct items; [|discriminate]. cbn [bind]. split; [discriminate|]. intros [P D].
      destruct e; try discriminate P. cbn [denotes] in D. destruct D as (_ & D & _).
      apply main_iff in D. discriminate D. }
    cbn [bind]. rewrite parse_items by auto.
    pose proof (fits_iff 32 items) as FI.
    destruct (forallb _ _); cbn [bind]; [|split; [discriminate|]].
    2: { intros [P D]. destruct e; try discriminate P. cbn [denotes] in D. apply proj1, FI in D. discriminate D. }
    unfold reading. cbn [special relays].
    split.
    + destruct (last_such (fun _ => true) (values 0 items)) as [v|] eqn:M; [|discriminate].
      destruct (Nat.eqb_spec (length v) 32); [|discriminate]. intros H.
      assert (e = Nprofile v (firstn 16 (filter is_valid_relay_url (values 1 items)))) as -> by congruence.
      split; [reflexivity|]. cbn [denotes]. rewrite main_iff, hints_iff. tauto.
    + intros [P D]. destruct e; try discriminate P. cbn [denotes] in D. destruct D as (_ & D & Lk & Hi).
      apply main_iff in D. apply hints_iff in Hi. rewrite D, Lk. subst rs. reflexivity.
  - change (nevent_decode s = Ok e <-> prefix_of e = bs "nevent" /\ denotes items e).
    unfold nevent_decode.
    change (beq (bs "nevent") (bs "nrelay")) with false in L. cbv iota in L.
    rewrite (read_bytes (bs "nevent") items s 4096) by (auto; try (repeat constructor; fail); simpl; lia).
    destruct (Nat.eqb_spec (length items) 0) as [Z|Z].
    { destruct items; [|discriminate]. cbn [bind]. split; [discriminate|]. intros [P D].
      destruct e; try discriminate P. cbn [denotes] in D. destruct D as (_ & D & _).
      apply main_iff in D. discriminate D. }
    cbn [bind]. rewrite parse_items by auto.
    pose proof (fits_iff 32 items) as FI.
    destruct (forallb _ _); cbn [bind]; [|split; [discriminate|]].
    2: { intros [P D]. destruct e; try discriminate P. cbn [denotes] in D. apply proj1, FI in D. discriminate D. }
    unfold reading. cbn [special relays author kind].
    split.
    + destruct (last_such (fun _ => true) (values 0 items)) as [v|] eqn:M; [|discriminate].
      destruct (Nat.eqb_spec (length v) 32); [|discriminate]. intros H.
      match type of H with Ok ?x = Ok e => assert (e = x) as -> by congruence end.
      split; [reflexivity|]. cbn [denotes]. rewrite main_iff, hints_iff, author_iff, kind_iff. tauto.
    + intros [P D]. destruct e; try discriminate P. cbn [denotes] in D.
      destruct D as (_ & D & Lk & Hi & Au & Ki).
      apply main_iff in D. apply hints_iff in Hi. apply author_iff in Au. apply kind_iff in Ki.
      rewrite D, Lk. subst. reflexivity.
  - change (naddr_decode s = Ok e <-> prefix_of e = bs "naddr" /\ denotes items e).
    unfold naddr_decode.
    change (beq (bs "naddr") (bs "nrelay")) with false in L. cbv iota in L.
    rewrite (read_bytes (bs "naddr") items s 4096) by (auto; try (repeat constructor; fail); simpl; lia).
    destruct (Nat.eqb_spec (length items) 0) as [Z|Z].
    { destruct items; [|discriminate]. cbn [bind]. split; [discriminate|]. intros [P D].
      destruct e; try discriminate P. cbn [denotes] in D. destruct D as (_ & _ & D & _).
      apply author_iff in D. discriminate D. }
    cbn [bind]. rewrite parse_items by auto.
    assert (FI : forallb (fun v => length v <=? 256)%nat (values 0 items) = true).
    { apply fits_iff. eapply Forall_impl; [|apply (values_short 0 items F)]. cbv beta. intros. lia. }
    rewrite FI. cbn [bind]. unfold reading. cbn [special relays author kind].
    set (sp := match last_such (fun _ => true) (values 0 items) with Some v => v | None => [] end).
    assert (LS : (256 <=? length sp)%nat = false).
    { apply Nat.leb_gt. unfold sp. destruct (last_such _ _) as [v|] eqn:M; [|simpl; lia].
      apply last_in in M. pose proof (values_short 0 items F) as V. rewrite Forall_forall in V.
      specialize (V v M). cbv beta in V. lia. }
    rewrite LS. split.
    + destruct (last_such (fun v => length v =? 32)%nat (values 2 items)) as [a|] eqn:Ma; [|discriminate].
      destruct (option_map be_value _) as [k|] eqn:Mk; [|discriminate]. intros H.
      match type of H with Ok ?x = Ok e => assert (e = x) as -> by congruence end.
      split; [reflexivity|]. cbn [denotes]. rewrite main_iff, hints_iff, author_iff, kind_iff.
      split; [|auto]. unfold sp. destruct (last_such (fun _ => true) (values 0 items)) eqn:M; [auto|].
      right. split; [apply last_none; auto|reflexivity].
    + intros [P D]. destruct e; try discriminate P. cbn [denotes] in D.
      destruct D as (D & Hi & Au & Ki).
      apply hints_iff in Hi. apply author_iff in Au. apply kind_iff in Ki. rewrite Au, Ki.
      assert (sp = ident) as ->; [|subst; reflexivity].
      unfold sp. destruct D as [D|[D ->]]; [apply main_iff in D; rewrite D; reflexivity|].
      apply last_none in D. rewrite D. reflexivity.
  - change (nrelay_decode s = Ok e <-> prefix_of e = bs "nrelay" /\ denotes items e).
    unfold nrelay_decode.
    change (beq (bs "nrelay") (bs "nrelay")) with true in L. cbv iota in L.
    rewrite (read_bytes (bs "nrelay") items s 512) by (auto; try (repeat constructor; fail); simpl; lia).
    destruct (Nat.eqb_spec (length items) 0) as [Z|Z].
    { destruct items; [|discriminate]. cbn [bind]. split; [discriminate|]. intros [P D].
      destruct e; try discriminate P. cbn [denotes] in D. destruct D as (D & _).
      apply main_iff in D. discriminate D. }
    cbn [bind]. rewrite parse_items by auto.
    assert (FI : forallb (fun v => length v <=? 256)%nat (values 0 items) = true).
    { apply fits_iff. eapply Forall_impl; [|apply (values_short 0 items F)]. cbv beta. intros. lia. }
    rewrite FI. cbn [bind]. unfold reading. cbn [special].
    split.
    + destruct (last_such (fun _ => true) (values 0 items)) as [v|] eqn:M; [|discriminate].
      destruct (_ || _)%bool eqn:B; [discriminate|]. intros H.
      match type of H with Ok ?x = Ok e => assert (e = x) as -> by congruence end.
      split; [reflexivity|]. cbn [denotes]. rewrite main_iff. split; auto.
      intros ->. discriminate B.
    + intros [P D]. destruct e; try discriminate P. cbn [denotes] in D. destruct D as (D & NE).
      apply main_iff in D. rewrite D.
      apply last_in in D. pose proof (values_short 0 items F) as V. rewrite Forall_forall in V.
      specialize (V url D). cbv beta in V.
      destruct (Nat.eqb_spec (length url) 0); [destruct url; [congruence|discriminate]|].
      destruct (Nat.leb_spec 256 (length url)); [lia|]. reflexivity.
Qed.
Print Assumptions C176_refs_read.

(** ** Upper case *)
Definition upper (s : list N) : list N := map (fun c => if (97 <=? c) && (c <=? 122) then c - 32 else c) s.

Definition some_key : list N := repeat 7 32.
Lemma some_key_ok : bytes32 some_key.
Proof. split; [reflexivity|]. apply Forall_repeat. reflexivity. Qed.
Definition some_npub : list N :=
  Eval vm_compute in (match key_to_bech32 some_key (bs "npub") 64 with Ok s => s | _ => [] end).

Lemma some_npub_text : bech32_text (bs "npub") some_key some_npub.
Proof.
  apply (proj1 (C176_keys_written some_key (bs "npub") 64 some_npub some_key_ok
    ltac:(repeat constructor) ltac:(simpl; lia))). vm_compute. reflexivity.
Qed.

(** BIP-173 asks decoders to take a text written all in upper case. *)
Theorem C176_upper_refuted : ~ (forall k s, bytes32 k -> bech32_text (bs "npub") k s ->
  key_from_bech32 (upper s) = Ok k).
Proof.
  intros H. specialize (H some_key some_npub some_key_ok some_npub_text). vm_compute in H. discriminate H.
Qed.
Print Assumptions C176_upper_refuted.

(** It also asks them to refuse a text that mixes cases. *)
Theorem C176_mixed_refuted : ~ (forall s k, ascii_text s -> key_from_bech32 s = Ok k ->
  upper s = s \/ Forall (fun c => ~ (65 <= c <= 90)) s).
Proof.
  intros H.
  set (s := match key_to_bech32 some_key (bs "NPUB") 64 with Ok s => s | _ => [] end).
  assert (E : s = bs "NPUB1qurswpc8qurswpc8qurswpc8qurswpc8qurswpc8qurswpc8qurs" ++ skipn 57 s) by (vm_compute; reflexivity).
  destruct (H s some_key) as [U|U].
  - apply Forall_forall. intros c I. apply N.ltb_lt.
    assert (A : forallb (fun c => c <? 128) s = true) by (vm_compute; reflexivity).
    rewrite forallb_forall in A. auto.
  - vm_compute. reflexivity.
  - rewrite E in U. vm_compute in U. discriminate U.
  - assert (I : In 78 s) by (rewrite E; left; reflexivity).
    rewrite Forall_forall in U. apply (U 78 I). lia.
Qed.
Print Assumptions C176_mixed_refuted.

(** ** Non-vacuity: texts printed in NIP-19 itself, and a profile with its
    records in an unusual order, one of them of an unknown type *)
Definition odd_items : list item :=
  [(1, bs "wss://r.x.com"); (9, [1; 2; 3]); (0, some_key); (1, bs "http://no.example"); (1, bs "wss://b.example")].
Definition odd_text : list N :=
  Eval vm_compute in (match encode_bytes_to_bech32 (payload odd_items) (bs "nprofile") 400 with Ok s => s | _ => [] end).

Lemma odd_items_ok : Forall item_ok odd_items.
Proof.
  repeat apply Forall_cons; try apply Forall_nil;
    (split; [reflexivity|split; [cbn; lia|cbn [snd]; repeat constructor]]).
Qed.

Example C176_meets :
  key_from_bech32 (bs "npub10elfcs4fr0l0r8af98jlmgdh9c8tcxjvz9qkw038js35mp4dma8qzvjptg") =
    Ok [126; 126; 156; 66; 169; 27; 254; 241; 159; 169; 41; 229; 253; 161; 183; 46; 14; 188; 26; 76;
        17; 65; 103; 62; 39; 148; 35; 77; 134; 173; 223; 78] /\
  uri_parse (bs "nostr:nprofile1qqsrhuxx8l9ex335q7he0f09aej04zpazpl0ne2cgukyawd24mayt8gpp4mhxue69uhhytnc9e3k7mgpz4mhxue69uhkg6nzv9ejuumpv34kytnrdaksjlyr9p") =
    Ok (Nprofile [59; 240; 198; 63; 203; 147; 70; 52; 7; 175; 151; 165; 229; 238; 100; 250; 136; 61; 16; 126;
                  249; 229; 88; 71; 44; 78; 185; 170; 174; 250; 69; 157]
         [bs "wss://r.x.com"; bs "wss://djbas.sadkb.com"]) /\
  bech32_text (bs "npub") some_key some_npub /\
  bech32_text (bs "nprofile") (payload odd_items) odd_text /\
  uri_parse (bs "nostr:" ++ odd_text) = Ok (Nprofile some_key [bs "wss://r.x.com"; bs "wss://b.example"]) /\
  denotes odd_items (Nprofile some_key [bs "wss://r.x.com"; bs "wss://b.example"]).
Proof.
  assert (T : bech32_text (bs "nprofile") (payload odd_items) odd_text).
  { apply (encode_bytes_text _ _ 400); [repeat constructor|simpl; lia|apply payload_bytes, odd_items_ok|
      apply Nat.leb_le; vm_compute; reflexivity|vm_compute; reflexivity]. }
  assert (U : uri_parse (bs "nostr:" ++ odd_text) = Ok (Nprofile some_key [bs "wss://r.x.com"; bs "wss://b.example"]))
    by (vm_compute; reflexivity).
  split; [vm_compute; reflexivity|]. split; [vm_compute; reflexivity|].
  split; [exact some_npub_text|]. split; [exact T|]. split; [exact U|].
  apply (C176_refs_read (bs "nprofile") odd_items odd_text) in U; [apply U|left; reflexivity|apply odd_items_ok| |exact T].
  apply Nat.leb_le. vm_compute. reflexivity.
Qed.
Print Assumptions C176_meets.
