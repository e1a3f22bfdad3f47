(** Lemmas about the NIP-49 model. *)
From Verif Require Import Base BaseFacts BitsFacts Bech32 Bech32Proofs Nip21 Nip21Proofs Nip49 Nip49Spec.
Open Scope N_scope.

(** ** Payload strings *)
Lemma convert91 p : convert_bits p 146 8 5 true = convert_bits p (N.to_nat ((91 * 8 + 4) / 5)) 8 5 true.
Proof. reflexivity. Qed.

Lemma encode_ncryptsec_ok p size : bytes_ok p -> length p = 91%nat -> (163 <= size)%nat ->
  exists s, encode_ncryptsec p size = Ok s /\ length s = 162%nat /\ decode_ncryptsec s = Ok p.
Proof.
  intros B L S.
  assert (BL : blen p = 91) by (unfold blen; rewrite L; reflexivity).
  destruct (convert_bytes p B ltac:(lia)) as (F & U & Lo & k & Hk & E). cbv zeta in *.
  rewrite BL in *. unfold encode_ncryptsec. rewrite convert91.
  set (c := convert_bits _ _ _ _ _) in *.
  assert (LC : length c = 146%nat) by lia.
  destruct (create_checksum_some (bs "ncryptsec") c) as (ck & C); [cbn; lia|].
  destruct (create_checksum_digits _ _ _ C) as [Fc Lc].
  rewrite LC. cbn [Nat.eqb]. rewrite C.
  set (s := bs "ncryptsec1" ++ map charset_get c ++ map charset_get ck).
  assert (LS : length s = 162%nat).
  { unfold s. rewrite !app_length, !map_length, LC, Lc. reflexivity. }
  rewrite LS. destruct (Nat.leb_spec (162 + 1) size); [|lia].
  exists s. split; [reflexivity|]. split; [exact LS|].
  unfold decode_ncryptsec. rewrite LS.
  replace (prefixb (bs "ncryptsec1") s) with true by (symmetry; apply prefixb_app).
  cbn [negb Nat.ltb Nat.leb orb Nat.sub].
  replace (skipn 10 s) with (map charset_get (c ++ ck))
    by (unfold s; rewrite map_app; reflexivity).
  rewrite decode_chars_ok; [|apply Forall_app; auto|rewrite app_length; lia].
  cbn [bind].
  assert (X : exists e, hrp_expand (bs "ncryptsec") 84 = Some e).
  { unfold create_checksum in C. destruct (hrp_expand (bs "ncryptsec") 84); [eauto|discriminate]. }
  destruct X as (e & X).
  replace (verify_checksum (bs "ncryptsec") (c ++ ck)) with true.
  2:{ symmetry. eapply verify_iff; eauto. repeat constructor; unfold byte_ok; cbn; lia. }
  cbn [negb]. rewrite app_length, LC, Lc. change (146 + 6 - 6)%nat with 146%nat.
  rewrite firstn_app_exact by auto.
  replace (convert_bits c 91 5 8 false) with p.
  2:{ symmetry. apply (convert_nopad_ok 5 8 _ c p k); auto; lia. }
  rewrite L. reflexivity.
Qed.

Lemma decode_ncryptsec_inv s p : decode_ncryptsec s = Ok p -> length p = 91%nat /\ bytes_ok p.
Proof.
  unfold decode_ncryptsec. intros H.
  destruct (negb _); [discriminate|]. destruct (_ || _)%bool; [discriminate|].
  destruct (_ <? _)%nat; [discriminate|]. apply bind_ok in H as (d & D & H).
  destruct (negb _); [discriminate|].
  destruct (Nat.eqb_spec (length (convert_bits (firstn (length d - 6) d) 91 5 8 false)) 91) as [E|E]; [|discriminate].
  injection H as H.
  destruct (convert_nopad_spec 5 8 91 (firstn (length d - 6) d)) as (_ & Fo & _); try lia;
    change (N.of_nat 5) with 5 in *; change (N.of_nat 8) with 8 in *.
  - intros Z. rewrite Z in E. discriminate.
  - rewrite H in *. split; [exact E|exact Fo].
Qed.

(** Every access stays inside the 160-entry buffer. *)
Lemma decode_ncryptsec_safe s : decode_ncryptsec s <> Undef.
Proof.
  unfold decode_ncryptsec. intros H.
  destruct (negb _); [discriminate|]. destruct (_ || _)%bool eqn:E; [discriminate|].
  destruct (Nat.ltb_spec 160 (length s - 10)); [discriminate|].
  apply bind_undef in H as [H|(d & D & H)].
  - apply decode_chars_undef in H. rewrite skipn_length in H. lia.
  - destruct (negb _); [discriminate|]. destruct (_ =? _)%nat; discriminate.
Qed.

(** ** Words *)
Lemma m32_pow x : m32 x = x mod 2 ^ 32.
Proof. reflexivity. Qed.

Lemma rotl32_rot v n : rotl32 v n = rot n v.
Proof. unfold rotl32, rot, m32. rewrite N.shiftl_mul_pow2, N.shiftr_div_pow2. reflexivity. Qed.

Lemma lor_disjoint a b k : a < 2 ^ k -> N.lor a (N.shiftl b k) = a + b * 2 ^ k.
Proof.
  intros H. rewrite <- N.shiftl_mul_pow2. symmetry.
  rewrite N.add_nocarry_lxor, N.lxor_lor; [reflexivity|..];
    apply N.bits_inj; intros i; rewrite N.land_spec, N.bits_0;
    (destruct (N.lt_ge_cases i k);
      [rewrite N.shiftl_spec_low by assumption; apply andb_false_r
      |destruct (N.eq_dec a 0) as [->|NZ]; [rewrite N.bits_0; reflexivity|];
       rewrite N.bits_above_log2; [reflexivity|]; apply N.log2_lt_pow2 in H; lia]).
Qed.

Lemma load32_word l : bytes_ok l -> (4 <= length l)%nat -> load32_le l = le_word (firstn 4 l).
Proof.
  intros B L. destruct l as [|b0 [|b1 [|b2 [|b3 r]]]]; cbn [length] in L; try lia.
  cbn [firstn le_word]. unfold load32_le.
  inversion B as [|? ? B0 B']; inversion B' as [|? ? B1 B'']; inversion B'' as [|? ? B2 B''']; subst.
  inversion B''' as [|? ? B3 _]; subst. unfold byte_ok in *.
  rewrite (lor_disjoint b0 b1 8) by (change (2 ^ 8) with 256; lia).
  rewrite (lor_disjoint _ b2 16) by (change (2 ^ 8) with 256; change (2 ^ 16) with 65536; lia).
  rewrite (lor_disjoint _ b3 24)
    by (change (2 ^ 8) with 256; change (2 ^ 16) with 65536; change (2 ^ 24) with 16777216; lia).
  change (2 ^ 8) with 256. change (2 ^ 16) with 65536. change (2 ^ 24) with 16777216. lia.
Qed.

Lemma store32_bytes v : store32_le v = le_word_bytes v.
Proof.
  unfold store32_le, le_word_bytes. change 255 with (N.ones 8).
  rewrite !N.land_ones, !N.shiftr_div_pow2. reflexivity.
Qed.

(** ** The rounds *)
Definition flat_m (m : matrix) : list N :=
  let '((a0, a1, a2, a3), (b0, b1, b2, b3), (c0, c1, c2, c3), (d0, d1, d2, d3)) := m in
  [a0; a1; a2; a3; b0; b1; b2; b3; c0; c1; c2; c3; d0; d1; d2; d3].

Lemma double_round_spec m : double_round (flat_m m) = flat_m (two_rounds m).
Proof.
  destruct m as (((r0, r1), r2), r3).
  destruct r0 as (((a0, a1), a2), a3). destruct r1 as (((b0, b1), b2), b3).
  destruct r2 as (((c0, c1), c2), c3). destruct r3 as (((d0, d1), d2), d3).
  unfold two_rounds.
  assert (Q : forall a b c d, quarter (a, b, c, d) =
    (let a := m32 (a + b) in let d := rotl32 (N.lxor d a) 16 in
     let c := m32 (c + d) in let b := rotl32 (N.lxor b c) 12 in
     let a := m32 (a + b) in let d := rotl32 (N.lxor d a) 8 in
     let c := m32 (c + d) in let b := rotl32 (N.lxor b c) 7 in (a, b, c, d))).
  { intros. unfold quarter. rewrite !rotl32_rot. reflexivity. }
  unfold columns, shift_rows, unshift_rows, left1, flat_m. cbv beta iota.
  Opaque m32 rotl32 N.lxor N.add quarter.
  repeat (rewrite Q; cbv beta iota zeta).
  reflexivity.
  Transparent m32 rotl32 N.lxor N.add quarter.
Qed.

Lemma iter_map (A B : Type) (d : A -> A) (t : B -> B) (f : B -> A) n m :
  (forall x, d (f x) = f (t x)) -> Nat.iter n d (f m) = f (Nat.iter n t m).
Proof. intros H. induction n as [|n IH]; simpl; [reflexivity|]. rewrite IH. apply H. Qed.

Lemma rounds_spec n m : rounds n (flat_m m) = flat_m (Nat.iter n two_rounds m).
Proof. exact (iter_map _ _ double_round two_rounds flat_m n m double_round_spec). Qed.
