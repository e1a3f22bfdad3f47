(** Lemmas about the hex conversions. *)
From Verif Require Import Base BaseFacts Hex HexSpec.
Open Scope N_scope.

Lemma lor_0_iff a b : N.lor a b = 0 <-> a = 0 /\ b = 0.
Proof. apply N.lor_eq_0_iff. Qed.

Lemma memcmp_loop_spec n : forall a b diff steps,
  (n <= length a)%nat -> (n <= length b)%nat ->
  exists d, memcmp_loop n a b diff steps = Ok (d, (steps + n)%nat) /\
            (d = 0 <-> diff = 0 /\ firstn n a = firstn n b).
Proof.
  induction n as [|n IH]; intros a b diff steps La Lb; simpl.
  - exists diff. rewrite Nat.add_0_r. split; auto. tauto.
  - destruct a as [|x a]; [simpl in La; lia|]. destruct b as [|y b]; [simpl in Lb; lia|].
    simpl in La, Lb.
    destruct (IH a b (N.lor diff (N.lxor x y)) (S steps)) as (d & E & H); [lia|lia|].
    exists d. split; [replace (steps + S n)%nat with (S steps + n)%nat by lia; exact E|].
    rewrite H, lor_0_iff, N.lxor_eq_0_iff. split.
    + intros ((? & ?) & ?). split; congruence.
    + intros (? & F). injection F as -> ->. auto.
Qed.

Lemma hexdig_cases c d : hexdig c d ->
  (d < 16) /\ ((48 <= c <= 57 /\ d = c - 48) \/ (97 <= c <= 102 /\ d = c - 87)
               \/ (65 <= c <= 70 /\ d = c - 55)).
Proof.
  unfold hexdig. intros H.
  assert (D : (N.to_nat d < 16)%nat).
  { destruct H as [H|H]; assert (X : nth_error _ (N.to_nat d) <> None) by (rewrite H; discriminate); apply nth_error_Some in X; exact X. }
  assert (E : d = N.of_nat (N.to_nat d)) by lia. rewrite E in *. clear E.
  rewrite Nat2N.id in H. generalize dependent (N.to_nat d). clear d. intros n H D.
  split; [lia|].
  do 16 (destruct n as [|n]; [simpl in H; destruct H as [H|H]; injection H as <-; lia|]). lia.
Qed.

Lemma nibble_hexdig c d : hex_nibble c = Some d <-> hexdig c d.
Proof.
  split; intros H.
  - unfold hex_nibble in H.
    assert (K : (48 <= c <= 57 /\ d = c - 48) \/ (97 <= c <= 102 /\ d = c - 87)
               \/ (65 <= c <= 70 /\ d = c - 55)).
    { destruct (N.leb_spec 48 c), (N.leb_spec c 57), (N.leb_spec 97 c), (N.leb_spec c 102),
        (N.leb_spec 65 c), (N.leb_spec c 70); simpl in H; try discriminate; injection H as <-; lia. }
    clear H. unfold hexdig.
    assert (C : exists n, c = N.of_nat n /\ (48 <= n <= 102)%nat) by (exists (N.to_nat c); lia).
    destruct C as (n & -> & Hn).
    assert (X : n = (48 + (n - 48))%nat) by lia.
    assert (Y : (n - 48 <= 54)%nat) by lia.
    generalize dependent (n - 48)%nat. intros k -> Y. clear Hn.
    do 55 (destruct k as [|k]; [
      destruct K as [[K ->]|[[K ->]|[K ->]]]; try (exfalso; lia);
      (left; reflexivity) || (right; reflexivity) |]).
    lia.
  - apply hexdig_cases in H as (_ & H). unfold hex_nibble.
    destruct (N.leb_spec 48 c), (N.leb_spec c 57), (N.leb_spec 97 c), (N.leb_spec c 102),
        (N.leb_spec 65 c), (N.leb_spec c 70); simpl; try (f_equal; lia); exfalso; lia.
Qed.

Lemma hexdig_hexdigit v : v < 16 -> hexdig (hexdigit v) v.
Proof.
  intros H. apply nibble_hexdig. unfold hexdigit, hex_nibble.
  destruct (N.ltb_spec v 10).
  - destruct (N.leb_spec 48 (48 + v)), (N.leb_spec (48 + v) 57); try lia. cbn [andb]. f_equal. lia.
  - destruct (N.leb_spec 48 (87 + v)), (N.leb_spec (87 + v) 57); try lia. cbn [andb].
    destruct (N.leb_spec 97 (87 + v)), (N.leb_spec (87 + v) 102); try lia. cbn [andb]. f_equal. lia.
Qed.

Lemma shl4_lor a b : b < 16 -> N.lor (N.shiftl a 4) b = a * 16 + b.
Proof.
  intros H. rewrite N.shiftl_mul_pow2. change (2 ^ 4) with 16.
  rewrite N.add_nocarry_lxor, <- N.lxor_lor; auto.
  all: apply N.bits_inj_0; intros n; rewrite N.land_spec;
       (destruct (N.lt_ge_cases n 4) as [Hn|Hn];
        [change 16 with (2 ^ 4); rewrite N.mul_pow2_bits_low by auto; reflexivity|
         assert (N.testbit b n = false) as ->; [|apply andb_false_r]]).
  all: destruct (N.eq_dec b 0) as [->|]; [apply N.bits_0|];
       apply N.bits_above_log2; apply N.log2_lt_pow2; [lia|];
       eapply N.lt_le_trans; [exact H|]; change 16 with (2 ^ 4); apply N.pow_le_mono_r; lia.
Qed.

Lemma hex_loop_ok s : forall l, hextext s l -> hex_decode_loop s = (l, true).
Proof.
  intros l H. induction H as [|c1 c2 d1 d2 s l H1 H2 H IH]; auto. simpl.
  pose proof (proj1 (hexdig_cases _ _ H2)).
  apply nibble_hexdig in H1, H2. rewrite H1, H2, IH, shl4_lor; auto.
Qed.

Lemma list2_ind {A} (P : list A -> Prop) :
  P [] -> (forall x, P [x]) -> (forall x y l, P l -> P (x :: y :: l)) -> forall l, P l.
Proof.
  intros P0 P1 P2. fix IH 1. intros [|x [|y l]]; [exact P0|exact (P1 x)|exact (P2 x y l (IH l))].
Qed.

Lemma hex_loop_inv s : forall l, (length s mod 2 = 0)%nat ->
  hex_decode_loop s = (l, true) -> hextext s l.
Proof.
  induction s as [| |c1 c2 s IH] using list2_ind; intros l M H.
  - injection H as <-. constructor.
  - discriminate M.
  - simpl in H. destruct (hex_nibble c1) eqn:E1; [|discriminate].
    destruct (hex_nibble c2) eqn:E2; [|discriminate].
    destruct (hex_decode_loop s) as [o ok] eqn:E. injection H as <- ->.
    apply nibble_hexdig in E1, E2. pose proof (proj1 (hexdig_cases _ _ E2)).
    rewrite shl4_lor by auto. constructor; auto. apply IH; auto.
    change (length (c1 :: c2 :: s)) with (2 + length s)%nat in M.
    rewrite <- Nat.add_mod_idemp_l in M by auto. exact M.
Qed.

Lemma hex_loop_len s : (length (fst (hex_decode_loop s)) <= length s / 2)%nat.
Proof.
  induction s as [| |c1 c2 s IH] using list2_ind; try (simpl; lia).
  cbn [hex_decode_loop]. change (length (c1 :: c2 :: s)) with (2 + length s)%nat.
  assert ((2 + length s) / 2 = S (length s / 2))%nat as ->.
  { change 2%nat with (1 * 2)%nat at 1. rewrite Nat.div_add_l; lia. }
  destruct (hex_nibble c1); [|simpl; lia]. destruct (hex_nibble c2); [|simpl; lia].
  destruct (hex_decode_loop s). simpl in *. lia.
Qed.

Lemma hextext_length s l : hextext s l -> length s = (2 * length l)%nat.
Proof. induction 1; simpl; lia. Qed.

Lemma hextext_bytes s l : hextext s l -> bytes_ok l.
Proof.
  induction 1 as [|? ? ? ? ? ? H1 H2]; constructor; auto.
  apply hexdig_cases in H1, H2. unfold byte_ok. lia.
Qed.

Lemma hextext_encode l : bytes_ok l -> hextext (hex_encode l) l.
Proof.
  induction 1 as [|b l Hb H IH]; [constructor|].
  unfold hex_encode. cbn [flat_map hex_byte app].
  replace b with (b / 16 * 16 + b mod 16) at 3.
  2: { rewrite N.mul_comm. symmetry. apply N.div_mod'. }
  constructor; auto; apply hexdig_hexdigit.
  - apply N.div_lt_upper_bound; [lia|]. exact Hb.
  - apply N.mod_lt. lia.
Qed.

Lemma hextext_all_hex s l : hextext s l -> all_hex s.
Proof. induction 1; repeat constructor; eauto. Qed.

Lemma all_hex_hextext s : (length s mod 2 = 0)%nat -> all_hex s -> exists l, hextext s l.
Proof.
  induction s as [| |c1 c2 s IH] using list2_ind; intros M H.
  - exists []. constructor.
  - discriminate M.
  - inversion H as [|? ? (d1 & H1) H']; subst. inversion H' as [|? ? (d2 & H2) H'']; subst.
    destruct IH as (l & Hl); auto.
    { change (length (c1 :: c2 :: s)) with (2 + length s)%nat in M.
      rewrite <- Nat.add_mod_idemp_l in M by auto. exact M. }
    eexists. constructor; eauto.
Qed.

Lemma hextext_fun s l l' : hextext s l -> hextext s l' -> l = l'.
Proof. intros H H'. apply hex_loop_ok in H, H'. congruence. Qed.

(** ** sscanf *)

Lemma skip_ws_hex c d s : hexdig c d -> skip_ws (c :: s) = c :: s.
Proof.
  intros H. apply hexdig_cases in H as (_ & H). simpl. unfold isspace.
  destruct (N.eqb_spec c 32), (N.leb_spec 9 c), (N.leb_spec c 13); simpl; auto; exfalso; lia.
Qed.

Lemma scan_hh_hex c1 c2 d1 d2 s : hexdig c1 d1 -> hexdig c2 d2 ->
  scan_hh (c1 :: c2 :: s) = Some (d1 * 16 + d2).
Proof.
  intros H1 H2. unfold scan_hh. rewrite (skip_ws_hex _ _ _ H1).
  pose proof (hexdig_cases _ _ H1) as (_ & C1). pose proof (hexdig_cases _ _ H2) as (_ & C2).
  destruct (N.eqb_spec c1 43); [lia|]. destruct (N.eqb_spec c1 45); [lia|].
  unfold scan_digits2. apply nibble_hexdig in H1, H2. rewrite H1, H2.
  destruct (N.eqb_spec c2 120); [lia|]. destruct (N.eqb_spec c2 88); [lia|].
  rewrite andb_false_r. reflexivity.
Qed.

Lemma scan_bytes_hex s l : hextext s l -> scan_bytes (length l) s = Some l.
Proof.
  induction 1 as [|c1 c2 d1 d2 s l H1 H2 H IH]; auto.
  cbn [length scan_bytes skipn]. rewrite (scan_hh_hex c1 c2 d1 d2) by auto. rewrite IH. auto.
Qed.

Lemma scan_bytes_length n s l : scan_bytes n s = Some l -> length l = n.
Proof.
  revert s l; induction n as [|n IH]; intros s l H; cbn [scan_bytes] in H.
  - injection H as <-. auto.
  - destruct (scan_hh s); [|discriminate]. destruct (scan_bytes n (skipn 2 s)) eqn:E; [|discriminate].
    injection H as <-. simpl. f_equal. eauto.
Qed.

Lemma key_from_hex_ok s l : hextext s l -> length l = 32%nat -> key_from_hex s = Ok l.
Proof.
  intros H L. unfold key_from_hex. rewrite (hextext_length _ _ H), L.
  change (negb (2 * 32 =? 64)%nat) with false. cbv iota.
  rewrite <- L, (scan_bytes_hex s l) by auto. reflexivity.
Qed.
