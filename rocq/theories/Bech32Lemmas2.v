(** Lemmas connecting the bech32 functions to the specification. *)
From Verif Require Import Base BaseFacts BitsFacts Bech32 Bech32Spec Bech32Proofs Bech32Detect.
Open Scope N_scope.

Lemma bytes_bs_nsec : bytes_ok (bs "nsec").
Proof. repeat constructor. Qed.
Lemma bytes_bs_note : bytes_ok (bs "note").
Proof. repeat constructor. Qed.

Lemma cstr_bytes l : cstr_ok l -> bytes_ok l.
Proof. intros H. eapply Forall_impl; [|exact H]. intros a [_ Ha]. exact Ha. Qed.

Lemma fixed_from_ok hrp s key :
  length hrp = 4%nat -> bytes_ok hrp ->
  (fixed_from_bech32 hrp s = Ok key <->
   bytes32 key /\ exists ck, create_checksum hrp (convert_bits key 52 8 5 true) = Some ck /\
     s = hrp ++ 49 :: map charset_get (convert_bits key 52 8 5 true ++ ck)).
Proof.
  intros L B. unfold fixed_from_bech32. split.
  - destruct (prefixb _ s) eqn:P; [|discriminate]. cbn [negb].
    apply prefixb_spec in P as (t & ->).
    destruct (_ || _)%bool eqn:LL; [discriminate|]. intros H.
    apply bind_ok in H as (d & D & H).
    rewrite skipn_app_exact in D by (rewrite app_length, L; auto).
    apply decode_chars_inv in D as (-> & F & _).
    apply decode_tail_ok in H as (HL & HB & ck & C & ->); auto.
    split; [split; auto|]. exists ck. split; auto. rewrite <- app_assoc. reflexivity.
  - intros ((HL & HB) & ck & C & ->).
    destruct (create_checksum_digits _ _ _ C) as [Fc Lc].
    destruct (key_data key HL HB) as (L1 & F1 & _).
    replace (hrp ++ 49 :: map charset_get (convert_bits key 52 8 5 true ++ ck))
      with ((hrp ++ [49]) ++ map charset_get (convert_bits key 52 8 5 true ++ ck))
      by (rewrite <- app_assoc; reflexivity).
    rewrite prefixb_app. cbn [negb].
    rewrite !app_length, map_length, app_length, L, Lc, L1. cbn [length Nat.add Nat.ltb Nat.leb orb].
    rewrite skipn_app_exact by (rewrite app_length, L; auto).
    assert (FF : Forall (fun v => v < 32) (convert_bits key 52 8 5 true ++ ck)) by (apply Forall_app; auto).
    rewrite decode_chars_ok; auto.
    2: { rewrite app_length. lia. }
    cbn [bind]. apply decode_tail_ok; auto. split; auto. split; auto. eauto.
Qed.

Lemma key_from_ok s key :
  bytes_ok s ->
  (key_from_bech32 s = Ok key <->
   bytes32 key /\ exists hrp ck, (1 <= length hrp <= 31)%nat /\
     create_checksum hrp (convert_bits key 52 8 5 true) = Some ck /\
     s = hrp ++ 49 :: map charset_get (convert_bits key 52 8 5 true ++ ck)).
Proof.
  intros B. unfold key_from_bech32. split.
  - destruct (_ || _)%bool eqn:LL; [discriminate|].
    destruct (last_sep_spec s 0 None) as [[E _]|(p & t & -> & E & Ht)]; rewrite E; [discriminate|].
    cbn [Nat.add]. destruct (_ || _ || _)%bool eqn:SS; [discriminate|].
    rewrite firstn_app_exact by auto.
    replace (skipn (length p + 1) (p ++ 49 :: t)) with t.
    2: { replace (p ++ 49 :: t) with ((p ++ [49]) ++ t) by (rewrite <- app_assoc; reflexivity).
         rewrite skipn_app_exact; auto. rewrite app_length. auto. }
    intros H. apply bind_ok in H as (d & D & H).
    apply decode_chars_inv in D as (-> & F & _).
    apply Forall_app in B as [Bp _].
    apply decode_tail_ok in H as (HL & HB & ck & C & ->); auto.
    split; [split; auto|]. exists p, ck. repeat split; auto.
    + apply orb_false_iff in SS as [SS _]. apply orb_false_iff in SS as [SS _].
      apply Nat.eqb_neq in SS. lia.
    + destruct (create_checksum_digits _ _ _ C) as [Fc Lc].
      destruct (key_data key HL HB) as (L1 & F1 & _).
      apply orb_false_iff in LL as [_ LL]. apply Nat.ltb_ge in LL.
      rewrite app_length in LL. cbn [length] in LL. rewrite map_length, app_length in LL. lia.
  - intros ((HL & HB) & hrp & ck & Lh & C & ->).
    destruct (create_checksum_digits _ _ _ C) as [Fc Lc].
    destruct (key_data key HL HB) as (L1 & F1 & _).
    assert (FF : Forall (fun v => v < 32) (convert_bits key 52 8 5 true ++ ck)) by (apply Forall_app; auto).
    assert (LE : length (hrp ++ 49 :: map charset_get (convert_bits key 52 8 5 true ++ ck))
                 = (length hrp + 59)%nat).
    { rewrite app_length. cbn [length]. rewrite map_length, app_length. lia. }
    rewrite LE. destruct (Nat.ltb_spec (length hrp + 59) 8); [lia|].
    destruct (Nat.ltb_spec 90 (length hrp + 59)); [lia|]. cbn [orb].
    rewrite last_sep_app.
    2: { intros c Hc. apply in_map_iff in Hc as (v & <- & Hv).
         apply charset_no_sep. rewrite Forall_forall in FF. auto. }
    cbn [Nat.add].
    destruct (Nat.eqb_spec (length hrp) 0); [lia|].
    destruct (Nat.ltb_spec (length hrp + 59) (length hrp + 7)); [lia|].
    destruct (Nat.leb_spec 84 (length hrp)); [lia|]. cbn [orb].
    rewrite firstn_app_exact by auto.
    replace (hrp ++ 49 :: map charset_get (convert_bits key 52 8 5 true ++ ck))
      with ((hrp ++ [49]) ++ map charset_get (convert_bits key 52 8 5 true ++ ck))
      by (rewrite <- app_assoc; reflexivity).
    rewrite skipn_app_exact by (rewrite app_length; auto).
    rewrite decode_chars_ok; auto.
    2: { rewrite app_length. lia. }
    cbn [bind]. apply Forall_app in B as [Bp _]. apply decode_tail_ok; auto. split; auto. split; auto. eauto.
Qed.

(** ** Detection *)

Lemma get_inj a b : a < 32 -> b < 32 -> charset_get a = charset_get b -> a = b.
Proof.
  intros Ha Hb E. apply charset_get_decode in Ha, Hb. rewrite E in Ha. congruence.
Qed.

Lemma weight_hamming d d' :
  Forall (fun v => v < 32) d -> Forall (fun v => v < 32) d' -> length d = length d' ->
  weight (xorl d d') = hamming (map charset_get d) (map charset_get d').
Proof.
  revert d'; induction d as [|a d IH]; destruct d' as [|b d']; intros F F' L;
    try discriminate; auto.
  inversion F; inversion F'; subst. cbn [xorl weight map hamming].
  rewrite IH by auto.
  destruct (N.eqb_spec (N.lxor a b) 0) as [E|E].
  - apply N.lxor_eq in E. subst. rewrite N.eqb_refl. reflexivity.
  - destruct (N.eqb_spec (charset_get a) (charset_get b)) as [E'|]; [|reflexivity].
    apply get_inj in E'; auto. subst. rewrite N.lxor_nilpotent in E. congruence.
Qed.

Lemma hamming_app a b c d : length a = length c ->
  hamming (a ++ b) (c ++ d) = (hamming a c + hamming b d)%nat.
Proof.
  revert c; induction a as [|x a IH]; destruct c as [|y c]; simpl; intros L; try discriminate; auto.
  rewrite IH by auto. lia.
Qed.

Lemma hamming_refl a : hamming a a = 0%nat.
Proof. induction a; simpl; auto. rewrite N.eqb_refl. auto. Qed.

Lemma weight_rev l : weight (rev l) = weight l.
Proof.
  assert (A : forall a b, weight (a ++ b) = (weight a + weight b)%nat).
  { induction a as [|x a IH]; simpl; intros; auto. destruct (x =? 0); rewrite IH; auto. }
  induction l; simpl; auto. rewrite A, IHl. simpl. destruct (a =? 0); lia.
Qed.

Lemma xorl_lt d d' : Forall (fun v => v < 32) d -> Forall (fun v => v < 32) d' ->
  Forall (fun v => v < 32) (xorl d d').
Proof.
  revert d'; induction d as [|a d IH]; destruct d' as [|b d']; intros F F'; simpl; auto.
  inversion F; inversion F'; subst. constructor; auto. apply (lxor_lt 5); auto.
Qed.

Lemma xorl_self a : xorl a a = repeat 0 (length a).
Proof. induction a; cbn [xorl repeat length]; rewrite ?N.lxor_nilpotent; congruence. Qed.

Lemma polymod_zeros n : polymod_from 0 (repeat 0 n) = 0.
Proof. induction n; auto. Qed.

Lemma tails_differ hrp d d' :
  Forall (fun v => v < 32) d -> Forall (fun v => v < 32) d' ->
  length d = 58%nat -> length d' = 58%nat ->
  verify_checksum hrp d = true -> verify_checksum hrp d' = true ->
  ~ (1 <= hamming (map charset_get d) (map charset_get d') <= 4)%nat.
Proof.
  intros F F' L L' V V' H. rewrite <- weight_hamming in H by (auto; congruence).
  unfold verify_checksum in V, V'. destruct (hrp_expand hrp 84) as [e|]; [|discriminate].
  apply N.eqb_eq in V, V'. unfold polymod in V, V'.
  rewrite polymod_from_app in V, V'.
  assert (E : polymod_from 0 (xorl d d') = 0).
  { rewrite <- (N.lxor_nilpotent (polymod_from 1 e)) at 1.
    rewrite <- polymod_from_xor by congruence. rewrite V, V'. reflexivity. }
  rewrite polymod_Q in E. revert E. apply detect.
  - apply Forall_rev, xorl_lt; auto.
  - rewrite rev_length, xorl_length; lia.
  - rewrite weight_rev. auto.
Qed.

Lemma decode_chars_len cap i s d : decode_chars cap i s = Ok d -> length d = length s.
Proof. intros H. apply decode_chars_inv in H as (-> & _). rewrite map_length. auto. Qed.

(** ** Safety *)

Lemma short_tail_unsat hrp e d :
  hrp_expand hrp 84 = Some e -> Forall (fun v => v < 32) d ->
  (length d < 6)%nat ->
  (2 ^ (5 * N.of_nat (length d)) <=
   N.lxor (polymod_from (polymod e) (repeat 0 (length d))) 1) ->
  verify_checksum hrp d = false.
Proof.
  intros E F L H. unfold verify_checksum. rewrite E. apply N.eqb_neq. intros V.
  unfold polymod in V, H. rewrite polymod_from_app in V.
  rewrite polymod_append_digits in V by (auto; lia).
  assert (pack d < 2 ^ (5 * N.of_nat (length d))).
  { unfold pack. apply (pack_lt_gen d 0 0); auto. reflexivity. }
  assert (pack d = N.lxor (polymod_from (polymod_from 1 e) (repeat 0 (length d))) 1); [|lia].
  set (z := polymod_from (polymod_from 1 e) (repeat 0 (length d))) in *.
  apply (f_equal (N.lxor z)) in V.
  rewrite <- N.lxor_assoc, N.lxor_nilpotent, N.lxor_0_l in V. exact V.
Qed.

Definition short_ok (hrp : list N) (ns : list nat) : bool :=
  match hrp_expand hrp 84 with
  | None => false
  | Some e => forallb (fun n => 2 ^ (5 * N.of_nat n) <=?
       N.lxor (polymod_from (polymod e) (repeat 0 n)) 1) ns
  end.

Lemma fixed_from_safe hrp s ns :
  length hrp = 4%nat -> short_ok hrp ns = true -> (length s <= 89)%nat ->
  ((length s < 11)%nat -> (8 <= length s)%nat -> In (length s - 5)%nat ns) ->
  fixed_from_bech32 hrp s <> Undef.
Proof.
  intros L SO LS NS H. unfold fixed_from_bech32 in H.
  destruct (prefixb _ s) eqn:P; [|discriminate]. cbn [negb] in H.
  apply prefixb_spec in P as (t & ->).
  destruct (_ || _)%bool eqn:LL; [discriminate|].
  rewrite skipn_app_exact in H by (rewrite app_length, L; auto).
  rewrite !app_length, L in LS, NS. rewrite !app_length, L in LL. simpl length in LS, LL, NS.
  apply orb_false_iff in LL as [LL _]. apply Nat.ltb_ge in LL.
  apply bind_undef in H as [H|(d & D & H)].
  - apply decode_chars_undef in H. lia.
  - pose proof (decode_chars_len _ _ _ _ D) as Ld.
    apply decode_chars_inv in D as (_ & F & _).
    unfold decode_tail in H.
    destruct (verify_checksum hrp d) eqn:V; [|discriminate].
    destruct (Nat.ltb_spec (length d) 6) as [X|X].
    2: { destruct (_ =? 32)%nat; discriminate. }
    unfold short_ok in SO. destruct (hrp_expand hrp 84) as [e|] eqn:E; [|discriminate].
    rewrite forallb_forall in SO. specialize (SO (length d)).
    rewrite (short_tail_unsat hrp e d) in V; auto; [discriminate|].
    apply N.leb_le, SO. replace (length d) with (4 + 1 + length t - 5)%nat by lia. apply NS; lia.
Qed.

Lemma key_from_safe s :
  (length s <= 86)%nat -> key_from_bech32 s <> Undef.
Proof.
  intros LS H. unfold key_from_bech32 in H.
  destruct (_ || _)%bool eqn:LL; [discriminate|].
  destruct (last_sep_spec s 0 None) as [[E _]|(p & t & -> & E & Ht)]; rewrite E in H; [discriminate|].
  cbn [Nat.add] in H. destruct (_ || _ || _)%bool eqn:SS; [discriminate|].
  replace (skipn (length p + 1) (p ++ 49 :: t)) with t in H.
  2: { replace (p ++ 49 :: t) with ((p ++ [49]) ++ t) by (rewrite <- app_assoc; reflexivity).
       rewrite skipn_app_exact; auto. rewrite app_length. auto. }
  rewrite app_length in LS, SS. cbn [length] in LS, SS.
  apply orb_false_iff in SS as [SS _]. apply orb_false_iff in SS as [SS1 SS2].
  apply Nat.eqb_neq in SS1. apply Nat.ltb_ge in SS2.
  apply bind_undef in H as [H|(d & D & H)].
  - apply decode_chars_undef in H. lia.
  - pose proof (decode_chars_len _ _ _ _ D) as Ld. unfold decode_tail in H.
    destruct (verify_checksum _ d); [|discriminate].
    destruct (Nat.ltb_spec (length d) 6) as [X|X]; [lia|].
    destruct (_ =? 32)%nat; discriminate.
Qed.

Lemma encode_out_never_undef prefix key size :
  bytes32 key -> (length prefix + 60 <= size)%nat ->
  encode_out prefix (convert_bits key 52 8 5 true) size <> Undef.
Proof.
  intros [L B] S. unfold encode_out.
  destruct (create_checksum _ _) as [ck|] eqn:C; [|discriminate].
  destruct (key_data key L B) as (L1 & F1 & _).
  destruct (create_checksum_digits _ _ _ C) as [Fc Lc].
  match goal with |- context [(?a <=? size)%nat] => destruct (Nat.leb_spec a size) as [|X] end;
    [discriminate|].
  rewrite !app_length, !map_length in X. cbn [length] in X. lia.
Qed.
