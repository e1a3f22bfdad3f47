(** Property theorems for C162: what a gift wrap gives away. *)
From Verif Require Import Base BaseFacts Dec Json Hex HexSpec HexProofs Event EventSpec EventProofs EventProps Base64 Nip21 Nip44 Nip44Spec Nip44Proofs Nip44Props GiftWrap GiftWrapSpec GiftWrapProps JsonLib PrivacySpec.
Open Scope N_scope.

(** ** Sizes *)
Lemma size_class_is n : 1 <= n < 65536 -> calc_padded_len n = size_class n /\ size_class n mod 32 = 0.
Proof.
  intros R. unfold size_class. destruct (N.leb_spec n 32) as [L|L].
  - unfold calc_padded_len. rewrite (proj2 (N.leb_le _ _) L). split; reflexivity.
  - rewrite calc_closed16 by lia. assert (E : code_chunk n = step n).
    { unfold code_chunk, step. destruct (N.ltb_spec n 512) as [G|G].
      - rewrite (proj2 (N.leb_le _ _)); [reflexivity|]. change 256 with (2 ^ 8). apply N.pow_le_mono_r; [lia|]. apply N.lt_succ_r. apply N.log2_lt_pow2; [lia|]. exact G.
      - rewrite (proj2 (N.leb_gt _ _)); [reflexivity|]. change 256 with (2 ^ 8). apply N.pow_lt_mono_r; [lia|]. apply N.le_succ_l. apply N.log2_le_pow2; [lia|]. exact G. }
    rewrite E. split; [reflexivity|]. assert (D : (32 | step n)).
    { unfold step. destruct (N.ltb_spec n 512) as [G|G]; [exists 1; reflexivity|].
      assert (8 < N.log2 n) by (apply N.le_succ_l; apply N.log2_le_pow2; [lia|exact G]). exists (2 ^ (N.log2 n - 8)).
      change 8 with (2 ^ 3) at 1. rewrite <- N.pow_sub_r by lia. change 32 with (2 ^ 5). rewrite <- N.pow_add_r. f_equal. lia. }
    apply N.mod_divide; [discriminate|]. apply N.divide_mul_l, D.
Qed.

Section Sizes.
Variable nce : list N -> list N -> list N -> list N -> option (list N * list N).
Variable ncm : list N -> list N -> list N.
Variable ncv : list N -> list N -> list N -> list N -> list N -> bool.
Variable ncd : list N -> list N -> list N -> list N -> option (list N).
Variable mt : list N -> list N -> list N -> list N -> Prop.
Variable b64enc : list N -> list N.
Variable lim44 : limits.
Hypothesis NC : nc_contract nce ncm ncv ncd mt.
Hypothesis B64 : b64_sized b64enc.
Hypothesis LIM : limits_ok lim44.
Notation Enc := (nip44_encrypt nce ncm b64enc lim44).

Lemma encrypted_size sk pk nonce pt t : nonce_ok nonce -> Enc sk pk nonce pt = Ok t ->
  1 <= blen pt < 65536 /\ plain t /\ length t = (4 * ((N.to_nat (67 + size_class (blen pt)) + 2) / 3))%nat.
Proof.
  intros NO E. destruct nonce as [nonce|]; [|discriminate]. destruct (NO nonce eq_refl) as (N1 & N2). unfold nip44_encrypt in E.
  apply bind_ok in E as (padded & P & E). destruct (nce sk pk nonce padded) as [[ct hk]|] eqn:C; [|discriminate].
  match type of E with Ok (b64enc ?x) = _ => set (w := x) in * end. assert (TE : t = b64enc w) by congruence. clear E.
  destruct (ncc_maclen _ _ _ _ _ NC hk (nonce ++ ct)) as (M1 & M2).
  assert (BY : bytes_ok w).
  { apply Forall_app_iff. split; [constructor; [unfold byte_ok; lia|constructor]|].
    apply Forall_app_iff. split; [exact N2|]. apply Forall_app_iff. split; [eapply ncc_bytes; eassumption|exact M2]. }
  destruct (B64 w BY) as (PL & LE). apply pad_length in P as (R & P); [|exact LIM]. destruct LIM as (L1 & L2 & L3).
  assert (R1 : 1 <= blen pt < 65536) by lia. destruct (size_class_is _ R1) as (S1 & _). rewrite S1 in P.
  split; [exact R1|]. split; [rewrite TE; exact PL|]. rewrite TE, LE. f_equal. f_equal.
  assert (LW : N.of_nat (length w) = 67 + size_class (blen pt)).
  { unfold w. rewrite !app_length, M1, N1, (ncc_len _ _ _ _ _ NC _ _ _ _ _ _ C). unfold blen in P at 1. cbn [length]. lia. }
  rewrite <- LW, Nat2N.id. reflexivity.
Qed.

(** The size of a ciphertext tells the size class of the message and nothing more,
    whoever wrote it to whom. *)
Theorem C162_size : forall sk1 pk1 n1 pt1 t1 sk2 pk2 n2 pt2 t2, nonce_ok n1 -> nonce_ok n2 ->
  Enc sk1 pk1 n1 pt1 = Ok t1 -> Enc sk2 pk2 n2 pt2 = Ok t2 ->
  (length t1 = length t2 <-> size_class (blen pt1) = size_class (blen pt2)).
Proof.
  intros sk1 pk1 n1 pt1 t1 sk2 pk2 n2 pt2 t2 O1 O2 E1 E2.
  destruct (encrypted_size _ _ _ _ _ O1 E1) as (R1 & _ & L1). destruct (encrypted_size _ _ _ _ _ O2 E2) as (R2 & _ & L2). rewrite L1, L2. split; [|intros ->; reflexivity].
  destruct (size_class_is _ R1) as (_ & D1). destruct (size_class_is _ R2) as (_ & D2). intros E.
  apply N.mod_divide in D1 as (x & D1); [|discriminate]. apply N.mod_divide in D2 as (y & D2); [|discriminate]. rewrite D1, D2 in *.
  assert (X : (N.to_nat (67 + x * 32) = 67 + 32 * N.to_nat x)%nat) by lia. assert (Y : (N.to_nat (67 + y * 32) = 67 + 32 * N.to_nat y)%nat) by lia.
  rewrite X, Y in E. enough (N.to_nat x = N.to_nat y) by lia. clear - E. set (a := N.to_nat x) in *. set (b := N.to_nat y) in *. clearbody a b.
  assert (F : ((67 + 32 * a + 2) / 3 = (67 + 32 * b + 2) / 3)%nat) by lia.
  pose proof (Nat.div_mod (67 + 32 * a + 2) 3 ltac:(lia)) as A1. pose proof (Nat.mod_upper_bound (67 + 32 * a + 2) 3 ltac:(lia)) as A2.
  pose proof (Nat.div_mod (67 + 32 * b + 2) 3 ltac:(lia)) as B1. pose proof (Nat.mod_upper_bound (67 + 32 * b + 2) 3 ltac:(lia)) as B2.
  set (q := ((67 + 32 * a + 2) / 3)%nat) in *. rewrite <- F in B1. clearbody q. lia.
Qed.
End Sizes.

(** ** The outside of a wrap *)
Section Faces.
Variable num : Z -> list N.
Variable sha256 : list N -> list N.
Variable pubkey_of : list N -> option (list N).
Variable sign : list N -> list N -> list N -> option (list N).
Variable verify : list N -> list N -> list N -> bool.
Variable pubkey_parses : list N -> bool.
Variable seckey_valid : list N -> bool.
Variable nce : list N -> list N -> list N -> list N -> option (list N * list N).
Variable ncm : list N -> list N -> list N.
Variable ncv : list N -> list N -> list N -> list N -> list N -> bool.
Variable ncd : list N -> list N -> list N -> list N -> option (list N).
Variable mt : list N -> list N -> list N -> list N -> Prop.
Variable b64enc : list N -> list N.
Variable print : json -> list N.
Variable lim44 : limits.
Variable lim : option ev_limits.
Notation ser := (serialize_with num).
Notation Seal := (create_seal ser sha256 pubkey_of sign nce ncm b64enc print lim44).
Notation Gift := (create_gift_wrap ser sha256 pubkey_of sign seckey_valid nce ncm b64enc print lim44 lim).
Notation Send := (send_dm ser sha256 pubkey_of sign seckey_valid nce ncm b64enc print lim44 lim).
Notation Wrap := (wrap_event ser sha256 pubkey_of sign seckey_valid nce ncm b64enc print lim44 lim).
Notation Rumor := (dm_rumor ser sha256 lim).

(** Of the seal only its ciphertext under the new key shows. *)
Lemma gift_function stamp s1 s2 pk extra d w1 w2 : Gift stamp s1 pk extra d = Ok w1 -> Gift stamp s2 pk extra d = Ok w2 ->
  ev_pubkey w1 = ev_pubkey w2 /\ ev_created w1 = ev_created w2 /\ ev_kind w1 = ev_kind w2 /\ ev_tags w1 = ev_tags w2 /\ (ev_content w1 = ev_content w2 -> w1 = w2).
Proof.
  assert (G : forall s w, Gift stamp s pk extra d = Ok w -> exists k t c tags, key_generate pubkey_of seckey_valid (wd_key d) = Ok k /\ stamp (wd_time d) (wd_now d) = Ok c /\
    match add_tag lim (mkEvent (repeat 0 32) (snd k) c KIND_GIFT_WRAP [] None (repeat 0 64)) [bs "p"; hex_encode pk] with Ok x => do y <- add_pairs lim x extra; Ok (ev_tags y) | Err e => Err e | Undef => Undef end = Ok tags /\
    event_sign ser sha256 pubkey_of sign (compute_id ser sha256 (mkEvent (repeat 0 32) (snd k) c KIND_GIFT_WRAP tags (Some t) (repeat 0 64))) (fst k) (wd_aux d) = (w, Ok tt)).
  { intros s w H. unfold create_gift_wrap in H. apply bind_ok in H as (k & K & H). apply bind_ok in H as (t & _ & H). apply bind_ok in H as (c & C & H).
    apply bind_ok in H as (x & X & H). apply bind_ok in H as (y & Y & H). exists k, t, c, (ev_tags y). split; [exact K|]. split; [exact C|].
    assert (FR : forall n l e1 e2 y, (length l <= n)%nat -> ev_tags e1 = ev_tags e2 -> add_pairs lim e1 l = Ok y ->
      exists z, add_pairs lim e2 l = Ok z /\ ev_tags z = ev_tags y /\ y = mkEvent (ev_id e1) (ev_pubkey e1) (ev_created e1) (ev_kind e1) (ev_tags y) (ev_content e1) (ev_sig e1)).
    { clear. induction n as [|n IH]; intros l e1 e2 y L T H.
      - destruct l; [|cbn in L; lia]. cbn in H. assert (e1 = y) by congruence. subst. exists e2. split; [reflexivity|]. split; [auto|destruct y; reflexivity].
      - destruct l as [|a [|b l]]; cbn [add_pairs] in H |- *; try (assert (e1 = y) by congruence; subst; exists e2; split; [reflexivity|]; split; [auto|destruct y; reflexivity]; fail).
        apply bind_ok in H as (e' & A & H). unfold add_tag in A |- *. rewrite <- T. destruct (match lim with Some l => _ | None => false end); [discriminate|].
        match type of A with Ok ?v = _ => assert (EE : e' = v) by congruence end. subst e'. cbn [bind].
        match type of H with add_pairs _ ?e0 _ = _ => destruct (IH l e0 (mkEvent (ev_id e2) (ev_pubkey e2) (ev_created e2) (ev_kind e2) (ev_tags e1 ++ [[a; b]]) (ev_content e2) (ev_sig e2)) y ltac:(cbn in L; lia) ltac:(reflexivity) H)as (z & Z & TZ & YE) end.
        exists z. auto. }
    unfold add_tag in X |- *. destruct (match lim with Some l => _ | None => false end); [discriminate|]. match type of X with Ok ?v = _ => assert (EE : x = v) by congruence end. subst x.
    match goal with |- context [add_pairs lim ?b extra] => match type of Y with add_pairs _ ?e0 _ = _ => destruct (FR (length extra) extra e0 b y ltac:(lia) ltac:(reflexivity) Y) as (z & Z & TZ & YE) end end.
    rewrite Z. cbn [bind]. split; [f_equal; exact TZ|]. cbn [ev_id ev_pubkey ev_created ev_kind ev_content ev_sig] in YE. rewrite YE in H. cbn [ev_tags] in H.
    destruct (event_sign _ _ _ _ _ _ _) as (w' & [[]| |]); try discriminate. congruence. }
  intros H1 H2. apply G in H1 as (k & t1 & c & tags & K & C & T & S1). apply G in H2 as (k' & t2 & c' & tags' & K' & C' & T' & S2).
  assert (k' = k) by congruence. subst k'. assert (c' = c) by congruence. subst c'. assert (tags' = tags) by congruence. subst tags'.
  pose proof S1 as Q1. pose proof S2 as Q2. apply sign_created in Q1 as (p1 & P1 & A1 & _ & A3 & A4 & A5 & A6 & _). apply sign_created in Q2 as (p2 & P2 & B1 & _ & B3 & B4 & B5 & B6 & _).
  assert (p1 = p2) by congruence. subst p2. cbn [compute_id ev_created ev_kind ev_tags ev_content] in *.
  split; [congruence|]. split; [congruence|]. split; [congruence|]. split; [congruence|]. intros E. assert (t1 = t2) by congruence. subst t2. congruence.
Qed.

Hypothesis CO : crypto_ok sha256 pubkey_of sign verify pubkey_parses.
Hypothesis NC : nc_contract nce ncm ncv ncd mt.
Hypothesis B64 : b64_sized b64enc.
Hypothesis LIM : limits_ok lim44.
Hypothesis EVEN : even_layout print.

Lemma sealed_size stamp r1 r2 sk1 sk2 pk d1 d2 s1 s2 : (forall d now t, stamp d now = Ok t -> (now - 172800 <= t <= now)%Z) ->
  Seal stamp r1 sk1 pk d1 = Ok s1 -> Seal stamp r2 sk2 pk d2 = Ok s2 -> nonce_ok (sd_nonce d1) -> nonce_ok (sd_nonce d2) ->
  (10 ^ 9 + 172800 <= sd_now d1 < 10 ^ 10)%Z -> (10 ^ 9 + 172800 <= sd_now d2 < 10 ^ 10)%Z -> size_class (blen (print (event_to_tree r1))) = size_class (blen (print (event_to_tree r2))) ->
  length (print (event_to_tree s1)) = length (print (event_to_tree s2)).
Proof.
  intros ST H1 H2 N1 N2 T1 T2 SC.
  assert (X : forall r sk d s, Seal stamp r sk pk d = Ok s -> nonce_ok (sd_nonce d) -> (10 ^ 9 + 172800 <= sd_now d < 10 ^ 10)%Z ->
    event_sized s /\ ev_tags s = [] /\ ev_kind s = 13 /\ ten_digits (ev_created s) /\ plain (content_of s) /\
    length (content_of s) = (4 * ((N.to_nat (67 + size_class (blen (print (event_to_tree r)))) + 2) / 3))%nat).
  { intros r sk d s H NO NOW. apply seal_shape in H as (text & own & E1 & T & P1 & P2 & I1 & K1 & G1 & C1 & rr & S1).
    destruct (co_pub _ _ _ _ _ CO _ _ P1) as (PL & PB & _). destruct (co_sign _ _ _ _ _ CO _ _ _ _ _ P1 S1) as (SL & SB & _). pose proof (co_sha _ _ _ _ _ CO) as SHA.
    destruct (encrypted_size _ _ _ _ _ _ _ NC B64 LIM _ _ _ _ _ NO E1) as (_ & PT & LT).
    split; [unfold event_sized; rewrite I1, P2; repeat split; try assumption; apply SHA|]. split; [exact G1|]. split; [exact K1|].
    split; [apply ST in T; unfold ten_digits; change (10 ^ 9)%Z with 1000000000%Z in *; change (10 ^ 10)%Z with 10000000000%Z in *; lia|].
    unfold content_of. rewrite C1. split; [exact PT|exact LT]. }
  destruct (X _ _ _ _ H1 N1 T1) as (A1 & A2 & A3 & A4 & A5 & A6). destruct (X _ _ _ _ H2 N2 T2) as (B1 & B2 & B3 & B4 & B5 & B6).
  apply EVEN; try assumption; [congruence|]. rewrite A6, B6, SC. reflexivity.
Qed.
Lemma same_outside stamp r1 r2 sk1 sk2 pk d1 d2 s1 s2 extra wd w1 w2 : (forall d now t, stamp d now = Ok t -> (now - 172800 <= t <= now)%Z) ->
  Seal stamp r1 sk1 pk d1 = Ok s1 -> Seal stamp r2 sk2 pk d2 = Ok s2 -> Gift stamp s1 pk extra wd = Ok w1 -> Gift stamp s2 pk extra wd = Ok w2 ->
  nonce_ok (sd_nonce d1) -> nonce_ok (sd_nonce d2) -> nonce_ok (wd_nonce wd) -> (10 ^ 9 + 172800 <= sd_now d1 < 10 ^ 10)%Z -> (10 ^ 9 + 172800 <= sd_now d2 < 10 ^ 10)%Z ->
  size_class (blen (print (event_to_tree r1))) = size_class (blen (print (event_to_tree r2))) -> same_face w1 w2 /\ (ev_content w1 = ev_content w2 -> w1 = w2).
Proof.
  intros ST H1 H2 G1 G2 N1 N2 N3 T1 T2 SC. destruct (gift_function _ _ _ _ _ _ _ _ G1 G2) as (A & B & C & D & E). split; [|exact E].
  repeat (split; [assumption|]). pose proof (sealed_size _ _ _ _ _ _ _ _ _ _ ST H1 H2 N1 N2 T1 T2 SC) as SL.
  apply wrap_shape in G1 as (k1 & o1 & t1 & _ & _ & E1 & _ & _ & _ & C1 & _). apply wrap_shape in G2 as (k2 & o2 & t2 & _ & _ & E2 & _ & _ & _ & C2 & _).
  unfold content_of. rewrite C1, C2. apply (C162_size _ _ _ _ _ _ _ NC B64 LIM _ _ _ _ _ _ _ _ _ _ N3 N3 E1 E2). unfold blen, event_to_json. rewrite SL. reflexivity.
Qed.

(** Two direct messages to one recipient, from whomever, saying whatever, written and
    sealed whenever: with the same draws for the wrap, key, time, kind and tags are
    the same, the sizes too if the messages are of one size class; and if the
    ciphertexts are the same, so is everything. *)
Theorem C162_dm_partial : forall c1 sk1 sub1 rep1 cr1 now1 sd1 w1 own1 r1 c2 sk2 sub2 rep2 cr2 now2 sd2 w2 own2 r2 pk wd,
  Send c1 sk1 pk sub1 rep1 cr1 now1 sd1 wd = Ok w1 -> Send c2 sk2 pk sub2 rep2 cr2 now2 sd2 wd = Ok w2 ->
  pubkey_of sk1 = Some own1 -> Rumor c1 own1 pk sub1 rep1 cr1 now1 = Ok r1 -> pubkey_of sk2 = Some own2 -> Rumor c2 own2 pk sub2 rep2 cr2 now2 = Ok r2 ->
  nonce_ok (sd_nonce sd1) -> nonce_ok (sd_nonce sd2) -> nonce_ok (wd_nonce wd) -> (10 ^ 9 + 172800 <= sd_now sd1 < 10 ^ 10)%Z -> (10 ^ 9 + 172800 <= sd_now sd2 < 10 ^ 10)%Z ->
  size_class (blen (print (event_to_tree r1))) = size_class (blen (print (event_to_tree r2))) -> same_face w1 w2 /\ (ev_content w1 = ev_content w2 -> w1 = w2).
Proof.
  intros c1 sk1 sub1 rep1 cr1 now1 sd1 w1 own1 r1 c2 sk2 sub2 rep2 cr2 now2 sd2 w2 own2 r2 pk wd H1 H2 P1 R1 P2 R2 N1 N2 N3 T1 T2 SC.
  unfold send_dm in H1, H2. rewrite P1, R1 in H1. rewrite P2, R2 in H2. cbn [bind] in H1, H2. apply bind_ok in H1 as (s1 & S1 & G1). apply bind_ok in H2 as (s2 & S2 & G2).
  apply (same_outside random_timestamp r1 r2 sk1 sk2 pk sd1 sd2 s1 s2 [] wd w1 w2); try assumption. exact (stamp17 lim44 LIM).
Qed.
(** The same for wrapped events. *)
Theorem C162_event_partial : forall e1 sk1 sd1 w1 e2 sk2 sd2 w2 pk wd,
  Wrap e1 sk1 pk sd1 wd = Ok w1 -> Wrap e2 sk2 pk sd2 wd = Ok w2 ->
  nonce_ok (sd_nonce sd1) -> nonce_ok (sd_nonce sd2) -> nonce_ok (wd_nonce wd) -> (10 ^ 9 + 172800 <= sd_now sd1 < 10 ^ 10)%Z -> (10 ^ 9 + 172800 <= sd_now sd2 < 10 ^ 10)%Z ->
  size_class (blen (print (event_to_tree e1))) = size_class (blen (print (event_to_tree e2))) -> same_face w1 w2 /\ (ev_content w1 = ev_content w2 -> w1 = w2).
Proof.
  intros e1 sk1 sd1 w1 e2 sk2 sd2 w2 pk wd H1 H2 N1 N2 N3 T1 T2 SC. unfold wrap_event in H1, H2.
  destruct (pubkey_of sk1); [|discriminate]. destruct (pubkey_of sk2); [|discriminate]. apply bind_ok in H1 as (s1 & S1 & G1). apply bind_ok in H2 as (s2 & S2 & G2).
  apply (same_outside randomize_timestamp e1 e2 sk1 sk2 pk sd1 sd2 s1 s2 [] wd w1 w2); try assumption. exact (stamp59 lim44 LIM).
Qed.
End Faces.

(** ** The libraries meet the contracts *)
Lemma base64_sized : b64_sized b64_encode.
Proof.
  assert (X : forall v, v < 64 -> 32 <= b64_char v < 127 /\ b64_char v <> 34 /\ b64_char v <> 92).
  { intros v V. destruct (b64_char_cases v V) as [(? & ->)|[(? & ->)|[(? & ->)|[(_ & ->)|(_ & ->)]]]]; lia. }
  assert (Y : 32 <= 61 < 127 /\ 61 <> 34 /\ 61 <> 92) by lia.
  intros l. remember (length l) as n eqn:E. assert (Hn : (length l <= n)%nat) by lia. rewrite E. clear E.
  revert l Hn. induction n as [|n IH]; intros l Hn Hb.
  { destruct l; [split; [constructor|reflexivity]|cbn in Hn; lia]. }
  destruct l as [|a [|b [|c r]]]; [split; [constructor|reflexivity]| | |]; inversion Hb as [|? ? Ha H1]; subst; try (inversion H1 as [|? ? Hb' H2]; subst); try (inversion H2 as [|? ? Hc H3]; subst);
    unfold byte_ok in *; cbn [b64_encode].
  - split; [repeat (apply Forall_cons; [first [exact Y|apply X; dv]|]); apply Forall_nil|reflexivity].
  - split; [repeat (apply Forall_cons; [first [exact Y|apply X; dv]|]); apply Forall_nil|reflexivity].
  - destruct (IH r ltac:(cbn in Hn; lia) H3) as (P & L). split; [repeat (apply Forall_cons; [apply X; dv|]); exact P|].
    cbn [length]. rewrite L. replace (S (S (S (length r))) + 2)%nat with (length r + 2 + 1 * 3)%nat by lia. rewrite Nat.div_add by lia. lia.
Qed.
Lemma escape_plain s : plain s -> escape_json s = s.
Proof.
  induction 1 as [|c s (A & B & C) _ IH]; [reflexivity|]. unfold escape_json in *. cbn [flat_map]. rewrite IH. unfold escape_char.
  repeat (rewrite (proj2 (N.eqb_neq _ _)) by lia). rewrite (proj2 (N.ltb_ge _ _)) by lia. reflexivity.
Qed.
Lemma hex_plain l : bytes_ok l -> plain (hex_encode l).
Proof.
  intros B. apply hextext_encode, hextext_all_hex in B. eapply Forall_impl; [|exact B]. intros c (d & H). apply hexdig_cases in H. lia.
Qed.
Lemma ten_long t : ten_digits t -> length (dec_Z t) = 10%nat.
Proof.
  intros (A & B). change (10 ^ 9)%Z with 1000000000%Z in A. change (10 ^ 10)%Z with 10000000000%Z in B.
  assert (E : dec_Z t = dec_digits 10 (Z.to_N t)).
  { assert (X : dec_Z t = dec_N (Z.to_N t)) by (destruct t; [reflexivity|reflexivity|lia]). rewrite X. unfold dec_N. apply dec_digits_indep; [| |lia|lia].
    - rewrite Nat2N.inj_succ, N.pow_succ_r'. pose proof (size_nat_bound (Z.to_N t)) as S. assert (2 ^ N.of_nat (N.size_nat (Z.to_N t)) <= 10 ^ N.of_nat (N.size_nat (Z.to_N t))) by (apply N.pow_le_mono_l; lia). lia.
    - change (10 ^ N.of_nat 10) with 10000000000. lia. }
  rewrite E. assert (F : 1000000000 <= Z.to_N t) by lia. clear E A B. set (n := Z.to_N t) in *. clearbody n.
  assert (G : forall k n, 10 ^ N.of_nat k <= n -> length (dec_digits (S k) n) = S k).
  { clear. induction k as [|k IH]; intros n H; cbn [dec_digits].
    - destruct (n <? 10); reflexivity.
    - rewrite Nat2N.inj_succ, N.pow_succ_r' in H. assert (10 ^ N.of_nat k <> 0) by (apply N.pow_nonzero; discriminate). rewrite (proj2 (N.ltb_ge _ _)) by lia. rewrite app_length.
      change (if n / 10 <? 10 then [48 + n / 10] else dec_digits k (n / 10 / 10) ++ [48 + n / 10 mod 10]) with (dec_digits (S k) (n / 10)).
      rewrite IH; [cbn [length]; lia|]. apply N.div_le_lower_bound; lia. }
  apply (G 9%nat). exact F.
Qed.
Lemma quote_plain s : plain s -> length (quote s) = (2 + length s)%nat.
Proof. intros P. unfold quote. rewrite escape_plain by exact P. rewrite !app_length. cbn [length]. lia. Qed.
Lemma tree_lengths (e : event) : event_sized e -> ten_digits (ev_created e) -> plain (content_of e) ->
  length (quote (hex_encode (ev_id e))) = 66%nat /\ length (quote (hex_encode (ev_pubkey e))) = 66%nat /\ length (quote (hex_encode (ev_sig e))) = 130%nat /\
  length (jprint (jint (ev_created e))) = 10%nat /\ length (quote (content_of e)) = (2 + length (content_of e))%nat.
Proof.
  intros (I1 & I2 & P1 & P2 & S1 & S2) T C. rewrite !quote_plain, !hex_encode_length, I1, P1, S1 by (try exact C; apply hex_plain; assumption).
  repeat (split; [reflexivity|]). split; [|reflexivity]. unfold jint. cbn [jprint jshow]. unfold jtrunc. rewrite round53_max by (destruct T as (T1 & T2); change (10 ^ 9)%Z with 1000000000%Z in T1; change (10 ^ 10)%Z with 10000000000%Z in T2; change (2 ^ 53)%Z with 9007199254740992%Z; lia).
  change (0 <=? 0)%Z with true. cbv iota. change (2 ^ 0)%Z with 1%Z. rewrite Z.mul_1_r. apply ten_long, T.
Qed.
Lemma compact_even : even_layout jprint.
Proof.
  intros a b A B TA TB K CA CB PA PB L.
  destruct (tree_lengths a A CA PA) as (A1 & A2 & A3 & A4 & A5). destruct (tree_lengths b B CB PB) as (B1 & B2 & B3 & B4 & B5).
  unfold event_to_tree. rewrite TA, TB, K. cbn [jprint map join_comma]. rewrite !app_length. change (JStr) with JStr. cbn [jprint]. 
  rewrite A1, A2, A3, A4, A5, B1, B2, B3, B4, B5, L. reflexivity.
Qed.
(** cJSON_Print's layout, which nostr_event_to_json uses (src/event.c:433) *)
Lemma pretty_even : even_layout (jpretty 0).
Proof.
  intros a b A B TA TB K CA CB PA PB L.
  destruct (tree_lengths a A CA PA) as (A1 & A2 & A3 & A4 & A5). destruct (tree_lengths b B CB PB) as (B1 & B2 & B3 & B4 & B5).
  assert (JA : forall d z, jpretty d (jint z) = jprint (jint z)) by reflexivity.
  unfold event_to_tree. rewrite TA, TB, K. cbn [jpretty jprint map join_with]. rewrite !JA, !app_length.
  rewrite A1, A2, A3, A4, A5, B1, B2, B3, B4, B5, L. reflexivity.
Qed.

(** ** The recipient cannot show who wrote a direct message *)
Theorem C162_deniable_partial : forall num sha256 pubkey_of sign verify pubkey_parses parse_pk seckey_valid nce ncm ncv ncd mt b64enc b64dec print parse lim44 lim,
  crypto_ok sha256 pubkey_of sign verify pubkey_parses -> nc_contract nce ncm ncv ncd mt -> b64_contract b64enc b64dec -> (forall l, bytes_ok l -> cstr_ok (b64enc l)) -> limits_ok lim44 ->
  forall content ska pkr skr pka subject reply created now sd wd w rumor,
  dm_rumor (serialize_with num) sha256 lim content pka pkr subject reply created now = Ok rumor ->
  cstr_ok content -> match subject with Some s => cstr_ok s | None => True end ->
  bytes_ok pkr -> match reply with Some i => bytes_ok i | None => True end ->
  (0 <= created <= 2 ^ 53)%Z -> (0 <= now <= 2 ^ 53)%Z -> portable print parse lim rumor ->
  nonce_ok (sd_nonce sd) -> nonce_ok (wd_nonce wd) -> (0 <= sd_now sd <= 2 ^ 53)%Z ->
  pubkey_of ska = Some pka -> mt ska pkr skr pka -> (forall eph pke, pubkey_of eph = Some pke -> mt eph pkr skr pke) ->
  send_dm (serialize_with num) sha256 pubkey_of sign seckey_valid nce ncm b64enc print lim44 lim content ska pkr subject reply created now sd wd = Ok w ->
  (forall seal, create_seal (serialize_with num) sha256 pubkey_of sign nce ncm b64enc print lim44 random_timestamp rumor ska pkr sd = Ok seal -> portable print parse lim seal) ->
  exists i, unwrap_dm (serialize_with num) sha256 verify pubkey_parses parse_pk ncv ncd b64dec parse lim44 lim w skr = (Some pka, Ok i) /\ unsigned i.
Proof.
  intros num sha256 pubkey_of sign verify pubkey_parses parse_pk seckey_valid nce ncm ncv ncd mt b64enc b64dec print parse lim44 lim CO NC B BT LIM
    content ska pkr skr pka subject reply created now sd wd w rumor DR CC CS BP BR CR NR PR NS NW NOW PK MT ME H PS.
  destruct (C79_dm_partial num sha256 pubkey_of sign verify pubkey_parses parse_pk seckey_valid nce ncm ncv ncd mt b64enc b64dec print parse lim44 lim CO NC B BT LIM
    content ska pkr skr pka subject reply created now sd wd w rumor DR CC CS BP BR CR NR PR NS NW NOW PK MT ME H PS) as (i & U & _ & _ & _ & SI & _).
  exists i. split; [exact U|exact SI].
Qed.

(** ** Where it fails *)
(** The steps are not NIP-44's: messages of one published class can be told apart. *)
Theorem C162_class_refuted : ~ (forall nce ncm ncv ncd mt sk1 pk1 n1 pt1 t1 sk2 pk2 n2 pt2 t2, nc_contract nce ncm ncv ncd mt -> nonce_ok n1 -> nonce_ok n2 ->
  nip44_encrypt nce ncm b64_encode default_limits sk1 pk1 n1 pt1 = Ok t1 -> nip44_encrypt nce ncm b64_encode default_limits sk2 pk2 n2 pt2 = Ok t2 ->
  nip44_spec_padded (blen pt1) = nip44_spec_padded (blen pt2) -> length t1 = length t2).
Proof.
  intros H.
  assert (NO : nonce_ok (Some (repeat 9 32))).
  { intros x X. assert (x = repeat 9 32) by congruence. subst x. split; [reflexivity|apply Forall_repeat; reflexivity]. }
  destruct (nip44_encrypt toy_enc8 toy_mac b64_encode default_limits toy_key toy_pk (Some (repeat 9 32)) (repeat 97 400)) as [t1| |] eqn:E1; [|vm_compute in E1; discriminate|vm_compute in E1; discriminate].
  destruct (nip44_encrypt toy_enc8 toy_mac b64_encode default_limits toy_key toy_pk (Some (repeat 9 32)) (repeat 97 430)) as [t2| |] eqn:E2; [|vm_compute in E2; discriminate|vm_compute in E2; discriminate].
  specialize (H _ _ _ _ _ _ _ _ _ _ _ _ _ _ _ toy_contract NO NO E1 E2 ltac:(vm_compute; reflexivity)).
  apply (C162_size _ _ _ _ _ _ default_limits toy_contract base64_sized ltac:(unfold limits_ok; cbn; lia) _ _ _ _ _ _ _ _ _ _ NO NO E1 E2) in H. vm_compute in H. discriminate H.
Qed.
(** A wrapped event keeps its author's signature. *)
Definition own_note : event := mkEvent (GiftWrapProps.toy_sha (serialize_own (mkEvent (repeat 0 32) toy_key 1600000000 1 [] (Some (bs "hi")) []))) toy_key 1600000000 1 [] (Some (bs "hi")) (repeat 5 64).
Theorem C162_signature_refuted : ~ (forall sha256 pubkey_of sign verify pubkey_parses parse_pk seckey_valid nce ncm ncv ncd mt print parse,
  crypto_ok sha256 pubkey_of sign verify pubkey_parses -> nc_contract nce ncm ncv ncd mt ->
  forall e ska pkr skr sd wd w who i, wrap_event serialize_own sha256 pubkey_of sign seckey_valid nce ncm b64_encode print default_limits None e ska pkr sd wd = Ok w ->
  unwrap_event serialize_own sha256 verify pubkey_parses parse_pk ncv ncd b64_decode parse default_limits None w skr = (who, Ok i) -> ~ signed serialize_own sha256 verify i).
Proof.
  intros H.
  destruct (wrap_event serialize_own GiftWrapProps.toy_sha toy_pub toy_sign toy_valid toy_enc8 toy_mac b64_encode jprint default_limits None own_note toy_key toy_pk toy_sd (toy_wd (Some 5))) as [w| |] eqn:W; [|vm_compute in W; discriminate|vm_compute in W; discriminate].
  assert (U : unwrap_event serialize_own GiftWrapProps.toy_sha toy_sver (fun _ => true) true toy_verify toy_dec b64_decode jparse default_limits None w (repeat 4 32) = (Some toy_key, Ok own_note)).
  { vm_compute in W. match type of W with Ok ?x = _ => assert (X : w = x) by congruence end. rewrite X. vm_compute. reflexivity. }
  apply (H _ _ _ _ _ _ _ _ _ _ _ _ _ _ toy_crypto toy_contract _ _ _ _ _ _ _ _ _ W U). vm_compute. auto.
Qed.

(** *** Concrete runs: two senders, different words, one face *)
Definition other_key : list N := repeat 11 32.
Definition face_dm (sk content : list N) (created : Z) : res event :=
  send_dm serialize_own GiftWrapProps.toy_sha toy_pub toy_sign toy_valid toy_enc8 toy_mac b64_encode (jpretty 0) default_limits None content sk toy_pk None None created 0 toy_sd (toy_wd (Some 5)).
Example C162_meets : exists w1 w2 r1 r2, face_dm toy_key (bs "yes, at noon") 1700000000 = Ok w1 /\ face_dm other_key (bs "no, certainly not at ten") 1600000000 = Ok w2 /\ w1 <> w2 /\
  dm_rumor serialize_own GiftWrapProps.toy_sha None (bs "yes, at noon") toy_key toy_pk None None 1700000000 0 = Ok r1 /\
  dm_rumor serialize_own GiftWrapProps.toy_sha None (bs "no, certainly not at ten") other_key toy_pk None None 1600000000 0 = Ok r2 /\
  blen (jpretty 0 (event_to_tree r1)) <> blen (jpretty 0 (event_to_tree r2)) /\
  size_class (blen (jpretty 0 (event_to_tree r1))) = size_class (blen (jpretty 0 (event_to_tree r2))) /\ same_face w1 w2.
Proof.
  eexists _, _, _, _. split; [vm_compute; reflexivity|]. split; [vm_compute; reflexivity|]. split; [|split; [vm_compute; reflexivity|]; split; [vm_compute; reflexivity|]; split; [vm_compute; discriminate|]; split; [vm_compute; reflexivity|]; vm_compute; auto].
  intros E. apply (f_equal ev_content) in E. vm_compute in E. discriminate E.
Qed.
Print Assumptions C162_size.
Print Assumptions C162_dm_partial.
Print Assumptions C162_event_partial.
Print Assumptions C162_deniable_partial.
Print Assumptions C162_class_refuted.
Print Assumptions C162_signature_refuted.
