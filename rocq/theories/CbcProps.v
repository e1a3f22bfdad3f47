(** C138, the cipher in CBC mode; C170: messages altered without the key. *)
From Verif Require Import Base BaseFacts Base64 KeyPair Ecdh EcdhSpec EcdhProps Nip04 Nip04Spec Nip04Props Cbc CbcSpec.
Open Scope N_scope.

Lemma xors_length a : forall b, length a = length b -> length (xors a b) = length a.
Proof. induction a as [|x a IH]; intros [|y b] L; cbn in *; try lia. rewrite IH; lia. Qed.
Lemma byte_testbit x : x < 256 <-> forall n, 8 <= n -> N.testbit x n = false.
Proof.
  split.
  - intros L n H. destruct (N.eq_dec x 0) as [->|X]; [apply N.bits_0|]. apply N.bits_above_log2. assert (N.log2 x < 8); [|lia]. apply N.log2_lt_pow2; [lia|exact L].
  - intros H. destruct (N.lt_ge_cases x 256) as [|G]; [assumption|exfalso]. assert (X : x <> 0) by lia. pose proof (N.bit_log2 x X) as B. rewrite H in B; [discriminate|]. apply N.log2_le_pow2; [lia|exact G].
Qed.
Lemma xors_bytes a : forall b, bytes_ok a -> bytes_ok b -> bytes_ok (xors a b).
Proof.
  induction a as [|x a IH]; intros [|y b] A B; try constructor.
  - unfold byte_ok. apply byte_testbit. intros n N. rewrite N.lxor_spec. rewrite (proj1 (byte_testbit x) (Forall_inv A) n N), (proj1 (byte_testbit y) (Forall_inv B) n N). reflexivity.
  - apply IH; [exact (Forall_inv_tail A)|exact (Forall_inv_tail B)].
Qed.
Lemma xors_back a : forall b, length a = length b -> xors a (xors a b) = b.
Proof. induction a as [|x a IH]; intros [|y b] L; cbn in *; try lia; [reflexivity|]. rewrite IH by lia. rewrite <- N.lxor_assoc, N.lxor_nilpotent, N.lxor_0_l. reflexivity. Qed.
Lemma xors_comm a : forall b, xors a b = xors b a.
Proof. induction a as [|x a IH]; intros [|y b]; cbn; try reflexivity. rewrite IH, N.lxor_comm. reflexivity. Qed.
Lemma xors_three a : forall f q, length a = length f -> length f = length q -> xors (xors a (xors f q)) (xors a f) = q.
Proof.
  induction a as [|x a IH]; intros [|y f] [|z q] L1 L2; cbn in *; try lia; [reflexivity|]. rewrite IH by lia. f_equal.
  apply N.bits_inj. intros n. rewrite !N.lxor_spec. destruct (N.testbit x n), (N.testbit y n), (N.testbit z n); reflexivity.
Qed.
Lemma cut16 (a b : list N) : length a = 16%nat -> firstn 16 (a ++ b) = a /\ skipn 16 (a ++ b) = b.
Proof. intros L. rewrite <- L. rewrite firstn_app, skipn_app, firstn_all, skipn_all, Nat.sub_diag, firstn_O, skipn_O, app_nil_r. split; reflexivity. Qed.

Lemma pad_length m : (length (pkcs_pad m) = 16 * (length m / 16 + 1))%nat.
Proof. unfold pkcs_pad. rewrite app_length, repeat_length. pose proof (Nat.div_mod_eq (length m) 16). pose proof (Nat.mod_upper_bound (length m) 16 ltac:(lia)). lia. Qed.
Lemma pad_bytes m : bytes_ok m -> bytes_ok (pkcs_pad m).
Proof. intros B. unfold pkcs_pad. apply Forall_app. split; [exact B|]. apply Forall_forall. intros x X. apply repeat_spec in X. subst x. unfold byte_ok. lia. Qed.
Lemma unpad_pad m : pkcs_unpad (pkcs_pad m) = Some m.
Proof.
  unfold pkcs_pad. pose proof (Nat.mod_upper_bound (length m) 16 ltac:(lia)) as MB. set (k := (16 - length m mod 16)%nat). assert (KB : (0 < k <= 16)%nat) by lia. clearbody k. clear MB.
  assert (LA : last (m ++ repeat (N.of_nat k) k) 0 = N.of_nat k).
  { destruct k as [|k]; [lia|]. replace (repeat (N.of_nat (S k)) (S k)) with (repeat (N.of_nat (S k)) k ++ [N.of_nat (S k)]) by (symmetry; apply repeat_cons). rewrite app_assoc. apply last_last. }
  unfold pkcs_unpad. rewrite LA, Nat2N.id, app_length, repeat_length. rewrite (proj2 (Nat.eqb_neq k 0)), (proj2 (Nat.ltb_ge 16 k)), (proj2 (Nat.ltb_ge (length m + k) k)) by lia. cbn [orb].
  replace (length m + k - k)%nat with (length m) by lia. rewrite skipn_app, skipn_all, Nat.sub_diag. cbn [skipn app]. rewrite beq_refl, firstn_app, firstn_all, Nat.sub_diag. cbn [firstn]. rewrite app_nil_r. reflexivity.
Qed.

Section Mode.
Variable E D : list N -> list N -> list N.
Hypothesis B : block_ok E D.
Lemma enc_blocks_ok n : forall key prev p, length key = 32%nat -> length prev = 16%nat -> bytes_ok prev -> length p = (16 * n)%nat -> bytes_ok p ->
  length (cbc_enc_blocks E n key prev p) = (16 * n)%nat /\ bytes_ok (cbc_enc_blocks E n key prev p) /\ cbc_dec_blocks D n key prev (cbc_enc_blocks E n key prev p) = p.
Proof.
  induction n as [|n IH]; intros key prev p K LP BP L BB.
  - assert (p = []) by (destruct p; [reflexivity|cbn in L; lia]). subst p. split; [reflexivity|]. split; [constructor|reflexivity].
  - cbn [cbc_enc_blocks]. set (x := xors prev (firstn 16 p)). assert (F : length (firstn 16 p) = 16%nat) by (rewrite firstn_length; lia).
    assert (LX : length x = 16%nat) by (unfold x; rewrite xors_length; lia). assert (BX : bytes_ok x) by (apply xors_bytes; [exact BP|apply Forall_firstn; exact BB]).
    destruct (b_len _ _ B key x K LX BX) as (LC & BC). assert (LS : length (skipn 16 p) = (16 * n)%nat) by (rewrite skipn_length; lia).
    destruct (IH key (E key x) (skipn 16 p) K LC BC LS (Forall_skipn _ _ _ BB)) as (L1 & B1 & D1).
    split; [rewrite app_length, L1, LC; lia|]. split; [apply Forall_app; split; assumption|]. cbn [cbc_dec_blocks].
    destruct (cut16 (E key x) (cbc_enc_blocks E n key (E key x) (skipn 16 p)) LC) as (C1 & C2). rewrite C1, C2.
    rewrite (b_inv _ _ B key x K LX BX), D1. unfold x. rewrite xors_back by lia. apply firstn_skipn.
Qed.
(** With another vector only the first block is read otherwise. *)
Lemma dec_other n key prev prev' q p : length key = 32%nat -> length prev = 16%nat -> bytes_ok prev -> length p = (16 * S n)%nat -> bytes_ok p -> length q = 16%nat ->
  prev' = xors prev (xors (firstn 16 p) q) -> cbc_dec_blocks D (S n) key prev' (cbc_enc_blocks E (S n) key prev p) = q ++ skipn 16 p.
Proof.
  intros K LP BP L BB LQ ->. assert (F : length (firstn 16 p) = 16%nat) by (rewrite firstn_length; lia). destruct (enc_blocks_ok (S n) key prev p K LP BP L BB) as (_ & _ & R). 
  cbn [cbc_dec_blocks] in *. set (c := cbc_enc_blocks E (S n) key prev p) in *.
  assert (LX : length (xors prev (firstn 16 p)) = 16%nat) by (rewrite xors_length; lia).
  assert (DC : D key (firstn 16 c) = xors prev (firstn 16 p)).
  { unfold c. cbn [cbc_enc_blocks]. assert (BX : bytes_ok (xors prev (firstn 16 p))) by (apply xors_bytes; [exact BP|apply Forall_firstn; exact BB]).
    destruct (b_len _ _ B key _ K LX BX) as (LC & _). rewrite (proj1 (cut16 _ _ LC)). apply (b_inv _ _ B key _ K LX BX). }
  rewrite DC in *. rewrite xors_back in R by lia. rewrite <- (firstn_skipn 16 p) in R at 2. apply app_inv_head in R. rewrite R. f_equal.
  apply xors_three; lia.
Qed.
Lemma pad_blocks m : (length (pkcs_pad m) / 16 = length m / 16 + 1)%nat.
Proof. rewrite pad_length, Nat.mul_comm. apply Nat.div_mul. lia. Qed.
(** The cipher of NIP-04 keeps its promise (C138) if its block cipher is a permutation. *)
Theorem C138_cbc : aes_ok (cbc_enc E) (cbc_dec D).
Proof.
  split.
  - intros key iv m LK LI BI BM. unfold cbc_enc, cbc_dec. rewrite LK, LI. cbn [Nat.eqb andb]. eexists. split; [reflexivity|]. rewrite pad_blocks.
    assert (LP : length (pkcs_pad m) = (16 * (length m / 16 + 1))%nat) by apply pad_length.
    destruct (enc_blocks_ok (length m / 16 + 1) key iv (pkcs_pad m) LK LI BI LP (pad_bytes m BM)) as (L1 & B1 & D1). set (c := cbc_enc_blocks _ _ _ _ _) in *.
    split; [intros Z; rewrite Z in L1; cbn [length] in L1; lia|]. split; [exact B1|]. rewrite L1. rewrite (proj2 (Nat.eqb_neq _ 0)) by lia. rewrite Nat.mul_comm, Nat.mod_mul by lia. cbn [negb andb Nat.eqb].
    rewrite Nat.div_mul by lia. rewrite D1. apply unpad_pad.
  - intros key iv m c H. unfold cbc_enc in H. destruct ((length key =? 32) && (length iv =? 16))%nat eqn:Q; [|discriminate]. apply andb_true_iff in Q as (Q1 & Q2). apply Nat.eqb_eq in Q1, Q2. auto.
Qed.
Lemma pad_tail m m' : first_block_apart m m' -> skipn 16 (pkcs_pad m) = skipn 16 (pkcs_pad m').
Proof.
  intros [(A1 & A2)|(L & S)].
  - assert (Z : forall x, (length x < 16)%nat -> skipn 16 (pkcs_pad x) = []) by (intros x X; apply skipn_all2; rewrite pad_length, (Nat.div_small (length x) 16 X); lia). rewrite (Z m A1), (Z m' A2). reflexivity.
  - unfold pkcs_pad. rewrite !skipn_app, S, L. reflexivity.
Qed.
End Mode.

(** ** C170 *)
(** Another text from a text, the message in it and the message wanted: no key *)
Definition alter (b64enc : list N -> list N) (b64dec : list N -> option (list N)) (t m m' : list N) : list N :=
  match split_on (bs "?iv=") t with
  | None => t
  | Some (c, v) => match b64dec v with None => t | Some iv => c ++ bs "?iv=" ++ b64enc (xors iv (xors (firstn 16 (pkcs_pad m)) (firstn 16 (pkcs_pad m')))) end
  end.
(** Whoever knows what a text says can make it say something else in its first 16
    bytes, whatever the keys, the block cipher and the vector. *)
Theorem C170_forged : forall b64enc b64dec, base64_ok b64enc b64dec -> forall E D ecdh sk pk key iv m m' t, block_ok E D -> ecdh sk pk = Ok key -> length key = 32%nat -> length iv = 16%nat -> bytes_ok iv -> cstr_ok m -> cstr_ok m' ->
  first_block_apart m m' -> published (cbc_enc E) b64enc key iv m t -> nip04_plain ecdh (cbc_dec D) b64dec sk pk (alter b64enc b64dec t m m') = Ok m'.
Proof.
  intros b64enc b64dec B E D ecdh sk pk key iv m m' t BO EK LK LI BI CM CM' FB (c & EC & ->).
  assert (CB : forall x, cstr_ok x -> bytes_ok x) by (intros x X; eapply Forall_impl; [|exact X]; intros y; unfold char_ok, byte_ok; lia).
  assert (BM := CB m CM). assert (BM' := CB m' CM'). destruct (aes_back _ _ (C138_cbc E D BO) key iv m LK LI BI BM) as (c' & EC' & NE & BC & _). assert (c' = c) by congruence. subst c'.
  assert (LP : length (pkcs_pad m) = (16 * S (length m / 16))%nat) by (rewrite pad_length; lia). assert (LP' : length (pkcs_pad m') = (16 * S (length m' / 16))%nat) by (rewrite pad_length; lia).
  set (q := firstn 16 (pkcs_pad m')). assert (LQ : length q = 16%nat) by (unfold q; rewrite firstn_length; lia). assert (LF : length (firstn 16 (pkcs_pad m)) = 16%nat) by (rewrite firstn_length; lia).
  assert (BQ : bytes_ok q) by (apply Forall_firstn, pad_bytes; exact BM').
  pose proof (b_plain _ _ B c BC) as P1. pose proof (b_plain _ _ B iv BI) as P2. unfold alter. rewrite split_on_first by (eapply Forall_impl; [|exact P1]; cbn; tauto). rewrite (b_back _ _ B iv BI). fold q.
  set (iv' := xors iv (xors (firstn 16 (pkcs_pad m)) q)).
  assert (LI' : length iv' = 16%nat) by (unfold iv'; rewrite xors_length; [exact LI|rewrite xors_length; lia]).
  assert (BI' : bytes_ok iv') by (apply xors_bytes; [exact BI|]; apply xors_bytes; [apply Forall_firstn, pad_bytes; exact BM|exact BQ]).
  pose proof (b_plain _ _ B iv' BI') as P3. unfold nip04_plain.
  rewrite upto_nul_id by (apply Forall_app; split; [eapply Forall_impl; [|exact P1]; cbn; tauto|]; apply Forall_app; split; [repeat constructor; discriminate|]; eapply Forall_impl; [|exact P3]; cbn; tauto).
  rewrite split_on_first by (eapply Forall_impl; [|exact P1]; cbn; tauto). rewrite (b_back _ _ B c BC). assert (DC : cbc_dec D key iv' c = Some m').
  { unfold cbc_enc in EC. rewrite LK, LI in EC. cbn [Nat.eqb andb] in EC. assert (CE : c = cbc_enc_blocks E (S (length m / 16)) key iv (pkcs_pad m)) by (rewrite <- (Nat.add_1_r (length m / 16)), <- pad_blocks; congruence).
    destruct (enc_blocks_ok E D BO (S (length m / 16)) key iv (pkcs_pad m) LK LI BI LP (pad_bytes m BM)) as (L1 & _). rewrite <- CE in L1.
    unfold cbc_dec. rewrite LK, LI', L1. rewrite (proj2 (Nat.eqb_neq _ 0)) by lia. rewrite Nat.mul_comm, Nat.mod_mul by lia. rewrite Nat.div_mul by lia. cbn [Nat.eqb negb andb].
    rewrite CE. rewrite (dec_other E D BO (length m / 16) key iv iv' q (pkcs_pad m) LK LI BI LP (pad_bytes m BM) LQ eq_refl). rewrite (pad_tail m m' FB). unfold q. rewrite firstn_skipn. apply unpad_pad. }
  destruct c as [|x c]; [congruence|]. rewrite (b_back _ _ B iv' BI'), LI'. cbn [Nat.eqb negb]. rewrite EK, DC. rewrite upto_nul_id; [reflexivity|]. eapply Forall_impl; [|exact CM']. intros y Y. unfold char_ok in Y. lia.
Qed.
(** So there is a way to alter messages that works without the key, in all cases. *)
Theorem C170_refuted : ~ (forall alter : list N -> list N -> list N -> list N, exists E D ecdh sk pk key iv m m' t, block_ok E D /\ ecdh sk pk = Ok key /\ length key = 32%nat /\ length iv = 16%nat /\ bytes_ok iv /\ cstr_ok m /\ cstr_ok m' /\
  first_block_apart m m' /\ published (cbc_enc E) b64_encode key iv m t /\ nip04_plain ecdh (cbc_dec D) b64_decode sk pk (alter t m m') <> Ok m').
Proof.
  intros H. destruct (H (alter b64_encode b64_decode)) as (E & D & ecdh & sk & pk & key & iv & m & m' & t & A1 & A2 & A3 & A4 & A5 & A6 & A7 & A8 & A9 & X).
  apply X. exact (C170_forged b64_encode b64_decode base64_is_ok E D ecdh sk pk key iv m m' t A1 A2 A3 A4 A5 A6 A7 A8 A9).
Qed.
Lemma xors_swap a : forall b f, length a = length b -> length b = length f -> xors b (xors f (xors a (xors b f))) = a.
Proof.
  induction a as [|x a IH]; intros [|y b] [|z f] L1 L2; cbn in *; try lia; [reflexivity|]. rewrite IH by lia. f_equal.
  apply N.bits_inj. intros n. rewrite !N.lxor_spec. destruct (N.testbit x n), (N.testbit y n), (N.testbit z n); reflexivity.
Qed.
(** Partial: another vector changes nothing but the first 16 bytes of a longer message.
    Missing: that the change is noticed. *)
Theorem C170_partial : forall b64enc b64dec, base64_ok b64enc b64dec -> forall E D ecdh sk pk key iv m c iv', block_ok E D -> ecdh sk pk = Ok key -> length key = 32%nat -> length iv = 16%nat -> bytes_ok iv -> cstr_ok m -> (16 <= length m)%nat ->
  cbc_enc E key iv m = Some c -> length iv' = 16%nat -> bytes_ok iv' ->
  exists x, length x = 16%nat /\ x = xors iv' (xors iv (firstn 16 m)) /\ nip04_plain ecdh (cbc_dec D) b64dec sk pk (b64enc c ++ bs "?iv=" ++ b64enc iv') = Ok (upto_nul (x ++ skipn 16 m)).
Proof.
  intros b64enc b64dec B E D ecdh sk pk key iv m c iv' BO EK LK LI BI CM L16 EC LI' BI'.
  assert (BM : bytes_ok m) by (eapply Forall_impl; [|exact CM]; intros y; unfold char_ok, byte_ok; lia). destruct (aes_back _ _ (C138_cbc E D BO) key iv m LK LI BI BM) as (c' & EC' & NE & BC & _). assert (c' = c) by congruence. subst c'.
  assert (LF : length (firstn 16 m) = 16%nat) by (rewrite firstn_length; lia). set (x := xors iv' (xors iv (firstn 16 m))). assert (LX : length x = 16%nat) by (unfold x; rewrite xors_length; [exact LI'|rewrite xors_length; lia]).
  exists x. split; [exact LX|]. split; [reflexivity|].
  assert (LP : length (pkcs_pad m) = (16 * S (length m / 16))%nat) by (rewrite pad_length; lia).
  assert (PF : firstn 16 (pkcs_pad m) = firstn 16 m) by (unfold pkcs_pad; rewrite firstn_app; replace (16 - length m)%nat with 0%nat by lia; rewrite firstn_O, app_nil_r; reflexivity).
  assert (PX : x ++ skipn 16 (pkcs_pad m) = pkcs_pad (x ++ skipn 16 m)).
  { assert (LE : length (x ++ skipn 16 m) = length m) by (rewrite app_length, skipn_length; lia). unfold pkcs_pad. rewrite LE, skipn_app. replace (16 - length m)%nat with 0%nat by lia. rewrite skipn_O, app_assoc. reflexivity. }
  pose proof (b_plain _ _ B c BC) as P1. pose proof (b_plain _ _ B iv' BI') as P3. unfold nip04_plain.
  rewrite upto_nul_id by (apply Forall_app; split; [eapply Forall_impl; [|exact P1]; cbn; tauto|]; apply Forall_app; split; [repeat constructor; discriminate|]; eapply Forall_impl; [|exact P3]; cbn; tauto).
  rewrite split_on_first by (eapply Forall_impl; [|exact P1]; cbn; tauto). rewrite (b_back _ _ B c BC). assert (DC : cbc_dec D key iv' c = Some (x ++ skipn 16 m)).
  { unfold cbc_enc in EC. rewrite LK, LI in EC. cbn [Nat.eqb andb] in EC. assert (CE : c = cbc_enc_blocks E (S (length m / 16)) key iv (pkcs_pad m)) by (rewrite <- (Nat.add_1_r (length m / 16)), <- pad_blocks; congruence).
    destruct (enc_blocks_ok E D BO (S (length m / 16)) key iv (pkcs_pad m) LK LI BI LP (pad_bytes m BM)) as (L1 & _). rewrite <- CE in L1.
    unfold cbc_dec. rewrite LK, LI', L1. rewrite (proj2 (Nat.eqb_neq _ 0)) by lia. rewrite Nat.mul_comm, Nat.mod_mul by lia. rewrite Nat.div_mul by lia. cbn [Nat.eqb negb andb].
    rewrite CE. rewrite (dec_other E D BO (length m / 16) key iv iv' x (pkcs_pad m) LK LI BI LP (pad_bytes m BM) LX); [rewrite PX; apply unpad_pad|]. rewrite PF. unfold x. symmetry. apply xors_swap; lia. }
  destruct c as [|y c]; [congruence|]. rewrite (b_back _ _ B iv' BI'), LI'. cbn [Nat.eqb negb]. rewrite EK, DC. reflexivity.
Qed.
(** ** A block cipher, and messages *)
Definition turn (key b : list N) : list N := map (fun x => (x + hd 0 key) mod 256) b.
Definition turn_back (key b : list N) : list N := map (fun x => (x + (256 - hd 0 key mod 256)) mod 256) b.
Lemma turn_ok : block_ok turn turn_back.
Proof.
  split.
  - intros key b _ L _. unfold turn. rewrite map_length. split; [exact L|]. apply Forall_forall. intros y Y. apply in_map_iff in Y as (x & <- & _). apply N.mod_lt. discriminate.
  - intros key b _ _ F. unfold turn, turn_back. rewrite map_map. rewrite <- (map_id b) at 2. apply map_ext_in. intros x X. assert (XB : x < 256) by (exact (proj1 (Forall_forall _ _) F x X)). set (h := hd 0 key). pose proof (N.mod_lt h 256 ltac:(discriminate)) as HL. pose proof (N.div_mod h 256 ltac:(discriminate)) as HD.
    rewrite N.add_mod_idemp_l by discriminate. set (d := h / 256) in *. set (r := h mod 256) in *. clearbody d r h. replace (x + h + (256 - r)) with (x + (d + 1) * 256) by lia. rewrite N.mod_add by discriminate. apply N.mod_small. exact XB.
Qed.
Example C170_meets : block_ok turn turn_back /\ first_block_apart (bs "pay 10 to Alice, then go home") (bs "pay 99 to Mallo, then go home") /\ first_block_apart (bs "no") (bs "yes, do it") /\
  exists t, published (cbc_enc turn) b64_encode (repeat 200 32) (repeat 7 16) (bs "pay 10 to Alice, then go home") t /\
  nip04_plain (fun _ _ => Ok (repeat 200 32)) (cbc_dec turn_back) b64_decode [] [] t = Ok (bs "pay 10 to Alice, then go home") /\
  nip04_plain (fun _ _ => Ok (repeat 200 32)) (cbc_dec turn_back) b64_decode [] [] (alter b64_encode b64_decode t (bs "pay 10 to Alice, then go home") (bs "pay 99 to Mallo, then go home")) = Ok (bs "pay 99 to Mallo, then go home").
Proof.
  split; [exact turn_ok|]. split; [right; split; reflexivity|]. split; [left; cbn; lia|]. eexists. split; [eexists; split; [vm_compute; reflexivity|reflexivity]|]. split; vm_compute; reflexivity.
Qed.
Print Assumptions C138_cbc.
Print Assumptions C170_forged.
Print Assumptions C170_refuted.
Print Assumptions C170_partial.
Print Assumptions C170_meets.
