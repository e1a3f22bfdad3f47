(** C138: NIP-04 messages. *)
From Verif Require Import Base BaseFacts Base64 KeyPair Ecdh EcdhSpec EcdhProps Nip04 Nip04Spec.
Open Scope N_scope.

Lemma upto_nul_id s : Forall (fun c => c <> 0) s -> upto_nul s = s.
Proof. induction 1 as [|c s C _ IH]; [reflexivity|]. cbn [upto_nul]. rewrite (proj2 (N.eqb_neq c 0) C), IH. reflexivity. Qed.
Lemma split_on_first a b : Forall (fun c => c <> 63) a -> split_on (bs "?iv=") (a ++ bs "?iv=" ++ b) = Some (a, b).
Proof.
  induction 1 as [|c a C _ IH].
  - cbn [app]. change (bs "?iv=" ++ b) with (63 :: 105 :: 118 :: 61 :: b). cbn [split_on bs prefixb]. reflexivity.
  - change ((c :: a) ++ bs "?iv=" ++ b) with (c :: (a ++ bs "?iv=" ++ b)). cbn [split_on].
    assert (P : prefixb (bs "?iv=") (c :: a ++ bs "?iv=" ++ b) = false) by (change (bs "?iv=") with [63; 105; 118; 61] at 1; cbn [prefixb]; rewrite (proj2 (N.eqb_neq 63 c)) by congruence; reflexivity).
    rewrite P, IH. reflexivity.
Qed.
Lemma as_int_small n : (N.of_nat n < 2 ^ 31)%N -> as_int (N.of_nat n) = Z.of_nat n.
Proof.
  intros L. unfold as_int. change (2 ^ 31)%N with 2147483648 in L. change (2 ^ 32)%Z with 4294967296%Z. change (2 ^ 31)%Z with 2147483648%Z. rewrite Z.mod_small by lia.
  rewrite (proj2 (Z.ltb_lt _ _)) by lia. lia.
Qed.

Section Messages.
Variable aes_enc aes_dec : list N -> list N -> list N -> option (list N).
Variable b64enc : list N -> list N.
Variable b64dec : list N -> option (list N).
Hypothesis A : aes_ok aes_enc aes_dec.
Hypothesis B : base64_ok b64enc b64dec.
Notation text := (nip04_text).

(** A message of any client that follows NIP-04 with the same key is read. *)
Theorem C138_reads : forall ecdh sk pk key iv m t, ecdh sk pk = Ok key -> length key = 32%nat -> bytes_ok iv -> cstr_ok m ->
  published aes_enc b64enc key iv m t -> nip04_plain ecdh aes_dec b64dec sk pk t = Ok m.
Proof.
  intros ecdh sk pk key iv m t E LK BI CM (c & EC & ->). destruct (aes_iv _ _ A _ _ _ _ EC) as (_ & LI).
  assert (BM : bytes_ok m) by (eapply Forall_impl; [|exact CM]; intros x; unfold char_ok, byte_ok; lia).
  destruct (aes_back _ _ A key iv m LK LI BI BM) as (c' & EC' & NE & BC & D). assert (c' = c) by congruence. subst c'.
  pose proof (b_plain _ _ B c BC) as P1. pose proof (b_plain _ _ B iv BI) as P2.
  assert (U : upto_nul (b64enc c ++ bs "?iv=" ++ b64enc iv) = b64enc c ++ bs "?iv=" ++ b64enc iv).
  { apply upto_nul_id. apply Forall_app. split; [eapply Forall_impl; [|exact P1]; cbn; tauto|]. apply Forall_app. split; [repeat constructor; discriminate|]. eapply Forall_impl; [|exact P2]; cbn; tauto. }
  unfold nip04_plain. rewrite U, split_on_first by (eapply Forall_impl; [|exact P1]; cbn; tauto). rewrite (b_back _ _ B c BC). destruct c as [|x c]; [congruence|].
  rewrite (b_back _ _ B iv BI), LI. cbn [Nat.eqb negb]. rewrite E, D. rewrite upto_nul_id; [reflexivity|]. eapply Forall_impl; [|exact CM]. intros y Y. unfold char_ok in Y. lia.
Qed.
(** What is sent is as published, for the given key and vector. *)
Theorem C138_writes : forall ecdh sk pk key iv m, ecdh sk pk = Ok key -> length key = 32%nat -> length iv = 16%nat -> bytes_ok iv -> cstr_ok m -> N.of_nat (length m) < 2 ^ 31 - 16 ->
  exists t, nip04_text ecdh aes_enc b64enc sk pk (Some iv) m = Ok t /\ published aes_enc b64enc key iv m t.
Proof.
  intros ecdh sk pk key iv m E LK LI BI CM L. assert (BM : bytes_ok m) by (eapply Forall_impl; [|exact CM]; intros x; unfold char_ok, byte_ok; lia).
  destruct (aes_back _ _ A key iv m LK LI BI BM) as (c & EC & _). exists (b64enc c ++ bs "?iv=" ++ b64enc iv). split; [|exists c; auto].
  unfold nip04_text. rewrite E. rewrite upto_nul_id by (eapply Forall_impl; [|exact CM]; intros y Y; unfold char_ok in Y; lia).
  change (2 ^ 31 - 16) with 2147483632 in L. rewrite as_int_small by (change (2 ^ 31) with 2147483648; lia). change (2 ^ 31 - 16)%Z with 2147483632%Z.
  rewrite (proj2 (Z.ltb_ge _ _)), (proj2 (Z.leb_gt _ _)) by lia. rewrite Nat2Z.id, firstn_all, EC. reflexivity.
Qed.
(** So a message reaches the other side, whoever the two are. *)
Theorem C138_partial : forall c shared a b pa pb iv m, curve_ok c -> noscrypt_ok c shared -> public c a pa -> public c b pb ->
  length iv = 16%nat -> bytes_ok iv -> cstr_ok m -> N.of_nat (length m) < 2 ^ 31 - 16 ->
  exists t, nip04_text (key_ecdh shared None) aes_enc b64enc a pb (Some iv) m = Ok t /\ nip04_plain (key_ecdh shared None) aes_dec b64dec b pa t = Ok m /\
  nip04_plain (key_ecdh shared None) aes_dec b64dec a pb t = Ok m.
Proof.
  intros c shared a b pa pb iv m K L Pa Pb LI BI CM LM. destruct (C137_agree c K shared a b pa pb L Pa Pb) as (s & Ea & Eb & _ & LS).
  destruct (C138_writes (key_ecdh shared None) a pb s iv m Ea LS LI BI CM LM) as (t & T & P). exists t. split; [exact T|].
  split; [apply (C138_reads _ b pa s iv m t Eb LS BI CM P)|apply (C138_reads _ a pb s iv m t Ea LS BI CM P)].
Qed.
(** Two texts that are equal carry the same vector and the same message for a key. *)
Theorem C138_distinct : forall ecdh sk pk key iv iv' m m' t, ecdh sk pk = Ok key -> length key = 32%nat -> bytes_ok iv -> bytes_ok iv' -> length iv = 16%nat -> length iv' = 16%nat ->
  cstr_ok m -> cstr_ok m' -> N.of_nat (length m) < 2 ^ 31 - 16 -> N.of_nat (length m') < 2 ^ 31 - 16 ->
  nip04_text ecdh aes_enc b64enc sk pk (Some iv) m = Ok t -> nip04_text ecdh aes_enc b64enc sk pk (Some iv') m' = Ok t -> iv = iv' /\ m = m'.
Proof.
  intros ecdh sk pk key iv iv' m m' t E LK B1 B2 L1 L2 C1 C2 S1 S2 T1 T2.
  destruct (C138_writes ecdh sk pk key iv m E LK L1 B1 C1 S1) as (t1 & X1 & P1). destruct (C138_writes ecdh sk pk key iv' m' E LK L2 B2 C2 S2) as (t2 & X2 & P2).
  assert (t1 = t) by congruence. assert (t2 = t) by congruence. subst t1 t2.
  split; [|pose proof (C138_reads ecdh sk pk key iv m t E LK B1 C1 P1); pose proof (C138_reads ecdh sk pk key iv' m' t E LK B2 C2 P2); congruence].
  assert (BC : forall iv m c, length iv = 16%nat -> bytes_ok iv -> cstr_ok m -> aes_enc key iv m = Some c -> bytes_ok c).
  { intros i x c LI BI CM EC. assert (BM : bytes_ok x) by (eapply Forall_impl; [|exact CM]; intros y; unfold char_ok, byte_ok; lia). destruct (aes_back _ _ A key i x LK LI BI BM) as (c' & EC' & _ & BC & _). congruence. }
  destruct P1 as (c1 & EC1 & ->). destruct P2 as (c2 & EC2 & Q).
  assert (F : forall x, bytes_ok x -> Forall (fun y => y <> 63) (b64enc x)) by (intros x BX; eapply Forall_impl; [|apply (b_plain _ _ B x BX)]; cbn; tauto).
  pose proof (split_on_first _ (b64enc iv) (F _ (BC _ _ _ L1 B1 C1 EC1))) as Y1. pose proof (split_on_first _ (b64enc iv') (F _ (BC _ _ _ L2 B2 C2 EC2))) as Y2. rewrite Q, Y2 in Y1.
  assert (V : b64enc iv' = b64enc iv) by congruence. apply (f_equal b64dec) in V. rewrite !(b_back _ _ B) in V by assumption. congruence.
Qed.
(** Everything else is refused. *)
Theorem C138_refused : forall ecdh sk pk iv m t,
  (forall k, ecdh sk pk <> Ok k) ->
  nip04_text ecdh aes_enc b64enc sk pk iv m = Err EInvalidKey /\ (forall x, nip04_plain ecdh aes_dec b64dec sk pk t <> Ok x) /\
  (forall ecdh k, ecdh sk pk = Ok k -> nip04_text ecdh aes_enc b64enc sk pk None m = Err EMemory) /\
  (forall ecdh, split_on (bs "?iv=") (upto_nul t) = None -> nip04_plain ecdh aes_dec b64dec sk pk t = Err EInvalidParam) /\
  (forall ecdh x i, bytes_ok x -> bytes_ok i -> length i <> 16%nat -> nip04_plain ecdh aes_dec b64dec sk pk (b64enc x ++ bs "?iv=" ++ b64enc i) = Err EInvalidParam).
Proof.
  intros ecdh sk pk iv m t NK. split; [|split; [|split; [|split]]].
  - unfold nip04_text. destruct (ecdh sk pk) as [k| |] eqn:E; [destruct (NK k eq_refl)|reflexivity|reflexivity].
  - intros x. unfold nip04_plain. destruct (split_on _ _) as [(u, v)|]; [|discriminate]. destruct (b64dec u) as [[|y l]|]; try discriminate. destruct (b64dec v) as [i|]; [|discriminate].
    destruct (negb _); [discriminate|]. destruct (ecdh sk pk) as [k| |] eqn:E; [destruct (NK k eq_refl)|discriminate|discriminate].
  - intros e k E. unfold nip04_text. rewrite E. reflexivity.
  - intros e S. unfold nip04_plain. rewrite S. reflexivity.
  - intros e x i BX BI L. pose proof (b_plain _ _ B x BX) as P1. pose proof (b_plain _ _ B i BI) as P2. unfold nip04_plain.
    rewrite upto_nul_id by (apply Forall_app; split; [eapply Forall_impl; [|exact P1]; cbn; tauto|]; apply Forall_app; split; [repeat constructor; discriminate|]; eapply Forall_impl; [|exact P2]; cbn; tauto).
    rewrite split_on_first by (eapply Forall_impl; [|exact P1]; cbn; tauto). rewrite (b_back _ _ B x BX). destruct x; [reflexivity|]. rewrite (b_back _ _ B i BI), (proj2 (Nat.eqb_neq _ _) L). reflexivity.
Qed.
End Messages.

(** ** Instances *)
Lemma b64_encode_plain x : bytes_ok x -> Forall (fun c => c <> 63 /\ c <> 0) (b64_encode x).
Proof.
  remember (length x) as n eqn:E. assert (L : (length x <= n)%nat) by lia. clear E. revert x L. induction n as [|n IH]; intros x L H; [destruct x; [constructor|cbn in L; lia]|].
  assert (Q : forall v, v < 64 -> b64_char v <> 63 /\ b64_char v <> 0) by (intros v V; destruct (b64_char_cases v V) as [(? & ->)|[(? & ->)|[(? & ->)|[(-> & ->)|(-> & ->)]]]]; lia).
  destruct x as [|a [|b [|d r]]]; [constructor| | |]; inversion H as [|? ? Ha H1]; subst; unfold byte_ok in Ha; cbn [b64_encode].
  - repeat constructor; try discriminate; apply Q; dv.
  - inversion H1 as [|? ? Hb _]; subst. unfold byte_ok in Hb. repeat constructor; try discriminate; apply Q; dv.
  - inversion H1 as [|? ? Hb H2]; subst. inversion H2 as [|? ? Hd H3]; subst. unfold byte_ok in *.
    constructor; [apply Q; dv|]. constructor; [apply Q; dv|]. constructor; [apply Q; dv|]. constructor; [apply Q; dv|]. apply IH; [cbn in L; lia|exact H3].
Qed.
Lemma base64_is_ok : base64_ok b64_encode b64_decode.
Proof. split; [apply b64_roundtrip|apply b64_encode_plain]. Qed.
(** A stand-in for AES: the padding of PKCS #7, and nothing else. *)
Definition pad (m : list N) : list N := m ++ repeat (N.of_nat (16 - length m mod 16)) (16 - length m mod 16).
Definition toy_enc (key iv m : list N) : option (list N) := if ((length key =? 32) && (length iv =? 16))%nat then Some (pad m) else None.
Definition toy_dec (key iv c : list N) : option (list N) := Some (firstn (length c - N.to_nat (last c 0)) c).
Lemma toy_aes : aes_ok toy_enc toy_dec.
Proof.
  split.
  - intros key iv m LK LI BI BM. exists (pad m). unfold toy_enc, toy_dec. rewrite LK, LI. cbn [Nat.eqb andb]. pose proof (Nat.mod_upper_bound (length m) 16 ltac:(lia)) as MB.
    set (k := (16 - length m mod 16)%nat). assert (KB : (0 < k <= 16)%nat) by lia. assert (PD : pad m = m ++ repeat (N.of_nat k) k) by reflexivity. clearbody k.
    assert (LP : length (pad m) = (length m + k)%nat) by (rewrite PD, app_length, repeat_length; reflexivity).
    assert (LA : last (pad m) 0 = N.of_nat k). { rewrite PD. destruct k as [|k]; [lia|]. replace (repeat (N.of_nat (S k)) (S k)) with (repeat (N.of_nat (S k)) k ++ [N.of_nat (S k)]) by (symmetry; apply repeat_cons). rewrite app_assoc. apply last_last. }
    split; [reflexivity|]. split; [intros E; rewrite E in LP; cbn in LP; lia|]. split.
    + rewrite PD. apply Forall_app. split; [exact BM|]. apply Forall_forall. intros x X. apply repeat_spec in X. subst x. unfold byte_ok. lia.
    + rewrite LA, LP, Nat2N.id. replace (length m + k - k)%nat with (length m) by lia. rewrite PD, firstn_app, firstn_all, Nat.sub_diag. cbn [firstn]. rewrite app_nil_r. reflexivity.
  - intros key iv m c E. unfold toy_enc in E. destruct ((length key =? 32) && (length iv =? 16))%nat eqn:Q; [|discriminate]. apply andb_true_iff in Q as (Q1 & Q2). apply Nat.eqb_eq in Q1, Q2. auto.
Qed.

(** *** What does not hold *)
(** Of a text of 2^32 + 5 bytes only five are sent, without an error. *)
Theorem C138_refuted : ~ (forall aes_enc aes_dec b64enc b64dec c shared a b pa pb iv m t, aes_ok aes_enc aes_dec -> base64_ok b64enc b64dec -> curve_ok c -> noscrypt_ok c shared -> public c a pa -> public c b pb ->
  length iv = 16%nat -> bytes_ok iv -> cstr_ok m -> nip04_text (key_ecdh shared None) aes_enc b64enc a pb (Some iv) m = Ok t ->
  nip04_plain (key_ecdh shared None) aes_dec b64dec b pa t = Ok m).
Proof.
  intros C. assert (U : usable c13 (key 4) /\ usable c13 (key 5)) by (split; vm_compute; auto). destruct U as (U1 & U2).
  assert (KX : exists k, N.of_nat k = 4294967301) by (exists (N.to_nat 4294967301); apply N2Nat.id). destruct KX as (k & KX).
  set (m := repeat 65 k). assert (LM : N.of_nat (length m) = 4294967301) by (unfold m; rewrite repeat_length; exact KX).
  assert (K5 : (5 <= k)%nat) by lia.
  assert (CM : cstr_ok m) by (apply Forall_forall; intros x X; apply repeat_spec in X; subst x; unfold char_ok; lia).
  assert (F5 : firstn 5 m = bs "AAAAA"). { unfold m. replace k with (5 + (k - 5))%nat by lia. generalize (k - 5)%nat. intros j. reflexivity. }
  assert (UN : upto_nul m = m) by (apply upto_nul_id; eapply Forall_impl; [|exact CM]; intros x X; unfold char_ok in X; lia).
  assert (W : forall m', upto_nul m' = m' -> as_int (N.of_nat (length m')) = 5%Z -> nip04_text (key_ecdh shared13 None) toy_enc b64_encode (key 4) (repeat 5 32) (Some (repeat 7 16)) m' =
    match toy_enc (repeat 6 32) (repeat 7 16) (firstn 5 m') with None => Err EInvalidParam | Some c => Ok (b64_encode c ++ bs "?iv=" ++ b64_encode (repeat 7 16)) end).
  { intros m' X Y. unfold nip04_text. replace (key_ecdh shared13 None (key 4) (repeat 5 32)) with (@Ok (list N) (repeat 6 32)) by (vm_compute; reflexivity). rewrite X, Y. reflexivity. }
  specialize (W m UN ltac:(rewrite LM; reflexivity)). rewrite F5 in W.
  assert (T : exists t, nip04_text (key_ecdh shared13 None) toy_enc b64_encode (key 4) (repeat 5 32) (Some (repeat 7 16)) m = Ok t /\ nip04_plain (key_ecdh shared13 None) toy_dec b64_decode (key 5) (repeat 4 32) t = Ok (bs "AAAAA")).
  { clear -W. clearbody m. eexists. split; [rewrite W; vm_compute; reflexivity|vm_compute; reflexivity]. }
  destruct T as (t & T & D).
  pose proof (C toy_enc toy_dec b64_encode b64_decode c13 shared13 (key 4) (key 5) (repeat 4 32) (repeat 5 32) (repeat 7 16) m t toy_aes base64_is_ok c13_ok noscrypt13 (conj U1 eq_refl) (conj U2 eq_refl) eq_refl ltac:(apply Forall_forall; intros x X; apply repeat_spec in X; subst x; reflexivity) CM T) as R.
  rewrite D in R. assert (Q : m = bs "AAAAA") by congruence. pose proof (f_equal (@length N) Q) as LQ. cbn in LQ. lia.
Qed.
(** ** Cases *)
Example C138_meets : exists t, nip04_text (key_ecdh shared13 None) toy_enc b64_encode (key 4) (repeat 5 32) (Some (repeat 7 16)) (bs "see you?iv=8") = Ok t /\
  nip04_plain (key_ecdh shared13 None) toy_dec b64_decode (key 5) (repeat 4 32) t = Ok (bs "see you?iv=8") /\ public c13 (key 4) (repeat 4 32) /\ public c13 (key 5) (repeat 5 32).
Proof. eexists. split; [vm_compute; reflexivity|]. split; [vm_compute; reflexivity|]. repeat split; vm_compute; reflexivity. Qed.

Print Assumptions C138_reads.
Print Assumptions C138_writes.
Print Assumptions C138_partial.
Print Assumptions C138_distinct.
Print Assumptions C138_refused.
Print Assumptions C138_refuted.
