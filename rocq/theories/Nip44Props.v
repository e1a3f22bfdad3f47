(** Property theorems C09-C12 (NIP-44 and NIP-04). *)
From Verif Require Import Base BaseFacts Nip21 Heap Nip44 Nip44Spec Base64 Nip44Proofs.
Open Scope N_scope.

(** ** C09: padded length *)

(** Length of the padded buffer that encryption produces for a plaintext. *)
Definition produced_padded (l : limits) (pt : list N) (n : N) : Prop :=
  exists buf, pad_plaintext l pt = Ok buf /\ blen buf = 2 + n.

(** Full statement (false): every accepted plaintext is padded to the published length. *)
Theorem C09_padded_length_refuted :
  ~ (forall pt, 1 <= blen pt <= 65535 ->
       produced_padded default_limits pt (nip44_spec_padded (blen pt))).
Proof.
  intros H. specialize (H (repeat 65 400)).
  change (blen (repeat 65 400)) with 400 in H.
  destruct (H ltac:(lia)) as (buf & E & L).
  apply pad_length in E; [|unfold limits_ok; cbn; lia].
  destruct E as (_ & E). rewrite E in L. revert L. vm_compute. discriminate.
Qed.

(** Exactly which lengths agree with the published scheme. *)
Theorem C09_padded_length_partial : forall l pt,
  1 <= lim_min l -> lim_max l <= 65535 -> lim_min l <= blen pt <= lim_max l ->
  (produced_padded l pt (nip44_spec_padded (blen pt)) <->
   blen pt <= 256 \/ N.odd ((blen pt - 1) / (2 ^ N.log2 (blen pt) / 8)) = true).
Proof.
  intros l pt L1 L2 H.
  assert (L : limits_ok l) by (unfold limits_ok; lia).
  assert (R : produced_padded l pt (nip44_spec_padded (blen pt)) <->
              calc_padded_len (blen pt) = nip44_spec_padded (blen pt)).
  { split.
    - intros (buf & E & G). apply pad_length in E; [|exact L]. destruct E. lia.
    - intros E. eexists. split; [apply pad_ok; assumption|].
      pose proof (calc_bounds (blen pt) ltac:(lia)).
      cbn [app]. rewrite !blen_cons, blen_app, blen_repeat. lia. }
  rewrite R. destruct (N.le_gt_cases (blen pt) 256).
  - split; [left; assumption|]. intros _. apply small_agree. lia.
  - rewrite calc_vs_spec by lia. split; [right; assumption|]. intros [?|?]; [lia|assumption].
Qed.

(** 320 and 65535 agree, 400 and 257 do not. *)
Example C09_cases :
  (nip44_spec_padded 320 = 320 /\ calc_padded_len 320 = 320) /\
  (nip44_spec_padded 65535 = 65536 /\ calc_padded_len 65535 = 65536) /\
  (nip44_spec_padded 400 = 448 /\ calc_padded_len 400 = 416) /\
  (nip44_spec_padded 257 = 320 /\ calc_padded_len 257 = 288).
Proof. vm_compute. auto 10. Qed.

(** ** C10: padding and unpadding *)
Theorem C10_pad_unpad : forall l pt,
  1 <= lim_min l -> lim_max l <= 65535 -> bytes_ok pt -> lim_min l <= blen pt <= lim_max l ->
  exists buf, pad_plaintext l pt = Ok buf /\ 2 + blen pt <= blen buf <= 65538 /\
    firstn (2 + length pt) buf = blen pt / 256 :: blen pt mod 256 :: pt /\
    Forall (fun b => b = 0) (skipn (2 + length pt) buf) /\
    unpad_plaintext l buf = Ok pt.
Proof.
  intros l pt L1 L2 Hb H.
  assert (L : limits_ok l) by (unfold limits_ok; lia).
  pose proof (pad_ok l pt L H) as P. eexists. split; [exact P|].
  pose proof (calc_bounds (blen pt) ltac:(lia)).
  split; [cbn [app]; rewrite !blen_cons, blen_app, blen_repeat; lia|].
  split; [|split].
  - cbn [app Nat.add firstn]. do 2 f_equal. apply firstn_app_exact. reflexivity.
  - cbn [app Nat.add skipn]. rewrite skipn_app_exact by reflexivity. apply Forall_repeat. reflexivity.
  - apply unpad_char; [exact L|eapply pad_bytes; eassumption|].
    exists (blen pt / 256), (blen pt mod 256), (repeat 0 (N.to_nat (calc_padded_len (blen pt) - blen pt))).
    split; [reflexivity|].
    split; [pose proof (N.div_mod (blen pt) 256 ltac:(lia)); lia|].
    split; [lia|]. cbn [app]. rewrite !blen_cons, blen_app, blen_repeat. lia.
Qed.

(** Lengths outside the configured window are refused. *)
Theorem C10_pad_rejects : forall l pt,
  blen pt < lim_min l \/ lim_max l < blen pt -> pad_plaintext l pt = Err EMemory.
Proof.
  intros l pt H. unfold pad_plaintext.
  destruct (N.ltb_spec (blen pt) (lim_min l)); cbn [orb]; [reflexivity|].
  destruct (N.ltb_spec (lim_max l) (blen pt)); [reflexivity|lia].
Qed.

(** Unpadding accepts a buffer exactly when it is a length prefix, the
    plaintext it announces, and filler up to the size that padding a plaintext
    of that length gives; it never reads outside the buffer. *)
Theorem C10_unpad_exact : forall l buf pt,
  1 <= lim_min l -> lim_min l <= lim_max l -> lim_max l <= 65535 -> bytes_ok buf ->
  unpad_plaintext l buf <> Undef /\
  (unpad_plaintext l buf = Ok pt <->
   exists hi lo filler, buf = hi :: lo :: pt ++ filler /\ blen pt = hi * 256 + lo /\
     1 <= blen pt <= lim_max l /\
     exists model, pad_plaintext default_limits (repeat 0 (length pt)) = Ok model /\
       blen buf = blen model).
Proof.
  intros l buf pt L1 L2 L3 Hb.
  assert (L : limits_ok l) by (unfold limits_ok; lia).
  split; [apply unpad_safe; assumption|].
  rewrite unpad_char by assumption.
  assert (D : limits_ok default_limits) by (unfold limits_ok; cbn; lia).
  assert (B : blen (repeat 0 (length pt)) = blen pt) by (unfold blen; rewrite repeat_length; reflexivity).
  split; intros (hi & lo & t & E & E1 & E2 & E3); exists hi, lo, t;
    (split; [exact E|]; split; [exact E1|]; split; [exact E2|]).
  - eexists. split; [apply pad_ok; [exact D|cbn [lim_min lim_max default_limits]; lia]|].
    rewrite E3, B. pose proof (calc_bounds (blen pt) ltac:(lia)).
    cbn [app]. rewrite !blen_cons, blen_app, blen_repeat, B. lia.
  - destruct E3 as (model & P & ->). apply pad_length in P; [|exact D]. destruct P as (_ & ->).
    rewrite B. reflexivity.
Qed.

(** The three rejections named by the property. *)
Theorem C10_unpad_rejects : forall l hi lo body,
  1 <= lim_min l -> lim_min l <= lim_max l -> lim_max l <= 65535 ->
  bytes_ok (hi :: lo :: body) ->
  hi * 256 + lo = 0 \/ blen body < hi * 256 + lo \/ lim_max l < hi * 256 + lo ->
  unpad_plaintext l (hi :: lo :: body) = Err EInvalidParam.
Proof.
  intros l hi lo body L1 L2 L3 Hb H.
  assert (L : limits_ok l) by (unfold limits_ok; lia).
  assert (NE : forall pt, unpad_plaintext l (hi :: lo :: body) <> Ok pt).
  { intros pt E. apply unpad_char in E; [|exact L|exact Hb].
    destruct E as (hi' & lo' & t & E & E1 & E2 & E3). injection E as <- <- ->.
    rewrite blen_app in H. lia. }
  pose proof (unpad_safe l _ L Hb) as S. revert NE S.
  unfold unpad_plaintext.
  destruct (_ || _); [reflexivity|]. destruct (negb _); [reflexivity|].
  destruct (_ <? _); intros NE S; [congruence|]. exfalso. eapply NE. reflexivity.
Qed.

Example C10_case :
  pad_plaintext default_limits (bs "hi") = Ok ([0; 2; 104; 105] ++ repeat 0 30) /\
  unpad_plaintext default_limits ([0; 2; 104; 105] ++ repeat 0 30) = Ok (bs "hi") /\
  unpad_plaintext default_limits ([0; 33; 104; 105] ++ repeat 0 30) = Err EInvalidParam.
Proof. vm_compute. auto. Qed.

(** ** C11: encryption followed by decryption *)
Lemma encrypt_shape nce ncm ncv ncd mt enc dec l sk pk nonce pt text :
  nc_contract nce ncm ncv ncd mt -> b64_contract enc dec ->
  limits_ok l -> length nonce = 32%nat -> bytes_ok nonce ->
  nip44_encrypt nce ncm enc l sk pk (Some nonce) pt = Ok text ->
  exists padded ct hk, pad_plaintext l pt = Ok padded /\
    nce sk pk nonce padded = Some (ct, hk) /\
    dec text = Some ([2] ++ nonce ++ ct ++ ncm hk (nonce ++ ct)) /\
    (match text with c :: _ => c =? 35 | [] => false end) = false /\
    blen ([2] ++ nonce ++ ct ++ ncm hk (nonce ++ ct)) = 67 + calc_padded_len (blen pt).
Proof.
  intros NC B L N1 N2 E. unfold nip44_encrypt in E.
  apply bind_ok in E as (padded & P & E).
  destruct (nce sk pk nonce padded) as [[ct hk]|] eqn:C; [|discriminate].
  assert (TE : text = enc ([2] ++ nonce ++ ct ++ ncm hk (nonce ++ ct))) by (injection E; auto).
  subst text. exists padded, ct, hk.
  destruct (ncc_maclen _ _ _ _ _ NC hk (nonce ++ ct)) as (M1 & M2).
  assert (BY : bytes_ok ([2] ++ nonce ++ ct ++ ncm hk (nonce ++ ct))).
  { apply Forall_app_iff. split; [constructor; [unfold byte_ok; lia|constructor]|].
    apply Forall_app_iff. split; [exact N2|].
    apply Forall_app_iff. split; [eapply ncc_bytes; eassumption|exact M2]. }
  split; [exact P|]. split; [exact C|].
  split; [apply (b64_rt _ _ B); exact BY|]. split.
  - set (w := [2] ++ nonce ++ ct ++ ncm hk (nonce ++ ct)) in *.
    destruct (enc w) eqn:T; [reflexivity|].
    apply N.eqb_neq. eapply (b64_nohash _ _ B); eassumption.
  - rewrite !blen_app. apply pad_length in P as (_ & P); [|exact L].
    pose proof (ncc_len _ _ _ _ _ NC _ _ _ _ _ _ C) as CL.
    unfold blen in *. rewrite CL, M1, N1. cbn [length]. lia.
Qed.

(** Too-long plaintexts are encrypted but can never be decrypted. *)
Lemma decrypt_rejects_large nce ncm ncv ncd mt enc dec l l' sa pb sb pa nonce pt text :
  nc_contract nce ncm ncv ncd mt -> b64_contract enc dec ->
  limits_ok l -> length nonce = 32%nat -> bytes_ok nonce -> 61440 < blen pt ->
  nip44_encrypt nce ncm enc l sa pb (Some nonce) pt = Ok text ->
  nip44_decrypt ncv ncd dec l' sb pa text = Err EInvalidParam.
Proof.
  intros NC B L N1 N2 G E.
  destruct (encrypt_shape _ _ _ _ _ _ _ _ _ _ _ _ _ NC B L N1 N2 E)
    as (padded & ct & hk & P & C & D & H & Len).
  apply pad_length in P as (R & _); [|exact L]. destruct L as (L1 & L2 & L3).
  rewrite calc_large in Len by lia.
  unfold nip44_decrypt. rewrite H, D, Len. reflexivity.
Qed.

(** A toy cipher that satisfies the contract, for the existence claims. *)
Definition toy_mac (hk d : list N) : list N := repeat 7 32.
Definition toy_verify (sk pk n d m : list N) : bool := beq m (repeat 7 32).
Definition toy_dec (sk pk n d : list N) : option (list N) := Some d.

(** The real base64 satisfies the codec contract (on byte strings). *)
Lemma base64_contract : b64_contract b64_encode b64_decode.
Proof.
  constructor.
  - apply b64_roundtrip.
  - intros l c r Hb E. eapply b64_encode_head; eassumption.
Qed.

(** A cipher meeting the contract exists, for byte data. *)
Definition toy_enc8 (sk pk n d : list N) : option (list N * list N) :=
  if forallb (fun b => b <? 256) d then Some (d, []) else None.
Lemma toy_contract : nc_contract toy_enc8 toy_mac toy_verify toy_dec (fun _ _ _ _ => True).
Proof.
  assert (T : forall sk pk n d ct hk, toy_enc8 sk pk n d = Some (ct, hk) -> ct = d /\ bytes_ok d).
  { unfold toy_enc8. intros sk pk n d ct hk H. destruct (forallb _ d) eqn:F; [|discriminate].
    injection H as -> _. split; [reflexivity|]. apply Forall_forall. intros b Hb.
    rewrite forallb_forall in F. apply F in Hb. apply N.ltb_lt in Hb. exact Hb. }
  constructor; intros.
  - apply T in H as (-> & _). reflexivity.
  - apply T in H as (-> & ?). assumption.
  - split; [reflexivity|]. apply Forall_repeat. unfold byte_ok. lia.
  - unfold toy_verify, toy_mac. apply beq_refl.
  - apply T in H0 as (-> & _). reflexivity.
Qed.

(** Plaintexts beyond 61440 bytes are accepted by encryption and never decrypt. *)
Theorem C11_large_never_decrypts : forall nce ncm ncv ncd mt enc dec sa pb sb pa nonce pt text,
  nc_contract nce ncm ncv ncd mt -> b64_contract enc dec ->
  length nonce = 32%nat -> bytes_ok nonce -> 61440 < blen pt ->
  nip44_encrypt nce ncm enc default_limits sa pb (Some nonce) pt = Ok text ->
  nip44_decrypt ncv ncd dec default_limits sb pa text = Err EInvalidParam.
Proof.
  intros. eapply decrypt_rejects_large; try eassumption. unfold limits_ok; cbn; lia.
Qed.

(** Encryption does accept such plaintexts. *)
Theorem C11_large_accepted : forall nce ncm enc sk pk nonce pt,
  (forall d, bytes_ok d -> nce sk pk nonce d <> None) -> bytes_ok pt -> 61440 < blen pt <= 65535 ->
  exists text, nip44_encrypt nce ncm enc default_limits sk pk (Some nonce) pt = Ok text.
Proof.
  intros nce ncm enc sk pk nonce pt H B R. unfold nip44_encrypt.
  pose proof (pad_ok default_limits pt ltac:(unfold limits_ok; cbn; lia) ltac:(cbn [default_limits lim_min lim_max]; lia)) as P.
  rewrite P. apply pad_bytes in P; [|exact B].
  cbn [bind]. set (p := _ ++ _ ++ _) in *. specialize (H p P).
  destruct (nce sk pk nonce p) as [[ct hk]|]; [|congruence]. eexists. reflexivity.
Qed.

(** Full statement (false): whatever encryption accepts, decryption returns. *)
Theorem C11_roundtrip_refuted :
  ~ (forall nce ncm ncv ncd mt enc dec sa pb sb pa nonce pt text,
       nc_contract nce ncm ncv ncd mt -> b64_contract enc dec -> mt sa pb sb pa ->
       length nonce = 32%nat -> bytes_ok nonce -> bytes_ok pt ->
       nip44_encrypt nce ncm enc default_limits sa pb (Some nonce) pt = Ok text ->
       nip44_decrypt ncv ncd dec default_limits sb pa text = Ok pt).
Proof.
  intros H.
  assert (X : exists pt, blen pt = 61441 /\ bytes_ok pt).
  { exists (repeat 65 (N.to_nat 61441)). split; [apply blen_repeat|].
    apply Forall_repeat. unfold byte_ok. lia. }
  destruct X as (pt & B & BP).
  assert (BN : bytes_ok (repeat 9 32)) by (apply Forall_repeat; unfold byte_ok; lia).
  assert (D : limits_ok default_limits) by (unfold limits_ok; cbn; lia).
  assert (E : exists text, nip44_encrypt toy_enc8 toy_mac b64_encode default_limits [] []
            (Some (repeat 9 32)) pt = Ok text).
  { unfold nip44_encrypt. rewrite (pad_ok _ _ D) by (cbn [default_limits lim_min lim_max]; lia).
    pose proof (pad_ok _ pt D ltac:(cbn [default_limits lim_min lim_max]; lia)) as P.
    apply pad_bytes in P; [|exact BP].
    cbn [bind]. set (w := _ ++ _ ++ _) in *. unfold toy_enc8.
    replace (forallb (fun b => b <? 256) w) with true; [eexists; reflexivity|].
    symmetry. apply forallb_forall. intros b Hb. apply N.ltb_lt.
    exact (proj1 (Forall_forall _ _) P b Hb). }
  destruct E as (text & E).
  pose proof (H _ _ _ _ _ _ _ [] [] [] [] (repeat 9 32) pt text toy_contract base64_contract I eq_refl BN BP E) as R.
  rewrite (C11_large_never_decrypts _ _ _ _ _ _ _ [] [] [] [] (repeat 9 32) pt text toy_contract base64_contract
             eq_refl BN ltac:(rewrite B; lia) E) in R.
  discriminate.
Qed.

(** Strongest true part: every plaintext of at most 61440 bytes comes back. *)
Theorem C11_roundtrip_partial : forall nce ncm ncv ncd mt enc dec l sa pb sb pa nonce pt text,
  nc_contract nce ncm ncv ncd mt -> b64_contract enc dec -> mt sa pb sb pa ->
  1 <= lim_min l -> lim_min l <= lim_max l -> lim_max l <= 65535 ->
  length nonce = 32%nat -> bytes_ok nonce -> bytes_ok pt ->
  nip44_encrypt nce ncm enc l sa pb (Some nonce) pt = Ok text ->
  nip44_decrypt ncv ncd dec l sb pa text =
    if blen pt <=? 61440 then Ok pt else Err EInvalidParam.
Proof.
  intros nce ncm ncv ncd mt enc dec l sa pb sb pa nonce pt text NC B MT L1 L2 L3 N1 N2 Hb E.
  assert (L : limits_ok l) by (unfold limits_ok; lia).
  destruct (N.leb_spec (blen pt) 61440) as [G|G];
    [|eapply decrypt_rejects_large; eassumption].
  destruct (encrypt_shape _ _ _ _ _ _ _ _ _ _ _ _ _ NC B L N1 N2 E)
    as (padded & ct & hk & P & C & D & H & Len).
  pose proof (pad_length _ _ _ L P) as (R & PL).
  pose proof (calc_small (blen pt) ltac:(lia) G) as S1.
  pose proof (calc_bounds (blen pt) ltac:(lia)) as S2.
  unfold nip44_decrypt. rewrite H, D, Len.
  replace (67 + calc_padded_len (blen pt) <? 97) with false by (symmetry; apply N.ltb_ge; lia).
  replace (65600 <? 67 + calc_padded_len (blen pt)) with false by (symmetry; apply N.ltb_ge; lia).
  cbn [orb].
  destruct (ncc_maclen _ _ _ _ _ NC hk (nonce ++ ct)) as (M1 & _).
  set (mac := ncm hk (nonce ++ ct)) in *.
  assert (LP : length ([2] ++ nonce ++ ct ++ mac) = (65 + length ct)%nat)
    by (rewrite !app_length, M1, N1; cbn [length]; lia).
  cbn [app] in LP |- *. change (2 =? 2) with true. cbn [negb].
  rewrite LP.
  rewrite (firstn_app_exact nonce) by (symmetry; exact N1).
  rewrite (skipn_app_exact nonce) by (symmetry; exact N1).
  rewrite (firstn_app_exact ct) by lia.
  replace (skipn (65 + length ct - 32) (2 :: nonce ++ ct ++ mac)) with mac.
  2:{ replace (2 :: nonce ++ ct ++ mac) with ((2 :: nonce ++ ct) ++ mac)
        by (cbn [app]; rewrite <- app_assoc; reflexivity).
      symmetry. apply skipn_app_exact. cbn [length]. rewrite app_length, N1. lia. }
  unfold mac. rewrite (ncc_verify _ _ _ _ _ NC _ _ _ _ _ _ _ _ MT C). cbn [negb].
  rewrite (ncc_decrypt _ _ _ _ _ NC _ _ _ _ _ _ _ _ MT C).
  destruct (C10_pad_unpad l pt L1 L3 Hb R) as (buf & P' & _ & _ & _ & U).
  rewrite P in P'. injection P' as ->. exact U.
Qed.

(** Nothing is released unless the authentication tag over nonce and
    ciphertext verified under the given keys. *)
Theorem C11_decrypt_authenticated : forall ncv ncd dec l sk pk text pt,
  nip44_decrypt ncv ncd dec l sk pk text = Ok pt ->
  exists nonce ct mac padded,
    dec text = Some (2 :: nonce ++ ct ++ mac) /\ length nonce = 32%nat /\ length mac = 32%nat /\
    ncv sk pk nonce (nonce ++ ct) mac = true /\
    ncd sk pk nonce ct = Some padded /\ unpad_plaintext l padded = Ok pt.
Proof.
  intros ncv ncd dec l sk pk text pt E. unfold nip44_decrypt in E.
  destruct (match text with c :: _ => c =? 35 | [] => false end); [discriminate|].
  destruct (dec text) as [payload|]; [|discriminate].
  destruct (N.ltb_spec (blen payload) 97); [discriminate|].
  destruct (65600 <? blen payload); [discriminate|]. cbn [orb] in E.
  destruct payload as [|v rest]; [discriminate|].
  destruct (N.eqb_spec v 2) as [->|]; cbn [negb] in E; [|discriminate].
  set (nonce := firstn 32 rest) in *.
  set (ct := firstn (length (2 :: rest) - 65) (skipn 32 rest)) in *.
  set (mac := skipn (length (2 :: rest) - 32) (2 :: rest)) in *.
  destruct (ncv sk pk nonce (nonce ++ ct) mac) eqn:V; [|discriminate]. cbn [negb] in E.
  destruct (ncd sk pk nonce ct) as [padded|] eqn:D; [|discriminate].
  assert (Len : (97 <= length (2%N :: rest))%nat) by (unfold blen in *; lia).
  cbn [length] in Len.
  exists nonce, ct, mac, padded.
  assert (M : mac = skipn (length rest - 64) (skipn 32 rest)).
  { rewrite skipn_add. unfold mac. cbn [length].
    replace (S (length rest) - 32)%nat with (S (length rest - 32)) by lia.
    change (skipn (length rest - 32) rest = skipn (32 + (length rest - 64)) rest). f_equal. lia. }
  repeat split; auto.
  - f_equal. f_equal. rewrite M. unfold nonce, ct. cbn [length].
    replace (S (length rest) - 65)%nat with (length rest - 64)%nat by lia.
    rewrite firstn_skipn, firstn_skipn. reflexivity.
  - unfold nonce. rewrite firstn_length. lia.
  - rewrite M, !skipn_length. lia.
Qed.

Example C11_case :
  exists text,
    nip44_encrypt toy_enc8 toy_mac b64_encode default_limits [] [] (Some (repeat 9 32)) (bs "hello") = Ok text /\
    nip44_decrypt toy_verify toy_dec b64_decode default_limits [] [] text = Ok (bs "hello").
Proof. eexists. split; vm_compute; reflexivity. Qed.

(** ** C12: releases on every path *)

(** Full statement (false): an empty first part makes BIO_read return 0; the
    decoder releases its buffer and the caller releases it again. *)
Theorem C12_nip04_decrypt_clean_refuted :
  exists o, o_read1 o = 0%Z /\ nip04_decrypt o hempty = Undef.
Proof.
  exists (mkOut04 true true true 0 true 16 true true true true (Some 16) (Some 0) true).
  split; [reflexivity|]. vm_compute. reflexivity.
Qed.

(** Exactly when it happens, and a clean exit in every other case. *)
Theorem C12_nip04_decrypt_clean_partial : forall o,
  (-1 <= o_read1 o < 2 ^ 31)%Z -> (-1 <= o_read2 o < 2 ^ 31)%Z ->
  evp_contract (o_read1 o) (o_update o) (o_final o) ->
  (nip04_decrypt o hempty = Undef <->
   o_dup o = true /\ o_marker o = true /\ o_alloc1 o = true /\
   (o_read1 o = 0%Z \/ (o_alloc2 o = true /\ o_read2 o = 0%Z))) /\
  (nip04_decrypt o hempty <> Undef -> clean_exit (nip04_decrypt o hempty)).
Proof.
  intros o R1 R2 (EC0 & EC1 & EC2).
  destruct o as [dup marker a1 r1 a2 r2 ecdh ctx init a3 upd fin a4]; cbn [o_dup o_marker o_alloc1
    o_read1 o_alloc2 o_read2 o_ecdh o_ctx o_init o_alloc3 o_update o_final o_alloc4] in *.
  assert (Z1 : (Z.to_N (r1 mod 2 ^ 64) =? 0) = (r1 =? 0)%Z).
  { destruct (Z.eqb_spec r1 0) as [->|G]; [reflexivity|]. apply N.eqb_neq.
    pose proof (Z.mod_pos_bound r1 (2 ^ 64) ltac:(reflexivity)).
    assert (r1 mod 2 ^ 64 <> 0)%Z; [|lia].
    intros E. apply Z.mod_divide in E; [|discriminate]. destruct E as (q & E). lia. }
  assert (Z2 : (Z.to_N (r2 mod 2 ^ 64) =? 0) = (r2 =? 0)%Z).
  { destruct (Z.eqb_spec r2 0) as [->|G]; [reflexivity|]. apply N.eqb_neq.
    pose proof (Z.mod_pos_bound r2 (2 ^ 64) ltac:(reflexivity)).
    assert (r2 mod 2 ^ 64 <> 0)%Z; [|lia].
    intros E. apply Z.mod_divide in E; [|discriminate]. destruct E as (q & E). lia. }
  assert (CAP : forall n, upd <> None -> (Z.of_N n <= r1 + 16)%Z ->
            (n <=? (Z.to_N (r1 mod 2 ^ 64) + 16) mod 2 ^ 64) = true).
  { intros n U G. apply N.leb_le. specialize (EC0 U).
    rewrite Z.mod_small by lia. rewrite N.mod_small; [lia|].
    change (2 ^ 64) with 18446744073709551616. lia. }
  destruct dup; [|split; [split; [discriminate|intros (? & _); discriminate]|reflexivity]].
  destruct marker; [|split; [split; [discriminate|intros (_ & ? & _); discriminate]|reflexivity]].
  destruct a1; [|split; [split; [discriminate|intros (_ & _ & ? & _); discriminate]|reflexivity]].
  unfold nip04_decrypt, base64_decode_heap, mbind, hmalloc, huse.
  cbn [o_dup o_marker o_alloc1 o_read1 h_next h_live hempty negb existsb Nat.eqb orb].
  rewrite Z1.
  destruct (Z.eqb_spec r1 0) as [->|N1].
  { split; [split; [intros _; auto|intros _; reflexivity]|]. intros H. exfalso. apply H. reflexivity. }
  cbn -[N.eqb N.leb N.modulo N.add Z.to_N Z.modulo N.pow Z.pow].
  destruct a2.
  2:{ split; [split; [discriminate|intros (_ & _ & _ & [?|(? & _)]); [contradiction|discriminate]]|reflexivity]. }
  cbn -[N.eqb N.leb N.modulo N.add Z.to_N Z.modulo N.pow Z.pow].
  rewrite Z2. destruct (Z.eqb_spec r2 0) as [->|N2].
  { split; [split; [intros _; auto 10|intros _; reflexivity]|]. intros H. exfalso. apply H. reflexivity. }
  match goal with |- (?r = Undef <-> _) /\ _ =>
    assert (K : clean_exit r);
    [|split; [split; [intros U; rewrite U in K; destruct K
                     |intros (_ & _ & _ & [?|(_ & ?)]); contradiction]|auto]]
  end.
  cbn -[N.eqb N.leb N.modulo N.add Z.to_N Z.modulo N.pow Z.pow].
  destruct (Z.to_N (r2 mod 2 ^ 64) =? 16);
    cbn -[N.eqb N.leb N.modulo N.add Z.to_N Z.modulo N.pow Z.pow]; [|reflexivity].
  destruct ecdh; [|reflexivity]. cbn -[N.eqb N.leb N.modulo N.add Z.to_N Z.modulo N.pow Z.pow].
  destruct ctx; [|reflexivity]. cbn -[N.eqb N.leb N.modulo N.add Z.to_N Z.modulo N.pow Z.pow].
  destruct init; [|reflexivity]. cbn -[N.eqb N.leb N.modulo N.add Z.to_N Z.modulo N.pow Z.pow].
  destruct a3; [|reflexivity]. cbn -[N.eqb N.leb N.modulo N.add Z.to_N Z.modulo N.pow Z.pow].
  destruct upd as [n1|]; [|reflexivity]. cbn -[N.eqb N.leb N.modulo N.add Z.to_N Z.modulo N.pow Z.pow].
  unfold hassert. rewrite CAP; [|discriminate|apply EC1; reflexivity].
  destruct fin as [n2|]; [|reflexivity]. cbn -[N.eqb N.leb N.modulo N.add Z.to_N Z.modulo N.pow Z.pow].
  rewrite CAP; [|discriminate|apply EC2; reflexivity].
  destruct a4; reflexivity.
Qed.

(** A successful decryption is one of the clean cases. *)
Example C12_case :
  clean_exit (nip04_decrypt (mkOut04 true true true 32 true 16 true true true true (Some 16) (Some 9) true) hempty) /\
  evp_contract 32 (Some 16) (Some 9).
Proof.
  split; [reflexivity|]. split; [lia|]. split; intros; [injection H as <-|injection H as <-; injection H0 as <-]; lia.
Qed.

(** The other three entry points of the file are clean on every path. *)
Theorem C12_nip44_decrypt_clean : forall o, clean_exit (nip44_decrypt_heap o hempty).
Proof.
  intros [a1 rd v a2 mc a3 pr dc un a4 a5].
  unfold nip44_decrypt_heap, base64_decode_heap.
  destruct a1; [|reflexivity].
  cbn -[N.eqb N.ltb Z.to_N Z.modulo Z.pow].
  destruct (Z.to_N (rd mod 2 ^ 64) =? 0); [reflexivity|].
  cbn -[N.eqb N.ltb Z.to_N Z.modulo Z.pow].
  destruct (_ || _); [reflexivity|].
  destruct v; [|reflexivity]. destruct a2; [|reflexivity]. destruct mc; [|reflexivity].
  destruct a3; [|reflexivity]. destruct pr; [|reflexivity]. destruct dc; [|reflexivity].
  destruct un; [|reflexivity]. destruct a4; [|reflexivity]. destruct a5; reflexivity.
Qed.

Theorem C12_nip44_encrypt_clean : forall o, clean_exit (nip44_encrypt_heap o hempty).
Proof.
  intros [r p a1 a2 pr en a3 mc a4 a5].
  destruct r; [|reflexivity]. destruct p; [|reflexivity]. destruct a1; [|reflexivity].
  destruct a2; [|reflexivity]. destruct pr; [|reflexivity]. destruct en; [|reflexivity].
  destruct a3; [|reflexivity]. destruct mc; [|reflexivity]. destruct a4; [|reflexivity].
  destruct a5; reflexivity.
Qed.

Theorem C12_nip04_encrypt_clean : forall o,
  evp_contract (Z.of_N (f_len o)) (f_update o) (f_final o) ->
  clean_exit (nip04_encrypt o hempty).
Proof.
  intros [e r c i n a1 upd fin a2 a3 a4] (E0 & E1 & E2); cbn [f_len f_update f_final] in *.
  destruct e; [|reflexivity]. destruct r; [|reflexivity]. destruct c; [|reflexivity].
  destruct i; [|reflexivity]. destruct a1; [|reflexivity].
  destruct upd as [n1|]; [|reflexivity].
  unfold nip04_encrypt. cbn -[N.leb N.add]. unfold hassert.
  replace (n1 <=? n + 16) with true
    by (symmetry; apply N.leb_le; specialize (E1 n1 eq_refl); lia).
  destruct fin as [n2|]; [|reflexivity]. cbn -[N.leb N.add].
  replace (n1 + n2 <=? n + 16) with true
    by (symmetry; apply N.leb_le; specialize (E2 n1 n2 eq_refl eq_refl); lia).
  destruct a2; [|reflexivity]. destruct a3; [|reflexivity]. destruct a4; reflexivity.
Qed.

Print Assumptions C09_padded_length_refuted.
Print Assumptions C09_padded_length_partial.
Print Assumptions C10_pad_unpad.
Print Assumptions C10_pad_rejects.
Print Assumptions C10_unpad_exact.
Print Assumptions C10_unpad_rejects.
Print Assumptions C11_roundtrip_refuted.
Print Assumptions C11_large_accepted.
Print Assumptions C11_large_never_decrypts.
Print Assumptions C11_roundtrip_partial.
Print Assumptions C11_decrypt_authenticated.
Print Assumptions C12_nip04_decrypt_clean_refuted.
Print Assumptions C12_nip04_decrypt_clean_partial.
Print Assumptions C12_nip44_decrypt_clean.
Print Assumptions C12_nip44_encrypt_clean.
Print Assumptions C12_nip04_encrypt_clean.
