(** C178: encrypted messages are those of NIP-44. *)
From Verif Require Import Base BaseFacts Nip21 Heap Nip44 Nip44Spec Nip44Proofs Nip44Props Base64 KeyPair Nip44TextSpec.
From Verif Require EcdhSpec EcdhProps.
Open Scope N_scope.

Lemma common_agree n : 1 <= n < 65536 -> (common_length n <-> calc_padded_len n = nip44_spec_padded n).
Proof.
  intros H. unfold common_length. destruct (N.le_gt_cases n 256).
  - split; [|left; assumption]. intros _. apply small_agree. lia.
  - rewrite calc_vs_spec by lia. split; [intros [?|?]; [lia|assumption]|right; assumption].
Qed.

Lemma spec_at_least n : 1 <= n < 65536 -> n <= nip44_spec_padded n.
Proof.
  intros H. unfold nip44_spec_padded. destruct (N.leb_spec n 32); [lia|]. cbv zeta.
  match goal with |- _ <= ?x * _ => set (c := x) end.
  assert (0 < c).
  { unfold c. destruct (N.leb_spec (N.shiftl 1 (N.log2 (n - 1) + 1)) 256) as [|G]; [lia|].
    apply N.div_str_pos. lia. }
  pose proof (N.div_mod (n - 1) c ltac:(lia)). pose proof (N.mod_lt (n - 1) c ltac:(lia)).
  set (q := (n - 1) / c) in *. nia.
Qed.

Lemma padded_len m : 1 <= blen m < 65536 -> blen (padded m) = 2 + nip44_spec_padded (blen m).
Proof.
  intros H. pose proof (spec_at_least _ H). unfold padded. cbn [app]. rewrite !blen_cons, blen_app, blen_repeat. lia.
Qed.

Lemma padded_bytes m : 1 <= blen m < 65536 -> bytes_ok m -> bytes_ok (padded m).
Proof.
  intros H B. unfold padded. cbn [app]. constructor; [|constructor; [apply N.mod_lt; discriminate|]].
  - unfold byte_ok. apply N.div_lt_upper_bound; lia.
  - apply Forall_app. split; [exact B|]. apply Forall_repeat. reflexivity.
Qed.

Section Text.
Variable P : prims.
Variable nce : list N -> list N -> list N -> list N -> option (list N * list N).
Variable ncm : list N -> list N -> list N.
Variable ncv : list N -> list N -> list N -> list N -> list N -> bool.
Variable ncd : list N -> list N -> list N -> list N -> option (list N).
Variable dec : list N -> option (list N).
Hypothesis PO : prims_ok P.
Hypothesis NC : noscrypt44 P nce ncm ncv ncd.
Hypothesis B64 : b64_contract (base64 P) dec.

(** Which padding lengths agree decides what the library writes: its text is
    the one of NIP-44 exactly at the common lengths. *)
Theorem C178_written_partial : forall l sk pk nonce m t,
  1 <= lim_min l -> lim_min l <= lim_max l -> lim_max l <= 65535 ->
  length nonce = 32%nat -> bytes_ok nonce -> bytes_ok m ->
  nip44_encrypt nce ncm (base64 P) l sk pk (Some nonce) m = Ok t ->
  (nip44_text P sk pk nonce m t <-> common_length (blen m)).
Proof.
  intros l sk pk nonce m t L1 L2 L3 N1 N2 Bm E.
  assert (L : limits_ok l) by (unfold limits_ok; lia).
  unfold nip44_encrypt in E. apply bind_ok in E as (pd & PD & E).
  pose proof (pad_length _ _ _ L PD) as (R & PL).
  assert (H : 1 <= blen m < 65536) by lia.
  pose proof (pad_bytes _ _ _ Bm PD) as PB.
  rewrite (pad_ok l m L R) in PD.
  rewrite (n_enc _ _ _ _ _ NC) in E. destruct (shared P sk pk) as [x|] eqn:X; [|discriminate]. cbn [option_map] in E.
  rewrite (n_mac _ _ _ _ _ NC) in E.
  rewrite common_agree by exact H.
  set (keys := message_keys P x nonce) in *.
  assert (T : t = base64 P ([2] ++ nonce ++ cipher P keys pd ++ tag P keys (nonce ++ cipher P keys pd))) by (unfold tag; cbv zeta in E; congruence).
  split.
  - intros (x' & X' & T'). cbv zeta in T'. assert (x' = x) as -> by congruence. fold keys in T'.
    assert (BY : forall d, bytes_ok d -> bytes_ok ([2] ++ nonce ++ cipher P keys d ++ tag P keys (nonce ++ cipher P keys d))).
    { intros d Bd. unfold bytes_ok. rewrite !Forall_app. split; [repeat constructor|]. split; [exact N2|].
      split; [apply (p_bytes P PO), Bd|apply (p_mac P PO)]. }
    rewrite T in T'. apply (f_equal dec) in T'.
    rewrite !(b64_rt _ _ B64) in T' by (apply BY; auto using padded_bytes).
    assert (T2 : [2] ++ nonce ++ cipher P keys pd ++ tag P keys (nonce ++ cipher P keys pd) =
                 [2] ++ nonce ++ cipher P keys (padded m) ++ tag P keys (nonce ++ cipher P keys (padded m))) by congruence.
    apply (f_equal (@length N)) in T2. rewrite !app_length in T2.
    unfold tag in T2. rewrite !(proj1 (p_mac P PO _ _)) in T2. unfold cipher in T2. rewrite !(p_len P PO) in T2.
    pose proof (padded_len m H) as Q. unfold blen in *. lia.
  - intros A. exists x. split; [exact X|]. cbv zeta. fold keys. rewrite T.
    assert (pd = padded m) as -> by (unfold padded; rewrite <- A; congruence). reflexivity.
Qed.

(** What another program wrote for [sb] is read, or refused, by its length. *)
Theorem C178_read_partial : forall l sa pb sb pa nonce m t,
  1 <= lim_min l -> lim_min l <= lim_max l -> lim_max l <= 65535 -> blen m <= lim_max l ->
  length nonce = 32%nat -> bytes_ok nonce -> bytes_ok m -> 1 <= blen m ->
  shared P sa pb = shared P sb pa ->
  nip44_text P sa pb nonce m t ->
  (nip44_decrypt ncv ncd dec l sb pa t = Ok m <-> common_length (blen m) /\ blen m <= 61440) /\
  (nip44_decrypt ncv ncd dec l sb pa t = Ok m \/ nip44_decrypt ncv ncd dec l sb pa t = Err EInvalidParam).
Proof.
  intros l sa pb sb pa nonce m t L1 L2 L3 LM N1 N2 Bm M1 SH (x & X & T). cbv zeta in T.
  assert (L : limits_ok l) by (unfold limits_ok; lia).
  assert (H : 1 <= blen m < 65536) by lia.
  set (keys := message_keys P x nonce) in *. set (ct := cipher P keys (padded m)) in *.
  set (mac := tag P keys (nonce ++ ct)) in *.
  pose proof (padded_bytes m H Bm) as PB. pose proof (padded_len m H) as PL.
  assert (LC : length ct = length (padded m)) by apply (p_len P PO).
  assert (LMAC : length mac = 32%nat) by apply (p_mac P PO).
  assert (BY : bytes_ok ([2] ++ nonce ++ ct ++ mac)).
  { unfold bytes_ok. rewrite !Forall_app. split; [repeat constructor|]. split; [exact N2|].
    split; [apply (p_bytes P PO), PB|apply (p_mac P PO)]. }
  assert (HASH : match t with c :: _ => c =? 35 | [] => false end = false).
  { destruct t as [|c r]; [reflexivity|]. symmetry in T. apply (b64_nohash _ _ B64 _ c r BY) in T. apply N.eqb_neq. exact T. }
  assert (LEN : blen ([2] ++ nonce ++ ct ++ mac) = 67 + nip44_spec_padded (blen m)).
  { unfold blen in *. rewrite !app_length, LMAC, N1, LC. cbn [length]. lia. }
  pose proof (spec_at_least _ H) as SA.
  assert (SP : 32 <= nip44_spec_padded (blen m)).
  { destruct (N.leb_spec (blen m) 32) as [G|G]; [|lia]. unfold nip44_spec_padded.
    replace (blen m <=? 32) with true by (symmetry; apply N.leb_le; lia). lia. }
  unfold nip44_decrypt. rewrite HASH, T, (b64_rt _ _ B64 _ BY), LEN.
  replace (67 + nip44_spec_padded (blen m) <? 97) with false by (symmetry; apply N.ltb_ge; lia). cbn [orb].
  destruct (N.ltb_spec 65600 (67 + nip44_spec_padded (blen m))) as [G|G].
  - split; [|right; reflexivity]. split; [discriminate|]. intros (C & S). exfalso.
    apply common_agree in C; [|exact H]. pose proof (calc_small (blen m) ltac:(lia) S). lia.
  - assert (LP : length ([2] ++ nonce ++ ct ++ mac) = (65 + length ct)%nat)
      by (rewrite !app_length, LMAC, N1; cbn [length]; lia).
    cbn [app] in LP |- *. change (2 =? 2) with true. cbn [negb]. rewrite LP.
    rewrite (firstn_app_exact nonce) by (symmetry; exact N1).
    rewrite (skipn_app_exact nonce) by (symmetry; exact N1).
    rewrite (firstn_app_exact ct) by lia.
    replace (skipn (65 + length ct - 32) (2 :: nonce ++ ct ++ mac)) with mac.
    2:{ replace (2 :: nonce ++ ct ++ mac) with ((2 :: nonce ++ ct) ++ mac)
          by (cbn [app]; rewrite <- app_assoc; reflexivity).
        symmetry. apply skipn_app_exact. cbn [length]. rewrite app_length, N1. lia. }
    assert (V : ncv sb pa nonce (nonce ++ ct) mac = true)
      by (apply (n_ver _ _ _ _ _ NC); exists x; split; [congruence|reflexivity]).
    rewrite V. cbn [negb]. rewrite (n_dec _ _ _ _ _ NC), <- SH, X. cbn [option_map]. fold keys.
    replace (cipher P keys ct) with (padded m) by (symmetry; apply (p_twice P PO), PB).
    assert (U : unpad_plaintext l (padded m) = Ok m <-> calc_padded_len (blen m) = nip44_spec_padded (blen m)).
    { rewrite unpad_char by assumption. split.
      - intros (hi & lo & tl & _ & _ & _ & E). lia.
      - intros E. exists (blen m / 256), (blen m mod 256), (repeat 0 (N.to_nat (nip44_spec_padded (blen m) - blen m))).
        split; [reflexivity|]. split; [pose proof (N.div_mod (blen m) 256 ltac:(lia)); lia|]. lia. }
    split.
    + rewrite U, common_agree by exact H. split; [|tauto]. intros E. split; [exact E|].
      destruct (N.le_gt_cases (blen m) 61440) as [|S]; [assumption|].
      rewrite calc_large in E by lia. lia.
    + destruct (N.eq_dec (calc_padded_len (blen m)) (nip44_spec_padded (blen m))) as [E|E]; [left; apply U, E|right].
      unfold padded at 1. cbn [app]. unfold unpad_plaintext.
      assert (ML : N.lor (N.shiftl (blen m / 256) 8) (blen m mod 256) mod 2 ^ 16 = blen m).
      { rewrite lor_bytes by (apply N.mod_lt; discriminate).
        rewrite N.mod_small; pose proof (N.div_mod (blen m) 256 ltac:(lia)); [lia|]. change (2 ^ 16) with 65536. lia. }
      rewrite ML. destruct (_ || _)%bool; [reflexivity|].
      fold (padded m). change (blen m / 256 :: blen m mod 256 :: m ++ repeat 0 (N.to_nat (nip44_spec_padded (blen m) - blen m))) with (padded m).
      rewrite PL. replace (_ =? _) with false by (symmetry; apply N.eqb_neq; lia). reflexivity.
Qed.

(** With the curve: both derive the same secret. *)
Lemma shared_agree c a b pa pb : EcdhSpec.curve_ok c -> EcdhSpec.noscrypt_ok c (shared P) ->
  EcdhSpec.public c a pa -> EcdhSpec.public c b pb -> shared P a pb = shared P b pa.
Proof.
  intros K NS A B.
  destruct (EcdhProps.C137_agree c K (shared P) a b pa pb NS A B) as (s & E1 & E2 & _).
  destruct (EcdhProps.stands_public c K b pb B) as (p & Sp & _).
  destruct (EcdhProps.stands_public c K a pa A) as (q & Sq & _).
  pose proof (EcdhSpec.nc_gives c _ NS a pb p (proj1 A) Sp) as G1.
  pose proof (EcdhSpec.nc_gives c _ NS b pa q (proj1 B) Sq) as G2.
  unfold key_ecdh in E1, E2. rewrite G1 in E1. rewrite G2 in E2. rewrite G1, G2. f_equal.
  rewrite firstn_all2 in E1 by (rewrite (EcdhSpec.c_len c K) by (apply (EcdhSpec.c_mul c K); [apply A|apply Sp]); lia).
  rewrite firstn_all2 in E2 by (rewrite (EcdhSpec.c_len c K) by (apply (EcdhSpec.c_mul c K); [apply B|apply Sq]); lia).
  congruence.
Qed.

(** Whoever holds the other private key reads it. *)
Theorem C178_recipient_partial : forall c l a b pa pb nonce m t,
  EcdhSpec.curve_ok c -> EcdhSpec.noscrypt_ok c (shared P) -> EcdhSpec.public c a pa -> EcdhSpec.public c b pb ->
  1 <= lim_min l -> lim_min l <= lim_max l -> lim_max l <= 65535 -> 1 <= blen m <= lim_max l ->
  length nonce = 32%nat -> bytes_ok nonce -> bytes_ok m ->
  nip44_text P a pb nonce m t -> common_length (blen m) -> blen m <= 61440 ->
  nip44_decrypt ncv ncd dec l b pa t = Ok m.
Proof.
  intros c l a b pa pb nonce m t K NS A B L1 L2 L3 M N1 N2 Bm T C S.
  apply (C178_read_partial l a pb b pa nonce m t); auto; try lia. apply (shared_agree c); assumption.
Qed.
End Text.
Print Assumptions C178_written_partial.
Print Assumptions C178_read_partial.
Print Assumptions C178_recipient_partial.

(** A set of primitives: the identity cipher over real base64. *)
Definition plain : prims := mkPrims (fun _ _ => Some []) (fun _ _ => []) (fun _ _ _ => []) (fun _ _ d => d) (fun _ _ => repeat 0 32) b64_encode.
Lemma plain_ok : prims_ok plain.
Proof. constructor; cbn; auto. intros _ _. split; [reflexivity|]. repeat constructor. Qed.
Definition p_enc (sk pk n d : list N) : option (list N * list N) := Some (d, []).
Definition p_hmac (hk d : list N) : list N := repeat 0 32.
Definition p_ver (sk pk n d mac : list N) : bool := beq mac (repeat 0 32).
Definition p_dec (sk pk n d : list N) : option (list N) := Some d.
Lemma plain_nc : noscrypt44 plain p_enc p_hmac p_ver p_dec.
Proof.
  constructor; try reflexivity. intros sk pk n d mac. unfold p_ver. rewrite beq_eq. split.
  - intros ->. exists []. split; reflexivity.
  - intros (x & _ & ->). reflexivity.
Qed.

(** Full statements (false): a message of 400 characters. *)
Theorem C178_written_refuted : ~ (forall P nce ncm ncv ncd dec sk pk nonce m t,
  prims_ok P -> noscrypt44 P nce ncm ncv ncd -> b64_contract (base64 P) dec ->
  length nonce = 32%nat -> bytes_ok nonce -> bytes_ok m ->
  nip44_encrypt nce ncm (base64 P) default_limits sk pk (Some nonce) m = Ok t -> nip44_text P sk pk nonce m t).
Proof.
  intros H.
  assert (BN : bytes_ok (repeat 9 32)) by (apply Forall_repeat; reflexivity).
  assert (BM : bytes_ok (repeat 65 400)) by (apply Forall_repeat; reflexivity).
  assert (E : exists t, nip44_encrypt p_enc p_hmac (base64 plain) default_limits [] [] (Some (repeat 9 32)) (repeat 65 400) = Ok t).
  { unfold nip44_encrypt. rewrite pad_ok; [|unfold limits_ok; cbn; lia|cbn; lia]. eexists. reflexivity. }
  destruct E as (t & E).
  specialize (H plain p_enc p_hmac p_ver p_dec b64_decode [] [] (repeat 9 32) (repeat 65 400) t plain_ok plain_nc base64_contract eq_refl BN BM E).
  apply (C178_written_partial plain p_enc p_hmac p_ver p_dec b64_decode plain_ok plain_nc base64_contract default_limits [] [] (repeat 9 32) (repeat 65 400) t) in H; auto; try (cbn; lia).
  destruct H as [H|H]; [|vm_compute in H; discriminate H].
  change (blen (repeat 65 400)) with 400 in H. lia.
Qed.
Print Assumptions C178_written_refuted.

Theorem C178_read_refuted : ~ (forall P nce ncm ncv ncd dec sa pb sb pa nonce m t,
  prims_ok P -> noscrypt44 P nce ncm ncv ncd -> b64_contract (base64 P) dec ->
  length nonce = 32%nat -> bytes_ok nonce -> bytes_ok m -> 1 <= blen m <= 65535 ->
  shared P sa pb = shared P sb pa -> nip44_text P sa pb nonce m t ->
  nip44_decrypt ncv ncd dec default_limits sb pa t = Ok m).
Proof.
  intros H.
  assert (BN : bytes_ok (repeat 9 32)) by (apply Forall_repeat; reflexivity).
  assert (BM : bytes_ok (repeat 65 400)) by (apply Forall_repeat; reflexivity).
  assert (LB : blen (repeat 65 400) = 400) by reflexivity.
  assert (T : exists t, nip44_text plain [] [] (repeat 9 32) (repeat 65 400) t) by (eexists; exists []; split; reflexivity).
  destruct T as (t & T).
  specialize (H plain p_enc p_hmac p_ver p_dec b64_decode [] [] [] [] (repeat 9 32) (repeat 65 400) t plain_ok plain_nc base64_contract eq_refl BN BM ltac:(rewrite LB; lia) eq_refl T).
  apply (C178_read_partial plain p_enc p_hmac p_ver p_dec b64_decode plain_ok plain_nc base64_contract default_limits [] [] [] [] (repeat 9 32) (repeat 65 400) t) in H; auto; try (cbn; lia).
  destruct H as ([H|H] & _); [|vm_compute in H; discriminate H].
  rewrite LB in H. lia.
Qed.
Print Assumptions C178_read_refuted.

Example C178_meets : exists t, nip44_text plain [1] [2] (repeat 9 32) (repeat 65 300) t /\
  nip44_decrypt p_ver p_dec b64_decode default_limits [2] [1] t = Ok (repeat 65 300) /\
  nip44_encrypt p_enc p_hmac b64_encode default_limits [1] [2] (Some (repeat 9 32)) (repeat 65 300) = Ok t.
Proof.
  assert (BN : bytes_ok (repeat 9 32)) by (apply Forall_repeat; reflexivity).
  assert (BM : bytes_ok (repeat 65 300)) by (apply Forall_repeat; reflexivity).
  assert (LB : blen (repeat 65 300) = 300) by reflexivity.
  assert (CL : common_length (blen (repeat 65 300))) by (right; reflexivity).
  assert (E : exists t, nip44_encrypt p_enc p_hmac (base64 plain) default_limits [1] [2] (Some (repeat 9 32)) (repeat 65 300) = Ok t).
  { unfold nip44_encrypt. rewrite pad_ok; [|unfold limits_ok; cbn; lia|rewrite LB; cbn; lia]. eexists. reflexivity. }
  destruct E as (t & E). exists t.
  assert (T : nip44_text plain [1] [2] (repeat 9 32) (repeat 65 300) t).
  { apply (C178_written_partial plain p_enc p_hmac p_ver p_dec b64_decode plain_ok plain_nc base64_contract default_limits [1] [2] (repeat 9 32) (repeat 65 300) t); auto; cbn; lia. }
  split; [exact T|]. split; [|exact E].
  apply (C178_read_partial plain p_enc p_hmac p_ver p_dec b64_decode plain_ok plain_nc base64_contract default_limits [1] [2] [2] [1] (repeat 9 32) (repeat 65 300) t); auto; try (rewrite ?LB; cbn; lia).
  split; [exact CL|]. rewrite LB. lia.
Qed.

(** The same on the curve of thirteen points. *)
Definition plain13 : prims := mkPrims EcdhProps.shared13 (fun _ x => x) (fun k n _ => k ++ n) (fun _ _ d => d) (fun _ _ => repeat 0 32) b64_encode.
Lemma plain13_ok : prims_ok plain13.
Proof. constructor; cbn; auto. intros _ _. split; [reflexivity|]. repeat constructor. Qed.
Definition e13 (sk pk n d : list N) : option (list N * list N) := option_map (fun x => (d, firstn 32 (skipn 44 (x ++ n)))) (EcdhProps.shared13 sk pk).
Definition v13 (sk pk n d mac : list N) : bool := match EcdhProps.shared13 sk pk with Some _ => beq mac (repeat 0 32) | None => false end.
Definition d13 (sk pk n d : list N) : option (list N) := option_map (fun _ => d) (EcdhProps.shared13 sk pk).
Lemma plain13_nc : noscrypt44 plain13 e13 p_hmac v13 d13.
Proof.
  constructor; try reflexivity. intros sk pk n d mac. unfold v13. cbn [shared plain13].
  destruct (EcdhProps.shared13 sk pk) as [x|].
  - rewrite beq_eq. split; [intros ->; exists x; split; reflexivity|]. intros (y & _ & ->). reflexivity.
  - split; [discriminate|]. intros (y & E & _). discriminate E.
Qed.
Example C178_recipient_meets : exists pa pb t,
  EcdhSpec.public EcdhProps.c13 [5] pa /\ EcdhSpec.public EcdhProps.c13 [6] pb /\
  nip44_text plain13 [5] pb (repeat 9 32) (bs "hello") t /\
  nip44_decrypt v13 d13 b64_decode default_limits [6] pa t = Ok (bs "hello").
Proof.
  exists (repeat 5 32), (repeat 6 32).
  assert (A : EcdhSpec.public EcdhProps.c13 [5] (repeat 5 32)) by (split; [apply EcdhProps.usableb_spec; reflexivity|reflexivity]).
  assert (B : EcdhSpec.public EcdhProps.c13 [6] (repeat 6 32)) by (split; [apply EcdhProps.usableb_spec; reflexivity|reflexivity]).
  assert (T : exists t, nip44_text plain13 [5] (repeat 6 32) (repeat 9 32) (bs "hello") t) by (eexists; eexists; split; [vm_compute; reflexivity|reflexivity]).
  destruct T as (t & T). exists t. split; [exact A|]. split; [exact B|]. split; [exact T|].
  apply (C178_recipient_partial plain13 e13 p_hmac v13 d13 b64_decode plain13_ok plain13_nc base64_contract EcdhProps.c13 default_limits [5] [6] (repeat 5 32) (repeat 6 32) (repeat 9 32) (bs "hello") t
    EcdhProps.c13_ok EcdhProps.noscrypt13 A B); auto; try (cbn; lia).
  - apply Forall_repeat. reflexivity.
  - repeat constructor.
  - left. cbn. lia.
Qed.
