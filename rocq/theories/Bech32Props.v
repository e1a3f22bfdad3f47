(** Property theorems C01-C05 (bech32 key and id strings). *)
From Verif Require Import Base BaseFacts Bech32 Bech32Spec Bech32Proofs Bech32Lemmas2.
Open Scope N_scope.

Definition sample_key : list N := map N.of_nat (seq 200 32).
Example sample_key_ok : bytes32 sample_key.
Proof. split; [reflexivity|repeat constructor]. Qed.

(** C01 *)
Theorem C01_pubkey_bech32_roundtrip : forall key prefix size,
  bytes32 key -> cstr_ok prefix -> (1 <= length prefix <= 31)%nat ->
  (length prefix + 60 <= size)%nat ->
  exists s, key_to_bech32 key prefix size = Ok s /\
            (length s + 1 <= size)%nat /\ (length s <= 90)%nat /\
            key_from_bech32 s = Ok key.
Proof.
  intros key prefix size [L B] Cp Lp S. unfold key_to_bech32.
  destruct (key_data key L B) as (L1 & F1 & _).
  destruct (encode_out_ok prefix key size L B ltac:(lia) S) as (ck & C & E).
  destruct (create_checksum_digits _ _ _ C) as [Fc Lc].
  destruct (Nat.eqb_spec (length prefix) 0); [lia|].
  destruct (Nat.ltb_spec size (length prefix + 1 + 52 + 6 + 1)); [lia|]. cbn [orb].
  rewrite L1. cbn [Nat.eqb]. rewrite E. eexists. split; [reflexivity|].
  rewrite app_length. cbn [length]. rewrite map_length, app_length.
  split; [lia|]. split; [lia|].
  apply key_from_ok.
  - apply Forall_app. split; [apply cstr_bytes; auto|]. constructor; [reflexivity|].
    rewrite Forall_map. apply Forall_forall. intros v _. unfold charset_get.
    destruct (nth_in_or_default (N.to_nat v) charset 0) as [Hn|Hn]; [|rewrite Hn; reflexivity].
    assert (A : forallb (fun c => c <? 256) charset = true) by (vm_compute; reflexivity).
    rewrite forallb_forall in A. apply N.ltb_lt. auto.
  - split; [split; auto|]. exists prefix, ck. repeat split; auto; lia.
Qed.

Theorem C01_privkey_bech32_roundtrip : forall key size,
  bytes32 key -> (64 <= size)%nat ->
  exists s, privkey_to_bech32 key size = Ok s /\ length s = 63%nat /\
            privkey_from_bech32 s = Ok key.
Proof.
  intros key size [L B] S. unfold privkey_to_bech32.
  destruct (key_data key L B) as (L1 & F1 & _).
  destruct (encode_out_ok (bs "nsec") key size L B) as (ck & C & E); [simpl; lia|simpl; lia|].
  destruct (create_checksum_digits _ _ _ C) as [Fc Lc].
  destruct (Nat.ltb_spec size 64); [lia|].
  rewrite L1. cbn [Nat.eqb]. rewrite E. eexists. split; [reflexivity|].
  rewrite app_length. cbn [length]. rewrite map_length, app_length. split; [simpl; lia|].
  apply fixed_from_ok; [reflexivity|apply bytes_bs_nsec|]. split; [split; auto|eauto].
Qed.

Theorem C01_event_id_bech32_roundtrip : forall id size,
  bytes32 id -> (64 <= size)%nat ->
  exists s, event_id_to_bech32 id size = Ok s /\ length s = 63%nat /\
            event_id_from_bech32 s = Ok id.
Proof.
  intros key size [L B] S. unfold event_id_to_bech32.
  destruct (key_data key L B) as (L1 & F1 & _).
  destruct (encode_out_ok (bs "note") key size L B) as (ck & C & E); [simpl; lia|simpl; lia|].
  destruct (create_checksum_digits _ _ _ C) as [Fc Lc].
  destruct (Nat.ltb_spec size 64); [lia|].
  rewrite L1. cbn [Nat.eqb]. rewrite E. eexists. split; [reflexivity|].
  rewrite app_length. cbn [length]. rewrite map_length, app_length. split; [simpl; lia|].
  apply fixed_from_ok; [reflexivity|apply bytes_bs_note|]. split; [split; auto|eauto].
Qed.

(** The encoders never store outside the caller's buffer, whatever its size
    and whatever the prefix. *)
Theorem C01_encoders_in_bounds : forall key prefix size,
  bytes32 key ->
  safe (key_to_bech32 key prefix size) /\ safe (privkey_to_bech32 key size) /\
  safe (event_id_to_bech32 key size).
Proof.
  intros key prefix size K. unfold safe, key_to_bech32, privkey_to_bech32, event_id_to_bech32.
  pose proof (encode_out_never_undef prefix key size K) as A.
  pose proof (encode_out_never_undef (bs "nsec") key size K) as B.
  pose proof (encode_out_never_undef (bs "note") key size K) as C.
  repeat split.
  - destruct (Nat.ltb_spec size (length prefix + 1 + 52 + 6 + 1)).
    + rewrite orb_true_r. discriminate.
    + destruct (_ =? 0)%nat; [discriminate|]. cbn [orb].
      destruct (_ =? 0)%nat; [discriminate|]. apply A. lia.
  - destruct (Nat.ltb_spec size 64); [discriminate|].
    destruct (_ =? 0)%nat; [discriminate|]. apply B. simpl. lia.
  - destruct (Nat.ltb_spec size 64); [discriminate|].
    destruct (_ =? 0)%nat; [discriminate|]. apply C. simpl. lia.
Qed.

Example C01_witness :
  exists s, privkey_to_bech32 sample_key 64 = Ok s /\ privkey_from_bech32 s = Ok sample_key.
Proof. eexists. split; vm_compute; reflexivity. Qed.

(** C02: up to four substituted characters are always detected. *)
Theorem C02_privkey_detects_four_errors : forall s s' k k',
  privkey_from_bech32 s = Ok k ->
  length s' = length s -> firstn 5 s' = firstn 5 s ->
  (1 <= hamming s s' <= 4)%nat ->
  privkey_from_bech32 s' <> Ok k'.
Proof.
  intros s s' k k' A L P H A'.
  apply fixed_from_ok in A as (K & ck & C & ->); [|reflexivity|apply bytes_bs_nsec].
  apply fixed_from_ok in A' as (K' & ck' & C' & ->); [|reflexivity|apply bytes_bs_nsec].
  destruct (create_checksum_digits _ _ _ C) as [Fc Lc].
  destruct (create_checksum_digits _ _ _ C') as [Fc' Lc'].
  destruct K as [KL KB], K' as [KL' KB'].
  destruct (key_data k KL KB) as (L1 & F1 & _).
  destruct (key_data k' KL' KB') as (L1' & F1' & _).
  cbn [bs app hamming] in H. rewrite !N.eqb_refl in H. cbn [Nat.add] in H.
  eapply (tails_differ (bs "nsec") (convert_bits k 52 8 5 true ++ ck)
                       (convert_bits k' 52 8 5 true ++ ck')); eauto;
    try (apply Forall_app; auto); try (rewrite app_length; lia).
  all: destruct (hrp_expand (bs "nsec") 84) as [e|] eqn:E; [|discriminate E];
       eapply verify_iff; eauto; apply bytes_bs_nsec.
Qed.

Theorem C02_event_id_detects_four_errors : forall s s' k k',
  event_id_from_bech32 s = Ok k ->
  length s' = length s -> firstn 5 s' = firstn 5 s ->
  (1 <= hamming s s' <= 4)%nat ->
  event_id_from_bech32 s' <> Ok k'.
Proof.
  intros s s' k k' A L P H A'.
  apply fixed_from_ok in A as (K & ck & C & ->); [|reflexivity|apply bytes_bs_note].
  apply fixed_from_ok in A' as (K' & ck' & C' & ->); [|reflexivity|apply bytes_bs_note].
  destruct (create_checksum_digits _ _ _ C) as [Fc Lc].
  destruct (create_checksum_digits _ _ _ C') as [Fc' Lc'].
  destruct K as [KL KB], K' as [KL' KB'].
  destruct (key_data k KL KB) as (L1 & F1 & _).
  destruct (key_data k' KL' KB') as (L1' & F1' & _).
  cbn [bs app hamming] in H. rewrite !N.eqb_refl in H. cbn [Nat.add] in H.
  eapply (tails_differ (bs "note") (convert_bits k 52 8 5 true ++ ck)
                       (convert_bits k' 52 8 5 true ++ ck')); eauto;
    try (apply Forall_app; auto); try (rewrite app_length; lia).
  all: destruct (hrp_expand (bs "note") 84) as [e|] eqn:E; [|discriminate E];
       eapply verify_iff; eauto; apply bytes_bs_note.
Qed.

(** For the public-key decoder: [p] is the human-readable part, the
    replacement characters are from the alphabet. *)
Theorem C02_pubkey_detects_four_errors : forall p t t' k k',
  bytes_ok p -> bytes_ok t ->
  Forall (fun c => In c bech32_alphabet) t -> Forall (fun c => In c bech32_alphabet) t' ->
  key_from_bech32 (p ++ 49 :: t) = Ok k ->
  length t' = length t -> (1 <= hamming t t' <= 4)%nat ->
  key_from_bech32 (p ++ 49 :: t') <> Ok k'.
Proof.
  intros p t t' k k' Bp Bt Al Al' A L H A'.
  assert (ALB : forallb (fun c => (c <? 256) && negb (c =? 49)) bech32_alphabet = true)
    by (vm_compute; reflexivity).
  rewrite forallb_forall in ALB.
  assert (Bt' : bytes_ok t').
  { eapply Forall_impl; [|exact Al']. intros c Hc. apply ALB in Hc.
    apply andb_true_iff in Hc as [Hc _]. apply N.ltb_lt; auto. }
  assert (N1 : forall l, Forall (fun c => In c bech32_alphabet) l -> forall c, In c l -> c <> 49).
  { intros l Fl c Hc ->. rewrite Forall_forall in Fl. apply Fl in Hc. apply ALB in Hc. discriminate. }
  assert (SEP : forall a b c d : list N, (forall x, In x b -> x <> 49) -> (forall x, In x d -> x <> 49) ->
             a ++ 49 :: b = c ++ 49 :: d -> a = c /\ b = d).
  { intros a b c d Hb Hd E.
    pose proof (f_equal (fun l => last_sep 0 l None) E) as E2.
    cbv beta in E2. rewrite !last_sep_app in E2 by auto. injection E2 as E2.
    apply app_inv_length in E as [-> E]; auto. injection E as ->. auto. }
  apply key_from_ok in A as (K & h & ck & Lh & C & E).
  2: { apply Forall_app; split; auto. constructor; auto. reflexivity. }
  apply key_from_ok in A' as (K' & h' & ck' & Lh' & C' & E').
  2: { apply Forall_app; split; auto. constructor; auto. reflexivity. }
  destruct (create_checksum_digits _ _ _ C) as [Fc Lc].
  destruct (create_checksum_digits _ _ _ C') as [Fc' Lc'].
  destruct K as [KL KB], K' as [KL' KB'].
  destruct (key_data k KL KB) as (L1 & F1 & _).
  destruct (key_data k' KL' KB') as (L1' & F1' & _).
  assert (FF : Forall (fun v => v < 32) (convert_bits k 52 8 5 true ++ ck)) by (apply Forall_app; auto).
  assert (FF' : Forall (fun v => v < 32) (convert_bits k' 52 8 5 true ++ ck')) by (apply Forall_app; auto).
  assert (NS : forall l, Forall (fun v => v < 32) l -> forall c, In c (map charset_get l) -> c <> 49).
  { intros l Fl c Hc. apply in_map_iff in Hc as (v & <- & Hv). apply charset_no_sep.
    rewrite Forall_forall in Fl. auto. }
  apply SEP in E as [-> ->]; eauto. apply SEP in E' as [<- ->]; eauto.
  eapply (tails_differ h (convert_bits k 52 8 5 true ++ ck)
                       (convert_bits k' 52 8 5 true ++ ck')); eauto;
    try (rewrite app_length; lia).
  all: destruct (hrp_expand h 84) as [e|] eqn:E;
    [eapply verify_iff; eauto|unfold create_checksum in C; rewrite E in C; discriminate].
Qed.

(** Non-vacuity: an accepted string and a corrupted copy at distance 3. *)
Example C02_witness : exists s s' k,
  privkey_from_bech32 s = Ok k /\ length s' = length s /\ firstn 5 s' = firstn 5 s /\
  hamming s s' = 3%nat.
Proof.
  destruct (privkey_to_bech32 sample_key 64) as [s| |] eqn:E; vm_compute in E; try discriminate E.
  injection E as E. exists s, (firstn 60 s ++ bs "qqq"), sample_key. subst s.
  repeat split; vm_compute; reflexivity.
Qed.

(** C03: the claim is false of the public-key decoder: every nsec string is
    accepted by it and the secret key is returned as a public key. *)
Theorem C03_hrp_checked_refuted : forall key, bytes32 key ->
  exists s, privkey_to_bech32 key 64 = Ok s /\ privkey_from_bech32 s = Ok key /\
            firstn 5 s = bs "nsec1" /\ key_from_bech32 s = Ok key.
Proof.
  intros key [L B]. unfold privkey_to_bech32.
  destruct (key_data key L B) as (L1 & F1 & _).
  destruct (encode_out_ok (bs "nsec") key 64 L B) as (ck & C & E); [simpl; lia|simpl; lia|].
  destruct (create_checksum_digits _ _ _ C) as [Fc Lc].
  cbn [Nat.ltb Nat.leb].
  rewrite L1. cbn [Nat.eqb]. rewrite E. eexists. split; [reflexivity|].
  split; [|split; [reflexivity|]].
  - apply fixed_from_ok; [reflexivity|apply bytes_bs_nsec|]. split; [split; auto|eauto].
  - apply key_from_ok.
    + apply Forall_app. split; [apply bytes_bs_nsec|]. constructor; [reflexivity|].
      rewrite Forall_map. apply Forall_forall. intros v _. unfold charset_get.
      destruct (nth_in_or_default (N.to_nat v) charset 0) as [Hn|Hn]; [|rewrite Hn; reflexivity].
      assert (A : forallb (fun c => c <? 256) charset = true) by (vm_compute; reflexivity).
      rewrite forallb_forall in A. apply N.ltb_lt. auto.
    + split; [split; auto|]. exists (bs "nsec"), ck. repeat split; auto; simpl; lia.
Qed.

(** What does hold: the private-key and event-id decoders are strict. *)
Theorem C03_hrp_checked_partial : forall s k,
  (privkey_from_bech32 s = Ok k -> firstn 5 s = bs "nsec1") /\
  (event_id_from_bech32 s = Ok k -> firstn 5 s = bs "note1").
Proof.
  intros s k. split; intros H.
  - apply fixed_from_ok in H as (_ & ck & _ & ->); [reflexivity|reflexivity|apply bytes_bs_nsec].
  - apply fixed_from_ok in H as (_ & ck & _ & ->); [reflexivity|reflexivity|apply bytes_bs_note].
Qed.

(** C04: each decoder stores outside its 84-byte stack buffer on some input;
    the event-id decoder moreover accepts the checksum of the ten-character
    string note1kfrvu, after which len - 5 - 6 wraps around and the bit
    regrouping reads stack bytes that were never written. *)
Theorem C04_decoders_in_bounds_refuted :
  (exists s, cstr_ok s /\ length s = 90%nat /\ privkey_from_bech32 s = Undef) /\
  (exists s, cstr_ok s /\ length s = 90%nat /\ event_id_from_bech32 s = Undef) /\
  (exists s, cstr_ok s /\ length s = 10%nat /\ event_id_from_bech32 s = Undef) /\
  (exists s, cstr_ok s /\ length s = 87%nat /\ key_from_bech32 s = Undef).
Proof.
  split; [|split; [|split]].
  - exists (bs "nsec1" ++ repeat 113 85). repeat split; try (vm_compute; reflexivity).
    repeat constructor.
  - exists (bs "note1" ++ repeat 113 85). repeat split; try (vm_compute; reflexivity).
    repeat constructor.
  - exists (bs "note1kfrvu"). repeat split; try (vm_compute; reflexivity).
    repeat constructor.
  - exists (bs "n1" ++ repeat 113 85). repeat split; try (vm_compute; reflexivity).
    repeat constructor.
Qed.

(** The safe region by length. *)
Theorem C04_decoders_in_bounds_partial : forall s,
  ((length s <> 90)%nat -> safe (privkey_from_bech32 s)) /\
  ((length s <> 10 /\ length s <> 90)%nat -> safe (event_id_from_bech32 s)) /\
  ((length s <= 86 \/ 90 < length s)%nat -> safe (key_from_bech32 s)).
Proof.
  assert (LONG : forall hrp s, (90 < length s)%nat -> fixed_from_bech32 hrp s <> Undef).
  { intros hrp s H. unfold fixed_from_bech32. destruct (prefixb _ s); [|discriminate]. cbn [negb].
    destruct (Nat.ltb_spec 90 (length s)); [|lia]. rewrite orb_true_r. discriminate. }
  intros s. split; [|split].
  - intros H. destruct (Nat.le_gt_cases (length s) 89) as [X|X]; [|apply LONG; lia].
    apply (fixed_from_safe _ _ [3;4;5]%nat); [reflexivity|vm_compute; reflexivity|exact X|].
    intros. simpl. lia.
  - intros H. destruct (Nat.le_gt_cases (length s) 89) as [X|X]; [|apply LONG; lia].
    apply (fixed_from_safe _ _ [3;4]%nat); [reflexivity|vm_compute; reflexivity|exact X|].
    intros. simpl. lia.
  - intros [H|H].
    + apply key_from_safe; auto.
    + unfold safe, key_from_bech32. destruct (Nat.ltb_spec 90 (length s)); [|lia].
      rewrite orb_true_r. discriminate.
Qed.

(** C05: the accepted string is the one the encoder produces. *)
Theorem C05_privkey_decode_canonical : forall s k,
  privkey_from_bech32 s = Ok k -> privkey_to_bech32 k 64 = Ok s.
Proof.
  intros s k H. apply fixed_from_ok in H as ((L & B) & ck & C & ->); [|reflexivity|apply bytes_bs_nsec].
  unfold privkey_to_bech32. cbn [Nat.ltb Nat.leb].
  destruct (key_data k L B) as (L1 & F1 & _). rewrite L1. cbn [Nat.eqb].
  destruct (encode_out_ok (bs "nsec") k 64 L B) as (ck' & C' & E); [simpl; lia|simpl; lia|].
  rewrite E. congruence.
Qed.

Theorem C05_event_id_decode_canonical : forall s k,
  event_id_from_bech32 s = Ok k -> event_id_to_bech32 k 64 = Ok s.
Proof.
  intros s k H. apply fixed_from_ok in H as ((L & B) & ck & C & ->); [|reflexivity|apply bytes_bs_note].
  unfold event_id_to_bech32. cbn [Nat.ltb Nat.leb].
  destruct (key_data k L B) as (L1 & F1 & _). rewrite L1. cbn [Nat.eqb].
  destruct (encode_out_ok (bs "note") k 64 L B) as (ck' & C' & E); [simpl; lia|simpl; lia|].
  rewrite E. congruence.
Qed.

Theorem C05_decode_injective : forall s s' k,
  (privkey_from_bech32 s = Ok k -> privkey_from_bech32 s' = Ok k -> s = s') /\
  (event_id_from_bech32 s = Ok k -> event_id_from_bech32 s' = Ok k -> s = s').
Proof.
  intros s s' k. split; intros H H'.
  - apply C05_privkey_decode_canonical in H, H'. congruence.
  - apply C05_event_id_decode_canonical in H, H'. congruence.
Qed.

(** Cases for C03, C04 and C05. *)
Example C03_meets : exists s, privkey_from_bech32 s = Ok (repeat 1 32) /\ firstn 5 s = bs "nsec1" /\ event_id_from_bech32 s = Err EEncoding.
Proof.
  destruct (C03_hrp_checked_refuted (repeat 1 32)) as (s & _ & E & _ & _); [split; [reflexivity|apply Forall_repeat; reflexivity]|].
  exists s. split; [exact E|]. pose proof (proj1 (C03_hrp_checked_partial s (repeat 1 32)) E) as P. split; [exact P|].
  do 5 (destruct s as [|? s]; [discriminate|]). cbn [firstn] in P. injection P as -> -> -> -> ->. reflexivity.
Qed.
Example C04_meets : length (bs "nsec1" ++ repeat 113 84) = 89%nat /\ safe (privkey_from_bech32 (bs "nsec1" ++ repeat 113 84)) /\
  length (bs "note1" ++ repeat 122 58) = 63%nat /\ safe (event_id_from_bech32 (bs "note1" ++ repeat 122 58)) /\ safe (key_from_bech32 (bs "npub1" ++ repeat 122 81)).
Proof.
  split; [reflexivity|]. split; [apply (proj1 (C04_decoders_in_bounds_partial (bs "nsec1" ++ repeat 113 84))); discriminate|]. split; [reflexivity|].
  split; [apply (proj1 (proj2 (C04_decoders_in_bounds_partial (bs "note1" ++ repeat 122 58)))); split; discriminate|].
  apply (proj2 (proj2 (C04_decoders_in_bounds_partial (bs "npub1" ++ repeat 122 81)))). left. apply Nat.leb_le. reflexivity.
Qed.
Example C05_meets : exists s, privkey_from_bech32 s = Ok (repeat 1 32) /\ privkey_to_bech32 (repeat 1 32) 64 = Ok s /\
  (forall s', privkey_from_bech32 s' = Ok (repeat 1 32) -> s' = s).
Proof.
  destruct C03_meets as (s & E & _). exists s. split; [exact E|]. split; [apply C05_privkey_decode_canonical, E|].
  intros s' E'. exact (proj1 (C05_decode_injective s' s _) E' E).
Qed.

Print Assumptions C01_pubkey_bech32_roundtrip.
Print Assumptions C01_privkey_bech32_roundtrip.
Print Assumptions C01_event_id_bech32_roundtrip.
Print Assumptions C01_encoders_in_bounds.
Print Assumptions C02_privkey_detects_four_errors.
Print Assumptions C02_event_id_detects_four_errors.
Print Assumptions C02_pubkey_detects_four_errors.
Print Assumptions C03_hrp_checked_refuted.
Print Assumptions C03_hrp_checked_partial.
Print Assumptions C04_decoders_in_bounds_refuted.
Print Assumptions C04_decoders_in_bounds_partial.
Print Assumptions C05_privkey_decode_canonical.
Print Assumptions C05_event_id_decode_canonical.
Print Assumptions C05_decode_injective.
