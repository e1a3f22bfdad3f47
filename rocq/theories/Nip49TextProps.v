(** C177: encrypted private keys are the ones other programs use. *)
From Verif Require Import Base BaseFacts BitsFacts Bech32 Bech32Proofs Bech32Lemmas2.
From Verif Require Import Nip21 Nip21Proofs Bip173Spec Bip173Props Nip49Spec Nip49 Nip49Proofs Nip49Props Nip49TextSpec.
Open Scope N_scope.

Lemma hrp_nc : ascii_text (bs "ncryptsec") /\ (length (bs "ncryptsec") <= 41)%nat.
Proof. split; [repeat constructor|simpl; lia]. Qed.

Lemma conv91 p : length p = 91%nat -> conv p = convert_bits p 146 8 5 true.
Proof. intros L. unfold conv, blen. rewrite L. apply eq_sym. reflexivity. Qed.

Lemma encode_text p size s : bytes_ok p -> length p = 91%nat ->
  encode_ncryptsec p size = Ok s -> bech32_text (bs "ncryptsec") p s.
Proof.
  intros B L E. unfold encode_ncryptsec in E. cbv zeta in E. destruct (_ =? 0)%nat; [discriminate|].
  destruct (create_checksum _ _) as [ck|] eqn:C; [|discriminate].
  match type of E with (if ?b then _ else _) = _ => destruct b; [|discriminate] end.
  apply text_iff; auto; [apply hrp_nc|apply hrp_nc|lia|]. exists ck. rewrite (conv91 p L). split; auto.
  rewrite map_app.
  assert (s = bs "ncryptsec1" ++ map charset_get (convert_bits p 146 8 5 true) ++ map charset_get ck) as -> by congruence.
  reflexivity.
Qed.

(** The decoder accepts exactly the bech32 texts of 91 bytes. *)
Theorem C177_texts : forall s p,
  decode_ncryptsec s = Ok p <-> length p = 91%nat /\ bytes_ok p /\ bech32_text (bs "ncryptsec") p s.
Proof.
  intros s p. split.
  - intros H. destruct (decode_ncryptsec_inv _ _ H) as (L & B). split; [auto|split; [auto|]].
    unfold decode_ncryptsec in H.
    destruct (prefixb (bs "ncryptsec1") s) eqn:P; [|discriminate]. cbn [negb] in H.
    apply prefixb_spec in P as (t & ->).
    destruct (_ || _)%bool; [discriminate|]. destruct (_ <? _)%nat; [discriminate|].
    apply bind_ok in H as (d & D & H).
    change (skipn 10 (bs "ncryptsec1" ++ t)) with t in D.
    apply decode_chars_inv in D as (-> & F & _).
    destruct (verify_checksum (bs "ncryptsec") d) eqn:V; [|discriminate]. cbn [negb] in H. cbv zeta in H.
    destruct (_ =? 91)%nat; [|discriminate].
    assert (CV : convert_bits (firstn (length d - 6) d) 91 5 8 false = p) by congruence.
    destruct (convert_nopad_spec 5 8 91 (firstn (length d - 6) d)) as (F5 & _ & Hl & k & Hk & E); try lia.
    { change (N.of_nat 5) with 5. change (N.of_nat 8) with 8. rewrite CV. destruct p; [discriminate|congruence]. }
    change (N.of_nat 5) with 5 in *. change (N.of_nat 8) with 8 in *. rewrite CV in E.
    assert (L5 : (5 * length (firstn (length d - 6) d) = 8 * 91 + k)%nat).
    { apply (f_equal (@length bool)) in E. rewrite app_length, repeat_length, !flat_length in E. lia. }
    assert (L6 : (6 <= length d)%nat).
    { rewrite firstn_length in L5. lia. }
    exists (firstn (length d - 6) d), (skipn (length d - 6) d).
    assert (FF : Forall (fun v => v < 32) (firstn (length d - 6) d) /\ Forall (fun v => v < 32) (skipn (length d - 6) d)).
    { rewrite <- (firstn_skipn (length d - 6) d) in F. apply Forall_app in F. exact F. }
    destruct FF as [FF1 FF2].
    split; [|split; [exact FF2|split; [rewrite skipn_length; lia|split]]].
    + apply (proj2 (regrouped_flat p _ B FF1)). exists k. split; [lia|exact E].
    + rewrite firstn_skipn. apply codeword_iff; auto; apply hrp_nc.
    + rewrite firstn_skipn. reflexivity.
  - intros (L & B & T).
    destruct (encode_ncryptsec_ok p 163 B L ltac:(lia)) as (s' & E & _ & D).
    apply encode_text in E; auto.
    assert (s = s') as ->; [|exact D].
    apply (C176_unique (bs "ncryptsec") p p s s'); auto; try apply hrp_nc; lia.
Qed.
Print Assumptions C177_texts.

Lemma xseal_spec seal k nonce aad pt : length k = 32%nat -> bytes_ok k -> length nonce = 24%nat -> bytes_ok nonce ->
  xseal seal k nonce aad pt = seal (spec_hchacha k (firstn 16 nonce)) (repeat 0 4 ++ skipn 16 nonce) aad pt.
Proof. intros. apply C64_xchacha_construction; auto. Qed.

(** What is written is an encrypted key of NIP-49, of the security class "not
    tracked"; the password is taken to be in normal form. *)
Theorem C177_written_partial : forall scrypt seal open nfkc key password log_n size salt nonce s,
  aead_contract seal open -> scrypt_ok scrypt -> length key = 32%nat ->
  length salt = 16%nat -> length nonce = 24%nat -> bytes_ok salt -> bytes_ok nonce ->
  nfkc password = password ->
  ncryptsec_encrypt scrypt seal key password log_n size (Some salt) (Some nonce) = Ok s ->
  encrypted_key scrypt seal nfkc key password log_n salt nonce 2 s.
Proof.
  intros scrypt seal open nfkc key password log_n size salt nonce s A SO Lk Ls Ln Bs Bn NF E.
  destruct (C22_roundtrip scrypt seal open key password log_n size salt nonce s (repeat 0 32) A Lk Ls Ln Bs Bn E)
    as (_ & _ & ct & mac & Lc & Lm & D).
  unfold ncryptsec_encrypt in E. destruct (_ || _)%bool; [discriminate|].
  destruct (scrypt password salt log_n) as [k|] eqn:SC; [|discriminate]. destruct (SO _ _ _ _ SC) as [L32 B32].
  destruct (xseal seal k nonce [2] key) as [(ct', mac')|] eqn:SE; [|discriminate].
  rewrite xseal_spec in SE by auto. destruct (A _ _ _ _ _ _ SE) as (Lc' & Lm' & Bc & Bm & _). rewrite Lk in Lc'.
  exists k, ct', mac'. rewrite NF. split; [exact SC|]. split; [exact SE|].
  assert (L91 : length ([2; log_n] ++ salt ++ nonce ++ [2] ++ ct' ++ mac') = 91%nat).
  { rewrite !app_length. cbn [length]. lia. }
  assert (B91 : bytes_ok ([2; log_n] ++ salt ++ nonce ++ [2] ++ ct' ++ mac')).
  { apply C177_texts in D as (_ & BD & _). unfold bytes_ok in BD. rewrite !Forall_app in BD.
    destruct BD as (X1 & X2 & X3 & X4 & _). unfold bytes_ok in *. rewrite !Forall_app.
    repeat (split; [assumption|]). assumption. }
  eapply encode_text; eauto.
Qed.
Print Assumptions C177_written_partial.

(** Every encrypted key another program writes is read, for the work factors
    and security classes the library knows. *)
Theorem C177_read_partial : forall scrypt seal open nfkc key password log_n salt nonce sec s out,
  aead_contract seal open -> scrypt_ok scrypt -> length key = 32%nat ->
  length salt = 16%nat -> length nonce = 24%nat -> bytes_ok salt -> bytes_ok nonce ->
  nfkc password = password -> password <> [] -> 16 <= log_n <= 22 -> sec <= 2 ->
  encrypted_key scrypt seal nfkc key password log_n salt nonce sec s ->
  ncryptsec_validate s = Ok tt /\ ncryptsec_decrypt scrypt open s password out = (Ok tt, key).
Proof.
  intros scrypt seal open nfkc key password log_n salt nonce sec s out A SO Lk Ls Ln Bs Bn NF PW LOG SEC
    (k & ct & mac & SC & SE & T).
  rewrite NF in SC. destruct (SO _ _ _ _ SC) as [L32 B32].
  destruct (A _ _ _ _ _ _ SE) as (Lc & Lm & Bc & Bm & OP). rewrite Lk in Lc.
  assert (L91 : length ([2; log_n] ++ salt ++ nonce ++ [sec] ++ ct ++ mac) = 91%nat).
  { rewrite !app_length. cbn [length]. lia. }
  assert (B91 : bytes_ok ([2; log_n] ++ salt ++ nonce ++ [sec] ++ ct ++ mac)).
  { unfold bytes_ok in *. rewrite !Forall_app. repeat split; auto; repeat constructor; unfold byte_ok; lia. }
  destruct (encode_ncryptsec_ok _ 163 B91 L91 ltac:(lia)) as (s' & E & _ & D).
  assert (s = s') as <-.
  { apply encode_text in E as E'; auto.
    apply (C176_unique (bs "ncryptsec") _ _ s s') with (1 := proj1 hrp_nc) (2 := proj2 hrp_nc) (7 := T) (8 := E'); auto; lia. }
  split.
  - unfold ncryptsec_validate. rewrite D.
    pose proof (payload_fields log_n salt nonce sec ct mac Ls Ln Lc Lm) as P. cbv zeta in P. unfold payload in P.
    destruct P as (_ & P1 & P2 & _ & _ & P5 & _).
    rewrite P1, P2. change (2 + 16 + 24)%nat with 42%nat. rewrite P5. change (negb (2 =? 2)) with false. cbv iota.
    replace (log_n <? 16) with false by (symmetry; apply N.ltb_ge; lia).
    replace (22 <? log_n) with false by (symmetry; apply N.ltb_ge; lia). cbn [orb].
    replace (2 <? sec) with false by (symmetry; apply N.ltb_ge; lia). reflexivity.
  - assert (XS : xseal seal k nonce [sec] key = Some (ct, mac)) by (rewrite xseal_spec; auto).
    apply (C22_foreign_string scrypt seal open key password log_n sec salt nonce k ct mac 163 s out); auto.
Qed.
Print Assumptions C177_read_partial.

(** A toy cipher whose tag is the key, to tell one key from another. *)
Definition tag16 (k : list N) : list N := map (fun b => b mod 256) (firstn 16 (k ++ repeat 0 16)).
Definition key_seal (k n a p : list N) : option (list N * list N) :=
  if forallb (fun b => b <? 256) p then Some (p, tag16 k) else None.
Definition key_open (k n a c t : list N) : option (list N) * bool := (Some c, beq t (tag16 k)).
Definition pad32 (p : list N) : list N := map (fun b => b mod 256) (firstn 32 (p ++ repeat 0 32)).

Lemma mod_bytes l : bytes_ok (map (fun b => b mod 256) l).
Proof. apply Forall_forall. intros x I. apply in_map_iff in I as (y & <- & _). apply N.mod_lt. discriminate. Qed.

Lemma key_aead : aead_contract key_seal key_open.
Proof.
  intros k n a p c t E. unfold key_seal in E. destruct (forallb (fun b => b <? 256) p) eqn:B; [|discriminate E].
  assert (c = p /\ t = tag16 k) as (-> & ->) by (split; congruence). split; [reflexivity|].
  split; [unfold tag16; rewrite map_length, firstn_length, app_length, repeat_length; lia|].
  split; [|split; [apply mod_bytes|]].
  - apply Forall_forall. intros x I. rewrite forallb_forall in B. apply N.ltb_lt, B, I.
  - unfold key_open. rewrite beq_refl. reflexivity.
Qed.

Lemma pad_ok : scrypt_ok (fun p _ _ => Some (pad32 p)).
Proof.
  intros p s n k E. assert (k = pad32 p) as -> by congruence. split; [|apply mod_bytes].
  unfold pad32. rewrite map_length, firstn_length, app_length, repeat_length. lia.
Qed.

Definition a_key : list N := map N.of_nat (seq 1 32).

Lemma rep_bytes n b : b < 256 -> bytes_ok (repeat b n).
Proof. intros H. apply Forall_forall. intros x I. apply repeat_spec in I. subst x. exact H. Qed.

Lemma a_key_bytes : bytes_ok a_key.
Proof. repeat constructor. Qed.

(** Every work factor has an encrypted key of NIP-49. *)
Lemma exists_text nfkc password log_n sec : log_n < 256 -> sec < 256 ->
  exists s, encrypted_key (fun p _ _ => Some (pad32 p)) key_seal nfkc a_key password log_n (repeat 5 16) (repeat 6 24) sec s /\
    decode_ncryptsec s = Ok ([2; log_n] ++ repeat 5 16 ++ repeat 6 24 ++ [sec] ++ a_key ++
      tag16 (spec_hchacha (pad32 (nfkc password)) (repeat 6 16))).
Proof.
  intros LN SN.
  set (p := [2; log_n] ++ repeat 5 16 ++ repeat 6 24 ++ [sec] ++ a_key ++
      tag16 (spec_hchacha (pad32 (nfkc password)) (repeat 6 16))).
  assert (L : length p = 91%nat).
  { unfold p, tag16. rewrite !app_length, map_length, firstn_length, app_length, !repeat_length. cbn [length].
    change (length a_key) with 32%nat. lia. }
  assert (B : bytes_ok p).
  { unfold p, bytes_ok. rewrite !Forall_app.
    split; [constructor; [reflexivity|constructor; [exact LN|constructor]]|].
    split; [apply rep_bytes; reflexivity|]. split; [apply rep_bytes; reflexivity|].
    split; [constructor; [exact SN|constructor]|]. split; [exact a_key_bytes|apply mod_bytes]. }
  destruct (encode_ncryptsec_ok p 163 B L ltac:(lia)) as (s & E & _ & D).
  apply encode_text in E; auto. exists s. split; [|exact D].
  exists (pad32 (nfkc password)), a_key, (tag16 (spec_hchacha (pad32 (nfkc password)) (repeat 6 16))).
  split; [reflexivity|]. split; [reflexivity|exact E].
Qed.

(** NIP-49 puts no bounds on LOG_N; the library refuses keys outside 16..22. *)
Theorem C177_rounds_refuted : ~ (forall scrypt seal open nfkc key password log_n salt nonce sec s out,
  aead_contract seal open -> scrypt_ok scrypt -> length key = 32%nat ->
  length salt = 16%nat -> length nonce = 24%nat -> bytes_ok salt -> bytes_ok nonce ->
  nfkc password = password -> password <> [] -> log_n < 256 -> sec <= 2 ->
  encrypted_key scrypt seal nfkc key password log_n salt nonce sec s ->
  ncryptsec_decrypt scrypt open s password out = (Ok tt, key)).
Proof.
  intros H. destruct (exists_text (fun p => p) (bs "pw") 15 1) as (s & T & D); [reflexivity|reflexivity|].
  specialize (H (fun p _ _ => Some (pad32 p)) key_seal key_open (fun p => p) a_key (bs "pw") 15 (repeat 5 16) (repeat 6 24) 1 s (repeat 0 32) key_aead pad_ok eq_refl eq_refl eq_refl
    (rep_bytes 16 5 eq_refl) (rep_bytes 24 6 eq_refl) eq_refl ltac:(discriminate) ltac:(reflexivity) ltac:(discriminate) T).
  unfold ncryptsec_decrypt in H. rewrite D in H. discriminate H.
Qed.
Print Assumptions C177_rounds_refuted.

(** The e with an acute accent, typed as two characters, has one as its NFKC form. *)
Definition nfkc_e (p : list N) : list N := if beq p [101; 204; 129] then [195; 169] else p.

(** The library does not normalise: a key locked by another program under a
    password typed in another form does not open. *)
Theorem C177_password_refuted : ~ (forall scrypt seal open nfkc key password log_n salt nonce sec s out,
  aead_contract seal open -> scrypt_ok scrypt -> length key = 32%nat ->
  length salt = 16%nat -> length nonce = 24%nat -> bytes_ok salt -> bytes_ok nonce ->
  (forall p, nfkc (nfkc p) = nfkc p) -> password <> [] -> 16 <= log_n <= 22 -> sec <= 2 ->
  encrypted_key scrypt seal nfkc key password log_n salt nonce sec s ->
  ncryptsec_decrypt scrypt open s password out = (Ok tt, key)).
Proof.
  intros H. destruct (exists_text nfkc_e [101; 204; 129] 16 1) as (s & T & D); [reflexivity|reflexivity|].
  assert (ID : forall p, nfkc_e (nfkc_e p) = nfkc_e p).
  { intros p. unfold nfkc_e. destruct (beq p [101; 204; 129]) eqn:E; [reflexivity|]. rewrite E. reflexivity. }
  assert (LN : 16 <= 16 <= 22) by lia.
  specialize (H (fun p _ _ => Some (pad32 p)) key_seal key_open nfkc_e a_key [101; 204; 129] 16 (repeat 5 16) (repeat 6 24) 1 s (repeat 0 32) key_aead pad_ok eq_refl eq_refl eq_refl
    (rep_bytes 16 5 eq_refl) (rep_bytes 24 6 eq_refl) ID ltac:(discriminate) LN ltac:(discriminate) T).
  unfold ncryptsec_decrypt in H. rewrite D in H.
  revert H. vm_compute. discriminate.
Qed.
Print Assumptions C177_password_refuted.

(** The example of NIP-49 itself is a text of 91 bytes with the right marks. *)
Definition nip49_example : list N := bs "ncryptsec1qgg9947rlpvqu76pj5ecreduf9jxhselq2nae2kghhvd5g7dgjtcxfqtd67p9m0w57lspw8gsq6yphnm8623nsl8xn9j4jdzz84zm3frztj3z7s35vpzmqf6ksu8r89qk5z2zxfmu5gv8th8wclt0h4p".

Example C177_example : exists p, bech32_text (bs "ncryptsec") p nip49_example /\ firstn 2 p = [2; 16] /\
  ncryptsec_validate nip49_example = Ok tt.
Proof.
  destruct (decode_ncryptsec nip49_example) as [p| |] eqn:D; [|vm_compute in D; discriminate D|vm_compute in D; discriminate D].
  exists p. split; [apply C177_texts; exact D|].
  split; [|vm_compute; reflexivity]. vm_compute in D.
  match type of D with Ok ?q = _ => assert (p = q) as -> by congruence end. reflexivity.
Qed.

Example C177_meets : exists s,
  encrypted_key (fun p _ _ => Some (pad32 p)) key_seal (fun p => p) a_key (bs "pw") 18 (repeat 5 16) (repeat 6 24) 1 s /\
  ncryptsec_decrypt (fun p _ _ => Some (pad32 p)) key_open s (bs "pw") (repeat 0 32) = (Ok tt, a_key).
Proof.
  destruct (exists_text (fun p => p) (bs "pw") 18 1) as (s & T & _); [reflexivity|reflexivity|].
  exists s. split; [exact T|].
  assert (LN : 16 <= 18 <= 22) by lia.
  exact (proj2 (C177_read_partial (fun p _ _ => Some (pad32 p)) key_seal key_open (fun p => p) a_key (bs "pw") 18 (repeat 5 16) (repeat 6 24) 1 s (repeat 0 32) key_aead pad_ok eq_refl eq_refl eq_refl
    (rep_bytes 16 5 eq_refl) (rep_bytes 24 6 eq_refl) eq_refl ltac:(discriminate) LN ltac:(discriminate) T)).
Qed.
