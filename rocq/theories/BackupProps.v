(** C173: a key kept in writing is the same key. *)
From Verif Require Import Base BaseFacts Hex HexSpec HexProofs HexProps Bech32 Bech32Spec Bech32Proofs Bech32Props Nip21 Nip49 Nip49Spec Nip49Proofs Nip49Props
  GiftWrap KeyPair KeyPairProps BackupSpec.
Open Scope N_scope.

Section Backup.
Variable scrypt : list N -> list N -> N -> option (list N).
Variable seal : list N -> list N -> list N -> list N -> option (list N * list N).
Variable open : list N -> list N -> list N -> list N -> list N -> option (list N) * bool.
Variable pubkey_of : list N -> option (list N).
Variable seckey_valid : list N -> bool.
Hypothesis aead : aead_contract seal open.
Hypothesis scrypt_works : forall p s n, scrypt p s n <> None.
Hypothesis seal_works : forall k n a p, bytes_ok p -> seal k n a p <> None.
Notation matching := (matching pubkey_of seckey_valid).
Notation moves := (moves scrypt seal open pubkey_of seckey_valid).
Notation written := (written scrypt seal).
Notation reads := (reads scrypt open).

(** Each form gives back the bytes of the key. *)
Lemma form_reads f k sk : usable f -> kp_private k = Some sk -> length sk = 32%nat -> bytes_ok sk ->
  exists s, written f k = Ok s /\ reads f s = Ok sk.
Proof.
  intros U P L B. unfold BackupSpec.written. rewrite P. destruct f as [| |pw n salt nonce].
  - unfold kp_private in P. unfold kp_private_hex. destruct (kp_init k); [|discriminate P]. cbn [negb].
    assert (kp_sk k = sk) as -> by congruence. destruct (C14_key_hex_roundtrip sk 65 B L (le_n _)) as (s & E & _ & R). exists s. auto.
  - destruct (C01_privkey_bech32_roundtrip sk 64 (conj L B) (le_n _)) as (s & E & _ & R). exists s. auto.
  - destruct U as (PW & LN & L1 & B1 & L2 & B2).
    destruct (proj2 (C22_encrypt_succeeds scrypt seal open sk pw n 163 salt nonce aead L B L1 L2 B1 B2 scrypt_works seal_works) (conj PW (conj LN (le_n _)))) as (s & E).
    exists s. split; [exact E|]. destruct (C22_roundtrip _ _ _ _ _ _ _ _ _ _ zeros aead L L1 L2 B1 B2 E) as (R & _). cbn [BackupSpec.reads]. rewrite R. reflexivity.
Qed.

(** A pair in use can be moved through any forms in any order, whatever the pair
    objects held before... *)
Theorem C173_succeeds : forall fs k sk, Forall (fun f => usable (fst f)) fs -> in_use k -> matching k -> kp_private k = Some sk -> length sk = 32%nat -> bytes_ok sk ->
  exists k', moves fs k k'.
Proof.
  intros fs k sk U. revert k. induction U as [|[f old] fs U F IH]; intros k I M P L B; [exists k; constructor|]. cbn [fst] in U.
  destruct (form_reads f k sk U P L B) as (s & W & R).
  assert (exists pk, kp_public k = Some pk) as (pk & Q). { unfold kp_private, kp_public in *. destruct (kp_init k); [eauto|discriminate P]. }
  destruct (M sk pk P Q) as (V & K).
  destruct (IH (mkKP sk pk true)) as (k' & T); [discriminate| |reflexivity|exact L|exact B|].
  - intros a b X Y. unfold kp_private, kp_public in X, Y. cbn in X, Y. assert (a = sk /\ b = pk) as (-> & ->) by (split; congruence). auto.
  - exists k'. eapply Move; [|exact T]. exists s, sk. split; [exact W|]. split; [exact R|]. unfold kp_from_key. rewrite V, K. reflexivity.
Qed.
(** ... and whenever it was, it hands out the same two keys. *)
Theorem C173_same : forall fs k k' sk, moves fs k k' -> Forall (fun f => usable (fst f)) fs -> matching k -> kp_private k = Some sk -> length sk = 32%nat -> bytes_ok sk ->
  kp_private k' = kp_private k /\ kp_public k' = kp_public k /\ matching k'.
Proof.
  intros fs k k' sk T. induction T as [k|f fs k old k' k'' R T IH]; intros U M P L B; [auto|].
  inversion U as [|? ? UF UR]; subst. destruct R as (s & sk' & W & R & E).
  destruct (form_reads f k sk UF P L B) as (s' & W' & R'). assert (s' = s) by congruence. subst s'. assert (sk' = sk) by congruence. subst sk'.
  assert (exists pk, kp_public k = Some pk) as (pk & Q). { unfold kp_private, kp_public in *. destruct (kp_init k); [eauto|discriminate P]. }
  destruct (M sk pk P Q) as (V & K). unfold kp_from_key in E. rewrite V, K in E. cbn [negb] in E. assert (k' = mkKP sk pk true) by congruence. subst k'.
  destruct IH as (A & D & G); [exact UR| |reflexivity|exact L|exact B|].
  - intros a b X Y. unfold kp_private, kp_public in X, Y. cbn in X, Y. assert (a = sk /\ b = pk) as (-> & ->) by (split; congruence). auto.
  - rewrite A, D, P, Q. auto.
Qed.

(** A text read in another form than the one it was written in is refused. *)
Definition same_kind (f g : form) : Prop :=
  match f, g with InHex, InHex | InNsec, InNsec | InNcryptsec _ _ _ _, InNcryptsec _ _ _ _ => True | _, _ => False end.
Lemma hex_start sk s : length sk = 32%nat -> bytes_ok sk -> s = hex_encode sk -> exists c r, s = c :: r /\ c <> 110.
Proof.
  intros L B ->. destruct sk as [|b r]; [discriminate L|]. exists (hexdigit (b / 16)), (hexdigit (b mod 16) :: hex_encode r). split; [reflexivity|].
  unfold hexdigit. assert (b / 16 < 16) by (apply N.div_lt_upper_bound; [discriminate|]; inversion B; subst; assumption).
  intros X. revert X. generalize (b / 16), H. intros d D. assert (E : exists n, d = N.of_nat n /\ (n < 16)%nat) by (exists (N.to_nat d); lia).
  destruct E as (n & -> & K). do 16 (destruct n as [|n]; [vm_compute; discriminate|]). lia.
Qed.
Lemma written_start f k s sk : usable f -> kp_private k = Some sk -> length sk = 32%nat -> bytes_ok sk -> written f k = Ok s ->
  match f with
  | InHex => length s = 64%nat /\ exists c r, s = c :: r /\ c <> 110
  | InNsec => length s = 63%nat /\ exists r, s = bs "nsec1" ++ r
  | InNcryptsec _ _ _ _ => length s <> 64%nat /\ exists r, s = bs "ncryptsec1" ++ r
  end.
Proof.
  intros U P L B W. unfold BackupSpec.written in W. rewrite P in W. destruct f as [| |pw n salt nonce].
  - unfold kp_private in P. unfold kp_private_hex in W. destruct (kp_init k); [|discriminate P]. cbn [negb] in W. assert (kp_sk k = sk) as Q by congruence. rewrite Q in W.
    destruct (C14_key_hex_roundtrip sk 65 B L (le_n _)) as (t & E & LT & _). assert (t = s) by congruence. subst t. split; [exact LT|].
    apply (hex_start sk s L B). unfold key_to_hex in E. cbn [Nat.ltb Nat.leb] in E. congruence.
  - destruct (C01_privkey_bech32_roundtrip sk 64 (conj L B) (le_n _)) as (t & E & LT & R). assert (t = s) by congruence. subst t. split; [exact LT|].
    destruct (C03_hrp_checked_partial s sk) as (H & _). specialize (H R). exists (skipn 5 s). rewrite <- H. symmetry. apply firstn_skipn.
  - destruct U as (_ & _ & L1 & B1 & L2 & B2). destruct (C22_roundtrip _ _ _ _ _ _ _ _ _ _ zeros aead L L1 L2 B1 B2 W) as (_ & LS & _).
    unfold ncryptsec_encrypt in W. destruct (_ || _); [discriminate W|]. destruct (scrypt pw salt n); [|discriminate W]. destruct (xseal seal _ nonce [2] sk) as [(ct, mac)|]; [|discriminate W].
    unfold encode_ncryptsec in W. destruct (_ =? 0)%nat; [discriminate W|]. destruct (create_checksum _ _) as [ck|] eqn:CK; [|discriminate W].
    destruct (_ <=? 163)%nat; [|discriminate W]. assert (E : bs "ncryptsec1" ++ map charset_get (convert_bits (payload n salt nonce 2 ct mac) 146 8 5 true) ++ map charset_get ck = s) by congruence.
    split; [lia|eexists; symmetry; exact E].
Qed.
Lemma other_start c r p : c <> 110 -> prefixb (110 :: p) (c :: r) = false.
Proof. intros NC. cbn [prefixb]. rewrite (proj2 (N.eqb_neq _ _)); [reflexivity|congruence]. Qed.
Theorem C173_refused : forall f g k sk s, usable f -> kp_private k = Some sk -> length sk = 32%nat -> bytes_ok sk ->
  written f k = Ok s -> ~ same_kind f g -> usable g -> exists e, reads g s = Err e.
Proof.
  intros f g k sk s U P L B W N UG. pose proof (written_start f k s sk U P L B W) as T.
  destruct g as [| |pw n salt nonce]; cbn [BackupSpec.reads].
  - assert (X : (length s =? 64)%nat = false) by (apply Nat.eqb_neq; destruct f; [elim N; exact I|lia|exact (proj1 T)]).
    unfold key_from_hex. rewrite X. eexists. reflexivity.
  - unfold privkey_from_bech32, fixed_from_bech32. assert (X : prefixb (bs "nsec" ++ [49]) s = false).
    { destruct f; [|elim N; exact I|].
      - destruct T as (_ & c & r & -> & NC). apply (other_start c r _ NC).
      - destruct T as (_ & r & ->). reflexivity. }
    rewrite X. eexists. reflexivity.
  - destruct UG as (PW & _). unfold ncryptsec_decrypt. replace (length pw =? 0)%nat with false by (destruct pw; [congruence|reflexivity]).
    assert (X : decode_ncryptsec s = Err EEncoding); [|rewrite X; eexists; reflexivity].
    unfold decode_ncryptsec. assert (X : prefixb (bs "ncryptsec1") s = false); [|rewrite X; reflexivity].
    destruct f; [| |elim N; exact I].
    + destruct T as (_ & c & r & -> & NC). apply (other_start c r _ NC).
    + destruct T as (_ & r & ->). reflexivity.
Qed.
End Backup.

(** The reader of public keys does not refuse: given an nsec, it hands out the
    private key as a public one. *)
Theorem C173_refuted : ~ (forall k sk s, kp_private k = Some sk -> length sk = 32%nat -> bytes_ok sk ->
  privkey_to_bech32 sk 64 = Ok s -> exists e, key_from_bech32 s = Err e).
Proof.
  intros H. assert (B : bytes32 (repeat 1 32)) by (split; [reflexivity|apply Forall_forall; intros x I; apply repeat_spec in I; subst x; reflexivity]).
  destruct (C03_hrp_checked_refuted _ B) as (s & W & _ & _ & R). destruct (H (mkKP (repeat 1 32) (repeat 2 32) true) _ s eq_refl (proj1 B) (proj2 B) W) as (e & X). congruence.
Qed.

(** From hex to nsec to an encrypted string and to hex again, into fresh and used
    pair objects. *)
Example C173_meets : let k := mkKP (repeat 3 32) (repeat 3 32) true in let pub := (fun sk : list N => Some sk) in
  let scr := (fun (p _ : list N) (_ : N) => Some p) in
  exists k', moves scr toy_seal toy_open pub (fun _ => true)
    [(InHex, kp_new); (InNsec, mkKP (repeat 9 32) (repeat 9 32) true); (InNcryptsec (bs "pw") 16 (repeat 5 16) (repeat 6 24), kp_new); (InHex, kp_new)] k k' /\
  kp_private k' = Some (repeat 3 32) /\ kp_public k' = Some (repeat 3 32).
Proof.
  intros k pub scr.
  assert (Z : forall b n, b < 256 -> bytes_ok (repeat b n)) by (intros b n L; apply Forall_forall; intros x I; apply repeat_spec in I; subst x; exact L).
  assert (SW : forall k n a p, bytes_ok p -> toy_seal k n a p <> None).
  { intros k0 n a p B. unfold toy_seal. replace (forallb (fun b => b <? 256) p) with true; [discriminate|].
    symmetry. apply forallb_forall. intros x I. apply N.ltb_lt. exact (proj1 (Forall_forall _ _) B x I). }
  assert (U : Forall (fun f => usable (fst f)) [(InHex, kp_new); (InNsec, mkKP (repeat 9 32) (repeat 9 32) true); (InNcryptsec (bs "pw") 16 (repeat 5 16) (repeat 6 24), kp_new); (InHex, kp_new)]).
  { apply Forall_cons; [exact I|]. apply Forall_cons; [exact I|]. apply Forall_cons; [|apply Forall_cons; [exact I|constructor]].
    split; [discriminate|]. split; [lia|]. split; [reflexivity|]. split; [apply Z; reflexivity|]. split; [reflexivity|apply Z; reflexivity]. }
  assert (M : matching pub (fun _ => true) k).
  { intros a b X Y. unfold kp_private, kp_public in X, Y. cbn in X, Y. split; [reflexivity|unfold pub; congruence]. }
  destruct (C173_succeeds scr toy_seal toy_open pub (fun _ => true) toy_aead ltac:(discriminate) SW _ k (repeat 3 32) U ltac:(discriminate) M eq_refl eq_refl (Z 3 32%nat eq_refl)) as (k' & T).
  exists k'. split; [exact T|].
  destruct (C173_same scr toy_seal toy_open pub (fun _ => true) toy_aead ltac:(discriminate) SW _ k k' (repeat 3 32) T U M eq_refl eq_refl (Z 3 32%nat eq_refl)) as (A & D & _).
  split; [exact A|exact D].
Qed.
Print Assumptions C173_succeeds.
Print Assumptions C173_same.
Print Assumptions C173_refused.
Print Assumptions C173_refuted.
