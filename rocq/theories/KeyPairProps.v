(** C120, C121: key pairs and random bytes. *)
From Verif Require Import Base BaseFacts Hex HexSpec HexProofs HexProps GiftWrap GiftWrapProps KeyPair.
Open Scope N_scope.

(** ** C120 *)
Section Pairs.
Variable pubkey_of : list N -> option (list N).
Variable seckey_valid : list N -> bool.
Notation step := (kp_step pubkey_of seckey_valid false).
Notation run := (kp_run pubkey_of seckey_valid false).
(** A pair that hands out keys hands out a valid private key and its public key. *)
Definition matching (k : keypair) : Prop :=
  forall sk pk, kp_private k = Some sk -> kp_public k = Some pk -> seckey_valid sk = true /\ pubkey_of sk = Some pk.
Definition in_use (k : keypair) : Prop := kp_private k <> None.
Definition imports (o : kop) : Prop := match o with KFromKey _ _ | KFromHex _ _ => True | _ => False end.
Definition makes (o : kop) : Prop := match o with KGenerate _ _ | KFromKey _ _ | KFromHex _ _ => True | _ => False end.

Lemma scan_into_ok n : forall s old l, scan_bytes n s = Some l -> scan_into n s old = (l, true).
Proof.
  induction n as [|n IH]; intros s old l; cbn [scan_bytes scan_into]; [congruence|]. destruct (scan_hh s) as [b|]; [|discriminate]. destruct (scan_bytes n (skipn 2 s)) as [r|] eqn:E; [|discriminate].
  intros Q. rewrite (IH _ (tl old) _ E). congruence.
Qed.
Lemma scan_into_true n : forall s old l, scan_into n s old = (l, true) -> scan_bytes n s = Some l.
Proof.
  induction n as [|n IH]; intros s old l; cbn [scan_bytes scan_into]; [congruence|]. destruct (scan_hh s) as [b|]; [|discriminate]. destruct (scan_into n (skipn 2 s) (tl old)) as (r, ok) eqn:E.
  intros Q. assert (ok = true) by congruence. subst ok. rewrite (IH _ _ _ E). congruence.
Qed.
Lemma generate_ok d sk pk : key_generate pubkey_of seckey_valid d = Ok (sk, pk) -> seckey_valid sk = true /\ pubkey_of sk = Some pk.
Proof.
  unfold key_generate. intros K. apply bind_ok in K as (k & A & K). destruct (pubkey_of k) eqn:Q; [|discriminate]. assert (k = sk) by congruence. subst k. split; [|congruence].
  clear K Q. revert d A. generalize 128%nat. induction n as [|n IH]; intros d A; [discriminate|]. cbn [key_attempts] in A. destruct d as [|[x|] d]; try discriminate. destruct (seckey_valid x) eqn:V; [congruence|apply (IH d A)].
Qed.
Lemma generate_defined d : key_generate pubkey_of seckey_valid d <> Undef.
Proof.
  unfold key_generate. intros K. assert (A : forall n d, key_attempts seckey_valid n d <> Undef).
  { induction n as [|n IH]; intros d0; [discriminate|]. cbn [key_attempts]. destruct d0 as [|[x|] d0]; try discriminate. destruct (seckey_valid x); [discriminate|apply IH]. }
  specialize (A 128%nat d). destruct (key_attempts seckey_valid 128 d) as [k| |]; cbn [bind] in K; try discriminate; [|congruence]. destruct (pubkey_of k); discriminate.
Qed.
(** A call that reports success leaves a pair in use that matches. *)
Theorem C120_success : forall o k k', makes o -> step o k = Ok (k', None) -> in_use k' /\ matching k' /\
  (forall st sk, o = KFromKey st sk -> kp_private k' = Some sk) /\ (forall st s sk, o = KFromHex st s -> hextext s sk -> kp_private k' = Some sk).
Proof.
  assert (M : forall sk pk, seckey_valid sk = true -> pubkey_of sk = Some pk -> in_use (mkKP sk pk true) /\ matching (mkKP sk pk true)).
  { intros sk pk A B. split; [discriminate|]. intros a b X Y. unfold kp_private, kp_public in X, Y. cbn in X, Y. assert (a = sk /\ b = pk) as (-> & ->) by (split; congruence). auto. }
  assert (F : forall st sk k k', kp_from_key pubkey_of seckey_valid st sk k = (k', None) -> in_use k' /\ matching k' /\ kp_private k' = Some sk).
  { intros st sk k k' E. unfold kp_from_key in E. destruct st; [discriminate|]. destruct (seckey_valid sk) eqn:V; cbn [negb] in E; [|discriminate]. destruct (pubkey_of sk) as [pk|] eqn:P; [|discriminate].
    assert (k' = mkKP sk pk true) by congruence. subst k'. destruct (M sk pk V P) as (A & B). auto. }
  intros [|st d|st sk|st s|] k k' O E; try destruct O; cbn [kp_step] in E.
  - unfold kp_generate in E. destruct st; [discriminate|]. pose proof (generate_defined d) as D. destruct (key_generate pubkey_of seckey_valid d) as [(sk, pk)|e|] eqn:G; [|discriminate|congruence].
    apply generate_ok in G as (V & P). assert (k' = mkKP sk pk true) by congruence. subst k'. destruct (M sk pk V P) as (A & B). split; [exact A|split; [exact B|split; [discriminate|discriminate]]].
  - assert (E' : kp_from_key pubkey_of seckey_valid st sk k = (k', None)) by congruence. destruct (F _ _ _ _ E') as (A & B & C). split; [exact A|split; [exact B|split; [intros ? ? Q; congruence|discriminate]]].
  - unfold kp_from_hex in E. destruct (Nat.eqb_spec (length s) 64) as [L|]; cbn [negb] in E; [|discriminate]. destruct (scan_into 32 s (kp_sk k)) as (sk, ok) eqn:S. destruct ok; cbn [negb] in E; [|discriminate].
    apply scan_into_true in S. assert (E' : kp_from_key pubkey_of seckey_valid st sk (mkKP sk (kp_pk k) (kp_init k)) = (k', None)) by (destruct st; congruence). destruct (F _ _ _ _ E') as (A & B & C).
    split; [exact A|split; [exact B|split; [discriminate|]]]. intros st' s' sk' Q HT. assert (s' = s) by congruence. subst s'.
    assert (KF : key_from_hex s = Ok sk') by (apply key_from_hex_ok; [exact HT|pose proof (hextext_length _ _ HT); lia]). unfold key_from_hex in KF. rewrite L, S in KF. cbn in KF. congruence.
Qed.
(** As long as keys are only imported into pairs that are not in use, a pair always
    matches, and a failing call leaves a pair that is in use as it was. *)
Inductive careful : keypair -> list kop -> Prop :=
| careful_nil k : careful k []
| careful_cons k o l : (imports o -> ~ in_use k) -> (forall x, step o k = Ok x -> careful (fst x) l) -> careful k (o :: l).
Theorem C120_partial : forall l k, careful kp_new l -> run l kp_new = Ok k -> matching k.
Proof.
  assert (UN : forall k, ~ in_use k -> matching k) by (intros k NU sk pk A; destruct NU; unfold in_use; rewrite A; discriminate).
  assert (GEN : forall l k k', matching k -> careful k l -> run l k = Ok k' -> matching k').
  2:{ intros l k. apply GEN, UN. intros A. apply A. reflexivity. }
  induction l as [|o l IH]; intros k k' M C R; [cbn [kp_run] in R; assert (k' = k) by congruence; subst k'; exact M|]. inversion C as [|? ? ? I N]; subst. cbn [kp_run] in R. apply bind_ok in R as ((k1, e) & S & R). cbn [fst] in R.
  apply (IH k1 k'); [|apply (N _ S)|exact R].
  destruct o as [|st d|st sk|st s|].
  - cbn in S. assert (k1 = kp_new) by congruence. subst k1. apply UN. intros A. apply A. reflexivity.
  - destruct e as [e|]; [|apply (C120_success (KGenerate st d) k k1 Logic.I S)]. cbn [kp_step] in S. unfold kp_generate in S. destruct st; [assert (k1 = k) by congruence; subst k1; exact M|].
    destruct (key_generate pubkey_of seckey_valid d) as [(a, b)|x|]; [discriminate|assert (k1 = k) by congruence; subst k1; exact M|discriminate].
  - destruct e as [e|]; [|apply (C120_success (KFromKey st sk) k k1 Logic.I S)]. specialize (I Logic.I). apply UN. unfold in_use, kp_private in *. cbn [kp_step] in S. unfold kp_from_key in S.
    destruct st; [assert (k1 = k) by congruence; subst k1; exact I|]. destruct (kp_init k) eqn:Q; [destruct I; discriminate|]. destruct (negb (seckey_valid sk)).
    + assert (k1 = mkKP zeros (kp_pk k) false) by congruence. subst k1. exact I.
    + destruct (pubkey_of sk); [discriminate|]. assert (k1 = mkKP zeros (kp_pk k) false) by congruence. subst k1. exact I.
  - destruct e as [e|]; [|apply (C120_success (KFromHex st s) k k1 Logic.I S)]. specialize (I Logic.I). apply UN. unfold in_use, kp_private in *. cbn [kp_step] in S. unfold kp_from_hex in S.
    destruct (kp_init k) eqn:Q; [destruct I; discriminate|]. destruct (negb (length s =? 64)%nat); [assert (k1 = k) by congruence; subst k1; rewrite Q; exact I|].
    destruct (scan_into 32 s (kp_sk k)) as (sk, ok). destruct ok; cbn [negb] in S; [|assert (k1 = mkKP sk (kp_pk k) false) by congruence; subst k1; exact I].
    unfold kp_from_key in S. destruct st; [assert (k1 = mkKP sk (kp_pk k) false) by congruence; subst k1; exact I|]. cbn [kp_pk kp_init] in S. destruct (negb (seckey_valid sk)).
    + assert (k1 = mkKP zeros (kp_pk k) false) by congruence. subst k1. exact I.
    + destruct (pubkey_of sk); [discriminate|]. assert (k1 = mkKP zeros (kp_pk k) false) by congruence. subst k1. exact I.
  - cbn [kp_step] in S. unfold kp_destroy in S. assert (k1 = kp_new) by congruence. subst k1. apply UN. intros A. apply A. reflexivity.
Qed.
(** Checking a pair is exact. *)
Theorem C120_validate : forall k, length (kp_sk k) = 32%nat -> length (kp_pk k) = 32%nat -> (forall sk pk, pubkey_of sk = Some pk -> length pk = 32%nat) ->
  (kp_validate pubkey_of seckey_valid None k = Ok tt <-> in_use k /\ matching k) /\ (kp_validate pubkey_of seckey_valid None k = Err EInvalidParam <-> ~ in_use k) /\
  (kp_validate pubkey_of seckey_valid None k = Err EInvalidKey <-> in_use k /\ ~ matching k) /\
  (forall e, kp_validate pubkey_of seckey_valid (Some e) k = if kp_init k then Err e else Err EInvalidParam).
Proof.
  intros k Ls Lp PL.
  assert (ST : forall e, kp_validate pubkey_of seckey_valid (Some e) k = if kp_init k then Err e else Err EInvalidParam) by (intros e; unfold kp_validate; destruct (kp_init k); reflexivity).
  cut ((kp_validate pubkey_of seckey_valid None k = Ok tt <-> in_use k /\ matching k) /\ (kp_validate pubkey_of seckey_valid None k = Err EInvalidParam <-> ~ in_use k) /\
    (kp_validate pubkey_of seckey_valid None k = Err EInvalidKey <-> in_use k /\ ~ matching k)); [tauto|]. clear ST.
  assert (G : forall (r : res unit) (u m : Prop), ((r = Ok tt /\ u /\ m) \/ (r = Err EInvalidParam /\ ~ u) \/ (r = Err EInvalidKey /\ u /\ ~ m)) ->
    (r = Ok tt <-> u /\ m) /\ (r = Err EInvalidParam <-> ~ u) /\ (r = Err EInvalidKey <-> u /\ ~ m)).
  { intros r u m [(-> & A & B)|[(-> & A)|(-> & A & B)]]; (split; [|split]); split; try discriminate; tauto. }
  apply G. clear G. unfold kp_validate, in_use, matching, kp_private, kp_public. destruct (kp_init k) eqn:Q; cbn [negb]; [|right; left; split; [reflexivity|intros A; apply A; reflexivity]].
  assert (MM : (forall sk pk, Some (kp_sk k) = Some sk -> Some (kp_pk k) = Some pk -> seckey_valid sk = true /\ pubkey_of sk = Some pk) <-> (seckey_valid (kp_sk k) = true /\ pubkey_of (kp_sk k) = Some (kp_pk k))).
  { split; [intros A; apply A; reflexivity|]. intros A sk pk X Y. assert (sk = kp_sk k /\ pk = kp_pk k) as (-> & ->) by (split; congruence). exact A. }
  rewrite MM. clear MM. assert (SOME : Some (kp_sk k) <> None) by discriminate.
  destruct (seckey_valid (kp_sk k)) eqn:V; cbn [negb]; [|right; right; split; [reflexivity|split; [exact SOME|intros (A & _); discriminate]]].
  destruct (pubkey_of (kp_sk k)) as [pk|] eqn:P; [|right; right; split; [reflexivity|split; [exact SOME|intros (_ & A); discriminate]]].
  destruct (C15_memcmp_decides_equality (kp_pk k) pk 32 ltac:(lia) ltac:(rewrite (PL _ _ P); lia)) as (d & E & D). rewrite E. cbn [bind fst].
  assert (FN : firstn 32 (kp_pk k) = kp_pk k /\ firstn 32 pk = pk) by (split; apply firstn_all2; [|rewrite (PL _ _ P)]; lia). destruct FN as (F1 & F2). rewrite F1, F2 in D.
  destruct (N.eqb_spec d 0) as [Z|Z].
  - apply D in Z. left. split; [reflexivity|]. split; [exact SOME|]. split; congruence.
  - right. right. split; [reflexivity|]. split; [exact SOME|]. intros (_ & A). apply Z, D. congruence.
Qed.
(** What a pair in use exports is read back as its keys; another exports nothing. *)
Theorem C120_export : forall k size sk pk, bytes_ok sk -> length sk = 32%nat -> bytes_ok pk -> length pk = 32%nat -> (65 <= size)%nat ->
  (kp_private k = Some sk -> kp_public k = Some pk -> exists a b, kp_private_hex k size = Ok a /\ kp_public_hex k size = Ok b /\ key_from_hex a = Ok sk /\ key_from_hex b = Ok pk /\ length a = 64%nat /\ length b = 64%nat) /\
  (kp_private k = None -> kp_private_hex k size = Err EInvalidParam /\ kp_public_hex k size = Err EInvalidParam) /\
  (forall k, kp_private (kp_destroy k) = None /\ kp_public (kp_destroy k) = None /\ Forall (eq 0) (kp_sk (kp_destroy k) ++ kp_pk (kp_destroy k)) /\ length (kp_sk (kp_destroy k)) = 32%nat /\ length (kp_pk (kp_destroy k)) = 32%nat).
Proof.
  intros k size sk pk B1 L1 B2 L2 S. unfold kp_private, kp_public, kp_private_hex, kp_public_hex. split; [|split].
  - destruct (kp_init k); [|discriminate]. intros X Y. assert (kp_sk k = sk /\ kp_pk k = pk) as (-> & ->) by (split; congruence). cbn [negb].
    destruct (C14_key_hex_roundtrip sk size B1 L1 S) as (a & A1 & A2 & A3). destruct (C14_key_hex_roundtrip pk size B2 L2 S) as (b & D1 & D2 & D3). exists a, b. auto 8.
  - destruct (kp_init k); [discriminate|]. auto.
  - intros k0. split; [reflexivity|]. split; [reflexivity|]. split; [unfold kp_destroy, kp_new, zeros; cbn; repeat constructor|split; reflexivity].
Qed.
End Pairs.
(** *** What does not hold *)
Definition odd (k : list N) : bool := N.odd (hd 0 k).
Definition same (k : list N) : option (list N) := Some k.
(** After a failing import, a pair that was in use hands out a private key of zeros
    beside the old public key. *)
Theorem C120_refuted : ~ (forall pubkey_of seckey_valid l k, kp_run pubkey_of seckey_valid false l kp_new = Ok k -> matching pubkey_of seckey_valid k).
Proof.
  intros C. specialize (C same odd [KFromKey None (repeat 7 32); KFromKey None (repeat 8 32)] _ eq_refl zeros (repeat 7 32) eq_refl eq_refl). destruct C as (A & _). discriminate.
Qed.
(** After a malformed import, the private key is a mixture of the old and the new. *)
Theorem C120_mixture_refuted : ~ (forall pubkey_of seckey_valid st s k k' e, kp_from_hex pubkey_of seckey_valid false st s k = Ok (k', Some e) -> kp_private k' = kp_private k \/ kp_private k' = None \/ kp_private k' = Some zeros).
Proof.
  intros C. destruct (C same odd None (concat (repeat (bs "09") 16) ++ repeat 33 32) (mkKP (repeat 7 32) (repeat 7 32) true) (mkKP (repeat 9 16 ++ repeat 7 16) (repeat 7 32) true) EInvalidKey ltac:(vm_compute; reflexivity)) as [X|[X|X]]; discriminate.
Qed.
(** In ISO C every import of a hexadecimal key is undefined: the private key is
    copied onto itself. *)
Theorem C120_overlap_refuted : forall pubkey_of seckey_valid s sk k, hextext s sk -> length sk = 32%nat -> kp_from_hex pubkey_of seckey_valid true None s k = Undef.
Proof.
  intros pubkey_of seckey_valid s sk k HT L. pose proof (hextext_length _ _ HT) as LS. unfold kp_from_hex. rewrite (proj2 (Nat.eqb_eq (length s) 64)) by lia. cbn [negb].
  pose proof (key_from_hex_ok s sk HT L) as KF. unfold key_from_hex in KF. rewrite (proj2 (Nat.eqb_eq (length s) 64)) in KF by lia. cbn [negb] in KF. destruct (scan_bytes 32 s) as [x|] eqn:SB; [|discriminate].
  rewrite (scan_into_ok 32 s (kp_sk k) x SB). reflexivity.
Qed.

(** ** C121 *)
(** [asked q limit n]: [n] bytes asked for in pieces. *)
Definition asked (q : list nat) (limit n : nat) : Prop := fold_right Nat.add 0%nat q = n /\ Forall (fun c => 0 < c <= limit)%nat q.
Definition answers (draw : nat -> nat -> option (list N)) : Prop := forall i n b, draw i n = Some b -> length b = n.
Lemma random_loop_ok draw limit : (0 < limit)%nat -> answers draw -> forall fuel i len, (len <= fuel)%nat -> exists b q ok, random_loop draw limit fuel i len = (b, q, ok) /\
  ((ok = true /\ length b = len /\ asked q limit len /\ exists p, Forall2 (fun k c => exists x, draw k c = Some x /\ nth_error p (k - i) = Some x) (seq i (length q)) q /\ length p = length q /\ b = concat p) \/
   (ok = false /\ (length b < len)%nat /\ exists q' c, q = q' ++ [c] /\ asked q limit (length b + c) /\ draw (i + length q')%nat c = None)).
Proof.
  intros LP AN. induction fuel as [|f IH]; intros i len F.
  { assert (len = 0%nat) by lia. subst len. exists [], [], true. split; [reflexivity|]. left. repeat split; auto. exists []. repeat split; constructor. }
  cbn [random_loop]. destruct (Nat.eqb_spec len 0) as [Z|Z].
  { subst len. exists [], [], true. split; [reflexivity|]. left. repeat split; auto. exists []. repeat split; constructor. }
  set (chunk := if (limit <? len)%nat then limit else len). assert (CH : (0 < chunk <= limit)%nat /\ (chunk <= len)%nat) by (unfold chunk; destruct (Nat.ltb_spec limit len); lia).
  destruct (draw i chunk) as [b|] eqn:D.
  2:{ exists [], [chunk], false. split; [reflexivity|]. right. split; [reflexivity|]. split; [cbn; lia|]. exists [], chunk. split; [reflexivity|]. split; [|rewrite Nat.add_0_r; exact D]. split; [cbn; lia|]. constructor; [lia|constructor]. }
  destruct (IH (S i) (len - chunk)%nat ltac:(lia)) as (r & q & ok & E & R). rewrite E. exists (b ++ r), (chunk :: q), ok. split; [reflexivity|]. pose proof (AN _ _ _ D) as LB.
  destruct R as [(-> & L & (A1 & A2) & p & P1 & P2 & P3)|(-> & L & q' & c & Q & (A1 & A2) & P)]; [left|right]; (split; [reflexivity|]); rewrite app_length.
  - split; [lia|]. split; [split; [cbn; lia|constructor; [lia|exact A2]]|]. exists (b :: p). split; [|split; [cbn; lia|cbn; congruence]]. cbn [length seq]. constructor; [exists b; split; [exact D|rewrite Nat.sub_diag; reflexivity]|].
    assert (GE : Forall (fun k => i < k)%nat (seq (S i) (length q))) by (apply Forall_forall; intros k K; apply in_seq in K; lia).
    clear -P1 GE. induction P1 as [|k c l m (x & X1 & X2) P1 IH]; [constructor|]. inversion GE as [|? ? G1 G2]; subst. constructor; [|apply IH, G2]. exists x. split; [exact X1|]. replace (k - i)%nat with (S (k - S i))%nat by lia. exact X2.
  - split; [lia|]. exists (chunk :: q'), c. split; [rewrite Q; reflexivity|]. split; [split; [cbn; lia|constructor; [lia|exact A2]]|]. cbn [length]. replace (i + S (length q'))%nat with (S i + length q')%nat by lia. exact P.
Qed.
(** Asking for random bytes fills the buffer with what the library gave, piece by
    piece, or reports failure because the library failed. *)
Theorem C121_openssl : forall draw len, answers draw -> exists b q ok, random_bytes draw len = (b, q, ok) /\ asked q (N.to_nat 2147483647) (if ok then len else fold_right Nat.add 0%nat q) /\
  (ok = true -> length b = len /\ exists p, length p = length q /\ b = concat p /\ forall i c, nth_error q i = Some c -> exists x, draw i c = Some x /\ nth_error p i = Some x) /\
  (ok = false -> exists i c, nth_error q i = Some c /\ draw i c = None /\ (length b < len)%nat).
Proof.
  intros draw len AN. unfold random_bytes. destruct (random_loop_ok draw (N.to_nat 2147483647) ltac:(lia) AN len 0%nat len (le_n _)) as (b & q & ok & E & R). exists b, q, ok. split; [exact E|].
  destruct R as [(-> & L & A & p & P1 & P2 & P3)|(-> & L & q' & c & Q & (A1 & A2) & P)].
  - split; [exact A|]. split; [|discriminate]. intros _. split; [exact L|]. exists p. split; [exact P2|]. split; [exact P3|]. clear -P1. intros i c N.
    assert (G : forall s l m, Forall2 (fun k c => exists x, draw k c = Some x /\ nth_error p (k - 0) = Some x) (seq s l) m -> forall i c, nth_error m i = Some c -> exists x, draw (s + i)%nat c = Some x /\ nth_error p (s + i) = Some x).
    { intros s l. revert s. induction l as [|l IH]; intros s m F j d X; cbn [seq] in F; inversion F as [|? ? ? ? Y F']; subst; [destruct j; discriminate|]. destruct j as [|j]; cbn [nth_error] in X.
      - destruct Y as (x & Y1 & Y2). exists x. rewrite Nat.add_0_r. rewrite Nat.sub_0_r in Y2. assert (d = y) by congruence. subst d. auto.
      - rewrite Nat.add_succ_r. apply (IH (S s) l' F' j d X). }
    apply (G 0%nat _ _ P1 i c N).
  - split; [split; [reflexivity|exact A2]|]. split; [discriminate|]. intros _. exists (length q'), c. split; [rewrite Q, nth_error_app2, Nat.sub_diag by lia; reflexivity|]. auto.
Qed.
(** With mbedTLS, in any sequence of calls: the lock is taken first and given back
    last, the generator is seeded until that succeeds and never again, and bytes
    are drawn only from a seeded generator, at most 1024 at a time. *)
Fixpoint mbed_run (calls : list (bool * (nat -> nat -> option (list N)) * nat)) (seeded : bool) : list rng_event * list bool :=
  match calls with
  | [] => ([], [])
  | (seed, draw, len) :: r =>
    let '(s, ev, _, ok) := random_bytes_mbed seed draw seeded len in
    let '(evs, oks) := mbed_run r s in (ev ++ evs, ok :: oks)
  end.
(** A legal history: ([locked], [set up], [seeded]). *)
Inductive legal : bool -> bool -> bool -> list rng_event -> Prop :=
| lg_end u d : legal false u d []
| lg_lock u d l : legal true u d l -> legal false u d (RLock :: l)
| lg_unlock u l : legal false u u l -> legal true u u (RUnlock :: l)
| lg_setup l : legal true true false l -> legal true false false (RSetup :: l)
| lg_seed l : legal true true true l -> legal true true false (RSeed true :: l)
| lg_fail l : legal true true false l -> legal true true false (RSeed false :: l)
| lg_free l : legal true false false l -> legal true true false (RFree :: l)
| lg_draw n l : (0 < n <= 1024)%nat -> legal true true true l -> legal true true true (RDraw n :: l).
Theorem C121_mbedtls : forall calls, Forall (fun c => answers (snd (fst c))) calls -> forall seeded, legal false seeded seeded (fst (mbed_run calls seeded)).
Proof.
  assert (DR : forall q evs, Forall (fun c => 0 < c <= 1024)%nat q -> legal false true true evs -> legal true true true ((map RDraw q ++ [RUnlock]) ++ evs)).
  { induction q as [|c q IHq]; intros evs Q L; cbn [map app]; [constructor; exact L|]. inversion Q; subst. constructor; auto. }
  induction calls as [|((seed, draw), len) r IH]; intros A seeded; [constructor|]. inversion A as [|? ? A1 A2]; subst. cbn [fst snd] in A1. cbn [mbed_run]. unfold random_bytes_mbed.
  destruct (negb seeded && negb seed) eqn:G.
  { apply andb_true_iff in G as (G1 & G2). apply negb_true_iff in G1, G2. subst. specialize (IH A2 false). destruct (mbed_run r false) as (evs, oks). cbn [fst app] in *. do 5 constructor. exact IH. }
  destruct (random_loop_ok draw 1024 ltac:(lia) A1 len 0%nat len (le_n _)) as (b & q & ok & E & R). rewrite E. specialize (IH A2 true). destruct (mbed_run r true) as (evs, oks). cbn [fst] in *.
  assert (Q : Forall (fun c => 0 < c <= 1024)%nat q) by (destruct R as [(_ & _ & (_ & AA) & _)|(_ & _ & ? & ? & _ & (_ & AA) & _)]; exact AA).
  destruct seeded; cbn [app]; do 3 try constructor; apply (DR q evs Q IH).
Qed.
(** And what it returns is what was asked for. *)
Theorem C121_mbed_bytes : forall seed draw seeded len, answers draw -> exists s ev b ok, random_bytes_mbed seed draw seeded len = (s, ev, b, ok) /\
  (ok = true -> length b = len /\ s = true) /\ (s = false <-> seeded = false /\ seed = false) /\ (s = false -> ok = false) /\ ((forall i n, draw i n <> None) -> s = true -> ok = true).
Proof.
  intros seed draw seeded len AN. unfold random_bytes_mbed. destruct (negb seeded && negb seed) eqn:G.
  - apply andb_true_iff in G as (G1 & G2). apply negb_true_iff in G1, G2. exists false. do 3 eexists. split; [reflexivity|]. split; [discriminate|]. split; [tauto|]. split; [auto|discriminate].
  - destruct (random_loop_ok draw 1024 ltac:(lia) AN len 0%nat len (le_n _)) as (b & q & ok & E & R). rewrite E. exists true. do 3 eexists. split; [reflexivity|]. split; [|split; [|split]].
    + intros ->. destruct R as [(_ & L & _)|(D & _)]; [auto|discriminate].
    + split; [discriminate|]. intros (-> & ->). discriminate.
    + discriminate.
    + intros AL _. destruct R as [(-> & _)|(_ & _ & q' & c & _ & _ & P)]; [reflexivity|destruct (AL _ _ P)].
Qed.

(** ** Cases *)
Example C120_meets : careful same odd kp_new [KFromKey None (repeat 8 32); KFromHex None (concat (repeat (bs "07") 32)); KGenerate None [Some (repeat 2 32); Some (repeat 5 32)]] /\
  kp_run same odd false [KFromKey None (repeat 8 32); KFromHex None (concat (repeat (bs "07") 32)); KGenerate None [Some (repeat 2 32); Some (repeat 5 32)]] kp_new = Ok (mkKP (repeat 5 32) (repeat 5 32) true).
Proof.
  split; [|vm_compute; reflexivity]. constructor; [intros _ A; apply A; reflexivity|]. intros x X. assert (x = kp_from_key same odd None (repeat 8 32) kp_new) by (cbn [kp_step] in X; congruence). subst x.
  constructor; [intros _ A; apply A; reflexivity|]. intros x2 X2. constructor; [intros []|]. intros y Y. constructor.
Qed.
Example C120_validate_meets : kp_validate same odd None (mkKP (repeat 7 32) (repeat 7 32) true) = Ok tt /\ kp_validate same odd None (mkKP zeros (repeat 7 32) true) = Err EInvalidKey.
Proof. split; vm_compute; reflexivity. Qed.
Example C121_meets : answers (fun i n => if (i =? 3)%nat then None else Some (repeat (N.of_nat i) n)) /\
  snd (fst (fst (random_bytes_mbed true (fun i n => if (i =? 3)%nat then None else Some (repeat (N.of_nat i) n)) false 2100))) = [RLock; RSetup; RSeed true; RDraw 1024; RDraw 1024; RDraw 52; RUnlock].
Proof. split; [|vm_compute; reflexivity]. intros i n b. destruct (i =? 3)%nat; [discriminate|]. intros E. assert (b = repeat (N.of_nat i) n) by congruence. subst b. apply repeat_length. Qed.

Print Assumptions C120_success.
Print Assumptions C120_partial.
Print Assumptions C120_validate.
Print Assumptions C120_export.
Print Assumptions C120_refuted.
Print Assumptions C120_mixture_refuted.
Print Assumptions C120_overlap_refuted.
Print Assumptions C121_openssl.
Print Assumptions C121_mbedtls.
Print Assumptions C121_mbed_bytes.
