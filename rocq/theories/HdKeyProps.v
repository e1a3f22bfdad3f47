(** Property theorems C27, C28, C67, C68 (HD keys and mnemonics). *)
From Verif Require Import Base BaseFacts BitsFacts Dec Strto Bip39Words HdKey HdKeySpec HdKeyProofs.
Open Scope N_scope.

Opaque bip39_wordlist.

Definition digest32b (sha : list N -> list N) : Prop := forall x, length (sha x) = 32%nat /\ bytes_ok (sha x).

(** ** C27 *)
(** The list of the source is a proper word list. *)
Theorem C27_wordlist : wordlist_ok bip39_wordlist.
Proof. apply bip39_facts. Qed.

(** Generation: for every entropy drawn, the buffer either is too small or
    holds the phrase of that entropy, of the requested number of words. *)
Theorem C27_generate : forall sha count size rnd ent,
  digest32b sha -> (count = 12 \/ count = 24)%nat -> (0 < size)%nat ->
  rnd (count / 3 * 4)%nat = Some ent -> length ent = (count / 3 * 4)%nat -> bytes_ok ent ->
  exists ws, spells bip39_wordlist sha ws ent /\ length ws = count /\
    mnemonic_generate bip39_wordlist sha (Z.of_nat count) size rnd =
      (if (length (join 32 ws) <? size)%nat then Ok (join 32 ws) else Err EInvalidParam).
Proof.
  intros sha count size rnd ent D C S R L B. destruct bip39_facts as (WLO & ORD).
  unfold mnemonic_generate. destruct (Nat.eqb_spec size 0); [lia|].
  destruct C as [-> | ->].
  - change (12 / 3 * 4)%nat with 16%nat in *. change (Z.of_nat 12 =? 12)%Z with true. cbv iota. rewrite R.
    destruct (generate_words bip39_wordlist sha WLO D 12 16 4 ent size) as (ws & SP & LW & E); [left; auto|assumption..|].
    exists ws. split; [exact SP|]. split; [exact LW|exact E].
  - change (24 / 3 * 4)%nat with 32%nat in *. change (Z.of_nat 24 =? 12)%Z with false. change (Z.of_nat 24 =? 24)%Z with true. cbv iota. rewrite R.
    destruct (generate_words bip39_wordlist sha WLO D 24 32 8 ent size) as (ws & SP & LW & E); [right; auto|assumption..|].
    exists ws. split; [exact SP|]. split; [exact LW|exact E].
Qed.

(** A buffer of 9 bytes per word is always large enough. *)
Theorem C27_generate_fits : forall sha count size rnd ent,
  digest32b sha -> (count = 12 \/ count = 24)%nat -> (9 * count < size)%nat ->
  rnd (count / 3 * 4)%nat = Some ent -> length ent = (count / 3 * 4)%nat -> bytes_ok ent ->
  exists ws, spells bip39_wordlist sha ws ent /\
    mnemonic_generate bip39_wordlist sha (Z.of_nat count) size rnd = Ok (join 32 ws).
Proof.
  intros sha count size rnd ent D C S R L B.
  destruct (C27_generate sha count size rnd ent D C ltac:(lia) R L B) as (ws & SP & LW & E).
  exists ws. split; [exact SP|]. rewrite E.
  pose proof (lower_length bip39_wordlist C27_wordlist ws (spells_words bip39_wordlist sha (proj1 bip39_facts) ws ent SP)) as LL.
  rewrite (proj2 (Nat.ltb_lt _ _)) by lia. reflexivity.
Qed.

(** Other word counts are refused. *)
Theorem C27_counts : forall sha count size rnd,
  count <> 12%Z -> count <> 24%Z -> mnemonic_generate bip39_wordlist sha count size rnd = Err EInvalidParam.
Proof.
  intros sha count size rnd A B. unfold mnemonic_generate. destruct (size =? 0)%nat; [reflexivity|].
  rewrite (proj2 (Z.eqb_neq _ _) A), (proj2 (Z.eqb_neq _ _) B). reflexivity.
Qed.

(** Validation accepts exactly the texts whose words spell an entropy with its
    checksum. *)
Theorem C27_validate_exact : forall sha s, digest32b sha ->
  (mnemonic_validate bip39_wordlist sha s = Ok tt <->
   exists ws ent, separated 32 s ws /\ spells bip39_wordlist sha ws ent /\
     (length ent = 16 \/ length ent = 32)%nat /\ bytes_ok ent).
Proof.
  intros sha s D. apply validate_exact; [apply bip39_facts..|exact D].
Qed.

Theorem C27_generated_valid : forall sha count size rnd ent s,
  digest32b sha -> (count = 12 \/ count = 24)%nat -> (0 < size)%nat ->
  rnd (count / 3 * 4)%nat = Some ent -> length ent = (count / 3 * 4)%nat -> bytes_ok ent ->
  mnemonic_generate bip39_wordlist sha (Z.of_nat count) size rnd = Ok s ->
  mnemonic_validate bip39_wordlist sha s = Ok tt.
Proof.
  intros sha count size rnd ent s D C S R L B G.
  destruct (C27_generate sha count size rnd ent D C S R L B) as (ws & SP & LW & E). rewrite E in G.
  destruct (_ <? _)%nat; [|discriminate]. assert (s = join 32 ws) by congruence. subst s.
  apply C27_validate_exact; [exact D|]. exists ws, ent. split; [|split; [exact SP|split; [|exact B]]].
  - apply separated_join. eapply Forall_impl; [|eapply spells_words; [apply bip39_facts|exact SP]].
    apply (lower_no_space _ C27_wordlist).
  - rewrite L. destruct C as [-> | ->]; [left|right]; reflexivity.
Qed.

(** The words determine the entropy, and the text determines the words. *)
Theorem C27_lossless : forall sha s ws1 ws2 e1 e2, digest32b sha ->
  separated 32 s ws1 -> separated 32 s ws2 ->
  spells bip39_wordlist sha ws1 e1 -> spells bip39_wordlist sha ws2 e2 -> bytes_ok e1 -> bytes_ok e2 ->
  (length e1 = 16 \/ length e1 = 32)%nat -> (length e2 = 16 \/ length e2 = 32)%nat ->
  ws1 = ws2 /\ e1 = e2.
Proof.
  intros sha s ws1 ws2 e1 e2 D S1 S2 P1 P2 B1 B2 L1 L2.
  apply separated_tokens in S1, S2. assert (E : ws1 = ws2) by congruence. split; [exact E|]. rewrite <- E in P2.
  eapply spells_inj; [apply bip39_facts|exact D|eassumption..].
Qed.

Theorem C27_injective : forall sha count s1 s2 r1 r2 e1 e2 s,
  digest32b sha -> (count = 12 \/ count = 24)%nat -> (0 < s1)%nat -> (0 < s2)%nat ->
  r1 (count / 3 * 4)%nat = Some e1 -> length e1 = (count / 3 * 4)%nat -> bytes_ok e1 ->
  r2 (count / 3 * 4)%nat = Some e2 -> length e2 = (count / 3 * 4)%nat -> bytes_ok e2 ->
  mnemonic_generate bip39_wordlist sha (Z.of_nat count) s1 r1 = Ok s ->
  mnemonic_generate bip39_wordlist sha (Z.of_nat count) s2 r2 = Ok s ->
  e1 = e2.
Proof.
  intros sha count s1 s2 r1 r2 e1 e2 s D C S1 S2 R1 L1 B1 R2 L2 B2 G1 G2.
  destruct (C27_generate sha count s1 r1 e1 D C S1 R1 L1 B1) as (w1 & P1 & _ & E1).
  destruct (C27_generate sha count s2 r2 e2 D C S2 R2 L2 B2) as (w2 & P2 & _ & E2).
  rewrite E1 in G1. rewrite E2 in G2.
  destruct (length (join 32 w1) <? s1)%nat; [|discriminate]. destruct (length (join 32 w2) <? s2)%nat; [|discriminate].
  assert (H1 : s = join 32 w1) by congruence. assert (H2 : s = join 32 w2) by congruence.
  assert (SEP : forall w e, spells bip39_wordlist sha w e -> separated 32 (join 32 w) w).
  { intros w e P. apply separated_join. eapply Forall_impl; [|eapply spells_words; [apply bip39_facts|exact P]].
    apply (lower_no_space _ C27_wordlist). }
  pose proof (SEP _ _ P1) as Q1. pose proof (SEP _ _ P2) as Q2. rewrite <- H1 in Q1. rewrite <- H2 in Q2.
  eapply (C27_lossless sha s w1 w2 e1 e2); try eassumption.
  - rewrite L1. destruct C as [-> | ->]; [left|right]; reflexivity.
  - rewrite L2. destruct C as [-> | ->]; [left|right]; reflexivity.
Qed.

(** A concrete case: sixteen zero bytes and a hash starting with 0x37 (as
    SHA-256 of them does) give the known phrase abandon ... about. *)
Definition sha_zero (x : list N) : list N := 55 :: repeat 0 31.
Example C27_case : exists s, mnemonic_generate bip39_wordlist sha_zero 12 256 (fun n => Some (repeat 0 n)) = Ok s /\
  s = join 32 (repeat (bs "abandon") 11 ++ [bs "about"]) /\
  mnemonic_validate bip39_wordlist sha_zero s = Ok tt /\
  mnemonic_validate bip39_wordlist sha_zero (join 32 (repeat (bs "abandon") 12)) = Err EInvalidParam.
Proof. eexists. split; [vm_compute; reflexivity|]. vm_compute. repeat split. Qed.
Example C27_case_digest : digest32b sha_zero.
Proof. intros x. split; [reflexivity|]. repeat constructor. Qed.

(** ** C28 *)
(** Well-formed paths are walked component by component. *)
Theorem C28_well_formed : forall (K : Type) (derive : K -> N -> res K) master path is_,
  well_formed path is_ -> derive_path K derive master path = derive_all derive master is_.
Proof.
  intros K derive master path is_ W. destruct W as [|ts is_ NE C]; [reflexivity|].
  unfold derive_path. cbn [N.eqb Pos.eqb negb].
  rewrite (separated_tokens 47 (join 47 ts) ts).
  - apply derive_tokens_components, C.
  - apply separated_join. clear NE. induction C; constructor; [eapply component_text; eassumption|assumption].
Qed.

(** Every success is the fold of some indices, one per component, and the
    text starts with m or m/. *)
Theorem C28_fold : forall (K : Type) (derive : K -> N -> res K) master path k,
  derive_path K derive master path = Ok k ->
  (path = [109] /\ k = master) \/
  exists r ts is_, path = 109 :: 47 :: r /\ separated 47 r ts /\ length is_ = length ts /\
    Forall (fun i => i < 2 ^ 32) is_ /\ derive_all derive master is_ = Ok k.
Proof.
  intros K derive master path k. unfold derive_path.
  destruct path as [|c r]; [discriminate|].
  destruct (N.eqb_spec c 109) as [->|]; cbn [negb]; [|discriminate].
  destruct r as [|s r].
  - intros E. left. split; [reflexivity|congruence].
  - destruct (N.eqb_spec s 47) as [->|]; [|discriminate]. intros E. right.
    destruct (derive_tokens_sound K derive (tokens 47 r) master k E) as (is_ & F & L & A).
    exists r, (tokens 47 r), is_. split; [reflexivity|]. split; [apply tokens_separated|]. auto.
Qed.

(** Malformed paths are accepted: an index of 2^32 wraps to 0. *)
Lemma join_no_sep d : forall ts, ~ In d (join d ts) -> (length ts <= 1)%nat.
Proof.
  intros [|a [|b ts]] H; cbn [length]; try lia. exfalso. apply H.
  change (join d (a :: b :: ts)) with (a ++ d :: join d (b :: ts)). apply in_or_app. right. left. reflexivity.
Qed.
Lemma big_component t i : component t i -> t = bs "4294967296" -> False.
Proof.
  intros CT ET. destruct CT as [ds v N1 F EV LT|ds v c N1 F CC EV LT].
  - rewrite ET in EV. vm_compute in EV. subst v. vm_compute in LT. discriminate.
  - apply (f_equal (@rev N)) in ET. rewrite rev_app_distr in ET. cbn [rev app] in ET.
    assert (EC : nth 0 (c :: rev ds) 0 = 54) by (rewrite ET; reflexivity). cbn [nth] in EC. lia.
Qed.
Theorem C28_refuted : ~ (forall (K : Type) (derive : K -> N -> res K) master path k,
  derive_path K derive master path = Ok k ->
  exists is_, well_formed path is_ /\ derive_all derive master is_ = Ok k).
Proof.
  intros H. set (d := fun (k : list N) (i : N) => Ok (k ++ [i])).
  destruct (H (list N) d [] (bs "m/4294967296") [0] ltac:(vm_compute; reflexivity)) as (is_ & W & _).
  remember (bs "m/4294967296") as p eqn:EP. destruct W as [|ts is_ NE C]; [discriminate|].
  assert (J : join 47 ts = bs "4294967296").
  { apply (f_equal (skipn 2)) in EP. cbn [skipn] in EP. rewrite EP. reflexivity. }
  destruct ts as [|t ts]; [congruence|].
  assert (L : (length (t :: ts) <= 1)%nat).
  { apply (join_no_sep 47). rewrite J. vm_compute. intuition discriminate. }
  destruct ts; [|cbn [length] in L; lia]. cbn [join] in J. subst t.
  inversion C as [|t i ts is' CT CR E1 E2]; subst. exact (big_component _ _ CT eq_refl).
Qed.
(** Some of the texts accepted, and what they derive. *)
Theorem C28_accepted_refuted : forall (K : Type) (derive : K -> N -> res K) master,
  derive_path K derive master (bs "m/4294967296") = derive_all derive master [0] /\
  derive_path K derive master (bs "m/-4294967295") = derive_all derive master [1] /\
  derive_path K derive master (bs "m/'") = derive_all derive master [2147483648] /\
  derive_path K derive master (bs "m// +1") = derive_all derive master [1] /\
  derive_path K derive master (bs "m/") = Ok master.
Proof.
  intros K derive master.
  assert (E : forall i, (do next <- derive master i; Ok next) = derive_all derive master [i]).
  { intros i. cbn [derive_all]. destruct (derive master i); reflexivity. }
  repeat split; rewrite <- ?E; vm_compute; reflexivity.
Qed.

(** The NIP-06 account path. *)
Lemma account_digit_component n : n < 2147483648 -> component (dec_N n ++ [39]) (n + 2147483648).
Proof.
  intros L. apply CHard; [apply dec_nonempty| |left; reflexivity| |exact L].
  - eapply Forall_impl; [|apply dec_is_digits]. intros c. apply digit_range.
  - symmetry. exact (undec_dec n).
Qed.
Theorem C28_account : forall (K : Type) (derive : K -> N -> res K) master account, account < 2 ^ 31 ->
  derive_path K derive master (account_path account) =
  derive_all derive master [2147483648 + 44; 2147483648 + 1237; 2147483648 + account; 0; 0].
Proof.
  intros K derive master account A. apply C28_well_formed.
  assert (E : account_path account = 109 :: 47 :: join 47 [bs "44'"; bs "1237'"; dec_N account ++ [39]; bs "0"; bs "0"]).
  { unfold account_path. cbn [join]. rewrite <- !app_assoc. reflexivity. }
  rewrite E. apply WfPath; [discriminate|].
  assert (D : forall ds v, ds <> [] -> Forall (fun c => 48 <= c <= 57) ds ->
     v = fold_left (fun a c => a * 10 + (c - 48)) ds 0 -> v < 2147483648 -> component (ds ++ [39]) (2147483648 + v)).
  { intros ds v H1 H2 H3 H4. rewrite N.add_comm. apply CHard; auto. }
  assert (Z0 : component (bs "0") 0).
  { apply CNormal; [discriminate| |reflexivity|reflexivity]. repeat constructor; discriminate. }
  constructor; [apply (D (bs "44") 44); [discriminate| |reflexivity|reflexivity]; repeat constructor; discriminate|].
  constructor; [apply (D (bs "1237") 1237); [discriminate| |reflexivity|reflexivity]; repeat constructor; discriminate|].
  constructor; [rewrite N.add_comm; apply account_digit_component, A|].
  constructor; [exact Z0|]. constructor; [exact Z0|]. constructor.
Qed.
(** Accounts of 2^31 and above never give a key. *)
Theorem C28_account_range : forall (K : Type) (derive : K -> N -> res K) master account k,
  2 ^ 31 <= account < 2 ^ 32 -> derive_path K derive master (account_path account) <> Ok k.
Proof.
  intros K derive master account k A H.
  assert (T : tokens 47 (bs "44'/1237'/" ++ dec_N account ++ bs "'/0/0") =
              [bs "44'"; bs "1237'"; dec_N account ++ [39]; bs "0"; bs "0"]).
  { assert (ND : ~ In 47 (dec_N account ++ [39])).
    { intros I. apply in_app_or in I. destruct I as [I|[I|[]]]; [|discriminate].
      pose proof (dec_is_digits account) as F. rewrite Forall_forall in F. apply F in I. discriminate. }
    apply separated_tokens.
    change (bs "44'/1237'/" ++ dec_N account ++ bs "'/0/0") with
           (bs "44'" ++ 47 :: bs "1237'" ++ 47 :: dec_N account ++ [39] ++ 47 :: bs "0" ++ 47 :: bs "0").
    constructor; [discriminate|vm_compute; intuition discriminate|].
    constructor; [discriminate|vm_compute; intuition discriminate|].
    rewrite app_assoc. constructor; [destruct (dec_N account); discriminate|exact ND|].
    constructor; [discriminate|vm_compute; intuition discriminate|].
    apply SepLast; [discriminate|vm_compute; intuition discriminate]. }
  unfold derive_path, account_path in H.
  change (bs "m/44'/1237'/" ++ dec_N account ++ bs "'/0/0") with (109 :: 47 :: bs "44'/1237'/" ++ dec_N account ++ bs "'/0/0") in H.
  cbn [N.eqb Pos.eqb negb] in H. rewrite T in H. cbn [derive_tokens] in H.
  destruct (token_index (bs "44'")); [|discriminate]. destruct (derive master _); cbn [bind] in H; [|discriminate..].
  destruct (token_index (bs "1237'")); [|discriminate]. destruct (derive _ _); cbn [bind] in H; [|discriminate..].
  enough (E : token_index (dec_N account ++ [39]) = None) by (rewrite E in H; discriminate).
  unfold token_index. rewrite app_length. cbn [length].
  replace (length (dec_N account) + 1 - 1)%nat with (length (dec_N account)) by lia.
  rewrite app_nth2, Nat.sub_diag by lia. cbn [nth]. change ((39 =? 39) || (39 =? 104)) with true. cbv iota.
  rewrite firstn_app_exact by reflexivity.
  unfold strtoul. rewrite scan_int_digits by (apply dec_nonempty || apply dec_is_digits).
  rewrite undec_dec. rewrite (proj2 (N.ltb_ge _ _)) by (change (2 ^ 32) with 4294967296 in A; lia).
  unfold to_u32. rewrite N.mod_small by (apply A). cbn [length Nat.eqb negb orb].
  rewrite (proj2 (N.leb_le _ _)); [reflexivity|]. apply A.
Qed.
Example C28_case : well_formed (bs "m/44'/0h/7") [2147483692; 2147483648; 7] /\
  derive_path (list N) (fun k i => Ok (k ++ [i])) [] (bs "m/44'/0h/7") = Ok [2147483692; 2147483648; 7] /\
  derive_path (list N) (fun k i => Ok (k ++ [i])) [] (bs "m/2147483648") = Err EInvalidParam /\
  derive_path (list N) (fun k i => Ok (k ++ [i])) [] (bs "m/1x") = Err EInvalidParam.
Proof.
  split; [|vm_compute; repeat split].
  change (bs "m/44'/0h/7") with (109 :: 47 :: join 47 [bs "44" ++ [39]; bs "0" ++ [104]; bs "7"]).
  apply WfPath; [discriminate|].
  constructor; [apply (CHard (bs "44") 44); [discriminate| |left; reflexivity|reflexivity..]; repeat constructor; discriminate|].
  constructor; [apply (CHard (bs "0") 0); [discriminate| |right; reflexivity|reflexivity..]; repeat constructor; discriminate|].
  constructor; [apply CNormal; [discriminate| |reflexivity..]; repeat constructor; discriminate|constructor].
Qed.

(** ** C67: the same words give the same keys *)
(** The seed is PBKDF2 of the text as given (normalised), salted with
    mnemonic and the passphrase. *)
Theorem C67_seed : forall sha norm pbkdf2 s m p p', digest32b sha ->
  mnemonic_validate bip39_wordlist sha s = Ok tt -> norm s = Ok m -> norm p = Ok p' ->
  mnemonic_to_seed bip39_wordlist sha norm pbkdf2 s (Some p) =
    match pbkdf2 m (bs "mnemonic" ++ p') with Some seed => Ok seed | None => Err EMemory end.
Proof.
  intros sha norm pbkdf2 s m p p' D V N1 N2. unfold mnemonic_to_seed. rewrite V. cbn [bind]. rewrite N1. cbn [bind]. rewrite N2. reflexivity.
Qed.
(** An accepted phrase with one more space is accepted too, spells the same
    words, and is hashed as a different password. *)
Theorem C67_extra_space : forall sha s, digest32b sha ->
  mnemonic_validate bip39_wordlist sha s = Ok tt ->
  mnemonic_validate bip39_wordlist sha (32 :: s) = Ok tt /\ 32 :: s <> s /\
  exists ws, separated 32 s ws /\ separated 32 (32 :: s) ws.
Proof.
  intros sha s D V. apply C27_validate_exact in V as (ws & ent & SP & R); [|exact D]. split; [|split].
  - apply C27_validate_exact; [exact D|]. exists ws, ent. split; [constructor; exact SP|exact R].
  - intros E. apply (f_equal (@length N)) in E. cbn [length] in E. lia.
  - exists ws. split; [exact SP|constructor; exact SP].
Qed.
Theorem C67_refuted : ~ (forall sha norm pbkdf2 s1 s2 ws pass, digest32b sha ->
  mnemonic_validate bip39_wordlist sha s1 = Ok tt -> mnemonic_validate bip39_wordlist sha s2 = Ok tt ->
  separated 32 s1 ws -> separated 32 s2 ws ->
  mnemonic_to_seed bip39_wordlist sha norm pbkdf2 s1 pass = mnemonic_to_seed bip39_wordlist sha norm pbkdf2 s2 pass).
Proof.
  intros H. destruct C27_case as (s & G & ES & V & _).
  destruct (C67_extra_space sha_zero s C27_case_digest V) as (V2 & NE & ws & S1 & S2).
  specialize (H sha_zero (fun x => Ok x) (fun m _ => Some m) s (32 :: s) ws None C27_case_digest V V2 S1 S2).
  unfold mnemonic_to_seed in H. rewrite V, V2 in H. cbn [bind] in H. congruence.
Qed.
(** For texts in the standard form, single spaces, the words decide. *)
Theorem C67_canonical_partial : forall sha norm pbkdf2 s1 s2 ws pass,
  s1 = join 32 ws -> separated 32 s2 ws ->
  (forall x y, s2 <> x ++ [32; 32] ++ y) -> (forall x, s2 <> 32 :: x) -> (forall x, s2 <> x ++ [32]) ->
  mnemonic_to_seed bip39_wordlist sha norm pbkdf2 s1 pass = mnemonic_to_seed bip39_wordlist sha norm pbkdf2 s2 pass.
Proof.
  intros sha norm pbkdf2 s1 s2 ws pass -> S A B C. f_equal. symmetry. clear pass.
  induction S as [|s ws S IH|w NE NI|w s ws NE NI S IH].
  - reflexivity.
  - exfalso. apply (B s). reflexivity.
  - reflexivity.
  - assert (s <> []) by (intros ->; apply (C w); reflexivity).
    assert (E : s = join 32 ws).
    { apply IH.
      - intros x y EX. apply (A (w ++ 32 :: x) y). rewrite EX, <- app_assoc. reflexivity.
      - intros x EX. apply (A w x). rewrite EX. reflexivity.
      - intros x EX. apply (C (w ++ 32 :: x)). rewrite EX, <- app_assoc. reflexivity. }
    destruct ws as [|w2 ws].
    + cbn [join] in E. congruence.
    + change (join 32 (w :: w2 :: ws)) with (w ++ 32 :: join 32 (w2 :: ws)). rewrite E. reflexivity.
Qed.
Example C67_case : exists s, s = join 32 [bs "abandon"; bs "about"] /\ separated 32 s [bs "abandon"; bs "about"] /\
  (forall x, s <> x ++ [32]) /\ (forall x, s <> 32 :: x).
Proof.
  eexists. split; [reflexivity|]. split.
  - apply separated_join. repeat constructor; try discriminate; vm_compute; intuition discriminate.
  - split; intros x E; [|discriminate].
    apply (f_equal (fun l => last l 0)) in E. rewrite last_last in E. vm_compute in E. discriminate.
Qed.

(** ** C68: child keys are those of BIP-32 *)
Theorem C68_child : forall hmac512 pub_compressed tweak_add pub_xonly H point xonly n,
  provides hmac512 pub_compressed tweak_add pub_xonly H point xonly n ->
  forall parent kc i, represents xonly n parent kc -> i < 2 ^ 32 ->
  match ckd_priv H point n kc i with
  | Some kc' => exists ch, hd_derive hmac512 pub_compressed tweak_add pub_xonly parent i = (Ok tt, ch) /\ represents xonly n ch kc'
  | None => exists ch, hd_derive hmac512 pub_compressed tweak_add pub_xonly parent i = (Err EInvalidKey, ch)
  end.
Proof. intros. apply derive_child; assumption. Qed.

Theorem C68_master : forall hmac512 pub_compressed tweak_add pub_xonly H point xonly n,
  provides hmac512 pub_compressed tweak_add pub_xonly H point xonly n ->
  forall seed out, (16 <= length seed <= 64)%nat ->
  match master H n seed with
  | Some kc => exists k, hd_from_seed hmac512 pub_xonly seed out = (Ok tt, k) /\ represents xonly n k kc
  | None => hd_from_seed hmac512 pub_xonly seed out = (Err EInvalidKey, hd_zero)
  end.
Proof. intros. eapply seed_master; eassumption. Qed.

Lemma component_range ts is_ : components ts is_ -> Forall (fun i => i < 2 ^ 32) is_.
Proof.
  induction 1 as [|t i ts is_ C CS IH]; constructor; [|exact IH].
  destruct C; change (2 ^ 32) with 4294967296; lia.
Qed.
Theorem C68_path : forall hmac512 pub_compressed tweak_add pub_xonly H point xonly n,
  provides hmac512 pub_compressed tweak_add pub_xonly H point xonly n ->
  forall k kc path is_, represents xonly n k kc -> well_formed path is_ ->
  match ckd_path H point n kc is_ with
  | Some kc' => exists ch, derive_path hd_key (derive1 hmac512 pub_compressed tweak_add pub_xonly) k path = Ok ch /\ represents xonly n ch kc'
  | None => derive_path hd_key (derive1 hmac512 pub_compressed tweak_add pub_xonly) k path = Err EInvalidKey
  end.
Proof.
  intros until n. intros P k kc path is_ R W. rewrite (C28_well_formed _ _ _ _ _ W).
  apply derive_all_ckd; [exact P| |exact R].
  destruct W as [|ts is_ NE C]; [constructor|]. eapply component_range, C.
Qed.

(** From phrase to key: the BIP-39 seed, its BIP-32 master key, and the path
    44' / 1237' / account' / 0 / 0. *)
Definition from_seed1 hmac512 pub_xonly (seed : list N) : res hd_key :=
  match hd_from_seed hmac512 pub_xonly seed hd_zero with
  | (Ok _, k) => Ok k
  | (Err e, _) => Err e
  | (Undef, _) => Undef
  end.
Theorem C68_account_key : forall hmac512 pub_compressed tweak_add pub_xonly H point xonly n sha norm pbkdf2,
  provides hmac512 pub_compressed tweak_add pub_xonly H point xonly n -> digest32b sha ->
  forall s pass seed account, account < 2 ^ 31 ->
  mnemonic_to_seed bip39_wordlist sha norm pbkdf2 s pass = Ok seed -> length seed = 64%nat ->
  let r := mnemonic_to_key bip39_wordlist sha norm pbkdf2 hd_key (from_seed1 hmac512 pub_xonly)
             (derive1 hmac512 pub_compressed tweak_add pub_xonly) s pass account in
  match master H n seed with
  | None => r = Err EInvalidKey
  | Some kc =>
    match ckd_path H point n kc [2147483648 + 44; 2147483648 + 1237; 2147483648 + account; 0; 0] with
    | Some kc' => exists k, r = Ok k /\ represents xonly n k kc'
    | None => r = Err EInvalidKey
    end
  end.
Proof.
  intros until pbkdf2. intros P D s pass seed account A SE L r. subst r. unfold mnemonic_to_key. rewrite SE. cbn [bind].
  unfold from_seed1 at 1 2 3.
  pose proof (C68_master _ _ _ _ _ _ _ _ P seed hd_zero ltac:(lia)) as M.
  destruct (master H n seed) as [kc|].
  - destruct M as (k & E & R). rewrite E. cbn [bind]. rewrite C28_account by exact A.
    apply derive_all_ckd; [exact P| |exact R].
    repeat constructor; change (2 ^ 32) with 4294967296; change (2 ^ 31) with 2147483648 in A; lia.
  - rewrite M. reflexivity.
Qed.

(** Deriving in place, the child overwriting its parent, destroys the key. *)
Definition derive_in_place hmac512 pub_compressed tweak_add pub_xonly (k : hd_key) (i : N) : res unit * hd_key :=
  (* src/hd_key.c:107: child is cleared before parent is read *)
  hd_derive hmac512 pub_compressed tweak_add pub_xonly hd_zero i.
Theorem C68_in_place_refuted : forall hmac512 pub_compressed tweak_add pub_xonly H point xonly n,
  provides hmac512 pub_compressed tweak_add pub_xonly H point xonly n ->
  forall k i, i < 2 ^ 32 -> exists ch,
    derive_in_place hmac512 pub_compressed tweak_add pub_xonly k i = (Err EInvalidKey, ch) /\ h_priv ch = repeat 0 32.
Proof.
  intros until n. intros P k i I. unfold derive_in_place, hd_derive.
  assert (Z : parse256 (repeat 0 32) = 0) by reflexivity.
  assert (LZ : length (repeat 0 32) = 32%nat) by reflexivity.
  assert (BZ : bytes_ok (repeat 0 32)) by (repeat constructor).
  cbn [h_priv h_chain hd_zero].
  rewrite (p_comp _ _ _ _ _ _ _ _ P _ LZ BZ). rewrite Z. cbn [N.eqb orb].
  destruct (N.testbit i 31).
  - rewrite (p_hmac _ _ _ _ _ _ _ _ P).
    rewrite (p_tweak _ _ _ _ _ _ _ _ P); try assumption.
    2:{ rewrite firstn_length. destruct (p_len _ _ _ _ _ _ _ _ P (repeat 0 32) ([0] ++ repeat 0 32 ++ be32 i)) as (-> & _). reflexivity. }
    2:{ apply Forall_firstn. apply (p_len _ _ _ _ _ _ _ _ P). }
    rewrite Z. cbn [N.eqb orb]. eexists. split; reflexivity.
  - eexists. split; reflexivity.
Qed.

(** A concrete case: a group of order 2^256 with trivial points. *)
Definition demo_valid (l : list N) : bool := (parse256 l =? 0) || (2 ^ 256 <=? parse256 l).
Definition demo_H (k d : list N) : list N := repeat (N.of_nat (length d)) 64.
Definition demo_key : hd_key := mkHd (ser 32 5) [] (repeat 1 32).
Definition demo_tweak (l t : list N) : option (list N) :=
  if demo_valid l || (2 ^ 256 <=? parse256 t) || ((parse256 t + parse256 l) mod 2 ^ 256 =? 0) then None
  else Some (ser 32 ((parse256 t + parse256 l) mod 2 ^ 256)).
Definition demo_pub (l : list N) : option (list N) := if demo_valid l then None else Some [].
Lemma C68_demo_provides : provides (fun k d => if (256 <=? length d)%nat then Some (repeat 0 64) else Some (demo_H k d)) demo_pub demo_tweak demo_pub
  (fun k d => if (256 <=? length d)%nat then repeat 0 64 else demo_H k d) (fun _ => []) (fun _ => []) (2 ^ 256).
Proof.
  constructor.
  - intros k d. destruct (256 <=? length d)%nat; reflexivity.
  - intros k d. destruct (Nat.leb_spec 256 (length d)).
    + split; [reflexivity|]. apply Forall_repeat. reflexivity.
    + split; [apply repeat_length|]. apply Forall_repeat. change (N.of_nat (length d) < 256). lia.
  - split; [reflexivity|]. apply N.le_refl.
  - reflexivity.
  - reflexivity.
  - intros l t _ _ _ _. unfold demo_tweak, demo_valid. reflexivity.
Qed.
Example C68_case : represents (fun _ => []) (2 ^ 256) demo_key (5, repeat 1 32) /\
  derive_path hd_key (derive1 (fun k d => Some (demo_H k d)) demo_pub demo_tweak demo_pub) demo_key (bs "m/1'") =
    Ok (mkHd (repeat 37 31 ++ [42]) [] (repeat 37 32)).
Proof.
  split; [split; [split; reflexivity|repeat split]|vm_compute; reflexivity].
Qed.

Print Assumptions C27_wordlist.
Print Assumptions C27_generate.
Print Assumptions C27_generate_fits.
Print Assumptions C27_counts.
Print Assumptions C27_validate_exact.
Print Assumptions C27_generated_valid.
Print Assumptions C27_lossless.
Print Assumptions C27_injective.
Print Assumptions C28_well_formed.
Print Assumptions C28_fold.
Print Assumptions C28_refuted.
Print Assumptions C28_accepted_refuted.
Print Assumptions C28_account.
Print Assumptions C28_account_range.
Print Assumptions C67_seed.
Print Assumptions C67_extra_space.
Print Assumptions C67_refuted.
Print Assumptions C67_canonical_partial.
Print Assumptions C68_child.
Print Assumptions C68_master.
Print Assumptions C68_path.
Print Assumptions C68_account_key.
Print Assumptions C68_in_place_refuted.
