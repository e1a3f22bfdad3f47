(** Memory of paths and words: C153. *)
From Verif Require Import Base BaseFacts Heap Bip39Words HdKey HdKeySpec HdKeyProofs HdKeyProps KeyPair EventMem RelayMemSpec RelayMemProps EventMemSpec EventMemProps EventOomSpec Nip21Mem Nip21MemProps Nip05MemProps HdMem HdMemSpec.
From Coq Require Import Permutation.
Open Scope nat_scope.
Opaque bip39_wordlist.

Lemma wipe_some b h l : holds h (b :: l) -> exists h', wipe_free (Some b) h = Ok (tt, h') /\ holds h' l /\ h_next h' = h_next h.
Proof. intros X. unfold wipe_free. rewrite (mbind_ok _ _ _ _ _ (use_holds b h _ X (or_introl eq_refl))). apply free_holds, X. Qed.
Lemma wipe_opt p h l : holds h (opt_list p ++ l) -> exists h', wipe_free p h = Ok (tt, h') /\ holds h' l /\ h_next h' = h_next h.
Proof. destruct p as [b|]; intros X; [apply wipe_some, X|]. exists h. auto. Qed.

(** Checking words of the standard list is always defined. *)
Lemma or_bits_total idx ps : forall e, bytes_ok e -> Forall (fun p => p < 8 * length e) ps -> exists e', or_bits e idx ps = Ok e'.
Proof. intros e B F. destruct (or_bits_spec bip39_wordlist (proj1 bip39_facts) idx ps e B F) as (e' & E & _). eauto. Qed.
Lemma validate_total sha s : mnemonic_validate bip39_wordlist sha s <> Undef.
Proof.
  unfold mnemonic_validate. destruct (length s =? 0); [discriminate|]. pose proof (word_indices_total bip39_wordlist (proj1 bip39_facts) (proj2 bip39_facts) 24 (tokens 32 s)) as T.
  destruct (word_indices bip39_wordlist 24 (tokens 32 s)) as [idx|x|]; cbn [bind]; [|discriminate|congruence]. unfold check_indices.
  assert (G : length idx <= 24 -> exists e, or_bits (repeat 0%N 33) idx (seq 0 (length idx * 11)) = Ok e).
  { intros L. apply or_bits_total; [apply Forall_repeat; reflexivity|]. apply Forall_forall. intros p Hp. apply in_seq in Hp. rewrite repeat_length. lia. }
  destruct (Nat.eqb_spec (length idx) 12); [|destruct (Nat.eqb_spec (length idx) 24); [|discriminate]]; (destruct G as (bits & ->); [lia|]); cbn [bind]; destruct (_ =? _)%N; discriminate.
Qed.

Section Grant.
Variable grant : nat -> bool.
(** [m] keeps no memory and answers [r], or memory ran out. *)
Definition answers {A} (m : M (ans A)) (r : res A) (h0 h : heap) (l : list nat) : Prop :=
  exists o h', m h = Ok (o, h') /\ holds h' l /\ h_next h <= h_next h' /\
  match o with inl a => r = Ok a | inr x => r = Err x \/ x = EMemory /\ failed grant h0 h' end.
Lemma answers_weaken {A} (m : M (ans A)) r h1 h0 h l : answers m r h1 h l -> h_next h0 <= h_next h1 -> answers m r h0 h l.
Proof.
  intros (o & h' & E & X & L & R) LE. exists o, h'. split; [exact E|]. split; [exact X|]. split; [exact L|]. destruct o; [exact R|]. destruct R as [R|(R & F)]; [left; exact R|right]. split; [exact R|]. exact (failed_wider _ _ _ _ _ F LE (Nat.le_refl _)).
Qed.
Lemma answers_lift {A} (r : res A) h0 h l : holds h l -> r <> Undef -> answers (lift r) r h0 h l.
Proof. intros X D. destruct r as [a|x|]; [exists (inl a), h|exists (inr x), h|congruence]; (split; [reflexivity|]); auto. Qed.
Lemma answers_bind {A B} (m : M (ans A)) (r : res A) (k : A -> M (ans B)) (rk : A -> res B) h0 h l : answers m r h0 h l -> h_next h0 <= h_next h ->
  (forall a h', r = Ok a -> holds h' l -> h_next h0 <= h_next h' -> answers (k a) (rk a) h0 h' l) ->
  answers (let! v := m in match v with inr x => mret (inr x) | inl a => k a end) (do a <- r; rk a) h0 h l.
Proof.
  intros (o & h1 & E & X & L & R) L0 K. unfold answers. rewrite (mbind_ok _ _ _ _ _ E). destruct o as [a|x].
  - rewrite R. cbn [bind]. destruct (K a h1 R X ltac:(lia)) as (o & h2 & E2 & X2 & L2 & R2). exists o, h2. split; [exact E2|]. split; [exact X2|]. split; [lia|exact R2].
  - exists (inr x), h1. split; [reflexivity|]. split; [exact X|]. split; [exact L|]. destruct R as [R|R]; [left; rewrite R; reflexivity|right; exact R].
Qed.

(** Deriving along a path. *)
Theorem C153_path : forall (key : Type) (derive : key -> N -> res key) master path h l, holds h l -> derive_path key derive master path <> Undef ->
  answers (derive_path_m grant key derive master path) (derive_path key derive master path) h h l.
Proof.
  intros key derive master path h l X D. unfold derive_path_m, derive_path in *. destruct path as [|c r]; [exists (inr EInvalidParam), h; auto|].
  destruct (negb _); [exists (inr EInvalidParam), h; auto|]. destruct r as [|s r]; [exists (inl master), h; auto|]. destruct (_ =? _)%N; [|exists (inr EInvalidParam), h; auto].
  unfold answers. destruct (ealloc_cases grant h _ X) as [(b & h1 & E & X1 & L1)|(h1 & E & X1 & L1 & F)]; rewrite (mbind_ok _ _ _ _ _ E).
  2:{ exists (inr EMemory), h1. split; [reflexivity|]. split; [exact X1|]. split; [exact L1|]. right. auto. }
  rewrite (mbind_ok _ _ _ _ _ (use_holds b h1 _ X1 (or_introl eq_refl))). destruct (wipe_some b h1 l X1) as (h2 & E2 & X2 & L2).
  destruct (derive_tokens key derive master (tokens 47 r)) as [k|x|]; [| |congruence].
  - rewrite (mbind_ok _ _ _ _ _ (eq_refl : lift (Ok k) h1 = Ok (inl k, h1))), (mbind_ok _ _ _ _ _ E2). exists (inl k), h2. split; [reflexivity|]. split; [exact X2|]. split; [lia|reflexivity].
  - rewrite (mbind_ok _ _ _ _ _ (eq_refl : lift (@Err key x) h1 = Ok (inr x, h1))), (mbind_ok _ _ _ _ _ E2). exists (inr x), h2. split; [reflexivity|]. split; [exact X2|]. split; [lia|left; reflexivity].
Qed.
(** Checking words. *)
Lemma validate_ok : forall wl sha s h l, holds h l -> mnemonic_validate wl sha s <> Undef -> answers (mnemonic_validate_m grant wl sha s) (mnemonic_validate wl sha s) h h l.
Proof.
  intros wl sha s h l X D. unfold mnemonic_validate_m, mnemonic_validate in *. destruct (length s =? 0); [exists (inr EInvalidParam), h; auto|].
  unfold answers. destruct (ealloc_cases grant h _ X) as [(b & h1 & E & X1 & L1)|(h1 & E & X1 & L1 & F)]; rewrite (mbind_ok _ _ _ _ _ E).
  2:{ exists (inr EMemory), h1. split; [reflexivity|]. split; [exact X1|]. split; [exact L1|]. right. auto. }
  rewrite (mbind_ok _ _ _ _ _ (use_holds b h1 _ X1 (or_introl eq_refl))). destruct (wipe_some b h1 l X1) as (h2 & E2 & X2 & L2).
  destruct (word_indices wl 24 (tokens 32 s)) as [idx|x|]; cbn [bind] in *; [| |congruence].
  - rewrite (mbind_ok _ _ _ _ _ (eq_refl : lift (Ok idx) h1 = Ok (inl idx, h1))), (mbind_ok _ _ _ _ _ E2). destruct (answers_lift _ h h2 l X2 D) as (o & h3 & E3 & X3 & L3 & R3). exists o, h3. split; [exact E3|]. split; [exact X3|]. split; [lia|exact R3].
  - rewrite (mbind_ok _ _ _ _ _ (eq_refl : lift (@Err (list N) x) h1 = Ok (inr x, h1))), (mbind_ok _ _ _ _ _ E2). exists (inr x), h2. split; [reflexivity|]. split; [exact X2|]. split; [lia|left; reflexivity].
Qed.
Theorem C153_validate : forall sha s h l, holds h l -> answers (mnemonic_validate_m grant bip39_wordlist sha s) (mnemonic_validate bip39_wordlist sha s) h h l.
Proof. intros. apply validate_ok; [assumption|apply validate_total]. Qed.

Lemma salted_ok pbkdf2 bm bp m p h0 h l : holds h (opt_list bm ++ opt_list bp ++ l) -> h_next h0 <= h_next h ->
  answers (salted grant pbkdf2 bm bp m p) (match pbkdf2 m (bs "mnemonic" ++ p) with Some s => Ok s | None => Err EMemory end) h0 h l.
Proof.
  intros X L0. unfold salted, answers. destruct (ealloc_cases grant h _ X) as [(b & h1 & E & X1 & L1)|(h1 & E & X1 & L1 & F)]; rewrite (mbind_ok _ _ _ _ _ E).
  - rewrite (mbind_ok _ _ _ _ _ (use_holds b h1 _ X1 (or_introl eq_refl))). cbv zeta. destruct (wipe_some b h1 _ X1) as (h2 & E2 & X2 & L2). rewrite (mbind_ok _ _ _ _ _ E2).
    destruct (wipe_opt _ _ _ X2) as (h3 & E3 & X3 & L3). rewrite (mbind_ok _ _ _ _ _ E3). destruct (wipe_opt _ _ _ X3) as (h4 & E4 & X4 & L4). rewrite (mbind_ok _ _ _ _ _ E4).
    eexists. exists h4. split; [reflexivity|]. split; [exact X4|]. split; [lia|]. destruct (pbkdf2 _ _); [reflexivity|left; reflexivity].
  - destruct (free_opt_holds _ _ _ X1) as (h2 & E2 & X2 & L2). rewrite (mbind_ok _ _ _ _ _ E2). destruct (free_opt_holds _ _ _ X2) as (h3 & E3 & X3 & L3). rewrite (mbind_ok _ _ _ _ _ E3).
    exists (inr EMemory), h3. split; [reflexivity|]. split; [exact X3|]. split; [lia|]. right. split; [reflexivity|]. refine (failed_wider _ _ _ _ _ F _ _); lia.
Qed.
Lemma nfkd_ok f s h l : holds h l -> exists o h', nfkd_m grant f s h = Ok (o, h') /\ h_next h <= h_next h' /\
  match o with Some (b, t) => f s = Some t /\ holds h' (b :: l) | None => holds h' l /\ (f s = None \/ failed grant h h') end.
Proof.
  intros X. unfold nfkd_m. destruct (ealloc_cases grant h _ X) as [(b & h1 & E & X1 & L1)|(h1 & E & X1 & L1 & F)]; rewrite (mbind_ok _ _ _ _ _ E).
  - destruct (f s) as [t|]; [exists (Some (b, t)), h1; split; [reflexivity|]; auto|]. destruct (free_holds _ _ _ X1) as (h2 & E2 & X2 & L2). rewrite (mbind_ok _ _ _ _ _ E2). exists None, h2. split; [reflexivity|]. split; [lia|auto].
  - exists None, h1. split; [reflexivity|]. auto.
Qed.
Lemma ascii_reading s : reading None s = if ascii s then Ok s else Err EInvalidParam.
Proof.
  unfold reading, ascii. assert (E : existsb (fun c => 128 <=? c)%N s = negb (forallb (fun c => c <=? 127)%N s)).
  { induction s as [|c s IH]; [reflexivity|]. cbn [existsb forallb]. rewrite IH. destruct (N.leb_spec 128 c), (N.leb_spec c 127); try reflexivity; lia. }
  rewrite E. destruct (forallb _ s); reflexivity.
Qed.
(** From words to a seed. *)
Theorem C153_seed : forall sha nfkd pbkdf2 s pass h l, holds h l ->
  answers (mnemonic_to_seed_m grant bip39_wordlist sha nfkd pbkdf2 s pass) (mnemonic_to_seed bip39_wordlist sha (reading nfkd) pbkdf2 s pass) h h l.
Proof.
  intros sha nfkd pbkdf2 s pass h l X. unfold mnemonic_to_seed_m, mnemonic_to_seed. apply answers_bind; [apply C153_validate; assumption|lia|].
  intros [] h1 _ X1 L1. destruct nfkd as [f|].
  - unfold answers. destruct (nfkd_ok f s h1 l X1) as (o & h2 & E2 & L2 & R2). rewrite (mbind_ok _ _ _ _ _ E2). destruct o as [[bm m]|].
    2:{ destruct R2 as (X2 & R2). exists (inr EMemory), h2. split; [reflexivity|]. split; [exact X2|]. split; [exact L2|]. destruct R2 as [R2|F]; [left; unfold reading; rewrite R2; reflexivity|right]. split; [reflexivity|]. refine (failed_wider _ _ _ _ _ F _ _); lia. }
    destruct R2 as (R2 & X2). assert (Rs : reading (Some f) s = Ok m) by (unfold reading; rewrite R2; reflexivity). rewrite Rs. cbn [bind]. destruct pass as [p|].
    + destruct (nfkd_ok f p h2 _ X2) as (o & h3 & E3 & L3 & R3). rewrite (mbind_ok _ _ _ _ _ E3). destruct o as [[bp q]|].
      * destruct R3 as (R3 & X3). assert (Rp : reading (Some f) p = Ok q) by (unfold reading; rewrite R3; reflexivity). rewrite Rp. cbn [bind]. apply (holds_perm _ _ (bm :: bp :: l)) in X3; [|apply perm_swap].
        destruct (salted_ok pbkdf2 (Some bm) (Some bp) m q h h3 l X3 ltac:(lia)) as (o & h4 & E4 & X4 & L4 & R4). exists o, h4. split; [exact E4|]. split; [exact X4|]. split; [lia|exact R4].
      * destruct R3 as (X3 & R3). destruct (free_holds _ _ _ X3) as (h4 & E4 & X4 & L4). rewrite (mbind_ok _ _ _ _ _ E4). exists (inr EMemory), h4. split; [reflexivity|]. split; [exact X4|]. split; [lia|].
        destruct R3 as [R3|F]; [left; unfold reading; rewrite R3; reflexivity|right]. split; [reflexivity|]. refine (failed_wider _ _ _ _ _ F _ _); lia.
    + cbn [bind]. destruct (salted_ok pbkdf2 (Some bm) None m [] h h2 l X2 ltac:(lia)) as (o & h4 & E4 & X4 & L4 & R4). exists o, h4. split; [exact E4|]. split; [exact X4|]. split; [lia|exact R4].
  - rewrite ascii_reading. destruct (ascii s); cbn [negb orb bind]; [|exists (inr EInvalidParam), h1; split; [reflexivity|]; split; [exact X1|]; split; [lia|left; reflexivity]].
    destruct pass as [p|]; cbn [negb].
    + rewrite ascii_reading. destruct (ascii p); cbn [negb bind]; [|exists (inr EInvalidParam), h1; split; [reflexivity|]; split; [exact X1|]; split; [lia|left; reflexivity]].
      exact (salted_ok pbkdf2 None None s p h h1 l X1 L1).
    + cbn [bind]. exact (salted_ok pbkdf2 None None s [] h h1 l X1 L1).
Qed.
(** From words to a key pair: the pair of C68, or the caller's pair as it was. *)
Theorem C153_keypair : forall sha nfkd pbkdf2 hmac512 pub_compressed tweak_add pub_xonly s pass account kp h l, holds h l ->
  let r := mnemonic_to_key bip39_wordlist sha (reading nfkd) pbkdf2 hd_key (seed_key hmac512 pub_xonly) (child_key hmac512 pub_compressed tweak_add pub_xonly) s pass account in
  exists kp' x h', mnemonic_to_keypair_m grant bip39_wordlist sha nfkd pbkdf2 hmac512 pub_compressed tweak_add pub_xonly s pass account kp h = Ok ((kp', x), h') /\ holds h' l /\
  match x with
  | None => exists k, r = Ok k /\ kp' = mkKP (h_priv k) (h_pub k) true
  | Some e => kp' = kp /\ (r = Err e \/ e = EMemory /\ failed grant h h')
  end.
Proof.
  intros sha nfkd pbkdf2 hmac512 pub_compressed tweak_add pub_xonly s pass account kp h l X r.
  assert (ND : forall k i, child_key hmac512 pub_compressed tweak_add pub_xonly k i <> Undef).
  { intros k i. unfold child_key, hd_derive. destruct (N.testbit i 31); [|destruct (pub_compressed _); [|discriminate]]; (destruct (hmac512 _ _); [|discriminate]); (destruct (tweak_add _ _); [|discriminate]); destruct (pub_xonly _); discriminate. }
  assert (NT : forall ts k, derive_tokens hd_key (child_key hmac512 pub_compressed tweak_add pub_xonly) k ts <> Undef).
  { induction ts as [|t ts IH]; intros k; cbn [derive_tokens]; [discriminate|]. destruct (token_index t) as [i|]; [|discriminate]. specialize (ND k i). destruct (child_key _ _ _ _ k i); cbn [bind]; [apply IH|discriminate|congruence]. }
  assert (NS : forall seed, seed_key hmac512 pub_xonly seed <> Undef).
  { intros seed. unfold seed_key, hd_from_seed. destruct (_ || _)%bool; [discriminate|]. destruct (hmac512 _ _); [|discriminate]. destruct (pub_xonly _); discriminate. }
  assert (A : answers (let! seed := mnemonic_to_seed_m grant bip39_wordlist sha nfkd pbkdf2 s pass in match seed with inr x => mret (inr x) | inl seed =>
      let! master := lift (seed_key hmac512 pub_xonly seed) in match master with inr x => mret (inr x) | inl master =>
      derive_path_m grant hd_key (child_key hmac512 pub_compressed tweak_add pub_xonly) master (account_path account) end end) r h h l).
  { unfold r, mnemonic_to_key. apply answers_bind; [apply C153_seed; assumption|lia|]. intros seed h1 _ X1 L1. apply answers_bind; [apply answers_lift; [exact X1|apply NS]|exact L1|].
    intros master h2 _ X2 L2. apply (answers_weaken _ _ h2); [|exact L2]. apply C153_path; [exact X2|]. generalize (account_path account). intros path. unfold derive_path. destruct path as [|c [|c' path]]; [discriminate| |]; (destruct (negb _); [discriminate|]); [discriminate|]. destruct (_ =? _)%N; [apply NT|discriminate]. }
  destruct A as (o & h' & E & X' & _ & R). unfold mnemonic_to_keypair_m. unfold mbind in E |- *. destruct (mnemonic_to_seed_m _ _ _ _ _ _ _ h) as [[[seed|x] h1]|x|]; try discriminate E.
  - destruct (lift (seed_key hmac512 pub_xonly seed) h1) as [[[master|x] h2]|x|]; try discriminate E.
    + destruct (derive_path_m _ _ _ _ _ h2) as [[[k|x] h3]|x|]; try discriminate E; assert (Q1 : h3 = h') by congruence.
      * assert (Q2 : inl k = o) by congruence. subst. exists (hd_to_keypair k), None, h'. split; [reflexivity|]. split; [exact X'|]. exists k. auto.
      * assert (Q2 : inr x = o) by congruence. subst. exists kp, (Some x), h'. split; [reflexivity|]. split; [exact X'|]. auto.
    + unfold mret in E. assert (Q1 : h2 = h') by congruence. assert (Q2 : inr x = o) by congruence. subst. exists kp, (Some x), h'. split; [reflexivity|]. split; [exact X'|]. auto.
  - unfold mret in E. assert (Q1 : h1 = h') by congruence. assert (Q2 : inr x = o) by congruence. subst. exists kp, (Some x), h'. split; [reflexivity|]. split; [exact X'|]. auto.
Qed.
(** The pair belongs together: its public key is that of its private key. *)
Theorem C153_pair : forall sha nfkd pbkdf2 hmac512 pub_compressed tweak_add pub_xonly s pass account kp kp' h h',
  mnemonic_to_keypair_m grant bip39_wordlist sha nfkd pbkdf2 hmac512 pub_compressed tweak_add pub_xonly s pass account kp h = Ok ((kp', None), h') ->
  pub_xonly (kp_sk kp') = Some (kp_pk kp') /\ kp_init kp' = true.
Proof.
  intros sha nfkd pbkdf2 hmac512 pub_compressed tweak_add pub_xonly s pass account kp kp' h h' E. unfold mnemonic_to_keypair_m in E. unfold mbind in E.
  destruct (mnemonic_to_seed_m _ _ _ _ _ _ _ h) as [[[seed|x] h1]|x|]; try discriminate E. destruct (seed_key hmac512 pub_xonly seed) as [master|x|] eqn:SK; try discriminate E. cbn [lift] in E. unfold mret at 1 in E.
  destruct (derive_path_m _ _ _ _ _ h1) as [[[k|x] h3]|x|] eqn:P; try discriminate E. unfold mret in E. assert (Q : hd_to_keypair k = kp') by congruence. subst kp'. split; [|reflexivity]. cbn [hd_to_keypair kp_sk kp_pk].
  set (good := fun k => pub_xonly (h_priv k) = Some (h_pub k)). change (good k).
  assert (G0 : good master).
  { unfold seed_key, hd_from_seed in SK. destruct (_ || _)%bool; [discriminate|]. destruct (hmac512 _ _) as [hh|]; [|discriminate]. destruct (pub_xonly (firstn 32 hh)) as [p|] eqn:PX; [|discriminate]. cbn [bind] in SK. assert (Q : mkHd (firstn 32 hh) p (skipn 32 hh) = master) by congruence. subst master. exact PX. }
  assert (GC : forall k i c, child_key hmac512 pub_compressed tweak_add pub_xonly k i = Ok c -> good c).
  { clear. intros k i c E. unfold child_key, hd_derive in E. destruct (if N.testbit i 31 then _ else _) as [data|]; [|discriminate]. destruct (hmac512 _ data) as [hh|]; [|discriminate]. destruct (tweak_add _ _) as [t|]; [|discriminate].
    destruct (pub_xonly t) as [p|] eqn:PX; [|discriminate]. cbn [bind] in E. assert (Q : mkHd t p (skipn 32 hh) = c) by congruence. subst c. exact PX. }
  assert (GT : forall ts k c, derive_tokens hd_key (child_key hmac512 pub_compressed tweak_add pub_xonly) k ts = Ok c -> good k -> good c).
  { clear - GC. induction ts as [|t ts IH]; intros k c E G; cbn [derive_tokens] in E; [congruence|]. destruct (token_index t); [|discriminate]. apply bind_ok in E as (kn & E1 & E2). exact (IH _ _ E2 (GC _ _ _ E1)). }
  revert P. generalize (account_path account). intros path P. unfold derive_path_m in P. destruct path as [|c [|c' path]]; [discriminate P| |]; (destruct (negb _); [discriminate P|]); [unfold mret in P; congruence|]. destruct (_ =? _)%N; [|discriminate P].
  unfold mbind in P. destruct (ealloc grant h1) as [[[b|] h2]|x|]; try discriminate P. destruct (huse (Some b) h2) as [[u h4]|x|]; try discriminate P.
  match type of P with context [lift ?d] => destruct d as [k1|x|] eqn:DT end; cbn [lift] in P; try discriminate P.
  - unfold mret at 1 in P. destruct (wipe_free (Some b) h4) as [[u2 h5]|x|]; try discriminate P. unfold mret in P. assert (Q : k1 = k) by congruence. subst k1. exact (GT _ _ _ DT G0).
  - unfold mret at 1 in P. destruct (wipe_free (Some b) h4) as [[u2 h5]|y|]; discriminate P.
Qed.
End Grant.

(** The memory grows without refusal: words that are valid, twelve of them. *)
Definition demo_words : list N := join 32 (repeat (bs "abandon") 11 ++ [bs "about"]).
Definition demo_pbkdf2 (pw salt : list N) : option (list N) := Some (repeat 7%N 64).
Definition old : keypair := mkKP [1%N] [2%N] false.
Definition restored (grant : nat -> bool) (nf : option (list N -> option (list N))) (pass : option (list N)) (h : heap) :=
  mnemonic_to_keypair_m grant bip39_wordlist sha_zero nf demo_pbkdf2 (fun k d => Some (demo_H k d)) demo_pub demo_tweak demo_pub demo_words pass 0 old h.
Definition seen {A} (r : res (A * heap)) : option (A * list nat) := match r with Ok (a, h) => Some (a, h_live h) | _ => None end.
(** A granted and a refused restore, with and without utf8proc: six blocks are asked
    for, and none is kept. *)
Example C153_meets :
  holds hempty [] /\
  seen (restored (fun _ => true) (Some Some) (Some (bs "x")) hempty) = Some ((mkKP (repeat 183%N 32) [] true, None), []) /\
  seen (restored (fun _ => true) None None hempty) = Some ((mkKP (repeat 183%N 32) [] true, None), []) /\
  seen (restored (fun n => n <? 3) (Some Some) (Some (bs "x")) hempty) = Some ((old, Some EMemory), []) /\
  seen (restored (fun n => n <? 1) None None hempty) = Some ((old, Some EMemory), []) /\
  seen (restored (fun _ => true) None (Some [200%N]) hempty) = Some ((old, Some EInvalidParam), []).
Proof. split; [split; [split; constructor|constructor]|]. Transparent bip39_wordlist. repeat split; vm_compute; reflexivity. Qed.
Print Assumptions C153_path.
Print Assumptions C153_validate.
Print Assumptions C153_seed.
Print Assumptions C153_keypair.
Print Assumptions C153_pair.
