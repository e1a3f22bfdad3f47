(** Property theorems C41, C42, C76, C77 (NIP-05). *)
From Verif Require Import Base BaseFacts Json Nip05 Nip05Spec Nip05Proofs.
Open Scope N_scope.

(** ** C41 *)
Theorem C41_parse : forall id ns ds name domain, nip05_parse id ns ds = Ok (name, domain) <->
  exists l d, id = l ++ 64 :: d /\ (1 <= length l <= 64)%nat /\ Forall local_char l /\ domain_name d /\
    in_lower l name /\ in_lower d domain /\ 2 <= ns /\ 4 <= ds /\ N.of_nat (length l) < ns /\ N.of_nat (length d) < ds.
Proof.
  intros id ns ds name domain. unfold nip05_parse. split.
  - destruct (N.ltb_spec ns 2) as [A|A]; cbn [orb]; [discriminate|]. destruct (N.ltb_spec ds 4) as [B|B]; [discriminate|].
    destruct (split_char 64 id) as [[l d]|] eqn:S; [|discriminate]. apply split_char_iff in S. destruct S as (-> & _).
    destruct (is_valid_local_part l) eqn:L; [|discriminate]. destruct (is_valid_domain d) eqn:D; [|discriminate]. cbn [negb].
    destruct (N.leb_spec ns (N.of_nat (length l))) as [C|C]; cbn [orb]; [discriminate|].
    destruct (N.leb_spec ds (N.of_nat (length d))) as [E|E]; [discriminate|]. intros H.
    assert (name = map tolower l /\ domain = map tolower d) as (-> & ->) by (split; congruence).
    apply local_iff in L. destruct L as (L1 & L2). apply domain_iff in D. exists l, d. repeat split; auto; try lia; apply in_lower_iff; reflexivity.
  - intros (l & d & -> & L1 & L2 & D & ML & MD & A & B & C & E).
    rewrite (proj2 (N.ltb_ge _ _)) by exact A. rewrite (proj2 (N.ltb_ge _ _)) by exact B. cbn [orb].
    assert (S : split_char 64 (l ++ 64 :: d) = Some (l, d)).
    { apply split_char_iff. split; [reflexivity|]. intros I. apply (proj1 (Forall_forall _ _) L2) in I.
      destruct I as [[?|[?|?]]|I]; try lia. cbn in I. repeat (destruct I as [I|I]; [discriminate|]). exact I. }
    rewrite S. rewrite (proj2 (local_iff l)) by auto. rewrite (proj2 (domain_iff d)) by exact D. cbn [negb].
    rewrite (proj2 (N.leb_gt _ _)) by exact C. rewrite (proj2 (N.leb_gt _ _)) by exact E. cbn [orb].
    apply in_lower_iff in ML, MD. subst. reflexivity.
Qed.
(** The lookup URL is the one NIP-05 gives; with its NUL it fits the buffer, and
    it is refused only when it would not or a part is too long. *)
Theorem C41_url : forall name domain size,
  let url := bs "https://" ++ domain ++ bs "/.well-known/nostr.json?name=" ++ name in
  (nip05_build_url name domain size = Ok url /\ N.of_nat (length url) + 1 <= size /\ (length name <= 64)%nat /\ (length domain <= 256)%nat) \/
  (nip05_build_url name domain size = Err EInvalidParam /\
   (size < N.of_nat (length url) + 1 \/ (64 < length name)%nat \/ (256 < length domain)%nat)).
Proof.
  intros name domain size url. unfold nip05_build_url.
  assert (EU : firstn 8 (bs "https://") ++ domain ++ firstn 29 (bs "/.well-known/nostr.json?name=") ++ name = url) by reflexivity.
  rewrite EU.
  assert (LU : N.of_nat (length url) + 1 = 38 + N.of_nat (length name) + N.of_nat (length domain)).
  { subst url. rewrite !app_length. cbn [length bs]. lia. }
  clearbody url. destruct (N.ltb_spec 64 (N.of_nat (length name))) as [A|A]; cbn [orb]; [right; split; [reflexivity|lia]|].
  destruct (N.ltb_spec 256 (N.of_nat (length domain))) as [B|B]; [right; split; [reflexivity|lia]|]. cbv zeta.
  destruct (N.ltb_spec size (38 + N.of_nat (length name) + N.of_nat (length domain))) as [C|C]; [right; split; [reflexivity|lia]|].
  left. rewrite (proj2 (N.ltb_ge _ _)) by lia. split; [reflexivity|]. split; lia.
Qed.
Example C41_meets : nip05_parse (bs "Bob_1@Example.co-m.org") 65 257 = Ok (bs "bob_1", bs "example.co-m.org") /\
  nip05_parse (bs "bob@nodot") 65 257 = Err EInvalidParam /\
  nip05_build_url (bs "bob") (bs "a.b") 44 = Ok (bs "https://a.b/.well-known/nostr.json?name=bob") /\
  nip05_build_url (bs "bob") (bs "a.b") 43 = Err EInvalidParam.
Proof. repeat split. Qed.

(** ** C42 *)
Definition names_key : list N := bs "names".
Definition relays_key : list N := bs "relays".
Definition name_ok (name : list N) : Prop := (1 <= length name <= 64)%nat /\ ~ In 34 name /\ ~ In 92 name.

Lemma repeat_unique k i (a b : list tok) : repeat (TPun 58) k ++ a = repeat (TPun 58) i ++ b ->
  (forall r, a <> TPun 58 :: r) -> (forall r, b <> TPun 58 :: r) -> a = b.
Proof.
  revert i. induction k as [|k IH]; intros i E NA NB.
  - destruct i as [|i]; [exact E|]. cbn [repeat app] in E. exfalso. exact (NA _ E).
  - destruct i as [|i]; cbn [repeat app] in E; [exfalso; exact (NB _ (eq_sym E))|]. apply (IH i); auto. congruence.
Qed.
Lemma skipn_quoted nm r n : n = length (quoted nm) -> skipn n (quoted nm ++ r) = r.
Proof. intros ->. apply skipn_app_exact. reflexivity. Qed.
Lemma json_strstr_lex nm s ts : plain nm -> lexes s ts ->
  (exists t1 t2 r, ts = t1 ++ TStr nm :: t2 /\ ~ In (TStr nm) t1 /\ lexes r t2 /\ json_strstr s (quoted nm) = Some (quoted nm ++ r)) \/
  (~ In (TStr nm) ts /\ json_strstr s (quoted nm) = None).
Proof. intros P L. apply scan_lex; auto. Qed.

(** For every text that consists of tokens, exactly when a key is found. *)
Theorem C42_exact : forall json name k ts, lexes json ts -> N.of_nat (length json) <= 1048576 -> name_ok name ->
  (find_pubkey json name = Ok k <->
   exists i j t1 t2 t3 raw,
     ts = t1 ++ TStr names_key :: repeat (TPun 58) i ++ TPun 123 :: t2 ++ TStr name :: repeat (TPun 58) j ++ TStr raw :: t3 /\
     ~ In (TStr names_key) t1 /\ ~ In (TStr name) t2 /\ length raw = 64%nat /\ Forall hex_char raw /\ in_lower raw k).
Proof.
  intros json name k ts L LJ ((LN1 & LN2) & NQ & NB). unfold find_pubkey.
  rewrite (proj2 (N.ltb_ge _ _)) by exact LJ. rewrite (proj2 (Nat.eqb_neq _ _)) by lia. rewrite (proj2 (Nat.ltb_ge _ _)) by lia. cbn [orb].
  assert (EX : existsb (fun c => (c =? 34) || (c =? 92)) name = false).
  { destruct (existsb _ name) eqn:X; [|reflexivity]. apply existsb_exists in X. destruct X as (c & I & X).
    apply orb_true_iff in X. rewrite !N.eqb_eq in X. destruct X as [-> | ->]; contradiction. }
  rewrite EX. change (bs """names""") with (quoted names_key). change (34 :: name ++ [34]) with (quoted name).
  assert (PN : plain names_key) by (split; cbn; intros X; repeat (destruct X as [X|X]; [discriminate|]); exact X).
  destruct (json_strstr_lex names_key json ts PN L) as [(t1 & t2 & r & -> & NI & LR & ->)|(NI & ->)].
  2:{ split; [discriminate|]. intros (i & j & t1 & t2 & t3 & raw & -> & _). exfalso. apply NI, in_or_app. right. left. reflexivity. }
  rewrite (skipn_quoted names_key r 7 eq_refl). destruct (skip_lex _ _ LR) as (i & u & -> & LU & NH & NW). set (p := skip_ws_and_colon r) in *.
  assert (RHS : (exists i0 j t1' t2' t3 raw,
     t1 ++ TStr names_key :: repeat (TPun 58) i ++ u = t1' ++ TStr names_key :: repeat (TPun 58) i0 ++ TPun 123 :: t2' ++ TStr name :: repeat (TPun 58) j ++ TStr raw :: t3 /\
     ~ In (TStr names_key) t1' /\ ~ In (TStr name) t2' /\ length raw = 64%nat /\ Forall hex_char raw /\ in_lower raw k) <->
    (exists j t2' t3 raw, u = TPun 123 :: t2' ++ TStr name :: repeat (TPun 58) j ++ TStr raw :: t3 /\
       ~ In (TStr name) t2' /\ length raw = 64%nat /\ Forall hex_char raw /\ in_lower raw k)).
  { split.
    - intros (i0 & j & t1' & t2' & t3 & raw & E & N1 & N2 & REST). destruct (first_unique _ _ _ _ _ E NI N1) as (_ & E').
      apply repeat_unique in E'; [|exact NH|intros x X; discriminate]. exists j, t2', t3, raw. auto.
    - intros (j & t2' & t3 & raw & -> & REST). exists i, j, t1, t2', t3, raw. auto. }
  rewrite RHS. clear RHS. destruct p as [|c p'] eqn:EP.
  { cbn [after]. split; [discriminate|]. intros (j & t2' & t3 & raw & -> & _). inversion LU. }
  cbn [after]. destruct (N.eqb_spec c 123) as [->|NC].
  2:{ split; [discriminate|]. intros (j & t2' & t3 & raw & -> & _).
      destruct (lex_head_pun _ _ _ LU) as (q & E & _); [intros x q E; apply (NW x q E)|]. congruence. }
  destruct (json_strstr_lex name (123 :: p') u (conj NQ NB) LU) as [(t2 & t3 & q & EU & N2 & LQ & ->)|(N2 & ->)].
  2:{ split; [discriminate|]. intros (j & t2' & t3 & raw & -> & _). exfalso. apply N2. right. apply in_or_app. right. left. reflexivity. }
  rewrite (skipn_quoted name q _ eq_refl). destruct (skip_lex _ _ LQ) as (j & v & -> & LV & NH2 & NW2). set (w := skip_ws_and_colon q) in *.
  destruct (lex_pun 123 p' u LU ltac:(cbn; auto 10)) as (u' & -> & LU').
  assert (E2 : exists t2', t2 = TPun 123 :: t2' /\ u' = t2' ++ TStr name :: repeat (TPun 58) j ++ v).
  { destruct t2 as [|y t2']; cbn [app] in EU; [congruence|]. exists t2'. split; congruence. }
  destruct E2 as (t2' & -> & ->). assert (N2' : ~ In (TStr name) t2') by (intros X; apply N2; right; exact X).
  assert (RHS : (exists j0 t2'' t3 raw, TPun 123 :: t2' ++ TStr name :: repeat (TPun 58) j ++ v = TPun 123 :: t2'' ++ TStr name :: repeat (TPun 58) j0 ++ TStr raw :: t3 /\
       ~ In (TStr name) t2'' /\ length raw = 64%nat /\ Forall hex_char raw /\ in_lower raw k) <->
     (exists t3 raw, v = TStr raw :: t3 /\ length raw = 64%nat /\ Forall hex_char raw /\ in_lower raw k)).
  { split.
    - intros (j0 & t2'' & t3 & raw & E & N3 & REST). assert (E' : t2' ++ TStr name :: repeat (TPun 58) j ++ v = t2'' ++ TStr name :: repeat (TPun 58) j0 ++ TStr raw :: t3) by congruence.
      destruct (first_unique _ _ _ _ _ E' N2' N3) as (_ & E''). apply repeat_unique in E''; [|exact NH2|intros x X; discriminate]. eauto.
    - intros (t3 & raw & -> & REST). exists j, t2', t3, raw. auto. }
  rewrite RHS. clear RHS. destruct w as [|c w'] eqn:EW.
  { cbn [after]. split; [discriminate|]. intros (t3 & raw & -> & _). inversion LV. }
  cbn [after]. destruct (N.eqb_spec c 34) as [->|NC].
  2:{ split; [discriminate|]. intros (t3 & raw & -> & _).
      destruct (lex_head_str _ _ _ LV) as (z & E & _); [intros x z E; apply (NW2 x z E)|]. congruence. }
  destruct (lex_str _ _ LV) as (raw & s' & ts' & -> & -> & RR & LS').
  assert (HQ : forall x, Forall hex_char x -> ~ In 34 x /\ ~ In 92 x).
  { intros x F. split; intros I; apply (proj1 (Forall_forall _ _) F) in I; unfold hex_char in I; lia. }
  split.
  - destruct (split_char 34 (raw ++ 34 :: s')) as [[a b]|] eqn:SP; [|discriminate].
    destruct (Nat.eqb_spec (length a) 64) as [LA|]; [|discriminate]. cbn [andb]. destruct (forallb is_hex_char a) eqn:HX; [|discriminate].
    intros H. assert (EK : k = map tolower a) by congruence. apply split_char_iff in SP. destruct SP as (E & NA).
    assert (HA : Forall hex_char a).
    { apply Forall_forall. intros x I. apply is_hex_char_iff. exact (proj1 (forallb_forall _ _) HX x I). }
    assert (PA : raw = a).
    { apply (raw_prefix a raw s'); [apply HQ, HA|exact RR|]. rewrite E. unfold quoted. apply prefixb_spec. exists b. cbn [app]. rewrite <- app_assoc. reflexivity. }
    subst a. exists ts', raw. repeat split; auto. apply in_lower_iff, EK.
  - intros (t3 & raw' & E & LRW & F & LO). assert (raw' = raw) by congruence. subst raw'.
    rewrite (proj2 (split_char_iff 34 _ raw s')) by (split; [reflexivity|apply HQ, F]).
    rewrite LRW. change (64 =? 64)%nat with true. cbn [andb].
    assert (HX : forallb is_hex_char raw = true) by (apply forallb_forall; intros x I; apply is_hex_char_iff; exact (proj1 (Forall_forall _ _) F x I)).
    rewrite HX. apply in_lower_iff in LO. subst k. reflexivity.
Qed.

(** The full claim, for JSON documents: the key found is the one that the names
    object gives for the name.  It fails: the name may stand anywhere behind
    the opening brace of the names object. *)
Definition hex_a : list N := bs "aaaaaaaaaaaaaaaaaaaaaaaaaaaaaaaaaaaaaaaaaaaaaaaaaaaaaaaaaaaaaaaa".
Definition stray_doc : doc := DObj [(names_key, DObj []); (bs "x", DObj [(bs "bob", DStr hex_a)])].
Definition stray_text : list N := bs "{""names"":{},""x"":{""bob"":""" ++ hex_a ++ bs """}}".
Lemma plain_raw s : forallb (fun c => negb (c =? 34) && negb (c =? 92)) s = true -> rawstring s.
Proof.
  induction s as [|c s IH]; intros H; [constructor|]. cbn [forallb] in H. apply andb_true_iff in H. destruct H as (A & B).
  apply andb_true_iff in A. rewrite !negb_true_iff, !N.eqb_neq in A. constructor; [apply A|apply A|apply IH, B].
Qed.
Lemma stray_is_document : document stray_text stray_doc.
Proof.
  unfold document, stray_text, stray_doc.
  change (lexes (123 :: 34 :: names_key ++ 34 :: 58 :: 123 :: 125 :: 44 :: 34 :: bs "x" ++ 34 :: 58 :: 123 :: 34 :: bs "bob" ++ 34 :: 58 :: 34 :: hex_a ++ 34 :: [125; 125])
    [TPun 123; TStr names_key; TPun 58; TPun 123; TPun 125; TPun 44; TStr (bs "x"); TPun 58; TPun 123; TStr (bs "bob"); TPun 58; TStr hex_a; TPun 125; TPun 125]).
  repeat first [apply LexPun; [cbn; tauto|] | apply LexStr; [apply plain_raw; reflexivity|] | apply LexEnd].
Qed.
Theorem C42_refuted : ~ (forall text d name k, document text d -> name_ok name -> find_pubkey text name = Ok k ->
  exists l nl raw, d = DObj l /\ member names_key (DObj nl) l /\ member name (DStr raw) nl /\ in_lower raw k).
Proof.
  intros H. destruct (H stray_text stray_doc (bs "bob") hex_a) as (l & nl & raw & E & M & M' & _).
  - exact stray_is_document.
  - split; [cbn; lia|]. split; cbn; intros X; repeat (destruct X as [X|X]; [discriminate|]); exact X.
  - vm_compute. reflexivity.
  - unfold stray_doc in E. assert (l = [(names_key, DObj []); (bs "x", DObj [(bs "bob", DStr hex_a)])]) by congruence. subst l.
    assert (nl = []).
    { inversion M as [r E1|k' v' r NE M1 E1]; subst; [reflexivity|congruence]. }
    subst nl. inversion M'.
Qed.

(** Partial: documents in NIP-05's layout.  Before the names object the word
    "names" does not occur, the names object holds strings or plain values, and
    the name is not a string behind it.  Missing: other documents. *)
Definition flat (kv : list N * doc) : Prop := (exists r, snd kv = DStr r) \/ exists a, snd kv = DAtom a.
Definition kv_toks (kv : list N * doc) : list tok := TStr (fst kv) :: TPun 58 :: toks (snd kv).
Lemma in_commaed r l : In (TStr r) (commaed l) <-> exists x, In x l /\ In (TStr r) x.
Proof.
  induction l as [|x l IH]; [split; [intros []|intros (x & [] & _)]|]. destruct l as [|y l].
  - cbn [commaed]. split; [intros I; exists x; split; [left; reflexivity|exact I]|intros (z & [<-|[]] & I); exact I].
  - change (commaed (x :: y :: l)) with (x ++ TPun 44 :: commaed (y :: l)). rewrite in_app_iff. cbn [In]. split.
    + intros [I|[I|I]]; [exists x; auto|discriminate|]. apply IH in I. destruct I as (z & I & J). exists z. auto.
    + intros (z & [<-|I] & J); [auto|]. right. right. apply IH. exists z. auto.
Qed.
Definition pre_toks (l : list (list N * doc)) : list tok := flat_map (fun kv => kv_toks kv ++ [TPun 44]) l.
Definition post_toks (l : list (list N * doc)) : list tok := flat_map (fun kv => TPun 44 :: kv_toks kv) l.
Lemma members_split a x b : commaed (map kv_toks (a ++ x :: b)) = pre_toks a ++ kv_toks x ++ post_toks b.
Proof.
  assert (B : forall b x, commaed (map kv_toks (x :: b)) = kv_toks x ++ post_toks b).
  { induction b0 as [|y b0 IH]; intros x0; [cbn [map commaed post_toks flat_map]; rewrite app_nil_r; reflexivity|].
    change (commaed (map kv_toks (x0 :: y :: b0))) with (kv_toks x0 ++ TPun 44 :: commaed (map kv_toks (y :: b0))). rewrite IH. reflexivity. }
  induction a as [|y a IH]; [apply B|]. cbn [app]. unfold pre_toks in *. cbn [flat_map].
  assert (E : commaed (map kv_toks (y :: a ++ x :: b)) = kv_toks y ++ TPun 44 :: commaed (map kv_toks (a ++ x :: b))) by (destruct a; reflexivity).
  rewrite E, IH. rewrite <- !app_assoc. reflexivity.
Qed.
Lemma obj_toks l : toks (DObj l) = TPun 123 :: commaed (map kv_toks l) ++ [TPun 125].
Proof. reflexivity. Qed.
(** [r] occurs nowhere as a string in these members. *)
Definition absent (r : list N) (l : list (list N * doc)) : Prop := ~ In (TStr r) (toks (DObj l)).
Lemma absent_iff r l : absent r l <-> forall kv, In kv l -> ~ In (TStr r) (kv_toks kv).
Proof.
  unfold absent. rewrite obj_toks. cbn [In]. rewrite in_app_iff, in_commaed. split.
  - intros H kv I J. apply H. right. left. exists (kv_toks kv). split; [apply in_map, I|exact J].
  - intros H [X|[(x & I & J)|[X|[]]]]; [discriminate| |discriminate]. apply in_map_iff in I. destruct I as (kv & <- & I). exact (H kv I J).
Qed.
Lemma absent_pre r l : absent r l -> ~ In (TStr r) (pre_toks l).
Proof.
  rewrite absent_iff. intros H I. apply in_flat_map in I. destruct I as (kv & I & J). apply in_app_or in J.
  destruct J as [J|[J|[]]]; [exact (H kv I J)|discriminate].
Qed.
Lemma absent_post r l : absent r l -> ~ In (TStr r) (post_toks l).
Proof.
  rewrite absent_iff. intros H I. apply in_flat_map in I. destruct I as (kv & I & [J|J]); [discriminate|exact (H kv I J)].
Qed.

Lemma flat_found nl name raw Z t2 j t3 : Forall flat nl -> ~ In (TStr name) Z -> ~ In (TStr name) t2 ->
  post_toks nl ++ TPun 125 :: Z = t2 ++ TStr name :: repeat (TPun 58) j ++ TStr raw :: t3 -> member name (DStr raw) nl.
Proof.
  intros F NZ. revert t2. induction F as [|[k v] nl FV F IH]; intros t2 N2 E.
  - exfalso. cbn [post_toks flat_map app] in E. destruct t2 as [|x t2]; cbn [app] in E; [discriminate|].
    apply NZ. assert (Z = t2 ++ TStr name :: repeat (TPun 58) j ++ TStr raw :: t3) as -> by congruence. apply in_or_app. right. left. reflexivity.
  - assert (exists tv, toks v = [tv] /\ (forall w, tv = TStr w -> v = DStr w)) as (tv & TV & VS).
    { destruct FV as [(w & E')|(w & E')]; cbn [snd] in E'; subst v; eexists; split; try reflexivity; intros w' X; congruence. }
    assert (PT : post_toks ((k, v) :: nl) = TPun 44 :: TStr k :: TPun 58 :: tv :: post_toks nl).
    { unfold post_toks. cbn [flat_map]. unfold kv_toks. cbn [fst snd]. rewrite TV. reflexivity. }
    rewrite PT in E. cbn [app] in E. destruct t2 as [|x t2]; cbn [app] in E; [discriminate|].
    assert (E1 : TStr k :: TPun 58 :: tv :: post_toks nl ++ TPun 125 :: Z = t2 ++ TStr name :: repeat (TPun 58) j ++ TStr raw :: t3) by congruence.
    destruct t2 as [|x2 t2]; cbn [app] in E1.
    { assert (k = name) by congruence. subst k.
      assert (E2 : TPun 58 :: tv :: post_toks nl ++ TPun 125 :: Z = repeat (TPun 58) j ++ TStr raw :: t3) by congruence.
      destruct j as [|j]; cbn [repeat app] in E2; [discriminate|].
      assert (E3 : tv :: post_toks nl ++ TPun 125 :: Z = repeat (TPun 58) j ++ TStr raw :: t3) by congruence.
      destruct j as [|j]; cbn [repeat app] in E3.
      - assert (tv = TStr raw) as X by congruence. apply VS in X. subst v. constructor.
      - exfalso. assert (tv = TPun 58) by congruence. subst tv. destruct FV as [(w & E')|(w & E')]; cbn [snd] in E'; subst v; discriminate. }
    assert (NK : k <> name). { intros ->. apply N2. right. left. congruence. }
    assert (E2 : TPun 58 :: tv :: post_toks nl ++ TPun 125 :: Z = t2 ++ TStr name :: repeat (TPun 58) j ++ TStr raw :: t3) by congruence.
    destruct t2 as [|x3 t2]; cbn [app] in E2; [discriminate|].
    assert (E3 : tv :: post_toks nl ++ TPun 125 :: Z = t2 ++ TStr name :: repeat (TPun 58) j ++ TStr raw :: t3) by congruence.
    destruct t2 as [|x4 t2]; cbn [app] in E3.
    { exfalso. assert (E4 : post_toks nl ++ TPun 125 :: Z = repeat (TPun 58) j ++ TStr raw :: t3) by congruence.
      destruct nl as [|kv nl]; [cbn [post_toks flat_map app] in E4|unfold post_toks in E4; cbn [flat_map app] in E4];
        (destruct j; cbn [repeat app] in E4; discriminate). }
    constructor; [exact NK|]. apply (IH t2); [|congruence].
    intros I. apply N2. right. right. right. right. exact I.
Qed.
Lemma doc_tokens pre nl post : toks (DObj (pre ++ (names_key, DObj nl) :: post)) =
  (TPun 123 :: pre_toks pre) ++ TStr names_key :: repeat (TPun 58) 1 ++ TPun 123 :: commaed (map kv_toks nl) ++ TPun 125 :: post_toks post ++ [TPun 125].
Proof.
  rewrite obj_toks, members_split. unfold kv_toks at 1. cbn [fst snd]. rewrite obj_toks. cbn [repeat app].
  rewrite <- !app_assoc. cbn [app]. rewrite <- !app_assoc. reflexivity.
Qed.
Theorem C42_partial : forall text pre nl post name k,
  document text (DObj (pre ++ (names_key, DObj nl) :: post)) -> N.of_nat (length text) <= 1048576 -> name_ok name ->
  absent names_key pre -> Forall flat nl -> absent name post ->
  find_pubkey text name = Ok k -> exists raw, member name (DStr raw) nl /\ length raw = 64%nat /\ Forall hex_char raw /\ in_lower raw k.
Proof.
  intros text pre nl post name k D LT NO AP FL AQ H. apply (C42_exact _ _ _ _ D LT NO) in H.
  destruct H as (i & j & t1 & t2 & t3 & raw & E & N1 & N2 & LR & HR & LO). exists raw. split; [|auto].
  rewrite doc_tokens in E. apply first_unique in E; [|intros [X|X]; [discriminate|exact (absent_pre _ _ AP X)]|exact N1].
  destruct E as (_ & E). apply repeat_unique in E; [|intros r X; discriminate|intros r X; discriminate].
  assert (E' : commaed (map kv_toks nl) ++ TPun 125 :: post_toks post ++ [TPun 125] = t2 ++ TStr name :: repeat (TPun 58) j ++ TStr raw :: t3) by congruence.
  apply (flat_found nl name raw (post_toks post ++ [TPun 125]) (match nl with [] => t2 | _ => TPun 44 :: t2 end) j t3 FL).
  - intros I. apply in_app_or in I. destruct I as [I|[I|[]]]; [exact (absent_post _ _ AQ I)|discriminate].
  - destruct nl; [exact N2|]. intros [X|X]; [discriminate|exact (N2 X)].
  - destruct nl as [|kv nl]; [exact E'|]. cbn [app]. rewrite <- E'. pose proof (members_split [] kv nl) as MS. change ([] ++ kv :: nl) with (kv :: nl) in MS. rewrite MS. reflexivity.
Qed.
(** And such documents are understood: the key given for the name is found. *)
Theorem C42_complete : forall text pre nl post name raw k,
  document text (DObj (pre ++ (names_key, DObj nl) :: post)) -> N.of_nat (length text) <= 1048576 -> name_ok name ->
  absent names_key pre -> Forall flat nl -> (forall kv, In kv nl -> snd kv <> DStr name) ->
  member name (DStr raw) nl -> length raw = 64%nat -> Forall hex_char raw -> in_lower raw k ->
  find_pubkey text name = Ok k.
Proof.
  intros text pre nl post name raw k D LT NO AP FL NV M LR HR LO. apply (C42_exact _ _ _ _ D LT NO).
  assert (S : exists a b, nl = a ++ (name, DStr raw) :: b /\ absent name a).
  { clear -M FL NV. induction M as [r|k' v' r NE M IH].
    - exists [], r. split; [reflexivity|]. apply absent_iff. intros kv [].
    - inversion FL as [|? ? FV FL']; subst. destruct (IH FL') as (a & b & -> & A); [intros kv I; apply NV; right; exact I|].
      exists ((k', v') :: a), b. split; [reflexivity|]. apply absent_iff. intros kv [<-|I]; [|exact (proj1 (absent_iff _ _) A kv I)].
      specialize (NV (k', v') (or_introl eq_refl)). unfold kv_toks. cbn [fst snd] in *. intros [X|[X|X]]; [congruence|discriminate|].
      destruct FV as [(w & E)|(w & E)]; cbn [snd] in E; subst v'; cbn [toks In] in X; destruct X as [X|[]]; congruence. }
  destruct S as (a & b & -> & A).
  exists 1%nat, 1%nat, (TPun 123 :: pre_toks pre), (pre_toks a), (post_toks b ++ TPun 125 :: post_toks post ++ [TPun 125]), raw.
  split.
  { rewrite doc_tokens, members_split. unfold kv_toks at 1. cbn [fst snd toks repeat app]. rewrite <- !app_assoc. reflexivity. }
  split; [intros [X|X]; [discriminate|exact (absent_pre _ _ AP X)]|]. split; [apply absent_pre, A|]. auto.
Qed.
(** Success of the whole verification. *)
Theorem C42_verify : forall id expected fetch want rs, nip05_verify id expected fetch want = Ok rs ->
  exists l d name domain buf len text k, id = l ++ 64 :: d /\ Forall local_char l /\ domain_name d /\ in_lower l name /\ in_lower d domain /\
    fetch (bs "https://" ++ domain ++ bs "/.well-known/nostr.json?name=" ++ name) = Ok (Some buf, len) /\ c_string buf = Ok text /\
    find_pubkey text name = Ok k /\ in_lower expected k /\ length expected = 64%nat.
Proof.
  intros id expected fetch want rs H. unfold nip05_verify in H. apply bind_ok in H. destruct H as ([name domain] & HP & H). cbn [fst snd] in H.
  apply bind_ok in H. destruct H as (url & HU & H). apply bind_ok in H. destruct H as ([[buf|] len] & HF & H); [|discriminate].
  destruct (len =? 0); [discriminate|]. destruct (1048576 <? len); [discriminate|].
  apply bind_ok in H. destruct H as (text & HC & H). apply bind_ok in H. destruct H as ([k r] & HR & H). cbn [fst snd] in H.
  destruct (Nat.eqb_spec (length expected) 64) as [LE|]; [|discriminate]. cbn [negb] in H.
  destruct (beq k (map tolower expected)) eqn:B; [|discriminate]. apply beq_eq in B.
  apply C41_parse in HP. destruct HP as (l & d & E & _ & FL & DN & ML & MD & _).
  destruct (C41_url name domain 512) as [(EU & _)|(EU & _)]; [|congruence].
  assert (url = bs "https://" ++ domain ++ bs "/.well-known/nostr.json?name=" ++ name) as X by congruence. rewrite X in HF.
  unfold nip05_parse_response in HR. cbn [N.ltb N.compare] in HR. destruct (65 <? 65) eqn:Y; [discriminate|].
  apply bind_ok in HR. destruct HR as (k' & HK & HR).
  assert (k' = k) by (destruct want; [apply bind_ok in HR; destruct HR as (? & _ & HR)|]; congruence). subst k'.
  exists l, d, name, domain, buf, len, text, k. repeat split; auto. apply in_lower_iff, B.
Qed.
Example C42_meets : exists pre nl post,
  document (bs "{""names"": {""al"":""b"",""bob"" : """ ++ hex_a ++ bs """}}") (DObj (pre ++ (names_key, DObj nl) :: post)) /\
  absent names_key pre /\ Forall flat nl /\ absent (bs "bob") post /\ (forall kv, In kv nl -> snd kv <> DStr (bs "bob")) /\
  member (bs "bob") (DStr hex_a) nl /\
  find_pubkey (bs "{""names"": {""al"":""b"",""bob"" : """ ++ hex_a ++ bs """}}") (bs "bob") = Ok hex_a.
Proof.
  exists [], [(bs "al", DStr (bs "b")); (bs "bob", DStr hex_a)], []. split.
  { unfold document. cbn [app].
    change (lexes (123 :: 34 :: names_key ++ 34 :: 58 :: 32 :: 123 :: 34 :: bs "al" ++ 34 :: 58 :: 34 :: bs "b" ++ 34 :: 44 :: 34 :: bs "bob" ++ 34 :: 32 :: 58 :: 32 :: 34 :: hex_a ++ 34 :: [125; 125])
      [TPun 123; TStr names_key; TPun 58; TPun 123; TStr (bs "al"); TPun 58; TStr (bs "b"); TPun 44; TStr (bs "bob"); TPun 58; TStr hex_a; TPun 125; TPun 125]).
    repeat first [apply LexWs; [left; reflexivity|] | apply LexPun; [cbn; tauto|] | apply LexStr; [apply plain_raw; reflexivity|] | apply LexEnd]. }
  split; [apply absent_iff; intros kv []|].
  split; [repeat constructor; eexists; reflexivity|].
  split; [apply absent_iff; intros kv []|].
  split; [intros kv [<-|[<-|[]]]; discriminate|].
  split; [constructor; [discriminate|constructor]|].
  vm_compute. reflexivity.
Qed.

(** ** C76: relays *)
Theorem C76_usable : forall u, is_valid_relay_url u = true <->
  (6 <= length u)%nat /\ ((exists r, u = bs "wss://" ++ r) \/ exists r, u = bs "ws://" ++ r) /\ ~ exists a b, u = a ++ 92 :: 117 :: b.
Proof.
  intros u. unfold is_valid_relay_url.
  assert (CU : forall u, contains_unicode_escape u = true <-> exists a b, u = a ++ 92 :: 117 :: b).
  { clear. induction u as [|c u IH]; [split; [discriminate|intros (a & b & E); destruct a; discriminate]|]. destruct u as [|d u].
    - cbn. split; [discriminate|]. intros (a & b & E). destruct a as [|x [|y a]]; discriminate.
    - change (contains_unicode_escape (c :: d :: u)) with (((c =? 92) && (d =? 117)) || contains_unicode_escape (d :: u)).
      rewrite orb_true_iff, IH, andb_true_iff, !N.eqb_eq. split.
      + intros [(-> & ->)|(a & b & E)]; [exists [], u; reflexivity|exists (c :: a), b; cbn [app]; congruence].
      + intros (a & b & E). destruct a as [|x a]; cbn [app] in E; [left; split; congruence|right; exists a, b; congruence]. }
  destruct (Nat.ltb_spec (length u) 6) as [L|L]; cbn [orb]; [split; [discriminate|lia]|].
  destruct (contains_unicode_escape u) eqn:C.
  - split; [discriminate|]. intros (_ & _ & N). exfalso. apply N, CU, C.
  - rewrite orb_true_iff, !prefixb_spec. split; [intros H|tauto]. repeat split; auto. rewrite <- CU, C. discriminate.
Qed.
Definition items (us : list (list N)) : doc := DArr (map DStr us).
(** The full claim: the relays returned are the usable ones listed for the key. *)
Definition listed_relays_claim : Prop := forall text pre rpre rpost post key us,
  document text (DObj (pre ++ (relays_key, DObj (rpre ++ (key, items us) :: rpost)) :: post)) ->
  absent relays_key pre -> absent key rpre -> ~ In 34 key -> ~ In 92 key -> (length us <= 100)%nat ->
  find_relays text key = Ok (filter is_valid_relay_url us).
Theorem C76_refuted : ~ listed_relays_claim.
Proof.
  intros H. specialize (H (bs "{""relays"":{""k"":[""wss://[::1]""]}}") [] [] [] [] (bs "k") [bs "wss://[::1]"]).
  assert (D : document (bs "{""relays"":{""k"":[""wss://[::1]""]}}") (DObj ([] ++ (relays_key, DObj ([] ++ (bs "k", items [bs "wss://[::1]"]) :: [])) :: []))).
  { unfold document.
    change (lexes (123 :: 34 :: relays_key ++ 34 :: 58 :: 123 :: 34 :: bs "k" ++ 34 :: 58 :: 91 :: 34 :: bs "wss://[::1]" ++ 34 :: [93; 125; 125])
      [TPun 123; TStr relays_key; TPun 58; TPun 123; TStr (bs "k"); TPun 58; TPun 91; TStr (bs "wss://[::1]"); TPun 93; TPun 125; TPun 125]).
    repeat first [apply LexWs; [left; reflexivity|] | apply LexPun; [cbn; tauto|] | apply LexStr; [apply plain_raw; reflexivity|] | apply LexEnd]. }
  specialize (H D). vm_compute in H.
  assert (X : Ok (@nil (list N)) = Ok [bs "wss://[::1]"]); [|discriminate]. apply H.
  - intros [X|[X|[]]]; discriminate.
  - intros [X|[X|[]]]; discriminate.
  - intros [X|[]]; discriminate.
  - intros [X|[]]; discriminate.
  - repeat constructor.
Qed.

(** Partial: when no URL contains a closing bracket.  Missing: IPv6 hosts. *)
Definition strs (ts : list tok) : list (list N) := flat_map (fun t => match t with TStr r => [r] | _ => [] end) ts.
Definition item_tok (t : tok) : Prop := t = TPun 44 \/ exists r, t = TStr r /\ ~ In 93 r.
Lemma count_in_string raw : rawstring raw -> ~ In 93 raw -> forall b t, is_escaped_quote b = false ->
  count_strings b true (raw ++ 34 :: t) = Datatypes.S (count_strings (34 :: rev raw ++ b) false t).
Proof.
  induction 1 as [|c r N1 N2 R IH|c r R IH]; intros NB b t E.
  - cbn [app rev count_strings]. cbn [N.eqb Pos.eqb andb]. rewrite E. reflexivity.
  - assert (N3 : c <> 93) by (intros ->; apply NB; left; reflexivity).
    cbn [app count_strings]. rewrite (proj2 (N.eqb_neq _ _) N3), (proj2 (N.eqb_neq _ _) N1). cbn [andb].
    rewrite IH; [cbn [rev]; rewrite <- app_assoc; reflexivity|intros I; apply NB; right; exact I|apply esc_head, N2].
  - assert (N3 : c <> 93) by (intros ->; apply NB; right; left; reflexivity).
    change ((92 :: c :: r) ++ 34 :: t) with (92 :: c :: r ++ 34 :: t). cbn [count_strings N.eqb Pos.eqb andb].
    rewrite (proj2 (N.eqb_neq _ _) N3), (esc_bs b), E. cbn [negb]. rewrite andb_false_r.
    rewrite IH; [cbn [rev]; rewrite <- !app_assoc; reflexivity|intros I; apply NB; right; right; exact I|].
    destruct (N.eq_dec c 92) as [->|NC]; [rewrite !esc_bs, E; reflexivity|apply esc_head, NC].
Qed.
Lemma ws_not93 c : ws c -> c <> 93.
Proof. intros [->|[->|[->| ->]]]; discriminate. Qed.
(** After its items the array is closed, or the text ends. *)
Definition closed (rest : list tok) : Prop := rest = [] \/ exists t3, rest = TPun 93 :: t3.
Lemma count_items s ts0 : lexes s ts0 -> forall ts rest, closed rest -> ts0 = ts ++ rest -> Forall item_tok ts ->
  forall b, is_escaped_quote b = false -> count_strings b false s = length (strs ts).
Proof.
  induction 1 as [|c s ts0 W L IH|c s ts0 PU L IH|raw s ts0 R L IH|a s ts0 NE F L IH]; intros ts t3 CL E FI b EB.
  - destruct ts; [reflexivity|discriminate].
  - destruct (ws_not c W) as (N1 & N2). cbn [count_strings]. rewrite (proj2 (N.eqb_neq _ _) (ws_not93 c W)), (proj2 (N.eqb_neq _ _) N1). cbn [andb].
    apply (IH ts t3 CL E FI), esc_head, N2.
  - destruct ts as [|t ts]; cbn [app] in E.
    + destruct CL as [->|(q & ->)]; [discriminate|]. assert (c = 93) by congruence. subst c. reflexivity.
    + inversion FI as [|? ? IT FI']; subst. destruct IT as [->|(r & -> & _)]; [|discriminate]. assert (c = 44) by congruence. subst c.
      cbn [count_strings N.eqb Pos.eqb andb]. apply (IH ts t3 CL); [congruence|exact FI'|apply esc_head; discriminate].
  - destruct ts as [|t ts]; cbn [app] in E; [destruct CL as [->|(q & ->)]; discriminate|]. inversion FI as [|? ? IT FI']; subst.
    destruct IT as [->|(r & -> & NB)]; [discriminate|]. assert (r = raw) by congruence. subst r.
    cbn [count_strings]. change (34 =? 93) with false. change (34 =? 34) with true. cbn [andb]. rewrite EB. cbn [negb].
    rewrite count_in_string; [|exact R|exact NB|apply esc_head; discriminate]. cbn [Nat.add strs flat_map app length]. f_equal.
    apply (IH ts t3 CL); [congruence|exact FI'|apply esc_head; discriminate].
  - destruct ts as [|t ts]; cbn [app] in E; [destruct CL as [->|(q & ->)]; discriminate|]. inversion FI as [|? ? IT FI']; subst.
    destruct IT as [->|(r & -> & NB)]; discriminate.
Qed.
Lemma to_string_end_raw raw : rawstring raw -> forall b acc t, is_escaped_quote b = false ->
  to_string_end b acc (raw ++ 34 :: t) = (acc ++ raw, rev raw ++ b, 34 :: t).
Proof.
  induction 1 as [|c r N1 N2 R IH|c r R IH]; intros b acc t E.
  - cbn [app rev to_string_end]. cbn [N.eqb Pos.eqb andb]. rewrite E, app_nil_r. reflexivity.
  - cbn [app to_string_end]. rewrite (proj2 (N.eqb_neq _ _) N1). cbn [andb]. rewrite IH by (apply esc_head, N2).
    cbn [rev]. rewrite <- !app_assoc. reflexivity.
  - change ((92 :: c :: r) ++ 34 :: t) with (92 :: c :: r ++ 34 :: t). cbn [to_string_end N.eqb Pos.eqb andb].
    rewrite (esc_bs b), E. cbn [negb]. rewrite andb_false_r.
    rewrite IH; [cbn [rev]; rewrite <- !app_assoc; reflexivity|].
    destruct (N.eq_dec c 92) as [->|NC]; [rewrite !esc_bs, E; reflexivity|apply esc_head, NC].
Qed.
Lemma to_quote_items s ts0 : lexes s ts0 -> forall ts t3, closed t3 -> ts0 = ts ++ t3 -> Forall item_tok ts ->
  forall b, is_escaped_quote b = false ->
  (exists b' s', to_quote b s = (b', s') /\ after 34 s' = None /\ strs ts = []) \/
  (exists b' raw s' ts', to_quote b s = (b', 34 :: raw ++ 34 :: s') /\ rawstring raw /\
     lexes s' (ts' ++ t3) /\ Forall item_tok ts' /\ strs ts = raw :: strs ts').
Proof.
  induction 1 as [|c s ts0 W L IH|c s ts0 PU L IH|raw s ts0 R L IH|a s ts0 NE F L IH]; intros ts t3 CL E FI b EB.
  - destruct ts; [|discriminate]. left. exists b, []. repeat split; reflexivity.
  - destruct (ws_not c W) as (N1 & N2). cbn [to_quote]. rewrite (proj2 (N.eqb_neq _ _) (ws_not93 c W)), (proj2 (N.eqb_neq _ _) N1). cbn [orb].
    apply (IH ts t3 CL E FI), esc_head, N2.
  - destruct ts as [|t ts]; cbn [app] in E.
    + destruct CL as [->|(q & ->)]; [discriminate|]. assert (c = 93) by congruence. subst c. left. exists b, (93 :: s). repeat split; reflexivity.
    + inversion FI as [|? ? IT FI']; subst. destruct IT as [->|(r & -> & _)]; [|discriminate]. assert (c = 44) by congruence. subst c.
      cbn [to_quote N.eqb Pos.eqb orb]. apply (IH ts t3 CL); [congruence|exact FI'|apply esc_head; discriminate].
  - destruct ts as [|t ts]; cbn [app] in E; [destruct CL as [->|(q & ->)]; discriminate|]. inversion FI as [|? ? IT FI']; subst.
    destruct IT as [->|(r & -> & NB)]; [discriminate|]. assert (r = raw /\ ts0 = ts ++ t3) as (-> & ->) by (split; congruence).
    right. exists b, raw, s, ts. split; [reflexivity|]. auto.
  - destruct ts as [|t ts]; cbn [app] in E; [destruct CL as [->|(q & ->)]; discriminate|]. inversion FI as [|? ? IT FI']; subst.
    destruct IT as [->|(r & -> & NB)]; discriminate.
Qed.
Lemma lex_nil ts : lexes [] ts -> ts = [].
Proof. intros L. inversion L as [| | |? ? ? ? ? E|a ? ? NE ? ? E]; [reflexivity|]. destruct a; [congruence|discriminate]. Qed.
Lemma collect_items : forall fuel n b s ts t3, closed t3 -> lexes s (ts ++ t3) -> Forall item_tok ts -> is_escaped_quote b = false ->
  (length (strs ts) < fuel)%nat -> (length (strs ts) <= n)%nat -> collect_relays fuel n b s = filter is_valid_relay_url (strs ts).
Proof.
  induction fuel as [|f IH]; intros n b s ts t3 CL L FI EB LF LN; [lia|]. cbn [collect_relays].
  destruct n as [|n']; [destruct (strs ts); [reflexivity|cbn [length] in LN; lia]|].
  destruct s as [|c s]; [apply lex_nil in L; destruct ts; [reflexivity|discriminate]|].
  destruct (to_quote_items _ _ L ts t3 CL eq_refl FI b EB) as [(b' & s' & TQ & AN & E)|(b' & raw & s' & ts' & TQ & R & L' & FI' & E)].
  - rewrite E. cbn [filter]. destruct (c =? 93); [reflexivity|]. rewrite TQ, AN. reflexivity.
  - assert (NC : (c =? 93) = false).
    { destruct (N.eqb_spec c 93) as [->|]; [|reflexivity]. cbn in TQ. congruence. }
    rewrite NC, TQ. cbn [after N.eqb Pos.eqb]. rewrite (to_string_end_raw raw R) by (apply esc_head; discriminate).
    cbn [app after N.eqb Pos.eqb]. rewrite E in *. cbn [filter length] in *.
    destruct (is_valid_relay_url raw); [f_equal|]; apply (IH _ _ _ ts' t3); auto; try lia; apply esc_head; discriminate.
Qed.
Lemma find_relays_toks text p1 p2 key ts rest :
  lexes text ((TPun 123 :: p1) ++ TStr relays_key :: repeat (TPun 58) 1 ++ TPun 123 :: p2 ++ TStr key :: repeat (TPun 58) 1 ++ TPun 91 :: ts ++ rest) ->
  ~ In (TStr relays_key) p1 -> ~ In (TStr key) p2 -> ~ In 34 key -> ~ In 92 key -> closed rest -> Forall item_tok ts ->
  find_relays text key = if (100 <? length (strs ts))%nat then Err EInvalidParam else Ok (filter is_valid_relay_url (strs ts)).
Proof.
  intros D AP AK Q1 Q2 CL FI. unfold find_relays.
  change (bs """relays""") with (quoted relays_key). change (34 :: key ++ [34]) with (quoted key).
  assert (PN : plain relays_key) by (split; cbn; intros X; repeat (destruct X as [X|X]; [discriminate|]); exact X).
  destruct (json_strstr_lex relays_key text _ PN D) as [(t1 & t2 & r & E & NI & LR & ->)|(NI & _)].
  2:{ exfalso. apply NI, in_or_app. right. left. reflexivity. }
  apply first_unique in E; [|intros [X|X]; [discriminate|exact (AP X)]|exact NI]. destruct E as (_ & <-).
  rewrite (skipn_quoted relays_key r 8 eq_refl). destruct (skip_lex _ _ LR) as (i & u & E & LV & NH & NW).
  apply repeat_unique in E; [|intros x X; discriminate|exact NH]. subst u.
  destruct (lex_head_pun _ _ _ LV) as (p & EP & LP); [intros x q E; apply (NW x q E)|].
  rewrite EP. cbn [after N.eqb Pos.eqb]. rewrite EP in LV.
  destruct (json_strstr_lex key (123 :: p) _ (conj Q1 Q2) LV) as [(t1' & t2 & q & E & NI' & LQ & ->)|(NI' & _)].
  2:{ exfalso. apply NI'. right. apply in_or_app. right. left. reflexivity. }
  assert (E' : (TPun 123 :: p2) ++ TStr key :: repeat (TPun 58) 1 ++ TPun 91 :: ts ++ rest = t1' ++ TStr key :: t2) by exact E.
  apply first_unique in E'; [|intros [X|X]; [discriminate|exact (AK X)]|exact NI']. destruct E' as (_ & <-).
  rewrite (skipn_quoted key q _ eq_refl). destruct (skip_lex _ _ LQ) as (j & v & E2 & LW & NH2 & NW2).
  apply repeat_unique in E2; [|intros x X; discriminate|exact NH2]. subst v.
  destruct (lex_head_pun _ _ _ LW) as (l & EL & LL); [intros x z E2; apply (NW2 x z E2)|].
  rewrite EL. cbn [after N.eqb Pos.eqb].
  rewrite (count_items _ _ LL ts rest CL eq_refl FI [] eq_refl).
  destruct (Nat.eqb_spec (length (strs ts)) 0) as [Z|NZ]; [destruct (strs ts); [reflexivity|discriminate]|].
  destruct (100 <? length (strs ts))%nat eqn:LU; [reflexivity|].
  rewrite (collect_items _ _ [] l ts rest CL LL FI eq_refl); [reflexivity| |lia].
  assert (SL : forall s ts, lexes s ts -> (length (strs ts) <= length s)%nat).
  { clear. unfold strs. induction 1 as [|c s ts W L IH|c s ts PU L IH|raw s ts R L IH|a s ts NE F L IH]; cbn [length flat_map app].
    - lia.
    - lia.
    - lia.
    - rewrite app_length. cbn [length]. lia.
    - rewrite app_length. lia. }
  specialize (SL _ _ LL). unfold strs in SL at 1. rewrite flat_map_app, app_length in SL. fold (strs ts) in SL. lia.
Qed.
Definition url_toks (us : list (list N)) : list tok := commaed (map toks (map DStr us)).
Lemma url_toks_cons u w us : url_toks (u :: w :: us) = TStr u :: TPun 44 :: url_toks (w :: us).
Proof. reflexivity. Qed.
Lemma url_toks_items us : Forall (fun u => ~ In 93 u) us -> Forall item_tok (url_toks us).
Proof.
  induction 1 as [|u us NU FU IH]; [constructor|]. destruct us as [|w us].
  - apply Forall_cons; [right; eauto|constructor].
  - rewrite url_toks_cons. apply Forall_cons; [right; eauto|]. apply Forall_cons; [left; reflexivity|exact IH].
Qed.
Lemma url_toks_first : forall us n, strs (firstn n (url_toks us)) = firstn (Nat.div2 (S n)) us.
Proof.
  induction us as [|u us IH]; intros n; [unfold url_toks; cbn [map commaed]; rewrite !firstn_nil; reflexivity|].
  destruct us as [|w us].
  - destruct n as [|[|n]]; [reflexivity..|]. cbn [url_toks map commaed toks firstn Nat.div2]. rewrite !firstn_nil. reflexivity.
  - rewrite url_toks_cons. destruct n as [|[|n]]; [reflexivity..|].
    change (strs (firstn (S (S n)) (TStr u :: TPun 44 :: url_toks (w :: us)))) with (u :: strs (firstn n (url_toks (w :: us)))).
    rewrite IH. reflexivity.
Qed.
Lemma url_toks_strs us : strs (url_toks us) = us.
Proof.
  induction us as [|u us IH]; [reflexivity|]. destruct us as [|w us]; [reflexivity|].
  rewrite url_toks_cons. change (strs (TStr u :: TPun 44 :: url_toks (w :: us))) with (u :: strs (url_toks (w :: us))). rewrite IH. reflexivity.
Qed.
Theorem C76_partial : forall text pre rpre rpost post key us,
  document text (DObj (pre ++ (relays_key, DObj (rpre ++ (key, items us) :: rpost)) :: post)) ->
  absent relays_key pre -> absent key rpre -> ~ In 34 key -> ~ In 92 key ->
  Forall (fun u => ~ In 93 u) us ->
  find_relays text key = if (length us <=? 100)%nat then Ok (filter is_valid_relay_url us) else Err EInvalidParam.
Proof.
  intros text pre rpre rpost post key us D AP AK Q1 Q2 FU.
  set (tail := post_toks rpost ++ TPun 125 :: post_toks post ++ [TPun 125]).
  assert (ET : toks (DObj (pre ++ (relays_key, DObj (rpre ++ (key, items us) :: rpost)) :: post)) =
    (TPun 123 :: pre_toks pre) ++ TStr relays_key :: repeat (TPun 58) 1 ++ TPun 123 :: pre_toks rpre ++
      TStr key :: repeat (TPun 58) 1 ++ TPun 91 :: url_toks us ++ TPun 93 :: tail).
  { subst tail. unfold url_toks. rewrite obj_toks, members_split. unfold kv_toks at 1. cbn [fst snd]. rewrite obj_toks, members_split. unfold kv_toks at 1. cbn [fst snd].
    unfold items. cbn [toks repeat app]. repeat (rewrite <- !app_assoc; cbn [app]). reflexivity. }
  unfold document in D. rewrite ET in D.
  rewrite (find_relays_toks text _ _ key _ _ D (absent_pre _ _ AP) (absent_pre _ _ AK) Q1 Q2 (or_intror (ex_intro _ tail eq_refl)) (url_toks_items us FU)), url_toks_strs.
  rewrite Nat.leb_antisym. destruct (100 <? length us)%nat; reflexivity.
Qed.
(** A response that breaks off inside the list: the first [n] tokens of the
    list (URLs and the commas between them) have arrived, and nothing after
    them.  The URLs that arrived are returned. *)
Definition broken_off (text key : list N) (pre rpre : list (list N * doc)) (us : list (list N)) (n : nat) : Prop :=
  lexes text ((TPun 123 :: flat_map (fun kv => (TStr (fst kv) :: TPun 58 :: toks (snd kv)) ++ [TPun 44]) pre) ++
    TStr relays_key :: TPun 58 :: TPun 123 :: flat_map (fun kv => (TStr (fst kv) :: TPun 58 :: toks (snd kv)) ++ [TPun 44]) rpre ++
    TStr key :: TPun 58 :: TPun 91 :: firstn n (commaed (map (fun u => [TStr u]) us))).
Theorem C76_cut : forall text pre rpre key us n,
  broken_off text key pre rpre us n ->
  absent relays_key pre -> absent key rpre -> ~ In 34 key -> ~ In 92 key ->
  Forall (fun u => ~ In 93 u) us ->
  find_relays text key =
    let arrived := firstn (Nat.div2 (S n)) us in
    if (length arrived <=? 100)%nat then Ok (filter is_valid_relay_url arrived) else Err EInvalidParam.
Proof.
  intros text pre rpre key us n D AP AK Q1 Q2 FU.
  assert (EU : commaed (map (fun u => [TStr u]) us) = url_toks us) by (unfold url_toks; rewrite map_map; reflexivity).
  unfold broken_off in D. rewrite EU in D. cbv zeta. rewrite <- url_toks_first.
  assert (FI : Forall item_tok (firstn n (url_toks us))).
  { pose proof (url_toks_items us FU) as X. rewrite <- (firstn_skipn n (url_toks us)) in X. apply Forall_app in X. exact (proj1 X). }
  rewrite <- (app_nil_r (firstn n (url_toks us))) in D.
  rewrite (find_relays_toks text (pre_toks pre) (pre_toks rpre) key _ [] D (absent_pre _ _ AP) (absent_pre _ _ AK) Q1 Q2 (or_introl eq_refl) FI).
  rewrite Nat.leb_antisym. destruct (100 <? length _)%nat; reflexivity.
Qed.
Example C76_cut_meets : broken_off (bs "{""relays"": {""k"":[""wss://a.b"",""ws://d"" ,") (bs "k") [] [] [bs "wss://a.b"; bs "ws://d"; bs "wss://lost"] 4 /\
  find_relays (bs "{""relays"": {""k"":[""wss://a.b"",""ws://d"" ,") (bs "k") = Ok [bs "wss://a.b"; bs "ws://d"].
Proof.
  split; [|reflexivity]. unfold broken_off.
  change (lexes (123 :: 34 :: relays_key ++ 34 :: 58 :: 32 :: 123 :: 34 :: bs "k" ++ 34 :: 58 :: 91 :: 34 :: bs "wss://a.b" ++ 34 :: 44 :: 34 :: bs "ws://d" ++ 34 :: 32 :: [44])
    [TPun 123; TStr relays_key; TPun 58; TPun 123; TStr (bs "k"); TPun 58; TPun 91; TStr (bs "wss://a.b"); TPun 44; TStr (bs "ws://d"); TPun 44]).
  repeat first [apply LexWs; [left; reflexivity|] | apply LexPun; [cbn; tauto|] | apply LexStr; [apply plain_raw; reflexivity|] | apply LexEnd].
Qed.
Example C76_meets : find_relays (bs "{""relays"":{""k"":[""wss://a.b"", ""http://c"",""ws://d""]}}") (bs "k") = Ok [bs "wss://a.b"; bs "ws://d"].
Proof. reflexivity. Qed.

(** ** C77: only the response is read *)
Theorem C77_refuted : ~ (forall id expected buf, nip05_verify id expected (fun _ => Ok (Some buf, N.of_nat (length buf))) false <> Undef).
Proof. intros H. apply (H (bs "a@b.c") [] (bs "{}")). reflexivity. Qed.
(** Partial: when the callback's buffer holds a terminating NUL.  Missing:
    buffers delimited by the reported length only. *)
Theorem C77_partial : forall id expected fetch want,
  (forall url, fetch url <> Undef) -> (forall url buf len, fetch url = Ok (Some buf, len) -> In 0 buf) ->
  nip05_verify id expected fetch want <> Undef.
Proof.
  intros id expected fetch want FU FN. unfold nip05_verify.
  destruct (nip05_parse id 65 257) as [[name domain]| |] eqn:P; [|discriminate|].
  2:{ unfold nip05_parse in P. destruct (_ || _); [discriminate|]. destruct (split_char 64 id) as [[a b]|]; [|discriminate].
      destruct (negb _); [discriminate|]. destruct (negb _); [discriminate|]. destruct (_ || _); discriminate. }
  cbn [bind fst snd]. destruct (C41_url name domain 512) as [(EU & _)|(EU & _)]; rewrite EU; [|discriminate]. cbn [bind].
  destruct (fetch _) as [[[buf|] len]| |] eqn:F; [|discriminate|discriminate|exfalso; exact (FU _ F)]. cbn [bind].
  destruct (len =? 0); [discriminate|]. destruct (1048576 <? len); [discriminate|].
  assert (C : exists t, c_string buf = Ok t).
  { specialize (FN _ _ _ F). clear -FN. induction buf as [|c buf IH]; [contradiction|]. cbn [c_string].
    destruct (N.eqb_spec c 0) as [->|NC]; [eauto|]. destruct FN as [X|X]; [congruence|]. destruct (IH X) as (t & ->). cbn [bind]. eauto. }
  destruct C as (t & ->). cbn [bind]. unfold nip05_parse_response.
  assert (FP : find_pubkey t name <> Undef).
  { unfold find_pubkey. repeat (match goal with |- context [if ?b then _ else _] => destruct b | |- context [match ?x with _ => _ end] => destruct x end; try discriminate). }
  assert (FR : forall k, find_relays t k <> Undef).
  { intros k. unfold find_relays. repeat (match goal with |- context [if ?b then _ else _] => destruct b | |- context [match ?x with _ => _ end] => destruct x end; try discriminate). }
  destruct (65 <? 65); [discriminate|]. destruct (find_pubkey t name) as [k| |]; [|discriminate|congruence]. cbn [bind].
  destruct want.
  - specialize (FR k). destruct (find_relays t k); [|discriminate|congruence]. cbn [bind fst snd].
    destruct (negb _); [discriminate|]. destruct (beq _ _); discriminate.
  - cbn [bind fst snd]. destruct (negb _); [discriminate|]. destruct (beq _ _); discriminate.
Qed.

(** A case: an answer ended by NUL, inside a larger buffer. *)
Example C77_meets : nip05_verify (bs "a@b.c") (bs "00") (fun _ => Ok (Some (bs "{}" ++ [0; 200; 200]), 2)) false <> Undef.
Proof.
  apply C77_partial; [discriminate|]. intros url buf len E. assert (buf = bs "{}" ++ [0; 200; 200]) by congruence. subst buf. cbn. tauto.
Qed.

Print Assumptions C41_parse.
Print Assumptions C41_url.
Print Assumptions C42_exact.
Print Assumptions C42_refuted.
Print Assumptions C42_partial.
Print Assumptions C42_complete.
Print Assumptions C42_verify.
Print Assumptions C76_usable.
Print Assumptions C76_refuted.
Print Assumptions C76_partial.
Print Assumptions C76_cut.
Print Assumptions C77_refuted.
Print Assumptions C77_partial.
