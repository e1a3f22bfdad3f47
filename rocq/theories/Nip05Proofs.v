(** Lemmas for NIP-05. *)
From Verif Require Import Base BaseFacts Json Nip05 Nip05Spec.
Open Scope N_scope.

(** ** Identifiers *)
Lemma is_alnum_iff c : is_alnum c = true <-> letter_or_digit c.
Proof. unfold is_alnum, letter_or_digit. rewrite !orb_true_iff, !andb_true_iff, !N.leb_le. tauto. Qed.
Lemma is_hex_char_iff c : is_hex_char c = true <-> hex_char c.
Proof. unfold is_hex_char, hex_char. rewrite !orb_true_iff, !andb_true_iff, !N.leb_le. tauto. Qed.
Lemma lowered_iff c l : lowered c l <-> l = tolower c.
Proof.
  unfold lowered, tolower. destruct ((65 <=? c) && (c <=? 90)) eqn:E.
  - apply andb_true_iff in E. rewrite !N.leb_le in E. split; [intros [(_ & ->)|(N & _)]; [reflexivity|contradiction]|auto].
  - assert (N : ~ 65 <= c <= 90) by (intros (A & B); apply andb_false_iff in E; rewrite !N.leb_gt in E; lia).
    split; [intros [(X & _)|(_ & ->)]; [contradiction|reflexivity]|auto].
Qed.
Lemma in_lower_iff s t : in_lower s t <-> t = map tolower s.
Proof.
  split.
  - induction 1 as [|c l s t H F IH]; [reflexivity|]. cbn [map]. apply lowered_iff in H. congruence.
  - intros ->. induction s as [|c s IH]; [constructor|]. constructor; [apply lowered_iff; reflexivity|exact IH].
Qed.
Lemma local_iff s : is_valid_local_part s = true <-> (1 <= length s <= 64)%nat /\ Forall local_char s.
Proof.
  unfold is_valid_local_part. destruct (Nat.eqb_spec (length s) 0) as [E|E]; cbn [orb]; [split; [discriminate|lia]|].
  destruct (Nat.ltb_spec 64 (length s)) as [L|L]; [split; [discriminate|lia]|].
  rewrite forallb_forall, Forall_forall. split.
  - intros H. split; [lia|]. intros c I. specialize (H c I). unfold local_char. rewrite !orb_true_iff, !N.eqb_eq in H.
    rewrite is_alnum_iff in H. cbn. destruct H as [[[H| -> ]| -> ]| -> ]; auto 10.
  - intros (_ & H) c I. specialize (H c I). rewrite !orb_true_iff, !N.eqb_eq, is_alnum_iff. destruct H as [H|H]; [auto|].
    cbn in H. destruct H as [<-|[<-|[<-|[]]]]; auto.
Qed.

(** What the domain loop accepts from a given point: [at_label] says that a
    label has begun. *)
Fixpoint dom (start : bool) (dot : bool) (s : list N) : bool :=
  match s with
  | [] => negb start && dot
  | c :: r => if c =? 46 then negb start && dom true true r else (is_alnum c || (c =? 45)) && dom false dot r
  end.
Lemma last_tail (c : N) r : r <> [] -> nth (length (c :: r) - 1) (c :: r) 0 = nth (length r - 1) r 0.
Proof. destruct r as [|x r]; [congruence|]. intros _. cbn [length]. rewrite !Nat.sub_succ, !Nat.sub_0_r. reflexivity. Qed.
Lemma domain_loop_dom : forall s dot (start : bool), (s = [] -> start = false) -> (s <> [] -> nth (length s - 1) s 0 <> 46) ->
  forall prev, (start = true <-> prev = Some 46) -> domain_loop prev dot s = dom start dot s.
Proof.
  induction s as [|c r IH]; intros dot start H0 HL prev HP; cbn [domain_loop dom].
  - rewrite (H0 eq_refl). reflexivity.
  - assert (HL' : r <> [] -> nth (length r - 1) r 0 <> 46).
    { intros NE. rewrite <- (last_tail c) by exact NE. apply HL. discriminate. }
    destruct (N.eqb_spec c 46) as [->|NC].
    + assert (NE : r <> []) by (intros ->; apply (HL ltac:(discriminate)); reflexivity).
      assert (D : match prev with Some q => q =? 46 | None => false end = start).
      { destruct prev as [q|].
        - destruct (N.eqb_spec q 46) as [->|NQ]; [symmetry; tauto|]. destruct start; [|reflexivity]. destruct HP as (HP & _). specialize (HP eq_refl). congruence.
        - destruct start; [|reflexivity]. destruct HP as (HP & _). specialize (HP eq_refl). discriminate. }
      rewrite D. destruct start; cbn [negb andb]; [reflexivity|]. apply IH; [congruence|exact HL'|split; auto].
    + destruct (is_alnum c || (c =? 45)); cbn [andb]; [|reflexivity]. apply IH; [reflexivity|exact HL'|]. split; [discriminate|congruence].
Qed.
Lemma dom_iff : forall s start dot, dom start dot s = true <->
  exists l ls, s = dotted (l :: ls) /\ Forall domain_char l /\ (start = true -> l <> []) /\
    Forall (fun l => l <> [] /\ Forall domain_char l) ls /\ (dot = true \/ ls <> []).
Proof.
  assert (NA : is_alnum 46 || (46 =? 45) = false) by reflexivity.
  assert (DC : forall c, is_alnum c || (c =? 45) = true <-> domain_char c).
  { intros c. rewrite orb_true_iff, is_alnum_iff, N.eqb_eq. reflexivity. }
  induction s as [|c r IH]; intros start dot; cbn [dom].
  - rewrite andb_true_iff. split.
    + intros (NS & D). exists [], []. repeat split; auto. intros ->. discriminate.
    + intros (l & ls & E & F & NS & FL & D). destruct ls as [|x ls].
      * cbn [dotted] in E. subst l. destruct D as [->|D]; [|congruence]. split; [|reflexivity]. destruct start; [exfalso; apply NS; reflexivity|reflexivity].
      * cbn [dotted] in E. destruct l; discriminate.
  - destruct (N.eqb_spec c 46) as [->|NC].
    + rewrite andb_true_iff, IH. split.
      * intros (NS & l & ls & -> & F & NE & FL & _). exists [], (l :: ls). split; [reflexivity|]. split; [constructor|].
        split; [intros ->; discriminate|]. split; [constructor; [split; auto|exact FL]|right; discriminate].
      * intros (l & ls & E & F & NE & FL & D). destruct ls as [|x ls].
        { cbn [dotted] in E. subst l. inversion F as [|? ? X ?]; subst. apply DC in X. discriminate. }
        change (dotted (l :: x :: ls)) with (l ++ 46 :: dotted (x :: ls)) in E. destruct l as [|y l].
        { split; [destruct start; [exfalso; apply NE; reflexivity|reflexivity]|]. inversion FL as [|? ? (N1 & F1) FL']; subst.
          exists x, ls. assert (E' : r = dotted (x :: ls)) by (cbn [app] in E; congruence). repeat split; auto. }
        { inversion F as [|? ? X ?]; subst. cbn [app] in E. assert (y = 46) by congruence. subst y. apply DC in X. discriminate. }
    + rewrite andb_true_iff, IH, DC. split.
      * intros (X & l & ls & -> & F & NE & FL & D). exists (c :: l), ls. split; [destruct ls; reflexivity|]. repeat split; auto. discriminate.
      * intros (l & ls & E & F & NE & FL & D). destruct l as [|y l].
        { destruct ls as [|x ls]; cbn [dotted app] in E; [discriminate|]. congruence. }
        assert (D2 : dotted ((y :: l) :: ls) = y :: dotted (l :: ls)) by (destruct ls; reflexivity). rewrite D2 in E.
        assert (y = c /\ r = dotted (l :: ls)) as (-> & ->) by (split; congruence).
        inversion F; subst. split; [assumption|]. exists l, ls. repeat split; auto. discriminate.
Qed.
Lemma dotted_last l ls : Forall (fun l => l <> [] /\ Forall domain_char l) (l :: ls) ->
  nth (length (dotted (l :: ls)) - 1) (dotted (l :: ls)) 0 <> 46 /\ dotted (l :: ls) <> [].
Proof.
  revert l. induction ls as [|x ls IH]; intros l F; inversion F as [|? ? (NE & FC) F']; subst.
  - cbn [dotted]. split; [|exact NE].
    assert (I : In (nth (length l - 1) l 0) l) by (apply nth_In; destruct l; [congruence|cbn [length]; lia]).
    apply (proj1 (Forall_forall _ _) FC) in I. intros E. rewrite E in I. destruct I as [[?|[?|?]]|?]; lia.
  - destruct (IH x F') as (L & NN). change (dotted (l :: x :: ls)) with (l ++ 46 :: dotted (x :: ls)).
    set (q := dotted (x :: ls)) in *. clearbody q. split; [|destruct l; discriminate].
    rewrite app_nth2 by (rewrite app_length; cbn [length]; lia). rewrite app_length. cbn [length].
    replace (length l + Datatypes.S (length q) - 1 - length l)%nat with (length q) by lia.
    destruct q as [|y q]; [congruence|]. cbn [nth length] in *. rewrite Nat.sub_succ, Nat.sub_0_r in L. exact L.
Qed.
Lemma domain_iff s : is_valid_domain s = true <-> domain_name s.
Proof.
  unfold is_valid_domain, domain_name. split.
  - destruct (Nat.eqb_spec (length s) 0) as [E|E]; cbn [orb]; [discriminate|].
    destruct (Nat.ltb_spec 256 (length s)) as [L|L]; [discriminate|].
    destruct (N.eqb_spec (nth 0 s 0) 46) as [A|A]; cbn [orb]; [discriminate|].
    destruct (N.eqb_spec (nth (length s - 1) s 0) 46) as [B|B]; [discriminate|]. intros H.
    rewrite (domain_loop_dom s false false) in H; [|auto|auto|split; discriminate].
    apply dom_iff in H. destruct H as (l & ls & -> & F & _ & FL & [?|NE]); [discriminate|].
    exists (l :: ls). split; [reflexivity|]. split; [destruct ls; [congruence|cbn [length]; lia]|]. split; [|lia].
    constructor; [|exact FL]. split; [|exact F]. intros ->. destruct ls; [congruence|]. cbn [dotted app nth] in A. congruence.
  - intros (ls & -> & L2 & F & L). destruct ls as [|l ls]; [cbn [length] in L2; lia|]. destruct (dotted_last l ls F) as (LA & NE).
    rewrite (proj2 (Nat.eqb_neq _ _)) by (destruct (dotted (l :: ls)); [congruence|discriminate]).
    rewrite (proj2 (Nat.ltb_ge _ _)) by exact L. cbn [orb].
    rewrite (proj2 (N.eqb_neq (nth (length _ - 1) _ _) _)) by exact LA.
    inversion F as [|? ? (N1 & F1) FL]; subst.
    assert (A : nth 0 (dotted (l :: ls)) 0 <> 46).
    { destruct l as [|c l]; [congruence|]. inversion F1 as [|? ? D ?]; subst. assert (E : nth 0 (dotted ((c :: l) :: ls)) 0 = c) by (destruct ls; reflexivity).
      rewrite E. intros ->. destruct D as [[?|[?|?]]|?]; lia. }
    rewrite (proj2 (N.eqb_neq _ _) A). cbn [orb].
    rewrite (domain_loop_dom _ false false); [|auto|auto|split; discriminate].
    apply dom_iff. exists l, ls. repeat split; auto. right. destruct ls; [cbn [length] in L2; lia|discriminate].
Qed.
Lemma split_char_iff d s a b : split_char d s = Some (a, b) <-> s = a ++ d :: b /\ ~ In d a.
Proof.
  revert a. induction s as [|c s IH]; intros a; cbn [split_char].
  - split; [discriminate|]. intros (E & _). destruct a; discriminate.
  - destruct (N.eqb_spec c d) as [->|NE].
    + split.
      * intros H. assert (a = [] /\ b = s) as (-> & ->) by (split; congruence). split; [reflexivity|intros []].
      * intros (E & NI). destruct a as [|x a]; [cbn [app] in E; congruence|]. exfalso. apply NI. left. cbn [app] in E. congruence.
    + split.
      * destruct (split_char d s) as [[a' b']|] eqn:E; [|discriminate]. intros H.
        assert (a = c :: a' /\ b = b') as (-> & ->) by (split; congruence).
        destruct (proj1 (IH a') eq_refl) as (-> & NI). split; [reflexivity|]. intros [X|X]; [congruence|exact (NI X)].
      * intros (E & NI). destruct a as [|x a]; [cbn [app] in E; congruence|]. cbn [app] in E.
        assert (x = c /\ s = a ++ d :: b) as (-> & E') by (split; congruence).
        rewrite (proj2 (IH a)); [reflexivity|]. split; [exact E'|]. intros X. apply NI. right. exact X.
Qed.

(** ** Scanning JSON text *)
Lemma esc_head c b : c <> 92 -> is_escaped_quote (c :: b) = false.
Proof. intros N. unfold is_escaped_quote. cbn [backslashes]. rewrite (proj2 (N.eqb_neq _ _) N). reflexivity. Qed.
Lemma esc_bs b : is_escaped_quote (92 :: b) = negb (is_escaped_quote b).
Proof. unfold is_escaped_quote. cbn [backslashes]. change (92 =? 92) with true. cbv iota. rewrite Nat.odd_succ, <- Nat.negb_odd. reflexivity. Qed.

Definition quoted (nm : list N) : list N := 34 :: nm ++ [34].
Definition plain (nm : list N) : Prop := ~ In 34 nm /\ ~ In 92 nm.
Lemma in_string_scan needle raw t : rawstring raw -> forall b, is_escaped_quote b = false ->
  json_strstr_loop needle b true (raw ++ 34 :: t) = json_strstr_loop needle (34 :: rev raw ++ b) false t.
Proof.
  induction 1 as [|c r N1 N2 R IH|c r R IH]; intros b E.
  - cbn [app rev json_strstr_loop]. cbn [negb andb N.eqb Pos.eqb]. rewrite E. reflexivity.
  - cbn [app json_strstr_loop negb andb]. rewrite (proj2 (N.eqb_neq _ _) N1). cbn [andb].
    rewrite IH by (apply esc_head, N2). cbn [rev]. rewrite <- app_assoc. reflexivity.
  - change ((92 :: c :: r) ++ 34 :: t) with (92 :: c :: r ++ 34 :: t).
    cbn [json_strstr_loop negb andb N.eqb Pos.eqb]. rewrite (esc_bs b), E. cbn [negb]. rewrite andb_false_r.
    rewrite IH; [cbn [rev]; rewrite <- !app_assoc; reflexivity|].
    destruct (N.eq_dec c 92) as [->|NC]; [rewrite !esc_bs, E; reflexivity|apply esc_head, NC].
Qed.
Lemma raw_prefix nm raw t : plain nm -> rawstring raw -> (prefixb (quoted nm) (34 :: raw ++ 34 :: t) = true <-> raw = nm).
Proof.
  intros (N1 & N2) R. unfold quoted. rewrite prefixb_spec. split.
  - intros (r & E). change ((34 :: nm ++ [34]) ++ r) with (34 :: (nm ++ [34]) ++ r) in E. rewrite <- app_assoc in E. cbn [app] in E.
    assert (E' : raw ++ 34 :: t = nm ++ 34 :: r) by congruence. clear E.
    revert nm N1 N2 E'. induction R as [|c raw C1 C2 R IH|c raw R IH]; intros nm N1 N2 E.
    + destruct nm as [|x nm]; [reflexivity|]. cbn [app] in E. exfalso. apply N1. left. congruence.
    + destruct nm as [|x nm]; cbn [app] in E; [congruence|]. assert (x = c /\ raw ++ 34 :: t = nm ++ 34 :: r) as (-> & E') by (split; congruence).
      f_equal. apply IH; [intros I; apply N1; right; exact I|intros I; apply N2; right; exact I|exact E'].
    + destruct nm as [|x nm]; cbn [app] in E; [congruence|]. exfalso. apply N2. left. congruence.
  - intros ->. exists t. cbn [app]. rewrite <- app_assoc. reflexivity.
Qed.

Lemma not_quote_step nm b c s : c <> 34 -> json_strstr_loop (quoted nm) b false (c :: s) = json_strstr_loop (quoted nm) (c :: b) false s.
Proof.
  intros N. cbn [json_strstr_loop negb andb]. unfold quoted at 1. cbn [prefixb].
  rewrite (proj2 (N.eqb_neq 34 c)) by congruence. rewrite (proj2 (N.eqb_neq c 34)) by exact N. reflexivity.
Qed.
Lemma ws_not c : ws c -> c <> 34 /\ c <> 92.
Proof. intros [->|[->|[->| ->]]]; split; discriminate. Qed.
Lemma punct_not c : punct c -> c <> 34 /\ c <> 92.
Proof. cbn. intros H. repeat (destruct H as [<-|H]; [split; discriminate|]). contradiction. Qed.

(** The first string token equal to [nm]. *)
Lemma scan_lex nm : plain nm -> forall s ts, lexes s ts -> forall b, is_escaped_quote b = false ->
  (exists t1 t2 r, ts = t1 ++ TStr nm :: t2 /\ ~ In (TStr nm) t1 /\ lexes r t2 /\
     json_strstr_loop (quoted nm) b false s = Some (quoted nm ++ r)) \/
  (~ In (TStr nm) ts /\ json_strstr_loop (quoted nm) b false s = None).
Proof.
  intros P. induction 1 as [|c s ts W L IH|c s ts PU L IH|raw s ts R L IH|a s ts NE F L IH]; intros b E.
  - right. split; [intros []|reflexivity].
  - destruct (ws_not c W) as (N1 & N2). rewrite not_quote_step by exact N1. apply IH, esc_head, N2.
  - destruct (punct_not c PU) as (N1 & N2). rewrite not_quote_step by exact N1.
    destruct (IH (c :: b) (esc_head _ _ N2)) as [(t1 & t2 & r & -> & NI & LR & ->)|(NI & ->)].
    + left. exists (TPun c :: t1), t2, r. repeat split; auto. intros [X|X]; [discriminate|exact (NI X)].
    + right. split; [|reflexivity]. intros [X|X]; [discriminate|exact (NI X)].
  - destruct (list_eq_dec N.eq_dec raw nm) as [->|NR].
    + left. exists [], ts, s. repeat split; auto. cbn [json_strstr_loop negb andb].
      rewrite (proj2 (raw_prefix nm nm s P R) eq_refl). unfold quoted. cbn [app]. rewrite <- app_assoc. reflexivity.
    + assert (PF : prefixb (quoted nm) (34 :: raw ++ 34 :: s) = false).
      { destruct (prefixb _ _) eqn:X; [|reflexivity]. apply (raw_prefix nm raw s P R) in X. contradiction. }
      assert (ST : json_strstr_loop (quoted nm) b false (34 :: raw ++ 34 :: s) = json_strstr_loop (quoted nm) (34 :: b) true (raw ++ 34 :: s)).
      { cbn [json_strstr_loop]. rewrite PF, E. reflexivity. }
      rewrite ST, (in_string_scan _ raw s R (34 :: b)) by (apply esc_head; discriminate).
      destruct (IH (34 :: rev raw ++ 34 :: b) ltac:(apply esc_head; discriminate)) as [(t1 & t2 & r & -> & NI & LR & ->)|(NI & ->)].
      * left. exists (TStr raw :: t1), t2, r. repeat split; auto. intros [X|X]; [congruence|exact (NI X)].
      * right. split; [|reflexivity]. intros [X|X]; [congruence|exact (NI X)].
  - assert (ST : forall a b, a <> [] -> Forall atom_char a -> exists b', is_escaped_quote b' = false /\
      json_strstr_loop (quoted nm) b false (a ++ s) = json_strstr_loop (quoted nm) b' false s).
    { clear. induction a as [|c a IH]; intros b NE F; [congruence|]. inversion F as [|? ? (_ & _ & N1 & N2) F']; subst.
      cbn [app]. rewrite not_quote_step by exact N1. destruct a as [|x a]; [exists (c :: b); split; [apply esc_head, N2|reflexivity]|].
      apply IH; [discriminate|exact F']. }
    destruct (ST a b NE F) as (b' & E' & ->). destruct (IH b' E') as [(t1 & t2 & r & -> & NI & LR & ->)|(NI & ->)].
    + left. exists (TAtom a :: t1), t2, r. repeat split; auto. intros [X|X]; [discriminate|exact (NI X)].
    + right. split; [|reflexivity]. intros [X|X]; [discriminate|exact (NI X)].
Qed.
Lemma skip_lex s ts : lexes s ts -> exists k ts', ts = repeat (TPun 58) k ++ ts' /\ lexes (skip_ws_and_colon s) ts' /\
  (forall r, ts' <> TPun 58 :: r) /\ (forall c r, skip_ws_and_colon s = c :: r -> ~ ws c /\ c <> 58).
Proof.
  induction 1 as [|c s ts W L IH|c s ts PU L IH|raw s ts R L IH|a s ts NE F L IH].
  - exists 0%nat, []. split; [reflexivity|]. split; [constructor|]. split; discriminate.
  - assert (E : skip_ws_and_colon (c :: s) = skip_ws_and_colon s) by (destruct W as [->|[->|[->| ->]]]; reflexivity).
    rewrite E. exact IH.
  - destruct (N.eq_dec c 58) as [->|NC].
    + destruct IH as (k & ts' & -> & L' & NH & NW). exists (Datatypes.S k), ts'. split; [reflexivity|]. split; [exact L'|auto].
    + assert (E : skip_ws_and_colon (c :: s) = c :: s).
      { cbn in PU. repeat (destruct PU as [<-|PU]; [try reflexivity; congruence|]). contradiction. }
      rewrite E. exists 0%nat, (TPun c :: ts). split; [reflexivity|]. split; [constructor; assumption|].
      split; [intros r X; congruence|]. intros c' r X. assert (c' = c) by congruence. subst c'. split; [|exact NC].
      cbn in PU. intros W. repeat (destruct PU as [<-|PU]; [destruct W as [W|[W|[W|W]]]; discriminate|]). contradiction.
  - exists 0%nat, (TStr raw :: ts). split; [reflexivity|]. split; [cbn; constructor; assumption|]. split; [intros r X; discriminate|].
    intros c r X. cbn in X. assert (c = 34) by congruence. subst c. split; [|discriminate]. intros [W|[W|[W|W]]]; discriminate.
  - destruct a as [|x a]; [congruence|]. inversion F as [|? ? (N1 & N2 & N3 & N4) F']; subst.
    assert (E : skip_ws_and_colon ((x :: a) ++ s) = (x :: a) ++ s).
    { cbn [app skip_ws_and_colon]. destruct (N.eqb_spec x 32) as [->|A1]; [exfalso; apply N1; left; reflexivity|].
      destruct (N.eqb_spec x 58) as [->|A2]; [exfalso; apply N2; cbn; auto 10|].
      destruct (N.eqb_spec x 10) as [->|A3]; [exfalso; apply N1; right; right; left; reflexivity|].
      destruct (N.eqb_spec x 9) as [->|A4]; [exfalso; apply N1; right; left; reflexivity|].
      destruct (N.eqb_spec x 13) as [->|A5]; [exfalso; apply N1; right; right; right; reflexivity|]. reflexivity. }
    rewrite E. exists 0%nat, (TAtom (x :: a) :: ts). split; [reflexivity|]. split; [constructor; assumption|]. split; [intros r X; discriminate|].
    intros c r X. cbn [app] in X. assert (c = x) by congruence. subst c. split; [exact N1|]. intros ->. apply N2. cbn; auto 10.
Qed.
Lemma lex_pun c r ts : lexes (c :: r) ts -> punct c -> exists ts', ts = TPun c :: ts' /\ lexes r ts'.
Proof.
  intros L P. inversion L as [|? ? ? W L'|? ? ? PU L'|raw s ts' R L' E|a s ts' NE F L' E]; subst.
  - exfalso. cbn in P. repeat (destruct P as [<-|P]; [destruct W as [W|[W|[W|W]]]; discriminate|]). contradiction.
  - eauto.
  - apply punct_not in P. destruct P. congruence.
  - destruct a as [|x a]; [congruence|]. inversion F as [|? ? (_ & N & _) F']; subst. cbn [app] in E. assert (x = c) by congruence. subst x. contradiction.
Qed.
Lemma lex_str r ts : lexes (34 :: r) ts -> exists raw s ts', r = raw ++ 34 :: s /\ ts = TStr raw :: ts' /\ rawstring raw /\ lexes s ts'.
Proof.
  intros L. inversion L as [|? ? ? W L'|? ? ? PU L'|raw s ts' R L' E|a s ts' NE F L' E]; subst.
  - destruct (ws_not _ W); congruence.
  - destruct (punct_not _ PU); congruence.
  - exists raw, s, ts'. auto.
  - destruct a as [|x a]; [congruence|]. inversion F as [|? ? (_ & _ & N & _) F']; subst. cbn [app] in E. congruence.
Qed.
(** Which token a text starts with, given its first character is not white space. *)
Lemma lex_head_pun s c ts : lexes s (TPun c :: ts) -> (forall x r, s = x :: r -> ~ ws x) -> exists r, s = c :: r /\ lexes r ts.
Proof.
  intros L NW. inversion L as [|? ? ? W L'|? ? ? PU L'|raw s' ts' R L' E|a s' ts' NE F L' E]; subst; [|eauto].
  exfalso. exact (NW _ _ eq_refl W).
Qed.
Lemma lex_head_str s raw ts : lexes s (TStr raw :: ts) -> (forall x r, s = x :: r -> ~ ws x) -> exists r, s = 34 :: raw ++ 34 :: r /\ lexes r ts /\ rawstring raw.
Proof.
  intros L NW. inversion L as [|? ? ? W L'|? ? ? PU L'|raw' s' ts' R L' E|a s' ts' NE F L' E]; subst; [|eauto].
  exfalso. exact (NW _ _ eq_refl W).
Qed.
Lemma first_unique {A} (x : A) a b a' b' : a ++ x :: b = a' ++ x :: b' -> ~ In x a -> ~ In x a' -> a = a' /\ b = b'.
Proof.
  revert a'. induction a as [|y a IH]; intros a' E N N'.
  - destruct a' as [|z a']; [split; [reflexivity|cbn [app] in E; congruence]|]. exfalso. apply N'. left. cbn [app] in E. congruence.
  - destruct a' as [|z a']; [exfalso; apply N; left; cbn [app] in E; congruence|]. cbn [app] in E.
    assert (y = z /\ a ++ x :: b = a' ++ x :: b') as (-> & E') by (split; congruence).
    destruct (IH a' E') as (-> & ->); [intros X; apply N; right; exact X|intros X; apply N'; right; exact X|auto].
Qed.
