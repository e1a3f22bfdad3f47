(** Lemmas about delegation conditions. *)
From Verif Require Import Base BaseFacts Dec Strto Hex HexSpec HexProofs Event Nip26 Nip26Spec.
Open Scope N_scope.

Lemma after_prefix_iff p : forall s r, after_prefix p s = Some r <-> s = p ++ r.
Proof.
  induction p as [|a p IH]; intros s r; cbn [after_prefix app].
  - split; congruence.
  - destruct s as [|b s]; [split; discriminate|].
    destruct (N.eqb_spec a b) as [->|NE].
    + rewrite IH. split; [intros ->; reflexivity|congruence].
    + split; [discriminate|congruence].
Qed.

Lemma skip_amp_spec s : exists amps, Forall (fun c => c = 38) amps /\ s = amps ++ skip_amp s /\
  match skip_amp s with c :: _ => c <> 38 | [] => True end.
Proof.
  induction s as [|c s (amps & F & E & G)]; [exists []; repeat split; constructor|].
  cbn [skip_amp]. destruct (N.eqb_spec c 38) as [->|NE].
  - exists (38 :: amps). repeat split; [constructor; auto| |exact G]. cbn [app]. f_equal. exact E.
  - exists []. repeat split; [constructor|exact NE].
Qed.
Lemma skip_amp_app amps s : Forall (fun c => c = 38) amps -> match s with c :: _ => c <> 38 | [] => True end ->
  skip_amp (amps ++ s) = s.
Proof.
  induction 1 as [|c amps -> F IH]; intros G; cbn [app].
  - destruct s as [|c s]; [reflexivity|]. cbn [skip_amp]. rewrite (proj2 (N.eqb_neq c 38)) by exact G. reflexivity.
  - cbn [skip_amp]. exact (IH G).
Qed.

Lemma is_space_iff c : is_space c = true <-> c = 32 \/ 9 <= c <= 13.
Proof.
  unfold is_space. rewrite orb_true_iff, andb_true_iff, N.eqb_eq, !N.leb_le. tauto.
Qed.
Lemma skip_space_spec s : exists ws, Forall (fun c => c = 32 \/ 9 <= c <= 13) ws /\ s = ws ++ skip_space s.
Proof.
  induction s as [|c s (ws & F & E)]; [exists []; split; constructor|].
  cbn [skip_space]. destruct (is_space c) eqn:SP.
  - exists (c :: ws). split; [constructor; [apply is_space_iff, SP|exact F]|]. cbn [app]. f_equal. exact E.
  - exists []. split; [constructor|reflexivity].
Qed.
Lemma skip_space_app ws s : Forall (fun c => c = 32 \/ 9 <= c <= 13) ws ->
  match s with c :: _ => is_space c = false | [] => True end -> skip_space (ws ++ s) = s.
Proof.
  induction 1 as [|c ws Hc F IH]; intros G; cbn [app].
  - destruct s as [|c s]; [reflexivity|]. cbn [skip_space]. rewrite G. reflexivity.
  - cbn [skip_space]. rewrite (proj2 (is_space_iff c)) by exact Hc. exact (IH G).
Qed.
Lemma span_digits_spec s : exists d, span_digits s = (d, skipn (length d) s) /\ s = d ++ skipn (length d) s /\
  Forall (fun c => is_digit c = true) d /\
  match skipn (length d) s with c :: _ => is_digit c = false | [] => True end.
Proof.
  induction s as [|c s (d & E & A & F & G)]; [exists []; repeat split; constructor|].
  cbn [span_digits]. destruct (is_digit c) eqn:D.
  - exists (c :: d). rewrite E. cbn [length skipn app]. repeat split; [f_equal; exact A|constructor; auto|exact G].
  - exists []. repeat split; [constructor|exact D].
Qed.

(** scan_int reads exactly the numbers of the specification. *)
Lemma scan_int_iff s neg v r : scan_int s = Some (neg, v, r) <->
  exists num, s = num ++ r /\ loose_number num neg v /\ match r with c :: _ => is_digit c = false | [] => True end.
Proof.
  unfold scan_int. split.
  - destruct (skip_space_spec s) as (ws & W & EW). set (s1 := skip_space s) in *. clearbody s1.
    destruct (scan_sign s1) as [ng s2] eqn:SG.
    destruct (span_digits_spec s2) as (d & ED & AD & FD & GD). rewrite ED.
    destruct d as [|d0 d]; [discriminate|]. intros H.
    assert (ng = neg) by congruence. assert (undec (d0 :: d) = v) by congruence.
    assert (skipn (length (d0 :: d)) s2 = r) by congruence. clear H ED.
    set (ds := d0 :: d) in *. assert (ND : ds <> []) by discriminate. clearbody ds. subst.
    assert (exists sg, s1 = sg ++ s2 /\ ((sg = [] \/ sg = [43]) /\ neg = false \/ sg = [45] /\ neg = true)) as (sg & -> & SGN).
    { unfold scan_sign in SG. destruct s1 as [|c s1]; [exists []; cbn [app]; split; [congruence|left; split; [left; reflexivity|congruence]]|].
      destruct (N.eqb_spec c 45) as [->|]; [exists [45]; split; [cbn [app]; congruence|right; split; congruence]|].
      destruct (N.eqb_spec c 43) as [->|]; [exists [43]; split; [cbn [app]; congruence|left; split; [right|]; congruence]|].
      exists []. split; [cbn [app]; congruence|left; split; [left|]; congruence]. }
    exists (ws ++ sg ++ ds). split; [rewrite AD at 1; rewrite <- !app_assoc; reflexivity|].
    split; [|exact GD]. exists ws, sg, ds. repeat split; auto.
  - intros (num & -> & (ws & sg & ds & -> & W & SGN & ND & FD & ->) & G).
    assert (HD : exists d0 d1, ds = d0 :: d1 /\ is_digit d0 = true).
    { destruct ds as [|d0 d1]; [congruence|]. inversion FD; subst. eauto. }
    destruct HD as (d0 & d1 & ED & D0). destruct (digit_not_space d0 D0) as (S1 & S2 & S3).
    rewrite <- !app_assoc. rewrite (skip_space_app ws (sg ++ ds ++ r) W).
    2:{ destruct SGN as [([->| ->] & _)|(-> & _)]; [|reflexivity|reflexivity]. rewrite ED. exact S1. }
    assert (SG : scan_sign (sg ++ ds ++ r) = (neg, ds ++ r)).
    { destruct SGN as [([->| ->] & ->)|(-> & ->)]; [|reflexivity|reflexivity].
      rewrite ED. cbn [app scan_sign]. rewrite S2, S3. reflexivity. }
    rewrite SG, (span_digits_app ds r FD G). rewrite ED. reflexivity.
Qed.

Lemma strtoul_checked_iff s k r : strtoul_checked s = Some (k, r) <->
  exists num neg v, s = num ++ r /\ loose_number num neg v /\ v < 2 ^ 64 /\
    Z.of_N k = (signed neg v mod 2 ^ 64)%Z /\ match r with c :: _ => is_digit c = false | [] => True end.
Proof.
  unfold strtoul_checked, strtoul. split.
  - destruct (scan_int s) as [[[neg v] t]|] eqn:E; [|discriminate].
    destruct (N.ltb_spec 18446744073709551615 v) as [|LE]; [discriminate|]. intros H.
    apply scan_int_iff in E. destruct E as (num & -> & L & G).
    assert (t = r) by congruence. subst t. exists num, neg, v. repeat split; auto; [lia|].
    assert (K : (if neg then (18446744073709551616 - v) mod 18446744073709551616 else v) = k) by congruence.
    subst k. unfold signed. change (2 ^ 64)%Z with 18446744073709551616%Z.
    destruct neg.
    + rewrite N2Z.inj_mod by lia. rewrite N2Z.inj_sub by lia. cbn [Z.of_N].
      rewrite <- (Z.mod_add (- Z.of_N v) 1 18446744073709551616) by lia. f_equal. lia.
    + rewrite Z.mod_small; lia.
  - intros (num & neg & v & E & L & V & K & G).
    assert (SC : scan_int s = Some (neg, v, r)) by (apply scan_int_iff; exists num; auto). rewrite SC.
    rewrite (proj2 (N.ltb_ge _ _)) by lia. do 2 f_equal. apply N2Z.inj. rewrite K. unfold signed.
    change (2 ^ 64)%Z with 18446744073709551616%Z. destruct neg.
    + rewrite N2Z.inj_mod by lia. rewrite N2Z.inj_sub by lia. cbn [Z.of_N].
      rewrite <- (Z.mod_add (- Z.of_N v) 1 18446744073709551616) by lia. f_equal. lia.
    + rewrite Z.mod_small; lia.
Qed.
Lemma strtoll_checked_iff s t r : strtoll_checked s = Some (t, r) <->
  exists num neg v, s = num ++ r /\ loose_number num neg v /\ t = signed neg v /\ (- 2 ^ 63 <= t < 2 ^ 63)%Z /\
    match r with c :: _ => is_digit c = false | [] => True end.
Proof.
  unfold strtoll_checked, strtoll. split.
  - destruct (scan_int s) as [[[neg v] t']|] eqn:E; [|discriminate].
    fold (signed neg v). cbv zeta.
    destruct (Z.ltb_spec (signed neg v) (- 2 ^ 63)) as [|L1]; [discriminate|].
    destruct (Z.ltb_spec (2 ^ 63 - 1) (signed neg v)) as [|L2]; [discriminate|]. cbn [orb]. intros H.
    apply scan_int_iff in E. destruct E as (num & -> & L & G).
    assert (t' = r) by congruence. subst t'. 
    assert (K : Z.max (- 2 ^ 63) (Z.min (signed neg v) (2 ^ 63 - 1)) = t) by congruence.
    exists num, neg, v. repeat split; auto; lia.
  - intros (num & neg & v & E & L & T & R & G).
    assert (SC : scan_int s = Some (neg, v, r)) by (apply scan_int_iff; exists num; auto). rewrite SC.
    fold (signed neg v). cbv zeta.
    destruct (Z.ltb_spec (signed neg v) (- 2 ^ 63)) as [|L1]; [lia|].
    destruct (Z.ltb_spec (2 ^ 63 - 1) (signed neg v)) as [|L2]; [lia|]. cbn [orb].
    do 2 f_equal. lia.
Qed.

Definition add_clause (c : conds) (cl : clause) : conds :=
  match cl with
  | CKind k => mkConds (k_kinds c ++ [k]) (k_after c) (k_before c)
  | CAfter t => mkConds (k_kinds c) (Some t) (k_before c)
  | CBefore t => mkConds (k_kinds c) (k_after c) (Some t)
  end.

Lemma prefix_kind s r : s = bs "kind=" ++ r -> forall q, after_prefix (bs "created_at>") s = Some q -> False.
Proof. intros -> q H. apply after_prefix_iff in H. discriminate. Qed.

Lemma one_condition_iff s c c' r : (length (k_kinds c) < 256)%nat ->
  one_condition s c = Some (c', r) <->
  exists t cl, s = t ++ r /\ loose_clause t cl /\ clause_ok cl /\ c' = add_clause c cl /\
    match r with x :: _ => is_digit x = false | [] => True end.
Proof.
  intros CAP. unfold one_condition. split.
  - destruct (after_prefix (bs "kind=") s) as [p|] eqn:PK.
    + apply after_prefix_iff in PK. destruct (strtoul_checked p) as [[v r']|] eqn:E; [|discriminate].
      rewrite (proj2 (Nat.leb_gt 256 _)) by exact CAP. rewrite orb_false_r.
      destruct (N.ltb_spec 65535 v) as [|LE]; [discriminate|]. intros H.
      apply strtoul_checked_iff in E. destruct E as (num & neg & w & -> & L & W & K & G).
      assert (r' = r) by congruence. subst r'.
      exists (bs "kind=" ++ num), (CKind v). repeat split.
      * rewrite PK, <- app_assoc. reflexivity.
      * exists num, neg, w. auto.
      * cbn [clause_ok]. lia.
      * cbn [add_clause]. congruence.
      * exact G.
    + clear PK. destruct (after_prefix (bs "created_at>") s) as [p|] eqn:PA.
      * apply after_prefix_iff in PA. destruct (strtoll_checked p) as [[v r']|] eqn:E; [|discriminate]. intros H.
        apply strtoll_checked_iff in E. destruct E as (num & neg & w & -> & L & W & K & G).
        assert (r' = r) by congruence. subst r'.
        exists (bs "created_at>" ++ num), (CAfter v). repeat split.
        -- rewrite PA, <- app_assoc. reflexivity.
        -- exists num, neg, w. auto.
        -- exact (proj1 K).
        -- exact (proj2 K).
        -- cbn [add_clause]. congruence.
        -- exact G.
      * clear PA. destruct (after_prefix (bs "created_at<") s) as [p|] eqn:PB; [|discriminate].
        apply after_prefix_iff in PB. destruct (strtoll_checked p) as [[v r']|] eqn:E; [|discriminate]. intros H.
        apply strtoll_checked_iff in E. destruct E as (num & neg & w & -> & L & W & K & G).
        assert (r' = r) by congruence. subst r'.
        exists (bs "created_at<" ++ num), (CBefore v). repeat split.
        -- rewrite PB, <- app_assoc. reflexivity.
        -- exists num, neg, w. auto.
        -- exact (proj1 K).
        -- exact (proj2 K).
        -- cbn [add_clause]. congruence.
        -- exact G.
  - intros (t & cl & -> & L & OK & -> & G). destruct cl as [k|z|z]; cbn [loose_clause clause_ok] in *.
    + destruct L as (num & neg & v & -> & L & V & K).
      assert (P : after_prefix (bs "kind=") ((bs "kind=" ++ num) ++ r) = Some (num ++ r))
        by (apply after_prefix_iff; rewrite <- app_assoc; reflexivity). rewrite P.
      assert (E : strtoul_checked (num ++ r) = Some (k, r))
        by (apply strtoul_checked_iff; exists num, neg, v; auto). rewrite E.
      rewrite (proj2 (Nat.leb_gt 256 _)) by exact CAP. rewrite (proj2 (N.ltb_ge 65535 k)) by lia. reflexivity.
    + destruct L as (num & neg & v & -> & L & V).
      assert (P : after_prefix (bs "kind=") ((bs "created_at>" ++ num) ++ r) = None) by reflexivity. rewrite P. clear P.
      assert (P : after_prefix (bs "created_at>") ((bs "created_at>" ++ num) ++ r) = Some (num ++ r))
        by (apply after_prefix_iff; rewrite <- app_assoc; reflexivity). rewrite P.
      assert (E : strtoll_checked (num ++ r) = Some (z, r))
        by (apply strtoll_checked_iff; exists num, neg, v; auto). rewrite E. reflexivity.
    + destruct L as (num & neg & v & -> & L & V).
      assert (P : after_prefix (bs "kind=") ((bs "created_at<" ++ num) ++ r) = None) by reflexivity. rewrite P. clear P.
      assert (P : after_prefix (bs "created_at>") ((bs "created_at<" ++ num) ++ r) = None) by reflexivity. rewrite P. clear P.
      assert (P : after_prefix (bs "created_at<") ((bs "created_at<" ++ num) ++ r) = Some (num ++ r))
        by (apply after_prefix_iff; rewrite <- app_assoc; reflexivity). rewrite P.
      assert (E : strtoll_checked (num ++ r) = Some (z, r))
        by (apply strtoll_checked_iff; exists num, neg, v; auto). rewrite E. reflexivity.
Qed.

Lemma clause_head s c : loose_clause s c -> exists x y, s = x :: y /\ x <> 38.
Proof.
  destruct c; cbn [loose_clause]; intros (num & neg & v & -> & _); eexists _, _; (split; [reflexivity|discriminate]).
Qed.
Lemma add_clause_kinds c cl : (length (k_kinds (add_clause c cl)) <= S (length (k_kinds c)))%nat.
Proof. destruct cl; cbn [add_clause k_kinds]; rewrite ?app_length; cbn [length]; lia. Qed.

Lemma conditions_loop_iff n : forall s c p c' p', (length (k_kinds c) + n <= 256)%nat ->
  conditions_loop n s c p = Some (c', p') <->
  exists l k, loose s l k /\ (k <= n)%nat /\ c' = fold_left add_clause l c /\ p' = (p + length l)%nat.
Proof.
  induction n as [|n IH]; intros s c p c' p' CAP.
  - cbn [conditions_loop]. destruct s as [|x s].
    + split.
      * intros H. exists [], 0%nat. repeat split; [constructor|lia| |]; cbn [fold_left length]; rewrite ?Nat.add_0_r; congruence.
      * intros (l & k & L & K & -> & ->). inversion L; subst; [cbn [fold_left length]; rewrite Nat.add_0_r; reflexivity|congruence|].
        destruct (clause_head _ _ H1) as (a & b & -> & _). destruct amps; discriminate.
    + split; [discriminate|]. intros (l & k & L & K & _). assert (k = 0%nat) by lia. subst k. inversion L.
  - cbn [conditions_loop]. destruct s as [|x0 s0] eqn:ES.
    + split.
      * intros H. exists [], 0%nat. repeat split; [constructor|lia| |]; cbn [fold_left length]; rewrite ?Nat.add_0_r; congruence.
      * intros (l & k & L & K & -> & ->). inversion L; subst; [cbn [fold_left length]; rewrite Nat.add_0_r; reflexivity|congruence|].
        destruct (clause_head _ _ H1) as (a & b & -> & _). destruct amps; discriminate.
    + rewrite <- ES. assert (NE : s <> []) by congruence. clear ES x0 s0.
      destruct (skip_amp_spec s) as (amps & FA & EA & GA). destruct (skip_amp s) as [|y s1] eqn:SK.
      * rewrite app_nil_r in EA. subst amps. split.
        -- intros H. exists [], 1%nat. repeat split; [constructor; auto|lia| |]; cbn [fold_left length]; rewrite ?Nat.add_0_r; congruence.
        -- intros (l & k & L & K & -> & ->). inversion L; subst; [congruence|cbn [fold_left length]; rewrite Nat.add_0_r; reflexivity|].
           exfalso. destruct (clause_head _ _ H0) as (a & b & -> & AB). apply Forall_app in FA. destruct FA as (_ & FA).
           inversion FA; subst. congruence.
      * rewrite <- SK in EA |- *. clear NE. assert (NY : y <> 38) by exact GA.
        assert (CAP1 : (length (k_kinds c) < 256)%nat) by lia.
        split.
        -- rewrite SK. destruct (one_condition (y :: s1) c) as [[c1 r]|] eqn:OC; [|discriminate].
           apply one_condition_iff in OC; [|exact CAP1]. destruct OC as (t & cl & ET & LC & OK & -> & G).
           intros H. apply IH in H; [|pose proof (add_clause_kinds c cl); lia].
           destruct H as (l & k & L & K & -> & ->). exists (cl :: l), (S k). repeat split; [|lia|cbn [length]; lia].
           rewrite EA, SK, ET. constructor; auto.
        -- intros (l & k & L & K & -> & ->). inversion L as [E|amps' NE FA' |amps' t cl r l' n' FA' LC OK G L' E]; subst.
           ++ discriminate.
           ++ exfalso. assert (F0 : skip_amp s = []) by (rewrite <- (app_nil_r s); apply skip_amp_app; [exact FA'|exact I]). congruence.
           ++ destruct (clause_head _ _ LC) as (a & b & EH & AB).
              assert (SK' : skip_amp (amps' ++ t ++ r) = t ++ r)
                by (apply skip_amp_app; [exact FA'|rewrite EH; exact AB]).
              rewrite SK'. rewrite EH. cbn [app]. change (a :: b ++ r) with ((a :: b) ++ r). rewrite <- EH.
              assert (OC : one_condition (t ++ r) c = Some (add_clause c cl, r))
                by (apply one_condition_iff; [exact CAP1|]; exists t, cl; auto). rewrite OC.
              apply IH; [pose proof (add_clause_kinds c cl); lia|].
              exists l', n'. repeat split; auto; [lia|cbn [length]; lia].
Qed.

(** The bounds in force after reading [l]. *)
Definition conds_of (l : list clause) : conds := mkConds (kinds_listed l) (last_opt (afters l)) (last_opt (befores l)).

Lemma last_opt_snoc {A} (l : list A) x : last_opt (l ++ [x]) = Some x.
Proof. unfold last_opt. rewrite app_length, nth_error_app2 by (cbn [length]; lia). cbn [length].
  replace (length l + 1 - 1 - length l)%nat with 0%nat by lia. reflexivity. Qed.
Lemma last_opt_or {A} (l : list A) : l = [] /\ last_opt l = None \/ exists a x, l = a ++ [x] /\ last_opt l = Some x.
Proof.
  destruct (rev l) as [|x r] eqn:E.
  - left. assert (l = []) by (rewrite <- (rev_involutive l), E; reflexivity). subst. auto.
  - right. assert (L : l = rev r ++ [x]) by (rewrite <- (rev_involutive l), E; reflexivity).
    exists (rev r), x. rewrite L. split; [reflexivity|apply last_opt_snoc].
Qed.

Lemma fold_conds l : fold_left add_clause l no_conds = conds_of l.
Proof.
  induction l as [|c l IH] using rev_ind; [reflexivity|].
  rewrite fold_left_app, IH. unfold conds_of, kinds_listed, afters, befores. rewrite !flat_map_app.
  cbn [fold_left]. destruct c; cbn [add_clause flat_map k_kinds k_after k_before app]; rewrite ?app_nil_r, ?last_opt_snoc; reflexivity.
Qed.

Lemma loose_nil_inv l k : loose [] l k -> l = [].
Proof.
  inversion 1 as [|amps NE|amps s c r l' n FA LC]; subst; [reflexivity|congruence|].
  destruct (clause_head _ _ LC) as (a & b & -> & _). destruct amps; discriminate.
Qed.
Lemma parse_conditions_iff s c : parse_conditions s = Some c <->
  exists l k, loose s l k /\ (k <= 100)%nat /\ l <> [] /\ c = conds_of l.
Proof.
  unfold parse_conditions. split.
  - destruct s as [|x s]; [discriminate|].
    destruct (conditions_loop 100 (x :: s) no_conds 0) as [[c' [|p]]|] eqn:E; try discriminate. intros H.
    apply conditions_loop_iff in E; [|cbn; lia]. destruct E as (l & k & L & K & -> & P).
    exists l, k. repeat split; auto; [intros ->; discriminate|]. rewrite <- fold_conds. congruence.
  - intros (l & k & L & K & NE & ->).
    destruct s as [|x s]; [apply loose_nil_inv in L; congruence|].
    assert (E : conditions_loop 100 (x :: s) no_conds 0 = Some (conds_of l, length l)).
    { apply conditions_loop_iff; [cbn; lia|]. exists l, k. rewrite fold_conds. auto. }
    rewrite E. destruct l; [congruence|]. reflexivity.
Qed.

Lemma dec_Z_loose t : (- 2 ^ 63 <= t < 2 ^ 63)%Z -> exists neg v, loose_number (dec_Z t) neg v /\ t = signed neg v.
Proof.
  intros _. destruct t as [|p|p]; cbn [dec_Z].
  - exists false, 0. split; [|reflexivity]. exists [], [], (dec_N 0). repeat split; auto using Forall_nil, dec_is_digits, dec_nonempty.
  - exists false, (Z.to_N (Z.pos p)). split; [|reflexivity].
    exists [], [], (dec_N (Z.to_N (Z.pos p))). repeat split; auto using Forall_nil, dec_is_digits, dec_nonempty.
    symmetry. apply undec_dec.
  - exists true, (N.pos p). split; [|reflexivity].
    exists [], [45], (dec_N (N.pos p)). repeat split; auto using Forall_nil, dec_is_digits, dec_nonempty.
    symmetry. apply undec_dec.
Qed.
Lemma clause_text_loose c : clause_ok c -> loose_clause (clause_text c) c.
Proof.
  destruct c as [k|t|t]; cbn [clause_ok clause_text loose_clause]; intros OK.
  - exists (dec_N k), false, k. repeat split; [|lia|].
    + exists [], [], (dec_N k). repeat split; auto using Forall_nil, dec_is_digits, dec_nonempty. symmetry. apply undec_dec.
    + cbn [signed]. rewrite Z.mod_small; lia.
  - destruct (dec_Z_loose t OK) as (neg & v & L & E). exists (dec_Z t), neg, v. auto.
  - destruct (dec_Z_loose t OK) as (neg & v & L & E). exists (dec_Z t), neg, v. auto.
Qed.
Lemma conditions_text_loose l : Forall clause_ok l -> loose (conditions_text l) l (length l) /\
  (l <> [] -> loose (38 :: conditions_text l) l (length l)).
Proof.
  induction 1 as [|c l OK F (IH1 & IH2)]; [split; [constructor|congruence]|].
  destruct l as [|d l].
  - cbn [conditions_text length]. split; [|intros _].
    + rewrite <- (app_nil_r (clause_text c)). apply (LooseClause [] (clause_text c) c [] [] 0);
        [constructor|apply clause_text_loose, OK|exact OK|exact I|constructor].
    + rewrite <- (app_nil_r (clause_text c)). apply (LooseClause [38] (clause_text c) c [] [] 0);
        [repeat constructor|apply clause_text_loose, OK|exact OK|exact I|constructor].
  - assert (T : conditions_text (c :: d :: l) = clause_text c ++ 38 :: conditions_text (d :: l)) by reflexivity.
    rewrite T. specialize (IH2 ltac:(discriminate)). split; [|intros _].
    + apply (LooseClause [] (clause_text c) c _ (d :: l) (length (d :: l)));
        [constructor|apply clause_text_loose, OK|exact OK|reflexivity|exact IH2].
    + apply (LooseClause [38] (clause_text c) c _ (d :: l) (length (d :: l)));
        [repeat constructor|apply clause_text_loose, OK|exact OK|reflexivity|exact IH2].
Qed.
Lemma parse_text l : Forall clause_ok l -> l <> [] -> (length l <= 100)%nat ->
  parse_conditions (conditions_text l) = Some (conds_of l).
Proof.
  intros F NE K. apply parse_conditions_iff. exists l, (length l). repeat split; auto.
  apply conditions_text_loose, F.
Qed.

Lemma check_ok_iff c kind t : check_conditions c kind t = Ok tt <->
  (k_kinds c = [] \/ In kind (k_kinds c)) /\
  (forall a, k_after c = Some a -> (a < t)%Z) /\ (forall b, k_before c = Some b -> (t < b)%Z).
Proof.
  assert (KA : kind_allowed c kind = true <-> k_kinds c = [] \/ In kind (k_kinds c)).
  { unfold kind_allowed. destruct (k_kinds c) as [|k ks]; [tauto|]. rewrite existsb_exists. split.
    - intros (x & I & E). apply N.eqb_eq in E. subst. auto.
    - intros [E|I]; [discriminate|]. exists kind. split; [exact I|apply N.eqb_refl]. }
  unfold check_conditions. destruct (kind_allowed c kind) eqn:EK; cbn [negb].
  2:{ split; [discriminate|]. intros (H & _). apply KA in H. discriminate. }
  assert (KK : k_kinds c = [] \/ In kind (k_kinds c)) by (apply KA; reflexivity). clear KA EK.
  destruct c as [ks a b]; cbn [k_kinds k_after k_before] in *.
  destruct a as [a|]; [destruct (Z.leb_spec t a)|].
  - split; [discriminate|]. intros (_ & H1 & _). specialize (H1 a eq_refl). lia.
  - destruct b as [b|]; [destruct (Z.leb_spec b t)|].
    + split; [discriminate|]. intros (_ & _ & H1). specialize (H1 b eq_refl). lia.
    + split; [intros _|reflexivity]. repeat split; [tauto| |]; intros ? [= <-]; assumption.
    + split; [intros _|reflexivity]. repeat split; [tauto| |]; [intros ? [= <-]; assumption|intros ? ?; discriminate].
  - destruct b as [b|]; [destruct (Z.leb_spec b t)|].
    + split; [discriminate|]. intros (_ & _ & H1). specialize (H1 b eq_refl). lia.
    + split; [intros _|reflexivity]. repeat split; [tauto| |]; [intros ? ?; discriminate|intros ? [= <-]; assumption].
    + split; [intros _|reflexivity]. repeat split; [tauto| |]; intros ? ?; discriminate.
Qed.

Lemma delegation_string_eq pk c : length pk = 32%nat ->
  delegation_string pk c = bs "nostr:delegation:" ++ hex_encode pk ++ [58] ++ c.
Proof.
  intros L. unfold delegation_string. apply firstn_all2. rewrite !app_length.
  assert (HL : length (hex_encode pk) = 64%nat).
  { clear c. unfold hex_encode. rewrite <- (Nat.mul_1_r 64). change 64%nat with (2 * 32)%nat. rewrite <- L. clear L.
    induction pk as [|b pk IH]; [reflexivity|]. cbn [flat_map]. rewrite app_length, IH. cbn [hex_byte length]. lia. }
  rewrite HL. cbn [length]. change (length (bs "nostr:delegation:")) with 17%nat. lia.
Qed.
Lemma hex_encode_length b : length (hex_encode b) = (2 * length b)%nat.
Proof. unfold hex_encode. induction b as [|x b IH]; [reflexivity|]. cbn [flat_map]. rewrite app_length, IH. cbn [hex_byte length]. lia. Qed.
Lemma hex_encode_inj a b : bytes_ok a -> bytes_ok b -> hex_encode a = hex_encode b -> a = b.
Proof.
  intros A B E. eapply hextext_fun; [apply hextext_encode, A|]. rewrite E. apply hextext_encode, B.
Qed.

Lemma is_valid_hex_encode b n : bytes_ok b -> n = (2 * length b)%nat -> is_valid_hex (hex_encode b) n = true.
Proof.
  intros B ->. unfold is_valid_hex. rewrite hex_encode_length, Nat.eqb_refl. cbn [andb].
  apply forallb_forall. intros x I.
  pose proof (hextext_all_hex _ _ (hextext_encode b B)) as F. apply (proj1 (Forall_forall _ _) F) in I.
  destruct I as (d & D). apply nibble_hexdig in D. rewrite D. reflexivity.
Qed.
Lemma hex_decode_encode b n : bytes_ok b -> length b = n -> hex_decode (hex_encode b) n = (b, Some n).
Proof.
  intros B <-. unfold hex_decode. rewrite hex_encode_length.
  rewrite Nat.mul_comm, Nat.mod_mul, Nat.div_mul by lia. cbn [Nat.eqb negb orb].
  rewrite Nat.ltb_irrefl, (hex_loop_ok _ _ (hextext_encode b B)). reflexivity.
Qed.
