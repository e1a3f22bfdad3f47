(** Lemmas for NIP-06. *)
From Verif Require Import Base BaseFacts BitsFacts Dec Strto Bip39Words HdKey HdKeySpec.
From Coq Require Import Sorting.Sorted.
Open Scope N_scope.

(** ** strtok *)
Lemma tok_go_word d w : ~ In d w -> forall cur s, tok_go d cur (w ++ s) = tok_go d (cur ++ w) s.
Proof.
  induction w as [|c w IH]; intros H cur s; cbn [app]; [rewrite app_nil_r; reflexivity|].
  cbn [tok_go]. destruct (N.eqb_spec c d) as [->|NE]; [exfalso; apply H; left; reflexivity|].
  rewrite IH by (intros K; apply H; right; exact K). rewrite <- app_assoc. reflexivity.
Qed.
Lemma separated_tokens d s ws : separated d s ws -> tokens d s = ws.
Proof.
  unfold tokens. induction 1 as [|s ws H IH|w NE NI|w s ws NE NI H IH].
  - reflexivity.
  - cbn [tok_go]. rewrite N.eqb_refl. exact IH.
  - rewrite <- (app_nil_r w) at 1. rewrite tok_go_word by exact NI. cbn [app tok_go]. destruct w; congruence.
  - rewrite tok_go_word by exact NI. cbn [app tok_go]. rewrite N.eqb_refl, IH. destruct w; congruence.
Qed.
Lemma tok_go_separated d s : forall cur, ~ In d cur -> separated d (cur ++ s) (tok_go d cur s).
Proof.
  induction s as [|c s IH]; intros cur H; cbn [tok_go].
  - rewrite app_nil_r. destruct cur; [constructor|]. apply SepLast; [discriminate|exact H].
  - destruct (N.eqb_spec c d) as [->|NE].
    + destruct cur as [|x cur]; cbn [app].
      * apply SepDelim. apply (IH [] ltac:(auto)).
      * apply (SepWord d (x :: cur)); [discriminate|exact H|]. apply (IH [] ltac:(auto)).
    + change (c :: s) with ([c] ++ s). rewrite app_assoc. apply IH.
      intros K. apply in_app_or in K. destruct K as [K|[K|[]]]; [contradiction|congruence].
Qed.
Lemma tokens_separated d s : separated d s (tokens d s).
Proof. apply (tok_go_separated d s [] ltac:(auto)). Qed.
Lemma separated_join d ws : Forall (fun w => w <> [] /\ ~ In d w) ws -> separated d (join d ws) ws.
Proof.
  induction ws as [|w ws IH]; intros F; [constructor|]. inversion F as [|? ? (F1 & F2) F3]; subst.
  destruct ws as [|w2 ws]; [apply SepLast; assumption|].
  change (join d (w :: w2 :: ws)) with (w ++ d :: join d (w2 :: ws)). apply SepWord; auto.
Qed.

(** ** Paths *)
Lemma digit_range c : is_digit c = true <-> 48 <= c <= 57.
Proof. unfold is_digit. rewrite andb_true_iff, !N.leb_le. tauto. Qed.
Lemma digits_forall ds : Forall (fun c => 48 <= c <= 57) ds <-> Forall (fun c => is_digit c = true) ds.
Proof. split; apply Forall_impl; intros c; apply digit_range. Qed.

Lemma scan_int_digits ds : ds <> [] -> Forall (fun c => is_digit c = true) ds ->
  scan_int ds = Some (false, undec ds, []).
Proof.
  intros NE F. unfold scan_int. destruct ds as [|c r]; [congruence|].
  inversion F as [|? ? D F']; subst. destruct (digit_not_space c D) as (S1 & S2 & S3).
  cbn [skip_space]. rewrite S1. cbn [scan_sign]. rewrite S2, S3.
  rewrite <- (app_nil_r (c :: r)). rewrite span_digits_app by (assumption || exact I).
  rewrite app_nil_r. reflexivity.
Qed.

Lemma component_index t i : component t i -> token_index t = Some i.
Proof.
  intros H. unfold token_index.
  destruct H as [ds v NE F E L|ds v c NE F C E L].
  - set (last := nth (length ds - 1) ds 0).
    assert (LD : 48 <= last <= 57).
    { rewrite Forall_forall in F. apply F. apply nth_In. destruct ds; [congruence|cbn [length]; lia]. }
    replace (last =? 39) with false by (symmetry; apply N.eqb_neq; lia).
    replace (last =? 104) with false by (symmetry; apply N.eqb_neq; lia). cbn [orb].
    unfold strtoul. rewrite scan_int_digits by (assumption || (apply digits_forall; exact F)).
    change (undec ds) with (fold_left (fun a c => a * 10 + (c - 48)) ds 0). rewrite <- E.
    rewrite (proj2 (N.ltb_ge _ _)) by lia. unfold to_u32. rewrite N.mod_small by lia.
    cbn [length Nat.eqb negb orb]. rewrite (proj2 (N.leb_gt _ _)) by lia. reflexivity.
  - rewrite app_length. cbn [length].
    replace (length ds + 1 - 1)%nat with (length ds) by lia.
    rewrite app_nth2, Nat.sub_diag by lia. cbn [nth].
    assert (HC : ((c =? 39) || (c =? 104)) = true).
    { destruct C; subst c; reflexivity. }
    rewrite HC. rewrite firstn_app_exact by reflexivity.
    unfold strtoul. rewrite scan_int_digits by (assumption || (apply digits_forall; exact F)).
    change (undec ds) with (fold_left (fun a c => a * 10 + (c - 48)) ds 0). rewrite <- E.
    rewrite (proj2 (N.ltb_ge _ _)) by lia. unfold to_u32. rewrite N.mod_small by lia.
    cbn [length Nat.eqb negb orb]. rewrite (proj2 (N.leb_gt _ _)) by lia. f_equal.
    replace 2147483648 with (N.shiftl 1 31) by reflexivity.
    assert (D : N.land v (N.shiftl 1 31) = 0).
    { apply N.bits_inj. intros k. rewrite N.land_spec, N.bits_0.
      destruct (N.lt_ge_cases k 31).
      - rewrite N.shiftl_spec_low by lia. apply andb_false_r.
      - rewrite (testbit_high 31) by (assumption || (change (2 ^ 31) with 2147483648; lia)). reflexivity. }
    rewrite (N.add_nocarry_lxor _ _ D), N.lxor_lor by exact D. reflexivity.
Qed.

Lemma component_text t i : component t i -> t <> [] /\ ~ In 47 t.
Proof.
  intros H. destruct H as [ds v NE F E L|ds v c NE F C E L].
  - split; [exact NE|]. intros I. rewrite Forall_forall in F. apply F in I. lia.
  - split; [destruct ds; discriminate|]. intros I. apply in_app_or in I. destruct I as [I|[I|[]]].
    + rewrite Forall_forall in F. apply F in I. lia.
    + destruct C; lia.
Qed.

Section D.
Variable K : Type.
Variable derive : K -> N -> res K.

Lemma derive_tokens_components ts is_ : components ts is_ -> forall k,
  derive_tokens K derive k ts = derive_all derive k is_.
Proof.
  induction 1 as [|t i ts is_ C CS IH]; intros k; [reflexivity|].
  cbn [derive_tokens derive_all]. rewrite (component_index _ _ C).
  destruct (derive k i) as [k'|e|]; cbn [bind]; auto.
Qed.
Lemma derive_tokens_sound ts : forall k k', derive_tokens K derive k ts = Ok k' ->
  exists is_, Forall (fun i => i < 4294967296) is_ /\ length is_ = length ts /\ derive_all derive k is_ = Ok k'.
Proof.
  induction ts as [|t ts IH]; intros k k' H; cbn [derive_tokens] in H.
  - exists []. auto.
  - destruct (token_index t) as [i|] eqn:T; [|discriminate].
    destruct (derive k i) as [k1|e|] eqn:D; cbn [bind] in H; [|discriminate..].
    destruct (IH _ _ H) as (is_ & F & L & A). exists (i :: is_). cbn [derive_all length]. rewrite D.
    split; [|auto]. constructor; [|exact F].
    unfold token_index in T. destruct (strtoul _) as (v, rest). destruct (negb _ || _) eqn:G; [discriminate|].
    apply orb_false_iff in G as (_ & G). apply N.leb_gt in G. set (h := _ || _) in T.
    destruct h.
    + assert (E : i = N.lor (to_u32 v) 2147483648) by congruence. rewrite E.
      assert (B : N.lor (to_u32 v) 2147483648 < 2 ^ 32); [|exact B].
      destruct (N.eq_dec (N.lor (to_u32 v) 2147483648) 0) as [->|NZ]; [reflexivity|].
      apply N.log2_lt_pow2; [lia|]. rewrite N.log2_lor.
      apply N.max_lub_lt; [|reflexivity]. destruct (N.eq_dec (to_u32 v) 0) as [->|]; [reflexivity|].
      apply N.log2_lt_pow2; [lia|]. change (2 ^ 32) with 4294967296. lia.
    + assert (E : i = to_u32 v) by congruence. rewrite E. lia.
Qed.
End D.

(** ** The word list *)
Lemma strcmp_eq a : forall b, strcmp a b = Eq <-> a = b.
Proof.
  induction a as [|x a IH]; intros [|y b]; cbn [strcmp]; try (split; congruence).
  destruct (N.compare_spec x y) as [->|L|L].
  - rewrite IH. split; congruence.
  - split; [discriminate|]. intros E. assert (x = y) by congruence. lia.
  - split; [discriminate|]. intros E. assert (x = y) by congruence. lia.
Qed.
Lemma strcmp_trans a : forall b c, strcmp a b = Lt -> strcmp b c = Lt -> strcmp a c = Lt.
Proof.
  induction a as [|x a IH]; intros [|y b] [|z c]; cbn [strcmp]; try congruence.
  destruct (N.compare_spec x y) as [->|L|L]; try congruence.
  - destruct (N.compare_spec y z); try congruence. apply IH.
  - intros _. destruct (N.compare_spec y z) as [->|L2|L2]; try congruence; intros _.
    + destruct (N.compare_spec x z); [lia|reflexivity|lia].
    + destruct (N.compare_spec x z); [lia|reflexivity|lia].
Qed.
Lemma strcmp_gt a : forall b, strcmp a b = Gt -> strcmp b a = Lt.
Proof.
  induction a as [|x a IH]; intros [|y b]; cbn [strcmp]; try congruence.
  destruct (N.compare_spec x y) as [->|L|L]; try congruence.
  - rewrite N.compare_refl. apply IH.
  - intros _. destruct (N.compare_spec y x); [lia|reflexivity|lia].
Qed.
Lemma strcmp_irrefl a : strcmp a a <> Lt.
Proof. rewrite (proj2 (strcmp_eq a a) eq_refl). discriminate. Qed.

Definition ordered (wl : list (list N)) : Prop := StronglySorted (fun a b => strcmp a b = Lt) wl.
Lemma ordered_nth wl : ordered wl -> forall i j, (i < j < length wl)%nat -> strcmp (nth i wl []) (nth j wl []) = Lt.
Proof.
  induction 1 as [|w wl S IH F]; intros i j H; cbn [length] in H; [lia|].
  destruct j as [|j]; [lia|]. destruct i as [|i]; cbn [nth].
  - rewrite Forall_forall in F. apply F. apply nth_In. lia.
  - apply IH. lia.
Qed.
Lemma ordered_nodup wl : ordered wl -> NoDup wl.
Proof.
  induction 1 as [|w wl S IH F]; constructor; [|exact IH].
  intros I. rewrite Forall_forall in F. apply F in I. exact (strcmp_irrefl _ I).
Qed.

Fixpoint sorted_b (wl : list (list N)) : bool :=
  match wl with
  | a :: (b :: _) as r => match strcmp a b with Lt => sorted_b r | _ => false end
  | _ => true
  end.
Lemma sorted_b_ordered wl : sorted_b wl = true -> ordered wl.
Proof.
  intros H. apply Sorted_StronglySorted; [intros a b c; apply strcmp_trans|].
  induction wl as [|a wl IH]; [constructor|]. destruct wl as [|b wl].
  - repeat constructor.
  - change (sorted_b (a :: b :: wl)) with (match strcmp a b with Lt => sorted_b (b :: wl) | _ => false end) in H.
    destruct (strcmp a b) eqn:E; try discriminate. constructor; [apply IH; exact H|]. constructor. exact E.
Qed.

Lemma bip39_facts : wordlist_ok bip39_wordlist /\ ordered bip39_wordlist.
Proof.
  assert (O : ordered bip39_wordlist) by (apply sorted_b_ordered; vm_compute; reflexivity).
  split; [|exact O]. split; [vm_compute; reflexivity|]. split; [apply ordered_nodup, O|].
  assert (H : forallb (fun w => negb (length w =? 0)%nat && forallb (fun c => (97 <=? c) && (c <=? 122)) w && (length w <=? 8)%nat)
              bip39_wordlist = true) by (vm_compute; reflexivity).
  rewrite forallb_forall in H. apply Forall_forall. intros w I. apply H in I.
  apply andb_true_iff in I as (I & L). apply andb_true_iff in I as (I & A).
  split; [intros ->; discriminate|]. split; [|apply Nat.leb_le; exact L].
  rewrite forallb_forall in A. apply Forall_forall. intros c C. apply A in C.
  apply andb_true_iff in C as (C1 & C2). apply N.leb_le in C1, C2. lia.
Qed.

Section W.
Variable wl : list (list N).
Variable sha256 : list N -> list N.
Hypothesis WLO : wordlist_ok wl.
Hypothesis ORD : ordered wl.
Let WLEN : length wl = 2048%nat := proj1 WLO.

Lemma word_search_spec word : forall fuel l r, (0 <= l)%Z -> (r < 2048)%Z -> (2 * (r - l + 1) < 2 ^ Z.of_nat fuel)%Z -> (0 < fuel)%nat -> (l <= r + 1)%Z ->
  (exists k, word_search wl fuel word l r = Ok k /\ (l <= k <= r)%Z /\ nth (Z.to_nat k) wl [] = word) \/
  (word_search wl fuel word l r = Ok (-1)%Z /\ forall k, (l <= k <= r)%Z -> nth (Z.to_nat k) wl [] <> word).
Proof.
  induction fuel as [|f IH]; intros l r L R S PF LR; cbn [word_search].
  - lia.
  - rewrite Nat2Z.inj_succ, Z.pow_succ_r in S by lia.
    destruct (Z.leb_spec l r) as [LE|GT].
    2:{ right. split; [reflexivity|]. intros k Hk. lia. }
    assert (PF' : (0 < f)%nat) by (destruct f; [change (2 ^ Z.of_nat 0)%Z with 1%Z in S|]; lia).
    set (mid := (l + (r - l) / 2)%Z).
    assert (M : (l <= mid <= r)%Z).
    { pose proof (Z.div_pos (r - l) 2 ltac:(lia) ltac:(lia)).
      pose proof (Z.div_le_upper_bound (r - l) 2 (r - l) ltac:(lia) ltac:(lia)). unfold mid. lia. }
    pose proof (Z.div_mod (r - l) 2 ltac:(lia)) as DM. pose proof (Z.mod_pos_bound (r - l) 2 ltac:(lia)) as MB.
    destruct (strcmp word (nth (Z.to_nat mid) wl [])) eqn:C.
    + left. exists mid. split; [reflexivity|]. split; [exact M|]. apply strcmp_eq in C. congruence.
    + destruct (IH l (mid - 1)%Z L ltac:(lia) ltac:(unfold mid; lia) PF' ltac:(lia)) as [(k & E & B & W)|(E & W)].
      * left. exists k. split; [exact E|]. split; [lia|exact W].
      * right. split; [exact E|]. intros k Hk EW. destruct (Z.le_gt_cases k (mid - 1)); [apply (W k); [lia|exact EW]|].
        destruct (Z.eq_dec k mid) as [->|NE].
        -- rewrite EW, (proj2 (strcmp_eq _ _) eq_refl) in C. discriminate.
        -- pose proof (ordered_nth wl ORD (Z.to_nat mid) (Z.to_nat k) ltac:(lia)) as O. rewrite EW in O.
           apply (strcmp_irrefl word). eapply strcmp_trans; eassumption.
    + destruct (IH (mid + 1)%Z r ltac:(lia) R ltac:(unfold mid; lia) PF' ltac:(lia)) as [(k & E & B & W)|(E & W)].
      * left. exists k. split; [exact E|]. split; [lia|exact W].
      * right. split; [exact E|]. intros k Hk EW. destruct (Z.le_gt_cases (mid + 1) k); [apply (W k); [lia|exact EW]|].
        apply strcmp_gt in C.
        destruct (Z.eq_dec k mid) as [->|NE].
        -- rewrite EW in C. exact (strcmp_irrefl _ C).
        -- pose proof (ordered_nth wl ORD (Z.to_nat k) (Z.to_nat mid) ltac:(lia)) as O. rewrite EW in O.
           apply (strcmp_irrefl word). eapply strcmp_trans; eassumption.
Qed.

Lemma word_index_spec word :
  (exists k, k < 2048 /\ word_index wl word = Ok (Z.of_N k) /\ nth (N.to_nat k) wl [] = word) \/
  (word_index wl word = Ok (-1)%Z /\ ~ In word wl).
Proof.
  unfold word_index. rewrite WLEN. change (Z.of_nat 2048 - 1)%Z with 2047%Z.
  destruct (word_search_spec word 13 0 2047 ltac:(lia) ltac:(lia) ltac:(reflexivity) ltac:(lia) ltac:(lia)) as [(k & E & B & W)|(E & W)].
  - left. exists (Z.to_N k). split; [lia|]. rewrite Z2N.id by lia. split; [exact E|].
    rewrite Z_N_nat. exact W.
  - right. split; [exact E|]. intros I. apply (In_nth _ _ []) in I as (n & L & EN).
    apply (W (Z.of_nat n)); [lia|]. rewrite Nat2Z.id. exact EN.
Qed.

Lemma wl_inj i j : i < 2048 -> j < 2048 -> nth (N.to_nat i) wl [] = nth (N.to_nat j) wl [] -> i = j.
Proof.
  intros I J E. pose proof (proj1 (proj2 WLO)) as ND.
  assert (N.to_nat i = N.to_nat j); [|lia].
  eapply NoDup_nth; [exact ND|lia|lia|exact E].
Qed.

Definition word_of (i : N) : list N := nth (N.to_nat i) wl [].
Lemma word_of_ok i : i < 2048 -> lower_word (word_of i).
Proof.
  intros H. pose proof (proj2 (proj2 WLO)) as F. rewrite Forall_forall in F. apply F. apply nth_In. lia.
Qed.

Lemma word_indices_spec n : forall ws idx,
  word_indices wl n ws = Ok idx <->
  (length ws <= n)%nat /\ Forall (fun i => i < 2048) idx /\ ws = map word_of idx.
Proof.
  induction n as [|n IH]; intros ws idx; destruct ws as [|w ws]; cbn [word_indices length].
  - split.
    + intros E. assert (idx = []) by congruence. subst. repeat split; auto.
    + intros (_ & _ & E). destruct idx; [reflexivity|discriminate].
  - split; [discriminate|]. lia.
  - split.
    + intros E. assert (idx = []) by congruence. subst. repeat split; auto. lia.
    + intros (_ & _ & E). destruct idx; [reflexivity|discriminate].
  - destruct (word_index_spec w) as [(k & B & E & W)|(E & NI)]; rewrite E; cbn [bind].
    + rewrite (proj2 (Z.ltb_ge _ _)) by lia. rewrite N2Z.id. split.
      * destruct (word_indices wl n ws) as [l|x|] eqn:R; cbn [bind]; [|discriminate..].
        intros E2. assert (idx = k :: l) by congruence. subst.
        apply IH in R as (A & F & EW). split; [lia|]. split; [constructor; assumption|].
        cbn [map]. unfold word_of at 1. congruence.
      * intros (A & F & EW). destruct idx as [|i idx]; [discriminate|]. inversion F; subst. cbn [map] in EW.
        assert (E1 : nth (N.to_nat k) wl [] = word_of i) by congruence.
        assert (k = i) by (apply wl_inj; assumption). subst k.
        rewrite (proj2 (IH ws idx)); [reflexivity|]. split; [lia|]. split; [assumption|congruence].
    + cbn [Z.ltb Z.compare]. split; [discriminate|]. intros (_ & F & EW). exfalso.
      destruct idx as [|i idx]; [discriminate|]. inversion F; subst. cbn [map] in EW.
      apply NI. assert (w = word_of i) by congruence. subst w. apply nth_In. lia.
Qed.
Lemma word_indices_total n ws : word_indices wl n ws <> Undef.
Proof.
  revert ws. induction n as [|n IH]; intros [|w ws]; cbn [word_indices]; try discriminate.
  destruct (word_index_spec w) as [(k & B & E & W)|(E & NI)]; rewrite E; cbn [bind]; [|discriminate].
  destruct (Z.of_N k <? 0)%Z; [discriminate|]. specialize (IH ws).
  destruct (word_indices wl n ws); cbn [bind]; congruence.
Qed.

(** ** Bits *)
Lemma nth_bitsof w v : forall k, (k < w)%nat -> nth k (bitsof w v) false = N.testbit v (N.of_nat (w - 1 - k)).
Proof.
  induction w as [|w IH]; intros k H; [lia|]. cbn [bitsof]. destruct k as [|k]; cbn [nth].
  - do 2 f_equal. lia.
  - rewrite IH by lia. do 2 f_equal. lia.
Qed.
Lemma nth_flat w l : (0 < w)%nat -> forall p, (p < w * length l)%nat ->
  nth p (flat w l) false = N.testbit (nth (p / w) l 0) (N.of_nat (w - 1 - p mod w)).
Proof.
  intros W. induction l as [|v l IH]; intros p H; cbn [length] in H; [lia|].
  unfold flat. cbn [flat_map]. fold (flat w l).
  destruct (le_lt_dec w p) as [L|L].
  - rewrite app_nth2 by (rewrite bitsof_length; exact L). rewrite bitsof_length, IH by lia.
    replace p with (p - w + 1 * w)%nat at 3 4 by lia.
    rewrite Nat.div_add, Nat.mod_add by lia. rewrite Nat.add_1_r. reflexivity.
  - rewrite app_nth1 by (rewrite bitsof_length; exact L). rewrite nth_bitsof by exact L.
    rewrite Nat.div_small, Nat.mod_small by exact L. reflexivity.
Qed.

(** bit [p] of a byte string *)
Definition bitat (l : list N) (p : nat) : bool := N.testbit (nth (p / 8) l 0) (N.of_nat (7 - p mod 8)).

Lemma nth_byte l k : bytes_ok l -> nth k l 0 < 256.
Proof.
  intros B. destruct (le_lt_dec (length l) k); [rewrite nth_overflow by assumption; lia|].
  unfold bytes_ok in B. rewrite Forall_forall in B. apply B. apply nth_In. assumption.
Qed.

Lemma three_bytes a b c j : a < 256 -> b < 256 -> c < 256 -> (j < 24)%nat ->
  N.testbit (N.lor (N.lor (N.shiftl a 16) (N.shiftl b 8)) c) (N.of_nat (23 - j)) =
  N.testbit (nth (j / 8) [a; b; c] 0) (N.of_nat (7 - j mod 8)).
Proof.
  intros A B C J. rewrite !N.lor_spec.
  assert (T : forall v k, v < 256 -> 8 <= k -> N.testbit v k = false) by (intros; apply (testbit_high 8); assumption).
  destruct (le_lt_dec 16 j) as [G|G]; [|destruct (le_lt_dec 8 j) as [G2|G2]].
  - rewrite !N.shiftl_spec_low by lia. cbn [orb].
    replace j with (j - 16 + 2 * 8)%nat at 2 3 by lia. rewrite Nat.div_add, Nat.mod_add by lia.
    rewrite Nat.div_small, Nat.mod_small by lia. cbn [Nat.add nth]. do 2 f_equal. lia.
  - rewrite N.shiftl_spec_low by lia. rewrite N.shiftl_spec_high by lia. rewrite (T c) by lia.
    replace j with (j - 8 + 1 * 8)%nat at 2 3 by lia. rewrite Nat.div_add, Nat.mod_add by lia.
    rewrite Nat.div_small, Nat.mod_small by lia. cbn [Nat.add nth orb]. rewrite orb_false_r. f_equal. lia.
  - rewrite !N.shiftl_spec_high by lia. rewrite (T c), (T b) by lia.
    rewrite Nat.div_small, Nat.mod_small by lia. cbn [nth]. rewrite !orb_false_r. f_equal. lia.
Qed.

Lemma word_at_bit c i b : bytes_ok c -> (b < 11)%nat ->
  N.testbit (word_at c i) (N.of_nat (10 - b)) = bitat c (i * 11 + b).
Proof.
  intros B HB. unfold word_at, bitat. set (o := (i * 11 / 8)%nat). set (s := (i * 11 mod 8)%nat).
  assert (DM : (i * 11 = 8 * o + s)%nat) by (apply Nat.div_mod; lia).
  assert (S : (s < 8)%nat) by (apply Nat.mod_upper_bound; lia). clearbody o s.
  change 2047 with (N.ones 11).
  rewrite N.land_spec, N.shiftr_spec, N.ones_spec_low, andb_true_r by lia.
  replace (N.of_nat (10 - b) + N.of_nat (24 - 11 - s)) with (N.of_nat (23 - (s + b))) by lia.
  rewrite three_bytes by (try apply nth_byte; try assumption; lia).
  rewrite DM. replace (8 * o + s + b)%nat with (s + b + o * 8)%nat by lia.
  rewrite Nat.div_add, Nat.mod_add by lia.
  assert (Q : ((s + b) / 8 < 3)%nat) by (apply Nat.div_lt_upper_bound; lia).
  set (q := ((s + b) / 8)%nat) in *. clearbody q.
  destruct q as [|[|[|q]]]; [| | |lia]; cbn [nth]; do 2 f_equal; lia.
Qed.
Lemma word_at_range c i : word_at c i < 2048.
Proof.
  unfold word_at. change 2047 with (N.ones 11). rewrite N.land_ones. apply N.mod_lt. discriminate.
Qed.

Lemma nth_flat8 c p : (p < 8 * length c)%nat -> nth p (flat 8 c) false = bitat c p.
Proof. intros H. rewrite nth_flat by lia. reflexivity. Qed.

Lemma nth_firstn {A} (l : list A) d : forall n k, (k < n)%nat -> nth k (firstn n l) d = nth k l d.
Proof.
  induction l as [|x l IH]; intros [|n] k H; try lia; cbn [firstn].
  - reflexivity.
  - destruct k; cbn [nth]; [reflexivity|]. apply IH. lia.
Qed.

Lemma words_bits c n : bytes_ok c -> (11 * n <= 8 * length c)%nat ->
  flat 11 (map (word_at c) (seq 0 n)) = firstn (11 * n) (flat 8 c).
Proof.
  intros B H. apply nth_ext with (d := false) (d' := false).
  - rewrite flat_length, map_length, seq_length, firstn_length, flat_length. lia.
  - intros p P. rewrite flat_length, map_length, seq_length in P.
    rewrite nth_flat by (rewrite ?map_length, ?seq_length; lia).
    rewrite nth_firstn by lia. rewrite nth_flat8 by lia.
    assert (Q : (p / 11 < n)%nat) by (apply Nat.div_lt_upper_bound; lia).
    rewrite (nth_indep _ 0 (word_at c 0)) by (rewrite map_length, seq_length; exact Q).
    rewrite map_nth, seq_nth by exact Q. cbn [Nat.add].
    pose proof (Nat.mod_upper_bound p 11 ltac:(lia)) as M.
    rewrite word_at_bit by (assumption || exact M).
    f_equal. pose proof (Nat.div_mod p 11 ltac:(lia)). lia.
Qed.

(** or-ing the bits of the indices into an array *)
Definition idxbit (idx : list N) (p : nat) : bool := N.testbit (nth (p / 11) idx 0) (N.of_nat (10 - p mod 11)).

Lemma nth_update (e : list N) i x : (i < length e)%nat -> forall k,
  nth k (firstn i e ++ [x] ++ skipn (S i) e) 0 = if (k =? i)%nat then x else nth k e 0.
Proof.
  intros H k. destruct (Nat.eqb_spec k i) as [->|NE].
  - rewrite app_nth2; rewrite firstn_length; [|lia]. replace (i - Nat.min i (length e))%nat with 0%nat by lia. reflexivity.
  - destruct (le_lt_dec i k).
    + rewrite app_nth2; rewrite firstn_length; [|lia].
      replace (k - Nat.min i (length e))%nat with (S (k - S i)) by lia. cbn [app nth].
      rewrite <- (firstn_skipn (S i) e) at 2. rewrite app_nth2; rewrite firstn_length; [|lia].
      f_equal. lia.
    + rewrite app_nth1 by (rewrite firstn_length; lia). apply nth_firstn. lia.
Qed.

Lemma or_bit_spec e idx p : bytes_ok e -> (p < 8 * length e)%nat ->
  exists e', or_bit e idx p = Ok e' /\ length e' = length e /\ bytes_ok e' /\
    forall q, bitat e' q = bitat e q || ((q =? p)%nat && idxbit idx p).
Proof.
  intros B H. unfold or_bit, idxbit. destruct (N.testbit (nth (p / 11) idx 0) _).
  2:{ exists e. repeat split; auto. intros q. rewrite andb_false_r, orb_false_r. reflexivity. }
  assert (Q : (p / 8 < length e)%nat) by (apply Nat.div_lt_upper_bound; lia).
  rewrite (proj2 (Nat.ltb_lt _ _) Q). eexists. split; [reflexivity|].
  pose proof (Nat.mod_upper_bound p 8 ltac:(lia)) as M.
  assert (BN : N.lor (nth (p / 8) e 0) (N.shiftl 1 (N.of_nat (7 - p mod 8))) < 256).
  { change 256 with (2 ^ 8). destruct (N.eq_dec (N.lor (nth (p / 8) e 0) (N.shiftl 1 (N.of_nat (7 - p mod 8)))) 0) as [->|NZ]; [reflexivity|].
    apply N.log2_lt_pow2; [lia|]. rewrite N.log2_lor. apply N.max_lub_lt.
    - destruct (N.eq_dec (nth (p / 8) e 0) 0) as [->|]; [reflexivity|]. apply N.log2_lt_pow2; [lia|]. apply nth_byte, B.
    - rewrite N.log2_shiftl by discriminate. change (N.log2 1) with 0. lia. }
  split; [rewrite !app_length, firstn_length, skipn_length; cbn [length]; lia|]. split.
  - apply Forall_app_iff. split; [apply Forall_firstn; exact B|].
    constructor; [exact BN|apply Forall_skipn; exact B].
  - intros q. unfold bitat. rewrite nth_update by exact Q.
    pose proof (Nat.mod_upper_bound q 8 ltac:(lia)) as Mq.
    pose proof (Nat.div_mod p 8 ltac:(lia)). pose proof (Nat.div_mod q 8 ltac:(lia)).
    rewrite andb_true_r.
    destruct (Nat.eqb_spec (q / 8) (p / 8)) as [E|NE].
    + rewrite N.lor_spec. rewrite E. f_equal.
      destruct (Nat.eqb_spec q p) as [->|NQ].
      * rewrite N.shiftl_spec_high, N.sub_diag by lia. reflexivity.
      * assert (q mod 8 <> p mod 8)%nat by congruence.
        rewrite N.shiftl_1_l. apply N.pow2_bits_false. lia.
    + destruct (Nat.eqb_spec q p) as [->|NQ]; [congruence|]. rewrite orb_false_r. reflexivity.
Qed.

Lemma or_bits_spec idx ps : forall e, bytes_ok e -> Forall (fun p => (p < 8 * length e)%nat) ps ->
  exists e', or_bits e idx ps = Ok e' /\ length e' = length e /\ bytes_ok e' /\
    forall q, bitat e' q = bitat e q || (existsb (Nat.eqb q) ps && idxbit idx q).
Proof.
  induction ps as [|p ps IH]; intros e B F; cbn [or_bits].
  - exists e. repeat split; auto. intros q. cbn [existsb andb]. rewrite orb_false_r. reflexivity.
  - inversion F as [|? ? P F']; subst.
    destruct (or_bit_spec e idx p B P) as (e1 & E1 & L1 & B1 & Q1). rewrite E1. cbn [bind].
    destruct (IH e1 B1 ltac:(rewrite L1; exact F')) as (e2 & E2 & L2 & B2 & Q2).
    exists e2. split; [exact E2|]. split; [congruence|]. split; [exact B2|].
    intros q. rewrite Q2, Q1. cbn [existsb].
    destruct (Nat.eqb_spec q p) as [->|NE]; cbn [orb andb].
    + destruct (bitat e p), (idxbit idx p), (existsb (Nat.eqb p) ps); reflexivity.
    + destruct (bitat e q); cbn [orb]; reflexivity.
Qed.

Lemma unpack idx : Forall (fun i => i < 2048) idx -> (11 * length idx <= 264)%nat ->
  exists e, or_bits (repeat 0 33) idx (seq 0 (length idx * 11)) = Ok e /\ length e = 33%nat /\ bytes_ok e /\
    firstn (11 * length idx) (flat 8 e) = flat 11 idx.
Proof.
  intros F L.
  destruct (or_bits_spec idx (seq 0 (length idx * 11)) (repeat 0 33)) as (e & E & LE & B & Q).
  - apply Forall_repeat. reflexivity.
  - apply Forall_forall. intros p P. apply in_seq in P. rewrite repeat_length. lia.
  - rewrite repeat_length in LE. exists e. split; [exact E|]. split; [exact LE|]. split; [exact B|].
    apply nth_ext with (d := false) (d' := false).
    + rewrite firstn_length, !flat_length, LE. lia.
    + intros p P. rewrite firstn_length, flat_length in P.
      rewrite nth_firstn by lia. rewrite nth_flat8 by lia. rewrite Q.
      rewrite nth_flat by lia. change (11 - 1)%nat with 10%nat. unfold idxbit.
      replace (bitat (repeat 0 33) p) with false.
      2:{ unfold bitat. rewrite nth_repeat, N.bits_0. reflexivity. }
      replace (existsb (Nat.eqb p) (seq 0 (length idx * 11))) with true; [reflexivity|].
      symmetry. apply existsb_exists. exists p. split; [apply in_seq; lia|apply Nat.eqb_refl].
Qed.

Lemma firstn_bitsof w k v : (k <= w)%nat -> firstn k (bitsof w v) = bitsof k (N.shiftr v (N.of_nat (w - k))).
Proof.
  intros H. replace w with (k + (w - k))%nat at 1 by lia. rewrite bitsof_add.
  rewrite firstn_app_exact; [reflexivity|]. rewrite bitsof_length. reflexivity.
Qed.

Hypothesis D32 : forall x, length (sha256 x) = 32%nat /\ bytes_ok (sha256 x).

Lemma sha_firstn x cs : (cs <= 8)%nat -> firstn cs (flat 8 (sha256 x)) = firstn cs (bitsof 8 (nth 0 (sha256 x) 0)).
Proof.
  intros H. destruct (D32 x) as (L & _). destruct (sha256 x) as [|h t]; [discriminate|]. cbn [nth].
  change (flat 8 (h :: t)) with (bitsof 8 h ++ flat 8 t). rewrite firstn_app, bitsof_length.
  replace (cs - 8)%nat with 0%nat by lia. cbn [firstn]. apply app_nil_r.
Qed.

Lemma checksum_eq cs h x : (cs <= 8)%nat -> h < 256 -> x < 256 ->
  (N.land (N.shiftr h (N.of_nat (8 - cs))) (N.shiftl 1 (N.of_nat cs) - 1) = N.shiftr x (N.of_nat (8 - cs)) <->
   firstn cs (bitsof 8 h) = firstn cs (bitsof 8 x)).
Proof.
  intros C H X. rewrite !firstn_bitsof by exact C.
  assert (B : forall v, v < 256 -> N.shiftr v (N.of_nat (8 - cs)) < 2 ^ N.of_nat cs).
  { intros v V. rewrite N.shiftr_div_pow2. apply N.div_lt_upper_bound; [apply N.pow_nonzero; discriminate|].
    rewrite <- N.pow_add_r. replace (N.of_nat (8 - cs) + N.of_nat cs) with 8 by lia. exact V. }
  rewrite N.shiftl_1_l, N.sub_1_r, <- N.ones_equiv, N.land_ones, N.mod_small by (apply B; exact H).
  split; [intros ->; reflexivity|]. apply bitsof_inj; apply B; assumption.
Qed.

Definition size_ok (words bytes cs : nat) : Prop := (words = 12 /\ bytes = 16 /\ cs = 4)%nat \/ (words = 24 /\ bytes = 32 /\ cs = 8)%nat.

Lemma check_go idx words bytes cs : size_ok words bytes cs -> length idx = words -> Forall (fun i => i < 2048) idx ->
  exists ent, length ent = bytes /\ bytes_ok ent /\ firstn (8 * bytes) (flat 11 idx) = flat 8 ent /\
  ((check_indices sha256 idx = Ok tt /\ flat 11 idx = flat 8 ent ++ firstn cs (flat 8 (sha256 ent))) \/
   (check_indices sha256 idx = Err EInvalidParam /\ flat 11 idx <> flat 8 ent ++ firstn cs (flat 8 (sha256 ent)))).
Proof.
  intros SZ L F. destruct (unpack idx F) as (e & E & LE & B & FL); [destruct SZ as [?|?]; lia|].
  set (ent := firstn bytes e).
  assert (LB : length ent = bytes) by (unfold ent; rewrite firstn_length; destruct SZ as [?|?]; lia).
  assert (BE : bytes_ok ent) by (apply Forall_firstn; exact B).
  assert (SP : firstn (11 * words) (flat 8 e) = flat 8 ent ++ firstn cs (bitsof 8 (nth bytes e 0))).
  { assert (EE : e = ent ++ nth bytes e 0 :: skipn (S bytes) e).
    { unfold ent. rewrite <- (firstn_skipn bytes e) at 1. f_equal.
      assert (G : (bytes < length e)%nat) by (destruct SZ as [?|?]; lia). clear -G. revert e G.
      induction bytes as [|n IH]; intros [|x e] G; cbn [length] in G; try lia; cbn [skipn nth]; [reflexivity|]. apply IH. lia. }
    rewrite EE at 1. rewrite flat_app. rewrite firstn_app, flat_length, LB.
    rewrite firstn_all2 by (rewrite flat_length, LB; destruct SZ as [?|?]; lia). f_equal.
    replace (11 * words - 8 * bytes)%nat with cs by (destruct SZ as [?|?]; lia).
    change (flat 8 (nth bytes e 0 :: skipn (S bytes) e)) with (bitsof 8 (nth bytes e 0) ++ flat 8 (skipn (S bytes) e)).
    rewrite firstn_app, bitsof_length. replace (cs - 8)%nat with 0%nat by (destruct SZ as [?|?]; lia).
    cbn [firstn]. apply app_nil_r. }
  exists ent. split; [exact LB|]. split; [exact BE|].
  rewrite L in FL. rewrite <- FL, SP.
  split; [rewrite firstn_app_exact; [reflexivity|rewrite flat_length, LB; reflexivity]|].
  rewrite sha_firstn by (destruct SZ as [?|?]; lia).
  assert (CK : check_indices sha256 idx =
     if N.land (N.shiftr (nth 0 (sha256 ent) 0) (N.of_nat (8 - cs))) (N.shiftl 1 (N.of_nat cs) - 1) =?
        N.shiftr (nth bytes e 0) (N.of_nat (8 - cs)) then Ok tt else Err EInvalidParam).
  { unfold check_indices. rewrite L. destruct SZ as [(-> & -> & ->)|(-> & -> & ->)]; cbn [Nat.eqb];
      rewrite L in E; rewrite E; reflexivity. }
  rewrite CK.
  assert (CE := checksum_eq cs (nth 0 (sha256 ent) 0) (nth bytes e 0) ltac:(destruct SZ as [?|?]; lia)
                  (nth_byte _ _ (proj2 (D32 ent))) (nth_byte _ _ B)).
  destruct (N.eqb_spec (N.land (N.shiftr (nth 0 (sha256 ent) 0) (N.of_nat (8 - cs))) (N.shiftl 1 (N.of_nat cs) - 1))
        (N.shiftr (nth bytes e 0) (N.of_nat (8 - cs)))) as [G|G].
  - left. split; [reflexivity|]. apply CE in G. rewrite G. reflexivity.
  - right. split; [reflexivity|]. intros K. apply G, CE. apply app_inv_head in K. congruence.
Qed.

Lemma validate_exact s : mnemonic_validate wl sha256 s = Ok tt <->
  exists ws ent, separated 32 s ws /\ spells wl sha256 ws ent /\ (length ent = 16 \/ length ent = 32)%nat /\ bytes_ok ent.
Proof.
  unfold mnemonic_validate. split.
  - destruct (length s =? 0)%nat; [discriminate|].
    destruct (word_indices wl 24 (tokens 32 s)) as [idx|x|] eqn:W; cbn [bind]; [|discriminate..].
    apply word_indices_spec in W as (LW & F & EW). intros C.
    assert (SZ : exists words bytes cs, size_ok words bytes cs /\ length idx = words).
    { unfold check_indices in C. destruct (Nat.eqb_spec (length idx) 12); [exists 12%nat, 16%nat, 4%nat; split; [left; auto|assumption]|].
      destruct (Nat.eqb_spec (length idx) 24); [exists 24%nat, 32%nat, 8%nat; split; [right; auto|assumption]|]. discriminate. }
    destruct SZ as (words & bytes & cs & SZ & L).
    destruct (check_go idx words bytes cs SZ L F) as (ent & LE & BE & _ & [(_ & FL)|(E & _)]); [|congruence].
    exists (tokens 32 s), ent. split; [apply tokens_separated|]. split.
    + exists idx. split; [exact F|]. split; [exact EW|]. rewrite FL. do 2 f_equal.
      rewrite LE. destruct SZ as [(-> & -> & ->)|(-> & -> & ->)]; reflexivity.
    + split; [destruct SZ; lia|exact BE].
  - intros (ws & ent & SP & (idx & F & EW & FL) & LE & BE).
    assert (LI : length (flat 11 idx) = (11 * length idx)%nat) by apply flat_length.
    rewrite FL, app_length, firstn_length, !flat_length, (proj1 (D32 ent)) in LI.
    assert (SZ : exists words bytes cs, size_ok words bytes cs /\ length idx = words /\ length ent = bytes /\ (length ent / 4 = cs)%nat).
    { destruct LE as [LE|LE]; rewrite LE in *.
      - change (16 / 4)%nat with 4%nat in *. exists 12%nat, 16%nat, 4%nat. split; [left; auto|]. split; [lia|auto].
      - change (32 / 4)%nat with 8%nat in *. exists 24%nat, 32%nat, 8%nat. split; [right; auto|]. split; [lia|auto]. }
    destruct SZ as (words & bytes & cs & SZ & L & LB & CS). rewrite CS in FL.
    assert (NE : s <> []).
    { intros ->. assert (ET : tokens 32 [] = ws) by (apply separated_tokens; exact SP). cbn in ET. subst ws.
      destruct idx; [|discriminate]. cbn [length] in L. destruct SZ; lia. }
    destruct s as [|c s']; [congruence|]. cbn [length Nat.eqb]. clear NE. set (s := c :: s') in *.
    rewrite (separated_tokens _ _ _ SP).
    rewrite (proj2 (word_indices_spec 24 ws idx)).
    2:{ split; [|split; [exact F|exact EW]]. rewrite EW, map_length. destruct SZ; lia. }
    cbn [bind].
    destruct (check_go idx words bytes cs SZ L F) as (ent' & LE' & BE' & FE & [(E & _)|(_ & NQ)]); [exact E|].
    exfalso. apply NQ.
    assert (ent' = ent).
    { apply (flat_inj 8); [lia|exact BE'|exact BE|]. rewrite <- FE, FL. rewrite firstn_app_exact; [reflexivity|].
      rewrite flat_length, LB. reflexivity. }
    subst ent'. exact FL.
Qed.

(** ** Generation *)
Fixpoint spaced (i : nat) (ws : list (list N)) : list N :=
  match ws with [] => [] | w :: r => (if (0 <? i)%nat then [32] else []) ++ w ++ spaced (S i) r end.
Lemma spaced_join ws : spaced 0 ws = join 32 ws.
Proof.
  assert (H : forall r i w, (0 < i)%nat -> w ++ spaced i r = join 32 (w :: r)).
  { induction r as [|x r IH]; intros i w I; [apply app_nil_r|].
    cbn [spaced]. rewrite (proj2 (Nat.ltb_lt _ _) I). cbn [app].
    change (join 32 (w :: x :: r)) with (w ++ 32 :: join 32 (x :: r)). rewrite <- (IH (S i) x) by lia. reflexivity. }
  destruct ws as [|w r]; [reflexivity|]. cbn [spaced]. cbn [Nat.ltb Nat.leb app]. apply H. lia.
Qed.

Lemma write_words_spec c size n : forall i text,
  (length text < size)%nat ->
  let out := text ++ spaced i (map (fun k => word_of (word_at c k)) (seq i n)) in
  write_words wl c size n i text = (if (length out <? size)%nat then Ok out else Err EInvalidParam).
Proof.
  induction n as [|n IH]; intros i text L; cbn [write_words seq map spaced].
  - cbv zeta. rewrite app_nil_r. rewrite (proj2 (Nat.ltb_lt _ _) L). reflexivity.
  - cbv zeta. fold (word_of (word_at c i)).
    set (w := word_of (word_at c i)). set (sep := if (0 <? i)%nat then [32] else []).
    set (rest := spaced (S i) _).
    destruct (Nat.leb_spec size (length text + length w + length sep)) as [G|G].
    + rewrite (proj2 (Nat.ltb_ge _ _)); [reflexivity|]. rewrite !app_length. lia.
    + rewrite IH by (rewrite !app_length; lia). cbv zeta. fold rest. rewrite <- !app_assoc. reflexivity.
Qed.

Lemma generate_words words bytes cs ent size :
  size_ok words bytes cs -> length ent = bytes -> bytes_ok ent -> (0 < size)%nat ->
  let c := ent ++ [nth 0 (sha256 ent) 0] ++ repeat 0 (33 - bytes) in
  exists ws, spells wl sha256 ws ent /\ length ws = words /\
    write_words wl c size words 0 [] = if (length (join 32 ws) <? size)%nat then Ok (join 32 ws) else Err EInvalidParam.
Proof.
  intros SZ L B S c.
  assert (BC : bytes_ok c).
  { unfold c. apply Forall_app_iff. split; [exact B|]. apply Forall_app_iff. split; [|apply Forall_repeat; reflexivity].
    constructor; [|constructor]. apply nth_byte, D32. }
  assert (LC : length c = 34%nat).
  { unfold c. rewrite !app_length, repeat_length, L. cbn [length]. destruct SZ; lia. }
  set (idx := map (word_at c) (seq 0 words)).
  exists (map word_of idx). split; [|split].
  - exists idx. split; [|split; [reflexivity|]].
    + apply Forall_map. apply Forall_forall. intros k _. apply word_at_range.
    + unfold idx. rewrite words_bits by (assumption || (rewrite LC; destruct SZ; lia)).
      unfold c. rewrite flat_app, firstn_app, flat_length, L.
      rewrite firstn_all2 by (rewrite flat_length, L; destruct SZ; lia). f_equal.
      replace (11 * words - 8 * bytes)%nat with cs by (destruct SZ; lia).
      rewrite sha_firstn by (destruct SZ as [(-> & -> & ->)|(-> & -> & ->)]; cbn; lia).
      cbn [app]. change (flat 8 (?a :: ?b)) with (bitsof 8 a ++ flat 8 b).
      unfold flat at 1. cbn [flat_map]. rewrite firstn_app, bitsof_length.
      replace (cs - 8)%nat with 0%nat by (destruct SZ; lia). cbn [firstn]. rewrite app_nil_r. f_equal.
      destruct SZ as [(-> & -> & ->)|(-> & -> & ->)]; reflexivity.
  - unfold idx. rewrite !map_length, seq_length. reflexivity.
  - rewrite write_words_spec by (cbn [length]; lia). cbv zeta. cbn [app].
    unfold idx. rewrite map_map, spaced_join. reflexivity.
Qed.

Lemma spells_words ws ent : spells wl sha256 ws ent -> Forall lower_word ws.
Proof.
  intros (idx & F & -> & _). apply Forall_map. eapply Forall_impl; [|exact F]. cbv beta. intros i H.
  apply word_of_ok, H.
Qed.
Lemma lower_no_space w : lower_word w -> w <> [] /\ ~ In 32 w.
Proof. intros (NE & F & _). split; [exact NE|]. intros I. rewrite Forall_forall in F. apply F in I. lia. Qed.
Lemma lower_length ws : Forall lower_word ws -> (length (join 32 ws) <= 9 * length ws)%nat.
Proof.
  induction 1 as [|w ws (NE & _ & L) F IH]; [cbn; lia|]. destruct ws as [|w2 ws]; [cbn [join length]; lia|].
  change (join 32 (w :: w2 :: ws)) with (w ++ 32 :: join 32 (w2 :: ws)). rewrite app_length. cbn [length] in *. lia.
Qed.

Lemma spells_inj ws e1 e2 : spells wl sha256 ws e1 -> spells wl sha256 ws e2 ->
  bytes_ok e1 -> bytes_ok e2 -> (length e1 = 16 \/ length e1 = 32)%nat -> (length e2 = 16 \/ length e2 = 32)%nat -> e1 = e2.
Proof.
  intros (i1 & F1 & W1 & B1) (i2 & F2 & W2 & B2) O1 O2 L1 L2.
  assert (i1 = i2).
  { rewrite W1 in W2. clear W1 B1 B2. revert i2 F2 W2. induction F1 as [|a i1 A F1 IH]; intros i2 F2 W2.
    - destruct i2; [reflexivity|discriminate].
    - destruct i2 as [|b i2]; [discriminate|]. inversion F2; subst. cbn [map] in W2.
      f_equal; [|apply IH; [assumption|congruence]]. apply wl_inj; [assumption..|congruence]. }
  subst i2. rewrite B1 in B2.
  assert (LE : length e1 = length e2).
  { apply (f_equal (@length bool)) in B2. rewrite !app_length, !firstn_length, !flat_length, !(proj1 (D32 _)) in B2.
    destruct L1 as [L1|L1], L2 as [L2|L2]; rewrite L1, L2 in *; try reflexivity; exfalso; revert B2; cbn; lia. }
  apply app_inv_length in B2 as (B & _); [|rewrite !flat_length, LE; reflexivity].
  apply (flat_inj 8); [lia|exact O1|exact O2|exact B].
Qed.
End W.

(** ** BIP-32 *)
Lemma parse256_from a l : fold_left (fun a b => a * 256 + b) l a = a * 256 ^ N.of_nat (length l) + parse256 l.
Proof.
  unfold parse256. revert a. induction l as [|x l IH]; intros a; cbn [fold_left length].
  - change (256 ^ N.of_nat 0) with 1. lia.
  - rewrite (IH (a * 256 + x)), (IH (0 * 256 + x)).
    rewrite Nat2N.inj_succ, N.pow_succ_r'. ring.
Qed.
Lemma parse256_cons x l : parse256 (x :: l) = x * 256 ^ N.of_nat (length l) + parse256 l.
Proof. unfold parse256 at 1. cbn [fold_left]. rewrite parse256_from. f_equal. Qed.
Lemma parse256_bound l : bytes_ok l -> parse256 l < 256 ^ N.of_nat (length l).
Proof.
  induction 1 as [|x l X F IH]; [reflexivity|]. rewrite parse256_cons. cbn [length].
  rewrite Nat2N.inj_succ, N.pow_succ_r'.
  enough ((x + 1) * 256 ^ N.of_nat (length l) <= 256 * 256 ^ N.of_nat (length l)) by lia.
  apply N.mul_le_mono_r. assert (x < 256) by exact X. lia.
Qed.
Lemma ser_S b v : ser (S b) v = (v / 256 ^ N.of_nat b) mod 256 :: ser b v.
Proof. unfold ser. rewrite seq_S, rev_app_distr. reflexivity. Qed.
Lemma ser_length b v : length (ser b v) = b.
Proof. unfold ser. rewrite map_length, rev_length, seq_length. reflexivity. Qed.
Lemma ser_bytes b v : bytes_ok (ser b v).
Proof.
  unfold ser. apply Forall_map, Forall_forall. intros k _. apply N.mod_lt. discriminate.
Qed.
Lemma ser_mod b v : forall c, ser b (v + c * 256 ^ N.of_nat b) = ser b v.
Proof.
  intros c. unfold ser. apply map_ext_in. intros k K. apply in_rev, in_seq in K.
  replace (c * 256 ^ N.of_nat b) with (c * 256 ^ (N.of_nat b - N.of_nat k - 1) * 256 * 256 ^ N.of_nat k).
  - rewrite N.div_add by (apply N.pow_nonzero; discriminate). rewrite N.mod_add by discriminate. reflexivity.
  - rewrite <- !N.mul_assoc. f_equal. rewrite <- N.pow_succ_r', <- N.pow_add_r. f_equal. lia.
Qed.
Lemma ser_parse l : bytes_ok l -> ser (length l) (parse256 l) = l.
Proof.
  induction 1 as [|x l X F IH]; [reflexivity|]. cbn [length]. rewrite ser_S, parse256_cons. f_equal.
  - rewrite N.add_comm, N.div_add by (apply N.pow_nonzero; discriminate).
    rewrite (N.div_small (parse256 l)) by (apply parse256_bound, F). apply N.mod_small, X.
  - rewrite N.add_comm, ser_mod. exact IH.
Qed.
Lemma parse_ser b v : v < 256 ^ N.of_nat b -> parse256 (ser b v) = v.
Proof.
  revert v. induction b as [|b IH]; intros v V.
  - change (256 ^ N.of_nat 0) with 1 in V. cbn. lia.
  - rewrite ser_S, parse256_cons, ser_length. rewrite Nat2N.inj_succ, N.pow_succ_r' in V.
    set (P := 256 ^ N.of_nat b) in *. assert (P <> 0) by (apply N.pow_nonzero; discriminate).
    pose proof (N.div_mod v P ltac:(assumption)) as DM. rewrite N.mul_comm in DM.
    rewrite (N.mod_small (v / P)) by (apply N.div_lt_upper_bound; [assumption|lia]).
    replace (ser b v) with (ser b (v mod P)).
    + rewrite IH by (apply N.mod_lt; assumption). lia.
    + symmetry. rewrite DM at 1. rewrite N.add_comm. apply ser_mod.
Qed.
Lemma be32_ser i : be32 i = ser 4 i.
Proof.
  unfold be32, ser. cbn [seq rev map app]. change 255 with (N.ones 8). rewrite !N.land_ones, !N.shiftr_div_pow2.
  rewrite N.div_1_r. reflexivity.
Qed.

Section Derive.
Variable hmac512 : list N -> list N -> option (list N).
Variable pub_compressed : list N -> option (list N).
Variable tweak_add : list N -> list N -> option (list N).
Variable pub_xonly : list N -> option (list N).
Variable H : list N -> list N -> list N.
Variable point : N -> list N.
Variable xonly : N -> list N.
Variable n : N.

(** What OpenSSL and libsecp256k1 provide. *)
Record provides : Prop := {
  p_hmac : forall k d, hmac512 k d = Some (H k d);
  p_len : forall k d, length (H k d) = 64%nat /\ bytes_ok (H k d);
  p_order : 1 < n <= 2 ^ 256;
  p_comp : forall l, length l = 32%nat -> bytes_ok l ->
    pub_compressed l = if (parse256 l =? 0) || (n <=? parse256 l) then None else Some (point (parse256 l));
  p_xonly : forall l, length l = 32%nat -> bytes_ok l ->
    pub_xonly l = if (parse256 l =? 0) || (n <=? parse256 l) then None else Some (xonly (parse256 l));
  p_tweak : forall l t, length l = 32%nat -> bytes_ok l -> length t = 32%nat -> bytes_ok t ->
    tweak_add l t =
      if (parse256 l =? 0) || (n <=? parse256 l) || (n <=? parse256 t) || ((parse256 t + parse256 l) mod n =? 0) then None
      else Some (ser 32 ((parse256 t + parse256 l) mod n)) }.
Hypothesis P : provides.

Definition represents (k : hd_key) (kc : N * list N) : Prop :=
  0 < fst kc < n /\ h_priv k = ser 32 (fst kc) /\ h_pub k = xonly (fst kc) /\ h_chain k = snd kc.

Lemma order256 : n <= 256 ^ N.of_nat 32.
Proof. pose proof (p_order P) as (_ & L). exact L. Qed.
Lemma scalar_back k : k < n -> parse256 (ser 32 k) = k.
Proof. intros K. apply parse_ser. exact (N.lt_le_trans _ _ _ K order256). Qed.

Lemma bit31 i : i < 2 ^ 32 -> N.testbit i 31 = negb (i <? 2 ^ 31).
Proof.
  intros I. destruct (N.ltb_spec i (2 ^ 31)) as [L|L]; cbn [negb].
  - apply (testbit_high 31); [exact L|lia].
  - rewrite N.testbit_eqb. apply N.eqb_eq.
    assert (Q : i / 2 ^ 31 = 1); [|rewrite Q; reflexivity].
    symmetry. apply (N.div_unique _ _ 1 (i - 2 ^ 31)); [|lia].
    change (2 ^ 32) with (2 * 2 ^ 31) in I. lia.
Qed.

Lemma derive_child parent kc i : represents parent kc -> i < 2 ^ 32 ->
  match ckd_priv H point n kc i with
  | Some kc' => exists ch, hd_derive hmac512 pub_compressed tweak_add pub_xonly parent i = (Ok tt, ch) /\ represents ch kc'
  | None => exists ch, hd_derive hmac512 pub_compressed tweak_add pub_xonly parent i = (Err EInvalidKey, ch)
  end.
Proof.
  destruct kc as (k, c). intros (K & EP & EX & EC) I. cbn [fst snd] in *.
  unfold ckd_priv, hd_derive. rewrite EP, EC, bit31, be32_ser by exact I.
  assert (G : forall d,
     (exists ch, match hmac512 c d with
       | Some h => match tweak_add (ser 32 k) (firstn 32 h) with
                   | None => (Err EInvalidKey, mkHd (repeat 0 32) (repeat 0 32) (skipn 32 h))
                   | Some k => match pub_xonly k with
                               | None => (Err EInvalidKey, mkHd k (repeat 0 32) (skipn 32 h))
                               | Some p => (Ok tt, mkHd k p (skipn 32 h)) end end
       | None => (Err EMemory, hd_zero) end =
       (if (n <=? parse256 (firstn 32 (H c d))) || ((parse256 (firstn 32 (H c d)) + k) mod n =? 0) then Err EInvalidKey else Ok tt, ch) /\
       (((n <=? parse256 (firstn 32 (H c d))) || ((parse256 (firstn 32 (H c d)) + k) mod n =? 0)) = false ->
         represents ch ((parse256 (firstn 32 (H c d)) + k) mod n, skipn 32 (H c d))))).
  { intros d. rewrite (p_hmac P). destruct (p_len P c d) as (LH & BH).
    rewrite (p_tweak P) by (rewrite ?firstn_length, ?LH; try apply ser_length; try apply ser_bytes; try apply Forall_firstn; auto).
    rewrite scalar_back by lia.
    rewrite (proj2 (N.eqb_neq k 0)) by lia. rewrite (proj2 (N.leb_gt n k)) by lia. cbn [orb].
    destruct ((n <=? _) || _) eqn:V; [eexists; split; [reflexivity|discriminate]|].
    set (ki := (parse256 (firstn 32 (H c d)) + k) mod n) in *.
    assert (KI : ki < n) by (apply N.mod_lt; pose proof (p_order P); lia).
    apply orb_false_iff in V as (_ & V). apply N.eqb_neq in V.
    rewrite (p_xonly P) by (apply ser_length || apply ser_bytes).
    rewrite scalar_back by exact KI.
    rewrite (proj2 (N.eqb_neq ki 0)) by exact V. rewrite (proj2 (N.leb_gt n ki)) by lia. cbn [orb].
    eexists. split; [reflexivity|]. intros _. split; [cbn [fst]; lia|]. repeat split. }
  rewrite (p_comp P) by (apply ser_length || apply ser_bytes). rewrite scalar_back by lia.
  rewrite (proj2 (N.eqb_neq k 0)) by lia. rewrite (proj2 (N.leb_gt n k)) by lia. cbn [orb].
  destruct (i <? 2 ^ 31); cbn [negb].
  - destruct (G (point k ++ ser 4 i)) as (ch & E & R). destruct ((n <=? _) || _); exists ch; [exact E|]. split; [exact E|apply R; reflexivity].
  - change ([0] ++ ser 32 k ++ ser 4 i) with (0 :: ser 32 k ++ ser 4 i).
    destruct (G (0 :: ser 32 k ++ ser 4 i)) as (ch & E & R). destruct ((n <=? _) || _); exists ch; [exact E|]. split; [exact E|apply R; reflexivity].
Qed.

(** derivation as used by the path walk *)
Definition derive1 (k : hd_key) (i : N) : res hd_key :=
  match hd_derive hmac512 pub_compressed tweak_add pub_xonly k i with
  | (Ok _, ch) => Ok ch
  | (Err e, _) => Err e
  | (Undef, _) => Undef
  end.

Lemma derive_all_ckd is_ : Forall (fun i => i < 2 ^ 32) is_ -> forall k kc, represents k kc ->
  match ckd_path H point n kc is_ with
  | Some kc' => exists ch, derive_all derive1 k is_ = Ok ch /\ represents ch kc'
  | None => derive_all derive1 k is_ = Err EInvalidKey
  end.
Proof.
  induction 1 as [|i is_ I F IH]; intros k kc R; cbn [ckd_path derive_all]; [eauto|].
  pose proof (derive_child k kc i R I) as D. unfold derive1 at 1 3.
  destruct (ckd_priv H point n kc i) as [kc'|].
  - destruct D as (ch & E & R'). rewrite E. apply IH, R'.
  - destruct D as (ch & E). rewrite E. reflexivity.
Qed.

Lemma seed_master seed out : (16 <= length seed <= 64)%nat ->
  match master H n seed with
  | Some kc => exists k, hd_from_seed hmac512 pub_xonly seed out = (Ok tt, k) /\ represents k kc
  | None => hd_from_seed hmac512 pub_xonly seed out = (Err EInvalidKey, hd_zero)
  end.
Proof.
  intros L. unfold master, hd_from_seed.
  rewrite (proj2 (Nat.ltb_ge _ _)) by lia. rewrite (proj2 (Nat.ltb_ge _ _)) by lia. cbn [orb].
  rewrite (p_hmac P). set (h := H (bs "Bitcoin seed") seed).
  destruct (p_len P (bs "Bitcoin seed") seed) as (LH & BH). fold h in LH, BH.
  assert (L32 : length (firstn 32 h) = 32%nat) by (rewrite firstn_length; lia).
  assert (B32 : bytes_ok (firstn 32 h)) by (apply Forall_firstn; exact BH).
  rewrite (p_xonly P) by assumption.
  destruct ((parse256 (firstn 32 h) =? 0) || (n <=? parse256 (firstn 32 h))) eqn:V; [reflexivity|].
  apply orb_false_iff in V as (V1 & V2). apply N.eqb_neq in V1. apply N.leb_gt in V2.
  eexists. split; [reflexivity|]. split; [cbn [fst]; lia|]. cbn [fst snd h_priv h_pub h_chain].
  split; [|auto]. rewrite <- L32 at 2. symmetry. apply ser_parse, B32.
Qed.
End Derive.
