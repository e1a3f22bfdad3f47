(** Theorems about the memory of lists: C126. *)
From Verif Require Import Base BaseFacts Heap HexProofs Event GiftWrap Nip18 Nip18Spec Nip18Props RelayMemSpec RelayMemProps EventMem EventMemSpec EventMemProps Nip51 Nip51Spec Nip51Props ListMem ListMemSpec.
From Coq Require Import Permutation.
Open Scope nat_scope.

Ltac lperm := apply (proj2 (Permutation_count_occ Nat.eq_dec _ _)); let x := fresh "x" in intros x;
  unfold lowned, iblocks in *; cbn [cl_self cl_array cl_d cl_title cl_desc cl_image ci_tag ci_value ci_relay ci_pet app flat_map] in *;
  repeat rewrite ?count_occ_app, ?flat_map_app in *; cbn [count_occ flat_map app] in *; repeat rewrite ?count_occ_app in *; cbn [count_occ] in *;
  repeat match goal with |- context [Nat.eq_dec ?a ?b] => destruct (Nat.eq_dec a b) end; lia.
(** ** Shape *)
Lemma max_is : N.of_nat MAX_ITEM_COUNT = 4096%N. Proof. apply N2Nat.id. Qed.
Lemma shape c : list_sound c -> exists us k, cl_slots c = us ++ repeat zero_item k /\ cl_count c = length us /\ in_use c = us /\ Forall complete us.
Proof.
  intros [S1 S2 S3 S4]. exists (in_use c), (length (cl_slots c) - cl_count c). split; [|split; [|split; [reflexivity|exact S2]]].
  - rewrite <- (firstn_skipn (cl_count c) (cl_slots c)) at 1. unfold in_use. f_equal. rewrite <- skipn_length. revert S3. generalize (skipn (cl_count c) (cl_slots c)).
    induction 1 as [|x l E _ IH]; [reflexivity|]. subst x. cbn [length repeat]. f_equal. exact IH.
  - unfold in_use. rewrite firstn_length. lia.
Qed.
Lemma unshape c us k : cl_slots c = us ++ repeat zero_item k -> cl_count c = length us -> in_use c = us.
Proof. intros S C. unfold in_use. rewrite S, C. apply firstn_app_exact. reflexivity. Qed.
Lemma shape_sound c us k : cl_slots c = us ++ repeat zero_item k -> cl_count c = length us -> Forall complete us -> 1 <= length us + k -> (N.of_nat (length us + k) <= 4096)%N -> list_sound c.
Proof.
  intros S C F L1 L2. assert (L : length (cl_slots c) = length us + k) by (rewrite S, app_length, repeat_length; reflexivity).
  constructor; [lia|rewrite (unshape _ _ _ S C); exact F| |rewrite L; auto].
  rewrite S, C, skipn_app_exact by reflexivity. clear. induction k; constructor; auto.
Qed.
Lemma shape_cap c us k : list_sound c -> cl_slots c = us ++ repeat zero_item k -> 1 <= length us + k /\ (N.of_nat (length us + k) <= 4096)%N.
Proof. intros [_ _ _ S4] S. rewrite S, app_length, repeat_length in S4. exact S4. Qed.
Lemma store_at us k x y h : store (us ++ x :: k) (length us) y h = Ok (us ++ y :: k, h).
Proof.
  unfold store. rewrite app_length. cbn [length]. destruct (Nat.ltb_spec (length us) (length us + S (length k))); [|lia].
  rewrite firstn_app_exact by reflexivity. do 4 f_equal. change (us ++ x :: k) with (us ++ [x] ++ k). rewrite app_assoc. apply skipn_app_exact. rewrite app_length. cbn. lia.
Qed.
Lemma free_cell_holds c h l : holds h (cb c ++ l) -> exists h', free_cell c h = Ok (tt, h') /\ holds h' l /\ h_next h' = h_next h.
Proof. apply free_opt_holds. Qed.
Lemma free_citem_holds x h l : holds h (iblocks x ++ l) -> exists h', free_citem x h = Ok (tt, h') /\ holds h' l /\ h_next h' = h_next h.
Proof.
  intros X. unfold iblocks in X. rewrite <- !app_assoc in X. unfold free_citem.
  destruct (free_cell_holds _ _ _ X) as (h1 & E1 & X1 & L1). rewrite (mbind_ok _ _ _ _ _ E1).
  destruct (free_cell_holds _ _ _ X1) as (h2 & E2 & X2 & L2). rewrite (mbind_ok _ _ _ _ _ E2).
  destruct (free_cell_holds _ _ _ X2) as (h3 & E3 & X3 & L3). rewrite (mbind_ok _ _ _ _ _ E3).
  destruct (free_cell_holds _ _ _ X3) as (h4 & E4 & X4 & L4). exists h4. split; [exact E4|]. split; [exact X4|lia].
Qed.
Lemma free_slots_holds a us : forall r h l, holds h (flat_map iblocks us ++ l) -> In a l -> exists h', free_slots a (length us) (us ++ r) h = Ok (tt, h') /\ holds h' l /\ h_next h' = h_next h.
Proof.
  induction us as [|x us IH]; intros r h l X I; cbn [length free_slots app]; [exists h; auto|]. cbn [flat_map] in X. rewrite <- app_assoc in X.
  rewrite (mbind_ok _ _ _ _ _ (use_holds a h _ X ltac:(apply in_or_app; right; apply in_or_app; right; exact I))).
  destruct (free_citem_holds _ _ _ X) as (h1 & E1 & X1 & L1). rewrite (mbind_ok _ _ _ _ _ E1). destruct (IH r h1 l X1 I) as (h2 & E2 & X2 & L2). exists h2. split; [exact E2|]. split; [exact X2|lia].
Qed.

(** ** C126 *)
(** Releasing a list gives back exactly its blocks. *)
Theorem C126_free : forall c h rest, list_sound c -> holds h (lowned c ++ rest) ->
  exists h', list_free (Some c) h = Ok (tt, h') /\ holds h' rest /\ h_next h' = h_next h.
Proof.
  intros c h rest S X. destruct (shape c S) as (us & k & SL & CT & IU & _). unfold list_free. rewrite (mbind_ok _ _ _ _ _ (use_holds (cl_self c) h _ X ltac:(left; reflexivity))).
  apply (holds_perm _ _ (flat_map iblocks us ++ cl_array c :: cb (cl_d c) ++ cb (cl_title c) ++ cb (cl_desc c) ++ cb (cl_image c) ++ cl_self c :: rest)) in X; [|rewrite <- IU; lperm].
  rewrite SL, CT. destruct (free_slots_holds (cl_array c) us (repeat zero_item k) h _ X ltac:(left; reflexivity)) as (h1 & E1 & X1 & L1). rewrite (mbind_ok _ _ _ _ _ E1).
  destruct (free_holds _ _ _ X1) as (h2 & E2 & X2 & L2). rewrite (mbind_ok _ _ _ _ _ E2).
  destruct (free_cell_holds _ _ _ X2) as (h3 & E3 & X3 & L3). rewrite (mbind_ok _ _ _ _ _ E3).
  destruct (free_cell_holds _ _ _ X3) as (h4 & E4 & X4 & L4). rewrite (mbind_ok _ _ _ _ _ E4).
  destruct (free_cell_holds _ _ _ X4) as (h5 & E5 & X5 & L5). rewrite (mbind_ok _ _ _ _ _ E5).
  destruct (free_cell_holds _ _ _ X5) as (h6 & E6 & X6 & L6). rewrite (mbind_ok _ _ _ _ _ E6).
  destruct (free_holds _ _ _ X6) as (h7 & E7 & X7 & L7). exists h7. split; [exact E7|]. split; [exact X7|lia].
Qed.
(** Removing an item releases exactly its strings. *)
Lemma shifted us x b k : exists z,
  (if (length us <? length (us ++ x :: b) - 1)
   then firstn (length us) ((us ++ x :: b) ++ repeat zero_item k) ++ firstn (length (us ++ x :: b) - length us - 1) (skipn (length us + 1) ((us ++ x :: b) ++ repeat zero_item k)) ++
        skipn (length (us ++ x :: b) - 1) ((us ++ x :: b) ++ repeat zero_item k)
   else (us ++ x :: b) ++ repeat zero_item k) = (us ++ b) ++ z :: repeat zero_item k.
Proof.
  rewrite app_length. cbn [length]. replace (length us + S (length b) - length us - 1) with (length b) by lia. replace (length us + S (length b) - 1) with (length us + length b) by lia.
  destruct (Nat.ltb_spec (length us) (length us + length b)) as [G|G].
  - destruct (exists_last (l := b)) as (c3 & y & ->); [intros ->; cbn in G; lia|]. exists y.
    rewrite <- (skipn_add _ (length us) 1), <- (skipn_add _ (length us) (length (c3 ++ [y]))). rewrite <- !app_assoc. cbn [app]. rewrite (firstn_app_exact us), (skipn_app_exact us) by reflexivity.
    cbn [skipn]. rewrite <- !app_assoc. cbn [app]. f_equal. replace (c3 ++ y :: repeat zero_item k) with ((c3 ++ [y]) ++ repeat zero_item k) by (rewrite <- app_assoc; reflexivity).
    rewrite firstn_app_exact by reflexivity. rewrite <- app_assoc. f_equal. cbn [app]. f_equal. rewrite app_length. cbn [length].
    replace (length c3 + 1) with (length (x :: c3)) by (cbn [length]; lia). change (x :: (c3 ++ [y]) ++ repeat zero_item k) with ((x :: c3 ++ [y]) ++ repeat zero_item k).
    replace ((x :: c3 ++ [y]) ++ repeat zero_item k) with ((x :: c3) ++ y :: repeat zero_item k) by (cbn [app]; rewrite <- app_assoc; reflexivity). apply skipn_app_exact. reflexivity.
  - destruct b; [|cbn [length] in G; lia]. exists x. rewrite app_nil_r, <- app_assoc. reflexivity.
Qed.
Theorem C126_remove : forall c i h rest, list_sound c -> holds h (lowned c ++ rest) ->
  exists c' x h', mem_remove c i h = Ok ((c', x), h') /\ list_sound c' /\ holds h' (lowned c' ++ rest) /\ h_next h' = h_next h /\
  ((x = None /\ exists a y b, nl_items (lvalue c) = a ++ y :: b /\ length a = i /\ lvalue c' = with_items (lvalue c) (a ++ b)) \/
   (x = Some EInvalidParam /\ c' = c /\ length (nl_items (lvalue c)) <= i)).
Proof.
  intros c i h rest S X. destruct (shape c S) as (us & k & SL & CT & IU & CO). pose proof (shape_cap c us k S SL) as CAP. unfold mem_remove.
  rewrite (mbind_ok _ _ _ _ _ (use_holds (cl_self c) h _ X ltac:(left; reflexivity))).
  assert (LV : nl_items (lvalue c) = map ivalue us) by (cbn [lvalue nl_items]; rewrite IU; reflexivity). rewrite LV.
  destruct (Nat.leb_spec (cl_count c) i) as [F|F].
  { exists c, (Some EInvalidParam), h. split; [reflexivity|]. split; [exact S|]. split; [exact X|]. split; [reflexivity|]. right. rewrite map_length. split; [reflexivity|]. split; [reflexivity|]. lia. }
  destruct (nth_error us i) as [x|] eqn:E; [|apply nth_error_None in E; lia]. apply nth_error_split in E as (a & b & EU & <-). rewrite EU in SL, CT, IU, CO, CAP, LV |- *. clear EU us.
  assert (NE : nth_error (cl_slots c) (length a) = Some x) by (rewrite SL, <- app_assoc; rewrite nth_error_app2 by lia; rewrite Nat.sub_diag; reflexivity). rewrite NE. clear NE.
  rewrite (mbind_ok _ _ _ _ _ (use_holds (cl_array c) h _ X ltac:(right; left; reflexivity))).
  apply (holds_perm _ _ (iblocks x ++ cl_self c :: cl_array c :: flat_map iblocks (a ++ b) ++ cb (cl_d c) ++ cb (cl_title c) ++ cb (cl_desc c) ++ cb (cl_image c) ++ rest)) in X; [|unfold lowned; rewrite IU; lperm].
  destruct (free_citem_holds _ _ _ X) as (h1 & E1 & X1 & L1). rewrite (mbind_ok _ _ _ _ _ E1). cbv zeta. rewrite CT, SL.
  destruct (shifted a x b k) as (z & ->).
  replace (length (a ++ x :: b) - 1) with (length (a ++ b)) by (rewrite !app_length; cbn [length]; lia).
  rewrite (mbind_ok _ _ _ _ _ (store_at (a ++ b) (repeat zero_item k) z zero_item h1)).
  assert (IU' : in_use (with_slots c ((a ++ b) ++ zero_item :: repeat zero_item k) (length (a ++ b))) = a ++ b) by (apply (unshape _ _ (Datatypes.S k)); reflexivity).
  apply Forall_app in CO as (CO1 & CO2). inversion CO2 as [|? ? _ CO3]; subst.
  eexists. exists None, h1. split; [reflexivity|]. split; [|split; [|split; [exact L1|left; split; [reflexivity|]]]].
  - apply (shape_sound _ (a ++ b) (Datatypes.S k)); [reflexivity|reflexivity|apply Forall_app; auto|lia|rewrite app_length in *; cbn [length] in CAP; lia].
  - revert X1. apply holds_perm. unfold lowned. rewrite IU'. cbn [with_slots cl_self cl_array cl_d cl_title cl_desc cl_image]. lperm.
  - exists (map ivalue a), (ivalue x), (map ivalue b). rewrite map_app. cbn [map]. split; [reflexivity|]. split; [apply map_length|].
    unfold lvalue, with_items. rewrite IU', map_app. reflexivity.
Qed.
Section Grant.
Variable grant : nat -> bool.
Lemma dup_cases t h l : holds h l -> exists x h', dup grant t h = Ok (x, h') /\ holds h' (cb x ++ l) /\ h_next h <= h_next h' /\ (text x = t \/ (x = None /\ t <> None /\ failed grant h h')).
Proof.
  intros X. destruct t as [t|]; cbn [dup]; [|exists None, h; split; [reflexivity|]; split; [exact X|]; split; [lia|left; reflexivity]].
  destruct (ealloc_cases grant h l X) as [(q & h1 & E & X1 & L1)|(h1 & E & X1 & L1 & F)]; rewrite (mbind_ok _ _ _ _ _ E); cbn [option_map].
  - exists (Some (q, t)), h1. split; [reflexivity|]. split; [exact X1|]. split; [exact L1|left; reflexivity].
  - exists None, h1. split; [reflexivity|]. split; [exact X1|]. split; [exact L1|]. right. split; [reflexivity|]. split; [discriminate|exact F].
Qed.
(** A new list owns its blocks, or nothing is kept and the variable is empty. *)
Theorem C126_create : forall kind h rest, holds h rest ->
  exists p x h', list_create grant kind h = Ok ((p, x), h') /\ h_next h <= h_next h' /\
  ((x = None /\ exists c, p = Some c /\ list_sound c /\ holds h' (lowned c ++ rest) /\ lvalue c = mkList kind None None None None []) \/
   (x = Some EMemory /\ p = None /\ holds h' rest /\ failed grant h h')).
Proof.
  intros kind h rest X. unfold list_create. destruct (ealloc_cases grant h _ X) as [(s & h1 & E & X1 & L1)|(h1 & E & X1 & L1 & F)]; rewrite (mbind_ok _ _ _ _ _ E).
  2:{ exists None, (Some EMemory), h1. split; [reflexivity|]. split; [lia|]. right. auto. }
  destruct (ealloc_cases grant h1 _ X1) as [(a & h2 & E2 & X2 & L2)|(h2 & E2 & X2 & L2 & F)]; rewrite (mbind_ok _ _ _ _ _ E2).
  - rewrite (mbind_ok _ _ _ _ _ (use_holds s h2 _ X2 ltac:(right; left; reflexivity))). eexists. exists None, h2. split; [reflexivity|]. split; [lia|]. left. split; [reflexivity|]. eexists. split; [reflexivity|].
    split; [apply (shape_sound _ [] INITIAL_CAPACITY); [reflexivity|reflexivity|apply Forall_nil|vm_compute; lia|vm_compute; congruence]|]. split; [|reflexivity]. revert X2. apply holds_perm. cbn. apply perm_swap.
  - destruct (free_holds _ _ _ X2) as (h3 & E3 & X3 & L3). rewrite (mbind_ok _ _ _ _ _ E3). exists None, (Some EMemory), h3. split; [reflexivity|]. split; [lia|].
    right. split; [reflexivity|]. split; [reflexivity|]. split; [exact X3|]. refine (failed_more _ _ _ _ _ _ _ F); lia.
Qed.
(** Setting a text from anywhere but the text itself. *)
Theorem C126_set : forall c f v h rest, list_sound c -> holds h (lowned c ++ rest) ->
  (forall b t, v = Some (Some b, t) -> In b (lowned c ++ rest) /\ ~ In b (cb (get_field c f))) ->
  exists c' x h', set_field grant c f v h = Ok ((c', x), h') /\ list_sound c' /\ holds h' (lowned c' ++ rest) /\ h_next h <= h_next h' /\
  ((x = None /\ lvalue c' = with_text (lvalue c) f (option_map snd v)) \/ (x = Some EMemory /\ lvalue c' = with_text (lvalue c) f None /\ failed grant h h')).
Proof.
  intros c f v h rest S X SRC. unfold set_field. rewrite (mbind_ok _ _ _ _ _ (use_holds (cl_self c) h _ X ltac:(left; reflexivity))).
  set (others := lowned (with_field c f None) ++ rest).
  assert (P : forall y, Permutation (cb y ++ others) (lowned (with_field c f y) ++ rest)) by (intros y; unfold others; destruct f; unfold lowned; cbn [with_field cl_self cl_array cl_d cl_title cl_desc cl_image]; change (cb None) with (@nil nat); unfold in_use; cbn [cl_count cl_slots]; lperm).
  assert (SO : forall y, list_sound (with_field c f y)) by (intros y; destruct S; destruct f; constructor; assumption).
  assert (VA : forall y, lvalue (with_field c f y) = with_text (lvalue c) f (text y)) by (intros y; destruct f; reflexivity).
  assert (SAME : with_field c f (get_field c f) = c) by (destruct c, f; reflexivity).
  assert (X0 : holds h (cb (get_field c f) ++ others)) by (revert X; apply holds_perm; symmetry; rewrite <- SAME at 2; apply P).
  destruct (free_cell_holds _ _ _ X0) as (h1 & E1 & X1 & L1). rewrite (mbind_ok _ _ _ _ _ E1).
  destruct v as [[src t]|].
  2:{ eexists. exists None, h1. split; [reflexivity|]. split; [apply SO|]. split; [revert X1; apply holds_perm, (P None)|]. split; [lia|]. left. split; [reflexivity|apply VA]. }
  assert (R : read_arg (src, t) h1 = Ok (tt, h1)).
  { unfold read_arg. cbn [fst]. destruct src as [b|]; [|reflexivity]. apply (use_holds b h1 _ X1). destruct (SRC b t eq_refl) as (I1 & I2).
    assert (I3 : In b (cb (get_field c f) ++ others)) by (apply (Permutation_in b (Permutation_sym (P (get_field c f)))); rewrite SAME; exact I1). apply in_app_or in I3 as [I3|I3]; [contradiction|exact I3]. }
  rewrite (mbind_ok _ _ _ _ _ R). destruct (dup_cases (Some (snd (src, t))) h1 _ X1) as (x & h2 & E2 & X2 & L2 & D). rewrite (mbind_ok _ _ _ _ _ E2).
  eexists. eexists. exists h2. split; [reflexivity|]. split; [apply SO|]. split; [revert X2; apply holds_perm, P|]. split; [lia|]. rewrite VA. destruct D as [D|(-> & _ & F)].
  - left. destruct x; [|discriminate]. split; [reflexivity|]. rewrite D. reflexivity.
  - right. split; [reflexivity|]. split; [reflexivity|]. refine (failed_more _ _ _ _ _ _ _ F); lia.
Qed.
Lemma reserve_ok c h rest : list_sound c -> holds h (lowned c ++ rest) ->
  exists c' x h', reserve grant c h = Ok ((c', x), h') /\ h_next h <= h_next h' /\ lvalue c' = lvalue c /\ in_use c' = in_use c /\ list_sound c' /\ holds h' (lowned c' ++ rest) /\
    (forall b, In b (lowned c) -> b <> cl_array c -> In b (lowned c')) /\
  ((x = None /\ exists us k, cl_slots c' = us ++ repeat zero_item (Datatypes.S k) /\ cl_count c' = length us /\ in_use c' = us) \/
   (x = Some EMemory /\ c' = c /\ (failed grant h h' \/ N.of_nat (length (nl_items (lvalue c))) = 4096%N))).
Proof.
  intros S X. destruct (shape c S) as (us & k & SL & CT & IU & CO). pose proof (shape_cap c us k S SL) as CAP. pose proof max_is as MX. unfold reserve.
  rewrite (mbind_ok _ _ _ _ _ (use_holds (cl_self c) h _ X ltac:(left; reflexivity))). cbv zeta.
  assert (L : length (cl_slots c) = length us + k) by (rewrite SL, app_length, repeat_length; reflexivity).
  assert (LV : length (nl_items (lvalue c)) = length us) by (cbn [lvalue nl_items]; rewrite IU, map_length; reflexivity). rewrite LV.
  destruct (Nat.leb_spec (length (cl_slots c)) (cl_count c)) as [F|F].
  - assert (k = 0) by lia. subst k. destruct (Nat.leb_spec (Nat.min (length (cl_slots c) * 2) MAX_ITEM_COUNT) (cl_count c)) as [G|G].
    + exists c, (Some EMemory), h. split; [reflexivity|]. split; [lia|]. do 3 (split; [auto|]). split; [exact X|]. split; [auto|]. right. split; [reflexivity|]. split; [reflexivity|]. right. lia.
    + assert (X0 : holds h (opt_list (Some (cl_array c)) ++ cl_self c :: flat_map iblocks us ++ cb (cl_d c) ++ cb (cl_title c) ++ cb (cl_desc c) ++ cb (cl_image c) ++ rest)) by (revert X; apply holds_perm; unfold lowned; rewrite IU; cbn [opt_list]; lperm).
      destruct (erealloc_cases grant _ _ _ X0) as [(q & h1 & E & X1 & L1)|(h1 & E & X1 & L1 & FF)]; rewrite (mbind_ok _ _ _ _ _ E).
      2:{ exists c, (Some EMemory), h1. split; [reflexivity|]. split; [lia|]. do 3 (split; [auto|]). split; [revert X1; apply holds_perm; unfold lowned; rewrite IU; cbn [opt_list]; lperm|]. split; [auto|]. right. auto. }
      set (nc := Nat.min _ _) in *. set (c' := with_array c q (cl_slots c ++ repeat zero_item (nc - length (cl_slots c)))).
      assert (SL' : cl_slots c' = us ++ repeat zero_item (Datatypes.S (nc - length us - 1))) by (unfold c'; cbn [with_array cl_slots]; rewrite L, SL; cbn [repeat]; rewrite app_nil_r; f_equal; replace (nc - (length us + 0)) with (Datatypes.S (nc - length us - 1)) by lia; reflexivity).
      assert (IU' : in_use c' = us) by (apply (unshape _ _ _ SL'); exact CT).
      exists c', None, h1. split; [reflexivity|]. split; [lia|]. split; [unfold lvalue; rewrite IU', IU; reflexivity|]. split; [congruence|]. split; [apply (shape_sound c' us _ SL' CT CO); lia|].
      split; [revert X1; apply holds_perm; unfold lowned; rewrite IU'; cbn [c' with_array cl_self cl_array cl_d cl_title cl_desc cl_image]; lperm|]. split.
      * intros b I NB. unfold lowned in *. rewrite IU in I. rewrite IU'. cbn [In c' with_array cl_self cl_array cl_d cl_title cl_desc cl_image] in *. intuition congruence.
      * left. split; [reflexivity|]. exists us, (nc - length us - 1). split; [exact SL'|]. split; [exact CT|exact IU'].
  - exists c, None, h. split; [reflexivity|]. split; [lia|]. do 3 (split; [auto|]). split; [exact X|]. split; [auto|]. left. split; [reflexivity|]. exists us, (k - 1). replace (Datatypes.S (k - 1)) with k by lia. auto.
Qed.
Lemma read_all_ok srcs h l : holds h l -> incl srcs l -> read_all srcs h = Ok (tt, h).
Proof.
  intros X I. induction srcs as [|b r IH]; cbn [read_all]; [reflexivity|]. rewrite (mbind_ok _ _ _ _ _ (use_holds b h _ X (I b ltac:(left; reflexivity)))). apply IH. intros z Z. apply I. right. exact Z.
Qed.
(** Adding an item, its texts coming from anywhere but the array itself: the item is
    added, or the list is as before and nothing else is kept. *)
Theorem C126_add : forall c x srcs h rest, list_sound c -> holds h (lowned c ++ rest) -> incl srcs (lowned c ++ rest) -> ~ In (cl_array c) srcs ->
  exists c' r h', mem_add grant c x srcs h = Ok ((c', r), h') /\ list_sound c' /\ holds h' (lowned c' ++ rest) /\ h_next h <= h_next h' /\
  ((r = None /\ lvalue c' = with_items (lvalue c) (nl_items (lvalue c) ++ [x]) /\ (N.of_nat (length (nl_items (lvalue c))) < 4096)%N) \/
   (r = Some EMemory /\ lvalue c' = lvalue c /\ (failed grant h h' \/ N.of_nat (length (nl_items (lvalue c))) = 4096%N))).
Proof.
  intros c x srcs h rest S X SRC NA. unfold mem_add.
  destruct (reserve_ok c h rest S X) as (c1 & e1 & h1 & E1 & L1 & V1 & U1 & S1 & X1 & B1 & R1). rewrite (mbind_ok _ _ _ _ _ E1).
  destruct R1 as [(-> & us & k & SL & CT & IU)|(-> & -> & R1)].
  2:{ exists c, (Some EMemory), h1. split; [reflexivity|]. split; [exact S|]. split; [exact X1|]. split; [exact L1|]. right. auto. }
  rewrite (mbind_ok _ _ _ _ _ (use_holds (cl_array c1) h1 _ X1 ltac:(right; left; reflexivity))).
  rewrite (mbind_ok _ _ _ _ _ (read_all_ok srcs h1 _ X1 ltac:(intros b I; destruct (in_app_or _ _ _ (SRC b I)) as [J|J]; apply in_or_app; [left; apply B1; [exact J|intros ->; contradiction]|right; exact J]))).
  destruct (dup_cases (Some (it_tag x)) h1 _ X1) as (t & h2 & E2 & X2 & L2 & D2). rewrite (mbind_ok _ _ _ _ _ E2).
  destruct (dup_cases (Some (it_value x)) h2 _ X2) as (v & h3 & E3 & X3 & L3 & D3). rewrite (mbind_ok _ _ _ _ _ E3).
  destruct (dup_cases (it_relay x) h3 _ X3) as (r & h4 & E4 & X4 & L4 & D4). rewrite (mbind_ok _ _ _ _ _ E4).
  destruct (dup_cases (it_pet x) h4 _ X4) as (p & h5 & E5 & X5 & L5 & D5). rewrite (mbind_ok _ _ _ _ _ E5). cbv zeta.
  set (i := mkCi t v r p (it_private x)). pose proof (shape_cap c1 us _ S1 SL) as CAP. destruct (shape c1 S1) as (us' & k' & _ & _ & IU2 & CO). rewrite <- IU2, IU in CO. clear us' k' IU2.
  apply (holds_perm _ _ (iblocks i ++ lowned c1 ++ rest)) in X5; [|unfold i; cbn [iblocks ci_tag ci_value ci_relay ci_pet]; unfold lowned; rewrite IU; lperm].
  assert (LU : length (nl_items (lvalue c)) = length us) by (rewrite <- V1; cbn [lvalue nl_items]; rewrite IU, map_length; reflexivity).
  assert (MI : forall w g, (text g = w \/ (g = None /\ w <> None /\ failed grant h h5)) -> (missing w g = false /\ text g = w) \/ (missing w g = true /\ failed grant h h5)).
  { intros w g [<-|(-> & N0 & F)]; [left; destruct g; cbn; auto|right]. destruct w; [|congruence]. cbn. auto. }
  assert (FM : forall ha hb, failed grant ha hb -> h_next h <= h_next ha -> h_next hb <= h_next h5 -> failed grant h h5) by (intros ha hb F A B; exact (failed_more _ _ _ _ _ A B F)).
  assert (M2 := MI _ _ ltac:(destruct D2 as [D2|(D21 & D22 & D23)]; [left; exact D2|right; split; [exact D21|]; split; [exact D22|apply (FM _ _ D23); lia]])).
  assert (M3 := MI _ _ ltac:(destruct D3 as [D3|(D31 & D32 & D33)]; [left; exact D3|right; split; [exact D31|]; split; [exact D32|apply (FM _ _ D33); lia]])).
  assert (M4 := MI _ _ ltac:(destruct D4 as [D4|(D41 & D42 & D43)]; [left; exact D4|right; split; [exact D41|]; split; [exact D42|apply (FM _ _ D43); lia]])).
  assert (M5 := MI _ _ ltac:(destruct D5 as [D5|(D51 & D52 & D53)]; [left; exact D5|right; split; [exact D51|]; split; [exact D52|apply (FM _ _ D53); lia]])).
  clear MI FM D2 D3 D4 D5. rewrite SL, CT.
  destruct (_ || missing (it_pet x) p) eqn:BAD.
  - assert (F : failed grant h h5) by (rewrite !orb_true_iff in BAD; destruct M2 as [(M2 & _)|(_ & M2)], M3 as [(M3 & _)|(_ & M3)], M4 as [(M4 & _)|(_ & M4)], M5 as [(M5 & _)|(_ & M5)]; try assumption; exfalso; intuition congruence).
    destruct (free_citem_holds _ _ _ X5) as (h6 & E6 & X6 & L6). rewrite (mbind_ok _ _ _ _ _ E6). cbn [repeat]. rewrite (mbind_ok _ _ _ _ _ (store_at us (repeat zero_item k) zero_item zero_item h6)).
    assert (SAME : with_slots c1 (us ++ zero_item :: repeat zero_item k) (length us) = c1) by (destruct c1; cbn in *; subst; reflexivity). rewrite SAME.
    exists c1, (Some EMemory), h6. split; [reflexivity|]. split; [exact S1|]. split; [exact X6|]. split; [lia|]. right. split; [reflexivity|]. split; [exact V1|]. left. refine (failed_more _ _ _ _ _ _ _ F); lia.
  - rewrite !orb_false_iff in BAD. destruct BAD as (((B2 & B3) & B4) & B5).
    destruct M2 as [(_ & M2)|(M2 & _)]; [|congruence]. destruct M3 as [(_ & M3)|(M3 & _)]; [|congruence]. destruct M4 as [(_ & M4)|(M4 & _)]; [|congruence]. destruct M5 as [(_ & M5)|(M5 & _)]; [|congruence].
    cbn [repeat]. rewrite (mbind_ok _ _ _ _ _ (store_at us (repeat zero_item k) zero_item i h5)). set (c' := with_slots c1 _ _).
    assert (SL' : cl_slots c' = (us ++ [i]) ++ repeat zero_item k) by (unfold c'; cbn [with_slots cl_slots]; rewrite <- app_assoc; reflexivity).
    assert (CT' : cl_count c' = length (us ++ [i])) by (unfold c'; cbn [with_slots cl_count]; rewrite app_length; cbn [length]; lia).
    assert (IU' : in_use c' = us ++ [i]) by exact (unshape _ _ _ SL' CT').
    destruct t as [[tb tt0]|]; [|discriminate]. destruct v as [[vb vv]|]; [|discriminate]. assert (IV : ivalue i = x) by (unfold ivalue, i; cbn [ci_tag ci_value ci_relay ci_pet ci_private whole]; rewrite M4, M5; cbn in M2, M3; destruct x; cbn in *; congruence).
    exists c', None, h5. split; [reflexivity|]. split; [|split; [|split; [lia|]]].
    + apply (shape_sound c' _ _ SL' CT'); [apply Forall_app; split; [exact CO|constructor; [split; discriminate|constructor]]|rewrite app_length; cbn [length]; lia|rewrite app_length; cbn [length]; lia].
    + revert X5. apply holds_perm. unfold lowned. rewrite IU', IU. cbn [c' with_slots cl_self cl_array cl_d cl_title cl_desc cl_image]. lperm.
    + left. split; [reflexivity|]. split; [|lia]. transitivity (with_items (lvalue c1) (nl_items (lvalue c1) ++ [x])); [|rewrite V1; reflexivity]. unfold lvalue, with_items. rewrite IU', IU, map_app. cbn [map nl_items]. rewrite IV. reflexivity.
Qed.
Lemma request_iff o x : request o = Some x <-> asks o x.
Proof.
  split.
  - destruct o; cbn [request]; try discriminate; match goal with |- (if ?b then _ else _) = _ -> _ => destruct b eqn:E; [|discriminate] end; intros G; match type of G with Some ?a = Some ?b => assert (K : b = a) by congruence; rewrite K end; rewrite ?andb_true_iff, ?nonempty_iff in E; unfold is_valid_hex64 in E; rewrite ?valid_hex_iff in E; constructor; tauto.
  - destruct 1; cbn [request]; match goal with |- (if ?b then _ else _) = _ => replace b with true; [reflexivity|] end; symmetry; rewrite ?andb_true_iff, ?nonempty_iff; unfold is_valid_hex64; rewrite ?valid_hex_iff; auto.
Qed.
(** Any change: as C47 specifies, refused for memory only if an allocation failed. *)
Definition answer (x : option err) : res unit := match x with None => Ok tt | Some e => Err e end.
Theorem C126_edit : forall c o srcs h rest, list_sound c -> holds h (lowned c ++ rest) -> incl srcs (lowned c ++ rest) -> ~ In (cl_array c) srcs ->
  exists c' x h', edit grant c o srcs h = Ok ((c', x), h') /\ list_sound c' /\ holds h' (lowned c' ++ rest) /\ h_next h <= h_next h' /\
  exists m its, edits o m (nl_items (lvalue c)) its (answer x) /\ lvalue c' = with_items (lvalue c) its /\ (m <> (true, true) -> failed grant h h').
Proof.
  intros c o srcs h rest S X SRC NA.
  assert (REM : (exists i, o = ORemove i) \/ (forall i, o <> ORemove i)) by (destruct o; try (right; discriminate); left; eauto).
  destruct REM as [(i & ->)|NR].
  - cbn [edit]. destruct (C126_remove c i h rest S X) as (c' & x & h' & E & S' & X' & L' & R). exists c', x, h'. split; [exact E|]. split; [exact S'|]. split; [exact X'|]. split; [lia|].
    destruct R as [(-> & a & y & b & EA & <- & V)|(-> & -> & L)].
    + exists (true, true), (a ++ b). split; [|split; [exact V|congruence]]. rewrite EA. apply EdRemove.
    + exists (true, true), (nl_items (lvalue c)). split; [|split; [reflexivity|congruence]]. apply EdNone. exact L.
  - replace (edit grant c o srcs) with (match request o with Some x => mem_add grant c x srcs | None => mret (c, Some EInvalidParam) end) by (destruct o; try reflexivity; exfalso; eapply NR; reflexivity).
    destruct (request o) as [x|] eqn:RQ.
    + pose proof (proj1 (request_iff _ _) RQ) as AS. destruct (C126_add c x srcs h rest S X SRC NA) as (c' & r & h' & E & S' & X' & L' & R). exists c', r, h'. split; [exact E|]. split; [exact S'|]. split; [exact X'|]. split; [exact L'|].
      destruct R as [(-> & V & L)|(-> & V & [F|L])].
      * exists (true, true), (nl_items (lvalue c) ++ [x]). split; [|split; [exact V|congruence]]. apply EdAdd; assumption.
      * exists (true, false), (nl_items (lvalue c)). split; [|split; [exact V|intros _; exact F]]. apply (EdMemory _ _ _ x); [exact AS|congruence].
      * exists (true, true), (nl_items (lvalue c)). split; [|split; [exact V|congruence]]. apply (EdFull _ _ _ x); assumption.
    + exists c, (Some EInvalidParam), h. split; [reflexivity|]. split; [exact S|]. split; [exact X|]. split; [lia|]. exists (true, true), (nl_items (lvalue c)). split; [|split; [reflexivity|congruence]].
      apply EdBad; [exact NR|]. intros x AS. apply (proj2 (request_iff _ _)) in AS. congruence.
Qed.

(** ** Reading *)
Definition outcome {A} (p : res A) (x : option err) (good : A -> Prop) (out : Prop) : Prop :=
  (x = None /\ exists v, p = Ok v /\ good v) \/ (exists e, x = Some e /\ (p = Err e \/ (e = EMemory /\ out))).
Lemma push_ok l x : (N.of_nat (length l) < 4096)%N -> push_item l x = Ok (l ++ [x]).
Proof. intros L. unfold push_item. pose proof max_is. destruct (Nat.leb_spec MAX_ITEM_COUNT (length l)); [lia|reflexivity]. Qed.
Lemma push_full l x : N.of_nat (length l) = 4096%N -> push_item l x = Err EMemory.
Proof. intros L. unfold push_item. pose proof max_is. destruct (Nat.leb_spec MAX_ITEM_COUNT (length l)); [reflexivity|lia]. Qed.
Lemma add_pure c x h rest : list_sound c -> holds h (lowned c ++ rest) ->
  exists c' r h', mem_add grant c x [] h = Ok ((c', r), h') /\ list_sound c' /\ holds h' (lowned c' ++ rest) /\ h_next h <= h_next h' /\
  outcome (push_item (nl_items (lvalue c)) x) r (fun its => lvalue c' = with_items (lvalue c) its) (failed grant h h').
Proof.
  intros S X. destruct (C126_add c x [] h rest S X ltac:(intros z []) ltac:(intros [])) as (c' & r & h' & E & S' & X' & L' & R). exists c', r, h'. do 4 (split; [assumption|]).
  destruct R as [(-> & V & L)|(-> & V & [F|L])].
  - left. split; [reflexivity|]. rewrite (push_ok _ x L). eauto.
  - right. eauto.
  - right. rewrite (push_full _ x L). eauto.
Qed.
Lemma read_tag_mem c t h rest : list_sound c -> holds h (lowned c ++ rest) ->
  exists c' r h', mem_read_tag grant c t h = Ok ((c', r), h') /\ list_sound c' /\ holds h' (lowned c' ++ rest) /\ h_next h <= h_next h' /\
  outcome (read_tag (lvalue c) t) r (fun l => lvalue c' = l) (failed grant h h').
Proof.
  intros S X.
  assert (SET : forall f v, read_tag (lvalue c) t = Ok (with_text (lvalue c) f (Some v)) ->
    exists c' r h', set_field grant c f (Some (None, v)) h = Ok ((c', r), h') /\ list_sound c' /\ holds h' (lowned c' ++ rest) /\ h_next h <= h_next h' /\ outcome (read_tag (lvalue c) t) r (fun l => lvalue c' = l) (failed grant h h')).
  { intros f v E. destruct (C126_set c f (Some (None, v)) h rest S X ltac:(discriminate)) as (c' & r & h' & E' & S' & X' & L' & R). exists c', r, h'. do 4 (split; [assumption|]). rewrite E.
    destruct R as [(-> & V)|(-> & _ & F)]; [left; eauto|right; eauto]. }
  destruct t as [|n [|v r]]; cbn [mem_read_tag]; [exists c, None, h; do 3 (split; [auto|]); split; [lia|]; left; (split; [reflexivity|]; eexists; split; reflexivity)..|].
  cbn [read_tag] in *. destruct (beq n (bs "d")); [apply SET; reflexivity|]. destruct (beq n (bs "title")); [apply SET; reflexivity|]. destruct (beq n (bs "description")); [apply SET; reflexivity|]. destruct (beq n (bs "image")); [apply SET; reflexivity|].
  destruct (add_pure c (mkItem n v (nth_error r 0) (nth_error r 1) false) h rest S X) as (c' & x & h' & E & S' & X' & L' & R). exists c', x, h'. do 4 (split; [assumption|]).
  destruct R as [(-> & its & P & V)|(e & -> & [P|(-> & F)])].
  - left. split; [reflexivity|]. rewrite P. cbn [bind]. eexists. split; [reflexivity|]. exact V.
  - right. rewrite P. cbn [bind]. eauto.
  - right. eauto.
Qed.
Lemma read_tags_mem ts : forall c h rest, list_sound c -> holds h (lowned c ++ rest) ->
  exists c' r h', mem_read_tags grant c ts h = Ok ((c', r), h') /\ list_sound c' /\ holds h' (lowned c' ++ rest) /\ h_next h <= h_next h' /\
  outcome (read_tags (lvalue c) ts) r (fun l => lvalue c' = l) (failed grant h h').
Proof.
  induction ts as [|t ts IH]; intros c h rest S X; cbn [mem_read_tags read_tags].
  - exists c, None, h. do 3 (split; [auto|]). split; [lia|]. left. eauto.
  - destruct (read_tag_mem c t h rest S X) as (c1 & r1 & h1 & E1 & S1 & X1 & L1 & R1). rewrite (mbind_ok _ _ _ _ _ E1).
    destruct R1 as [(-> & l & P & <-)|(e & -> & R1)].
    + rewrite P. cbn [bind]. destruct (IH c1 h1 rest S1 X1) as (c2 & r2 & h2 & E2 & S2 & X2 & L2 & R2). exists c2, r2, h2. do 3 (split; [assumption|]). split; [lia|].
      destruct R2 as [R2|(e & -> & [P2|(-> & F)])]; [left; exact R2|right; eauto|right]. exists EMemory. split; [reflexivity|]. right. split; [reflexivity|]. refine (failed_more _ _ _ _ _ _ _ F); lia.
    + exists c1, (Some e), h1. do 4 (split; [first [assumption|reflexivity]|]). right. exists e. split; [reflexivity|]. destruct R1 as [P|R1]; [left; rewrite P; reflexivity|right; exact R1].
Qed.
Lemma read_items_mem fuel : forall c s h rest, list_sound c -> holds h (lowned c ++ rest) -> read_items fuel (nl_items (lvalue c)) s <> Undef ->
  exists c' r h', mem_read_items grant fuel c s h = Ok ((c', r), h') /\ list_sound c' /\ holds h' (lowned c' ++ rest) /\ h_next h <= h_next h' /\
  outcome (read_items fuel (nl_items (lvalue c)) s) r (fun its => lvalue c' = with_items (lvalue c) its) (failed grant h h').
Proof.
  induction fuel as [|fuel IH]; intros c s h rest S X; cbn [mem_read_items read_items]; [congruence|].
  assert (STOP : forall (r : option err) p, outcome p r (fun its => lvalue c = with_items (lvalue c) its) (failed grant h h) ->
    exists c' r0 h', @mret (clist * option err) (c, r) h = Ok ((c', r0), h') /\ list_sound c' /\ holds h' (lowned c' ++ rest) /\ h_next h <= h_next h' /\ outcome p r0 (fun its => lvalue c' = with_items (lvalue c) its) (failed grant h h')).
  { intros r p O. exists c, r, h. split; [reflexivity|]. split; [exact S|]. split; [exact X|]. split; [lia|exact O]. }
  assert (DONE : outcome (Ok (nl_items (lvalue c))) None (fun its => lvalue c = with_items (lvalue c) its) (failed grant h h)) by (left; split; [reflexivity|]; eexists; split; reflexivity).
  assert (FAIL : forall e, outcome (@Err (list item) e) (Some e) (fun its => lvalue c = with_items (lvalue c) its) (failed grant h h)) by (intros e; right; eauto).
  intros U. destruct (_ =? 0)%N; [apply STOP, DONE|]. cbv zeta in *. destruct (_ =? 93)%N; [apply STOP, DONE|]. destruct (negb _); [apply STOP, FAIL|].
  destruct (adv (skip_ws s)) as [s2|e|]; cbn [lift bind] in *; [|apply STOP, FAIL|congruence].
  destruct (read_fields _ 0 no_bufs s2) as [(b, s3)|e|]; cbn [lift bind] in *; [|apply STOP, FAIL|congruence].
  set (s4 := if (cur s3 =? 93)%N then skipn 1 s3 else s3) in *. destruct (nonempty (b_tag b) && nonempty (b_value b)).
  - set (x := mkItem _ _ _ _ _) in *. destruct (add_pure c x h rest S X) as (c1 & r1 & h1 & E1 & S1 & X1 & L1 & R1). rewrite (mbind_ok _ _ _ _ _ E1).
    destruct R1 as [(-> & its & P & V)|(e & -> & R1)].
    + rewrite P in U |- *. cbn [bind] in *. assert (EI : its = nl_items (lvalue c1)) by (rewrite V; reflexivity). rewrite EI in U |- *.
      destruct (IH c1 s4 h1 rest S1 X1 U) as (c2 & r2 & h2 & E2 & S2 & X2 & L2 & R2). exists c2, r2, h2. do 3 (split; [assumption|]). split; [lia|].
      destruct R2 as [(-> & its2 & P2 & V2)|(e & -> & [P2|(-> & F)])].
      * left. split; [reflexivity|]. exists its2. split; [exact P2|]. rewrite V2, V. reflexivity.
      * right. eauto.
      * right. exists EMemory. split; [reflexivity|]. right. split; [reflexivity|]. refine (failed_more _ _ _ _ _ _ _ F); lia.
    + exists c1, (Some e), h1. do 4 (split; [first [assumption|reflexivity]|]). right. exists e. split; [reflexivity|]. destruct R1 as [P|R1]; [left; rewrite P; reflexivity|right; exact R1].
  - apply IH; assumption.
Qed.
Lemma parse_private_mem c s h rest : list_sound c -> holds h (lowned c ++ rest) -> parse_private_content s (nl_items (lvalue c)) <> Undef ->
  exists c' r h', mem_parse_private grant c s h = Ok ((c', r), h') /\ list_sound c' /\ holds h' (lowned c' ++ rest) /\ h_next h <= h_next h' /\
  outcome (parse_private_content s (nl_items (lvalue c))) r (fun its => lvalue c' = with_items (lvalue c) its) (failed grant h h').
Proof.
  intros S X. unfold mem_parse_private, parse_private_content. destruct (length s <? 2); [|cbv zeta; destruct (_ =? 0)%N; [|destruct (adv (to_bracket s)) as [p|e|]; cbn [lift bind]]]; intros U.
  - exists c, None, h. do 3 (split; [auto|]). split; [lia|]. left. split; [reflexivity|]. eexists. split; reflexivity.
  - exists c, (Some EJsonParse), h. do 3 (split; [auto|]). split; [lia|]. right. eauto.
  - apply read_items_mem; assumption.
  - exists c, (Some e), h. do 3 (split; [auto|]). split; [lia|]. right. eauto.
  - congruence.
Qed.
Lemma abandon_mem c e h rest : list_sound c -> holds h (lowned c ++ rest) -> exists h', abandon c e h = Ok ((None, Some e), h') /\ holds h' rest /\ h_next h' = h_next h.
Proof. intros S X. destruct (C126_free c h rest S X) as (h1 & E & X1 & L1). exists h1. unfold abandon. rewrite (mbind_ok _ _ _ _ _ E). auto. Qed.
Section Decrypt.
Variable decrypt : list N -> list N -> list N -> res (list N).
(** Reading a list from an event: the list says what C82 has it say and owns its
    blocks, or the variable is empty and nothing is kept. *)
Theorem C126_from_event : forall e keys h rest, holds h rest -> from_event decrypt e keys <> Undef ->
  exists p x h', mem_from_event grant decrypt e keys h = Ok ((p, x), h') /\ h_next h <= h_next h' /\ lsound_opt p /\ holds h' (lowned_opt p ++ rest) /\
  outcome (from_event decrypt e keys) x (fun l => exists c, p = Some c /\ lvalue c = l) (failed grant h h') /\ (x <> None -> p = None).
Proof.
  intros e keys h rest X. unfold mem_from_event, from_event.
  destruct (C126_create (ev_kind e) h rest X) as (p1 & x1 & h1 & E1 & L1 & R1). rewrite (mbind_ok _ _ _ _ _ E1).
  destruct R1 as [(-> & c & -> & S1 & X1 & V1)|(-> & -> & X1 & F)].
  2:{ intros _. exists None, (Some EMemory), h1. split; [reflexivity|]. split; [lia|]. split; [exact I|]. split; [exact X1|]. split; [|reflexivity]. right. eauto. }
  destruct (read_tags_mem (ev_tags e) c h1 rest S1 X1) as (c2 & r2 & h2 & E2 & S2 & X2 & L2 & R2). rewrite (mbind_ok _ _ _ _ _ E2). rewrite V1 in R2. clear V1.
  assert (STOP : forall ca x ha p, list_sound ca -> holds ha (lowned ca ++ rest) -> h_next h <= h_next ha -> (p = Err x \/ x = EMemory /\ failed grant h ha) ->
    exists q y h', abandon ca x ha = Ok ((q, y), h') /\ h_next h <= h_next h' /\ lsound_opt q /\ holds h' (lowned_opt q ++ rest) /\ @outcome nlist p y (fun l => exists c, q = Some c /\ lvalue c = l) (failed grant h h') /\ (y <> None -> q = None)).
  { intros ca x ha p Sa Xa La Ra. destruct (abandon_mem ca x ha rest Sa Xa) as (h' & E & X' & L'). exists None, (Some x), h'. split; [exact E|]. split; [lia|]. split; [exact I|]. split; [exact X'|]. split; [|reflexivity].
    right. exists x. split; [reflexivity|]. destruct Ra as [Ra|(Ra & F)]; [left; exact Ra|right; split; [exact Ra|]]. refine (failed_more _ _ _ _ _ _ _ F); lia. }
  destruct R2 as [(-> & l & P & V2)|(x & -> & R2)].
  2:{ intros _. apply STOP; [exact S2|exact X2|lia|]. destruct R2 as [P|(-> & F)]; [left; rewrite P; reflexivity|right; split; [reflexivity|]]. refine (failed_more _ _ _ _ _ _ _ F); lia. }
  subst l. rewrite P. cbn [bind]. clear P.
  assert (KEEP : forall p, p = Ok (lvalue c2) -> p <> Undef -> exists q y h', @mret (option clist * option err) (Some c2, None) h2 = Ok ((q, y), h') /\ h_next h <= h_next h' /\ lsound_opt q /\ holds h' (lowned_opt q ++ rest) /\
    @outcome nlist p y (fun l => exists c, q = Some c /\ lvalue c = l) (failed grant h h') /\ (y <> None -> q = None)).
  { intros p -> _. exists (Some c2), None, h2. split; [reflexivity|]. split; [lia|]. split; [exact S2|]. split; [exact X2|]. split; [|congruence]. left. eauto 6. }
  destruct (ev_content e) as [[|b r]|]; [apply KEEP; reflexivity| |apply KEEP; reflexivity]. destruct keys as [(sk, pk)|]; [|apply KEEP; reflexivity]. clear KEEP.
  destruct (decrypt sk pk (b :: r)) as [t|x|]; cbn [bind]; [|intros _; apply STOP; [exact S2|exact X2|lia|left; reflexivity]|congruence].
  destruct (ealloc_cases grant h2 _ X2) as [(q & h3 & E3 & X3 & L3)|(h3 & E3 & X3 & L3 & F)]; rewrite (mbind_ok _ _ _ _ _ E3); intros U.
  2:{ apply STOP; [exact S2|exact X3|lia|]. right. split; [reflexivity|]. refine (failed_more _ _ _ _ _ _ _ F); lia. }
  rewrite (mbind_ok _ _ _ _ _ (use_holds q h3 _ X3 ltac:(left; reflexivity))).
  apply (holds_perm _ _ (lowned c2 ++ q :: rest)) in X3; [|apply Permutation_middle].
  destruct (parse_private_mem c2 (until_nul t) h3 _ S2 X3) as (c4 & r4 & h4 & E4 & S4 & X4 & L4 & R4); [intros K; rewrite K in U; cbn in U; congruence|]. rewrite (mbind_ok _ _ _ _ _ E4).
  apply (holds_perm _ _ (q :: lowned c4 ++ rest)) in X4; [|symmetry; apply Permutation_middle]. destruct (free_holds _ _ _ X4) as (h5 & E5 & X5 & L5). rewrite (mbind_ok _ _ _ _ _ E5).
  destruct R4 as [(-> & its & P & V4)|(x & -> & R4)].
  - exists (Some c4), None, h5. split; [reflexivity|]. split; [lia|]. split; [exact S4|]. split; [exact X5|]. split; [|congruence]. left. split; [reflexivity|]. rewrite P. cbn [bind]. eexists. split; [reflexivity|]. exists c4. split; [reflexivity|]. rewrite V4. reflexivity.
  - apply STOP; [exact S4|exact X5|lia|]. destruct R4 as [P|(-> & F)]; [left; rewrite P; reflexivity|right; split; [reflexivity|]]. refine (failed_more _ _ _ _ _ _ _ F); lia.
Qed.
(** Any program with one list: never undefined, and the live blocks are the list's. *)
Definition lreadable (o : lop) : Prop := match o with LRead e keys => from_event decrypt e keys <> Undef | _ => True end.
Lemma lstep_ok v o h rest : lsound_opt v -> holds h (lowned_opt v ++ rest) -> lforeign rest o -> lreadable o ->
  exists v' h', lstep grant decrypt v o h = Ok (v', h') /\ lsound_opt v' /\ holds h' (lowned_opt v' ++ rest).
Proof.
  intros S X FO RD. assert (FREE : exists h', list_free v h = Ok (tt, h') /\ holds h' rest) by (destruct v as [c|]; [destruct (C126_free c h rest S X) as (h1 & E & X1 & _); eauto|exists h; split; [reflexivity|exact X]]).
  destruct o as [k|e keys|f a|o srcs|]; cbn [lstep].
  - destruct v as [c|]; [exists (Some c), h; auto|]. destruct (C126_create k h rest X) as (p & x & h1 & E & _ & R). rewrite (mbind_ok _ _ _ _ _ E). exists p, h1. split; [reflexivity|].
    destruct R as [(_ & c & -> & S1 & X1 & _)|(_ & -> & X1 & _)]; (split; [first [exact S1|exact I]|exact X1]).
  - destruct v as [c|]; [exists (Some c), h; auto|]. destruct (C126_from_event e keys h rest X RD) as (p & x & h1 & E & _ & S1 & X1 & _). rewrite (mbind_ok _ _ _ _ _ E). exists p, h1. auto.
  - destruct v as [c|]; [|exists None, h; auto]. cbn [lsound_opt lowned_opt lforeign] in *.
    destruct (C126_set c f a h rest S X) as (c1 & x & h1 & E & S1 & X1 & _).
    { intros b t ->. split; [apply in_or_app; right; exact FO|]. intros J. destruct X as [(ND & _) PM]. apply (Permutation_NoDup PM) in ND.
      assert (K : In b (lowned c)) by (unfold lowned; right; right; destruct f; cbn [get_field] in J; rewrite !in_app_iff; tauto). revert ND K FO. clear. generalize (lowned c). induction l as [|z l IH]; [intros _ []|]. cbn [app]. intros ND [ -> |K] FO; inversion ND; subst; [apply H1, in_or_app; auto|auto]. }
    rewrite (mbind_ok _ _ _ _ _ E). exists (Some c1), h1. auto.
  - destruct v as [c|]; [|exists None, h; auto]. cbn [lsound_opt lowned_opt lforeign] in *.
    destruct (C126_edit c o srcs h rest S X) as (c1 & x & h1 & E & S1 & X1 & _).
    { intros z Z. apply in_or_app. right. apply FO, Z. }
    { intros J. apply FO in J. destruct X as [(ND & _) PM]. apply (Permutation_NoDup PM) in ND. unfold lowned in ND. cbn [app] in ND. inversion_clear ND as [|? ? _ ND']. inversion_clear ND' as [|? ? N1 _]. apply N1, in_or_app. right. exact J. }
    rewrite (mbind_ok _ _ _ _ _ E). exists (Some c1), h1. auto.
  - destruct FREE as (h1 & E & X1). destruct v as [c|]; rewrite (mbind_ok _ _ _ _ _ E); exists None, h1; (split; [reflexivity|]; split; [exact I|exact X1]).
Qed.
Theorem C126_run : forall os v h rest, lsound_opt v -> holds h (lowned_opt v ++ rest) -> Forall (lforeign rest) os -> Forall lreadable os ->
  exists v' h', lrun grant decrypt v os h = Ok (v', h') /\ lsound_opt v' /\ holds h' (lowned_opt v' ++ rest).
Proof.
  induction os as [|o os IH]; intros v h rest S X FO RD; cbn [lrun]; [exists v, h; auto|]. inversion_clear FO. inversion_clear RD.
  destruct (lstep_ok v o h rest S X) as (v1 & h1 & E & S1 & X1); [assumption..|]. rewrite (mbind_ok _ _ _ _ _ E). apply IH; assumption.
Qed.
(** ... so that releasing it at the end leaves nothing behind. *)
Corollary C126_no_leak : forall os h, holds h [] -> Forall (lforeign []) os -> Forall lreadable os ->
  exists h', lrun grant decrypt None (os ++ [LFree]) h = Ok (None, h') /\ h_live h' = [].
Proof.
  intros os h X FO RD. assert (G : forall os v h, lsound_opt v -> holds h (lowned_opt v ++ []) -> Forall (lforeign []) os -> Forall lreadable os -> exists h', lrun grant decrypt v (os ++ [LFree]) h = Ok (None, h') /\ h_live h' = []).
  { clear. induction os as [|o os IH]; intros v h S X FO RD; cbn [lrun app].
    - destruct v as [c|]; cbn [lstep].
      + destruct (C126_free c h [] S X) as (h1 & E & (_ & X1) & _). rewrite (mbind_ok _ _ _ _ _ (mbind_ok _ _ _ _ _ E)). exists h1. split; [reflexivity|]. apply Permutation_nil. symmetry. exact X1.
      + exists h. split; [reflexivity|]. destruct X as (_ & X). apply Permutation_nil. symmetry. exact X.
    - inversion_clear FO. inversion_clear RD. destruct (lstep_ok v o h [] S X) as (v1 & h1 & E & S1 & X1); [assumption..|]. rewrite (mbind_ok _ _ _ _ _ E). apply IH; assumption. }
  apply (G os None h I X FO RD).
Qed.
End Decrypt.

(** ** Publishing *)
Section Publish.
Variable lim : option ev_limits.
Variable encrypt : list N -> list N -> option (list N) -> list N -> res (list N).
Lemma read_opt_ok c h l : holds h l -> incl (cb c) l -> read_opt c h = Ok (text c, h).
Proof. intros X I. destruct c as [(b, t)|]; [|reflexivity]. unfold read_opt, read_cell, mbind. rewrite (use_holds b h l X (I b ltac:(left; reflexivity))). reflexivity. Qed.
Lemma read_cell_ok c h l : holds h l -> incl (cb c) l -> c <> None -> read_cell c h = Ok (whole c, h).
Proof. intros X I NN. destruct c as [(b, t)|]; [|congruence]. unfold read_cell, mbind. rewrite (use_holds b h l X (I b ltac:(left; reflexivity))). reflexivity. Qed.
Lemma load_ok a us : forall r h l, holds h l -> In a l -> incl (flat_map iblocks us) l -> Forall complete us -> load a (length us) (us ++ r) h = Ok (map ivalue us, h).
Proof.
  induction us as [|x us IH]; intros r h l X IA IN CO; cbn [length app load map]; [reflexivity|]. inversion_clear CO as [|? ? (C1 & C2) CO']. cbn [flat_map] in IN. assert (IX : incl (iblocks x) l) by (intros z Z; apply IN, in_or_app; left; exact Z).
  rewrite (mbind_ok _ _ _ _ _ (use_holds a h l X IA)).
  rewrite (mbind_ok _ _ _ _ _ (read_cell_ok (ci_tag x) h l X ltac:(intros z Z; apply IX; unfold iblocks; rewrite !in_app_iff; tauto) C1)).
  rewrite (mbind_ok _ _ _ _ _ (read_cell_ok (ci_value x) h l X ltac:(intros z Z; apply IX; unfold iblocks; rewrite !in_app_iff; tauto) C2)).
  rewrite (mbind_ok _ _ _ _ _ (read_opt_ok (ci_relay x) h l X ltac:(intros z Z; apply IX; unfold iblocks; rewrite !in_app_iff; tauto))).
  rewrite (mbind_ok _ _ _ _ _ (read_opt_ok (ci_pet x) h l X ltac:(intros z Z; apply IX; unfold iblocks; rewrite !in_app_iff; tauto))).
  rewrite (mbind_ok _ _ _ _ _ (IH r h l X IA ltac:(intros z Z; apply IN, in_or_app; right; exact Z) CO')). reflexivity.
Qed.
Lemma load_list c h rest : list_sound c -> holds h (lowned c ++ rest) -> load (cl_array c) (cl_count c) (cl_slots c) h = Ok (nl_items (lvalue c), h).
Proof.
  intros S X. destruct (shape c S) as (us & k & SL & CT & IU & CO). cbn [lvalue nl_items]. rewrite IU, SL, CT. apply (load_ok _ us _ h _ X); [right; left; reflexivity| |exact CO].
  intros z Z. unfold lowned. rewrite IU. apply in_or_app. left. right. right. apply in_or_app. left. exact Z.
Qed.
Fixpoint add_all (e : event) (ts : list (list (list N))) : res event :=
  match ts with [] => Ok e | t :: r => do e' <- GiftWrap.add_tag lim e t; add_all e' r end.
Lemma add_all_app ts us : forall e, add_all e (ts ++ us) = (do e' <- add_all e ts; add_all e' us).
Proof. induction ts as [|t ts IH]; intros e; cbn [app add_all bind]; [reflexivity|]. destruct (GiftWrap.add_tag lim e t); cbn [bind]; auto. Qed.
Lemma add_public_all its : forall e, add_public lim e its = add_all e (map item_tag (filter (fun x => negb (it_private x)) its)).
Proof. induction its as [|x its IH]; intros e; cbn [add_public filter map]; [reflexivity|]. destruct (it_private x); cbn [negb map add_all]; [apply IH|]. destruct (GiftWrap.add_tag lim e (item_tag x)); cbn [bind]; auto. Qed.
Lemma bind_assoc {A B C} (r : res A) (f : A -> res B) (g : B -> res C) : (do y <- (do x <- r; f x); g y) = (do x <- r; do y <- f x; g y).
Proof. destruct r; reflexivity. Qed.
Lemma add_all_one e t : add_all e [t] = GiftWrap.add_tag lim e t.
Proof. cbn [add_all]. destruct (GiftWrap.add_tag lim e t); reflexivity. Qed.
Definition ltags (l : nlist) : list (list (list N)) := tags_of (nl_kind l) (nl_d l) (nl_title l) (nl_desc l) (nl_image l) (nl_items l).
Lemma to_event_all l keys nonce now : Nip51.to_event lim encrypt l keys nonce now =
  match (0 <? count_private (nl_items l)), keys with
  | true, None => Err EInvalidParam
  | _, _ =>
    do e2 <- add_all (mkEvent (repeat 0%N 32) (repeat 0%N 32) now (nl_kind l) [] None (repeat 0%N 64)) (ltags l);
    match (0 <? count_private (nl_items l)), keys with
    | true, Some (sk, pk) => do t <- build_private_content (nl_items l); do c <- encrypt sk pk nonce t; Ok (Nip51.set_content e2 c)
    | _, _ => Ok (Nip51.set_content e2 [])
    end
  end.
Proof.
  assert (OPT : forall e n v, opt_tag lim e n v = add_all e (match v with Some t => [[n; t]] | None => [] end)) by (intros e n [v|]; [rewrite add_all_one; reflexivity|reflexivity]).
  assert (K : forall (e : event) (g : event -> res event),
    (do e1 <- (if is_parameterized (nl_kind l) then
                do x1 <- GiftWrap.add_tag lim e [bs "d"; match nl_d l with Some d => d | None => [] end];
                do x2 <- opt_tag lim x1 (bs "title") (nl_title l);
                do x3 <- opt_tag lim x2 (bs "description") (nl_desc l);
                opt_tag lim x3 (bs "image") (nl_image l)
              else Ok e);
     do e2 <- add_public lim e1 (nl_items l); g e2) = (do e2 <- add_all e (ltags l); g e2)).
  { intros e g. unfold ltags, tags_of. rewrite add_all_app, bind_assoc. destruct (is_parameterized (nl_kind l)).
    - rewrite !add_all_app, add_all_one, !bind_assoc. destruct (GiftWrap.add_tag _ _ _) as [e1| |]; cbn [bind]; [|reflexivity..]. rewrite OPT, add_all_app, !bind_assoc. destruct (add_all e1 _) as [e2| |]; cbn [bind]; [|reflexivity..].
      rewrite OPT, add_all_app, !bind_assoc. destruct (add_all e2 _) as [e3| |]; cbn [bind]; [|reflexivity..]. rewrite OPT. destruct (add_all e3 _) as [e4| |]; cbn [bind]; [|reflexivity..]. rewrite add_public_all. reflexivity.
    - cbn [add_all bind]. rewrite add_public_all. reflexivity. }
  unfold Nip51.to_event. cbv zeta. destruct (0 <? count_private (nl_items l)), keys as [(sk, pk)|]; try apply K; reflexivity.
Qed.
Lemma ltags_nonempty l : Forall (fun t => t <> []) (ltags l).
Proof.
  unfold ltags, tags_of. apply Forall_app. split.
  - destruct (is_parameterized (nl_kind l)); [|constructor]. destruct (nl_title l), (nl_desc l), (nl_image l); repeat constructor; discriminate.
  - apply Forall_forall. intros t T. apply in_map_iff in T as (x & <- & _). discriminate.
Qed.
Lemma add_tags_mem ts : forall ev h rest, event_sound ev -> holds h (owned ev ++ rest) -> Forall (fun t => t <> []) ts ->
  exists ev' x h', mem_add_tags grant lim ev ts h = Ok ((ev', x), h') /\ event_sound ev' /\ holds h' (owned ev' ++ rest) /\ h_next h <= h_next h' /\
  ((x = None /\ add_all (ce_val ev) ts = Ok (ce_val ev')) \/
   (exists e, x = Some e /\ (add_all (ce_val ev) ts = Err e \/ failed grant h h' \/ (2 ^ 62 < ce_used ev + tags_space ts)%N))).
Proof.
  induction ts as [|t ts IH]; intros ev h rest S X NE; cbn [mem_add_tags add_all].
  - exists ev, None, h. do 3 (split; [auto|]). split; [lia|]. left. auto.
  - inversion_clear NE as [|? ? NE1 NE2]. destruct (C107_tag grant lim ev t h rest S X) as (c1 & x1 & h1 & E1 & S1 & X1 & L1 & R1 & U1). rewrite (mbind_ok _ _ _ _ _ E1). cbn [tags_space fold_right] in *. fold (tags_space ts).
    destruct R1 as [(-> & V1 & _ & NF)|[(-> & V1 & B)|(-> & V1 & B)]].
    + assert (P : GiftWrap.add_tag lim (ce_val ev) t = Ok (ce_val c1)).
      { rewrite V1. unfold GiftWrap.add_tag, tagged. destruct lim as [l|]; [|reflexivity]. destruct (N.leb_spec (max_tags l) (N.of_nat (length (ev_tags (ce_val ev))))) as [G|G]; [|reflexivity]. exfalso. apply NF. exists l. auto. }
      rewrite P. cbn [bind]. destruct (IH c1 h1 rest S1 X1 NE2) as (c2 & x2 & h2 & E2 & S2 & X2 & L2 & R2). exists c2, x2, h2. do 3 (split; [assumption|]). split; [lia|].
      specialize (U1 eq_refl). destruct R2 as [R2|(e & -> & [P2|[F|B]])]; [left; exact R2|right; eauto|right; exists e; split; [reflexivity|]; right..].
      * left. refine (failed_more _ _ _ _ _ _ _ F); lia.
      * right. lia.
    + exists c1, (Some EInvalidParam), h1. do 3 (split; [first [reflexivity|assumption]|]). split; [exact L1|]. right. exists EInvalidParam. split; [reflexivity|]. destruct B as [B|[(l & EL & B)|B]]; [contradiction| |right; right; lia].
      left. unfold GiftWrap.add_tag. rewrite EL. destruct (N.leb_spec (max_tags l) (N.of_nat (length (ev_tags (ce_val ev))))); [reflexivity|lia].
    + exists c1, (Some EMemory), h1. do 3 (split; [first [reflexivity|assumption]|]). split; [exact L1|]. right. exists EMemory. split; [reflexivity|]. right. destruct B as [B|B]; [left; exact B|right; lia].
Qed.
Lemma create_used now h c h' : event_create grant now h = Ok ((Some c, None), h') -> ce_used c = 0%N.
Proof.
  unfold event_create, arena_create, mbind, mret. destruct (ealloc grant h) as [([s|], h1)| |]; try congruence. destruct (ealloc grant h1) as [([a|], h2)| |]; try congruence.
  - destruct (ealloc grant h2) as [([m|], h3)| |]; try congruence.
    + destruct (huse (Some s) h3) as [(?, h4)| |]; try congruence. intros K. assert (K2 : c = mkCe s a m 1024 0 None None (blank now)) by congruence. rewrite K2. reflexivity.
    + destruct (hfree (Some a) h3) as [(?, h4)| |]; try congruence. destruct (hfree (Some s) h4) as [(?, h5)| |]; congruence.
  - destruct (hfree (Some s) h2) as [(?, h3)| |]; congruence.
Qed.
(** Publishing: the event is the one C48 describes and owns its blocks, the list keeps
    its own; or nothing is added. *)
Theorem C126_to_event : forall c keys nonce now lit h rest, list_sound c -> holds h (lowned c ++ rest) -> In lit rest -> Nip51.to_event lim encrypt (lvalue c) keys nonce now <> Undef ->
  exists p x h', mem_to_event grant encrypt lim c keys nonce now lit h = Ok ((p, x), h') /\ h_next h <= h_next h' /\
  ((x = None /\ exists ev, p = Some ev /\ event_sound ev /\ holds h' (owned ev ++ lowned c ++ rest) /\ Nip51.to_event lim encrypt (lvalue c) keys nonce now = Ok (ce_val ev)) \/
   (exists e, x = Some e /\ holds h' (lowned c ++ rest) /\
      (Nip51.to_event lim encrypt (lvalue c) keys nonce now = Err e \/ failed grant h h' \/ (2 ^ 62 < tags_space (ltags (lvalue c)))%N))).
Proof.
  intros c keys nonce now lit h rest S X IL. rewrite to_event_all. unfold mem_to_event. rewrite (mbind_ok _ _ _ _ _ (use_holds (cl_self c) h _ X ltac:(left; reflexivity))). rewrite (mbind_ok _ _ _ _ _ (load_list c h rest S X)). cbv zeta.
  set (its := nl_items (lvalue c)). set (pure := add_all _ _). set (goal := fun (m : M (option cevent * option err)) (ha : heap) (p : res event) => exists q x h', m ha = Ok ((q, x), h') /\ h_next h <= h_next h' /\
    ((x = None /\ exists ev, q = Some ev /\ event_sound ev /\ holds h' (owned ev ++ lowned c ++ rest) /\ p = Ok (ce_val ev)) \/
     (exists e, x = Some e /\ holds h' (lowned c ++ rest) /\ (p = Err e \/ failed grant h h' \/ (2 ^ 62 < tags_space (ltags (lvalue c)))%N)))).
  assert (DROP : forall ev e ha p, event_sound ev -> holds ha (owned ev ++ lowned c ++ rest) -> h_next h <= h_next ha -> (p = Err e \/ failed grant h ha \/ (2 ^ 62 < tags_space (ltags (lvalue c)))%N) -> goal (discard ev e) ha p).
  { intros ev e ha p SE Xa La R. destruct (C107_destroy ev ha _ Xa) as (h' & E & X' & L'). exists None, (Some e), h'. unfold discard. rewrite (mbind_ok _ _ _ _ _ E). split; [reflexivity|]. split; [lia|]. right. exists e. split; [reflexivity|]. split; [exact X'|].
    destruct R as [R|[R|R]]; [left; exact R|right; left|right; right; exact R]. refine (failed_more _ _ _ _ _ _ _ R); lia. }
  assert (BODY : forall kont pk, (do e2 <- pure; pk e2) <> Undef ->
    (forall ev ha, event_sound ev -> holds ha (owned ev ++ lowned c ++ rest) -> h_next h <= h_next ha -> pk (ce_val ev) <> Undef -> goal (kont ev) ha (pk (ce_val ev))) ->
    goal (let! x := event_create grant now in
      match x with
      | (Some ev, None) =>
        let e := ce_val ev in
        let ev := with_val ev (mkEvent (ev_id e) (ev_pubkey e) now (cl_kind c) (ev_tags e) (ev_content e) (ev_sig e)) in
        let! d := read_opt (cl_d c) in
        let! title := read_opt (cl_title c) in
        let! desc := read_opt (cl_desc c) in
        let! image := read_opt (cl_image c) in
        let! y := mem_add_tags grant lim ev (tags_of (cl_kind c) d title desc image its) in
        match y with (ev, Some x) => discard ev x | (ev, None) => kont ev end
      | _ => mret x
      end) h (do e2 <- pure; pk e2)).
  { intros kont pk U G. unfold goal. destruct (C107_create grant now h _ X) as (p1 & x1 & h1 & E1 & L1 & R1). rewrite (mbind_ok _ _ _ _ _ E1).
    destruct R1 as [(-> & ev & -> & S1 & X1 & V1)|(-> & X1 & F)].
    2:{ exists p1, (Some EMemory), h1. split; [destruct p1; reflexivity|]. split; [exact L1|]. right. exists EMemory. auto. }
    cbv zeta. rewrite V1. cbn [ev_id ev_pubkey ev_tags ev_content ev_sig]. set (ev0 := with_val ev _). pose proof (create_used _ _ _ _ E1) as U0.
    assert (S0 : event_sound ev0) by (destruct S1 as [A1 A2 A3 A4]; rewrite V1 in A1, A2; constructor; assumption).
    assert (RD : forall x, incl (cb x) (cb (cl_d c) ++ cb (cl_title c) ++ cb (cl_desc c) ++ cb (cl_image c)) -> read_opt x h1 = Ok (text x, h1)).
    { intros x I. apply (read_opt_ok x h1 _ X1). intros z Z. apply in_or_app. right. apply in_or_app. left. right. right. apply in_or_app. right. apply I, Z. }
    rewrite (mbind_ok _ _ _ _ _ (RD (cl_d c) ltac:(intros z Z; rewrite !in_app_iff; tauto))), (mbind_ok _ _ _ _ _ (RD (cl_title c) ltac:(intros z Z; rewrite !in_app_iff; tauto))).
    rewrite (mbind_ok _ _ _ _ _ (RD (cl_desc c) ltac:(intros z Z; rewrite !in_app_iff; tauto))), (mbind_ok _ _ _ _ _ (RD (cl_image c) ltac:(intros z Z; rewrite !in_app_iff; tauto))). clear RD.
    change (tags_of _ _ _ _ _ _) with (ltags (lvalue c)).
    destruct (add_tags_mem (ltags (lvalue c)) ev0 h1 (lowned c ++ rest) S0 X1 (ltags_nonempty _)) as (ev2 & x2 & h2 & E2 & S2 & X2 & L2 & R2). rewrite (mbind_ok _ _ _ _ _ E2).
    change (add_all (ce_val ev0) (ltags (lvalue c))) with pure in R2. change (ce_used ev0) with (ce_used ev) in R2. rewrite U0 in R2.
    destruct R2 as [(-> & P)|(e & -> & R2)].
    - rewrite P in U |- *. cbn [bind] in *. apply G; [exact S2|exact X2|lia|exact U].
    - apply (DROP ev2 e h2 _ S2 X2); [lia|]. destruct R2 as [P|[F|B]]; [left; rewrite P; reflexivity|right; left|right; right; exact B]. refine (failed_more _ _ _ _ _ _ _ F); lia. }
  assert (KEEP : forall ev z ha src t, event_sound ev -> holds ha (owned ev ++ z ++ lowned c ++ rest) -> (z = [] /\ src = lit \/ z = [src]) -> h_next h <= h_next ha ->
    goal (let! y := EventMem.set_content grant ev src t in let! _ := (match z with [q] => hfree (Some q) | _ => mret tt end) in keep y) ha (Ok (Nip51.set_content (ce_val ev) t))).
  { intros ev z ha src t SE Xa Z La. unfold goal. destruct (C107_content grant ev src t ha _ SE Xa) as (ev' & x & h1 & E & S1 & X1 & L1 & R).
    { destruct Z as [( -> & -> )| -> ]; [cbn [app]; apply in_or_app; right; exact IL|left; reflexivity]. }
    rewrite (mbind_ok _ _ _ _ _ E).
    assert (FR : exists h2, (match z with [q] => hfree (Some q) | _ => mret tt end) h1 = Ok (tt, h2) /\ holds h2 (owned ev' ++ lowned c ++ rest) /\ h_next h2 = h_next h1).
    { destruct Z as [( -> & _)| -> ]; [exists h1; auto|]. apply free_holds. revert X1. apply holds_perm. cbn [app]. symmetry. apply Permutation_middle. }
    destruct FR as (h2 & E2 & X2 & L2). rewrite (mbind_ok _ _ _ _ _ E2). destruct R as [(-> & V)|(-> & V & F)]; cbn [keep].
    - exists (Some ev'), None, h2. split; [reflexivity|]. split; [lia|]. left. split; [reflexivity|]. exists ev'. do 3 (split; [first [reflexivity|assumption]|]). rewrite V. reflexivity.
    - apply DROP; [exact S1|exact X2|lia|]. right. left. refine (failed_more _ _ _ _ _ _ _ F); lia. }
  assert (EMPTY : forall ev ha, event_sound ev -> holds ha (owned ev ++ lowned c ++ rest) -> h_next h <= h_next ha ->
    goal (let! z := EventMem.set_content grant ev lit [] in keep z) ha (Ok (Nip51.set_content (ce_val ev) []))) by (intros ev ha SE Xa La; apply (KEEP ev [] ha lit []); auto).
  destruct (0 <? count_private its).
  - destruct keys as [(sk, pk)|].
    2:{ intros _. exists None, (Some EInvalidParam), h. split; [reflexivity|]. split; [lia|]. right. exists EInvalidParam. auto. }
    intros U. refine (BODY _ (fun e2 => do t <- build_private_content its; do ct <- encrypt sk pk nonce t; Ok (Nip51.set_content e2 ct)) U _).
    clear U. intros ev ha SE Xa La U. destruct (build_private_content its) as [t|e|]; cbn [bind] in *; [|apply DROP; auto|congruence].
    destruct (ealloc_cases grant ha _ Xa) as [(j & h1 & E1 & X1 & L1)|(h1 & E1 & X1 & L1 & F)]; unfold goal; rewrite (mbind_ok _ _ _ _ _ E1).
    2:{ apply DROP; [exact SE|exact X1|lia|]. right. left. refine (failed_more _ _ _ _ _ _ _ F); lia. }
    rewrite (mbind_ok _ _ _ _ _ (use_holds j h1 _ X1 ltac:(left; reflexivity))). destruct (encrypt sk pk nonce t) as [ct|e|]; cbn [bind] in *; [| |congruence].
    2:{ destruct (free_holds _ _ _ X1) as (h2 & E2 & X2 & L2). rewrite (mbind_ok _ _ _ _ _ E2). apply DROP; [exact SE|exact X2|lia|left; reflexivity]. }
    destruct (ealloc_cases grant h1 _ X1) as [(q & h2 & E2 & X2 & L2)|(h2 & E2 & X2 & L2 & F)]; rewrite (mbind_ok _ _ _ _ _ E2).
    2:{ destruct (free_holds _ _ _ X2) as (h3 & E3 & X3 & L3). rewrite (mbind_ok _ _ _ _ _ E3). apply DROP; [exact SE|exact X3|lia|]. right. left. refine (failed_more _ _ _ _ _ _ _ F); lia. }
    apply (holds_perm _ _ (j :: q :: owned ev ++ lowned c ++ rest)) in X2; [|apply perm_swap]. destruct (free_holds _ _ _ X2) as (h3 & E3 & X3 & L3). rewrite (mbind_ok _ _ _ _ _ E3).
    apply (KEEP ev [q] h3 q ct); [exact SE| |right; reflexivity|lia]. revert X3. apply holds_perm. cbn [app]. apply Permutation_middle.
  - intros U. destruct keys as [(sk, pk)|]; refine (BODY _ (fun e2 => Ok (Nip51.set_content e2 [])) U _); intros ev ha SE Xa La _; apply EMPTY; assumption.
Qed.
End Publish.
End Grant.

(** * C127 *)
(** Adding and removing: a failing call leaves the list as it was, and what is added may
    be the list's own texts; a failing reading leaves the variable empty. *)
Theorem C127_partial : forall grant c h rest, list_sound c -> holds h (lowned c ++ rest) ->
  (forall o srcs, incl srcs (flat_map iblocks (in_use c) ++ cb (cl_d c) ++ cb (cl_title c) ++ cb (cl_desc c) ++ cb (cl_image c)) ->
     exists c' x h', edit grant c o srcs h = Ok ((c', x), h') /\ (x <> None -> lvalue c' = lvalue c)) /\
  (forall decrypt e keys, from_event decrypt e keys <> Undef -> exists p x h', mem_from_event grant decrypt e keys h = Ok ((p, x), h') /\ (x <> None -> p = None)).
Proof.
  intros grant c h rest S X. split.
  - intros o srcs SRC. destruct (C126_edit grant c o srcs h rest S X) as (c' & x & h' & E & _ & _ & _ & m & its & ED & V & _).
    + intros b B. apply in_or_app. left. right. right. apply SRC, B.
    + intros B. apply SRC in B. destruct X as [(ND & _) PM]. apply (Permutation_NoDup PM) in ND. unfold lowned in ND. cbn [app] in ND. inversion_clear ND as [|? ? _ ND']. inversion_clear ND' as [|? ? N1 _]. apply N1, in_or_app. left. exact B.
    + exists c', x, h'. split; [exact E|]. intros N0. rewrite V. destruct x as [e|]; [|congruence]. inversion ED; subst; reflexivity.
  - intros decrypt e keys U. destruct (C126_from_event grant decrypt e keys h _ X U) as (p & x & h' & E & _ & _ & _ & _ & NP). exists p, x, h'. split; [exact E|exact NP].
Qed.
(** Setting a text from the list's own copy of it reads a released block. *)
Theorem C127_alias_refuted : ~ (forall grant c f b t h, list_sound c -> holds h (lowned c) -> get_field c f = Some (b, t) -> set_field grant c f (Some (Some b, t)) h <> Undef).
Proof.
  intros G. apply (G (fun _ => true) (mkCl 0 30003 1 (repeat zero_item 16) 0 None (Some (2, bs "x")) None None) FTitle 2 (bs "x") (mkHeap 3 [0; 1; 2])).
  - apply (shape_sound _ [] 16); [reflexivity|reflexivity|apply Forall_nil|cbn; lia|cbn; lia].
  - split; [|cbn; apply Permutation_refl]. split; cbn; [repeat constructor; cbn; intuition lia|repeat constructor; lia].
  - reflexivity.
  - vm_compute. reflexivity.
Qed.
(** A call that fails for want of memory does not leave the list as it was: the old text
    is gone. *)
Theorem C127_set_refuted : ~ (forall grant c f v h rest, list_sound c -> holds h (lowned c ++ rest) ->
  forall c' e h', set_field grant c f (Some (None, v)) h = Ok ((c', Some e), h') -> lvalue c' = lvalue c).
Proof.
  intros G. set (c := mkCl 0 30003 1 (repeat zero_item 16) 0 None (Some (2, bs "x")) None None).
  assert (S : list_sound c) by (apply (shape_sound _ [] 16); [reflexivity|reflexivity|apply Forall_nil|cbn; lia|cbn; lia]).
  assert (X : holds (mkHeap 3 [0; 1; 2]) (lowned c ++ [])) by (split; [split; cbn; [repeat constructor; cbn; intuition lia|repeat constructor; lia]|cbn; apply Permutation_refl]).
  pose proof (G (fun _ => false) c FTitle (bs "y") _ [] S X (with_field c FTitle None) EMemory (mkHeap 4 [0; 1])) as K. specialize (K ltac:(vm_compute; reflexivity)). apply (f_equal nl_title) in K. discriminate.
Qed.
(** A failing publication may leave the released event in the caller's variable. *)
Theorem C127_to_event_refuted : ~ (forall grant encrypt lim c keys nonce now lit h rest, list_sound c -> holds h (lowned c ++ rest) -> In lit rest ->
  forall p e h', mem_to_event grant encrypt lim c keys nonce now lit h = Ok ((p, Some e), h') -> p = None).
Proof.
  intros G. set (c := mkCl 0 30003 1 (repeat zero_item 16) 0 None None None None).
  assert (S : list_sound c) by (apply (shape_sound _ [] 16); [reflexivity|reflexivity|apply Forall_nil|cbn; lia|cbn; lia]).
  assert (X : holds (mkHeap 3 [0; 1; 2]) (lowned c ++ [2])) by (split; [split; cbn; [repeat constructor; cbn; intuition lia|repeat constructor; lia]|cbn; apply Permutation_refl]).
  pose proof (G (fun n => n =? 3) (fun _ _ _ t => Ok t) None c None None 0%Z 2 _ [2] S X ltac:(left; reflexivity)) as K.
  destruct (mem_to_event (fun n => n =? 3) (fun _ _ _ t => Ok t) None c None None 0%Z 2 (mkHeap 3 [0; 1; 2])) as [((p, e), h')| |] eqn:E; [|vm_compute in E; discriminate..].
  destruct e as [e|]; [|vm_compute in E; discriminate]. specialize (K p e h' eq_refl). subst p. vm_compute in E. discriminate.
Qed.
(** A run with changes, a refused allocation, a private entry and a second list read
    from what the first published. *)
Definition hex_key : list N := repeat 97%N 64.
Definition sample : list lop :=
  [LNew 30003; LSet FTitle (Some (None, bs "mine")); LEdit (OPubkey hex_key (Some (bs "wss://a")) (Some (bs "n")) true) []; LEdit (OHashtag (bs "t1") false) []; LEdit (OWord (bs "w") false) [];
   LEdit (ORemove 1) []; LEdit (ORemove 5) []; LSet FTitle None].
Example C126_meets :
  holds (mkHeap 0 []) [] /\ Forall (lforeign []) sample /\ Forall (lreadable (fun _ _ t => Ok t)) sample /\
  (exists c h, lrun (fun _ => true) (fun _ _ t => Ok t) None sample (mkHeap 0 []) = Ok (Some c, h) /\ length (h_live h) = 8 /\ list_sound c /\
     nl_items (lvalue c) = [mkItem (bs "p") hex_key (Some (bs "wss://a")) (Some (bs "n")) true; mkItem (bs "word") (bs "w") None None false]) /\
  (exists c h, lrun (fun n => negb (n =? 5)) (fun _ _ t => Ok t) None sample (mkHeap 0 []) = Ok (Some c, h) /\ nl_items (lvalue c) = [mkItem (bs "t") (bs "t1") None None false]) /\
  (exists h, lrun (fun _ => true) (fun _ _ t => Ok t) None (sample ++ [LFree]) (mkHeap 0 []) = Ok (None, h) /\ h_live h = []) /\
  (exists c h, lrun (fun _ => true) (fun _ _ t => Ok t) None [LRead (mkEvent [] [] 0 30003 [[bs "d"; bs "x"]; [bs "t"; bs "y"]] (Some (bs "[[""e"",""v""]]")) []) (Some ([], []))] (mkHeap 0 []) = Ok (Some c, h) /\
     lvalue c = mkList 30003 (Some (bs "x")) None None None [mkItem (bs "t") (bs "y") None None false; mkItem (bs "e") (bs "v") None None true] /\ length (h_live h) = 7).
Proof.
  split; [split; [split; constructor|constructor]|]. split; [unfold sample; repeat apply Forall_cons; try apply Forall_nil; try exact I; intros z []|]. split; [unfold sample; repeat apply Forall_cons; try apply Forall_nil; exact I|].
  split; [|split; [|split]].
  - eexists. eexists. split; [vm_compute; reflexivity|]. split; [vm_compute; reflexivity|]. split; [|vm_compute; reflexivity].
    eapply (shape_sound _ [_; _] 6); [reflexivity|reflexivity|repeat apply Forall_cons; try apply Forall_nil; split; discriminate|vm_compute; lia|vm_compute; discriminate].
  - eexists. eexists. split; vm_compute; reflexivity.
  - eexists. split; vm_compute; reflexivity.
  - eexists. eexists. split; [vm_compute; reflexivity|]. split; vm_compute; reflexivity.
Qed.
(** ... and publishing it. *)
Example C126_publish_meets : exists c h ev h',
  lrun (fun _ => true) (fun _ _ t => Ok t) None sample (mkHeap 1 [0]) = Ok (Some c, h) /\
  mem_to_event (fun _ => true) (fun _ _ _ t => Ok (65%N :: t)) None c (Some ([], [])) None 7%Z 0 h = Ok ((Some ev, None), h') /\
  ev_tags (ce_val ev) = [[bs "d"; []]; [bs "word"; bs "w"]] /\ ev_content (ce_val ev) = Some (bs "A[[""p"",""" ++ hex_key ++ bs """,""wss://a"",""n""]]") /\ length (h_live h') = length (h_live h) + 5.
Proof. eexists. eexists. eexists. eexists. split; [vm_compute; reflexivity|]. split; [vm_compute; reflexivity|]. split; [vm_compute; reflexivity|]. split; vm_compute; reflexivity. Qed.

(** A case for C127: setting a title without memory for it. *)
Example C127_meets : let c := mkCl 0 30003 1 (repeat zero_item 16) 0 None None None None in
  list_sound c /\ holds (mkHeap 2 [0; 1]) (lowned c ++ []) /\
  exists c' h', set_field (fun _ => false) c FTitle (Some (None, bs "y")) (mkHeap 2 [0; 1]) = Ok ((c', Some EMemory), h') /\ lvalue c' = lvalue c.
Proof.
  intros c. split; [apply (shape_sound _ [] 16); [reflexivity|reflexivity|apply Forall_nil|cbn; lia|cbn; lia]|].
  split; [split; [split; cbn; [repeat constructor; cbn; intuition lia|repeat constructor; lia]|cbn; apply Permutation_refl]|].
  do 2 eexists. split; vm_compute; reflexivity.
Qed.

Print Assumptions C126_create.
Print Assumptions C126_free.
Print Assumptions C126_set.
Print Assumptions C126_add.
Print Assumptions C126_remove.
Print Assumptions C126_edit.
Print Assumptions C126_from_event.
Print Assumptions C126_to_event.
Print Assumptions C126_run.
Print Assumptions C126_no_leak.
Print Assumptions C127_partial.
Print Assumptions C127_alias_refuted.
Print Assumptions C127_set_refuted.
Print Assumptions C127_to_event_refuted.
