(** Building a tree piece by piece: what is there, what is lost, and that
    nothing is lost unless an allocation failed. *)
From Verif Require Import Base BaseFacts Heap Json RelayMemSpec RelayMemProps EventMem EventMemSpec EventMemProps CjsonMem EventOomSpec.
From Coq Require Import Permutation.
Open Scope nat_scope.

Definition nb (o : option node) : list nat := match o with Some n => n_blocks n | None => [] end.
Ltac cnt := apply (proj2 (Permutation_count_occ Nat.eq_dec _ _)); let x := fresh "x" in intros x;
  cbn [opt_list app nb n_blocks] in *; repeat rewrite ?count_occ_app in *; cbn [count_occ app] in *; repeat rewrite ?count_occ_app in *; cbn [count_occ] in *;
  repeat match goal with |- context [Nat.eq_dec ?a ?b] => destruct (Nat.eq_dec a b) end; lia.
Scheme thin_ind3 := Induction for thin Sort Prop with thins_ind3 := Induction for thins Sort Prop with thinm_ind3 := Induction for thinm Sort Prop.
Lemma thins_refl l : thins l l.
Proof. induction l; constructor; [constructor|assumption]. Qed.
Lemma thinm_refl l : thinm l l.
Proof. induction l as [|[k a] l IH]; constructor; [constructor|assumption]. Qed.
Lemma thin_arr_inv l x : thin (JArr l) x -> exists l', x = JArr l' /\ thins l l'.
Proof. intros T. inversion T; subst; [exists l; split; [reflexivity|apply thins_refl]|]. exists l'. auto. Qed.
Lemma thin_obj_inv l x : thin (JObj l) x -> exists l', x = JObj l' /\ thinm l l'.
Proof. intros T. inversion T; subst; [exists l; split; [reflexivity|apply thinm_refl]|]. exists l'. auto. Qed.
Lemma thins_app l l' m m' : thins l l' -> thins m m' -> thins (l ++ m) (l' ++ m').
Proof. induction 1; intros M; cbn [app]; [exact M| |]; constructor; auto. Qed.
Lemma thinm_app l l' m m' : thinm l l' -> thinm m m' -> thinm (l ++ m) (l' ++ m').
Proof. induction 1; intros M; cbn [app]; [exact M| |]; constructor; auto. Qed.

Section Grant.
Variable grant : nat -> bool.
Notation granted := (granted grant).
Lemma granted_less h0 h1 h2 h3 : granted h0 h3 -> h_next h0 <= h_next h1 -> h_next h2 <= h_next h3 -> granted h1 h2.
Proof. intros G A B k K. apply G. lia. Qed.
(** At [h], [o] is what there is of [j]; [rest] belongs to others. *)
Record built (h0 : heap) (o : option node) (j : json) (rest : list nat) (h : heap) : Prop := mkBuilt {
  bu_next : h_next h0 <= h_next h;
  bu_thin : forall n, o = Some n -> thin j (n_tree n);
  bu_lost : exists lost, holds h (nb o ++ lost ++ rest) /\ (granted h0 h -> lost = [] /\ exists n, o = Some n /\ n_tree n = j) }.
(** A program that builds [j]. *)
Definition builds (m : M (option node)) (j : json) : Prop :=
  forall h rest, holds h rest -> exists o h', m h = Ok (o, h') /\ built h o j rest h'.
(** Allocation, with what its success says about the pattern. *)
Lemma ealloc_two h l : holds h l ->
  (exists q h', ealloc grant h = Ok (Some q, h') /\ holds h' (q :: l) /\ h_next h' = S (h_next h)) \/
  (exists h', ealloc grant h = Ok (None, h') /\ holds h' l /\ h_next h' = S (h_next h) /\ grant (h_next h) = false).
Proof.
  intros X. unfold ealloc. destruct (ealloc_cases grant h l X) as [(q & h' & E & X' & _)|(h' & E & X' & _ & _)]; unfold ealloc in E; destruct (grant (h_next h)) eqn:G; try discriminate.
  - left. exists q, h'. split; [exact E|]. split; [exact X'|]. apply (f_equal (fun r => match r with Ok (_, h1) => h_next h1 | _ => 0 end)) in E. symmetry. exact E.
  - right. exists h'. split; [exact E|]. split; [exact X'|]. split; [|reflexivity]. apply (f_equal (fun r => match r with Ok (_, h1) => h_next h1 | _ => 0 end)) in E. symmetry. exact E.
Qed.
Lemma not_granted h0 h h' : grant (h_next h) = false -> h_next h0 <= h_next h -> h_next h < h_next h' -> ~ granted h0 h'.
Proof. intros F A B G. rewrite G in F by lia. discriminate. Qed.
Lemma create_builds j : builds (create grant j) j.
Proof.
  intros h rest X. unfold create. destruct (ealloc_two h _ X) as [(q & h1 & E & X1 & L1)|(h1 & E & X1 & L1 & F)]; rewrite (mbind_ok _ _ _ _ _ E).
  - eexists. exists h1. split; [reflexivity|]. constructor; [lia|intros n Q; injection Q as <-; constructor|]. exists []. split; [exact X1|]. intros _. split; [reflexivity|]. eexists. split; reflexivity.
  - eexists. exists h1. split; [reflexivity|]. constructor; [lia|discriminate|]. exists []. split; [exact X1|]. intros G. destruct (not_granted h h h1 F ltac:(lia) ltac:(lia) G).
Qed.
Lemma string_builds s : builds (create_string grant s) (JStr s).
Proof.
  intros h rest X. unfold create_string. destruct (ealloc_two h _ X) as [(q & h1 & E & X1 & L1)|(h1 & E & X1 & L1 & F)]; rewrite (mbind_ok _ _ _ _ _ E).
  2:{ eexists. exists h1. split; [reflexivity|]. constructor; [lia|discriminate|]. exists []. split; [exact X1|]. intros G. destruct (not_granted h h h1 F ltac:(lia) ltac:(lia) G). }
  destruct (ealloc_two h1 _ X1) as [(c & h2 & E2 & X2 & L2)|(h2 & E2 & X2 & L2 & F)]; rewrite (mbind_ok _ _ _ _ _ E2).
  - eexists. exists h2. split; [reflexivity|]. constructor; [lia|intros n Q; injection Q as <-; constructor|]. exists []. split; [revert X2; apply holds_perm; cnt|]. intros _. split; [reflexivity|]. eexists. split; reflexivity.
  - destruct (free_holds _ _ _ X2) as (h3 & E3 & X3 & L3). rewrite (mbind_ok _ _ _ _ _ E3).
    eexists. exists h3. split; [reflexivity|]. constructor; [lia|discriminate|]. exists []. split; [exact X3|]. intros G. destruct (not_granted h h1 h3 F ltac:(lia) ltac:(lia) G).
Qed.
Lemma free_all_ok l h rest : holds h (l ++ rest) -> exists h', free_all l h = Ok (tt, h') /\ holds h' rest /\ h_next h' = h_next h.
Proof.
  revert h. induction l as [|b l IH]; intros h X; cbn [free_all app] in *; [exists h; auto|].
  destruct (free_holds _ _ _ X) as (h1 & E1 & X1 & L1). rewrite (mbind_ok _ _ _ _ _ E1). destruct (IH h1 X1) as (h2 & E2 & X2 & L2). exists h2. split; [exact E2|]. split; [exact X2|lia].
Qed.
Lemma delete_ok x h rest : holds h (nb x ++ rest) -> exists h', delete x h = Ok (tt, h') /\ holds h' rest /\ h_next h' = h_next h.
Proof. destruct x as [n|]; cbn [delete nb app]; intros X; [apply free_all_ok, X|]. exists h. auto. Qed.
(** One more element. *)
Lemma array_step h0 a l rest h x j h' : built h0 a (JArr l) rest h ->
  (forall lost, holds h (nb a ++ lost ++ rest) -> built h x j (nb a ++ lost ++ rest) h') -> built h0 (add_to_array a x) (JArr (l ++ [j])) rest h'.
Proof.
  intros [N0 T0 (lost & X0 & G0)] B. destruct (B lost X0) as [N1 T1 (lost' & X1 & G1)]. constructor; [lia| |].
  - intros n Q. destruct a as [[[| | | |k|] b]|]; try discriminate Q; cbn [add_to_array] in Q; try (destruct (thin_arr_inv _ _ (T0 _ eq_refl)) as (z & Z & _); discriminate Z).
    destruct (thin_arr_inv _ _ (T0 _ eq_refl)) as (z & Z & TZ). cbn [n_tree] in Z. injection Z as <-.
    destruct x as [n1|]; injection Q as <-; cbn [n_tree]; apply thin_arr.
    + apply thins_app; [exact TZ|]. repeat constructor. apply T1. reflexivity.
    + rewrite <- (app_nil_r k). apply thins_app; [exact TZ|]. repeat constructor.
  - destruct a as [[ta b]|].
    + destruct (thin_arr_inv _ _ (T0 _ eq_refl)) as (k & Z & TZ). cbn [n_tree] in Z. subst ta. cbn [add_to_array].
      destruct x as [n1|].
      * exists (lost' ++ lost). split; [revert X1; apply holds_perm; cnt|]. intros G. destruct (G0 ltac:(apply (granted_less _ _ _ _ G); lia)) as (-> & n0 & Q0 & V0).
        destruct (G1 ltac:(apply (granted_less _ _ _ _ G); lia)) as (-> & n1' & Q1 & V1). split; [reflexivity|]. eexists. split; [reflexivity|]. cbn [n_tree].
        assert (n0 = mkNode (JArr k) b) by congruence. assert (n1' = n1) by congruence. subst n0 n1'. cbn [n_tree] in V0. congruence.
      * exists (lost' ++ lost). split; [revert X1; apply holds_perm; cnt|]. intros G. destruct (G1 ltac:(apply (granted_less _ _ _ _ G); lia)) as (_ & n1' & Q1 & _). discriminate Q1.
    + cbn [add_to_array]. exists (nb x ++ lost' ++ lost). split; [revert X1; apply holds_perm; cbn [nb]; cnt|]. intros G. destruct (G0 ltac:(apply (granted_less _ _ _ _ G); lia)) as (_ & n0 & Q0 & _). discriminate Q0.
Qed.
Lemma array_add h0 a l rest h m j : built h0 a (JArr l) rest h -> builds m j ->
  exists x h', m h = Ok (x, h') /\ built h0 (add_to_array a x) (JArr (l ++ [j])) rest h'.
Proof.
  intros B MB. pose proof B as [N0 T0 (lost & X0 & G0)]. destruct (MB h _ X0) as (x & h' & E & B'). exists x, h'. split; [exact E|].
  apply (array_step h0 a l rest h x j h'); [exact B|]. intros lost1 X1. destruct (MB h _ X1) as (x1 & h1 & E1 & B1).
  assert (x1 = x /\ h1 = h') as (-> & ->) by (split; congruence). exact B1.
Qed.
(** One more member, the item given. *)
Lemma add_item_ok h0 o l rest h key x j : built h0 o (JObj l) rest h -> forall h1 lost, holds h (nb o ++ lost ++ rest) -> built h x j (nb o ++ lost ++ rest) h1 ->
  exists o' t h', add_item grant o key x h1 = Ok ((o', t), h') /\ h_next h1 <= h_next h' /\ (forall n, o' = Some n -> thin (JObj (l ++ [(key, j)])) (n_tree n)) /\
  exists lost', holds h' (nb o' ++ (if t then [] else nb x) ++ lost' ++ lost ++ rest) /\
  (granted h0 h' -> t = true /\ lost' = [] /\ exists n, o' = Some n /\ n_tree n = JObj (l ++ [(key, j)])).
Proof.
  intros [N0 T0 (lost0 & X00 & G0)] h1 lost X0 [N1 T1 (lost1 & X1 & G1)].
  destruct o as [[to b]|].
  2:{ exists None, false, h1. split; [reflexivity|]. split; [lia|]. split; [discriminate|]. exists lost1. split; [revert X1; apply holds_perm; cbn [nb]; cnt|].
      intros G. destruct (G0 ltac:(apply (granted_less _ _ _ _ G); lia)) as (_ & n0 & Q0 & _). discriminate Q0. }
  destruct (thin_obj_inv _ _ (T0 _ eq_refl)) as (k & Z & TZ). cbn [n_tree] in Z. subst to. cbn [add_item].
  assert (KEEP : forall k, thinm l k -> thin (JObj (l ++ [(key, j)])) (JObj k)).
  { intros z TZ'. apply thin_obj. rewrite <- (app_nil_r z). apply thinm_app; [exact TZ'|]. repeat constructor. }
  destruct x as [n1|].
  2:{ eexists. exists false, h1. split; [reflexivity|]. split; [lia|]. split; [intros n Q; injection Q as <-; apply KEEP, TZ|]. exists lost1. split; [revert X1; apply holds_perm; cbn [nb]; cnt|].
      intros G. destruct (G1 ltac:(apply (granted_less _ _ _ _ G); lia)) as (_ & n0 & Q0 & _). discriminate Q0. }
  destruct (ealloc_two h1 _ X1) as [(c & h2 & E2 & X2 & L2)|(h2 & E2 & X2 & L2 & F)]; rewrite (mbind_ok _ _ _ _ _ E2).
  - eexists. exists true, h2. split; [reflexivity|]. split; [lia|]. split.
    + intros n Q. injection Q as <-. cbn [n_tree]. apply thin_obj, thinm_app; [exact TZ|]. repeat constructor. apply T1. reflexivity.
    + exists lost1. split; [revert X2; apply holds_perm; cbn [nb]; cnt|]. intros G. split; [reflexivity|].
      destruct (G0 ltac:(apply (granted_less _ _ _ _ G); lia)) as (_ & n0 & Q0 & V0). destruct (G1 ltac:(apply (granted_less _ _ _ _ G); lia)) as (-> & n1' & Q1 & V1).
      split; [reflexivity|]. eexists. split; [reflexivity|]. cbn [n_tree]. assert (n0 = mkNode (JObj k) b) by congruence. assert (n1' = n1) by congruence. subst n0 n1'. cbn [n_tree] in V0. congruence.
  - eexists. exists false, h2. split; [reflexivity|]. split; [lia|]. split; [intros n Q; injection Q as <-; apply KEEP, TZ|]. exists lost1. split; [revert X2; apply holds_perm; cbn [nb]; cnt|].
    intros G. destruct (not_granted h0 h1 h2 F ltac:(lia) ltac:(lia) G).
Qed.
Lemma object_add h0 o l rest h key m j : built h0 o (JObj l) rest h -> builds m j ->
  exists x h1 o' h', m h = Ok (x, h1) /\ add_to_object grant o key x h1 = Ok (o', h') /\ built h0 o' (JObj (l ++ [(key, j)])) rest h'.
Proof.
  intros B MB. pose proof B as [N0 T0 (lost & X0 & G0)]. destruct (MB h _ X0) as (x & h1 & E & B1). exists x, h1.
  destruct (add_item_ok h0 o l rest h key x j B h1 lost X0 B1) as (o' & t & h' & E2 & L2 & T2 & lost' & X2 & G2). exists o', h'. split; [exact E|].
  unfold add_to_object. rewrite (mbind_ok _ _ _ _ _ E2). split; [reflexivity|]. destruct B1 as [N1 _ _]. constructor; [lia|exact T2|].
  exists ((if t then [] else nb x) ++ lost' ++ lost). split; [revert X2; apply holds_perm; cnt|]. intros G. destruct (G2 G) as (-> & -> & Q). destruct (G0 ltac:(apply (granted_less _ _ _ _ G); lia)) as (-> & _). auto.
Qed.
Lemma object_new h0 o l rest h key m j : built h0 o (JObj l) rest h -> builds m j ->
  exists o' h', add_new grant o key m h = Ok (o', h') /\ built h0 o' (JObj (l ++ [(key, j)])) rest h'.
Proof.
  intros B MB. pose proof B as [N0 T0 (lost & X0 & G0)]. destruct (MB h _ X0) as (x & h1 & E & B1). unfold add_new. rewrite (mbind_ok _ _ _ _ _ E).
  destruct (add_item_ok h0 o l rest h key x j B h1 lost X0 B1) as (o' & t & h' & E2 & L2 & T2 & lost' & X2 & G2). rewrite (mbind_ok _ _ _ _ _ E2). destruct B1 as [N1 _ _].
  destruct t.
  - exists o', h'. split; [reflexivity|]. constructor; [lia|exact T2|]. exists (lost' ++ lost). split; [revert X2; apply holds_perm; cnt|].
    intros G. destruct (G2 G) as (_ & -> & Q). destruct (G0 ltac:(apply (granted_less _ _ _ _ G); lia)) as (-> & _). auto.
  - apply (holds_perm _ _ (nb x ++ nb o' ++ lost' ++ lost ++ rest)) in X2; [|cnt]. destruct (delete_ok _ _ _ X2) as (h3 & E3 & X3 & L3). rewrite (mbind_ok _ _ _ _ _ E3).
    exists o', h3. split; [reflexivity|]. constructor; [lia|exact T2|]. exists (lost' ++ lost). split; [revert X3; apply holds_perm; cnt|].
    intros G. destruct (G2 ltac:(apply (granted_less _ _ _ _ G); lia)) as (Q & _). discriminate Q.
Qed.
(** Weaker tools for composing. *)
Lemma built_holds h0 o j rest h : built h0 o j rest h -> exists lost, holds h (nb o ++ lost ++ rest).
Proof. intros [_ _ (lost & X & _)]. exists lost. exact X. Qed.
(** Printing and releasing. *)
Variable print : json -> list N.
Lemma print_ok h0 o j rest h : built h0 o j rest h ->
  exists r h' lost, (let! r := print_node grant print o in let! _ := delete o in mret r) h = Ok (r, h') /\ h_next h0 <= h_next h' /\
  holds h' (match r with Some (b, _) => [b] | None => [] end ++ lost ++ rest) /\
  (forall b s, r = Some (b, s) -> exists t, s = print t /\ thin j t) /\
  (granted h0 h' -> lost = [] /\ exists b, r = Some (b, print j)) /\ (o = None -> r = None).
Proof.
  intros [N0 T0 (lost & X0 & G0)]. destruct o as [n|]; cbn [print_node].
  2:{ cbn. exists None, h, lost. split; [reflexivity|]. split; [exact N0|]. split; [exact X0|]. split; [discriminate|]. split; [|auto]. intros G. destruct (G0 G) as (_ & n & Q & _). discriminate Q. }
  destruct (ealloc_two h _ X0) as [(q & h1 & E & X1 & L1)|(h1 & E & X1 & L1 & F)]; unfold mbind at 1; rewrite (mbind_ok _ _ _ _ _ E); cbn [mret].
  - apply (holds_perm _ _ (nb (Some n) ++ q :: lost ++ rest)) in X1; [|cnt]. destruct (delete_ok _ _ _ X1) as (h2 & E2 & X2 & L2). rewrite (mbind_ok _ _ _ _ _ E2).
    eexists. exists h2, lost. split; [reflexivity|]. split; [lia|]. split; [exact X2|]. split.
    { intros b s Q. exists (n_tree n). split; [congruence|]. apply T0. reflexivity. }
    split; [|discriminate]. intros G. destruct (G0 ltac:(apply (granted_less _ _ _ _ G); lia)) as (-> & n0 & Q0 & V0). split; [reflexivity|]. exists q. assert (n0 = n) by congruence. subst n0. rewrite V0. reflexivity.
  - destruct (delete_ok _ _ _ X1) as (h2 & E2 & X2 & L2). rewrite (mbind_ok _ _ _ _ _ E2). exists None, h2, lost. split; [reflexivity|]. split; [lia|]. split; [exact X2|]. split; [discriminate|]. split; [|auto].
    intros G. destruct (not_granted h0 h h2 F ltac:(lia) ltac:(lia) G).
Qed.
End Grant.
