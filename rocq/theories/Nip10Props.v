(** Property theorems C43, C78 (NIP-10). *)
From Verif Require Import Base BaseFacts Event Nip10 Nip10Spec.
Open Scope N_scope.

Definition info_of (t : list (list N)) : e_tag_info :=
  mkETag (firstn 64 (tag_id t)) (firstn 255 (tag_relay t)) (firstn 15 (nth 3 t [])) (firstn 64 (nth 4 t [])).
Definition names_eventb (t : list (list N)) : bool := match t with n :: _ :: _ => beq n (bs "e") | _ => false end.
Lemma names_eventb_iff t : names_eventb t = true <-> names_event t.
Proof.
  unfold names_eventb, names_event. destruct t as [|n [|v r]].
  - split; [discriminate|intros (? & ? & X); discriminate].
  - split; [discriminate|intros (? & ? & X); discriminate].
  - rewrite beq_eq. split; [intros ->; eauto|intros (? & ? & X); congruence].
Qed.
Lemma copy_bounded_ok size src max : N.of_nat max < size -> copy_bounded size src max = Ok (firstn max src).
Proof. intros L. unfold copy_bounded. rewrite (proj2 (N.ltb_ge _ _)); [reflexivity|]. rewrite firstn_length. lia. Qed.
(** Copying into a field is defined exactly if the bytes copied and their NUL fit. *)
Theorem C43_field_exact : forall size src max,
  (copy_bounded size src max = Undef <-> ~ (exists room, size = N.of_nat (length (firstn max src ++ [0])) + room)) /\
  (forall s, copy_bounded size src max = Ok s -> s = firstn max src).
Proof.
  intros size src max. unfold copy_bounded. rewrite app_length. cbn [length].
  destruct (N.ltb_spec size (N.of_nat (length (firstn max src)) + 1)).
  - split; [|discriminate]. split; [|reflexivity]. intros _ (r & E). lia.
  - split; [|congruence]. split; [discriminate|]. intros X. exfalso. apply X.
    exists (size - (N.of_nat (length (firstn max src)) + 1)). lia.
Qed.
Example C43_field_meets : copy_bounded 16 (bs "a marker too long") 15 = Ok (bs "a marker too lo") /\ copy_bounded 16 (bs "a marker too long") 16 = Undef.
Proof. split; reflexivity. Qed.
Lemma parse_e_tag_eq t : parse_e_tag t = Ok (if names_eventb t then Some (info_of t) else None).
Proof.
  unfold parse_e_tag, names_eventb, info_of, tag_id, tag_relay. destruct t as [|n [|v r]]; [reflexivity|reflexivity|].
  destruct (beq n (bs "e")); [|reflexivity]. cbn [negb].
  rewrite (copy_bounded_ok 65 v 64) by reflexivity. cbn [bind nth].
  destruct r as [|x [|y [|z r]]]; cbn [bind nth]; rewrite ?(copy_bounded_ok 256 x 255) by reflexivity; cbn [bind];
    rewrite ?(copy_bounded_ok 16 y 15) by reflexivity; cbn [bind]; rewrite ?(copy_bounded_ok 65 z 64) by reflexivity; cbn [bind]; rewrite ?firstn_nil; reflexivity.
Qed.
Lemma collect_eq ts : collect_e_tags ts = Ok (map info_of (filter names_eventb ts)).
Proof.
  induction ts as [|t ts IH]; [reflexivity|]. cbn [collect_e_tags filter]. rewrite parse_e_tag_eq, IH. cbn [bind].
  destruct (names_eventb t); reflexivity.
Qed.
Lemma firstn_short n (s m : list N) : (length m < n)%nat -> (firstn n s = m <-> s = m).
Proof.
  intros L. split; [|intros ->; apply firstn_all2; lia]. intros E. assert (length (firstn n s) = length m) by congruence.
  rewrite firstn_length in H. rewrite <- E. symmetry. apply firstn_all2. lia.
Qed.
Lemma find_first {A} (p : A -> bool) (P : A -> Prop) l : (forall x, p x = true <-> P x) ->
  match find p l with Some x => first_with P l x | None => Forall (fun y => ~ P y) l end.
Proof.
  intros H. induction l as [|x l IH]; [constructor|]. cbn [find]. destruct (p x) eqn:E.
  - exists [], l. split; [reflexivity|]. split; [apply H, E|constructor].
  - assert (NP : ~ P x) by (rewrite <- H, E; discriminate). destruct (find p l).
    + destruct IH as (u & b & -> & PX & F). exists (x :: u), b. split; [reflexivity|]. split; [exact PX|constructor; assumption].
    + constructor; assumption.
Qed.
Lemma find_map_filter (m : list N) ts : (length m < 15)%nat ->
  find (fun i => beq (et_marker i) m) (map info_of (filter names_eventb ts)) =
  option_map info_of (find (fun t => names_eventb t && beq (nth 3 t []) m) ts).
Proof.
  intros L. induction ts as [|t ts IH]; [reflexivity|]. cbn [filter find]. destruct (names_eventb t) eqn:E; cbn [andb]; [|exact IH].
  cbn [map find]. assert (M : beq (et_marker (info_of t)) m = beq (nth 3 t []) m).
  { unfold info_of. cbn [et_marker]. destruct (beq (nth 3 t []) m) eqn:B.
    - apply beq_eq in B. apply beq_eq, firstn_short; assumption.
    - destruct (beq (firstn 15 (nth 3 t [])) m) eqn:B'; [|reflexivity]. apply beq_eq in B'. apply firstn_short in B'; [|exact L]. apply beq_neq in B. congruence. }
  rewrite M. destruct (beq (nth 3 t []) m); [reflexivity|exact IH].
Qed.
Lemma marked_iff m t : names_eventb t && beq (nth 3 t []) m = true <-> marked m t.
Proof. rewrite andb_true_iff, names_eventb_iff, beq_eq. reflexivity. Qed.
Lemma first_with_fun {A} (P : A -> Prop) l x y : first_with P l x -> first_with P l y -> x = y.
Proof.
  intros (a & b & -> & PX & F) (a' & b' & E & PY & F'). revert a' E F'. induction a as [|z a IH]; intros a' E F'.
  - destruct a' as [|w a']; cbn [app] in E; [congruence|]. inversion F' as [|? ? N ?]; subst. exfalso. apply N. congruence.
  - destruct a' as [|w a']; cbn [app] in E; [inversion F as [|? ? N ?]; subst; exfalso; apply N; congruence|].
    inversion F; inversion F'; subst. apply (IH H2 a'); [congruence|assumption].
Qed.
Lemma last_with_fun {A} (P : A -> Prop) l x y : last_with P l x -> last_with P l y -> x = y.
Proof.
  intros (a & b & E & PX & F) (a' & b' & E' & PY & F').
  apply (first_with_fun P (rev l)).
  - exists (rev b), (rev a). rewrite E, rev_app_distr. cbn [rev]. rewrite <- app_assoc. split; [reflexivity|]. split; [exact PX|apply Forall_rev, F].
  - exists (rev b'), (rev a'). rewrite E', rev_app_distr. cbn [rev]. rewrite <- app_assoc. split; [reflexivity|]. split; [exact PY|apply Forall_rev, F'].
Qed.
Lemma filter_first ts t r : filter names_eventb ts = t :: r -> first_with names_event ts t.
Proof.
  intros E. pose proof (find_first names_eventb names_event ts names_eventb_iff) as H.
  assert (X : find names_eventb ts = Some t).
  { clear H. revert E. induction ts as [|u ts IH]; [discriminate|]. cbn [filter find]. destruct (names_eventb u); [congruence|exact IH]. }
  rewrite X in H. exact H.
Qed.
Lemma filter_last ts t : nth_error (filter names_eventb ts) (length (filter names_eventb ts) - 1) = Some t -> last_with names_event ts t.
Proof.
  induction ts as [|u ts IH]; [discriminate|]. cbn [filter]. destruct (names_eventb u) eqn:E.
  - destruct (filter names_eventb ts) as [|x f] eqn:EF.
    + cbn. intros H. assert (t = u) by congruence. subst t. exists [], ts. split; [reflexivity|]. split; [apply names_eventb_iff, E|].
      apply Forall_forall. intros y I N. apply names_eventb_iff in N. assert (X : In y (filter names_eventb ts)) by (apply filter_In; auto). rewrite EF in X. destruct X.
    + cbn [length]. rewrite Nat.sub_succ, Nat.sub_0_r. cbn [nth_error]. intros H.
      destruct IH as (a & b & -> & P & F); [cbn [length]; rewrite Nat.sub_succ, Nat.sub_0_r; exact H|]. exists (u :: a), b. auto.
  - intros H. destruct (IH H) as (a & b & -> & P & F). exists (u :: a), b. auto.
Qed.

Lemma copy_cut t ids rs : 65 <= ids -> copy_id_and_relay (info_of t) ids rs = (cut 64 (tag_id t), cut (N.min 255 (rs - 1)) (tag_relay t)).
Proof.
  intros L. unfold copy_id_and_relay, info_of, cut. cbn [et_id et_relay]. f_equal.
  - rewrite firstn_firstn. f_equal. lia.
  - destruct (N.eqb_spec rs 0) as [->|NZ]; [change (N.min 255 (0 - 1)) with 0; reflexivity|]. rewrite firstn_firstn. f_equal. lia.
Qed.
(** On any event the root and the parent are those of NIP-10; what is written
    fits the buffers, strings longer than the library's fields are cut. *)
Theorem C43_root : forall e ids rs id relay, get_root_id e ids rs = Ok (id, relay) <->
  65 <= ids /\ exists t, root_tag (ev_tags e) t /\ id = cut 64 (tag_id t) /\ relay = cut (N.min 255 (rs - 1)) (tag_relay t).
Proof.
  intros e ids rs id relay. unfold get_root_id, find_e_tag_by_marker. rewrite collect_eq.
  destruct (N.ltb_spec ids 65) as [L|L]; [split; [discriminate|intros (X & _); lia]|]. cbn [bind].
  rewrite find_map_filter by (cbn; lia). cbn [negb].
  pose proof (find_first _ _ (ev_tags e) (marked_iff (bs "root"))) as FF.
  destruct (find (fun t => names_eventb t && beq (nth 3 t []) (bs "root")) (ev_tags e)) as [t|]; cbn [option_map].
  - destruct (filter names_eventb (ev_tags e)) as [|x f] eqn:EF.
    { exfalso. destruct FF as (a & b & E & (N & _) & _). apply names_eventb_iff in N. assert (X : In t (filter names_eventb (ev_tags e))).
      { apply filter_In. split; [rewrite E; apply in_or_app; right; left; reflexivity|exact N]. } rewrite EF in X. destruct X. }
    cbn [map]. rewrite copy_cut by exact L. split.
    + intros H. split; [exact L|]. exists t. split; [left; exact FF|]. split; congruence.
    + intros (_ & t' & [R|(R & _)] & -> & ->).
      * rewrite (first_with_fun _ _ _ _ FF R). reflexivity.
      * exfalso. destruct FF as (a & b & E & M & _). rewrite E in R. apply Forall_app in R. destruct R as (_ & R). inversion R; contradiction.
  - destruct (filter names_eventb (ev_tags e)) as [|x f] eqn:EF.
    + cbn [map]. split; [discriminate|]. intros (_ & t' & [R|(_ & R)] & _).
      * exfalso. destruct R as (a & b & E & M & _). rewrite E in FF. apply Forall_app in FF. destruct FF as (_ & FF). inversion FF; contradiction.
      * exfalso. destruct R as (a & b & E & N & _). apply names_eventb_iff in N. assert (X : In t' (filter names_eventb (ev_tags e))).
        { apply filter_In. split; [rewrite E; apply in_or_app; right; left; reflexivity|exact N]. } rewrite EF in X. destruct X.
    + cbn [map]. rewrite copy_cut by exact L. apply filter_first in EF. split.
      * intros H. split; [exact L|]. exists x. split; [right; auto|]. split; congruence.
      * intros (_ & t' & [R|(_ & R)] & -> & ->).
        { exfalso. destruct R as (a & b & E & M & _). rewrite E in FF. apply Forall_app in FF. destruct FF as (_ & FF). inversion FF; contradiction. }
        rewrite (first_with_fun _ _ _ _ EF R). reflexivity.
Qed.
Theorem C43_reply : forall e ids rs id relay, get_reply_id e ids rs = Ok (id, relay) <->
  65 <= ids /\ exists t, reply_tag (ev_tags e) t /\ id = cut 64 (tag_id t) /\ relay = cut (N.min 255 (rs - 1)) (tag_relay t).
Proof.
  intros e ids rs id relay. unfold get_reply_id, find_e_tag_by_marker. rewrite collect_eq.
  destruct (N.ltb_spec ids 65) as [L|L]; [split; [discriminate|intros (X & _); lia]|]. cbn [bind].
  rewrite find_map_filter by (cbn; lia). cbn [negb].
  pose proof (find_first _ _ (ev_tags e) (marked_iff (bs "reply"))) as FF.
  destruct (find (fun t => names_eventb t && beq (nth 3 t []) (bs "reply")) (ev_tags e)) as [t|]; cbn [option_map].
  - destruct (filter names_eventb (ev_tags e)) as [|x f] eqn:EF.
    { exfalso. destruct FF as (a & b & E & (N & _) & _). apply names_eventb_iff in N. assert (X : In t (filter names_eventb (ev_tags e))).
      { apply filter_In. split; [rewrite E; apply in_or_app; right; left; reflexivity|exact N]. } rewrite EF in X. destruct X. }
    cbn [map]. rewrite copy_cut by exact L. split.
    + intros H. split; [exact L|]. exists t. split; [left; exact FF|]. split; congruence.
    + intros (_ & t' & [R|(R & _)] & -> & ->).
      * rewrite (first_with_fun _ _ _ _ FF R). reflexivity.
      * exfalso. destruct FF as (a & b & E & M & _). rewrite E in R. apply Forall_app in R. destruct R as (_ & R). inversion R; contradiction.
  - assert (NR : forall t', ~ first_with (marked (bs "reply")) (ev_tags e) t').
    { intros t' (a & b & E & M & _). rewrite E in FF. apply Forall_app in FF. destruct FF as (_ & F2). inversion F2; contradiction. }
    destruct (filter names_eventb (ev_tags e)) as [|x f] eqn:EF.
    + cbn [map]. split; [discriminate|]. intros (_ & t' & [R|(_ & R)] & _); [exfalso; exact (NR _ R)|].
      exfalso. destruct R as (a & b & E & N & _). apply names_eventb_iff in N. assert (X : In t' (filter names_eventb (ev_tags e))).
      { apply filter_In. split; [rewrite E; apply in_or_app; right; left; reflexivity|exact N]. } rewrite EF in X. destruct X.
    + cbn [map]. change (info_of x :: map info_of f) with (map info_of (x :: f)). rewrite map_length, nth_error_map. rewrite <- EF.
      destruct (nth_error (filter names_eventb (ev_tags e)) (length (filter names_eventb (ev_tags e)) - 1)) as [t|] eqn:EN; cbn [option_map].
      * apply filter_last in EN. rewrite copy_cut by exact L. split.
        { intros H. split; [exact L|]. exists t. split; [right; auto|]. split; congruence. }
        { intros (_ & t' & [R|(_ & R)] & -> & ->); [exfalso; exact (NR _ R)|]. rewrite (last_with_fun _ _ _ _ EN R). reflexivity. }
      * exfalso. apply nth_error_None in EN. rewrite EF in EN. cbn [length] in EN. lia.
Qed.
(** Nothing else happens: the other outcomes are errors. *)
Theorem C43_defined : forall e ids rs, get_root_id e ids rs <> Undef /\ get_reply_id e ids rs <> Undef /\
  (65 <= ids -> (get_root_id e ids rs = Err ENotFound <-> Forall (fun t => ~ names_event t) (ev_tags e))).
Proof.
  intros e ids rs. unfold get_root_id, get_reply_id, find_e_tag_by_marker. rewrite collect_eq. cbn [bind negb].
  split.
  { destruct (ids <? 65); [discriminate|]. destruct (map info_of (filter names_eventb (ev_tags e))); [discriminate|]. destruct (find _ _); discriminate. }
  split.
  { destruct (ids <? 65); [discriminate|]. destruct (map info_of (filter names_eventb (ev_tags e))); [discriminate|].
    destruct (find _ _); [discriminate|]. destruct (nth_error _ _); discriminate. }
  intros L. rewrite (proj2 (N.ltb_ge _ _)) by exact L. destruct (filter names_eventb (ev_tags e)) as [|x f] eqn:EF; cbn [map].
  - split; [intros _|reflexivity]. apply Forall_forall. intros t I N. apply names_eventb_iff in N.
    assert (X : In t (filter names_eventb (ev_tags e))) by (apply filter_In; auto). rewrite EF in X. destruct X.
  - split; [destruct (find _ _); discriminate|]. intros F. apply filter_first in EF. destruct EF as (a & b & E & N & _).
    rewrite E in F. apply Forall_app in F. destruct F as (_ & F). inversion F; contradiction.
Qed.

(** Reading back what was added, on an event without earlier markers. *)
Lemma e_tag_marked id relay m pk : marked m (e_tag id relay m pk).
Proof. split; [eexists _, _; reflexivity|]. destruct pk; reflexivity. Qed.
Theorem C43_roundtrip : forall max e root rr rp reply pr pp ts ids rs,
  add_reply_tags max (ev_tags e) (Some root) rr rp (Some reply) pr pp = (ts, Ok tt) ->
  Forall (fun t => ~ marked (bs "root") t /\ ~ marked (bs "reply") t) (ev_tags e) -> 65 <= ids ->
  (length root <= 64)%nat -> (length reply <= 64)%nat ->
  forall e', ev_tags e' = ts ->
  get_root_id e' ids rs = Ok (root, cut (N.min 255 (rs - 1)) (match rr with Some x => x | None => [] end)) /\
  get_reply_id e' ids rs = Ok (reply, cut (N.min 255 (rs - 1)) (match pr with Some x => x | None => [] end)).
Proof.
  intros max e root rr rp reply pr pp ts ids rs H F L LR LP e' E.
  unfold add_reply_tags, add_tag10 in H. destruct (max <=? length (ev_tags e))%nat; [discriminate|]. destruct (max <=? _)%nat; [discriminate|].
  assert (ET : ts = ev_tags e ++ [e_tag root rr (bs "root") rp; e_tag reply pr (bs "reply") pp]).
  { assert (X : (ev_tags e ++ [e_tag root rr (bs "root") rp]) ++ [e_tag reply pr (bs "reply") pp] = ts) by congruence. rewrite <- X, <- app_assoc. reflexivity. }
  assert (FR : Forall (fun t => ~ marked (bs "root") t) (ev_tags e)) by (eapply Forall_impl; [|exact F]; cbv beta; tauto).
  assert (FP : Forall (fun t => ~ marked (bs "reply") t) (ev_tags e)) by (eapply Forall_impl; [|exact F]; cbv beta; tauto).
  split.
  - apply C43_root. split; [exact L|]. exists (e_tag root rr (bs "root") rp). split.
    + left. exists (ev_tags e), [e_tag reply pr (bs "reply") pp]. rewrite E, ET. split; [reflexivity|]. split; [apply e_tag_marked|exact FR].
    + split; [|destruct rp; reflexivity]. unfold cut. symmetry. apply firstn_all2. destruct rp; cbn [e_tag tag_id nth app]; lia.
  - apply C43_reply. split; [exact L|]. exists (e_tag reply pr (bs "reply") pp). split.
    + left. exists (ev_tags e ++ [e_tag root rr (bs "root") rp]), []. rewrite E, ET, <- app_assoc. split; [reflexivity|]. split; [apply e_tag_marked|].
      apply Forall_app. split; [exact FP|]. constructor; [|constructor]. intros (_ & X). destruct rp; discriminate.
    + split; [|destruct pp; reflexivity]. unfold cut. symmetry. apply firstn_all2. destruct pp; cbn [e_tag tag_id nth app]; lia.
Qed.
(** Longer identifiers are accepted but do not come back. *)
Theorem C43_refuted : ~ (forall max e root ts ids rs, add_reply_tags max (ev_tags e) (Some root) None None None None None = (ts, Ok tt) ->
  Forall (fun t => ~ marked (bs "root") t) (ev_tags e) -> 65 <= ids ->
  forall e', ev_tags e' = ts -> exists relay, get_root_id e' ids rs = Ok (root, relay)).
Proof.
  intros H. specialize (H 10%nat (mkEvent [] [] 0 1 [] None []) (repeat 97 65) _ 100 0 eq_refl (Forall_nil _) ltac:(discriminate)
    (mkEvent [] [] 0 1 [e_tag (repeat 97 65) None (bs "root") None] None []) eq_refl).
  destruct H as (relay & H). vm_compute in H. discriminate.
Qed.
(** When the tag limit is reached in between, the root tag has been added. *)
Theorem C43_atomic_refuted : ~ (forall max ts root reply ts' e, add_reply_tags max ts (Some root) None None (Some reply) None None = (ts', Err e) -> ts' = ts).
Proof. intros H. specialize (H 1%nat [] [] [] _ _ eq_refl). discriminate. Qed.
(** Adding the tags of a reply fails exactly if there is nothing to refer to or
    no room for them, always as an invalid parameter; the tags that were there stay. *)
Theorem C43_refused : forall max ts root rr rp reply pr pp,
  let wanted := (match root with Some _ => 1 | None => 0 end + match reply with Some _ => 1 | None => 0 end)%nat in
  let r := add_reply_tags max ts root rr rp reply pr pp in
  (snd r = Ok tt <-> (0 < wanted)%nat /\ (length ts + wanted <= max)%nat) /\
  (snd r = Ok tt \/ snd r = Err EInvalidParam) /\
  exists added, fst r = ts ++ added /\ (length added <= wanted)%nat /\ (snd r = Ok tt -> length added = wanted).
Proof.
  intros max ts root rr rp reply pr pp. unfold add_reply_tags, add_tag10.
  destruct root as [a|], reply as [b|]; cbn zeta.
  - destruct (Nat.leb_spec max (length ts)); cbn [fst snd].
    + split; [split; [discriminate|lia]|]. split; [auto|]. exists []. rewrite app_nil_r. cbn [length]. split; [reflexivity|]. split; [lia|discriminate].
    + rewrite app_length. cbn [length]. destruct (Nat.leb_spec max (length ts + 1)); cbn [fst snd].
      * split; [split; [discriminate|lia]|]. split; [auto|]. eexists. split; [reflexivity|]. cbn [length]. split; [lia|discriminate].
      * split; [split; [lia|reflexivity]|]. split; [auto|]. eexists. rewrite <- app_assoc. split; [reflexivity|]. cbn. split; lia.
  - destruct (Nat.leb_spec max (length ts)); cbn [fst snd].
    + split; [split; [discriminate|lia]|]. split; [auto|]. exists []. rewrite app_nil_r. cbn [length]. split; [reflexivity|]. split; [lia|discriminate].
    + split; [split; [lia|reflexivity]|]. split; [auto|]. eexists. split; [reflexivity|]. cbn. split; lia.
  - destruct (Nat.leb_spec max (length ts)); cbn [fst snd].
    + split; [split; [discriminate|lia]|]. split; [auto|]. exists []. rewrite app_nil_r. cbn [length]. split; [reflexivity|]. split; [lia|discriminate].
    + split; [split; [lia|reflexivity]|]. split; [auto|]. eexists. split; [reflexivity|]. cbn. split; lia.
  - cbn [fst snd]. split; [split; [discriminate|lia]|]. split; [auto|]. exists []. rewrite app_nil_r. cbn [length]. split; [reflexivity|]. split; [lia|discriminate].
Qed.
Example C43_refused_meets : snd (add_reply_tags 3 [[bs "t"; bs "x"]; [bs "t"; bs "y"]] (Some (bs "r1")) None None (Some (bs "r2")) None None) = Err EInvalidParam /\
  snd (add_reply_tags 4 [[bs "t"; bs "x"]; [bs "t"; bs "y"]] (Some (bs "r1")) None None (Some (bs "r2")) None None) = Ok tt.
Proof. split; reflexivity. Qed.
Example C43_meets : let ts := fst (add_reply_tags 100 [[bs "p"; bs "x"]; [bs "e"; bs "m"; []; bs "mention"]] (Some (bs "r1")) (Some (bs "wss://r")) None (Some (bs "r2")) None (Some (bs "pk"))) in
  get_root_id (mkEvent [] [] 0 1 ts None []) 65 100 = Ok (bs "r1", bs "wss://r") /\ get_reply_id (mkEvent [] [] 0 1 ts None []) 65 5 = Ok (bs "r2", []).
Proof. split; reflexivity. Qed.

(** ** C78 *)
(** Mentioning an event does not make a reply: fails, the last e tag counts
    whatever its marker. *)
Theorem C78_refuted : ~ (forall e, Forall (fun t => names_event t -> marked (bs "mention") t) (ev_tags e) -> is_reply e = Ok false).
Proof.
  intros H. specialize (H (mkEvent [] [] 0 1 [[bs "e"; bs "id"; []; bs "mention"]] None [])). vm_compute in H.
  assert (X : Ok true = Ok false) by (apply H; repeat constructor; exists (bs "id"), [[]; bs "mention"]; reflexivity). discriminate.
Qed.
(** Partial: an event is reported as a reply exactly if its parent tag exists and
    names something; without e tags it is not.  Missing: excluding mentions. *)
Theorem C78_exact_partial : forall e, is_reply e = Ok true <-> exists t, reply_tag (ev_tags e) t /\ tag_id t <> [].
Proof.
  intros e. unfold is_reply. pose proof (C43_reply e 65 0) as R. destruct (get_reply_id e 65 0) as [[id relay]| |] eqn:G.
  - destruct (proj1 (R id relay) eq_refl) as (_ & t & RT & E & _). split.
    + destruct id as [|c id]; [discriminate|]. intros _. exists t. split; [exact RT|]. intros X. rewrite X in E. discriminate.
    + intros (t' & RT' & NE). assert (X : (id, relay) = (cut 64 (tag_id t'), cut (N.min 255 (0 - 1)) (tag_relay t'))).
      { assert (X : Ok (id, relay) = Ok (cut 64 (tag_id t'), cut (N.min 255 (0 - 1)) (tag_relay t'))); [|congruence].
        apply R. split; [lia|]. exists t'. auto. }
      assert (EI : id = cut 64 (tag_id t')) by congruence. rewrite EI. unfold cut. destruct (tag_id t'); [congruence|]. reflexivity.
  - split; [discriminate|]. intros (t & RT & _). exfalso.
    assert (X : @Err (list N * list N) e0 = Ok (cut 64 (tag_id t), cut (N.min 255 (0 - 1)) (tag_relay t))) by (apply R; split; [lia|]; exists t; auto). discriminate.
  - exfalso. destruct (C43_defined e 65 0) as (_ & X & _). exact (X G).
Qed.
Theorem C78_none : forall e, Forall (fun t => ~ names_event t) (ev_tags e) -> is_reply e = Ok false.
Proof.
  intros e F. destruct (is_reply e) as [[|]| |] eqn:I; [|reflexivity| |].
  - apply C78_exact_partial in I. destruct I as (t & [(a & b & E & (N & _) & _)|(_ & a & b & E & N & _)] & _);
      rewrite E in F; apply Forall_app in F; destruct F as (_ & F); inversion F; contradiction.
  - exfalso. unfold is_reply in I. destruct (get_reply_id e 65 0) as [[[|]]| |]; discriminate.
  - exfalso. unfold is_reply in I. destruct (get_reply_id e 65 0) as [[[|]]| |] eqn:G; try discriminate. destruct (C43_defined e 65 0) as (_ & X & _). exact (X G).
Qed.
Example C78_meets : is_reply (mkEvent [] [] 0 1 [[bs "e"; bs "id"]] None []) = Ok true.
Proof. reflexivity. Qed.

Print Assumptions C43_root.
Print Assumptions C43_reply.
Print Assumptions C43_defined.
Print Assumptions C43_roundtrip.
Print Assumptions C43_refuted.
Print Assumptions C43_atomic_refuted.
Print Assumptions C78_refuted.
Print Assumptions C78_exact_partial.
Print Assumptions C78_none.
Print Assumptions C43_field_exact.
Print Assumptions C43_refused.
