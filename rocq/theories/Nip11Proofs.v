(** Lemmas for Nip11Props.v: the tree the serializer builds. *)
From Verif Require Import Base BaseFacts Heap Json EventProofs RelayMemProps EventMem EventMemSpec EventMemProps CjsonMem CjsonMemProofs EventOomSpec EventOomProps Nip46Spec Nip46Props RelayFilterProps Nip11 Nip11Spec.
From Coq Require Import Permutation.
Open Scope nat_scope.

(** ** Arrays *)
Lemma elements_iff {A} (a : carray A) l : elements a = Some l <-> lists a l.
Proof.
  unfold elements, lists. destruct a as [p n]. cbn [a_ptr a_count]. destruct n as [|n].
  - split; [intros E; left; split; congruence|]. intros [(_ & ->)|(m & _ & L)]; [reflexivity|]. destruct l; [reflexivity|discriminate].
  - destruct p as [x|].
    + destruct (S n <=? length x) eqn:L.
      * apply Nat.leb_le in L. split.
        -- intros E. right. exists (skipn (S n) x). assert (l = firstn (S n) x) by congruence. subst l. rewrite firstn_skipn, firstn_length. split; [reflexivity|lia].
        -- intros [(Q & _)|(m & Q & C)]; [discriminate|]. assert (x = l ++ m) by congruence. subst x. rewrite C, firstn_app, Nat.sub_diag, firstn_all. cbn [firstn]. rewrite app_nil_r. reflexivity.
      * split; [discriminate|]. apply Nat.leb_gt in L. intros [(Q & _)|(m & Q & C)]; [discriminate|]. assert (x = l ++ m) by congruence. subst x. rewrite app_length in L. lia.
    + split; [discriminate|]. intros [(Q & _)|(m & Q & C)]; discriminate.
Qed.
Definition els {A} (a : carray A) : list A := match elements a with Some l => l | None => [] end.
Definition els_opt {A} (a : carray A) : list A := if has a then els a else [].
Lemma els_lists {A} (a : carray A) l : lists a l -> els a = l.
Proof. intros L. unfold els. rewrite (proj2 (elements_iff a l) L). reflexivity. Qed.
Lemma els_opt_lists {A} (a : carray A) l : lists_opt a l -> els_opt a = l /\ (has a = true -> elements a = Some l).
Proof.
  unfold els_opt, has. intros [(P & ->)|(P & L)].
  - rewrite P, andb_false_r. split; [reflexivity|discriminate].
  - destruct (a_ptr a) as [x|] eqn:PA; [|congruence]. rewrite andb_true_r. pose proof (proj2 (elements_iff a l) L) as E. rewrite (els_lists a l L). split; [|auto].
    destruct (a_count a) eqn:C; [|reflexivity]. unfold elements in E. rewrite C in E. cbn. congruence.
Qed.
Lemma has_nonempty {A} (a : carray A) l : lists_opt a l -> has a = match l with [] => false | _ => true end.
Proof.
  intros L. unfold has. destruct L as [(P & ->)|(P & L)]; [rewrite P; apply andb_false_r|]. destruct (a_ptr a); [|congruence]. rewrite andb_true_r.
  destruct L as [(C & ->)|(m & _ & C)]; rewrite C; [reflexivity|]. destruct l; reflexivity.
Qed.
Lemma lists_opt_det {A} (a : carray A) l l' : lists_opt a l -> lists_opt a l' -> l = l'.
Proof. intros L L'. destruct (els_opt_lists a l L) as (<- & _). destruct (els_opt_lists a l' L') as (<- & _). reflexivity. Qed.
Lemma lists_det {A} (a : carray A) l l' : lists a l -> lists a l' -> l = l'.
Proof. intros L L'. rewrite <- (els_lists a l L). apply els_lists, L'. Qed.

Section Build.
Variable grant : nat -> bool.
Notation granted := (granted grant).
Notation built := (built grant).
Notation builds := (builds grant).
Definition grows (f : option node -> M (option node)) (ms : list (list N * json)) : Prop :=
  forall h0 o l rest h, built h0 o (JObj l) rest h -> exists o' h', f o h = Ok (o', h') /\ built h0 o' (JObj (l ++ ms)) rest h'.
Lemma grows_seq f g m1 m2 : grows f m1 -> grows g m2 -> grows (fun o => let! o' := f o in g o') (m1 ++ m2).
Proof.
  intros F G h0 o l rest h B. destruct (F h0 o l rest h B) as (o1 & h1 & E1 & B1). rewrite (mbind_ok _ _ _ _ _ E1). rewrite app_assoc. apply G, B1.
Qed.
Lemma grows_none : grows (fun o => mret o) [].
Proof. intros h0 o l rest h B. exists o, h. rewrite app_nil_r. auto. Qed.
Lemma grows_new key m j : builds m j -> grows (fun o => add_new grant o key m) [(key, j)].
Proof. intros MB h0 o l rest h B. apply (object_new grant h0 o l rest h key m j B MB). Qed.
Lemma grows_item key m j : builds m j -> grows (fun o => let! x := m in add_to_object grant o key x) [(key, j)].
Proof.
  intros MB h0 o l rest h B. destruct (object_add grant h0 o l rest h key m j B MB) as (x & h1 & o' & h' & E & E' & B'). exists o', h'. rewrite (mbind_ok _ _ _ _ _ E). auto.
Qed.
Lemma builds_object f ms : grows f ms -> builds (let! o := create grant (JObj []) in f o) (JObj ms).
Proof.
  intros F h rest X. destruct (create_builds grant (JObj []) h rest X) as (o & h1 & E & B). rewrite (mbind_ok _ _ _ _ _ E). apply (F h o [] rest h1 B).
Qed.
(** an item that may be NULL by design *)
Definition vanishes (m : M (option node)) : Prop := forall h rest, holds h rest -> exists h', m h = Ok (None, h') /\ h_next h <= h_next h' /\ holds h' rest.
Definition makes (m : M (option node)) (js : list json) : Prop := (exists j, js = [j] /\ builds m j) \/ (js = [] /\ vanishes m).
Lemma put_items_ok {A} (make : A -> M (option node)) (f : A -> list json) (l : list A) : Forall (fun x => makes (make x) (f x)) l ->
  forall h0 a k rest h, built h0 a (JArr k) rest h -> exists a' h', put_items make a l h = Ok (a', h') /\ built h0 a' (JArr (k ++ flat_map f l)) rest h'.
Proof.
  induction l as [|x l IH]; intros F h0 a k rest h B; cbn [put_items flat_map].
  - exists a, h. rewrite app_nil_r. auto.
  - inversion_clear F as [|? ? M1 ML]. rewrite app_assoc. destruct M1 as [(j & -> & MB)|(-> & V)].
    + destruct (array_add grant h0 a k rest h _ _ B MB) as (i & h1 & E & B1). rewrite (mbind_ok _ _ _ _ _ E). apply IH; [exact ML|exact B1].
    + pose proof B as [N0 T0 (lost & X0 & G0)]. destruct (V h _ X0) as (h1 & E & L1 & X1). rewrite (mbind_ok _ _ _ _ _ E).
      replace (add_to_array a None) with a by (destruct a as [[[] ?]|]; reflexivity). rewrite app_nil_r. apply IH; [exact ML|]. constructor; [lia|exact T0|].
      exists lost. split; [exact X1|]. intros G. apply G0. apply (granted_less _ _ _ _ _ G); lia.
Qed.
Lemma array_builds {A} (make : A -> M (option node)) (f : A -> list json) (a : carray A) l : elements a = Some l -> Forall (fun x => makes (make x) (f x)) l ->
  builds (array_of grant make a) (JArr (flat_map f l)).
Proof.
  intros E F h rest X. unfold array_of. destruct (create_builds grant (JArr []) h rest X) as (o & h1 & E1 & B). rewrite (mbind_ok _ _ _ _ _ E1), E. apply (put_items_ok make f l F h o [] rest h1 B).
Qed.
Lemma number_makes z : makes (make_number grant z) [jint z].
Proof. left. eexists. split; [reflexivity|]. apply create_builds. Qed.
Lemma text_makes s : makes (make_text grant s) (match s with Some s => [JStr s] | None => [] end).
Proof.
  destruct s as [s|]; [left; eexists; split; [reflexivity|apply string_builds]|]. right. split; [reflexivity|]. intros h rest X. unfold make_text.
  destruct (ealloc_two grant h _ X) as [(q & h1 & E & X1 & L1)|(h1 & E & X1 & L1 & F)]; rewrite (mbind_ok _ _ _ _ _ E).
  - destruct (free_holds _ _ _ X1) as (h2 & E2 & X2 & L2). rewrite (mbind_ok _ _ _ _ _ E2). exists h2. split; [reflexivity|]. split; [lia|exact X2].
  - exists h1. split; [reflexivity|]. split; [lia|exact X1].
Qed.

(** ** The trees *)
Definition mtext (k : list N) (s : option (list N)) : list (list N * json) := match s with Some s => [(k, JStr s)] | None => [] end.
Definition mpos (k : list N) (z : Z) : list (list N * json) := if (0 <? z)%Z then [(k, jint z)] else [].
Definition mlist {A} (k : list N) (f : A -> json) (l : list A) : list (list N * json) := match l with [] => [] | _ => [(k, JArr (flat_map (fun x => [f x]) l))] end.
Definition mtexts (k : list N) (l : list (option (list N))) : list (list N * json) :=
  match l with [] => [] | _ => [(k, JArr (flat_map (fun s => match s with Some s => [JStr s] | None => [] end) l))] end.
Lemma text_grows k s : grows (fun o => put_text grant o k s) (mtext k s).
Proof. destruct s; [apply grows_new, string_builds|apply grows_none]. Qed.
Lemma number_grows k z : grows (fun o => put_number grant o k z) [(k, jint z)].
Proof. apply grows_new, create_builds. Qed.
Lemma pos_grows k z : grows (fun o => put_positive grant o k z) (mpos k z).
Proof. unfold put_positive, mpos. destruct (0 <? z)%Z; [apply number_grows|apply grows_none]. Qed.
Lemma bool_grows k b : grows (fun o => put_bool grant o k b) [(k, JBool b)].
Proof. apply grows_new, create_builds. Qed.
Definition limit_members (l : limitation) : list (list N * json) :=
  mpos (bs "max_message_length") (l_message l) ++ mpos (bs "max_subscriptions") (l_subs l) ++ mpos (bs "max_filters") (l_filters l) ++ mpos (bs "max_limit") (l_limit l) ++
  mpos (bs "max_subid_length") (l_subid l) ++ mpos (bs "max_event_tags") (l_tags l) ++ mpos (bs "max_content_length") (l_content l) ++ mpos (bs "min_pow_difficulty") (l_pow l) ++
  [(bs "auth_required", JBool (l_auth l))] ++ [(bs "payment_required", JBool (l_payment l))] ++ [(bs "restricted_writes", JBool (l_writes l))] ++
  mpos (bs "created_at_lower_limit") (l_lower l) ++ mpos (bs "created_at_upper_limit") (l_upper l) ++ mpos (bs "default_limit") (l_default l).
Lemma limits_grow l : grows (fun o => put_limits grant o l) (limit_members l).
Proof.
  unfold put_limits, limit_members. repeat (apply grows_seq; [first [apply pos_grows|apply bool_grows]|]). apply pos_grows.
Qed.
Lemma list_grows {A} k (make : A -> M (option node)) (f : A -> json) (a : carray A) l : lists_opt a l -> Forall (fun x => builds (make x) (f x)) l ->
  grows (fun o => put_array grant make o k a) (mlist k f l).
Proof.
  intros L F. unfold put_array. rewrite (has_nonempty a l L). destruct l as [|x l]; [apply grows_none|]. apply grows_item. apply array_builds.
  - apply (els_opt_lists a _ L). rewrite (has_nonempty a _ L). reflexivity.
  - eapply Forall_impl; [|exact F]. intros y Y. left. eexists. split; [reflexivity|exact Y].
Qed.
Lemma texts_grow k (a : carray (option (list N))) l : lists_opt a l -> grows (fun o => put_array grant (make_text grant) o k a) (mtexts k l).
Proof.
  intros L. unfold put_array. rewrite (has_nonempty a l L). destruct l as [|x l]; [apply grows_none|]. apply grows_item.
  apply (array_builds _ (fun s => match s with Some s => [JStr s] | None => [] end)).
  - apply (els_opt_lists a _ L). rewrite (has_nonempty a _ L). reflexivity.
  - apply Forall_forall. intros y _. apply text_makes.
Qed.
Definition ret_members (r : retention) : list (list N * json) :=
  mlist (bs "kinds") jint (els (r_kinds r)) ++ (if (r_time r =? 0)%Z then [] else [(bs "time", jint (r_time r))]) ++ mpos (bs "count") (r_count r).
Lemma retention_builds r : in_order (r_kinds r) -> builds (make_retention grant r) (JObj (ret_members r)).
Proof.
  intros (l & L). unfold make_retention, ret_members. apply builds_object. apply grows_seq; [|apply grows_seq; [destruct (r_time r =? 0)%Z; [apply grows_none|apply number_grows]|apply pos_grows]].
  rewrite (els_lists _ _ L). pose proof (proj2 (elements_iff _ _) L) as E. destruct l as [|x l].
  - assert (C : a_count (r_kinds r) = 0) by (destruct L as [(C & _)|(m & _ & C)]; exact C). rewrite C. apply grows_none.
  - assert (C : a_count (r_kinds r) <> 0) by (destruct L as [(_ & C)|(m & _ & C)]; [discriminate|rewrite C; discriminate]). destruct (Nat.ltb_spec 0 (a_count (r_kinds r))); [|lia].
    apply grows_item. apply array_builds; [exact E|]. apply Forall_forall. intros y _. apply number_makes.
Qed.
Definition adm_members (f : fee) : list (list N * json) := [(bs "amount", jint (Z.of_N (f_amount f)))] ++ mtext (bs "unit") (f_unit f).
Lemma admission_builds f : builds (make_admission grant f) (JObj (adm_members f)).
Proof. unfold make_admission, adm_members. apply builds_object. apply grows_seq; [apply number_grows|apply text_grows]. Qed.
Definition sub_members (f : fee) : list (list N * json) := adm_members f ++ mpos (bs "period") (f_period f).
Lemma subscription_builds f : builds (make_subscription grant f) (JObj (sub_members f)).
Proof.
  intros h rest X. unfold make_subscription. destruct (admission_builds f h rest X) as (o & h1 & E & B). rewrite (mbind_ok _ _ _ _ _ E). apply (pos_grows _ _ _ _ _ _ _ B).
Qed.
Definition pub_members (f : fee) : list (list N * json) := mlist (bs "kinds") jint (els_opt (f_kinds f)) ++ adm_members f.
Lemma publication_builds f : fee_ok f -> builds (make_publication grant f) (JObj (pub_members f)).
Proof.
  intros (l & L). unfold make_publication, pub_members. apply builds_object. apply grows_seq; [|apply grows_seq; [apply number_grows|apply text_grows]].
  destruct (els_opt_lists _ _ L) as (-> & _). apply (list_grows (bs "kinds") (make_number grant) jint _ l L). apply Forall_forall. intros y _. apply create_builds.
Qed.
Definition fee_members (i : info) : list (list N * json) :=
  mlist (bs "admission") (fun f => JObj (adm_members f)) (els_opt (i_admission i)) ++ mlist (bs "subscription") (fun f => JObj (sub_members f)) (els_opt (i_subscription i)) ++
  mlist (bs "publication") (fun f => JObj (pub_members f)) (els_opt (i_publication i)).
Definition head_members (i : info) : list (list N * json) :=
  mtext (bs "name") (i_name i) ++ mtext (bs "description") (i_description i) ++ mtext (bs "banner") (i_banner i) ++ mtext (bs "icon") (i_icon i) ++
  mtext (bs "pubkey") (i_pubkey i) ++ mtext (bs "self") (i_self i) ++ mtext (bs "contact") (i_contact i).
Definition mid_members (i : info) : list (list N * json) :=
  mtext (bs "software") (i_software i) ++ mtext (bs "version") (i_version i) ++ mtext (bs "privacy_policy") (i_privacy i) ++ mtext (bs "terms_of_service") (i_terms i).
Definition rest_members (i : info) : list (list N * json) :=
  mlist (bs "retention") (fun r => JObj (ret_members r)) (els_opt (i_retention i)) ++ mtexts (bs "relay_countries") (els_opt (i_countries i)) ++
  mtexts (bs "language_tags") (els_opt (i_langs i)) ++ mtexts (bs "tags") (els_opt (i_tags i)) ++ mtext (bs "posting_policy") (i_posting i) ++
  mtext (bs "payments_url") (i_payments i) ++ (if has_fees i then [(bs "fees", JObj (fee_members i))] else []).
Definition info_members (i : info) : list (list N * json) :=
  head_members i ++ [(bs "supported_nips", JArr (map jint (els (i_nips i))))] ++ mid_members i ++ [(bs "limitation", JObj (limit_members (i_lim i)))] ++ rest_members i.
Lemma fees_build i : info_ok i -> builds (make_fees grant i) (JObj (fee_members i)).
Proof.
  intros [_ _ _ _ _ (l1 & A1) (l2 & A2) (l3 & A3 & F3)]. unfold make_fees, fee_members. apply builds_object.
  destruct (els_opt_lists _ _ A1) as (-> & _). destruct (els_opt_lists _ _ A2) as (-> & _). destruct (els_opt_lists _ _ A3) as (-> & _).
  apply grows_seq; [|apply grows_seq].
  - apply list_grows; [exact A1|]. apply Forall_forall. intros y _. apply admission_builds.
  - apply list_grows; [exact A2|]. apply Forall_forall. intros y _. apply subscription_builds.
  - apply list_grows; [exact A3|]. eapply Forall_impl; [|exact F3]. intros y Y. apply publication_builds, Y.
Qed.
Lemma rest_grows i : info_ok i -> grows (fun o => put_rest grant o i) (rest_members i).
Proof.
  intros OK. pose proof OK as [_ (l1 & A1 & F1) (l2 & A2) (l3 & A3) (l4 & A4) _ _ _]. unfold put_rest, rest_members.
  destruct (els_opt_lists _ _ A1) as (-> & _). destruct (els_opt_lists _ _ A2) as (-> & _). destruct (els_opt_lists _ _ A3) as (-> & _). destruct (els_opt_lists _ _ A4) as (-> & _).
  apply grows_seq; [apply list_grows; [exact A1|eapply Forall_impl; [|exact F1]; intros y Y; apply retention_builds, Y]|].
  apply grows_seq; [apply texts_grow, A2|]. apply grows_seq; [apply texts_grow, A3|]. apply grows_seq; [apply texts_grow, A4|].
  apply grows_seq; [apply text_grows|]. apply grows_seq; [apply text_grows|].
  destruct (has_fees i); [|apply grows_none]. apply grows_item, fees_build, OK.
Qed.
End Build.

(** ** Reading the trees *)
Lemma jfind_app k l1 l2 : jfind k (l1 ++ l2) = match jfind k l1 with Some v => Some v | None => jfind k l2 end.
Proof. induction l1 as [|(k', v) l1 IH]; [reflexivity|]. cbn [app jfind]. destruct (beq _ _); [reflexivity|exact IH]. Qed.
Lemma jfind_one k k' v : jfind k [(k', v)] = if beq (map tolower k') (map tolower k) then Some v else None.
Proof. reflexivity. Qed.
Lemma jfind_mtext k k' s : jfind k (mtext k' s) = if beq (map tolower k') (map tolower k) then option_map JStr s else None.
Proof. destruct s; cbn [mtext jfind]; [reflexivity|]. destruct (beq _ _); reflexivity. Qed.
Lemma jfind_mpos k k' z : jfind k (mpos k' z) = if beq (map tolower k') (map tolower k) then (if (0 <? z)%Z then Some (jint z) else None) else None.
Proof. unfold mpos. destruct (0 <? z)%Z; cbn [jfind]; [reflexivity|]. destruct (beq _ _); reflexivity. Qed.
Definition olist {A} (f : A -> list json) (l : list A) : option json := match l with [] => None | _ => Some (JArr (flat_map f l)) end.
Lemma jfind_mlist {A} k k' (f : A -> json) l : jfind k (mlist k' f l) = if beq (map tolower k') (map tolower k) then olist (fun x => [f x]) l else None.
Proof. destruct l; cbn [mlist jfind olist]; [|reflexivity]. destruct (beq _ _); reflexivity. Qed.
Lemma jfind_mtexts k k' l : jfind k (mtexts k' l) = if beq (map tolower k') (map tolower k) then olist (fun s => match s with Some s => [JStr s] | None => [] end) l else None.
Proof. destruct l; cbn [mtexts jfind olist]; [|reflexivity]. destruct (beq _ _); reflexivity. Qed.
Lemma jfind_when k (b : bool) k' v : jfind k (if b then [(k', v)] else []) = if beq (map tolower k') (map tolower k) then (if b then Some v else None) else None.
Proof. destruct b; cbn [jfind]; [reflexivity|]. destruct (beq _ _); reflexivity. Qed.
Lemma jfind_unless k (b : bool) k' v : jfind k (if b then [] else [(k', v)]) = if beq (map tolower k') (map tolower k) then (if b then None else Some v) else None.
Proof. destruct b; cbn [jfind]; [|reflexivity]. destruct (beq _ _); reflexivity. Qed.
Ltac keys := repeat rewrite ?jfind_app, ?jfind_mtext, ?jfind_mpos, ?jfind_mlist, ?jfind_mtexts, ?jfind_when, ?jfind_unless, ?jfind_one;
  repeat match goal with |- context [beq (map tolower ?a) (map tolower ?b)] => let r := eval vm_compute in (beq (map tolower a) (map tolower b)) in change (beq (map tolower a) (map tolower b)) with r end;
  cbv iota.
Lemma keep {A} (o : option A) : match o with Some v => Some v | None => None end = o.
Proof. destruct o; reflexivity. Qed.
Lemma found l k r : jfind k l = r -> forall v, gives (JObj l) k v <-> r = Some v.
Proof. intros E v. rewrite <- E. symmetry. apply jfind_gives. Qed.
Lemma text_says l k s : jfind k l = option_map JStr s -> says_text (JObj l) k s.
Proof. intros E v. rewrite (found _ _ _ E). destruct s as [s|]; cbn [option_map]; split; [intros Q; exists s; split; congruence|intros (x & Q & ->); congruence|discriminate|intros (x & Q & _); discriminate]. Qed.
Lemma jint_small z : small z -> jint z = number z.
Proof. intros B. unfold jint, number. rewrite round53_max; [reflexivity|exact B]. Qed.
Lemma pos_says l k z : small z -> jfind k l = (if (0 <? z)%Z then Some (jint z) else None) -> says_positive (JObj l) k z.
Proof.
  intros B E v. rewrite (found _ _ _ E), (jint_small z B). destruct (Z.ltb_spec 0 z); split; [intros Q; split; [assumption|congruence]|intros (_ & ->); reflexivity|discriminate|lia].
Qed.
Lemma flat_one {A} (f : A -> json) l : flat_map (fun x => [f x]) l = map f l.
Proof. induction l; [reflexivity|]. cbn [flat_map map app]. congruence. Qed.
Lemma list_says {A} l k (f : A -> json) (x : list A) (is : A -> json -> Prop) : jfind k l = olist (fun x => [f x]) x -> Forall (fun y => is y (f y)) x -> says_list (JObj l) k x is.
Proof.
  intros E F. unfold says_list. pose proof (found _ _ _ E) as G. destruct x as [|y x].
  - intros v V. apply G in V. discriminate.
  - exists (map f (y :: x)). split; [apply G; unfold olist; rewrite flat_one; reflexivity|]. clear E G. induction F; constructor; auto.
Qed.
Lemma texts_say l k x : jfind k l = olist (fun s => match s with Some s => [JStr s] | None => [] end) x -> says_texts (JObj l) k x.
Proof. intros E. unfold says_texts. pose proof (found _ _ _ E) as G. destruct x as [|y x]; [intros v V; apply G in V; discriminate|apply G; reflexivity]. Qed.
Lemma numbers_are l : Forall small l -> Forall (fun z => is_number z (jint z)) l.
Proof. apply Forall_impl. intros z B. apply jint_small, B. Qed.
Lemma limits_say l : small_limits l -> says_limits (JObj (limit_members l)) l.
Proof.
  unfold small_limits. intros F. repeat match goal with F : Forall small (_ :: _) |- _ => inversion_clear F end.
  constructor; first [apply pos_says; [assumption|]|refine (proj2 (found _ _ (Some _) _ _) eq_refl)]; unfold limit_members; keys; rewrite ?keep; repeat (destruct (0 <? _)%Z; try reflexivity); reflexivity.
Qed.
Lemma retention_says r : in_order (r_kinds r) -> small (r_time r) -> small (r_count r) -> (forall k, lists (r_kinds r) k -> Forall small k) -> is_retention r (JObj (ret_members r)).
Proof.
  intros (l & L) B1 B2 B3. unfold ret_members. rewrite (els_lists _ _ L). split; [|split].
  - exists l. split; [exact L|]. apply (list_says _ _ jint); [keys; rewrite ?keep; destruct l; reflexivity|]. apply numbers_are, B3, L.
  - intros v. rewrite (found _ _ (if (r_time r =? 0)%Z then None else Some (jint (r_time r)))); [|keys; rewrite ?keep; reflexivity].
    rewrite (jint_small _ B1). destruct (Z.eqb_spec (r_time r) 0); split; [discriminate|tauto|intros Q; split; [assumption|congruence]|intros (_ & ->); reflexivity].
  - apply pos_says; [exact B2|]. keys. reflexivity.
Qed.
Lemma admission_says f ms : small_fee f ->
  jfind (bs "amount") ms = Some (jint (Z.of_N (f_amount f))) -> jfind (bs "unit") ms = option_map JStr (f_unit f) -> is_admission f (JObj ms).
Proof. intros (B & _) E1 E2. split; [|apply text_says, E2]. rewrite <- (jint_small _ B). apply (found _ _ _ E1). reflexivity. Qed.
Lemma adm_says f : small_fee f -> is_admission f (JObj (adm_members f)).
Proof. intros B. apply admission_says; [exact B| |]; unfold adm_members; keys; reflexivity. Qed.
Lemma sub_says f : small_fee f -> is_subscription f (JObj (sub_members f)).
Proof.
  intros B. split; [apply admission_says; [exact B| |]|apply pos_says; [apply B|]]; unfold sub_members, adm_members; keys; rewrite ?keep; reflexivity.
Qed.
Lemma pub_says f : fee_ok f -> small_fee f -> is_publication f (JObj (pub_members f)).
Proof.
  intros (l & L) B. unfold pub_members. destruct (els_opt_lists _ _ L) as (-> & _). split; [apply admission_says; [exact B| |]|exists l; split; [exact L|apply (list_says _ _ jint)]].
  - unfold adm_members; keys; reflexivity.
  - unfold adm_members; keys; reflexivity.
  - unfold adm_members; keys; destruct l; reflexivity.
  - apply numbers_are. apply B, L.
Qed.
Lemma fees_say i : info_ok i -> small_info i -> says_fees i (JObj (fee_members i)).
Proof.
  intros [_ _ _ _ _ (l1 & A1) (l2 & A2) (l3 & A3 & F3)] [_ _ _ S1 S2 S3]. specialize (S1 _ A1). specialize (S2 _ A2). specialize (S3 _ A3).
  unfold fee_members. destruct (els_opt_lists _ _ A1) as (-> & _). destruct (els_opt_lists _ _ A2) as (-> & _). destruct (els_opt_lists _ _ A3) as (-> & _).
  split; [|split]; eexists; (split; [eassumption|]); (eapply list_says; [keys; rewrite ?keep; reflexivity|]).
  - eapply Forall_impl; [|exact S1]. intros f B. apply adm_says, B.
  - eapply Forall_impl; [|exact S2]. intros f B. apply sub_says, B.
  - rewrite Forall_forall in *. intros f B. apply pub_says; auto.
Qed.
Lemma charges_iff i : has_fees i = true <-> charges i.
Proof. unfold has_fees, charges. rewrite !Bool.orb_true_iff, !Nat.ltb_lt. lia. Qed.
Lemma info_says i : info_ok i -> small_info i -> announces i (JObj (info_members i)).
Proof.
  intros OK SM. pose proof OK as [(l0 & A0) (l1 & A1 & F1) (l2 & A2) (l3 & A3) (l4 & A4) _ _ _]. pose proof SM as [S0 SL S1 _ _ _]. specialize (S0 _ A0). specialize (S1 _ A1).
  assert (T : forall k s, jfind k (info_members i) = option_map JStr s -> says_text (JObj (info_members i)) k s) by (intros; apply text_says; assumption).
  constructor; try (apply T; unfold info_members, head_members, mid_members, rest_members; keys; rewrite ?keep; reflexivity).
  - exists l0. split; [exact A0|]. apply (found _ _ (Some (JArr (map number l0)))); [|reflexivity]. unfold info_members, head_members, mid_members, rest_members. keys. rewrite (els_lists _ _ A0).
    do 2 f_equal. apply map_ext_in. intros z Z0. rewrite Forall_forall in S0. apply jint_small, S0, Z0.
  - eexists. split; [|apply limits_say, SL]. refine (proj2 (found _ _ (Some _) _ _) eq_refl). unfold info_members, head_members, mid_members, rest_members. keys. reflexivity.
  - exists l1. split; [exact A1|]. eapply list_says; [unfold info_members, head_members, mid_members, rest_members; keys; rewrite ?keep; destruct (els_opt_lists _ _ A1) as (-> & _); reflexivity|].
    rewrite Forall_forall in *. intros r R. destruct (S1 r R) as (? & ? & ?). apply retention_says; auto.
  - exists l2. split; [exact A2|]. apply texts_say. unfold info_members, head_members, mid_members, rest_members; keys; rewrite ?keep; destruct (els_opt_lists _ _ A2) as (-> & _); reflexivity.
  - exists l3. split; [exact A3|]. apply texts_say. unfold info_members, head_members, mid_members, rest_members; keys; rewrite ?keep; destruct (els_opt_lists _ _ A3) as (-> & _); reflexivity.
  - exists l4. split; [exact A4|]. apply texts_say. unfold info_members, head_members, mid_members, rest_members; keys; rewrite ?keep; destruct (els_opt_lists _ _ A4) as (-> & _); reflexivity.
  - assert (E : jfind (bs "fees") (info_members i) = if has_fees i then Some (JObj (fee_members i)) else None) by (unfold info_members, head_members, mid_members, rest_members; keys; rewrite ?keep; reflexivity).
    split; intros C.
    + apply charges_iff in C. rewrite C in E. eexists. split; [apply (found _ _ _ E); reflexivity|]. apply fees_say; assumption.
    + intros v V. apply (found _ _ _ E) in V. destruct (has_fees i) eqn:HF; [|discriminate]. apply C, charges_iff, HF.
Qed.
