(** Theorems about memory in src/relay_filter.c and deletion requests: C51, C90. *)
From Verif Require Import Base BaseFacts Heap Hex Json Event RelayProto RelayProtoProps RelayFilter RelayFilterProps RelayMem RelayMemSpec.
From Coq Require Import Permutation.
Open Scope nat_scope.

Lemma mbind_ok {A B} (m : M A) (f : A -> M B) h a h' : m h = Ok (a, h') -> mbind m f h = f a h'.
Proof. unfold mbind. intros ->. reflexivity. Qed.

(** ** Release *)
Fixpoint free_all (l : list nat) : M unit := match l with [] => mret tt | b :: r => let! _ := hfree (Some b) in free_all r end.
Lemma remove1_perm p l : In p l -> Permutation l (p :: remove1 p l).
Proof.
  induction l as [|q l IH]; [contradiction|]. intros I. cbn [remove1]. destruct (Nat.eqb_spec p q) as [->|N]; [apply Permutation_refl|].
  destruct I as [->|I]; [congruence|]. rewrite (IH I) at 1. apply perm_swap.
Qed.
Lemma live_in i l : In i l -> existsb (Nat.eqb i) l = true.
Proof. intros I. apply existsb_exists. exists i. split; [exact I|apply Nat.eqb_refl]. Qed.
Lemma heap_ok_perm n n' l l' : Permutation l l' -> n <= n' -> heap_ok (mkHeap n l) -> heap_ok (mkHeap n' l').
Proof.
  intros P L (ND & F). split; cbn [h_live h_next] in *; [apply (Permutation_NoDup P ND)|]. apply (Permutation_Forall P).
  eapply Forall_impl; [|exact F]. cbv beta. intros; lia.
Qed.
Lemma free_one b h rest : heap_ok h -> Permutation (h_live h) (b :: rest) ->
  exists h', hfree (Some b) h = Ok (tt, h') /\ heap_ok h' /\ h_next h' = h_next h /\ Permutation (h_live h') rest.
Proof.
  intros OK P. assert (I : In b (h_live h)) by (apply (Permutation_in b (Permutation_sym P)); left; reflexivity).
  unfold hfree. rewrite (live_in b _ I). eexists. split; [reflexivity|]. cbn [h_next h_live].
  assert (Q : Permutation (remove1 b (h_live h)) rest).
  { apply Permutation_cons_inv with b. rewrite <- P. symmetry. apply remove1_perm, I. }
  split; [|split; [reflexivity|exact Q]]. destruct OK as (ND & F). pose proof (remove1_perm b _ I) as R. split; cbn [h_live h_next].
  - apply (Permutation_NoDup R) in ND. inversion ND; assumption.
  - apply (Permutation_Forall R) in F. inversion F; assumption.
Qed.
Lemma free_all_ok l : forall h rest, heap_ok h -> Permutation (h_live h) (l ++ rest) ->
  exists h', free_all l h = Ok (tt, h') /\ heap_ok h' /\ h_next h' = h_next h /\ Permutation (h_live h') rest.
Proof.
  induction l as [|b l IH]; intros h rest OK P; cbn [free_all].
  - exists h. repeat split; auto; apply OK.
  - destruct (free_one b h (l ++ rest) OK P) as (h1 & E & OK1 & N1 & P1). rewrite (mbind_ok _ _ _ _ _ E).
    destruct (IH h1 rest OK1 P1) as (h2 & E2 & OK2 & N2 & P2). exists h2. split; [exact E2|]. split; [exact OK2|]. split; [lia|exact P2].
Qed.
Lemma mbind_assoc {A B C} (m : M A) (f : A -> M B) (g : B -> M C) h : mbind (mbind m f) g h = mbind m (fun a => mbind (f a) g) h.
Proof. unfold mbind. destruct (m h) as [(a, h')| |]; reflexivity. Qed.
Lemma free_all_app l1 : forall l2 h, free_all (l1 ++ l2) h = mbind (free_all l1) (fun _ => free_all l2) h.
Proof.
  induction l1 as [|b l1 IH]; intros l2 h; cbn [free_all app]; [reflexivity|]. rewrite mbind_assoc.
  unfold mbind at 1 2. destruct (hfree (Some b) h) as [(u, h')| |]; [apply IH|reflexivity|reflexivity].
Qed.
Lemma bind_free l (k : unit -> M unit) l2 h : (forall h, k tt h = free_all l2 h) -> mbind (free_all l) k h = free_all (l ++ l2) h.
Proof. intros K. rewrite free_all_app. unfold mbind. destruct (free_all l h) as [([], h')| |]; [apply K|reflexivity|reflexivity]. Qed.
Lemma hfree_all b h : hfree (Some b) h = free_all [b] h.
Proof. cbn [free_all]. unfold mbind. destruct (hfree (Some b) h) as [([], h')| |]; reflexivity. Qed.
Lemma mbind_ext {A B} (m m' : M A) (f f' : A -> M B) h : m h = m' h -> (forall a h, f a h = f' a h) -> mbind m f h = mbind m' f' h.
Proof. intros E F. unfold mbind. rewrite E. destruct (m' h) as [(a, h')| |]; [apply F|reflexivity|reflexivity]. Qed.
Lemma free_cells_all l : forall h, free_cells l h = free_all (map fst l) h.
Proof.
  induction l as [|(b, s) l IH]; intros h; cbn [free_cells map fst free_all]; [reflexivity|]. apply mbind_ext; [reflexivity|]. intros _. exact IH.
Qed.
Lemma free_sarr_all a h : arr_sound a -> free_sarr a h = free_all (arr_blocks a) h.
Proof.
  unfold arr_sound, free_sarr, arr_blocks. destruct (sa_block a) as [b|]; cbn [opt_list].
  - intros _. rewrite <- (bind_free _ (fun _ => hfree (Some b))); [|intros; apply hfree_all]. apply mbind_ext; [apply free_cells_all|reflexivity].
  - intros ->; reflexivity.
Qed.
Lemma hfree_opt (o : option nat) h : hfree o h = free_all (opt_list o) h.
Proof. destruct o; [apply hfree_all|reflexivity]. Qed.
Lemma free_generic_all l : forall h, Forall (fun g => arr_sound (snd g)) l -> free_generic l h = free_all (gen_blocks l) h.
Proof.
  induction l as [|(n, a) l IH]; intros h F; cbn [free_generic gen_blocks flat_map snd]; [reflexivity|]. inversion F as [|? ? SA SL]; subst.
  fold (gen_blocks l). rewrite <- (bind_free _ (fun _ => free_generic l)); [|intros; apply IH, SL].
  apply mbind_ext; [apply free_sarr_all, SA|reflexivity].
Qed.
Lemma filter_free_all f h : filter_sound f -> filter_free f h = (let! _ := free_all (blocks f) in mret zero_filter) h.
Proof.
  intros [S1 S2 S3 S4 S5 S6 S7]. unfold filter_free, blocks. symmetry.
  rewrite (mbind_ext _ (mbind (free_all (arr_blocks (c_ids f))) (fun _ => free_all (arr_blocks (c_authors f) ++ opt_list (fst (c_kinds f)) ++ arr_blocks (c_e f) ++ arr_blocks (c_p f) ++
    gen_blocks (c_generic f) ++ opt_list (c_gblock f) ++ opt_list (option_map fst (c_search f))))) _ _ h (free_all_app _ _ h) (fun a h => eq_refl)).
  rewrite mbind_assoc. apply mbind_ext; [symmetry; apply free_sarr_all, S1|]. intros _ h1.
  rewrite (mbind_ext _ _ _ _ h1 (free_all_app _ _ h1) (fun a h => eq_refl)), mbind_assoc. apply mbind_ext; [symmetry; apply free_sarr_all, S2|]. intros _ h2.
  rewrite (mbind_ext _ _ _ _ h2 (free_all_app _ _ h2) (fun a h => eq_refl)), mbind_assoc. apply mbind_ext; [symmetry; apply hfree_opt|]. intros _ h3.
  rewrite (mbind_ext _ _ _ _ h3 (free_all_app _ _ h3) (fun a h => eq_refl)), mbind_assoc. apply mbind_ext; [symmetry; apply free_sarr_all, S3|]. intros _ h4.
  rewrite (mbind_ext _ _ _ _ h4 (free_all_app _ _ h4) (fun a h => eq_refl)), mbind_assoc. apply mbind_ext; [symmetry; apply free_sarr_all, S4|]. intros _ h5.
  rewrite app_assoc. rewrite (mbind_ext _ _ _ _ h5 (free_all_app _ _ h5) (fun a h => eq_refl)), mbind_assoc. apply mbind_ext.
  - destruct (c_gblock f) as [b|].
    + cbn [opt_list]. rewrite <- (bind_free _ (fun _ => hfree (Some b))); [|intros; apply hfree_all]. apply mbind_ext; [symmetry; apply free_generic_all, S6|reflexivity].
    + rewrite S7; reflexivity.
  - intros _ h6. apply mbind_ext; [symmetry; apply hfree_opt|reflexivity].
Qed.
(** Releasing a filter that is in memory works and returns all its blocks. *)
Theorem C90_release : forall f h rest, filter_sound f -> heap_ok h -> Permutation (h_live h) (blocks f ++ rest) ->
  exists h', filter_free f h = Ok (zero_filter, h') /\ heap_ok h' /\ h_next h' = h_next h /\ Permutation (h_live h') rest.
Proof.
  intros f h rest SF OK P. rewrite (filter_free_all f h SF). destruct (free_all_ok _ _ _ OK P) as (h' & E & R).
  exists h'. rewrite (mbind_ok _ _ _ _ _ E). split; [reflexivity|exact R].
Qed.

(** ** Growth *)
Lemma got_refl h : heap_ok h -> got h [] h.
Proof. intros OK. constructor; [exact OK|lia|apply Permutation_refl|constructor]. Qed.
Lemma got_trans h b1 h1 b2 h2 : got h b1 h1 -> got h1 b2 h2 -> got h (b1 ++ b2) h2.
Proof.
  intros [OK1 N1 P1 F1] [OK2 N2 P2 F2]. constructor; [exact OK2|lia| |].
  - rewrite P2, P1, !app_assoc. apply Permutation_app_tail, Permutation_app_comm.
  - apply Forall_app. split; (eapply Forall_impl; [|eassumption]); cbv beta; intros; lia.
Qed.
Lemma got_perm h b b' h' : Permutation b b' -> got h b h' -> got h b' h'.
Proof.
  intros P [OK N Q F]. constructor; [exact OK|exact N| |apply (Permutation_Forall P F)]. rewrite Q. apply Permutation_app_tail, P.
Qed.
Lemma failed_more g h0 h1 h2 h3 : h_next h0 <= h_next h1 -> h_next h2 <= h_next h3 -> failed g h1 h2 -> failed g h0 h3.
Proof. intros A B (k & L & F). exists k. split; [lia|exact F]. Qed.
Section Grant.
Variable grant : nat -> bool.
Lemma alloc_cases h : heap_ok h -> (exists q h', halloc grant h = Ok (Some q, h') /\ got h [q] h') \/
  (halloc grant h = Ok (None, h) /\ failed grant h h).
Proof.
  intros (ND & F). unfold halloc, hmalloc. destruct (grant (h_next h)) eqn:G.
  - left. eexists. eexists. split; [reflexivity|]. constructor; cbn [h_next h_live]; [|lia|apply Permutation_refl|repeat constructor].
    split; cbn [h_next h_live].
    + constructor; [|exact ND]. intros I. rewrite Forall_forall in F. specialize (F _ I). cbv beta in F. lia.
    + constructor; [lia|]. eapply Forall_impl; [|exact F]. cbv beta. intros; lia.
  - right. split; [reflexivity|]. exists (h_next h). split; [lia|exact G].
Qed.
Lemma use_ok b h : In b (h_live h) -> huse (Some b) h = Ok (tt, h).
Proof. intros I. unfold huse. rewrite (live_in b _ I). reflexivity. Qed.
Lemma still_live h bs h' l : got h bs h' -> incl l (h_live h) -> incl l (h_live h').
Proof. intros [_ _ P _] I x J. apply (Permutation_in x (Permutation_sym P)), in_or_app. right. apply I, J. Qed.
(** freeing new blocks restores the heap *)
Lemma free_new l h h1 : got h l h1 -> exists h2, free_all l h1 = Ok (tt, h2) /\ got h [] h2 /\ h_next h2 = h_next h1.
Proof.
  intros [OK N P F]. destruct (free_all_ok l h1 _ OK P) as (h2 & E & OK2 & N2 & P2). exists h2. split; [exact E|].
  split; [|exact N2]. constructor; [exact OK2|lia|exact P2|constructor].
Qed.
Lemma give_up_ok f e h h1 : filter_sound f -> got h (blocks f) h1 ->
  exists h2, give_up f e h1 = Ok ((zero_filter, Some e), h2) /\ got h [] h2 /\ h_next h2 = h_next h1.
Proof.
  intros SF G. destruct G as [OK N P F]. destruct (C90_release f h1 _ SF OK P) as (h2 & E & OK2 & N2 & P2).
  exists h2. unfold give_up. rewrite (mbind_ok _ _ _ _ _ E). split; [reflexivity|]. split; [|exact N2]. constructor; [exact OK2|lia|exact P2|constructor].
Qed.

(** ** Cloning *)
Lemma clone_cells_spec q src : forall h h1 done, got h (map fst done ++ [q]) h1 -> incl (map fst src) (h_live h) ->
  (exists a h', clone_cells grant q src done h1 = Ok (inl a, h') /\ sa_block a = Some q /\ map snd (sa_cells a) = map snd done ++ map snd src /\ got h (arr_blocks a) h') \/
  (exists h', clone_cells grant q src done h1 = Ok (inr RMemory, h') /\ got h [] h' /\ failed grant h h').
Proof.
  induction src as [|(b, s) src IH]; intros h h1 done G IL; cbn [clone_cells].
  - left. exists (mkSarr (Some q) done), h1. cbn [sa_block sa_cells map]. rewrite app_nil_r. split; [reflexivity|]. split; [reflexivity|]. split; [reflexivity|exact G].
  - cbn [map fst] in IL.
    assert (LB : In b (h_live h1)) by (apply (still_live _ _ _ [b] G); [intros x [<-|[]]; apply IL; left; reflexivity|left; reflexivity]).
    rewrite (mbind_ok _ _ _ _ _ (use_ok b h1 LB)). destruct (alloc_cases h1 (g_ok _ _ _ G)) as [(p & h2 & E & G2)|(E & FA)]; rewrite (mbind_ok _ _ _ _ _ E).
    + destruct (IH h h2 (done ++ [(p, s)])) as [(a & h' & E' & B & T & G')|(h' & E' & G' & FA)].
      * rewrite map_app. cbn [map fst]. eapply got_perm; [|apply (got_trans _ _ _ _ _ G G2)]. rewrite <- !app_assoc. apply Permutation_app_head, perm_swap.
      * intros x I. apply IL. right. exact I.
      * left. exists a, h'. split; [exact E'|]. split; [exact B|]. split; [|exact G']. rewrite T, map_app, <- app_assoc. reflexivity.
      * right. exists h'. auto.
    + right. destruct (free_new _ h h1 G) as (h2 & F & G2 & N2). exists h2.
      split; [|split; [exact G2|]].
      * rewrite free_all_app in F. unfold mbind in *. rewrite (free_cells_all done h1). destruct (free_all (map fst done) h1) as [(u, h3)| |]; try discriminate.
        rewrite hfree_all, F. reflexivity.
      * pose proof (g_next _ _ _ G). apply (failed_more grant h h1 h1 h2); [lia|lia|exact FA].
Qed.
Lemma clone_sarr_spec a h : heap_ok h -> arr_sound a -> incl (arr_blocks a) (h_live h) ->
  (exists a' h', clone_sarr grant a h = Ok (inl a', h') /\ arr_sound a' /\ texts a' = texts a /\ got h (arr_blocks a') h') \/
  (exists h', clone_sarr grant a h = Ok (inr RMemory, h') /\ got h [] h' /\ failed grant h h').
Proof.
  unfold clone_sarr, arr_sound, texts, arr_blocks. intros OK SO IL. destruct (sa_cells a) as [|c cs] eqn:C.
  - left. exists null_sarr, h. split; [reflexivity|]. split; [reflexivity|]. split; [reflexivity|]. apply got_refl, OK.
  - destruct (sa_block a) as [b|] eqn:B; [|exfalso; specialize (SO eq_refl); discriminate].
    assert (LB : In b (h_live h)) by (apply IL, in_or_app; right; left; reflexivity).
    rewrite (mbind_ok _ _ _ _ _ (use_ok b h LB)). destruct (alloc_cases h OK) as [(p & h2 & E & G2)|(E & FA)]; rewrite (mbind_ok _ _ _ _ _ E).
    + destruct (clone_cells_spec p (c :: cs) h h2 [] G2) as [(a' & h' & E' & B' & T & G')|X].
      * intros x I. apply IL, in_or_app. left. exact I.
      * left. exists a', h'. split; [exact E'|]. split; [congruence|]. split; [exact T|exact G'].
      * right. exact X.
    + right. exists h. split; [reflexivity|]. split; [apply got_refl, OK|exact FA].
Qed.
Lemma gen_blocks_app l l' : gen_blocks (l ++ l') = gen_blocks l ++ gen_blocks l'.
Proof. apply flat_map_app. Qed.
Lemma clone_generic_spec src : forall h h1 pre done, got h (pre ++ gen_blocks done) h1 -> Forall (fun g => arr_sound (snd g)) done -> Forall (fun g => arr_sound (snd g)) src ->
  incl (gen_blocks src) (h_live h) ->
  exists l o h', clone_generic grant src done h1 = Ok ((l, o), h') /\ Forall (fun g => arr_sound (snd g)) l /\ got h (pre ++ gen_blocks l) h' /\
  match o with
  | None => map (fun g => mkGtag (fst g) (texts (snd g))) l = map (fun g => mkGtag (fst g) (texts (snd g))) (done ++ src)
  | Some e => e = RMemory /\ failed grant h h'
  end.
Proof.
  induction src as [|(n, a) src IH]; intros h h1 pre done G SD SS IL; cbn [clone_generic].
  - exists done, None, h1. rewrite app_nil_r. auto.
  - inversion SS as [|? ? SA SS']; subst. cbn [snd] in SA. cbn [gen_blocks flat_map snd] in IL.
    destruct (clone_sarr_spec a h1 (g_ok _ _ _ G) SA) as [(a' & h2 & E & SA' & T & G2)|(h2 & E & G2 & FA)].
    { apply (still_live _ _ _ _ G). intros x I. apply IL, in_or_app. left. exact I. }
    + rewrite (mbind_ok _ _ _ _ _ E). destruct (IH h h2 pre (done ++ [(n, a')])) as (l & o & h' & E' & SL & G' & R).
      * rewrite gen_blocks_app. cbn [gen_blocks flat_map snd]. rewrite app_nil_r, app_assoc. apply (got_trans _ _ _ _ _ G G2).
      * apply Forall_app. split; [exact SD|]. constructor; [exact SA'|constructor].
      * exact SS'.
      * intros x I. apply IL, in_or_app. right. exact I.
      * exists l, o, h'. split; [exact E'|]. split; [exact SL|]. split; [exact G'|]. destruct o; [exact R|].
        rewrite R, <- app_assoc. rewrite !map_app. cbn [app map fst snd]. rewrite T. reflexivity.
    + rewrite (mbind_ok _ _ _ _ _ E). exists done, (Some RMemory), h2. split; [reflexivity|]. split; [exact SD|].
      split; [rewrite <- (app_nil_r (pre ++ gen_blocks done)); apply (got_trans _ _ _ _ _ G G2)|].
      split; [reflexivity|]. pose proof (g_next _ _ _ G). apply (failed_more grant h h1 h2 h2); [lia|lia|exact FA].
Qed.

Lemma null_sound : arr_sound null_sarr. Proof. intros _. reflexivity. Qed.
Lemma missing_sound a : arr_sound a -> missing a = false.
Proof. unfold arr_sound, missing. destruct (sa_block a); [reflexivity|]. intros ->; reflexivity. Qed.
Lemma got_eq h b b' h' : b = b' -> got h b h' -> got h b' h'.
Proof. intros ->. auto. Qed.
Ltac blk := unfold blocks; cbn [c_ids c_authors c_kinds c_e c_p c_gblock c_generic c_search fst snd option_map opt_list gen_blocks flat_map arr_blocks sa_cells sa_block map null_sarr app]; rewrite ?app_nil_r, ?app_assoc.
Ltac snd_ := constructor; cbn [c_ids c_authors c_kinds c_e c_p c_gblock c_generic fst snd]; auto using null_sound; try constructor.
(** what the failure of one stage gives *)
Lemma stage_fail f e h h1 h2 : filter_sound f -> got h (blocks f) h1 -> got h1 [] h2 -> 
  exists h3, give_up f e h2 = Ok ((zero_filter, Some e), h3) /\ got h [] h3 /\ h_next h3 = h_next h2.
Proof.
  intros SF G1 G2. apply give_up_ok; [exact SF|]. eapply got_eq; [|apply (got_trans _ _ _ _ _ G1 G2)]. apply app_nil_r.
Qed.
Theorem C51_clone : forall h s, heap_ok h -> filter_sound s -> incl (blocks s) (h_live h) -> length (snd (c_kinds s)) <= 256 ->
  exists d o h', filter_clone grant s h = Ok ((d, o), h') /\
  match o with
  | None => value d = value s /\ filter_sound d /\ got h (blocks d) h'
  | Some e => e = RMemory /\ d = zero_filter /\ got h [] h' /\ failed grant h h'
  end.
Proof.
  intros h s OK [S1 S2 S3 S4 S5 S6 S7] IL LK. unfold filter_clone.
  rewrite !missing_sound by assumption.
  assert (K1 : match fst (c_kinds s) with None => negb (length (snd (c_kinds s)) =? 0) | Some _ => false end = false).
  { destruct (fst (c_kinds s)); [reflexivity|]. rewrite S5; reflexivity. }
  assert (K2 : match c_gblock s with None => negb (length (c_generic s) =? 0) | Some _ => false end = false).
  { destruct (c_gblock s); [reflexivity|]. rewrite S7; reflexivity. }
  rewrite K1, K2. rewrite (proj2 (Nat.ltb_ge max_filter_values _)) by exact LK. cbn [orb].
  assert (I1 : incl (arr_blocks (c_ids s)) (h_live h)) by (intros x I; apply IL; unfold blocks; rewrite !in_app_iff; tauto).
  assert (I2 : incl (arr_blocks (c_authors s)) (h_live h)) by (intros x I; apply IL; unfold blocks; rewrite !in_app_iff; tauto).
  assert (I3 : incl (opt_list (fst (c_kinds s))) (h_live h)) by (intros x I; apply IL; unfold blocks; rewrite !in_app_iff; tauto).
  assert (I4 : incl (arr_blocks (c_e s)) (h_live h)) by (intros x I; apply IL; unfold blocks; rewrite !in_app_iff; tauto).
  assert (I5 : incl (arr_blocks (c_p s)) (h_live h)) by (intros x I; apply IL; unfold blocks; rewrite !in_app_iff; tauto).
  assert (I6 : incl (gen_blocks (c_generic s)) (h_live h)) by (intros x I; apply IL; unfold blocks; rewrite !in_app_iff; tauto).
  assert (I7 : incl (opt_list (c_gblock s)) (h_live h)) by (intros x I; apply IL; unfold blocks; rewrite !in_app_iff; tauto).
  assert (I8 : incl (opt_list (option_map fst (c_search s))) (h_live h)) by (intros x I; apply IL; unfold blocks; rewrite !in_app_iff; tauto).
  clear IL. pose proof (got_refl h OK) as G0.
  (* ids *)
  destruct (clone_sarr_spec (c_ids s) h OK S1 I1) as [(ids & h1 & E1 & SO1 & T1 & G1)|(h1 & E1 & G1 & FA)]; rewrite (mbind_ok _ _ _ _ _ E1); cbv beta iota.
  2:{ destruct (stage_fail zero_filter RMemory h h h1) as (h3 & E & G3 & N3); [snd_|exact G0|exact G1|]. exists zero_filter, (Some RMemory), h3.
      split; [exact E|]. split; [reflexivity|]. split; [reflexivity|]. split; [exact G3|]. apply (failed_more grant h h h1 h3); [lia|lia|exact FA]. }
  (* authors *)
  destruct (clone_sarr_spec (c_authors s) h1 (g_ok _ _ _ G1) S2 (still_live _ _ _ _ G1 I2)) as [(au & h2 & E2 & SO2 & T2 & G2)|(h2 & E2 & G2 & FA)]; rewrite (mbind_ok _ _ _ _ _ E2); cbv beta iota.
  2:{ edestruct (stage_fail (mkC ids null_sarr (None, []) null_sarr null_sarr None [] 0 0 0 None) RMemory h h1 h2) as (h3 & E & G3 & N3); [snd_|eapply got_eq; [|exact G1]; blk; reflexivity|exact G2|].
      exists zero_filter, (Some RMemory), h3.
      split; [exact E|]. split; [reflexivity|]. split; [reflexivity|]. split; [exact G3|]. pose proof (g_next _ _ _ G1). apply (failed_more grant h h1 h2 h3); [lia|lia|exact FA]. }
  pose proof (got_trans _ _ _ _ _ G1 G2) as G12. clear G1 G2 E1 E2.
  (* kinds *)
  assert (KS : (exists ks h3, match snd (c_kinds s) with [] => mret (inl (None, []))
      | _ => let! p := halloc grant in match p with None => mret (inr RMemory) | Some q => let! _ := huse (fst (c_kinds s)) in mret (inl (Some q, snd (c_kinds s))) end end h2
      = Ok (inl ks, h3) /\ (fst ks = None -> snd ks = []) /\ snd ks = snd (c_kinds s) /\ got h2 (opt_list (fst ks)) h3) \/
    (match snd (c_kinds s) with [] => mret (inl (None, []))
      | _ => let! p := halloc grant in match p with None => mret (inr RMemory) | Some q => let! _ := huse (fst (c_kinds s)) in mret (inl (Some q, snd (c_kinds s))) end end h2
      = Ok (inr RMemory, h2) /\ failed grant h2 h2)).
  { destruct (snd (c_kinds s)) as [|k ks] eqn:KK.
    - left. exists (None, []), h2. cbn. split; [reflexivity|]. split; [auto|]. split; [reflexivity|]. apply got_refl, (g_ok _ _ _ G12).
    - destruct (alloc_cases h2 (g_ok _ _ _ G12)) as [(q & h3 & E & G)|(E & FA)]; rewrite (mbind_ok _ _ _ _ _ E).
      + left. destruct (fst (c_kinds s)) as [b|] eqn:B; [|exfalso; specialize (S5 eq_refl); congruence].
        assert (LB : In b (h_live h3)) by (apply (still_live _ _ _ _ G (still_live _ _ _ _ G12 I3)); left; reflexivity).
        rewrite (mbind_ok _ _ _ _ _ (use_ok b h3 LB)). exists (Some q, k :: ks), h3. cbn. split; [reflexivity|]. split; [discriminate|]. split; [reflexivity|exact G].
      + right. split; [reflexivity|exact FA]. }
  destruct KS as [(ks & h3 & E3 & SO3 & T3 & G3)|(E3 & FA)]; rewrite (mbind_ok _ _ _ _ _ E3); cbv beta iota.
  2:{ edestruct (stage_fail (mkC ids au (None, []) null_sarr null_sarr None [] 0 0 0 None) RMemory h h2 h2) as (h4 & E & G4 & N4); [snd_|eapply got_eq; [|exact G12]; blk; reflexivity|apply got_refl, (g_ok _ _ _ G12)|].
      exists zero_filter, (Some RMemory), h4. pose proof (g_next _ _ _ G12).
      split; [exact E|]. split; [reflexivity|]. split; [reflexivity|]. split; [exact G4|]. apply (failed_more grant h h2 h2 h4); [lia|lia|exact FA]. }
  pose proof (got_trans _ _ _ _ _ G12 G3) as G13. clear G12 G3 E3.
  (* e *)
  destruct (clone_sarr_spec (c_e s) h3 (g_ok _ _ _ G13) S3 (still_live _ _ _ _ G13 I4)) as [(es & h4 & E4 & SO4 & T4 & G4)|(h4 & E4 & G4 & FA)]; rewrite (mbind_ok _ _ _ _ _ E4); cbv beta iota.
  2:{ edestruct (stage_fail (mkC ids au ks null_sarr null_sarr None [] 0 0 0 None) RMemory h h3 h4) as (h5 & E & G5 & N5); [snd_|eapply got_eq; [|exact G13]; blk; reflexivity|exact G4|].
      exists zero_filter, (Some RMemory), h5. pose proof (g_next _ _ _ G13).
      split; [exact E|]. split; [reflexivity|]. split; [reflexivity|]. split; [exact G5|]. apply (failed_more grant h h3 h4 h5); [lia|lia|exact FA]. }
  pose proof (got_trans _ _ _ _ _ G13 G4) as G14. clear G13 G4 E4.
  (* p *)
  destruct (clone_sarr_spec (c_p s) h4 (g_ok _ _ _ G14) S4 (still_live _ _ _ _ G14 I5)) as [(ps & h5 & E5 & SO5 & T5 & G5)|(h5 & E5 & G5 & FA)]; rewrite (mbind_ok _ _ _ _ _ E5); cbv beta iota.
  2:{ edestruct (stage_fail (mkC ids au ks es null_sarr None [] 0 0 0 None) RMemory h h4 h5) as (h6 & E & G6 & N6); [snd_|eapply got_eq; [|exact G14]; blk; reflexivity|exact G5|].
      exists zero_filter, (Some RMemory), h6. pose proof (g_next _ _ _ G14).
      split; [exact E|]. split; [reflexivity|]. split; [reflexivity|]. split; [exact G6|]. apply (failed_more grant h h4 h5 h6); [lia|lia|exact FA]. }
  pose proof (got_trans _ _ _ _ _ G14 G5) as G15. clear G14 G5 E5.
  (* generic *)
  match goal with |- context [mbind ?m _ h5] => set (gen := m) end.
  assert (GS : exists gb l h6, (gen h5 = Ok (inl (gb, l), h6) /\ map (fun g => mkGtag (fst g) (texts (snd g))) l = map (fun g => mkGtag (fst g) (texts (snd g))) (c_generic s) \/
      gen h5 = Ok (inr (gb, l, RMemory), h6) /\ failed grant h h6) /\
      Forall (fun g => arr_sound (snd g)) l /\ (gb = None -> l = []) /\ got h5 (gen_blocks l ++ opt_list gb) h6).
  { unfold gen. destruct (c_generic s) as [|g gs] eqn:GG.
    - exists None, [], h5. split; [left; split; reflexivity|]. split; [constructor|]. split; [reflexivity|]. apply got_refl, (g_ok _ _ _ G15).
    - destruct (alloc_cases h5 (g_ok _ _ _ G15)) as [(q & h6 & E & G)|(E & FA)].
      + destruct (c_gblock s) as [b|] eqn:B; [|exfalso; specialize (S7 eq_refl); discriminate].
        assert (LB : In b (h_live h6)) by (apply (still_live _ _ _ _ G (still_live _ _ _ _ G15 I7)); left; reflexivity).
        destruct (clone_generic_spec (g :: gs) h5 h6 [q] [] G (Forall_nil _) S6 (still_live _ _ _ _ G15 I6)) as (l & o & h7 & E7 & SL & G7 & R).
        exists (Some q), l, h7. split; [|split; [exact SL|split; [discriminate|eapply got_perm; [|exact G7]; apply Permutation_app_comm]]].
        rewrite (mbind_ok _ _ _ _ _ E), (mbind_ok _ _ _ _ _ (use_ok b h6 LB)), (mbind_ok _ _ _ _ _ E7). destruct o as [x|].
        * right. destruct R as (-> & FA). split; [reflexivity|]. pose proof (g_next _ _ _ G15). apply (failed_more grant h h5 h7 h7); [lia|lia|exact FA].
        * left. split; [reflexivity|]. exact R.
      + exists None, [], h5. rewrite (mbind_ok _ _ _ _ _ E). split; [right; split; [reflexivity|]|].
        * pose proof (g_next _ _ _ G15). apply (failed_more grant h h5 h5 h5); [lia|lia|exact FA].
        * split; [constructor|]. split; [reflexivity|]. apply got_refl, (g_ok _ _ _ G15). }
  destruct GS as (gb & l & h6 & CASE & SL & SG & G6). pose proof (got_trans _ _ _ _ _ G15 G6) as G16. clear G15 G6.
  destruct CASE as [(E6 & TG)|(E6 & FA)]; rewrite (mbind_ok _ _ _ _ _ E6); cbv beta iota.
  2:{ edestruct (stage_fail (mkC ids au ks es ps gb l 0 0 0 None) RMemory h h6 h6) as (h7 & E & G7 & N7); [snd_|eapply got_eq; [|exact G16]; blk; reflexivity|apply got_refl, (g_ok _ _ _ G16)|].
      exists zero_filter, (Some RMemory), h7. split; [exact E|]. split; [reflexivity|]. split; [reflexivity|]. split; [exact G7|]. apply (failed_more grant h h h6 h7); [lia|lia|exact FA]. }
  clear E6 gen.
  (* search *)
  destruct (c_search s) as [(b, t)|] eqn:SE.
  - assert (LB : In b (h_live h6)) by (apply (still_live _ _ _ _ G16 I8); left; reflexivity).
    rewrite (mbind_ok _ _ _ _ _ (use_ok b h6 LB)). destruct (alloc_cases h6 (g_ok _ _ _ G16)) as [(q & h7 & E7 & G7)|(E7 & FA)]; rewrite (mbind_ok _ _ _ _ _ E7); cbv beta iota.
    + eexists _, None, h7. split; [reflexivity|]. split; [|split; [snd_|]].
      * unfold value. rewrite SE. cbn [c_ids c_authors c_kinds c_e c_p c_gblock c_generic c_search c_since c_until c_limit option_map snd]. congruence.
      * eapply got_eq; [|apply (got_trans _ _ _ _ _ G16 G7)]. blk. reflexivity.
    + edestruct (stage_fail (mkC ids au ks es ps gb l (c_since s) (c_until s) (c_limit s) None) RMemory h h6 h6) as (h7 & E & G7 & N7); [snd_|eapply got_eq; [|exact G16]; blk; reflexivity|apply got_refl, (g_ok _ _ _ G16)|].
      exists zero_filter, (Some RMemory), h7. split; [exact E|]. split; [reflexivity|]. split; [reflexivity|]. split; [exact G7|].
      pose proof (g_next _ _ _ G16). apply (failed_more grant h h6 h6 h7); [lia|lia|exact FA].
  - eexists _, None, h6. split; [reflexivity|]. split; [|split; [snd_|]].
    + unfold value. rewrite SE. cbn [c_ids c_authors c_kinds c_e c_p c_gblock c_generic c_search c_since c_until c_limit option_map snd]. congruence.
    + eapply got_eq; [|exact G16]. blk. reflexivity.
Qed.

(** A clone matches the same events; after the original is released the clone
    is still all there, and can be released in turn, leaving the rest. *)
Theorem C51_independent : forall h s rest d h', heap_ok h -> filter_sound s -> Permutation (h_live h) (blocks s ++ rest) -> length (snd (c_kinds s)) <= 256 ->
  filter_clone grant s h = Ok ((d, None), h') ->
  (forall e, filter_matches (value d) e = filter_matches (value s) e) /\
  (forall b, In b (blocks d) -> ~ In b (h_live h)) /\
  exists h2, filter_free s h' = Ok (zero_filter, h2) /\ Permutation (h_live h2) (blocks d ++ rest) /\
  exists h3, filter_free d h2 = Ok (zero_filter, h3) /\ Permutation (h_live h3) rest.
Proof.
  intros h s rest d h' OK SS P LK E. destruct (C51_clone h s OK SS) as (d' & o & h'' & E' & R); [|exact LK|].
  { intros x I. apply (Permutation_in x (Permutation_sym P)), in_or_app. left. exact I. }
  rewrite E in E'. assert (d' = d /\ o = None /\ h'' = h') as (-> & -> & ->) by (split; [congruence|split; congruence]). destruct R as (V & SD & G).
  split; [intros e; rewrite V; reflexivity|]. split.
  { intros b I J. destruct G as [_ _ _ F]. rewrite Forall_forall in F. specialize (F b I). destruct OK as (_ & L). rewrite Forall_forall in L. specialize (L b J). cbv beta in *. lia. }
  destruct G as [OK' _ P' _].
  assert (P2 : Permutation (h_live h') (blocks s ++ (blocks d ++ rest))).
  { rewrite P', P, !app_assoc. apply Permutation_app_tail, Permutation_app_comm. }
  destruct (C90_release s h' _ SS OK' P2) as (h2 & E2 & OK2 & _ & L2). exists h2. split; [exact E2|]. split; [exact L2|].
  destruct (C90_release d h2 _ SD OK2 L2) as (h3 & E3 & OK3 & _ & L3). exists h3. split; [exact E3|exact L3].
Qed.
(** With enough memory the clone succeeds. *)
Theorem C51_succeeds : forall h s, heap_ok h -> filter_sound s -> incl (blocks s) (h_live h) -> length (snd (c_kinds s)) <= 256 ->
  (forall k, grant k = true) -> exists d h', filter_clone grant s h = Ok ((d, None), h') /\ value d = value s.
Proof.
  intros h s OK SS IL LK ALL. destruct (C51_clone h s OK SS IL LK) as (d & [e|] & h' & E & R).
  - exfalso. destruct R as (_ & _ & _ & k & _ & F). rewrite ALL in F. discriminate.
  - exists d, h'. tauto.
Qed.

(** ** Parsing *)
Lemma read_cells_spec q cap items : forall h h1 done, got h (map fst done ++ [q]) h1 -> length done + length items <= cap ->
  (exists a h', read_cells grant q cap items done h1 = Ok (inl a, h') /\ sa_block a = Some q /\ map snd (sa_cells a) = map snd done ++ strings_of items /\ got h (arr_blocks a) h') \/
  (exists h', read_cells grant q cap items done h1 = Ok (inr RMemory, h') /\ got h [] h' /\ failed grant h h').
Proof.
  induction items as [|j items IH]; intros h h1 done G L.
  - left. exists (mkSarr (Some q) done), h1. cbn. rewrite app_nil_r. split; [reflexivity|]. split; [reflexivity|]. split; [reflexivity|exact G].
  - cbn [length] in L.
    assert (SKIP : read_cells grant q cap (j :: items) done h1 = read_cells grant q cap items done h1 -> strings_of (j :: items) = strings_of items ->
      (exists a h', read_cells grant q cap (j :: items) done h1 = Ok (inl a, h') /\ sa_block a = Some q /\ map snd (sa_cells a) = map snd done ++ strings_of (j :: items) /\ got h (arr_blocks a) h') \/
      (exists h', read_cells grant q cap (j :: items) done h1 = Ok (inr RMemory, h') /\ got h [] h' /\ failed grant h h')).
    { intros -> ->. apply IH; [exact G|lia]. }
    destruct j as [|b|n|t|l|l]; try (apply SKIP; reflexivity). clear SKIP. cbn [read_cells].
    assert (HA : hassert (length done <? cap) h1 = Ok (tt, h1)) by (unfold hassert; rewrite (proj2 (Nat.ltb_lt _ _)) by lia; reflexivity).
    rewrite (mbind_ok _ _ _ _ _ HA). destruct (alloc_cases h1 (g_ok _ _ _ G)) as [(p & h2 & E & G2)|(E & FA)]; rewrite (mbind_ok _ _ _ _ _ E).
    + destruct (IH h h2 (done ++ [(p, t)])) as [(a & h' & E' & B & T & G')|(h' & E' & G' & FA)].
      * rewrite map_app. cbn [map fst]. eapply got_perm; [|apply (got_trans _ _ _ _ _ G G2)]. rewrite <- !app_assoc. apply Permutation_app_head, perm_swap.
      * rewrite app_length. cbn [length]. lia.
      * left. exists a, h'. split; [exact E'|]. split; [exact B|]. split; [|exact G']. rewrite T, map_app, <- app_assoc. reflexivity.
      * right. exists h'. auto.
    + right. destruct (free_new _ h h1 G) as (h2 & F & G2 & N2). exists h2.
      split; [|split; [exact G2|]].
      * rewrite free_all_app in F. unfold mbind in *. rewrite (free_cells_all done h1). destruct (free_all (map fst done) h1) as [(u, h3)| |]; try discriminate.
        rewrite hfree_all, F. reflexivity.
      * pose proof (g_next _ _ _ G). apply (failed_more grant h h1 h1 h2); [lia|lia|exact FA].
Qed.
Lemma read_sarr_spec j h : heap_ok h ->
  (exists a h', read_sarr grant j h = Ok (inl a, h') /\ arr_sound a /\ parse_string_array j = ROk (texts a) /\ got h (arr_blocks a) h') \/
  (exists e h', read_sarr grant j h = Ok (inr e, h') /\ got h [] h' /\ (parse_string_array j = RErr e \/ e = RMemory /\ failed grant h h')).
Proof.
  intros OK.
  assert (TRIV : read_sarr grant j h = Ok (inl null_sarr, h) -> parse_string_array j = ROk [] ->
    (exists a h', read_sarr grant j h = Ok (inl a, h') /\ arr_sound a /\ parse_string_array j = ROk (texts a) /\ got h (arr_blocks a) h') \/
    (exists e h', read_sarr grant j h = Ok (inr e, h') /\ got h [] h' /\ (parse_string_array j = RErr e \/ e = RMemory /\ failed grant h h'))).
  { intros E P. left. exists null_sarr, h. split; [exact E|]. split; [apply null_sound|]. split; [exact P|]. apply got_refl, OK. }
  destruct j as [[| | | |l|]|]; try (apply TRIV; reflexivity). destruct l as [|x l]; [apply TRIV; reflexivity|]. clear TRIV.
  cbn [read_sarr parse_string_array]. destruct (max_filter_values <? length (x :: l)).
  - right. exists RInvalidJson, h. split; [reflexivity|]. split; [apply got_refl, OK|]. left. reflexivity.
  - destruct (alloc_cases h OK) as [(q & h1 & E & G)|(E & FA)]; rewrite (mbind_ok _ _ _ _ _ E).
    + destruct (read_cells_spec q (length (x :: l)) (x :: l) h h1 [] G) as [(a & h' & E' & B & T & G')|(h' & E' & G' & FA)]; [cbn; lia| |].
      * left. exists a, h'. split; [exact E'|]. split; [intros Z; congruence|]. split; [unfold texts; rewrite T; reflexivity|exact G'].
      * right. exists RMemory, h'. auto.
    + right. exists RMemory, h. split; [reflexivity|]. split; [apply got_refl, OK|]. right. auto.
Qed.
Lemma read_kinds_spec j h : heap_ok h ->
  (exists ks h', read_kinds grant j h = Ok (inl ks, h') /\ (fst ks = None -> snd ks = []) /\ parse_int_array j = ROk (snd ks) /\ got h (opt_list (fst ks)) h') \/
  (exists e h', read_kinds grant j h = Ok (inr e, h') /\ got h [] h' /\ (parse_int_array j = RErr e \/ e = RMemory /\ failed grant h h')).
Proof.
  intros OK.
  assert (TRIV : read_kinds grant j h = Ok (inl (None, []), h) -> parse_int_array j = ROk [] ->
    (exists ks h', read_kinds grant j h = Ok (inl ks, h') /\ (fst ks = None -> snd ks = []) /\ parse_int_array j = ROk (snd ks) /\ got h (opt_list (fst ks)) h') \/
    (exists e h', read_kinds grant j h = Ok (inr e, h') /\ got h [] h' /\ (parse_int_array j = RErr e \/ e = RMemory /\ failed grant h h'))).
  { intros E P. left. exists (None, []), h. split; [exact E|]. split; [reflexivity|]. split; [exact P|]. apply got_refl, OK. }
  destruct j as [[| | | |l|]|]; try (apply TRIV; reflexivity). destruct l as [|x l]; [apply TRIV; reflexivity|]. clear TRIV.
  cbn [read_kinds parse_int_array]. destruct (max_filter_values <? length (x :: l)).
  - right. exists RInvalidJson, h. split; [reflexivity|]. split; [apply got_refl, OK|]. left. reflexivity.
  - destruct (alloc_cases h OK) as [(q & h1 & E & G)|(E & FA)]; rewrite (mbind_ok _ _ _ _ _ E).
    + assert (LE : length (ints_of (x :: l)) <= length (x :: l)).
      { generalize (x :: l). clear. unfold ints_of. induction l as [|x a IH]; [cbn; lia|]. cbn [flat_map length]. rewrite app_length. destruct x; cbn [length]; lia. }
      assert (HA : hassert (length (ints_of (x :: l)) <=? length (x :: l)) h1 = Ok (tt, h1)) by (unfold hassert; rewrite (proj2 (Nat.leb_le _ _)) by exact LE; reflexivity).
      rewrite (mbind_ok _ _ _ _ _ HA). left. exists (Some q, ints_of (x :: l)), h1. split; [reflexivity|]. split; [discriminate|]. split; [reflexivity|exact G].
    + right. exists RMemory, h. split; [reflexivity|]. split; [apply got_refl, OK|]. right. auto.
Qed.
Lemma read_generic_spec cap l : forall h h1 pre done, got h (pre ++ gen_blocks done) h1 -> Forall (fun g => arr_sound (snd g)) done ->
  length done + count_generic l <= cap ->
  exists l' o h', read_generic grant cap l done h1 = Ok ((l', o), h') /\ Forall (fun g => arr_sound (snd g)) l' /\ got h (pre ++ gen_blocks l') h' /\
  match o with
  | None => exists gs, parse_generic l = ROk gs /\ map (fun g => mkGtag (fst g) (texts (snd g))) l' = map (fun g => mkGtag (fst g) (texts (snd g))) done ++ gs
  | Some e => parse_generic l = RErr e \/ e = RMemory /\ failed grant h h'
  end.
Proof.
  induction l as [|(k, v) l IH]; intros h h1 pre done G SD L; cbn [read_generic parse_generic count_generic] in *.
  - exists done, None, h1. split; [reflexivity|]. split; [exact SD|]. split; [exact G|]. exists []. rewrite app_nil_r. auto.
  - destruct (generic_key k) as [c|] eqn:K; [|apply IH; assumption].
    assert (HA : hassert (length done <? cap) h1 = Ok (tt, h1)) by (unfold hassert; rewrite (proj2 (Nat.ltb_lt _ _)) by lia; reflexivity).
    rewrite (mbind_ok _ _ _ _ _ HA).
    destruct (read_sarr_spec (Some v) h1 (g_ok _ _ _ G)) as [(a & h2 & E & SA & PA & G2)|(e & h2 & E & G2 & W)]; rewrite (mbind_ok _ _ _ _ _ E).
    + rewrite PA. cbn [rbind]. destruct (IH h h2 pre (done ++ [(c, a)])) as (l' & o & h' & E' & SL & G' & R).
      * rewrite gen_blocks_app. cbn [gen_blocks flat_map snd]. rewrite app_nil_r, app_assoc. apply (got_trans _ _ _ _ _ G G2).
      * apply Forall_app. split; [exact SD|]. constructor; [exact SA|constructor].
      * rewrite app_length. cbn [length]. lia.
      * exists l', o, h'. split; [exact E'|]. split; [exact SL|]. split; [exact G'|]. destruct o as [e|].
        -- destruct R as [R|R]; [left; rewrite R; reflexivity|right; exact R].
        -- destruct R as (gs & P & M). rewrite P. cbn [rbind]. eexists. split; [reflexivity|]. rewrite M, map_app, <- app_assoc. reflexivity.
    + exists done, (Some e), h2. split; [reflexivity|]. split; [exact SD|].
      split; [rewrite <- (app_nil_r (pre ++ gen_blocks done)); apply (got_trans _ _ _ _ _ G G2)|].
      destruct W as [W|(-> & FA)]; [left; rewrite W; reflexivity|right]. split; [reflexivity|]. pose proof (g_next _ _ _ G). apply (failed_more grant h h1 h2 h2); [lia|lia|exact FA].
Qed.
Lemma count_zero l : count_generic l = 0 -> parse_generic l = ROk [].
Proof.
  induction l as [|(k, v) l IH]; cbn [count_generic parse_generic]; [reflexivity|]. destruct (generic_key k); [discriminate|exact IH].
Qed.
(** Parsing in memory is parsing; every block allocated on the way belongs to the
    filter or, after an error, has been released. *)
Theorem C90_parse : forall h j, heap_ok h -> filter_parse j <> RUndef ->
  exists d o h', filter_read grant j h = Ok ((d, o), h') /\
  match o with
  | None => filter_parse j = ROk (value d) /\ filter_sound d /\ got h (blocks d) h'
  | Some e => d = zero_filter /\ got h [] h' /\ (filter_parse j = RErr e \/ e = RMemory /\ failed grant h h')
  end.
Proof.
  intros h [j|] OK ND.
  2:{ exists zero_filter, (Some RInvalidJson), h. split; [reflexivity|]. split; [reflexivity|]. split; [apply got_refl, OK|left; reflexivity]. }
  cbn [filter_parse] in *. unfold filter_read. pose proof (got_refl h OK) as G0.
  (* ids *)
  destruct (read_sarr_spec (jget (bs "ids") j) h OK) as [(ids & h1 & E1 & SO1 & T1 & G1)|(x & h1 & E1 & G1 & W)]; rewrite (mbind_ok _ _ _ _ _ E1); cbv beta iota.
  2:{ destruct (stage_fail zero_filter x h h h1) as (h3 & E & G3 & N3); [snd_|exact G0|exact G1|]. exists zero_filter, (Some x), h3.
      split; [exact E|]. split; [reflexivity|]. split; [exact G3|]. destruct W as [W|(-> & FA)]; [left; unfold filter_parse_tree; rewrite W; reflexivity|right].
      split; [reflexivity|]. apply (failed_more grant h h h1 h3); [lia|lia|exact FA]. }
  (* authors *)
  destruct (read_sarr_spec (jget (bs "authors") j) h1 (g_ok _ _ _ G1)) as [(au & h2 & E2 & SO2 & T2 & G2)|(x & h2 & E2 & G2 & W)]; rewrite (mbind_ok _ _ _ _ _ E2); cbv beta iota.
  2:{ edestruct (stage_fail (mkC ids null_sarr (None, []) null_sarr null_sarr None [] 0 0 0 None) x h h1 h2) as (h3 & E & G3 & N3); [snd_|eapply got_eq; [|exact G1]; blk; reflexivity|exact G2|].
      exists zero_filter, (Some x), h3. pose proof (g_next _ _ _ G1).
      split; [exact E|]. split; [reflexivity|]. split; [exact G3|]. destruct W as [W|(-> & FA)]; [left; unfold filter_parse_tree; rewrite T1; cbn [rbind]; rewrite W; reflexivity|right].
      split; [reflexivity|]. apply (failed_more grant h h1 h2 h3); [lia|lia|exact FA]. }
  pose proof (got_trans _ _ _ _ _ G1 G2) as G12. clear G1 G2 E1 E2.
  (* kinds *)
  destruct (read_kinds_spec (jget (bs "kinds") j) h2 (g_ok _ _ _ G12)) as [(ks & h3 & E3 & SO3 & T3 & G3)|(x & h3 & E3 & G3 & W)]; rewrite (mbind_ok _ _ _ _ _ E3); cbv beta iota.
  2:{ edestruct (stage_fail (mkC ids au (None, []) null_sarr null_sarr None [] 0 0 0 None) x h h2 h3) as (h4 & E & G4 & N4); [snd_|eapply got_eq; [|exact G12]; blk; reflexivity|exact G3|].
      exists zero_filter, (Some x), h4. pose proof (g_next _ _ _ G12).
      split; [exact E|]. split; [reflexivity|]. split; [exact G4|]. destruct W as [W|(-> & FA)]; [left; unfold filter_parse_tree; rewrite T1; cbn [rbind]; rewrite T2; cbn [rbind]; rewrite W; reflexivity|right].
      split; [reflexivity|]. apply (failed_more grant h h2 h3 h4); [lia|lia|exact FA]. }
  pose proof (got_trans _ _ _ _ _ G12 G3) as G13. clear G12 G3 E3.
  (* e *)
  destruct (read_sarr_spec (jget (bs "#e") j) h3 (g_ok _ _ _ G13)) as [(es & h4 & E4 & SO4 & T4 & G4)|(x & h4 & E4 & G4 & W)]; rewrite (mbind_ok _ _ _ _ _ E4); cbv beta iota.
  2:{ edestruct (stage_fail (mkC ids au ks null_sarr null_sarr None [] 0 0 0 None) x h h3 h4) as (h5 & E & G5 & N5); [snd_|eapply got_eq; [|exact G13]; blk; reflexivity|exact G4|].
      exists zero_filter, (Some x), h5. pose proof (g_next _ _ _ G13).
      split; [exact E|]. split; [reflexivity|]. split; [exact G5|]. destruct W as [W|(-> & FA)]; [left; unfold filter_parse_tree; rewrite T1; cbn [rbind]; rewrite T2; cbn [rbind]; rewrite T3; cbn [rbind]; rewrite W; reflexivity|right].
      split; [reflexivity|]. apply (failed_more grant h h3 h4 h5); [lia|lia|exact FA]. }
  pose proof (got_trans _ _ _ _ _ G13 G4) as G14. clear G13 G4 E4.
  (* p *)
  destruct (read_sarr_spec (jget (bs "#p") j) h4 (g_ok _ _ _ G14)) as [(ps & h5 & E5 & SO5 & T5 & G5)|(x & h5 & E5 & G5 & W)]; rewrite (mbind_ok _ _ _ _ _ E5); cbv beta iota.
  2:{ edestruct (stage_fail (mkC ids au ks es null_sarr None [] 0 0 0 None) x h h4 h5) as (h6 & E & G6 & N6); [snd_|eapply got_eq; [|exact G14]; blk; reflexivity|exact G5|].
      exists zero_filter, (Some x), h6. pose proof (g_next _ _ _ G14).
      split; [exact E|]. split; [reflexivity|]. split; [exact G6|]. destruct W as [W|(-> & FA)]; [left; unfold filter_parse_tree; rewrite T1; cbn [rbind]; rewrite T2; cbn [rbind]; rewrite T3; cbn [rbind]; rewrite T4; cbn [rbind]; rewrite W; reflexivity|right].
      split; [reflexivity|]. apply (failed_more grant h h4 h5 h6); [lia|lia|exact FA]. }
  pose proof (got_trans _ _ _ _ _ G14 G5) as G15. clear G14 G5 E5.
  (* generic *)
  match goal with |- context [mbind ?m _ h5] => set (gen := m) end.
  assert (GS : exists gb l h6, Forall (fun g => arr_sound (snd g)) l /\ (gb = None -> l = []) /\ got h5 (gen_blocks l ++ opt_list gb) h6 /\
      (gen h5 = Ok (inl (gb, l), h6) /\ parse_generic (members j) = ROk (map (fun g => mkGtag (fst g) (texts (snd g))) l) \/
      exists x, gen h5 = Ok (inr (gb, l, x), h6) /\ (parse_generic (members j) = RErr x \/ x = RMemory /\ failed grant h h6))).
  { unfold gen. clear gen. destruct (count_generic (members j)) as [|n] eqn:GG.
    - exists None, [], h5. split; [constructor|]. split; [reflexivity|]. split; [apply got_refl, (g_ok _ _ _ G15)|]. left. split; [reflexivity|]. apply count_zero, GG.
    - destruct (alloc_cases h5 (g_ok _ _ _ G15)) as [(q & h6 & E & G)|(E & FA)]; rewrite (mbind_ok _ _ _ _ _ E).
      + destruct (read_generic_spec (S n) (members j) h5 h6 [q] [] G (Forall_nil _)) as (l & o & h7 & E7 & SL & G7 & R); [cbn; lia|].
        exists (Some q), l, h7. split; [exact SL|]. split; [discriminate|]. split; [eapply got_perm; [|exact G7]; apply Permutation_app_comm|].
        rewrite (mbind_ok _ _ _ _ _ E7). destruct o as [x|].
        * right. exists x. split; [reflexivity|]. destruct R as [R|(-> & FA)]; [left; exact R|right]. split; [reflexivity|].
          pose proof (g_next _ _ _ G15). apply (failed_more grant h h5 h7 h7); [lia|lia|exact FA].
        * left. split; [reflexivity|]. destruct R as (gs & P & M). rewrite P, M. reflexivity.
      + exists None, [], h5. split; [constructor|]. split; [reflexivity|]. split; [apply got_refl, (g_ok _ _ _ G15)|]. right. exists RMemory. split; [reflexivity|]. right. split; [reflexivity|].
        pose proof (g_next _ _ _ G15). apply (failed_more grant h h5 h5 h5); [lia|lia|exact FA]. }
  destruct GS as (gb & l & h6 & SL & SG & G6 & CASE). pose proof (got_trans _ _ _ _ _ G15 G6) as G16. clear G15 G6. unfold filter_parse_tree in *.
  rewrite T1 in *; cbn [rbind] in *; rewrite T2 in *; cbn [rbind] in *; rewrite T3 in *; cbn [rbind] in *; rewrite T4 in *; cbn [rbind] in *; rewrite T5 in *; cbn [rbind] in *.
  destruct CASE as [(E6 & TG)|(x & E6 & W)]; rewrite (mbind_ok _ _ _ _ _ E6); cbv beta iota.
  2:{ edestruct (stage_fail (mkC ids au ks es ps gb l 0 0 0 None) x h h6 h6) as (h7 & E & G7 & N7); [snd_|eapply got_eq; [|exact G16]; blk; reflexivity|apply got_refl, (g_ok _ _ _ G16)|].
      exists zero_filter, (Some x), h7. split; [exact E|]. split; [reflexivity|]. split; [exact G7|].
      destruct W as [W|(-> & FA)]; [left; rewrite W; reflexivity|right]. split; [reflexivity|]. apply (failed_more grant h h h6 h7); [lia|lia|exact FA]. }
  clear E6 gen. rewrite TG in *. cbn [rbind] in *.
  (* times *)
  assert (TM : forall o, parse_time o <> RUndef -> exists z, parse_time o = ROk z).
  { intros o. destruct o as [[| |n| | |]|]; cbn [parse_time]; try (intros _; eexists; reflexivity). destruct (j_int64 n); [intros _; eexists; reflexivity|congruence|congruence]. }
  destruct (TM (jget (bs "since") j)) as (si & PS); [intros X; rewrite X in ND; apply ND; reflexivity|]. rewrite PS in *. cbn [rbind] in *.
  destruct (TM (jget (bs "until") j)) as (un & PU); [intros X; rewrite X in ND; apply ND; reflexivity|]. rewrite PU in *. cbn [rbind] in *.
  assert (RS : read_time (jget (bs "since") j) h6 = Ok (si, h6)) by (unfold read_time; rewrite PS; reflexivity).
  assert (RU : read_time (jget (bs "until") j) h6 = Ok (un, h6)) by (unfold read_time; rewrite PU; reflexivity).
  rewrite (mbind_ok _ _ _ _ _ RS), (mbind_ok _ _ _ _ _ RU). cbv zeta in *.
  set (lim := match jget (bs "limit") j with Some (JNum n) => j_int32 n | _ => 0%Z end) in *. clearbody lim.
  assert (NOSEARCH : exists d o h', Ok (mkC ids au ks es ps gb l si un lim None, @None rerr, h6) = Ok (d, o, h') /\
    match o with None => ROk (mkFilter (texts ids) (texts au) (snd ks) (texts es) (texts ps) (map (fun g => mkGtag (fst g) (texts (snd g))) l) si un lim None) = ROk (value d) /\ filter_sound d /\ got h (blocks d) h'
    | Some e => d = zero_filter /\ got h [] h' /\ (@ROk rfilter (mkFilter (texts ids) (texts au) (snd ks) (texts es) (texts ps) (map (fun g => mkGtag (fst g) (texts (snd g))) l) si un lim None) = RErr e \/ e = RMemory /\ failed grant h h') end).
  { eexists _, None, h6. split; [reflexivity|]. split; [reflexivity|]. split; [snd_|]. eapply got_eq; [|exact G16]. blk. reflexivity. }
  destruct (jget (bs "search") j) as [[| | |t| |]|]; try exact NOSEARCH. clear NOSEARCH.
  destruct (max_search <? N.of_nat (length t))%N.
  - edestruct (stage_fail (mkC ids au ks es ps gb l si un lim None) RInvalidJson h h6 h6) as (h7 & E & G7 & N7); [snd_|eapply got_eq; [|exact G16]; blk; reflexivity|apply got_refl, (g_ok _ _ _ G16)|].
    exists zero_filter, (Some RInvalidJson), h7. split; [exact E|]. split; [reflexivity|]. split; [exact G7|]. left. reflexivity.
  - destruct (alloc_cases h6 (g_ok _ _ _ G16)) as [(q & h7 & E7 & G7)|(E7 & FA)]; rewrite (mbind_ok _ _ _ _ _ E7); cbv beta iota.
    + eexists _, None, h7. split; [reflexivity|]. split; [reflexivity|]. split; [snd_|]. eapply got_eq; [|apply (got_trans _ _ _ _ _ G16 G7)]. blk. reflexivity.
    + edestruct (stage_fail (mkC ids au ks es ps gb l si un lim None) RMemory h h6 h6) as (h7 & E & G7 & N7); [snd_|eapply got_eq; [|exact G16]; blk; reflexivity|apply got_refl, (g_ok _ _ _ G16)|].
      exists zero_filter, (Some RMemory), h7. split; [exact E|]. split; [reflexivity|]. split; [exact G7|]. right. split; [reflexivity|].
      pose proof (g_next _ _ _ G16). apply (failed_more grant h h6 h6 h7); [lia|lia|exact FA].
Qed.

(** ** Deletion requests *)
Definition del_sound (d : cdeletion) : Prop := arr_sound (cd_ids d) /\ arr_sound (cd_addresses d).
Lemma deletion_free_all d h : del_sound d -> deletion_free d h = free_all (del_blocks d) h.
Proof.
  intros (S1 & S2). unfold deletion_free, del_blocks.
  rewrite <- (bind_free _ (fun _ => let! _ := free_sarr (cd_addresses d) in hfree (option_map fst (cd_reason d)))).
  - apply mbind_ext; [apply free_sarr_all, S1|reflexivity].
  - intros h'. rewrite <- (bind_free _ (fun _ => hfree (option_map fst (cd_reason d)))); [|intros; apply hfree_opt]. apply mbind_ext; [apply free_sarr_all, S2|reflexivity].
Qed.
Lemma del_fail d e h h1 h2 : del_sound d -> got h (del_blocks d) h1 -> got h1 [] h2 ->
  exists h3, deletion_fail d e h2 = Ok ((None, Some e), h3) /\ got h [] h3 /\ h_next h3 = h_next h2.
Proof.
  intros SD G1 G2. pose proof (got_trans _ _ _ _ _ G1 G2) as G. rewrite app_nil_r in G. destruct (free_new _ _ _ G) as (h3 & E & G3 & N3).
  exists h3. unfold deletion_fail. rewrite <- (deletion_free_all d h2 SD) in E. rewrite (mbind_ok _ _ _ _ _ E). auto.
Qed.
Lemma alloc_array_spec n h : heap_ok h ->
  (exists a h', alloc_array grant n h = Ok (inl a, h') /\ sa_cells a = [] /\ (n <> 0 -> sa_block a <> None) /\ got h (arr_blocks a) h') \/
  (alloc_array grant n h = Ok (inr RMemory, h) /\ failed grant h h).
Proof.
  intros OK. destruct n; cbn [alloc_array].
  - left. exists null_sarr, h. split; [reflexivity|]. split; [reflexivity|]. split; [congruence|apply got_refl, OK].
  - destruct (alloc_cases h OK) as [(q & h1 & E & G)|(E & FA)]; rewrite (mbind_ok _ _ _ _ _ E).
    + left. exists (mkSarr (Some q) []), h1. split; [reflexivity|]. split; [reflexivity|]. split; [discriminate|exact G].
    + right. auto.
Qed.
Lemma push_spec cap a t h : heap_ok h -> length (sa_cells a) < cap -> sa_block a <> None -> incl (arr_blocks a) (h_live h) ->
  (exists q h', push_cell grant cap a t h = Ok (inl (mkSarr (sa_block a) (sa_cells a ++ [(q, t)])), h') /\ got h [q] h') \/
  (push_cell grant cap a t h = Ok (inr RMemory, h) /\ failed grant h h).
Proof.
  intros OK L NB IL. unfold push_cell.
  assert (HA : hassert (length (sa_cells a) <? cap) h = Ok (tt, h)) by (unfold hassert; rewrite (proj2 (Nat.ltb_lt _ _)) by exact L; reflexivity).
  rewrite (mbind_ok _ _ _ _ _ HA). unfold arr_blocks in IL. destruct (sa_block a) as [b|] eqn:B; [|congruence].
  assert (LB : In b (h_live h)) by (apply IL, in_or_app; right; left; reflexivity). rewrite (mbind_ok _ _ _ _ _ (use_ok b h LB)).
  destruct (alloc_cases h OK) as [(q & h1 & E & G)|(E & FA)]; rewrite (mbind_ok _ _ _ _ _ E).
  - left. exists q, h1. split; [reflexivity|exact G].
  - right. split; [reflexivity|exact FA].
Qed.
Lemma fill_spec ec ac ts : forall h h1 d, got h (del_blocks d) h1 -> del_sound d ->
  length (sa_cells (cd_ids d)) + fst (count_refs ts) <= ec -> length (sa_cells (cd_addresses d)) + snd (count_refs ts) <= ac ->
  (ec <> 0 -> sa_block (cd_ids d) <> None) -> (ac <> 0 -> sa_block (cd_addresses d) <> None) ->
  exists d' o h', fill_refs grant ec ac ts d h1 = Ok ((d', o), h') /\ del_sound d' /\ got h (del_blocks d') h' /\
  match o with
  | None => cd_pubkey d' = cd_pubkey d /\ cd_reason d' = cd_reason d /\ texts (cd_ids d') = texts (cd_ids d) ++ fst (deletion_refs ts) /\
            texts (cd_addresses d') = texts (cd_addresses d) ++ snd (deletion_refs ts)
  | Some e => e = RMemory /\ failed grant h h'
  end.
Proof.
  induction ts as [|t ts IH]; intros h h1 d G SD L1 L2 B1 B2; cbn [fill_refs].
  - exists d, None, h1. cbn. rewrite !app_nil_r. repeat split; auto; apply G || apply SD.
  - cbn [count_refs deletion_refs] in *. destruct (count_refs ts) as (ce, ca). destruct (deletion_refs ts) as (re, ra). cbn [fst snd] in *.
    destruct t as [|n [|v r]]; [apply IH; assumption|apply IH; assumption|]. destruct (beq n (bs "e")); [|destruct (beq n (bs "a"))]; cbn [fst snd] in *.
    + destruct (validate_hex64 v); [|apply IH; auto; lia].
      destruct (push_spec ec (cd_ids d) v h1 (g_ok _ _ _ G)) as [(q & h2 & E & G2)|(E & FA)]; [lia|apply B1; lia| | |].
      { intros x I. apply (Permutation_in x (Permutation_sym (g_live _ _ _ G))), in_or_app. left. unfold del_blocks. apply in_or_app. left. exact I. }
      * rewrite (mbind_ok _ _ _ _ _ E). edestruct (IH h h2 (mkCD (cd_pubkey d) (cd_reason d) (mkSarr (sa_block (cd_ids d)) (sa_cells (cd_ids d) ++ [(q, v)])) (cd_addresses d))) as (d' & o & h' & E' & SD' & G' & R).
        -- eapply got_perm; [|apply (got_trans _ _ _ _ _ G G2)]. unfold del_blocks, arr_blocks. cbn [cd_ids cd_addresses cd_reason sa_cells sa_block]. rewrite map_app. cbn [map fst].
           rewrite <- !app_assoc. apply Permutation_app_head. rewrite !app_assoc. cbn [app]. apply Permutation_sym, Permutation_cons_append.
        -- destruct SD as (_ & SA). split; cbn [cd_ids cd_addresses]; [|exact SA]. intros X. cbn [sa_block] in X. exfalso. apply B1; [lia|exact X].
        -- cbn [cd_ids sa_cells]. rewrite app_length. cbn [length fst]. lia.
        -- cbn [cd_addresses snd]. lia.
        -- cbn [cd_ids sa_block]. exact B1.
        -- exact B2.
        -- exists d', o, h'. split; [exact E'|]. split; [exact SD'|]. split; [exact G'|]. destruct o; [exact R|]. cbn [cd_pubkey cd_reason cd_ids cd_addresses fst snd] in R.
           destruct R as (R1 & R2 & R3 & R4). split; [exact R1|]. split; [exact R2|]. split; [|exact R4]. rewrite R3. unfold texts. cbn [sa_cells]. rewrite map_app, <- app_assoc. reflexivity.
      * rewrite (mbind_ok _ _ _ _ _ E). exists d, (Some RMemory), h1. split; [reflexivity|]. split; [exact SD|]. split; [exact G|]. split; [reflexivity|].
        pose proof (g_next _ _ _ G). apply (failed_more grant h h1 h1 h1); [lia|lia|exact FA].
    + destruct (validate_address v); [|apply IH; auto; lia].
      destruct (push_spec ac (cd_addresses d) v h1 (g_ok _ _ _ G)) as [(q & h2 & E & G2)|(E & FA)]; [lia|apply B2; lia| | |].
      { intros x I. apply (Permutation_in x (Permutation_sym (g_live _ _ _ G))), in_or_app. left. unfold del_blocks. apply in_or_app. right. apply in_or_app. left. exact I. }
      * rewrite (mbind_ok _ _ _ _ _ E). edestruct (IH h h2 (mkCD (cd_pubkey d) (cd_reason d) (cd_ids d) (mkSarr (sa_block (cd_addresses d)) (sa_cells (cd_addresses d) ++ [(q, v)])))) as (d' & o & h' & E' & SD' & G' & R).
        -- eapply got_perm; [|apply (got_trans _ _ _ _ _ G G2)]. unfold del_blocks, arr_blocks. cbn [cd_ids cd_addresses cd_reason sa_cells sa_block]. rewrite map_app. cbn [map fst].
           rewrite <- !app_assoc. do 3 apply Permutation_app_head. cbn [app]. rewrite app_assoc. apply Permutation_sym, Permutation_cons_append.
        -- destruct SD as (SA & _). split; cbn [cd_ids cd_addresses]; [exact SA|]. intros X. cbn [sa_block] in X. exfalso. apply B2; [lia|exact X].
        -- cbn [cd_ids fst]. lia.
        -- cbn [cd_addresses sa_cells]. rewrite app_length. cbn [length snd]. lia.
        -- exact B1.
        -- cbn [cd_addresses sa_block]. exact B2.
        -- exists d', o, h'. split; [exact E'|]. split; [exact SD'|]. split; [exact G'|]. destruct o; [exact R|]. cbn [cd_pubkey cd_reason cd_ids cd_addresses fst snd] in R.
           destruct R as (R1 & R2 & R3 & R4). split; [exact R1|]. split; [exact R2|]. split; [exact R3|]. rewrite R4. unfold texts. cbn [sa_cells]. rewrite map_app, <- app_assoc. reflexivity.
      * rewrite (mbind_ok _ _ _ _ _ E). exists d, (Some RMemory), h1. split; [reflexivity|]. split; [exact SD|]. split; [exact G|]. split; [reflexivity|].
        pose proof (g_next _ _ _ G). apply (failed_more grant h h1 h1 h1); [lia|lia|exact FA].
    + apply IH; auto.
Qed.
(** Reading a deletion request: never outside its arrays, agrees with the list
    model, and an error leaves nothing behind. *)
Theorem C90_deletion : forall h e, heap_ok h ->
  exists d o h', deletion_read grant e h = Ok ((d, o), h') /\
  match o, d with
  | None, Some d => deletion_parse e = ROk (del_value d) /\ got h (del_blocks d) h'
  | Some x, None => got h [] h' /\ (deletion_parse e = RErr x \/ x = RMemory /\ failed grant h h')
  | _, _ => False
  end.
Proof.
  intros h e OK. unfold deletion_read, deletion_parse. destruct (negb (ev_kind e =? 5)%N).
  { exists None, (Some RInvalidKind), h. split; [reflexivity|]. split; [apply got_refl, OK|left; reflexivity]. }
  cbv zeta. set (pk := hex_encode (ev_pubkey e)). clearbody pk.
  match goal with |- context [mbind ?m _ h] => set (rs := m) end.
  assert (RS : (exists r h1, rs h = Ok (inl r, h1) /\ option_map snd r = match ev_content e with Some (c :: r) => Some (c :: r) | _ => None end /\ got h (opt_list (option_map fst r)) h1) \/
    rs h = Ok (inr RMemory, h) /\ failed grant h h).
  { unfold rs. destruct (ev_content e) as [[|c r]|]; try (left; exists None, h; split; [reflexivity|]; split; [reflexivity|]; apply got_refl, OK).
    destruct (alloc_cases h OK) as [(q & h1 & E & G)|(E & FA)]; rewrite (mbind_ok _ _ _ _ _ E); [left; exists (Some (q, c :: r)), h1; auto|right; auto]. }
  destruct RS as [(r & h1 & E & V & G)|(E & FA)]; rewrite (mbind_ok _ _ _ _ _ E); cbv beta iota.
  2:{ destruct (del_fail (mkCD pk None null_sarr null_sarr) RMemory h h h) as (h3 & E3 & G3 & N3); [split; apply null_sound|apply got_refl, OK|apply got_refl, OK|].
      exists None, (Some RMemory), h3. split; [exact E3|]. split; [exact G3|]. right. split; [reflexivity|]. apply (failed_more grant h h h h3); [lia|lia|exact FA]. }
  clear E rs. destruct (count_refs (ev_tags e)) as (ec, ac) eqn:CR. pose proof (g_next _ _ _ G) as N1.
  destruct (alloc_array_spec ec h1 (g_ok _ _ _ G)) as [(es & h2 & E2 & C2 & B2 & G2)|(E2 & FA)]; rewrite (mbind_ok _ _ _ _ _ E2); cbv beta iota.
  2:{ destruct (del_fail (mkCD pk r null_sarr null_sarr) RMemory h h1 h1) as (h3 & E3 & G3 & N3); [split; apply null_sound|exact G|apply got_refl, (g_ok _ _ _ G)|].
      exists None, (Some RMemory), h3. split; [exact E3|]. split; [exact G3|]. right. split; [reflexivity|]. apply (failed_more grant h h1 h1 h3); [lia|lia|exact FA]. }
  pose proof (g_next _ _ _ G2) as N2.
  assert (D2 : got h (del_blocks (mkCD pk r es null_sarr)) h2).
  { eapply got_perm; [|apply (got_trans _ _ _ _ _ G G2)]. unfold del_blocks. cbn [cd_ids cd_addresses cd_reason arr_blocks null_sarr sa_cells sa_block map opt_list app]. apply Permutation_app_comm. }
  destruct (alloc_array_spec ac h2 (g_ok _ _ _ G2)) as [(xs & h3 & E3 & C3 & B3 & G3)|(E3 & FA)]; rewrite (mbind_ok _ _ _ _ _ E3); cbv beta iota.
  2:{ destruct (del_fail (mkCD pk r es null_sarr) RMemory h h2 h2) as (h3 & E4 & G4 & N4); [split; [intros _; exact C2|apply null_sound]|exact D2|apply got_refl, (g_ok _ _ _ G2)|].
      exists None, (Some RMemory), h3. split; [exact E4|]. split; [exact G4|]. right. split; [reflexivity|]. apply (failed_more grant h h2 h2 h3); [lia|lia|exact FA]. }
  assert (D3 : got h (del_blocks (mkCD pk r es xs)) h3).
  { eapply got_perm; [|apply (got_trans _ _ _ _ _ D2 G3)]. unfold del_blocks. cbn [cd_ids cd_addresses cd_reason]. cbn [arr_blocks null_sarr sa_cells sa_block map opt_list app].
    rewrite <- app_assoc. apply Permutation_app_head, Permutation_app_comm. }
  destruct (fill_spec ec ac (ev_tags e) h h3 (mkCD pk r es xs) D3) as (d & o & h4 & E4 & SD & G4 & R).
  { split; [intros _; exact C2|intros _; exact C3]. }
  { cbn [cd_ids]. rewrite C2, CR. cbn. lia. }
  { cbn [cd_addresses]. rewrite C3, CR. cbn. lia. }
  { exact B2. }
  { exact B3. }
  rewrite (mbind_ok _ _ _ _ _ E4). destruct o as [x|].
  - destruct R as (-> & FA). destruct (del_fail d RMemory h h4 h4) as (h5 & E5 & G5 & N5); [exact SD|exact G4|apply got_refl, (g_ok _ _ _ G4)|].
    exists None, (Some RMemory), h5. split; [exact E5|]. split; [exact G5|]. right. split; [reflexivity|]. apply (failed_more grant h h h4 h5); [lia|lia|exact FA].
  - exists (Some d), None, h4. split; [reflexivity|]. split; [|exact G4]. cbn [cd_pubkey cd_reason cd_ids cd_addresses] in R. destruct R as (R1 & R2 & R3 & R4).
    destruct (deletion_refs (ev_tags e)) as (re, ra). cbn [fst snd] in *. unfold del_value. unfold texts in R3, R4. rewrite C2 in R3. rewrite C3 in R4. cbn [map app] in R3, R4.
    unfold texts. rewrite R1, R2, R3, R4, V. reflexivity.
Qed.
End Grant.

(** Concrete cases: a filter in memory, cloned with plenty and with little memory. *)
Definition sample_c : cfilter :=
  mkC (mkSarr (Some 0) [(1, bs "ab"); (2, bs "cd")]) null_sarr (Some 3, [1%Z]) null_sarr (mkSarr (Some 4) [(5, bs "x")]) (Some 6) [(116%N, mkSarr (Some 7) [(8, bs "t")]); (65%N, null_sarr)] 5 0 9 (Some (9, bs "q")).
Definition sample_h : heap := mkHeap 12 [9; 8; 7; 6; 5; 4; 3; 2; 1; 0; 11].
Example C51_meets : heap_ok sample_h /\ filter_sound sample_c /\ incl (blocks sample_c) (h_live sample_h) /\
  (exists d h', filter_clone (fun _ => true) sample_c sample_h = Ok ((d, None), h') /\ value d = value sample_c /\ length (h_live h') = 21) /\
  (exists h', filter_clone (fun k => k <? 19) sample_c sample_h = Ok ((zero_filter, Some RMemory), h') /\ h_next h' = 19 /\ length (h_live h') = 11).
Proof.
  split; [|split; [|split; [|split]]].
  - split; cbn [sample_h h_live h_next]; [|repeat constructor; lia]. repeat constructor; cbn; intuition lia.
  - constructor; cbn [sample_c c_ids c_authors c_e c_p c_kinds c_generic c_gblock fst snd]; try (intros X; reflexivity || discriminate X).
    repeat constructor; intros X; reflexivity || discriminate X.
  - intros x I. vm_compute in I. vm_compute. intuition.
  - eexists. eexists. split; [vm_compute; reflexivity|]. split; reflexivity.
  - eexists. split; [vm_compute; reflexivity|]. split; reflexivity.
Qed.
Example C90_meets :
  (exists d h', filter_read (fun _ => true) (Some (JObj [(bs "ids", JArr [JStr (bs "ab"); JNull]); (bs "#t", JArr [JStr (bs "x")]); (bs "#z", JNull)])) hempty = Ok ((d, None), h') /\ length (blocks d) = 5) /\
  (exists h', filter_read (fun k => k <? 3) (Some (JObj [(bs "ids", JArr [JStr (bs "ab"); JNull]); (bs "#t", JArr [JStr (bs "x")])])) hempty = Ok ((zero_filter, Some RMemory), h') /\ h_live h' = []).
Proof. split; [eexists|]; eexists; (split; [vm_compute; reflexivity|reflexivity]). Qed.

Print Assumptions C51_clone.
Print Assumptions C51_independent.
Print Assumptions C51_succeeds.
Print Assumptions C90_release.
Print Assumptions C90_parse.
Print Assumptions C90_deletion.
