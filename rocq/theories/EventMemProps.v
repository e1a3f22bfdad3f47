(** Theorems about the memory of events: C107, C108. *)
From Verif Require Import Base BaseFacts Heap Arena ArenaProofs Json Event EventSpec RelayMemSpec RelayMemProps Nip46Spec Nip46Props EventMem EventMemSpec.
From Coq Require Import Permutation.
Open Scope nat_scope.

(** ** Multisets of blocks *)
Ltac perm := apply (proj2 (Permutation_count_occ Nat.eq_dec _ _)); let x := fresh "x" in intros x;
  repeat match goal with P : Permutation _ _ |- _ => apply (fun Q => proj1 (Permutation_count_occ Nat.eq_dec _ _) Q x) in P end;
  unfold owned in *; cbn [ce_self ce_arena ce_mem ce_tags ce_content opt_list app] in *;
  repeat rewrite ?count_occ_app in *; cbn [count_occ] in *; repeat rewrite ?count_occ_app in *; cbn [count_occ] in *;
  repeat match goal with |- context [Nat.eq_dec ?a ?b] => destruct (Nat.eq_dec a b) end; lia.
Lemma holds_perm h l l' : Permutation l l' -> holds h l -> holds h l'.
Proof. intros P (OK & Q). split; [exact OK|]. rewrite Q. exact P. Qed.
Lemma free_holds b h l : holds h (b :: l) -> exists h', hfree (Some b) h = Ok (tt, h') /\ holds h' l /\ h_next h' = h_next h.
Proof. intros (OK & P). destruct (free_one b h l OK P) as (h' & E & OK' & N & Q). exists h'. repeat split; auto; apply OK'. Qed.
Lemma free_opt_holds o h l : holds h (opt_list o ++ l) -> exists h', hfree o h = Ok (tt, h') /\ holds h' l /\ h_next h' = h_next h.
Proof.
  destruct o as [b|]; cbn [opt_list app]; intros X; [apply free_holds, X|]. exists h. split; [reflexivity|]. split; [exact X|reflexivity].
Qed.
Lemma use_holds b h l : holds h l -> In b l -> huse (Some b) h = Ok (tt, h).
Proof. intros (_ & P) I. apply use_ok. apply (Permutation_in b (Permutation_sym P)), I. Qed.
Lemma failed_more g h0 h1 h2 h3 : h_next h0 <= h_next h1 -> h_next h2 <= h_next h3 -> failed g h1 h2 -> failed g h0 h3.
Proof. intros A B (k & L & F). exists k. split; [lia|exact F]. Qed.
Section Grant.
Variable grant : nat -> bool.
Lemma ealloc_cases h l : holds h l ->
  (exists q h', ealloc grant h = Ok (Some q, h') /\ holds h' (q :: l) /\ h_next h <= h_next h') \/
  (exists h', ealloc grant h = Ok (None, h') /\ holds h' l /\ h_next h <= h_next h' /\ failed grant h h').
Proof.
  intros ((ND & F) & P). unfold ealloc. destruct (grant (h_next h)) eqn:G.
  - left. eexists. eexists. split; [reflexivity|]. split; [|cbn; lia]. split; [|cbn [h_live]; apply perm_skip, P]. split; cbn [h_live h_next].
    + constructor; [|exact ND]. intros I. apply (proj1 (Forall_forall _ _) F) in I. cbv beta in I. lia.
    + constructor; [lia|]. eapply Forall_impl; [|exact F]. cbv beta. intros; lia.
  - right. eexists. split; [reflexivity|]. split; [|split; [cbn; lia|]].
    + split; [|exact P]. split; cbn [h_live h_next]; [exact ND|]. eapply Forall_impl; [|exact F]. cbv beta. intros; lia.
    + exists (h_next h). cbn. split; [lia|exact G].
Qed.
Lemma erealloc_cases o h l : holds h (opt_list o ++ l) ->
  (exists q h', erealloc grant o h = Ok (Some q, h') /\ holds h' (q :: l) /\ h_next h <= h_next h') \/
  (exists h', erealloc grant o h = Ok (None, h') /\ holds h' (opt_list o ++ l) /\ h_next h <= h_next h' /\ failed grant h h').
Proof.
  intros X. unfold erealloc. destruct (ealloc_cases h _ X) as [(q & h1 & E & X1 & L1)|(h1 & E & X1 & L1 & F)]; rewrite (mbind_ok _ _ _ _ _ E).
  - left. apply (holds_perm _ _ (opt_list o ++ q :: l)) in X1; [|perm]. destruct (free_opt_holds _ _ _ X1) as (h2 & E2 & X2 & L2).
    rewrite (mbind_ok _ _ _ _ _ E2). exists q, h2. split; [reflexivity|]. split; [exact X2|lia].
  - right. exists h1. auto.
Qed.
Lemma arena_cases h l : holds h l ->
  (exists a m h', arena_create grant h = Ok (Some (a, m), h') /\ holds h' (a :: m :: l) /\ h_next h <= h_next h') \/
  (exists h', arena_create grant h = Ok (None, h') /\ holds h' l /\ h_next h <= h_next h' /\ failed grant h h').
Proof.
  intros X. unfold arena_create. destruct (ealloc_cases h _ X) as [(a & h1 & E & X1 & L1)|(h1 & E & X1 & L1 & F)]; rewrite (mbind_ok _ _ _ _ _ E).
  2:{ right. exists h1. auto. }
  destruct (ealloc_cases h1 _ X1) as [(m & h2 & E2 & X2 & L2)|(h2 & E2 & X2 & L2 & F)]; rewrite (mbind_ok _ _ _ _ _ E2).
  - left. exists a, m, h2. split; [reflexivity|]. split; [|lia]. revert X2. apply holds_perm. apply perm_swap.
  - right. destruct (free_holds _ _ _ X2) as (h3 & E3 & X3 & L3). rewrite (mbind_ok _ _ _ _ _ E3). exists h3. split; [reflexivity|]. split; [exact X3|].
    split; [lia|]. refine (failed_more _ _ _ _ _ _ _ F); lia.
Qed.

(** ** C107 *)
(** A new event owns its blocks, or nothing is kept. *)
Theorem C107_create : forall now h rest, holds h rest ->
  exists p x h', event_create grant now h = Ok ((p, x), h') /\ h_next h <= h_next h' /\
  ((x = None /\ exists c, p = Some c /\ event_sound c /\ holds h' (owned c ++ rest) /\ ce_val c = mkEvent (repeat 0%N 32) (repeat 0%N 32) now 0 [] None (repeat 0%N 64)) \/
   (x = Some EMemory /\ holds h' rest /\ failed grant h h')).
Proof.
  intros now h rest X. unfold event_create. destruct (ealloc_cases h _ X) as [(s & h1 & E & X1 & L1)|(h1 & E & X1 & L1 & F)]; rewrite (mbind_ok _ _ _ _ _ E).
  2:{ exists None, (Some EMemory), h1. split; [reflexivity|]. split; [lia|]. right. auto. }
  destruct (arena_cases h1 _ X1) as [(a & m & h2 & E2 & X2 & L2)|(h2 & E2 & X2 & L2 & F)]; rewrite (mbind_ok _ _ _ _ _ E2).
  - rewrite (mbind_ok _ _ _ _ _ (use_holds s h2 _ X2 ltac:(right; right; left; reflexivity))).
    eexists. eexists. exists h2. split; [reflexivity|]. split; [lia|]. left. split; [reflexivity|]. eexists. split; [reflexivity|]. split; [|split; [|reflexivity]].
    + constructor; cbn [ce_content ce_val ce_tags ce_cap ce_used ev_content ev_tags blank]; [tauto|reflexivity|lia|lia].
    + revert X2. apply holds_perm. perm.
  - destruct (free_holds _ _ _ X2) as (h3 & E3 & X3 & L3). rewrite (mbind_ok _ _ _ _ _ E3). eexists. eexists. exists h3. split; [reflexivity|]. split; [lia|].
    right. split; [reflexivity|]. split; [exact X3|]. refine (failed_more _ _ _ _ _ _ _ F); lia.
Qed.
(** Destroying an event gives back exactly its blocks. *)
Theorem C107_destroy : forall c h rest, holds h (owned c ++ rest) ->
  exists h', event_destroy (Some c) h = Ok (tt, h') /\ holds h' rest /\ h_next h' = h_next h.
Proof.
  intros c h rest X. unfold event_destroy. rewrite (mbind_ok _ _ _ _ _ (use_holds (ce_self c) h _ X ltac:(left; reflexivity))).
  apply (holds_perm _ _ (opt_list (ce_content c) ++ ce_self c :: ce_arena c :: ce_mem c :: opt_list (ce_tags c) ++ rest)) in X; [|perm].
  destruct (free_opt_holds _ _ _ X) as (h1 & E1 & X1 & L1). rewrite (mbind_ok _ _ _ _ _ E1).
  rewrite (mbind_ok _ _ _ _ _ (use_holds (ce_arena c) h1 _ X1 ltac:(right; left; reflexivity))).
  apply (holds_perm _ _ (ce_mem c :: ce_arena c :: opt_list (ce_tags c) ++ ce_self c :: rest)) in X1; [|perm].
  destruct (free_holds _ _ _ X1) as (h2 & E2 & X2 & L2). rewrite (mbind_ok _ _ _ _ _ E2).
  destruct (free_holds _ _ _ X2) as (h3 & E3 & X3 & L3). rewrite (mbind_ok _ _ _ _ _ E3).
  destruct (free_opt_holds _ _ _ X3) as (h4 & E4 & X4 & L4). rewrite (mbind_ok _ _ _ _ _ E4).
  destruct (free_holds _ _ _ X4) as (h5 & E5 & X5 & L5). exists h5. split; [exact E5|]. split; [exact X5|lia].
Qed.
(** Setting the content from a text that is not the event's own. *)
Theorem C107_content : forall c src t h rest, event_sound c -> holds h (owned c ++ rest) -> In src rest ->
  exists c' x h', set_content grant c src t h = Ok ((c', x), h') /\ event_sound c' /\ holds h' (owned c' ++ rest) /\ h_next h <= h_next h' /\
  ((x = None /\ ce_val c' = saying (ce_val c) (Some t)) \/ (x = Some EMemory /\ ce_val c' = saying (ce_val c) None /\ failed grant h h')).
Proof.
  intros c src t h rest [S1 S2 S3 S4] X I. unfold set_content. rewrite (mbind_ok _ _ _ _ _ (use_holds (ce_self c) h _ X ltac:(left; reflexivity))).
  apply (holds_perm _ _ (opt_list (ce_content c) ++ ce_self c :: ce_arena c :: ce_mem c :: opt_list (ce_tags c) ++ rest)) in X; [|perm].
  destruct (free_opt_holds _ _ _ X) as (h1 & E1 & X1 & L1). rewrite (mbind_ok _ _ _ _ _ E1).
  rewrite (mbind_ok _ _ _ _ _ (use_holds src h1 _ X1 ltac:(do 3 right; apply in_or_app; right; exact I))).
  destruct (ealloc_cases h1 _ X1) as [(q & h2 & E2 & X2 & L2)|(h2 & E2 & X2 & L2 & F)]; rewrite (mbind_ok _ _ _ _ _ E2).
  - eexists. eexists. exists h2. split; [reflexivity|]. split; [|split; [|split; [lia|left; split; reflexivity]]].
    + constructor; cbn [with_content ce_content ce_val ce_tags ce_cap ce_used ev_content ev_tags]; auto. split; discriminate.
    + revert X2. apply holds_perm. unfold with_content. perm.
  - eexists. eexists. exists h2. split; [reflexivity|]. split; [|split; [|split; [lia|right; split; [reflexivity|split; [reflexivity|]]]]].
    + constructor; cbn [with_content ce_content ce_val ce_tags ce_cap ce_used ev_content ev_tags]; auto. tauto.
    + revert X2. apply holds_perm. unfold with_content. perm.
    + refine (failed_more _ _ _ _ _ _ _ F); lia.
Qed.
Lemma grow_bound required : forall fuel cap c, (cap < 2 ^ 64)%N -> grow fuel cap required = Ok c -> (cap <= c < 2 ^ 64)%N.
Proof.
  induction fuel as [|f IH]; intros cap c L G; cbn [grow] in G; [discriminate|]. destruct (N.ltb_spec cap required).
  - destruct (N.leb_spec (w64 (cap * 2)) cap); [discriminate|]. apply IH in G; [lia|]. unfold w64. apply N.mod_lt. discriminate.
  - assert (cap = c) by congruence. subst c. lia.
Qed.
Variable lim : option ev_limits.
Definition full (e : event) : Prop := exists l, lim = Some l /\ (max_tags l <= N.of_nat (length (ev_tags e)))%N.
Lemma space_eq vs : tag_bytes vs = space vs.
Proof. reflexivity. Qed.
Lemma place_ok c vs h rest : event_sound c -> holds h (owned c ++ rest) ->
  exists c' x h', place_tag grant c vs h = Ok ((c', x), h') /\ event_sound c' /\ holds h' (owned c' ++ rest) /\ h_next h <= h_next h' /\
  ((x = None /\ ce_val c' = tagged (ce_val c) vs /\ (ce_used c' = ce_used c + space vs)%N) \/
   (x = Some EMemory /\ ce_val c' = ce_val c /\ (failed grant h h' \/ (ce_cap c < ce_used c + space vs)%N))).
Proof.
  intros [S1 S2 S3 S4] X. unfold place_tag.
  apply (holds_perm _ _ (opt_list (ce_tags c) ++ ce_self c :: ce_arena c :: ce_mem c :: opt_list (ce_content c) ++ rest)) in X; [|perm].
  destruct (erealloc_cases _ _ _ X) as [(q & h1 & E & X1 & L1)|(h1 & E & X1 & L1 & F)]; rewrite (mbind_ok _ _ _ _ _ E).
  2:{ exists c, (Some EMemory), h1. split; [reflexivity|]. split; [constructor; assumption|]. split; [revert X1; apply holds_perm; perm|]. split; [exact L1|].
      right. split; [reflexivity|]. split; [reflexivity|]. left. exact F. }
  assert (X2 : holds h1 (owned (with_tagblock c (Some q)) ++ rest)) by (revert X1; apply holds_perm; unfold with_tagblock; perm).
  assert (B : (8 * N.of_nat (length vs) <= space vs)%N) by (unfold space; lia). rewrite space_eq.
  cbn [with_tagblock ce_cap ce_used]. destruct (N.ltb_spec (ce_cap c - ce_used c) (8 * N.of_nat (length vs))).
  - eexists. eexists. exists h1. split; [reflexivity|]. split; [constructor; cbn; auto; discriminate|]. split; [exact X2|]. split; [exact L1|].
    right. split; [reflexivity|]. split; [reflexivity|]. right. lia.
  - destruct (N.ltb_spec (ce_cap c - ce_used c) (space vs)).
    + eexists. eexists. exists h1. split; [reflexivity|]. split; [constructor; cbn [with_used with_tagblock ce_content ce_val ce_tags ce_cap ce_used]; auto; [discriminate|lia]|].
      split; [exact X2|]. split; [exact L1|]. right. split; [reflexivity|]. split; [reflexivity|]. right. lia.
    + rewrite (mbind_ok _ _ _ _ _ (use_holds (ce_mem (with_tagblock c (Some q))) h1 _ X2 ltac:(right; right; left; reflexivity))).
      eexists. eexists. exists h1. split; [reflexivity|].
      split; [constructor; cbn [with_tag with_tagblock ce_content ce_val ce_tags ce_cap ce_used ev_content ev_tags]; auto; [discriminate|lia]|].
      split; [exact X2|]. split; [exact L1|]. left. repeat split.
Qed.
(** Adding a tag adds that tag or leaves the event saying what it said. *)
Theorem C107_tag : forall c vs h rest, event_sound c -> holds h (owned c ++ rest) ->
  exists c' x h', add_tag grant lim c vs h = Ok ((c', x), h') /\ event_sound c' /\ holds h' (owned c' ++ rest) /\ h_next h <= h_next h' /\
  ((x = None /\ ce_val c' = tagged (ce_val c) vs /\ vs <> [] /\ ~ full (ce_val c)) \/
   (x = Some EInvalidParam /\ ce_val c' = ce_val c /\ (vs = [] \/ full (ce_val c) \/ (2 ^ 64 <= space vs)%N)) \/
   (x = Some EMemory /\ ce_val c' = ce_val c /\ (failed grant h h' \/ (2 ^ 62 < ce_used c + space vs)%N))) /\
  (x = None -> ce_used c' = ce_used c + space vs)%N.
Proof.
  intros c vs h rest ES X. unfold add_tag. rewrite (mbind_ok _ _ _ _ _ (use_holds (ce_self c) h _ X ltac:(left; reflexivity))).
  assert (REF : forall x, (x = EInvalidParam /\ (vs = [] \/ full (ce_val c) \/ (2 ^ 64 <= space vs)%N)) \/ (x = EMemory /\ (2 ^ 62 < ce_used c + space vs)%N) ->
    exists c' y h', @mret (cevent * option err) (c, Some x) h = Ok ((c', y), h') /\ event_sound c' /\ holds h' (owned c' ++ rest) /\ h_next h <= h_next h' /\
    ((y = None /\ ce_val c' = tagged (ce_val c) vs /\ vs <> [] /\ ~ full (ce_val c)) \/
     (y = Some EInvalidParam /\ ce_val c' = ce_val c /\ (vs = [] \/ full (ce_val c) \/ (2 ^ 64 <= space vs)%N)) \/
     (y = Some EMemory /\ ce_val c' = ce_val c /\ (failed grant h h' \/ (2 ^ 62 < ce_used c + space vs)%N))) /\
    (y = None -> ce_used c' = ce_used c + space vs)%N).
  { intros x C. exists c, (Some x), h. split; [reflexivity|]. split; [exact ES|]. split; [exact X|]. split; [lia|]. split; [|discriminate].
    destruct C as [(-> & C)|(-> & C)]; auto 10. }
  destruct vs as [|v vs]; [apply REF; auto|]. set (w := v :: vs) in *. assert (NE : w <> []) by discriminate. clearbody w.
  destruct (match lim with Some l => _ | None => false end) eqn:LF.
  { apply REF. left. split; [reflexivity|]. right. left. destruct lim as [l|] eqn:EL; [|discriminate]. exists l. split; [exact EL|]. apply N.leb_le, LF. }
  assert (NF : ~ full (ce_val c)).
  { intros (l & EL & C). rewrite EL in LF. apply N.leb_gt in LF. lia. }
  rewrite space_eq. destruct (N.ltb_spec SIZE_MAX (space w)) as [BIG|SMALL].
  { apply REF. left. split; [reflexivity|]. right. right. unfold SIZE_MAX in BIG. lia. }
  rewrite (mbind_ok _ _ _ _ _ (use_holds (ce_arena c) h _ X ltac:(right; left; reflexivity))).
  pose proof (es_cap _ ES) as CAP. pose proof (es_used _ ES) as USED. unfold SIZE_MAX in SMALL.
  assert (W : (w64 (ce_used c + space w) = ce_used c + space w \/ 2 ^ 64 <= ce_used c + space w)%N).
  { destruct (N.lt_ge_cases (ce_used c + space w) (2 ^ 64)) as [L|L]; [left; apply w64_small, L|right; exact L]. }
  destruct (N.ltb_spec (ce_cap c) (w64 (ce_used c + space w))) as [G|G].
  - destruct (grow_spec (w64 (ce_used c + space w)) 65 (ce_cap c)) as [(cap & GE & G1 & G2)|GE]; [lia|lia| |lia| |].
    { change (2 ^ N.of_nat 65)%N with (2 ^ 65)%N. lia. }
    + rewrite GE. pose proof (grow_bound _ _ _ _ (proj2 CAP) GE) as GB.
      assert (X0 : holds h (opt_list (Some (ce_mem c)) ++ ce_self c :: ce_arena c :: opt_list (ce_tags c) ++ opt_list (ce_content c) ++ rest)) by (revert X; apply holds_perm; perm).
      destruct (erealloc_cases _ _ _ X0) as [(m & h1 & E & X1 & L1)|(h1 & E & X1 & L1 & F)]; rewrite (mbind_ok _ _ _ _ _ E).
      2:{ exists c, (Some EMemory), h1. split; [reflexivity|]. split; [exact ES|]. split; [revert X1; apply holds_perm; perm|]. split; [exact L1|]. split; [|discriminate]. auto 10. }
      assert (ES1 : event_sound (with_mem c m cap)) by (destruct ES; constructor; cbn; auto; lia).
      assert (X2 : holds h1 (owned (with_mem c m cap) ++ rest)) by (revert X1; apply holds_perm; unfold with_mem; perm).
      destruct (place_ok (with_mem c m cap) w h1 rest ES1 X2) as (c' & x & h' & P & ES' & X' & L' & R). exists c', x, h'. split; [exact P|]. split; [exact ES'|]. split; [exact X'|].
      split; [lia|]. cbn [with_mem ce_val ce_used ce_cap] in R. split.
      * destruct R as [(-> & V & U)|(-> & V & [F|F])]; [auto 10| |].
        -- right. right. split; [reflexivity|]. split; [exact V|]. left. refine (failed_more _ _ _ _ _ _ _ F); lia.
        -- right. right. split; [reflexivity|]. split; [exact V|]. right. destruct W as [W|W]; lia.
      * intros ->. destruct R as [(_ & _ & U)|(R & _)]; [exact U|discriminate].
    + rewrite GE. apply REF. right. split; [reflexivity|].
      destruct (N.le_gt_cases (ce_used c + space w) (2 ^ 62)) as [L|L]; [|exact L]. exfalso.
      destruct W as [W|W]; [|lia]. destruct (grow_succeeds (w64 (ce_used c + space w)) 65 (ce_cap c)) as (y & Y & _); [lia|lia| |lia|lia|congruence].
      change (2 ^ N.of_nat 65)%N with (2 ^ 65)%N. lia.
  - destruct (place_ok c w h rest ES X) as (c' & x & h' & P & ES' & X' & L' & R). exists c', x, h'. split; [exact P|]. split; [exact ES'|]. split; [exact X'|]. split; [exact L'|]. split.
    + destruct R as [(-> & V & U)|(-> & V & [F|F])]; [auto 10|auto 10|]. right. right. split; [reflexivity|]. split; [exact V|]. right. destruct W as [W|W]; lia.
    + intros ->. destruct R as [(_ & _ & U)|(R & _)]; [exact U|discriminate].
Qed.

(** Whether it succeeds or not, the call leaves the space of earlier tags taken. *)
Theorem C107_kept : forall c vs h c' x h', add_tag grant lim c vs h = Ok ((c', x), h') -> (ce_used c <= ce_used c')%N.
Proof.
  assert (BI : forall (A B : Type) (m : M A) (f : A -> M B) h r, mbind m f h = Ok r -> exists a h1, f a h1 = Ok r).
  { intros A B m f h r E. unfold mbind in E. destruct (m h) as [[a h1]| |]; try discriminate. eauto. }
  assert (PL : forall c vs h c' x h', place_tag grant c vs h = Ok ((c', x), h') -> (ce_used c <= ce_used c')%N).
  { intros c vs h c' x h' E. unfold place_tag in E. apply BI in E as ([q|] & h1 & E).
    - cbv zeta in E. destruct (_ <? _)%N in E; [unfold mret in E; assert (c' = with_tagblock c (Some q)) by congruence; subst; cbn; lia|].
      destruct (_ <? _)%N in E; [unfold mret in E; match type of E with Ok ((?a, _), _) = _ => assert (c' = a) by congruence end; subst; cbn; lia|].
      apply BI in E as (u & h2 & E). unfold mret in E. match type of E with Ok ((?a, _), _) = _ => assert (c' = a) by congruence end; subst; cbn; lia.
    - unfold mret in E. assert (c' = c) by congruence. subst. lia. }
  intros c vs h c' x h' E. unfold add_tag in E. apply BI in E as (u & h1 & E).
  assert (SAME : forall (y : err) h2, @mret (cevent * option err) (c, Some y) h2 = Ok ((c', x), h') -> (ce_used c <= ce_used c')%N) by (intros y h2 Q; unfold mret in Q; assert (c' = c) by congruence; subst; lia).
  destruct vs as [|v vs]; [exact (SAME _ _ E)|]. destruct (match lim with Some _ => _ | None => _ end); [exact (SAME _ _ E)|]. destruct (_ <? _)%N in E; [exact (SAME _ _ E)|].
  apply BI in E as (u2 & h2 & E). destruct (_ <? _)%N in E; [|exact (PL _ _ _ _ _ _ E)].
  destruct (grow _ _ _) as [cap|y|]; [|exact (SAME _ _ E)|discriminate]. apply BI in E as ([m|] & h3 & E); [|exact (SAME _ _ E)]. apply PL in E. exact E.
Qed.

(** ** C108 *)
Lemma space_cons v vs : (space (v :: vs) = 8 + (N.of_nat (length v) + 1) + space vs)%N.
Proof. unfold space. cbn [fold_right length]. lia. Qed.
Lemma json_space_cons t l : (json_space (t :: l) = json_space l + match tag_values t with Some vs => space vs | None => 0 end)%N.
Proof.
  unfold json_space. cbn [fold_right]. f_equal. destruct t as [| | | |l'|]; try reflexivity. unfold tag_values. destruct l' as [|a l']; [reflexivity|].
  set (w := a :: l'). clearbody w. clear. induction w as [|v w IH]; [reflexivity|]. cbn [fold_right map]. rewrite space_cons, IH. destruct v; cbn [length]; lia.
Qed.
Definition more_tags (e : event) (ts : list (list (list N))) : event :=
  mkEvent (ev_id e) (ev_pubkey e) (ev_created e) (ev_kind e) (ev_tags e ++ ts) (ev_content e) (ev_sig e).
Lemma tag_values_ne t vs : tag_values t = Some vs -> vs <> [].
Proof. destruct t as [| | | |l|]; try discriminate. destruct l; [discriminate|]. cbn. intros E. assert (X : vs = map (fun v => match v with JStr s => s | _ => [] end) (j :: l)) by (cbn; congruence). subst vs. discriminate. Qed.
Lemma import_tags_ok l : forall c h rest, event_sound c -> holds h (owned c ++ rest) ->
  (forall m, lim = Some m -> (N.of_nat (length (ev_tags (ce_val c))) + N.of_nat (length l) <= max_tags m)%N) ->
  exists c' b h', import_tags_m grant lim c l h = Ok ((c', b), h') /\ event_sound c' /\ holds h' (owned c' ++ rest) /\ h_next h <= h_next h' /\
  ((b = true /\ ce_val c' = more_tags (ce_val c) (import_tags l)) \/ (b = false /\ (failed grant h h' \/ (2 ^ 62 < ce_used c + json_space l)%N))).
Proof.
  induction l as [|j l IH]; intros c h rest ES X M; cbn [import_tags_m import_tags].
  - exists c, true, h. split; [reflexivity|]. split; [exact ES|]. split; [exact X|]. split; [lia|]. left. split; [reflexivity|].
    unfold more_tags. rewrite app_nil_r. destruct (ce_val c); reflexivity.
  - rewrite json_space_cons. destruct (tag_values j) as [vs|] eqn:TV.
    2:{ rewrite N.add_0_r. apply (IH c h rest ES X). intros m E. specialize (M m E). cbn [length] in M. lia. }
    destruct (ealloc_cases h _ X) as [(t & h1 & E & X1 & L1)|(h1 & E & X1 & L1 & F)]; rewrite (mbind_ok _ _ _ _ _ E).
    2:{ exists c, false, h1. split; [reflexivity|]. split; [exact ES|]. split; [exact X1|]. split; [exact L1|]. right. auto. }
    rewrite (mbind_ok _ _ _ _ _ (use_holds t h1 _ X1 ltac:(left; reflexivity))).
    apply (holds_perm _ _ (owned c ++ t :: rest)) in X1; [|apply Permutation_middle].
    destruct (C107_tag c vs h1 _ ES X1) as (c1 & x & h2 & E2 & ES2 & X2 & L2 & R & U). rewrite (mbind_ok _ _ _ _ _ E2).
    apply (holds_perm _ _ (t :: owned c1 ++ rest)) in X2; [|symmetry; apply Permutation_middle].
    destruct (free_holds _ _ _ X2) as (h3 & E3 & X3 & L3). rewrite (mbind_ok _ _ _ _ _ E3).
    destruct R as [(-> & V & _)|[(-> & V & C)|(-> & V & C)]].
    + specialize (U eq_refl). destruct (IH c1 h3 rest ES2 X3) as (c2 & b & h4 & E4 & ES4 & X4 & L4 & R4).
      { intros m EM. specialize (M m EM). rewrite V. cbn [tagged ev_tags length] in *. rewrite app_length. cbn [length]. lia. }
      exists c2, b, h4. split; [exact E4|]. split; [exact ES4|]. split; [exact X4|]. split; [lia|]. destruct R4 as [(-> & V4)|(-> & [F|F])].
      * left. split; [reflexivity|]. rewrite V4, V. unfold more_tags, tagged. cbn [ev_id ev_pubkey ev_created ev_kind ev_tags ev_content ev_sig]. rewrite <- app_assoc. reflexivity.
      * right. split; [reflexivity|]. left. refine (failed_more _ _ _ _ _ _ _ F); lia.
      * right. split; [reflexivity|]. right. lia.
    + exists c1, false, h3. split; [reflexivity|]. split; [exact ES2|]. split; [exact X3|]. split; [lia|]. right. split; [reflexivity|].
      destruct C as [C|[(m & EM & C)|C]]; [apply tag_values_ne in TV; contradiction| |right; lia].
      exfalso. specialize (M m EM). cbn [length] in M. lia.
    + exists c1, false, h3. split; [reflexivity|]. split; [exact ES2|]. split; [exact X3|]. split; [lia|]. right. split; [reflexivity|].
      destruct C as [F|C]; [left; refine (failed_more _ _ _ _ _ _ _ F); lia|right; lia].
Qed.
Variable parse : list N -> option json.
(** How a stage of the import may end, [r] being what the tree gives. *)
Definition ends (big : Prop) (r : res event) (h : heap) (rest : list nat) (o : res ((option cevent * option err) * heap)) : Prop :=
  exists p x h', o = Ok ((p, x), h') /\ h_next h <= h_next h' /\
  ((x = None /\ exists c, p = Some c /\ event_sound c /\ holds h' (owned c ++ rest) /\ r = Ok (ce_val c)) \/
   (exists e, x = Some e /\ holds h' rest /\ (r = Err e \/ (e = EMemory /\ (failed grant h h' \/ big))))).
Lemma gives_up (big : Prop) r c root x h rest : holds h (owned c ++ root :: rest) -> (r = Err x \/ (x = EMemory /\ big)) -> ends big r h rest (give_up c root x h).
Proof.
  intros X R. unfold give_up. destruct (C107_destroy c h _ X) as (h1 & E1 & X1 & L1). rewrite (mbind_ok _ _ _ _ _ E1).
  destruct (free_holds _ _ _ X1) as (h2 & E2 & X2 & L2). rewrite (mbind_ok _ _ _ _ _ E2).
  eexists. eexists. exists h2. split; [reflexivity|]. split; [lia|]. right. exists x. split; [reflexivity|]. split; [exact X2|]. tauto.
Qed.
Lemma ends_more (big big' : Prop) r h h1 rest o : h_next h <= h_next h1 -> (big' -> big) -> ends big' r h1 rest o -> ends big r h rest o.
Proof.
  intros L B (p & x & h' & E & L' & R). exists p, x, h'. split; [exact E|]. split; [lia|]. destruct R as [R|(e & Ex & X & [R|(R & [F|F])])]; [left; exact R| | |].
  - right. exists e. split; [exact Ex|]. split; [exact X|]. left. exact R.
  - right. exists e. split; [exact Ex|]. split; [exact X|]. right. split; [exact R|]. left. refine (failed_more _ _ _ _ _ _ _ F); lia.
  - right. exists e. split; [exact Ex|]. split; [exact X|]. right. split; [exact R|]. right. apply B, F.
Qed.
Lemma failing r big c root h h1 rest : holds h1 (owned c ++ root :: rest) -> h_next h <= h_next h1 -> failed grant h h1 -> ends big r h rest (give_up c root EMemory h1).
Proof.
  intros X L F. destruct (gives_up True r c root EMemory h1 rest X ltac:(right; auto)) as (p & x & h' & E & L' & R). exists p, x, h'. split; [exact E|]. split; [lia|].
  destruct R as [R|(e & Ex & X' & R)]; [auto|]. right. exists e. split; [exact Ex|]. split; [exact X'|]. destruct R as [R|(R & _)]; [auto|]. right. split; [exact R|]. left.
  refine (failed_more _ _ _ _ _ _ _ F); lia.
Qed.
Lemma sig_ok big c root j h rest : event_sound c -> holds h (owned c ++ root :: rest) ->
  ends big (let e := ce_val c in do sg <- hex_field 64 (jget (bs "sig") j); Ok (mkEvent (ev_id e) (ev_pubkey e) (ev_created e) (ev_kind e) (ev_tags e) (ev_content e) sg)) h rest
    (import_sig c root j h).
Proof.
  intros ES X. unfold import_sig. destruct (hex_field 64 (jget (bs "sig") j)) as [sg|x|] eqn:HF; cbv beta zeta; cbn [bind].
  - apply (holds_perm _ _ (root :: owned c ++ rest)) in X; [|symmetry; apply Permutation_middle]. destruct (free_holds _ _ _ X) as (h1 & E1 & X1 & L1).
    rewrite (mbind_ok _ _ _ _ _ E1). eexists. eexists. exists h1. split; [reflexivity|]. split; [lia|]. left. split; [reflexivity|]. eexists. split; [reflexivity|].
    split; [destruct ES; constructor; assumption|]. split; [exact X1|reflexivity].
  - apply gives_up; [exact X|]. left. reflexivity.
  - exfalso. unfold hex_field in HF. destruct (jget (bs "sig") j) as [[]|]; try discriminate. destruct (hex_to_bytes _ _); discriminate.
Qed.
Definition big_tags (j : json) : Prop := exists l, gives j (bs "tags") (JArr l) /\ (2 ^ 62 < json_space l)%N.
Lemma taglist_ok c root j h rest : event_sound c -> ce_tags c = None -> ce_used c = 0%N -> ev_tags (ce_val c) = [] -> holds h (owned c ++ root :: rest) ->
  ends (big_tags j) (let e := ce_val c in
    do tags <- match jget (bs "tags") j with
             | Some (JArr l) =>
               match lim with
               | Some m => if (max_tags m <? N.of_nat (length l))%N then Err EInvalidParam else Ok (import_tags l)
               | None => Ok (import_tags l)
               end
             | _ => Ok []
             end;
    do sg <- hex_field 64 (jget (bs "sig") j); Ok (mkEvent (ev_id e) (ev_pubkey e) (ev_created e) (ev_kind e) tags (ev_content e) sg)) h rest
    (import_taglist grant lim c root j h).
Proof.
  intros ES TN U0 T0 X. unfold import_taglist. cbv zeta.
  assert (DONE : forall big, ends big (do sg <- hex_field 64 (jget (bs "sig") j); Ok (mkEvent (ev_id (ce_val c)) (ev_pubkey (ce_val c)) (ev_created (ce_val c)) (ev_kind (ce_val c)) [] (ev_content (ce_val c)) sg)) h rest (import_sig c root j h)).
  { intros big. pose proof (sig_ok big c root j h rest ES X) as R. cbv zeta in R. rewrite T0 in R. exact R. }
  destruct (jget (bs "tags") j) as [[| | | |l|]|] eqn:JT; cbn [bind]; try apply DONE.
  assert (LC : forall m, lim = Some m -> (max_tags m <? N.of_nat (length l))%N = false -> (N.of_nat (length (ev_tags (ce_val c))) + N.of_nat (length l) <= max_tags m)%N).
  { intros m _ LT. rewrite T0. apply N.ltb_ge in LT. cbn [length]. lia. }
  destruct (match lim with Some m => (max_tags m <? N.of_nat (length l))%N | None => false end) eqn:LM.
  { apply gives_up; [exact X|]. left. destruct lim as [m|]; [|discriminate]. rewrite LM. reflexivity. }
  assert (RT : match lim with Some m => if (max_tags m <? N.of_nat (length l))%N then Err EInvalidParam else Ok (import_tags l) | None => Ok (import_tags l) end = Ok (import_tags l)).
  { destruct lim as [m|]; [|reflexivity]. rewrite LM. reflexivity. }
  rewrite RT. cbn [bind].
  assert (LC' : forall m, lim = Some m -> (N.of_nat (length (ev_tags (ce_val c))) + N.of_nat (length l) <= max_tags m)%N) by (intros m EM; apply LC; [exact EM|rewrite EM in LM; exact LM]).
  destruct l as [|t0 l0]; [apply DONE|]. set (l := t0 :: l0) in *. clearbody l.
  destruct (ealloc_cases h _ X) as [(t & h1 & E & X1 & L1)|(h1 & E & X1 & L1 & F)]; rewrite (mbind_ok _ _ _ _ _ E).
  2:{ apply failing; assumption. }
  set (c1 := with_tagblock c (Some t)).
  assert (ES1 : event_sound c1) by (destruct ES; constructor; cbn [c1 with_tagblock ce_content ce_val ce_tags ce_cap ce_used]; auto; discriminate).
  assert (X2 : holds h1 (owned c1 ++ root :: rest)) by (revert X1; apply holds_perm; unfold c1, with_tagblock, owned; rewrite TN; perm).
  destruct (import_tags_ok l c1 h1 _ ES1 X2 LC') as (c2 & b & h2 & E2 & ES2 & X3 & L2 & R). rewrite (mbind_ok _ _ _ _ _ E2).
  destruct R as [(-> & V)|(-> & [F|F])].
  - pose proof (sig_ok (big_tags j) c2 root j h2 rest ES2 X3) as S. cbv zeta in S. rewrite V in S. unfold c1, more_tags in S. cbn [with_tagblock ce_val ev_id ev_pubkey ev_created ev_kind ev_tags ev_content ev_sig] in S. rewrite T0 in S. cbn [app] in S.
    revert S. apply ends_more; [lia|auto].
  - apply failing; [exact X3|lia|]. refine (failed_more _ _ _ _ _ _ _ F); lia.
  - assert (B : big_tags j) by (exists l; split; [apply jget_gives, JT|]; cbn [c1 with_tagblock ce_used] in F; lia).
    apply (ends_more _ (big_tags j) _ _ h2); [lia|auto|]. apply gives_up; [exact X3|]. right. split; [reflexivity|exact B].
Qed.
Lemma content_ok c root j h rest : event_sound c -> ce_tags c = None -> ce_used c = 0%N -> ce_content c = None -> ev_tags (ce_val c) = [] -> holds h (owned c ++ root :: rest) ->
  ends (big_tags j) (let e := ce_val c in
    do content <- match jget (bs "content") j with
                | Some (JStr s) =>
                  match lim with
                  | Some l => if (max_content l <? N.of_nat (length s))%N then Err EInvalidParam else Ok (Some s)
                  | None => Ok (Some s)
                  end
                | _ => Ok None
                end;
    do tags <- match jget (bs "tags") j with
             | Some (JArr l) =>
               match lim with
               | Some m => if (max_tags m <? N.of_nat (length l))%N then Err EInvalidParam else Ok (import_tags l)
               | None => Ok (import_tags l)
               end
             | _ => Ok []
             end;
    do sg <- hex_field 64 (jget (bs "sig") j); Ok (mkEvent (ev_id e) (ev_pubkey e) (ev_created e) (ev_kind e) tags content sg)) h rest
    (import_content grant lim c root j h).
Proof.
  intros ES TN U0 CN T0 X. unfold import_content. cbv zeta.
  assert (EC : ev_content (ce_val c) = None) by (apply (es_content _ ES), CN).
  destruct (jget (bs "content") j) as [[| | |s| |]|] eqn:JC; cbn [bind];
    try (pose proof (taglist_ok c root j h rest ES TN U0 T0 X) as R; cbv zeta in R; rewrite EC in R; exact R).
  destruct (match lim with Some l => (max_content l <? N.of_nat (length s))%N | None => false end) eqn:LM.
  { apply gives_up; [exact X|]. left. destruct lim as [m|]; [|discriminate]. rewrite LM. reflexivity. }
  assert (RT : match lim with Some l => if (max_content l <? N.of_nat (length s))%N then Err EInvalidParam else Ok (Some s) | None => Ok (Some s) end = Ok (Some s)).
  { destruct lim as [m|]; [|reflexivity]. rewrite LM. reflexivity. }
  rewrite RT. cbn [bind].
  destruct (ealloc_cases h _ X) as [(p & h1 & E & X1 & L1)|(h1 & E & X1 & L1 & F)]; rewrite (mbind_ok _ _ _ _ _ E).
  2:{ apply failing; assumption. }
  pose proof (taglist_ok (with_content c (Some p) (Some s)) root j h1 rest) as R. cbv zeta in R. unfold with_content in R. cbn [ce_val ce_tags ce_used ev_id ev_pubkey ev_created ev_kind ev_tags ev_content] in R.
  apply (ends_more _ (big_tags j) _ _ h1); [exact L1|auto|]. apply R; [|exact TN|exact U0|exact T0|].
  - destruct ES; constructor; cbn [ce_content ce_val ce_tags ce_cap ce_used ev_content ev_tags]; auto. split; discriminate.
  - revert X1. apply holds_perm. unfold owned. cbn [ce_self ce_arena ce_mem ce_tags ce_content]. rewrite CN, TN. perm.
Qed.
(** Importing gives exactly the event the text describes, or says why not: what
    is wrong with the text, or that memory ran out.  On failure nothing is kept. *)
Theorem C108_import : forall old text h rest, holds h rest -> event_from_json parse lim text <> Undef ->
  exists p x h', from_json grant lim parse old text h = Ok ((p, x), h') /\ h_next h <= h_next h' /\
  ((x = None /\ exists c, p = Some c /\ event_sound c /\ holds h' (owned c ++ rest) /\ event_from_json parse lim text = Ok (ce_val c)) \/
   (exists e, x = Some e /\ holds h' rest /\
     (event_from_json parse lim text = Err e \/ ((e = EMemory \/ e = EJsonParse) /\ (failed grant h h' \/ huge parse text))))).
Proof.
  intros old text h rest X D. unfold from_json, event_from_json in *. destruct (parse text) as [j|] eqn:PT.
  2:{ eexists. eexists. exists h. split; [reflexivity|]. split; [lia|]. right. exists EJsonParse. auto. }
  destruct (ealloc_cases h _ X) as [(root & h1 & E & X1 & L1)|(h1 & E & X1 & L1 & F)]; rewrite (mbind_ok _ _ _ _ _ E).
  2:{ eexists. eexists. exists h1. split; [reflexivity|]. split; [lia|]. right. exists EJsonParse. split; [reflexivity|]. split; [exact X1|]. auto. }
  destruct (ealloc_cases h1 _ X1) as [(s & h2 & E2 & X2 & L2)|(h2 & E2 & X2 & L2 & F)]; rewrite (mbind_ok _ _ _ _ _ E2).
  2:{ destruct (free_holds _ _ _ X2) as (h3 & E3 & X3 & L3). rewrite (mbind_ok _ _ _ _ _ E3). eexists. eexists. exists h3. split; [reflexivity|]. split; [lia|].
      right. exists EMemory. split; [reflexivity|]. split; [exact X3|]. right. split; [auto|]. left. refine (failed_more _ _ _ _ _ _ _ F); lia. }
  destruct (arena_cases h2 _ X2) as [(a & m & h3 & E3 & X3 & L3)|(h3 & E3 & X3 & L3 & F)]; rewrite (mbind_ok _ _ _ _ _ E3).
  2:{ destruct (free_holds _ _ _ X3) as (h4 & E4 & X4 & L4). rewrite (mbind_ok _ _ _ _ _ E4).
      destruct (free_holds _ _ _ X4) as (h5 & E5 & X5 & L5). rewrite (mbind_ok _ _ _ _ _ E5). eexists. eexists. exists h5. split; [reflexivity|]. split; [lia|].
      right. exists EMemory. split; [reflexivity|]. split; [exact X5|]. right. split; [auto|]. left. refine (failed_more _ _ _ _ _ _ _ F); lia. }
  rewrite (mbind_ok _ _ _ _ _ (use_holds s h3 _ X3 ltac:(right; right; left; reflexivity))).
  assert (FIN : forall r o, event_from_tree lim j = r -> ends (big_tags j) r h3 rest o ->
    exists p x h', o = Ok ((p, x), h') /\ h_next h <= h_next h' /\
    ((x = None /\ exists c, p = Some c /\ event_sound c /\ holds h' (owned c ++ rest) /\ event_from_tree lim j = Ok (ce_val c)) \/
     (exists e, x = Some e /\ holds h' rest /\ (event_from_tree lim j = Err e \/ ((e = EMemory \/ e = EJsonParse) /\ (failed grant h h' \/ huge parse text)))))).
  { intros r o ER (p & x & h' & Eo & L' & R). exists p, x, h'. split; [exact Eo|]. split; [lia|]. rewrite ER. destruct R as [R|(e & Ex & X' & R)]; [left; exact R|].
    right. exists e. split; [exact Ex|]. split; [exact X'|]. destruct R as [R|(R & [F|(l & G & B)])]; [left; exact R| |].
    - right. split; [auto|]. left. refine (failed_more _ _ _ _ _ _ _ F); lia.
    - right. split; [auto|]. right. exists j, l. auto. }
  assert (OWN : forall e, holds h3 (owned (mkCe s a m 1024 0 None None e) ++ root :: rest)) by (intros e; revert X3; apply holds_perm; perm).
  assert (HF : forall n f, hex_field n f <> Undef).
  { intros n f U. unfold hex_field in U. destruct f as [[]|]; try discriminate. destruct (hex_to_bytes _ _); discriminate. }
  unfold event_from_tree in FIN, D |- *.
  destruct (hex_field 32 (jget (bs "id") j)) as [id|x|] eqn:HI; cbn [bind] in FIN, D |- *; [|apply (FIN _ _ eq_refl); apply gives_up; [apply OWN|left; reflexivity]|destruct (HF _ _ HI)].
  destruct (hex_field 32 (jget (bs "pubkey") j)) as [pk|x|] eqn:HP; cbn [bind] in FIN, D |- *; [|apply (FIN _ _ eq_refl); apply gives_up; [apply OWN|left; reflexivity]|destruct (HF _ _ HP)].
  destruct (match jget (bs "created_at") j with Some (JNum n) => j_int64 n | _ => Ok 0%Z end) as [t|x|] eqn:HC; cbn [bind] in FIN, D |- *; [| |congruence].
  - refine (FIN _ _ _ (content_ok _ root j h3 rest _ _ _ _ _ (OWN _))); try reflexivity.
    constructor; cbn; [tauto|reflexivity|lia|lia].
  - exfalso. destruct (jget (bs "created_at") j) as [[]|]; try discriminate. unfold j_int64 in HC. destruct n; try discriminate. destruct (_ && _); discriminate.
Qed.
End Grant.

(** ** Whole programs *)
Section Program.
Variable grant : nat -> bool.
Variable lim : option ev_limits.
Variable parse : list N -> option json.
Definition readable (o : op) : Prop := match o with Import t => event_from_json parse lim t <> Undef | _ => True end.
Definition sound_opt (v : option cevent) : Prop := match v with Some c => event_sound c | None => True end.
Lemma step_ok v o h rest : sound_opt v -> holds h (owned_opt v ++ rest) -> foreign rest o -> readable o ->
  exists v' h', step grant lim parse true v o h = Ok (v', h') /\ sound_opt v' /\ holds h' (owned_opt v' ++ rest).
Proof.
  intros SV X FO RO. destruct v as [c|], o as [now|t|src t|vs|]; cbn [step]; try (eexists; exists h; split; [reflexivity|]; split; assumption).
  - destruct (C107_content grant c src t h rest SV X FO) as (c' & x & h' & E & SV' & X' & _). rewrite (mbind_ok _ _ _ _ _ E). exists (Some c'), h'. auto.
  - destruct (C107_tag grant lim c vs h rest SV X) as (c' & x & h' & E & SV' & X' & _). rewrite (mbind_ok _ _ _ _ _ E). exists (Some c'), h'. auto.
  - destruct (C107_destroy c h rest X) as (h' & E & X' & _). rewrite (mbind_ok _ _ _ _ _ E). exists None, h'. split; [reflexivity|]. split; [exact Logic.I|exact X'].
  - destruct (C107_create grant now h rest X) as (p & x & h' & E & _ & [(-> & c & -> & SV' & X' & _)|(-> & X' & _)]); rewrite (mbind_ok _ _ _ _ _ E); eexists; exists h'; (split; [reflexivity|]); cbn; auto.
  - destruct (C108_import grant lim parse None t h rest X RO) as (p & x & h' & E & _ & [(-> & c & -> & SV' & X' & _)|(e & -> & X' & _)]); rewrite (mbind_ok _ _ _ _ _ E); eexists; exists h'; (split; [reflexivity|]); cbn; auto.
Qed.
(** Whatever a careful program does with its event, and whichever allocations
    fail: no released block is touched, none is released twice, and the live
    blocks are exactly those of its event and those it had before. *)
Theorem C107_run : forall os v h rest, sound_opt v -> holds h (owned_opt v ++ rest) -> Forall (foreign rest) os -> Forall readable os ->
  exists v' h', run grant lim parse true v os h = Ok (v', h') /\ sound_opt v' /\ holds h' (owned_opt v' ++ rest).
Proof.
  induction os as [|o os IH]; intros v h rest SV X FO RO; cbn [run].
  - exists v, h. auto.
  - inversion_clear FO. inversion_clear RO. destruct (step_ok v o h rest SV X) as (v1 & h1 & E & SV1 & X1); [assumption..|].
    rewrite (mbind_ok _ _ _ _ _ E). apply IH; assumption.
Qed.
(** ... so that destroying it at the end leaves nothing behind. *)
Corollary C107_no_leak : forall os h, holds h [] -> Forall (foreign []) os -> Forall readable os ->
  exists h', run grant lim parse true None (os ++ [Destroy]) h = Ok (None, h') /\ h_live h' = [].
Proof.
  intros os h X FO RO.
  destruct (C107_run (os ++ [Destroy]) None h []) as (v & h' & E & _ & X'); [exact Logic.I|exact X|apply Forall_app; split; [exact FO|repeat constructor]|apply Forall_app; split; [exact RO|repeat constructor]|].
  assert (V : forall l w k k' u, run grant lim parse true w (l ++ [Destroy]) k = Ok (u, k') -> u = None).
  { induction l as [|o l IH]; intros w k k' u R; cbn [app run] in R.
    - unfold mbind in R. destruct (step grant lim parse true w Destroy k) as [[a b]| |] eqn:SD; try discriminate. cbn [step] in SD. unfold mbind in SD.
      destruct (event_destroy w k) as [[]| |]; try discriminate. unfold mret in *. congruence.
    - unfold mbind in R. destruct (step grant lim parse true w o k) as [[a b]| |]; try discriminate. eapply IH, R. }
  pose proof (V _ _ _ _ _ E) as ->. exists h'. split; [exact E|]. destruct X' as (_ & P). cbn in P. apply Permutation_nil. symmetry. exact P.
Qed.
End Program.

(** ** What the library does not give *)
(** A failing nostr_event_create leaves the released event in the caller's
    variable: a program that destroys what the variable holds releases it twice. *)
Theorem C107_refuted : ~ (forall grant lim parse os h, holds h [] -> Forall (foreign []) os -> Forall (readable lim parse) os ->
  run grant lim parse false None os h <> Undef).
Proof.
  intros G. apply (G (fun n => n =? 0)%nat None (fun _ => None) [New 0; Destroy] (mkHeap 0 [])).
  - split; [split; constructor|constructor].
  - repeat constructor.
  - repeat constructor.
  - vm_compute. reflexivity.
Qed.
(** The same with an import whose signature is not hexadecimal. *)
Definition bad_sig_tree : json := JObj [(bs "sig", JStr (bs "zz"))].
Theorem C107_import_refuted : ~ (forall lim parse os h, holds h [] -> Forall (foreign []) os -> Forall (readable lim parse) os ->
  run (fun _ => true) lim parse false None os h <> Undef).
Proof.
  intros G. apply (G None (fun _ => Some bad_sig_tree) [Import []; Destroy] (mkHeap 0 [])).
  - split; [split; constructor|constructor].
  - repeat constructor.
  - repeat constructor. cbn. vm_compute. discriminate.
  - vm_compute. reflexivity.
Qed.
(** Setting the content to the event's own content reads a released block. *)
Theorem C107_alias_refuted : ~ (forall grant c src t h, event_sound c -> holds h (owned c) -> In src (h_live h) -> set_content grant c src t h <> Undef).
Proof.
  intros G. apply (G (fun _ => true) (mkCe 0 1 2 1024 0 None (Some 3) (saying (blank 0) (Some []))) 3 [] (mkHeap 4 [0; 1; 2; 3])).
  - constructor; cbn; [split; discriminate|reflexivity|lia|lia].
  - split; [|constructor; constructor; constructor; constructor; constructor]. split; cbn; [repeat constructor; cbn; intuition lia|repeat constructor; lia].
  - cbn. auto.
  - vm_compute. reflexivity.
Qed.
(** A call that fails for want of memory does not leave the event as it was:
    the old content is gone. *)
Theorem C108_refuted : ~ (forall grant c src t h rest, event_sound c -> holds h (owned c ++ rest) -> In src rest ->
  forall c' e h', set_content grant c src t h = Ok ((c', Some e), h') -> ce_val c' = ce_val c).
Proof.
  intros G. specialize (G (fun _ => false) (mkCe 0 1 2 1024 0 None (Some 3) (saying (blank 0) (Some (bs "hello")))) 4 [] (mkHeap 5 [0; 1; 2; 3; 4]) [4]).
  discriminate (f_equal ev_content (G ltac:(constructor; cbn; [split; discriminate|reflexivity|lia|lia])
    ltac:(split; [split; cbn; [repeat constructor; cbn; intuition lia|repeat constructor; lia]|apply Permutation_refl]) ltac:(left; reflexivity) _ _ _ eq_refl)).
Qed.

(** ** Witnesses *)
Definition note_tree : json := JObj [(bs "id", JStr (repeat 97%N 64)); (bs "tags", JArr [JArr [JStr (bs "e"); JStr (bs "x")]]); (bs "content", JStr (bs "hi"))].
Example C107_meets :
  exists h c, run (fun n => negb (n =? 3)%nat) None (fun _ => Some note_tree) true None [Import []; Import []; Tag [bs "t"]; Content 0 (bs "yo")] (mkHeap 1 [0]) = Ok (Some c, h) /\
  ev_tags (ce_val c) = [[bs "e"; bs "x"]; [bs "t"]] /\ ev_content (ce_val c) = Some (bs "yo") /\ length (h_live h) = 6.
Proof. vm_compute. eexists. eexists. repeat split. Qed.
Example C108_meets :
  (exists e, event_from_json (fun _ => Some note_tree) None [] = Ok e /\ ev_tags e = [[bs "e"; bs "x"]]) /\
  (exists c h, from_json (fun n => true) None (fun _ => Some note_tree) None [] (mkHeap 0 []) = Ok ((Some c, None), h) /\ length (owned c) = 5) /\
  (exists h, from_json (fun n => n <? 5)%nat None (fun _ => Some note_tree) None [] (mkHeap 0 []) = Ok ((Some (mkCe 1 2 3 1024 0 None (Some 4) (saying (mkEvent (repeat 170%N 32) (repeat 0%N 32) 0 0 [] None (repeat 0%N 64)) (Some (bs "hi")))), Some EMemory), h) /\ h_live h = []).
Proof. split; [|split]; vm_compute; eauto. Qed.

Print Assumptions C107_create.
Print Assumptions C107_destroy.
Print Assumptions C107_content.
Print Assumptions C107_tag.
Print Assumptions C107_kept.
Print Assumptions C107_run.
Print Assumptions C107_no_leak.
Print Assumptions C107_refuted.
Print Assumptions C107_import_refuted.
Print Assumptions C107_alias_refuted.
Print Assumptions C108_import.
Print Assumptions C108_refuted.
