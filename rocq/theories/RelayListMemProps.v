(** Theorems about the memory of relay lists: C128. *)
From Verif Require Import Base BaseFacts Heap HexProofs Event GiftWrap RelayMemSpec RelayMemProps Nip65 Nip65Spec Nip65Props EventMem EventMemSpec EventMemProps ListMem ListMemSpec ListMemProps RelayListMem RelayListMemSpec.
From Coq Require Import Permutation.
Open Scope nat_scope.

Local Notation holds := EventMemSpec.holds.
Ltac rperm := apply (proj2 (Permutation_count_occ Nat.eq_dec _ _)); let x := fresh "x" in intros x;
  cbn [cr_self cr_array app flat_map map fst] in *;
  repeat rewrite ?count_occ_app, ?flat_map_app in *; cbn [count_occ flat_map app] in *; repeat rewrite ?count_occ_app in *; cbn [count_occ] in *;
  repeat match goal with |- context [Nat.eq_dec ?a ?b] => destruct (Nat.eq_dec a b) end; lia.
Lemma rshape c : relays_sound c -> exists us k, cr_slots c = us ++ repeat zero_entry k /\ cr_count c = length us /\ rused c = us /\ Forall (fun x => re_url x <> None) us /\ 1 <= length us + k /\ (N.of_nat (length us + k) <= 256)%N.
Proof.
  intros [S1 S2 S3 S4]. assert (SL : cr_slots c = rused c ++ repeat zero_entry (length (cr_slots c) - cr_count c)).
  { rewrite <- (firstn_skipn (cr_count c) (cr_slots c)) at 1. unfold rused. f_equal. rewrite <- skipn_length. revert S3. generalize (skipn (cr_count c) (cr_slots c)).
    induction 1 as [|x l E _ IH]; [reflexivity|]. subst x. cbn [length repeat]. f_equal. exact IH. }
  exists (rused c), (length (cr_slots c) - cr_count c). split; [exact SL|]. assert (L : length (rused c) = cr_count c) by (unfold rused; rewrite firstn_length; lia). split; [congruence|]. split; [reflexivity|]. split; [exact S2|]. rewrite L. split; [lia|].
  replace (cr_count c + (length (cr_slots c) - cr_count c)) with (length (cr_slots c)) by lia. apply S4.
Qed.
Lemma runshape c us k : cr_slots c = us ++ repeat zero_entry k -> cr_count c = length us -> rused c = us.
Proof. intros S C. unfold rused. rewrite S, C. apply firstn_app_exact. reflexivity. Qed.
Lemma rshape_sound c us k : cr_slots c = us ++ repeat zero_entry k -> cr_count c = length us -> Forall (fun x => re_url x <> None) us -> 1 <= length us + k -> (N.of_nat (length us + k) <= 256)%N -> relays_sound c.
Proof.
  intros S C F L1 L2. assert (L : length (cr_slots c) = length us + k) by (rewrite S, app_length, repeat_length; reflexivity).
  constructor; [lia|rewrite (runshape _ _ _ S C); exact F| |rewrite L; auto]. rewrite S, C, skipn_app_exact by reflexivity. clear. induction k; constructor; auto.
Qed.
Lemma put_at us k x y h : put_entry (us ++ x :: k) (length us) y h = Ok (us ++ y :: k, h).
Proof.
  unfold put_entry. rewrite app_length. cbn [length]. destruct (Nat.ltb_spec (length us) (length us + S (length k))); [|lia].
  rewrite firstn_app_exact by reflexivity. do 4 f_equal. change (us ++ x :: k) with (us ++ [x] ++ k). rewrite app_assoc. apply skipn_app_exact. rewrite app_length. cbn. lia.
Qed.
Lemma free_entries_holds a us : forall r h l, holds h (flat_map ublock us ++ l) -> In a l -> exists h', free_entries a (length us) (us ++ r) h = Ok (tt, h') /\ holds h' l /\ h_next h' = h_next h.
Proof.
  induction us as [|x us IH]; intros r h l X I; cbn [length free_entries app]; [exists h; auto|]. cbn [flat_map] in X. rewrite <- app_assoc in X.
  rewrite (mbind_ok _ _ _ _ _ (use_holds a h _ X ltac:(apply in_or_app; right; apply in_or_app; right; exact I))).
  destruct (free_cell_holds _ _ _ X) as (h1 & E1 & X1 & L1). rewrite (mbind_ok _ _ _ _ _ E1). destruct (IH r h1 l X1 I) as (h2 & E2 & X2 & L2). exists h2. split; [exact E2|]. split; [exact X2|lia].
Qed.
(** * C128 *)
(** Releasing a relay list gives back exactly its blocks. *)
Theorem C128_free : forall c h rest, relays_sound c -> holds h (rowned c ++ rest) ->
  exists h', relays_free (Some c) h = Ok (tt, h') /\ holds h' rest /\ h_next h' = h_next h.
Proof.
  intros c h rest S X. destruct (rshape c S) as (us & k & SL & CT & IU & _). unfold relays_free. rewrite (mbind_ok _ _ _ _ _ (use_holds (cr_self c) h _ X ltac:(left; reflexivity))).
  apply (holds_perm _ _ (flat_map ublock us ++ cr_array c :: cr_self c :: rest)) in X; [|unfold rowned; rewrite IU; rperm].
  rewrite SL, CT. destruct (free_entries_holds (cr_array c) us (repeat zero_entry k) h _ X ltac:(left; reflexivity)) as (h1 & E1 & X1 & L1). rewrite (mbind_ok _ _ _ _ _ E1).
  destruct (free_holds _ _ _ X1) as (h2 & E2 & X2 & L2). rewrite (mbind_ok _ _ _ _ _ E2). destruct (free_holds _ _ _ X2) as (h3 & E3 & X3 & L3). exists h3. split; [exact E3|]. split; [exact X3|lia].
Qed.
(** The pure array of Nip65.v *)
Definition eabs (x : rentry) : option entry := match re_url x with Some (_, t) => Some (mkEntry t (re_read x) (re_write x)) | None => None end.
Definition abs (c : crelays) : rlist := mkRl (map eabs (cr_slots c)) (cr_count c).
Lemma eabs_used us : Forall (fun x => re_url x <> None) us -> map eabs us = map Some (map evalue us).
Proof. induction 1 as [|x us NN _ IH]; [reflexivity|]. cbn [map]. f_equal; [|exact IH]. unfold eabs, evalue. destruct (re_url x) as [(b, t)|]; [reflexivity|congruence]. Qed.
Lemma eabs_zero k : map eabs (repeat zero_entry k) = repeat None k.
Proof. induction k; cbn; congruence. Qed.
Lemma abs_holds c : relays_sound c -> Nip65Props.holds (abs c) (rvalue c).
Proof.
  intros S. destruct (rshape c S) as (us & k & SL & CT & IU & NN & C1 & C2). unfold rvalue. rewrite IU. pose proof max_relays. constructor.
  - exists k. cbn [abs rl_slots]. rewrite SL, map_app, (eabs_used us NN), eabs_zero. reflexivity.
  - cbn [abs rl_count]. rewrite map_length. exact CT.
  - cbn [abs rl_slots]. rewrite map_length, SL, app_length, repeat_length. lia.
Qed.
Lemma known_ok a us url : forall r h l, holds h l -> In a l -> incl (flat_map ublock us) l -> Forall (fun x => re_url x <> None) us ->
  exists b, known a (length us) (us ++ r) url h = Ok (b, h) /\ has_url (length us) (map eabs (us ++ r)) url = Ok b.
Proof.
  induction us as [|x us IH]; intros r h l X IA IN NN; cbn [length known app map has_url]; [exists false; auto|]. inversion_clear NN as [|? ? N1 N2]. cbn [flat_map] in IN.
  rewrite (mbind_ok _ _ _ _ _ (use_holds a h l X IA)). rewrite (mbind_ok _ _ _ _ _ (read_cell_ok (re_url x) h l X ltac:(intros z Z; apply IN, in_or_app; left; exact Z) N1)).
  unfold eabs at 1. destruct (re_url x) as [(b0, t)|]; [|congruence]. cbn [whole en_url]. destruct (beq t url); [exists true; auto|]. apply (IH r h l X IA); [|exact N2]. intros z Z. apply IN, in_or_app. right. exact Z.
Qed.
Section Grant.
Variable grant : nat -> bool.
(** A new relay list owns its blocks, or nothing is kept and the variable is empty. *)
Theorem C128_create : forall h rest, holds h rest ->
  exists p x h', relays_create grant h = Ok ((p, x), h') /\ h_next h <= h_next h' /\
  ((x = None /\ exists c, p = Some c /\ relays_sound c /\ holds h' (rowned c ++ rest) /\ rvalue c = [] /\ abs c = rl_create) \/
   (x = Some EMemory /\ p = None /\ holds h' rest /\ failed grant h h')).
Proof.
  intros h rest X. unfold relays_create. destruct (ealloc_cases grant h _ X) as [(s & h1 & E & X1 & L1)|(h1 & E & X1 & L1 & F)]; rewrite (mbind_ok _ _ _ _ _ E).
  2:{ exists None, (Some EMemory), h1. split; [reflexivity|]. split; [lia|]. right. auto. }
  destruct (ealloc_cases grant h1 _ X1) as [(a & h2 & E2 & X2 & L2)|(h2 & E2 & X2 & L2 & F)]; rewrite (mbind_ok _ _ _ _ _ E2).
  - rewrite (mbind_ok _ _ _ _ _ (use_holds s h2 _ X2 ltac:(right; left; reflexivity))). eexists. exists None, h2. split; [reflexivity|]. split; [lia|]. left. split; [reflexivity|]. eexists. split; [reflexivity|].
    split; [apply (rshape_sound _ [] 8); [reflexivity|reflexivity|apply Forall_nil|cbn; lia|cbn; lia]|]. split; [|split; reflexivity]. revert X2. apply holds_perm. cbn. apply perm_swap.
  - destruct (free_holds _ _ _ X2) as (h3 & E3 & X3 & L3). rewrite (mbind_ok _ _ _ _ _ E3). exists None, (Some EMemory), h3. split; [reflexivity|]. split; [lia|].
    right. split; [reflexivity|]. split; [reflexivity|]. split; [exact X3|]. refine (failed_more _ _ _ _ _ _ _ F); lia.
Qed.
Lemma add_mem c url rd wr h rest : relays_sound c -> holds h (rowned c ++ rest) -> (forall b, fst url = Some b -> In b (rowned c ++ rest) /\ b <> cr_array c) ->
  exists c' r h', relays_add grant c url rd wr h = Ok ((c', r), h') /\ relays_sound c' /\ holds h' (rowned c' ++ rest) /\ h_next h <= h_next h' /\
  (rl_add true true (abs c) (snd url) rd wr = Ok (abs c', answer r) \/ (r = Some EMemory /\ rvalue c' = rvalue c /\ entry_ok (mkEntry (snd url) rd wr) /\ failed grant h h')).
Proof.
  intros S X SRC. destruct (rshape c S) as (us & k & SL & CT & IU & NN & C1 & C2). pose proof max_relays as MX. unfold relays_add, rl_add.
  assert (NO : forall p, p = Ok (abs c, Err EInvalidParam) -> exists c' r h', @mret (crelays * option err) (c, Some EInvalidParam) h = Ok ((c', r), h') /\ relays_sound c' /\ holds h' (rowned c' ++ rest) /\ h_next h <= h_next h' /\
    (p = Ok (abs c', answer r) \/ (r = Some EMemory /\ rvalue c' = rvalue c /\ entry_ok (mkEntry (snd url) rd wr) /\ failed grant h h'))).
  { intros p ->. exists c, (Some EInvalidParam), h. split; [reflexivity|]. split; [exact S|]. split; [exact X|]. split; [lia|]. left. reflexivity. }
  destruct (negb rd && negb wr) eqn:FL; [apply NO; reflexivity|].
  assert (RA : read_arg url h = Ok (tt, h)) by (unfold read_arg; destruct (fst url) as [b|] eqn:EU; [apply (use_holds b h _ X), SRC; reflexivity|reflexivity]).
  rewrite (mbind_ok _ _ _ _ _ RA). destruct (is_valid_relay_url (snd url)) eqn:VU; cbn [negb]; [|apply NO; reflexivity].
  assert (EO : entry_ok (mkEntry (snd url) rd wr)) by (split; [apply scheme_iff, VU|]; cbn [en_read en_write]; destruct rd, wr; auto; discriminate).
  rewrite (mbind_ok _ _ _ _ _ (use_holds (cr_self c) h _ X ltac:(left; reflexivity))). cbn [abs rl_count rl_slots]. destruct (Nat.leb_spec MAX_RELAY_COUNT (cr_count c)) as [G|G]; [apply NO; reflexivity|].
  destruct (known_ok (cr_array c) us (snd url) (repeat zero_entry k) h _ X ltac:(right; left; reflexivity)) as (b & K1 & K2); [intros z Z; unfold rowned; rewrite IU; apply in_or_app; left; right; right; exact Z|exact NN|].
  rewrite SL, CT. rewrite (mbind_ok _ _ _ _ _ K1). rewrite K2. cbn [bind]. destruct b; [apply NO; rewrite <- ?SL, <- ?CT; reflexivity|].
  (* growing *)
  assert (GR : exists c1 x h1, relays_grow grant c h = Ok ((c1, x), h1) /\ h_next h <= h_next h1 /\ holds h1 (rowned c1 ++ rest) /\ cr_count c1 = length us /\ rused c1 = us /\ (forall b, In b (rowned c) -> b <> cr_array c -> In b (rowned c1)) /\
    ((x = None /\ exists k', cr_slots c1 = us ++ repeat zero_entry (Datatypes.S k') /\ (N.of_nat (length us + Datatypes.S k') <= 256)%N /\ rl_grow true (abs c) = Ok (abs c1)) \/ (x = Some EMemory /\ c1 = c /\ failed grant h h1))).
  { unfold relays_grow, rl_grow. cbn [abs rl_slots rl_count]. rewrite map_length. assert (L : length (cr_slots c) = length us + k) by (rewrite SL, app_length, repeat_length; reflexivity). cbv zeta.
    destruct (Nat.leb_spec (length (cr_slots c)) (cr_count c)) as [F|F].
    - assert (k = 0) by lia. subst k. set (nc := if _ : bool then MAX_RELAY_COUNT else _). assert (NC : length us < nc /\ (N.of_nat nc <= 256)%N /\ length (cr_slots c) <= nc) by (unfold nc; destruct (Nat.ltb_spec MAX_RELAY_COUNT (length (cr_slots c) * 2)); lia).
      destruct (Nat.leb_spec nc (cr_count c)) as [F2|F2]; [lia|]. cbn [negb].
      assert (X0 : holds h (opt_list (Some (cr_array c)) ++ cr_self c :: flat_map ublock us ++ rest)) by (revert X; apply holds_perm; unfold rowned; rewrite IU; cbn [opt_list]; rperm).
      destruct (erealloc_cases grant _ _ _ X0) as [(q & h1 & E & X1 & L1)|(h1 & E & X1 & L1 & FF)]; rewrite (mbind_ok _ _ _ _ _ E).
      2:{ exists c, (Some EMemory), h1. split; [reflexivity|]. split; [lia|]. split; [revert X1; apply holds_perm; unfold rowned; rewrite IU; cbn [opt_list]; rperm|]. split; [exact CT|]. split; [exact IU|]. split; [auto|]. right. auto. }
      set (c1 := mkCr _ _ _ _). assert (SL1 : cr_slots c1 = us ++ repeat zero_entry (Datatypes.S (nc - length us - 1))) by (unfold c1; cbn [cr_slots]; rewrite L, SL; cbn [repeat]; rewrite app_nil_r; f_equal; replace (nc - (length us + 0)) with (Datatypes.S (nc - length us - 1)) by lia; reflexivity).
      assert (IU1 : rused c1 = us) by (apply (runshape _ _ _ SL1); exact CT).
      exists c1, None, h1. split; [reflexivity|]. split; [lia|]. split; [revert X1; apply holds_perm; unfold rowned; rewrite IU1; cbn [c1 cr_self cr_array]; rperm|]. split; [exact CT|]. split; [exact IU1|]. split.
      + intros b I NB. unfold rowned in *. rewrite IU in I. rewrite IU1. cbn [In c1 cr_self cr_array] in *. intuition congruence.
      + left. split; [reflexivity|]. eexists. split; [exact SL1|]. split; [lia|]. unfold abs. cbn [c1 cr_slots cr_count]. rewrite map_app, eabs_zero. reflexivity.
    - exists c, None, h. split; [reflexivity|]. split; [lia|]. split; [exact X|]. split; [exact CT|]. split; [exact IU|]. split; [auto|]. left. split; [reflexivity|]. exists (k - 1). replace (Datatypes.S (k - 1)) with k by lia. split; [exact SL|]. split; [exact C2|reflexivity]. }
  destruct GR as (c1 & x & h1 & E1 & L1 & X1 & CT1 & IU1 & B1 & R1). rewrite (mbind_ok _ _ _ _ _ E1).
  destruct R1 as [(-> & k' & SL1 & C3 & PG)|(-> & -> & F)].
  2:{ exists c, (Some EMemory), h1. split; [reflexivity|]. split; [exact S|]. split; [exact X1|]. split; [exact L1|]. right. auto. }
  assert (RA1 : read_arg url h1 = Ok (tt, h1)) by (unfold read_arg; destruct (fst url) as [b|] eqn:EU; [|reflexivity]; destruct (SRC b eq_refl) as (I1 & I2); apply (use_holds b h1 _ X1); apply in_app_or in I1 as [I1|I1]; apply in_or_app; [left; apply B1; assumption|right; exact I1]).
  rewrite (mbind_ok _ _ _ _ _ RA1). destruct (dup_cases grant (Some (snd url)) h1 _ X1) as (p & h2 & E2 & X2 & L2 & D2). rewrite (mbind_ok _ _ _ _ _ E2).
  rewrite (mbind_ok _ _ _ _ _ (use_holds (cr_array c1) h2 _ X2 ltac:(apply in_or_app; right; right; left; reflexivity))). rewrite SL1, CT1. cbn [repeat].
  rewrite PG.
  destruct D2 as [D2|(-> & _ & F)].
  - destruct p as [(q, t)|]; [|discriminate]. assert (t = snd url) by (cbn in D2; congruence). subst t. rewrite (mbind_ok _ _ _ _ _ (put_at us (repeat zero_entry k') zero_entry (mkRe (Some (q, snd url)) rd wr) h2)).
    set (i := mkRe _ _ _). set (c' := mkCr _ _ _ _). assert (SL' : cr_slots c' = (us ++ [i]) ++ repeat zero_entry k') by (unfold c'; cbn [cr_slots]; rewrite <- app_assoc; reflexivity).
    assert (CT' : cr_count c' = length (us ++ [i])) by (unfold c'; cbn [cr_count]; rewrite app_length; cbn [length]; lia). assert (IU' : rused c' = us ++ [i]) by exact (runshape _ _ _ SL' CT').
    exists c', None, h2. split; [reflexivity|]. split; [apply (rshape_sound _ _ _ SL' CT'); [apply Forall_app; split; [exact NN|constructor; [discriminate|constructor]]|rewrite app_length; cbn [length]; lia|rewrite app_length; cbn [length]; lia]|].
    split; [revert X2; apply holds_perm; unfold rowned; rewrite IU1, IU'; cbn [c' cr_self cr_array cb option_map fst opt_list]; rewrite !flat_map_app; replace (flat_map ublock [i]) with [q] by reflexivity; rperm|]. split; [lia|].
    left. unfold abs at 1 2. cbn [rl_slots rl_count]. rewrite SL1, CT1, map_app, eabs_zero. rewrite <- (map_length eabs us) at 1. rewrite rl_set_at. cbn [bind]. unfold abs. cbn [c' cr_slots cr_count answer]. rewrite map_app. cbn [map rl_count]. rewrite eabs_zero, CT1. reflexivity.
  - rewrite (mbind_ok _ _ _ _ _ (put_at us (repeat zero_entry k') zero_entry zero_entry h2)). set (c' := mkCr _ _ _ _). assert (EC : c' = c1) by (unfold c'; destruct c1; cbn in *; congruence). rewrite EC.
    exists c1, (Some EMemory), h2. split; [reflexivity|]. split; [apply (rshape_sound _ us _ SL1 CT1 NN); lia|]. split; [exact X2|]. split; [lia|]. right. split; [reflexivity|]. split; [unfold rvalue; congruence|]. split; [exact EO|]. refine (failed_more _ _ _ _ _ _ _ F); lia.
Qed.
(** Adding an address, from anywhere: as C49 specifies, refused for memory only if an
    allocation failed. *)
Theorem C128_add : forall c url rd wr h rest, relays_sound c -> holds h (rowned c ++ rest) -> (forall b, fst url = Some b -> In b (rowned c ++ rest) /\ b <> cr_array c) ->
  exists c' r h', relays_add grant c url rd wr h = Ok ((c', r), h') /\ relays_sound c' /\ holds h' (rowned c' ++ rest) /\ h_next h <= h_next h' /\
  exists m, adds (rvalue c) (mkEntry (snd url) rd wr) m (rvalue c') (answer r) /\ (m <> (true, true) -> failed grant h h').
Proof.
  intros c url rd wr h rest S X SRC. destruct (add_mem c url rd wr h rest S X SRC) as (c' & r & h' & E & S' & X' & L' & R). exists c', r, h'. do 4 (split; [assumption|]).
  destruct R as [P|(-> & V & EO & F)].
  - exists (true, true). split; [|congruence]. destruct (add_spec true true (abs c) (rvalue c) (snd url) rd wr (abs_holds c S)) as (a & r2 & l2 & E2 & AD & HO). rewrite P in E2.
    assert (a = abs c') by congruence. subst a. assert (EV : l2 = rvalue c') by (pose proof (entries_spec _ _ HO) as Q1; pose proof (entries_spec _ _ (abs_holds c' S')) as Q2; congruence). subst l2. assert (r2 = answer r) by congruence. subst r2. exact AD.
  - exists (true, false). rewrite V. split; [|intros _; exact F]. apply AddMemory; [exact EO|discriminate].
Qed.
Lemma read_mem ts : forall i c h rest, relays_sound c -> holds h (rowned c ++ rest) ->
  exists c' r h', relays_read grant c ts h = Ok ((c', r), h') /\ relays_sound c' /\ holds h' (rowned c' ++ rest) /\ h_next h <= h_next h' /\
  ((r = None /\ rl_read (fun _ => (true, true)) i (abs c) ts = Ok (abs c')) \/ (r = Some EMemory /\ failed grant h h')).
Proof.
  induction ts as [|t ts IH]; intros i c h rest S X; cbn [relays_read rl_read]; [exists c, None, h; do 3 (split; [auto|]); split; [lia|]; left; auto|].
  destruct t as [|n [|url more]]; [apply IH; assumption..|]. destruct (beq n (bs "r")); [|apply IH; assumption]. cbv zeta. cbn [fst snd].
  set (rd := match more with [] => true | m :: _ => if beq m (bs "read") then true else _ end). set (wr := match more with [] => true | m :: _ => negb (beq m (bs "read")) end).
  destruct (add_mem c (None, url) rd wr h rest S X ltac:(discriminate)) as (c1 & r1 & h1 & E1 & S1 & X1 & L1 & R1). rewrite (mbind_ok _ _ _ _ _ E1). cbn [snd] in R1.
  assert (REC : exists c' r h', relays_read grant c1 ts h1 = Ok ((c', r), h') /\ relays_sound c' /\ holds h' (rowned c' ++ rest) /\ h_next h <= h_next h' /\
    ((r = None /\ rl_read (fun _ => (true, true)) (Datatypes.S i) (abs c1) ts = Ok (abs c')) \/ (r = Some EMemory /\ failed grant h h'))).
  { destruct (IH (Datatypes.S i) c1 h1 rest S1 X1) as (c2 & r2 & h2 & E2 & S2 & X2 & L2 & R2). exists c2, r2, h2. do 3 (split; [assumption|]). split; [lia|]. destruct R2 as [R2|( -> & F)]; [left; exact R2|right; split; [reflexivity|]]. refine (failed_more _ _ _ _ _ _ _ F); lia. }
  destruct R1 as [P|( -> & _ & EO & F)].
  - rewrite P. cbn [bind snd fst]. destruct r1 as [e|]; cbn [answer]; [|exact REC]. destruct e; try exact REC. exfalso.
    destruct (add_spec true true (abs c) (rvalue c) url rd wr (abs_holds c S)) as (a & r2 & l2 & E2 & AD & _). rewrite P in E2. cbn [answer] in E2. inversion AD; subst; congruence.
  - exists c1, (Some EMemory), h1. split; [reflexivity|]. do 2 (split; [assumption|]). split; [lia|]. right. auto.
Qed.
(** Reading a relay list from an event: the list the event names (as C49 specifies), or
    the variable is empty and nothing is kept; another kind of event is refused and the
    variable is not touched. *)
Theorem C128_from_event : forall old e h rest, holds h rest ->
  exists p x h', relays_from_event grant old e h = Ok ((p, x), h') /\ h_next h <= h_next h' /\
  ((x = None /\ ev_kind e = 10002%N /\ exists c es out, p = Some c /\ relays_sound c /\ holds h' (rowned c ++ rest) /\ named (ev_tags e) es /\ firsts [] es out /\ rvalue c = firstn 256 out /\ relays_ok (rvalue c)) \/
   (x = Some EMemory /\ p = None /\ holds h' rest /\ failed grant h h') \/
   (x = Some EInvalidEvent /\ p = old /\ h' = h /\ ev_kind e <> 10002%N)).
Proof.
  intros old e h rest X. unfold relays_from_event. destruct (N.eqb_spec (ev_kind e) KIND_RELAY_LIST) as [K|K]; cbn [negb].
  2:{ exists old, (Some EInvalidEvent), h. split; [reflexivity|]. split; [lia|]. right. right. auto. }
  destruct (C128_create h rest X) as (p1 & x1 & h1 & E1 & L1 & R1). rewrite (mbind_ok _ _ _ _ _ E1).
  destruct R1 as [( -> & c & -> & S1 & X1 & V1 & A1)|( -> & -> & X1 & F)].
  2:{ exists None, (Some EMemory), h1. split; [reflexivity|]. split; [lia|]. right. left. auto. }
  destruct (read_mem (ev_tags e) 0 c h1 rest S1 X1) as (c2 & r2 & h2 & E2 & S2 & X2 & L2 & R2). rewrite (mbind_ok _ _ _ _ _ E2). destruct R2 as [( -> & P)|( -> & F)].
  - exists (Some c2), None, h2. split; [reflexivity|]. split; [lia|]. left. split; [reflexivity|]. split; [exact K|]. rewrite A1 in P.
    assert (PF : rl_from_event (fun _ => (true, true)) e = Ok (abs c2)) by (unfold rl_from_event; rewrite K; exact P).
    destruct (C49_from_event (fun _ => (true, true)) e) as [(K2 & _)|[(_ & Q & _)|(_ & a & es & out & Q & NA & FI & EN & OK)]]; [contradiction|congruence|].
    assert (a = abs c2) by congruence. subst a. rewrite (entries_spec _ _ (abs_holds c2 S2)) in EN. assert (EV : rvalue c2 = firstn 256 out) by congruence.
    exists c2, es, out. do 5 (split; [first [reflexivity|assumption]|]). split; [exact EV|]. rewrite EV. exact OK.
  - destruct (C128_free c2 h2 rest S2 X2) as (h3 & E3 & X3 & L3). rewrite (mbind_ok _ _ _ _ _ E3). exists None, (Some EMemory), h3. split; [reflexivity|]. split; [lia|]. right. left. split; [reflexivity|]. split; [reflexivity|]. split; [exact X3|]. refine (failed_more _ _ _ _ _ _ _ F); lia.
Qed.
(** ** Queries *)
Definition wanted (for_read : bool) (l : list entry) : list (list N) := map en_url (filter (fun e => if for_read then en_read e else en_write e) l).
Lemma matching_ok a f us : forall r h l, holds h l -> In a l -> matching a f (length us) (us ++ r) h = Ok (length (wanted f (map evalue us)), h).
Proof.
  induction us as [|x us IH]; intros r h l X IA; cbn [length matching app]; [reflexivity|]. rewrite (mbind_ok _ _ _ _ _ (use_holds a h l X IA)), (mbind_ok _ _ _ _ _ (IH r h l X IA)).
  unfold wanted. cbn [map filter evalue en_read en_write]. destruct (if f then re_read x else re_write x); reflexivity.
Qed.
Lemma free_copies_ok done : forall h l, holds h (map fst done ++ l) -> exists h', free_copies (length done) done h = Ok (tt, h') /\ holds h' l /\ h_next h' = h_next h.
Proof.
  induction done as [|x done IH]; intros h l X; cbn [length free_copies]; [exists h; auto|]. destruct (free_cell_holds (Some x) h (map fst done ++ l) X) as (h1 & E1 & X1 & L1). rewrite (mbind_ok _ _ _ _ _ E1).
  destruct (IH h1 l X1) as (h2 & E2 & X2 & L2). exists h2. split; [exact E2|]. split; [exact X2|lia].
Qed.
Lemma copy_ok u m a f us : forall r (done : list cell) h l, length done + length (wanted f (map evalue us)) = m -> holds h (map fst done ++ u :: l) -> In a l -> incl (flat_map ublock us) l -> Forall (fun x => re_url x <> None) us ->
  exists o h', copy grant u m m a f done (length us) (us ++ r) h = Ok (o, h') /\ h_next h <= h_next h' /\
  ((exists more : list cell, o = Some (done ++ more) /\ map snd more = wanted f (map evalue us) /\ holds h' (map fst (done ++ more) ++ u :: l)) \/ (o = None /\ holds h' l /\ failed grant h h')).
Proof.
  induction us as [|x us IH]; intros r done h l LM X IA IN NN; cbn [length copy app].
  - exists (Some done), h. split; [reflexivity|]. split; [lia|]. left. exists []. rewrite app_nil_r. auto.
  - inversion_clear NN as [|? ? N1 N2]. cbn [flat_map] in IN. assert (IN2 : incl (flat_map ublock us) l) by (intros z Z; apply IN, in_or_app; right; exact Z).
    destruct (Nat.ltb_spec (length done) m) as [G|G]; cbn [negb].
    2:{ exists (Some done), h. split; [reflexivity|]. split; [lia|]. left. exists []. rewrite app_nil_r. split; [reflexivity|]. split; [|exact X]. destruct (wanted f (map evalue (x :: us))) as [|w ws] eqn:W; [rewrite <- W; symmetry; exact W|cbn [length] in LM; lia]. }
    rewrite (mbind_ok _ _ _ _ _ (use_holds a h _ X ltac:(apply in_or_app; right; right; exact IA))). unfold wanted in *. cbn [map filter evalue en_read en_write] in *. destruct (if f then re_read x else re_write x).
    + rewrite (mbind_ok _ _ _ _ _ (read_cell_ok (re_url x) h _ X ltac:(intros z Z; apply in_or_app; right; right; apply IN, in_or_app; left; exact Z) N1)).
      destruct (dup_cases grant (Some (whole (re_url x))) h _ X) as (p & h1 & E1 & X1 & L1 & D1). rewrite (mbind_ok _ _ _ _ _ E1).
      rewrite (mbind_ok _ _ _ _ _ (use_holds u h1 _ X1 ltac:(apply in_or_app; right; apply in_or_app; right; left; reflexivity))).
      destruct (Nat.ltb_spec (length done) m) as [_|?]; [|lia]. cbn [negb].
      destruct D1 as [D1|( -> & _ & F)].
      * destruct p as [(q, t)|]; [|discriminate]. assert (t = whole (re_url x)) by (cbn in D1; congruence). subst t.
        destruct (IH r (done ++ [(q, whole (re_url x))]) h1 l) as (o & h2 & E2 & L2 & R2); [rewrite (app_length done); cbn [map length] in *; lia|revert X1; apply holds_perm; rewrite map_app; cbn [map fst cb option_map opt_list]; unfold cell in *; rperm|exact IA|exact IN2|exact N2|].
        exists o, h2. split; [exact E2|]. split; [lia|]. destruct R2 as [(more & -> & W & X2)|( -> & X2 & F)].
        -- left. exists ((q, whole (re_url x)) :: more). rewrite <- app_assoc in *. cbn [app] in *. split; [reflexivity|]. split; [|exact X2]. cbn [map snd en_url]. f_equal. exact W.
        -- right. split; [reflexivity|]. split; [exact X2|]. refine (failed_more _ _ _ _ _ _ _ F); lia.
      * destruct (free_copies_ok done h1 (u :: l) X1) as (h2 & E2 & X2 & L2). rewrite (mbind_ok _ _ _ _ _ E2). destruct (free_holds _ _ _ X2) as (h3 & E3 & X3 & L3). rewrite (mbind_ok _ _ _ _ _ E3).
        exists None, h3. split; [reflexivity|]. split; [lia|]. right. split; [reflexivity|]. split; [exact X3|]. refine (failed_more _ _ _ _ _ _ _ F); lia.
    + apply (IH r done h l LM X IA IN2 N2).
Qed.
(** Asking for the relays to read from or to write to: an array of their addresses, in
    order, in blocks of its own, with their number; or nothing, and nothing is kept. *)
Theorem C128_query : forall c f h rest, relays_sound c -> holds h (rowned c ++ rest) ->
  exists p n x h', relays_by_flag grant c f h = Ok (((p, n), x), h') /\ h_next h <= h_next h' /\ holds h' (ublocks p ++ rowned c ++ rest) /\
  ((x = None /\ n = Some (length (wanted f (rvalue c))) /\ (match p with Some (_, l) => map snd l | None => [] end) = wanted f (rvalue c) /\ (p = None <-> wanted f (rvalue c) = [])) \/
   (x = Some EMemory /\ p = None /\ n = None /\ failed grant h h')).
Proof.
  intros c f h rest S X. destruct (rshape c S) as (us & k & SL & CT & IU & NN & _). unfold relays_by_flag. rewrite (mbind_ok _ _ _ _ _ (use_holds (cr_self c) h _ X ltac:(left; reflexivity))).
  assert (V : rvalue c = map evalue us) by (unfold rvalue; rewrite IU; reflexivity). rewrite SL, CT, V.
  rewrite (mbind_ok _ _ _ _ _ (matching_ok (cr_array c) f us (repeat zero_entry k) h _ X ltac:(right; left; reflexivity))).
  destruct (wanted f (map evalue us)) as [|w ws] eqn:W; cbn [length].
  { exists None, (Some 0), None, h. split; [reflexivity|]. split; [lia|]. split; [exact X|]. left. split; [reflexivity|]. split; [reflexivity|]. split; [reflexivity|tauto]. }
  destruct (ealloc_cases grant h _ X) as [(u & h1 & E1 & X1 & L1)|(h1 & E1 & X1 & L1 & F)]; rewrite (mbind_ok _ _ _ _ _ E1).
  2:{ exists None, None, (Some EMemory), h1. split; [reflexivity|]. split; [lia|]. split; [exact X1|]. right. auto. }
  destruct (copy_ok u (Datatypes.S (length ws)) (cr_array c) f us (repeat zero_entry k) [] h1 (rowned c ++ rest)) as (o & h2 & E2 & L2 & R2); [rewrite W; reflexivity|exact X1|right; left; reflexivity|intros z Z; unfold rowned; rewrite IU; apply in_or_app; left; right; right; exact Z|exact NN|].
  rewrite (mbind_ok _ _ _ _ _ E2). destruct R2 as [(more & -> & W2 & X2)|( -> & X2 & F)].
  - exists (Some (u, more)), (Some (Datatypes.S (length ws))), None, h2. split; [reflexivity|]. split; [lia|]. split; [revert X2; apply holds_perm; cbn [ublocks app]; symmetry; apply (Permutation_middle (map fst more) (rowned c ++ rest) u)|].
    left. split; [reflexivity|]. split; [reflexivity|]. split; [congruence|]. split; discriminate.
  - exists None, None, (Some EMemory), h2. split; [reflexivity|]. split; [lia|]. split; [exact X2|]. right. split; [reflexivity|]. split; [reflexivity|]. split; [reflexivity|]. refine (failed_more _ _ _ _ _ _ _ F); lia.
Qed.
(** Releasing such an array with its number gives back exactly its blocks. *)
Theorem C128_free_urls : forall p h rest, holds h (ublocks p ++ rest) -> exists h', free_urls p (match p with Some (_, l) => length l | None => 0 end) h = Ok (tt, h') /\ holds h' rest /\ h_next h' = h_next h.
Proof.
  intros [(a, l)|] h rest X; cbn [free_urls ublocks app] in *; [|exists h; auto]. rewrite (mbind_ok _ _ _ _ _ (use_holds a h _ X ltac:(left; reflexivity))).
  apply (holds_perm _ _ (map fst l ++ a :: rest)) in X; [|apply Permutation_middle]. destruct (free_copies_ok l h _ X) as (h1 & E1 & X1 & L1). rewrite (mbind_ok _ _ _ _ _ E1).
  destruct (free_holds _ _ _ X1) as (h2 & E2 & X2 & L2). exists h2. split; [exact E2|]. split; [exact X2|lia].
Qed.
(** ** Publishing *)
Section Publish.
Variable lim : option ev_limits.
Lemma add_entries_mem a us : forall r ev h rest, event_sound ev -> holds h (owned ev ++ rest) -> In a rest -> incl (flat_map ublock us) rest -> Forall (fun x => re_url x <> None) us ->
  exists ev' x h', add_entries grant lim ev a (length us) (us ++ r) h = Ok ((ev', x), h') /\ event_sound ev' /\ holds h' (owned ev' ++ rest) /\ h_next h <= h_next h' /\
  ((x = None /\ add_tags lim (ce_val ev) (map evalue us) = Ok (ce_val ev')) \/
   (exists e, x = Some e /\ (add_tags lim (ce_val ev) (map evalue us) = Err e \/ failed grant h h' \/ (2 ^ 62 < ce_used ev + tags_space (map entry_tag (map evalue us)))%N))).
Proof.
  induction us as [|x us IH]; intros r ev h rest S X IA IN NN; cbn [length add_entries app map add_tags].
  - exists ev, None, h. do 3 (split; [auto|]). split; [lia|]. left. auto.
  - inversion_clear NN as [|? ? N1 N2]. cbn [flat_map] in IN. rewrite (mbind_ok _ _ _ _ _ (use_holds a h _ X ltac:(apply in_or_app; right; exact IA))).
    rewrite (mbind_ok _ _ _ _ _ (read_cell_ok (re_url x) h _ X ltac:(intros z Z; apply in_or_app; right; apply IN, in_or_app; left; exact Z) N1)). fold (evalue x). set (t := entry_tag (evalue x)).
    destruct (C107_tag grant lim ev t h rest S X) as (c1 & x1 & h1 & E1 & S1 & X1 & L1 & R1 & U1). rewrite (mbind_ok _ _ _ _ _ E1). cbn [tags_space fold_right] in *. fold (tags_space (map entry_tag (map evalue us))). fold t.
    destruct R1 as [( -> & V1 & _ & NF)|[( -> & V1 & B)|( -> & V1 & B)]].
    + assert (P : GiftWrap.add_tag lim (ce_val ev) t = Ok (ce_val c1)).
      { rewrite V1. unfold GiftWrap.add_tag, tagged. destruct lim as [l|]; [|reflexivity]. destruct (N.leb_spec (max_tags l) (N.of_nat (length (ev_tags (ce_val ev))))) as [G|G]; [|reflexivity]. exfalso. apply NF. exists l. auto. }
      rewrite P. cbn [bind]. destruct (IH r c1 h1 rest S1 X1 IA ltac:(intros z Z; apply IN, in_or_app; right; exact Z) N2) as (c2 & x2 & h2 & E2 & S2 & X2 & L2 & R2). exists c2, x2, h2. do 3 (split; [assumption|]). split; [lia|].
      specialize (U1 eq_refl). destruct R2 as [R2|(e & -> & [P2|[F|B]])]; [left; exact R2|right; eauto|right; exists e; split; [reflexivity|]; right..].
      * left. refine (failed_more _ _ _ _ _ _ _ F); lia.
      * right. lia.
    + exists c1, (Some EInvalidParam), h1. do 3 (split; [first [reflexivity|assumption]|]). split; [exact L1|]. right. exists EInvalidParam. split; [reflexivity|]. destruct B as [B|[(l & EL & B)|B]]; [exfalso; unfold t, entry_tag in B; destruct (negb _ || _); discriminate| |right; right; lia].
      left. unfold GiftWrap.add_tag. rewrite EL. destruct (N.leb_spec (max_tags l) (N.of_nat (length (ev_tags (ce_val ev))))); [reflexivity|lia].
    + exists c1, (Some EMemory), h1. do 3 (split; [first [reflexivity|assumption]|]). split; [exact L1|]. right. exists EMemory. split; [reflexivity|]. right. destruct B as [B|B]; [left; exact B|right; lia].
Qed.
(** Publishing: the event of C49 in blocks of its own, or nothing is added. *)
Theorem C128_to_event : forall c now lit h rest, relays_sound c -> holds h (rowned c ++ rest) -> In lit rest ->
  exists p x h', relays_to_event grant lim c now lit h = Ok ((p, x), h') /\ h_next h <= h_next h' /\
  ((x = None /\ exists ev, p = Some ev /\ event_sound ev /\ holds h' (owned ev ++ rowned c ++ rest) /\ rl_to_event lim now (abs c) = Ok (ce_val ev)) \/
   (exists e, x = Some e /\ holds h' (rowned c ++ rest) /\ (rl_to_event lim now (abs c) = Err e \/ failed grant h h' \/ (2 ^ 62 < tags_space (map entry_tag (rvalue c)))%N))).
Proof.
  intros c now lit h rest S X IL. destruct (rshape c S) as (us & k & SL & CT & IU & NN & _). unfold rl_to_event. rewrite (entries_spec _ _ (abs_holds c S)). cbn [bind]. set (pure := add_tags _ _ _).
  unfold relays_to_event. destruct (C107_create grant now h _ X) as (p1 & x1 & h1 & E1 & L1 & R1). rewrite (mbind_ok _ _ _ _ _ E1).
  destruct R1 as [( -> & ev & -> & S1 & X1 & V1)|( -> & X1 & F)].
  2:{ exists p1, (Some EMemory), h1. split; [destruct p1; reflexivity|]. split; [exact L1|]. right. exists EMemory. auto. }
  cbv zeta. rewrite V1. cbn [ev_id ev_pubkey ev_tags ev_content ev_sig]. set (ev0 := with_val ev _). pose proof (create_used grant _ _ _ _ E1) as U0.
  assert (S0 : event_sound ev0) by (destruct S1 as [A1 A2 A3 A4]; rewrite V1 in A1, A2; constructor; assumption).
  assert (DROP : forall v e ha, holds ha (owned v ++ rowned c ++ rest) -> h_next h <= h_next ha -> (pure = Err e \/ failed grant h ha \/ (2 ^ 62 < tags_space (map entry_tag (rvalue c)))%N) ->
    exists p x h', discard v e ha = Ok ((p, x), h') /\ h_next h <= h_next h' /\
    ((x = None /\ exists ev, p = Some ev /\ event_sound ev /\ holds h' (owned ev ++ rowned c ++ rest) /\ pure = Ok (ce_val ev)) \/
     (exists e, x = Some e /\ holds h' (rowned c ++ rest) /\ (pure = Err e \/ failed grant h h' \/ (2 ^ 62 < tags_space (map entry_tag (rvalue c)))%N)))).
  { intros v e ha Xa La R. destruct (C107_destroy v ha _ Xa) as (h' & E & X' & L'). exists None, (Some e), h'. unfold discard. rewrite (mbind_ok _ _ _ _ _ E). split; [reflexivity|]. split; [lia|]. right. exists e. split; [reflexivity|]. split; [exact X'|].
    destruct R as [R|[R|R]]; [left; exact R|right; left|right; right; exact R]. refine (failed_more _ _ _ _ _ _ _ R); lia. }
  destruct (C107_content grant ev0 lit [] h1 (rowned c ++ rest) S0 X1 ltac:(apply in_or_app; right; exact IL)) as (ev1 & x2 & h2 & E2 & S2 & X2 & L2 & R2). rewrite (mbind_ok _ _ _ _ _ E2).
  destruct R2 as [( -> & V2)|( -> & _ & F)].
  2:{ apply DROP; [exact X2|lia|]. right. left. refine (failed_more _ _ _ _ _ _ _ F); lia. }
  rewrite (mbind_ok _ _ _ _ _ (use_holds (cr_self c) h2 _ X2 ltac:(apply in_or_app; right; left; reflexivity))).
  assert (U1 : ce_used ev1 = 0%N).
  { revert E2. unfold EventMem.set_content, mbind, mret. change (ce_self ev0) with (ce_self ev). change (ce_content ev0) with (ce_content ev). destruct (huse (Some (ce_self ev)) h1) as [(?, ha)| |]; try congruence. destruct (hfree (ce_content ev) ha) as [(?, hb)| |]; try congruence. destruct (huse (Some lit) hb) as [(?, hc)| |]; try congruence. destruct (ealloc grant hc) as [([q|], hd)| |]; try congruence.
    intros Q. assert (Q2 : ev1 = with_content ev0 (Some q) (Some [])) by congruence. rewrite Q2. exact U0. }
  destruct (add_entries_mem (cr_array c) us (repeat zero_entry k) ev1 h2 (rowned c ++ rest) S2 X2 ltac:(right; left; reflexivity)) as (ev3 & x3 & h3 & E3 & S3 & X3 & L3 & R3); [intros z Z; unfold rowned; rewrite IU; apply in_or_app; left; right; right; exact Z|exact NN|].
  rewrite SL, CT. rewrite (mbind_ok _ _ _ _ _ E3). assert (PU : add_tags lim (ce_val ev1) (map evalue us) = pure) by (unfold pure, rvalue; rewrite V2, IU; reflexivity). rewrite PU, U1 in R3. rewrite <- IU in R3. fold (rvalue c) in R3.
  destruct R3 as [( -> & P)|(e & -> & R3)]; cbn [keep].
  - exists (Some ev3), None, h3. split; [reflexivity|]. split; [lia|]. left. split; [reflexivity|]. exists ev3. auto.
  - apply DROP; [exact X3|lia|]. destruct R3 as [P|[F|B]]; [left; exact P|right; left|right; right; exact B]. refine (failed_more _ _ _ _ _ _ _ F); lia.
Qed.
End Publish.
(** ** Programs *)
Lemma rstep_ok v o h rest : rsound_opt v -> holds h (rowned_opt v ++ rest) -> rforeign rest o ->
  exists v' h', rstep grant v o h = Ok (v', h') /\ rsound_opt v' /\ holds h' (rowned_opt v' ++ rest).
Proof.
  intros S X FO. destruct o as [|e|url rd wr|f|]; cbn [rstep].
  - destruct v as [c|]; [exists (Some c), h; auto|]. destruct (C128_create h rest X) as (p & x & h1 & E & _ & R). rewrite (mbind_ok _ _ _ _ _ E). exists p, h1. split; [reflexivity|].
    destruct R as [(_ & c & -> & S1 & X1 & _)|(_ & -> & X1 & _)]; (split; [first [exact S1|exact I]|exact X1]).
  - destruct v as [c|]; [exists (Some c), h; auto|]. destruct (C128_from_event None e h rest X) as (p & x & h1 & E & _ & R). rewrite (mbind_ok _ _ _ _ _ E). exists p, h1. split; [reflexivity|].
    destruct R as [(_ & _ & c & es & out & -> & S1 & X1 & _)|[(_ & -> & X1 & _)|(_ & -> & -> & _)]]; (split; [first [exact S1|exact I]|first [exact X1|exact X]]).
  - destruct v as [c|]; [|exists None, h; auto]. cbn [rsound_opt rowned_opt rforeign] in *. destruct (C128_add c url rd wr h rest S X) as (c1 & x & h1 & E & S1 & X1 & _).
    { intros b B. destruct url as (src, t). cbn [fst] in B. subst src. split; [apply in_or_app; right; exact FO|]. intros ->. destruct X as [(ND & _) PM]. apply (Permutation_NoDup PM) in ND. unfold rowned in ND. cbn [app] in ND. inversion_clear ND as [|? ? _ ND']. inversion_clear ND' as [|? ? N1 _]. apply N1, in_or_app. right. exact FO. }
    rewrite (mbind_ok _ _ _ _ _ E). exists (Some c1), h1. auto.
  - destruct v as [c|]; [|exists None, h; auto]. destruct (C128_query c f h rest S X) as (p & n & x & h1 & E & _ & X1 & R). rewrite (mbind_ok _ _ _ _ _ E). destruct R as [( -> & -> & LP & _)|( -> & -> & -> & _)].
    + destruct (C128_free_urls p h1 _ X1) as (h2 & E2 & X2 & _). assert (LN : length (wanted f (rvalue c)) = match p with Some (_, l) => length l | None => 0 end) by (rewrite <- LP; destruct p as [(?, l)|]; [apply map_length|reflexivity]).
      rewrite LN. rewrite (mbind_ok _ _ _ _ _ E2). exists (Some c), h2. auto.
    + exists (Some c), h1. auto.
  - destruct v as [c|]; [destruct (C128_free c h rest S X) as (h1 & E & X1 & _); rewrite (mbind_ok _ _ _ _ _ E); exists None, h1; split; [reflexivity|]; split; [exact I|exact X1]|exists None, h; auto].
Qed.
Theorem C128_run : forall os v h rest, rsound_opt v -> holds h (rowned_opt v ++ rest) -> Forall (rforeign rest) os ->
  exists v' h', rrun grant v os h = Ok (v', h') /\ rsound_opt v' /\ holds h' (rowned_opt v' ++ rest).
Proof.
  induction os as [|o os IH]; intros v h rest S X FO; cbn [rrun]; [exists v, h; auto|]. inversion_clear FO.
  destruct (rstep_ok v o h rest S X) as (v1 & h1 & E & S1 & X1); [assumption|]. rewrite (mbind_ok _ _ _ _ _ E). apply IH; assumption.
Qed.
Corollary C128_no_leak : forall os h, holds h [] -> Forall (rforeign []) os -> exists h', rrun grant None (os ++ [RFree]) h = Ok (None, h') /\ h_live h' = [].
Proof.
  intros os h X FO. assert (G : forall os v h, rsound_opt v -> holds h (rowned_opt v ++ []) -> Forall (rforeign []) os -> exists h', rrun grant v (os ++ [RFree]) h = Ok (None, h') /\ h_live h' = []).
  { clear. induction os as [|o os IH]; intros v h S X FO; cbn [rrun app].
    - destruct v as [c|]; cbn [rstep].
      + destruct (C128_free c h [] S X) as (h1 & E & (_ & X1) & _). rewrite (mbind_ok _ _ _ _ _ (mbind_ok _ _ _ _ _ E)). exists h1. split; [reflexivity|]. apply Permutation_nil. symmetry. exact X1.
      + exists h. split; [reflexivity|]. destruct X as (_ & X). apply Permutation_nil. symmetry. exact X.
    - inversion_clear FO. destruct (rstep_ok v o h [] S X) as (v1 & h1 & E & S1 & X1); [assumption|]. rewrite (mbind_ok _ _ _ _ _ E). apply IH; assumption. }
  apply (G os None h I X FO).
Qed.
End Grant.

(** Ten relays (so that the array grows), one twice, one invalid; queries; with every
    allocation granted, and with the growth of the array and a copy of a query refused. *)
Definition relay_n (n : N) : list N := bs "wss://" ++ [97%N; n].
Definition relay_prog : list rop :=
  RNew :: map (fun n => RAdd (None, relay_n n) (N.even n) true) [48; 49; 50; 51; 52; 53; 54; 55; 56; 57]%N ++ [RAdd (None, relay_n 48) true true; RAdd (None, bs "http://x") true true; RQuery true; RQuery false].
Example C128_meets : holds (mkHeap 0 []) [] /\ Forall (rforeign []) relay_prog /\
  (exists c h, rrun (fun _ => true) None relay_prog (mkHeap 0 []) = Ok (Some c, h) /\ length (rvalue c) = 10 /\ wanted true (rvalue c) = map relay_n [48; 50; 52; 54; 56]%N /\ length (h_live h) = 12 /\ length (cr_slots c) = 16) /\
  (exists c h, rrun (fun n => negb (n =? 10)%nat && negb (n =? 17)%nat) None relay_prog (mkHeap 0 []) = Ok (Some c, h) /\ length (rvalue c) = 9 /\ length (h_live h) = 11) /\
  (exists h, rrun (fun _ => true) None (relay_prog ++ [RFree]) (mkHeap 0 []) = Ok (None, h) /\ h_live h = []).
Proof.
  split; [split; [split; constructor|constructor]|]. split; [unfold relay_prog; cbn [map app]; repeat apply Forall_cons; try apply Forall_nil; exact I|]. split; [|split].
  - eexists. eexists. split; [vm_compute; reflexivity|]. repeat apply conj; vm_compute; reflexivity.
  - eexists. eexists. split; [vm_compute; reflexivity|]. repeat apply conj; vm_compute; reflexivity.
  - eexists. split; vm_compute; reflexivity.
Qed.
Example C128_publish_meets : exists c h ev h',
  rrun (fun _ => true) None [RNew; RAdd (None, relay_n 48) true false; RAdd (Some 0, relay_n 49) true true] (mkHeap 1 [0]) = Ok (Some c, h) /\
  relays_to_event (fun _ => true) None c 5%Z 0 h = Ok ((Some ev, None), h') /\ ev_tags (ce_val ev) = [[bs "r"; relay_n 48; bs "read"]; [bs "r"; relay_n 49]] /\ length (h_live h') = length (h_live h) + 5 /\
  exists c2 h2, relays_from_event (fun _ => true) None (ce_val ev) h' = Ok ((Some c2, None), h2) /\ rvalue c2 = rvalue c.
Proof. do 4 eexists. split; [vm_compute; reflexivity|]. split; [vm_compute; reflexivity|]. split; [vm_compute; reflexivity|]. split; [vm_compute; reflexivity|]. do 2 eexists. split; vm_compute; reflexivity. Qed.

(** * C129 *)
(** What does hold when a call is refused: adding leaves the list saying what it said,
    a query hands out no array, reading leaves the variable empty or as it was, and
    nothing is kept. *)
Theorem C129_partial : forall grant lim c h rest, relays_sound c -> holds h (rowned c ++ rest) ->
  (forall url rd wr c' e h', (forall b, fst url = Some b -> In b (rowned c ++ rest) /\ b <> cr_array c) -> relays_add grant c url rd wr h = Ok ((c', Some e), h') -> rvalue c' = rvalue c /\ holds h' (rowned c' ++ rest)) /\
  (forall f p n e h', relays_by_flag grant c f h = Ok (((p, n), Some e), h') -> p = None /\ holds h' (rowned c ++ rest)) /\
  (forall old e p x h', relays_from_event grant old e h = Ok ((p, Some x), h') -> (p = None \/ p = old) /\ holds h' (rowned c ++ rest)) /\
  (forall now lit p e h', In lit rest -> relays_to_event grant lim c now lit h = Ok ((p, Some e), h') -> holds h' (rowned c ++ rest)).
Proof.
  intros grant lim c h rest S X. split; [|split; [|split]].
  - intros url rd wr c' e h' SRC E. destruct (C128_add grant c url rd wr h rest S X SRC) as (c2 & r & h2 & E2 & _ & X2 & _ & m & AD & _). rewrite E in E2. assert (c2 = c' /\ r = Some e /\ h2 = h') as (-> & -> & ->) by (repeat split; congruence). split; [|exact X2]. inversion AD; reflexivity || discriminate.
  - intros f p n e h' E. destruct (C128_query grant c f h rest S X) as (p2 & n2 & x & h2 & E2 & _ & X2 & R). rewrite E in E2. assert (p2 = p /\ x = Some e /\ h2 = h') as (-> & -> & ->) by (repeat split; congruence). destruct R as [(Q & _)|(_ & -> & _)]; [discriminate|]. auto.
  - intros old ev p x h' E. destruct (C128_from_event grant old ev h _ X) as (p2 & x2 & h2 & E2 & _ & R). rewrite E in E2. assert (p2 = p /\ x2 = Some x /\ h2 = h') as (-> & -> & ->) by (repeat split; congruence). destruct R as [(Q & _)|[(_ & -> & X2 & _)|(_ & -> & -> & _)]]; [discriminate|auto..].
  - intros now lit p e h' IL E. destruct (C128_to_event grant lim c now lit h rest S X IL) as (p2 & x & h2 & E2 & _ & R). rewrite E in E2. assert (x = Some e /\ h2 = h') as (-> & ->) by (split; congruence). destruct R as [(Q & _)|(e2 & _ & X2 & _)]; [discriminate|exact X2].
Qed.
Definition one_relay : crelays := mkCr 0 1 (mkRe (Some (2, bs "wss://a")) true true :: repeat zero_entry 7) 1.
Lemma one_sound : relays_sound one_relay.
Proof. apply (rshape_sound _ [mkRe (Some (2, bs "wss://a")) true true] 7); [reflexivity|reflexivity|apply Forall_cons; [discriminate|apply Forall_nil]|cbn; lia|cbn; lia]. Qed.
Lemma one_holds : holds (mkHeap 4 [0; 1; 2; 3]) (rowned one_relay ++ [3]).
Proof. split; [split; cbn; [repeat constructor; cbn; intuition lia|repeat constructor; lia]|cbn; apply Permutation_refl]. Qed.
(** A query that is refused does not write the number of addresses. *)
Theorem C129_count_refuted : ~ (forall grant c f h rest, relays_sound c -> holds h (rowned c ++ rest) ->
  forall p n x h', relays_by_flag grant c f h = Ok (((p, n), x), h') -> n <> None).
Proof.
  intros G. apply (G (fun _ => false) one_relay true _ [3] one_sound one_holds None None (Some EMemory) (mkHeap 5 [0; 1; 2; 3])); [vm_compute; reflexivity|reflexivity].
Qed.
(** Reading from an event of another kind leaves what was in the variable there. *)
Theorem C129_from_event_refuted : ~ (forall grant old e h rest, holds h rest -> forall p x h', relays_from_event grant old e h = Ok ((p, Some x), h') -> p = None).
Proof.
  intros G. pose proof (G (fun _ => true) (Some one_relay) (blank 0) _ _ one_holds (Some one_relay) EInvalidEvent (mkHeap 4 [0; 1; 2; 3])) as K.
  specialize (K ltac:(vm_compute; reflexivity)). discriminate.
Qed.
(** A failing publication may leave the released event in the caller's variable. *)
Theorem C129_to_event_refuted : ~ (forall grant lim c now lit h rest, relays_sound c -> holds h (rowned c ++ rest) -> In lit rest ->
  forall p e h', relays_to_event grant lim c now lit h = Ok ((p, Some e), h') -> p = None).
Proof.
  intros G. pose proof (G (fun n => n =? 4) None one_relay 0%Z 3 _ [3] one_sound one_holds ltac:(left; reflexivity)) as K.
  destruct (relays_to_event (fun n => n =? 4) None one_relay 0%Z 3 (mkHeap 4 [0; 1; 2; 3])) as [((p, e), h')| |] eqn:E; [|vm_compute in E; discriminate..].
  destruct e as [e|]; [|vm_compute in E; discriminate]. specialize (K p e h' eq_refl). subst p. vm_compute in E. discriminate.
Qed.

(** A case for C129: no memory for another relay. *)
Example C129_meets : exists c' h', relays_add (fun _ => false) one_relay (None, bs "wss://b.example") true false (mkHeap 4 [0; 1; 2; 3]) = Ok ((c', Some EMemory), h') /\
  rvalue c' = rvalue one_relay /\ holds h' (rowned c' ++ [3]).
Proof.
  destruct (relays_add (fun _ => false) one_relay (None, bs "wss://b.example") true false (mkHeap 4 [0; 1; 2; 3])) as [((c', x), h')| |] eqn:E; [|vm_compute in E; discriminate..].
  assert (x = Some EMemory) as -> by (apply (f_equal (fun r => match r with Ok ((_, x), _) => x | _ => None end)) in E; vm_compute in E; symmetry; exact E). exists c', h'. split; [reflexivity|].
  destruct (C129_partial (fun _ => false) None one_relay _ [3] one_sound one_holds) as (A & _). apply (A (None, bs "wss://b.example") true false c' EMemory h'); [intros b B; discriminate B|exact E].
Qed.

Print Assumptions C128_create.
Print Assumptions C128_free.
Print Assumptions C128_add.
Print Assumptions C128_from_event.
Print Assumptions C128_query.
Print Assumptions C128_free_urls.
Print Assumptions C128_to_event.
Print Assumptions C128_run.
Print Assumptions C128_no_leak.
Print Assumptions C129_partial.
Print Assumptions C129_count_refuted.
Print Assumptions C129_from_event_refuted.
Print Assumptions C129_to_event_refuted.
