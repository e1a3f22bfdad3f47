(** C49. *)
From Coq Require Import Permutation.
From Verif Require Import Base BaseFacts Event GiftWrap GiftWrapProps Nip18 Nip18Spec Nip18Props Nip65 Nip65Spec.
Open Scope N_scope.

Lemma max_relays : N.of_nat MAX_RELAY_COUNT = 256. Proof. apply N2Nat.id. Qed.
Lemma scheme_iff u : is_valid_relay_url u = true <-> relay_url u.
Proof.
  unfold is_valid_relay_url, relay_url. split.
  - destruct (N.eqb_spec (N.of_nat (length u)) 0) as [Z|Z]; [discriminate|]. destruct (N.ltb_spec 2048 (N.of_nat (length u))) as [L|L]; [discriminate|]. cbn [orb].
    destruct (prefixb (bs "wss://") u) eqn:P1; [|destruct (prefixb (bs "ws://") u) eqn:P2; [|discriminate]].
    all: [> apply prefixb_spec in P1 as (r & ->); set (sch := bs "wss://") | apply prefixb_spec in P2 as (r & ->); set (sch := bs "ws://")].
    all: destruct r as [|c r]; [discriminate|]; match goal with |- context [nth_error ?u ?n] => change (nth_error u n) with (Some c) end.
    all: intros H; apply negb_true_iff in H; rewrite !orb_false_iff, !N.eqb_neq in H.
    all: split; [exact L|]; exists sch, c, r; (split; [|split; [reflexivity|]]); [auto|cbn; intuition congruence].
  - intros (L & sch & c & r & SC & -> & NI). destruct (N.eqb_spec (N.of_nat (length (sch ++ c :: r))) 0) as [Z|Z]; [rewrite app_length in Z; cbn [length] in Z; lia|].
    destruct (N.ltb_spec 2048 (N.of_nat (length (sch ++ c :: r)))); [lia|]. cbn [orb].
    assert (C : negb ((c =? 47) || (c =? 58) || (c =? 63) || (c =? 35) || (c =? 64) || (c =? 32)) = true).
    { apply negb_true_iff. rewrite !orb_false_iff, !N.eqb_neq. cbn in NI. repeat split; intros ->; apply NI; cbn; tauto. }
    destruct SC as [-> | ->]; cbn [bs app prefixb nth_error]; exact C.
Qed.

(** The array holds the abstract list *)
Record holds (a : rlist) (l : list entry) : Prop := mkHolds {
  ho_slots : exists k, rl_slots a = map Some l ++ repeat None k; ho_count : rl_count a = length l; ho_cap : (1 <= length (rl_slots a) <= MAX_RELAY_COUNT)%nat }.
Lemma holds_create : holds rl_create [].
Proof. split; [exists 8%nat; reflexivity|reflexivity|]. pose proof max_relays. cbn. lia. Qed.
Lemma used_spec l rest : used (length l) (map Some l ++ rest) = Ok l.
Proof. induction l as [|e l IH]; [reflexivity|]. cbn [length used map app]. rewrite IH. reflexivity. Qed.
Lemma entries_spec a l : holds a l -> rl_entries a = Ok l.
Proof. intros [(k & SL) C _]. unfold rl_entries. rewrite SL, C. apply used_spec. Qed.
Lemma has_url_spec l rest u : exists b, has_url (length l) (map Some l ++ rest) u = Ok b /\ (b = true <-> In u (map en_url l)).
Proof.
  induction l as [|e l (b & E & H)]; [exists false; split; [reflexivity|cbn; split; [discriminate|tauto]]|].
  cbn [length has_url map app]. destruct (beq (en_url e) u) eqn:B.
  - exists true. apply beq_eq in B. cbn. tauto.
  - exists b. split; [exact E|]. apply beq_neq in B. rewrite H. cbn. tauto.
Qed.
Lemma get_spec a l i : holds a l -> rl_get a i = Ok (nth_error l i).
Proof.
  intros [(k & SL) C _]. unfold rl_get. destruct (Nat.leb_spec (rl_count a) i) as [F|F].
  - rewrite (proj2 (nth_error_None l i)); [reflexivity|lia].
  - rewrite SL, nth_error_app1 by (rewrite map_length; lia). rewrite nth_error_map.
    destruct (nth_error l i) eqn:E; [reflexivity|]. apply nth_error_None in E. lia.
Qed.
Lemma rl_set_at (a : list (option entry)) k y : rl_set (a ++ repeat None (S k)) (length a) y = Ok (a ++ y :: repeat None k).
Proof.
  unfold rl_set. rewrite app_length, repeat_length. destruct (Nat.ltb_spec (length a) (length a + S k)); [|lia].
  rewrite (firstn_app_exact a _ _ eq_refl). do 3 f_equal. cbn [repeat].
  change (a ++ None :: repeat None k) with (a ++ ([None] ++ repeat None k)). rewrite app_assoc. apply skipn_app_exact. rewrite app_length. cbn. lia.
Qed.
Lemma grow_spec g a l : holds a l -> (length l < MAX_RELAY_COUNT)%nat ->
  (exists a1 k, rl_grow g a = Ok a1 /\ rl_slots a1 = map Some l ++ repeat None (S k) /\ rl_count a1 = length l /\ (1 <= length (rl_slots a1) <= MAX_RELAY_COUNT)%nat)
  \/ (g = false /\ rl_grow g a = Err EMemory).
Proof.
  intros [(k & SL) C CAP] R. assert (CL : length (rl_slots a) = (length l + k)%nat) by (rewrite SL, app_length, map_length, repeat_length; reflexivity).
  unfold rl_grow. destruct (Nat.leb_spec (length (rl_slots a)) (rl_count a)) as [F|F].
  - assert (k = 0%nat) by lia. subst k. set (nc := if (_ <? _)%nat then _ else _).
    assert (NC : (length l < nc <= MAX_RELAY_COUNT)%nat) by (subst nc; destruct (Nat.ltb_spec MAX_RELAY_COUNT (length (rl_slots a) * 2)); lia). clearbody nc.
    destruct (Nat.leb_spec nc (rl_count a)) as [G|G]; [lia|]. destruct g; [|right; auto]. left. cbn [negb].
    eexists _, (nc - length (rl_slots a) - 1)%nat. split; [reflexivity|]. cbn [rl_slots rl_count].
    replace (S (nc - length (rl_slots a) - 1)) with (nc - length (rl_slots a))%nat by lia. split; [rewrite SL at 1; cbn [repeat]; rewrite app_nil_r; reflexivity|].
    split; [exact C|]. rewrite app_length, repeat_length. lia.
  - left. exists a, (k - 1)%nat. replace (S (k - 1)) with k by lia. auto.
Qed.
Lemma add_spec g d a l u rd wr : holds a l -> exists a' r l', rl_add g d a u rd wr = Ok (a', r) /\ adds l (mkEntry u rd wr) (g, d) l' r /\ holds a' l'.
Proof.
  intros H. unfold rl_add. pose proof max_relays as MX.
  assert (NO : ~ entry_ok (mkEntry u rd wr) \/ In u (map en_url l) \/ N.of_nat (length l) = 256 ->
    exists a' r l', Ok (a, Err EInvalidParam) = Ok (a', r) /\ adds l (mkEntry u rd wr) (g, d) l' r /\ holds a' l').
  { intros W. exists a, (Err EInvalidParam), l. split; [reflexivity|]. split; [apply AddRefused, W|exact H]. }
  destruct (negb rd && negb wr) eqn:F.
  { apply NO. left. intros (_ & X). apply andb_true_iff in F as (F1 & F2). cbn in X. destruct X as [-> | ->]; discriminate. }
  destruct (is_valid_relay_url u) eqn:V; cbn [negb]; [|apply NO; left; intros (X & _); apply scheme_iff in X; cbn in X; congruence].
  destruct (Nat.leb_spec MAX_RELAY_COUNT (rl_count a)) as [L|L].
  { apply NO. right. right. pose proof H as [(k & SL) C CAP]. rewrite SL, app_length, map_length in CAP. lia. }
  pose proof H as [(k & SL) C CAP]. rewrite C, SL. destruct (has_url_spec l (repeat None k) u) as (b & E & B). rewrite E. cbn [bind].
  destruct b; [apply NO; right; left; apply B; reflexivity|].
  assert (NI : ~ In u (map en_url l)) by (intros X; apply B in X; discriminate).
  assert (EO : entry_ok (mkEntry u rd wr)) by (split; [apply scheme_iff, V|cbn; destruct rd, wr; auto; discriminate F]).
  destruct (grow_spec g a l H) as [(a1 & k1 & G & S1 & C1 & CAP1)|(-> & G)]; [lia| |]; rewrite G.
  - rewrite S1, C1. rewrite S1, app_length, map_length, repeat_length in CAP1.
    assert (SS : forall y, rl_set (map Some l ++ repeat None (S k1)) (length l) y = Ok (map Some l ++ y :: repeat None k1)) by (intros y; rewrite <- (map_length Some l); apply rl_set_at).
    rewrite SS. cbn [bind]. destruct d.
    + eexists _, _, (l ++ [mkEntry u rd wr]). split; [reflexivity|]. split; [apply AddNew; cbn; auto; lia|].
      split; cbn [rl_slots rl_count]; [exists k1; rewrite map_app, <- app_assoc; reflexivity|rewrite app_length; cbn; lia|rewrite app_length, map_length; cbn [length]; rewrite repeat_length; lia].
    + eexists _, _, l. split; [reflexivity|]. split; [apply AddMemory; [exact EO|congruence]|].
      split; cbn [rl_slots rl_count]; [exists (S k1); reflexivity|reflexivity|rewrite app_length, map_length; cbn [length]; rewrite repeat_length; lia].
  - exists a, (Err EMemory), l. split; [reflexivity|]. split; [apply AddMemory; [exact EO|congruence]|exact H].
Qed.
Lemma adds_ok l e m l' r : adds l e m l' r -> relays_ok l -> relays_ok l'.
Proof.
  intros A H; destruct A as [EO NI L _|_|_]; [|exact H|exact H]. destruct H as (F & ND & _). split; [apply Forall_app; auto|]. split.
  - rewrite map_app. cbn [map]. apply (Permutation_NoDup (l := en_url e :: map en_url l)); [apply Permutation_cons_append|]. constructor; assumption.
  - rewrite app_length. cbn [length]. lia.
Qed.
Lemma run_spec cs : forall a l, holds a l -> relays_ok l -> exists a' rs l', rl_run a cs = Ok (a', rs) /\ added l cs l' rs /\ holds a' l' /\ relays_ok l'.
Proof.
  induction cs as [|(((u, rd), wr), (g, d)) cs IH]; intros a l H R.
  - exists a, [], l. split; [reflexivity|]. split; [constructor|auto].
  - cbn [rl_run]. destruct (add_spec g d a l u rd wr H) as (a1 & r & l1 & E & A & H1). rewrite E. cbn [bind fst snd].
    destruct (IH a1 l1 H1 (adds_ok _ _ _ _ _ A R)) as (a2 & rs & l2 & E2 & A2 & H2 & R2). rewrite E2. cbn [bind fst snd].
    exists a2, (r :: rs), l2. split; [reflexivity|]. split; [econstructor; eauto|auto].
Qed.
Lemma empty_ok : relays_ok []. Proof. split; [constructor|]. split; [constructor|cbn; lia]. Qed.
(** Any sequence of additions, with any allocation failing: every call is defined
    and the list consists of the accepted relays in order, valid and distinct, at
    most 256. *)
Theorem C49_list cs : exists a rs l, rl_run rl_create cs = Ok (a, rs) /\ added [] cs l rs /\ relays_ok l /\ rl_count a = length l /\ forall i, rl_get a i = Ok (nth_error l i).
Proof.
  destruct (run_spec cs _ _ holds_create empty_ok) as (a & rs & l & E & A & H & R). exists a, rs, l. split; [exact E|]. split; [exact A|]. split; [exact R|].
  split; [apply H|]. intros i. apply get_spec, H.
Qed.
(** The queries return exactly the relays with the capability, in order; a failed
    query leaves nothing allocated. *)
Lemma copy_spec : forall l dups done, (exists n, copy_urls dups done l = (Ok (done ++ l), n) /\ n = length (done ++ l)) \/ (copy_urls dups done l = (Err EMemory, 0%nat) /\ In false dups).
Proof.
  induction l as [|u l IH]; intros dups done; cbn [copy_urls].
  - left. rewrite app_nil_r. eauto.
  - destruct dups as [|[] dups].
    + destruct (IH [] (done ++ [u])) as [(n & E & L)|(_ & [])]. left. rewrite <- app_assoc in *. exists n. auto.
    + destruct (IH dups (done ++ [u])) as [(n & E & L)|(E & I)]; [left|right; split; [exact E|right; exact I]]. rewrite <- app_assoc in *. exists n. auto.
    + right. split; [rewrite Nat.sub_diag; reflexivity|left; reflexivity].
Qed.
Lemma nth_error_iff_eq {A} (a b : list A) : (forall i, nth_error a i = nth_error b i) <-> a = b.
Proof.
  split; [|intros ->; reflexivity]. revert b. induction a as [|x a IH]; intros [|y b] H; [reflexivity|discriminate (H 0%nat)|discriminate (H 0%nat)|].
  pose proof (H 0%nat) as H0. cbn in H0. f_equal; [congruence|]. apply IH. intros i. exact (H (S i)).
Qed.
Theorem C49_query cs alloc dups (for_read : bool) a rs l : rl_run rl_create cs = Ok (a, rs) -> (forall i, rl_get a i = Ok (nth_error l i)) -> rl_count a = length l ->
  let want := map en_url (filter (if for_read then en_read else en_write) l) in
  exists r n k, rl_by_flag alloc dups a for_read = Ok (r, (n, k)) /\
  (r = Ok want /\ n = length want /\ k = (match want with [] => 0%nat | _ => 1%nat end) \/ r = Err EMemory /\ n = 0%nat /\ k = 0%nat /\ (alloc = false \/ In false dups)).
Proof.
  intros E G C want. destruct (run_spec cs _ _ holds_create empty_ok) as (a' & rs' & l' & E' & _ & H & _). assert (a' = a) by congruence. subst a'.
  assert (l' = l).
  { apply (proj1 (nth_error_iff_eq l' l)). intros i. pose proof (get_spec _ _ i H) as X. rewrite G in X. congruence. } subst l'.
  unfold rl_by_flag. rewrite (entries_spec _ _ H). cbn [bind].
  assert (W : map en_url (filter (fun e => if for_read then en_read e else en_write e) l) = want) by (destruct for_read; reflexivity). rewrite W. clearbody want.
  destruct want as [|u want]; [exists (Ok []), 0%nat, 0%nat; split; [reflexivity|left; auto]|].
  destruct alloc; cbn [negb]; [|exists (Err EMemory), 0%nat, 0%nat; split; [reflexivity|right; auto]].
  destruct (copy_spec (u :: want) dups []) as [(n & CE & L)|(CE & I)]; rewrite CE.
  - eexists _, n, 1%nat. split; [reflexivity|left]. auto.
  - eexists _, 0%nat, 0%nat. split; [reflexivity|right]. auto.
Qed.

(** Events *)
Lemma names_iff n u more e : names (n :: u :: more) e <-> n = bs "r" /\ e = mkEntry u (match more with m :: _ => if beq m (bs "read") then true else negb (beq m (bs "write")) | [] => true end)
   (match more with m :: _ => negb (beq m (bs "read")) | [] => true end).
Proof.
  split.
  - intros H. inversion H as [x|x r|x r|x m r NR NW]; subst; (split; [reflexivity|]); try reflexivity.
    apply beq_neq in NR, NW. rewrite NR, NW. reflexivity.
  - intros (-> & ->). destruct more as [|m more]; [constructor|]. destruct (beq m (bs "read")) eqn:R; [apply beq_eq in R; subst; constructor|].
    destruct (beq m (bs "write")) eqn:W; [apply beq_eq in W; subst; constructor|]. apply NamesOther; apply beq_neq; assumption.
Qed.
Lemma names_short t e : names t e -> exists n u more, t = n :: u :: more.
Proof. intros H. destruct H; eauto. Qed.
Lemma read_spec mem : forall ts i a l, holds a l -> relays_ok l ->
  (exists a' out new es, rl_read mem i a ts = Ok a' /\ holds a' (l ++ new) /\ relays_ok (l ++ new) /\ named ts es /\ firsts (map en_url l) es out /\ l ++ new = firstn 256 (l ++ out))
  \/ (rl_read mem i a ts = Err EMemory /\ exists j, mem j <> (true, true)).
Proof.
  induction ts as [|t ts IH]; intros i a l H R.
  - left. exists a, [], [], []. rewrite app_nil_r. split; [reflexivity|]. split; [exact H|]. split; [exact R|]. split; [constructor|]. split; [constructor|].
    symmetry. apply firstn_all2. destruct R as (_ & _ & L). lia.
  - assert (SKIP : (forall e, ~ names t e) -> rl_read mem i a (t :: ts) = rl_read mem (S i) a ts ->
      (exists a' out new es, rl_read mem i a (t :: ts) = Ok a' /\ holds a' (l ++ new) /\ relays_ok (l ++ new) /\ named (t :: ts) es /\ firsts (map en_url l) es out /\ l ++ new = firstn 256 (l ++ out))
      \/ (rl_read mem i a (t :: ts) = Err EMemory /\ exists j, mem j <> (true, true))).
    { intros NN E. rewrite E. destruct (IH (S i) a l H R) as [(a' & out & new & es & E1 & H1 & R1 & N1 & F1 & Q1)|X]; [left|right; exact X].
      exists a', out, new, es. repeat (split; [first [assumption|apply NamedNot; assumption]|]). assumption. }
    destruct t as [|n [|u more]]; [apply SKIP; [intros e X; apply names_short in X as (? & ? & ? & X); discriminate|reflexivity]..|].
    destruct (beq n (bs "r")) eqn:NR.
    2:{ apply beq_neq in NR. apply SKIP; [intros e X; apply names_iff in X; tauto|]. cbn [rl_read]. apply beq_neq in NR. rewrite NR. reflexivity. }
    clear SKIP. cbn [rl_read]. rewrite NR. apply beq_eq in NR. subst n. set (rd := match more with m :: _ => if beq m (bs "read") then true else negb (beq m (bs "write")) | [] => true end). set (wr := match more with m :: _ => negb (beq m (bs "read")) | [] => true end).
    assert (NM : names (bs "r" :: u :: more) (mkEntry u rd wr)) by (apply names_iff; auto).
    assert (FL : rd = true \/ wr = true) by (subst rd wr; destruct more as [|m more]; [auto|]; destruct (beq m (bs "read")); auto). clearbody rd wr.
    destruct (mem i) as [g d] eqn:ME. cbn [fst snd].
    destruct (add_spec g d a l u rd wr H) as (a1 & r & l1 & E & A & H1). rewrite E. cbn [bind fst snd].
    pose proof (adds_ok _ _ _ _ _ A R) as R1. inversion A as [EO NI LT _ EQ1 EQ2|W EQ1 EQ2|EO NM2 EQ1 EQ2]; subst.
    + destruct (IH (S i) a1 _ H1 R1) as [(a' & out & new & es & E2 & H2 & R2 & N2 & F2 & Q2)|X]; [left|right; exact X].
      exists a', (mkEntry u rd wr :: out), (mkEntry u rd wr :: new), (mkEntry u rd wr :: es). rewrite <- !app_assoc in *. cbn [app] in *.
      split; [exact E2|]. split; [exact H2|]. split; [exact R2|]. split; [apply NamedTag; [exact NM|apply EO|exact N2]|]. split; [|exact Q2].
      apply FirstsNew; [exact NI|]. rewrite map_app in F2. exact F2.
    + destruct (IH (S i) a1 _ H1 R1) as [(a' & out & new & es & E2 & H2 & R2 & N2 & F2 & Q2)|X]; [left|right; exact X]. cbn [en_url] in W.
      destruct (is_valid_relay_url u) eqn:V.
      * apply scheme_iff in V. assert (EO : entry_ok (mkEntry u rd wr)) by (split; [exact V|exact FL]).
        destruct (in_dec (list_eq_dec N.eq_dec) u (map en_url l1)) as [I|NI].
        { exists a', out, new, (mkEntry u rd wr :: es). split; [exact E2|]. split; [exact H2|]. split; [exact R2|]. split; [apply NamedTag; [exact NM|exact V|exact N2]|].
          split; [apply FirstsOld; [exact I|exact F2]|exact Q2]. }
        { assert (LF : N.of_nat (length l1) = 256) by tauto. assert (L256 : length l1 = 256%nat) by lia.
          assert (FN : forall x : list entry, firstn 256 (l1 ++ x) = l1) by (intros x; apply firstn_app_exact; symmetry; exact L256).
          rewrite FN in Q2.
          assert (FS : forall xs seen, exists o, firsts seen xs o).
          { induction xs as [|y xs IHx]; intros seen; [exists []; constructor|]. destruct (in_dec (list_eq_dec N.eq_dec) (en_url y) seen) as [J|J].
            - destruct (IHx seen) as (o & O). exists o. apply FirstsOld; assumption.
            - destruct (IHx (seen ++ [en_url y])) as (o & O). exists (y :: o). apply FirstsNew; assumption. }
          destruct (FS es (map en_url l1 ++ [u])) as (o & O).
          exists a', (mkEntry u rd wr :: o), new, (mkEntry u rd wr :: es). split; [exact E2|]. split; [exact H2|]. split; [exact R2|].
          split; [apply NamedTag; [exact NM|exact V|exact N2]|]. split; [apply FirstsNew; [exact NI|exact O]|]. rewrite FN. exact Q2. }
      * assert (NV : ~ relay_url u) by (intros X; apply scheme_iff in X; congruence). exists a', out, new, es.
        split; [exact E2|]. split; [exact H2|]. split; [exact R2|]. split; [eapply NamedBad; [exact NM|exact NV|exact N2]|]. split; [exact F2|exact Q2].
    + right. split; [reflexivity|]. exists i. rewrite ME. exact NM2.
Qed.
Lemma names_fun t e1 e2 : names t e1 -> names t e2 -> e1 = e2.
Proof. intros A B. destruct (names_short _ _ A) as (n & u & m & ->). apply names_iff in A as (_ & ->), B as (_ & ->). reflexivity. Qed.
Lemma named_fun ts : forall a b, named ts a -> named ts b -> a = b.
Proof.
  induction ts as [|t ts IH]; intros a b X Y; inversion X; subst; inversion Y; subst; try reflexivity;
    repeat match goal with P : names t ?x, Q : names t ?y |- _ => assert (x = y) by exact (names_fun _ _ _ P Q); subst; clear Q end;
    try (exfalso; match goal with P : forall e, ~ names t e, Q : names t _ |- _ => exact (P _ Q) end); try contradiction; try (f_equal); apply IH; assumption.
Qed.
Lemma firsts_fun es : forall seen a b, firsts seen es a -> firsts seen es b -> a = b.
Proof. induction es as [|e es IH]; intros seen a b X Y; inversion X; subst; inversion Y; subst; try contradiction; try reflexivity; try f_equal; eapply IH; eassumption. Qed.
(** Reading any event of kind 10002 gives the first mention of each valid relay it
    names, at most 256 of them, unless memory runs out; other kinds are refused. *)
Theorem C49_from_event mem e :
  (ev_kind e <> 10002 /\ rl_from_event mem e = Err EInvalidEvent) \/
  (ev_kind e = 10002 /\ rl_from_event mem e = Err EMemory /\ exists j, mem j <> (true, true)) \/
  (ev_kind e = 10002 /\ exists a es out, rl_from_event mem e = Ok a /\ named (ev_tags e) es /\ firsts [] es out /\ rl_entries a = Ok (firstn 256 out) /\ relays_ok (firstn 256 out)).
Proof.
  unfold rl_from_event. change KIND_RELAY_LIST with 10002. destruct (N.eqb_spec (ev_kind e) 10002) as [K|K]; cbn [negb]; [|left; auto]. right.
  destruct (read_spec mem (ev_tags e) 0 _ _ holds_create empty_ok) as [(a & out & new & es & E & H & R & NA & FI & Q)|(E & J)]; [right|left; auto].
  cbn [app] in *. subst new. split; [exact K|]. exists a, es, out. split; [exact E|]. split; [exact NA|]. split; [exact FI|]. split; [apply entries_spec, H|exact R].
Qed.
Lemma add_tags_spec lim l : forall e e', add_tags lim e l = Ok e' -> e' = with_tags e (map entry_tag l).
Proof.
  induction l as [|x l IH]; intros e e' E; cbn [add_tags] in E; [rewrite with_tags_nil; congruence|]. apply bind_ok in E as (e1 & A & E). apply add_tag_ok in A. subst e1.
  rewrite (IH _ _ E). cbn [map]. apply with_tags_push.
Qed.
Lemma add_tags_room lim l : forall e, room lim (N.of_nat (length (ev_tags e) + length l)) -> exists e', add_tags lim e l = Ok e'.
Proof.
  induction l as [|x l IH]; intros e R; [exists e; reflexivity|]. cbn [add_tags length] in *. destruct (add_tag_cases lim e (entry_tag x)) as [(E & _)|(_ & F)].
  - rewrite E. cbn [bind]. apply IH. unfold push. cbn [ev_tags]. rewrite app_length. cbn [length]. destruct lim; [|exact Logic.I]. cbn in *. lia.
  - exfalso. destruct lim; [|exact F]. cbn in *. lia.
Qed.
Lemma entry_named x : en_read x = true \/ en_write x = true -> names (entry_tag x) x.
Proof. destruct x as [u [] []]; cbn; intros [F|F]; try discriminate; constructor. Qed.
Lemma entries_named l : Forall entry_ok l -> named (map entry_tag l) l.
Proof. induction 1 as [|x l (V & F) _ IH]; [constructor|]. cbn [map]. apply NamedTag; [apply entry_named, F|exact V|exact IH]. Qed.
Lemma firsts_distinct l : forall seen, NoDup (seen ++ map en_url l) -> firsts seen l l.
Proof.
  induction l as [|x l IH]; intros seen ND; [constructor|]. cbn [map] in ND. apply FirstsNew.
  - apply NoDup_remove_2 in ND. intros X. apply ND, in_or_app. left. exact X.
  - apply IH. rewrite <- app_assoc. exact ND.
Qed.
(** Publishing a list and reading it back gives the same list. *)
Theorem C49_roundtrip lim now cs a rs : rl_run rl_create cs = Ok (a, rs) -> room lim (N.of_nat (rl_count a)) ->
  exists e, rl_to_event lim now a = Ok e /\ ev_kind e = 10002 /\ ev_content e = Some [] /\
  exists b l, rl_from_event (fun _ => (true, true)) e = Ok b /\ rl_entries a = Ok l /\ rl_entries b = Ok l.
Proof.
  intros E RM. destruct (run_spec cs _ _ holds_create empty_ok) as (a' & rs' & l & E' & _ & H & R). assert (a' = a) by congruence. subst a'.
  unfold rl_to_event. rewrite (entries_spec _ _ H). cbn [bind].
  match goal with |- context [add_tags lim ?x l] => set (e0 := x) end.
  destruct (add_tags_room lim l e0) as (e & T); [subst e0; cbn [ev_tags length Nat.add]; rewrite <- (ho_count _ _ H); exact RM|]. exists e. split; [exact T|].
  apply add_tags_spec in T. subst e. split; [reflexivity|]. split; [reflexivity|].
  destruct (C49_from_event (fun _ => (true, true)) (with_tags e0 (map entry_tag l))) as [(K & _)|[(_ & _ & j & J)|(_ & b & es & out & B & NA & FI & EN & _)]].
  - exfalso. apply K. reflexivity.
  - congruence.
  - exists b, l. split; [exact B|]. split; [reflexivity|]. rewrite EN. f_equal. cbn [with_tags ev_tags e0 app] in NA. destruct R as (F & ND & L).
    rewrite (named_fun _ _ _ NA (entries_named l F)) in FI. rewrite (firsts_fun _ _ _ _ FI (firsts_distinct l [] ND)). apply firstn_all2. lia.
Qed.
Definition u1 := bs "wss://a.example". Definition u2 := bs "ws://b".
Example C49_meets : exists a, rl_run rl_create [(u1, true, true, (true, true)); (u1, true, false, (true, true)); (bs "wss://", true, true, (true, true)); (u2, false, true, (true, false)); (u2, false, true, (true, true)); (u2, false, false, (true, true))]
  = Ok (a, [Ok tt; Err EInvalidParam; Err EInvalidParam; Err EMemory; Ok tt; Err EInvalidParam])
  /\ rl_entries a = Ok [mkEntry u1 true true; mkEntry u2 false true] /\ room None (N.of_nat (rl_count a))
  /\ rl_by_flag true [] a true = Ok (Ok [u1], (1, 1))%nat.
Proof. eexists. split; [vm_compute; reflexivity|]. split; [vm_compute; reflexivity|]. split; [exact I|vm_compute; reflexivity]. Qed.
Print Assumptions C49_list.
Print Assumptions C49_query.
Print Assumptions C49_from_event.
Print Assumptions C49_roundtrip.
