(** C175: spending limits hold whatever the threads do. *)
From Verif Require Import Base BaseFacts Session SessionProofs BudgetThreads.
Open Scope Z_scope.

(** ** Invariant *)
Definition holds_s (p : phase) : bool :=
  match p with
  | BHasS _ | BWantX _ _ | BHasX _ _ | BCreate _ | BWantClean _ _ | BClean _ _ | BWantFill _ _ | BFill _ _ => true
  | _ => false
  end.
Definition holds_x (p : phase) : option nat :=
  match p with
  | BHasX _ k | BBody _ k | BTest _ _ _ _ k _ | BCharge _ _ _ _ k _ _ | BMid _ k | BClean _ k | BFill _ k => Some k
  | _ => None
  end.
Definition waits (p : phase) : option nat := match p with BWantX _ k => Some k | _ => None end.
Definition enters (p : phase) : option nat := match p with BHasX _ k | BBody _ k => Some k | _ => None end.
Definition granted_as (p : perm) (g : list N * Z * Z) : Prop :=
  p_name p = Some (fst (fst g)) /\ p_limit p = snd (fst g) /\ p_interval p = snd g /\ 0 <= p_limit p < 2 ^ 64 /\ 0 <= p_interval p < 2 ^ 32.
(** A waiting call will find the session open or empty. *)
Definition fit (c : cell) : Prop := c_active c = true \/ c_perms c = [] \/ c_lock c <> None.
Definition chosen (m : sys) id me (a now : Z) k n (p : perm) : Prop :=
  exists c, nth_error (m_cells m) k = Some c /\ c_id c = Some id /\ c_active c = true /\ nth_error (c_perms c) n = Some p /\
    pick me (c_perms c) = Some n /\ p_reset p - p_interval p <= now <= p_reset p /\ 0 <= a < 2 ^ 64.
Definition knows (m : sys) (p : phase) : Prop :=
  match p with
  | BWantS j | BHasS j => job_ok j
  | BWantX j k => job_ok j /\ exists c, nth_error (m_cells m) k = Some c /\ c_id c = Some (job_id j) /\ fit c
  | BHasX j k | BBody j k => job_ok j /\ exists c, nth_error (m_cells m) k = Some c /\ c_id c = Some (job_id j) /\ (c_active c = true \/ c_perms c = [])
  | BTest id me a now k n => exists p, chosen m id me a now k n p
  | BCharge id me a now k n u => exists p, chosen m id me a now k n p /\ p_used p = u /\ over p a = false
  | BMid _ k => exists c, nth_error (m_cells m) k = Some c /\ c_active c = false
  | BWantClean _ k | BClean _ k => exists c, nth_error (m_cells m) k = Some c
  | BWantFill _ k | BFill _ k => exists c, nth_error (m_cells m) k = Some c /\ c_active c = false
  | _ => True
  end.
Definition event_id (e : event) : nat := match e with EGrant i _ _ _ | ECharge i _ _ _ _ _ | EDeny i _ _ _ _ _ => i end.
Definition good (m : sys) (c : cell) : Prop :=
  forall id, c_active c = true -> c_id c = Some id ->
    Forall2 granted_as (c_perms c) (grants (m_log m) id) /\ Forall (fun p => p_reset p - p_interval p <= m_now m) (c_perms c).

Record Inv (m : sys) : Prop := {
  i_s : forall i, m_s m = Some i <-> exists p, nth_error (m_threads m) i = Some p /\ holds_s p = true;
  i_x : forall k c i, nth_error (m_cells m) k = Some c -> (c_lock c = Some i <-> exists p, nth_error (m_threads m) i = Some p /\ holds_x p = Some k);
  i_k : forall i p, nth_error (m_threads m) i = Some p -> knows m p;
  i_late : forall i j p q k c, nth_error (m_threads m) i = Some p -> nth_error (m_threads m) j = Some q -> i <> j ->
    enters p = Some k -> waits q = Some k -> nth_error (m_cells m) k = Some c -> c_active c = true;
  i_made : forall k c id, nth_error (m_cells m) k = Some c -> c_id c = Some id -> In id (m_made m);
  i_uniq : forall j k c d id, nth_error (m_cells m) j = Some c -> nth_error (m_cells m) k = Some d -> c_id c = Some id -> c_id d = Some id -> j = k;
  i_log : forall e, In e (m_log m) -> In (event_id e) (m_made m);
  i_new : forall i p id, nth_error (m_threads m) i = Some p -> creating p = Some id -> ~ In id (m_made m);
  i_cre : forall i j p q id, nth_error (m_threads m) i = Some p -> nth_error (m_threads m) j = Some q -> creating p = Some id -> creating q = Some id -> i = j;
  i_good : forall k c, nth_error (m_cells m) k = Some c -> good m c }.

Lemma start_inv a b t : Inv (start a b t).
Proof.
  assert (TH : forall i p, nth_error (m_threads (start a b t)) i = Some p -> p = BIdle).
  { intros i p P. apply nth_error_In, repeat_spec in P. exact P. }
  assert (CE : forall k c, nth_error (m_cells (start a b t)) k = Some c -> c = mkCell None [] 0 false None).
  { intros k c C. apply nth_error_In, repeat_spec in C. exact C. }
  constructor.
  - intros i. split; [discriminate|]. intros (p & P & H). apply TH in P. subst. discriminate.
  - intros k c i C. apply CE in C. subst. split; [discriminate|]. intros (p & P & H). apply TH in P. subst. discriminate.
  - intros i p P. apply TH in P. subst. exact I.
  - intros i j p q k c P Q _ E. apply TH in P. subst. discriminate.
  - intros k c id C E. apply CE in C. subst. discriminate.
  - intros j k c d id C _ E. apply CE in C. subst. discriminate.
  - intros e [].
  - intros i p id P E. apply TH in P. subst. discriminate.
  - intros i j p q id P _ E. apply TH in P. subst. discriminate.
  - intros k c C id A. apply CE in C. subst. discriminate.
Qed.

Definition s_move (m m' : sys) i p p' : Prop :=
  m_s m' = m_s m /\ holds_s p' = holds_s p \/
  m_s m = None /\ m_s m' = Some i /\ holds_s p' = true \/
  holds_s p = true /\ m_s m' = None /\ holds_s p' = false.
Lemma s_part m m' i p p' : Inv m -> nth_error (m_threads m) i = Some p -> m_threads m' = update (m_threads m) i p' -> s_move m m' i p p' ->
  forall j, m_s m' = Some j <-> exists q, nth_error (m_threads m') j = Some q /\ holds_s q = true.
Proof.
  intros V P TH MV j. rewrite TH. pose proof (i_s m V) as IS. destruct (Nat.eq_dec j i) as [->|NE].
  - rewrite (update_same _ _ p i P). specialize (IS i).
    destruct MV as [(E1 & E2)|[(E0 & E1 & E2)|(E0 & E1 & E2)]]; rewrite E1.
    + rewrite IS. split; intros (q & Q & H).
      * assert (q = p) by congruence. subst. exists p'. split; [reflexivity|congruence].
      * assert (q = p') by congruence. subst. exists p. split; [exact P|congruence].
    + split; [intros _; exists p'; auto|reflexivity].
    + split; [discriminate|]. intros (q & Q & H). congruence.
  - rewrite update_other by exact NE. specialize (IS j).
    destruct MV as [(E1 & E2)|[(E0 & E1 & E2)|(E0 & E1 & E2)]]; rewrite E1.
    + exact IS.
    + rewrite <- IS, E0. split; [intros E; congruence|discriminate].
    + split; [discriminate|]. intros Q. apply IS in Q. assert (m_s m = Some i) by (apply (i_s m V); eauto). congruence.
Qed.
Lemma one_s m i j p q : Inv m -> nth_error (m_threads m) i = Some p -> nth_error (m_threads m) j = Some q -> holds_s p = true -> holds_s q = true -> i = j.
Proof. intros V P Q H1 H2. assert (m_s m = Some i) by (apply (i_s m V); eauto). assert (m_s m = Some j) by (apply (i_s m V); eauto). congruence. Qed.
Lemma one_x m k c i j p q : Inv m -> nth_error (m_cells m) k = Some c -> nth_error (m_threads m) i = Some p -> nth_error (m_threads m) j = Some q ->
  holds_x p = Some k -> holds_x q = Some k -> i = j.
Proof. intros V C P Q H1 H2. assert (c_lock c = Some i) by (apply (i_x m V k c i C); eauto). assert (c_lock c = Some j) by (apply (i_x m V k c j C); eauto). congruence. Qed.
Lemma waits_s p k : waits p = Some k -> holds_s p = true.
Proof. destruct p; cbn; try discriminate; reflexivity. Qed.
Lemma enters_x p k : enters p = Some k -> holds_x p = Some k.
Proof. destruct p; cbn; try discriminate; auto. Qed.

(** A step that leaves the slots, the record and the ids alone. *)
Lemma inv_same m m' i p p' : Inv m -> nth_error (m_threads m) i = Some p -> m_threads m' = update (m_threads m) i p' -> s_move m m' i p p' ->
  m_cells m' = m_cells m -> holds_x p' = holds_x p -> knows m p' -> m_made m' = m_made m -> m_log m' = m_log m -> m_now m <= m_now m' ->
  (enters p' = None \/ enters p' = enters p) ->
  (forall k c, waits p' = Some k -> nth_error (m_cells m) k = Some c -> c_active c = true) ->
  (creating p' = creating p \/ creating p' = None \/
   forall id, creating p' = Some id -> ~ In id (m_made m) /\ forall j q, nth_error (m_threads m) j = Some q -> creating q <> Some id) -> Inv m'.
Proof.
  intros V P TH MV CE HX KN MA LG NW EN WT CR. pose proof V as [V1 V2 V3 V4 V5 V6 V7 V8 V9 V10].
  assert (KS : forall q, knows m q -> knows m' q) by (intros q; destruct q; cbn [knows]; unfold chosen; rewrite ?CE; auto).
  assert (TC : forall j q, nth_error (m_threads m') j = Some q -> (j = i /\ q = p') \/ (j <> i /\ nth_error (m_threads m) j = Some q)).
  { intros j q Q. rewrite TH in Q. apply update_cases in Q; eauto. }
  constructor.
  - eapply s_part; eassumption.
  - intros k c j C. rewrite CE in C. rewrite (V2 k c j C), TH. destruct (Nat.eq_dec j i) as [->|NE].
    + rewrite (update_same _ _ p i P). split; intros (q & Q & H).
      * assert (q = p) by congruence. subst. exists p'. split; [reflexivity|congruence].
      * assert (q = p') by congruence. subst. exists p. split; [exact P|congruence].
    + rewrite update_other by exact NE. reflexivity.
  - intros j q Q. apply KS. destruct (TC j q Q) as [(-> & ->)|(NE & Q')]; [exact KN|eapply V3; exact Q'].
  - intros x y q r k c X Y NE E W C. rewrite CE in C. destruct (TC x q X) as [(-> & ->)|(NX & X')], (TC y r Y) as [(-> & ->)|(NY & Y')].
    + congruence.
    + destruct EN as [EN|EN]; [congruence|]. rewrite EN in E. eapply (V4 i y p r k c); eassumption.
    + eapply WT; eassumption.
    + eapply (V4 x y q r k c); eassumption.
  - intros k c id C E. rewrite CE in C. rewrite MA. eapply V5; eassumption.
  - intros j k c d id C D. rewrite CE in C, D. eapply V6; eassumption.
  - intros e E. rewrite LG in E. rewrite MA. auto.
  - intros j q id Q E. rewrite MA. destruct (TC j q Q) as [(-> & ->)|(NE & Q')]; [|eapply V8; eassumption].
    destruct CR as [CR|[CR|CR]]; [|congruence|apply CR, E]. eapply (V8 i p); congruence.
  - intros x y q r id X Y E F. destruct (TC x q X) as [(-> & ->)|(NX & X')], (TC y r Y) as [(-> & ->)|(NY & Y')]; [reflexivity| | |eapply V9; eassumption].
    + destruct CR as [CR|[CR|CR]]; [|congruence|destruct (CR id E) as (_ & CC); exfalso; eapply CC; eassumption].
      rewrite CR in E. eapply (V9 i y p r); eassumption.
    + destruct CR as [CR|[CR|CR]]; [|congruence|destruct (CR id F) as (_ & CC); exfalso; eapply CC; eassumption].
      rewrite CR in F. eapply (V9 x i q p); eassumption.
  - intros k c C id A E. rewrite CE in C. rewrite LG. destruct (V10 k c C id A E) as (G1 & G2). split; [exact G1|].
    eapply Forall_impl; [|exact G2]. cbn. intros; lia.
Qed.

(** A step that edits one slot. *)
Lemma inv_cell m m' i p p' k c c' : Inv m -> nth_error (m_threads m) i = Some p -> m_threads m' = update (m_threads m) i p' -> s_move m m' i p p' ->
  nth_error (m_cells m) k = Some c -> m_cells m' = update (m_cells m) k c' ->
  (holds_x p = Some k /\ c_lock c' = c_lock c /\ holds_x p' = holds_x p \/ c_lock c = None /\ c_lock c' = Some i /\ holds_x p' = Some k /\ holds_x p = None \/
   holds_x p = Some k /\ c_lock c' = None /\ holds_x p' = None) ->
  (holds_s p = true \/ c_id c' = c_id c /\ (c_active c' = true -> c_active c = true) /\
     (fit c' \/ forall j q, nth_error (m_threads m) j = Some q -> j <> i -> waits q <> Some k)) ->
  knows m' p' -> waits p' = None -> (enters p' <> None -> holds_s p = true) ->
  incl (m_made m) (m_made m') -> m_now m <= m_now m' ->
  (c_id c' = c_id c /\ m_made m' = m_made m \/ exists id, c_id c' = Some id /\ m_made m' = id :: m_made m /\ creating p = Some id) ->
  (creating p' = creating p \/ creating p' = None) -> (m_made m' = m_made m \/ creating p' = None) ->
  (forall e, In e (m_log m') -> In e (m_log m) \/ In (event_id e) (m_made m')) ->
  (forall id, c_id c <> Some id -> In id (m_made m) -> grants (m_log m') id = grants (m_log m) id) -> good m' c' -> Inv m'.
Proof.
  intros V P TH MV C CE LK FR KN WT EN MA NW ID CR CR2 LG GR GD. pose proof V as [V1 V2 V3 V4 V5 V6 V7 V8 V9 V10].
  assert (CC : forall k' d, nth_error (m_cells m') k' = Some d -> (k' = k /\ d = c') \/ (k' <> k /\ nth_error (m_cells m) k' = Some d)).
  { intros k' d D. rewrite CE in D. apply update_cases in D; eauto. }
  assert (CK : nth_error (m_cells m') k = Some c') by (rewrite CE; eapply update_same, C).
  assert (CO : forall k', k' <> k -> nth_error (m_cells m') k' = nth_error (m_cells m) k') by (intros k' NE; rewrite CE; apply update_other, NE).
  assert (TC : forall j q, nth_error (m_threads m') j = Some q -> (j = i /\ q = p') \/ (j <> i /\ nth_error (m_threads m) j = Some q)).
  { intros j q Q. rewrite TH in Q. apply update_cases in Q; eauto. }
  assert (NX : forall j q, nth_error (m_threads m) j = Some q -> j <> i -> holds_x q <> Some k).
  { intros j q Q NE H. destruct LK as [(L & _)|[(L & _)|(L & _)]].
    - apply NE. eapply (one_x m k c j i q p); eassumption.
    - assert (c_lock c = Some j) by (apply (V2 k c j C); eauto). congruence.
    - apply NE. eapply (one_x m k c j i q p); eassumption. }
  assert (NS : holds_s p = true -> forall j q, nth_error (m_threads m) j = Some q -> j <> i -> holds_s q = true -> False).
  { intros H j q Q NE H'. apply NE. eapply (one_s m j i q p); eassumption. }
  assert (FRESH : forall id, c_id c' = Some id -> c_id c' <> c_id c -> ~ In id (m_made m)).
  { intros id E NE. destruct ID as [(I1 & _)|(id0 & I1 & _ & I3)]; [congruence|]. assert (id0 = id) by congruence. subst. eapply V8; eassumption. }
  constructor.
  - eapply s_part; eassumption.
  - intros k' d j D. rewrite TH. apply CC in D. destruct D as [(-> & ->)|(NE & D)].
    + destruct (Nat.eq_dec j i) as [->|NJ].
      * rewrite (update_same _ _ p i P). pose proof (V2 k c i C) as VV. destruct LK as [(L0 & L1 & L2)|[(L0 & L1 & L2 & _)|(L0 & L1 & L2)]]; rewrite L1.
        -- rewrite VV. split; intros (q & Q & H).
           ++ assert (q = p) by congruence. subst. exists p'. split; [reflexivity|congruence].
           ++ assert (q = p') by congruence. subst. exists p. split; [exact P|congruence].
        -- split; [intros _; exists p'; auto|reflexivity].
        -- split; [discriminate|]. intros (q & Q & H). congruence.
      * rewrite update_other by exact NJ. pose proof (V2 k c j C) as VV.
        split; [|intros (q & Q & H); exfalso; eapply NX; eassumption].
        destruct LK as [(L0 & L1 & L2)|[(L0 & L1 & L2 & _)|(L0 & L1 & L2)]]; rewrite L1; [apply VV|congruence|discriminate].
    + rewrite (V2 k' d j D). destruct (Nat.eq_dec j i) as [->|NJ].
      * rewrite (update_same _ _ p i P). destruct LK as [(L0 & L1 & L2)|[(L0 & L1 & L2 & L3)|(L0 & L1 & L2)]]; split; intros (q & Q & H).
        all: first [assert (q = p) by congruence; subst; exists p'|assert (q = p') by congruence; subst; exists p]; split; auto; congruence.
      * rewrite update_other by exact NJ. reflexivity.
  - intros j q Q. destruct (TC j q Q) as [(-> & ->)|(NE & Q')]; [exact KN|]. pose proof (V3 j q Q') as KQ. pose proof (NX j q Q' NE) as NXQ.
    assert (ST : holds_s q = true -> c_id c' = c_id c /\ (c_active c' = true -> c_active c = true) /\ (waits q = Some k -> fit c')).
    { intros H. destruct FR as [FR|(F1 & F2 & F3)]; [exfalso; eapply NS; eassumption|]. repeat split; auto.
      intros W. destruct F3 as [F3|F3]; [exact F3|]. exfalso. eapply F3; eassumption. }
    destruct q; cbn [knows holds_x holds_s waits] in *; unfold chosen in *; try exact KQ;
      try (rewrite CO by congruence; exact KQ);
      try (destruct KQ as (p0 & KQ); exists p0; rewrite CO by congruence; exact KQ);
      destruct (ST eq_refl) as (F1 & F2 & F3).
    + destruct KQ as (JO & d & D & DI & DF). split; [exact JO|]. destruct (Nat.eq_dec k0 k) as [->|NK].
      * assert (d = c) by congruence. subst d. exists c'. repeat split; auto; congruence.
      * rewrite CO by exact NK. eauto.
    + destruct (Nat.eq_dec k0 k) as [->|NK]; [eauto|]. rewrite CO by exact NK. exact KQ.
    + destruct KQ as (d & D & DA). destruct (Nat.eq_dec k0 k) as [->|NK].
      * assert (d = c) by congruence. subst d. exists c'. split; [exact CK|]. destruct (c_active c'); [|reflexivity]. rewrite F2 in DA by reflexivity. discriminate.
      * rewrite CO by exact NK. eauto.
  - intros x y q r kk d X Y NE E W D. destruct (TC y r Y) as [(-> & ->)|(NY & Y')]; [congruence|].
    destruct (TC x q X) as [(-> & ->)|(NX' & X')].
    + exfalso. apply (NS (EN ltac:(congruence)) y r Y' NY). eapply waits_s, W.
    + apply CC in D. destruct D as [(-> & ->)|(NK & D)]; [|eapply (V4 x y q r kk d); eassumption].
      exfalso. apply (NX x q X' NX'). apply enters_x, E.
  - intros k' d id D E. apply CC in D. destruct D as [(-> & ->)|(NE & D)]; [|apply MA; eapply V5; eassumption].
    destruct ID as [(I1 & I2)|(id0 & I1 & I2 & _)].
    + rewrite I2. eapply (V5 k c id C). congruence.
    + rewrite I2. left. congruence.
  - assert (OLD : forall k' d id, k' <> k -> nth_error (m_cells m) k' = Some d -> c_id d = Some id -> c_id c' = Some id -> False).
    { intros k' d id NE D E E'. destruct ID as [(I1 & _)|(id0 & I1 & _ & I3)].
      - apply NE. eapply (V6 k' k d c id); congruence.
      - assert (id0 = id) by congruence. subst. eapply (V8 i p id); [exact P|exact I3|]. eapply V5; eassumption. }
    intros x y d d' id D D' E E'. apply CC in D. apply CC in D'.
    destruct D as [(-> & ->)|(N1 & D)], D' as [(-> & ->)|(N2 & D')]; [reflexivity| | |eapply V6; eassumption]; exfalso; eapply OLD; eassumption.
  - intros e E. destruct (LG e E) as [L|L]; [apply MA; auto|exact L].
  - intros j q id Q E I'. destruct (TC j q Q) as [(-> & ->)|(NE & Q')].
    + destruct CR as [CR|CR]; [|congruence]. destruct CR2 as [CR2|CR2]; [|congruence]. rewrite CR2 in I'. eapply (V8 i p id); congruence.
    + destruct ID as [(_ & I2)|(id0 & I1 & I2 & I3)]; rewrite I2 in I'; [eapply V8; eassumption|].
      destruct I' as [->|I']; [|eapply V8; eassumption]. apply NE. eapply (V9 j i q p id); eassumption.
  - intros x y q r id X Y E F. destruct (TC x q X) as [(-> & ->)|(NX' & X')], (TC y r Y) as [(-> & ->)|(NY & Y')]; [reflexivity| | |eapply V9; eassumption].
    + destruct CR as [CR|CR]; [|congruence]. rewrite CR in E. eapply (V9 i y p r); eassumption.
    + destruct CR as [CR|CR]; [|congruence]. rewrite CR in F. eapply (V9 x i q p); eassumption.
  - intros k' d D. apply CC in D. destruct D as [(-> & ->)|(NE & D)]; [exact GD|]. intros id A E.
    destruct (V10 k' d D id A E) as (G1 & G2).
    rewrite GR; [|intros F; apply NE; eapply (V6 k' k d c id); eassumption|eapply V5; eassumption].
    split; [exact G1|]. eapply Forall_impl; [|exact G2]. cbn. intros; lia.
Qed.

Lemma pick_names me : forall l l', map p_name l = map p_name l' -> pick me l = pick me l'.
Proof.
  induction l as [|p l IH]; intros [|p' l'] E; try discriminate; [reflexivity|]. cbn [map] in E. cbn [pick].
  assert (p_name p = p_name p') as -> by congruence. rewrite (IH l') by congruence. reflexivity.
Qed.
Lemma update_names (l : list perm) : forall n p q, nth_error l n = Some p -> p_name q = p_name p -> map p_name (update l n q) = map p_name l.
Proof.
  induction l as [|x l IH]; intros [|n] p q N E; try discriminate; cbn [update map].
  - assert (x = p) by (cbn in N; congruence). subst. congruence.
  - f_equal. eapply IH; eassumption.
Qed.
Lemma renew_kept now p : p_name (renew now p) = p_name p /\ p_limit (renew now p) = p_limit p /\ p_interval (renew now p) = p_interval p.
Proof. unfold renew. destruct (p_reset p <? now); auto. Qed.
Lemma renew_window now p : 0 <= p_interval p -> p_reset p - p_interval p <= now -> p_reset (renew now p) - p_interval (renew now p) <= now <= p_reset (renew now p).
Proof. intros H L. unfold renew. destruct (Z.ltb_spec (p_reset p) now); cbn [p_reset p_interval]; lia. Qed.
Lemma F2_update {A B} (R : A -> B -> Prop) l g : Forall2 R l g -> forall n p q, nth_error l n = Some p -> (forall z, R p z -> R q z) -> Forall2 R (update l n q) g.
Proof. intros F n p q N H. eapply (Forall2_update R l g F n q p q); auto. Qed.
Lemma Forall_update {A} (P : A -> Prop) l : Forall P l -> forall n q, P q -> Forall P (update l n q).
Proof. induction 1; intros [|n] q Q; cbn [update]; constructor; auto. Qed.

Lemma step_inv m i m' : Inv m -> tstep m i m' -> Inv m'.
Proof.
  intros V ST. pose proof V as [V1 V2 V3 V4 V5 V6 V7 V8 V9 V10].
  destruct ST; match goal with H : nth_error (m_threads m) i = Some ?p |- _ => pose proof (V3 i p H) as KN; rename H into P end; cbn [knows] in KN;
    try match goal with H : nth_error (m_cells m) ?k = Some ?c |- _ => rename H into C; pose proof (V10 k c C) as GD end.
  - eapply inv_same; [exact V|exact P|reflexivity|left; auto|..]; auto; try (cbn; lia). cbn; discriminate.
  - eapply inv_same; [exact V|exact P|reflexivity|right; left|..]; auto; try (cbn; lia). cbn; discriminate.
  - (* find *)
    match goal with H : hit _ _ = true |- _ => unfold hit in H; apply andb_true_iff in H as (HA & HI) end.
    destruct (c_id c) as [id|] eqn:CI; [|discriminate]. apply Nat.eqb_eq in HI. subst id.
    eapply inv_same; [exact V|exact P|reflexivity|left; auto|..]; auto; try (cbn; lia).
    + cbn [knows]. split; [exact KN|]. exists c. repeat split; auto. left. exact HA.
    + cbn [waits]. intros k0 c0 E C0. assert (c0 = c) by congruence. subst. exact HA.
  - eapply inv_same; [exact V|exact P|reflexivity|right; right|..]; auto; try (cbn; lia). cbn; discriminate.
  - (* lock the slot *)
    destruct KN as (JO & d & D & DI & DF). assert (d = c) by congruence. subst d.
    eapply (inv_cell m _ i _ _ k c (locked c (Some i))); [exact V|exact P|reflexivity|left; auto|exact C|reflexivity|right; left; auto|left; reflexivity|..];
      cbn [locked c_id waits enters creating]; auto; try (cbn; lia).
    + cbn [knows]. split; [exact JO|]. unfold with_cell. cbn [m_cells go]. erewrite update_same by exact C. eexists. split; [reflexivity|]. split; [exact DI|].
      destruct DF as [DF|[DF|DF]]; cbn; auto; congruence.
    + intros x X. exact X.
  - eapply inv_same; [exact V|exact P|reflexivity|right; right|..]; auto; try (cbn; lia). cbn; discriminate.
  - (* expired *)
    destruct KN as (JO & d & D & DI & DF). assert (d = c) by congruence. subst d.
    eapply (inv_cell m _ i _ _ k c (locked c None)); [exact V|exact P|reflexivity|left; auto|exact C|reflexivity|right; right; auto|right|..];
      cbn [locked c_id waits enters creating]; auto; try (cbn; lia); try exact I; try congruence.
    + repeat split; auto. left. unfold fit. cbn. tauto.
    + intros x X. exact X.
    + intros id' A E. destruct (GD id' A E) as (G1 & G2). split; [exact G1|]. eapply Forall_impl; [|exact G2]. cbn. intros; lia.
  - (* no permission *)
    destruct KN as (JO & d & D & DI & DF). assert (d = c) by congruence. subst d.
    eapply (inv_cell m _ i _ _ k c (locked c None)); [exact V|exact P|reflexivity|left; auto|exact C|reflexivity|right; right; auto|right|..];
      cbn [locked c_id waits enters creating]; auto; try (cbn; lia); try exact I; try congruence.
    + repeat split; auto. left. unfold fit. cbn. tauto.
    + intros x X. exact X.
    + intros id' A E. destruct (GD id' A E) as (G1 & G2). split; [exact G1|]. eapply Forall_impl; [|exact G2]. cbn. intros; lia.
  - (* look *)
    destruct KN as (JO & d & D & DI & DF). assert (d = c) by congruence. subst d. cbn [job_id job_ok] in *.
    rename H1 into E1, H2 into E2, H3 into PK, H4 into NP.
    assert (AC : c_active c = true) by (destruct DF as [DF|DF]; [exact DF|rewrite DF in NP; destruct n; discriminate]).
    destruct (GD id AC DI) as (G1 & G2). destruct (renew_kept now p) as (R1 & R2 & R3).
    assert (PR : p_reset p - p_interval p <= m_now m) by (exact (proj1 (Forall_forall _ _) G2 p (nth_error_In _ _ NP))).
    destruct (Forall2_nth _ _ _ G1 n p NP) as (g & GN & (_ & _ & _ & _ & PI)).
    pose proof (renew_window now p ltac:(lia) ltac:(lia)) as RW.
    eapply (inv_cell m _ i _ _ k c (perms_set c (update (c_perms c) n (renew now p)) (c_lock c)));
      [exact V|exact P|reflexivity|left; auto|exact C|reflexivity|left; auto|right|..];
      cbn [perms_set c_id waits enters creating]; auto; try (cbn; lia); try congruence.
    + repeat split; auto. left. left. exact AC.
    + cbn [knows]. exists (renew now p). unfold chosen, at_time, with_cell. cbn [m_cells go]. erewrite update_same by exact C.
      eexists. split; [reflexivity|]. cbn [perms_set c_id c_active c_perms]. split; [exact DI|]. split; [exact AC|].
      split; [eapply update_same, NP|]. split; [|split; [exact RW|exact JO]].
      rewrite <- PK. apply pick_names. eapply update_names; eassumption.
    + intros x X. exact X.
    + intros id' _ E. assert (id' = id) by (cbn in E; congruence). subst id'. cbn [perms_set c_perms at_time with_cell go m_log m_now]. split.
      * eapply F2_update; [exact G1|exact NP|]. intros z (Z1 & Z2 & Z3 & Z4 & Z5). unfold granted_as. rewrite R1, R2, R3. auto.
      * apply Forall_update; [|lia]. eapply Forall_impl; [|exact G2]. cbn. intros; lia.
  - (* refused *)
    destruct KN as (p0 & d & D & DI & DA & DN & DP & DW & DJ). assert (d = c) by congruence. subst d.
    eapply (inv_cell m _ i _ _ k c (locked c None)); [exact V|exact P|reflexivity|left; auto|exact C|reflexivity|right; right; auto|right|..];
      cbn [locked c_id waits enters creating]; auto; try (cbn; lia); try exact I; try congruence.
    + repeat split; auto. left. left. exact DA.
    + intros x X. exact X.
    + intros e [<-|E]; [right; cbn [event_id]; eapply V5; eassumption|left; exact E].
  - (* within *)
    destruct KN as (p0 & d & D & DI & DA & DN & DP & DW & DJ). assert (d = c) by congruence. subst d. assert (p0 = p) by congruence. subst p0.
    eapply inv_same; [exact V|exact P|reflexivity|left; auto|..]; auto; try (cbn; lia); [|cbn; discriminate].
    cbn [knows]. exists p. split; [exists c; repeat split; auto; lia|]. split; auto.
  - (* charge *)
    destruct KN as (p0 & (d & D & DI & DA & DN & DP & DW & DJ) & DU & DV). assert (d = c) by congruence. subst d. assert (p0 = p) by congruence. subst p0.
    destruct (GD id DA DI) as (G1 & G2).
    assert (PR : p_reset p - p_interval p <= m_now m) by (exact (proj1 (Forall_forall _ _) G2 p (nth_error_In _ _ DN))).
    eapply (inv_cell m _ i _ _ k c (perms_set c (update (c_perms c) n (charge p u a)) None));
      [exact V|exact P|reflexivity|left; auto|exact C|reflexivity|right; right; auto|right|..];
      cbn [perms_set c_id waits enters creating]; auto; try (cbn; lia); try exact I; try congruence.
    + repeat split; auto. left. left. exact DA.
    + intros x X. exact X.
    + intros e [<-|E]; [right; cbn [event_id]; eapply V5; eassumption|left; exact E].
    + intros id' _ E. assert (id' = id) by (cbn in E; congruence). subst id'. cbn [perms_set c_perms tell with_cell go m_log m_now grants]. split.
      * eapply F2_update; [exact G1|exact DN|]. intros z Z. exact Z.
      * apply Forall_update; [exact G2|]. exact PR.
  - (* add *)
    destruct KN as (JO & d & D & DI & DF). assert (d = c) by congruence. subst d. cbn [job_id job_ok] in *.
    eapply (inv_cell m _ i _ _ k c _); [exact V|exact P|reflexivity|left; auto|exact C|reflexivity|right; right; auto|right|..];
      cbn [perms_set c_id waits enters creating]; auto; try (cbn; lia); try exact I; try congruence.
    + repeat split; auto. destruct (c_active c) eqn:AC; [left; left; exact AC|right]. intros j q Q NE W.
      pose proof (V4 i j _ q k c P Q ltac:(congruence) eq_refl W C). congruence.
    + intros x X. exact X.
    + intros e [<-|E]; [right; cbn [event_id]; eapply V5; eassumption|left; exact E].
    + intros id' NE _. cbn [tell at_time with_cell go m_log grants]. destruct (Nat.eqb_spec id id') as [->|NI]; [congruence|reflexivity].
    + intros id' A E. assert (id' = id) by (cbn in E; congruence). subst id'. cbn [perms_set c_active] in A. destruct (GD id A DI) as (G1 & G2).
      cbn [perms_set c_perms tell at_time with_cell go m_log m_now grants]. rewrite Nat.eqb_refl. split.
      * apply Forall2_app; [exact G1|]. constructor; [|constructor]. repeat split; cbn; lia.
      * apply Forall_app. split; [eapply Forall_impl; [|exact G2]; cbn; intros; lia|]. constructor; [cbn; lia|constructor].
  - (* add refused *)
    destruct KN as (JO & d & D & DI & DF). assert (d = c) by congruence. subst d.
    eapply (inv_cell m _ i _ _ k c (locked c None)); [exact V|exact P|reflexivity|left; auto|exact C|reflexivity|right; right; auto|right|..];
      cbn [locked c_id waits enters creating]; auto; try (cbn; lia); try exact I; try congruence.
    + repeat split; auto. left. unfold fit. cbn. tauto.
    + intros x X. exact X.
  - (* extend *)
    destruct KN as (JO & d & D & DI & DF). assert (d = c) by congruence. subst d.
    eapply (inv_cell m _ i _ _ k c _); [exact V|exact P|reflexivity|left; auto|exact C|reflexivity|right; right; auto|right|..];
      cbn [c_id waits enters creating]; auto; try (cbn; lia); try exact I; try congruence.
    + repeat split; auto. left. unfold fit. cbn. tauto.
    + intros x X. exact X.
  - (* destroy *)
    destruct KN as (JO & d & D & DI & DF). assert (d = c) by congruence. subst d.
    eapply (inv_cell m _ i _ _ k c _); [exact V|exact P|reflexivity|left; auto|exact C|reflexivity|left; auto|right|..];
      cbn [c_id waits enters creating]; auto; try (cbn; lia); try exact I; try congruence.
    + repeat split; auto; try discriminate. left. right. right. cbn [c_lock]. rewrite (proj2 (V2 k c i C)); [discriminate|]. eexists. split; [exact P|reflexivity].
    + cbn [knows]. unfold with_cell. cbn [m_cells go]. erewrite update_same by exact C. eexists. split; reflexivity.
    + intros x X. exact X.
    + intros id' A. discriminate A.
  - (* release *)
    destruct KN as (d & D & DA). assert (d = c) by congruence. subst d.
    eapply (inv_cell m _ i _ _ k c _); [exact V|exact P|reflexivity|left; auto|exact C|reflexivity|right; right; auto|right|..];
      cbn [perms_set c_id waits enters creating]; auto; try (cbn; lia); try exact I; try congruence.
    + repeat split; auto. left. right. left. reflexivity.
    + intros x X. exact X.
    + intros id' A. cbn in A. congruence.
  - eapply inv_same; [exact V|exact P|reflexivity|left; auto|..]; auto; try (cbn; lia); [cbn; discriminate|].
    right. right. intros id' E. assert (id' = id) by (cbn in E; congruence). subst. auto.
  - eapply inv_same; [exact V|exact P|reflexivity|right; left; auto|..]; auto; try (cbn; lia). cbn; discriminate.
  - eapply inv_same; [exact V|exact P|reflexivity|left; auto|..]; auto; try (cbn; lia); [cbn [knows]; eauto|cbn; discriminate].
  - (* lock to clean *)
    eapply (inv_cell m _ i _ _ k c (locked c (Some i))); [exact V|exact P|reflexivity|left; auto|exact C|reflexivity|right; left; auto|left; reflexivity|..];
      cbn [locked c_id waits enters creating]; auto; try (cbn; lia).
    + cbn [knows]. unfold with_cell. cbn [m_cells go]. erewrite update_same by exact C. eexists. reflexivity.
    + intros x X. exact X.
  - (* cleaned *)
    eapply (inv_cell m _ i _ _ k c _); [exact V|exact P|reflexivity|left; auto|exact C|reflexivity|right; right; auto|left; reflexivity|..];
      cbn [c_id waits enters creating]; auto; try (cbn; lia); try exact I.
    + intros x X. exact X.
    + intros id' A. discriminate A.
  - eapply inv_same; [exact V|exact P|reflexivity|right; right; auto|..]; auto; try (cbn; lia). cbn; discriminate.
  - eapply inv_same; [exact V|exact P|reflexivity|left; auto|..]; auto; try (cbn; lia); [cbn [knows]; eauto|cbn; discriminate].
  - (* lock to fill *)
    destruct KN as (d & D & DA). assert (d = c) by congruence. subst d.
    eapply (inv_cell m _ i _ _ k c (locked c (Some i))); [exact V|exact P|reflexivity|left; auto|exact C|reflexivity|right; left; auto|left; reflexivity|..];
      cbn [locked c_id waits enters creating]; auto; try (cbn; lia).
    + cbn [knows]. unfold with_cell. cbn [m_cells go]. erewrite update_same by exact C. eexists. split; [reflexivity|exact DA].
    + intros x X. exact X.
  - (* fill *)
    eapply (inv_cell m _ i _ _ k c _); [exact V|exact P|reflexivity|right; right; auto|exact C|reflexivity|right; right; auto|left; reflexivity|..];
      cbn [c_id waits enters creating]; auto; try (cbn; lia); try exact I.
    + intros x X. right. exact X.
    + right. exists id. auto.
    + intros id' A E. assert (id' = id) by (cbn in E; congruence). subst id'. cbn [c_perms]. split; [|constructor].
      cbn [name_id with_s with_cell go m_log].
      assert (G0 : forall l, (forall x, In x l -> In (event_id x) (m_made m)) -> grants l id = []).
      { induction l as [|x l IH]; intros H; [reflexivity|]. destruct x; cbn [grants]; try (apply IH; intros; apply H; right; assumption).
        destruct (Nat.eqb_spec id0 id) as [->|_]; [|apply IH; intros; apply H; right; assumption].
        exfalso. apply (V8 i _ id P eq_refl). apply (H _ (or_introl eq_refl)). }
      rewrite G0 by exact V7. constructor.
Qed.
Lemma reach_inv a b t m : reach a b t m -> Inv m.
Proof. induction 1; [apply start_inv|eapply step_inv; eassumption]. Qed.

(** ** Accounts *)
(** The slots as the accounts see them: live sessions with their permissions. *)
Definition live (m : sys) (k id : nat) (ps : list perm) : Prop :=
  exists c, nth_error (m_cells m) k = Some c /\ c_active c = true /\ c_id c = Some id /\ c_perms c = ps.
Definition quiet (m m' : sys) : Prop :=
  m_log m' = m_log m /\ forall k id ps, live m' k id ps -> live m k id ps \/ ps = [].
(** One session's permissions change. *)
Definition touched (m m' : sys) (id : nat) (ps ps' : list perm) : Prop :=
  exists k, live m k id ps /\ forall k' id' qs, live m' k' id' qs -> (k' = k /\ id' = id /\ qs = ps') \/ (id' <> id /\ live m k' id' qs).

Lemma quiet_cells m m' : m_log m' = m_log m -> m_cells m' = m_cells m -> quiet m m'.
Proof. intros L C. split; [exact L|]. intros k id ps (c & E & H). left. exists c. rewrite <- C. auto. Qed.
Lemma quiet_cell m m' k c c' : m_log m' = m_log m -> m_cells m' = update (m_cells m) k c' -> nth_error (m_cells m) k = Some c ->
  (c_active c' = true -> c_perms c' = [] \/ c_active c = true /\ c_id c' = c_id c /\ c_perms c' = c_perms c) -> quiet m m'.
Proof.
  intros L CE C H. split; [exact L|]. intros k' id ps (d & D & A & I' & PS). rewrite CE in D. apply update_cases in D; [|eauto].
  destruct D as [(-> & ->)|(NE & D)]; [|left; exists d; auto]. destruct (H A) as [E|(E1 & E2 & E3)]; [right; congruence|left].
  exists c. repeat split; congruence.
Qed.
Lemma touched_cell m m' k c c' id ps' : Inv m -> m_cells m' = update (m_cells m) k c' -> nth_error (m_cells m) k = Some c ->
  c_active c = true -> c_id c = Some id -> c_id c' = Some id -> c_perms c' = ps' -> touched m m' id (c_perms c) ps'.
Proof.
  intros V CE C A I1 I2 <-. exists k. split; [exists c; auto|]. intros k' id' qs (d & D & DA & DI & DP). rewrite CE in D. apply update_cases in D; [|eauto].
  destruct D as [(-> & ->)|(NE & D)]; [left; repeat split; congruence|right]. split; [|exists d; auto].
  intros ->. apply NE. eapply (i_uniq m V k' k d c id); eassumption.
Qed.

(** Each step is quiet, or grants, or renews, or authorises. *)
Inductive effect (m m' : sys) : Prop :=
| FQuiet : quiet m m' -> effect m m'
| FDeny id n me a now p ps : m_log m' = EDeny id n me a now (p_reset p) :: m_log m -> (forall k i qs, live m' k i qs -> live m k i qs) ->
    (exists k, live m k id ps) -> nth_error ps n = Some p -> pick me ps = Some n -> p_reset p - p_interval p <= now <= p_reset p -> over p a = true ->
    0 <= a < 2 ^ 64 -> effect m m'
| FRenew id n now p ps : m_log m' = m_log m -> nth_error ps n = Some p -> m_now m <= now -> touched m m' id ps (update ps n (renew now p)) -> effect m m'
| FCharge id n me a now p ps : m_log m' = ECharge id n me a now (p_reset p) :: m_log m -> nth_error ps n = Some p -> pick me ps = Some n ->
    p_reset p - p_interval p <= now <= p_reset p -> 0 <= a < 2 ^ 64 -> over p a = false ->
    touched m m' id ps (update ps n (charge p (p_used p) a)) -> effect m m'
| FGrant id name limit interval now ps : m_log m' = EGrant id name limit interval :: m_log m -> 0 <= limit < 2 ^ 64 -> 0 <= interval < 2 ^ 32 ->
    touched m m' id ps (ps ++ [mkPerm (Some name) limit (now + interval) interval 0]) -> effect m m'
| FLate id name limit interval : m_log m' = EGrant id name limit interval :: m_log m -> 0 <= limit < 2 ^ 64 -> 0 <= interval < 2 ^ 32 ->
    (forall k i qs, live m' k i qs -> i <> id /\ live m k i qs) -> effect m m'.

Lemma step_effect m i m' : Inv m -> tstep m i m' -> effect m m'.
Proof.
  intros V ST. pose proof (i_k m V) as V3.
  destruct ST; match goal with H : nth_error (m_threads m) i = Some ?p |- _ => pose proof (V3 i p H) as KN; rename H into P end; cbn [knows] in KN;
    try match goal with H : nth_error (m_cells m) ?k = Some ?c |- _ => rename H into C end;
    try solve [apply FQuiet, quiet_cells; reflexivity];
    try solve [apply FQuiet; eapply (quiet_cell m _ k c); [reflexivity|reflexivity|exact C|cbn; auto]].
  - (* look *)
    destruct KN as (JO & d & D & DI & DF). assert (d = c) by congruence. subst d. cbn [job_id job_ok] in *.
    assert (AC : c_active c = true) by (destruct DF as [DF|DF]; [exact DF|match goal with H : nth_error (c_perms c) n = Some p |- _ => rewrite DF in H; destruct n; discriminate end]).
    eapply (FRenew m _ id n now p (c_perms c)); [reflexivity|assumption|assumption|]. eapply touched_cell; [exact V|reflexivity|exact C|exact AC|exact DI|exact DI|reflexivity].
  - (* refused *)
    destruct KN as (p0 & d & D & DI & DA & DN & DP & DW & DJ). assert (d = c) by congruence. subst d. assert (p0 = p) by congruence. subst p0.
    eapply (FDeny m _ id n me a now p (c_perms c)); auto; [|exists k, c; auto].
    intros k' i' qs (d & D' & A & I' & PS). cbn [tell with_cell go m_cells] in D'. apply update_cases in D'; [|eauto].
    destruct D' as [(-> & ->)|(NE & D')]; [exists c; cbn in *; auto|exists d; auto].
  - (* charge *)
    destruct KN as (p0 & (d & D & DI & DA & DN & DP & DW & DJ) & DU & DV). assert (d = c) by congruence. subst d. assert (p0 = p) by congruence. subst p0.
    subst u. eapply (FCharge m _ id n me a now p (c_perms c)); auto. eapply touched_cell; [exact V|reflexivity|exact C|exact DA|exact DI|exact DI|reflexivity].
  - (* add *)
    destruct KN as (JO & d & D & DI & DF). assert (d = c) by congruence. subst d. cbn [job_id job_ok] in *.
    destruct (c_active c) eqn:AC.
    + eapply (FGrant m _ id name limit interval now (c_perms c)); [reflexivity|tauto|tauto|]. eapply touched_cell; [exact V|reflexivity|exact C|exact AC|exact DI|exact DI|reflexivity].
    + eapply FLate; [reflexivity|tauto|tauto|]. intros k' i' qs (d & D' & A & I' & PS). cbn [tell at_time with_cell go m_cells] in D'. apply update_cases in D'; [|eauto].
      destruct D' as [(-> & ->)|(NE & D')]; [cbn in A; congruence|]. split; [|exists d; auto]. intros ->. apply NE. eapply (i_uniq m V k' k d c id); eassumption.
  - (* destroy *)
    apply FQuiet. eapply (quiet_cell m _ k c); [reflexivity|reflexivity|exact C|]. cbn. discriminate.
Qed.

Lemma live_good m k id ps : Inv m -> live m k id ps -> Forall2 granted_as ps (grants (m_log m) id).
Proof. intros V (c & C & A & I' & <-). apply (i_good m V k c C id A I'). Qed.
Lemma live_one m j k id ps qs : Inv m -> live m j id ps -> live m k id qs -> ps = qs.
Proof. intros V (c & C & A & I' & <-) (d & D & B & J & <-). assert (j = k) by (eapply (i_uniq m V j k c d id); eassumption). subst. congruence. Qed.

Lemma pick_spec me : forall ps gs n, Forall2 granted_as ps gs -> pick me ps = Some n ->
  exists name limit interval, nth_error gs n = Some (name, limit, interval) /\ (name = me \/ name = bs "*") /\
  forall j n' l' i', (j < n)%nat -> nth_error gs j = Some (n', l', i') -> n' <> me /\ n' <> bs "*".
Proof.
  induction ps as [|p ps IH]; intros gs n F E; cbn [pick] in E; [discriminate|]. inversion F as [|? ((name, limit), interval) ? gs' (R1 & R2 & R3 & _) F']; subst.
  cbn [fst snd] in *. rewrite R1 in E. destruct (beq name me || beq name (bs "*")) eqn:B.
  - assert (n = 0%nat) by congruence. subst. exists name; do 2 eexists. split; [reflexivity|]. split; [|intros; lia].
    apply orb_true_iff in B as [B|B]; apply beq_eq in B; auto.
  - destruct (pick me ps) as [n0|] eqn:PK; [|discriminate]. cbn [option_map] in E. assert (n = S n0) by congruence. subst n.
    destruct (IH gs' n0 F' eq_refl) as (nm & l & iv & N & M & O). exists nm, l, iv. split; [exact N|]. split; [exact M|].
    intros [|j] n' l' i' LT NJ; [|apply (O j n' l' i'); [lia|exact NJ]]. cbn [nth_error] in NJ. assert (n' = name) by congruence. subst.
    apply orb_false_iff in B as (B1 & B2). split; intros ->; rewrite beq_refl in *; discriminate.
Qed.

(** What every answer about an amount refers to. *)
Definition matches (gs : list (list N * Z * Z)) (n : nat) (me : list N) : Prop :=
  exists name limit interval, nth_error gs n = Some (name, limit, interval) /\ (name = me \/ name = bs "*") /\
  forall j n' l' i', (j < n)%nat -> nth_error gs j = Some (n', l', i') -> n' <> me /\ n' <> bs "*".
Lemma matches_app gs g n me : matches gs n me -> matches (gs ++ [g]) n me.
Proof.
  intros (nm & l & iv & N & M & O). assert (n < length gs)%nat by (apply nth_error_Some; congruence).
  exists nm, l, iv. rewrite nth_error_app1 by assumption. split; [exact N|]. split; [exact M|]. intros j n' l' i' LT. rewrite nth_error_app1 by lia. apply (O j n' l' i' LT).
Qed.
Lemma grants_mono l id : forall g n, nth_error (grants l id) n = Some g -> forall e, nth_error (grants (e :: l) id) n = Some g.
Proof.
  intros g n N e. destruct e; cbn [grants]; try exact N. destruct (id0 =? id)%nat; [|exact N].
  rewrite nth_error_app1; [exact N|]. apply nth_error_Some. congruence.
Qed.
Definition gap (iv w w' : Z) : Prop := w = w' \/ w + iv < w' \/ w' + iv < w.
Record Gap (m : sys) : Prop := {
  g_fact : forall id n me a now w, In (ECharge id n me a now w) (m_log m) -> 0 <= a < 2 ^ 64 /\ matches (grants (m_log m) id) n me /\
    forall g, nth_error (grants (m_log m) id) n = Some g -> 0 <= snd g /\ w - snd g <= now <= w;
  g_live : forall k id ps n p, live m k id ps -> nth_error ps n = Some p -> forall me a now w, In (ECharge id n me a now w) (m_log m) ->
    w = p_reset p \/ w + p_interval p < p_reset p;
  g_gap : forall id n g me a now w me' a' now' w', nth_error (grants (m_log m) id) n = Some g ->
    In (ECharge id n me a now w) (m_log m) -> In (ECharge id n me' a' now' w') (m_log m) -> gap (snd g) w w' }.

Lemma grant_gap m e id name limit interval : Gap m -> e = EGrant id name limit interval ->
  (forall id0 n me a now w, In (ECharge id0 n me a now w) (e :: m_log m) -> 0 <= a < 2 ^ 64 /\ matches (grants (e :: m_log m) id0) n me /\
    forall g, nth_error (grants (e :: m_log m) id0) n = Some g -> 0 <= snd g /\ w - snd g <= now <= w) /\
  (forall id0 n g me a now w me' a' now' w', nth_error (grants (e :: m_log m) id0) n = Some g ->
    In (ECharge id0 n me a now w) (e :: m_log m) -> In (ECharge id0 n me' a' now' w') (e :: m_log m) -> gap (snd g) w w').
Proof.
  intros [G1 G2 G3] ->.
  assert (OLD : forall id0 n me a now w g, In (ECharge id0 n me a now w) (m_log m) ->
     nth_error (grants (EGrant id name limit interval :: m_log m) id0) n = Some g -> nth_error (grants (m_log m) id0) n = Some g).
  { intros id0 n me a now w g I' N. destruct (G1 _ _ _ _ _ _ I') as (_ & (nm & l & iv & M & _) & _). pose proof (grants_mono _ _ _ _ M (EGrant id name limit interval)). congruence. }
  split.
  - intros id0 n me a now w [E|I']; [discriminate|]. destruct (G1 _ _ _ _ _ _ I') as (A & M & F). split; [exact A|]. split.
    + cbn [grants]. destruct (id =? id0)%nat; [apply matches_app|]; exact M.
    + intros g N. apply F. eapply OLD; eassumption.
  - intros id0 n g me a now w me' a' now' w' N [E|I1] [E'|I2]; try discriminate. eapply G3; [|exact I1|exact I2]. eapply OLD; eassumption.
Qed.
Lemma step_gap m i m' : Inv m -> Gap m -> tstep m i m' -> Gap m'.
Proof.
  intros V G ST. pose proof G as [G1 G2 G3]. pose proof (step_effect m i m' V ST) as F. destruct F as [(L & Q)|id n me a now p ps L Q (k0 & K) N PK W O A|id n now p ps L N LE (k & K & T)|id n me a now p ps L N PK W A O (k & K & T)|id name limit interval now ps L H1 H2 (k & K & T)|id name limit interval L H1 H2 T].
  - constructor; rewrite L; auto. intros k id ps n p LV N. destruct (Q k id ps LV) as [LV'| ->]; [eapply G2; eassumption|destruct n; discriminate].
  - constructor; rewrite L; cbn [grants].
    + intros id0 n0 me0 a0 now0 w0 [E|I']; [discriminate|]. eapply G1, I'.
    + intros k id0 qs n0 p0 LV N0 me0 a0 now0 w0 [E|I']; [discriminate|]. eapply G2; [apply Q, LV|exact N0|exact I'].
    + intros id0 n0 g me0 a0 now0 w0 me' a' now' w' NG [E|I1] [E'|I2]; try discriminate. eapply G3; eassumption.
  - constructor; rewrite L; auto. intros k' id' qs n0 p0 LV N0 me0 a0 now0 w0 I'. destruct (T k' id' qs LV) as [(-> & -> & ->)|(NE & LV')]; [|eapply G2; eassumption].
    apply update_cases in N0; [|eauto]. destruct N0 as [(-> & ->)|(NE & N0)]; [|eapply (G2 k id ps n0 p0); eassumption].
    pose proof (G2 k id ps n p K N me0 a0 now0 w0 I') as B. destruct (renew_kept now p) as (_ & _ & R3). rewrite R3.
    destruct (Forall2_nth _ _ _ (live_good m k id ps V K) n p N) as (g & _ & (_ & _ & _ & _ & PI)).
    unfold renew. destruct (Z.ltb_spec (p_reset p) now); cbn [p_reset]; [right|exact B]. destruct B; lia.
  - pose proof (live_good m k id ps V K) as GG. destruct (Forall2_nth _ _ _ GG n p N) as (g & NG & (R1 & R2 & R3 & R4 & R5)).
    constructor; rewrite L; cbn [grants].
    + intros id0 n0 me0 a0 now0 w0 [E|I']; [|eapply G1, I'].
      assert (id0 = id /\ n0 = n /\ me0 = me /\ a0 = a /\ now0 = now /\ w0 = p_reset p) as (-> & -> & -> & -> & -> & ->) by (repeat split; congruence).
      split; [exact A|]. split; [eapply pick_spec; eassumption|]. intros g0 N0. assert (g0 = g) by congruence. subst. rewrite <- R3. lia.
    + intros k' id' qs n0 p0 LV N0 me0 a0 now0 w0 I'. destruct (T k' id' qs LV) as [(-> & -> & ->)|(NE & LV')].
      * apply update_cases in N0; [|eauto]. destruct N0 as [(-> & ->)|(NE & N0)].
        -- cbn [charge p_reset p_interval]. destruct I' as [E|I']; [left; congruence|]. eapply (G2 k id ps n p); eassumption.
        -- destruct I' as [E|I']; [congruence|]. eapply (G2 k id ps n0 p0); eassumption.
      * destruct I' as [E|I']; [congruence|]. eapply (G2 k' id' qs); eassumption.
    + assert (NEW : forall me0 a0 now0 w0, In (ECharge id n me0 a0 now0 w0) (m_log m) -> forall g0, nth_error (grants (m_log m) id) n = Some g0 -> gap (snd g0) w0 (p_reset p)).
      { intros me0 a0 now0 w0 I' g0 N0. assert (g0 = g) by congruence. subst. rewrite <- R3. destruct (G2 k id ps n p K N me0 a0 now0 w0 I'); [left|right; left]; assumption. }
      intros id0 n0 g0 me0 a0 now0 w0 me' a' now' w' N0 [E|I1] [E'|I2].
      * left. congruence.
      * assert (id0 = id /\ n0 = n /\ w0 = p_reset p) as (-> & -> & ->) by (repeat split; congruence).
        destruct (NEW _ _ _ _ I2 _ N0) as [X|[X|X]]; [left; auto|right; right; exact X|right; left; exact X].
      * assert (id0 = id /\ n0 = n /\ w' = p_reset p) as (-> & -> & ->) by (repeat split; congruence). eapply NEW; eassumption.
      * eapply G3; eassumption.
  - destruct (grant_gap m _ id name limit interval G eq_refl) as (B1 & B3). constructor; rewrite L; [exact B1| |exact B3].
    intros k' id' qs n0 p0 LV N0 me0 a0 now0 w0 [E|I']; [discriminate|]. destruct (T k' id' qs LV) as [(-> & -> & ->)|(NE & LV')]; [|eapply (G2 k' id' qs); eassumption].
    pose proof (F2_length _ _ _ (live_good m k id ps V K)) as LEN. destruct (G1 _ _ _ _ _ _ I') as (_ & (nm & l & iv & M & _) & _).
    assert (n0 < length ps)%nat by (rewrite LEN; apply nth_error_Some; congruence). rewrite nth_error_app1 in N0 by assumption. eapply (G2 k id ps); eassumption.
  - destruct (grant_gap m _ id name limit interval G eq_refl) as (B1 & B3). constructor; rewrite L; [exact B1| |exact B3].
    intros k' id' qs n0 p0 LV N0 me0 a0 now0 w0 [E|I']; [discriminate|]. destruct (T k' id' qs LV) as (NE & LV'). eapply (G2 k' id' qs); eassumption.
Qed.
Lemma start_gap a b t : Gap (start a b t).
Proof.
  constructor; [intros ? ? ? ? ? ? []| |intros ? ? ? ? ? ? ? ? ? ? ? ? []].
  intros k id ps n p _ _ ? ? ? ? [].
Qed.
Lemma reach_gap a b t m : reach a b t m -> Gap m.
Proof. induction 1; [apply start_gap|eapply step_gap; [eapply reach_inv| |]; eassumption]. Qed.

Lemma no_wrap_older e l : no_wrap (e :: l) -> no_wrap l.
Proof. intros H id n me a now w id' name limit interval I1 I2. eapply H; right; eassumption. Qed.
Lemma grants_in l id : forall n g, nth_error (grants l id) n = Some g -> exists name limit interval, g = (name, limit, interval) /\ In (EGrant id name limit interval) l.
Proof.
  induction l as [|e l IH]; intros n g N; [destruct n; discriminate|].
  assert (OLD : forall k, nth_error (grants l id) k = Some g -> exists name limit interval, g = (name, limit, interval) /\ In (EGrant id name limit interval) (e :: l)).
  { intros k K. destruct (IH k g K) as (nm & li & iv & E & I'). exists nm, li, iv. split; [exact E|right; exact I']. }
  destruct e; cbn [grants] in N; try (eapply OLD; exact N). destruct (Nat.eqb_spec id0 id) as [->|NE]; [|eapply OLD; exact N].
  destruct (lt_dec n (length (grants l id))) as [LT|GE]; [rewrite nth_error_app1 in N by exact LT; eapply OLD; exact N|].
  rewrite nth_error_app2 in N by lia. destruct (n - length (grants l id))%nat as [|k]; [|destruct k; discriminate]. cbn in N.
  exists name, limit, interval. split; [congruence|left; reflexivity].
Qed.
(** Refusals for want of funds were due. *)
Fixpoint due (l : list event) : Prop :=
  match l with
  | [] => True
  | EDeny id n me a now w :: t =>
    matches (grants t id) n me /\ (forall name limit interval, nth_error (grants t id) n = Some (name, limit, interval) -> 0 < limit < spent t id n w + a) /\ due t
  | _ :: t => due t
  end.
Record Acc (m : sys) : Prop := {
  a_live : forall k id ps n p, live m k id ps -> nth_error ps n = Some p -> 0 < p_limit p ->
    0 <= p_used p <= p_limit p /\ p_used p = spent (m_log m) id n (p_reset p) /\ forall e, p_reset p < e -> spent (m_log m) id n e = 0;
  a_none : forall id n e, (length (grants (m_log m) id) <= n)%nat -> spent (m_log m) id n e = 0;
  a_bound : forall id n g, nth_error (grants (m_log m) id) n = Some g -> 0 < snd (fst g) -> forall e, spent (m_log m) id n e <= snd (fst g);
  a_due : due (m_log m) }.

Lemma grant_acc m id name limit interval l : Acc m -> l = EGrant id name limit interval :: m_log m ->
  (forall i n e, (length (grants l i) <= n)%nat -> spent l i n e = 0) /\
  (forall i n g, nth_error (grants l i) n = Some g -> 0 < snd (fst g) -> forall e, spent l i n e <= snd (fst g)) /\ due l.
Proof.
  intros [A1 A2 A3 A4] ->. cbn [grants spent due]. split; [|split; [|exact A4]].
  - intros i n e. destruct (id =? i)%nat; [rewrite app_length; cbn [length]|]; intros L; apply A2; lia.
  - intros i n g N L e. destruct (id =? i)%nat eqn:B; [|eapply A3; eassumption].
    destruct (lt_dec n (length (grants (m_log m) i))) as [LT|GE]; [rewrite nth_error_app1 in N by exact LT; eapply A3; eassumption|]. rewrite A2 by lia. lia.
Qed.
Lemma step_acc m i m' : Inv m -> Acc m -> tstep m i m' -> no_wrap (m_log m') -> Acc m'.
Proof.
  intros V G ST NW. pose proof G as [A1 A2 A3 A4]. pose proof (step_effect m i m' V ST) as F.
  destruct F as [(L & Q)|id n me a now p ps L Q (k0 & K) N PK W O A|id n now p ps L N LE (k & K & T)|id n me a now p ps L N PK W A O (k & K & T)|id name limit interval now ps L H1 H2 (k & K & T)|id name limit interval L H1 H2 T].
  - constructor; rewrite L; auto. intros k id ps n p LV N. destruct (Q k id ps LV) as [LV'| ->]; [eapply A1; eassumption|destruct n; discriminate].
  - constructor; rewrite L; cbn [grants spent due]; auto.
    + intros k id0 qs n0 p0 LV. apply (A1 k id0 qs n0 p0), Q, LV.
    + pose proof (live_good m k0 id ps V K) as GG. split; [eapply pick_spec; eassumption|]. split; [|exact A4].
      intros name limit interval NG. destruct (Forall2_nth _ _ _ GG n p N) as (g & NG' & (R1 & R2 & R3 & R4 & R5)).
      assert (g = (name, limit, interval)) by congruence. subst g. cbn [fst snd] in *. unfold over in O. apply andb_true_iff in O as (O1 & O2).
      apply Z.ltb_lt in O1, O2. destruct (A1 k0 id ps n p K N O1) as (B1 & B2 & _). rewrite <- B2, <- R2.
      assert (u64 (p_used p + a) <= p_used p + a) by (unfold u64; apply Z.mod_le; lia). lia.
  - constructor; rewrite L; auto. intros k' id' qs n0 p0 LV N0 L0. destruct (T k' id' qs LV) as [(-> & -> & ->)|(NE & LV')]; [|eapply A1; eassumption].
    apply update_cases in N0; [|eauto]. destruct N0 as [(-> & ->)|(NE & N0)]; [|eapply (A1 k id ps n0 p0); eassumption].
    destruct (renew_kept now p) as (_ & R2 & _). rewrite R2 in *. destruct (A1 k id ps n p K N L0) as (B1 & B2 & B3).
    destruct (Forall2_nth _ _ _ (live_good m k id ps V K) n p N) as (g & _ & (_ & _ & _ & _ & PI)).
    unfold renew. destruct (Z.ltb_spec (p_reset p) now); [|auto]. cbn [p_used p_reset].
    split; [lia|]. split; [rewrite B3 by lia; reflexivity|]. intros e LT. apply B3. lia.
  - pose proof (live_good m k id ps V K) as GG. destruct (Forall2_nth _ _ _ GG n p N) as (g & NG & (R1 & R2 & R3 & R4 & R5)).
    assert (FIT : 0 < p_limit p -> u64 (p_used p + a) = p_used p + a /\ p_used p + a <= p_limit p).
    { intros LP. destruct (A1 k id ps n p K N LP) as (B1 & _). destruct (grants_in _ _ _ _ NG) as (nm & li & iv & EG & IG). subst g. cbn [fst snd] in *.
      assert (NN : a + li < 2 ^ 64) by (rewrite L in NW; eapply NW; [left; reflexivity|right; exact IG]).
      assert (E : u64 (p_used p + a) = p_used p + a) by (unfold u64; apply Z.mod_small; lia). split; [exact E|].
      unfold over in O. apply andb_false_iff in O as [O|O]; apply Z.ltb_ge in O; lia. }
    assert (AU : forall j e, spent (m_log m') id j e = (if (n =? j)%nat && (p_reset p =? e) then a else 0) + spent (m_log m) id j e).
    { intros j e. rewrite L. cbn [spent]. rewrite Nat.eqb_refl. reflexivity. }
    assert (AO : forall id' j e, id' <> id -> spent (m_log m') id' j e = spent (m_log m) id' j e).
    { intros id' j e D. rewrite L. cbn [spent]. replace (id =? id')%nat with false by (symmetry; apply Nat.eqb_neq; congruence). reflexivity. }
    assert (GS : forall id', grants (m_log m') id' = grants (m_log m) id') by (intros; rewrite L; reflexivity).
    constructor.
    + intros k' id' qs n0 p0 LV N0 L0. destruct (T k' id' qs LV) as [(-> & -> & ->)|(NE & LV')].
      2:{ destruct (A1 k' id' qs n0 p0 LV' N0 L0) as (B1 & B2 & B3). rewrite AO by exact NE. repeat split; try tauto. intros e LT. rewrite AO by exact NE. auto. }
      apply update_cases in N0; [|eauto]. destruct N0 as [(-> & ->)|(NE & N0)].
      * cbn [charge p_limit p_used p_reset] in *. destruct (A1 k id ps n p K N L0) as (B1 & B2 & B3). destruct (FIT L0) as (F1 & F2). rewrite F1.
        split; [lia|]. split; [rewrite AU, Nat.eqb_refl, Z.eqb_refl; cbn [andb]; lia|]. intros e LT. rewrite AU.
        replace (p_reset p =? e) with false by (symmetry; apply Z.eqb_neq; lia). rewrite andb_false_r, B3 by exact LT. reflexivity.
      * destruct (A1 k id ps n0 p0 K N0 L0) as (B1 & B2 & B3).
        assert (AU' : forall e, spent (m_log m') id n0 e = spent (m_log m) id n0 e).
        { intros e. rewrite AU. replace (n =? n0)%nat with false by (symmetry; apply Nat.eqb_neq; congruence). reflexivity. }
        rewrite AU'. repeat split; try tauto. intros e LT. rewrite AU'. auto.
    + intros id' j e LJ. rewrite GS in LJ. destruct (Nat.eq_dec id' id) as [->|D]; [|rewrite AO by exact D; apply A2, LJ].
      assert (n < length (grants (m_log m) id))%nat by (apply nth_error_Some; congruence). rewrite AU.
      replace (n =? j)%nat with false by (symmetry; apply Nat.eqb_neq; lia). apply A2, LJ.
    + intros id' j g' N' L' e. rewrite GS in N'. destruct (Nat.eq_dec id' id) as [->|D]; [|rewrite AO by exact D; eapply A3; eassumption].
      rewrite AU. destruct (Nat.eqb_spec n j) as [->|NE]; [|eapply A3; eassumption]. destruct (Z.eqb_spec (p_reset p) e) as [<-|NE]; [|eapply A3; eassumption].
      cbn [andb]. assert (g' = g) by congruence. subst g'. destruct (A1 k id ps j p K N ltac:(lia)) as (B1 & B2 & _). destruct (FIT ltac:(lia)). lia.
    + rewrite L. exact A4.
  - destruct (grant_acc m id name limit interval _ G L) as (B2 & B3 & B4). constructor; auto.
    intros k' id' qs n0 p0 LV N0 L0. assert (SP : forall i n e, spent (m_log m') i n e = spent (m_log m) i n e) by (intros; rewrite L; reflexivity).
    destruct (T k' id' qs LV) as [(-> & -> & ->)|(NE & LV')].
    2:{ destruct (A1 k' id' qs n0 p0 LV' N0 L0) as (C1 & C2 & C3). rewrite SP. repeat split; try tauto. intros e LT. rewrite SP. auto. }
    pose proof (F2_length _ _ _ (live_good m k id ps V K)) as LEN. destruct (lt_dec n0 (length ps)) as [LT|GE].
    + rewrite nth_error_app1 in N0 by exact LT. destruct (A1 k id ps n0 p0 K N0 L0) as (C1 & C2 & C3). rewrite SP. repeat split; try tauto. intros e LE. rewrite SP. auto.
    + rewrite nth_error_app2 in N0 by lia. destruct (n0 - length ps)%nat as [|z]; [|destruct z; discriminate]. cbn in N0.
      assert (p0 = mkPerm (Some name) limit (now + interval) interval 0) by congruence. subst p0. cbn [p_used p_limit p_reset] in *.
      rewrite SP, A2 by lia. repeat split; try lia. intros e LE. rewrite SP, A2 by lia. reflexivity.
  - destruct (grant_acc m id name limit interval _ G L) as (B2 & B3 & B4). constructor; auto.
    intros k' id' qs n0 p0 LV N0 L0. assert (SP : forall i n e, spent (m_log m') i n e = spent (m_log m) i n e) by (intros; rewrite L; reflexivity).
    destruct (T k' id' qs LV) as (NE & LV'). destruct (A1 k' id' qs n0 p0 LV' N0 L0) as (C1 & C2 & C3). rewrite SP. repeat split; try tauto. intros e LT. rewrite SP. auto.
Qed.
Lemma step_log m i m' : tstep m i m' -> m_log m' = m_log m \/ exists e, m_log m' = e :: m_log m.
Proof. destruct 1; cbn; eauto. Qed.
Lemma reach_acc a b t m : reach a b t m -> no_wrap (m_log m) -> Acc m.
Proof.
  induction 1 as [|m i m' R IH ST]; intros NW.
  - constructor; cbn; auto; try reflexivity; try (intros id n g N; destruct n; discriminate).
    intros k id ps n p (c & C & A & _). apply nth_error_In, repeat_spec in C. subst. discriminate.
  - eapply step_acc; [eapply reach_inv, R| |exact ST|exact NW]. apply IH.
    destruct (step_log m i m' ST) as [E|(e & E)]; rewrite E in NW; [exact NW|eapply no_wrap_older, NW].
Qed.

(** ** Theorems *)
(** However the calls of any number of threads are interleaved, the amounts
    authorised against a permission in one accounting window stay within its
    limit. *)
Theorem C175_limits : forall threads slots t m id n name limit interval w, reach threads slots t m -> no_wrap (m_log m) ->
  nth_error (grants (m_log m) id) n = Some (name, limit, interval) -> 0 < limit -> spent (m_log m) id n w <= limit.
Proof. intros threads slots t m id n name limit interval w R NW G L. exact (a_bound m (reach_acc _ _ _ _ R NW) id n _ G L w). Qed.
(** Whatever the windows: over any stretch of time no longer than the interval,
    at most twice the limit. *)
Definition in_range (id n : nat) (t0 t1 : Z) (e : event) : option Z :=
  match e with ECharge i k _ _ now w => if (i =? id)%nat && (k =? n)%nat && (t0 <=? now) && (now <=? t1) then Some w else None | _ => None end.
Lemma two_windows l id n t0 t1 w1 w2 : (forall e w, In e l -> in_range id n t0 t1 e = Some w -> w = w1 \/ w = w2) ->
  (forall i k me a now w, In (ECharge i k me a now w) l -> 0 <= a) ->
  0 <= spent l id n w1 /\ 0 <= spent l id n w2 /\ spent_between l id n t0 t1 <= spent l id n w1 + spent l id n w2.
Proof.
  induction l as [|e l IH]; intros H POS; [cbn; lia|].
  destruct IH as (S1 & S2 & S3); [intros x w X; apply (H x w); right; exact X|intros i k me a now w X; eapply (POS i k me a now w); right; exact X|].
  destruct e; cbn [spent spent_between]; auto. pose proof (POS id0 n0 method amount now window (or_introl eq_refl)) as A.
  pose proof (fun w => H (ECharge id0 n0 method amount now window) w (or_introl eq_refl)) as HW. cbn [in_range] in HW.
  destruct ((id0 =? id)%nat && (n0 =? n)%nat) eqn:B; cbn [andb] in *; [|lia].
  destruct ((t0 <=? now) && (now <=? t1)) eqn:B2.
  - destruct (HW window eq_refl) as [->| ->]; rewrite Z.eqb_refl; [destruct (w1 =? w2)|destruct (w2 =? w1)]; lia.
  - destruct (window =? w1), (window =? w2); lia.
Qed.
Lemma none_dec (o : option Z) : {o = None} + {o <> None}.
Proof. destruct o; [right; discriminate|left; reflexivity]. Defined.
Lemma none_or_dec w (o : option Z) : {o = None \/ o = Some w} + {~ (o = None \/ o = Some w)}.
Proof. destruct o as [v|]; [|left; left; reflexivity]. destruct (Z.eq_dec v w) as [->|D]; [left; right; reflexivity|right; intros [Y|Y]; congruence]. Defined.
Theorem C175_any_stretch : forall threads slots t m id n name limit interval t0, reach threads slots t m -> no_wrap (m_log m) ->
  nth_error (grants (m_log m) id) n = Some (name, limit, interval) -> 0 < limit -> spent_between (m_log m) id n t0 (t0 + interval) <= 2 * limit.
Proof.
  intros threads slots t m id n name limit interval t0 R NW G L. pose proof (reach_gap _ _ _ _ R) as [G1 G2 G3].
  pose proof (fun w => C175_limits _ _ _ _ _ _ _ _ _ w R NW G L) as LIM.
  assert (POS : forall i k me a now w, In (ECharge i k me a now w) (m_log m) -> 0 <= a) by (intros i k me a now w X; apply (G1 _ _ _ _ _ _ X)).
  assert (RNG : forall e w, In e (m_log m) -> in_range id n t0 (t0 + interval) e = Some w -> exists me a now, e = ECharge id n me a now w /\ t0 <= w <= t0 + interval + interval /\ 0 <= interval).
  { intros e w X E. destruct e; cbn [in_range] in E; try discriminate. destruct (Nat.eqb_spec id0 id) as [->|]; [|discriminate]. destruct (Nat.eqb_spec n0 n) as [->|]; [|discriminate].
    destruct (Z.leb_spec t0 now) as [T0|]; [|discriminate]. destruct (Z.leb_spec now (t0 + interval)) as [T1|]; [|discriminate]. cbn [andb] in E.
    assert (window = w) by congruence. subst. exists method, amount, now. split; [reflexivity|].
    destruct (G1 _ _ _ _ _ _ X) as (_ & _ & F). specialize (F _ G). cbn [snd] in F. lia. }
  assert (EX : exists w1 w2, forall e w, In e (m_log m) -> in_range id n t0 (t0 + interval) e = Some w -> w = w1 \/ w = w2).
  { destruct (Forall_Exists_dec (fun e => in_range id n t0 (t0 + interval) e = None) (fun e => none_dec _) (m_log m)) as [F|F].
    { exists 0, 0. intros e w X E. rewrite (proj1 (Forall_forall _ _) F e X) in E. discriminate. }
    apply Exists_exists in F as (e1 & X1 & E1). destruct (in_range id n t0 (t0 + interval) e1) as [w1|] eqn:EW1; [|congruence]. exists w1.
    destruct (Forall_Exists_dec (fun e => in_range id n t0 (t0 + interval) e = None \/ in_range id n t0 (t0 + interval) e = Some w1)
      (fun e => none_or_dec w1 _) (m_log m)) as [F|F].
    { exists w1. intros e w X E. destruct (proj1 (Forall_forall _ _) F e X) as [Y|Y]; [congruence|left; congruence]. }
    apply Exists_exists in F as (e2 & X2 & E2). destruct (in_range id n t0 (t0 + interval) e2) as [w2|] eqn:EW2; [|exfalso; apply E2; left; reflexivity].
    exists w2. intros e w X E. destruct (RNG _ _ X E) as (? & ? & ? & -> & ?). destruct (RNG _ _ X1 EW1) as (? & ? & ? & -> & ?). destruct (RNG _ _ X2 EW2) as (? & ? & ? & -> & ?).
    assert (w1 <> w2) by (intros ->; apply E2; right; reflexivity).
    pose proof (G3 id n _ _ _ _ _ _ _ _ _ G X X1) as Y1. pose proof (G3 id n _ _ _ _ _ _ _ _ _ G X X2) as Y2. pose proof (G3 id n _ _ _ _ _ _ _ _ _ G X1 X2) as Y3.
    unfold gap in *. cbn [snd] in *. lia. }
  destruct EX as (w1 & w2 & EX). destruct (two_windows _ _ _ _ _ _ _ EX POS) as (S1 & S2 & S3). pose proof (LIM w1). pose proof (LIM w2). lia.
Qed.
(** An amount is charged to the first permission granted for the method or for
    all, within the window's interval. *)
Theorem C175_charged : forall threads slots t m id n me a now w, reach threads slots t m -> In (ECharge id n me a now w) (m_log m) ->
  exists name limit interval, nth_error (grants (m_log m) id) n = Some (name, limit, interval) /\ (name = me \/ name = bs "*") /\
    (forall j n' l' i', (j < n)%nat -> nth_error (grants (m_log m) id) j = Some (n', l', i') -> n' <> me /\ n' <> bs "*") /\ w - interval <= now <= w.
Proof.
  intros threads slots t m id n me a now w R I'. destruct (g_fact m (reach_gap _ _ _ _ R) _ _ _ _ _ _ I') as (_ & (nm & l & iv & N & M & O) & F).
  exists nm, l, iv. split; [exact N|]. split; [exact M|]. split; [exact O|]. apply (F _ N).
Qed.
(** Nobody is refused because of a race: when an amount is refused for want of
    funds, what had been authorised before would not have left room for it. *)
Lemma due_at l1 : forall e l2, due (l1 ++ e :: l2) -> due (e :: l2).
Proof. induction l1 as [|x l1 IH]; intros e l2 D; [exact D|]. apply IH. destruct x; cbn [app due] in D; tauto. Qed.
Theorem C175_refused : forall threads slots t m later before id n me a now w, reach threads slots t m -> no_wrap (m_log m) ->
  m_log m = later ++ EDeny id n me a now w :: before ->
  exists name limit interval, nth_error (grants before id) n = Some (name, limit, interval) /\ (name = me \/ name = bs "*") /\ 0 < limit < spent before id n w + a.
Proof.
  intros threads slots t m later before id n me a now w R NW E. pose proof (a_due m (reach_acc _ _ _ _ R NW)) as D. rewrite E in D. apply due_at in D.
  cbn [due] in D. destruct D as ((nm & l & iv & N & M & _) & D & _). exists nm, l, iv. split; [exact N|]. split; [exact M|]. eapply D, N.
Qed.

(** A case: two threads ask for 600 and 500 of 1000 at once; the second waits
    for the slot while the first reads, compares and adds, and is refused.  In the
    next window 1000 more are authorised. *)
Ltac idle_threads := let j := fresh in let p := fresh in let E := fresh in
  intros j p E; do 3 (destruct j as [|j]; [cbn in E; try discriminate; assert (p = BIdle) by congruence; subst p; discriminate|]); destruct j; discriminate.
Tactic Notation "nx" hyp(R) ident(R') constr(i) uconstr(c) :=
  match type of R with reach ?a ?b ?t ?m =>
    let m' := fresh "m'" in let S := fresh "S" in evar (m' : sys);
    assert (S : tstep m i m') by (subst m'; eapply c; solve [reflexivity|idle_threads|cbn; tauto|cbn; lia]);
    pose proof (ReachS a b t m i m' R S) as R'; subst m'; cbn -[u64 beq bs Z.add] in R'; clear S
  end.
Definition pay : list N := bs "pay_invoice".
Definition rushed : list event :=
  [ECharge 5 0 pay 1000 4000 7600; EDeny 5 0 pay 500 102 3700; ECharge 5 0 pay 600 101 3700; EGrant 5 pay 1000 3600].
Lemma rushed_reach : exists m, reach 2 1 100 m /\ m_log m = rushed.
Proof.
  pose proof (Reach0 2 1 100) as R.
  nx R R1 0%nat (TCreate _ 0 5).
  nx R1 R2 0%nat (TCreateS _ 0 5).
  nx R2 R3 0%nat (TSlot _ 0 5 0).
  nx R3 R4 0%nat (TFillX _ 0 5 0).
  nx R4 R5 0%nat (TFill _ 0 5 0 _ 10000).
  nx R5 R6 0%nat (TStart _ 0 (JAdd 5 pay 1000 3600)).
  nx R6 R7 0%nat (TLockS _ 0 (JAdd 5 pay 1000 3600)).
  nx R7 R8 0%nat (TFind _ 0 (JAdd 5 pay 1000 3600) 0).
  nx R8 R9 0%nat (TLockX _ 0 (JAdd 5 pay 1000 3600) 0).
  nx R9 R10 0%nat (TDropS _ 0 (JAdd 5 pay 1000 3600) 0).
  nx R10 R11 0%nat (TAdd _ 0 5 pay 1000 3600 0 _ 100).
  nx R11 R12 0%nat (TStart _ 0 (JCheck 5 pay 600)).
  nx R12 R13 1%nat (TStart _ 1 (JCheck 5 pay 500)).
  nx R13 R14 0%nat (TLockS _ 0 (JCheck 5 pay 600)).
  nx R14 R15 0%nat (TFind _ 0 (JCheck 5 pay 600) 0).
  nx R15 R16 0%nat (TLockX _ 0 (JCheck 5 pay 600) 0).
  nx R16 R17 0%nat (TDropS _ 0 (JCheck 5 pay 600) 0).
  nx R17 R18 1%nat (TLockS _ 1 (JCheck 5 pay 500)).
  nx R18 R19 0%nat (TLook _ 0 5 pay 600 0 _ 101 0).
  nx R19 R20 1%nat (TFind _ 1 (JCheck 5 pay 500) 0).
  nx R20 R21 0%nat (TWithin _ 0 5 pay 600 101 0 0).
  nx R21 R22 0%nat (TCharge _ 0 5 pay 600 101 0 0).
  nx R22 R23 1%nat (TLockX _ 1 (JCheck 5 pay 500) 0).
  nx R23 R24 1%nat (TDropS _ 1 (JCheck 5 pay 500) 0).
  nx R24 R25 1%nat (TLook _ 1 5 pay 500 0 _ 102 0).
  nx R25 R26 1%nat (TOver _ 1 5 pay 500 102 0 0).
  nx R26 R27 1%nat (TStart _ 1 (JCheck 5 pay 1000)).
  nx R27 R28 1%nat (TLockS _ 1 (JCheck 5 pay 1000)).
  nx R28 R29 1%nat (TFind _ 1 (JCheck 5 pay 1000) 0).
  nx R29 R30 1%nat (TLockX _ 1 (JCheck 5 pay 1000) 0).
  nx R30 R31 1%nat (TDropS _ 1 (JCheck 5 pay 1000) 0).
  nx R31 R32 1%nat (TLook _ 1 5 pay 1000 0 _ 4000 0).
  nx R32 R33 1%nat (TWithin _ 1 5 pay 1000 4000 0 0).
  nx R33 R34 1%nat (TCharge _ 1 5 pay 1000 4000 0 0).
  eexists. split; [exact R34|reflexivity].
Qed.
Example C175_meets : exists m, reach 2 1 100 m /\ no_wrap (m_log m) /\ nth_error (grants (m_log m) 5) 0 = Some (pay, 1000, 3600) /\
  spent (m_log m) 5 0 3700 = 600 /\ spent (m_log m) 5 0 7600 = 1000 /\ spent_between (m_log m) 5 0 500 4100 = 1000 /\ spent_between (m_log m) 5 0 101 4000 = 1600 /\
  exists before, m_log m = [ECharge 5 0 pay 1000 4000 7600] ++ EDeny 5 0 pay 500 102 3700 :: before.
Proof.
  destruct rushed_reach as (m & R & E). exists m. rewrite E. split; [exact R|]. split.
  { intros id n me a now w id' name limit interval I1 I2. assert (a <= 1000 /\ limit <= 1000); [|lia].
    unfold rushed in I1, I2. cbn [In] in I1, I2. split.
    - destruct I1 as [X|[X|[X|[X|[]]]]]; try discriminate; assert (a = 1000 \/ a = 600) by (first [left; congruence|right; congruence]); lia.
    - destruct I2 as [X|[X|[X|[X|[]]]]]; try discriminate. assert (limit = 1000) by congruence. lia. }
  repeat split; try reflexivity. eexists. reflexivity.
Qed.
(** False: once every call has returned, only live sessions hold permissions.  A
    permission added by a call that found its session while another thread was
    destroying it is granted to nobody; the next session in the slot forgets it
    without releasing it (line 172). *)
Theorem C175_tidy_refuted : ~ (forall threads slots t m, reach threads slots t m -> Forall (fun p => p = BIdle) (m_threads m) ->
  Forall (fun c => c_active c = false -> c_perms c = []) (m_cells m)).
Proof.
  intros H. pose proof (Reach0 2 1 100) as R.
  nx R R1 0%nat (TCreate _ 0 5).
  nx R1 R2 0%nat (TCreateS _ 0 5).
  nx R2 R3 0%nat (TSlot _ 0 5 0).
  nx R3 R4 0%nat (TFillX _ 0 5 0).
  nx R4 R5 0%nat (TFill _ 0 5 0 _ 10000).
  nx R5 R6 0%nat (TStart _ 0 (JDestroy 5)).
  nx R6 R7 0%nat (TLockS _ 0 (JDestroy 5)).
  nx R7 R8 0%nat (TFind _ 0 (JDestroy 5) 0).
  nx R8 R9 0%nat (TLockX _ 0 (JDestroy 5) 0).
  nx R9 R10 0%nat (TDropS _ 0 (JDestroy 5) 0).
  nx R10 R11 1%nat (TStart _ 1 (JAdd 5 pay 1000 3600)).
  nx R11 R12 1%nat (TLockS _ 1 (JAdd 5 pay 1000 3600)).
  nx R12 R13 1%nat (TFind _ 1 (JAdd 5 pay 1000 3600) 0).
  nx R13 R14 0%nat (TDestroy _ 0 5 0).
  nx R14 R15 0%nat (TRelease _ 0 5 0).
  nx R15 R16 1%nat (TLockX _ 1 (JAdd 5 pay 1000 3600) 0).
  nx R16 R17 1%nat (TDropS _ 1 (JAdd 5 pay 1000 3600) 0).
  nx R17 R18 1%nat (TAdd _ 1 5 pay 1000 3600 0 _ 100).
  pose proof (H 2%nat 1%nat 100 _ R18 ltac:(repeat constructor)) as F. cbn [m_cells] in F. inversion F as [|? ? F1 _]; subst. specialize (F1 eq_refl). discriminate F1.
Qed.
Print Assumptions C175_limits. Print Assumptions C175_any_stretch. Print Assumptions C175_charged. Print Assumptions C175_refused. Print Assumptions C175_tidy_refuted.
