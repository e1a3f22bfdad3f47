(** C71: src/nip47_session.c under threads.  Two kinds of locks: sessions_lock
    around the table and one lock per slot.  Every call on an id looks its slot
    up under sessions_lock, takes the slot's lock, drops sessions_lock and works
    on the slot (lines 194-204, 241-251, 296-306, 329-339, 354-364); destroy
    clears [active] and then releases the connection (366-371); create holds
    sessions_lock throughout, expires sessions under their slot locks (64-84) and
    fills an inactive slot under its lock (148-184).  Permissions are left out:
    they live in the slot and are touched under its lock only. *)
From Coq Require Import Bool.
From Verif Require Import Base BaseFacts Session SessionProofs.
Open Scope nat_scope.

Record cell : Set := mkCell { c_id : nat; c_conn : option nat; c_active : bool; c_lock : option nat }.
Inductive job : Set := JConn (id : nat) | JExtend (id : nat) | JDestroy (id : nat).
Definition job_id (j : job) : nat := match j with JConn i | JExtend i | JDestroy i => i end.
Inductive phase : Set :=
| PIdle
| PWantS (j : job) | PHasS (j : job)
| PWantX (j : job) (k : nat)                  (* holds sessions_lock *)
| PHasX (j : job) (k : nat)                   (* holds both *)
| PBody (j : job) (k : nat)                   (* holds the slot *)
| PMid (id k : nat)                           (* destroy: [active] cleared *)
| PWantCreate (id conn : nat) | PCreate (id conn : nat)
| PWantClean (id conn k : nat) | PClean (id conn k : nat)
| PWantFill (id conn k : nat) | PFill (id conn k : nat).
Inductive outcome : Set := ROk | RErr | RConn (c : option nat).

(** Ghost records, newest first: finished calls with whether the session was
    live when they took effect; connections created and released, by session. *)
Record sys : Set := mkSys {
  m_s : option nat; m_cells : list cell; m_threads : list phase;
  m_log : list (job * outcome * bool); m_made : list (nat * nat); m_freed : list (nat * nat) }.

Definition set_thread (m : sys) i p := mkSys (m_s m) (m_cells m) (update (m_threads m) i p) (m_log m) (m_made m) (m_freed m).
Definition set_s (m : sys) l := mkSys l (m_cells m) (m_threads m) (m_log m) (m_made m) (m_freed m).
Definition set_cell (m : sys) k c := mkSys (m_s m) (update (m_cells m) k c) (m_threads m) (m_log m) (m_made m) (m_freed m).
Definition log_it (m : sys) j o b := mkSys (m_s m) (m_cells m) (m_threads m) ((j, o, b) :: m_log m) (m_made m) (m_freed m).
Definition make_it (m : sys) x := mkSys (m_s m) (m_cells m) (m_threads m) (m_log m) (x :: m_made m) (m_freed m).
Definition free_it (m : sys) id c := mkSys (m_s m) (m_cells m) (m_threads m) (m_log m) (m_made m)
  (match c with Some c => (id, c) :: m_freed m | None => m_freed m end).
Definition locked (c : cell) l := mkCell (c_id c) (c_conn c) (c_active c) l.
Definition hit (id : nat) (c : cell) : bool := c_active c && (c_id c =? id)%nat.

Inductive tstep (m : sys) (i : nat) : sys -> Prop :=
| TStart j : nth_error (m_threads m) i = Some PIdle -> tstep m i (set_thread m i (PWantS j))
| TLockS j : nth_error (m_threads m) i = Some (PWantS j) -> m_s m = None -> tstep m i (set_s (set_thread m i (PHasS j)) (Some i))
| TFind j k c : nth_error (m_threads m) i = Some (PHasS j) -> nth_error (m_cells m) k = Some c -> hit (job_id j) c = true ->
    tstep m i (set_thread m i (PWantX j k))
| TMiss j : nth_error (m_threads m) i = Some (PHasS j) -> Forall (fun c => hit (job_id j) c = false) (m_cells m) ->
    tstep m i (log_it (set_s (set_thread m i PIdle) None) j RErr false)
| TLockX j k c : nth_error (m_threads m) i = Some (PWantX j k) -> nth_error (m_cells m) k = Some c -> c_lock c = None ->
    tstep m i (set_cell (set_thread m i (PHasX j k)) k (locked c (Some i)))
| TDropS j k : nth_error (m_threads m) i = Some (PHasX j k) -> tstep m i (set_s (set_thread m i (PBody j k)) None)
| TConn id k c : nth_error (m_threads m) i = Some (PBody (JConn id) k) -> nth_error (m_cells m) k = Some c ->
    tstep m i (log_it (set_cell (set_thread m i PIdle) k (locked c None)) (JConn id) (RConn (c_conn c)) (hit id c))
| TExpired id k c : nth_error (m_threads m) i = Some (PBody (JConn id) k) -> nth_error (m_cells m) k = Some c ->
    tstep m i (log_it (set_cell (set_thread m i PIdle) k (locked c None)) (JConn id) RErr (hit id c))
| TExtend id k c : nth_error (m_threads m) i = Some (PBody (JExtend id) k) -> nth_error (m_cells m) k = Some c ->
    tstep m i (log_it (set_cell (set_thread m i PIdle) k (locked c None)) (JExtend id) ROk (hit id c))
| TDestroy id k c : nth_error (m_threads m) i = Some (PBody (JDestroy id) k) -> nth_error (m_cells m) k = Some c ->
    tstep m i (log_it (set_cell (set_thread m i (PMid id k)) k (mkCell (c_id c) (c_conn c) false (c_lock c))) (JDestroy id) ROk (hit id c))
| TRelease id k c : nth_error (m_threads m) i = Some (PMid id k) -> nth_error (m_cells m) k = Some c ->
    tstep m i (free_it (set_cell (set_thread m i PIdle) k (mkCell (c_id c) None (c_active c) None)) id (c_conn c))
| TCreate id conn : nth_error (m_threads m) i = Some PIdle -> ~ In id (map fst (m_made m)) ->
    (forall j p, nth_error (m_threads m) j = Some p ->
       match p with PWantCreate n _ | PCreate n _ | PWantClean n _ _ | PClean n _ _ | PWantFill n _ _ | PFill n _ _ => n <> id | _ => True end) ->
    tstep m i (set_thread m i (PWantCreate id conn))          (* ids are random draws *)
| TCreateS id conn : nth_error (m_threads m) i = Some (PWantCreate id conn) -> m_s m = None -> tstep m i (set_s (set_thread m i (PCreate id conn)) (Some i))
| TClean id conn k c : nth_error (m_threads m) i = Some (PCreate id conn) -> nth_error (m_cells m) k = Some c -> c_active c = true ->
    tstep m i (set_thread m i (PWantClean id conn k))
| TCleanX id conn k c : nth_error (m_threads m) i = Some (PWantClean id conn k) -> nth_error (m_cells m) k = Some c -> c_lock c = None ->
    tstep m i (set_cell (set_thread m i (PClean id conn k)) k (locked c (Some i)))
| TCleaned id conn k c : nth_error (m_threads m) i = Some (PClean id conn k) -> nth_error (m_cells m) k = Some c ->
    tstep m i (free_it (set_cell (set_thread m i (PCreate id conn)) k (mkCell (c_id c) None false None)) (c_id c) (c_conn c))
| TSlot id conn k c : nth_error (m_threads m) i = Some (PCreate id conn) -> nth_error (m_cells m) k = Some c -> c_active c = false ->
    tstep m i (set_thread m i (PWantFill id conn k))
| TFull id conn : nth_error (m_threads m) i = Some (PCreate id conn) -> Forall (fun c => c_active c = true) (m_cells m) ->
    tstep m i (set_s (set_thread m i PIdle) None)
| TFillX id conn k c : nth_error (m_threads m) i = Some (PWantFill id conn k) -> nth_error (m_cells m) k = Some c -> c_lock c = None ->
    tstep m i (set_cell (set_thread m i (PFill id conn k)) k (locked c (Some i)))
| TFill id conn k c : nth_error (m_threads m) i = Some (PFill id conn k) -> nth_error (m_cells m) k = Some c ->
    tstep m i (make_it (set_s (set_cell (set_thread m i PIdle) k (mkCell id (Some conn) true None)) None) (id, conn)).

Definition start (threads slots : nat) : sys := mkSys None (repeat (mkCell 0 None false None) slots) (repeat PIdle threads) [] [] [].
Inductive reach (threads slots : nat) : sys -> Prop :=
| Reach0 : reach threads slots (start threads slots)
| ReachS m i m' : reach threads slots m -> tstep m i m' -> reach threads slots m'.

(** ** Invariant *)
Definition holds_s (p : phase) : bool :=
  match p with
  | PHasS _ | PWantX _ _ | PHasX _ _ | PCreate _ _ | PWantClean _ _ _ | PClean _ _ _ | PWantFill _ _ _ | PFill _ _ _ => true
  | _ => false
  end.
Definition holds_x (p : phase) : option nat :=
  match p with
  | PHasX _ k | PBody _ k | PMid _ k | PClean _ _ k | PFill _ _ k => Some k
  | _ => None
  end.
(** What a thread knows about the slot it is working on. *)
Definition knows (m : sys) (p : phase) : Prop :=
  match p with
  | PWantX j k | PHasX j k | PBody j k => exists c, nth_error (m_cells m) k = Some c /\ c_id c = job_id j
  | PMid id k => exists c, nth_error (m_cells m) k = Some c /\ c_id c = id /\ c_active c = false
  | PWantClean _ _ k | PClean _ _ k => exists c, nth_error (m_cells m) k = Some c
  | PWantFill _ _ k | PFill _ _ k => exists c, nth_error (m_cells m) k = Some c /\ c_active c = false
  | _ => True
  end.

Record Inv (m : sys) : Prop := {
  i_s : forall i, m_s m = Some i <-> exists p, nth_error (m_threads m) i = Some p /\ holds_s p = true;
  i_x : forall k c i, nth_error (m_cells m) k = Some c -> (c_lock c = Some i <-> exists p, nth_error (m_threads m) i = Some p /\ holds_x p = Some k);
  i_k : forall i p, nth_error (m_threads m) i = Some p -> knows m p;
  i_own : forall k c n, nth_error (m_cells m) k = Some c -> c_conn c = Some n -> In (c_id c, n) (m_made m);
  i_live : forall k c, nth_error (m_cells m) k = Some c -> c_active c = true -> c_conn c <> None;
  i_free : forall x, In x (m_freed m) -> In x (m_made m);
  i_log : forall id n b, In (JConn id, RConn (Some n), b) (m_log m) -> In (id, n) (m_made m) }.

Lemma start_inv a b : Inv (start a b).
Proof.
  assert (TH : forall i p, nth_error (m_threads (start a b)) i = Some p -> p = PIdle).
  { intros i p P. apply nth_error_In, repeat_spec in P. exact P. }
  assert (CE : forall k c, nth_error (m_cells (start a b)) k = Some c -> c = mkCell 0 None false None).
  { intros k c C. apply nth_error_In, repeat_spec in C. exact C. }
  constructor.
  - intros i. split; [discriminate|]. intros (p & P & H). apply TH in P. subst. discriminate.
  - intros k c i C. apply CE in C. subst. split; [discriminate|]. intros (p & P & H). apply TH in P. subst. discriminate.
  - intros i p P. apply TH in P. subst. exact I.
  - intros k c n C E. apply CE in C. subst. discriminate.
  - intros k c C E. apply CE in C. subst. discriminate.
  - intros x [].
  - intros id n bb [].
Qed.


Definition s_move (m m' : sys) i p p' : Prop :=
  m_s m' = m_s m /\ holds_s p' = holds_s p \/
  m_s m = None /\ m_s m' = Some i /\ holds_s p' = true \/
  holds_s p = true /\ m_s m' = None /\ holds_s p' = false.
Lemma s_part m m' i p p' : Inv m -> nth_error (m_threads m) i = Some p -> m_threads m' = update (m_threads m) i p' -> s_move m m' i p p' ->
  forall j, m_s m' = Some j <-> exists q, nth_error (m_threads m') j = Some q /\ holds_s q = true.
Proof.
  intros V P TH MV j. rewrite TH. pose proof (i_s m V) as IS. destruct (Nat.eq_dec j i) as [->|NE].
  - rewrite (update_same _ _ p i P). specialize (IS i).
    destruct MV as [(E1 & E2)|[(E0 & E1 & E2)|(E0 & E1 & E2)]]; rewrite E1.
    + rewrite IS. split; intros (q & Q & H).
      * assert (q = p) by congruence. subst. exists p'. split; [reflexivity|congruence].
      * assert (q = p') by congruence. subst. exists p. split; [exact P|congruence].
    + split; [intros _; exists p'; auto|reflexivity].
    + split; [discriminate|]. intros (q & Q & H). congruence.
  - rewrite update_other by exact NE. specialize (IS j).
    destruct MV as [(E1 & E2)|[(E0 & E1 & E2)|(E0 & E1 & E2)]]; rewrite E1.
    + exact IS.
    + rewrite <- IS, E0. split; [intros E; congruence|discriminate].
    + split; [discriminate|]. intros Q. apply IS in Q. assert (m_s m = Some i) by (apply (i_s m V); eauto). congruence.
Qed.

(** A step that leaves the slots alone. *)
Lemma inv_same m m' i p p' : Inv m -> nth_error (m_threads m) i = Some p -> m_threads m' = update (m_threads m) i p' -> s_move m m' i p p' ->
  m_cells m' = m_cells m -> holds_x p' = holds_x p -> knows m p' ->
  m_made m' = m_made m -> m_freed m' = m_freed m ->
  (forall id n b, In (JConn id, RConn (Some n), b) (m_log m') -> In (JConn id, RConn (Some n), b) (m_log m)) -> Inv m'.
Proof.
  intros V P TH MV CE HX KN MA FR LG. pose proof V as [V1 V2 V3 V4 V5 V6 V7].
  assert (KS : forall q, knows m q -> knows m' q) by (intros q; destruct q; cbn [knows]; rewrite ?CE; auto).
  constructor.
  - eapply s_part; eassumption.
  - intros k c j C. rewrite CE in C. rewrite (V2 k c j C), TH. destruct (Nat.eq_dec j i) as [->|NE].
    + rewrite (update_same _ _ p i P). split; intros (q & Q & H).
      * assert (q = p) by congruence. subst. exists p'. split; [reflexivity|congruence].
      * assert (q = p') by congruence. subst. exists p. split; [exact P|congruence].
    + rewrite update_other by exact NE. reflexivity.
  - intros j q Q. rewrite TH in Q. apply KS. apply update_cases in Q; [|eauto].
    destruct Q as [(-> & ->)|(NE & Q)]; [exact KN|eapply V3; exact Q].
  - intros k c n C E. rewrite CE in C. rewrite MA. eapply V4; eassumption.
  - intros k c C E. rewrite CE in C. eapply V5; eassumption.
  - intros x X. rewrite FR in X. rewrite MA. auto.
  - intros id n b L. rewrite MA. eapply V7, LG, L.
Qed.

(** A step that edits one slot. *)
Lemma inv_cell m m' i p p' k c c' : Inv m -> nth_error (m_threads m) i = Some p -> m_threads m' = update (m_threads m) i p' -> s_move m m' i p p' ->
  nth_error (m_cells m) k = Some c -> m_cells m' = update (m_cells m) k c' ->
  (c_lock c' = c_lock c /\ holds_x p' = holds_x p \/ c_lock c = None /\ c_lock c' = Some i /\ holds_x p' = Some k /\ holds_x p = None \/
   holds_x p = Some k /\ c_lock c' = None /\ holds_x p' = None) ->
  (c_id c' = c_id c /\ (c_active c' = c_active c \/ c_active c' = false) \/ holds_x p = Some k /\ holds_s p = true) ->
  knows m' p' ->
  (forall n, c_conn c' = Some n -> In (c_id c', n) (m_made m')) -> (c_active c' = true -> c_conn c' <> None) ->
  incl (m_made m) (m_made m') -> (forall x, In x (m_freed m') -> In x (m_freed m) \/ In x (m_made m')) ->
  (forall id n b, In (JConn id, RConn (Some n), b) (m_log m') -> In (JConn id, RConn (Some n), b) (m_log m) \/ In (id, n) (m_made m')) -> Inv m'.
Proof.
  intros V P TH MV C CE LK ID KN OW LV MA FR LG. pose proof V as [V1 V2 V3 V4 V5 V6 V7].
  assert (CC : forall k' d, nth_error (m_cells m') k' = Some d -> (k' = k /\ d = c') \/ (k' <> k /\ nth_error (m_cells m) k' = Some d)).
  { intros k' d D. rewrite CE in D. apply update_cases in D; eauto. }
  assert (CK : nth_error (m_cells m') k = Some c') by (rewrite CE; eapply update_same, C).
  assert (CO : forall k', k' <> k -> nth_error (m_cells m') k' = nth_error (m_cells m) k') by (intros k' NE; rewrite CE; apply update_other, NE).
  constructor.
  - eapply s_part; eassumption.
  - intros k' d j D. rewrite TH. apply CC in D. destruct D as [(-> & ->)|(NE & D)].
    + destruct (Nat.eq_dec j i) as [->|NJ].
      * rewrite (update_same _ _ p i P). pose proof (V2 k c i C) as VV. destruct LK as [(L1 & L2)|[(L0 & L1 & L2 & _)|(L0 & L1 & L2)]]; rewrite L1.
        -- rewrite VV. split; intros (q & Q & H).
           ++ assert (q = p) by congruence. subst. exists p'. split; [reflexivity|congruence].
           ++ assert (q = p') by congruence. subst. exists p. split; [exact P|congruence].
        -- split; [intros _; exists p'; auto|reflexivity].
        -- split; [discriminate|]. intros (q & Q & H). congruence.
      * rewrite update_other by exact NJ. pose proof (V2 k c j C) as VV. destruct LK as [(L1 & L2)|[(L0 & L1 & L2 & _)|(L0 & L1 & L2)]]; rewrite L1.
        -- exact VV.
        -- rewrite <- VV, L0. split; [intros E; congruence|discriminate].
        -- split; [discriminate|]. intros Q. apply VV in Q. assert (c_lock c = Some i) by (apply (V2 k c i C); eauto). congruence.
    + rewrite (V2 k' d j D). destruct (Nat.eq_dec j i) as [->|NJ].
      * rewrite (update_same _ _ p i P). destruct LK as [(L1 & L2)|[(L0 & L1 & L2 & L3)|(L0 & L1 & L2)]]; split; intros (q & Q & H).
        all: first [assert (q = p) by congruence; subst; exists p'|assert (q = p') by congruence; subst; exists p]; split; auto; congruence.
      * rewrite update_other by exact NJ. reflexivity.
  - intros j q Q. rewrite TH in Q. apply update_cases in Q; [|eauto]. destruct Q as [(-> & ->)|(NE & Q)]; [exact KN|].
    pose proof (V3 j q Q) as KQ.
    assert (NS : holds_s p = true -> holds_s q = true -> False).
    { intros H1 H2. assert (m_s m = Some i) by (apply V1; eauto). assert (m_s m = Some j) by (apply V1; eauto). congruence. }
    assert (NX : forall kk, holds_x p = Some kk -> holds_x q = Some kk -> kk = k -> False).
    { intros kk H1 H2 ->. assert (c_lock c = Some i) by (apply (V2 k c i C); eauto). assert (c_lock c = Some j) by (apply (V2 k c j C); eauto). congruence. }
    destruct q; cbn [knows] in *; auto;
      (match goal with |- exists c, nth_error (m_cells m') ?kk = Some c /\ _ => destruct (Nat.eq_dec kk k) as [->|NK]; [|rewrite CO by exact NK; exact KQ]
       | |- exists c, nth_error (m_cells m') ?kk = Some c => destruct (Nat.eq_dec kk k) as [->|NK]; [|rewrite CO by exact NK; exact KQ] end);
      destruct ID as [(I1 & I2)|(I1 & I2)]; try (exfalso; solve [eapply NS; auto|eapply NX; eauto]);
      rewrite CK; exists c'; destruct KQ as (d & KQ); try (assert (d = c) by (destruct KQ; congruence); subst d; destruct KQ as (_ & KQ));
      repeat split; auto; try congruence; try (destruct KQ; congruence); (destruct I2; try destruct KQ; congruence).
  - intros k' d n D E. apply CC in D. destruct D as [(-> & ->)|(NE & D)]; [auto|]. apply MA. eapply V4; eassumption.
  - intros k' d D E. apply CC in D. destruct D as [(-> & ->)|(NE & D)]; [auto|]. eapply V5; eassumption.
  - intros x X. destruct (FR x X) as [Y|Y]; [apply MA; auto|exact Y].
  - intros id n b L. destruct (LG id n b L) as [Y|Y]; [apply MA; eapply V7, Y|exact Y].
Qed.

Lemma step_inv m i m' : Inv m -> tstep m i m' -> Inv m'.
Proof.
  intros V ST. pose proof V as [V1 V2 V3 V4 V5 V6 V7].
  destruct ST; match goal with H : nth_error (m_threads m) i = Some ?p |- _ => pose proof (V3 i p H) as KN; rename H into P end; cbn [knows] in KN.
  - eapply inv_same; [exact V|exact P|reflexivity|left|..]; auto.
  - eapply inv_same; [exact V|exact P|reflexivity|right; left|..]; auto.
  - eapply inv_same; [exact V|exact P|reflexivity|left|..]; auto.
    cbn [knows]. exists c. split; [assumption|]. unfold hit in *. match goal with H : _ && _ = true |- _ => apply andb_true_iff in H as (_ & H); apply Nat.eqb_eq in H; exact H end.
  - eapply inv_same; [exact V|exact P|reflexivity|right; right|..]; auto.
    intros id n b [E|E]; [discriminate|exact E].
  - eapply (inv_cell m _ i _ _ k c); [exact V|exact P|reflexivity|left; auto|eassumption|reflexivity|right; left; auto|left; auto|..]; cbn [locked c_conn c_id c_active].
    + cbn [knows]. unfold set_cell. cbn [m_cells set_thread]. erewrite update_same by eassumption. eexists. split; [reflexivity|].
      destruct KN as (d & D & KN). assert (d = c) by congruence. subst. exact KN.
    + intros n E. eapply V4; eassumption.
    + intros E. eapply V5; eassumption.
    + intros x X. exact X.
    + intros x X. left. exact X.
    + intros id n b E. left. exact E.
  - eapply inv_same; [exact V|exact P|reflexivity|right; right|..]; auto.
  - destruct KN as (d & D & KN). assert (d = c) by congruence. subst d.
    eapply (inv_cell m _ i _ _ k c); [exact V|exact P|reflexivity|left; auto|eassumption|reflexivity|right; right; auto|left; auto|..]; cbn [locked c_conn c_id c_active].
    + exact I.
    + intros n E. eapply V4; eassumption.
    + intros E. eapply V5; eassumption.
    + intros x X. exact X.
    + intros x X. left. exact X.
    + intros id' n b [E|E]; [right|left; exact E]. cbn [job_id] in KN.
      assert (id' = id) by congruence. assert (EC : c_conn c = Some n) by congruence. subst id'. rewrite <- KN. apply (V4 k c n); assumption.
  - eapply (inv_cell m _ i _ _ k c); [exact V|exact P|reflexivity|left; auto|eassumption|reflexivity|right; right; auto|left; auto|..]; cbn [locked c_conn c_id c_active].
    + exact I.
    + intros n E. eapply V4; eassumption.
    + intros E. eapply V5; eassumption.
    + intros x X. exact X.
    + intros x X. left. exact X.
    + intros id' n b [E|E]; [discriminate|left; exact E].
  - eapply (inv_cell m _ i _ _ k c); [exact V|exact P|reflexivity|left; auto|eassumption|reflexivity|right; right; auto|left; auto|..]; cbn [locked c_conn c_id c_active].
    + exact I.
    + intros n E. eapply V4; eassumption.
    + intros E. eapply V5; eassumption.
    + intros x X. exact X.
    + intros x X. left. exact X.
    + intros id' n b [E|E]; [discriminate|left; exact E].
  - destruct KN as (d & D & KN). assert (d = c) by congruence. subst d.
    eapply (inv_cell m _ i _ _ k c); [exact V|exact P|reflexivity|left; auto|eassumption|reflexivity|left; auto|left; auto|..]; cbn [locked c_conn c_id c_active].
    + cbn [knows log_it set_cell set_thread m_cells]. erewrite update_same by eassumption. eexists. split; [reflexivity|]. split; [exact KN|reflexivity].
    + intros n E. eapply V4; eassumption.
    + discriminate.
    + intros x X. exact X.
    + intros x X. left. exact X.
    + intros id' n b [E|E]; [discriminate|left; exact E].
  - destruct KN as (d & D & KN & KA). assert (d = c) by congruence. subst d.
    eapply (inv_cell m _ i _ _ k c); [exact V|exact P|reflexivity|left; auto|eassumption|reflexivity|right; right; auto|left; auto|..]; cbn [locked c_conn c_id c_active].
    + exact I.
    + discriminate.
    + congruence.
    + intros x X. exact X.
    + intros x X. cbn [free_it m_freed] in X. destruct (c_conn c) as [n|] eqn:CN; [|left; exact X].
      destruct X as [<-|X]; [right|left; exact X]. rewrite <- KN. apply (V4 k c n); assumption.
    + intros id' n b E. left. exact E.
  - eapply inv_same; [exact V|exact P|reflexivity|left|..]; auto.
  - eapply inv_same; [exact V|exact P|reflexivity|right; left|..]; auto.
  - eapply inv_same; [exact V|exact P|reflexivity|left|..]; auto. cbn [knows]. eauto.
  - eapply (inv_cell m _ i _ _ k c); [exact V|exact P|reflexivity|left; auto|eassumption|reflexivity|right; left; auto|left; auto|..]; cbn [locked c_conn c_id c_active].
    + cbn [knows]. unfold set_cell. cbn [m_cells set_thread]. erewrite update_same by eassumption. eexists. reflexivity.
    + intros n E. eapply V4; eassumption.
    + intros E. eapply V5; eassumption.
    + intros x X. exact X.
    + intros x X. left. exact X.
    + intros id' n b E. left. exact E.
  - eapply (inv_cell m _ i _ _ k c); [exact V|exact P|reflexivity|left; auto|eassumption|reflexivity|right; right; auto|left; auto|..]; cbn [locked c_conn c_id c_active].
    + exact I.
    + discriminate.
    + congruence.
    + intros x X. exact X.
    + intros x X. cbn [free_it m_freed] in X. destruct (c_conn c) as [n|] eqn:CN; [|left; exact X].
      destruct X as [<-|X]; [right|left; exact X]. apply (V4 k c n); assumption.
    + intros id' n b E. left. exact E.
  - eapply inv_same; [exact V|exact P|reflexivity|left|..]; auto. cbn [knows]. eauto.
  - eapply inv_same; [exact V|exact P|reflexivity|right; right|..]; auto.
  - eapply (inv_cell m _ i _ _ k c); [exact V|exact P|reflexivity|left; auto|eassumption|reflexivity|right; left; auto|left; auto|..]; cbn [locked c_conn c_id c_active].
    + cbn [knows]. unfold set_cell. cbn [m_cells set_thread]. erewrite update_same by eassumption. eexists. split; [reflexivity|].
      destruct KN as (d & D & KN). assert (d = c) by congruence. subst. exact KN.
    + intros n E. eapply V4; eassumption.
    + intros E. eapply V5; eassumption.
    + intros x X. exact X.
    + intros x X. left. exact X.
    + intros id' n b E. left. exact E.
  - eapply (inv_cell m _ i _ _ k c); [exact V|exact P|reflexivity|right; right; auto|eassumption|reflexivity|right; right; auto|right; auto|..]; cbn [locked c_conn c_id c_active].
    + exact I.
    + intros n E. assert (n = conn) by congruence. subst. left. reflexivity.
    + discriminate.
    + intros x X. right. exact X.
    + intros x X. left. exact X.
    + intros id' n b E. left. exact E.
Qed.
Lemma reach_inv a b m : reach a b m -> Inv m.
Proof. induction 1; [apply start_inv|eapply step_inv; eassumption]. Qed.

(** ** Theorems *)
(** No schedule gets stuck: while some call is unfinished, an unfinished call can
    go on. *)
Theorem C71_no_deadlock : forall a b m i p, reach a b m -> nth_error (m_threads m) i = Some p -> p <> PIdle ->
  exists j q m', nth_error (m_threads m) j = Some q /\ q <> PIdle /\ tstep m j m'.
Proof.
  intros a b m i p R P NI. pose proof (reach_inv a b m R) as [V1 V2 V3 V4 V5 V6 V7].
  (* whoever holds a slot but not the table can go on *)
  assert (XS : forall j q k, nth_error (m_threads m) j = Some q -> holds_x q = Some k -> exists m', tstep m j m').
  { intros j q k Q H. pose proof (V3 j q Q) as KN. destruct q; cbn [holds_x] in H; try discriminate; cbn [knows] in KN.
    - eexists. eapply TDropS, Q.
    - destruct KN as (c & C & _). destruct j0; eexists; [eapply TConn|eapply TExtend|eapply TDestroy]; eassumption.
    - destruct KN as (c & C & _). eexists. eapply TRelease; eassumption.
    - destruct KN as (c & C). eexists. eapply TCleaned; eassumption.
    - destruct KN as (c & C & _). eexists. eapply TFill; eassumption. }
  assert (WX : forall j q k c, nth_error (m_threads m) j = Some q -> q <> PIdle -> nth_error (m_cells m) k = Some c ->
     (c_lock c = None -> exists m', tstep m j m') -> exists j q m', nth_error (m_threads m) j = Some q /\ q <> PIdle /\ tstep m j m').
  { intros j q k c Q NQ C F. destruct (c_lock c) as [h|] eqn:L.
    - apply (V2 k c h C) in L as (q' & Q' & H). destruct (XS h q' k Q' H) as (m' & S). exists h, q', m'. repeat split; auto. intros ->. discriminate.
    - destruct (F eq_refl) as (m' & S). exists j, q, m'. auto. }
  (* whoever holds the table can go on, or the holder of the slot it waits for *)
  assert (SS : forall j q, nth_error (m_threads m) j = Some q -> holds_s q = true -> exists j q m', nth_error (m_threads m) j = Some q /\ q <> PIdle /\ tstep m j m').
  { intros j q Q H. pose proof (V3 j q Q) as KN. destruct q; cbn [holds_s] in H; try discriminate; cbn [knows] in KN.
    - destruct (Forall_Exists_dec (fun c => hit (job_id j0) c = false) (fun c => bool_dec _ _) (m_cells m)) as [F|F].
      + exists j, (PHasS j0). eexists. repeat split; [exact Q|discriminate|]. eapply TMiss; eassumption.
      + apply Exists_exists in F as (c & I & F). apply In_nth_error in I as (k & K). apply not_false_iff_true in F.
        exists j, (PHasS j0). eexists. repeat split; [exact Q|discriminate|]. eapply TFind; eassumption.
    - destruct KN as (c & C & _). eapply (WX j _ k c Q); [discriminate|exact C|]. intros L. eexists. eapply TLockX; eassumption.
    - exists j, (PHasX j0 k). eexists. repeat split; [exact Q|discriminate|]. eapply TDropS, Q.
    - destruct (Forall_Exists_dec (fun c => c_active c = true) (fun c => bool_dec _ _) (m_cells m)) as [F|F].
      + exists j, (PCreate id conn). eexists. repeat split; [exact Q|discriminate|]. eapply TFull; eassumption.
      + apply Exists_exists in F as (c & I & F). apply In_nth_error in I as (k & K). apply not_true_iff_false in F.
        exists j, (PCreate id conn). eexists. repeat split; [exact Q|discriminate|]. eapply TSlot; eassumption.
    - destruct KN as (c & C). eapply (WX j _ k c Q); [discriminate|exact C|]. intros L. eexists. eapply TCleanX; eassumption.
    - destruct (XS j _ k Q eq_refl) as (m' & S). exists j, (PClean id conn k), m'. repeat split; auto. discriminate.
    - destruct KN as (c & C & _). eapply (WX j _ k c Q); [discriminate|exact C|]. intros L. eexists. eapply TFillX; eassumption.
    - destruct (XS j _ k Q eq_refl) as (m' & S). exists j, (PFill id conn k), m'. repeat split; auto. discriminate. }
  destruct (holds_s p) eqn:HS; [eapply SS; eassumption|].
  destruct (holds_x p) as [k|] eqn:HX.
  { destruct (XS i p k P HX) as (m' & S). exists i, p, m'. auto. }
  destruct p; try discriminate; try contradiction.
  - destruct (m_s m) as [h|] eqn:MS.
    + destruct (proj1 (V1 h) eq_refl) as (q & Q & H). eapply SS; eassumption.
    + exists i, (PWantS j). eexists. repeat split; [exact P|discriminate|]. eapply TLockS; eassumption.
  - destruct (m_s m) as [h|] eqn:MS.
    + destruct (proj1 (V1 h) eq_refl) as (q & Q & H). eapply SS; eassumption.
    + exists i, (PWantCreate id conn). eexists. repeat split; [exact P|discriminate|]. eapply TCreateS; eassumption.
Qed.
(** A connection handed out for an id is the one created with that id, and so is
    any connection released by destroying or expiring it. *)
Theorem C71_right_session : forall a b m, reach a b m ->
  (forall id n live, In (JConn id, RConn (Some n), live) (m_log m) -> In (id, n) (m_made m)) /\
  (forall id n, In (id, n) (m_freed m) -> In (id, n) (m_made m)).
Proof. intros a b m R. pose proof (reach_inv a b m R) as V. split; [exact (i_log m V)|intros id n; apply (i_free m V)]. Qed.
(** Two calls never work on the same slot at once. *)
Theorem C71_exclusive : forall a b m i j p q k, reach a b m -> nth_error (m_threads m) i = Some p -> nth_error (m_threads m) j = Some q ->
  holds_x p = Some k -> holds_x q = Some k -> i = j.
Proof.
  intros a b m i j p q k R P Q HP HQ. pose proof (reach_inv a b m R) as V.
  assert (C : exists c, nth_error (m_cells m) k = Some c).
  { pose proof (i_k m V i p P) as KN. destruct p; cbn [holds_x] in HP; try discriminate; assert (k0 = k) by congruence; subst; cbn [knows] in KN;
      [destruct KN as (c & C & _)..|destruct KN as (c & C)|destruct KN as (c & C & _)]; eauto. }
  destruct C as (c & C). assert (c_lock c = Some i) by (apply (i_x m V k c i C); eauto). assert (c_lock c = Some j) by (apply (i_x m V k c j C); eauto). congruence.
Qed.

(** False: a call that finds its session while another thread is destroying it
    goes on after the destruction; it reports success, with no connection. *)
Ltac idle_threads := let j := fresh in let p := fresh in let E := fresh in
  intros j p E; do 3 (destruct j as [|j]; [cbn in E; try discriminate; assert (p = PIdle) by congruence; subst p; exact I|]); destruct j; discriminate.
Tactic Notation "nx" hyp(R) ident(R') constr(i) uconstr(c) :=
  match type of R with reach ?a ?b ?m =>
    let m' := fresh "m'" in let S := fresh "S" in evar (m' : sys);
    assert (S : tstep m i m') by (subst m'; eapply c; solve [reflexivity|idle_threads|cbn; tauto]);
    pose proof (ReachS a b m i m' R S) as R'; subst m'; clear S
  end.
Definition destroyed_under : sys :=
  mkSys None [mkCell 5 None false None] [PIdle; PIdle]
    [(JConn 5, RConn None, false); (JDestroy 5, ROk, true)] [(5, 50)] [(5, 50)].
Lemma destroyed_under_reach : reach 2 1 destroyed_under.
Proof.
  pose proof (Reach0 2 1) as R.
  nx R R1 0 (TCreate _ 0 5 50).
  nx R1 R2 0 (TCreateS _ 0 5 50).
  nx R2 R3 0 (TSlot _ 0 5 50 0).
  nx R3 R4 0 (TFillX _ 0 5 50 0).
  nx R4 R5 0 (TFill _ 0 5 50 0).
  (* thread 0 destroys, up to clearing the flag's lock *)
  nx R5 R6 0 (TStart _ 0 (JDestroy 5)).
  nx R6 R7 0 (TLockS _ 0 (JDestroy 5)).
  nx R7 R8 0 (TFind _ 0 (JDestroy 5) 0).
  nx R8 R9 0 (TLockX _ 0 (JDestroy 5) 0).
  nx R9 R10 0 (TDropS _ 0 (JDestroy 5) 0).
  (* thread 1 looks the session up meanwhile *)
  nx R10 R11 1 (TStart _ 1 (JConn 5)).
  nx R11 R12 1 (TLockS _ 1 (JConn 5)).
  nx R12 R13 1 (TFind _ 1 (JConn 5) 0).
  nx R13 R14 0 (TDestroy _ 0 5 0).
  nx R14 R15 0 (TRelease _ 0 5 0).
  nx R15 R16 1 (TLockX _ 1 (JConn 5) 0).
  nx R16 R17 1 (TDropS _ 1 (JConn 5) 0).
  nx R17 R18 1 (TConn _ 1 5 0).
  exact R18.
Qed.
Theorem C71_refuted : ~ (forall a b m id c live, reach a b m -> In (JConn id, RConn c, live) (m_log m) -> c <> None /\ live = true).
Proof.
  intros H. destruct (H 2 1 destroyed_under 5 None false destroyed_under_reach) as (N & _); [left; reflexivity|]. apply N. reflexivity.
Qed.
(** What does hold: success without a connection means the session was no longer
    live. *)
Theorem C71_live_partial : forall a b m id c, reach a b m -> In (JConn id, RConn c, true) (m_log m) -> c <> None.
Proof.
  intros a b m id c R. induction R as [|m i m' R IH ST]; [intros []|].
  pose proof (reach_inv a b m R) as V. intros I. destruct ST; cbn in I; auto; try (destruct I as [I|I]; [try discriminate|auto]).
  assert (HI : hit id0 c0 = true) by congruence. assert (c = c_conn c0) by congruence. subst c.
  apply andb_true_iff in HI as (HI & _). eapply (i_live m V k c0); assumption.
Qed.
(** Also false: the flag [active] is always accessed under a common lock.  A
    lookup can be about to read it while destroy is about to write it. *)
Definition reads_active (m : sys) (p : phase) (k : nat) : Prop := match p with PHasS _ | PCreate _ _ => (k < length (m_cells m))%nat | _ => False end.
Definition writes_active (p : phase) (k : nat) : Prop := match p with PBody (JDestroy _) k' | PFill _ _ k' | PClean _ _ k' => k' = k | _ => False end.
Theorem C71_race_refuted : ~ (forall a b m i j p q k, reach a b m -> i <> j -> nth_error (m_threads m) i = Some p -> nth_error (m_threads m) j = Some q ->
  ~ (reads_active m p k /\ writes_active q k)).
Proof.
  intros H.
  pose proof (Reach0 2 1) as R.
  nx R R1 0 (TCreate _ 0 5 50).
  nx R1 R2 0 (TCreateS _ 0 5 50).
  nx R2 R3 0 (TSlot _ 0 5 50 0).
  nx R3 R4 0 (TFillX _ 0 5 50 0).
  nx R4 R5 0 (TFill _ 0 5 50 0).
  nx R5 R6 0 (TStart _ 0 (JDestroy 5)).
  nx R6 R7 0 (TLockS _ 0 (JDestroy 5)).
  nx R7 R8 0 (TFind _ 0 (JDestroy 5) 0).
  nx R8 R9 0 (TLockX _ 0 (JDestroy 5) 0).
  nx R9 R10 0 (TDropS _ 0 (JDestroy 5) 0).
  nx R10 R11 1 (TStart _ 1 (JConn 5)).
  nx R11 R12 1 (TLockS _ 1 (JConn 5)).
  apply (H 2 1 _ 1 0 _ _ 0 R12 ltac:(discriminate) eq_refl eq_refl). cbn. lia.
Qed.

(** A case: a call of another thread answered while the session lives. *)
Definition served : sys :=
  mkSys None [mkCell 5 (Some 50) true None] [PIdle; PIdle] [(JConn 5, RConn (Some 50), true)] [(5, 50)] [].
Example C71_meets : reach 2 1 served /\ In (5, 50) (m_made served).
Proof.
  assert (R : reach 2 1 served).
  { pose proof (Reach0 2 1) as R.
    nx R R1 0 (TCreate _ 0 5 50).
    nx R1 R2 0 (TCreateS _ 0 5 50).
    nx R2 R3 0 (TSlot _ 0 5 50 0).
    nx R3 R4 0 (TFillX _ 0 5 50 0).
    nx R4 R5 0 (TFill _ 0 5 50 0).
    nx R5 R6 1 (TStart _ 1 (JConn 5)).
    nx R6 R7 1 (TLockS _ 1 (JConn 5)).
    nx R7 R8 1 (TFind _ 1 (JConn 5) 0).
    nx R8 R9 1 (TLockX _ 1 (JConn 5) 0).
    nx R9 R10 1 (TDropS _ 1 (JConn 5) 0).
    nx R10 R11 1 (TConn _ 1 5 0).
    exact R11. }
  split; [exact R|]. apply (proj1 (C71_right_session 2 1 served R) 5 50 true). left. reflexivity.
Qed.

Print Assumptions C71_no_deadlock. Print Assumptions C71_right_session. Print Assumptions C71_exclusive.
Print Assumptions C71_refuted. Print Assumptions C71_live_partial. Print Assumptions C71_race_refuted.
