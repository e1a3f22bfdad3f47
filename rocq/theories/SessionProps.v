(** C31-C35, C70: wallet-connect sessions. *)
From Verif Require Import Base BaseFacts Dec Hex HexSpec HexProofs Session SessionSpec SessionProofs.
Open Scope Z_scope.

(** Concrete histories. *)
Definition undefb (a : answer) : bool := match a with AUnit Undef | AId Undef | ACharge Undef | AConn Undef => true | _ => false end.
Lemma undefb_false a : undefb a = false -> ~ undefined a.
Proof. destruct a as [[]|[]|[]|[]]; cbn; intros H; try discriminate; auto. Qed.
Fixpoint replay (os : list op) (h : list entry) (w : world) : option (list entry * world) :=
  match os with
  | [] => Some (h, w)
  | o :: r => let '(w', a) := call w o in if undefb a then None else replay r ((o, a) :: h) w'
  end.
Lemma replay_run os : forall h w h' w', run h w -> replay os h w = Some (h', w') -> run h' w'.
Proof.
  induction os as [|o os IH]; intros h w h' w' R E; cbn [replay] in E.
  - assert (h' = h /\ w' = w) as (-> & ->) by (split; congruence). exact R.
  - destruct (call w o) as (w1, a) eqn:C. destruct (undefb a) eqn:U; [discriminate|].
    eapply IH; [|exact E]. eapply RunS; [exact R|exact C|apply undefb_false, U].
Qed.
Definition played (os : list op) : list entry * world := match replay os [] w0 with Some p => p | None => ([], w0) end.
Lemma played_run os : replay os [] w0 <> None -> run (fst (played os)) (snd (played os)).
Proof.
  unfold played. destruct (replay os [] w0) as [(h, w)|] eqn:E; [|congruence]. intros _. cbn [fst snd].
  eapply replay_run; [apply Run0|exact E].
Qed.
Ltac by_play := apply played_run; vm_compute; discriminate.
Lemma played_typed os h w : replay os h w <> None -> Forall typed_op os -> typed h -> forall h' w', replay os h w = Some (h', w') -> typed h'.
Proof.
  revert h w. induction os as [|o os IH]; intros h w NE F T h' w' E; cbn [replay] in *.
  - assert (h' = h) by congruence. subst. exact T.
  - destruct (call w o) as (w1, a). destruct (undefb a); [discriminate|]. inversion F; subst.
    eapply IH; [exact NE|assumption| |exact E]. constructor; assumption.
Qed.
Lemma play_typed os : replay os [] w0 <> None -> Forall typed_op os -> typed (fst (played os)).
Proof.
  intros NE F. unfold played. destruct (replay os [] w0) as [(h, w)|] eqn:E; [|congruence].
  eapply played_typed; [rewrite E; discriminate|exact F|constructor|exact E].
Qed.
Ltac typed_ops := repeat constructor; cbn; try lia; try (apply Forall_forall; intros ? H; apply repeat_spec in H; subst; lia).

Definition draw (b : N) : list N := repeat b 32.
Definition sid (b : N) : list N := hex_encode (draw b).
Definition opening : list op := [OInit true; OCreate true (Ok 7%nat) 100 100 (Some (draw 171))].

(** ** C31 *)
(** Within one accounting window the amounts authorised against a permission
    never exceed its limit, as long as no amount passes 2^64 when added to a
    limit. *)
Theorem C31_limits_partial : forall h w id k name limit interval window,
  run h w -> typed h -> fresh h -> no_wrap h ->
  nth_error (granted h id) k = Some (name, limit, interval) -> 0 < limit ->
  authorised h id k window <= limit.
Proof. intros h w id k name limit interval window R T F NW G L. exact (a_bound h w (run_acc h w R T F NW) id k _ G L window). Qed.
(** The permission charged is the first one granted for the method or for all
    methods. *)
Lemma find_perm_first method : forall l i k g, Forall2 rel l g -> find_perm method i l = Ok (Some k) ->
  (i <= k)%nat /\ exists name limit interval, nth_error g (k - i) = Some (name, limit, interval) /\ (name = method \/ name = bs "*") /\
  forall j n' l' i', (j < k - i)%nat -> nth_error g j = Some (n', l', i') -> n' <> method /\ n' <> bs "*".
Proof.
  induction l as [|p l IH]; intros i k g F; cbn [find_perm]; [discriminate|].
  inversion F as [|? g1 ? g' R1 F']; subst. destruct (p_name p) as [n|] eqn:PN; [|discriminate].
  destruct R1 as (R1 & _). specialize (R1 n PN). destruct g1 as ((n1, l1), i1). cbn [fst] in R1. subst n1.
  destruct (beq n method || beq n (bs "*")) eqn:B.
  - intros E. assert (i = k) by congruence. subst. rewrite Nat.sub_diag. split; [lia|]. exists n, l1, i1. split; [reflexivity|].
    split; [|intros; lia]. apply orb_true_iff in B as [B|B]; apply beq_eq in B; auto.
  - intros E. destruct (IH (S i) k g' F' E) as (L & name & lim & iv & N & M & FST). split; [lia|].
    replace (k - i)%nat with (S (k - S i)) by lia. exists name, lim, iv. split; [exact N|]. split; [exact M|].
    intros [|j] n' l' i' J NJ; cbn [nth_error] in NJ.
    + assert (n = n') by congruence. subst n'. apply orb_false_iff in B as (B1 & B2). split; intros ->; rewrite beq_refl in *; discriminate.
    + apply (FST j n' l' i'); [lia|exact NJ].
Qed.
Lemma check_ok h w id method amount now k e w' : run h w -> typed h -> fresh h ->
  call w (OCheck id method amount now) = (w', ACharge (Ok (k, e))) ->
  exists t i x cap l p q, g_table w = Some t /\ nth_error t i = Some x /\ x_active x = true /\ x_id x = key id /\
    x_perms x = Some (cap, l) /\ nth_error l k = Some p /\ now <= x_expires x /\ find_perm method 0 l = Ok (Some k) /\
    (q = p /\ now <= p_reset p \/ q = mkPerm (p_name p) (p_limit p) (now + p_interval p) (p_interval p) 0 /\ p_reset p < now) /\
    (0 < p_limit p -> u64 (p_used q + amount) <= p_limit p) /\ e = p_reset q.
Proof.
  intros R T F C. cbn [call] in C. unfold lift in C. destruct (check_permission w id method amount now) as (w2, r) eqn:E. cbn [fst snd] in C.
  assert (r = Ok (k, e)) by congruence. subst r. apply on_session_spec in E; [|eapply run_wf; eassumption].
  destruct E as [(_ & [D|(D & _)])|(t & i & x & x' & TT & X & A & I' & FX & _ & _)]; [discriminate|discriminate|].
  apply check_body in FX. destruct FX as [(_ & [D|D])|(j & p & cap & l & q & PX & PK & EX & FP & Q & Z)]; [discriminate|discriminate|].
  destruct Z as [(_ & _ & _ & D)|(LE & D & _)]; [discriminate|]. assert (k = j /\ e = p_reset q) as (-> & ->) by (split; congruence).
  exists t, i, x, cap, l, p, q. repeat split; assumption.
Qed.
Theorem C31_charged : forall h w id method amount now k window w',
  run h w -> typed h -> fresh h -> call w (OCheck id method amount now) = (w', ACharge (Ok (k, window))) ->
  exists name limit interval, nth_error (granted h (key id)) k = Some (name, limit, interval) /\ (name = method \/ name = bs "*") /\
    forall j n' l' i', (j < k)%nat -> nth_error (granted h (key id)) j = Some (n', l', i') -> n' <> method /\ n' <> bs "*".
Proof.
  intros h w id method amount now k window w' R T F C.
  destruct (check_ok _ _ _ _ _ _ _ _ _ R T F C) as (t & i & x & cap & l & p & q & TT & X & A & I' & PX & PK & EX & FP & _).
  destruct (s_slot h w (run_sim h w R T F) i x ltac:(exists t; auto)) as (_ & _ & _ & G).
  unfold perm_list in G. rewrite PX, I' in G. destruct (find_perm_first method l 0 k _ G FP) as (_ & D). rewrite Nat.sub_0_r in D. exact D.
Qed.
(** A window lasts one interval: the charges to the window ending at [e] were
    made at times between e - interval and e. *)
Theorem C31_window : forall h w id method amount now k window w' name limit interval,
  run h w -> typed h -> fresh h -> times_ok ((OCheck id method amount now, ACharge (Ok (k, window))) :: h) ->
  call w (OCheck id method amount now) = (w', ACharge (Ok (k, window))) ->
  nth_error (granted h (key id)) k = Some (name, limit, interval) ->
  window - interval <= now <= window.
Proof.
  intros h w id method amount now k window w' name limit interval R T F TM C GR.
  destruct (check_ok _ _ _ _ _ _ _ _ _ R T F C) as (t & i & x & cap & l & p & q & TT & X & A & I' & PX & PK & EX & FP & Q & _ & ->).
  assert (SX : slot w i x) by (exists t; auto).
  destruct (s_slot h w (run_sim h w R T F) i x SX) as (_ & _ & _ & G). rewrite I' in G.
  assert (PL : perm_list x = l) by (unfold perm_list; rewrite PX; reflexivity).
  destruct (Forall2_nth _ _ _ G k p ltac:(rewrite PL; exact PK)) as (g & G1 & (_ & _ & G2)).
  assert (g = (name, limit, interval)) by congruence. subst g. cbn [snd] in G2.
  destruct (granted_typed h (key id) _ T (nth_error_In _ _ GR)) as (_ & GI). cbn [snd] in GI.
  cbn [times_ok now_of] in TM. destruct TM as (TM & TM').
  destruct (run_window h w R T TM' i x k p SX ltac:(rewrite PL; exact PK)) as (lt & LT & LE). rewrite LT in TM.
  destruct Q as [(-> & Q)|(-> & Q)]; [|cbn [p_reset]]; lia.
Qed.
(** In general false: the running total wraps around at 2^64. *)
Definition spender : list op := opening ++
  [OAdd (sid 171) (bs "pay_invoice") 1000 3600 100 true true; OCheck (sid 171) (bs "pay_invoice") 1 101;
   OCheck (sid 171) (bs "pay_invoice") (2 ^ 64 - 1) 102].
Theorem C31_refuted : ~ (forall h w id k name limit interval window, run h w -> typed h -> fresh h ->
  nth_error (granted h id) k = Some (name, limit, interval) -> 0 < limit -> authorised h id k window <= limit).
Proof.
  intros H. assert (A : authorised (fst (played spender)) (sid 171) 0 3700 <= 1000).
  { apply (H _ (snd (played spender)) (sid 171) 0%nat (bs "pay_invoice") 1000 3600 3700); [by_play| | |vm_compute; reflexivity|lia].
    - apply play_typed; [vm_compute; discriminate|]. typed_ops.
    - unfold fresh. vm_compute. repeat constructor; intros []. }
  vm_compute in A. apply A. reflexivity.
Qed.
(** A run within the assumptions: 600 of 1000 spent, 500 more refused, 400
    accepted, and a fresh window afterwards. *)
Definition payer : list op := opening ++
  [OAdd (sid 171) (bs "pay_invoice") 1000 3600 100 true true; OCheck (sid 171) (bs "pay_invoice") 600 101;
   OCheck (sid 171) (bs "pay_invoice") 500 102; OCheck (sid 171) (bs "pay_invoice") 400 103;
   OExtend (sid 171) 10000; OCheck (sid 171) (bs "pay_invoice") 1000 3701].
Example C31_meets : let h := fst (played payer) in
  run h (snd (played payer)) /\ typed h /\ fresh h /\ no_wrap h /\ times_ok h /\
  nth_error (granted h (sid 171)) 0 = Some (bs "pay_invoice", 1000, 3600) /\
  map (fun w => authorised h (sid 171) 0 w) [3700; 7301] = [1000; 1000] /\
  map snd (firstn 5 (rev (firstn 6 h))) =
    [AUnit (Ok tt); ACharge (Ok (0%nat, 3700)); ACharge (Err EInvalidParam); ACharge (Ok (0%nat, 3700)); AUnit (Ok tt)].
Proof.
  assert (P : replay payer [] w0 <> None) by (vm_compute; discriminate).
  cbv zeta. split; [by_play|]. split; [apply play_typed; [exact P|typed_ops]|].
  split; [unfold fresh; vm_compute; repeat constructor; intros []|].
  split.
  - intros a l A L. assert (a <= 1000 /\ l <= 1000); [|lia].
    vm_compute in A, L. split; repeat match goal with H : _ \/ _ |- _ => destruct H | H : False |- _ => destruct H end; subst; lia.
  - repeat split; vm_compute; try reflexivity; try discriminate.
Qed.

(** ** C32 *)
(** Never more sessions than the maximum configured when the table was set up. *)
Theorem C32_bound : forall h w, run h w -> typed h -> fresh h ->
  (length (active_ids w) <= match table_size h with Some n => n | None => 0 end)%nat.
Proof.
  intros h w R T F. rewrite (s_size h w (run_sim h w R T F)). unfold active_ids.
  destruct (g_table w) as [t|]; cbn [option_map length]; [|lia]. rewrite map_length.
  induction t as [|x t IH]; cbn [filter length]; [lia|]. destruct (x_active x); cbn [length]; lia.
Qed.
(** Not the maximum configured now: lowering it later has no effect. *)
Definition lowered : list op :=
  [OConfig (Some (mkLimits 2 3600 32)); OInit true; OCreate true (Ok 1%nat) 100 100 (Some (draw 171));
   OCreate true (Ok 2%nat) 101 101 (Some (draw 172)); OConfig (Some (mkLimits 1 3600 32))].
Theorem C32_configured_refuted : ~ (forall h w, run h w -> typed h -> fresh h -> (length (active_ids w) <= sessions_of (config_of h))%nat).
Proof.
  intros H. assert (A : (length (active_ids (snd (played lowered))) <= sessions_of (config_of (fst (played lowered))))%nat).
  { apply H; [by_play|apply play_typed; [vm_compute; discriminate|typed_ops]|].
    unfold fresh. vm_compute. repeat constructor; cbn; intuition discriminate. }
  vm_compute in A. lia.
Qed.
(** Ids of active sessions are distinct. *)
Lemma active_nodup t : (forall j k x y, nth_error t j = Some x -> x_active x = true -> nth_error t k = Some y -> x_active y = true -> x_id x = x_id y -> j = k) ->
  NoDup (map x_id (filter x_active t)).
Proof.
  induction t as [|x t IH]; intros H; cbn [filter]; [constructor|].
  assert (IH' : NoDup (map x_id (filter x_active t))).
  { apply IH. intros j k y z Y AY Z AZ E. specialize (H (S j) (S k) y z Y AY Z AZ E). lia. }
  destruct (x_active x) eqn:A; [|exact IH']. cbn [map]. constructor; [|exact IH'].
  intros I. apply in_map_iff in I as (y & E & I). apply filter_In in I as (I & AY). apply In_nth_error in I as (k & K).
  specialize (H 0%nat (S k) x y eq_refl A K AY (eq_sym E)). discriminate.
Qed.
Theorem C32_distinct : forall h w, run h w -> typed h -> fresh h -> NoDup (active_ids w).
Proof.
  intros h w R T F. pose proof (s_dup h w (run_sim h w R T F)) as D. unfold active_ids. destruct (g_table w) as [t|] eqn:TT; [|constructor].
  apply active_nodup. intros j k x y X AX Y AY E. apply (D j k x y); [exists t; auto..|exact E].
Qed.
(** A call addressed to one session leaves every other session as it was. *)
Definition addresses (o : op) : option (list N) :=
  match o with
  | OAdd id _ _ _ _ _ _ | OCheck id _ _ _ | OConn id _ | OExtend id _ | ODestroy id => Some (key id)
  | _ => None
  end.
Lemma find_update {A} (f : A -> bool) l : forall k x x', nth_error l k = Some x -> f x = false -> f x' = false -> find f (update l k x') = find f l.
Proof.
  induction l as [|y l IH]; intros [|k] x x' N F F'; cbn in *; try discriminate.
  - assert (y = x) by congruence. subst. rewrite F, F'. reflexivity.
  - destruct (f y); [reflexivity|]. eapply IH; eassumption.
Qed.
Theorem C32_frame : forall h w o w' a id id', run h w -> typed h -> typed_op o -> call w o = (w', a) ->
  addresses o = Some id -> id' <> id -> lookup w' id' = lookup w id'.
Proof.
  intros h w o w' a id id' R T TO C AD NE. pose proof (run_wf h w R T) as W.
  assert (ON : forall A i (f : session -> session * res A) r, key i = id -> on_session w i f = (w', r) ->
    (forall x y r, f x = (y, r) -> x_id y = x_id x) -> lookup w' id' = lookup w id').
  { intros A i f r K E F. apply on_session_spec in E; [|exact W].
    destruct E as [(-> & _)|(t & k & x & x' & TT & X & AX & I' & FX & -> & _)]; [reflexivity|].
    unfold lookup. cbn [with_table g_table]. rewrite TT.
    assert (IX : x_id x <> id') by congruence. assert (IX' : x_id x' <> id') by (rewrite (F x x' r FX); exact IX).
    apply (find_update _ t k x); [exact X| |]; apply andb_false_iff; right; apply nb; assumption. }
  destruct o; cbn [addresses] in AD; try discriminate; cbn [call] in C; unfold lift in C;
    (match type of C with (fst ?p, _) = _ => destruct p as (w2, r) eqn:E end); cbn [fst snd] in C;
    assert (w' = w2) by congruence; subst w2; (eapply ON; [|exact E|]); try congruence.
  - intros x y r' F. apply add_body_keeps in F. destruct F as [(-> & _)|(_ & _ & cap & _ & _ & ->)]; reflexivity.
  - intros x y r' F. apply check_body in F. destruct F as [(-> & _)|(i & p & cap' & l' & q & _ & _ & _ & _ & _ & [(_ & _ & -> & _)|(_ & _ & ->)])]; reflexivity.
  - intros x y r' F. cbv beta in F. assert (y = x) by (destruct (x_expires x <? now); congruence). congruence.
  - intros x y r' F. cbv beta in F. assert (y = mkSession (x_id x) (x_conn x) (x_perms x) (x_expires x + secs) (x_active x)) by congruence. subst. reflexivity.
  - intros x y r' F. cbv beta in F. assert (y = mkSession (x_id x) None None (x_expires x) false) by congruence. subst. reflexivity.
Qed.
(** A creation changes no session that has not expired. *)
Lemma find_map {A} (f : A -> bool) (g : A -> A) l x : find f l = Some x -> f (g x) = true ->
  (forall y, f y = false -> f (g y) = false) -> find f (map g l) = Some (g x).
Proof.
  induction l as [|y l IH]; cbn [find map]; [discriminate|]. intros E FG N. destruct (f y) eqn:FY.
  - assert (y = x) by congruence. subst. rewrite FG. reflexivity.
  - rewrite (N y FY). apply IH; assumption.
Qed.
Theorem C32_create_frame : forall h w alloc uri now now2 rnd w' a id x, run h w -> typed h -> fresh ((OCreate alloc uri now now2 rnd, a) :: h) ->
  typed_op (OCreate alloc uri now now2 rnd) -> call w (OCreate alloc uri now now2 rnd) = (w', a) ->
  lookup w id = Some x -> now <= x_expires x -> lookup w' id = Some x.
Proof.
  intros h w alloc uri now now2 rnd w' a id x R T F TO C L EX.
  pose proof (run_wf h w R T) as W. pose proof (run_sim h w R T (fresh_tail _ _ F)) as S.
  cbn [call] in C. unfold lift in C. destruct (session_create w alloc uri now now2 rnd) as (w2, r) eqn:E. cbn [fst snd] in C.
  assert (w' = w2) by congruence. assert (AR : a = AId r) by congruence. subst w2.
  apply create_spec in E; [|exact W|destruct rnd; [apply TO|exact I]]. cbv zeta in E.
  assert (G : g_init w = true).
  { destruct (g_init w) eqn:G; [reflexivity|]. apply (wf_none w W) in G. unfold lookup in L. rewrite G in L. discriminate. }
  rewrite G in E. destruct E as (_ & _ & E).
  assert (LC : forall t, g_table w = Some t -> find (fun x => x_active x && beq (x_id x) id) (cleanup now t) = Some x).
  { intros t TT. unfold lookup in L. rewrite TT in L. pose proof (find_some _ _ L) as (_ & B). apply andb_true_iff in B as (B1 & B2).
    set (g := fun x => if x_active x && (x_expires x <? now) then mkSession (x_id x) None None (x_expires x) false else x).
    assert (GX : g x = x).
    { unfold g. rewrite B1. destruct (Z.ltb_spec (x_expires x) now); [lia|reflexivity]. }
    rewrite <- GX. apply (find_map (fun x => x_active x && beq (x_id x) id) g); [exact L|rewrite GX, B1; exact B2|].
    intros y FY. unfold g. destruct (x_active y && (x_expires y <? now)); [reflexivity|exact FY]. }
  destruct uri as [conn|e|]; [|destruct E as (-> & _); exact L|destruct E as (-> & _); exact L].
  destruct E as [(_ & -> & _)|(_ & _ & _ & [(T1 & T2 & RR)|(t & T1 & [(T2 & _)|(k & y & rb & Y & AY & RE & RO & T2)])])].
  - exact L.
  - unfold lookup in L. rewrite T1 in L. discriminate.
  - unfold lookup. rewrite T2. apply LC, T1.
  - unfold lookup. rewrite T2. rewrite (find_update _ _ k y); [apply LC, T1|exact Y|rewrite AY; reflexivity|].
    cbn [x_active x_id andb]. apply nb. intros EQ. destruct (lookup_slot w id x L) as (t' & j & TT & J & AX & IX).
    destruct (s_slot h w S j x ltac:(exists t'; auto)) as (IN & _). subst a. rewrite RO in F. unfold fresh in F. cbn [created] in F.
    inversion F as [|? ? NI _]. apply NI. congruence.
Qed.
Example C32_meets : let os := opening ++ [OCreate true (Ok 9%nat) 100 100 (Some (draw 172)); OAdd (sid 171) (bs "*") 5 60 100 true true; ODestroy (sid 172)] in
  run (fst (played os)) (snd (played os)) /\ active_ids (snd (played os)) = [sid 171] /\
  option_map x_conn (lookup (snd (played os)) (sid 171)) = Some (Some 7%nat) /\ table_size (fst (played os)) = Some 100%nat.
Proof. cbv zeta. split; [by_play|]. repeat split; vm_compute; reflexivity. Qed.

(** ** C33 *)
(** At most ten sessions are created while the clock shows the same second. *)
Theorem C33_rate : forall h w s, run h w -> typed h -> clock_ok h -> created_at h s <= 10.
Proof. intros h w s R T C. apply (r_all h w (run_rate h w R T C)). Qed.
(** A creation refused by the limiter leaves every session as it was. *)
Theorem C33_refused : forall h w alloc conn now now2 rnd w' id, run h w -> typed h ->
  typed_op (OCreate alloc (Ok conn) now now2 rnd) ->
  call w (OCreate alloc (Ok conn) now now2 rnd) = (w', AId (Err EInvalidParam)) -> lookup w' id = lookup w id.
Proof.
  intros h w alloc conn now now2 rnd w' id R T TO C. pose proof (run_wf h w R T) as W.
  cbn [call] in C. unfold lift in C. destruct (session_create w alloc (Ok conn) now now2 rnd) as (w2, r) eqn:E. cbn [fst snd] in C.
  assert (w' = w2) by congruence. assert (r = Err EInvalidParam) by congruence. subst w2 r.
  apply create_spec in E; [|exact W|destruct rnd; [apply TO|exact I]]. cbv zeta in E.
  destruct E as (_ & _ & [(_ & -> & _)|(_ & _ & _ & [(_ & _ & [D|D])|(t & _ & [(_ & D)|(k & y & rb & _ & _ & _ & D & _)])])]); try discriminate.
  unfold lookup. cbn [with_rate g_table]. destruct (g_init w) eqn:G; [reflexivity|].
  apply (wf_none w W) in G as TN. rewrite TN. unfold session_init. rewrite G. destruct alloc; cbn [fst g_table]; [|reflexivity].
  generalize (match g_config w with Some c => l_sessions c | None => 100%nat end). induction n as [|n IH]; [reflexivity|exact IH].
Qed.
Definition eleven : list op := OInit true :: map (fun b => OCreate true (Ok 1%nat) 500 500 (Some (draw b))) (map N.of_nat (seq 1 11)).
Example C33_meets : run (fst (played eleven)) (snd (played eleven)) /\ created_at (fst (played eleven)) 500 = 10 /\
  match fst (played eleven) with (_, a) :: _ => a = AId (Err EInvalidParam) | [] => False end.
Proof. split; [by_play|]. split; vm_compute; reflexivity. Qed.

(** ** C34 *)
(** False: the array is sized by the limit at the first grant, and a limit
    raised later lets the next grant store past its end. *)
Definition grown : list op :=
  [OConfig (Some (mkLimits 2 3600 1)); OInit true; OCreate true (Ok 1%nat) 100 100 (Some (draw 171));
   OAdd (sid 171) (bs "pay_invoice") 5 60 100 true true; OConfig (Some (mkLimits 2 3600 2))].
Theorem C34_refuted : ~ (forall h w id name limit interval now, run h w -> typed h -> fresh h -> g_table w <> None -> (63 <= length id)%nat ->
  snd (call w (OAdd id name limit interval now true true)) <> AUnit Undef).
Proof.
  intros H. apply (H (fst (played grown)) (snd (played grown)) (sid 171) (bs "get_balance") 0 60 101).
  - by_play.
  - apply play_typed; [vm_compute; discriminate|typed_ops].
  - unfold fresh. vm_compute. repeat constructor. intros [].
  - vm_compute. discriminate.
  - vm_compute. lia.
  - vm_compute. reflexivity.
Qed.
(** It holds while the configured limit is never raised. *)
Theorem C34_partial : forall h w id name limit interval now alloc dup, run h w -> typed h -> perms_lowered h ->
  g_table w <> None -> (63 <= length id)%nat ->
  snd (call w (OAdd id name limit interval now alloc dup)) <> AUnit Undef.
Proof.
  intros h w id name limit interval now alloc dup R T PL TN L.
  destruct (run_cap h w R T PL) as (_ & K). pose proof (run_wf h w R T) as W.
  cbn [call lift snd]. intros E. apply (f_equal (fun a => match a with AUnit r => r | _ => Ok tt end)) in E. cbn beta iota in E.
  destruct (add_permission w id name limit interval now alloc dup) as (w', r) eqn:C. cbn [snd] in E. subst r.
  apply on_session_spec in C; [|exact W].
  destruct C as [(_ & [D|(_ & [D|D])])|(t & k & x & x' & TT & X & AX & I' & F & _ & _)]; [discriminate|contradiction|lia|].
  apply add_body_keeps in F. destruct F as [(_ & [D|(_ & cap & P & LL)])|(D & _)]; try discriminate.
  specialize (K k x cap _ ltac:(exists t; auto) P). lia.
Qed.
Example C34_meets : let os := opening ++ [OAdd (sid 171) (bs "*") 5 60 100 true true; OConfig (Some (mkLimits 100 3600 1))] in
  run (fst (played os)) (snd (played os)) /\ perms_lowered (fst (played os)) /\
  snd (call (snd (played os)) (OAdd (sid 171) (bs "x") 5 60 101 true true)) = AUnit (Err EMemory).
Proof.
  cbv zeta. split; [by_play|]. split; [|vm_compute; reflexivity].
  vm_compute. lia.
Qed.

(** ** C35 *)
(** A check succeeds only for a session that was created and not destroyed
    since, before its expiry, with a permission for the method. *)
Theorem C35_check : forall h w id method amount now k window w',
  run h w -> typed h -> fresh h -> call w (OCheck id method amount now) = (w', ACharge (Ok (k, window))) ->
  exists e name limit interval, expiry h (key id) = Some e /\ now <= e /\
    nth_error (granted h (key id)) k = Some (name, limit, interval) /\ (name = method \/ name = bs "*").
Proof.
  intros h w id method amount now k window w' R T F C.
  destruct (C31_charged _ _ _ _ _ _ _ _ _ R T F C) as (name & limit & interval & G & M & _).
  destruct (check_ok _ _ _ _ _ _ _ _ _ R T F C) as (t & i & x & cap & l & p & q & TT & X & A & I' & PX & PK & EX & _).
  destruct (s_slot h w (run_sim h w R T F) i x ltac:(exists t; auto)) as (_ & E & _). rewrite I' in E.
  exists (x_expires x), name, limit, interval. auto.
Qed.
(** The connection of a session is handed out under the same conditions, and is
    the one it was created with. *)
Theorem C35_connection : forall h w id now c w', run h w -> typed h -> fresh h ->
  call w (OConn id now) = (w', AConn (Ok c)) ->
  exists e conn, expiry h (key id) = Some e /\ now <= e /\ conn_of h (key id) = Some conn /\ c = Some conn.
Proof.
  intros h w id now c w' R T F C. cbn [call] in C. unfold lift in C. destruct (get_connection w id now) as (w2, r) eqn:E. cbn [fst snd] in C.
  assert (r = Ok c) by congruence. subst r. pose proof (run_wf h w R T) as W. apply on_session_spec in E; [|exact W].
  destruct E as [(_ & [D|(D & _)])|(t & i & x & x' & TT & X & A & I' & FX & _ & _)]; [discriminate|discriminate|].
  destruct (Z.ltb_spec (x_expires x) now) as [L|L]; [discriminate|]. assert (c = x_conn x) by congruence. subst c.
  destruct (s_slot h w (run_sim h w R T F) i x ltac:(exists t; auto)) as (_ & E1 & E2 & _). rewrite I' in E1, E2.
  destruct (wf_active w W t i x TT X A) as (_ & conn & CN). exists (x_expires x), conn. repeat split; congruence.
Qed.
(** Nothing is granted to or extended on a session that is not there. *)
Theorem C35_modify : forall h w o id w' a, run h w -> typed h -> fresh h ->
  (match o with OAdd i _ _ _ _ _ _ | OExtend i _ | ODestroy i => key i = id | _ => False end) ->
  call w o = (w', a) -> a = AUnit (Ok tt) -> expiry h id <> None.
Proof.
  intros h w o id w' a R T F K C AE. pose proof (run_wf h w R T) as W. pose proof (run_sim h w R T F) as S.
  assert (ON : forall i (f : session -> session * res unit) r, key i = id -> on_session w i f = (w', r) -> r = Ok tt -> expiry h id <> None).
  { intros i f r KI E RE. subst r. apply on_session_spec in E; [|exact W].
    destruct E as [(_ & [D|(D & _)])|(t & k & x & x' & TT & X & A & I' & _)]; [discriminate|discriminate|].
    destruct (s_slot h w S k x ltac:(exists t; auto)) as (_ & E & _). rewrite I', KI in E. congruence. }
  destruct o; try contradiction; cbn [call] in C; unfold lift in C;
    (match type of C with (fst ?p, _) = _ => destruct p as (w2, r) eqn:E end); cbn [fst snd] in C;
    assert (w' = w2) by congruence; assert (r = Ok tt) by congruence; subst w2; (eapply ON; [exact K|exact E|assumption]).
Qed.
(** And conversely an unexpired session with a permission whose limit leaves
    room authorises the amount. *)
Lemma find_from_complete key t k x : nth_error t k = Some x -> x_active x = true -> x_id x = key ->
  (forall j y, (j < k)%nat -> nth_error t j = Some y -> x_active y && beq (x_id y) key = false) -> forall i, find_from key i t = Some (i + k)%nat.
Proof.
  intros X A <-. revert k X. induction t as [|y t IH]; intros k X FST i; [destruct k; discriminate|].
  cbn [find_from]. destruct k as [|k].
  - cbn [nth_error] in X. assert (y = x) by congruence. subst. rewrite A, beq_refl. cbn [andb]. f_equal. lia.
  - rewrite (FST 0%nat y ltac:(lia) eq_refl). rewrite (IH k X).
    + f_equal. lia.
    + intros j z J Z. apply (FST (S j) z); [lia|exact Z].
Qed.
Lemma find_first {A} (f : A -> bool) l x : find f l = Some x -> exists k, nth_error l k = Some x /\ f x = true /\ forall j y, (j < k)%nat -> nth_error l j = Some y -> f y = false.
Proof.
  induction l as [|y l IH]; cbn [find]; [discriminate|]. destruct (f y) eqn:FY; intros E.
  - assert (y = x) by congruence. subst. exists 0%nat. split; [reflexivity|]. split; [exact FY|]. intros; lia.
  - destruct (IH E) as (k & K & FX & FST). exists (S k). split; [exact K|]. split; [exact FX|].
    intros [|j] z J Z; cbn [nth_error] in Z; [congruence|]. apply (FST j z); [lia|exact Z].
Qed.
Lemma find_perm_found method : forall l i k p n, nth_error l k = Some p -> p_name p = Some n -> n = method \/ n = bs "*" ->
  (forall j q, (j < k)%nat -> nth_error l j = Some q -> exists m, p_name q = Some m /\ m <> method /\ m <> bs "*") ->
  find_perm method i l = Ok (Some (i + k)%nat).
Proof.
  induction l as [|q l IH]; intros i k p n K PN M FST; [destruct k; discriminate|]. cbn [find_perm]. destruct k as [|k].
  - cbn [nth_error] in K. assert (q = p) by congruence. subst. rewrite PN.
    replace (beq n method || beq n (bs "*")) with true; [f_equal; f_equal; lia|].
    symmetry. apply orb_true_iff. rewrite !beq_eq. exact M.
  - destruct (FST 0%nat q ltac:(lia) eq_refl) as (m & QM & N1 & N2). rewrite QM, !nb by assumption. cbn [orb].
    rewrite (IH (S i) k p n K PN M); [f_equal; f_equal; lia|]. intros j q' J Q. apply (FST (S j) q'); [lia|exact Q].
Qed.
Theorem C35_accepts : forall h w id method amount now x k p n, run h w -> typed h -> fresh h -> length id = 64%nat -> 0 <= amount < 2 ^ 64 ->
  lookup w id = Some x -> now <= x_expires x ->
  nth_error (perm_list x) k = Some p -> p_name p = Some n -> n = method \/ n = bs "*" ->
  (forall j q, (j < k)%nat -> nth_error (perm_list x) j = Some q -> exists m, p_name q = Some m /\ m <> method /\ m <> bs "*") ->
  p_limit p = 0 \/ (if p_reset p <? now then 0 else p_used p) + amount <= p_limit p ->
  0 <= p_used p -> p_limit p < 2 ^ 64 ->
  exists window, snd (call w (OCheck id method amount now)) = ACharge (Ok (k, window)).
Proof.
  intros h w id method amount now x k p n R T F LI LA L EX K PN M FST LIM US PB.
  pose proof (run_wf h w R T) as W. destruct (lookup_slot w id x L) as (t0 & k0 & TT & _ & AX & IX).
  unfold lookup in L. rewrite TT in L. destruct (find_first _ _ _ L) as (i & X & _ & FX).
  cbn [call lift snd]. unfold check_permission, on_session, find_session. rewrite TT.
  replace (length id + 1 <? 64)%nat with false by (symmetry; apply Nat.ltb_ge; lia). cbn [andb].
  replace (firstn 64 (id ++ [0%N])) with id by (rewrite firstn_app_exact; [reflexivity|lia]).
  rewrite (find_from_complete id t0 i x X AX IX FX 0). cbn [Nat.add]. rewrite (nth_error_nth' t0 i empty_session x X).
  replace (x_expires x <? now) with false by (symmetry; apply Z.ltb_ge; exact EX).
  rewrite (find_perm_found method (perm_list x) 0 k p n K PN M FST). cbn [Nat.add].
  unfold perm_list in K. destruct (x_perms x) as [(cap, l)|]; [|destruct k; discriminate].
  rewrite (nth_error_nth' l k _ p K). cbv zeta.
  match goal with |- context [if ?b then (with_perms x _, Err EInvalidParam) else _] => assert (B : b = false) end.
  { destruct (Z.ltb_spec (p_reset p) now); cbn [p_limit p_used]; apply andb_false_iff; (destruct LIM as [-> |LIM]; [left; reflexivity|right]); apply Z.ltb_ge;
      unfold u64; rewrite Z.mod_small; lia. }
  rewrite B. cbn [snd]. eexists. reflexivity.
Qed.
(** Destroyed and expired sessions authorise nothing; extending revives an
    expired one. *)
Example C35_meets : let os := opening ++ [OAdd (sid 171) (bs "*") 0 60 100 true true; OCheck (sid 171) (bs "x") 9 3700; OCheck (sid 171) (bs "x") 9 3701;
     OExtend (sid 171) 10; OCheck (sid 171) (bs "x") 9 3701; ODestroy (sid 171); OCheck (sid 171) (bs "x") 9 3701; OExtend (sid 171) 10] in
  run (fst (played os)) (snd (played os)) /\
  map snd (firstn 7 (fst (played os))) = [AUnit (Err EInvalidParam); ACharge (Err EInvalidParam); AUnit (Ok tt); ACharge (Ok (0%nat, 3760)); AUnit (Ok tt);
    ACharge (Err EInvalidParam); ACharge (Ok (0%nat, 3760))].
Proof. cbv zeta. split; [by_play|]. vm_compute. reflexivity. Qed.

(** ** C70 *)
(** False: an id shorter than 63 characters is read past its end; a permission
    whose name could not be duplicated is compared anyway; a failed
    initialisation leaves a table size without a table. *)
Theorem C70_short_id_refuted : ~ (forall h w id now, run h w -> typed h -> fresh h -> ~ undefined (snd (call w (OConn id now)))).
Proof.
  intros H. apply (H (fst (played opening)) (snd (played opening)) (bs "ab") 101).
  - by_play.
  - apply play_typed; [vm_compute; discriminate|typed_ops].
  - unfold fresh. vm_compute. repeat constructor. intros [].
  - vm_compute. exact I.
Qed.
Theorem C70_refuted : ~ (forall h w id method amount now, run h w -> typed h -> fresh h -> length id = 64%nat -> 0 <= amount < 2 ^ 64 ->
  ~ undefined (snd (call w (OCheck id method amount now)))).
Proof.
  intros H. set (os := opening ++ [OAdd (sid 171) (bs "pay_invoice") 5 60 100 true false]).
  apply (H (fst (played os)) (snd (played os)) (sid 171) (bs "pay_invoice") 1 101).
  - by_play.
  - apply play_typed; [vm_compute; discriminate|unfold os; typed_ops].
  - unfold fresh. vm_compute. repeat constructor. intros [].
  - reflexivity.
  - lia.
  - vm_compute. exact I.
Qed.
Theorem C70_init_refuted : ~ (forall h w id now, run h w -> typed h -> fresh h -> length id = 64%nat -> ~ undefined (snd (call w (OConn id now)))).
Proof.
  intros H. apply (H (fst (played [OInit false])) (snd (played [OInit false])) (sid 171) 101).
  - by_play.
  - apply play_typed; [vm_compute; discriminate|typed_ops].
  - unfold fresh. vm_compute. constructor.
  - reflexivity.
  - vm_compute. exact I.
Qed.
(** Apart from these and the storage overrun nothing goes wrong. *)
Definition sane_op (o : op) : Prop :=
  match o with
  | OInit alloc => alloc = true
  | OCreate alloc uri _ _ _ => alloc = true /\ uri <> Undef
  | OAdd id _ _ _ _ _ dup => dup = true /\ (63 <= length id)%nat
  | OCheck id _ _ _ | OConn id _ | OExtend id _ | ODestroy id => (63 <= length id)%nat
  | OConfig _ => True
  end.
Lemma run_names h w : run h w -> typed h -> Forall (fun e => sane_op (fst e)) h -> forall k x j p, slot w k x -> nth_error (perm_list x) j = Some p -> p_name p <> None.
Proof.
  induction 1 as [|h w o w' a R IH C U]; intros T S k x j p X P.
  - destruct X as (t & E & _). discriminate.
  - inversion T as [|? ? T1 T2]; subst. inversion S as [|? ? S1 S2]; subst. pose proof (run_wf h w R T2) as W. cbn [fst] in *.
    destruct (step_origin w o w' a W T1 C k x X) as [E|(y & Y & _ & O)]; [rewrite E in P; destruct j; discriminate|].
    destruct (O j p P) as [(q & Q & N & _)|(id & name & l & i & now & al & dup & -> & ->)].
    + rewrite N. eapply IH; eassumption.
    + destruct S1 as (-> & _). discriminate.
Qed.
Lemma run_no_failed_init h w : run h w -> typed h -> Forall (fun e => sane_op (fst e)) h -> g_table w = None -> g_max w = 0%nat.
Proof.
  induction 1 as [|h w o w' a R IH C U]; intros T S G; [reflexivity|].
  inversion T as [|? ? T1 T2]; subst. inversion S as [|? ? S1 S2]; subst. cbn [fst] in *. pose proof (run_wf h w R T2) as W. specialize (IH T2 S2).
  assert (ON : forall A i (f : session -> session * res A) r, on_session w i f = (w', r) -> g_max w' = 0%nat).
  { intros A i f r E. apply on_session_spec in E; [|exact W]. destruct E as [(-> & _)|(t & k & x & x' & TT & X & AX & I' & _ & -> & _)]; [auto|discriminate]. }
  destruct o; cbn [call] in C; unfold lift in C;
    try ((match type of C with (fst ?p, _) = _ => destruct p as (w2, r) eqn:E end); cbn [fst snd] in C; assert (w' = w2) by congruence; subst w2; eapply ON; exact E).
  - cbn [sane_op] in S1. subst alloc. assert (w' = fst (session_init w true)) by congruence. subst w'. revert G.
    unfold session_init. destruct (g_init w) eqn:GI; [exact IH|cbn [fst g_table]; discriminate].
  - destruct S1 as (-> & _). destruct (session_create w true uri now now2 rnd) as (w2, r) eqn:E. cbn [fst snd] in C. assert (w' = w2) by congruence. subst w2.
    apply create_spec in E; [|exact W|destruct rnd; [apply T1|exact I]]. cbv zeta in E.
    set (w1 := if g_init w then w else fst (session_init w true)) in *. destruct E as (_ & _ & E).
    assert (N : g_table w1 = None -> g_max w1 = 0%nat).
    { unfold w1, session_init. destruct (g_init w); [exact IH|cbn [fst g_table]; discriminate]. }
    destruct uri as [conn|e|].
    + destruct E as [(_ & -> & _)|(_ & _ & _ & [(G1 & _)|(t & T3 & [(T4 & _)|(k & x & rb & _ & _ & _ & _ & T4)])])]; [exact (N G)| |congruence|congruence].
      exfalso. unfold w1 in G1. revert G1. unfold session_init. destruct (g_init w) eqn:GI; [|cbn [fst g_table]; discriminate].
      intros G1. apply (wf_none w W) in G1. congruence.
    + destruct E as (-> & _). exact (N G).
    + destruct E as (-> & _). exact (N G).
  - assert (w' = mkWorld (g_table w) (g_max w) (g_init w) (g_window w) (g_count w) c) by congruence. subst w'. exact (IH G).
Qed.
Theorem C70_partial : forall h w o, run h w -> typed h -> Forall (fun e => sane_op (fst e)) h -> perms_lowered h ->
  typed_op o -> sane_op o -> ~ undefined (snd (call w o)).
Proof.
  intros h w o R T S PL TO SO. pose proof (run_wf h w R T) as W. pose proof (run_names h w R T S) as NM.
  pose proof (run_no_failed_init h w R T S) as NI. destruct (run_cap h w R T PL) as (_ & K).
  assert (ON : forall A i (f : session -> session * res A), (63 <= length i)%nat ->
    (forall k x, slot w k x -> snd (f x) <> Undef) -> snd (on_session w i f) <> Undef).
  { intros A i f LI F. destruct (on_session w i f) as (w', r) eqn:E. cbn [snd]. intros ->. assert (E0 := E).
    apply on_session_spec in E; [|exact W]. destruct E as [(_ & [D|(_ & [D|D])])|(t & k & x & x' & TT & X & AX & I' & FX & _)]; [discriminate| |lia|].
    - unfold on_session, find_session in E0. rewrite D, (NI D) in E0. discriminate.
    - apply (F k x); [exists t; auto|]. rewrite FX. reflexivity. }
  assert (UL : forall A (f : res A -> answer) (p : world * res A), (f = f) -> snd p <> Undef -> (forall r, undefined (f r) -> r = Undef) -> ~ undefined (snd (lift f p))).
  { intros A f p _ N U HU. cbn [lift snd] in HU. apply N, U, HU. }
  destruct o; cbn [call]; try (apply UL; [reflexivity| |intros [] U; cbn in U; try contradiction; reflexivity]).
  - unfold session_init. destruct (g_init w); [discriminate|]. destruct alloc; discriminate.
  - destruct SO as (-> & NU). destruct (session_create w true uri now now2 rnd) as (w2, r) eqn:E. cbn [snd]. intros ->.
    apply create_spec in E; [|exact W|destruct rnd; [apply TO|exact I]]. cbv zeta in E. destruct E as (_ & _ & E).
    destruct uri as [conn|e|]; [|destruct E as (_ & E); discriminate|congruence].
    destruct E as [(_ & _ & D)|(_ & _ & _ & [(T1 & _)|(t & _ & [(_ & D)|(k & y & rb & _ & _ & _ & D & _)])])]; try discriminate.
    revert T1. unfold session_init. destruct (g_init w) eqn:G; [|cbn [fst g_table]; discriminate].
    intros T1. apply (wf_none w W) in T1. congruence.
  - destruct SO as (-> & LI). apply ON; [exact LI|]. intros k x X.
    match goal with |- snd ?p <> _ => destruct p as (x', r) eqn:F end. cbn [snd]. intros ->. apply (add_body_keeps (g_config w) name limit interval now alloc true) in F.
    destruct F as [(_ & [D|(_ & cap & P & LL)])|(D & _)]; try discriminate. specialize (K k x cap _ X P). lia.
  - apply ON; [exact SO|]. intros k x X.
    match goal with |- snd ?p <> _ => destruct p as (x', r) eqn:F end. cbn [snd]. intros ->.
    assert (FU : forall l i, (forall j p, nth_error l j = Some p -> p_name p <> None) -> find_perm method i l <> Undef).
    { induction l as [|p l IH]; intros i H; cbn [find_perm]; [discriminate|]. destruct (p_name p) as [n|] eqn:PN; [|exfalso; exact (H 0%nat p eq_refl PN)].
      destruct (_ || _); [discriminate|]. apply IH. intros j q Q. exact (H (Datatypes.S j) q Q). }
    specialize (FU (perm_list x) 0%nat (fun j p => NM k x j p X)).
    destruct (x_expires x <? now); [discriminate|].
    destruct (find_perm method 0 (perm_list x)) as [[i|]|e|]; [|discriminate|discriminate|congruence].
    destruct (x_perms x) as [(cap, l)|]; [|discriminate]. cbv zeta in F. destruct (_ && _) in F; discriminate.
  - apply ON; [exact SO|]. intros k x X. destruct (x_expires x <? now); discriminate.
  - apply ON; [exact SO|]. intros k x X. discriminate.
  - apply ON; [exact SO|]. intros k x X. discriminate.
  - intros [].
Qed.
Example C70_meets : Forall (fun e => sane_op (fst e)) (fst (played payer)) /\ perms_lowered (fst (played payer)) /\ typed (fst (played payer)) /\
  sane_op (ODestroy (sid 171)).
Proof.
  split; [vm_compute; repeat constructor; try discriminate|]. split; [vm_compute; exact I|]. split.
  - apply play_typed; [vm_compute; discriminate|typed_ops].
  - vm_compute. lia.
Qed.

Print Assumptions C31_limits_partial. Print Assumptions C31_charged. Print Assumptions C31_window. Print Assumptions C31_refuted.
Print Assumptions C32_bound. Print Assumptions C32_configured_refuted. Print Assumptions C32_distinct. Print Assumptions C32_frame. Print Assumptions C32_create_frame.
Print Assumptions C33_rate. Print Assumptions C33_refused. Print Assumptions C34_refuted. Print Assumptions C34_partial.
Print Assumptions C35_check. Print Assumptions C35_connection. Print Assumptions C35_modify. Print Assumptions C35_accepts.
Print Assumptions C70_short_id_refuted. Print Assumptions C70_refuted. Print Assumptions C70_init_refuted. Print Assumptions C70_partial.
