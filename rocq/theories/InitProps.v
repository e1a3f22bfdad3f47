(** C118, C119: starting the library, by itself and among threads. *)
From Verif Require Import Base BaseFacts Init.

(** ** C118 *)
(** A call that had what it needs: it ran on a usable context, or said that the
    library could not be started. *)
Definition served (u : used) : Prop := u = Ran true \/ u = Refused EMemory.
Definition fine (k : luck) : Prop := k_context k = true /\ k_random k = true /\ k_init k = true.
(** Every state a program can get the library into. *)
Definition state_after (w : lib) : Prop := exists l, fst (run l cold) = w.

Definition sound (w : lib) : Prop := i_ready w = i_flag w /\ (i_flag w = true -> i_ptr w = true).
Lemma init_sound k w : sound w -> sound (fst (init k w)) /\ (snd (init k w) = None -> i_flag (fst (init k w)) = true) /\ (snd (init k w) = None \/ snd (init k w) = Some EMemory) /\ (fine k -> snd (init k w) = None).
Proof.
  intros (R & P). unfold init. destruct (i_flag w) eqn:F; [cbn [fst snd]; rewrite F; unfold sound; rewrite F; auto 8|]. unfold fine.
  destruct k as [[] [] []]; cbn; unfold sound; cbn; (repeat split; auto; try discriminate; try congruence; try (intros (? & ? & ?); discriminate)).
Qed.
Lemma call_sound g k w : sound w -> sound (fst (call g k w)).
Proof. intros S. unfold call. destruct (must_start g w); [|exact S]. pose proof (init_sound k w S) as (A & _). destruct (init k w) as (w', [e|]); exact A. Qed.
Lemma step_sound o w : sound w -> sound (fst (step o w)).
Proof.
  intros S. destruct o as [k| |g k]; cbn [step fst]; [apply init_sound, S| |].
  - unfold cleanup, sound. cbn. split; [|discriminate]. destruct S as (R & P). destruct (i_ptr w) eqn:Q; [reflexivity|]. destruct (i_flag w); [discriminate (P eq_refl)|exact R].
  - pose proof (call_sound g k w S) as C. destruct (call g k w) as (w', u). exact C.
Qed.
Lemma run_sound : forall l w, sound w -> sound (fst (run l w)).
Proof.
  induction l as [|o l IH]; intros w S; [exact S|]. cbn [run]. pose proof (step_sound o w S) as S1. destruct (step o w) as (w1, u). specialize (IH w1 S1). destruct (run l w1) as (w2, us). exact IH.
Qed.
Lemma cold_sound : sound cold.
Proof. split; [reflexivity|discriminate]. Qed.
Lemma reached_sound w : state_after w -> sound w.
Proof. intros (l & <-). apply run_sound, cold_sound. Qed.
Lemma served_call g k w : sound w -> g = ByFlag \/ g = Always -> served (snd (call g k w)) /\ (fine k -> snd (call g k w) = Ran true).
Proof.
  intros S G. unfold call. pose proof (init_sound k w S) as (A & B & C & D). destruct (must_start g w) eqn:M.
  - destruct (init k w) as (w', [e|]); cbn [fst snd] in *.
    + split; [right; destruct C; congruence|]. intros K. specialize (D K). discriminate.
    + specialize (B eq_refl). destruct A as (A1 & A2). unfold run_on. rewrite (A2 B), A1, B. split; [left|]; reflexivity.
  - destruct G as [->| ->]; cbn [must_start] in M; [|discriminate]. apply negb_false_iff in M. destruct S as (S1 & S2). cbn [snd]. unfold run_on. rewrite (S2 M), S1, M. split; [left|]; reflexivity.
Qed.
(** Through every sequence of starts, clean-ups and calls, whatever the libraries
    answer: a call that makes sure of the library by its flag, or by starting it,
    runs on a usable context or reports the failing start, and works as soon as
    the libraries do. *)
Theorem C118_calls : forall w g k, state_after w -> g = ByFlag \/ g = Always -> served (snd (call g k w)) /\ (fine k -> snd (call g k w) = Ran true).
Proof. intros w g k S. apply served_call, reached_sound, S. Qed.
(** Starting again changes nothing, and after a failure it may succeed. *)
Theorem C118_start : forall w k k', state_after w ->
  (snd (init k w) = None -> init k' (fst (init k w)) = (fst (init k w), None) /\ snd (call ByPtr k' (fst (init k w))) = Ran true /\ snd (call Never k' (fst (init k w))) = Ran true) /\
  (fine k -> snd (init k w) = None) /\ (snd (init k w) <> None -> snd (init k w) = Some EMemory).
Proof.
  intros w k k' S. destruct (init_sound k w (reached_sound w S)) as (A & B & C & D). split; [|split; [exact D|destruct C as [C|C]; congruence]].
  intros E. specialize (B E). destruct A as (A1 & A2). specialize (A2 B). split; [unfold init at 1; rewrite B; reflexivity|]. unfold call. cbn [must_start]. rewrite A2. cbn [negb snd]. unfold run_on. rewrite A2, A1, B. split; reflexivity.
Qed.
(** Calls that look at the context pointer are served as long as no start failed. *)
Definition good_op (o : op) : Prop := match o with OInit k | OCall _ k => fine k | OCleanup => True end.
Theorem C118_partial : forall l g u, Forall good_op l -> In (g, u) (snd (run l cold)) -> g <> Never -> u = Ran true.
Proof.
  assert (INV : forall l w g u, (i_ptr w = i_flag w /\ i_ready w = i_flag w) -> Forall good_op l -> In (g, u) (snd (run l w)) -> g <> Never -> u = Ran true).
  2:{ intros l g u. apply INV. split; reflexivity. }
  induction l as [|o l IH]; intros w g u S F I N; [destruct I|]. inversion F as [|? ? G F']; subst.
  assert (IN : forall k, fine k -> init k w = (if i_flag w then w else mkLib true true true, None)).
  { intros k (K1 & K2 & K3). unfold init. rewrite K1, K2, K3. destruct (i_flag w); reflexivity. }
  destruct S as (S1 & S2). cbn [run] in I. destruct o as [k| |h k]; cbn [step] in I.
  - rewrite (IN k G) in I. cbn [fst] in I. destruct (run l _) as (w2, us) eqn:R. apply (IH (if i_flag w then w else mkLib true true true) g u); auto; [|rewrite R; exact I]. destruct (i_flag w) eqn:Q; cbn; [split; congruence|auto].
  - destruct (run l (cleanup w)) as (w2, us) eqn:R. apply (IH (cleanup w) g u); auto; [|rewrite R; exact I]. unfold cleanup; cbn. split; [reflexivity|]. rewrite S1, S2. destruct (i_flag w); reflexivity.
  - assert (C : exists w1 x, call h k w = (w1, x) /\ i_ptr w1 = i_flag w1 /\ i_ready w1 = i_flag w1 /\ (h <> Never -> x = Ran true)).
    { unfold call. rewrite (IN k G). destruct h; cbn [must_start]; rewrite ?S1; destruct (i_flag w) eqn:Q; cbn [negb]; eexists; eexists; (split; [reflexivity|]); unfold run_on; rewrite ?S1, ?S2, ?Q; cbn; auto; repeat split; congruence. }
    destruct C as (w1 & x & C & C1 & C2 & C3). rewrite C in I. destruct (run l w1) as (w2, us) eqn:R. cbn [snd In] in I. destruct I as [I|I]; [assert (h = g /\ x = u) as (<- & <-) by (split; congruence); auto|]. apply (IH w1 g u); auto. rewrite R. exact I.
Qed.
(** Once the random generator failed during the first start, signing, verifying
    and encrypting fail for good, with an error about the key or the signature,
    although the libraries would start now. *)
Theorem C118_refuted : ~ (forall l g k, g <> Never -> fine k -> snd (call g k (fst (run l cold))) = Ran true).
Proof. intros C. specialize (C [OCall ByPtr (mkLuck true false true)] ByPtr (mkLuck true true true) ltac:(discriminate) ltac:(repeat split)). discriminate. Qed.
Theorem C118_forever_refuted : exists k, forall ks, Forall (fun x => snd x = Ran false) (snd (run (map (OCall ByPtr) ks) (fst (call ByPtr k cold)))).
Proof.
  exists (mkLuck true false true). change (fst (call ByPtr (mkLuck true false true) cold)) with (mkLib true false false).
  induction ks as [|k ks IH]; [constructor|]. cbn [map run step]. change (call ByPtr k (mkLib true false false)) with (mkLib true false false, Ran false). cbv iota beta.
  destruct (run (map (OCall ByPtr) ks) (mkLib true false false)) as (w2, us). constructor; [reflexivity|exact IH].
Qed.
(** A wallet request does not start the library at all. *)
Theorem C118_never_refuted : forall k, snd (call Never k cold) = Ran false.
Proof. reflexivity. Qed.

(** ** C119 *)
Section Threads.
Variables may_clean may_fail rng_locks : bool.
Notation reach := (reach may_clean may_fail rng_locks).
Notation tstep := (tstep may_clean may_fail rng_locks).
Definition crit (p : pc) : bool := match p with Test _ | Point _ | Draw _ | Drawing _ | Start _ | Mark _ | Leave _ _ | CDestroy | CPoint | CFlag | CLeave => true | _ => false end.
Definition drawing (p : pc) : bool := match p with Drawing _ | RandIn => true | _ => false end.
(** What the one inside knows of the library. *)
Definition knows (p : pc) (l : lib) : Prop :=
  match p with
  | Point _ => i_ready l = false /\ i_flag l = false
  | Draw _ | Drawing _ | Start _ => i_ptr l = true /\ i_ready l = false /\ i_flag l = false
  | Mark _ => i_ptr l = true /\ i_ready l = true /\ i_flag l = false
  | CPoint => i_ready l = false
  | CFlag => i_ready l = false /\ i_ptr l = false
  | _ => sound l
  end.
Record inv (w : world) : Prop := {
  v_ctx : forall i, crit (w_at w i) = true -> w_ctx w = Some i;
  v_in : forall i, w_ctx w = Some i -> crit (w_at w i) = true /\ knows (w_at w i) (w_lib w);
  v_out : w_ctx w = None -> sound (w_lib w);
  v_rng : rng_locks = true -> forall i, w_rng w = Some i <-> drawing (w_at w i) = true;
  v_twice : w_twice w = false }.
Lemma boot_inv l : sound l -> inv (boot l).
Proof. intros S. split; cbn; try discriminate; auto. intros _ i. split; discriminate. Qed.
Lemma at_put w i p j : w_at (put w i p) j = if Nat.eqb j i then p else w_at w j.
Proof. reflexivity. Qed.

Lemma inv_step w i w' : inv w -> tstep w i w' -> inv w'.
Proof.
  intros [V1 V2 V3 V4 V5] T.
  assert (OTHER : forall j, crit (w_at w i) = true -> j <> i -> crit (w_at w j) = false).
  { intros j C D. destruct (crit (w_at w j)) eqn:E; [|reflexivity]. apply V1 in C, E. congruence. }
  assert (RNG : forall p, rng_locks = true -> drawing p = drawing (w_at w i) -> forall j, w_rng w = Some j <-> drawing (if Nat.eqb j i then p else w_at w j) = true).
  { intros p R D j. rewrite (V4 R j). destruct (Nat.eqb_spec j i) as [->|]; [rewrite D|]; reflexivity. }
  (* a step of a thread outside, or that stays inside *)
  assert (KEEP : forall p l u t, crit p = crit (w_at w i) -> drawing p = drawing (w_at w i) -> t = false -> (if crit p then knows p l else l = w_lib w) ->
    inv (mkW l (w_ctx w) (w_rng w) (fun j => if Nat.eqb j i then p else w_at w j) u t)).
  { intros p l u t C D Tw K. split; cbn.
    - intros j. destruct (Nat.eqb_spec j i) as [->|]; [rewrite C|]; apply V1.
    - intros j E. destruct (V2 j E) as (A & B). destruct (Nat.eqb_spec j i) as [->|N].
      + rewrite C in *. rewrite A in K. auto.
      + split; [exact A|]. destruct (crit p) eqn:Q; [|subst l; exact B]. rewrite (OTHER j) in A by (congruence || exact N). discriminate.
    - intros E. destruct (crit p) eqn:Q; [rewrite (V1 i) in E by congruence; discriminate|]. subst l. apply V3, E.
    - intros R. apply RNG; auto.
    - exact Tw. }
  (* entering, leaving *)
  assert (ENTER : forall p, crit (w_at w i) = false -> drawing p = drawing (w_at w i) -> w_ctx w = None -> crit p = true -> knows p (w_lib w) ->
    inv (mkW (w_lib w) (Some i) (w_rng w) (fun j => if Nat.eqb j i then p else w_at w j) (w_uses w) (w_twice w))).
  { intros p O D E C K. split; cbn.
    - intros j. destruct (Nat.eqb_spec j i) as [->|]; [reflexivity|]. intros Q. apply V1 in Q. congruence.
    - intros j Q. assert (j = i) by congruence. subst j. rewrite Nat.eqb_refl. auto.
    - discriminate.
    - intros R. apply RNG; auto.
    - exact V5. }
  assert (EXIT : forall p, crit (w_at w i) = true -> drawing p = drawing (w_at w i) -> crit p = false -> sound (w_lib w) ->
    inv (mkW (w_lib w) None (w_rng w) (fun j => if Nat.eqb j i then p else w_at w j) (w_uses w) (w_twice w))).
  { intros p O D C K. split; cbn.
    - intros j. destruct (Nat.eqb_spec j i) as [->|N]; [congruence|]. rewrite (OTHER j O N). discriminate.
    - discriminate.
    - auto.
    - intros R. apply RNG; auto.
    - exact V5. }
  (* the generator *)
  assert (GEN : forall p o, crit p = crit (w_at w i) -> (crit p = true -> knows p (w_lib w)) -> (rng_locks = true -> forall j, o = Some j <-> drawing (if Nat.eqb j i then p else w_at w j) = true) ->
    inv (mkW (w_lib w) (w_ctx w) o (fun j => if Nat.eqb j i then p else w_at w j) (w_uses w) (w_twice w))).
  { intros p o C K R. split; cbn; auto.
    - intros j. destruct (Nat.eqb_spec j i) as [->|]; [rewrite C|]; apply V1.
    - intros j E. destruct (V2 j E) as (A & B). destruct (Nat.eqb_spec j i) as [->|N]; [rewrite C in *; auto|auto]. }
  assert (TAKE : forall p, drawing p = true -> (rng_locks = true -> w_rng w = None) -> rng_locks = true -> forall j, Some i = Some j <-> drawing (if Nat.eqb j i then p else w_at w j) = true).
  { intros p D E R j. specialize (E R). destruct (Nat.eqb_spec j i) as [->|N]; [tauto|]. split; [congruence|]. intros Q. apply (V4 R) in Q. congruence. }
  assert (GIVE : forall p, drawing p = false -> drawing (w_at w i) = true -> rng_locks = true -> forall j, None = Some j <-> drawing (if Nat.eqb j i then p else w_at w j) = true).
  { intros p D E R j. apply (V4 R) in E. destruct (Nat.eqb_spec j i) as [->|N]; [split; congruence|]. split; [discriminate|]. intros Q. apply (V4 R) in Q. congruence. }
  assert (IN : crit (w_at w i) = true -> knows (w_at w i) (w_lib w)) by (intros C; apply V2, V1, C).
  inversion T as [g A|A|A|A|g A|c A E|c A|c A|c A _|c A E|c ok A _|c A|c A _|c A|c ok A|g A|A E|A|A|A|A|A E|A]; subst w'; unfold put, with_lib, with_ctx, with_rng, saw, made; cbn [w_lib w_ctx w_rng w_at w_uses w_twice];
    try (rewrite A in IN; cbn [crit knows] in IN; specialize (IN eq_refl)).
  1-4: apply KEEP; rewrite ?A; cbn; auto.
  - apply KEEP; rewrite ?A; destruct (must_start g (w_lib w)); cbn; auto.
  - apply ENTER; rewrite ?A; cbn; auto.
  - apply KEEP; rewrite ?A; destruct (i_flag (w_lib w)) eqn:Q; cbn; auto. split; [destruct IN; congruence|exact Q].
  - apply KEEP; rewrite ?A; cbn; auto; try tauto.
  - apply KEEP; rewrite ?A; cbn; auto. unfold sound, set_ptr. cbn. destruct IN as (B & C). split; [congruence|rewrite C; discriminate].
  - destruct rng_locks eqn:R; apply GEN; rewrite ?A; try (cbn; auto; fail); try (cbn; discriminate); try (intros Q; discriminate Q); try (cbn; intros _; destruct IN as (B & C & D); split; congruence); apply (TAKE (Drawing c) eq_refl E).
  - destruct rng_locks eqn:R; apply GEN; rewrite ?A; destruct ok; try (cbn; auto; fail); try (cbn; discriminate); try (intros Q; discriminate Q); try (cbn; intros _; destruct IN as (B & C & D); split; congruence); [apply (GIVE (Start c) eq_refl); rewrite A; reflexivity|apply (GIVE (Leave c false) eq_refl); rewrite A; reflexivity].
  - apply KEEP; rewrite ?A; cbn; auto; [rewrite V5; apply IN|tauto].
  - apply KEEP; rewrite ?A; cbn; auto. unfold sound, unready. cbn. destruct IN as (B & C & D). split; congruence.
  - apply KEEP; rewrite ?A; cbn; auto. unfold sound, set_flag. cbn. destruct IN as (B & C & D). split; congruence.
  - apply EXIT; rewrite ?A; cbn; auto; destruct c; destruct ok; reflexivity.
  - apply KEEP; rewrite ?A; cbn; auto.
  - apply ENTER; rewrite ?A; cbn; auto.
  - apply KEEP; rewrite ?A; cbn; auto. destruct IN as (B & C). destruct (i_ptr (w_lib w)) eqn:Q; cbn; [reflexivity|]. destruct (i_flag (w_lib w)); [discriminate (C eq_refl)|exact B].
  - apply KEEP; rewrite ?A; cbn; auto.
  - apply KEEP; rewrite ?A; cbn; auto. unfold sound, set_flag. cbn. destruct IN as (B & C). split; congruence.
  - apply EXIT; rewrite ?A; cbn; auto.
  - destruct rng_locks eqn:R; apply GEN; rewrite ?A; try (cbn; auto; fail); try (cbn; discriminate); try (intros Q; discriminate Q); try (cbn; intros _; destruct IN as (B & C & D); split; congruence); apply (TAKE RandIn eq_refl E).
  - destruct rng_locks eqn:R; apply GEN; rewrite ?A; try (cbn; auto; fail); try (cbn; discriminate); try (intros Q; discriminate Q); try (cbn; intros _; destruct IN as (B & C & D); split; congruence); apply (GIVE Idle eq_refl); rewrite A; reflexivity.
Qed.
Lemma inv_reach l w : sound l -> reach (boot l) w -> inv w.
Proof. intros S R. induction R as [|w i w' R IH T]; [apply boot_inv, S|]. apply (inv_step w i w' IH T). Qed.
(** No thread is stuck: whoever waits, waits for one who can go on.  The context is
    never made twice. *)
Theorem C119_progress : forall l w i, sound l -> reach (boot l) w -> w_at w i <> Idle -> (exists j w', w_at w j <> Idle /\ tstep w j w') /\ w_twice w = false.
Proof.
  intros l w i S R N. pose proof (inv_reach l w S R) as V. split; [|apply V].
  assert (GO : forall j, w_at w j <> Idle -> (forall c, w_at w j <> Lock c) -> w_at w j <> CLock -> (forall c, w_at w j <> Draw c) -> w_at w j <> Rand -> exists w', tstep w j w').
  { intros j A B C D E. destruct (w_at w j) as [|g|c|c|c|c|c|c|c|c ok|g| | | | | | |] eqn:Q; try congruence.
    - eexists. eapply SCheck, Q.
    - eexists. eapply STest, Q.
    - eexists. eapply SPoint, Q.
    - eexists. eapply (SDrawn _ _ _ _ _ c true Q). discriminate.
    - eexists. eapply SStart, Q.
    - eexists. eapply SMark, Q.
    - eexists. eapply SLeave, Q.
    - eexists. eapply SUse, Q.
    - eexists. eapply SCDestroy, Q.
    - eexists. eapply SCPoint, Q.
    - eexists. eapply SCFlag, Q.
    - eexists. eapply SCLeave, Q.
    - eexists. eapply SRandOut, Q. }
  assert (RNG : forall j, (exists c, w_at w j = Draw c) \/ w_at w j = Rand -> exists k w', w_at w k <> Idle /\ tstep w k w').
  { intros j J. destruct rng_locks eqn:L.
    - destruct (w_rng w) as [k|] eqn:E.
      + pose proof (proj1 (v_rng w V L k) E) as D. exists k. destruct (GO k) as (w' & T); [..|exists w'; split; [|exact T]]; intros; intros Q; rewrite Q in D; discriminate.
      + exists j. destruct J as [(c & J)|J]; eexists; (split; [rewrite J; discriminate|]); [eapply SDraw|eapply SRandIn]; eauto.
    - exists j. destruct J as [(c & J)|J]; eexists; (split; [rewrite J; discriminate|]); [eapply SDraw|eapply SRandIn]; eauto; discriminate. }
  assert (INSIDE : forall j, crit (w_at w j) = true -> exists k w', w_at w k <> Idle /\ tstep w k w').
  { intros j C. destruct (w_at w j) eqn:Q; try discriminate C; try (exists j; destruct (GO j) as (w' & T); [..|exists w'; split; [|exact T]]; intros; rewrite Q; discriminate). apply (RNG j). left. eauto. }
  destruct (w_at w i) as [|g|c|c|c|c|c|c|c|c ok|g| | | | | | |] eqn:Q; try (apply (INSIDE i); rewrite Q; reflexivity); try congruence;
    try (exists i; destruct (GO i) as (w' & T); [..|exists w'; split; [|exact T]]; intros; rewrite Q; discriminate).
  - destruct (w_ctx w) as [j|] eqn:E; [apply (INSIDE j), (v_in w V j E)|]. exists i. eexists. split; [rewrite Q; discriminate|]. eapply SLock; eauto.
  - destruct (w_ctx w) as [j|] eqn:E; [apply (INSIDE j), (v_in w V j E)|]. exists i. eexists. split; [rewrite Q; discriminate|]. eapply SCLock; eauto.
  - apply (RNG i). right. exact Q.
Qed.
End Threads.
Definition cleaning (p : pc) : Prop := match p with CLock | CDestroy | CPoint | CFlag | CLeave => True | _ => False end.
Ltac steps T := inversion T as [g A|A|A B|A|g A|c A E|c A|c A|c A ?|c A E|c ok A ?|c A|c A ?|c A|c ok A|g A|A E|A|A|A|A|A E|A].
Lemma no_cleaning mf rl l w : reach false mf rl (boot l) w -> forall j, ~ cleaning (w_at w j).
Proof.
  intros R j. induction R as [|w i w' R IH T]; [intros []|]. steps T; subst w'; cbn; destruct (Nat.eqb_spec j i) as [->|]; auto; try discriminate;
    try (rewrite A in IH; exact IH); try (destruct (must_start _ _); intros []); try (destruct (i_flag _); intros []); try (destruct ok; intros []); try (destruct c as [g|]; [destruct ok; intros []|intros []]).
Qed.
Lemma flag_means mf rl l w : sound l -> reach false mf rl (boot l) w -> i_flag (w_lib w) = true -> i_ptr (w_lib w) = true /\ i_ready (w_lib w) = true.
Proof.
  intros S R F. pose proof (inv_reach false mf rl l w S R) as V. pose proof (no_cleaning mf rl l w R) as NC.
  destruct (w_ctx w) as [k|] eqn:E; [|destruct (v_out _ w V E) as (A & B); rewrite A; auto]. destruct (v_in _ w V k E) as (C & K). specialize (NC k).
  destruct (w_at w k); try discriminate C; try (destruct NC; exact I); cbn [knows] in K; try (destruct K as (A & B); rewrite A; auto; fail); try (destruct K as (? & ?); congruence); destruct K as (? & ? & ?); congruence.
Qed.
Lemma flag_stays mf rl l w i w' : sound l -> reach false mf rl (boot l) w -> tstep false mf rl w i w' -> i_flag (w_lib w) = true -> i_flag (w_lib w') = true.
Proof.
  intros S R T F. pose proof (no_cleaning mf rl l w R i) as NC. steps T; subst w'; cbn; auto; rewrite A in NC; destruct NC; exact I.
Qed.
(** Once the library is started and nobody cleans up, every use of the context, by
    any number of threads, finds it usable. *)
Theorem C119_started_partial : forall may_fail rng_locks l w, sound l -> i_flag l = true -> reach false may_fail rng_locks (boot l) w -> Forall (fun u => snd u = true) (w_uses w).
Proof.
  intros mf rl l w S F R.
  assert (INV : i_flag (w_lib w) = true /\ Forall (fun u => snd u = true) (w_uses w)); [|apply INV].
  induction R as [|w i w' R IH T]; [split; [exact F|constructor]|]. destruct IH as (IH1 & IH2). split; [apply (flag_stays mf rl l w i w' S R T IH1)|].
  destruct (flag_means mf rl l w S R IH1) as (A1 & A2). steps T; subst w'; cbn; auto. constructor; [cbn; rewrite A1, A2; reflexivity|exact IH2].
Qed.
(** Also before it is started, for the calls that look at the flag. *)
Theorem C119_flag_partial : forall may_fail rng_locks l w, sound l -> reach false may_fail rng_locks (boot l) w -> Forall (fun u => fst u = ByFlag \/ fst u = Always -> snd u = true) (w_uses w).
Proof.
  intros mf rl l w S R.
  assert (INV : (forall j g, w_at w j = Use g \/ w_at w j = Leave (Some g) true -> g = ByFlag \/ g = Always -> i_flag (w_lib w) = true) /\ (forall j c, w_at w j = Leave c true -> i_flag (w_lib w) = true) /\ Forall (fun u => fst u = ByFlag \/ fst u = Always -> snd u = true) (w_uses w)); [|apply INV].
  induction R as [|w i w' R IH T]; [split; [intros j g [X|X]; discriminate X|split; [intros j c X; discriminate X|constructor]]|]. destruct IH as (IH1 & IH2 & IH3).
  pose proof (flag_stays mf rl l w i w' S R T) as FS. split; [|split].
  - intros j g' X Q. destruct (Nat.eq_dec j i) as [->|NE].
    2:{ apply FS, (IH1 j g'); [|exact Q]. destruct X as [X|X]; [left|right]; rewrite <- X; steps T; subst w'; cbn; rewrite (proj2 (Nat.eqb_neq j i) NE); reflexivity. }
    steps T; subst w'; cbn in X |- *; rewrite Nat.eqb_refl in X; try (destruct X; discriminate).
    + destruct (must_start g (w_lib w)) eqn:M; destruct X as [X|X]; try discriminate. assert (g = g') by congruence. subst g'. destruct Q as [->| ->]; cbn in M; [apply negb_false_iff, M|discriminate].
    + destruct (i_flag (w_lib w)) eqn:F; [reflexivity|destruct X; discriminate].
    + destruct ok; destruct X; discriminate.
    + reflexivity.
    + destruct c as [h|]; [|destruct X; discriminate]. destruct ok; [|destruct X; discriminate]. apply (IH2 i (Some h) A).
  - intros j c' X. destruct (Nat.eq_dec j i) as [->|NE].
    2:{ apply FS, (IH2 j c'). rewrite <- X; steps T; subst w'; cbn; rewrite (proj2 (Nat.eqb_neq j i) NE); reflexivity. }
    steps T; subst w'; cbn in X |- *; rewrite Nat.eqb_refl in X; try discriminate.
    + destruct (must_start g (w_lib w)); discriminate.
    + destruct (i_flag (w_lib w)) eqn:F; [reflexivity|discriminate].
    + destruct ok; discriminate.
    + reflexivity.
    + destruct c as [h|]; [destruct ok; discriminate|discriminate].
  - pose proof (flag_means mf rl l w S R) as FM. steps T; subst w'; cbn; auto. constructor; [cbn; intros Q|exact IH3]. destruct (FM (IH1 i g (or_introl A) Q)) as (-> & ->). reflexivity.
Qed.

(** *** What does not hold *)
(** Two threads, a library that never fails, nobody cleans up: one starts the
    library, the other finds the pointer set and verifies with a context that is
    not ready yet, so that it takes a genuine signature for a forged one. *)
Theorem C119_refuted : ~ (forall rng_locks w, reach false false rng_locks (boot cold) w -> Forall (fun u => fst u <> Never -> snd u = true) (w_uses w)).
Proof.
  intros C. assert (H : exists w, reach false false true (boot cold) w /\ w_uses w = [(ByPtr, false)]).
  { eexists. split.
    - eapply (ReachS _ _ _ _ _ 1); [|apply SUse with (g := ByPtr)].
      + eapply (ReachS _ _ _ _ _ 1); [|apply SCheck with (g := ByPtr)].
        * eapply (ReachS _ _ _ _ _ 1); [|apply SCall with (g := ByPtr)].
          -- eapply (ReachS _ _ _ _ _ 0); [|apply SPoint with (c := Some ByPtr)].
             ++ eapply (ReachS _ _ _ _ _ 0); [|apply STest with (c := Some ByPtr)].
                ** eapply (ReachS _ _ _ _ _ 0); [|apply SLock with (c := Some ByPtr)].
                   --- eapply (ReachS _ _ _ _ _ 0); [|apply SCheck with (g := ByPtr)].
                       +++ eapply (ReachS _ _ _ _ _ 0); [apply Reach0|apply SCall with (g := ByPtr); reflexivity].
                       +++ reflexivity.
                   --- reflexivity.
                   --- reflexivity.
                ** reflexivity.
             ++ reflexivity.
          -- reflexivity.
        * reflexivity.
      + reflexivity.
    - reflexivity. }
  destruct H as (w & R & U). specialize (C true w R). rewrite U in C. inversion C as [|? ? D _]. discriminate (D ltac:(discriminate)).
Qed.
(** A clean-up in another thread takes the context away from a call that found the
    library started. *)
Theorem C119_cleanup_refuted : ~ (forall rng_locks w, reach true false rng_locks (boot (mkLib true true true)) w -> Forall (fun u => fst u = ByFlag -> snd u = true) (w_uses w)).
Proof.
  intros C. assert (H : exists w, reach true false true (boot (mkLib true true true)) w /\ w_uses w = [(ByFlag, false)]).
  { eexists. split.
    - eapply (ReachS _ _ _ _ _ 1); [|apply SUse with (g := ByFlag)].
      + eapply (ReachS _ _ _ _ _ 0); [|apply SCDestroy].
        * eapply (ReachS _ _ _ _ _ 0); [|apply SCLock].
          -- eapply (ReachS _ _ _ _ _ 0); [|apply SClean].
             ++ eapply (ReachS _ _ _ _ _ 1); [|apply SCheck with (g := ByFlag)].
                ** eapply (ReachS _ _ _ _ _ 1); [apply Reach0|apply SCall with (g := ByFlag); reflexivity].
                ** reflexivity.
             ++ reflexivity.
             ++ reflexivity.
          -- reflexivity.
          -- reflexivity.
        * reflexivity.
      + reflexivity.
    - reflexivity. }
  destruct H as (w & R & U). specialize (C true w R). rewrite U in C. inversion C as [|? ? D _]. discriminate (D eq_refl).
Qed.

(** ** Cases *)
Example C118_meets : state_after (mkLib true false false) /\ call ByFlag (mkLuck true true true) (mkLib true false false) = (mkLib true true true, Ran true).
Proof. split; [exists [OInit (mkLuck true false true)]|]; reflexivity. Qed.
Example C118_partial_meets : snd (run [OCall ByPtr (mkLuck true true true); OCleanup; OCall Never (mkLuck true true true); OCall ByPtr (mkLuck true true true); OCall Never (mkLuck true true true)] cold) = [(ByPtr, Ran true); (Never, Ran false); (ByPtr, Ran true); (Never, Ran true)].
Proof. reflexivity. Qed.
(** One thread waits for the lock while the other is inside. *)
Example C119_meets : exists w, reach true true true (boot cold) w /\ w_at w 1 = Lock None /\ w_ctx w = Some 0 /\ ~ exists w', tstep true true true w 1 w'.
Proof.
  eexists. split; [|split; [|split]].
  - eapply (ReachS _ _ _ _ _ 1); [|apply SInit].
    + eapply (ReachS _ _ _ _ _ 0); [|apply SLock with (c := None)].
      * eapply (ReachS _ _ _ _ _ 0); [apply Reach0|apply SInit; reflexivity].
      * reflexivity.
      * reflexivity.
    + reflexivity.
  - reflexivity.
  - reflexivity.
  - intros (w' & T). inversion T; cbn in *; discriminate.
Qed.

Print Assumptions C118_calls.
Print Assumptions C118_start.
Print Assumptions C118_partial.
Print Assumptions C118_refuted.
Print Assumptions C118_forever_refuted.
Print Assumptions C118_never_refuted.
Print Assumptions C119_progress.
Print Assumptions C119_started_partial.
Print Assumptions C119_flag_partial.
Print Assumptions C119_refuted.
Print Assumptions C119_cleanup_refuted.
