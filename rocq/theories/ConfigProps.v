(** Property theorems C29, C30 (configuration, one thread). *)
From Verif Require Import Base BaseFacts Dec Strto Config ConfigSpec.
Open Scope Z_scope.

Lemma validate_ranges c : typed c -> validate c = true <-> in_ranges c.
Proof.
  intros (L & U & I). unfold validate, in_ranges, fld.
  assert (U' : forall k, (k < 10)%nat -> 0 <= nth k c 0) by (intros k K; apply U, K).
  pose proof (U' 2%nat ltac:(lia)). pose proof (U' 4%nat ltac:(lia)). pose proof (U' 6%nat ltac:(lia)). pose proof (U' 7%nat ltac:(lia)).
  split.
  - intros V.
    repeat match type of V with
    | (if ?b then _ else _) = true => destruct b eqn:?; [discriminate|]
    end.
    repeat match goal with H : (_ || _) = false |- _ => apply orb_false_iff in H; destruct H end.
    repeat match goal with
    | H : (_ <? _) = false |- _ => apply Z.ltb_ge in H
    | H : (_ =? _) = false |- _ => apply Z.eqb_neq in H
    end.
    assert (E : nth 10 c 0 = 4 \/ nth 10 c 0 = 44).
    { match goal with H : (_ && _) = false |- _ => apply andb_false_iff in H; destruct H as [H|H]; apply negb_false_iff, Z.eqb_eq in H end; auto. }
    split; [exact L|]. split; [|split; [lia|exact E]].
    intros k K. do 13 (destruct k as [|k]; [cbn [ranges nth fst snd]; lia|]). lia.
  - intros (_ & R & LE & E).
    pose proof (R 0%nat ltac:(lia)) as R0. pose proof (R 1%nat ltac:(lia)) as R1. pose proof (R 2%nat ltac:(lia)) as R2.
    pose proof (R 3%nat ltac:(lia)) as R3. pose proof (R 4%nat ltac:(lia)) as R4. pose proof (R 5%nat ltac:(lia)) as R5.
    pose proof (R 6%nat ltac:(lia)) as R6. pose proof (R 7%nat ltac:(lia)) as R7. pose proof (R 8%nat ltac:(lia)) as R8.
    pose proof (R 9%nat ltac:(lia)) as R9. pose proof (R 11%nat ltac:(lia)) as R11. pose proof (R 12%nat ltac:(lia)) as R12.
    cbn [ranges nth fst snd] in R0, R1, R2, R3, R4, R5, R6, R7, R8, R9, R11, R12.
    clear R U U' I. revert R0 R1 R2 R3 R4 R5 R6 R7 R8 R9 R11 R12 LE E.
    generalize (nth 0 c 0) (nth 1 c 0) (nth 2 c 0) (nth 3 c 0) (nth 4 c 0) (nth 5 c 0) (nth 6 c 0) (nth 7 c 0)
      (nth 8 c 0) (nth 9 c 0) (nth 10 c 0) (nth 11 c 0) (nth 12 c 0).
    intros.
    repeat match goal with
    | |- context [?a <? ?b] => destruct (Z.ltb_spec a b); [lia|]; cbn [orb]
    | |- context [?a =? 0] => destruct (Z.eqb_spec a 0); [lia|]; cbn [orb]
    end.
    destruct E as [-> | ->]; cbn [Z.eqb Pos.eqb negb andb]; 
    repeat match goal with
    | |- context [?a <? ?b] => destruct (Z.ltb_spec a b); [lia|]; cbn [orb]
    end; reflexivity.
Qed.

Lemma parse_u_range env name d : 0 <= d < 2 ^ 32 -> 0 <= parse_uint32_env env name d < 2 ^ 32.
Proof.
  intros D. unfold parse_uint32_env. destruct (env name); [|exact D]. destruct (strtoul _) as (v, rest).
  destruct (negb _ || _) eqn:G; [exact D|]. apply orb_false_iff in G as (_ & G). apply N.ltb_ge in G.
  change (2 ^ 32) with 4294967296. lia.
Qed.
Lemma parse_i_range env name d : - 2 ^ 31 <= d < 2 ^ 31 -> - 2 ^ 31 <= parse_int_env env name d < 2 ^ 31.
Proof.
  intros D. unfold parse_int_env. destruct (env name); [|exact D]. destruct (strtoll _) as (v, rest).
  destruct (negb _ || _ || _) eqn:G; [exact D|]. apply orb_false_iff in G as (G & G2). apply orb_false_iff in G as (_ & G1).
  apply Z.ltb_ge in G1, G2. change (2 ^ 31) with 2147483648. lia.
Qed.
Lemma load_env_typed env : typed (load_env env defaults).
Proof.
  split; [reflexivity|]. split; intros k K.
  - do 10 (destruct k as [|k]; [unfold load_env; cbn [nth]; apply parse_u_range; vm_compute; split; congruence|]). lia.
  - do 10 (destruct k as [|k]; [lia|]).
    do 3 (destruct k as [|k]; [unfold load_env; cbn [nth]; apply parse_i_range; vm_compute; split; congruence|]). lia.
Qed.

Lemma call_step s o s' r rd : typed_op o -> call s o = Done s' r rd ->
  (s_init s = true -> in_ranges (s_config s)) -> s_init s' = true -> in_ranges (s_config s').
Proof.
  intros T C I. destruct o as [|c env lib|cb|c]; cbn [call] in C.
  - assert (s' = s) by congruence. subst. exact I.
  - destruct (s_init s) eqn:SI; [assert (s' = s) by congruence; subst; intros _; apply I; reflexivity|].
    destruct c as [c|].
    + destruct (validate c) eqn:V; [|assert (s' = s) by congruence; subst; congruence].
      assert (s' = mkState c true (s_cb s)) by congruence. subst. intros _. apply validate_ranges; [apply T|exact V].
    + set (c := load_env env defaults) in *. destruct (validate c) eqn:V.
      * assert (s' = mkState c true (s_cb s)) by congruence. subst s'. intros _.
        apply validate_ranges; [apply load_env_typed|exact V].
      * assert (s' = mkState c false (s_cb s)) by congruence. subst s'. discriminate.
  - assert (s' = mkState (s_config s) (s_init s) cb) by congruence. subst. exact I.
  - destruct c as [c|]; [|assert (s' = s) by congruence; subst; exact I].
    destruct (s_init s) eqn:SI; cbn [negb] in C; [|assert (s' = s) by congruence; subst; congruence].
    destruct (validate c) eqn:V; [|assert (s' = s) by congruence; subst; intros _; apply I; reflexivity].
    assert (s' = mkState c true (s_cb s)).
    { destruct (s_cb s) as [cb|]; [destruct (callback_returns cb)|]; congruence. }
    subst. intros _. apply validate_ranges; [apply T|exact V].
Qed.
Lemma run_valid h s : run h s -> typed_history h -> s_init s = true -> in_ranges (s_config s).
Proof.
  induction 1 as [|h s o s' r rd R IH C]; intros T; [discriminate|].
  inversion T; subst. eapply call_step; [eassumption|exact C|]. apply IH. assumption.
Qed.

(** ** C29 *)
(** Every configuration ever read is within the documented ranges. *)
Theorem C29_valid : forall h s, run h s -> typed_history h ->
  Forall (fun e => match snd e with Some c => in_ranges c | None => True end) h.
Proof.
  induction 1 as [|h s o s' r rd R IH C]; intros T; [constructor|].
  inversion T as [|? ? T1 T2]; subst. constructor; [|apply IH; exact T2].
  cbn [snd]. destruct rd as [c|]; [|exact I].
  destruct o as [|c0 env lib|cb|c0]; cbn [call] in C.
  - destruct (s_init s) eqn:SI; [|discriminate]. assert (c = s_config s) by congruence. subst.
    eapply run_valid; eassumption.
  - destruct (s_init s); [discriminate|]. destruct c0 as [c0|]; [destruct (validate c0)|destruct (validate _)]; discriminate.
  - discriminate.
  - destruct c0 as [c0|]; [|discriminate]. destruct (negb _); [discriminate|]. destruct (validate c0); [|discriminate].
    destruct (s_cb s) as [cb|]; [destruct (callback_returns cb)|]; discriminate.
Qed.

(** Acceptance is exactly the documented ranges. *)
Theorem C29_accepts : forall s c, typed c -> s_init s = true -> s_cb s = None ->
  (in_ranges c -> call s (OUpdate (Some c)) = Done (mkState c true None) (Ok tt) None) /\
  (~ in_ranges c -> call s (OUpdate (Some c)) = Done s (Err EInvalidParam) None).
Proof.
  intros s c T I N. cbn [call]. rewrite I, N. cbn [negb]. split; intros H.
  - apply validate_ranges in H; [|exact T]. rewrite H. reflexivity.
  - destruct (validate c) eqn:V; [|reflexivity]. exfalso. apply H, validate_ranges; assumption.
Qed.

(** A call that returns an error leaves what readers see unchanged (an error
    from starting the library itself comes after the configuration is in
    force). *)
Theorem C29_rejected : forall s o s' e rd, call s o = Done s' (Err e) rd ->
  (forall c env lib, o = OInit c env lib -> lib = Ok tt) ->
  call s' OGet = Done s' (Ok tt) (match call s OGet with Done _ _ r => r | Blocked => None end).
Proof.
  intros s o s' e rd C L. cbn [call]. f_equal.
  destruct o as [|c env lib|cb|c]; cbn [call] in C.
  - discriminate.
  - specialize (L c env lib eq_refl). subst lib. destruct (s_init s) eqn:SI; [discriminate|].
    destruct c as [c|]; [destruct (validate c)|destruct (validate _)]; try discriminate.
    + assert (s' = s) by congruence. subst. rewrite SI. reflexivity.
    + assert (s' = mkState (load_env env defaults) false (s_cb s)) by congruence. subst. reflexivity.
  - discriminate.
  - destruct c as [c|]; [|assert (s' = s) by congruence; subst; reflexivity].
    destruct (s_init s) eqn:SI; cbn [negb] in C; [|assert (s' = s) by congruence; subst; rewrite SI; reflexivity].
    destruct (validate c); [|assert (s' = s) by congruence; subst; rewrite SI; reflexivity].
    destruct (s_cb s) as [cb|]; [destruct (callback_returns cb)|]; discriminate.
Qed.

(** Readers see the configuration of the first effective initialisation or of
    the last accepted update after it. *)
Lemma run_in_force h s : run h s -> typed_history h -> in_force h = if s_init s then Some (s_config s) else None.
Proof.
  induction 1 as [|h s o s' r rd R IH C]; intros T; [reflexivity|].
  inversion T as [|? ? T1 T2]; subst. specialize (IH T2). cbn [in_force fst] in *. rewrite IH.
  destruct o as [|c env lib|cb|c]; cbn [call typed_op] in *.
  - assert (s' = s) by congruence. subst. destruct (s_init s); reflexivity.
  - destruct (s_init s) eqn:SI.
    + assert (s' = s) by congruence. subst. rewrite SI. reflexivity.
    + destruct c as [c|].
      * destruct T1 as (T1 & TL). destruct (validate c) eqn:V.
        -- assert (s' = mkState c true (s_cb s)) by congruence. assert (r = lib) by congruence. subst. cbn [s_init s_config].
           destruct lib as [u|x|]; [reflexivity| |reflexivity]. destruct x; try reflexivity. congruence.
        -- assert (s' = s) by congruence. assert (r = Err EInvalidParam) by congruence. subst. rewrite SI. reflexivity.
      * set (c := load_env env defaults) in *. destruct (validate c) eqn:V.
        -- assert (s' = mkState c true (s_cb s)) by congruence. assert (r = lib) by congruence. subst s' r. cbn [s_init s_config].
           destruct lib as [u|x|]; [reflexivity| |reflexivity]. destruct x; try reflexivity. congruence.
        -- assert (s' = mkState c false (s_cb s)) by congruence. assert (r = Err EInvalidParam) by congruence. subst s' r. reflexivity.
  - assert (s' = mkState (s_config s) (s_init s) cb) by congruence. subst. cbn [s_init s_config]. destruct (s_init s); reflexivity.
  - destruct c as [c|].
    2:{ assert (s' = s) by congruence. subst. destruct (s_init s); reflexivity. }
    destruct (s_init s) eqn:SI; cbn [negb] in C.
    + destruct (validate c) eqn:V.
      * assert (H : s' = mkState c true (s_cb s) /\ r = Ok tt).
        { destruct (s_cb s) as [cb|]; [destruct (callback_returns cb)|]; split; congruence. }
        destruct H; subst. reflexivity.
      * assert (s' = s) by congruence. assert (r = Err EInvalidParam) by congruence. subst. rewrite SI. reflexivity.
    + assert (s' = s) by congruence. subst. rewrite SI. reflexivity.
Qed.
Theorem C29_in_force_partial : forall h s r rd, run ((OGet, r, rd) :: h) s -> typed_history h -> rd = in_force h.
Proof.
  intros h s r rd R T. inversion R as [|h' s1 o s2 r' rd' R1 C]; subst. cbn [call] in C.
  rewrite (run_in_force h s1 R1 T). congruence.
Qed.

(** Concrete histories, oldest call first. *)
Fixpoint replay (os : list op) (h : list entry) (s : state) : option (list entry * state) :=
  match os with
  | [] => Some (h, s)
  | o :: r => match call s o with Done s' x rd => replay r ((o, x, rd) :: h) s' | Blocked => None end
  end.
Lemma replay_run os : forall h s h' s', run h s -> replay os h s = Some (h', s') -> run h' s'.
Proof.
  induction os as [|o os IH]; intros h s h' s' R E; cbn [replay] in E.
  - assert (h' = h /\ s' = s) as (-> & ->) by (split; congruence). exact R.
  - destruct (call s o) as [s1 x rd|] eqn:C; [|discriminate]. eapply IH; [|exact E]. eapply RunS; eassumption.
Qed.
Ltac by_replay os := refine (replay_run os _ _ _ _ Run0 _); vm_compute; reflexivity.

(** But not always the one of the last call that reported success: a second
    initialisation is ignored and reports success, even for an invalid
    configuration. *)
Definition with_sessions (n : Z) : config := [1; 65535; n; 3600; 32; 65536; 100; 50; 30000; 10000; 44; 0; 0].
Theorem C29_last_ok_refuted : ~ (forall h s r rd, run ((OGet, r, rd) :: h) s -> typed_history h -> rd = last_ok h).
Proof.
  intros H. set (env := fun _ : list N => @None (list N)).
  set (h := [(OInit (Some (with_sessions 0)) env (Ok tt), Ok tt, @None config);
             (OInit (Some (with_sessions 5)) env (Ok tt), Ok tt, @None config)]).
  assert (R : run ((OGet, Ok tt, Some (with_sessions 5)) :: h) (mkState (with_sessions 5) true None)).
  { unfold h. by_replay [OInit (Some (with_sessions 5)) env (Ok tt); OInit (Some (with_sessions 0)) env (Ok tt); OGet]. }
  specialize (H h _ _ _ R). cbn in H.
  assert (T : forall n, 0 <= n < 100 -> typed (with_sessions n)).
  { intros n Hn. split; [reflexivity|]. change (2 ^ 32) with 4294967296. change (2 ^ 31) with 2147483648.
    split; intros k K; do 13 (destruct k as [|k]; [cbn [with_sessions nth]; lia|]); lia. }
  assert (TH : typed_history h).
  { unfold h. repeat constructor; cbn [fst typed_op]; try (apply T; lia); discriminate. }
  specialize (H TH). discriminate.
Qed.

(** Environment variables: a plain decimal number is taken over exactly. *)
Theorem C29_env : forall env name d v, env name = Some (dec_N v) ->
  parse_uint32_env env name d = (if (v <? 2 ^ 32)%N then Z.of_N v else d).
Proof.
  intros env name d v E. unfold parse_uint32_env. rewrite E.
  unfold strtoul. rewrite <- (app_nil_r (dec_N v)). rewrite (scan_int_dec v [] I).
  destruct (N.ltb_spec v (2 ^ 32)) as [L|L]; change (2 ^ 32)%N with 4294967296%N in L.
  - rewrite (proj2 (N.ltb_ge 18446744073709551615 v)) by lia. cbn [length Nat.eqb negb orb].
    rewrite (proj2 (N.ltb_ge 4294967295 v)) by lia. reflexivity.
  - cbn [length Nat.eqb negb orb]. destruct (N.ltb_spec 18446744073709551615 v).
    + reflexivity.
    + rewrite (proj2 (N.ltb_lt 4294967295 v)) by lia. reflexivity.
Qed.

Example C29_case : run [(OGet, Ok tt, Some (with_sessions 7)); (OUpdate (Some (with_sessions 7)), Ok tt, None);
    (OUpdate (Some (with_sessions 70000)), Err EInvalidParam, None); (OGet, Ok tt, Some defaults);
    (OInit None (fun _ => None) (Ok tt), Ok tt, None); (OGet, Ok tt, None)] (mkState (with_sessions 7) true None).
Proof.
  by_replay [OGet; OInit None (fun _ => None) (Ok tt); OGet; OUpdate (Some (with_sessions 70000)); OUpdate (Some (with_sessions 7)); OGet].
Qed.

(** ** C30 *)
(** False: a change callback that reads the configuration never returns. *)
Theorem C30_refuted : ~ (forall h s o, run h s -> call s o <> Blocked).
Proof.
  intros H. set (env := fun _ : list N => @None (list N)).
  apply (H [(OSet (Some [CbGet]), Ok tt, None); (OInit None env (Ok tt), Ok tt, None)]
           (mkState defaults true (Some [CbGet])) (OUpdate (Some (with_sessions 7)))).
  - by_replay [OInit None env (Ok tt); OSet (Some [CbGet])].
  - reflexivity.
Qed.
(** Exactly the updates accepted while the installed callback uses the locked
    part of the interface block; everything else returns. *)
Theorem C30_exact_partial : forall s o,
  call s o = Blocked <->
  exists c cb, o = OUpdate (Some c) /\ s_init s = true /\ validate c = true /\ s_cb s = Some cb /\
    Exists (fun x => takes_lock x = true) cb.
Proof.
  assert (CB : forall cb, callback_returns cb = false <-> Exists (fun x => takes_lock x = true) cb).
  { induction cb as [|x cb IH]; cbn [callback_returns]; [split; [discriminate|intros E; inversion E]|].
    destruct (takes_lock x) eqn:TL.
    - split; [intros _; constructor; exact TL|reflexivity].
    - rewrite IH. split; [intros E; apply Exists_cons_tl, E|]. intros E. inversion E; [congruence|assumption]. }
  intros s o. split.
  - destruct o as [|c env lib|cb|c]; cbn [call]; try discriminate.
    + destruct (s_init s); [discriminate|]. destruct c as [c|]; [destruct (validate c)|destruct (validate _)]; discriminate.
    + destruct c as [c|]; [|discriminate]. destruct (s_init s) eqn:SI; cbn [negb]; [|discriminate].
      destruct (validate c) eqn:V; [|discriminate]. destruct (s_cb s) as [cb|] eqn:SC; [|discriminate].
      destruct (callback_returns cb) eqn:R; [discriminate|]. intros _. exists c, cb. repeat split; auto. apply CB, R.
  - intros (c & cb & -> & SI & V & SC & E). cbn [call]. rewrite SI, V, SC. cbn [negb].
    rewrite (proj2 (CB cb) E). reflexivity.
Qed.
Example C30_case : call (mkState defaults true (Some [CbValidate defaults; CbDefaults])) (OUpdate (Some (with_sessions 7))) =
  Done (mkState (with_sessions 7) true (Some [CbValidate defaults; CbDefaults])) (Ok tt) None.
Proof. reflexivity. Qed.

Print Assumptions C29_valid.
Print Assumptions C29_accepts.
Print Assumptions C29_rejected.
Print Assumptions C29_in_force_partial.
Print Assumptions C29_last_ok_refuted.
Print Assumptions C29_env.
Print Assumptions C30_refuted.
Print Assumptions C30_exact_partial.
