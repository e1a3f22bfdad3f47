(** Property theorems C24, C25, C26, C65, C66 (proof of work). *)
From Verif Require Import Base BaseFacts Dec Strto Event Arena ArenaSpec Nip13 Nip13Spec Nip13Proofs Nip13Threads Nip13Arena.
Open Scope N_scope.

(** ** C24 *)
Theorem C24_difficulty_exact : forall id d, length id = 32%nat -> bytes_ok id ->
  ((d <= difficulty id)%nat <-> (d <= 256)%nat /\ be_value id < 2 ^ N.of_nat (256 - d)).
Proof. intros id d L B. apply difficulty_work; assumption. Qed.

Example C24_case : difficulty (0 :: 0 :: 23 :: repeat 200 29) = 19%nat /\
  be_value (0 :: 0 :: 23 :: repeat 200 29) < 2 ^ 237 /\ 2 ^ 236 <= be_value (0 :: 0 :: 23 :: repeat 200 29).
Proof. vm_compute. repeat split; congruence. Qed.

(** ** C25 *)
Section C25.
Variable num : Z -> list N.
Variable sha256 : list N -> list N.
Hypothesis D32 : digest32 sha256.

Lemma loop_mined a0 al clock fuel e t max m : nonce_ok (ev_tags e) ->
  mine_event num sha256 fuel a0 al clock e t max = Some (m, Ok tt) ->
  exists e', observe m = Some e' /\ mined (serialize_with num) sha256 e e' t.
Proof.
  intros NO. unfold mine_event. destruct (Z.ltb_spec t 1) as [T|T]; [discriminate|].
  destruct (prepare a0 t (load e)) as (m0, r) eqn:P. destruct r as [[]|x|]; [|discriminate..].
  destruct (prepare_shape a0 t e m0 NO ltac:(lia) P) as (E0 & pre & post & rest & SH & ST).
  intros E. destruct (mine_loop_ok num sha256 al clock t max pre post rest ltac:(lia) _ _ _ _ _ SH E)
    as (n & c & SB & TG & e' & OB & EE & DF).
  exists e'. split; [exact OB|]. subst e'. rewrite E0 in SB.
  split; [destruct SB as (A & B & C); repeat split; assumption|].
  split; [reflexivity|]. cbn [ev_id with_id] in *. destruct (D32 (serialize_with num c)) as (L & B).
  split; [apply difficulty_work; [assumption..|lia]|].
  exists n. exists pre, post, rest. cbn [ev_tags with_id]. rewrite TG. split; [reflexivity|].
  split; [apply SH|]. exact ST.
Qed.

(** Mining that returns OK has produced a valid proof of work, for every event
    whose first nonce tag has a second value. *)
Theorem C25_mined_partial : forall fuel a0 al clock e t max m, nonce_ok (ev_tags e) ->
  mine_event num sha256 fuel a0 al clock e t max = Some (m, Ok tt) ->
  exists e', observe m = Some e' /\ mined (serialize_with num) sha256 e e' t.
Proof. intros. eapply loop_mined; eassumption. Qed.

(** Such an event passes verification at any difficulty up to the target. *)
Theorem C25_mined_verifies : forall fuel a0 al clock e t max m d, nonce_ok (ev_tags e) ->
  (1 <= d <= t)%Z -> (t < 2 ^ 31)%Z ->
  mine_event num sha256 fuel a0 al clock e t max = Some (m, Ok tt) ->
  exists e', observe m = Some e' /\ verify_pow e' d = Ok tt.
Proof.
  intros fuel a0 al clock e t max m d NO D T E.
  destruct (loop_mined a0 al clock fuel e t max m NO E) as (e' & OB & SB & ID & HW & n & pre & post & rest & TG & FP & _).
  exists e'. split; [exact OB|]. unfold verify_pow.
  rewrite (proj2 (Z.ltb_ge d 1)) by lia.
  assert (FN : find_nonce (map (map Some) (ev_tags e')) = Some (length pre)).
  { rewrite TG, map_app. cbn [app map]. rewrite find_nonce_at.
    - rewrite map_length. reflexivity.
    - apply pre_is_nonce, FP.
    - apply beq_eq. reflexivity. }
  rewrite FN, TG. cbn [app]. rewrite nth_at. cbn [length Nat.ltb Nat.leb nth].
  destruct (D32 (serialize_with num e')) as (L & B). rewrite <- ID in L, B.
  apply difficulty_work in HW; [|assumption..].
  rewrite (proj2 (Z.ltb_ge _ d)) by lia.
  replace (dec_Z t) with (dec_N (Z.to_N t)) by (destruct t; [lia|reflexivity|lia]).
  rewrite atoi_dec by lia. rewrite Z2N.id by lia.
  rewrite (proj2 (Z.ltb_ge (Z.of_nat (difficulty (ev_id e'))) t)) by lia. rewrite andb_false_r. reflexivity.
Qed.

(** When the limit is reached without success, none of the first [max] nonces
    would have done (at the times they were tried). *)
Theorem C25_not_found_exhaustive : forall fuel a0 al clock e t max m, nonce_ok (ev_tags e) ->
  max < 2 ^ 64 -> (forall k, al_add (al k) <> Some ENotFound) -> al_add a0 <> Some ENotFound ->
  mine_event num sha256 fuel a0 al clock e t max = Some (m, Err ENotFound) ->
  max <> 0 /\ forall n, n < max -> exists c,
    same_body e c /\ ev_created c = clock n /\ nonce_set (ev_tags e) (ev_tags c) n t /\
    ~ has_work (sha256 (serialize_with num c)) (Z.to_nat t).
Proof.
  intros fuel a0 al clock e t max m NO MX AN A0. unfold mine_event.
  destruct (Z.ltb_spec t 1) as [T|T]; [discriminate|].
  destruct (prepare a0 t (load e)) as (m0, r) eqn:P. destruct r as [[]|x|]; [| |discriminate].
  2:{ intros E. exfalso. assert (x = ENotFound) by congruence. subst x. clear E. revert P.
      unfold prepare. destruct (find_nonce (m_tags (load e))) eqn:FN; [discriminate|].
      unfold add_nonce_tag. rewrite FN. destruct (al_add a0) eqn:AA; [congruence|].
      pose proof (find_nonce_split (m_tags (load e))) as FS. rewrite FN in FS.
      rewrite find_nonce_at; [discriminate|exact FS|apply beq_eq; reflexivity]. }
  destruct (prepare_shape a0 t e m0 NO ltac:(lia) P) as (E0 & pre & post & rest & SH & ST).
  intros E. assert (SB : same_body e (m_ev m0)) by (rewrite E0; repeat split).
  destruct (mine_loop_notfound num sha256 al clock t max pre post rest ltac:(lia) MX fuel 0 m0 m e SH
              ltac:(reflexivity) SB E AN) as (M & A).
  split; [exact M|]. intros n Hn. specialize (A n ltac:(lia)). cbv zeta in A.
  exists (candidate e pre post rest t n (clock n)). split; [|split; [|split; [|]]].
  4:{ intros W. apply A. apply difficulty_work in W; try apply D32. lia. }
  - repeat split.
  - reflexivity.
  - exists pre, post, rest. split; [reflexivity|]. split; [apply SH|exact ST].
Qed.
End C25.

(** A toy digest; a successful and an unsuccessful search. *)
Definition toy_sha (x : list N) : list N := (fold_left N.add x 0 mod 256) :: repeat 255 31.
Lemma toy_digest : digest32 toy_sha.
Proof.
  intros x. split; [reflexivity|]. constructor; [apply N.mod_lt; discriminate|].
  apply Forall_forall. intros b H. apply repeat_spec in H. subst. reflexivity.
Qed.
Definition pow_event : event :=
  mkEvent (repeat 0 32) (repeat 17 32) 5 1 [[bs "t"; bs "x"]; [bs "nonce"; bs "9"; bs "3"; bs "note"]; [bs "p"]] (Some (bs "hi")) (repeat 0 64).
Definition all_ok : allocs := mkAllocs true true true None true.
Lemma pow_event_ok : nonce_ok (ev_tags pow_event).
Proof.
  intros pre old post E F (r & ->). cbn [ev_tags pow_event] in E.
  destruct pre as [|p1 [|p2 [|p3 pre]]]; cbn [app] in E.
  - discriminate.
  - assert (r = [bs "9"; bs "3"; bs "note"]) by congruence. subst. cbn [length]. lia.
  - discriminate.
  - destruct pre; discriminate.
Qed.
Example C25_case :
  match mine_event dec_Z toy_sha 300 all_ok (fun _ => all_ok) (fun k => 1700000000 + Z.of_N k)%Z pow_event 4 0 with
  | Some (m, Ok _) => option_map (fun e => (ev_tags e, difficulty (ev_id e))) (observe m) =
      Some ([[bs "t"; bs "x"]; [bs "nonce"; bs "16"; bs "4"; bs "note"]; [bs "p"]], 7%nat)
  | _ => False end /\
  match mine_event dec_Z toy_sha 300 all_ok (fun _ => all_ok) (fun k => 1700000000 + Z.of_N k)%Z pow_event 4 9 with
  | Some (m, Err ENotFound) => True | _ => False end.
Proof. vm_compute. auto. Qed.

(** Without the restriction on the nonce tag: setting the nonce of an event
    whose tags are ["nonce"], ["t","nostr"] overwrites the text of the first
    tag and a pointer of the second; the event can no longer be read. *)
Theorem C25_refuted :
  ~ (forall mem cs st acc e re1 re2 re3 n t st' r,
       block_ok mem -> b_len mem = 1024 -> Forall call_ok cs ->
       run (create mem) cs = Ok (st, acc) ->
       add_nonce e re1 re2 re3 st n t = Ok (st', r) ->
       exists tags, tags_of st' = Ok tags).
Proof.
  intros H.
  set (no := fun _ _ : N => @None (N * list N)).
  set (cs := [(no, None, true, [Some (bs "nonce")]) : call; (no, None, true, [Some (bs "t"); Some (bs "nostr")])]).
  set (mem := mkBlock 4096 (repeat 170 1024)).
  set (e := mkEnv None (no 0) true).
  destruct (run (create mem) cs) as [(st, acc)| |] eqn:R; [|vm_compute in R; discriminate..].
  destruct (add_nonce e (no 0) (no 0) (no 0) st 7 20) as [(st', r)| |] eqn:A.
  - destruct (H mem cs st acc e (no 0) (no 0) (no 0) 7 20%Z st' r) as (tags & K).
    + split; vm_compute; congruence.
    + reflexivity.
    + constructor; [|constructor; [|constructor]].
      * split; [intros old cap addr junk _ K; discriminate|].
        constructor; [|constructor]. repeat (constructor; [unfold char_ok; cbn; lia|]). constructor.
      * split; [intros old cap addr junk _ K; discriminate|].
        constructor; [|constructor; [|constructor]]; repeat (constructor; [unfold char_ok; cbn; lia|]); constructor.
    + exact R.
    + exact A.
    + vm_compute in R. injection R as <- <-. vm_compute in A. injection A as <- <-. vm_compute in K. discriminate.
  - vm_compute in R. injection R as <- <-. vm_compute in A. discriminate.
  - vm_compute in R. injection R as <- <-. vm_compute in A. discriminate.
Qed.

(** On the level of tag lists: such an event is outside what the miner handles. *)
Theorem C25_one_value_refuted :
  ~ (forall num sha fuel a0 al clock e t max m, digest32 sha ->
       mine_event num sha fuel a0 al clock e t max <> Some (m, Undef)).
Proof.
  intros H.
  set (e := mkEvent (repeat 0 32) (repeat 17 32) 5 1 [[bs "nonce"]] (Some (bs "hi")) (repeat 0 64)).
  apply (H dec_Z toy_sha 5%nat all_ok (fun _ => all_ok) (fun _ => 0%Z) e 4%Z 0 (load e) toy_digest).
  vm_compute. reflexivity.
Qed.

(** ** C65: verification is bound to the content (false) *)
Theorem C65_verify_bound_refuted :
  ~ (forall num sha e d, digest32 sha -> verify_pow e d = Ok tt ->
       has_work (sha (serialize_with num e)) (Z.to_nat d)).
Proof.
  intros H.
  set (e := mkEvent (repeat 0 32) (repeat 17 32) 5 1 [[bs "nonce"; bs "1"; bs "8"]] (Some (bs "hi")) (repeat 0 64)).
  assert (D : digest32 (fun _ => repeat 255 32)).
  { intros x. split; [reflexivity|]. apply Forall_forall. intros b K. apply repeat_spec in K. subst. reflexivity. }
  specialize (H dec_Z (fun _ => repeat 255 32) e 8%Z D ltac:(vm_compute; reflexivity)).
  cbv beta in H. destruct H as (_ & H). vm_compute in H. discriminate.
Qed.

(** What it does establish: the claimed id meets the minimum and the committed
    target, for events with a nonce tag of at least two values; together with
    a verified id (C17) this is the full claim. *)
Theorem C65_verify_partial : forall e d, length (ev_id e) = 32%nat -> bytes_ok (ev_id e) ->
  verify_pow e d = Ok tt ->
  has_work (ev_id e) (Z.to_nat d) /\
  exists pre t post, ev_tags e = pre ++ [t] ++ post /\ Forall (fun vs => ~ named_nonce vs) pre /\
    named_nonce t /\ (2 <= length t)%nat /\
    forall c r v w, t = v :: w :: dec_N c :: r -> c < 2 ^ 31 -> has_work (ev_id e) (N.to_nat c).
Proof.
  intros e d L B. unfold verify_pow. destruct (Z.ltb_spec d 1) as [T|T]; [discriminate|].
  pose proof (find_nonce_split (some_tags (ev_tags e))) as FS. unfold some_tags in FS.
  destruct (find_nonce _) as [i|]; [|discriminate].
  destruct FS as (P & x & Q & E & LP & IN & FP).
  apply map_eq_app in E as (pre & r & E1 & EP & E2).
  destruct r as [|old post]; [discriminate|]. cbn [map] in E2. injection E2 as E2 E3. subst x.
  rewrite E1. rewrite <- LP, <- EP, map_length, nth_at.
  destruct (Nat.ltb_spec (length old) 2) as [L2|L2]; [discriminate|].
  destruct (Z.ltb_spec (Z.of_nat (difficulty (ev_id e))) d) as [DD|DD]; [discriminate|].
  intros C. split; [apply difficulty_work; [assumption..|lia]|].
  exists pre, old, post. split; [reflexivity|]. split.
  { subst P. rewrite Forall_map in FP. eapply Forall_impl; [|exact FP]. cbv beta. intros vs H N.
    apply is_nonce_some in N. congruence. }
  split; [apply is_nonce_some; exact IN|]. split; [exact L2|].
  intros c r v w -> HC. apply difficulty_work; [assumption..|].
  cbn [length Nat.leb nth] in C. rewrite atoi_dec in C by exact HC.
  destruct (Z.ltb_spec 0 (Z.of_N c)) as [C0|C0]; [|lia].
  destruct (Z.ltb_spec (Z.of_nat (difficulty (ev_id e))) (Z.of_N c)); [discriminate|lia].
Qed.

(** ** C26: the threaded miner under every schedule *)
Section C26.
Variable num : Z -> list N.
Variable sha256 : list N -> list N.
Hypothesis D32 : digest32 sha256.

Lemma prepare_threaded_prepare a t e m : (0 < t)%Z -> prepare_threaded a t e = (m, Ok tt) -> prepare a t (load e) = (m, Ok tt).
Proof.
  intros T. unfold prepare_threaded, prepare, load. cbn [m_tags m_ev].
  pose proof (find_nonce_split (map (map Some) (ev_tags e))) as FS.
  destruct (find_nonce (map (map Some) (ev_tags e))) eqn:FN; [auto|].
  unfold add_nonce_tag. rewrite FN. destruct (al_add a); [discriminate|].
  rewrite find_nonce_at by (assumption || (apply beq_eq; reflexivity)). auto.
Qed.

Theorem C26_all_schedules_partial : forall a0 e t max n m s, nonce_ok (ev_tags e) ->
  (1 <= t)%Z -> N.of_nat n < 2 ^ 31 ->
  prepare_threaded a0 t e = (m, Ok tt) ->
  treach num sha256 t max n m s -> t_main s = MDone (Ok tt) ->
  exists e', observe (t_ev s) = Some e' /\ mined (serialize_with num) sha256 e e' t.
Proof.
  intros a0 e t max n m s NO T NT P R M.
  apply prepare_threaded_prepare in P; [|lia].
  destruct (prepare_shape a0 t e m NO ltac:(lia) P) as (E0 & pre & post & rest & SH & ST).
  assert (SB : same_body e (m_ev m)) by (rewrite E0; repeat split).
  pose proof (tinv_reach num sha256 t max n e pre post rest ltac:(lia) NT m s SH SB R) as I.
  destruct (ti_main _ _ _ _ _ _ _ _ _ I M) as (i & w & Hw & Fw).
  destruct (ti_found _ _ _ _ _ _ _ _ _ I i w Hw Fw) as (_ & (B & (e' & OB & ID) & DF & k & TG) & _).
  exists e'. split; [exact OB|]. unfold observe in OB. rewrite TG, full_tags_some in OB. injection OB as <-.
  split; [destruct B as (B1 & B2 & B3); repeat split; assumption|]. split; [exact ID|].
  cbn [ev_id with_tags] in *. destruct (D32 (serialize_with num (with_tags (m_ev (t_ev s)) (tags_for t pre post rest k)))) as (L & BO).
  rewrite <- ID in L, BO.
  split; [apply difficulty_work; [assumption..|lia]|].
  exists k. exists pre, post, rest. cbn [ev_tags with_tags]. split; [reflexivity|]. split; [apply SH|exact ST].
Qed.

(** No schedule blocks: until the call returns some thread can move. *)
Theorem C26_no_deadlock : forall a0 e t max n m s, nonce_ok (ev_tags e) -> (1 <= t)%Z -> N.of_nat n < 2 ^ 31 ->
  prepare_threaded a0 t e = (m, Ok tt) ->
  treach num sha256 t max n m s -> (forall r, t_main s <> MDone r) ->
  exists s', tstep num sha256 t max n s s'.
Proof.
  intros a0 e t max n m s NO T NT P R M.
  apply prepare_threaded_prepare in P; [|lia].
  destruct (prepare_shape a0 t e m NO ltac:(lia) P) as (E0 & pre & post & rest & SH & ST).
  assert (SB : same_body e (m_ev m)) by (rewrite E0; repeat split).
  pose proof (tinv_reach num sha256 t max n e pre post rest ltac:(lia) NT m s SH SB R) as I.
  eapply tinv_progress; [|exact NT|exact I|exact M]. lia.
Qed.

(** When the call returns, no worker is still using the memory it frees. *)
Theorem C26_joined : forall a0 e t max n m s r, nonce_ok (ev_tags e) -> (1 <= t)%Z -> N.of_nat n < 2 ^ 31 ->
  prepare_threaded a0 t e = (m, Ok tt) ->
  treach num sha256 t max n m s -> t_main s = MDone r ->
  (forall i w, nth_error (t_workers s) i = Some w -> w_pc w = PDone) /\
  (forall s', tstep num sha256 t max n s s' -> False).
Proof.
  intros a0 e t max n m s r NO T NT P R M.
  apply prepare_threaded_prepare in P; [|lia].
  destruct (prepare_shape a0 t e m NO ltac:(lia) P) as (E0 & pre & post & rest & SH & ST).
  assert (SB : same_body e (m_ev m)) by (rewrite E0; repeat split).
  pose proof (tinv_reach num sha256 t max n e pre post rest ltac:(lia) NT m s SH SB R) as I.
  pose proof (ti_done _ _ _ _ _ _ _ _ _ I r M) as D. split; [exact D|].
  intros s' [i w Hw W|C].
  - apply D in Hw. inversion W; congruence.
  - inversion C; congruence.
Qed.

(** With at most 1000 threads, different workers try different nonces: for any
    two moments of any two executions. *)
Theorem C26_distinct_nonces_partial : forall a0 e t max n m s1 s2 i j w v, nonce_ok (ev_tags e) -> (1 <= t)%Z ->
  (n <= 1000)%nat -> prepare_threaded a0 t e = (m, Ok tt) ->
  treach num sha256 t max n m s1 -> treach num sha256 t max n m s2 ->
  nth_error (t_workers s1) i = Some w -> nth_error (t_workers s2) j = Some v ->
  w_iter w < 2 ^ 54 -> w_iter v < 2 ^ 54 -> i <> j \/ w_iter w <> w_iter v ->
  w_nonce w <> w_nonce v.
Proof.
  intros a0 e t max n m s1 s2 i j w v NO T NT P R1 R2 Hw Hv B1 B2 NE E.
  apply prepare_threaded_prepare in P; [|lia].
  destruct (prepare_shape a0 t e m NO ltac:(lia) P) as (E0 & pre & post & rest & SH & ST).
  assert (SB : same_body e (m_ev m)) by (rewrite E0; repeat split).
  assert (NT' : N.of_nat n < 2 ^ 31) by (change (2 ^ 31) with 2147483648; lia).
  pose proof (tinv_reach num sha256 t max n e pre post rest ltac:(lia) NT' m s1 SH SB R1) as I1.
  pose proof (tinv_reach num sha256 t max n e pre post rest ltac:(lia) NT' m s2 SH SB R2) as I2.
  pose proof (ti_nonce _ _ _ _ _ _ _ _ _ I1 i w Hw) as N1.
  pose proof (ti_nonce _ _ _ _ _ _ _ _ _ I2 j v Hv) as N2.
  assert (Li : (i < n)%nat).
  { pose proof (ti_count _ _ _ _ _ _ _ _ _ I1) as (C & _). assert (i < length (t_workers s1))%nat; [|lia].
    apply nth_error_Some. congruence. }
  assert (Lj : (j < n)%nat).
  { pose proof (ti_count _ _ _ _ _ _ _ _ _ I2) as (C & _). assert (j < length (t_workers s2))%nat; [|lia].
    apply nth_error_Some. congruence. }
  rewrite N.mod_small in N1, N2 by (change (2 ^ 54) with 18014398509481984 in *; change (2 ^ 64) with 18446744073709551616; lia).
  rewrite N1, N2 in E. clear -E NE Li Lj NT. lia.
Qed.
End C26.

(** Three workers that have all been created. *)
Definition started (n : nat) : list worker := map (fun i => mkWorker PLoop (N.of_nat i) 0 false) (seq 0 n).
Lemma reach_created num sha t max n m : forall k, (k <= n)%nat ->
  treach num sha t max n m (mkT m false None (started k) (MCreate k)).
Proof.
  induction k as [|k IH]; intros L; [apply TR0|].
  eapply TRS; [apply IH; lia|]. apply TCaller.
  replace (started (S k)) with (started k ++ [mkWorker PLoop (N.of_nat k) 0 false]).
  - apply (CCreate _ (mkT m false None (started k) (MCreate k)) k); [reflexivity|lia].
  - unfold started. rewrite seq_S, map_app. reflexivity.
Qed.

Lemma pow_prepare : prepare_threaded all_ok 4 pow_event = (load pow_event, Ok tt).
Proof. vm_compute. reflexivity. Qed.

(** Worker 0 up to its test. *)
Lemma reach_test num sha t n m m0 nn k ws mp ts m2 :
  treach num sha t 0 n m (mkT m0 false None (mkWorker PLoop nn k false :: ws) mp) ->
  add_nonce_tag all_ok (m_tags m0) nn t = (ts, Ok tt) ->
  m_compute_id num sha all_ok (mkMev (with_created (m_ev m0) 5%Z) ts) = (m2, Ok tt) ->
  treach num sha t 0 n m (mkT m2 false (Some 0%nat) (mkWorker PTest nn k false :: ws) mp).
Proof.
  intros R A H.
  assert (S : forall s s', treach num sha t 0 n m s -> forall w, nth_error (t_workers s) 0 = Some w ->
            wstep num sha t 0 s 0 w s' -> treach num sha t 0 n m s').
  { intros s s' R' w Hw W. eapply TRS; [exact R'|]. eapply TWorker; eassumption. }
  eapply S in R; [|reflexivity|apply WEnter; [reflexivity|reflexivity|auto]].
  eapply S in R; [|reflexivity|apply WLock; reflexivity].
  eapply S in R; [|reflexivity|apply WCheck; reflexivity].
  eapply S in R; [|reflexivity|eapply (WAdd _ _ _ _ _ _ _ all_ok); [reflexivity|exact A|discriminate]].
  eapply S in R; [|reflexivity|apply (WTime _ _ _ _ _ _ _ 5%Z); reflexivity].
  eapply S in R; [|reflexivity|eapply (WHash _ _ _ _ _ _ _ all_ok); [reflexivity|exact H|discriminate]].
  exact R.
Qed.

(** The first candidate made from the sample event. *)
Definition pow_tags : list otag := fst (add_nonce_tag all_ok (m_tags (load pow_event)) 0 4).
Definition pow_hashed (sha : list N -> list N) : mev :=
  fst (m_compute_id dec_Z sha all_ok (mkMev (with_created (m_ev (load pow_event)) 5%Z) pow_tags)).
Lemma pow_test sha n ws mp :
  treach dec_Z sha 4 0 n (load pow_event) (mkT (load pow_event) false None (mkWorker PLoop 0 0 false :: ws) mp) ->
  treach dec_Z sha 4 0 n (load pow_event) (mkT (pow_hashed sha) false (Some 0%nat) (mkWorker PTest 0 0 false :: ws) mp).
Proof.
  intros R. eapply reach_test; [exact R| |].
  - assert (E : snd (add_nonce_tag all_ok (m_tags (load pow_event)) 0 4) = Ok tt) by (vm_compute; reflexivity).
    rewrite <- E. apply surjective_pairing.
  - fold pow_tags. unfold pow_hashed, m_compute_id.
    assert (O : observe (mkMev (with_created (m_ev (load pow_event)) 5%Z) pow_tags) <> None) by (vm_compute; discriminate).
    destruct (observe _); [reflexivity|congruence].
Qed.
Lemma pow_hashed_id sha : exists x, ev_id (m_ev (pow_hashed sha)) = sha x.
Proof.
  unfold pow_hashed, m_compute_id.
  assert (O : observe (mkMev (with_created (m_ev (load pow_event)) 5%Z) pow_tags) <> None) by (vm_compute; discriminate).
  destruct (observe _); [|congruence]. eexists. reflexivity.
Qed.

(** One failing round of worker 0. *)
Lemma reach_round sha n : (forall x, difficulty (sha x) = O) -> (0 < n)%nat ->
  treach dec_Z sha 4 0 n (load pow_event)
    (mkT (pow_hashed sha) false None (mkWorker PLoop 1000 1 false :: tl (started n)) (MCreate n)).
Proof.
  intros MISS NP.
  pose proof (reach_created dec_Z sha 4 0 n (load pow_event) n (le_n n)) as R.
  destruct n as [|n]; [lia|]. unfold started in *. cbn [seq map tl] in *.
  set (ws := map _ (seq 1 n)) in *. clearbody ws.
  apply pow_test in R. destruct (pow_hashed_id sha) as (x & Ex). set (m := pow_hashed sha) in *. clearbody m.
  eapply TRS in R; [|eapply (TWorker _ _ _ _ _ _ _ 0%nat); [reflexivity|apply WMiss; [reflexivity|]]].
  2:{ cbn [t_ev]. rewrite Ex, MISS. reflexivity. }
  eapply TRS in R; [|eapply (TWorker _ _ _ _ _ _ _ 0%nat); [reflexivity|apply WNext; reflexivity]].
  exact R.
Qed.

Lemma started_nth n (k : N) : (N.to_nat k + 1 < n)%nat ->
  forall w, nth_error (w :: tl (started n)) (N.to_nat (k + 1)) = Some (mkWorker PLoop (k + 1) 0 false).
Proof.
  intros L w. replace (N.to_nat (k + 1)) with (S (N.to_nat k)) by lia. cbn [nth_error].
  destruct n as [|n]; [lia|]. unfold started. cbn [seq map tl].
  erewrite map_nth_error with (d := (1 + N.to_nat k)%nat).
  - do 2 f_equal. lia.
  - rewrite nth_error_nth' with (d := O) by (rewrite seq_length; lia).
    rewrite seq_nth by lia. reflexivity.
Qed.

(** With more than 1000 threads the nonces of different workers collide. *)
Theorem C26_distinct_nonces_refuted :
  ~ (forall num sha a0 e t max n m s1 s2 i j w v, digest32 sha -> nonce_ok (ev_tags e) -> (1 <= t)%Z ->
       N.of_nat n < 2 ^ 31 -> prepare_threaded a0 t e = (m, Ok tt) ->
       treach num sha t max n m s1 -> treach num sha t max n m s2 ->
       nth_error (t_workers s1) i = Some w -> nth_error (t_workers s2) j = Some v -> i <> j ->
       w_nonce w <> w_nonce v).
Proof.
  intros H.
  set (sha := fun _ : list N => repeat 255 32).
  assert (D : digest32 sha).
  { intros x. split; [reflexivity|]. apply Forall_forall. intros b K. apply repeat_spec in K. subst. reflexivity. }
  assert (exists n, n = N.to_nat 1001) as (n & En) by eauto.
  pose proof (reach_round sha n ltac:(reflexivity) ltac:(lia)) as R.
  set (mm := pow_hashed sha) in *. clearbody mm.
  apply (H dec_Z sha all_ok pow_event 4%Z 0 n (load pow_event) _ _ 0%nat (N.to_nat 1000) (mkWorker PLoop 1000 1 false)
           (mkWorker PLoop 1000 0 false) D pow_event_ok ltac:(lia) ltac:(rewrite En, N2Nat.id; reflexivity) pow_prepare R R).
  - reflexivity.
  - cbn [t_workers]. apply (started_nth n 999). lia.
  - lia.
  - reflexivity.
Qed.

(** ** C66: the flag shared by the workers is accessed without a data race (false) *)
(** A worker is about to read the flag without the mutex while another thread
    is about to write it. *)
Definition flag_race (t : Z) (s : tstate) : Prop :=
  exists i w, nth_error (t_workers s) i = Some w /\ w_pc w = PLoop /\
  ((exists j v, i <> j /\ nth_error (t_workers s) j = Some v /\ w_pc v = PTest /\
      (t <= Z.of_nat (difficulty (ev_id (m_ev (t_ev s)))))%Z) \/ t_main s = MAbort).

Theorem C66_race_free_refuted :
  ~ (forall num sha a0 e t max n m s, digest32 sha -> nonce_ok (ev_tags e) -> (1 <= t)%Z -> N.of_nat n < 2 ^ 31 ->
       prepare_threaded a0 t e = (m, Ok tt) -> treach num sha t max n m s -> ~ flag_race t s).
Proof.
  intros H.
  set (sha := fun _ : list N => repeat 0 32).
  assert (D : digest32 sha).
  { intros x. split; [reflexivity|]. apply Forall_forall. intros b K. apply repeat_spec in K. subst. reflexivity. }
  pose proof (reach_created dec_Z sha 4 0 2 (load pow_event) 2 (le_n 2)) as R.
  unfold started in R. cbn [seq map] in R.
  apply pow_test in R.
  apply (H dec_Z sha all_ok pow_event 4%Z 0 2%nat (load pow_event) _ D pow_event_ok ltac:(lia) ltac:(reflexivity) pow_prepare R).
  exists 1%nat. eexists. split; [reflexivity|]. split; [reflexivity|]. left.
  exists 0%nat. eexists. split; [lia|]. split; [reflexivity|]. split; [reflexivity|].
  cbn [t_ev]. destruct (pow_hashed_id sha) as (x & Ex). rewrite Ex. vm_compute. discriminate.
Qed.

(** What does hold: two workers never access the event at the same time, and two
    accesses of the flag that overlap, one of them writing, are the loop condition of a
    worker and a write, or involve the caller giving up after a failed creation. *)
Definition uses_event (p : wpc) : Prop := p = PAdd \/ p = PTime \/ p = PHash \/ p = PTest.
Definition reads_flag (p : wpc) : Prop := p = PLoop \/ p = PCheck.
Definition writes_flag (p : wpc) : Prop := p = PTest.
Theorem C66_partial : forall num sha a0 e t max n m s i j w v, digest32 sha -> nonce_ok (ev_tags e) -> (1 <= t)%Z -> N.of_nat n < 2 ^ 31 ->
  prepare_threaded a0 t e = (m, Ok tt) -> treach num sha t max n m s ->
  nth_error (t_workers s) i = Some w -> nth_error (t_workers s) j = Some v -> i <> j ->
  ~ (uses_event (w_pc w) /\ uses_event (w_pc v)) /\ ~ (writes_flag (w_pc w) /\ writes_flag (w_pc v)) /\
  (reads_flag (w_pc w) -> writes_flag (w_pc v) -> w_pc w = PLoop) /\
  (uses_event (w_pc w) -> forall r, t_main s <> MDone r).
Proof.
  intros num sha a0 e t max n m s i j w v D NO T NT P R W V N.
  apply prepare_threaded_prepare in P; [|lia].
  destruct (prepare_shape a0 t e m NO ltac:(lia) P) as (E0 & pre & post & rest & SH & ST).
  assert (SB : same_body e (m_ev m)) by (rewrite E0; repeat split).
  pose proof (tinv_reach num sha t max n e pre post rest ltac:(lia) NT m s SH SB R) as I.
  pose proof (ti_lock _ _ _ _ _ _ _ _ _ I i w W) as LI. pose proof (ti_lock _ _ _ _ _ _ _ _ _ I j v V) as LJ.
  assert (X : critical (w_pc w) = true -> critical (w_pc v) = true -> False) by (intros A B; apply LI in A; apply LJ in B; congruence).
  assert (U : forall p, uses_event p -> critical p = true) by (intros p [ -> | [ -> | [ -> | -> ] ] ]; reflexivity).
  split; [intros (A & B); apply X; auto|]. split; [intros (A & B); apply X; [rewrite A|rewrite B]; reflexivity|]. split.
  - intros [A|A] B; [exact A|]. exfalso. apply X; [rewrite A|rewrite B]; reflexivity.
  - intros A r M. pose proof (ti_done _ _ _ _ _ _ _ _ _ I r M i w W) as Q. rewrite Q in A. destruct A as [A|[A|[A|A]]]; discriminate.
Qed.

(** A complete successful run of the threaded miner (two workers). *)
Example C26_case : exists s,
  treach dec_Z (fun _ => repeat 0 32) 4 0 1 (load pow_event) s /\ t_main s = MDone (Ok tt).
Proof.
  set (sha := fun _ : list N => repeat 0 32).
  pose proof (reach_created dec_Z sha 4 0 1 (load pow_event) 1 (le_n 1)) as R.
  unfold started in R. cbn [seq map] in R.
  eapply TRS in R; [|apply TCaller, CCreated; reflexivity].
  apply pow_test in R. destruct (pow_hashed_id sha) as (x & Ex). set (m := pow_hashed sha) in *. clearbody m.
  eapply TRS in R; [|eapply (TWorker _ _ _ _ _ _ _ 0%nat); [reflexivity|apply WHit; [reflexivity|cbn [t_ev]; rewrite Ex; vm_compute; discriminate]]].
  eapply TRS in R; [|eapply (TWorker _ _ _ _ _ _ _ 0%nat); [reflexivity|apply WBreak; reflexivity]].
  eapply TRS in R; [|apply TCaller, CJoined; [reflexivity|repeat constructor]].
  eexists. split; [exact R|]. reflexivity.
Qed.

(** A case for C65: an event with 16 zero bits that commits to 12. *)
Example C65_meets : let e := mkEvent (0 :: 0 :: 255 :: repeat 1 29) (repeat 17 32) 5 1 [[bs "t"; bs "x"]; [bs "nonce"; bs "776797"; bs "12"]] (Some (bs "hi")) (repeat 0 64) in
  verify_pow e 10 = Ok tt /\ has_work (ev_id e) 10 /\ verify_pow e 17 <> Ok tt.
Proof.
  intros e. assert (V : verify_pow e 10 = Ok tt) by (vm_compute; reflexivity). split; [exact V|].
  split; [exact (proj1 (C65_verify_partial e 10 eq_refl ltac:(repeat (constructor; [reflexivity|]); constructor) V))|vm_compute; discriminate].
Qed.

Print Assumptions C24_difficulty_exact.
Print Assumptions C25_mined_partial.
Print Assumptions C25_mined_verifies.
Print Assumptions C25_not_found_exhaustive.
Print Assumptions C25_refuted.
Print Assumptions C65_verify_bound_refuted.
Print Assumptions C65_verify_partial.
Print Assumptions C26_all_schedules_partial.
Print Assumptions C26_no_deadlock.
Print Assumptions C26_joined.
Print Assumptions C25_one_value_refuted.
Print Assumptions C26_distinct_nonces_partial.
Print Assumptions C26_distinct_nonces_refuted.
Print Assumptions C66_race_free_refuted.
Print Assumptions C66_partial.
