(** The configuration taken from the environment: C136. *)
From Verif Require Import Base BaseFacts Dec Strto Config ConfigSpec ConfigProps ConfigEnvSpec.
From Coq Require Import Lia.
Open Scope Z_scope.

Lemma says_u env s v : 0 <= v < 2 ^ 32 -> says env s v -> parse_uint32_env env (st_name s) (st_default s) = v.
Proof.
  intros R S. unfold says in S. destruct (env (st_name s)) as [t|] eqn:E.
  - destruct S as (n & -> & ->). rewrite (C29_env _ _ _ _ E). rewrite (proj2 (N.ltb_lt _ _)); [reflexivity|]. change (2 ^ 32) with 4294967296 in R. change (2 ^ 32)%N with 4294967296%N. lia.
  - unfold parse_uint32_env. rewrite E. congruence.
Qed.
Lemma says_i env s v : 0 <= v < 2 ^ 31 -> says env s v -> parse_int_env env (st_name s) (st_default s) = v.
Proof.
  intros R S. unfold says in S. unfold parse_int_env. change (2 ^ 31) with 2147483648 in R. destruct (env (st_name s)) as [t|] eqn:E.
  - destruct S as (n & -> & ->). rewrite <- (app_nil_r (dec_N n)), strtoll_dec by (exact I || (change (2 ^ 63)%N with 9223372036854775808%N; lia)). cbn [length Nat.eqb negb orb].
    rewrite (proj2 (Z.ltb_ge _ _)), (proj2 (Z.ltb_ge _ _)) by lia. reflexivity.
  - congruence.
Qed.
Lemma proper_numbers c : proper_config c -> length c = 13%nat /\ forall k s, nth_error documented k = Some s -> st_min s <= nth k c 0 <= st_max s.
Proof.
  intros (F & _). split; [clear -F; assert (X : forall A B (R : A -> B -> Prop) a b, Forall2 R a b -> length b = length a) by (induction 1; cbn; congruence); apply (X _ _ _ _ _ F)|]. intros k s. revert k. induction F as [|s0 v ss vs H F IH]; intros [|k] E; try discriminate E; cbn [nth_error nth] in *; [congruence|apply IH, E].
Qed.
Lemma list13 (c d : list Z) : length c = 13%nat -> length d = 13%nat -> (forall k, (k < 13)%nat -> nth k c 0 = nth k d 0) -> c = d.
Proof. intros A B E. apply (nth_ext _ _ 0 0); [congruence|]. intros k K. apply E. rewrite A in K. exact K. Qed.
Lemma load_says env c : proper_config c -> Forall2 (says env) documented c -> load_env env defaults = c.
Proof.
  intros P F. destruct (proper_numbers c P) as (L & R).
  assert (SA : forall k s, nth_error documented k = Some s -> says env s (nth k c 0)).
  { clear -F. induction F as [|s0 v ss vs H F IH]; intros [|k] s E; try discriminate E; cbn [nth_error nth] in *; [congruence|apply IH, E]. }
  apply list13; [reflexivity|exact L|]. intros k K.
  assert (B : forall s, nth_error documented k = Some s -> 0 <= nth k c 0 < 2 ^ 31).
  { intros s E. pose proof (R k s E) as RR. assert (I : In s documented) by (apply (nth_error_In _ _ E)). change (2 ^ 31) with 2147483648. cbn in I. repeat destruct I as [<-|I]; try (cbn [st_min st_max] in RR; lia). }
  do 10 (destruct k as [|k]; [match goal with |- _ = nth ?i c 0 => pose proof (SA i _ eq_refl) as X end; pose proof (B _ eq_refl) as Y; change (2 ^ 31) with 2147483648 in Y;
    refine (says_u env _ _ _ X); change (2 ^ 32) with 4294967296; lia|]).
  do 3 (destruct k as [|k]; [match goal with |- _ = nth ?i c 0 => pose proof (SA i _ eq_refl) as X end; exact (says_i env _ _ (B _ eq_refl) X)|]). lia.
Qed.
Lemma proper_valid c : proper_config c -> quick c -> validate c = true.
Proof.
  intros P Q. destruct (proper_numbers c P) as (L & R). destruct P as (F & O & N). apply validate_ranges.
  - split; [exact L|]. split; intros k K.
    + assert (X : exists s, nth_error documented k = Some s) by (destruct (nth_error documented k) as [s|] eqn:E; [eauto|]; apply nth_error_None in E; cbn in E; lia).
      destruct X as (s & E). pose proof (R k s E) as RR. assert (I : In s documented) by (apply (nth_error_In _ _ E)). change (2 ^ 32) with 4294967296. cbn in I. repeat destruct I as [<-|I]; try (cbn [st_min st_max] in RR; lia).
    + assert (X : exists s, nth_error documented k = Some s) by (destruct (nth_error documented k) as [s|] eqn:E; [eauto|]; apply nth_error_None in E; cbn in E; lia).
      destruct X as (s & E). pose proof (R k s E) as RR. assert (I : In s documented) by (apply (nth_error_In _ _ E)). change (2 ^ 31) with 2147483648. cbn in I. repeat destruct I as [<-|I]; try (cbn [st_min st_max] in RR; lia).
  - split; [exact L|]. split; [|split; assumption]. unfold quick in Q. intros k K.
    do 13 (destruct k as [|k]; [match goal with |- _ <= nth ?i c 0 <= _ => pose proof (R i _ eq_refl) as RR end; cbn [st_min st_max] in RR; cbn [ranges nth fst snd]; lia|]). lia.
Qed.

(** Initialisation takes every setting from its variable, and the documented default
    where there is none; reading the configuration gives these values. *)
Theorem C136_partial : forall s env c lib, s_init s = false -> Forall2 (says env) documented c -> proper_config c -> quick c ->
  exists s', call s (OInit None env lib) = Done s' lib None /\ call s' OGet = Done s' (Ok tt) (Some c).
Proof.
  intros s env c lib I F P Q. cbn [call]. rewrite I, (load_says env c P F), (proper_valid c P Q). eexists. split; [reflexivity|reflexivity].
Qed.
(** Without any variable the configuration is the documented one, and this is also what
    asking for the defaults and initialising with them gives. *)
Theorem C136_defaults : forall s lib, s_init s = false -> exists s', call s (OInit None (fun _ => None) lib) = Done s' lib None /\
  call s' OGet = Done s' (Ok tt) (Some (map st_default documented)) /\
  call s (OInit (Some (map st_default documented)) (fun _ => None) lib) = Done s' lib None.
Proof. intros s lib I. cbn [call]. rewrite I. eexists. split; [reflexivity|]. split; reflexivity. Qed.
(** Only the thirteen variables matter. *)
Theorem C136_others : forall s env env' lib, (forall x, In x documented -> env (st_name x) = env' (st_name x)) -> call s (OInit None env lib) = call s (OInit None env' lib).
Proof.
  intros s env env' lib H. assert (E : load_env env defaults = load_env env' defaults).
  { assert (A : Forall (fun x => env (st_name x) = env' (st_name x)) documented) by (apply Forall_forall; exact H). clear H. unfold documented in A.
    do 13 (pose proof (Forall_inv A); apply Forall_inv_tail in A). cbn [st_name] in *. unfold load_env, parse_uint32_env, parse_int_env.
    repeat match goal with H : env _ = env' _ |- _ => rewrite H; clear H end. reflexivity. }
  cbn [call]. rewrite E. reflexivity.
Qed.
Definition only (name text : list N) : list N -> option (list N) := fun n => if beq n name then Some text else None.
(** A number variable holding something that is not a number below 2^32 counts as unset. *)
Definition unset (env : list N -> option (list N)) (name : list N) : list N -> option (list N) := fun n => if beq n name then None else env n.
Lemma rubbish : forall env name d t rest v, env name = Some t -> strtoul t = (v, rest) -> rest <> [] \/ (2 ^ 32 <= v)%N -> parse_uint32_env env name d = d.
Proof.
  intros env name d t rest v E T X. unfold parse_uint32_env. rewrite E, T. destruct X as [X|X].
  - destruct rest; [congruence|]. reflexivity.
  - change (2 ^ 32)%N with 4294967296%N in X. rewrite (proj2 (N.ltb_lt 4294967295 v)) by lia. rewrite orb_true_r. reflexivity.
Qed.
Theorem C136_rubbish : forall s env lib x t rest v, In x (firstn 10 documented) -> env (st_name x) = Some t -> strtoul t = (v, rest) -> rest <> [] \/ (2 ^ 32 <= v)%N ->
  call s (OInit None env lib) = call s (OInit None (unset env (st_name x)) lib).
Proof.
  intros s env lib x t rest v I E T X. assert (L : load_env env defaults = load_env (unset env (st_name x)) defaults).
  { assert (R := fun d => rubbish env (st_name x) d t rest v E T X). clear E T X. unfold load_env. cbn [documented firstn In] in I.
    repeat (destruct I as [<-|I]; [cbn [st_name] in *; rewrite R; reflexivity|]). contradiction. }
  cbn [call]. rewrite L. reflexivity.
Qed.
Example C136_rubbish_meets : exists x t rest v, In x (firstn 10 documented) /\ only (st_name x) t (st_name x) = Some t /\ strtoul t = (v, rest) /\ rest <> [].
Proof. exists (nth 2 documented (mkSetting [] 0 0 0)), (bs "12 sessions"), (bs " sessions"), 12%N. repeat split; try reflexivity; [cbn [documented firstn nth In]; auto|discriminate]. Qed.
(** The documented maximum of the response timeout is not accepted. *)
Definition slow : list Z := [1; 65535; 100; 3600; 32; 65536; 100; 50; 30000; 300000; 44; 0; 0].
Theorem C136_refuted : ~ (forall s env c, s_init s = false -> Forall2 (says env) documented c -> proper_config c -> exists s', call s (OInit None env (Ok tt)) = Done s' (Ok tt) None).
Proof.
  intros H. destruct (H s0 (only (bs "NOSTR_RELAY_RESPONSE_TIMEOUT") (bs "300000")) slow eq_refl) as (s' & E).
  - unfold documented, slow. do 9 (constructor; [reflexivity|]). constructor; [exists 300000%N; split; reflexivity|]. do 3 (constructor; [reflexivity|]). constructor.
  - split; [unfold documented, slow; repeat (constructor; [cbn; lia|]); constructor|]. cbn. lia.
  - vm_compute in E. discriminate E.
Qed.
(** An empty variable counts as 0, which makes initialisation fail for most settings. *)
Theorem C136_empty_refuted : ~ (forall s name, s_init s = false -> exists s', call s (OInit None (only name []) (Ok tt)) = Done s' (Ok tt) None).
Proof. intros H. destruct (H s0 (bs "NOSTR_MAX_TAGS") eq_refl) as (s' & E). vm_compute in E. discriminate E. Qed.
(** A negative number is accepted if it is small enough. *)
Theorem C136_negative_refuted : ~ (forall s n s' c, s_init s = false -> (0 < n)%N -> call s (OInit None (only (bs "NOSTR_MAX_TAGS") (bs "-" ++ dec_N n)) (Ok tt)) = Done s' (Ok tt) None ->
  call s' OGet = Done s' (Ok tt) (Some c) -> nth 6 c 0 = 100).
Proof.
  intros H. set (o := OInit None (only (bs "NOSTR_MAX_TAGS") (bs "-" ++ dec_N 18446744073709551611)) (Ok tt)).
  assert (E : exists s', call s0 o = Done s' (Ok tt) None /\ exists c, call s' OGet = Done s' (Ok tt) (Some c) /\ nth 6 c 0 = 5).
  { eexists. split; [vm_compute; reflexivity|]. eexists. split; [reflexivity|reflexivity]. }
  destruct E as (s' & E & c & G & V). rewrite (H s0 18446744073709551611%N s' c eq_refl eq_refl E G) in V. discriminate V.
Qed.
Definition fast : list Z := [1; 65535; 250; 3600; 32; 65536; 100; 50; 30000; 10000; 4; 0; 0].
Definition two : list N -> option (list N) := fun n => if beq n (bs "NOSTR_MAX_SESSIONS") then Some (bs "250") else if beq n (bs "NOSTR_ENCRYPTION_DEFAULT") then Some (bs "4") else None.
Example C136_meets : s_init s0 = false /\ Forall2 (says two) documented fast /\ proper_config fast /\ quick fast.
Proof.
  split; [reflexivity|]. split.
  - unfold documented, fast. do 2 (constructor; [reflexivity|]). constructor; [exists 250%N; split; reflexivity|]. do 7 (constructor; [reflexivity|]). constructor; [exists 4%N; split; reflexivity|]. do 2 (constructor; [reflexivity|]). constructor.
  - split; [|unfold quick; cbn; lia]. split; [unfold documented, fast; repeat (constructor; [cbn; lia|]); constructor|]. cbn. lia.
Qed.

Print Assumptions C136_partial.
Print Assumptions C136_defaults.
Print Assumptions C136_others.
Print Assumptions C136_rubbish.
Print Assumptions C136_refuted.
Print Assumptions C136_empty_refuted.
Print Assumptions C136_negative_refuted.
