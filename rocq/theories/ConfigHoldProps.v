(** Property theorems C155: the configuration a caller holds. *)
From Verif Require Import Base Dec Config ConfigHold.
Open Scope Z_scope.

(** Whether a call made by a thread reads the configuration. *)
Definition reads (x : thread * hop) (t : thread) : bool :=
  ((fst x =? t)%N && match snd x with HGet => true | HLib n => negb (n =? 0)%nat | _ => false end)%bool.

Lemma copies_glob n s t : h_glob (copies n s t) = h_glob s.
Proof.
  revert s. induction n as [|n IH]; intros s; [reflexivity|]. cbn [copies]. rewrite IH.
  unfold copy_in. destruct (s_init (h_glob s)) eqn:E; reflexivity.
Qed.
Lemma copies_copy n s t u : h_copy (copies n s t) u =
  if ((u =? t)%N && s_init (h_glob s) && negb (n =? 0)%nat)%bool then s_config (h_glob s) else h_copy s u.
Proof.
  revert s. induction n as [|n IH]; intros s; cbn [copies].
  - cbn [Nat.eqb negb]. rewrite andb_false_r. reflexivity.
  - rewrite IH. cbn [Nat.eqb negb]. rewrite andb_true_r. unfold copy_in.
    destruct (s_init (h_glob s)) eqn:E; cbn [h_glob h_copy]; rewrite ?E.
    + destruct (u =? t)%N; cbn [andb]; [|reflexivity]. destruct (negb (n =? 0)%nat); reflexivity.
    + rewrite !andb_false_r. reflexivity.
Qed.

(** What one call does to a copy. *)
Lemma hcall_copy s t o s1 r p u : hcall s t o = Some (s1, r, p) ->
  shows s1 u = if (reads (t, o) u && s_init (h_glob s))%bool then s_config (h_glob s) else shows s u.
Proof.
  unfold shows, reads. cbn [fst snd]. rewrite (N.eqb_sym t u). destruct o as [|n|c env lib|cb|a]; cbn [hcall]; intros E.
  - injection E as <- _ _. change (copy_in s t) with (copies 1 s t). rewrite copies_copy. cbn [Nat.eqb negb].
    rewrite !andb_true_r. reflexivity.
  - injection E as <- _ _. rewrite copies_copy. f_equal. destruct (u =? t)%N, (s_init (h_glob s)), (n =? 0)%nat; reflexivity.
  - rewrite andb_false_r. cbn [andb]. destruct (call _ _) as [g r' rd|]; [|discriminate]. injection E as <- _ _. reflexivity.
  - rewrite andb_false_r. cbn [andb]. destruct (call _ _) as [g r' rd|]; [|discriminate]. injection E as <- _ _. reflexivity.
  - rewrite andb_false_r. cbn [andb]. destruct (call _ _) as [g r' rd|]; [|discriminate]. injection E as <- _ _. reflexivity.
Qed.

(** Once initialised, the configuration in force is an accepted one, and stays
    initialised. *)
Definition good (s : hstate) : Prop := s_init (h_glob s) = true -> validate (s_config (h_glob s)) = true.
Lemma hcall_good s t o s1 r p : good s -> hcall s t o = Some (s1, r, p) ->
  good s1 /\ (s_init (h_glob s) = true -> s_init (h_glob s1) = true).
Proof.
  unfold good. intros G E. destruct o as [|n|c env lib|cb|a]; cbn [hcall] in E.
  - injection E as <- _ _. unfold copy_in. destruct (s_init (h_glob s)) eqn:I; cbn [h_glob]; rewrite ?I; auto.
  - injection E as <- _ _. rewrite copies_glob. auto.
  - cbn [call] in E. destruct (s_init (h_glob s)) eqn:I.
    + injection E as <- _ _. cbn [h_glob]. rewrite I. auto.
    + destruct c as [c|]; [destruct (validate c) eqn:V|destruct (validate (load_env env defaults)) eqn:V];
        injection E as <- _ _; cbn [h_glob s_init s_config]; rewrite ?I; auto; split; try discriminate; auto.
  - injection E as <- _ _. cbn [h_glob s_init s_config]. auto.
  - cbn [call] in E. destruct (s_init (h_glob s)) eqn:I; cbn [negb] in E.
    + destruct (validate (given s a)) eqn:V.
      * destruct (s_cb (h_glob s)) as [cb|]; [destruct (callback_returns cb); [|discriminate]|];
          injection E as <- _ _; cbn [h_glob s_init s_config]; auto.
      * injection E as <- _ _. cbn [h_glob]. rewrite I. auto.
    + injection E as <- _ _. cbn [h_glob]. rewrite I. auto.
Qed.
Lemma hruns_good s h s2 : hruns s h s2 -> good s -> good s2 /\ (s_init (h_glob s) = true -> s_init (h_glob s2) = true).
Proof.
  induction 1 as [s|s t o s1 r p h s2 E R IH]; intros G; [auto|].
  destruct (hcall_good _ _ _ _ _ _ G E) as (G1 & I1). destruct (IH G1) as (G2 & I2). auto.
Qed.

(** ** C155 *)

(** As long as the thread that asked does not have the configuration read
    again, its pointer shows what it showed at first, whatever every other
    thread does and whichever updates are made, its own included. *)
Theorem C155_partial : forall h0 s t s1 r p h s2,
  hruns hs0 h0 s -> hcall s t HGet = Some (s1, r, Some p) -> hruns s1 h s2 ->
  Forall (fun x => reads x t = false) h ->
  shows s2 p = s_config (h_glob s) /\ validate (shows s2 p) = true.
Proof.
  intros h0 s t s1 r p h s2 R0 G R F.
  destruct (hruns_good _ _ _ R0) as (GS & _); [unfold good, hs0, s0; cbn [h_glob s_init]; discriminate|].
  assert (I : s_init (h_glob s) = true /\ p = t).
  { cbn [hcall] in G. destruct (s_init (h_glob s)); [|congruence]. split; [reflexivity|congruence]. }
  destruct I as (I & ->).
  assert (E : shows s1 t = s_config (h_glob s)).
  { rewrite (hcall_copy _ _ _ _ _ _ t G). unfold reads. cbn [fst snd]. rewrite N.eqb_refl, I. reflexivity. }
  assert (K : shows s2 t = shows s1 t).
  { clear E G. induction R as [s1|s1 u o s3 r' p' h s2 E R IH]; [reflexivity|].
    inversion F as [|x l F1 F2]; subst. rewrite (IH F2), (hcall_copy _ _ _ _ _ _ t E), F1. reflexivity. }
  rewrite K, E. split; [reflexivity|apply GS, I].
Qed.

(** At any moment a pointer shows the configuration in force when its thread
    last had it read: never a mixture, never a rejected one. *)
Lemma last_read_found s h s2 t : hruns s h s2 -> s_init (h_glob s) = true -> good s ->
  (Forall (fun x => reads x t = false) h /\ shows s2 t = shows s t) \/
  (exists h1 x h2 sm, h = h1 ++ x :: h2 /\ reads x t = true /\ Forall (fun x => reads x t = false) h2 /\
     hruns s h1 sm /\ shows s2 t = s_config (h_glob sm) /\ validate (s_config (h_glob sm)) = true).
Proof.
  induction 1 as [s|s u o s1 r p h s2 E R IH]; intros I G; [left; split; [constructor|reflexivity]|].
  destruct (hcall_good _ _ _ _ _ _ G E) as (G1 & I1).
  destruct (IH (I1 I) G1) as [(F & K)|(h1 & x & h2 & sm & -> & X & F & Rm & K & V)].
  - destruct (reads (u, o) t) eqn:X.
    + right. exists [], (u, o), h, s. split; [reflexivity|]. split; [exact X|]. split; [exact F|]. split; [constructor|].
      rewrite K, (hcall_copy _ _ _ _ _ _ t E), X, I. split; [reflexivity|exact (G I)].
    + left. split; [constructor; assumption|]. rewrite K, (hcall_copy _ _ _ _ _ _ t E), X. reflexivity.
  - right. exists ((u, o) :: h1), x, h2, sm. split; [reflexivity|]. split; [exact X|]. split; [exact F|].
    split; [exact (HRunsS _ _ _ _ _ _ _ _ E Rm)|]. split; assumption.
Qed.
Theorem C155_last_read : forall h0 s t s1 r p h s2,
  hruns hs0 h0 s -> hcall s t HGet = Some (s1, r, Some p) -> hruns s1 h s2 ->
  exists h1 x h2 sm, (t, HGet) :: h = h1 ++ x :: h2 /\ reads x p = true /\ Forall (fun y => reads y p = false) h2 /\
    hruns s h1 sm /\ shows s2 p = s_config (h_glob sm) /\ validate (shows s2 p) = true.
Proof.
  intros h0 s t s1 r p h s2 R0 G R.
  destruct (hruns_good _ _ _ R0) as (GS & _); [unfold good, hs0, s0; cbn [h_glob s_init]; discriminate|].
  assert (I : s_init (h_glob s) = true /\ p = t).
  { cbn [hcall] in G. destruct (s_init (h_glob s)); [|congruence]. split; [reflexivity|congruence]. }
  destruct I as (I & ->).
  destruct (last_read_found _ _ _ t (HRunsS _ _ _ _ _ _ _ _ G R) I GS) as [(F & _)|(h1 & x & h2 & sm & E & X & F & Rm & K & V)].
  - exfalso. inversion F as [|y l F1 F2]; subst. unfold reads in F1. cbn [fst snd] in F1. rewrite N.eqb_refl in F1. discriminate.
  - exists h1, x, h2, sm. rewrite K. repeat (split; [assumption|]). split; [reflexivity|exact V].
Qed.

Ltac steps := repeat first [eapply HRunsS; [reflexivity|]|apply HRuns0].

(** The full claim: the configuration a caller was given does not change while
    it is held. It fails as soon as the same thread adds a tag. *)
Definition narrow : config := [1; 65535; 100; 3600; 32; 65536; 5; 50; 30000; 10000; 44; 0; 0].
Definition started : hstate := mkH (mkState defaults true None) (fun _ => repeat 0 13).
Theorem C155_refuted :
  ~ (forall h0 s t s1 r p h s2,
       hruns hs0 h0 s -> hcall s t HGet = Some (s1, r, Some p) -> hruns s1 h s2 ->
       shows s2 p = s_config (h_glob s)).
Proof.
  intros H. specialize (H [(1%N, HInit (Some defaults) (fun _ => None) (Ok tt))] started 1%N).
  eassert (X : shows _ 1%N = defaults).
  { eapply (H _ (Ok tt) 1%N [(2%N, HUpdate (Own narrow)); (1%N, HLib 1)]); [steps|reflexivity|steps]. }
  discriminate X.
Qed.

(** Putting back what was held: the caller keeps the pointer, sets a
    configuration of its own, works, and passes the pointer to
    nostr_config_update. The old configuration should be in force again; the
    new one is. *)
Theorem C155_put_back_refuted :
  ~ (forall h0 s t s1 r p h s2 s3 r',
       hruns hs0 h0 s -> hcall s t HGet = Some (s1, r, Some p) -> hruns s1 h s2 ->
       hcall s2 t (HUpdate (Held p)) = Some (s3, Ok r', None) ->
       s_config (h_glob s3) = s_config (h_glob s)).
Proof.
  intros H. specialize (H [(1%N, HInit (Some defaults) (fun _ => None) (Ok tt))] started 1%N).
  eassert (X : s_config (h_glob _) = defaults).
  { eapply (H _ (Ok tt) 1%N [(1%N, HUpdate (Own narrow)); (1%N, HLib 1)] _ _ tt); [steps|reflexivity|steps|reflexivity]. }
  discriminate X.
Qed.

(** Putting back a copy works: the update is never refused, and when it
    returns the configuration in force is the one that was read. *)
Theorem C155_copy_restores : forall h0 s t s1 r p h s2,
  hruns hs0 h0 s -> hcall s t HGet = Some (s1, r, Some p) -> hruns s1 h s2 ->
  (forall cb, s_cb (h_glob s2) = Some cb -> callback_returns cb = true) ->
  exists s3, hcall s2 t (HUpdate (Own (shows s1 p))) = Some (s3, Ok tt, None) /\
             s_config (h_glob s3) = s_config (h_glob s) /\
             forall u, exists s4 r', hcall s3 u HGet = Some (s4, r', Some u) /\ shows s4 u = s_config (h_glob s).
Proof.
  intros h0 s t s1 r p h s2 R0 G R CB.
  destruct (hruns_good _ _ _ R0) as (GS & _); [unfold good, hs0, s0; cbn [h_glob s_init]; discriminate|].
  assert (I : s_init (h_glob s) = true /\ p = t).
  { cbn [hcall] in G. destruct (s_init (h_glob s)); [|congruence]. split; [reflexivity|congruence]. }
  destruct I as (I & ->).
  assert (E : shows s1 t = s_config (h_glob s)).
  { rewrite (hcall_copy _ _ _ _ _ _ t G). unfold reads. cbn [fst snd]. rewrite N.eqb_refl, I. reflexivity. }
  destruct (hcall_good _ _ _ _ _ _ GS G) as (G1 & I1).
  destruct (hruns_good _ _ _ R G1) as (G2 & I2).
  assert (J : s_init (h_glob s2) = true) by auto.
  rewrite E. cbn [hcall call given]. rewrite J, (GS I). cbn [negb].
  assert (X : match s_cb (h_glob s2) with
    | Some cb => if callback_returns cb then Done (mkState (s_config (h_glob s)) true (s_cb (h_glob s2))) (Ok tt) None else Blocked
    | None => Done (mkState (s_config (h_glob s)) true (s_cb (h_glob s2))) (Ok tt) None
    end = Done (mkState (s_config (h_glob s)) true (s_cb (h_glob s2))) (Ok tt) None).
  { destruct (s_cb (h_glob s2)) as [cb|]; [rewrite (CB cb eq_refl)|]; reflexivity. }
  rewrite X. eexists. split; [reflexivity|]. split; [reflexivity|].
  intros u. eexists _, _. split; [reflexivity|]. unfold shows, copy_in. cbn [h_glob s_init h_copy s_config]. rewrite N.eqb_refl. reflexivity.
Qed.

(** Meeting the hypotheses: another thread changes the configuration, reads it
    and adds tags while the first holds its pointer, which still shows the
    defaults; the first thread could then put its copy back. *)
Example C155_meets : exists h0 s s1 r h s2,
  hruns hs0 h0 s /\ hcall s 1%N HGet = Some (s1, r, Some 1%N) /\ hruns s1 h s2 /\
  Forall (fun x => reads x 1%N = false) h /\ (3 < length h)%nat /\
  s_config (h_glob s2) = narrow /\ shows s2 1%N = defaults /\ shows s2 2%N = narrow /\
  (forall cb, s_cb (h_glob s2) = Some cb -> callback_returns cb = true).
Proof.
  exists [(1%N, HInit (Some defaults) (fun _ => None) (Ok tt))], started.
  eexists _, _.
  exists [(2%N, HUpdate (Own narrow)); (2%N, HLib 2); (1%N, HSet (Some [CbDefaults])); (2%N, HUpdate (Held 2%N))].
  eexists. split; [steps|]. split; [reflexivity|]. split; [steps|].
  split; [repeat constructor|]. split; [cbn [length]; lia|]. split; [reflexivity|]. split; [reflexivity|]. split; [reflexivity|].
  cbn [h_glob s_cb]. intros cb E. injection E as <-. reflexivity.
Qed.

Print Assumptions C155_partial.
Print Assumptions C155_last_read.
Print Assumptions C155_refuted.
Print Assumptions C155_put_back_refuted.
Print Assumptions C155_copy_restores.
