(** src/config.c under threads: reads and updates copy the configuration field
    by field while holding config_lock (struct assignments at lines 187 and
    257; the lock at 36-54).  Callbacks that use the interface are the subject
    of C30 and are left out here. *)
From Verif Require Import Base BaseFacts Config ConfigSpec ConfigProps.
Open Scope Z_scope.

Inductive tstate : Set :=
| TIdle
| TWantGet                              (* in nostr_config_get_current, before the lock *)
| TWantUpdate (c : config)              (* in nostr_config_update, before the lock *)
| TGet (k : nat) (copy : config)        (* lock held, fields below k copied into the thread's buffer *)
| TUpdate (k : nat) (c : config).       (* lock held, fields below k stored *)

Fixpoint set_at {A} (l : list A) (k : nat) (x : A) : list A :=
  match l, k with
  | [], _ => []
  | _ :: r, O => x :: r
  | y :: r, S k' => y :: set_at r k' x
  end.

(** [m_reads]: finished reads, newest first, each with the number of updates
    accepted when it finished; [m_accepted]: accepted updates, newest first,
    on top of the initial configuration. *)
Record machine : Set := mkM {
  m_global : config; m_lock : option nat; m_threads : list tstate;
  m_reads : list (config * nat); m_accepted : list config }.

Definition put (m : machine) (i : nat) (t : tstate) : machine :=
  mkM (m_global m) (m_lock m) (set_at (m_threads m) i t) (m_reads m) (m_accepted m).
Definition with_lock (m : machine) (l : option nat) : machine :=
  mkM (m_global m) l (m_threads m) (m_reads m) (m_accepted m).

Inductive tstep (m : machine) (i : nat) : machine -> Prop :=
| SGet : nth_error (m_threads m) i = Some TIdle -> tstep m i (put m i TWantGet)
| SUpdate c : nth_error (m_threads m) i = Some TIdle -> typed c -> tstep m i (put m i (TWantUpdate c))
| SLockGet buf : nth_error (m_threads m) i = Some TWantGet -> m_lock m = None -> length buf = 13%nat ->
    (* the thread's static buffer holds whatever an earlier read left *)
    tstep m i (with_lock (put m i (TGet 0 buf)) (Some i))
| SLockUpdate c : nth_error (m_threads m) i = Some (TWantUpdate c) -> m_lock m = None -> validate c = true ->
    tstep m i (with_lock (put m i (TUpdate 0 c)) (Some i))
| SRefused c : nth_error (m_threads m) i = Some (TWantUpdate c) -> m_lock m = None -> validate c = false ->
    tstep m i (put m i TIdle)
| SCopy k buf : nth_error (m_threads m) i = Some (TGet k buf) -> (k < 13)%nat ->
    tstep m i (put m i (TGet (S k) (set_at buf k (fld (m_global m) k))))
| SCopied buf : nth_error (m_threads m) i = Some (TGet 13 buf) ->
    tstep m i (mkM (m_global m) None (set_at (m_threads m) i TIdle)
                   ((buf, length (m_accepted m)) :: m_reads m) (m_accepted m))
| SStore k c : nth_error (m_threads m) i = Some (TUpdate k c) -> (k < 13)%nat ->
    tstep m i (mkM (set_at (m_global m) k (fld c k)) (m_lock m) (set_at (m_threads m) i (TUpdate (S k) c))
                   (m_reads m) (m_accepted m))
| SStored c : nth_error (m_threads m) i = Some (TUpdate 13 c) ->
    tstep m i (mkM (m_global m) None (set_at (m_threads m) i TIdle) (m_reads m) (c :: m_accepted m)).

Definition start (n : nat) (c : config) : machine := mkM c None (repeat TIdle n) [] [].
Inductive reach (n : nat) (c : config) : machine -> Prop :=
| Reach0 : reach n c (start n c)
| ReachS m i m' : reach n c m -> tstep m i m' -> reach n c m'.

(** ** Invariant *)
Definition holds_lock (t : tstate) : bool := match t with TGet _ _ | TUpdate _ _ => true | _ => false end.
Definition wants_ok (t : tstate) : Prop :=
  match t with TWantUpdate c => typed c | TUpdate k c => typed c /\ validate c = true /\ (k <= 13)%nat
          | TGet k buf => length buf = 13%nat /\ (k <= 13)%nat | _ => True end.
Definition current (c0 : config) (m : machine) : config := hd c0 (m_accepted m).
(** the configuration as it was after the first [n] accepted updates *)
Definition version (c0 : config) (acc : list config) (n : nat) : config := nth n (rev (acc ++ [c0])) [].

Record inv (c0 : config) (m : machine) : Prop := {
  i_len : length (m_global m) = 13%nat;
  i_typed : Forall (fun c => typed c /\ validate c = true) (m_accepted m ++ [c0]);
  i_threads : Forall wants_ok (m_threads m);
  i_lock : forall i t, nth_error (m_threads m) i = Some t -> holds_lock t = true -> m_lock m = Some i;
  i_owner : forall i, m_lock m = Some i -> exists t, nth_error (m_threads m) i = Some t /\ holds_lock t = true;
  i_free : m_lock m = None -> m_global m = current c0 m;
  i_get : forall i k buf, nth_error (m_threads m) i = Some (TGet k buf) ->
    m_global m = current c0 m /\ firstn k buf = firstn k (current c0 m);
  i_upd : forall i k c, nth_error (m_threads m) i = Some (TUpdate k c) ->
    firstn k (m_global m) = firstn k c;
  i_reads : Forall (fun r => (snd r <= length (m_accepted m))%nat /\ fst r = version c0 (m_accepted m) (snd r)) (m_reads m) }.

Lemma set_at_length {A} (l : list A) x : forall k, length (set_at l k x) = length l.
Proof. induction l; intros [|k]; cbn [set_at length]; auto. Qed.
Lemma set_at_same {A} (l : list A) x y : forall k, nth_error l k = Some y -> nth_error (set_at l k x) k = Some x.
Proof. induction l; intros [|k] H; cbn in *; try discriminate; auto. Qed.
Lemma set_at_other {A} (l : list A) x : forall k j, j <> k -> nth_error (set_at l k x) j = nth_error l j.
Proof. induction l; intros [|k] [|j] H; cbn; try congruence; auto. Qed.
Lemma set_at_Forall {A} (P : A -> Prop) (l : list A) x : P x -> forall k, Forall P l -> Forall P (set_at l k x).
Proof. intros H. induction l; intros [|k] F; cbn; auto; inversion F; subst; constructor; auto. Qed.
Lemma set_at_firstn (l : list Z) x : forall k, (k < length l)%nat ->
  firstn (S k) (set_at l k x) = firstn k l ++ [x].
Proof.
  induction l; intros [|k] H; cbn [length] in H; try lia; cbn [set_at].
  - reflexivity.
  - change (firstn (S (S k)) (a :: set_at l k x)) with (a :: firstn (S k) (set_at l k x)).
    rewrite IHl by lia. reflexivity.
Qed.
Lemma firstn_S_nth (l : list Z) : forall k, (k < length l)%nat -> firstn (S k) l = firstn k l ++ [nth k l 0].
Proof.
  induction l; intros [|k] H; cbn [length] in H; try lia; [reflexivity|].
  change (firstn (S (S k)) (a :: l)) with (a :: firstn (S k) l). rewrite IHl by lia. reflexivity.
Qed.
Lemma nth_error_set {A} (l : list A) i x j t : nth_error (set_at l i x) j = Some t -> (exists y, nth_error l i = Some y) ->
  (j = i /\ t = x) \/ (j <> i /\ nth_error l j = Some t).
Proof.
  intros H (y & Y). destruct (Nat.eq_dec j i) as [->|NE].
  - left. rewrite (set_at_same l x y i Y) in H. split; congruence.
  - right. rewrite set_at_other in H by exact NE. auto.
Qed.

Lemma version_app c0 acc c k : (k <= length acc)%nat -> version c0 (c :: acc) k = version c0 acc k.
Proof.
  intros H. unfold version. cbn [app rev]. rewrite app_nth1; [reflexivity|].
  rewrite rev_length, app_length. cbn [length]. lia.
Qed.
Lemma version_last c0 acc : version c0 acc (length acc) = hd c0 acc.
Proof.
  unfold version. destruct acc as [|c acc]; [reflexivity|]. cbn [app rev hd length].
  rewrite app_nth2; rewrite rev_length, app_length; cbn [length]; [|lia].
  replace (S (length acc) - (length acc + 1))%nat with 0%nat by lia. reflexivity.
Qed.
Lemma current_typed c0 m : Forall (fun c => typed c /\ validate c = true) (m_accepted m ++ [c0]) -> typed (current c0 m) /\ validate (current c0 m) = true.
Proof.
  unfold current. destruct (m_accepted m) as [|c r]; cbn [app hd]; intros F; inversion F; assumption.
Qed.

(** a thread outside the lock changing its own state to another outside it *)
Lemma inv_move c0 m i t t' : inv c0 m -> nth_error (m_threads m) i = Some t -> holds_lock t = false -> holds_lock t' = false ->
  wants_ok t' -> inv c0 (put m i t').
Proof.
  intros I T H H' W. destruct I as [A B C D E F G U R].
  constructor; unfold put; cbn [m_global m_lock m_threads m_reads m_accepted]; auto.
  - apply set_at_Forall; assumption.
  - intros j x X HX. apply nth_error_set in X; [|eauto]. destruct X as [(-> & ->)|(NE & X)]; [congruence|eapply D; eassumption].
  - intros j L. destruct (E j L) as (x & X & HX). exists x. split; [|exact HX].
    rewrite set_at_other; [exact X|]. intros ->. congruence.
  - intros j k buf X. apply nth_error_set in X; [|eauto]. destruct X as [(_ & X)|(NE & X)]; [subst t'; discriminate|eapply G; eassumption].
  - intros j k c X. apply nth_error_set in X; [|eauto]. destruct X as [(_ & X)|(NE & X)]; [subst t'; discriminate|eapply U; eassumption].
Qed.

Lemma step_inv c0 m i m' : inv c0 m -> tstep m i m' -> inv c0 m'.
Proof.
  intros I ST. pose proof I as [A B C D E F G U R].
  destruct ST as [T|c T TY|buf T L LB|c T L V|c T L V|k buf T K|buf T|k c T K|c T].
  - apply (inv_move c0 m i TIdle); auto. exact Logic.I.
  - apply (inv_move c0 m i TIdle); auto.
  - (* lock, read *)
    constructor; unfold with_lock, put; cbn [m_global m_lock m_threads m_reads m_accepted]; auto.
    + apply set_at_Forall; [split; [exact LB|lia]|exact C].
    + intros j x X HX. apply nth_error_set in X; [|eauto]. destruct X as [(-> & ->)|(NE & X)]; [reflexivity|].
      pose proof (D j x X HX). congruence.
    + intros j J. assert (j = i) by congruence. subst. eexists. split; [eapply set_at_same; exact T|reflexivity].
    + intros j k b X. apply nth_error_set in X; [|eauto]. destruct X as [(-> & X)|(NE & X)].
      * assert (k = 0%nat) by congruence. subst. split; [apply F, L|reflexivity].
      * pose proof (D j _ X eq_refl). congruence.
    + intros j k c X. apply nth_error_set in X; [|eauto]. destruct X as [(-> & X)|(NE & X)]; [discriminate|].
      pose proof (D j _ X eq_refl). congruence.
  - (* lock, update *)
    assert (TC : typed c).
    { rewrite Forall_forall in C. apply nth_error_In in T. apply C in T. exact T. }
    constructor; unfold with_lock, put; cbn [m_global m_lock m_threads m_reads m_accepted]; auto.
    + apply set_at_Forall; [split; [exact TC|split; [exact V|lia]]|exact C].
    + intros j x X HX. apply nth_error_set in X; [|eauto]. destruct X as [(-> & ->)|(NE & X)]; [reflexivity|].
      pose proof (D j x X HX). congruence.
    + intros j J. assert (j = i) by congruence. subst. eexists. split; [eapply set_at_same; exact T|reflexivity].
    + intros j k b X. apply nth_error_set in X; [|eauto]. destruct X as [(-> & X)|(NE & X)]; [discriminate|].
      pose proof (D j _ X eq_refl). congruence.
    + intros j k c' X. apply nth_error_set in X; [|eauto]. destruct X as [(-> & X)|(NE & X)].
      * assert (k = 0%nat) by congruence. subst. reflexivity.
      * pose proof (D j _ X eq_refl). congruence.
  - apply (inv_move c0 m i (TWantUpdate c)); auto. exact Logic.I.
  - (* copy a field *)
    destruct (G i k buf T) as (GE & FE).
    assert (W : length buf = 13%nat /\ (k <= 13)%nat).
    { rewrite Forall_forall in C. apply nth_error_In in T. apply C in T. exact T. }
    constructor; unfold put; cbn [m_global m_lock m_threads m_reads m_accepted]; auto.
    + apply set_at_Forall; [split; [rewrite set_at_length; apply W|lia]|exact C].
    + intros j x X HX. apply nth_error_set in X; [|eauto]. destruct X as [(-> & ->)|(NE & X)]; [eapply D; [exact T|reflexivity]|eapply D; eassumption].
    + intros j J. destruct (E j J) as (x & X & HX). destruct (Nat.eq_dec j i) as [->|NE].
      * eexists. split; [eapply set_at_same; exact T|reflexivity].
      * exists x. rewrite set_at_other by exact NE. auto.
    + intros j k' b X. apply nth_error_set in X; [|eauto]. destruct X as [(-> & X)|(NE & X)]; [|eapply G; eassumption].
      assert (k' = S k) by congruence. assert (b = set_at buf k (fld (m_global m) k)) by congruence. subst k' b.
      split; [exact GE|]. rewrite set_at_firstn by lia. rewrite FE.
      change (current c0 _) with (current c0 m).
      rewrite firstn_S_nth by (rewrite <- GE, A; exact K). unfold fld. rewrite GE. reflexivity.
    + intros j k' c' X. apply nth_error_set in X; [|eauto]. destruct X as [(-> & X)|(NE & X)]; [discriminate|eapply U; eassumption].
  - (* read done *)
    destruct (G i 13%nat buf T) as (GE & FE).
    assert (W : length buf = 13%nat /\ (13 <= 13)%nat).
    { rewrite Forall_forall in C. apply nth_error_In in T. apply C in T. exact T. }
    assert (BE : buf = current c0 m).
    { rewrite !firstn_all2 in FE; [exact FE|rewrite <- GE, A; lia|lia]. }
    assert (LK : m_lock m = Some i) by (eapply D; [exact T|reflexivity]).
    constructor; cbn [m_global m_lock m_threads m_reads m_accepted]; auto.
    + apply set_at_Forall; [exact Logic.I|exact C].
    + intros j x X HX. apply nth_error_set in X; [|eauto]. destruct X as [(-> & ->)|(NE & X)]; [discriminate|].
      pose proof (D j x X HX). congruence.
    + discriminate.
    + intros j k' b X. apply nth_error_set in X; [|eauto]. destruct X as [(-> & X)|(NE & X)]; [discriminate|].
      pose proof (D j _ X eq_refl). congruence.
    + intros j k' c' X. apply nth_error_set in X; [|eauto]. destruct X as [(-> & X)|(NE & X)]; [discriminate|].
      pose proof (D j _ X eq_refl). congruence.
    + constructor; [|exact R]. cbn [fst snd]. split; [lia|]. rewrite version_last. exact BE.
  - (* store a field *)
    pose proof (U i k c T) as UE.
    assert (W : typed c /\ validate c = true /\ (k <= 13)%nat).
    { rewrite Forall_forall in C. apply nth_error_In in T. apply C in T. exact T. }
    assert (LK : m_lock m = Some i) by (eapply D; [exact T|reflexivity]).
    constructor; cbn [m_global m_lock m_threads m_reads m_accepted]; auto.
    + rewrite set_at_length. exact A.
    + apply set_at_Forall; [split; [apply W|split; [apply W|lia]]|exact C].
    + intros j x X HX. apply nth_error_set in X; [|eauto]. destruct X as [(-> & ->)|(NE & X)]; [exact LK|eapply D; eassumption].
    + intros j J. destruct (E j J) as (x & X & HX). destruct (Nat.eq_dec j i) as [->|NE].
      * eexists. split; [eapply set_at_same; exact T|reflexivity].
      * exists x. rewrite set_at_other by exact NE. auto.
    + congruence.
    + intros j k' b X. apply nth_error_set in X; [|eauto]. destruct X as [(-> & X)|(NE & X)]; [discriminate|].
      pose proof (D j _ X eq_refl). congruence.
    + intros j k' c' X. apply nth_error_set in X; [|eauto]. destruct X as [(-> & X)|(NE & X)].
      * assert (k' = S k) by congruence. assert (c' = c) by congruence. subst.
        rewrite set_at_firstn by lia. rewrite UE. rewrite firstn_S_nth by (destruct W as ((-> & _) & _); exact K). reflexivity.
      * pose proof (D j _ X eq_refl). congruence.
  - (* update done *)
    pose proof (U i 13%nat c T) as UE.
    assert (W : typed c /\ validate c = true /\ (13 <= 13)%nat).
    { rewrite Forall_forall in C. apply nth_error_In in T. apply C in T. exact T. }
    assert (GC : m_global m = c).
    { rewrite !firstn_all2 in UE; [exact UE|destruct W as ((-> & _) & _); lia|lia]. }
    assert (LK : m_lock m = Some i) by (eapply D; [exact T|reflexivity]).
    constructor; cbn [m_global m_lock m_threads m_reads m_accepted]; auto.
    + constructor; [tauto|exact B].
    + apply set_at_Forall; [exact Logic.I|exact C].
    + intros j x X HX. apply nth_error_set in X; [|eauto]. destruct X as [(-> & ->)|(NE & X)]; [discriminate|].
      pose proof (D j x X HX). congruence.
    + discriminate.
    + intros j k' b X. apply nth_error_set in X; [|eauto]. destruct X as [(-> & X)|(NE & X)]; [discriminate|].
      pose proof (D j _ X eq_refl). congruence.
    + intros j k' c' X. apply nth_error_set in X; [|eauto]. destruct X as [(-> & X)|(NE & X)]; [discriminate|].
      pose proof (D j _ X eq_refl). congruence.
    + eapply Forall_impl; [|exact R]. cbv beta. intros r (R1 & R2). cbn [length]. split; [lia|].
      rewrite version_app by exact R1. exact R2.
Qed.

Lemma start_inv n c : typed c -> validate c = true -> inv c (start n c).
Proof.
  intros T V.
  assert (ID : forall i t, nth_error (repeat TIdle n) i = Some t -> t = TIdle).
  { intros i t X. apply nth_error_In in X. eapply repeat_spec; exact X. }
  constructor; unfold start; cbn [m_global m_lock m_threads m_reads m_accepted].
  - apply T.
  - constructor; [auto|constructor].
  - apply Forall_repeat. exact Logic.I.
  - intros i t X HX. apply ID in X. subst. discriminate.
  - discriminate.
  - reflexivity.
  - intros i k b X. apply ID in X. discriminate.
  - intros i k b X. apply ID in X. discriminate.
  - constructor.
Qed.
Lemma reach_inv n c m : typed c -> validate c = true -> reach n c m -> inv c m.
Proof. intros T V R. induction R; [apply start_inv; assumption|eapply step_inv; eassumption]. Qed.

(** ** C69 *)
(** Under every schedule of any number of threads, a read returns the complete
    configuration in force when it returned: the initial one or the latest
    accepted one, never a mixture. *)
Theorem C69_no_torn_reads : forall n c m, typed c -> validate c = true -> reach n c m ->
  Forall (fun r => (snd r <= length (m_accepted m))%nat /\ fst r = version c (m_accepted m) (snd r) /\ in_ranges (fst r)) (m_reads m).
Proof.
  intros n c m T V R. pose proof (reach_inv n c m T V R) as I. destruct I as [A B C D E F G U Q].
  eapply Forall_impl; [|exact Q]. cbv beta. intros r (R1 & R2). split; [exact R1|]. split; [exact R2|].
  assert (IN : In (fst r) (m_accepted m ++ [c])).
  { rewrite R2. unfold version. apply in_rev. apply nth_In. rewrite rev_length, app_length. cbn [length]. lia. }
  rewrite Forall_forall in B. apply B in IN. destruct IN as (T1 & V1). apply validate_ranges; assumption.
Qed.
(** Reads finish in the order of the versions they return: none goes back in
    time. *)
Fixpoint newest_first (rs : list (config * nat)) : Prop :=
  match rs with
  | a :: (b :: _) as r => (snd b <= snd a)%nat /\ newest_first r
  | _ => True
  end.
Theorem C69_monotone : forall n c m, typed c -> validate c = true -> reach n c m -> newest_first (m_reads m).
Proof.
  intros n c m T V R. induction R as [|m i m' R IH ST]; [exact Logic.I|].
  pose proof (reach_inv n c m T V R) as I. destruct I as [A B C D E F G U Q].
  destruct ST; try exact IH. cbn [m_reads newest_first]. destruct (m_reads m) as [|b r]; [exact Logic.I|].
  inversion Q as [|? ? (Q1 & _) _]; subst. cbn [snd]. split; [exact Q1|exact IH].
Qed.
(** No schedule gets stuck: unless every thread is idle, some thread in the
    middle of a call can take a step. *)
Theorem C69_no_deadlock : forall n c m, typed c -> validate c = true -> reach n c m ->
  Forall (eq TIdle) (m_threads m) \/
  exists i t m', nth_error (m_threads m) i = Some t /\ t <> TIdle /\ tstep m i m'.
Proof.
  intros n c m T V R. pose proof (reach_inv n c m T V R) as I. destruct I as [A B C D E F G U Q].
  destruct (m_lock m) as [i|] eqn:L.
  - right. destruct (E i eq_refl) as (t & X & H).
    assert (W : wants_ok t) by (rewrite Forall_forall in C; apply C; eapply nth_error_In; exact X).
    exists i, t. destruct t as [| | |k buf|k c']; try discriminate H; cbn [wants_ok] in W.
    + destruct (le_lt_dec 13 k) as [K|K].
      * assert (k = 13%nat) by lia. subst. eexists. split; [exact X|]. split; [discriminate|]. eapply SCopied; exact X.
      * eexists. split; [exact X|]. split; [discriminate|]. eapply SCopy; eassumption.
    + destruct (le_lt_dec 13 k) as [K|K].
      * assert (k = 13%nat) by lia. subst. eexists. split; [exact X|]. split; [discriminate|]. eapply SStored; exact X.
      * eexists. split; [exact X|]. split; [discriminate|]. eapply SStore; eassumption.
  - assert (DEC : Forall (eq TIdle) (m_threads m) \/ exists i t, nth_error (m_threads m) i = Some t /\ t <> TIdle).
    { clear. induction (m_threads m) as [|t ts IH]; [left; constructor|].
      destruct IH as [F|(i & x & X & NE)]; [|right; exists (S i), x; auto].
      destruct t; [left; constructor; [reflexivity|exact F]|right; exists 0%nat; eexists; split; [reflexivity|discriminate]..]. }
    destruct DEC as [F'|(i & t & X & NE)]; [left; exact F'|]. right. exists i, t.
    destruct t as [| |c'|k buf|k c']; [congruence| | | |].
    + eexists. split; [exact X|]. split; [discriminate|]. eapply (SLockGet m i (repeat 0 13)); [exact X|exact L|reflexivity].
    + destruct (validate c') eqn:V'; eexists; (split; [exact X|]); (split; [discriminate|]);
        [eapply SLockUpdate; eassumption|eapply SRefused; eassumption].
    + pose proof (D i _ X eq_refl). congruence.
    + pose proof (D i _ X eq_refl). congruence.
Qed.

(** A concrete schedule: thread 0 starts a read, thread 1 updates first, and the
    read then returns the new configuration. *)
Lemma reach_fields n c k : forall m i buf, reach n c m -> nth_error (m_threads m) i = Some (TGet 0 buf) -> (k <= 13)%nat ->
  exists m' b, reach n c m' /\ nth_error (m_threads m') i = Some (TGet k b) /\ m_accepted m' = m_accepted m /\ m_reads m' = m_reads m.
Proof.
  induction k as [|k IH]; intros m i buf R X K; [exists m, buf; auto|].
  destruct (IH m i buf R X ltac:(lia)) as (m1 & b & R1 & X1 & A1 & Q1).
  eexists. eexists. split; [eapply ReachS; [exact R1|eapply SCopy; [exact X1|lia]]|].
  cbn [put m_threads m_accepted m_reads]. split; [eapply set_at_same; exact X1|auto].
Qed.
Example C69_case : exists m b, reach 2 defaults m /\ m_reads m = [(b, 0%nat)] /\ b = defaults.
Proof.
  assert (R1 : reach 2 defaults (put (start 2 defaults) 0 TWantGet)) by (eapply ReachS; [apply Reach0|apply SGet; reflexivity]).
  assert (R2 := ReachS _ _ _ 0%nat _ R1 (SLockGet (put (start 2 defaults) 0 TWantGet) 0%nat (repeat 0 13) eq_refl eq_refl eq_refl)).
  destruct (reach_fields 2 defaults 13 _ 0%nat _ R2 eq_refl ltac:(lia)) as (m3 & b & R3 & X3 & A3 & Q3).
  pose proof (ReachS _ _ _ 0%nat _ R3 (SCopied _ _ _ X3)) as R4.
  exists (mkM (m_global m3) None (set_at (m_threads m3) 0 TIdle) ((b, length (m_accepted m3)) :: m_reads m3) (m_accepted m3)), b.
  split; [exact R4|]. cbn [m_reads]. rewrite Q3, A3. split; [reflexivity|].
  assert (T : typed defaults).
  { split; [reflexivity|]. change (2 ^ 32) with 4294967296. change (2 ^ 31) with 2147483648.
    split; intros k K; do 13 (destruct k as [|k]; [cbn [defaults nth]; lia|]); lia. }
  pose proof (C69_no_torn_reads 2 defaults _ T eq_refl R4) as F. cbn [m_reads m_accepted] in F.
  inversion F as [|? ? (F1 & F2 & _) _]; subst. cbn [fst snd] in F2. rewrite F2, A3. reflexivity.
Qed.

Print Assumptions C69_no_torn_reads.
Print Assumptions C69_monotone.
Print Assumptions C69_no_deadlock.
