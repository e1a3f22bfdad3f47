(** Invariant of the threaded miner. *)
From Verif Require Import Base BaseFacts Dec Strto Event Nip13 Nip13Spec Nip13Proofs.
Open Scope N_scope.

Definition critical (p : wpc) : bool :=
  match p with PLoop | PLock | PDone => false | _ => true end.
Definition editing (p : wpc) : bool :=
  match p with PAdd | PTime | PHash | PTest => true | _ => false end.

Lemma set_nth_length {A} (l : list A) : forall i x, length (set_nth l i x) = length l.
Proof. induction l as [|y l IH]; intros [|i] x; cbn [set_nth length]; auto. Qed.
Lemma set_nth_same {A} (l : list A) : forall i x w, nth_error l i = Some w -> nth_error (set_nth l i x) i = Some x.
Proof. induction l as [|y l IH]; intros [|i] x w H; cbn in *; try discriminate; eauto. Qed.
Lemma set_nth_other {A} (l : list A) : forall i j x, i <> j -> nth_error (set_nth l i x) j = nth_error l j.
Proof.
  induction l as [|y l IH]; intros [|i] [|j] x H; cbn [set_nth nth_error]; try reflexivity; try congruence.
  apply IH. congruence.
Qed.

Section T.
Variable num : Z -> list N.
Variable sha256 : list N -> list N.
Variable target : Z.
Variable max : N.
Variable nthreads : nat.
Variable e0 : event.
Variables pre post : list (list (list N)).
Variable rest : list (list N).

Definition tags_for (n : N) : list (list (list N)) := pre ++ final_tag n target rest :: post.
Definition hashed (m : mev) : Prop :=
  exists e, observe m = Some e /\ ev_id e = sha256 (serialize_with num e).
Definition good (m : mev) : Prop :=
  same_body e0 (m_ev m) /\ hashed m /\ (target <= Z.of_nat (difficulty (ev_id (m_ev m))))%Z /\
  exists n, m_tags m = some_tags (tags_for n).

Record tinv (s : tstate) : Prop := {
  ti_shape : shape pre post rest (m_tags (t_ev s));
  ti_body : same_body e0 (m_ev (t_ev s));
  ti_lock : forall i w, nth_error (t_workers s) i = Some w -> (critical (w_pc w) = true <-> t_lock s = Some i);
  ti_owner : forall i, t_lock s = Some i -> exists w, nth_error (t_workers s) i = Some w;
  ti_tags : forall i w, nth_error (t_workers s) i = Some w ->
    (w_pc w = PTime \/ w_pc w = PHash \/ w_pc w = PTest) -> m_tags (t_ev s) = some_tags (tags_for (w_nonce w));
  ti_hash : forall i w, nth_error (t_workers s) i = Some w -> w_pc w = PTest -> hashed (t_ev s);
  ti_found : forall i w, nth_error (t_workers s) i = Some w -> w_found w = true ->
    t_found s = true /\ good (t_ev s) /\
    forall j v, nth_error (t_workers s) j = Some v -> editing (w_pc v) = false;
  ti_nonce : forall i w, nth_error (t_workers s) i = Some w -> w_nonce w = (N.of_nat i + 1000 * w_iter w) mod 2 ^ 64;
  ti_count : (length (t_workers s) <= nthreads)%nat /\
    match t_main s with
    | MCreate i => i = length (t_workers s)
    | MJoin | MDone (Ok _) | MDone (Err ENotFound) => length (t_workers s) = nthreads
    | _ => True end;
  ti_main : t_main s = MDone (Ok tt) -> exists i w, nth_error (t_workers s) i = Some w /\ w_found w = true;
  ti_done : forall r, t_main s = MDone r -> forall i w, nth_error (t_workers s) i = Some w -> w_pc w = PDone }.

Hypothesis TP : (0 < target)%Z.
Hypothesis NT : (N.of_nat nthreads < 2 ^ 31).

(** A step of worker [i] that leaves the event and the lock alone and does not
    enter the editing points. *)
Lemma tinv_frame s i w w' lk :
  tinv s -> nth_error (t_workers s) i = Some w -> w_pc w <> PDone ->
  w_nonce w' = (N.of_nat i + 1000 * w_iter w') mod 2 ^ 64 -> w_found w' = w_found w ->
  (editing (w_pc w') = true -> t_found s = false \/ editing (w_pc w) = true) ->
  (w_pc w' = PTime \/ w_pc w' = PHash \/ w_pc w' = PTest -> m_tags (t_ev s) = some_tags (tags_for (w_nonce w'))) ->
  (w_pc w' = PTest -> hashed (t_ev s)) ->
  (critical (w_pc w') = true <-> lk = Some i) ->
  (lk = t_lock s \/ (lk = Some i /\ t_lock s = None) \/ (lk = None /\ t_lock s = Some i)) ->
  tinv (mkT (t_ev s) (t_found s) lk (upd_worker s i w') (t_main s)).
Proof.
  intros I Hw NP N F ED TG HS CR LK.
  assert (UP : forall j v, nth_error (upd_worker s i w') j = Some v ->
            (j = i /\ v = w') \/ (j <> i /\ nth_error (t_workers s) j = Some v)).
  { intros j v H. unfold upd_worker in H. destruct (Nat.eq_dec i j) as [<-|NE].
    - rewrite (set_nth_same _ _ _ _ Hw) in H. left. split; congruence.
    - rewrite set_nth_other in H by exact NE. right. auto. }
  constructor; cbn [t_ev t_found t_lock t_workers t_main].
  - apply (ti_shape s I).
  - apply (ti_body s I).
  - intros j v H. destruct (UP j v H) as [(-> & ->)|(NE & H')]; [exact CR|].
    rewrite (ti_lock s I j v H').
    destruct LK as [->|[(-> & E)|(-> & E)]]; [tauto|rewrite E; split; congruence|rewrite E; split; congruence].
  - intros j H. destruct (Nat.eq_dec i j) as [<-|NE].
    + exists w'. unfold upd_worker. apply (set_nth_same _ _ _ _ Hw).
    + unfold upd_worker. rewrite set_nth_other by exact NE. apply (ti_owner s I).
      destruct LK as [<-|[(E & _)|(E & _)]]; [exact H|rewrite E in H; congruence|congruence].
  - intros j v H P. destruct (UP j v H) as [(-> & ->)|(NE & H')]; [auto|]. eapply (ti_tags s I); eassumption.
  - intros j v H P. destruct (UP j v H) as [(-> & ->)|(NE & H')]; [auto|]. eapply (ti_hash s I); eassumption.
  - intros j v H P.
    assert (exists k u, nth_error (t_workers s) k = Some u /\ w_found u = true) as (k & u & Hk & Fk).
    { destruct (UP j v H) as [(-> & ->)|(NE & H')]; [exists i, w|exists j, v]; split; auto. congruence. }
    destruct (ti_found s I k u Hk Fk) as (A & B & C). split; [exact A|]. split; [exact B|].
    intros j' v' H'. destruct (UP j' v' H') as [(-> & ->)|(NE & H'')]; [|eapply C; eassumption].
    destruct (editing (w_pc w')) eqn:EW; [|reflexivity]. destruct (ED eq_refl) as [D|D]; [congruence|].
    rewrite (C i w Hw) in D. discriminate.
  - intros j v H. destruct (UP j v H) as [(-> & ->)|(NE & H')]; [exact N|]. apply (ti_nonce s I). exact H'.
  - unfold upd_worker. rewrite set_nth_length. exact (ti_count s I).
  - intros H. destruct (ti_main s I H) as (j & v & Hj & Fj). destruct (Nat.eq_dec i j) as [<-|NE].
    + exists i, w'. unfold upd_worker. split; [eapply set_nth_same; exact Hw|]. congruence.
    + exists j, v. unfold upd_worker. rewrite set_nth_other by exact NE. auto.
  - intros r H. exfalso. apply NP. eapply (ti_done s I); eassumption.
Qed.

(** A step of an editing worker that changes the event. *)
Lemma tinv_edit s i w w' m :
  tinv s -> nth_error (t_workers s) i = Some w -> editing (w_pc w) = true -> critical (w_pc w') = true ->
  w_nonce w' = w_nonce w -> w_iter w' = w_iter w -> w_found w' = w_found w ->
  shape pre post rest (m_tags m) -> same_body e0 (m_ev m) ->
  (w_pc w' = PTime \/ w_pc w' = PHash \/ w_pc w' = PTest -> m_tags m = some_tags (tags_for (w_nonce w'))) ->
  (w_pc w' = PTest -> hashed m) ->
  tinv (mkT m (t_found s) (t_lock s) (upd_worker s i w') (t_main s)).
Proof.
  intros I Hw ED CR N IT F SH SB TG HS.
  assert (UP : forall j v, nth_error (upd_worker s i w') j = Some v ->
            (j = i /\ v = w') \/ (j <> i /\ nth_error (t_workers s) j = Some v)).
  { intros j v H. unfold upd_worker in H. destruct (Nat.eq_dec i j) as [<-|NE].
    - rewrite (set_nth_same _ _ _ _ Hw) in H. left. split; congruence.
    - rewrite set_nth_other in H by exact NE. right. auto. }
  assert (LKi : t_lock s = Some i).
  { apply (ti_lock s I i w Hw). destruct (w_pc w); (reflexivity || discriminate). }
  assert (OTH : forall j v, j <> i -> nth_error (t_workers s) j = Some v -> critical (w_pc v) = false).
  { intros j v NE H. destruct (critical (w_pc v)) eqn:C; [|reflexivity].
    apply (ti_lock s I j v H) in C. congruence. }
  assert (NF : forall j v, nth_error (t_workers s) j = Some v -> w_found v = false).
  { intros j v H. destruct (w_found v) eqn:E; [|reflexivity].
    destruct (ti_found s I j v H E) as (_ & _ & C). rewrite (C i w Hw) in ED. discriminate. }
  constructor; cbn [t_ev t_found t_lock t_workers t_main].
  - exact SH.
  - exact SB.
  - intros j v H. destruct (UP j v H) as [(-> & ->)|(NE & H')]; [rewrite CR; tauto|]. apply (ti_lock s I j v H').
  - intros j H. destruct (Nat.eq_dec i j) as [<-|NE]; [|congruence].
    exists w'. unfold upd_worker. eapply set_nth_same; exact Hw.
  - intros j v H P. destruct (UP j v H) as [(-> & ->)|(NE & H')]; [auto|].
    apply OTH in H'; [|exact NE]. destruct P as [P|[P|P]]; rewrite P in H'; discriminate.
  - intros j v H P. destruct (UP j v H) as [(-> & ->)|(NE & H')]; [auto|].
    apply OTH in H'; [|exact NE]. rewrite P in H'; discriminate.
  - intros j v H P. destruct (UP j v H) as [(-> & ->)|(NE & H')].
    + rewrite F, (NF i w Hw) in P. discriminate.
    + rewrite (NF j v H') in P. discriminate.
  - intros j v H. destruct (UP j v H) as [(-> & ->)|(NE & H')]; [|apply (ti_nonce s I); exact H'].
    rewrite N, IT. apply (ti_nonce s I). exact Hw.
  - unfold upd_worker. rewrite set_nth_length. exact (ti_count s I).
  - intros H. destruct (ti_main s I H) as (j & v & Hj & Fj). rewrite (NF j v Hj) in Fj. discriminate.
  - intros r H. rewrite (ti_done s I r H i w Hw) in ED. discriminate.
Qed.

Lemma tinv_hit s i w : tinv s -> nth_error (t_workers s) i = Some w -> w_pc w = PTest ->
  (target <= Z.of_nat (difficulty (ev_id (m_ev (t_ev s)))))%Z ->
  tinv (mkT (t_ev s) true (t_lock s) (upd_worker s i (mkWorker PBreak (w_nonce w) (w_iter w) true)) (t_main s)).
Proof.
  intros I Hw P D. set (w' := mkWorker PBreak _ _ true).
  assert (UP : forall j v, nth_error (upd_worker s i w') j = Some v ->
            (j = i /\ v = w') \/ (j <> i /\ nth_error (t_workers s) j = Some v)).
  { intros j v H. unfold upd_worker in H. destruct (Nat.eq_dec i j) as [<-|NE].
    - rewrite (set_nth_same _ _ _ _ Hw) in H. left. split; congruence.
    - rewrite set_nth_other in H by exact NE. right. auto. }
  assert (LKi : t_lock s = Some i) by (apply (ti_lock s I i w Hw); rewrite P; reflexivity).
  assert (OTH : forall j v, j <> i -> nth_error (t_workers s) j = Some v -> critical (w_pc v) = false).
  { intros j v NE H. destruct (critical (w_pc v)) eqn:C; [|reflexivity].
    apply (ti_lock s I j v H) in C. congruence. }
  constructor; cbn [t_ev t_found t_lock t_workers t_main].
  - apply (ti_shape s I).
  - apply (ti_body s I).
  - intros j v H. destruct (UP j v H) as [(-> & ->)|(NE & H')]; [cbn; tauto|]. apply (ti_lock s I j v H').
  - intros j H. destruct (Nat.eq_dec i j) as [<-|NE]; [|congruence].
    exists w'. unfold upd_worker. eapply set_nth_same; exact Hw.
  - intros j v H Q. destruct (UP j v H) as [(-> & ->)|(NE & H')]; [cbn in Q; destruct Q as [Q|[Q|Q]]; discriminate|].
    eapply (ti_tags s I); eassumption.
  - intros j v H Q. destruct (UP j v H) as [(-> & ->)|(NE & H')]; [discriminate|]. eapply (ti_hash s I); eassumption.
  - intros j v H Q. split; [reflexivity|]. split.
    + split; [apply (ti_body s I)|]. split; [apply (ti_hash s I i w Hw P)|]. split; [exact D|].
      exists (w_nonce w). apply (ti_tags s I i w Hw). auto.
    + intros k u Hk. destruct (UP k u Hk) as [(-> & ->)|(NE & H')]; [reflexivity|].
      apply OTH in H'; [|exact NE]. destruct (w_pc u); (reflexivity || discriminate).
  - intros j v H. destruct (UP j v H) as [(-> & ->)|(NE & H')]; [|apply (ti_nonce s I); exact H'].
    cbn [w_nonce w_iter w']. apply (ti_nonce s I). exact Hw.
  - unfold upd_worker. rewrite set_nth_length. exact (ti_count s I).
  - intros _. exists i, w'. unfold upd_worker. split; [eapply set_nth_same; exact Hw|reflexivity].
  - intros r H. rewrite (ti_done s I r H i w Hw) in P. discriminate.
Qed.

Lemma tinv_main s f mp : tinv s -> (f = t_found s \/ f = true) ->
  match mp with
  | MCreate i => i = length (t_workers s)
  | MJoin | MDone (Ok _) | MDone (Err ENotFound) => length (t_workers s) = nthreads
  | _ => True end ->
  (mp = MDone (Ok tt) -> exists i w, nth_error (t_workers s) i = Some w /\ w_found w = true) ->
  (forall r, mp = MDone r -> all_done s) ->
  tinv (mkT (t_ev s) f (t_lock s) (t_workers s) mp).
Proof.
  intros I F C M AD. constructor; cbn [t_ev t_found t_lock t_workers t_main]; try apply I.
  - intros i w H P. destruct (ti_found s I i w H P) as (A & B & D). split; [destruct F; congruence|auto].
  - split; [apply (ti_count s I)|exact C].
  - exact M.
  - intros r H i w Hw. specialize (AD r H). unfold all_done in AD. rewrite Forall_forall in AD.
    apply AD. eapply nth_error_In. exact Hw.
Qed.

Lemma tinv_step s s' : tinv s -> tstep num sha256 target max nthreads s s' -> tinv s'.
Proof.
  intros I [i w Hw W|C].
  - pose proof (ti_lock s I i w Hw) as LK. pose proof (ti_nonce s I i w Hw) as NN.
    destruct W as [P Q|P Q R|P Q|P|a ts r P Q R|now P|a m r P Q R|P Q|P Q|P|P];
      rewrite P in LK; cbn [critical] in LK.
    + apply (tinv_frame s i w); [assumption|assumption|rewrite P; discriminate|..]; cbn [goto w_pc w_nonce w_iter w_found]; try discriminate; auto.
      * intros [K|[K|K]]; discriminate.
    + apply (tinv_frame s i w); [assumption|assumption|rewrite P; discriminate|..]; cbn [goto w_pc w_nonce w_iter w_found]; try discriminate; auto.
      * intros [K|[K|K]]; discriminate.
    + apply (tinv_frame s i w); [assumption|assumption|rewrite P; discriminate|..]; cbn [goto w_pc w_nonce w_iter w_found]; try discriminate; auto.
      * intros [K|[K|K]]; discriminate.
      * cbn [critical]. tauto.
    + apply (tinv_frame s i w); [assumption|assumption|rewrite P; discriminate|..]; cbn [goto w_pc w_nonce w_iter w_found]; auto.
      * destruct (t_found s); [discriminate|auto].
      * destruct (t_found s); intros [K|[K|K]]; discriminate.
      * destruct (t_found s); discriminate.
      * destruct (t_found s); cbn [critical]; exact LK.
    + destruct (add_nonce_shape a pre post rest _ (w_nonce w) target (ti_shape s I) TP) as (ts' & r' & E & S & NU & OKK & _).
      rewrite Q in E. injection E as <- <-.
      apply (tinv_edit s i w); cbn [goto w_pc w_nonce w_iter w_found m_tags m_ev]; auto.
      * rewrite P. reflexivity.
      * destruct r; reflexivity.
      * apply (ti_body s I).
      * destruct r as [[]| |]; [|intros [K|[K|K]]; discriminate..]. intros _. apply OKK. reflexivity.
      * destruct r; discriminate.
    + apply (tinv_edit s i w); cbn [goto w_pc w_nonce w_iter w_found m_tags m_ev]; auto.
      * rewrite P. reflexivity.
      * apply (ti_shape s I).
      * destruct (ti_body s I) as (A & B & C). repeat split; assumption.
      * intros _. apply (ti_tags s I i w Hw). auto.
      * discriminate.
    + assert (TG : m_tags (t_ev s) = some_tags (tags_for (w_nonce w))) by (apply (ti_tags s I i w Hw); auto).
      unfold m_compute_id, observe in Q. rewrite TG, full_tags_some in Q.
      destruct (al_id a).
      * injection Q as <- <-.
        apply (tinv_edit s i w); cbn [goto w_pc w_nonce w_iter w_found m_tags m_ev]; auto.
        -- rewrite P. reflexivity.
        -- rewrite <- TG. apply (ti_shape s I).
        -- destruct (ti_body s I) as (A & B & C). repeat split; assumption.
        -- intros _. unfold hashed, observe. cbn [m_tags m_ev]. rewrite full_tags_some.
           eexists. split; [reflexivity|]. reflexivity.
      * injection Q as <- <-.
        apply (tinv_edit s i w); cbn [goto w_pc w_nonce w_iter w_found m_tags m_ev]; auto.
        -- rewrite P. reflexivity.
        -- apply (ti_shape s I).
        -- apply (ti_body s I).
        -- discriminate.
    + apply tinv_hit; assumption.
    + apply (tinv_frame s i w); [assumption|assumption|rewrite P; discriminate|..]; cbn [goto w_pc w_nonce w_iter w_found]; try discriminate; auto.
      intros [K|[K|K]]; discriminate.
    + apply (tinv_frame s i w); [assumption|assumption|rewrite P; discriminate|..]; cbn [goto w_pc w_nonce w_iter w_found]; try discriminate; auto.
      * intros [K|[K|K]]; discriminate.
      * cbn [critical]. split; discriminate.
      * right. right. split; [reflexivity|]. apply LK. reflexivity.
    + apply (tinv_frame s i w); [assumption|assumption|rewrite P; discriminate|..]; cbn [goto w_pc w_nonce w_iter w_found]; try discriminate; auto.
      * rewrite NN. clear. set (a := N.of_nat i). set (k := w_iter w). clearbody a k.
        rewrite N.add_mod_idemp_l by discriminate.
        rewrite <- (N.add_mod_idemp_r a (1000 * ((k + 1) mod 2 ^ 64))) by discriminate.
        rewrite N.mul_mod_idemp_r by discriminate. rewrite N.add_mod_idemp_r by discriminate.
        f_equal. lia.
      * intros [K|[K|K]]; discriminate.
      * cbn [critical]. split; discriminate.
      * right. right. split; [reflexivity|]. apply LK. reflexivity.
  - pose proof (ti_count s I) as (CN & CM).
    destruct C as [i M L|i M L|M|M|M D|M D].
    + rewrite M in CM. subst i.
      assert (UP : forall j v, nth_error (t_workers s ++ [mkWorker PLoop (N.of_nat (length (t_workers s))) 0 false]) j = Some v ->
        nth_error (t_workers s) j = Some v \/
        (j = length (t_workers s) /\ v = mkWorker PLoop (N.of_nat (length (t_workers s))) 0 false)).
      { intros j v H. destruct (le_lt_dec (length (t_workers s)) j) as [G|G].
        - rewrite nth_error_app2 in H by exact G. destruct (j - length (t_workers s))%nat as [|k] eqn:K.
          + cbn in H. right. split; [lia|congruence].
          + cbn in H. destruct k; discriminate.
        - rewrite nth_error_app1 in H by exact G. auto. }
      assert (DN : forall j v, nth_error (t_workers s) j = Some v ->
        nth_error (t_workers s ++ [mkWorker PLoop (N.of_nat (length (t_workers s))) 0 false]) j = Some v).
      { intros j v H. rewrite nth_error_app1; [exact H|]. apply nth_error_Some. congruence. }
      constructor; cbn [t_ev t_found t_lock t_workers t_main].
      * apply (ti_shape s I).
      * apply (ti_body s I).
      * intros j v H. destruct (UP j v H) as [H'|(-> & ->)]; [apply (ti_lock s I); exact H'|].
        cbn [w_pc critical]. split; [discriminate|]. intros K.
        destruct (ti_owner s I _ K) as (u & Hu). assert (length (t_workers s) < length (t_workers s))%nat; [|lia].
        apply nth_error_Some. congruence.
      * intros j H. destruct (ti_owner s I j H) as (u & Hu). eauto.
      * intros j v H Q. destruct (UP j v H) as [H'|(-> & ->)]; [eapply (ti_tags s I); eassumption|].
        cbn in Q. destruct Q as [Q|[Q|Q]]; discriminate.
      * intros j v H Q. destruct (UP j v H) as [H'|(-> & ->)]; [eapply (ti_hash s I); eassumption|]. discriminate.
      * intros j v H Q. destruct (UP j v H) as [H'|(-> & ->)]; [|discriminate].
        destruct (ti_found s I j v H' Q) as (A & B & C). split; [exact A|]. split; [exact B|].
        intros k u Hk. destruct (UP k u Hk) as [H''|(-> & ->)]; [eapply C; exact H''|reflexivity].
      * intros j v H. destruct (UP j v H) as [H'|(-> & ->)]; [apply (ti_nonce s I); exact H'|].
        cbn [w_nonce w_iter]. rewrite N.mul_0_r, N.add_0_r.
        rewrite N.mod_small; [reflexivity|]. change (2 ^ 31) with 2147483648 in NT.
        change (2 ^ 64) with 18446744073709551616. lia.
      * rewrite app_length. cbn [length]. split; lia.
      * discriminate.
      * discriminate.
    + apply tinv_main; auto; discriminate.
    + rewrite M in CM. apply tinv_main; auto; discriminate.
    + apply tinv_main; auto; discriminate.
    + apply tinv_main; auto; discriminate.
    + rewrite M in CM. apply tinv_main; auto.
      * destruct (any_found s); exact CM.
      * destruct (any_found s) eqn:AF; [|discriminate]. intros _.
        unfold any_found in AF. apply existsb_exists in AF as (w & Iw & Fw).
        apply In_nth_error in Iw as (i & Hi). eauto.
Qed.

Lemma tinv_init m : shape pre post rest (m_tags m) -> same_body e0 (m_ev m) -> tinv (tinit m).
Proof.
  intros S B. constructor; cbn [tinit t_ev t_found t_lock t_workers t_main]; auto;
    try (intros [|i]; discriminate); try discriminate.
  split; [cbn [length]; lia|reflexivity].
Qed.

Lemma tinv_reach m s : shape pre post rest (m_tags m) -> same_body e0 (m_ev m) ->
  treach num sha256 target max nthreads m s -> tinv s.
Proof.
  intros S B R. induction R as [|s s' R IH ST]; [apply tinv_init; assumption|]. eapply tinv_step; eassumption.
Qed.

(** Every unfinished state has a step. *)
Lemma tinv_progress s : tinv s -> (forall r, t_main s <> MDone r) -> exists s', tstep num sha256 target max nthreads s s'.
Proof.
  intros I ND.
  assert (WS : forall i w, nth_error (t_workers s) i = Some w -> w_pc w <> PDone ->
            (w_pc w = PLock -> t_lock s = None) -> exists s', tstep num sha256 target max nthreads s s').
  { intros i w Hw NP NL. assert (K : exists s', wstep num sha256 target max s i w s').
    { destruct (w_pc w) eqn:P.
      - destruct (t_found s) eqn:F; [eexists; apply WExit; auto|].
        destruct (N.eq_dec max 0) as [Z|Z]; [eexists; apply WEnter; auto|].
        destruct (N.lt_ge_cases (w_iter w) max); [eexists; apply WEnter; auto|eexists; apply WExit; auto].
      - eexists. apply WLock; auto.
      - eexists. apply WCheck; auto.
      - destruct (add_nonce_shape (mkAllocs true true true None true) pre post rest _ (w_nonce w) target (ti_shape s I) TP)
          as (ts' & r' & E & S & NU & OKK & _). eexists. eapply WAdd; eauto.
      - eexists. apply (WTime _ _ _ _ _ _ _ 0%Z); auto.
      - assert (TG : m_tags (t_ev s) = some_tags (tags_for (w_nonce w))) by (apply (ti_tags s I i w Hw); auto).
        eexists. eapply (WHash _ _ _ _ _ _ _ (mkAllocs true true true None true)); [exact P| |].
        + unfold m_compute_id, observe. rewrite TG, full_tags_some. reflexivity.
        + discriminate.
      - destruct (Z.le_gt_cases target (Z.of_nat (difficulty (ev_id (m_ev (t_ev s))))));
          [eexists; apply WHit; auto|eexists; apply WMiss; auto].
      - eexists. apply WBreak; auto.
      - eexists. apply WNext; auto.
      - congruence. }
    destruct K as (s' & K). exists s'. eapply TWorker; eassumption. }
  assert (J : all_done s \/ exists s', tstep num sha256 target max nthreads s s').
  { destruct (t_lock s) as [o|] eqn:LK.
    - right. destruct (ti_owner s I o LK) as (w & Hw).
      pose proof (proj2 (ti_lock s I o w Hw) LK) as C.
      apply (WS o w Hw); [destruct (w_pc w); discriminate|]. intros P. rewrite P in C. discriminate.
    - destruct (Forall_dec (fun w => w_pc w = PDone)) with (l := t_workers s) as [D|D].
      + intros w. destruct (w_pc w); (left; reflexivity) || (right; discriminate).
      + left. exact D.
      + right. apply neg_Forall_Exists_neg in D; [|intros w; destruct (w_pc w); (left; reflexivity) || (right; discriminate)].
        apply Exists_exists in D as (w & Iw & NW). apply In_nth_error in Iw as (i & Hi).
        apply (WS i w Hi NW). auto. }
  pose proof (ti_count s I) as (CN & CM).
  destruct (t_main s) as [i| | | |r] eqn:M.
  - subst i. destruct (Nat.eq_dec (length (t_workers s)) nthreads) as [E|E].
    + eexists. apply TCaller, CCreated. congruence.
    + eexists. apply TCaller. eapply CCreate; [exact M|lia].
  - eexists. apply TCaller, CAbort, M.
  - destruct J as [D|J]; [|exact J]. eexists. apply TCaller, CAborted; assumption.
  - destruct J as [D|J]; [|exact J]. eexists. apply TCaller, CJoined; assumption.
  - exfalso. eapply ND. reflexivity.
Qed.
End T.
