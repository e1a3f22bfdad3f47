(** Lemmas for wallet-connect sessions. *)
From Verif Require Import Base BaseFacts Dec Hex HexSpec HexProofs Session SessionSpec.
Open Scope Z_scope.

Lemma update_length {A} (l : list A) x : forall k, length (update l k x) = length l.
Proof. induction l; intros [|k]; cbn [update length]; auto. Qed.
Lemma update_same {A} (l : list A) x y : forall k, nth_error l k = Some y -> nth_error (update l k x) k = Some x.
Proof. induction l; intros [|k] H; cbn in *; try discriminate; auto. Qed.
Lemma update_other {A} (l : list A) x : forall k j, j <> k -> nth_error (update l k x) j = nth_error l j.
Proof. induction l; intros [|k] [|j] H; cbn; try congruence; auto. Qed.
Lemma update_cases {A} (l : list A) k x j y : nth_error (update l k x) j = Some y -> (exists z, nth_error l k = Some z) ->
  (j = k /\ y = x) \/ (j <> k /\ nth_error l j = Some y).
Proof.
  intros H (z & Z). destruct (Nat.eq_dec j k) as [->|NE].
  - left. rewrite (update_same l x z k Z) in H. split; congruence.
  - right. rewrite update_other in H by exact NE. auto.
Qed.
Lemma nth_error_nth' {A} (l : list A) k d x : nth_error l k = Some x -> nth k l d = x.
Proof. intros H. apply nth_error_nth. exact H. Qed.

(** ** Ids *)
Definition id_ok (id : list N) : Prop := length id = 64%nat /\ ~ In 0%N id.

Lemma hexdigit_nz v : hexdigit v <> 0%N.
Proof. unfold hexdigit. destruct (v <? 10)%N; lia. Qed.
Lemma hex_id_ok r : length r = 32%nat -> id_ok (hex_encode r).
Proof.
  intros L. split.
  - unfold hex_encode. rewrite <- (Nat.mul_comm 2 32) || idtac. assert (H : length (flat_map hex_byte r) = (2 * length r)%nat).
    { clear. induction r; cbn [flat_map]; [reflexivity|]. rewrite app_length, IHr. cbn [length hex_byte]. lia. }
    rewrite H. lia.
  - unfold hex_encode. intros I. apply in_flat_map in I as (b & _ & I). cbn [hex_byte In] in I.
    destruct I as [I|[I|[]]]; eapply hexdigit_nz; exact I.
Qed.

Lemma probe_key id x : id_ok x -> beq x (firstn 64 (id ++ [0%N])) = true <-> x = key id.
Proof.
  intros (L & NZ). rewrite beq_eq. unfold key.
  destruct (le_lt_dec 64 (length id)) as [G|G].
  - rewrite firstn_app. replace (64 - length id)%nat with 0%nat by lia. cbn [firstn]. rewrite app_nil_r. reflexivity.
  - split; intros E.
    + exfalso. rewrite firstn_app in E. rewrite firstn_all2 in E by lia.
      destruct (64 - length id)%nat as [|m] eqn:M; [lia|]. cbn [firstn] in E.
      apply NZ. rewrite E. apply in_or_app. right. left. reflexivity.
    + exfalso. apply (f_equal (@length N)) in E. rewrite firstn_length, L in E. lia.
Qed.

(** ** The table *)
Record wf (w : world) : Prop := {
  wf_none : g_table w = None <-> g_init w = false;
  wf_len : forall t, g_table w = Some t -> length t = g_max w;
  wf_active : forall t k x, g_table w = Some t -> nth_error t k = Some x -> x_active x = true -> id_ok (x_id x) /\ exists c, x_conn x = Some c;
  wf_idle : forall t k x, g_table w = Some t -> nth_error t k = Some x -> x_active x = false -> x_perms x = None }.

Lemma find_from_spec key t : forall i,
  match find_from key i t with
  | Some k => (i <= k)%nat /\ exists x, nth_error t (k - i) = Some x /\ x_active x = true /\ beq (x_id x) key = true /\
      forall j y, (j < k - i)%nat -> nth_error t j = Some y -> x_active y && beq (x_id y) key = false
  | None => forall j y, nth_error t j = Some y -> x_active y && beq (x_id y) key = false
  end.
Proof.
  induction t as [|x t IH]; intros i; cbn [find_from].
  - intros [|j] y; discriminate.
  - destruct (x_active x && beq (x_id x) key) eqn:E.
    + split; [lia|]. exists x. rewrite Nat.sub_diag. apply andb_true_iff in E as (E1 & E2).
      repeat split; auto. intros j y J. lia.
    + specialize (IH (S i)). destruct (find_from key (S i) t) as [k|].
      * destruct IH as (L & y & Y & A & B & F). split; [lia|]. exists y.
        replace (k - i)%nat with (S (k - S i)) by lia. cbn [nth_error]. repeat split; auto.
        intros [|j] z J Z; cbn [nth_error] in Z; [congruence|]. apply (F j z); [lia|exact Z].
      * intros [|j] z Z; cbn [nth_error] in Z; [congruence|]. apply (IH j z Z).
Qed.

Lemma on_session_spec {A} (w : world) id (f : session -> session * res A) w' r : wf w ->
  on_session w id f = (w', r) ->
  (w' = w /\ (r = Err EInvalidParam \/ r = Undef /\ (g_table w = None \/ (length id < 63)%nat))) \/
  exists t k x x', g_table w = Some t /\ nth_error t k = Some x /\ x_active x = true /\ x_id x = key id /\
    f x = (x', r) /\ w' = with_table w (update t k x') /\
    lookup w (key id) = Some x.
Proof.
  intros W H. unfold on_session, find_session in H.
  destruct (g_table w) as [t|] eqn:T.
  - destruct ((length id + 1 <? 64)%nat && existsb x_active t) eqn:SH.
    { left. split; [congruence|]. right. split; [congruence|]. right. apply andb_true_iff in SH as (SH & _). apply Nat.ltb_lt in SH. lia. }
    pose proof (find_from_spec (firstn 64 (id ++ [0%N])) t 0) as S.
    destruct (find_from _ 0 t) as [k|].
    + destruct S as (_ & x & X & AX & BX & F). rewrite Nat.sub_0_r in *. right.
      destruct (f (nth k t empty_session)) as (x', r') eqn:FX.
      rewrite (nth_error_nth' t k empty_session x X) in FX.
      destruct (wf_active w W t k x T X AX) as (IX & _).
      assert (IK : x_id x = key id) by (apply probe_key; assumption).
      exists t, k, x, x'. split; [reflexivity|]. split; [exact X|]. split; [exact AX|]. split; [exact IK|].
      split; [congruence|]. split; [congruence|].
      unfold lookup. rewrite T.
      assert (FK : forall j y, (j < k)%nat -> nth_error t j = Some y -> x_active y && beq (x_id y) (key id) = false).
      { intros j y J Y. specialize (F j y J Y). apply andb_false_iff in F. apply andb_false_iff.
        destruct (x_active y) eqn:AY; [right|left; reflexivity]. destruct F as [F|F]; [discriminate|].
        destruct (wf_active w W t j y T Y AY) as (IY & _).
        apply beq_neq. intros E. apply (probe_key id (x_id y) IY) in E. congruence. }
      assert (HX : x_active x && beq (x_id x) (key id) = true) by (rewrite AX, IK, beq_refl; reflexivity).
      clear - X FK HX. revert k X FK. induction t as [|y t IH]; intros k X FK; [destruct k; discriminate|].
      cbn [find]. destruct k as [|k].
      * cbn [nth_error] in X. assert (y = x) by congruence. subst. rewrite HX. reflexivity.
      * rewrite (FK 0%nat y ltac:(lia) eq_refl). apply (IH k X). intros j z J Z. apply (FK (S j) z); [lia|exact Z].
    + left. split; [congruence|left; congruence].
  - destruct (g_max w =? 0)%nat; left; (split; [congruence|]); [left; congruence|right; split; [congruence|left; reflexivity]].
Qed.

Lemma lookup_slot w id x : lookup w id = Some x -> exists t k, g_table w = Some t /\ nth_error t k = Some x /\ x_active x = true /\ x_id x = id.
Proof.
  unfold lookup. destruct (g_table w) as [t|]; [|discriminate]. intros F. apply find_some in F as (I & B).
  apply In_nth_error in I as (k & K). apply andb_true_iff in B as (B1 & B2). apply beq_eq in B2. exists t, k. auto.
Qed.

(** Updating the contents of one active session. *)
Lemma wf_update w t k x x' : wf w -> g_table w = Some t -> nth_error t k = Some x ->
  (x_active x' = true -> id_ok (x_id x') /\ exists c, x_conn x' = Some c) -> (x_active x' = false -> x_perms x' = None) ->
  wf (with_table w (update t k x')).
Proof.
  intros W T X A I. destruct W as [W1 W2 W3 W4]. constructor; unfold with_table; cbn [g_table g_init g_max].
  - split; [discriminate|]. intros G. apply W1 in G. congruence.
  - intros t' E. assert (t' = update t k x') by congruence. subst. rewrite update_length. apply W2, T.
  - intros t' j y E Y AY. assert (t' = update t k x') by congruence. subst t'.
    apply update_cases in Y; [|eauto]. destruct Y as [(-> & ->)|(NE & Y)]; [auto|eapply W3; eassumption].
  - intros t' j y E Y AY. assert (t' = update t k x') by congruence. subst t'.
    apply update_cases in Y; [|eauto]. destruct Y as [(-> & ->)|(NE & Y)]; [auto|eapply W4; eassumption].
Qed.

Lemma cleanup_length now t : length (cleanup now t) = length t.
Proof. apply map_length. Qed.
Lemma cleanup_nth now t k y : nth_error (cleanup now t) k = Some y ->
  exists x, nth_error t k = Some x /\
    (y = x /\ (x_active x = true -> now <= x_expires x) \/
     x_active x = true /\ x_expires x < now /\ y = mkSession (x_id x) None None (x_expires x) false).
Proof.
  unfold cleanup. intros H. rewrite nth_error_map in H. destruct (nth_error t k) as [x|]; [|discriminate].
  cbn [option_map] in H. exists x. split; [reflexivity|]. destruct (x_active x && (x_expires x <? now)) eqn:E.
  - right. apply andb_true_iff in E as (E1 & E2). apply Z.ltb_lt in E2. split; [exact E1|]. split; [exact E2|congruence].
  - left. split; [congruence|]. intros A. rewrite A in E. cbn [andb] in E. apply Z.ltb_ge in E. exact E.
Qed.
Lemma free_slot_spec t : forall i, match free_slot i t with
  | Some k => (i <= k)%nat /\ exists x, nth_error t (k - i) = Some x /\ x_active x = false
  | None => Forall (fun x => x_active x = true) t
  end.
Proof.
  induction t as [|x t IH]; intros i; cbn [free_slot]; [constructor|].
  destruct (x_active x) eqn:A.
  - specialize (IH (S i)). destruct (free_slot (S i) t) as [k|].
    + destruct IH as (L & y & Y & B). split; [lia|]. exists y. replace (k - i)%nat with (S (k - S i)) by lia. auto.
    + constructor; assumption.
  - split; [lia|]. exists x. rewrite Nat.sub_diag. auto.
Qed.

Lemma init_wf w alloc : wf w -> wf (fst (session_init w alloc)).
Proof.
  intros W. unfold session_init. destruct (g_init w) eqn:G; [exact W|]. destruct alloc; cbn [fst].
  - constructor; cbn [g_table g_init g_max].
    + split; discriminate.
    + intros t E. assert (H : t = repeat empty_session match g_config w with Some c => l_sessions c | None => 100%nat end) by congruence.
      rewrite H, repeat_length. reflexivity.
    + intros t k x E X A. assert (H : t = repeat empty_session match g_config w with Some c => l_sessions c | None => 100%nat end) by congruence.
      rewrite H in X. apply nth_error_In, repeat_spec in X. subst x. discriminate.
    + intros t k x E X A. assert (H : t = repeat empty_session match g_config w with Some c => l_sessions c | None => 100%nat end) by congruence.
      rewrite H in X. apply nth_error_In, repeat_spec in X. subst x. reflexivity.
  - constructor; cbn [g_table g_init g_max]; try discriminate. tauto.
Qed.

Lemma wf_rate w a b : wf w -> wf (with_rate w a b).
Proof. intros [A B C D]. constructor; cbn [with_rate g_table g_init g_max]; assumption. Qed.
Lemma wf_cleanup w t now : wf w -> g_table w = Some t -> wf (with_table w (cleanup now t)).
Proof.
  intros [A B C D] T. constructor; unfold with_table; cbn [g_table g_init g_max].
  - split; [discriminate|]. intros G. apply A in G. congruence.
  - intros t' E. assert (t' = cleanup now t) by congruence. subst. rewrite cleanup_length. apply B, T.
  - intros t' k x E X AX. assert (t' = cleanup now t) by congruence. subst.
    apply cleanup_nth in X as (y & Y & [(-> & _)|(_ & _ & ->)]); [eapply C; eassumption|discriminate].
  - intros t' k x E X AX. assert (t' = cleanup now t) by congruence. subst.
    apply cleanup_nth in X as (y & Y & [(-> & _)|(_ & _ & ->)]); [eapply D; eassumption|reflexivity].
Qed.

(** What a creation does, by outcome. *)
Lemma create_spec w alloc uri now now2 rnd w' r : wf w -> (match rnd with Some r => length r = 32%nat | None => True end) ->
  session_create w alloc uri now now2 rnd = (w', r) ->
  let w1 := if g_init w then w else fst (session_init w alloc) in
  let start := if 1 <=? now - g_window w1 then now else g_window w1 in
  let count := if 1 <=? now - g_window w1 then 0 else g_count w1 in
  wf w' /\ g_config w' = g_config w /\
  match uri with
  | Ok conn =>
    (10 <= count /\ w' = with_rate w1 start count /\ r = Err EInvalidParam) \/
    (count < 10 /\ g_window w' = start /\ g_count w' = count + 1 /\
     ((g_table w1 = None /\ g_table w' = None /\ (r = Err EMemory \/ r = Undef)) \/
      exists t, g_table w1 = Some t /\
       ((g_table w' = Some (cleanup now t) /\ r = Err EMemory) \/
        exists k x rb, nth_error (cleanup now t) k = Some x /\ x_active x = false /\ rnd = Some rb /\ r = Ok (hex_encode rb) /\
          g_table w' = Some (update (cleanup now t) k (mkSession (hex_encode rb) (Some conn) None (now2 + timeout_of (g_config w)) true)))))
  | Err e => w' = w1 /\ r = Err e
  | Undef => w' = w1 /\ r = Undef
  end.
Proof.
  intros W RL. unfold session_create. set (w1 := if g_init w then w else fst (session_init w alloc)).
  assert (W1 : wf w1) by (unfold w1; destruct (g_init w); [exact W|apply init_wf, W]).
  assert (C1 : g_config w1 = g_config w).
  { unfold w1, session_init. destruct (g_init w); [reflexivity|]. destruct alloc; reflexivity. }
  clearbody w1. destruct uri as [conn|e|]; cbv zeta.
  2:{ intros E. assert (w' = w1 /\ r = Err e) as (-> & ->) by (split; congruence). auto. }
  2:{ intros E. assert (w' = w1 /\ r = Undef) as (-> & ->) by (split; congruence). auto. }
  set (start := if 1 <=? now - g_window w1 then now else g_window w1).
  set (count := if 1 <=? now - g_window w1 then 0 else g_count w1).
  replace (if 1 <=? now - g_window w1 then (now, 0) else (g_window w1, g_count w1)) with (start, count)
    by (unfold start, count; destruct (1 <=? now - g_window w1); reflexivity).
  destruct (Z.leb_spec 10 count) as [L|L].
  { intros E. assert (w' = with_rate w1 start count /\ r = Err EInvalidParam) as (-> & ->) by (split; congruence).
    split; [apply wf_rate, W1|]. split; [exact C1|]. left. auto. }
  cbn [with_rate g_table g_max g_config].
  destruct (g_table w1) as [t|] eqn:T.
  2:{ intros E. assert (w' = with_rate (with_rate w1 start count) start (count + 1)) by congruence. subst w'.
      split; [apply wf_rate, wf_rate, W1|]. split; [exact C1|]. right. split; [exact L|]. split; [reflexivity|]. split; [reflexivity|].
      left. split; [reflexivity|]. split; [exact T|]. destruct (g_max w1 =? 0)%nat; [left|right]; congruence. }
  set (w2 := with_rate (with_rate w1 start count) start (count + 1)).
  assert (W2 : wf w2) by (apply wf_rate, wf_rate, W1). assert (T2 : g_table w2 = Some t) by exact T.
  assert (C2 : g_config w2 = g_config w) by exact C1.
  pose proof (free_slot_spec (cleanup now t) 0) as FS. destruct (free_slot 0 (cleanup now t)) as [k|].
  2:{ intros E. assert (w' = with_table w2 (cleanup now t) /\ r = Err EMemory) as (-> & ->) by (split; congruence).
      split; [apply wf_cleanup; assumption|]. split; [exact C2|]. right. split; [exact L|]. split; [reflexivity|]. split; [reflexivity|].
      right. exists t. split; [reflexivity|]. left. auto. }
  destruct FS as (_ & x & X & AX). rewrite Nat.sub_0_r in X.
  destruct rnd as [rb|].
  2:{ intros E. assert (w' = with_table w2 (cleanup now t) /\ r = Err EMemory) as (-> & ->) by (split; congruence).
      split; [apply wf_cleanup; assumption|]. split; [exact C2|]. right. split; [exact L|]. split; [reflexivity|]. split; [reflexivity|].
      right. exists t. split; [reflexivity|]. left. auto. }
  rewrite (nth_error_nth' _ k empty_session x X).
  pose proof (wf_cleanup w2 t now W2 T2) as WC.
  assert (PX : x_perms x = None) by (eapply (wf_idle _ WC); [reflexivity|exact X|exact AX]).
  rewrite PX. rewrite C1.
  intros E. assert (w' = with_table w2 (update (cleanup now t) k (mkSession (hex_encode rb) (Some conn) None (now2 + timeout_of (g_config w)) true)) /\ r = Ok (hex_encode rb)) as (-> & ->) by (split; unfold timeout_of; congruence).
  split; [|split; [exact C2|]].
  - change (with_table w2 (update (cleanup now t) k ?y)) with (with_table (with_table w2 (cleanup now t)) (update (cleanup now t) k y)).
    eapply (wf_update (with_table w2 (cleanup now t)) (cleanup now t) k x); [exact WC|reflexivity|exact X| |discriminate].
    intros _. cbn [x_id x_conn]. split; [apply hex_id_ok, RL|eauto].
  - right. split; [exact L|]. split; [reflexivity|]. split; [reflexivity|]. right. exists t. split; [reflexivity|]. right.
    exists k, x, rb. auto.
Qed.

(** The bodies of the other calls keep the id, and the connection while active. *)
Definition keeps {A} (f : session -> session * res A) : Prop :=
  forall x x' r, x_active x = true -> f x = (x', r) -> x_active x' = true -> x_id x' = x_id x /\ x_conn x' = x_conn x.
Definition clears {A} (f : session -> session * res A) : Prop :=
  forall x x' r, x_active x = true -> f x = (x', r) -> x_active x' = false -> x_perms x' = None.
Lemma on_session_wf {A} w id (f : session -> session * res A) w' r : wf w -> keeps f -> clears f -> on_session w id f = (w', r) -> wf w'.
Proof.
  intros W K C H. apply on_session_spec in H; [|exact W].
  destruct H as [(-> & _)|(t & k & x & x' & T & X & AX & I & F & -> & _)]; [exact W|].
  eapply wf_update; [exact W|exact T|exact X| |].
  - intros A'. destruct (K x x' r AX F A') as (E1 & E2). destruct (wf_active w W t k x T X AX) as (I1 & I2). rewrite E1, E2. auto.
  - intros A'. eapply C; eassumption.
Qed.

Lemma add_body_keeps (c : option limits) name limit interval now (alloc dup : bool) x x' (r : res unit) :
  (let maxp := match c with Some c => l_perms c | None => 32%nat end in
    let n := length (perm_list x) in
    if (maxp <=? n)%nat then (x, Err EMemory)
    else
      match (match x_perms x with Some a => Some a | None => if alloc then Some (maxp, []) else None end) with
      | None => (x, Err EMemory)
      | Some (cap, l) =>
        if (cap <=? n)%nat then (x, Undef)
        else (with_perms x (Some (cap, l ++ [mkPerm (if dup then Some name else None) limit (now + interval) interval 0])), Ok tt)
      end) = (x', r) ->
  x' = x /\ (r = Err EMemory \/ (r = Undef /\ exists cap, x_perms x = Some (cap, perm_list x) /\ (cap <= length (perm_list x) < perms_of c)%nat)
  ) \/
  r = Ok tt /\ (length (perm_list x) < perms_of c)%nat /\ exists cap, (x_perms x = Some (cap, perm_list x) \/ x_perms x = None /\ cap = perms_of c) /\
    (length (perm_list x) < cap)%nat /\
    x' = with_perms x (Some (cap, perm_list x ++ [mkPerm (if dup then Some name else None) limit (now + interval) interval 0])).
Proof.
  cbv zeta. fold (perms_of c). destruct (Nat.leb_spec (perms_of c) (length (perm_list x))) as [L|L].
  - intros E. left. split; [congruence|left; congruence].
  - unfold perm_list in *. destruct (x_perms x) as [(cap, l)|] eqn:P.
    + destruct (Nat.leb_spec cap (length l)) as [G|G]; intros E.
      * left. split; [congruence|]. right. split; [congruence|]. exists cap. auto.
      * right. split; [congruence|]. split; [exact L|]. exists cap. split; [left; reflexivity|]. split; [exact G|congruence].
    + cbn [length] in *. destruct alloc.
      * destruct (Nat.leb_spec (perms_of c) 0) as [G|G]; intros E; [lia|].
        right. split; [congruence|]. split; [exact L|]. exists (perms_of c). split; [right; auto|]. split; [exact G|congruence].
      * intros E. left. split; [congruence|left; congruence].
Qed.

Lemma call_wf w o w' a : wf w -> typed_op o -> call w o = (w', a) -> wf w'.
Proof.
  intros W T C. destruct o; cbn [call] in C; unfold lift in C.
  - assert (w' = fst (session_init w alloc)) by congruence. subst. apply init_wf, W.
  - destruct (session_create w alloc uri now now2 rnd) as (w2, r) eqn:E. assert (w' = w2) by (cbn [fst] in C; congruence). subst.
    eapply create_spec in E; [|exact W|destruct rnd; [apply T|exact I]]. apply E.
  - destruct (add_permission w id name limit interval now alloc dup) as (w2, r) eqn:E. assert (w' = w2) by (cbn [fst] in C; congruence). subst.
    eapply on_session_wf; [exact W| | |exact E].
    + intros x x' r' A F A'. apply add_body_keeps in F.
      destruct F as [(-> & _)|(_ & _ & cap & _ & _ & ->)]; auto.
    + intros x x' r' A F A'. apply add_body_keeps in F.
      destruct F as [(-> & _)|(_ & _ & cap & _ & _ & ->)]; [|cbn [with_perms x_active] in A']; congruence.
  - destruct (check_permission w id method amount now) as (w2, r) eqn:E. assert (w' = w2) by (cbn [fst] in C; congruence). subst.
    assert (G : forall x x' r, (if x_expires x <? now then (x, Err EInvalidParam)
       else match find_perm method 0 (perm_list x), x_perms x with
         | Undef, _ => (x, Undef)
         | Ok (Some k), Some (cap, l) =>
           let p := nth k l (mkPerm None 0 0 0 0) in
           let p := if p_reset p <? now then mkPerm (p_name p) (p_limit p) (now + p_interval p) (p_interval p) 0 else p in
           if (0 <? p_limit p) && (p_limit p <? u64 (p_used p + amount)) then
             (with_perms x (Some (cap, update l k p)), Err EInvalidParam)
           else
             (with_perms x (Some (cap, update l k (mkPerm (p_name p) (p_limit p) (p_reset p) (p_interval p) (u64 (p_used p + amount))))),
              Ok (k, p_reset p))
         | _, _ => (x, Err EInvalidParam)
         end) = (x', r) -> x' = x \/ exists p, x' = with_perms x p).
    { intros x x' r'. destruct (x_expires x <? now); [left; congruence|].
      destruct (find_perm method 0 (perm_list x)) as [[k|]|e|], (x_perms x) as [(cap, l)|]; try (left; congruence).
      cbv zeta. destruct (_ && _); intros F; right; eexists; symmetry; apply (f_equal fst F). }
    eapply on_session_wf; [exact W| | |exact E].
    + intros x x' r' A F A'. apply G in F. destruct F as [-> | (p & ->)]; auto.
    + intros x x' r' A F A'. apply G in F. destruct F as [-> | (p & ->)]; [|cbn [with_perms x_active] in A']; congruence.
  - destruct (get_connection w id now) as (w2, r) eqn:E. assert (w' = w2) by (cbn [fst] in C; congruence). subst.
    eapply on_session_wf; [exact W| | |exact E].
    + intros x x' r' A F A'. destruct (x_expires x <? now); assert (x' = x) by congruence; subst; auto.
    + intros x x' r' A F A'. destruct (x_expires x <? now); assert (x' = x) by congruence; subst; congruence.
  - destruct (session_extend w id secs) as (w2, r) eqn:E. assert (w' = w2) by (cbn [fst] in C; congruence). subst.
    eapply on_session_wf; [exact W| | |exact E].
    + intros x x' r' A F A'. assert (x' = mkSession (x_id x) (x_conn x) (x_perms x) (x_expires x + secs) (x_active x)) by congruence. subst. auto.
    + intros x x' r' A F A'. assert (x' = mkSession (x_id x) (x_conn x) (x_perms x) (x_expires x + secs) (x_active x)) by congruence. subst.
      cbn [x_active] in A'. congruence.
  - destruct (session_destroy w id) as (w2, r) eqn:E. assert (w' = w2) by (cbn [fst] in C; congruence). subst.
    eapply on_session_wf; [exact W| | |exact E].
    + intros x x' r' A F A'. assert (x' = mkSession (x_id x) None None (x_expires x) false) by congruence. subst. discriminate.
    + intros x x' r' A F A'. assert (x' = mkSession (x_id x) None None (x_expires x) false) by congruence. subst. reflexivity.
  - assert (w' = mkWorld (g_table w) (g_max w) (g_init w) (g_window w) (g_count w) c) by congruence. subst.
    destruct W as [W1 W2 W3 W4]. constructor; assumption.
Qed.

Lemma w0_wf : wf w0.
Proof. constructor; cbn; try discriminate. tauto. Qed.
Lemma run_wf h w : run h w -> typed h -> wf w.
Proof.
  induction 1 as [|h w o w' a R IH C U]; intros T; [apply w0_wf|].
  inversion T; subst. eapply call_wf; [apply IH; assumption|eassumption|exact C].
Qed.

(** ** History and state agree *)
Definition slot (w : world) (k : nat) (x : session) : Prop :=
  exists t, g_table w = Some t /\ nth_error t k = Some x /\ x_active x = true.
Definition rel (p : perm) (g : list N * Z * Z) : Prop :=
  (forall n, p_name p = Some n -> n = fst (fst g)) /\ p_limit p = snd (fst g) /\ p_interval p = snd g.

Record Sim (h : list entry) (w : world) : Prop := {
  s_cfg : config_of h = g_config w;
  s_size : table_size h = option_map (@length session) (g_table w);
  s_slot : forall k x, slot w k x -> In (x_id x) (created h) /\ expiry h (x_id x) = Some (x_expires x) /\
    conn_of h (x_id x) = x_conn x /\ Forall2 rel (perm_list x) (granted h (x_id x));
  s_dup : forall j k x y, slot w j x -> slot w k y -> x_id x = x_id y -> j = k;
  s_new : forall id, ~ In id (created h) -> granted h id = [] /\ expiry h id = None /\ forall k e, authorised h id k e = 0 }.

(** An entry that leaves the account of everyone as it was. *)
Definition neutral (e : entry) (h : list entry) : Prop :=
  created (e :: h) = created h /\ config_of (e :: h) = config_of h /\ table_size (e :: h) = table_size h.
Definition quiet (e : entry) (h : list entry) (id : list N) : Prop :=
  expiry (e :: h) id = expiry h id /\ granted (e :: h) id = granted h id /\ conn_of (e :: h) id = conn_of h id /\
  forall k n, authorised (e :: h) id k n = authorised h id k n.

Lemma sim_same h w e : Sim h w -> neutral e h -> (forall id, quiet e h id) -> Sim (e :: h) w.
Proof.
  intros [S1 S2 S3 S4 S5] (N1 & N2 & N3) Q. constructor.
  - congruence.
  - congruence.
  - intros k x X. destruct (Q (x_id x)) as (Q1 & Q2 & Q3 & _). rewrite N1, Q1, Q2, Q3. eapply S3; eassumption.
  - exact S4.
  - intros id NI. rewrite N1 in NI. destruct (Q id) as (Q1 & Q2 & Q3 & Q4). rewrite Q1, Q2.
    destruct (S5 id NI) as (P1 & P2 & P3). split; [exact P1|]. split; [exact P2|]. intros k n. rewrite Q4. apply P3.
Qed.

Lemma slot_update w t k x x' j y : g_table w = Some t -> nth_error t k = Some x ->
  slot (with_table w (update t k x')) j y -> (j = k /\ y = x' /\ x_active x' = true) \/ (j <> k /\ slot w j y).
Proof.
  intros T X (t' & E & Y & A). cbn [with_table g_table] in E. assert (t' = update t k x') by congruence. subst t'.
  apply update_cases in Y; [|eauto]. destruct Y as [(-> & ->)|(NE & Y)]; [left; auto|right]. split; [exact NE|]. exists t. auto.
Qed.

Lemma sim_touch h w e t k x x' : Sim h w -> g_table w = Some t -> nth_error t k = Some x -> x_active x = true ->
  neutral e h -> (forall id, id <> x_id x -> quiet e h id) ->
  (x_active x' = true -> x_id x' = x_id x /\ expiry (e :: h) (x_id x) = Some (x_expires x') /\
     conn_of (e :: h) (x_id x) = x_conn x' /\ Forall2 rel (perm_list x') (granted (e :: h) (x_id x))) ->
  Sim (e :: h) (with_table w (update t k x')).
Proof.
  intros S T X A (N1 & N2 & N3) Q F. pose proof S as [S1 S2 S3 S4 S5].
  assert (SX : slot w k x) by (exists t; auto).
  constructor.
  - cbn [with_table g_config]. congruence.
  - cbn [with_table g_table option_map]. rewrite N3, S2, T. cbn [option_map]. rewrite update_length. reflexivity.
  - intros j y Y. apply (slot_update w t k x) in Y; [|assumption..]. rewrite N1. destruct Y as [(-> & -> & AY)|(NE & Y)].
    + destruct (F AY) as (I & F1 & F2 & F3). rewrite I. destruct (S3 k x SX) as (C & _). auto.
    + assert (D : x_id y <> x_id x) by (intros D; apply NE, (S4 j k y x Y SX D)).
      destruct (Q _ D) as (Q1 & Q2 & Q3 & _). rewrite Q1, Q2, Q3. apply (S3 j y Y).
  - intros i j y z Y Z E. apply (slot_update w t k x) in Y; [|assumption..]. apply (slot_update w t k x) in Z; [|assumption..].
    destruct Y as [(-> & -> & AY)|(NY & Y)], Z as [(-> & -> & AZ)|(NZ & Z)]; [reflexivity| | |eapply S4; eassumption].
    + destruct (F AY) as (I & _). rewrite I in E. apply (S4 k j x z SX Z E).
    + destruct (F AZ) as (I & _). rewrite I in E. apply (S4 i k y x Y SX E).
  - intros id NI. rewrite N1 in NI.
    assert (D : id <> x_id x) by (intros ->; apply NI, (S3 k x SX)).
    destruct (Q id D) as (Q1 & Q2 & _ & Q4). destruct (S5 id NI) as (P1 & P2 & P3). rewrite Q1, Q2. repeat split; auto.
    intros j n. rewrite Q4. apply P3.
Qed.

Lemma nb a b : a <> b -> beq a b = false.
Proof. intros H. apply beq_neq. exact H. Qed.

(** What a permission check does to the session found. *)
Lemma check_body x method amount now x' r :
  (if x_expires x <? now then (x, Err EInvalidParam)
    else match find_perm method 0 (perm_list x), x_perms x with
         | Undef, _ => (x, Undef)
         | Ok (Some k), Some (cap, l) =>
           let p := nth k l (mkPerm None 0 0 0 0) in
           let p := if p_reset p <? now then mkPerm (p_name p) (p_limit p) (now + p_interval p) (p_interval p) 0 else p in
           if (0 <? p_limit p) && (p_limit p <? u64 (p_used p + amount)) then
             (with_perms x (Some (cap, update l k p)), Err EInvalidParam)
           else
             (with_perms x (Some (cap, update l k (mkPerm (p_name p) (p_limit p) (p_reset p) (p_interval p) (u64 (p_used p + amount))))),
              Ok (k, p_reset p))
         | _, _ => (x, Err EInvalidParam)
         end) = (x', r) ->
  (x' = x /\ (r = Err EInvalidParam \/ r = Undef)) \/
  exists k p cap l q, x_perms x = Some (cap, l) /\ nth_error l k = Some p /\ now <= x_expires x /\
    find_perm method 0 l = Ok (Some k) /\
    (q = p /\ now <= p_reset p \/ q = mkPerm (p_name p) (p_limit p) (now + p_interval p) (p_interval p) 0 /\ p_reset p < now) /\
    ((0 < p_limit p /\ p_limit p < u64 (p_used q + amount) /\ x' = with_perms x (Some (cap, update l k q)) /\ r = Err EInvalidParam) \/
     ((0 < p_limit p -> u64 (p_used q + amount) <= p_limit p) /\ r = Ok (k, p_reset q) /\
      x' = with_perms x (Some (cap, update l k (mkPerm (p_name p) (p_limit p) (p_reset q) (p_interval p) (u64 (p_used q + amount))))))).
Proof.
  assert (FP : forall l i k, find_perm method i l = Ok (Some k) -> exists p, nth_error l (k - i) = Some p /\ (i <= k)%nat).
  { induction l as [|p l IH]; intros i k; cbn [find_perm]; [discriminate|]. destruct (p_name p) as [n|]; [|discriminate].
    destruct (_ || _); intros E.
    - assert (i = k) by congruence. subst. rewrite Nat.sub_diag. exists p. split; [reflexivity|lia].
    - apply IH in E as (q & Q & L). exists q. replace (k - i)%nat with (S (k - S i)) by lia. split; [exact Q|lia]. }
  destruct (Z.ltb_spec (x_expires x) now) as [L|L]; [intros E; left; split; [congruence|left; congruence]|].
  unfold perm_list. destruct (x_perms x) as [(cap, l)|]; [|cbn [find_perm]; intros E; left; split; [congruence|left; congruence]].
  destruct (find_perm method 0 l) as [[k|]|e|] eqn:FK; try (intros E; left; split; [congruence|solve [left; congruence|right; congruence]]).
  destruct (FP l 0%nat k FK) as (p & P & _). rewrite Nat.sub_0_r in P. rewrite (nth_error_nth' l k _ p P). cbv zeta.
  set (q := if p_reset p <? now then mkPerm (p_name p) (p_limit p) (now + p_interval p) (p_interval p) 0 else p).
  assert (Q : (q = p /\ now <= p_reset p \/ q = mkPerm (p_name p) (p_limit p) (now + p_interval p) (p_interval p) 0 /\ p_reset p < now)).
  { unfold q. destruct (Z.ltb_spec (p_reset p) now); [right|left]; auto. }
  assert (QL : p_limit q = p_limit p /\ p_name q = p_name p /\ p_interval q = p_interval p) by (destruct Q as [(-> & _)|(-> & _)]; auto).
  destruct QL as (QL & QN & QI). clearbody q. rewrite QL, QN, QI. intros E. right. exists k, p, cap, l, q.
  split; [reflexivity|]. split; [exact P|]. split; [exact L|]. split; [exact FK|]. split; [exact Q|].
  destruct (Z.ltb_spec 0 (p_limit p)) as [G|G]; cbn [andb] in E.
  - destruct (Z.ltb_spec (p_limit p) (u64 (p_used q + amount))) as [M|M].
    + left. repeat split; auto; congruence.
    + right. split; [intros _; exact M|]. split; congruence.
  - right. split; [lia|]. split; congruence.
Qed.

Lemma Forall2_update {A B} (R : A -> B -> Prop) l m : Forall2 R l m -> forall k x y y', nth_error l k = Some y -> (forall z, R y z -> R y' z) -> x = y' -> Forall2 R (update l k x) m.
Proof.
  induction 1 as [|a b l m AB LM IH]; intros k x y y' N F E; subst; [destruct k; discriminate|].
  destruct k as [|k]; cbn [update nth_error] in *.
  - constructor; [|exact LM]. assert (a = y) by congruence. subst. auto.
  - constructor; [exact AB|]. eapply IH; [exact N|exact F|reflexivity].
Qed.
Lemma Forall2_nth {A B} (R : A -> B -> Prop) l m : Forall2 R l m -> forall k x, nth_error l k = Some x -> exists y, nth_error m k = Some y /\ R x y.
Proof. induction 1; intros [|k] z Z; cbn in *; try discriminate; eauto. assert (x = z) by congruence. subst. eauto. Qed.

Lemma rel_eq p q g : p_name q = p_name p -> p_limit q = p_limit p -> p_interval q = p_interval p -> rel p g -> rel q g.
Proof. unfold rel. intros -> -> ->. auto. Qed.

Ltac qt := repeat split; cbn [created config_of table_size expiry granted conn_of authorised now_of]; auto.

Lemma table_size_else h o a : (match o with OInit _ | OCreate _ _ _ _ _ => False | _ => True end) -> table_size ((o, a) :: h) = table_size h.
Proof. intros O. cbn [table_size]. destruct (table_size h); [reflexivity|]. destruct o; try contradiction; reflexivity. Qed.

Lemma slot_cleanup w t now k x : g_table w = Some t -> nth_error (cleanup now t) k = Some x -> x_active x = true -> slot w k x /\ now <= x_expires x.
Proof.
  intros T X A. apply cleanup_nth in X as (y & Y & [(-> & L)|(_ & _ & ->)]); [|discriminate]. split; [exists t; auto|auto].
Qed.

(** Sessions only disappear (creation that stores nothing). *)
Lemma sim_sub h w w' e : Sim h w -> created (e :: h) = created h -> config_of (e :: h) = g_config w' ->
  table_size (e :: h) = option_map (@length session) (g_table w') -> (forall id, quiet e h id) ->
  (forall k x, slot w' k x -> slot w k x) -> Sim (e :: h) w'.
Proof.
  intros [S1 S2 S3 S4 S5] N1 N2 N3 Q SUB. constructor; [exact N2|exact N3| | |].
  - intros k x X. destruct (Q (x_id x)) as (Q1 & Q2 & Q3 & _). rewrite N1, Q1, Q2, Q3. eapply S3, SUB, X.
  - intros j k x y X Y. apply S4; apply SUB; assumption.
  - intros id NI. rewrite N1 in NI. destruct (Q id) as (Q1 & Q2 & _ & Q4). rewrite Q1, Q2.
    destruct (S5 id NI) as (P1 & P2 & P3). repeat split; auto. intros k n. rewrite Q4. apply P3.
Qed.

Lemma init_slots w alloc k x : slot (fst (session_init w alloc)) k x -> slot w k x.
Proof.
  unfold session_init. destruct (g_init w); [auto|]. destruct alloc; cbn [fst]; intros (t & T & X & A); cbn [g_table] in T; [|discriminate].
  assert (H : t = repeat empty_session match g_config w with Some c => l_sessions c | None => 100%nat end) by congruence.
  rewrite H in X. apply nth_error_In, repeat_spec in X. subst x. discriminate.
Qed.
Lemma init_table w alloc h : wf w -> table_size h = option_map (@length session) (g_table w) -> config_of h = g_config w ->
  let w1 := if g_init w then w else fst (session_init w alloc) in
  option_map (@length session) (g_table w1) =
    match table_size h, alloc with Some n, _ => Some n | None, true => Some (sessions_of (config_of h)) | None, false => None end.
Proof.
  intros W S C. cbv zeta. destruct (g_init w) eqn:G.
  - destruct (g_table w) as [t|] eqn:T.
    + rewrite S. reflexivity.
    + apply (wf_none w W) in T. congruence.
  - apply (wf_none w W) in G as T. rewrite T in S. rewrite S. cbn [option_map].
    unfold session_init. rewrite G. destruct alloc; cbn [fst g_table option_map]; [|reflexivity].
    rewrite repeat_length, C. reflexivity.
Qed.

Lemma sim_create h w w1 t k x e id conn xp : Sim h w -> (forall j y, nth_error t j = Some y -> x_active y = true -> slot w j y) ->
  nth_error t k = Some x -> x_active x = false ->
  g_table w1 = Some (update t k (mkSession id (Some conn) None xp true)) ->
  created (e :: h) = id :: created h -> ~ In id (created h) ->
  config_of (e :: h) = g_config w1 -> table_size (e :: h) = Some (length t) ->
  (forall id', id' <> id -> quiet e h id') ->
  expiry (e :: h) id = Some xp -> conn_of (e :: h) id = Some conn -> granted (e :: h) id = granted h id ->
  Sim (e :: h) w1.
Proof.
  intros [S1 S2 S3 S4 S5] SUB X A T CR NI CF TS Q EX CN GR.
  assert (SL : forall j y, slot w1 j y -> (j = k /\ y = mkSession id (Some conn) None xp true) \/ (j <> k /\ slot w j y)).
  { intros j y (t' & T' & Y & AY). assert (t' = update t k (mkSession id (Some conn) None xp true)) by congruence. subst t'.
    apply update_cases in Y; [|eauto]. destruct Y as [(-> & ->)|(NE & Y)]; [left; auto|right; split; auto]. }
  constructor; [exact CF| | | |].
  - rewrite TS, T. cbn [option_map]. rewrite update_length. reflexivity.
  - intros j y Y. apply SL in Y. rewrite CR. destruct Y as [(-> & ->)|(NE & Y)].
    + cbn [x_id x_expires x_conn]. unfold perm_list. cbn [x_perms]. rewrite EX, CN, GR. destruct (S5 id NI) as (P & _). rewrite P.
      split; [left; reflexivity|]. auto.
    + destruct (S3 j y Y) as (P1 & P2). assert (D : x_id y <> id) by congruence.
      destruct (Q _ D) as (Q1 & Q2 & Q3 & _). rewrite Q1, Q2, Q3. split; [right; exact P1|exact P2].
  - intros i j y z Y Z E. apply SL in Y. apply SL in Z.
    destruct Y as [(-> & ->)|(NY & Y)], Z as [(-> & ->)|(NZ & Z)]; [reflexivity| | |eapply S4; eassumption].
    + exfalso. apply NI. cbn [x_id] in E. rewrite E. eapply S3; eassumption.
    + exfalso. apply NI. cbn [x_id] in E. rewrite <- E. eapply S3; eassumption.
  - intros id' NI'. rewrite CR in NI'. assert (D : id' <> id) by (intros ->; apply NI'; left; reflexivity).
    assert (NC : ~ In id' (created h)) by (intros C; apply NI'; right; exact C).
    destruct (Q id' D) as (Q1 & Q2 & _ & Q4). destruct (S5 id' NC) as (P1 & P2 & P3). rewrite Q1, Q2. repeat split; auto.
    intros j n. rewrite Q4. apply P3.
Qed.

Lemma step_sim h w o w' a : wf w -> Sim h w -> typed_op o -> call w o = (w', a) -> ~ undefined a -> fresh ((o, a) :: h) -> Sim ((o, a) :: h) w'.
Proof.
  intros W S T C U FR. pose proof S as [S1 S2 S3 S4 S5]. destruct o; cbn [call] in C; unfold lift in C.
  - (* init *)
    assert (w' = fst (session_init w alloc) /\ a = AUnit (snd (session_init w alloc))) as (E & ->) by (split; congruence).
    assert (IT := init_table w alloc h W S2 S1). cbv zeta in IT.
    assert (E' : w' = if g_init w then w else fst (session_init w alloc)).
    { rewrite E. unfold session_init. destruct (g_init w); reflexivity. }
    apply (sim_sub h w); [exact S|reflexivity| | |intros id; qt|].
    + cbn [config_of]. rewrite S1, E. unfold session_init. destruct (g_init w), alloc; reflexivity.
    + rewrite E', IT. cbn [table_size]. destruct (table_size h), alloc; reflexivity.
    + intros k x. rewrite E. apply init_slots.
  - (* create *)
    destruct (session_create w alloc uri now now2 rnd) as (w2, r) eqn:E. cbn [fst snd] in C.
    assert (w' = w2 /\ a = AId r) as (-> & ->) by (split; congruence). clear C.
    pose proof E as E0. apply create_spec in E; [|exact W|destruct rnd; [apply T|exact I]]. cbv zeta in E.
    set (w1 := if g_init w then w else fst (session_init w alloc)) in *.
    destruct E as (W' & CF & E).
    assert (TS := init_table w alloc h W S2 S1). cbv zeta in TS. fold w1 in TS.
    assert (TS' : forall r, table_size ((OCreate alloc uri now now2 rnd, AId r) :: h) = option_map (@length session) (g_table w1)).
    { intros r'. rewrite TS. cbn [table_size]. destruct (table_size h), alloc; reflexivity. }
    assert (SUB1 : forall k x, slot w1 k x -> slot w k x).
    { intros k x. unfold w1. destruct (g_init w); [auto|apply init_slots]. }
    assert (QE : forall r, (forall id, r <> Ok id) -> created ((OCreate alloc uri now now2 rnd, AId r) :: h) = created h /\ forall id, quiet (OCreate alloc uri now now2 rnd, AId r) h id).
    { intros r' NO. destruct r' as [id'|e|]; [exfalso; eapply NO; reflexivity| |]; (split; [reflexivity|]); intros id; qt; destruct uri; reflexivity. }
    assert (CF' : forall r, config_of ((OCreate alloc uri now now2 rnd, AId r) :: h) = g_config w2) by (intros; cbn [config_of]; congruence).
    destruct uri as [conn|e|].
    + destruct E as [(_ & -> & ->)|(_ & _ & _ & [(T1 & T2 & R)|(t & T1 & [(T2 & ->)|(k & x & rb & X & AX & -> & -> & T2)])])].
      * destruct (QE (Err EInvalidParam)) as (Q1 & Q2); [congruence|]. apply (sim_sub h w); auto.
      * assert (RN : forall id, r <> Ok id) by (destruct R; congruence). destruct (QE r RN) as (Q1 & Q2). apply (sim_sub h w); auto.
        -- rewrite T2, TS', T1. reflexivity.
        -- intros k x (t & T3 & _). congruence.
      * destruct (QE (Err EMemory)) as (Q1 & Q2); [congruence|]. apply (sim_sub h w); auto.
        -- rewrite T2, TS', T1. cbn [option_map]. rewrite cleanup_length. reflexivity.
        -- intros k x (t' & T3 & X & AX). assert (t' = cleanup now t) by congruence. subst. apply SUB1.
           eapply slot_cleanup; eassumption.
      * inversion FR as [|? ? NI ND]; subst.
        eapply (sim_create h w w2 (cleanup now t) k x _ (hex_encode rb) conn); [exact S| |exact X|exact AX|exact T2|reflexivity|exact NI|apply CF'| | | | |reflexivity].
        -- intros j y Y AY. apply SUB1. eapply slot_cleanup; eassumption.
        -- rewrite TS', T1. cbn [option_map]. rewrite cleanup_length. reflexivity.
        -- intros id' D. qt; rewrite nb by congruence; reflexivity.
        -- cbn [expiry]. rewrite beq_refl. rewrite S1. reflexivity.
        -- cbn [conn_of]. rewrite beq_refl. reflexivity.
    + destruct E as (-> & ->). destruct (QE (Err e)) as (Q1 & Q2); [congruence|]. apply (sim_sub h w); auto.
    + destruct E as (-> & ->). destruct (QE Undef) as (Q1 & Q2); [congruence|]. apply (sim_sub h w); auto.
  - (* add *)
    destruct (add_permission w id name limit interval now alloc dup) as (w2, r) eqn:E. cbn [fst snd] in C.
    assert (w' = w2 /\ a = AUnit r) as (-> & ->) by (split; congruence). clear C.
    assert (NT : neutral (OAdd id name limit interval now alloc dup, AUnit r) h).
    { split; [reflexivity|]. split; [reflexivity|apply table_size_else; exact I]. }
    apply on_session_spec in E; [|exact W]. destruct E as [(-> & R)|(t & k & x & x' & TT & X & A & I' & F & -> & _)].
    + apply sim_same; [exact S|exact NT|]. intros id'. destruct R as [-> |(-> & _)]; qt.
    + eapply sim_touch; [exact S|exact TT|exact X|exact A|exact NT| |].
      * intros id' D. destruct r as [[]|e|]; qt. rewrite nb; [reflexivity|congruence].
      * assert (SX : slot w k x) by (exists t; auto). destruct (S3 k x SX) as (_ & P2 & P3 & P4).
        intros AX'. apply add_body_keeps in F. destruct F as [(-> & R)|(-> & _ & cap & _ & _ & ->)].
        -- split; [reflexivity|]. destruct R as [-> |(-> & _)]; cbn [expiry granted conn_of]; auto.
        -- cbn [with_perms x_id x_expires x_conn expiry granted conn_of]. unfold perm_list at 1. cbn [with_perms x_perms].
           rewrite <- I', beq_refl. repeat split; auto. apply Forall2_app; [exact P4|]. constructor; [|constructor].
           split; [|split; reflexivity]. cbn [p_name fst]. destruct dup; congruence.
  - (* check *)
    destruct (check_permission w id method amount now) as (w2, r) eqn:E. cbn [fst snd] in C.
    assert (w' = w2 /\ a = ACharge r) as (-> & ->) by (split; congruence). clear C.
    assert (NT : neutral (OCheck id method amount now, ACharge r) h).
    { split; [reflexivity|]. split; [reflexivity|apply table_size_else; exact I]. }
    apply on_session_spec in E; [|exact W]. destruct E as [(-> & R)|(t & k & x & x' & TT & X & A & I' & F & -> & _)].
    + apply sim_same; [exact S|exact NT|]. intros id'. destruct R as [-> |(-> & _)]; qt.
    + eapply sim_touch; [exact S|exact TT|exact X|exact A|exact NT| |].
      * intros id' D. destruct r as [(k1 & e1)|e|]; qt. intros k2 e2. rewrite nb by congruence. reflexivity.
      * assert (SX : slot w k x) by (exists t; auto). destruct (S3 k x SX) as (_ & P2 & P3 & P4).
        intros AX'. apply check_body in F.
        assert (GR : granted ((OCheck id method amount now, ACharge r) :: h) (x_id x) = granted h (x_id x)) by reflexivity.
        cbn [granted expiry conn_of]. split; [|split; [|split]].
        -- destruct F as [(-> & _)|(k1 & p & cap & l & q & _ & _ & _ & _ & _ & [(_ & _ & -> & _)|(_ & _ & ->)])]; reflexivity.
        -- cbn [expiry]. destruct F as [(-> & _)|(k1 & p & cap & l & q & _ & _ & _ & _ & _ & [(_ & _ & -> & _)|(_ & _ & ->)])]; exact P2.
        -- cbn [conn_of]. destruct F as [(-> & _)|(k1 & p & cap & l & q & _ & _ & _ & _ & _ & [(_ & _ & -> & _)|(_ & _ & ->)])]; exact P3.
        -- destruct F as [(-> & _)|(k1 & p & cap & l & q & PX & PK & _ & _ & Q & Z)]; [exact P4|].
           unfold perm_list in P4. rewrite PX in P4.
           destruct Z as [(_ & _ & -> & _)|(_ & _ & ->)]; unfold perm_list; cbn [with_perms x_perms];
             (eapply Forall2_update; [exact P4|exact PK| |reflexivity]); intros g G; eapply rel_eq; [| | |exact G| | | |exact G];
             destruct Q as [(-> & _)|(-> & _)]; reflexivity.
  - (* conn *)
    destruct (get_connection w id now) as (w2, r) eqn:E. cbn [fst snd] in C.
    assert (w' = w2 /\ a = AConn r) as (-> & ->) by (split; congruence). clear C.
    assert (NT : neutral (OConn id now, AConn r) h).
    { split; [reflexivity|]. split; [reflexivity|apply table_size_else; exact I]. }
    apply on_session_spec in E; [|exact W]. destruct E as [(-> & R)|(t & k & x & x' & TT & X & A & I' & F & -> & _)].
    + apply sim_same; [exact S|exact NT|]. intros id'. qt.
    + assert (x' = x) by (destruct (x_expires x <? now); congruence). subst x'.
      eapply sim_touch; [exact S|exact TT|exact X|exact A|exact NT| |].
      * intros id' D. qt.
      * assert (SX : slot w k x) by (exists t; auto). destruct (S3 k x SX) as (_ & P2 & P3 & P4). intros _. qt.
  - (* extend *)
    destruct (session_extend w id secs) as (w2, r) eqn:E. cbn [fst snd] in C.
    assert (w' = w2 /\ a = AUnit r) as (-> & ->) by (split; congruence). clear C.
    assert (NT : neutral (OExtend id secs, AUnit r) h).
    { split; [reflexivity|]. split; [reflexivity|apply table_size_else; exact I]. }
    apply on_session_spec in E; [|exact W]. destruct E as [(-> & R)|(t & k & x & x' & TT & X & A & I' & F & -> & _)].
    + apply sim_same; [exact S|exact NT|]. intros id'. destruct R as [-> |(-> & _)]; qt.
    + assert (F1 : x' = mkSession (x_id x) (x_conn x) (x_perms x) (x_expires x + secs) (x_active x)) by congruence.
      assert (F2 : r = Ok tt) by congruence. subst x' r.
      eapply sim_touch; [exact S|exact TT|exact X|exact A|exact NT| |].
      * intros id' D. qt. rewrite nb by congruence. reflexivity.
      * assert (SX : slot w k x) by (exists t; auto). destruct (S3 k x SX) as (_ & P2 & P3 & P4). intros _.
        cbn [x_id x_expires x_conn expiry granted conn_of]. rewrite <- I', beq_refl, P2. repeat split; auto.
  - (* destroy *)
    destruct (session_destroy w id) as (w2, r) eqn:E. cbn [fst snd] in C.
    assert (w' = w2 /\ a = AUnit r) as (-> & ->) by (split; congruence). clear C.
    assert (NT : neutral (ODestroy id, AUnit r) h).
    { split; [reflexivity|]. split; [reflexivity|apply table_size_else; exact I]. }
    apply on_session_spec in E; [|exact W]. destruct E as [(-> & R)|(t & k & x & x' & TT & X & A & I' & F & -> & _)].
    + apply sim_same; [exact S|exact NT|]. intros id'. destruct R as [-> |(-> & _)]; qt.
    + assert (F1 : x' = mkSession (x_id x) None None (x_expires x) false) by congruence.
      assert (F2 : r = Ok tt) by congruence. subst x' r.
      eapply sim_touch; [exact S|exact TT|exact X|exact A|exact NT| |discriminate].
      intros id' D. qt. rewrite nb by congruence. reflexivity.
  - (* configuration *)
    assert (w' = mkWorld (g_table w) (g_max w) (g_init w) (g_window w) (g_count w) c) by congruence.
    assert (a = AUnit (Ok tt)) by congruence. subst w' a.
    apply (sim_sub h w); [exact S|reflexivity|reflexivity| |intros id; qt|auto].
    rewrite table_size_else by exact I. exact S2.
Qed.

Lemma sim0 : Sim [] w0.
Proof. constructor; cbn; try reflexivity; try (intros; destruct H as (t & T & _); discriminate). auto. Qed.
Lemma fresh_tail e h : fresh (e :: h) -> fresh h.
Proof. unfold fresh. destruct e as ([], a); cbn [created]; auto. destruct a as [| [] | |]; auto. intros N. inversion N; auto. Qed.
Lemma run_sim h w : run h w -> typed h -> fresh h -> Sim h w.
Proof.
  induction 1 as [|h w o w' a R IH C U]; intros T F; [apply sim0|].
  inversion T as [|? ? T1 T2]; subst. pose proof (fresh_tail _ _ F). eapply step_sim; eauto. eapply run_wf; eauto.
Qed.

(** ** Accounting *)
Lemma F2_length {A B} (R : A -> B -> Prop) l m : Forall2 R l m -> length l = length m.
Proof. induction 1; cbn; congruence. Qed.

Record Acc (h : list entry) (w : world) : Prop := {
  a_slot : forall k x, slot w k x -> forall j p, nth_error (perm_list x) j = Some p -> 0 < p_limit p ->
    0 <= p_used p <= p_limit p /\ p_used p = authorised h (x_id x) j (p_reset p) /\
    forall e, p_reset p < e -> authorised h (x_id x) j e = 0;
  a_none : forall id j e, (length (granted h id) <= j)%nat -> authorised h id j e = 0;
  a_bound : forall id j g, nth_error (granted h id) j = Some g -> 0 < snd (fst g) -> forall e, authorised h id j e <= snd (fst g) }.

Lemma granted_in h id g : In g (granted h id) -> In (snd (fst g)) (limits_of h).
Proof.
  induction h as [|(o, a) h IH]; [contradiction|]. intros I. unfold limits_of in *. cbn [flat_map fst]. apply in_or_app.
  destruct o; cbn [granted] in I; try (right; exact (IH I)).
  destruct a as [[[]|e|]| | |]; try (right; exact (IH I)).
  destruct (beq (key id0) id); [|right; exact (IH I)].
  apply in_app_or in I as [I|[<-|[]]]; [right; exact (IH I)|left; left; reflexivity].
Qed.
Lemma granted_typed h id g : typed h -> In g (granted h id) -> 0 <= snd (fst g) < 2 ^ 64 /\ 0 <= snd g < 2 ^ 32.
Proof.
  induction h as [|(o, a) h IH]; [contradiction|]. intros T I. inversion T as [|? ? T1 T2]; subst.
  destruct o; cbn [granted] in I; try exact (IH T2 I).
  destruct a as [[[]|e|]| | |]; try exact (IH T2 I).
  destruct (beq (key id0) id); [|exact (IH T2 I)].
  apply in_app_or in I as [I|[<-|[]]]; [exact (IH T2 I)|exact T1].
Qed.
Lemma no_wrap_tail e h : no_wrap (e :: h) -> no_wrap h.
Proof. intros N a l A L. apply N; unfold amounts_of, limits_of; cbn [flat_map]; apply in_or_app; right; assumption. Qed.

Lemma acc_sub h w w' e : Acc h w -> (forall id, granted (e :: h) id = granted h id /\ forall k n, authorised (e :: h) id k n = authorised h id k n) ->
  (forall k x, slot w' k x -> slot w k x \/ perm_list x = []) -> Acc (e :: h) w'.
Proof.
  intros [A1 A2 A3] Q SUB. constructor.
  - intros k x X j p P L. destruct (SUB k x X) as [Y|Y]; [|rewrite Y in P; destruct j; discriminate].
    destruct (A1 k x Y j p P L) as (B1 & B2 & B3). destruct (Q (x_id x)) as (_ & Q2). rewrite Q2. repeat split; try tauto.
    intros n N. rewrite Q2. auto.
  - intros id j n. destruct (Q id) as (-> & ->). apply A2.
  - intros id j g. destruct (Q id) as (-> & Q2). intros G L n. rewrite Q2. apply (A3 id j g G L).
Qed.

Lemma step_acc h w o w' a : wf w -> Sim h w -> Acc h w -> typed h -> typed_op o -> call w o = (w', a) -> ~ undefined a ->
  fresh ((o, a) :: h) -> no_wrap ((o, a) :: h) -> Acc ((o, a) :: h) w'.
Proof.
  intros W S AC TH T C U FR NW. pose proof S as [S1 S2 S3 S4 S5]. destruct o; cbn [call] in C; unfold lift in C.
  - assert (w' = fst (session_init w alloc)) by congruence. subst w'.
    eapply acc_sub; [exact AC|intros id; split; reflexivity|]. intros k x X. left. eapply init_slots, X.
  - destruct (session_create w alloc uri now now2 rnd) as (w2, r) eqn:E. cbn [fst snd] in C.
    assert (w' = w2 /\ a = AId r) as (-> & ->) by (split; congruence). clear C.
    apply create_spec in E; [|exact W|destruct rnd; [apply T|exact I]]. cbv zeta in E.
    set (w1 := if g_init w then w else fst (session_init w alloc)) in *. destruct E as (_ & _ & E).
    assert (SUB1 : forall k x, slot w1 k x -> slot w k x).
    { intros k x. unfold w1. destruct (g_init w); [auto|apply init_slots]. }
    eapply acc_sub; [exact AC|intros id; split; reflexivity|]. intros j y Y.
    destruct uri as [conn|e|].
    + destruct E as [(_ & -> & _)|(_ & _ & _ & [(T1 & T2 & R)|(t & T1 & [(T2 & _)|(k & x & rb & X & AX & _ & _ & T2)])])].
      * left. apply SUB1. exact Y.
      * destruct Y as (t & T3 & _). congruence.
      * left. apply SUB1. destruct Y as (t' & T3 & Y & AY). assert (t' = cleanup now t) by congruence. subst. eapply slot_cleanup; eassumption.
      * destruct Y as (t' & T3 & Y & AY). assert (t' = update (cleanup now t) k (mkSession (hex_encode rb) (Some conn) None (now2 + timeout_of (g_config w)) true)) by congruence. subst t'.
        apply update_cases in Y; [|eauto]. destruct Y as [(-> & ->)|(NE & Y)]; [right; reflexivity|left].
        apply SUB1. eapply slot_cleanup; eassumption.
    + destruct E as (-> & _). auto.
    + destruct E as (-> & _). auto.
  - (* add *)
    destruct (add_permission w id name limit interval now alloc dup) as (w2, r) eqn:E. cbn [fst snd] in C.
    assert (w' = w2 /\ a = AUnit r) as (-> & ->) by (split; congruence). clear C.
    apply on_session_spec in E; [|exact W]. destruct E as [(-> & R)|(t & k & x & x' & TT & X & A & I' & F & -> & _)].
    + eapply acc_sub; [exact AC| |auto]. intros id'. destruct R as [-> |(-> & _)]; split; reflexivity.
    + assert (SX : slot w k x) by (exists t; auto). destruct (S3 k x SX) as (CR & P2 & P3 & P4).
      apply add_body_keeps in F. destruct F as [(-> & R)|(-> & _ & cap & _ & _ & ->)].
      * eapply acc_sub; [exact AC| |].
        -- intros id'. destruct R as [-> |(-> & _)]; split; reflexivity.
        -- intros j y Y. left. apply (slot_update w t k x) in Y; [|assumption..].
           destruct Y as [(-> & -> & _)|(_ & Y)]; assumption.
      * destruct AC as [A1 A2 A3]. constructor.
        -- intros j y Y i p P L. cbn [authorised]. apply (slot_update w t k x) in Y; [|assumption..].
           destruct Y as [(-> & -> & _)|(_ & Y)]; [|apply (A1 j y Y i p P L)].
           cbn [with_perms x_id]. unfold perm_list in P at 1. cbn [with_perms x_perms] in P.
           destruct (lt_dec i (length (perm_list x))) as [LI|LI].
           ++ rewrite nth_error_app1 in P by exact LI. apply (A1 k x SX i p P L).
           ++ rewrite nth_error_app2 in P by lia. destruct (i - length (perm_list x))%nat as [|m] eqn:M; [|destruct m; discriminate].
              cbn [nth_error] in P. assert (p = mkPerm (if dup then Some name else None) limit (now + interval) interval 0) by congruence. subst p.
              cbn [p_used p_limit p_reset] in *. apply F2_length in P4.
              rewrite A2 by lia. repeat split; try lia. intros e _. apply A2. lia.
        -- intros id' j e. cbn [granted authorised]. destruct (beq (key id) id'); [rewrite app_length; cbn [length]|]; intros L; apply A2; lia.
        -- intros id' j g G L e. cbn [granted authorised] in *. destruct (beq (key id) id') eqn:B; [|apply (A3 id' j g G L)].
           destruct (lt_dec j (length (granted h id'))) as [LJ|LJ].
           ++ rewrite nth_error_app1 in G by exact LJ. apply (A3 id' j g G L).
           ++ rewrite A2 by lia. lia.
  - (* check *)
    destruct (check_permission w id method amount now) as (w2, r) eqn:E. cbn [fst snd] in C.
    assert (w' = w2 /\ a = ACharge r) as (-> & ->) by (split; congruence). clear C.
    apply on_session_spec in E; [|exact W]. destruct E as [(-> & R)|(t & k & x & x' & TT & X & A & I' & F & -> & _)].
    + eapply acc_sub; [exact AC| |auto]. intros id'. destruct R as [-> |(-> & _)]; split; reflexivity.
    + assert (SX : slot w k x) by (exists t; auto). destruct (S3 k x SX) as (CR & P2 & P3 & P4).
      apply check_body in F. destruct F as [(-> & R)|(i & p & cap & l & q & PX & PK & EX & FP & Q & Z)].
      { eapply acc_sub; [exact AC| |].
        - intros id'. destruct R as [-> | ->]; split; reflexivity.
        - intros j y Y. left. apply (slot_update w t k x) in Y; [|assumption..]. destruct Y as [(-> & -> & _)|(_ & Y)]; assumption. }
      assert (PL : perm_list x = l) by (unfold perm_list; rewrite PX; reflexivity).
      destruct AC as [A1 A2 A3].
      destruct (Forall2_nth _ _ _ P4 i p ltac:(rewrite PL; exact PK)) as (g & G & RG).
      destruct RG as (_ & RL & RI).
      assert (GT := granted_typed h (x_id x) g TH (nth_error_In _ _ G)). destruct GT as (GT1 & GT2).
      (* the permission after any window reset *)
      assert (QF : 0 < p_limit p -> 0 <= p_used q <= p_limit p /\ p_used q = authorised h (x_id x) i (p_reset q) /\
                   forall e, p_reset q < e -> authorised h (x_id x) i e = 0).
      { intros L. destruct (A1 k x SX i p ltac:(rewrite PL; exact PK) L) as (B1 & B2 & B3).
        destruct Q as [(-> & _)|(-> & LT)]; [auto|]. cbn [p_used p_reset].
        split; [lia|]. split; [|intros e LE; apply B3; lia]. rewrite B3; [reflexivity|lia]. }
      assert (QN : p_limit q = p_limit p) by (destruct Q as [(-> & _)|(-> & _)]; reflexivity).
      destruct Z as [(L & LT & -> & ->)|(LT & -> & ->)].
      * constructor.
        -- intros j y Y n p' P L'. cbn [authorised]. apply (slot_update w t k x) in Y; [|assumption..].
           destruct Y as [(-> & -> & _)|(_ & Y)]; [|apply (A1 j y Y n p' P L')].
           cbn [with_perms x_id]. unfold perm_list in P. cbn [with_perms x_perms] in P.
           apply update_cases in P; [|eauto]. destruct P as [(-> & ->)|(NE & P)].
           ++ rewrite QN. apply QF. congruence.
           ++ apply (A1 k x SX n p'); [rewrite PL; exact P|exact L'].
        -- exact A2.
        -- exact A3.
      * assert (NWA : 0 < p_limit p -> u64 (p_used q + amount) = p_used q + amount /\ p_used q + amount <= p_limit p).
        { intros L. destruct (QF L) as (B1 & _).
          assert (NN : amount + p_limit p < 2 ^ 64).
          { apply NW; unfold amounts_of, limits_of; cbn [flat_map fst]; [left; reflexivity|].
            cbn [app]. rewrite RL. apply (granted_in h (x_id x)). eapply nth_error_In, G. }
          cbn [typed_op] in T.
          assert (E : u64 (p_used q + amount) = p_used q + amount) by (unfold u64; apply Z.mod_small; lia).
          split; [exact E|]. specialize (LT L). lia. }
        assert (AU : forall j e, authorised ((OCheck id method amount now, ACharge (Ok (i, p_reset q))) :: h) (x_id x) j e =
                      (if (i =? j)%nat && (p_reset q =? e) then amount else 0) + authorised h (x_id x) j e).
        { intros j e. cbn [authorised]. rewrite <- I', beq_refl. reflexivity. }
        assert (AO : forall id', id' <> x_id x -> forall j e, authorised ((OCheck id method amount now, ACharge (Ok (i, p_reset q))) :: h) id' j e = authorised h id' j e).
        { intros id' D j e. cbn [authorised]. rewrite nb by congruence. reflexivity. }
        constructor.
        -- intros j y Y n p' P L'. apply (slot_update w t k x) in Y; [|assumption..].
           destruct Y as [(-> & -> & _)|(NE & Y)].
           2:{ assert (D : x_id y <> x_id x) by (intros D; apply NE, (S4 j k y x Y SX D)).
               destruct (A1 j y Y n p' P L') as (B1 & B2 & B3). rewrite AO by exact D. repeat split; try tauto.
               intros e LE. rewrite AO by exact D. auto. }
           cbn [with_perms x_id]. unfold perm_list in P. cbn [with_perms x_perms] in P.
           apply update_cases in P; [|eauto]. destruct P as [(-> & ->)|(NE & P)].
           ++ cbn [p_limit p_used p_reset] in *. destruct (QF L') as (B1 & B2 & B3). destruct (NWA L') as (N1 & N2).
              cbn [typed_op] in T. rewrite N1. split; [lia|]. split.
              ** rewrite AU, Nat.eqb_refl, Z.eqb_refl. cbn [andb]. lia.
              ** intros e LE. rewrite AU. replace (p_reset q =? e) with false by (symmetry; apply Z.eqb_neq; lia).
                 rewrite andb_false_r. rewrite B3 by exact LE. reflexivity.
           ++ destruct (A1 k x SX n p' ltac:(rewrite PL; exact P) L') as (B1 & B2 & B3).
              assert (AU' : forall e, authorised ((OCheck id method amount now, ACharge (Ok (i, p_reset q))) :: h) (x_id x) n e = authorised h (x_id x) n e).
              { intros e. rewrite AU. replace (i =? n)%nat with false by (symmetry; apply Nat.eqb_neq; lia). reflexivity. }
              rewrite AU'. repeat split; try tauto. intros e LE. rewrite AU'. auto.
        -- intros id' j e L'. cbn [granted] in L'.
           destruct (list_eq_dec N.eq_dec id' (x_id x)) as [->|D]; [|rewrite AO by exact D; apply A2, L'].
           assert (i < length (granted h (x_id x)))%nat by (apply nth_error_Some; congruence).
           rewrite AU. replace (i =? j)%nat with false by (symmetry; apply Nat.eqb_neq; lia). apply A2, L'.
        -- intros id' j g' G' L' e. cbn [granted] in G'.
           destruct (list_eq_dec N.eq_dec id' (x_id x)) as [->|D]; [|rewrite AO by exact D; apply (A3 id' j g' G' L')].
           rewrite AU. destruct (Nat.eqb_spec i j) as [->|NE]; [|apply (A3 _ j g' G' L')].
           destruct (Z.eqb_spec (p_reset q) e) as [<-|NE]; [|apply (A3 _ j g' G' L')]. cbn [andb].
           assert (g' = g) by congruence. subst g'.
           destruct (QF ltac:(lia)) as (B1 & B2 & B3). destruct (NWA ltac:(lia)) as (N1 & N2). lia.
  - destruct (get_connection w id now) as (w2, r) eqn:E. cbn [fst snd] in C.
    assert (w' = w2 /\ a = AConn r) as (-> & ->) by (split; congruence). clear C.
    apply on_session_spec in E; [|exact W]. destruct E as [(-> & R)|(t & k & x & x' & TT & X & A & I' & F & -> & _)].
    + eapply acc_sub; [exact AC|intros; split; reflexivity|auto].
    + assert (x' = x) by (destruct (x_expires x <? now); congruence). subst x'.
      eapply acc_sub; [exact AC|intros; split; reflexivity|].
      intros j y Y. left. apply (slot_update w t k x) in Y; [|assumption..]. destruct Y as [(-> & -> & _)|(_ & Y)]; [exists t|]; auto.
  - destruct (session_extend w id secs) as (w2, r) eqn:E. cbn [fst snd] in C.
    assert (w' = w2 /\ a = AUnit r) as (-> & ->) by (split; congruence). clear C.
    apply on_session_spec in E; [|exact W]. destruct E as [(-> & R)|(t & k & x & x' & TT & X & A & I' & F & -> & _)].
    + eapply acc_sub; [exact AC| |auto]. intros id'. split; reflexivity.
    + assert (F1 : x' = mkSession (x_id x) (x_conn x) (x_perms x) (x_expires x + secs) (x_active x)) by congruence. subst x'.
      assert (SX : slot w k x) by (exists t; auto). destruct AC as [A1 A2 A3]. constructor; [|exact A2|exact A3].
      intros j y Y i p P L. cbn [authorised]. apply (slot_update w t k x) in Y; [|assumption..].
      destruct Y as [(-> & -> & _)|(_ & Y)]; [|apply (A1 j y Y i p P L)]. apply (A1 k x SX i p P L).
  - destruct (session_destroy w id) as (w2, r) eqn:E. cbn [fst snd] in C.
    assert (w' = w2 /\ a = AUnit r) as (-> & ->) by (split; congruence). clear C.
    apply on_session_spec in E; [|exact W]. destruct E as [(-> & R)|(t & k & x & x' & TT & X & A & I' & F & -> & _)].
    + eapply acc_sub; [exact AC| |auto]. intros id'. split; reflexivity.
    + assert (F1 : x' = mkSession (x_id x) None None (x_expires x) false) by congruence. subst x'.
      eapply acc_sub; [exact AC|intros; split; reflexivity|].
      intros j y Y. left. apply (slot_update w t k x) in Y; [|assumption..]. destruct Y as [(_ & _ & N)|(_ & Y)]; [discriminate|exact Y].
  - assert (w' = mkWorld (g_table w) (g_max w) (g_init w) (g_window w) (g_count w) c) by congruence. subst w'.
    eapply acc_sub; [exact AC|intros; split; reflexivity|auto].
Qed.

Lemma acc0 : Acc [] w0.
Proof. constructor; cbn; try reflexivity; try (intros; destruct H as (t & T & _); discriminate). intros id j g N. destruct j; discriminate. Qed.
Lemma run_acc h w : run h w -> typed h -> fresh h -> no_wrap h -> Acc h w.
Proof.
  induction 1 as [|h w o w' a R IH C U]; intros T F NW; [apply acc0|].
  inversion T as [|? ? T1 T2]; subst. pose proof (fresh_tail _ _ F). pose proof (no_wrap_tail _ _ NW).
  eapply step_acc; eauto; [eapply run_wf|eapply run_sim]; eauto.
Qed.

(** ** The rate limiter *)
Record Rate (h : list entry) (w : world) : Prop := {
  r_ahead : forall s, g_window w < s -> created_at h s = 0;
  r_now : forall s, (match latest h with Some l => l <= s | None => True end) -> created_at h s <= g_count w;
  r_count : 0 <= g_count w <= 10;
  r_all : forall s, created_at h s <= 10 }.

Lemma rate_same h w w' e : Rate h w -> g_window w' = g_window w -> g_count w' = g_count w ->
  (forall s, created_at (e :: h) s = created_at h s) ->
  (forall s, (match latest (e :: h) with Some l => l <= s | None => True end) -> (match latest h with Some l => l <= s | None => True end)) -> Rate (e :: h) w'.
Proof.
  intros [R1 R2 R3 R4] E1 E2 C L. constructor; rewrite ?E1, ?E2; [|  |exact R3|]; intros s; rewrite C.
  - apply R1.
  - intros H. apply R2, L, H.
  - apply R4.
Qed.

Lemma on_session_rate {A} w id (f : session -> session * res A) w' r : on_session w id f = (w', r) -> g_window w' = g_window w /\ g_count w' = g_count w.
Proof.
  unfold on_session. destruct (find_session w id) as [[k|]|e|]; try (intros E; assert (w' = w) by congruence; subst; auto).
  destruct (g_table w) as [t|]; [|intros E; assert (w' = w) by congruence; subst; auto].
  destruct (f _) as (x, r'). intros E. assert (w' = with_table w (update t k x)) by congruence. subst. auto.
Qed.

Lemma step_rate h w o w' a : wf w -> Rate h w -> typed_op o -> call w o = (w', a) -> ~ undefined a -> clock_ok ((o, a) :: h) -> Rate ((o, a) :: h) w'.
Proof.
  intros W R T C U CK. destruct o; cbn [call] in C; unfold lift in C.
  - assert (w' = fst (session_init w alloc)) by congruence. subst w'.
    eapply rate_same; [exact R| | |reflexivity|auto]; unfold session_init; destruct (g_init w), alloc; reflexivity.
  - destruct (session_create w alloc uri now now2 rnd) as (w2, r) eqn:E. cbn [fst snd] in C.
    assert (w' = w2 /\ a = AId r) as (-> & ->) by (split; congruence). clear C.
    apply create_spec in E; [|exact W|destruct rnd; [apply T|exact I]]. cbv zeta in E.
    set (w1 := if g_init w then w else fst (session_init w alloc)) in *. destruct E as (_ & _ & E).
    assert (RW : g_window w1 = g_window w /\ g_count w1 = g_count w).
    { unfold w1, session_init. destruct (g_init w); [auto|]. destruct alloc; auto. }
    destruct RW as (RW & RC). rewrite RW, RC in E. cbn [clock_ok] in CK. destruct CK as (CK & _).
    assert (LT : forall s, (match latest ((OCreate alloc uri now now2 rnd, AId r) :: h) with Some l => l <= s | None => True end) -> match latest h with Some l => l <= s | None => True end).
    { intros s. cbn [latest]. destruct (latest h); [lia|auto]. }
    pose proof R as [R1 R2 R3 R4].
    destruct uri as [conn|e|].
    2:{ destruct E as (-> & ->). eapply rate_same; [exact R|exact RW|exact RC|reflexivity|exact LT]. }
    2:{ destruct E as (-> & ->). eapply rate_same; [exact R|exact RW|exact RC|reflexivity|exact LT]. }
    assert (CA : forall s, created_at ((OCreate alloc (Ok conn) now now2 rnd, AId r) :: h) s = (match r with Ok _ => if now =? s then 1 else 0 | _ => 0 end) + created_at h s).
    { intros s. destruct r; cbn [created_at]; lia. }
    destruct E as [(GE & -> & ->)|(LE & GW & GC & _)].
    + (* refused: the window is the current one *)
      destruct (1 <=? now - g_window w); [lia|].
      eapply rate_same; [exact R|reflexivity|reflexivity|reflexivity|exact LT].
    + assert (CA1 : forall s, created_at ((OCreate alloc (Ok conn) now now2 rnd, AId r) :: h) s <= (if now =? s then 1 else 0) + created_at h s /\
                      (now <> s -> created_at ((OCreate alloc (Ok conn) now now2 rnd, AId r) :: h) s = created_at h s)).
      { intros s. rewrite CA. destruct r; destruct (Z.eqb_spec now s); split; try lia. }
      destruct (Z.leb_spec 1 (now - g_window w)) as [NR|NR].
      * assert (C0 : created_at h now = 0) by (apply R1; lia).
        constructor; rewrite ?GW, ?GC.
        -- intros s LS. destruct (CA1 s) as (_ & C2). rewrite C2 by lia. apply R1. lia.
        -- intros s LS. cbn [latest] in LS. destruct (CA1 s) as (C1 & C2). destruct (Z.eqb_spec now s) as [->|NE]; [lia|].
           rewrite C2 by exact NE. rewrite R1 by lia. lia.
        -- lia.
        -- intros s. destruct (CA1 s) as (C1 & C2). destruct (Z.eqb_spec now s) as [->|NE]; [lia|]. rewrite C2 by exact NE. apply R4.
      * assert (CN : created_at h now <= g_count w) by (apply R2; destruct (latest h); [lia|auto]).
        constructor; rewrite ?GW, ?GC.
        -- intros s LS. destruct (CA1 s) as (_ & C2). rewrite C2 by lia. apply R1. lia.
        -- intros s LS. destruct (CA1 s) as (C1 & C2). destruct (Z.eqb_spec now s) as [->|NE]; [lia|].
           rewrite C2 by exact NE. specialize (R2 s (LT s LS)). lia.
        -- lia.
        -- intros s. destruct (CA1 s) as (C1 & C2). destruct (Z.eqb_spec now s) as [->|NE]; [lia|]. rewrite C2 by exact NE. apply R4.
  - destruct (add_permission w id name limit interval now alloc dup) as (w2, r) eqn:E. apply on_session_rate in E as (E1 & E2).
    assert (w' = w2) by (cbn [fst] in C; congruence). subst. eapply rate_same; [exact R|exact E1|exact E2|reflexivity|auto].
  - destruct (check_permission w id method amount now) as (w2, r) eqn:E. apply on_session_rate in E as (E1 & E2).
    assert (w' = w2) by (cbn [fst] in C; congruence). subst. eapply rate_same; [exact R|exact E1|exact E2|reflexivity|auto].
  - destruct (get_connection w id now) as (w2, r) eqn:E. apply on_session_rate in E as (E1 & E2).
    assert (w' = w2) by (cbn [fst] in C; congruence). subst. eapply rate_same; [exact R|exact E1|exact E2|reflexivity|auto].
  - destruct (session_extend w id secs) as (w2, r) eqn:E. apply on_session_rate in E as (E1 & E2).
    assert (w' = w2) by (cbn [fst] in C; congruence). subst. eapply rate_same; [exact R|exact E1|exact E2|reflexivity|auto].
  - destruct (session_destroy w id) as (w2, r) eqn:E. apply on_session_rate in E as (E1 & E2).
    assert (w' = w2) by (cbn [fst] in C; congruence). subst. eapply rate_same; [exact R|exact E1|exact E2|reflexivity|auto].
  - assert (w' = mkWorld (g_table w) (g_max w) (g_init w) (g_window w) (g_count w) c) by congruence. subst w'.
    eapply rate_same; [exact R|reflexivity|reflexivity|reflexivity|auto].
Qed.
Lemma run_rate h w : run h w -> typed h -> clock_ok h -> Rate h w.
Proof.
  induction 1 as [|h w o w' a R IH C U]; intros T CK.
  - constructor; cbn; intros; lia.
  - inversion T as [|? ? T1 T2]; subst. assert (CK' : clock_ok h) by (destruct o; cbn [clock_ok] in CK; tauto).
    eapply step_rate; eauto. eapply run_wf; eauto.
Qed.

(** ** Permission storage *)
Definition Cap (h : list entry) (w : world) : Prop :=
  config_of h = g_config w /\ forall k x cap l, slot w k x -> x_perms x = Some (cap, l) -> (perms_of (g_config w) <= cap)%nat.
Lemma step_cap h w o w' a : wf w -> Cap h w -> typed_op o -> call w o = (w', a) -> perms_lowered ((o, a) :: h) -> Cap ((o, a) :: h) w'.
Proof.
  intros W (CF & K) T C PL.
  assert (ON : forall A id (f : session -> session * res A) r, on_session w id f = (w', r) -> config_of ((o, a) :: h) = config_of h ->
     (forall x x' r cap l, f x = (x', r) -> x_active x' = true -> x_perms x' = Some (cap, l) ->
        (exists l', x_perms x = Some (cap, l')) \/ (perms_of (g_config w) <= cap)%nat) -> Cap ((o, a) :: h) w').
  { intros A id f r E CO F. apply on_session_spec in E; [|exact W].
    destruct E as [(-> & _)|(t & k & x & x' & TT & X & AX & _ & FX & -> & _)].
    - split; [congruence|exact K].
    - split; [cbn [with_table g_config]; congruence|]. intros j y cap l Y P. cbn [with_table g_config].
      apply (slot_update w t k x) in Y; [|assumption..]. destruct Y as [(-> & -> & AY)|(_ & Y)]; [|eapply K; eassumption].
      destruct (F x x' r cap l FX AY P) as [(l' & P')|G]; [|exact G]. apply (K k x cap l'); [exists t; auto|exact P']. }
  destruct o; cbn [call] in C; unfold lift in C.
  - assert (E : w' = fst (session_init w alloc)) by congruence.
    assert (CG : g_config w' = g_config w) by (rewrite E; unfold session_init; destruct (g_init w), alloc; reflexivity).
    split; [cbn [config_of]; congruence|]. intros k x cap l X. rewrite CG. rewrite E in X. apply init_slots in X. eapply K, X.
  - destruct (session_create w alloc uri now now2 rnd) as (w2, r) eqn:E. cbn [fst snd] in C.
    assert (w' = w2) by congruence. subst w2.
    apply create_spec in E; [|exact W|destruct rnd; [apply T|exact I]]. cbv zeta in E.
    set (w1 := if g_init w then w else fst (session_init w alloc)) in *. destruct E as (_ & CG & E).
    assert (SUB1 : forall k x, slot w1 k x -> slot w k x).
    { intros k x. unfold w1. destruct (g_init w); [auto|apply init_slots]. }
    split; [cbn [config_of]; congruence|]. intros j y cap l Y P. rewrite CG.
    assert (SY : slot w j y \/ x_perms y = None).
    { destruct uri as [conn|e|].
      + destruct E as [(_ & -> & _)|(_ & _ & _ & [(T1 & T2 & R)|(t & T1 & [(T2 & _)|(k & x & rb & X & AX & _ & _ & T2)])])].
        * left. apply SUB1. exact Y.
        * destruct Y as (t & T3 & _). congruence.
        * left. apply SUB1. destruct Y as (t' & T3 & Y & AY). assert (t' = cleanup now t) by congruence. subst. eapply slot_cleanup; eassumption.
        * destruct Y as (t' & T3 & Y & AY). assert (t' = update (cleanup now t) k (mkSession (hex_encode rb) (Some conn) None (now2 + timeout_of (g_config w)) true)) by congruence. subst t'.
          apply update_cases in Y; [|eauto]. destruct Y as [(-> & ->)|(NE & Y)]; [right; reflexivity|left].
          apply SUB1. eapply slot_cleanup; eassumption.
      + destruct E as (-> & _). auto.
      + destruct E as (-> & _). auto. }
    destruct SY as [SY|SY]; [eapply K; eassumption|congruence].
  - destruct (add_permission w id name limit interval now alloc dup) as (w2, r) eqn:E.
    assert (w' = w2) by (cbn [fst] in C; congruence). subst w2. eapply ON; [exact E|reflexivity|].
    intros x x' r' cap l F A P. apply add_body_keeps in F. destruct F as [(-> & _)|(_ & _ & cap' & D & _ & ->)]; [left; eauto|].
    cbn [with_perms x_perms] in P. assert (cap' = cap) by congruence. subst. destruct D as [D|(_ & D)]; [left; eauto|right; lia].
  - destruct (check_permission w id method amount now) as (w2, r) eqn:E.
    assert (w' = w2) by (cbn [fst] in C; congruence). subst w2. eapply ON; [exact E|reflexivity|].
    intros x x' r' cap l F A P. left. apply check_body in F. destruct F as [(-> & _)|(i & p & cap' & l' & q & PX & _ & _ & _ & _ & [(_ & _ & -> & _)|(_ & _ & ->)])]; [eauto| |];
      cbn [with_perms x_perms] in P; assert (cap' = cap) by congruence; subst; eauto.
  - destruct (get_connection w id now) as (w2, r) eqn:E.
    assert (w' = w2) by (cbn [fst] in C; congruence). subst w2. eapply ON; [exact E|reflexivity|].
    intros x x' r' cap l F A P. left. cbv beta in F. assert (x' = x) by (destruct (x_expires x <? now); congruence). subst. eauto.
  - destruct (session_extend w id secs) as (w2, r) eqn:E.
    assert (w' = w2) by (cbn [fst] in C; congruence). subst w2. eapply ON; [exact E|reflexivity|].
    intros x x' r' cap l F A P. left. cbv beta in F. assert (x' = mkSession (x_id x) (x_conn x) (x_perms x) (x_expires x + secs) (x_active x)) by congruence. subst. eauto.
  - destruct (session_destroy w id) as (w2, r) eqn:E.
    assert (w' = w2) by (cbn [fst] in C; congruence). subst w2. eapply ON; [exact E|reflexivity|].
    intros x x' r' cap l F A P. cbv beta in F. assert (x' = mkSession (x_id x) None None (x_expires x) false) by congruence. subst. discriminate.
  - assert (w' = mkWorld (g_table w) (g_max w) (g_init w) (g_window w) (g_count w) c) by congruence. subst w'.
    cbn [perms_lowered] in PL. destruct PL as (PL & _). rewrite CF in PL. split; [reflexivity|]. cbn [g_config]. intros k x cap l X P.
    specialize (K k x cap l X P). lia.
Qed.
Lemma run_cap h w : run h w -> typed h -> perms_lowered h -> Cap h w.
Proof.
  induction 1 as [|h w o w' a R IH C U]; intros T PL.
  - split; [reflexivity|]. intros k x cap l (t & E & _). discriminate.
  - inversion T as [|? ? T1 T2]; subst. assert (PL' : perms_lowered h) by (destruct o; cbn [perms_lowered] in PL; tauto).
    eapply step_cap; eauto. eapply run_wf; eauto.
Qed.

(** ** Where the permissions of a session come from *)
Lemma step_origin w o w' a : wf w -> typed_op o -> call w o = (w', a) -> forall k x', slot w' k x' ->
  perm_list x' = [] \/ exists x, slot w k x /\ x_id x' = x_id x /\ forall j p', nth_error (perm_list x') j = Some p' ->
    (exists p, nth_error (perm_list x) j = Some p /\ p_name p' = p_name p /\ p_interval p' = p_interval p /\
       (p_reset p' = p_reset p \/ exists now, now_of o = Some now /\ p_reset p' = now + p_interval p)) \/
    (exists id name l i now al dup, o = OAdd id name l i now al dup /\ p' = mkPerm (if dup then Some name else None) l (now + i) i 0).
Proof.
  intros W T C k x' X'.
  assert (SAME : slot w k x' -> perm_list x' = [] \/ exists x, slot w k x /\ x_id x' = x_id x /\ forall j p', nth_error (perm_list x') j = Some p' ->
    (exists p, nth_error (perm_list x) j = Some p /\ p_name p' = p_name p /\ p_interval p' = p_interval p /\
       (p_reset p' = p_reset p \/ exists now, now_of o = Some now /\ p_reset p' = now + p_interval p)) \/
    (exists id name l i now al dup, o = OAdd id name l i now al dup /\ p' = mkPerm (if dup then Some name else None) l (now + i) i 0)).
  { intros X. right. exists x'. split; [exact X|]. split; [reflexivity|]. intros j p' P. left. exists p'. auto. }
  assert (ON : forall A id (f : session -> session * res A) r, on_session w id f = (w', r) ->
    (forall x y r, f x = (y, r) -> x_active y = true -> x_id y = x_id x /\ forall j p', nth_error (perm_list y) j = Some p' ->
    (exists p, nth_error (perm_list x) j = Some p /\ p_name p' = p_name p /\ p_interval p' = p_interval p /\
       (p_reset p' = p_reset p \/ exists now, now_of o = Some now /\ p_reset p' = now + p_interval p)) \/
    (exists id name l i now al dup, o = OAdd id name l i now al dup /\ p' = mkPerm (if dup then Some name else None) l (now + i) i 0)) ->
    perm_list x' = [] \/ exists x, slot w k x /\ x_id x' = x_id x /\ forall j p', nth_error (perm_list x') j = Some p' ->
    (exists p, nth_error (perm_list x) j = Some p /\ p_name p' = p_name p /\ p_interval p' = p_interval p /\
       (p_reset p' = p_reset p \/ exists now, now_of o = Some now /\ p_reset p' = now + p_interval p)) \/
    (exists id name l i now al dup, o = OAdd id name l i now al dup /\ p' = mkPerm (if dup then Some name else None) l (now + i) i 0)).
  { intros A id f r E F. apply on_session_spec in E; [|exact W].
    destruct E as [(-> & _)|(t & k0 & x & y & TT & X & AX & _ & FX & -> & _)]; [apply SAME, X'|].
    apply (slot_update w t k0 x) in X'; [|assumption..]. destruct X' as [(-> & -> & AY)|(_ & X')]; [|apply SAME, X'].
    right. exists x. split; [exists t; auto|]. eapply F; eassumption. }
  clear SAME. destruct o; cbn [call] in C; unfold lift in C.
  - assert (w' = fst (session_init w alloc)) by congruence. subst w'. apply init_slots in X'.
    right. exists x'. split; [exact X'|]. split; [reflexivity|]. intros j p' P. left. exists p'. auto.
  - destruct (session_create w alloc uri now now2 rnd) as (w2, r) eqn:E. cbn [fst snd] in C.
    assert (w' = w2) by congruence. subst w2.
    apply create_spec in E; [|exact W|destruct rnd; [apply T|exact I]]. cbv zeta in E.
    set (w1 := if g_init w then w else fst (session_init w alloc)) in *. destruct E as (_ & CG & E).
    assert (SUB1 : forall k x, slot w1 k x -> slot w k x).
    { intros i x. unfold w1. destruct (g_init w); [auto|apply init_slots]. }
    assert (SY : slot w k x' \/ perm_list x' = []).
    { destruct uri as [conn|e|].
      + destruct E as [(_ & -> & _)|(_ & _ & _ & [(T1 & T2 & R)|(t & T1 & [(T2 & _)|(i & x & rb & X & AX & _ & _ & T2)])])].
        * left. apply SUB1. exact X'.
        * destruct X' as (t & T3 & _). congruence.
        * left. apply SUB1. destruct X' as (t' & T3 & Y & AY). assert (t' = cleanup now t) by congruence. subst. eapply slot_cleanup; eassumption.
        * destruct X' as (t' & T3 & Y & AY). assert (t' = update (cleanup now t) i (mkSession (hex_encode rb) (Some conn) None (now2 + timeout_of (g_config w)) true)) by congruence. subst t'.
          apply update_cases in Y; [|eauto]. destruct Y as [(-> & ->)|(NE & Y)]; [right; reflexivity|left].
          apply SUB1. eapply slot_cleanup; eassumption.
      + destruct E as (-> & _). auto.
      + destruct E as (-> & _). auto. }
    destruct SY as [SY|SY]; [right|left; exact SY].
    exists x'. split; [exact SY|]. split; [reflexivity|]. intros j p' P. left. exists p'. auto.
  - destruct (add_permission w id name limit interval now alloc dup) as (w2, r) eqn:E.
    assert (w' = w2) by (cbn [fst] in C; congruence). subst w2. eapply ON; [exact E|].
    intros x y r' F A. apply add_body_keeps in F. destruct F as [(-> & _)|(_ & _ & cap' & D & _ & ->)].
    + split; [reflexivity|]. intros j p' P. left. exists p'. auto.
    + split; [reflexivity|]. intros j p' P. unfold perm_list in P at 1. cbn [with_perms x_perms] in P.
      destruct (lt_dec j (length (perm_list x))) as [LI|LI].
      * rewrite nth_error_app1 in P by exact LI. left. exists p'. auto.
      * rewrite nth_error_app2 in P by lia. destruct (j - length (perm_list x))%nat as [|m] eqn:M; [|destruct m; discriminate].
        cbn [nth_error] in P. right. exists id, name, limit, interval, now, alloc, dup. split; [reflexivity|congruence].
  - destruct (check_permission w id method amount now) as (w2, r) eqn:E.
    assert (w' = w2) by (cbn [fst] in C; congruence). subst w2. eapply ON; [exact E|].
    intros x y r' F A. apply check_body in F. destruct F as [(-> & _)|(i & p & cap' & l' & q & PX & PK & _ & _ & Q & Z)].
    { split; [reflexivity|]. intros j p' P. left. exists p'. auto. }
    assert (PL : perm_list x = l') by (unfold perm_list; rewrite PX; reflexivity). rewrite PL.
    assert (QQ : p_name q = p_name p /\ p_interval q = p_interval p /\ (p_reset q = p_reset p \/ exists n, now_of (OCheck id method amount now) = Some n /\ p_reset q = n + p_interval p)).
    { destruct Q as [(-> & _)|(-> & _)]; cbn [p_name p_interval p_reset now_of]; [auto|]. repeat split; auto. right. eauto. }
    destruct QQ as (Q1 & Q2 & Q3).
    destruct Z as [(_ & _ & -> & _)|(_ & _ & ->)]; (split; [reflexivity|]); intros j p' P; left;
      unfold perm_list in P; cbn [with_perms x_perms] in P; (apply update_cases in P; [|eauto]);
      (destruct P as [(-> & ->)|(NE & P)]; [exists p|exists p'; auto]); cbn [p_name p_interval p_reset]; repeat split; auto.
  - destruct (get_connection w id now) as (w2, r) eqn:E.
    assert (w' = w2) by (cbn [fst] in C; congruence). subst w2. eapply ON; [exact E|].
    intros x y r' F A. cbv beta in F. assert (y = x) by (destruct (x_expires x <? now); congruence). subst y.
    split; [reflexivity|]. intros j p' P. left. exists p'. auto.
  - destruct (session_extend w id secs) as (w2, r) eqn:E.
    assert (w' = w2) by (cbn [fst] in C; congruence). subst w2. eapply ON; [exact E|].
    intros x y r' F A. cbv beta in F. assert (y = mkSession (x_id x) (x_conn x) (x_perms x) (x_expires x + secs) (x_active x)) by congruence. subst y.
    split; [reflexivity|]. intros j p' P. left. exists p'. auto.
  - destruct (session_destroy w id) as (w2, r) eqn:E.
    assert (w' = w2) by (cbn [fst] in C; congruence). subst w2. eapply ON; [exact E|].
    intros x y r' F A. cbv beta in F. assert (y = mkSession (x_id x) None None (x_expires x) false) by congruence. subst y. discriminate.
  - assert (w' = mkWorld (g_table w) (g_max w) (g_init w) (g_window w) (g_count w) c) by congruence. subst w'.
    right. exists x'. split; [exact X'|]. split; [reflexivity|]. intros j p' P. left. exists p'. auto.
Qed.

(** Window ends lie at most one interval ahead of the last clock reading. *)
Lemma run_window h w : run h w -> typed h -> times_ok h -> forall k x j p, slot w k x -> nth_error (perm_list x) j = Some p ->
  exists l, last_time h = Some l /\ p_reset p <= l + p_interval p.
Proof.
  induction 1 as [|h w o w' a R IH C U]; intros T TM k x j p X P.
  - destruct X as (t & E & _). discriminate.
  - inversion T as [|? ? T1 T2]; subst. pose proof (run_wf h w R T2) as W. cbn [times_ok] in TM. destruct TM as (TM & TM').
    destruct (step_origin w o w' a W T1 C k x X) as [E|(y & Y & _ & O)]; [rewrite E in P; destruct j; discriminate|].
    destruct (O j p P) as [(q & Q & _ & I & D)|(id & name & l & i & now & al & dup & -> & ->)].
    + destruct (IH T2 TM' k y j q Y Q) as (l & L & LE). cbn [last_time]. rewrite L in TM.
      destruct D as [D|(n & N & D)]; rewrite D, I.
      * destruct (now_of o) as [n|]; [exists n|exists l]; split; auto; lia.
      * rewrite N. exists n. split; [reflexivity|lia].
    + cbn [last_time now_of p_reset p_interval]. exists now. split; [reflexivity|lia].
Qed.
