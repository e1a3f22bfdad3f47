(** Receiving relay messages: C56, C57, C58. *)
From Verif Require Import Base BaseFacts Json Event RelayRecv RelayRecvSpec.
From Coq Require Import Lia.
Open Scope N_scope.

(** ** Splitting a text into messages *)
Fixpoint frames (fuel : nat) (s : list N) : list (list N) * list N :=
  match fuel with
  | O => ([], s)
  | S f =>
    match find_json_array_end s with
    | None => ([], s)
    | Some n => let x := frames f (skip_ws (skipn n s)) in (firstn n s :: fst x, snd x)
    end
  end.
Definition split (s : list N) : list (list N) * list N := frames (length s) (skip_ws s).

Lemma scan_bounds : forall m s d q n, (length s <= m)%nat -> scan_array s d q = Some n -> (1 <= n <= length s)%nat.
Proof.
  induction m as [|m IH]; intros [|c r] d q n L E; cbn [length] in *; try discriminate; try lia.
  cbn [scan_array] in E.
  destruct q.
  - destruct (c =? 92).
    + destruct r as [|c' r']; [discriminate|]. cbn [length] in *.
      destruct (scan_array r' d true) eqn:X; [|discriminate]. apply IH in X; [|lia]. cbn in E. injection E as <-. lia.
    + destruct (scan_array r d (negb (c =? 34))) eqn:X; [|discriminate]. apply IH in X; [|lia]. cbn in E. injection E as <-. lia.
  - repeat match type of E with (if ?b then _ else _) = _ => destruct b end;
      try (injection E as <-; lia);
      match type of E with option_map _ (scan_array r ?d' ?q') = _ => destruct (scan_array r d' q') eqn:X; [|discriminate] end;
      apply IH in X; try lia; cbn in E; injection E as <-; lia.
Qed.
Lemma scan_app : forall m s d q n b, (length s <= m)%nat -> scan_array s d q = Some n -> scan_array (s ++ b) d q = Some n.
Proof.
  induction m as [|m IH]; intros [|c r] d q n b L E; cbn [length] in *; try discriminate; try lia.
  cbn [app scan_array] in *.
  destruct q.
  - destruct (c =? 92).
    + destruct r as [|c' r']; [discriminate|]. cbn [length app] in *.
      destruct (scan_array r' d true) eqn:X; [|discriminate]. apply (IH _ _ _ _ b) in X; [|lia]. rewrite X. exact E.
    + destruct (scan_array r d (negb (c =? 34))) eqn:X; [|discriminate]. apply (IH _ _ _ _ b) in X; [|lia]. rewrite X. exact E.
  - repeat match type of E with (if ?b then _ else _) = _ => destruct b end; try exact E;
      match type of E with option_map _ (scan_array r ?d' ?q') = _ => destruct (scan_array r d' q') eqn:X; [|discriminate] end;
      apply (IH _ _ _ _ b) in X; try lia; rewrite X; exact E.
Qed.
Lemma end_bounds s n : find_json_array_end s = Some n -> (1 <= n <= length s)%nat.
Proof.
  unfold find_json_array_end. destruct s as [|c r]; [discriminate|]. destruct (c =? 91); [|discriminate].
  intros E. eapply scan_bounds; [apply Nat.le_refl|exact E].
Qed.
Lemma end_app s b n : find_json_array_end s = Some n -> find_json_array_end (s ++ b) = Some n.
Proof.
  unfold find_json_array_end. destruct s as [|c r]; [discriminate|]. cbn [app]. destruct (c =? 91); [|discriminate].
  intros E. change (c :: r ++ b) with ((c :: r) ++ b). eapply scan_app; [apply Nat.le_refl|exact E].
Qed.
Lemma skip_ws_length s : (length (skip_ws s) <= length s)%nat.
Proof. induction s as [|c r IH]; cbn [skip_ws length]; [lia|]. destruct (_ || _); cbn [length]; lia. Qed.
Lemma skip_ws_app a b : skip_ws a <> [] -> skip_ws (a ++ b) = skip_ws a ++ b.
Proof.
  induction a as [|c r IH]; cbn [skip_ws app]; [congruence|]. destruct (_ || _); [exact IH|reflexivity].
Qed.
Lemma skip_ws_all a b : skip_ws a = [] -> skip_ws (a ++ b) = skip_ws b.
Proof.
  induction a as [|c r IH]; cbn [skip_ws app]; [reflexivity|]. destruct (_ || _); [exact IH|discriminate].
Qed.
Lemma skip_ws_idem s : skip_ws (skip_ws s) = skip_ws s.
Proof. induction s as [|c r IH]; [reflexivity|]. cbn [skip_ws]. destruct (_ || _) eqn:E; [exact IH|]. cbn [skip_ws]. rewrite E. reflexivity. Qed.
Lemma skip_ws_skipn s : skip_ws s = skipn (length s - length (skip_ws s)) s.
Proof.
  induction s as [|c r IH]; [reflexivity|]. cbn [skip_ws]. destruct (_ || _).
  - pose proof (skip_ws_length r). cbn [length].
    replace (Datatypes.S (length r) - length (skip_ws r))%nat with (Datatypes.S (length r - length (skip_ws r))) by lia. exact IH.
  - rewrite Nat.sub_diag. reflexivity.
Qed.
Lemma frames_fuel : forall f g s, (length s <= f)%nat -> (length s <= g)%nat -> frames f s = frames g s.
Proof.
  induction f as [|f IH]; intros [|g] s L1 L2.
  - reflexivity.
  - destruct s; [|cbn in L1; lia]. reflexivity.
  - destruct s; [|cbn in L2; lia]. reflexivity.
  - cbn [frames]. destruct (find_json_array_end s) as [n|] eqn:E; [|reflexivity].
    apply end_bounds in E. pose proof (skip_ws_length (skipn n s)) as K. rewrite skipn_length in K.
    rewrite (IH g); [reflexivity|lia|lia].
Qed.
Lemma split_fuel f s : (length s <= f)%nat -> frames f (skip_ws s) = split s.
Proof. intros L. pose proof (skip_ws_length s). apply frames_fuel; lia. Qed.
Lemma split_skip s : split (skip_ws s) = split s.
Proof. unfold split. rewrite skip_ws_idem. pose proof (skip_ws_length s). apply frames_fuel; lia. Qed.
Lemma split_step s n : find_json_array_end (skip_ws s) = Some n ->
  split s = (firstn n (skip_ws s) :: fst (split (skipn n (skip_ws s))), snd (split (skipn n (skip_ws s)))).
Proof.
  intros E. pose proof (end_bounds _ _ E) as B. unfold split at 1.
  pose proof (skip_ws_length s).
  destruct (length s) as [|k] eqn:L; [lia|]. cbn [frames]. rewrite E.
  rewrite split_fuel; [reflexivity|]. rewrite skipn_length. lia.
Qed.
Lemma split_stop s : find_json_array_end (skip_ws s) = None -> split s = ([], skip_ws s).
Proof. intros E. unfold split. destruct (length s); cbn [frames]; [reflexivity|]. rewrite E. reflexivity. Qed.

(** What is left over after a text is what the next text continues *)
Lemma split_app : forall k a b, (length a <= k)%nat ->
  split (a ++ b) = (fst (split a) ++ fst (split (snd (split a) ++ b)), snd (split (snd (split a) ++ b))).
Proof.
  induction k as [|k IH]; intros a b L.
  - destruct a; [|cbn in L; lia]. change (split []) with (@nil (list N), @nil N). cbn [app fst snd]. destruct (split b); reflexivity.
  - destruct (skip_ws a) as [|c r] eqn:Ea.
    + rewrite (split_stop a) by (rewrite Ea; reflexivity). rewrite Ea. cbn [fst snd app].
      rewrite <- (split_skip (a ++ b)), (skip_ws_all _ _ Ea), split_skip. destruct (split b); reflexivity.
    + assert (Hab : skip_ws (a ++ b) = skip_ws a ++ b) by (apply skip_ws_app; rewrite Ea; discriminate).
      destruct (find_json_array_end (skip_ws a)) as [n|] eqn:E.
      * pose proof (end_bounds _ _ E) as B. pose proof (skip_ws_length a) as W.
        assert (E2 : find_json_array_end (skip_ws (a ++ b)) = Some n) by (rewrite Hab; apply end_app; exact E).
        rewrite (split_step _ _ E2), (split_step _ _ E), Hab. cbn [fst snd app].
        assert (X : skipn n (skip_ws a ++ b) = skipn n (skip_ws a) ++ b).
        { rewrite skipn_app. replace (n - length (skip_ws a))%nat with 0%nat by lia. reflexivity. }
        assert (Y : firstn n (skip_ws a ++ b) = firstn n (skip_ws a)).
        { rewrite firstn_app. replace (n - length (skip_ws a))%nat with 0%nat by lia. cbn [firstn]. apply app_nil_r. }
        rewrite X, Y, (IH (skipn n (skip_ws a)) b) by (rewrite skipn_length; lia). reflexivity.
      * rewrite (split_stop a E). cbn [fst snd app].
        rewrite <- (split_skip (a ++ b)), Hab. destruct (split (skip_ws a ++ b)); reflexivity.
Qed.
Lemma frames_rest_incl : forall f s x, In x (snd (frames f s)) -> In x s.
Proof.
  induction f as [|f IH]; intros s x X; [exact X|]. cbn [frames] in X.
  destruct (find_json_array_end s) as [n|]; [|exact X]. cbn [snd] in X. apply IH in X.
  rewrite skip_ws_skipn in X. rewrite <- (firstn_skipn n s). apply in_or_app. right.
  rewrite <- (firstn_skipn (length (skipn n s) - length (skip_ws (skipn n s))) (skipn n s)). apply in_or_app. right. exact X.
Qed.
Lemma split_rest_length s : (length (snd (split s)) <= length s)%nat.
Proof.
  unfold split. generalize (length s) at 1 as f. intros f. pose proof (skip_ws_length s) as W.
  enough (G : forall f t, (length (snd (frames f t)) <= length t)%nat) by (specialize (G f (skip_ws s)); lia).
  clear. induction f as [|f IH]; intros t; [cbn; lia|]. cbn [frames].
  destruct (find_json_array_end t) as [n|] eqn:E; [|cbn; lia]. cbn [snd].
  specialize (IH (skip_ws (skipn n t))). pose proof (skip_ws_length (skipn n t)). rewrite skipn_length in *. lia.
Qed.
Lemma split_rest_ws s : skip_ws (snd (split s)) = snd (split s).
Proof.
  unfold split. generalize (length s) as f. intros f.
  enough (G : forall f t, skip_ws t = t -> skip_ws (snd (frames f t)) = snd (frames f t)) by (apply G; apply skip_ws_idem).
  clear. induction f as [|f IH]; intros t T; [exact T|]. cbn [frames].
  destruct (find_json_array_end t) as [n|] eqn:E; [|exact T]. cbn [snd]. apply IH. apply skip_ws_idem.
Qed.
Definition nul_free (s : list N) : Prop := ~ In 0 s.
Lemma split_rest_nul s : nul_free s -> nul_free (snd (split s)).
Proof.
  intros F X. apply F. unfold split in X. apply frames_rest_incl in X.
  rewrite skip_ws_skipn in X. rewrite <- (firstn_skipn (length s - length (skip_ws s)) s). apply in_or_app. right. exact X.
Qed.
Lemma split_rest_split s : split (snd (split s)) = ([], snd (split s)).
Proof.
  pose proof (split_app (length s) s [] (Nat.le_refl _)) as E. rewrite !app_nil_r in E.
  rewrite (surjective_pairing (split s)) in E at 1. injection E as E1 E2.
  assert (Z : fst (split (snd (split s))) = []).
  { apply length_zero_iff_nil. apply (f_equal (@length _)) in E1. rewrite app_length in E1. lia. }
  rewrite (surjective_pairing (split (snd (split s)))), Z, <- E2. reflexivity.
Qed.

(** ** The buffer *)
Lemma take_nul_some : forall l t, take_nul l = Some t -> nul_free t /\ exists r, l = t ++ 0 :: r.
Proof.
  induction l as [|c l IH]; intros t E; [discriminate|]. cbn [take_nul] in E. destruct (c =? 0) eqn:C.
  - injection E as <-. apply N.eqb_eq in C. subst. split; [intros []|]. exists l. reflexivity.
  - destruct (take_nul l) as [t'|] eqn:X; [|discriminate]. cbn in E. injection E as <-.
    destruct (IH _ eq_refl) as [F [r ->]]. apply N.eqb_neq in C. split; [|exists r; reflexivity].
    intros [->|Y]; [congruence|exact (F Y)].
Qed.
Lemma take_nul_app : forall t r, nul_free t -> take_nul (t ++ 0 :: r) = Some t.
Proof.
  induction t as [|c t IH]; intros r F; [reflexivity|]. cbn [app take_nul].
  destruct (c =? 0) eqn:C; [apply N.eqb_eq in C; exfalso; apply F; left; exact C|].
  rewrite IH; [reflexivity|]. intros X. apply F. right. exact X.
Qed.
Lemma recv_loop_spec : forall f mem start t, text_at mem start = Some t ->
  exists start', recv_loop f mem start = Ok (fst (frames f t), start') /\ text_at mem start' = Some (snd (frames f t)).
Proof.
  induction f as [|f IH]; intros mem start t T.
  - exists start. cbn [recv_loop frames fst snd]. rewrite T. auto.
  - cbn [recv_loop frames]. rewrite T. destruct (find_json_array_end t) as [n|] eqn:E.
    2:{ exists start. auto. }
    pose proof (end_bounds _ _ E) as B.
    destruct (take_nul_some _ _ T) as [F [r R]]. unfold text_at in *.
    assert (SN : skipn (start + n) mem = skipn n t ++ 0 :: r).
    { rewrite <- skipn_add, R, skipn_app. replace (n - length t)%nat with 0%nat by lia. reflexivity. }
    assert (LM : (length mem = start + length t + 1 + length r)%nat).
    { pose proof (f_equal (@length _) R) as K. rewrite skipn_length, app_length in K. cbn [length] in K. lia. }
    replace (length mem <=? start + n)%nat with false by (symmetry; apply Nat.leb_gt; lia).
    rewrite SN, take_nul_app.
    2:{ intros X. apply F. rewrite <- (firstn_skipn n t). apply in_or_app. right. exact X. }
    set (u := skipn n t) in *.
    assert (T2 : text_at mem (start + n + (length u - length (skip_ws u))) = Some (skip_ws u)).
    { unfold text_at. rewrite <- skipn_add, SN, skipn_app.
      replace (length u - length (skip_ws u) - length u)%nat with 0%nat by lia.
      rewrite <- skip_ws_skipn. apply take_nul_app. intros X. apply F.
      rewrite <- (firstn_skipn n t). fold u. apply in_or_app. right.
      rewrite skip_ws_skipn in X. rewrite <- (firstn_skipn (length u - length (skip_ws u)) u). apply in_or_app. right. exact X. }
    destruct (IH _ _ _ T2) as [s' [E1 E2]]. exists s'. rewrite E1. cbn [bind fst snd]. auto.
Qed.
Lemma put_at_ok mem i s : (i + length s <= length mem)%nat ->
  put_at mem i s = Ok (firstn i mem ++ s ++ skipn (i + length s) mem).
Proof. intros L. unfold put_at. replace (length mem <? i + length s)%nat with false; [reflexivity|]. symmetry. apply Nat.ltb_ge. lia. Qed.
Lemma put_length mem i (s : list N) : (i + length s <= length mem)%nat ->
  length (firstn i mem ++ s ++ skipn (i + length s) mem) = length mem.
Proof. intros L. rewrite !app_length, firstn_length, skipn_length. lia. Qed.

(** The buffer holds an unfinished text *)
Definition holds (b : rbuf) (s : list N) : Prop :=
  nul_free s /\ rb_pos b = length s /\ firstn (length s) (rb_mem b) = s /\ split s = ([], s) /\
  (length (rb_mem b) = 0%nat \/ (length s < length (rb_mem b))%nat) /\ N.of_nat (length (rb_mem b)) <= max_buffer_size.
Definition upto_nul (c : list N) : list N := match take_nul c with Some t => t | None => c end.
Lemma upto_nul_free c : nul_free (upto_nul c).
Proof.
  unfold upto_nul. destruct (take_nul c) as [t|] eqn:E; [exact (proj1 (take_nul_some _ _ E))|].
  intros X. induction c as [|x c IH]; [exact X|]. cbn [take_nul] in E. destruct (x =? 0) eqn:C; [discriminate|].
  apply N.eqb_neq in C. destruct (take_nul c); [discriminate|]. destruct X as [->|X]; [congruence|]. exact (IH eq_refl X).
Qed.
Lemma upto_nul_same c : nul_free c -> upto_nul c = c.
Proof.
  intros F. unfold upto_nul. destruct (take_nul c) as [t|] eqn:E; [|reflexivity].
  destruct (take_nul_some _ _ E) as [_ [r ->]]. exfalso. apply F. apply in_or_app. right. left. reflexivity.
Qed.
Lemma take_nul_join s c r : nul_free s -> take_nul (s ++ c ++ 0 :: r) = Some (s ++ upto_nul c).
Proof.
  intros F. unfold upto_nul. destruct (take_nul c) as [t|] eqn:E.
  - destruct (take_nul_some _ _ E) as [Ft [q ->]]. rewrite <- app_assoc. cbn [app]. rewrite app_assoc. apply take_nul_app.
    intros X. apply in_app_or in X. destruct X; [exact (F H)|exact (Ft H)].
  - rewrite app_assoc. apply take_nul_app. intros X. apply in_app_or in X. destruct X as [X|X]; [exact (F X)|].
    pose proof (upto_nul_free c) as U. unfold upto_nul in U. rewrite E in U. exact (U X).
Qed.
Lemma accept_spec mem s c : nul_free s -> split s = ([], s) -> firstn (length s) mem = s ->
  (length s + length c < length mem)%nat -> N.of_nat (length mem) <= max_buffer_size ->
  let t := s ++ upto_nul c in
  exists b',
  (do m1 <- put_at mem (length s) c;
   do mem <- put_at m1 (length s + length c) [0];
   match text_at mem 0 with
   | None => Undef
   | Some t =>
     do x <- recv_loop (length mem) mem (length t - length (skip_ws t));
     match text_at mem (snd x) with
     | None => Undef
     | Some rest =>
       match rest with
       | [] => do mem' <- put_at mem 0 [0]; Ok (mkRbuf mem' 0, fst x)
       | _ => do mem' <- put_at mem 0 (rest ++ [0]); Ok (mkRbuf mem' (length rest), fst x)
       end
     end
   end) = Ok (b', fst (split t)) /\ holds b' (snd (split t)) /\ length (rb_mem b') = length mem.
Proof.
  intros F SS FN L CAP t.
  rewrite put_at_ok by lia. cbn [bind].
  set (m1 := firstn (length s) mem ++ c ++ skipn (length s + length c) mem).
  assert (L1 : length m1 = length mem) by (apply put_length; lia).
  rewrite put_at_ok by (cbn [length]; lia). cbn [bind].
  set (m2 := firstn (length s + length c) m1 ++ [0] ++ skipn (length s + length c + length [0]) m1).
  assert (L2 : length m2 = length mem) by (unfold m2; rewrite put_length by (cbn [length]; lia); exact L1).
  assert (M2 : exists r, m2 = s ++ c ++ 0 :: r).
  { unfold m2, m1. rewrite FN. exists (skipn (length s + length c + length [0]) (s ++ c ++ skipn (length s + length c) mem)).
    rewrite (app_assoc s c). rewrite firstn_app_exact by (rewrite app_length; reflexivity). rewrite <- app_assoc. reflexivity. }
  destruct M2 as [r M2].
  assert (T0 : text_at m2 0 = Some t) by (unfold text_at; cbn [skipn]; rewrite M2; apply take_nul_join; exact F).
  rewrite T0.
  assert (Ft : nul_free t).
  { intros X. apply in_app_or in X. destruct X as [X|X]; [exact (F X)|exact (upto_nul_free c X)]. }
  assert (T1 : text_at m2 (length t - length (skip_ws t)) = Some (skip_ws t)).
  { destruct (take_nul_some _ _ T0) as [_ [q Q]]. cbn [skipn] in Q. unfold text_at. rewrite Q, skipn_app.
    replace (length t - length (skip_ws t) - length t)%nat with 0%nat by lia.
    rewrite <- skip_ws_skipn. apply take_nul_app. intros X. apply Ft.
    rewrite skip_ws_skipn in X. rewrite <- (firstn_skipn (length t - length (skip_ws t)) t). apply in_or_app. right. exact X. }
  assert (LT : (length t < length mem)%nat).
  { destruct (take_nul_some _ _ T0) as [_ [q Q]]. cbn [skipn] in Q. apply (f_equal (@length _)) in Q.
    rewrite app_length in Q. cbn [length] in Q. lia. }
  destruct (recv_loop_spec (length m2) _ _ _ T1) as [st [E1 E2]].
  rewrite split_fuel in E1, E2 by lia. rewrite E1. cbn [bind fst snd]. rewrite E2.
  pose proof (split_rest_length t) as LR. pose proof (split_rest_nul t Ft) as NR. pose proof (split_rest_split t) as RS.
  destruct (snd (split t)) as [|c0 r0] eqn:Rest.
  - rewrite put_at_ok by (cbn [length]; lia). cbn [bind]. eexists. split; [reflexivity|].
    assert (LL' : length (firstn 0 m2 ++ [0] ++ skipn (0 + length [0]) m2) = length m2) by (apply put_length; cbn [length]; lia).
    split; [|cbn [rb_mem]; rewrite LL'; exact L2].
    unfold holds. cbn [rb_mem rb_pos].
    split; [exact NR|]. split; [reflexivity|]. split; [reflexivity|].
    split; [exact RS|]. split; [right; rewrite LL'; cbn [length]; lia|rewrite LL', L2; exact CAP].
  - rewrite put_at_ok by (rewrite app_length; cbn [length] in *; lia). cbn [bind]. eexists. split; [reflexivity|].
    assert (LL' : length (firstn 0 m2 ++ ((c0 :: r0) ++ [0]) ++ skipn (0 + length ((c0 :: r0) ++ [0])) m2) = length m2)
      by (apply put_length; rewrite app_length; cbn [length] in *; lia).
    split; [|cbn [rb_mem]; rewrite LL'; exact L2].
    unfold holds. cbn [rb_mem rb_pos].
    split; [exact NR|]. split; [reflexivity|]. split.
    { cbn [firstn]. change (@nil N ++ ?x) with x. rewrite <- app_assoc. apply firstn_app_exact. reflexivity. }
    split; [exact RS|]. split; [right; rewrite LL'; cbn [length] in *; lia|rewrite LL', L2; exact CAP].
Qed.
(** One chunk *)
Lemma receive_spec g j b s c : holds b s -> exists b' ms, receive g j b c = Ok (b', ms) /\
  ((holds b' (snd (split (s ++ upto_nul c))) /\ ms = fst (split (s ++ upto_nul c))) \/
   (ms = [] /\ b' = mkRbuf (rb_mem b) 0 /\ max_buffer_size < N.of_nat (length s + length c + 1024)) \/
   (ms = [] /\ b' = b /\ g = false)).
Proof.
  intros (F & P & FN & SS & SZ & CAP). unfold receive. destruct c as [|x c'].
  { exists b, []. split; [reflexivity|]. left. unfold upto_nul. cbn [take_nul]. rewrite app_nil_r, SS. cbn [fst snd].
    split; [|reflexivity]. unfold holds. repeat (split; [assumption|]). assumption. }
  remember (x :: c') as c eqn:C.
  assert (LC : (1 <= length c)%nat) by (subst; cbn; lia).
  destruct c as [|x0 c0]; [discriminate|]. remember (x0 :: c0) as cc eqn:Q. clear C Q x c' x0 c0.
  unfold make_room. rewrite P.
  destruct (length (rb_mem b) <=? length s + length cc)%nat eqn:R.
  - apply Nat.leb_le in R. destruct (max_buffer_size <? N.of_nat (length s + length cc + 1024)) eqn:O.
    { apply N.ltb_lt in O. cbn [negb]. exists (mkRbuf (rb_mem b) 0), []. split; [reflexivity|]. right. left. auto. }
    apply N.ltb_ge in O. destruct g; cbn [negb].
    2:{ exists b, []. split; [reflexivity|]. right. right. auto. }
    cbn [rb_mem rb_pos].
    set (mem := rb_mem b ++ map j (seq 0 (length s + length cc + 1024 - length (rb_mem b)))).
    assert (LM : length mem = (length s + length cc + 1024)%nat).
    { unfold mem. rewrite app_length, map_length, seq_length. lia. }
    assert (FM : firstn (length s) mem = s).
    { unfold mem. destruct SZ as [Z|Z].
      - apply length_zero_iff_nil in Z. rewrite Z in *. destruct s; [reflexivity|]. cbn in FN. discriminate.
      - rewrite firstn_app. replace (length s - length (rb_mem b))%nat with 0%nat by lia. cbn [firstn]. rewrite app_nil_r. exact FN. }
    destruct (accept_spec mem s cc F SS FM) as (b' & E & H & _); [lia|rewrite LM; exact O|].
    exists b', (fst (split (s ++ upto_nul cc))). split; [exact E|]. left. auto.
  - apply Nat.leb_gt in R. cbn [negb]. rewrite P.
    destruct (accept_spec (rb_mem b) s cc F SS FN R CAP) as (b' & E & H & _).
    exists b', (fst (split (s ++ upto_nul cc))). split; [exact E|]. left. auto.
Qed.

(** C57: whatever arrives, every access is inside the buffer and the buffer has at
    most 10 MiB. *)
Lemma holds0 : holds rbuf0 [].
Proof.
  unfold holds, rbuf0. cbn [rb_mem rb_pos length firstn]. split; [intros []|]. split; [reflexivity|]. split; [reflexivity|].
  split; [reflexivity|]. split; [left; reflexivity|discriminate].
Qed.
Lemma receive_all_holds : forall cs b s, holds b s -> exists b' s' ms, receive_all b cs = Ok (b', ms) /\ holds b' s'.
Proof.
  induction cs as [|[c [g j]] cs IH]; intros b s H.
  - exists b, s, []. split; [reflexivity|exact H].
  - cbn [receive_all]. destruct (receive_spec g j b s c H) as (b1 & m1 & E & K). rewrite E. cbn [bind fst snd].
    assert (X : exists s1, holds b1 s1).
    { destruct K as [[K _]|[[_ [-> _]]|[_ [-> _]]]]; [eexists; exact K| |exists s; exact H].
      exists []. destruct H as (_ & _ & _ & _ & SZ & CAP). unfold holds. cbn [rb_mem rb_pos length firstn].
      split; [intros []|]. split; [reflexivity|]. split; [reflexivity|]. split; [reflexivity|]. split; [lia|exact CAP]. }
    destruct X as [s1 X]. destruct (IH b1 s1 X) as (b' & s' & ms & E2 & K2). rewrite E2. cbn [bind fst snd].
    exists b', s', (m1 ++ ms). split; [reflexivity|exact K2].
Qed.
Theorem C57_bounded : forall cs, exists b ms, receive_all rbuf0 cs = Ok (b, ms) /\
  N.of_nat (length (rb_mem b)) <= 10 * 1024 * 1024.
Proof.
  intros cs. destruct (receive_all_holds cs rbuf0 [] holds0) as (b & s & ms & E & H). exists b, ms. split; [exact E|].
  destruct H as (_ & _ & _ & _ & _ & CAP). exact CAP.
Qed.

(** ** C56 *)
Definition whole (cs : list (list N * (bool * (nat -> N)))) : list N := flat_map fst cs.
(** Nothing is dropped: memory never fails, and no chunk makes what is pending too
    large *)
Definition kept (b0 : rbuf) (cs : list (list N * (bool * (nat -> N)))) : Prop :=
  forall p c g j q, cs = p ++ (c, (g, j)) :: q -> g = true /\
    forall b ms, receive_all b0 p = Ok (b, ms) -> N.of_nat (rb_pos b + length c + 1024) <= 10 * 1024 * 1024.
Lemma receive_all_split : forall cs b s, holds b s -> nul_free (whole cs) -> kept b cs ->
  exists b', receive_all b cs = Ok (b', fst (split (s ++ whole cs))) /\ holds b' (snd (split (s ++ whole cs))).
Proof.
  induction cs as [|[c [g j]] cs IH]; intros b s H NF K.
  - cbn [whole flat_map]. rewrite app_nil_r. pose proof H as (_ & _ & _ & SS & _). rewrite SS.
    exists b. split; [reflexivity|exact H].
  - cbn [receive_all]. cbn [whole flat_map fst] in *. fold (whole cs) in *.
    destruct (receive_spec g j b s c H) as (b1 & m1 & E & C). rewrite E. cbn [bind fst snd].
    destruct (K [] c g j cs eq_refl) as [-> R0]. specialize (R0 b [] eq_refl).
    destruct C as [[H1 ->]|[[-> [_ X]]|[_ [_ X]]]].
    2:{ destruct H as (_ & P & _). rewrite P in R0. unfold max_buffer_size in X. lia. }
    2: discriminate.
    rewrite upto_nul_same in * by (intros X; apply NF; apply in_or_app; left; exact X).
    destruct (IH b1 _ H1) as (b' & E2 & H2).
    { intros X. apply NF. apply in_or_app. right. exact X. }
    { intros p c' g' j' q Q. destruct (K ((c, (true, j)) :: p) c' g' j' q) as [Y1 Y2]; [rewrite Q; reflexivity|].
      split; [exact Y1|]. intros b2 ms2 E2. apply (Y2 b2 (fst (split (s ++ c)) ++ ms2)).
      cbn [receive_all]. rewrite E. cbn [bind fst snd]. rewrite E2. reflexivity. }
    rewrite E2. cbn [bind fst snd]. exists b'.
    pose proof (split_app (length (s ++ c)) (s ++ c) (whole cs) (Nat.le_refl _)) as A. rewrite <- app_assoc in A.
    rewrite A. cbn [fst snd]. split; [reflexivity|exact H2].
Qed.
Lemma kept_short cs : Forall (fun x => fst (snd x) = true) cs -> nul_free (whole cs) ->
  N.of_nat (length (whole cs) + 1024) <= 10 * 1024 * 1024 -> kept rbuf0 cs.
Proof.
  intros G NF L p c g j q Q. subst cs. apply Forall_app in G. destruct G as [Gp G]. inversion G as [|? ? G1 G2]; subst.
  cbn [fst snd] in G1. subst g. split; [reflexivity|]. intros b ms E.
  unfold whole in *. rewrite flat_map_app in *. cbn [flat_map fst] in *. rewrite !app_length in L.
  (* the pending text is no longer than what came before *)
  assert (B : forall p b0 s0, holds b0 s0 -> forall b ms, receive_all b0 p = Ok (b, ms) ->
            exists s', holds b s' /\ (length s' <= length s0 + length (flat_map fst p))%nat).
  { clear. induction p as [|[c [g j]] p IH]; intros b0 s0 H b ms E.
    - cbn in E. injection E as <- <-. exists s0. split; [exact H|lia].
    - cbn [receive_all] in E. destruct (receive_spec g j b0 s0 c H) as (b1 & m1 & E1 & C). rewrite E1 in E. cbn [bind fst snd] in E.
      destruct (receive_all b1 p) as [[b2 m2]| |] eqn:E2; try discriminate. cbn [bind fst snd] in E. injection E as <- <-.
      cbn [flat_map fst]. rewrite app_length.
      destruct C as [[H1 _]|[[_ [-> _]]|[_ [-> _]]]].
      + destruct (IH _ _ H1 _ _ E2) as (s' & H' & L'). exists s'. split; [exact H'|].
        pose proof (split_rest_length (s0 ++ upto_nul c)) as A. rewrite app_length in A.
        assert (LU : (length (upto_nul c) <= length c)%nat).
        { unfold upto_nul. destruct (take_nul c) as [t|] eqn:T; [|lia]. destruct (take_nul_some _ _ T) as [_ [r ->]]. rewrite app_length. lia. }
        lia.
      + assert (H1 : holds (mkRbuf (rb_mem b0) 0) []).
        { destruct H as (_ & _ & _ & _ & SZ & CAP). unfold holds. cbn [rb_mem rb_pos length firstn].
          split; [intros []|]. split; [reflexivity|]. split; [reflexivity|]. split; [reflexivity|]. split; [lia|exact CAP]. }
        destruct (IH _ _ H1 _ _ E2) as (s' & H' & L'). exists s'. split; [exact H'|]. cbn [length] in L'. lia.
      + destruct (IH _ _ H _ _ E2) as (s' & H' & L'). exists s'. split; [exact H'|]. lia. }
  destruct (B p rbuf0 [] holds0 b ms E) as (s' & H' & L'). destruct H' as (_ & P & _). rewrite P. cbn [length] in L'. lia.
Qed.
Lemma dispatch_all_app parse reprint lim react om : forall a b l,
  dispatch_all parse reprint lim react om l (a ++ b) =
  (do x <- dispatch_all parse reprint lim react om l a;
   do y <- dispatch_all parse reprint lim react om (fst x) b; Ok (fst y, snd x ++ snd y)).
Proof.
  induction a as [|t a IH]; intros b l.
  - cbn [app dispatch_all bind fst snd]. destruct (dispatch_all _ _ _ _ _ l b) as [[? ?]| |]; reflexivity.
  - cbn [app dispatch_all]. destruct (dispatch parse reprint lim om l t) as [x| |]; [|reflexivity|reflexivity]. cbn [bind].
    destruct (do_ops (fst x) (flat_map react (snd x))) as [l'| |]; [|reflexivity|reflexivity]. cbn [bind].
    rewrite IH. destruct (dispatch_all _ _ _ _ _ l' a) as [y| |]; [|reflexivity|reflexivity]. cbn [bind fst snd].
    destruct (dispatch_all _ _ _ _ _ (fst y) b) as [z| |]; [|reflexivity|reflexivity]. cbn [bind fst snd]. rewrite app_assoc. reflexivity.
Qed.
Lemma serve_eq parse reprint lim react om : forall cs b b' ms l, receive_all b cs = Ok (b', ms) ->
  serve parse reprint lim react om b l cs =
  (do y <- dispatch_all parse reprint lim react om l ms; Ok (b', fst y, snd y)).
Proof.
  induction cs as [|[c [g j]] cs IH]; intros b b' ms l E.
  - cbn in E. injection E as <- <-. reflexivity.
  - cbn [receive_all serve] in *. destruct (receive g j b c) as [[b1 m1]| |]; try discriminate. cbn [bind fst snd] in *.
    destruct (receive_all b1 cs) as [[b2 m2]| |] eqn:E2; try discriminate. cbn [bind fst snd] in E. injection E as <- <-.
    rewrite dispatch_all_app. destruct (dispatch_all _ _ _ _ _ l m1) as [x| |]; [|reflexivity|reflexivity]. cbn [bind].
    rewrite (IH _ _ _ _ E2). destruct (dispatch_all _ _ _ _ _ (fst x) m2) as [y| |]; reflexivity.
Qed.
(** C56: however the stream is cut into chunks, the call-backs made and the
    subscriptions left are the same, whatever the call-backs do to the
    subscriptions. *)
Theorem C56_chunking : forall parse reprint lim react on_message l cs1 cs2,
  whole cs1 = whole cs2 -> nul_free (whole cs1) -> kept rbuf0 cs1 -> kept rbuf0 cs2 ->
  (do x <- serve parse reprint lim react on_message rbuf0 l cs1; Ok (snd (fst x), snd x)) =
  (do x <- serve parse reprint lim react on_message rbuf0 l cs2; Ok (snd (fst x), snd x)).
Proof.
  intros parse reprint lim react om l cs1 cs2 W NF K1 K2.
  destruct (receive_all_split cs1 rbuf0 [] holds0 NF K1) as (b1 & E1 & _).
  rewrite W in NF. destruct (receive_all_split cs2 rbuf0 [] holds0 NF K2) as (b2 & E2 & _).
  rewrite (serve_eq _ _ _ _ _ _ _ _ _ _ E1), (serve_eq _ _ _ _ _ _ _ _ _ _ E2), W.
  destruct (dispatch_all _ _ _ _ _ l _) as [y| |]; reflexivity.
Qed.
(** A stream below the cap, with memory available, is never dropped. *)
Theorem C56_short : forall parse reprint lim react on_message l cs1 cs2,
  whole cs1 = whole cs2 -> nul_free (whole cs1) -> N.of_nat (length (whole cs1) + 1024) <= 10 * 1024 * 1024 ->
  Forall (fun x => fst (snd x) = true) cs1 -> Forall (fun x => fst (snd x) = true) cs2 ->
  (do x <- serve parse reprint lim react on_message rbuf0 l cs1; Ok (snd (fst x), snd x)) =
  (do x <- serve parse reprint lim react on_message rbuf0 l cs2; Ok (snd (fst x), snd x)).
Proof.
  intros parse reprint lim react om l cs1 cs2 W NF L G1 G2. apply C56_chunking; auto; apply kept_short; auto; rewrite <- W; auto.
Qed.

(** ** The messages of a well-formed stream *)
Lemma scan_quoted q : quoted q -> forall d r, scan_array (q ++ 34 :: r) d true = option_map (fun n => (length q + 1 + n)%nat) (scan_array r d false).
Proof.
  induction 1 as [|c q N1 N2 N0 Q IH|c q N0 Q IH]; intros d r.
  - cbn [app scan_array]. reflexivity.
  - cbn [app scan_array]. apply N.eqb_neq in N1, N2. rewrite N1, N2. cbn [negb]. rewrite IH.
    destruct (scan_array r d false); reflexivity.
  - cbn [app scan_array]. change (92 =? 92) with true. cbv iota. rewrite IH. destruct (scan_array r d false); reflexivity.
Qed.
Lemma scan_nested a : nested a -> forall d r, (1 <= d)%Z -> scan_array (a ++ r) d false = option_map (fun n => (length a + n)%nat) (scan_array r d false).
Proof.
  induction 1 as [|c s P Q IH|q s Qq Q IH|a s A IHa Q IH|a s A IHa Q IH]; intros d r D.
  - cbn [app length]. destruct (scan_array r d false); reflexivity.
  - cbn [app scan_array]. destruct P as (P1 & P2 & P3 & P4 & P5 & _). apply N.eqb_neq in P1, P2, P3, P4, P5.
    rewrite P1, P2, P3, P4, P5. cbn [orb]. rewrite IH by exact D. destruct (scan_array r d false); reflexivity.
  - cbn [app scan_array]. change (34 =? 34) with true. cbv iota. rewrite <- app_assoc. cbn [app].
    rewrite scan_quoted by exact Qq. rewrite IH by exact D. cbn [length]. rewrite app_length. cbn [length].
    destruct (scan_array r d false); cbn [option_map]; [f_equal; lia|reflexivity].
  - cbn [app]. rewrite <- app_assoc. cbn [app]. cbn [scan_array]. change (91 =? 34) with false. change (91 =? 91) with true. cbn [orb].
    rewrite IHa by lia. cbn [scan_array]. change (93 =? 34) with false. change (93 =? 91) with false. change (93 =? 123) with false.
    change (93 =? 93) with true. cbn [orb]. replace (d + 1 - 1)%Z with d by lia. replace (d =? 0)%Z with false by (symmetry; apply Z.eqb_neq; lia).
    rewrite IH by exact D. cbn [length]. rewrite app_length. cbn [length].
    destruct (scan_array r d false); cbn [option_map]; [f_equal; lia|reflexivity].
  - cbn [app]. rewrite <- app_assoc. cbn [app]. cbn [scan_array]. change (123 =? 34) with false. change (123 =? 91) with false. change (123 =? 123) with true. cbn [orb].
    rewrite IHa by lia. cbn [scan_array]. change (125 =? 34) with false. change (125 =? 91) with false. change (125 =? 123) with false.
    change (125 =? 93) with false. change (125 =? 125) with true. cbn [orb]. replace (d + 1 - 1)%Z with d by lia. replace (d =? 0)%Z with false by (symmetry; apply Z.eqb_neq; lia).
    rewrite IH by exact D. cbn [length]. rewrite app_length. cbn [length].
    destruct (scan_array r d false); cbn [option_map]; [f_equal; lia|reflexivity].
Qed.
Lemma end_array m r : array_text m -> find_json_array_end (m ++ r) = Some (length m).
Proof.
  intros (a & -> & A). cbn [app]. unfold find_json_array_end. change (91 =? 91) with true. cbv iota.
  cbn [scan_array]. change (91 =? 34) with false. change (91 =? 91) with true. cbn [orb]. change (0 + 1)%Z with 1%Z.
  rewrite <- app_assoc. cbn [app]. rewrite (scan_nested a A 1) by lia. cbn [scan_array].
  change (93 =? 34) with false. change (93 =? 91) with false. change (93 =? 123) with false. change (93 =? 93) with true. cbn [orb].
  change (1 - 1 =? 0)%Z with true. cbv iota. cbn [option_map length]. rewrite app_length. cbn [length]. reflexivity.
Qed.
Lemma space_skip w s : space w -> skip_ws (w ++ s) = skip_ws s.
Proof. induction 1 as [|c w [-> |[-> | -> ]] _ IH]; [reflexivity|exact IH..]. Qed.
Lemma carries_split s ms : carries s ms -> split s = (ms, []).
Proof.
  induction 1 as [w SP|w m s ms SP A C IH].
  - assert (E : skip_ws w = []) by (rewrite <- (app_nil_r w), space_skip by exact SP; reflexivity).
    rewrite split_stop by (rewrite E; reflexivity). rewrite E. reflexivity.
  - assert (E : skip_ws (w ++ m ++ s) = m ++ s).
    { rewrite space_skip by exact SP. destruct A as (a & -> & _). reflexivity. }
    rewrite <- split_skip, E.
    assert (E2 : skip_ws (m ++ s) = m ++ s) by (destruct A as (a & -> & _); reflexivity).
    rewrite (split_step _ (length m)); rewrite E2; [|apply end_array; exact A].
    rewrite firstn_app_exact, skipn_app_exact by reflexivity. rewrite IH. reflexivity.
Qed.
(** C56: a stream of messages, each a JSON array, optionally separated by blanks
    and line ends, yields exactly those messages, in order, however it is cut. *)
Theorem C56_messages : forall cs ms, carries (whole cs) ms -> nul_free (whole cs) -> kept rbuf0 cs ->
  exists b, receive_all rbuf0 cs = Ok (b, ms) /\ rb_pos b = 0%nat.
Proof.
  intros cs ms C NF K. destruct (receive_all_split cs rbuf0 [] holds0 NF K) as (b & E & H).
  cbn [app] in *. rewrite (carries_split _ _ C) in *. exists b. split; [exact E|]. destruct H as (_ & P & _). exact P.
Qed.

(** *** Refutations *)
(** What is dispatched, in order *)
Definition seen (r : res (rbuf * list (list N))) : res (list (list N)) := do x <- r; Ok (snd x).
Definition grows (cs : list (list N)) : list (list N * (bool * (nat -> N))) := map (fun c => (c, (true, fun _ => 170))) cs.
(** A NUL byte: what follows it in the same chunk is lost. *)
Theorem C56_nul_refuted : ~ (forall cs1 cs2, concat cs1 = concat cs2 ->
  N.of_nat (length (concat cs1) + 1024) <= 10 * 1024 * 1024 ->
  seen (receive_all rbuf0 (grows cs1)) = seen (receive_all rbuf0 (grows cs2))).
Proof.
  intros H. specialize (H [0 :: bs "[""NOTICE"",""x""]"] [[0]; bs "[""NOTICE"",""x""]"] eq_refl).
  assert (X : seen (receive_all rbuf0 (grows [0 :: bs "[""NOTICE"",""x""]"])) = Ok []) by (vm_compute; reflexivity).
  assert (Y : seen (receive_all rbuf0 (grows [[0]; bs "[""NOTICE"",""x""]"])) = Ok [bs "[""NOTICE"",""x""]"]) by (vm_compute; reflexivity).
  rewrite X, Y in H. specialize (H ltac:(cbn; discriminate)). discriminate.
Qed.
Lemma receive_drop g j mem c : c <> [] -> (length mem <= length c)%nat -> max_buffer_size < N.of_nat (length c + 1024) ->
  receive g j (mkRbuf mem 0) c = Ok (mkRbuf mem 0, []).
Proof.
  intros C L M. unfold receive. destruct c as [|x c]; [congruence|]. unfold make_room. cbn [rb_mem rb_pos]. rewrite Nat.add_0_l.
  apply Nat.leb_le in L. rewrite L. apply N.ltb_lt in M. rewrite M. reflexivity.
Qed.
Lemma grows_cons c cs : receive_all rbuf0 (grows (c :: cs)) =
  (do x <- receive true (fun _ => 170) rbuf0 c; do y <- receive_all (fst x) (grows cs); Ok (fst y, snd x ++ snd y)).
Proof. reflexivity. Qed.
(** A chunk above the cap is dropped alone, so that the rest of the stream starts
    in the middle. *)
Theorem C56_cap_refuted : ~ (forall cs1 cs2, concat cs1 = concat cs2 -> nul_free (concat cs1) ->
  seen (receive_all rbuf0 (grows cs1)) = seen (receive_all rbuf0 (grows cs2))).
Proof.
  intros H.
  pose proof (repeat_length 32 (N.to_nat 10485760)) as L. pose proof (N2Nat.id 10485760) as K. revert L K.
  assert (NFr : nul_free (repeat 32 (N.to_nat 10485760))) by (intros Z; apply repeat_spec in Z; discriminate).
  revert NFr. generalize (repeat 32 (N.to_nat 10485760)) as w. generalize (N.to_nat 10485760) as k. intros k w NFr L K.
  pose (m := bs "[""NOTICE"",""x""]").
  assert (NF : nul_free (w ++ m)).
  { intros Z. apply in_app_or in Z. destruct Z as [Z|Z]; [exact (NFr Z)|]. cbn in Z. intuition discriminate. }
  specialize (H [w ++ m] [w; m]). cbn [concat] in H. rewrite app_nil_r in H. specialize (H eq_refl NF).
  assert (W : w <> []) by (intros ->; cbn in L; rewrite <- L in K; discriminate).
  assert (X : seen (receive_all rbuf0 (grows [w ++ m])) = Ok []).
  { rewrite grows_cons. unfold rbuf0 at 1. rewrite receive_drop; [reflexivity| |cbn [length]; lia|].
    - destruct w; [congruence|discriminate].
    - rewrite app_length, L. unfold max_buffer_size. lia. }
  assert (Y : seen (receive_all rbuf0 (grows [w; m])) = Ok [m]).
  { rewrite grows_cons. unfold rbuf0 at 1. rewrite receive_drop; [|exact W|cbn [length]; lia|rewrite L; unfold max_buffer_size; lia].
    vm_compute. reflexivity. }
  rewrite X, Y in H. discriminate.
Qed.
(** Moreover a fragment of an event is then taken for a message of its own: an
    oversized event with a tag ["CLOSED","s","x"] ends the subscription s. *)
Definition hd_text : list N := bs "[""EVENT"",""s"",{""content"":""".
Definition mid_text : list N := bs """,""tags"":[".
Definition tag_text : list N := bs "[""CLOSED"",""s"",""x""]".
Lemma nested_quote q s r : quoted q -> r = 34 :: q ++ 34 :: s -> nested s -> nested r.
Proof. intros Q -> S. apply nested_string; assumption. Qed.
Ltac quoted_chars := repeat (apply quoted_char; [discriminate..|]); apply quoted_nil.
Theorem C56_fragment_refuted : ~ (forall cs ms b seen, carries (concat cs) ms -> nul_free (concat cs) ->
  receive_all rbuf0 (grows cs) = Ok (b, seen) -> incl seen ms).
Proof.
  intros H.
  pose proof (repeat_length 97 (N.to_nat 10485760)) as L. pose proof (N2Nat.id 10485760) as K. revert L K.
  assert (NFr : nul_free (repeat 97 (N.to_nat 10485760))) by (intros Z; apply repeat_spec in Z; discriminate).
  assert (Qr : quoted (repeat 97 (N.to_nat 10485760))).
  { generalize (N.to_nat 10485760) as k. induction k as [|k IH]; cbn [repeat]; constructor; try discriminate. exact IH. }
  revert NFr Qr. generalize (repeat 97 (N.to_nat 10485760)) as w. generalize (N.to_nat 10485760) as k. intros k w NFr Qr L K.
  pose (c1 := hd_text ++ w ++ mid_text). pose (c3 := bs "]}]").
  assert (W : w <> []) by (intros ->; cbn in L; rewrite <- L in K; discriminate).
  assert (A : array_text (c1 ++ tag_text ++ c3)).
  { exists (bs """EVENT"",""s"",{""content"":""" ++ w ++ mid_text ++ tag_text ++ bs "]}"). split.
    - unfold c1, c3, hd_text. rewrite <- !app_assoc. cbn [bs app]. rewrite <- ?app_assoc. reflexivity.
    - apply (nested_quote (bs "EVENT") (bs ",""s"",{""content"":""" ++ w ++ mid_text ++ tag_text ++ bs "]}")); [cbn; quoted_chars|reflexivity|].
      apply nested_char; [repeat split; discriminate|].
      apply (nested_quote (bs "s") (bs ",{""content"":""" ++ w ++ mid_text ++ tag_text ++ bs "]}")); [cbn; quoted_chars|reflexivity|].
      apply nested_char; [repeat split; discriminate|].
      pose proof (nested_object (bs """content"":""" ++ w ++ mid_text ++ tag_text ++ bs "]") []) as G.
      assert (EQ : 123 :: (bs """content"":""" ++ w ++ mid_text ++ tag_text ++ bs "]") ++ [125] =
                   bs "{""content"":""" ++ w ++ mid_text ++ tag_text ++ bs "]}").
      { change (bs "]}") with (bs "]" ++ [125]). rewrite !app_assoc. reflexivity. }
      rewrite EQ in G.
      apply G; [|apply nested_nil].
      apply (nested_quote (bs "content") (bs ":""" ++ w ++ mid_text ++ tag_text ++ bs "]")); [cbn; quoted_chars|reflexivity|].
      apply nested_char; [repeat split; discriminate|].
      apply (nested_quote w (bs ",""tags"":[" ++ tag_text ++ bs "]")); [exact Qr|reflexivity|].
      apply nested_char; [repeat split; discriminate|].
      apply (nested_quote (bs "tags") (bs ":[" ++ tag_text ++ bs "]")); [cbn; quoted_chars|reflexivity|].
      apply nested_char; [repeat split; discriminate|].
      apply (nested_array tag_text []); [|apply nested_nil].
      apply (nested_array (bs """CLOSED"",""s"",""x""") []); [|apply nested_nil].
      apply (nested_quote (bs "CLOSED") (bs ",""s"",""x""")); [cbn; quoted_chars|reflexivity|].
      apply nested_char; [repeat split; discriminate|].
      apply (nested_quote (bs "s") (bs ",""x""")); [cbn; quoted_chars|reflexivity|].
      apply nested_char; [repeat split; discriminate|].
      apply (nested_quote (bs "x") []); [cbn; quoted_chars|reflexivity|apply nested_nil]. }
  assert (NF : nul_free (c1 ++ tag_text ++ c3)).
  { intros Z. unfold c1 in Z. apply in_app_or in Z. destruct Z as [Z|Z]; [apply in_app_or in Z; destruct Z as [Z|Z]; [cbn in Z; intuition discriminate|apply in_app_or in Z; destruct Z as [Z|Z]; [exact (NFr Z)|cbn in Z; intuition discriminate]]|cbn in Z; intuition discriminate]. }
  assert (X : exists b, receive_all rbuf0 (grows [c1; tag_text; c3]) = Ok (b, [tag_text])).
  { rewrite grows_cons. unfold rbuf0 at 1. rewrite receive_drop.
    - cbn [bind fst snd]. eexists. vm_compute. reflexivity.
    - discriminate.
    - cbn [length]. lia.
    - unfold c1. rewrite !app_length, L. unfold max_buffer_size. lia. }
  destruct X as [b X].
  specialize (H [c1; tag_text; c3] [c1 ++ tag_text ++ c3] b [tag_text]).
  cbn [concat] in H. rewrite !app_nil_r in H.
  assert (Y : incl [tag_text] [c1 ++ tag_text ++ c3]).
  { apply H; [|exact NF|exact X].
    pose proof (carries_next [] (c1 ++ tag_text ++ c3) [] [] (Forall_nil _) A (carries_nil [] (Forall_nil _))) as C.
    cbn [app] in C. rewrite !app_nil_r in C. exact C. }
  specialize (Y tag_text (or_introl eq_refl)). destruct Y as [Y|[]].
  apply (f_equal (@length _)) in Y. unfold c1 in Y. rewrite !app_length in Y. cbn in Y. lia.
Qed.
(** C92 fails: once something other than white space or an array has arrived,
    nothing that follows is ever dispatched on this connection. *)
Theorem C92_stuck_refuted : forall cs x s, whole cs = x :: s -> x <> 91 -> ~ In x [10; 13; 32] -> nul_free (whole cs) -> kept rbuf0 cs ->
  exists b, receive_all rbuf0 cs = Ok (b, []).
Proof.
  intros cs x s W N91 NS NF K. destruct (receive_all_split cs rbuf0 [] holds0 NF K) as (b & E & _).
  exists b. rewrite E. cbn [app]. rewrite W. cbn [In] in NS.
  assert (B : skip_ws (x :: s) = x :: s).
  { cbn [skip_ws]. destruct (x =? 10) eqn:E1; [apply N.eqb_eq in E1; subst; tauto|].
    destruct (x =? 13) eqn:E2; [apply N.eqb_eq in E2; subst; tauto|].
    destruct (x =? 32) eqn:E3; [apply N.eqb_eq in E3; subst; tauto|]. reflexivity. }
  rewrite split_stop; [reflexivity|]. rewrite B. cbn [find_json_array_end]. apply N.eqb_neq in N91. rewrite N91. reflexivity.
Qed.
(** What does hold: the messages in front of it are dispatched, and blanks and line
    ends between messages do no harm. *)
Theorem C92_partial : forall cs s1 ms w t, whole cs = s1 ++ w ++ t -> carries s1 ms -> space w -> nul_free (whole cs) -> kept rbuf0 cs ->
  (forall ms2, carries t ms2 -> exists b, receive_all rbuf0 cs = Ok (b, ms ++ ms2)) /\
  (forall x u, t = x :: u -> x <> 91 -> ~ In x [10; 13; 32] -> exists b, receive_all rbuf0 cs = Ok (b, ms)).
Proof.
  intros cs s1 ms w t W C SP NF K. destruct (receive_all_split cs rbuf0 [] holds0 NF K) as (b & E & _). cbn [app] in E.
  assert (A : split (s1 ++ w ++ t) = (ms ++ fst (split t), snd (split t))).
  { rewrite (split_app (length s1) s1 (w ++ t) (le_n _)), (carries_split _ _ C). cbn [fst snd app].
    assert (Z : split (w ++ t) = split t) by (rewrite <- split_skip, space_skip by exact SP; apply split_skip).
    rewrite Z. reflexivity. }
  split.
  - intros ms2 C2. exists b. rewrite E, W, A, (carries_split _ _ C2). reflexivity.
  - intros x u -> N91 NS. exists b. rewrite E, W, A. cbn [In] in NS.
    assert (B : skip_ws (x :: u) = x :: u).
    { cbn [skip_ws]. destruct (x =? 10) eqn:E1; [apply N.eqb_eq in E1; subst; tauto|].
      destruct (x =? 13) eqn:E2; [apply N.eqb_eq in E2; subst; tauto|].
      destruct (x =? 32) eqn:E3; [apply N.eqb_eq in E3; subst; tauto|]. reflexivity. }
    rewrite split_stop; [cbn [fst]; rewrite app_nil_r; reflexivity|]. rewrite B. cbn [find_json_array_end]. apply N.eqb_neq in N91. rewrite N91. reflexivity.
Qed.
Theorem C92_refuted : ~ (forall junk cs ms, carries (concat cs) ms -> nul_free (concat (junk :: cs)) ->
  N.of_nat (length (concat (junk :: cs)) + 1024) <= 10 * 1024 * 1024 ->
  exists b got, receive_all rbuf0 (grows (junk :: cs)) = Ok (b, got) /\ incl ms got).
Proof.
  intros H. specialize (H (bs "pong") [bs "[1,2]"] [bs "[1,2]"]).
  destruct H as (b & got & E & I).
  - apply (carries_next [] (bs "[1,2]") []); [constructor| |apply (carries_nil []); constructor].
    exists (bs "1,2"). split; [reflexivity|]. repeat (apply nested_char; [repeat split; discriminate|]). apply nested_nil.
  - intros Z. cbn in Z. intuition discriminate.
  - cbn. discriminate.
  - assert (X : seen (receive_all rbuf0 (grows [bs "pong"; bs "[1,2]"])) = Ok []) by (vm_compute; reflexivity).
    rewrite E in X. unfold seen in X. cbn [bind snd] in X. injection X as ->. exact (I _ (or_introl eq_refl)).
Qed.
Example C92_meets : whole (grows [bs "pong"; bs "[""NOTICE"",""x""]"]) = bs "pong[""NOTICE"",""x""]" /\
  seen (receive_all rbuf0 (grows [bs "pong"; bs "[""NOTICE"",""x""]"])) = Ok [] /\
  seen (receive_all rbuf0 (grows [bs "[""NOTICE"",""x""]"])) = Ok [bs "[""NOTICE"",""x""]"].
Proof. split; [reflexivity|]. split; vm_compute; reflexivity. Qed.
(** Two messages cut at an awkward place *)
Example C56_meets : let s1 := bs "[""NOTICE"",""a]\""""]" in let s2 := bs "[""EOSE"",""s"",{}]" in
  carries (concat [firstn 13 s1; skipn 13 s1 ++ [10]; s2]) [s1; s2] /\
  seen (receive_all rbuf0 (grows [firstn 13 s1; skipn 13 s1 ++ [10]; s2])) = Ok [s1; s2] /\
  seen (receive_all rbuf0 (grows (map (fun c => [c]) (s1 ++ [10] ++ s2)))) = Ok [s1; s2].
Proof.
  cbn zeta. split; [|split; vm_compute; reflexivity].
  apply (carries_next [] (bs "[""NOTICE"",""a]\""""]") ([10] ++ bs "[""EOSE"",""s"",{}]")).
  - constructor.
  - exists (bs """NOTICE"",""a]\"""""). split; [reflexivity|].
    apply (nested_quote (bs "NOTICE") (bs ",""a]\""""")); [cbn; quoted_chars|reflexivity|].
    apply nested_char; [repeat split; discriminate|].
    apply (nested_quote (bs "a]\""") []); [|reflexivity|apply nested_nil].
    cbn. repeat (apply quoted_char; [discriminate..|]). apply quoted_escape; [discriminate|]. apply quoted_nil.
  - apply (carries_next [10] (bs "[""EOSE"",""s"",{}]") []).
    + constructor; [auto|constructor].
    + exists (bs """EOSE"",""s"",{}"). split; [reflexivity|].
      apply (nested_quote (bs "EOSE") (bs ",""s"",{}")); [cbn; quoted_chars|reflexivity|].
      apply nested_char; [repeat split; discriminate|].
      apply (nested_quote (bs "s") (bs ",{}")); [cbn; quoted_chars|reflexivity|].
      apply nested_char; [repeat split; discriminate|].
      apply (nested_object [] []); apply nested_nil.
    + apply (carries_nil []). constructor.
Qed.

(** The buffer grows, keeps what is pending, and is emptied *)
Example C57_meets : match receive_all rbuf0 (grows [bs "[""a"; repeat 97 1200; bs """,1]"; [91]]) with
  | Ok (b, ms) => length (rb_mem b) = 2227%nat /\ rb_pos b = 1%nat /\ map (@length N) ms = [1207%nat]
  | _ => False end.
Proof. vm_compute. auto. Qed.

Print Assumptions C57_bounded.
Print Assumptions C56_chunking.
Print Assumptions C56_short.
Print Assumptions C56_messages.
Print Assumptions C56_nul_refuted.
Print Assumptions C56_cap_refuted.
Print Assumptions C56_fragment_refuted.
Print Assumptions C92_refuted.
Print Assumptions C92_partial.
