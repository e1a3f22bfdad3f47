(** C47, C48, C82. *)
From Coq Require Import Permutation.
From Verif Require Import Base BaseFacts Hex HexSpec HexProofs Base64 Nip44 Nip21 Nip44Spec Nip44Proofs Nip44Props Event GiftWrap GiftWrapProps Nip18 Nip18Spec Nip18Props Nip51 Nip51Spec.
Open Scope N_scope.

(** * C47 *)
Lemma max_items : N.of_nat MAX_ITEM_COUNT = 4096. Proof. apply N2Nat.id. Qed.
Record inv (a : larr) (l : list item) : Prop := mkInv {
  iv_cells : exists cells k, a_slots a = map Some cells ++ repeat None k /\ a_count a = length cells /\ l = map snd cells
    /\ Permutation (a_live a) (map fst cells) /\ NoDup (map fst cells) /\ Forall (fun i => (i < a_next a)%nat) (map fst cells);
  iv_cap : (1 <= length (a_slots a) <= MAX_ITEM_COUNT)%nat }.
Lemma inv_create : inv arr_create [].
Proof.
  split.
  - exists [], INITIAL_CAPACITY. cbn. repeat split; constructor.
  - pose proof max_items. cbn. lia.
Qed.
Lemma set_slot_at (a : list (option (nat * item))) k x y : set_slot (a ++ repeat x (S k)) (length a) y = Ok (a ++ y :: repeat x k).
Proof.
  unfold set_slot. rewrite app_length, repeat_length. destruct (Nat.ltb_spec (length a) (length a + S k)); [|lia].
  rewrite (firstn_app_exact a _ _ eq_refl). do 3 f_equal. cbn [repeat].
  change (a ++ x :: repeat x k) with (a ++ ([x] ++ repeat x k)). rewrite app_assoc. apply skipn_app_exact. rewrite app_length. cbn. lia.
Qed.
Lemma ensure_spec g a l : inv a l ->
  (length l < MAX_ITEM_COUNT /\ exists a1 cells k, ensure_capacity g a = Ok a1 /\ inv a1 l /\ a_slots a1 = map Some cells ++ repeat None (S k)
     /\ a_count a1 = length cells /\ l = map snd cells /\ Permutation (a_live a1) (map fst cells) /\ NoDup (map fst cells) /\ Forall (fun i => (i < a_next a1)%nat) (map fst cells))%nat
  \/ (ensure_capacity g a = Err EMemory /\ (length l = MAX_ITEM_COUNT \/ g = false)).
Proof.
  intros ((cells & k & SL & CT & LL & PM & ND & LT) & CAP).
  assert (CL : length (a_slots a) = (length cells + k)%nat) by (rewrite SL, app_length, map_length, repeat_length; reflexivity).
  assert (L : length l = length cells) by (rewrite LL, map_length; reflexivity).
  unfold ensure_capacity. destruct (Nat.leb_spec (length (a_slots a)) (a_count a)) as [F|F].
  - assert (k = 0%nat) by lia. subst k. destruct (Nat.leb_spec (Nat.min (length (a_slots a) * 2) MAX_ITEM_COUNT) (a_count a)) as [G|G].
    + right. split; [reflexivity|]. left. lia.
    + destruct g; [left|right; split; [reflexivity|right; reflexivity]]. split; [lia|].
      cbn [negb]. set (nc := Nat.min _ _) in *. exists (mkArr (a_slots a ++ repeat None (nc - length (a_slots a))) (a_count a) (a_live a) (a_next a)), cells, (nc - length (a_slots a) - 1)%nat.
      cbn [a_slots a_count a_live a_next].
      assert (E : a_slots a ++ repeat None (nc - length (a_slots a)) = map Some cells ++ repeat None (S (nc - length (a_slots a) - 1))).
      { replace (S (nc - length (a_slots a) - 1)) with (nc - length (a_slots a))%nat by lia. rewrite SL at 1. cbn [repeat]. rewrite app_nil_r. reflexivity. }
      split; [reflexivity|]. split; [|auto 10].
      split; [exists cells, (S (nc - length (a_slots a) - 1)); cbn [a_slots a_count a_live a_next]; auto 10|].
      cbn [a_slots]. rewrite app_length, repeat_length. lia.
  - left. split; [lia|]. exists a, cells, (k - 1)%nat. split; [reflexivity|]. split; [split; [exists cells, k; auto 10|exact CAP]|].
    replace (S (k - 1)) with k by lia. auto 10.
Qed.
Lemma add_spec g d a l x o : inv a l -> asks o x -> exists a' r l', add_item g d a x = Ok (a', r) /\ edits o (g, d) l l' r /\ inv a' l'.
Proof.
  intros I K. unfold add_item. destruct (ensure_spec g a l I) as [(R & a1 & cells & k & E & I1 & SL & CT & LL & PM & ND & LT)|(E & W)]; rewrite E.
  - rewrite SL, CT.
    assert (SS : forall y, set_slot (map Some cells ++ repeat None (S k)) (length cells) y = Ok (map Some cells ++ y :: repeat None k)).
    { intros y. rewrite <- (map_length Some cells). apply set_slot_at. }
    pose proof max_items as MX. pose proof (iv_cap _ _ I1) as CAP.
    destruct d; rewrite SS; cbn [bind].
    + eexists _, _, (l ++ [x]). split; [reflexivity|]. split; [apply EdAdd; [exact K|lia]|].
      split; [|cbn [a_slots]; rewrite SL in CAP; rewrite app_length in *; cbn [length repeat] in *; lia].
      exists (cells ++ [(a_next a1, x)]), k. cbn [a_slots a_count a_live a_next].
      rewrite !map_app, app_length. cbn [map app length fst snd]. rewrite <- app_assoc. cbn [app].
      split; [reflexivity|]. split; [lia|]. split; [rewrite LL; reflexivity|].
      split; [apply Permutation_trans with (a_next a1 :: map fst cells); [apply perm_skip, PM|apply Permutation_cons_append]|].
      split.
      * apply (Permutation_NoDup (l := a_next a1 :: map fst cells)); [apply Permutation_cons_append|]. constructor; [|exact ND].
        intros J. apply (proj1 (Forall_forall _ _) LT) in J. lia.
      * apply Forall_app. split; [|constructor; [lia|constructor]]. eapply Forall_impl; [|exact LT]. intros. cbv beta in *. lia.
    + eexists _, _, l. split; [reflexivity|]. split; [apply (EdMemory _ _ _ x); [exact K|congruence]|].
      split; [|cbn [a_slots]; rewrite SL in CAP; rewrite app_length in *; cbn [length repeat] in *; lia].
      exists cells, (S k). cbn [a_slots a_count a_live a_next repeat]. auto 10.
  - exists a, (Err EMemory), l. split; [reflexivity|]. split; [|exact I]. destruct W as [W| ->].
    + apply (EdFull _ _ _ x); [exact K|]. rewrite W. apply max_items.
    + apply (EdMemory _ _ _ x); [exact K|congruence].
Qed.
Lemma filter_nodup (k : nat) l1 l2 : NoDup (l1 ++ k :: l2) -> filter (fun j => negb (Nat.eqb k j)) (l1 ++ k :: l2) = l1 ++ l2.
Proof.
  intros ND. pose proof (NoDup_remove_2 _ _ _ ND) as NI.
  rewrite filter_app. cbn [filter]. rewrite Nat.eqb_refl. cbn [negb]. rewrite <- filter_app.
  revert NI. generalize (l1 ++ l2). intros l. induction l as [|j l IH]; intros NI; [reflexivity|].
  cbn [filter]. destruct (Nat.eqb_spec k j) as [->|]; [exfalso; apply NI; left; reflexivity|]. cbn [negb]. f_equal. apply IH. intros X. apply NI. right. exact X.
Qed.
Lemma filter_perm {A} (f : A -> bool) l1 l2 : Permutation l1 l2 -> Permutation (filter f l1) (filter f l2).
Proof.
  induction 1; cbn [filter]; try destruct (f x); try destruct (f y); eauto using Permutation.
Qed.
Lemma free_item_live live k x l1 l2 : Permutation live (l1 ++ k :: l2) -> NoDup (l1 ++ k :: l2) ->
  exists live', free_item live (Some (k, x)) = Ok live' /\ Permutation live' (l1 ++ l2).
Proof.
  intros PM ND. cbn [free_item]. assert (X : existsb (Nat.eqb k) live = true).
  { apply existsb_exists. exists k. split; [|apply Nat.eqb_refl]. apply (Permutation_in k (Permutation_sym PM)), in_elt. }
  rewrite X. eexists. split; [reflexivity|]. rewrite <- (filter_nodup k l1 l2 ND). apply filter_perm, PM.
Qed.
Lemma remove_spec a l i m : inv a l -> exists a' r l', list_remove a i = Ok (a', r) /\ edits (ORemove i) m l l' r /\ inv a' l'.
Proof.
  intros I. pose proof I as ((cells & k & SL & CT & LL & PM & ND & LT) & CAP). unfold list_remove.
  destruct (Nat.leb_spec (a_count a) i) as [F|F].
  { exists a, (Err EInvalidParam), l. split; [reflexivity|]. split; [|exact I]. apply EdNone. rewrite LL, map_length. lia. }
  assert (X : nth_error cells i <> None) by (apply nth_error_Some; lia).
  destruct (nth_error cells i) as [(id, x)|] eqn:E; [|congruence].
  apply nth_error_split in E as (c1 & c2 & EC & <-). subst cells. rewrite SL, CT.
  rewrite map_app, <- app_assoc. cbn [map app]. rewrite nth_error_app2; rewrite map_length; [|lia]. rewrite Nat.sub_diag. cbn [nth_error].
  rewrite map_app in PM, ND, LT. cbn [map fst] in PM, ND, LT.
  destruct (free_item_live (a_live a) id x _ _ PM ND) as (live' & FI & PM'). rewrite FI. cbn [bind].
  rewrite app_length. cbn [length].
  assert (ES : exists z, (if (length c1 <? length c1 + S (length c2) - 1)%nat
     then firstn (length c1) (map Some c1 ++ Some (id, x) :: map Some c2 ++ repeat None k) ++
          firstn (length c1 + S (length c2) - length c1 - 1) (skipn (length c1 + 1) (map Some c1 ++ Some (id, x) :: map Some c2 ++ repeat None k)) ++
          skipn (length c1 + S (length c2) - 1) (map Some c1 ++ Some (id, x) :: map Some c2 ++ repeat None k)
     else map Some c1 ++ Some (id, x) :: map Some c2 ++ repeat None k) = map Some (c1 ++ c2) ++ z :: repeat None k).
  { replace (length c1 + S (length c2) - length c1 - 1)%nat with (length c2) by lia.
    replace (length c1 + S (length c2) - 1)%nat with (length c1 + length c2)%nat by lia.
    destruct (Nat.ltb_spec (length c1) (length c1 + length c2)) as [G|G].
    - destruct (exists_last (l := c2)) as (c3 & y & ->); [intros ->; cbn in G; lia|].
      exists (Some y). rewrite <- (skipn_add _ (length c1) 1), <- (skipn_add _ (length c1) (length (c3 ++ [y]))).
      rewrite (firstn_app_exact (map Some c1)), (skipn_app_exact (map Some c1)) by (symmetry; apply map_length).
      cbn [skipn]. rewrite firstn_app_exact by (symmetry; apply map_length).
      rewrite !map_app, <- !app_assoc. f_equal. f_equal. rewrite app_length. cbn [length map app].
      f_equal. replace (length c3 + 1)%nat with (length (Some (id, x) :: map Some c3)) by (cbn [length]; rewrite map_length; lia).
      apply (skipn_app_exact (Some (id, x) :: map Some c3) (Some y :: repeat None k)). reflexivity.
    - destruct c2; [|cbn [length] in G; lia]. exists (Some (id, x)). rewrite app_nil_r. reflexivity. }
  destruct ES as (z & ->).
  replace (length c1 + S (length c2) - 1)%nat with (length (map Some (c1 ++ c2))) by (rewrite map_length, app_length; lia).
  assert (SS : set_slot (map Some (c1 ++ c2) ++ z :: repeat None k) (length (map Some (c1 ++ c2))) None = Ok (map Some (c1 ++ c2) ++ repeat None (S k))).
  { unfold set_slot. rewrite app_length. cbn [length]. destruct (Nat.ltb_spec (length (map Some (c1 ++ c2))) (length (map Some (c1 ++ c2)) + S (length (repeat (@None (nat * item)) k)))); [|lia].
    rewrite firstn_app_exact by reflexivity. do 2 f_equal. cbn [repeat]. f_equal. change (z :: repeat None k) with ([z] ++ repeat None k). rewrite app_assoc. apply skipn_app_exact. rewrite app_length. cbn. lia. }
  rewrite SS. cbn [bind]. eexists _, _, (map snd (c1 ++ c2)). split; [reflexivity|]. split.
  - rewrite LL. rewrite !map_app. cbn [map snd]. rewrite <- (map_length snd c1). apply EdRemove.
  - split.
    + exists (c1 ++ c2), (S k). cbn [a_slots a_count a_live a_next]. split; [reflexivity|]. split; [apply map_length|]. split; [reflexivity|].
      rewrite map_app. split; [exact PM'|]. split; [exact (NoDup_remove_1 _ _ _ ND)|].
      apply Forall_app in LT as (L1 & L2). apply Forall_app. split; [exact L1|]. inversion L2. assumption.
    + cbn [a_slots]. rewrite SL in CAP. rewrite !app_length, !map_length, app_length, !repeat_length in *. cbn [length] in *. lia.
Qed.
Lemma nonempty_iff s : nonempty s = true <-> s <> [].
Proof. destruct s; cbn; split; congruence. Qed.
Lemma add_if_spec ok g d a l x o : inv a l -> (forall i, o <> ORemove i) -> (ok = true -> asks o x) -> (ok = false -> forall y, ~ asks o y) ->
  exists a' r l', add_if ok g d a x = Ok (a', r) /\ edits o (g, d) l l' r /\ inv a' l'.
Proof.
  intros I NR K NK. destruct ok; cbn [add_if]; [apply add_spec; auto|].
  exists a, (Err EInvalidParam), l. split; [reflexivity|]. split; [apply EdBad; auto|exact I].
Qed.
Lemma do_op_spec g d a l o : inv a l -> exists a' r l', do_op g d a o = Ok (a', r) /\ edits o (g, d) l l' r /\ inv a' l'.
Proof.
  intros I.
  destruct o; cbn [do_op]; [| | | | | | | |apply remove_spec; exact I].
  all: apply add_if_spec; [exact I|congruence| |].
  all: try (intros K; rewrite ?andb_true_iff, ?nonempty_iff in K; unfold is_valid_hex64 in *; rewrite ?valid_hex_iff in K; constructor; tauto).
  all: intros K y Y; apply not_true_iff_false in K; apply K; rewrite ?andb_true_iff, ?nonempty_iff; unfold is_valid_hex64; rewrite ?valid_hex_iff; inversion Y; auto.
Qed.
Lemma run_spec os : forall a l, inv a l -> exists a' rs l', run a os = Ok (a', rs) /\ history l os l' rs /\ inv a' l'.
Proof.
  induction os as [|(o, (g, d)) os IH]; intros a l I.
  - exists a, [], l. split; [reflexivity|]. split; [constructor|exact I].
  - cbn [run]. destruct (do_op_spec g d a l o I) as (a1 & r & l1 & E & ED & I1). rewrite E. cbn [bind fst snd].
    destruct (IH a1 l1 I1) as (a2 & rs & l2 & E2 & H2 & I2). rewrite E2. cbn [bind fst snd].
    exists a2, (r :: rs), l2. split; [reflexivity|]. split; [econstructor; eauto|exact I2].
Qed.
Lemma get_spec a l i : inv a l -> list_get a i = Ok (nth_error l i).
Proof.
  intros ((cells & k & SL & CT & LL & _) & _). unfold list_get. destruct (Nat.leb_spec (a_count a) i) as [F|F].
  - rewrite (proj2 (nth_error_None l i)); [reflexivity|]. rewrite LL, map_length. lia.
  - rewrite SL, nth_error_app1 by (rewrite map_length; lia). rewrite LL, !nth_error_map.
    destruct (nth_error cells i) as [(id, x)|] eqn:E; [reflexivity|]. apply nth_error_None in E. lia.
Qed.
Lemma free_items_spec cells : forall rest live, Permutation live (map fst cells) -> NoDup (map fst cells) -> free_items (length cells) (map Some cells ++ rest) live = Ok [].
Proof.
  induction cells as [|(id, x) cells IH]; intros rest live PM ND.
  - apply Permutation_sym, Permutation_nil in PM. rewrite PM. reflexivity.
  - cbn [length free_items map app]. cbn [map fst] in PM, ND.
    destruct (free_item_live live id x [] (map fst cells) PM ND) as (live' & E & PM'). rewrite E. cbn [bind].
    apply IH; [exact PM'|]. inversion ND. assumption.
Qed.
Lemma free_spec a l : inv a l -> list_free a = Ok [].
Proof. intros ((cells & k & SL & CT & LL & PM & ND & _) & _). unfold list_free. rewrite SL, CT. apply free_items_spec; assumption. Qed.

(** Whatever calls are made on a new list and whichever allocations fail, every
    call is defined; the list holds what was added and not removed, in order; and
    releasing it leaves nothing allocated. *)
Theorem C47_list os : exists a rs l, run arr_create os = Ok (a, rs) /\ history [] os l rs /\ a_count a = length l /\ N.of_nat (length l) <= 4096
  /\ (forall i, list_get a i = Ok (nth_error l i)) /\ list_free a = Ok [].
Proof.
  destruct (run_spec os _ _ inv_create) as (a & rs & l & E & H & I). exists a, rs, l. split; [exact E|]. split; [exact H|].
  pose proof I as ((cells & k & SL & CT & LL & _) & CAP). pose proof max_items as MX.
  assert (CL : length (a_slots a) = (length cells + k)%nat) by (rewrite SL, app_length, map_length, repeat_length; reflexivity).
  split; [rewrite LL, map_length; exact CT|]. split; [rewrite LL, map_length; lia|].
  split; [intros i; apply get_spec, I|apply free_spec with l, I].
Qed.
Lemma asks_fun o x y : asks o x -> asks o y -> x = y.
Proof. intros A B. inversion A; subst; inversion B; reflexivity. Qed.
Lemma edits_fun o m l l1 l2 r : edits o m l l1 r -> edits o m l l2 r -> l1 = l2.
Proof.
  intros P Q. inversion P; subst; inversion Q; subst; try reflexivity; try (match goal with A : asks _ ?x, B : asks _ ?y |- _ => rewrite (asks_fun _ _ _ A B); reflexivity end).
  all: try (match goal with A : asks (ORemove _) _ |- _ => inversion A end).
  match goal with E : _ ++ _ :: _ = _ ++ _ :: _ |- _ => apply app_inv_length in E as (-> & F); [injection F as -> ->; reflexivity|lia] end.
Qed.
(** The answers tell the caller exactly what the list now holds. *)
Theorem C47_answers l os l1 l2 rs : history l os l1 rs -> history l os l2 rs -> l1 = l2.
Proof.
  intros A. revert l2. induction A as [l|l o m l1 r os l2 rs E A IH]; intros k B; inversion B; subst; [reflexivity|].
  apply IH. match goal with X : edits _ _ _ _ _ |- _ => rewrite (edits_fun _ _ _ _ _ _ E X) end. assumption.
Qed.
(** When allocation succeeds a well-formed addition is refused only by a full list. *)
Theorem C47_refused os o x : asks o x -> exists a rs l r, run arr_create (os ++ [(o, (true, true))]) = Ok (a, rs ++ [r]) /\ history [] os l rs
  /\ (r = Ok tt <-> N.of_nat (length l) < 4096).
Proof.
  intros K. destruct (run_spec os _ _ inv_create) as (a & rs & l & E & H & I).
  destruct (do_op_spec true true a l o I) as (a1 & r & l1 & E1 & ED & I1). exists a1, rs, l, r. split; [|split; [exact H|]].
  - clear H I. revert E. generalize arr_create. revert rs. induction os as [|(o', (g, d)) os IH]; intros rs c E.
    + cbn [run] in E. assert (c = a) by congruence. assert (rs = []) by congruence. subst. cbn [app run]. rewrite E1. reflexivity.
    + cbn [app run] in *. destruct (do_op g d c o') as [(c1, r1)| |]; try discriminate. cbn [bind fst snd] in *.
      destruct (run c1 os) as [(c2, rs2)| |] eqn:E2; try discriminate. cbn [bind fst snd] in E.
      assert (c2 = a) by congruence. assert (rs = r1 :: rs2) by congruence. subst. rewrite (IH rs2 c1 E2). reflexivity.
  - inversion ED; subst; try (split; [congruence|lia]); try congruence.
    + split; [intros _; assumption|reflexivity].
    + exfalso. eapply H1, K.
    + inversion K.
    + inversion K.
Qed.
Example C47_meets : exists a, run arr_create [(OHashtag (bs "a") false, (true, true)); (OPubkey (bs "xyz") None None true, (true, true));
    (OWord (bs "b") true, (true, false)); (OWord (bs "c") true, (true, true)); (OEmoji (bs "s") (bs "u") false, (true, true)); (ORemove 0, (true, true)); (ORemove 2, (true, true))]
    = Ok (a, [Ok tt; Err EInvalidParam; Err EMemory; Ok tt; Ok tt; Ok tt; Err EInvalidParam])
  /\ list_get a 0 = Ok (Some (mkItem (bs "word") (bs "c") None None true)) /\ a_count a = 2%nat.
Proof. eexists. vm_compute. auto. Qed.

(** * C48: writing stays in the buffer *)
Lemma escape_len s : N.of_nat (length (json_escape s)) = json_escaped_len s.
Proof.
  induction s as [|c s IH]; [reflexivity|]. unfold json_escape in *. cbn [flat_map json_escaped_len]. rewrite app_length, Nat2N.inj_add, IH. f_equal.
  unfold escape_char. destruct (c =? 34), (c =? 92), (c =? 10), (c =? 13), (c =? 9), (c <? 32); reflexivity.
Qed.
Lemma item_text_len x : N.of_nat (length (item_text x)) + 9 <= item_size x.
Proof.
  unfold item_text, item_size. rewrite <- !escape_len.
  destruct (it_relay x) as [r|], (it_pet x) as [p|]; cbn [length app bs]; repeat (rewrite app_length; cbn [length app]); rewrite <- ?escape_len; lia.
Qed.
Lemma buffer_size_spec l : forall acc n, buffer_size l acc = Some n -> acc <= n /\ forall first, acc + N.of_nat (length (items_text first l)) + (if (count_private l =? 0)%nat then 0 else 8) <= n.
Proof.
  unfold count_private. induction l as [|x l IH]; intros acc n E.
  - cbn [buffer_size] in E. assert (acc = n) by congruence. subst. split; [lia|]. cbn. intros. lia.
  - cbn [buffer_size items_text filter] in *. destruct (it_private x).
    + destruct (_ <? acc); [discriminate|]. destruct (IH _ _ E) as (A & B). split; [lia|]. intros first. specialize (B false).
      pose proof (item_text_len x). cbn [length Nat.eqb]. rewrite !app_length. destruct first; cbn [length bs]; destruct (length (filter it_private l) =? 0)%nat; lia.
    + apply IH, E.
Qed.
(** The text is never longer than the buffer computed for it, whatever the items. *)
Theorem C48_fits l : build_private_content l <> Undef.
Proof.
  unfold build_private_content. destruct (count_private l =? 0)%nat eqn:C; [congruence|].
  destruct (buffer_size l 2) as [n|] eqn:B; [|congruence]. destruct (buffer_size_spec l 2 n B) as (_ & H). specialize (H true). rewrite C in H.
  match goal with |- context [n <? ?x] => destruct (N.ltb_spec n x) as [L|L] end; [|congruence].
  rewrite !app_length in L. cbn [bs length] in L. lia.
Qed.

(** * C48: reading stays in bounds and ends *)
Lemma adv_ok s : cur s =? 0 = false -> exists r, adv s = Ok r /\ length s = S (length r).
Proof. destruct s as [|c r]; [discriminate|]. intros _. exists r. auto. Qed.
Lemma skip_string_ok fuel : forall s, (length s < fuel)%nat -> exists r, skip_string fuel s = Ok r /\ (length r <= length s)%nat.
Proof.
  induction fuel as [|fuel IH]; intros s L; [lia|]. cbn [skip_string].
  destruct (cur s =? 0) eqn:Z; [exists s; auto|]. destruct (cur s =? 34); [exists s; auto|]. cbn [orb].
  destruct (adv_ok s Z) as (r & E & LR). rewrite E. cbn [bind].
  destruct (cur s =? 92); cbn [andb].
  - destruct (cur r =? 0) eqn:Z2; cbn [negb].
    + destruct (IH r) as (q & E2 & L2); [lia|]. exists q. split; [exact E2|lia].
    + destruct (adv_ok r Z2) as (r2 & E2 & LR2). rewrite E2. cbn [bind]. destruct (IH r2) as (q & E3 & L3); [lia|]. exists q. split; [exact E3|lia].
  - destruct (IH r) as (q & E2 & L2); [lia|]. exists q. split; [exact E2|lia].
Qed.
Lemma put_ok max d c : N.of_nat (length d) <= max -> put max d c = Ok (d ++ [c]).
Proof. intros H. unfold put. destruct (N.ltb_spec max (N.of_nat (length d))); [lia|reflexivity]. Qed.
Lemma puts_ok max cs : forall d, N.of_nat (length d + length cs) <= max -> puts max d cs = Ok (d ++ cs).
Proof.
  induction cs as [|c cs IH]; intros d H; [rewrite app_nil_r; reflexivity|]. cbn [puts length] in *. rewrite put_ok by lia. cbn [bind].
  rewrite IH by (rewrite app_length; cbn [length]; lia). rewrite <- app_assoc. reflexivity.
Qed.
Lemma put_q_ok max d : N.of_nat (length d) <= max -> exists d', put_q max d = Ok d' /\ N.of_nat (length d') <= max.
Proof.
  intros H. unfold put_q. destruct (N.ltb_spec (N.of_nat (length d)) max) as [L|L]; [|exists d; auto].
  rewrite put_ok by exact H. eexists. split; [reflexivity|]. rewrite app_length. cbn [length]. lia.
Qed.
Lemma encode_utf8_ok max d cp t : N.of_nat (length d) <= max -> exists d' t', encode_utf8 max d cp t = Ok (d', t') /\ N.of_nat (length d') <= max.
Proof.
  intros H. unfold encode_utf8.
  destruct (cp <=? 127); [|destruct (cp <=? 2047); [|destruct (cp <=? 65535); [|destruct (cp <=? 1114111)]]].
  1: destruct (N.ltb_spec (N.of_nat (length d)) max) as [L|L].
  3,4,5: match goal with |- context [?a <=? ?b] => destruct (N.leb_spec a b) as [L|L] end.
  1,3,5,7: (rewrite puts_ok by (cbn [length]; lia); cbn [bind]; eexists _, _; split; [reflexivity|]; rewrite app_length; cbn [length]; lia).
  all: try (exists d, true; split; [reflexivity|exact H]).
  destruct (put_q_ok max d H) as (d' & E & L). rewrite E. cbn [bind]. eauto.
Qed.
Lemma parse_hex4_len s v r : parse_hex4 s = Some (v, r) -> length s = (4 + length r)%nat.
Proof.
  destruct s as [|a [|b [|c [|d s]]]]; cbn [parse_hex4]; try discriminate.
  destruct (hex_nibble a), (hex_nibble b), (hex_nibble c), (hex_nibble d); try discriminate. intros E. assert (s = r) by congruence. subst. reflexivity.
Qed.
Lemma unicode_ok max d t s : N.of_nat (length d) <= max -> exists d' t' r, unicode_escape max d t s = Ok (d', t', r) /\ N.of_nat (length d') <= max /\ (length r <= length s)%nat.
Proof.
  intros H. unfold unicode_escape. destruct (put_q_ok max d H) as (dq & EQ & LQ). rewrite EQ. cbn [bind].
  destruct (parse_hex4 s) as [(hi, s1)|] eqn:P; [|exists dq, t, s; auto]. apply parse_hex4_len in P.
  destruct ((55296 <=? hi) && (hi <=? 56319)).
  - destruct ((cur s1 =? 92) && (cur (skipn 1 s1) =? 117)); [|exists dq, t, s1; repeat split; [exact LQ|lia]].
    pose proof (skipn_length 2 s1) as SL. destruct (parse_hex4 (skipn 2 s1)) as [(lo, s3)|] eqn:P2; [|exists dq, t, (skipn 2 s1); repeat split; [exact LQ|lia]].
    apply parse_hex4_len in P2. destruct ((56320 <=? lo) && (lo <=? 57343)); [|exists dq, t, s3; repeat split; [exact LQ|lia]].
    match goal with |- context [encode_utf8 max d ?cp t] => destruct (encode_utf8_ok max d cp t H) as (d' & t' & E & L) end.
    rewrite E. cbn [bind fst snd]. exists d', t', s3. repeat split; [exact L|lia].
  - destruct ((56320 <=? hi) && (hi <=? 57343)); [exists dq, t, s1; repeat split; [exact LQ|lia]|].
    destruct (encode_utf8_ok max d hi t H) as (d' & t' & E & L). rewrite E. cbn [bind fst snd]. exists d', t', s1. repeat split; [exact L|lia].
Qed.
Lemma read_string_ok fuel : forall max d t s, (length s < fuel)%nat -> N.of_nat (length d) <= max ->
  exists d' t' r, read_string fuel max d t s = Ok (d', t', r) /\ N.of_nat (length d') <= max /\ (length r <= length s)%nat.
Proof.
  induction fuel as [|fuel IH]; intros max d t s L H; [lia|]. cbn [read_string].
  destruct (cur s =? 0) eqn:Z; [exists d, t, s; auto|]. destruct (cur s =? 34); [exists d, t, s; auto|]. cbn [orb].
  destruct (N.leb_spec max (N.of_nat (length d))) as [F|F].
  { destruct (skip_string_ok (S (length s)) s) as (r & E & LR); [lia|]. rewrite E. cbn [bind]. exists d, true, r. auto. }
  destruct (adv_ok s Z) as (r & E & LR). rewrite E. cbn [bind].
  assert (PUT : forall c q, (length q <= length r)%nat -> exists d' t' r0, (do d0 <- put max d c; read_string fuel max d0 t q) = Ok (d', t', r0) /\ N.of_nat (length d') <= max /\ (length r0 <= length s)%nat).
  { intros c q LQ. rewrite put_ok by exact H. cbn [bind]. destruct (IH max (d ++ [c]) t q) as (d' & t' & r0 & E0 & A & B); [lia|rewrite app_length; cbn [length]; lia|].
    exists d', t', r0. split; [exact E0|]. split; [exact A|lia]. }
  destruct (cur s =? 92); cbn [andb]; [|apply PUT; lia].
  destruct (cur r =? 0) eqn:Z2; cbn [negb]; [apply PUT; lia|].
  destruct (adv_ok r Z2) as (r2 & E2 & LR2). rewrite E2. cbn [bind]. destruct (cur r =? 117); [|apply PUT; lia].
  destruct (unicode_ok max d t r2 H) as (d1 & t1 & r3 & E3 & L3 & M3). rewrite E3. cbn [bind].
  destruct (IH max d1 t1 r3) as (d' & t' & r0 & E0 & A & B); [lia|exact L3|]. exists d', t', r0. split; [exact E0|]. split; [exact A|lia].
Qed.
Lemma skip_ws_len s : (length (skip_ws s) <= length s)%nat.
Proof. induction s as [|c s IH]; cbn [skip_ws]; [lia|]. destruct (_ || _ || _ || _ || _); cbn [length]; lia. Qed.
Lemma to_quote_len s : (length (to_quote s) <= length s)%nat.
Proof. induction s as [|c s IH]; cbn [to_quote]; [lia|]. destruct (_ || _); cbn [length]; lia. Qed.
Lemma skip_quote_len s : (length (skip_quote s) <= length s)%nat.
Proof. unfold skip_quote. destruct (cur s =? 34); [|lia]. rewrite skipn_length. lia. Qed.
Lemma until_nul_len s : (length (until_nul s) <= length s)%nat.
Proof. induction s as [|c s IH]; cbn [until_nul]; [lia|]. destruct (c =? 0); cbn [length]; lia. Qed.
Definition in_bufs (b : bufs) : Prop :=
  N.of_nat (length (b_tag b)) < 64 /\ N.of_nat (length (b_value b)) < 1024 /\ N.of_nat (length (b_relay b)) < 512 /\ N.of_nat (length (b_pet b)) < 256
  /\ ~ In 0 (b_tag b) /\ ~ In 0 (b_value b) /\ ~ In 0 (b_relay b) /\ ~ In 0 (b_pet b).
Lemma until_nul_no s : ~ In 0 (until_nul s).
Proof. destruct (until_nul_spec s) as (b & _ & N & _). exact N. Qed.
Lemma read_fields_ok fuel : forall field b s, (length s < fuel)%nat -> in_bufs b ->
  (exists b' r, read_fields fuel field b s = Ok (b', r) /\ in_bufs b' /\ (length r <= length s)%nat) \/ read_fields fuel field b s = Err EJsonParse.
Proof.
  induction fuel as [|fuel IH]; intros field b s L B; [lia|]. cbn [read_fields].
  destruct (cur s =? 0) eqn:Z; [left; exists b, s; auto|]. destruct (cur s =? 93); [left; exists b, s; auto|]. cbn [orb].
  pose proof (skip_ws_len s) as WL. destruct (cur (skip_ws s) =? 93); [left; exists b, (skip_ws s); auto|].
  destruct (cur (skip_ws s) =? 34) eqn:Q; [|right; reflexivity]. cbn [negb].
  destruct (adv_ok (skip_ws s)) as (s2 & E2 & L2); [apply N.eqb_eq in Q; rewrite Q; reflexivity|]. rewrite E2. cbn [bind].
  destruct (field_max field) as [max|] eqn:FM.
  - destruct (read_string_ok (S (length s2)) max [] false s2) as (d & t & s3 & E3 & L3 & M3); [lia|cbn; lia|]. rewrite E3. cbn [bind].
    destruct (N.ltb_spec max (N.of_nat (length d))); [lia|]. destruct t; [right; reflexivity|].
    pose proof (skip_quote_len s3) as SQ. pose proof (until_nul_len d) as UL. pose proof (until_nul_no d) as UN.
    destruct (IH (S field) (set_field field b (until_nul d)) (skip_quote s3)) as [(b' & r & E & B' & LR)|E]; [lia| |left; exists b', r; split; [exact E|split; [exact B'|lia]]|right; exact E].
    destruct B as (B1 & B2 & B3 & B4 & B5 & B6 & B7 & B8).
    destruct field as [|[|[|[|field]]]]; cbn [field_max] in FM; try discriminate; assert (max = _) by (symmetry; injection FM as X; exact X); subst max;
      unfold in_bufs; cbn [set_field b_tag b_value b_relay b_pet]; repeat split; auto; lia.
  - pose proof (to_quote_len s2) as TQ. pose proof (skip_quote_len (to_quote s2)) as SQ.
    destruct (IH (S field) b (skip_quote (to_quote s2))) as [(b' & r & E & B' & LR)|E]; [lia|exact B|left; exists b', r; split; [exact E|split; [exact B'|lia]]|right; exact E].
Qed.
(** What the reader may produce: whole private items whose strings fit its fields. *)
Definition read_item (x : item) : Prop :=
  it_private x = true /\ fits x /\ (forall r, it_relay x = Some r -> r <> []) /\ (forall p, it_pet x = Some p -> p <> []).
Lemma read_items_ok fuel : forall l s, (length s < fuel)%nat ->
  (exists new, read_items fuel l s = Ok (l ++ new) /\ Forall read_item new /\ (new = [] \/ N.of_nat (length (l ++ new)) <= 4096)) \/ read_items fuel l s = Err EJsonParse \/ read_items fuel l s = Err EMemory.
Proof.
  induction fuel as [|fuel IH]; intros l s L; [lia|]. cbn [read_items].
  assert (NIL : exists new, Ok l = Ok (l ++ new) /\ Forall read_item new /\ (new = [] \/ N.of_nat (length (l ++ new)) <= 4096)).
  { exists []. rewrite app_nil_r. auto. }
  destruct (cur s =? 0) eqn:Z; [left; exact NIL|]. pose proof (skip_ws_len s) as WL.
  destruct (cur (skip_ws s) =? 93); [left; exact NIL|]. destruct (cur (skip_ws s) =? 91) eqn:Q; [|right; left; reflexivity]. cbn [negb].
  destruct (adv_ok (skip_ws s)) as (s2 & E2 & L2); [apply N.eqb_eq in Q; rewrite Q; reflexivity|]. rewrite E2. cbn [bind].
  destruct (read_fields_ok (S (S (length s2))) 0 no_bufs s2) as [(b & s3 & E3 & B & L3)|E3]; [lia| | |].
  { unfold in_bufs, no_bufs. cbn. repeat split; (lia || tauto). }
  2: rewrite E3; right; left; reflexivity.
  rewrite E3. cbn [bind]. set (s4 := if cur s3 =? 93 then skipn 1 s3 else s3).
  assert (L4 : (length s4 < fuel)%nat) by (subst s4; destruct (cur s3 =? 93); rewrite ?skipn_length; lia).
  destruct (nonempty (b_tag b) && nonempty (b_value b)) eqn:NE; [|apply IH, L4].
  apply andb_true_iff in NE as (N1 & N2). apply nonempty_iff in N1, N2. unfold push_item. pose proof max_items as MX.
  destruct (Nat.leb_spec MAX_ITEM_COUNT (length l)) as [F|F]; [right; right; reflexivity|]. cbn [bind].
  set (x := mkItem _ _ _ _ _).
  destruct (IH (l ++ [x]) s4 L4) as [(new & E & FA & SZ)|[E|E]]; [|right; left; exact E|right; right; exact E].
  left. exists (x :: new). rewrite E, <- app_assoc. split; [reflexivity|]. split.
  - constructor; [|exact FA]. destruct B as (B1 & B2 & B3 & B4 & _). subst x. unfold read_item, fits, opt_of. cbn [it_private it_tag it_value it_relay it_pet].
    split; [reflexivity|]. split; [split; [exact N1|]; split; [exact N2|]; split; [exact B1|]; split; [exact B2|]; split; intros r|split; intros r].
    + destruct (nonempty (b_relay b)) eqn:NR; [|discriminate]. intros X. assert (r = b_relay b) by congruence. subst. exact B3.
    + destruct (nonempty (b_pet b)) eqn:NR; [|discriminate]. intros X. assert (r = b_pet b) by congruence. subst. exact B4.
    + destruct (nonempty (b_relay b)) eqn:NR; [|discriminate]. intros X. assert (r = b_relay b) by congruence. subst. apply nonempty_iff, NR.
    + destruct (nonempty (b_pet b)) eqn:NR; [|discriminate]. intros X. assert (r = b_pet b) by congruence. subst. apply nonempty_iff, NR.
  - right. destruct SZ as [->|SZ].
    + rewrite app_length. cbn [length]. lia.
    + rewrite <- app_assoc in SZ. exact SZ.
Qed.
Lemma to_bracket_len s : (length (to_bracket s) <= length s)%nat.
Proof. induction s as [|c s IH]; cbn [to_bracket]; [lia|]. destruct (_ || _); cbn [length]; lia. Qed.
(** Reading any text at all stays inside the text and the four buffers, ends, keeps
    the items the list had and adds only private items with a type and a value. *)
Theorem C48_parse_defined s l :
  (exists new, parse_private_content s l = Ok (l ++ new) /\ Forall read_item new /\ (new = [] \/ N.of_nat (length (l ++ new)) <= 4096))
  \/ parse_private_content s l = Err EJsonParse \/ parse_private_content s l = Err EMemory.
Proof.
  unfold parse_private_content. destruct (length s <? 2)%nat; [left; exists []; rewrite app_nil_r; auto|].
  destruct (cur (to_bracket s) =? 0) eqn:Z; [right; left; reflexivity|]. destruct (adv_ok _ Z) as (r & E & LR). rewrite E. cbn [bind]. apply read_items_ok. lia.
Qed.

(** * C48: what was written is read *)
Lemma nibble_hexdigit v : v < 16 -> hex_nibble (hexdigit v) = Some v.
Proof. intros H. apply nibble_hexdig, hexdig_hexdigit, H. Qed.
Lemma read_char fuel max d t c tail : char_ok c -> N.of_nat (length d) < max ->
  read_string (S fuel) max d t (escape_char c ++ tail) = read_string fuel max (d ++ [c]) t tail.
Proof.
  intros (C0 & C1) R. assert (F : max <=? N.of_nat (length d) = false) by (apply N.leb_gt; exact R).
  assert (PUT : put max d c = Ok (d ++ [c])) by (apply put_ok; lia).
  unfold escape_char. repeat match goal with |- context [if c =? ?k then [_; _] else _] =>
    destruct (N.eqb_spec c k) as [->|]; [cbn [app read_string cur adv bind]; cbn [N.eqb Pos.eqb orb andb negb]; rewrite F; rewrite PUT; reflexivity|] end.
  destruct (N.ltb_spec c 32) as [L|L].
  - cbn [app read_string cur adv bind]. cbn [N.eqb Pos.eqb orb andb negb]. rewrite F. unfold unicode_escape. cbn [parse_hex4].
    change (hex_nibble 48) with (Some 0). rewrite !nibble_hexdigit by (try apply N.mod_lt; try (apply N.div_lt_upper_bound); lia).
    assert (V : ((0 * 16 + 0) * 16 + c / 16) * 16 + c mod 16 = c) by (pose proof (N.div_mod c 16); lia). rewrite V.
    destruct (N.leb_spec 55296 c); [lia|]. destruct (N.leb_spec 56320 c); [lia|]. cbn [andb].
    unfold encode_utf8. destruct (N.leb_spec c 127); [|lia]. destruct (N.ltb_spec (N.of_nat (length d)) max); [|lia].
    cbn [puts]. rewrite PUT. reflexivity.
  - cbn [app read_string cur adv bind]. destruct (N.eqb_spec c 0); [lia|]. destruct (N.eqb_spec c 34); [lia|]. destruct (N.eqb_spec c 92); [lia|].
    cbn [orb andb]. rewrite F, PUT. reflexivity.
Qed.
Lemma read_escaped v : forall fuel max d t rest, cstr_ok v -> N.of_nat (length d + length v) <= max -> (length v < fuel)%nat ->
  read_string fuel max d t (json_escape v ++ 34 :: rest) = Ok (d ++ v, t, 34 :: rest).
Proof.
  induction v as [|c v IH]; intros fuel max d t rest C R L; (destruct fuel as [|fuel]; [lia|]).
  - rewrite app_nil_r. reflexivity.
  - inversion C as [|? ? C1 C2]; subst. cbn [length] in *. unfold json_escape in *. cbn [flat_map]. rewrite <- app_assoc.
    rewrite read_char; [|exact C1|lia]. rewrite IH; [|exact C2|rewrite app_length; cbn [length]; lia|lia]. rewrite <- app_assoc. reflexivity.
Qed.
Lemma escape_longer v : (length v <= length (json_escape v))%nat.
Proof.
  induction v as [|c v IH]; [cbn; lia|]. unfold json_escape in *. cbn [flat_map]. rewrite app_length.
  assert (1 <= length (escape_char c))%nat by (unfold escape_char; destruct (c =? 34), (c =? 92), (c =? 10), (c =? 13), (c =? 9), (c <? 32); cbn [length]; lia). cbn [length]. lia.
Qed.
Lemma read_field fuel field b comma v rest max : field_max field = Some max -> cstr_ok v -> N.of_nat (length v) <= max ->
  read_fields (S fuel) field b ((if comma : bool then [44] else []) ++ 34 :: json_escape v ++ 34 :: rest) = read_fields fuel (S field) (set_field field b v) rest.
Proof.
  intros FM C R.
  assert (GO : read_fields (S fuel) field b (34 :: json_escape v ++ 34 :: rest) = read_fields fuel (S field) (set_field field b v) rest).
  { cbn [read_fields cur skip_ws adv bind]. cbn [N.eqb Pos.eqb orb negb]. cbn [cur adv bind]. cbn [N.eqb Pos.eqb orb negb]. rewrite FM.
    rewrite read_escaped; [|exact C|cbn [length]; lia|rewrite app_length; cbn [length]; pose proof (escape_longer v); lia].
    cbn [bind app]. destruct (N.ltb_spec max (N.of_nat (length v))); [lia|]. rewrite until_nul_cstr by exact C. reflexivity. }
  destruct comma; [|exact GO]. cbn [app]. rewrite <- GO. reflexivity.
Qed.
Lemma read_end fuel field b rest : read_fields (S fuel) field b (93 :: rest) = Ok (b, 93 :: rest).
Proof. reflexivity. Qed.
Definition shown (s : option (list N)) : list N := match s with Some r => r | None => [] end.
Lemma read_item_text fuel x rest : fits x -> strings_ok x ->
  read_fields (5 + fuel) 0 no_bufs (skipn 1 (item_text x) ++ rest) = Ok (mkBufs (it_tag x) (it_value x) (shown (it_relay x)) (shown (it_pet x)), 93 :: rest).
Proof.
  intros (T0 & V0 & T & V & RL & PL) (CT & CV & CR & CP). destruct x as [tag v relay pet priv]. cbn [it_tag it_value it_relay it_pet] in *.
  assert (E : skipn 1 (item_text (mkItem tag v relay pet priv)) ++ rest = (if false then [44] else []) ++ 34 :: json_escape tag ++ 34 :: (if true then [44] else []) ++ 34 :: json_escape v ++ 34 ::
     match relay, pet with
     | Some r, Some p => (if true then [44] else []) ++ 34 :: json_escape r ++ 34 :: (if true then [44] else []) ++ 34 :: json_escape p ++ 34 :: 93 :: rest
     | Some r, None => (if true then [44] else []) ++ 34 :: json_escape r ++ 34 :: 93 :: rest
     | None, Some p => (if true then [44] else []) ++ 34 :: json_escape [] ++ 34 :: (if true then [44] else []) ++ 34 :: json_escape p ++ 34 :: 93 :: rest
     | None, None => 93 :: rest
     end).
  { unfold item_text. cbn [it_tag it_value it_relay it_pet bs app skipn]. destruct relay as [r|], pet as [p|]; repeat (rewrite <- ?app_assoc; cbn [app]); reflexivity. }
  rewrite E. cbn [Nat.add].
  rewrite (read_field _ 0 _ false _ _ 63 eq_refl CT ltac:(lia)). rewrite (read_field _ 1 _ true _ _ 1023 eq_refl CV ltac:(lia)).
  destruct relay as [r|].
  - specialize (RL r eq_refl). specialize (CR r eq_refl). destruct pet as [p|].
    + specialize (PL p eq_refl). specialize (CP p eq_refl).
      rewrite (read_field _ 2 _ true _ _ 511 eq_refl CR ltac:(lia)). rewrite (read_field _ 3 _ true _ _ 255 eq_refl CP ltac:(lia)). reflexivity.
    + rewrite (read_field _ 2 _ true _ _ 511 eq_refl CR ltac:(lia)). reflexivity.
  - destruct pet as [p|].
    + specialize (PL p eq_refl). specialize (CP p eq_refl).
      rewrite (read_field _ 2 _ true _ _ 511 eq_refl (Forall_nil _) ltac:(cbn; lia)). rewrite (read_field _ 3 _ true _ _ 255 eq_refl CP ltac:(lia)). reflexivity.
    + reflexivity.
Qed.
Lemma opt_shown s : opt_of (shown s) = no_empty s.
Proof. destruct s as [[|c s]|]; reflexivity. Qed.
Lemma read_items_text its : forall fuel first l, (length its < fuel)%nat -> Forall (fun x => it_private x = true -> fits x /\ strings_ok x) its ->
  N.of_nat (length l + count_private its) <= 4096 ->
  read_items fuel l (items_text first its ++ [93]) = Ok (l ++ map tidy (filter it_private its)).
Proof.
  unfold count_private. induction its as [|x its IH]; intros fuel first l L A R; (destruct fuel as [|fuel]; [cbn [length] in L; lia|]).
  - rewrite app_nil_r. reflexivity.
  - inversion A as [|? ? A1 A2]; subst. cbn [length items_text filter] in *. destruct (it_private x) eqn:PR.
    2:{ apply IH; [lia|exact A2|exact R]. }
    destruct (A1 eq_refl) as (FT & SO). cbn [length map] in *. rewrite <- !app_assoc.
    assert (IT : exists q, item_text x = 91 :: q /\ q = skipn 1 (item_text x)) by (eexists; split; reflexivity). destruct IT as (q & IT & EQ).
    assert (GO : read_items (S fuel) l (item_text x ++ items_text false its ++ [93]) = Ok (l ++ tidy x :: map tidy (filter it_private its))).
    { rewrite IT. cbn [app read_items cur skip_ws adv bind]. cbn [N.eqb Pos.eqb orb negb]. cbn [cur adv bind]. cbn [N.eqb Pos.eqb orb negb].
      replace (S (S (length (q ++ items_text false its ++ [93])))) with (5 + (length (q ++ items_text false its ++ [93%N]) - 3))%nat.
      2:{ rewrite EQ. unfold item_text. cbn [bs app skipn length]. rewrite !app_length. cbn [length]. rewrite !app_length. cbn [length]. lia. }
      rewrite EQ. rewrite read_item_text by assumption. cbn [bind cur N.eqb Pos.eqb skipn b_tag b_value b_relay b_pet].
      destruct FT as (T0 & V0 & _). apply nonempty_iff in T0, V0. rewrite T0, V0. cbn [andb].
      unfold push_item. pose proof max_items. destruct (Nat.leb_spec MAX_ITEM_COUNT (length l)); [lia|]. cbn [bind].
      rewrite !opt_shown. rewrite IH; [|lia|exact A2|rewrite app_length; cbn [length]; lia].
      rewrite <- app_assoc. cbn [app]. unfold tidy at 2. rewrite PR. reflexivity. }
    destruct first; [exact GO|]. cbn [bs app]. rewrite <- GO. reflexivity.
Qed.
Lemma items_text_longer its : forall first, (count_private its <= length (items_text first its))%nat.
Proof.
  unfold count_private. induction its as [|x its IH]; intros first; [cbn; lia|]. cbn [filter items_text]. destruct (it_private x); [|apply IH].
  cbn [length]. rewrite !app_length. specialize (IH false). assert (1 <= length (item_text x))%nat by (unfold item_text; cbn [bs app length]; lia). lia.
Qed.
(** Reading does not need fuel for items that are not written. *)
Lemma items_text_private its : forall first, items_text first its = items_text first (filter it_private its).
Proof.
  induction its as [|x its IH]; intros first; [reflexivity|]. cbn [filter items_text]. destruct (it_private x) eqn:E; [|apply IH].
  cbn [items_text]. rewrite E, IH. reflexivity.
Qed.
Lemma filter_idem {A} (f : A -> bool) l : filter f (filter f l) = filter f l.
Proof. induction l as [|x l IH]; [reflexivity|]. cbn [filter]. destruct (f x) eqn:E; [|exact IH]. cbn [filter]. rewrite E, IH. reflexivity. Qed.
(** What is written is read back, for items whose strings fit the reader's fields:
    an empty hint or name comes back as none. *)
Theorem C48_roundtrip_partial its l t : Forall (fun x => it_private x = true -> fits x /\ strings_ok x) its ->
  N.of_nat (length l + count_private its) <= 4096 -> build_private_content its = Ok t ->
  parse_private_content t l = Ok (l ++ map tidy (filter it_private its)).
Proof.
  intros A R B. unfold build_private_content in B. destruct (Nat.eqb_spec (count_private its) 0) as [Z|Z].
  { assert (t = []) by congruence. subst. unfold count_private in Z. apply length_zero_iff_nil in Z. rewrite Z. cbn [map]. rewrite app_nil_r. reflexivity. }
  destruct (buffer_size its 2) as [n|]; [|discriminate]. destruct (n <? _); [discriminate|]. assert (E : t = bs "[" ++ items_text true its ++ bs "]") by congruence. subst t.
  change (bs "[") with [91]. change (bs "]") with [93]. unfold parse_private_content. cbn [app length to_bracket cur adv bind]. cbn [N.eqb Pos.eqb orb]. rewrite app_length. cbn [length].
  destruct (Nat.ltb_spec (S (length (items_text true its) + 1)) 2) as [F|F].
  { pose proof (items_text_longer its true). lia. }
  cbn [cur]. cbn [N.eqb Pos.eqb]. cbn [adv bind]. rewrite items_text_private. rewrite read_items_text.
  - rewrite filter_idem. reflexivity.
  - pose proof (items_text_longer (filter it_private its) true) as X. unfold count_private in X. rewrite filter_idem in X. rewrite app_length. lia.
  - apply Forall_forall. intros x I. apply filter_In in I as (I & _). apply (proj1 (Forall_forall _ _) A x I).
  - unfold count_private in *. rewrite filter_idem. exact R.
Qed.
Definition long_name : list N := repeat 97 256.
Definition some_key : list N := repeat 48 64.
(** Not for all items the calls accept: a 256-byte name is written but cannot be
    read back. *)
Theorem C48_refuted : ~ (forall os l rs t, history [] os l rs -> Forall strings_ok l -> build_private_content l = Ok t ->
  parse_private_content t [] = Ok (map tidy (filter it_private l))).
Proof.
  intros H. set (x := mkItem (bs "p") some_key None (Some long_name) true).
  assert (K : asks (OPubkey some_key None (Some long_name) true) x).
  { apply AsksPubkey, valid_hex_iff. vm_compute. reflexivity. }
  specialize (H [(OPubkey some_key None (Some long_name) true, (true, true))] [x] [Ok tt]).
  assert (B : exists t, build_private_content [x] = Ok t /\ parse_private_content t [] = Err EJsonParse) by (eexists; split; [vm_compute; reflexivity|vm_compute; reflexivity]).
  destruct B as (t & B & P). specialize (H t). rewrite P in H.
  assert (X : Err EJsonParse = Ok (map tidy (filter it_private [x]))); [|discriminate X]. apply H; [| |exact B].
  - econstructor; [|constructor]. apply (EdAdd _ true [] x K). cbn. lia.
  - constructor; [|constructor]. unfold strings_ok, x, cstr_ok. cbn [it_tag it_value it_relay it_pet].
    split; [repeat constructor|]. split; [apply Forall_repeat; unfold char_ok; lia|]. split; [discriminate|].
    intros p E. assert (p = long_name) by congruence. subst. apply Forall_repeat. unfold char_ok. lia.
Qed.
Example C48_meets : let its := [mkItem (bs "t") [104; 34; 92; 10; 1; 200] None (Some (bs "n")) true; mkItem (bs "word") (bs "w") None None false;
    mkItem (bs "group") (bs "g") (Some (bs "wss://r")) (Some []) true] in
  Forall (fun x => it_private x = true -> fits x /\ strings_ok x) its
  /\ exists t, build_private_content its = Ok t /\ parse_private_content t [] =
    Ok [mkItem (bs "t") [104; 34; 92; 10; 1; 200] None (Some (bs "n")) true; mkItem (bs "group") (bs "g") (Some (bs "wss://r")) None true].
Proof.
  split.
  - repeat (apply Forall_cons; [|]); [| | |apply Forall_nil]; intros P; try discriminate; (split; [unfold fits; cbn; repeat split; try discriminate; intros r E|]);
      try (assert (E2 : r = shown (Some r)) by reflexivity; rewrite <- E in E2; cbn in E2; subst r; cbn; lia);
      unfold strings_ok, cstr_ok, char_ok; cbn; (repeat split; try (intros r E; try discriminate; assert (E2 : r = shown (Some r)) by reflexivity; rewrite <- E in E2; cbn in E2; subst r)); repeat (apply Forall_cons; [lia|]); apply Forall_nil.
  - eexists. split; [vm_compute; reflexivity|vm_compute; reflexivity].
Qed.

(** * C82: lists as events *)
(** A name without a hint is published beside an empty hint. *)
Definition public_form (x : item) : item :=
  mkItem (it_tag x) (it_value x) (match it_relay x, it_pet x with None, Some _ => Some [] | r, _ => r end) (it_pet x) false.
Definition reserved (n : list N) : Prop := n = bs "d" \/ n = bs "title" \/ n = bs "description" \/ n = bs "image".
Definition public (x : item) : bool := negb (it_private x).
(** What a reader recovers from the tags *)
Definition header (l : nlist) (its : list item) : nlist :=
  if (30000 <=? nl_kind l) && (nl_kind l <? 40000) then mkList (nl_kind l) (Some (shown (nl_d l))) (nl_title l) (nl_desc l) (nl_image l) its
  else mkList (nl_kind l) None None None None its.
Lemma kind_range l : (30000 <=? nl_kind l) && (nl_kind l <? 40000) = is_parameterized (nl_kind l).
Proof. reflexivity. Qed.
Lemma read_tags_app a : forall l b, read_tags l (a ++ b) = do l' <- read_tags l a; read_tags l' b.
Proof. induction a as [|t a IH]; intros l b; [reflexivity|]. cbn [app read_tags]. destruct (read_tag l t); [apply IH|reflexivity|reflexivity]. Qed.
Lemma add_public_spec lim its : forall e e', add_public lim e its = Ok e' -> e' = with_tags e (map item_tag (filter public its)).
Proof.
  unfold public. induction its as [|x its IH]; intros e e' E; cbn [add_public filter] in *.
  - rewrite with_tags_nil. congruence.
  - destruct (it_private x); cbn [negb]; [apply IH, E|]. apply bind_ok in E as (e1 & A & E). apply add_tag_ok in A. subst e1. rewrite (IH _ _ E). cbn [map]. apply with_tags_push.
Qed.
Definition items_of (l : nlist) (its : list item) : nlist := mkList (nl_kind l) (nl_d l) (nl_title l) (nl_desc l) (nl_image l) its.
Lemma read_item_tag l x : ~ reserved (it_tag x) -> (length (nl_items l) < MAX_ITEM_COUNT)%nat -> it_private x = false ->
  read_tag l (item_tag x) = Ok (items_of l (nl_items l ++ [public_form x])).
Proof.
  intros NR L P. unfold reserved in NR. unfold item_tag. cbn [app read_tag].
  destruct (beq (it_tag x) (bs "d")) eqn:E1; [apply beq_eq in E1; tauto|]. destruct (beq (it_tag x) (bs "title")) eqn:E2; [apply beq_eq in E2; tauto|].
  destruct (beq (it_tag x) (bs "description")) eqn:E3; [apply beq_eq in E3; tauto|]. destruct (beq (it_tag x) (bs "image")) eqn:E4; [apply beq_eq in E4; tauto|].
  unfold push_item. destruct (Nat.leb_spec MAX_ITEM_COUNT (length (nl_items l))); [lia|]. cbn [bind]. unfold items_of, public_form.
  destruct (it_relay x), (it_pet x); reflexivity.
Qed.
Lemma read_public its : forall l, Forall (fun x => it_private x = false -> ~ reserved (it_tag x)) its ->
  N.of_nat (length (nl_items l) + length (filter public its)) <= 4096 ->
  read_tags l (map item_tag (filter public its)) = Ok (items_of l (nl_items l ++ map public_form (filter public its))).
Proof.
  unfold public. induction its as [|x its IH]; intros l A R.
  - cbn. rewrite app_nil_r. destruct l; reflexivity.
  - inversion A as [|? ? A1 A2]; subst. cbn [filter] in *. destruct (it_private x) eqn:P; cbn [negb] in *; [apply IH; assumption|].
    cbn [map length read_tags] in *. pose proof max_items. rewrite read_item_tag; [|apply A1; reflexivity|lia|exact P]. cbn [bind].
    rewrite IH; [|exact A2|cbn [items_of nl_items]; rewrite app_length; cbn [length]; lia]. unfold items_of. cbn [nl_kind nl_d nl_title nl_desc nl_image nl_items].
    rewrite <- app_assoc. reflexivity.
Qed.
Lemma public_private its : (length (filter public its) + count_private its = length its)%nat.
Proof. unfold public, count_private. induction its as [|x its IH]; [reflexivity|]. cbn [filter length]. destruct (it_private x); cbn [negb length]; lia. Qed.
Definition head_tags (l : nlist) : list (list (list N)) :=
  if is_parameterized (nl_kind l) then
    [bs "d"; shown (nl_d l)] :: (match nl_title l with Some x => [[bs "title"; x]] | None => [] end) ++
    (match nl_desc l with Some x => [[bs "description"; x]] | None => [] end) ++ (match nl_image l with Some x => [[bs "image"; x]] | None => [] end)
  else [].
Lemma opt_tag_spec lim e n v e' : opt_tag lim e n v = Ok e' -> e' = with_tags e (match v with Some x => [[n; x]] | None => [] end).
Proof. destruct v as [x|]; cbn [opt_tag]; intros E; [apply add_tag_ok in E; subst; unfold push, with_tags; reflexivity|rewrite with_tags_nil; congruence]. Qed.
Lemma with_tags_twice e a b : with_tags (with_tags e a) b = with_tags e (a ++ b).
Proof. unfold with_tags. cbn. rewrite <- app_assoc. reflexivity. Qed.
(** The event a list becomes *)
Lemma to_event_spec lim encrypt l keys nonce now e : to_event lim encrypt l keys nonce now = Ok e ->
  ev_kind e = nl_kind l /\ ev_tags e = head_tags l ++ map item_tag (filter public (nl_items l)) /\
  (count_private (nl_items l) = 0%nat /\ ev_content e = Some [] \/
   exists sk pk t c, keys = Some (sk, pk) /\ count_private (nl_items l) <> 0%nat /\ build_private_content (nl_items l) = Ok t /\ encrypt sk pk nonce t = Ok c /\ ev_content e = Some c).
Proof.
  unfold to_event. set (has := (0 <? count_private (nl_items l))%nat). set (e0 := mkEvent _ _ now _ _ _ _). intros E.
  assert (E' : (do e1 <- (if is_parameterized (nl_kind l) then
                do x1 <- add_tag lim e0 [bs "d"; match nl_d l with Some d => d | None => [] end];
                do x2 <- opt_tag lim x1 (bs "title") (nl_title l);
                do x3 <- opt_tag lim x2 (bs "description") (nl_desc l);
                opt_tag lim x3 (bs "image") (nl_image l)
              else Ok e0);
    do e2 <- add_public lim e1 (nl_items l);
    match has, keys with
    | true, Some (sk, pk) =>
      do t <- build_private_content (nl_items l);
      do c <- encrypt sk pk nonce t;
      Ok (set_content e2 c)
    | _, _ => Ok (set_content e2 [])
    end) = Ok e /\ (has = true -> keys <> None)).
  { destruct has; [destruct keys as [(sk, pk)|]; [|discriminate]|]; (split; [exact E|congruence]). }
  clear E. destruct E' as (E & NK). apply bind_ok in E as (e1 & H1 & E). apply bind_ok in E as (e2 & H2 & E).
  assert (X1 : e1 = with_tags e0 (head_tags l)).
  { unfold head_tags. destruct (is_parameterized (nl_kind l)); [|rewrite with_tags_nil; congruence].
    apply bind_ok in H1 as (x1 & A1 & H1). apply add_tag_ok in A1. apply bind_ok in H1 as (x2 & A2 & H1). apply opt_tag_spec in A2.
    apply bind_ok in H1 as (x3 & A3 & H1). apply opt_tag_spec in A3. apply opt_tag_spec in H1. subst x1 x2 x3 e1.
    rewrite !with_tags_twice, with_tags_push. reflexivity. }
  apply add_public_spec in H2. rewrite X1, with_tags_twice in H2.
  assert (C0 : has = false <-> count_private (nl_items l) = 0%nat) by (subst has; rewrite Nat.ltb_ge; lia).
  destruct has.
  - destruct keys as [(sk, pk)|]; [|exfalso; apply NK; reflexivity]. apply bind_ok in E as (t & B & E). apply bind_ok in E as (c & EN & E).
    assert (EE : e = set_content e2 c) by congruence. subst e e2. split; [reflexivity|]. split; [reflexivity|]. right. exists sk, pk, t, c.
    split; [reflexivity|]. split; [intros Z; apply C0 in Z; discriminate|auto].
  - assert (EE : e = set_content e2 []) by (destruct keys; congruence). subst e e2. split; [reflexivity|]. split; [reflexivity|]. left. split; [apply C0; reflexivity|reflexivity].
Qed.
Lemma read_head l : read_tags (mkList (nl_kind l) None None None None []) (head_tags l) = Ok (header l []).
Proof.
  unfold head_tags, header. rewrite kind_range. destruct (is_parameterized (nl_kind l)); [|reflexivity].
  destruct (nl_title l), (nl_desc l), (nl_image l); reflexivity.
Qed.
Lemma read_back_tags lim encrypt l keys nonce now e : to_event lim encrypt l keys nonce now = Ok e ->
  Forall (fun x => it_private x = false -> ~ reserved (it_tag x)) (nl_items l) -> N.of_nat (length (nl_items l)) <= 4096 ->
  read_tags (mkList (ev_kind e) None None None None []) (ev_tags e) = Ok (header l (map public_form (filter public (nl_items l)))).
Proof.
  intros E A R. destruct (to_event_spec _ _ _ _ _ _ _ E) as (K & T & _). rewrite K, T, read_tags_app, read_head. cbn [bind].
  pose proof (public_private (nl_items l)) as PP.
  assert (HI : forall its, nl_items (header l its) = its) by (intros; unfold header; rewrite kind_range; destruct (is_parameterized (nl_kind l)); reflexivity).
  rewrite read_public; [|exact A|rewrite HI; cbn [length]; lia]. rewrite HI. cbn [app]. unfold items_of, header. rewrite kind_range. destruct (is_parameterized (nl_kind l)); reflexivity.
Qed.
(** Anyone reads back the public items, in order, with the list's description where
    its kind carries one - and nothing of the private items. *)
Theorem C82_public lim encrypt decrypt l keys nonce now e : to_event lim encrypt l keys nonce now = Ok e ->
  Forall (fun x => it_private x = false -> ~ reserved (it_tag x)) (nl_items l) -> N.of_nat (length (nl_items l)) <= 4096 ->
  from_event decrypt e None = Ok (header l (map public_form (filter public (nl_items l)))).
Proof.
  intros E A R. unfold from_event. rewrite (read_back_tags _ _ _ _ _ _ _ E A R). cbn [bind]. destruct (ev_content e) as [[|c r]|]; reflexivity.
Qed.
Lemma item_text_bytes x : strings_ok x -> bytes_ok (item_text x) /\ cstr_ok (item_text x).
Proof.
  assert (EB : forall s, cstr_ok s -> cstr_ok (json_escape s)).
  { intros s C. unfold json_escape. induction C as [|c s C1 C2 IH]; [constructor|]. cbn [flat_map]. apply Forall_app. split; [|exact IH].
    unfold escape_char, char_ok in *. unfold hexdigit. pose proof (N.mod_lt c 16 ltac:(lia)) as M. assert (D : c / 16 < 16) by (apply N.div_lt_upper_bound; lia).
    set (m := c mod 16) in *. set (q := c / 16) in *. clearbody m q.
    destruct (c =? 34), (c =? 92), (c =? 10), (c =? 13), (c =? 9), (c <? 32), (q <? 10), (m <? 10); repeat (apply Forall_cons; [cbv beta; lia|]); apply Forall_nil. }
  intros (CT & CV & CR & CP). assert (X : cstr_ok (item_text x)); [|split; [apply cstr_bytes, X|exact X]].
  unfold item_text. assert (ONE : forall k, 0 < k < 256 -> cstr_ok [k]) by (intros k K; constructor; [exact K|constructor]).
  unfold cstr_ok in *. repeat (apply Forall_app; split); try (apply ONE; cbn; lia); try (apply EB; assumption).
  - destruct (it_relay x); [|constructor]. repeat (apply Forall_app; split); try (apply ONE; cbn; lia). apply EB, CR. reflexivity.
  - destruct (it_pet x); [|constructor]. repeat (apply Forall_app; split); try (apply ONE; cbn; lia); [|apply EB, CP; reflexivity].
    destruct (it_relay x); [constructor|]. cbn. repeat (constructor; [unfold char_ok; lia|]). constructor.
Qed.
Lemma build_cstr its t : Forall (fun x => it_private x = true -> strings_ok x) its -> build_private_content its = Ok t -> cstr_ok t.
Proof.
  intros A B. unfold build_private_content in B. destruct (count_private its =? 0)%nat; [assert (t = []) by congruence; subst; constructor|].
  destruct (buffer_size its 2); [|discriminate]. destruct (_ <? _); [discriminate|]. assert (E : t = bs "[" ++ items_text true its ++ bs "]") by congruence. subst t. clear B.
  assert (IT : forall first, cstr_ok (items_text first its)).
  { induction A as [|x its A1 A2 IH]; intros first; [constructor|]. cbn [items_text]. destruct (it_private x); [|apply IH].
    apply Forall_app. split; [destruct first; cbn; repeat constructor|]. apply Forall_app. split; [apply item_text_bytes, A1; reflexivity|apply IH]. }
  apply Forall_app. split; [cbn; repeat constructor|]. apply Forall_app. split; [apply IT|cbn; repeat constructor].
Qed.
(** The owner reads back the public items and then the private ones, provided the
    private text is small enough for the cipher's reader (61440 bytes). *)
Theorem C82_roundtrip_partial nce ncm ncv ncd mt enc dec l44 lim l sk pk nonce now e :
  nc_contract nce ncm ncv ncd mt -> b64_contract enc dec -> mt sk pk sk pk -> (forall x, x <> [] -> enc x <> []) ->
  1 <= lim_min l44 -> lim_min l44 <= lim_max l44 -> lim_max l44 <= 65535 -> length nonce = 32%nat -> bytes_ok nonce ->
  Forall (fun x => it_private x = false -> ~ reserved (it_tag x)) (nl_items l) -> Forall (fun x => it_private x = true -> fits x /\ strings_ok x) (nl_items l) ->
  N.of_nat (length (nl_items l)) <= 4096 ->
  to_event lim (nip44_encrypt nce ncm enc l44) l (Some (sk, pk)) (Some nonce) now = Ok e ->
  exists t, build_private_content (nl_items l) = Ok t /\
  from_event (nip44_decrypt ncv ncd dec l44) e (Some (sk, pk)) =
    if blen t <=? 61440 then Ok (header l (map public_form (filter public (nl_items l)) ++ map tidy (filter it_private (nl_items l)))) else Err EInvalidParam.
Proof.
  intros NC B64 MT NE L1 L2 L3 NL NB A F R E. unfold from_event. rewrite (read_back_tags _ _ _ _ _ _ _ E A R). cbn [bind].
  destruct (to_event_spec _ _ _ _ _ _ _ E) as (_ & _ & [(C0 & CE)|(sk' & pk' & t & c & K & C0 & B & EN & CE)]).
  - exists []. assert (BT : build_private_content (nl_items l) = Ok []) by (unfold build_private_content; rewrite C0; reflexivity).
    split; [exact BT|]. rewrite CE. change (blen [] <=? 61440) with true. cbv iota. unfold count_private in C0. apply length_zero_iff_nil in C0. rewrite C0.
    cbn [map]. rewrite app_nil_r. reflexivity.
  - assert (sk' = sk) by congruence. assert (pk' = pk) by congruence. subst sk' pk'. exists t. split; [exact B|]. rewrite CE.
    assert (CS : cstr_ok t) by (apply (build_cstr (nl_items l)); [eapply Forall_impl; [|exact F]; cbv beta; intros x X P; apply X, P|exact B]).
    assert (NEC : c <> []).
    { unfold nip44_encrypt in EN. apply bind_ok in EN as (padded & _ & EN). destruct (nce sk pk nonce padded) as [(ct, hk)|]; [|discriminate].
      assert (EC : enc ([2] ++ nonce ++ ct ++ ncm hk (nonce ++ ct)) = c) by congruence. rewrite <- EC. apply NE. discriminate. }
    pose proof (C11_roundtrip_partial nce ncm ncv ncd mt enc dec l44 sk pk sk pk nonce t c NC B64 MT L1 L2 L3 NL NB (cstr_bytes _ CS) EN) as D.
    destruct c as [|c0 c]; [congruence|]. rewrite D. destruct (blen t <=? 61440); [|reflexivity]. cbn [bind].
    rewrite until_nul_cstr by exact CS.
    assert (HI : forall its, nl_items (header l its) = its) by (intros; unfold header; rewrite kind_range; destruct (is_parameterized (nl_kind l)); reflexivity).
    rewrite HI. rewrite (C48_roundtrip_partial (nl_items l) _ t F); [|rewrite map_length, public_private; exact R|exact B]. cbn [bind].
    unfold header. rewrite kind_range. destruct (is_parameterized (nl_kind l)); reflexivity.
Qed.
(** Not whole: a title given to a list whose kind is not addressable is dropped, and
    private items move behind the public ones. *)
Theorem C82_refuted : ~ (forall encrypt decrypt l now e, count_private (nl_items l) = 0%nat -> to_event None encrypt l None None now = Ok e ->
  from_event decrypt e None = Ok (items_of l (map public_form (nl_items l)))).
Proof.
  intros H. specialize (H (fun _ _ _ _ => Undef) (fun _ _ _ => Undef) (mkList 10000 None (Some (bs "Muted")) None None []) 0%Z _ eq_refl eq_refl). discriminate H.
Qed.
Example C82_meets :
  let l := mkList 30000 (Some (bs "friends")) None (Some (bs "d")) None [mkItem (bs "t") (bs "hush") None None true; mkItem (bs "t") (bs "loud") None (Some (bs "n")) false] in
  exists e, to_event None (nip44_encrypt toy_enc8 toy_mac b64_encode default_limits) l (Some ([], [])) (Some (repeat 9 32)) 5%Z = Ok e /\
  from_event (nip44_decrypt toy_verify toy_dec b64_decode default_limits) e (Some ([], [])) =
    Ok (mkList 30000 (Some (bs "friends")) None (Some (bs "d")) None [mkItem (bs "t") (bs "loud") (Some []) (Some (bs "n")) false; mkItem (bs "t") (bs "hush") None None true]) /\
  from_event (nip44_decrypt toy_verify toy_dec b64_decode default_limits) e None =
    Ok (mkList 30000 (Some (bs "friends")) None (Some (bs "d")) None [mkItem (bs "t") (bs "loud") (Some []) (Some (bs "n")) false]).
Proof. eexists. split; [vm_compute; reflexivity|]. split; vm_compute; reflexivity. Qed.
Example C82_nonempty : forall x, x <> [] -> b64_encode x <> [].
Proof. intros x H E. pose proof (f_equal b64_decode E) as D. apply H. destruct x as [|a [|b [|c x]]]; [reflexivity|discriminate E|discriminate E|discriminate E]. Qed.

Print Assumptions C47_list.
Print Assumptions C47_answers.
Print Assumptions C47_refused.
Print Assumptions C48_fits.
Print Assumptions C48_parse_defined.
Print Assumptions C48_roundtrip_partial.
Print Assumptions C48_refuted.
Print Assumptions C82_public.
Print Assumptions C82_roundtrip_partial.
Print Assumptions C82_refuted.
