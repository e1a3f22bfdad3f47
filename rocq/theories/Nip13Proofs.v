(** Lemmas for proof of work. *)
From Verif Require Import Base BaseFacts Dec Strto Event Nip13 Nip13Spec.
Open Scope N_scope.

(** ** Difficulty *)
Lemma count_bits_acc l : forall t, count_bits t l = (t + count_bits 0 l)%nat.
Proof.
  induction l as [|b r IH]; intros t; cbn [count_bits]; [lia|].
  destruct (zero_bits b =? 8)%nat; [|lia].
  rewrite IH, (IH (0 + zero_bits b)%nat). lia.
Qed.

Lemma zero_bits_log b : b < 256 -> b <> 0 -> zero_bits b = (7 - N.to_nat (N.log2 b))%nat /\ (N.log2 b < 8).
Proof.
  intros H NZ.
  assert (K : forallb (fun n => let b := N.of_nat n in
    (n =? 0)%nat || ((zero_bits b =? 7 - N.to_nat (N.log2 b))%nat && (N.log2 b <? 8))) (seq 0 256) = true)
    by (vm_compute; reflexivity).
  rewrite forallb_forall in K. specialize (K (N.to_nat b)).
  rewrite N2Nat.id in K. cbv zeta in K.
  rewrite (proj2 (Nat.eqb_neq (N.to_nat b) 0)) in K by lia. cbn [orb] in K.
  assert (I : In (N.to_nat b) (seq 0 256)) by (apply in_seq; lia).
  apply K in I. apply andb_true_iff in I. destruct I as (A & B).
  apply Nat.eqb_eq in A. apply N.ltb_lt in B. auto.
Qed.

Lemma be_value_from l : forall a, fold_left (fun a b => a * 256 + b) l a = a * 2 ^ N.of_nat (8 * length l) + be_value l.
Proof.
  unfold be_value. induction l as [|b r IH]; intros a; cbn [fold_left length].
  - change (2 ^ N.of_nat (8 * 0)) with 1. lia.
  - rewrite IH, (IH (0 * 256 + b)).
    replace (N.of_nat (8 * S (length r))) with (8 + N.of_nat (8 * length r)) by lia.
    rewrite N.pow_add_r. change (2 ^ 8) with 256. set (p := 2 ^ N.of_nat (8 * length r)). clearbody p. lia.
Qed.
Lemma be_value_cons b r : be_value (b :: r) = b * 2 ^ N.of_nat (8 * length r) + be_value r.
Proof. unfold be_value at 1. cbn [fold_left]. rewrite be_value_from. f_equal. Qed.
Lemma be_value_bound l : bytes_ok l -> be_value l < 2 ^ N.of_nat (8 * length l).
Proof.
  induction 1 as [|b r H F IH]; [reflexivity|]. rewrite be_value_cons. cbn [length].
  replace (N.of_nat (8 * S (length r))) with (8 + N.of_nat (8 * length r)) by lia.
  rewrite N.pow_add_r. change (2 ^ 8) with 256. unfold byte_ok in H.
  set (p := 2 ^ N.of_nat (8 * length r)) in *. clearbody p. nia.
Qed.

Lemma count_bits_value l : bytes_ok l -> forall d, (d <= 8 * length l)%nat ->
  ((d <= count_bits 0 l)%nat <-> be_value l < 2 ^ N.of_nat (8 * length l - d)).
Proof.
  induction 1 as [|b r H F IH]; intros d D.
  - cbn [length] in D. assert (d = 0)%nat by lia. subst. cbn. split; lia.
  - cbn [count_bits length] in *. pose proof (be_value_bound r F) as BB. rewrite be_value_cons.
    unfold byte_ok in H.
    destruct (N.eq_dec b 0) as [->|NZ].
    + change (zero_bits 0) with 8%nat. cbn [Nat.eqb]. rewrite N.mul_0_l, N.add_0_l, count_bits_acc.
      destruct (le_lt_dec d 8) as [L|L].
      * split; [intros _|lia]. eapply N.lt_le_trans; [exact BB|].
        apply N.pow_le_mono_r; lia.
      * specialize (IH (d - 8)%nat ltac:(lia)).
        replace (8 * length r - (d - 8))%nat with (8 * S (length r) - d)%nat in IH by lia.
        rewrite <- IH. lia.
    + destruct (zero_bits_log b H NZ) as (Z & LB). rewrite Z.
      replace ((7 - N.to_nat (N.log2 b) =? 8)%nat) with false by (symmetry; apply Nat.eqb_neq; lia).
      cbn [Nat.add].
      destruct (le_lt_dec d 8) as [L|L].
      * replace (N.of_nat (8 * S (length r) - d)) with (N.of_nat (8 - d) + N.of_nat (8 * length r)) by lia.
        rewrite N.pow_add_r.
        assert (E : (d <= 7 - N.to_nat (N.log2 b))%nat <-> b < 2 ^ N.of_nat (8 - d)).
        { assert (P : 0 < b) by lia. pose proof (N.log2_lt_pow2 b (N.of_nat (8 - d)) P) as Q. rewrite Q. lia. }
        rewrite E. set (p := 2 ^ N.of_nat (8 * length r)) in *. set (q := 2 ^ N.of_nat (8 - d)).
        clearbody p q. nia.
      * split; [lia|]. intros V. exfalso.
        assert (2 ^ N.of_nat (8 * S (length r) - d) <= 2 ^ N.of_nat (8 * length r)) by (apply N.pow_le_mono_r; lia).
        set (p := 2 ^ N.of_nat (8 * length r)) in *. set (q := 2 ^ N.of_nat (8 * S (length r) - d)) in *.
        clearbody p q. nia.
Qed.

Lemma difficulty_max l : (count_bits 0 l <= 8 * length l)%nat.
Proof.
  induction l as [|b r IH]; cbn [count_bits length]; [lia|].
  assert (zero_bits b <= 8)%nat by (unfold zero_bits; destruct (b =? 0); lia).
  destruct (zero_bits b =? 8)%nat; [rewrite count_bits_acc|]; lia.
Qed.

Lemma difficulty_work id d : length id = 32%nat -> bytes_ok id ->
  ((d <= difficulty id)%nat <-> has_work id d).
Proof.
  intros L B. unfold difficulty, has_work. rewrite <- L, firstn_all.
  destruct (le_lt_dec d 256) as [D|D].
  - rewrite count_bits_value by (assumption || lia). rewrite L.
    replace (8 * 32 - d)%nat with (256 - d)%nat by lia. tauto.
  - pose proof (difficulty_max id). rewrite L in H. lia.
Qed.

(** ** Tags *)
Definition some_tags (ts : list (list (list N))) : list otag := map (map Some) ts.

Lemma beq_eq a : forall b, beq a b = true <-> a = b.
Proof.
  induction a as [|x a IH]; intros [|y b]; cbn [beq]; try (split; congruence).
  rewrite andb_true_iff, N.eqb_eq, IH. split; [intros (-> & ->); reflexivity|].
  intros E. assert (x = y) by congruence. assert (a = b) by congruence. auto.
Qed.

Lemma is_nonce_some vs : is_nonce (map Some vs) = true <-> named_nonce vs.
Proof.
  unfold named_nonce. destruct vs as [|v r]; cbn [map is_nonce].
  - split; [discriminate|]. intros (r & E). discriminate.
  - rewrite beq_eq. split; [intros ->; eauto|]. intros (x & E). congruence.
Qed.

Lemma find_nonce_at P t Q : Forall (fun t => is_nonce t = false) P -> is_nonce t = true ->
  find_nonce (P ++ t :: Q) = Some (length P).
Proof.
  induction 1 as [|x P H F IH]; intros T; cbn [app find_nonce length].
  - rewrite T. reflexivity.
  - rewrite H, IH by exact T. reflexivity.
Qed.
Lemma find_nonce_none P : Forall (fun t => is_nonce t = false) P -> find_nonce P = None.
Proof. induction 1 as [|x P H F IH]; cbn [find_nonce]; [reflexivity|]. rewrite H, IH. reflexivity. Qed.
Lemma find_nonce_split ts :
  match find_nonce ts with
  | Some i => exists P t Q, ts = P ++ t :: Q /\ length P = i /\ is_nonce t = true /\ Forall (fun t => is_nonce t = false) P
  | None => Forall (fun t => is_nonce t = false) ts
  end.
Proof.
  induction ts as [|t r IH]; cbn [find_nonce]; [constructor|].
  destruct (is_nonce t) eqn:E.
  - exists [], t, r. auto.
  - destruct (find_nonce r) as [i|]; cbn [option_map].
    + destruct IH as (P & x & Q & -> & L & N & F). exists (t :: P), x, Q. cbn [app length]. rewrite L. auto.
    + constructor; assumption.
Qed.

Lemma set_nth_at {A} (P : list A) x y Q : set_nth (P ++ x :: Q) (length P) y = P ++ y :: Q.
Proof. induction P; cbn [app length set_nth]; [reflexivity|]. rewrite IHP. reflexivity. Qed.
Lemma nth_at {A} (P : list A) x Q d : nth (length P) (P ++ x :: Q) d = x.
Proof. rewrite app_nth2, Nat.sub_diag by lia. reflexivity. Qed.

(** ** The tag list during mining: fixed tags around one nonce tag *)
Definition tagstate (rest : list (list N)) (t : otag) : Prop :=
  exists a, (rest = [] /\ t = [Some (bs "nonce"); Some a]) \/
            exists o, t = Some (bs "nonce") :: Some a :: o :: map Some rest.
Definition shape (pre post : list (list (list N))) (rest : list (list N)) (ts : list otag) : Prop :=
  Forall (fun vs => ~ named_nonce vs) pre /\
  exists t, ts = some_tags pre ++ t :: some_tags post /\ tagstate rest t.

Lemma pre_is_nonce pre : Forall (fun vs => ~ named_nonce vs) pre ->
  Forall (fun t => is_nonce t = false) (some_tags pre).
Proof.
  intros F. apply Forall_map. eapply Forall_impl; [|exact F]. cbv beta. intros vs H.
  destruct (is_nonce (map Some vs)) eqn:E; [|reflexivity]. apply is_nonce_some in E. contradiction.
Qed.
Lemma tagstate_nonce rest t : tagstate rest t -> is_nonce t = true /\ (2 <= length t)%nat.
Proof.
  intros (a & [(_ & E)|(o & E)]); subst t; cbn [is_nonce length]; split; try (apply beq_eq; reflexivity); lia.
Qed.

Definition final_tag (n : N) (t : Z) (rest : list (list N)) : list (list N) :=
  bs "nonce" :: dec_N n :: dec_Z t :: rest.

Lemma add_nonce_shape a pre post rest ts n t : shape pre post rest ts -> (0 < t)%Z ->
  exists ts' r, add_nonce_tag a ts n t = (ts', r) /\ shape pre post rest ts' /\ r <> Undef /\
    (r = Ok tt -> ts' = some_tags (pre ++ final_tag n t rest :: post)) /\
    (al_nonce a = true -> al_values a = true -> al_target a = true -> r = Ok tt).
Proof.
  intros (FP & tg & E & TS) T. subst ts.
  destruct (tagstate_nonce _ _ TS) as (IN & LN).
  unfold add_nonce_tag. rewrite find_nonce_at by (assumption || apply pre_is_nonce, FP).
  rewrite nth_at, (proj2 (Nat.ltb_ge _ _) LN), (proj2 (Z.ltb_lt _ _) T).
  destruct (al_nonce a) eqn:A1; cbn [negb].
  2:{ eexists _, _. split; [reflexivity|]. split; [split; [exact FP|eauto]|]. split; [discriminate|].
      split; discriminate. }
  rewrite !set_nth_at.
  assert (SH : forall t', tagstate rest t' -> shape pre post rest (some_tags pre ++ t' :: some_tags post)).
  { intros t' H. split; [exact FP|eauto]. }
  assert (FT : forall x, x = map Some (final_tag n t rest) ->
     some_tags pre ++ x :: some_tags post = some_tags (pre ++ final_tag n t rest :: post)).
  { intros x ->. unfold some_tags. rewrite map_app. reflexivity. }
  destruct TS as (v & [(Er & Et)|(o & Et)]); subst tg.
  - subst rest. cbn [set_nth length Nat.ltb Nat.leb andb firstn app].
    destruct (al_values a) eqn:A2; cbn [negb andb].
    + destruct (al_target a) eqn:A3; cbn [negb].
      * cbn [set_nth]. rewrite ?set_nth_at. eexists _, _. split; [reflexivity|].
        split; [apply SH; exists (dec_N n); right; exists (Some (dec_Z t)); reflexivity|].
        split; [discriminate|]. split; [|reflexivity]. intros _. apply FT. reflexivity.
      * rewrite ?set_nth_at. eexists _, _. split; [reflexivity|].
        split; [apply SH; exists (dec_N n); right; exists None; reflexivity|].
        split; [discriminate|]. split; discriminate.
    + eexists _, _. split; [reflexivity|]. split; [apply SH; exists (dec_N n); left; auto|].
      split; [discriminate|]. split; discriminate.
  - cbn [set_nth length Nat.ltb Nat.leb andb firstn app].
    destruct (al_target a) eqn:A3; cbn [negb].
    + cbn [set_nth]. rewrite ?set_nth_at. eexists _, _. split; [reflexivity|].
      split; [apply SH; exists (dec_N n); right; exists (Some (dec_Z t)); reflexivity|].
      split; [discriminate|]. split; [|reflexivity]. intros _. apply FT. reflexivity.
    + eexists _, _. split; [reflexivity|].
      split; [apply SH; exists (dec_N n); right; exists o; reflexivity|].
      split; [discriminate|]. split; discriminate.
Qed.

Lemma full_tag_some vs : full_tag (map Some vs) = Some vs.
Proof. induction vs as [|v r IH]; cbn [map full_tag]; [reflexivity|]. rewrite IH. reflexivity. Qed.
Lemma full_tags_some ts : full_tags (some_tags ts) = Some ts.
Proof.
  unfold some_tags. induction ts as [|v r IH]; cbn [map full_tags]; [reflexivity|].
  rewrite full_tag_some, IH. reflexivity.
Qed.

(** How the starting tags relate to the shape. *)
Definition starts (ts : list (list (list N))) (pre post : list (list (list N))) (rest : list (list N)) : Prop :=
  (ts = pre /\ rest = [] /\ post = []) \/
  (exists old, ts = pre ++ [old] ++ post /\ named_nonce old /\ rest = skipn 3 old).

Lemma prepare_shape a t e m : nonce_ok (ev_tags e) -> (0 < t)%Z -> prepare a t (load e) = (m, Ok tt) ->
  m_ev m = e /\ exists pre post rest, shape pre post rest (m_tags m) /\ starts (ev_tags e) pre post rest.
Proof.
  intros NO T. unfold prepare, load. cbn [m_tags m_ev].
  pose proof (find_nonce_split (some_tags (ev_tags e))) as FS.
  fold (some_tags (ev_tags e)). destruct (find_nonce (some_tags (ev_tags e))) as [i|] eqn:FN.
  - intros E. injection E as <-. split; [reflexivity|]. cbn [m_tags].
    destruct FS as (P & x & Q & E & _ & IN & FP).
    unfold some_tags in E. apply map_eq_app in E as (pre & r & E1 & <- & E2).
    destruct r as [|old post]; [discriminate|]. cbn [map] in E2. injection E2 as E2 <-. subst x.
    assert (FP' : Forall (fun vs => ~ named_nonce vs) pre).
    { rewrite Forall_map in FP. eapply Forall_impl; [|exact FP]. cbv beta. intros vs H N.
      apply is_nonce_some in N. congruence. }
    apply is_nonce_some in IN. pose proof (NO pre old post E1 FP' IN) as LO.
    exists pre, post, (skipn 3 old). split.
    + split; [exact FP'|]. exists (map Some old). split; [unfold some_tags; rewrite E1, map_app; reflexivity|].
      destruct IN as (r & ->). destruct r as [|v r]; [cbn [length] in LO; lia|].
      exists v. cbn [map skipn]. destruct r as [|o r]; [left; auto|right; exists (Some o); reflexivity].
    + right. eauto.
  - unfold add_nonce_tag. rewrite FN. destruct (al_add a) as [x|]; [discriminate|].
    rewrite (proj2 (Z.ltb_lt _ _) T).
    assert (FP : Forall (fun vs => ~ named_nonce vs) (ev_tags e)).
    { unfold some_tags in FS. rewrite Forall_map in FS. eapply Forall_impl; [|exact FS]. cbv beta. intros vs H N.
      apply is_nonce_some in N. congruence. }
    rewrite find_nonce_at by (apply beq_eq || assumption; reflexivity).
    intros E. injection E as <-. split; [reflexivity|]. exists (ev_tags e), [], [].
    split; [|left; auto]. split; [exact FP|]. eexists. split; [reflexivity|].
    exists (dec_N 0). right. exists (Some (dec_Z t)). reflexivity.
Qed.

Lemma ser_with_id num e i : serialize_with num (with_id e i) = serialize_with num e.
Proof. reflexivity. Qed.

Section M.
Variable num : Z -> list N.
Variable sha256 : list N -> list N.

(** The event hashed at an iteration. *)
Definition candidate (e : event) (pre post : list (list (list N))) (rest : list (list N)) (t : Z) (n : N) (now : Z) : event :=
  with_created (with_tags e (pre ++ final_tag n t rest :: post)) now.

Lemma try_shape a now m n t pre post rest : shape pre post rest (m_tags m) -> (0 < t)%Z ->
  exists m' r, try_nonce num sha256 a now m n t = (m', r) /\ shape pre post rest (m_tags m') /\ r <> Undef /\
    same_body (m_ev m) (m_ev m') /\ ev_sig (m_ev m') = ev_sig (m_ev m) /\
    (forall b, r = Ok b ->
       let c := candidate (m_ev m) pre post rest t n now in
       let id := sha256 (serialize_with num c) in
       observe m' = Some (with_id c id) /\
       b = (t <=? Z.of_nat (difficulty id))%Z).
Proof.
  intros S T. unfold try_nonce.
  destruct (add_nonce_shape a pre post rest (m_tags m) n t S T) as (ts' & r & E & S' & NU & OKK & _).
  rewrite E. destruct r as [[]|x|]; [| |congruence].
  2:{ eexists _, _. split; [reflexivity|]. split; [exact S'|]. split; [discriminate|].
      split; [repeat split|]. split; [reflexivity|]. discriminate. }
  specialize (OKK eq_refl). unfold m_compute_id, observe. cbn [m_tags m_ev]. rewrite OKK, full_tags_some.
  destruct (al_id a).
  - eexists _, _. split; [reflexivity|]. cbn [m_tags m_ev]. split; [rewrite OKK in S'; exact S'|].
    split; [discriminate|]. split; [repeat split|]. split; [reflexivity|].
    intros b Eb. cbv zeta. rewrite full_tags_some.
    split; [reflexivity|]. injection Eb as <-. reflexivity.
  - eexists _, _. split; [reflexivity|]. cbn [m_tags m_ev]. split; [rewrite OKK in S'; exact S'|].
    split; [discriminate|]. split; [repeat split|]. split; [reflexivity|]. discriminate.
Qed.

Lemma same_body_trans a b c : same_body a b -> same_body b c -> same_body a c.
Proof. unfold same_body. intros (A & B & C) (D & E & F). repeat split; congruence. Qed.

Lemma mine_loop_ok al clock t max pre post rest : (0 < t)%Z -> forall fuel nonce k m m',
  shape pre post rest (m_tags m) ->
  mine_loop num sha256 fuel al clock t max nonce k m = Some (m', Ok tt) ->
  exists n c, same_body (m_ev m) c /\ ev_tags c = pre ++ final_tag n t rest :: post /\
    (exists e', observe m' = Some e' /\ e' = with_id c (sha256 (serialize_with num c)) /\ (t <= Z.of_nat (difficulty (ev_id e')))%Z).
Proof.
  intros T. induction fuel as [|f IH]; intros nonce k m m' S E; [discriminate|].
  cbn [mine_loop] in E. destruct ((max =? 0) || (k <? max)); [|discriminate].
  destruct (try_shape (al k) (clock k) m nonce t pre post rest S T) as (m1 & r & E1 & S1 & NU & SB & SG & OKK).
  rewrite E1 in E. destruct r as [[|]|x|]; [| |discriminate|congruence].
  - injection E as <-. destruct (OKK _ eq_refl) as (O1 & B). symmetry in B. apply Z.leb_le in B.
    exists nonce, (candidate (m_ev m) pre post rest t nonce (clock k)).
    split; [repeat split|]. split; [reflexivity|].
    eexists. split; [exact O1|]. split; [reflexivity|exact B].
  - destruct (IH _ _ _ _ S1 E) as (n & c & B1 & B2 & B3). exists n, c. split; [|auto].
    eapply same_body_trans; eassumption.
Qed.

(** An unsuccessful search has tried the first [max] nonces. *)
Lemma mine_loop_notfound al clock t max pre post rest : (0 < t)%Z -> max < 2 ^ 64 -> forall fuel k m m' e,
  shape pre post rest (m_tags m) -> k < 2 ^ 64 ->
  same_body e (m_ev m) ->
  mine_loop num sha256 fuel al clock t max k k m = Some (m', Err ENotFound) ->
  (forall k, al_add (al k) <> Some ENotFound) ->
  max <> 0 /\ forall n, k <= n < max ->
    let c := candidate e pre post rest t n (clock n) in
    ~ (t <= Z.of_nat (difficulty (sha256 (serialize_with num c))))%Z.
Proof.
  intros T MX. induction fuel as [|f IH]; intros k m m' e S K SB E AN; [discriminate|].
  cbn [mine_loop] in E. destruct (N.eqb_spec max 0) as [->|M0]; cbn [orb] in E.
  - destruct (try_shape (al k) (clock k) m k t pre post rest S T) as (m1 & r & E1 & S1 & NU & SB1 & SG & OKK).
    rewrite E1 in E. destruct r as [[|]|x|]; [discriminate| | |congruence].
    + assert (W : (k + 1) mod 2 ^ 64 < 2 ^ 64) by (apply N.mod_lt; discriminate).
      destruct (IH _ _ _ e S1 W ltac:(eapply same_body_trans; eassumption) E AN) as (A & _). congruence.
    + exfalso. injection E as <- E. subst x. unfold try_nonce in E1.
      destruct (add_nonce_shape (al k) pre post rest (m_tags m) k t S T) as (ts' & r & E2 & S' & NU2 & OK2 & _).
      rewrite E2 in E1. destruct r as [[]|x|]; [| |congruence].
      * unfold m_compute_id in E1. destruct (observe _); [destruct (al_id (al k))|]; discriminate.
      * assert (x = ENotFound) by congruence. subst x.
        unfold add_nonce_tag in E2. destruct S as (FP & tg & ET & TS). rewrite ET in E2.
        destruct (tagstate_nonce _ _ TS) as (IN & LN).
        rewrite find_nonce_at in E2 by (assumption || apply pre_is_nonce, FP).
        destruct (negb _); [discriminate|]. destruct (_ <? _)%nat; [discriminate|].
        destruct (0 <? t)%Z; [|discriminate]. destruct (_ && _); [discriminate|].
        destruct (negb _); discriminate.
  - split; [exact M0|]. destruct (N.ltb_spec k max) as [L|L]; [|intros n Hn; lia].
    destruct (try_shape (al k) (clock k) m k t pre post rest S T) as (m1 & r & E1 & S1 & NU & SB1 & SG & OKK).
    rewrite E1 in E. destruct r as [[|]|x|]; [discriminate| | |congruence].
    + rewrite N.mod_small in E by lia.
      destruct (IH (k + 1) _ _ e S1 ltac:(lia) ltac:(eapply same_body_trans; eassumption) E AN) as (_ & A).
      intros n Hn. destruct (N.eq_dec n k) as [->|NK]; [|apply A; lia].
      destruct (OKK _ eq_refl) as (_ & B). symmetry in B. apply Z.leb_gt in B.
      destruct SB as (P1 & P2 & P3).
      assert (EC : serialize_with num (candidate (m_ev m) pre post rest t k (clock k)) =
                   serialize_with num (candidate e pre post rest t k (clock k))).
      { unfold candidate, serialize_with, with_created, with_tags, content_of. cbn [ev_pubkey ev_kind ev_content ev_created ev_tags].
        rewrite P1, P2, P3. reflexivity. }
      cbv zeta in *. rewrite <- EC. apply Zlt_not_le. exact B.
    + exfalso. injection E as <- E. subst x. unfold try_nonce in E1.
      destruct (add_nonce_shape (al k) pre post rest (m_tags m) k t S T) as (ts' & r & E2 & S' & NU2 & OK2 & _).
      rewrite E2 in E1. destruct r as [[]|x|]; [| |congruence].
      * unfold m_compute_id in E1. destruct (observe _); [destruct (al_id (al k))|]; discriminate.
      * assert (x = ENotFound) by congruence. subst x.
        unfold add_nonce_tag in E2. destruct S as (FP & tg & ET & TS). rewrite ET in E2.
        destruct (tagstate_nonce _ _ TS) as (IN & LN).
        rewrite find_nonce_at in E2 by (assumption || apply pre_is_nonce, FP).
        destruct (negb _); [discriminate|]. destruct (_ <? _)%nat; [discriminate|].
        destruct (0 <? t)%Z; [|discriminate]. destruct (_ && _); [discriminate|].
        destruct (negb _); discriminate.
Qed.
End M.
