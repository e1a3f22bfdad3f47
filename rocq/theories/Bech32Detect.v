(** Error detection of the bech32 checksum: any error pattern with one to
    four wrong symbols within 58 positions has a non-zero syndrome. *)
From Verif Require Import Base BaseFacts BitsFacts Bech32 Bech32Proofs.
From Coq Require Import FSets.FMapPositive.
Open Scope N_scope.

Definition step0 (x : N) : N := polystep x 0.
Fixpoint pw (c : N) (m : nat) : N :=
  match m with O => c | S k => step0 (pw c k) end.

Lemma step0_xor a b : step0 (N.lxor a b) = N.lxor (step0 a) (step0 b).
Proof. unfold step0. rewrite <- polystep_xor, N.lxor_0_r. reflexivity. Qed.

Lemma step0_0 : step0 0 = 0.
Proof. reflexivity. Qed.

Lemma pw_xor a b m : pw (N.lxor a b) m = N.lxor (pw a m) (pw b m).
Proof. induction m; simpl; auto. rewrite IHm. apply step0_xor. Qed.

Lemma pw_0 m : pw 0 m = 0.
Proof. induction m; simpl; auto. rewrite IHm. reflexivity. Qed.

Lemma step0_lt x : step0 x < 2 ^ 30.
Proof. apply polystep_lt. reflexivity. Qed.

Lemma pw_lt c m : c < 2 ^ 30 -> pw c m < 2 ^ 30.
Proof. destruct m; simpl; auto. intros _. apply step0_lt. Qed.

Lemma pw_add c a b : pw (pw c a) b = pw c (b + a).
Proof. induction b; simpl; auto. rewrite IHb. auto. Qed.

(** ** step0 has trivial kernel *)

Lemma genmix_split t c : genmix t c = N.lxor c (genmix t 0).
Proof. unfold genmix. rewrite N.lxor_0_l, !N.lxor_assoc. reflexivity. Qed.

Lemma kernel_tops :
  forallb (fun i => (N.of_nat i =? 0) || negb (genmix (N.of_nat i) 0 mod 32 =? 0)) (seq 0 32) = true.
Proof. vm_compute. reflexivity. Qed.

Lemma step0_kernel x : x < 2 ^ 30 -> step0 x = 0 -> x = 0.
Proof.
  intros Hx H. unfold step0, polystep in H. rewrite N.lxor_0_r, genmix_split in H.
  apply N.lxor_eq in H.
  assert (T : N.shiftr x 25 < 32).
  { rewrite N.shiftr_div_pow2. apply N.div_lt_upper_bound; [discriminate|]. exact Hx. }
  assert (Z : N.shiftr x 25 = 0).
  { pose proof kernel_tops as K. rewrite forallb_forall in K.
    specialize (K (N.to_nat (N.shiftr x 25))). rewrite N2Nat.id in K.
    assert (In (N.to_nat (N.shiftr x 25)) (seq 0 32)) by (apply in_seq; lia).
    specialize (K H0). apply orb_true_iff in K as [K|K]; [apply N.eqb_eq; auto|].
    rewrite <- H, N.shiftl_mul_pow2 in K. change (2 ^ 5) with 32 in K.
    rewrite N.mod_mul in K by discriminate. discriminate. }
  rewrite Z, genmix_0 in H. change 0x1ffffff with (N.ones 25) in H.
  rewrite N.land_ones, N.shiftl_mul_pow2 in H.
  rewrite N.shiftr_div_pow2 in Z.
  apply N.mul_eq_0 in H as [H|]; [|discriminate].
  rewrite (N.div_mod x (2 ^ 25)), H, Z by discriminate. reflexivity.
Qed.

Lemma pw_kernel x m : x < 2 ^ 30 -> pw x m = 0 -> x = 0.
Proof.
  intros Hx. induction m; simpl; auto. intros H. apply IHm.
  apply step0_kernel; auto. apply pw_lt; auto.
Qed.

(** ** Multiplication of every symbol by the primitive element of GF(32) *)

(** symbol-wise on a 30-bit register: shift left inside each 5-bit group *)
Definition dbl (x : N) : N :=
  N.lxor (N.land (N.shiftl x 1) 0x3DEF7BDE)
         (let h := N.land (N.shiftr x 4) 0x2108421 in
          N.lxor h (N.shiftl h 3)).

Lemma dbl_xor a b : dbl (N.lxor a b) = N.lxor (dbl a) (dbl b).
Proof.
  unfold dbl. cbv zeta. rewrite N.shiftl_lxor, !land_lxor, N.shiftr_lxor, !land_lxor, N.shiftl_lxor.
  rewrite (lxor4 (N.land (N.shiftr a 4) _)). apply lxor4.
Qed.

(** A GF(2)-linear map is determined by its values on the powers of two. *)
Lemma linear_ext (f g : N -> N) n :
  (forall a b, f (N.lxor a b) = N.lxor (f a) (f b)) ->
  (forall a b, g (N.lxor a b) = N.lxor (g a) (g b)) ->
  (forall i, (i < n)%nat -> f (2 ^ N.of_nat i) = g (2 ^ N.of_nat i)) ->
  forall x, x < 2 ^ N.of_nat n -> f x = g x.
Proof.
  intros Lf Lg. induction n as [|n IH]; intros B x Hx.
  - assert (x = 0) as -> by (simpl in Hx; lia).
    assert (f 0 = 0) by (rewrite <- (N.lxor_nilpotent 0), Lf; apply N.lxor_nilpotent).
    assert (g 0 = 0) by (rewrite <- (N.lxor_nilpotent 0), Lg; apply N.lxor_nilpotent).
    congruence.
  - destruct (N.lt_ge_cases x (2 ^ N.of_nat n)) as [Hl|Hg].
    + apply IH; auto.
    + assert (E : x = N.lxor (N.lxor x (2 ^ N.of_nat n)) (2 ^ N.of_nat n))
        by (rewrite N.lxor_assoc, N.lxor_nilpotent, N.lxor_0_r; auto).
      assert (Hs : N.lxor x (2 ^ N.of_nat n) < 2 ^ N.of_nat n).
      { destruct (N.eq_dec (N.lxor x (2 ^ N.of_nat n)) 0) as [->|Hn].
        { apply N.neq_0_lt_0, N.pow_nonzero. discriminate. }
        assert (Hx' : x mod 2 ^ N.of_nat (S n) = x) by (apply N.mod_small; auto).
        assert (HB : forall i, N.of_nat n <= i -> N.testbit (N.lxor x (2 ^ N.of_nat n)) i = false).
        { intros i Hi. rewrite N.lxor_spec, N.pow2_bits_eqb.
          destruct (N.eqb_spec (N.of_nat n) i) as [<-|Hni].
          - replace (N.testbit x (N.of_nat n)) with true; auto. symmetry.
            rewrite N.testbit_true. 
            assert (x / 2 ^ N.of_nat n = 1) as ->; [|reflexivity].
            replace (N.of_nat (S n)) with (N.of_nat n + 1) in Hx by lia.
            rewrite N.pow_add_r in Hx. symmetry.
            apply (N.div_unique x _ 1 (x - 2 ^ N.of_nat n)); lia.
          - rewrite (testbit_high (N.of_nat (S n)) x) by (auto; lia). reflexivity. }
        rewrite <- (N.mod_small _ (2 ^ N.of_nat (S n))) by
          (apply lxor_lt; auto; apply N.pow_lt_mono_r; lia).
        apply N.nle_gt. intros Hc.
        pose proof (N.log2_le_mono _ _ Hc) as HL. rewrite N.mod_small in HL by
          (apply lxor_lt; auto; apply N.pow_lt_mono_r; lia).
        rewrite N.log2_pow2 in HL by lia.
        pose proof (N.bit_log2 _ Hn) as HB2. rewrite HB in HB2 by auto. discriminate. }
      rewrite E, Lf, Lg, B by lia. f_equal. apply IH; auto.
Qed.

Lemma dbl_step0 x : x < 2 ^ 30 -> dbl (step0 x) = step0 (dbl x).
Proof.
  apply (linear_ext (fun x => dbl (step0 x)) (fun x => step0 (dbl x)) 30).
  - intros. rewrite step0_xor, dbl_xor. reflexivity.
  - intros. rewrite dbl_xor, step0_xor. reflexivity.
  - intros i Hi.
    assert (A : forallb (fun i => dbl (step0 (2 ^ N.of_nat i)) =? step0 (dbl (2 ^ N.of_nat i)))
                        (seq 0 30) = true) by (vm_compute; reflexivity).
    rewrite forallb_forall in A. apply N.eqb_eq, A, in_seq. lia.
Qed.

Lemma dbl_pw c m : c < 2 ^ 30 -> dbl (pw c m) = pw (dbl c) m.
Proof.
  intros Hc. induction m; simpl; auto.
  rewrite dbl_step0 by (apply pw_lt; auto). congruence.
Qed.

Fixpoint dbln (k : nat) (x : N) : N := match k with O => x | S k' => dbl (dbln k' x) end.

Definition syms : list N := map N.of_nat (seq 1 31).

Lemma syms_in c : c <> 0 -> c < 32 -> In c syms.
Proof.
  intros H1 H2. unfold syms. apply in_map_iff. exists (N.to_nat c).
  rewrite N2Nat.id. split; auto. apply in_seq. lia.
Qed.

Lemma syms_inv c : In c syms -> c <> 0 /\ c < 32.
Proof.
  unfold syms. intros H. apply in_map_iff in H as (i & <- & H). apply in_seq in H. lia.
Qed.

Lemma dbl_sym c : In c syms -> In (dbl c) syms.
Proof.
  assert (A : forallb (fun c => existsb (N.eqb (dbl c)) syms) syms = true)
    by (vm_compute; reflexivity).
  rewrite forallb_forall in A. intros H. apply A in H. apply existsb_exists in H as (x & H1 & H2).
  apply N.eqb_eq in H2. congruence.
Qed.

Lemma dbln_sym k c : In c syms -> In (dbln k c) syms.
Proof. intros H. induction k; simpl; auto. apply dbl_sym; auto. Qed.

Lemma dbln_one c : In c syms -> exists k, dbln k c = 1.
Proof.
  assert (A : forallb (fun c => existsb (fun k => dbln k c =? 1) (seq 0 31)) syms = true)
    by (vm_compute; reflexivity).
  rewrite forallb_forall in A. intros H. apply A in H. apply existsb_exists in H as (k & _ & H2).
  apply N.eqb_eq in H2. eauto.
Qed.

Lemma dbln_xor k a b : dbln k (N.lxor a b) = N.lxor (dbln k a) (dbln k b).
Proof. induction k; simpl; auto. rewrite IHk. apply dbl_xor. Qed.

Lemma dbln_0 k : dbln k 0 = 0.
Proof. induction k; simpl; auto. rewrite IHk. reflexivity. Qed.

Lemma dbln_pw k c m : In c syms -> dbln k (pw c m) = pw (dbln k c) m.
Proof.
  intros H. induction k; simpl; auto. rewrite IHk. apply dbl_pw.
  apply (dbln_sym k) in H. apply syms_inv in H. eapply N.lt_trans; [apply H|reflexivity].
Qed.

(** ** The table of single-symbol syndromes, low symbol dropped *)

Fixpoint mkrows (n : nat) (row : list N) : list (list N) :=
  match n with O => [] | S k => row :: mkrows k (map step0 row) end.
Definition rows : list (list N) := mkrows 57 (map step0 syms).

Definition add_row (m : nat) (ot : option (PositiveMap.t nat)) (v : N) : option (PositiveMap.t nat) :=
            match ot with
            | None => None
            | Some t => match N.shiftr v 5 with
                        | 0 => None
                        | N.pos p => match PositiveMap.find p t with
                                     | Some _ => None
                                     | None => Some (PositiveMap.add p m t)
                                     end
                        end
            end.

Fixpoint build (m : nat) (rs : list (list N)) (t : PositiveMap.t nat) : option (PositiveMap.t nat) :=
  match rs with
  | [] => Some t
  | r :: rest =>
    match fold_left (add_row m) r (Some t) with
    | None => None
    | Some t' => build (S m) rest t'
    end
  end.

Definition table : PositiveMap.t nat :=
  match build 1 rows (PositiveMap.empty nat) with Some t => t | None => PositiveMap.empty nat end.

Fixpoint chkrows (t : PositiveMap.t nat) (v1 : N) (q : nat) (rs : list (list N)) : bool :=
  match rs with
  | [] => true
  | r :: rest =>
    forallb (fun v => match N.shiftr (N.lxor v1 v) 5 with
                      | 0 => true
                      | N.pos p => match PositiveMap.find p t with
                                   | None => true
                                   | Some r => Nat.leb r q
                                   end
                      end) r
    && chkrows t v1 (S q) rest
  end.

Fixpoint chkall (t : PositiveMap.t nat) (p : nat) (rs : list (list N)) : bool :=
  match rs with
  | [] => true
  | r :: rest => chkrows t (hd 0 r) (S p) rest && chkall t (S p) rest
  end.

Definition build_ok : bool :=
  match build 1 rows (PositiveMap.empty nat) with Some _ => true | None => false end.

Lemma build_ok_true : build_ok = true.
Proof. vm_compute. reflexivity. Qed.

Lemma chkall_true : chkall table 1 rows = true.
Proof. vm_compute. reflexivity. Qed.

Lemma mkrows_nth n : forall row i,
  (i < n)%nat -> nth i (mkrows n row) [] = map (fun v => pw v i) row.
Proof.
  induction n as [|n IH]; intros row i Hi; [lia|]. simpl.
  destruct i as [|i].
  - simpl. rewrite map_id. reflexivity.
  - rewrite IH by lia. rewrite map_map. apply map_ext. intros v.
    change (step0 v) with (pw v 1). rewrite pw_add. f_equal. lia.
Qed.

Lemma mkrows_length n row : length (mkrows n row) = n.
Proof. revert row; induction n; simpl; auto. Qed.

Lemma rows_nth m : (1 <= m <= 57)%nat ->
  nth (m - 1) rows [] = map (fun a => pw a m) syms.
Proof.
  intros H. unfold rows. rewrite mkrows_nth by lia. rewrite map_map.
  apply map_ext. intros a. change (step0 a) with (pw a 1). rewrite pw_add. f_equal. lia.
Qed.

Lemma build_row_spec m r : forall t t',
  fold_left (add_row m) r (Some t) = Some t' ->
  (forall p j, PositiveMap.find p t = Some j -> PositiveMap.find p t' = Some j) /\
  (forall v, In v r -> exists p, N.shiftr v 5 = N.pos p /\ PositiveMap.find p t' = Some m).
Proof.
  assert (NN : forall r, fold_left (add_row m) r None = None) by (induction r0; simpl; auto).
  induction r as [|v r IH]; cbn [fold_left In]; intros t t' H.
  - injection H as <-. split; auto. intros v [].
  - unfold add_row at 2 in H.
    destruct (N.shiftr v 5) as [|p] eqn:E; [rewrite NN in H; discriminate|].
    destruct (PositiveMap.find p t) eqn:Fd; [rewrite NN in H; discriminate|].
    apply IH in H as [H1 H2]. split.
    + intros q j Hq. apply H1. rewrite PositiveMap.gso; auto. congruence.
    + intros w [<-|Hw]; auto. exists p. split; auto. apply H1. apply PositiveMap.gss.
Qed.

Lemma build_spec rs : forall m t t',
  build m rs t = Some t' ->
  (forall p j, PositiveMap.find p t = Some j -> PositiveMap.find p t' = Some j) /\
  (forall i v, In v (nth i rs []) ->
     exists p, N.shiftr v 5 = N.pos p /\ PositiveMap.find p t' = Some (m + i)%nat).
Proof.
  induction rs as [|r rs IH]; simpl; intros m t t' H.
  - injection H as <-. split; auto. intros [|i] v [].
  - destruct (fold_left _ r (Some t)) as [t1|] eqn:E; [|discriminate].
    apply build_row_spec in E as [E1 E2]. apply IH in H as [H1 H2]. split; auto.
    intros [|i] v Hv.
    + destruct (E2 v Hv) as (p & Hp & Hf). exists p. split; auto.
      rewrite Nat.add_0_r. auto.
    + destruct (H2 i v Hv) as (p & Hp & Hf). exists p. split; auto. rewrite Hf. f_equal. lia.
Qed.

Lemma table_find a m : In a syms -> (1 <= m <= 57)%nat ->
  exists p, N.shiftr (pw a m) 5 = N.pos p /\ PositiveMap.find p table = Some m.
Proof.
  intros Ha Hm. pose proof build_ok_true as B. unfold build_ok in B. unfold table.
  destruct (build 1 rows (PositiveMap.empty nat)) as [t|] eqn:E; [|discriminate].
  apply build_spec in E as [_ E]. specialize (E (m - 1)%nat (pw a m)).
  rewrite rows_nth in E by auto. destruct E as (p & H1 & H2).
  - apply in_map_iff. eauto.
  - exists p. split; auto. rewrite H2. f_equal. lia.
Qed.

Lemma chkrows_spec t v1 rs : forall q, chkrows t v1 q rs = true ->
  forall i v p r, In v (nth i rs []) -> N.shiftr (N.lxor v1 v) 5 = N.pos p ->
  PositiveMap.find p t = Some r -> (r <= q + i)%nat.
Proof.
  induction rs as [|x rs IH]; simpl; intros q H i v p r Hv E Hf.
  - destruct i; destruct Hv.
  - apply andb_true_iff in H as [H1 H2]. destruct i as [|i].
    + rewrite forallb_forall in H1. apply H1 in Hv. rewrite E, Hf in Hv.
      apply Nat.leb_le in Hv. lia.
    + eapply IH in H2; eauto. lia.
Qed.

Lemma chkall_spec t rs : forall p0, chkall t p0 rs = true ->
  forall j i v p r, In v (nth (j + 1 + i) rs []) ->
  N.shiftr (N.lxor (hd 0 (nth j rs [])) v) 5 = N.pos p ->
  PositiveMap.find p t = Some r -> (r <= p0 + j + 1 + i)%nat.
Proof.
  induction rs as [|x rs IH]; cbn [chkall]; intros p0 H j i v p r Hv E Hf.
  - destruct (j + 1 + i)%nat; destruct Hv.
  - apply andb_true_iff in H as [H1 H2]. destruct j as [|j].
    + pose proof (chkrows_spec t _ rs _ H1 i v p r Hv E Hf). lia.
    + pose proof (IH (S p0) H2 j i v p r Hv E Hf). lia.
Qed.

Lemma no_triple a d p q r : In a syms -> In d syms ->
  (1 <= p)%nat -> (p < q)%nat -> (q < r)%nat -> (r <= 57)%nat ->
  N.shiftr (N.lxor (N.lxor (pw 1 p) (pw a q)) (pw d r)) 5 <> 0.
Proof.
  intros Ha Hd H1 H2 H3 H4 E. rewrite N.shiftr_lxor in E. apply N.lxor_eq in E.
  destruct (table_find d r Hd) as (k & Hk & Hf); [lia|].
  assert (r <= 1 + (p - 1) + 1 + (q - p - 1))%nat; [|lia].
  eapply (chkall_spec _ _ _ chkall_true (p - 1) (q - p - 1) (pw a q)); eauto.
  - replace (p - 1 + 1 + (q - p - 1))%nat with (q - 1)%nat by lia.
    rewrite rows_nth by lia. apply in_map_iff. eauto.
  - rewrite rows_nth by lia. simpl hd. rewrite E. exact Hk.
Qed.

(** ** Polynomial in reversed order, weight, and the main lemma *)

Fixpoint Q (r : list N) : N :=
  match r with [] => 0 | v :: r' => N.lxor (step0 (Q r')) v end.

Fixpoint weight (l : list N) : nat :=
  match l with [] => O | v :: r => if v =? 0 then weight r else S (weight r) end.

Lemma Q_lt r : Forall (fun v => v < 32) r -> Q r < 2 ^ 30.
Proof.
  induction r; cbn [Q]; intros F; [reflexivity|]. inversion F; subst.
  apply lxor_lt; [apply step0_lt|]. eapply N.lt_trans; eauto. reflexivity.
Qed.

Lemma polystep_step0 c v : polystep c v = N.lxor (step0 c) v.
Proof.
  unfold step0. rewrite <- (N.lxor_0_r c) at 1. rewrite <- (N.lxor_0_l v) at 1.
  rewrite polystep_xor. f_equal. unfold polystep. simpl N.shiftr. rewrite genmix_0. apply N.lxor_0_l.
Qed.

Lemma polymod_Q l : polymod_from 0 l = Q (rev l).
Proof.
  rewrite <- (rev_involutive l) at 1. generalize (rev l) as r. clear l.
  induction r as [|v r IH]; simpl; auto.
  rewrite polymod_from_app, IH. unfold polymod_from. simpl. apply polystep_step0.
Qed.

Lemma weight_0 r k : weight r = O -> pw (Q r) k = 0.
Proof.
  revert k. induction r as [|v r IH]; simpl; intros k H; [apply pw_0|].
  destruct (N.eqb_spec v 0) as [->|]; [|discriminate].
  rewrite N.lxor_0_r. change (step0 (Q r)) with (pw (Q r) 1). rewrite pw_add. auto.
Qed.

Lemma expand r : forall k w, weight r = S w -> Forall (fun v => v < 32) r ->
  exists b r' m, In b syms /\ (k <= m)%nat /\ weight r' = w /\ Forall (fun v => v < 32) r' /\
    (m + 1 + length r' <= k + length r)%nat /\
    pw (Q r) k = N.lxor (pw b m) (pw (Q r') (m + 1)).
Proof.
  induction r as [|v r IH]; simpl; intros k w H F; [discriminate|].
  inversion F; subst. destruct (N.eqb_spec v 0) as [->|Hv].
  - destruct (IH (S k) w H H3) as (b & r' & m & Hb & Hm & Hw & Hf & Hl & E).
    exists b, r', m. repeat split; auto; try lia.
    rewrite <- E, N.lxor_0_r. change (step0 (Q r)) with (pw (Q r) 1). rewrite pw_add.
    f_equal. lia.
  - injection H as H. exists v, r, k. split; [apply syms_in; auto|].
    split; [lia|]. split; [auto|]. split; [auto|]. split; [lia|].
    rewrite pw_xor, N.lxor_comm. f_equal.
      change (step0 (Q r)) with (pw (Q r) 1). rewrite pw_add. reflexivity.
Qed.

Lemma low_dropped c x : c < 32 -> N.lxor c x = 0 -> N.shiftr x 5 = 0.
Proof.
  intros Hc E. apply N.lxor_eq in E. subst x.
  rewrite N.shiftr_div_pow2. apply N.div_small. exact Hc.
Qed.

Theorem detect r :
  Forall (fun v => v < 32) r -> (length r <= 58)%nat ->
  (1 <= weight r <= 4)%nat -> Q r <> 0.
Proof.
  intros F L W E0.
  (* first (lowest) non-zero symbol c, stripped of the zeros after it *)
  assert (S1 : exists c r1, In c syms /\ weight r = S (weight r1) /\
             Forall (fun v => v < 32) r1 /\ (length r1 + 1 <= 58)%nat /\
             N.lxor c (pw (Q r1) 1) = 0).
  { clear -F L W E0. revert F L W E0. induction r as [|v r IH]; simpl; intros F L W E0; [lia|].
    inversion F; subst. destruct (N.eqb_spec v 0) as [->|Hv].
    - rewrite N.lxor_0_r in E0. apply step0_kernel in E0; [|apply Q_lt; auto].
      destruct IH as (c & r1 & ? & ? & ? & ? & ?); auto; try lia.
      exists c, r1. auto.
    - exists v, r. split; [apply syms_in; auto|].
      split; [auto|]. split; [auto|]. split; [lia|].
      rewrite N.lxor_comm. exact E0. }
  destruct S1 as (c & r1 & Hc & Hw & F1 & L1 & E). clear E0.
  destruct (weight r1) as [|w1] eqn:W1.
  { rewrite weight_0 in E by auto. rewrite N.lxor_0_r in E. apply syms_inv in Hc. tauto. }
  destruct (expand r1 1 w1 W1 F1) as (b & r2 & m1 & Hb & Hm1 & W2 & F2 & L2 & E2).
  rewrite E2 in E. clear E2.
  destruct (weight r2) as [|w2] eqn:W2'.
  { rewrite weight_0 in E by auto. rewrite N.lxor_0_r in E.
    apply low_dropped in E; [|apply syms_inv in Hc; tauto].
    destruct (table_find b m1 Hb) as (p & Hp & _); [lia|]. congruence. }
  destruct (expand r2 (m1 + 1) w2 W2' F2) as (a & r3 & m2 & Ha & Hm2 & W3 & F3 & L3 & E3).
  rewrite E3 in E. clear E3.
  destruct (weight r3) as [|w3] eqn:W3'.
  { rewrite weight_0 in E by auto. rewrite N.lxor_0_r in E.
    apply low_dropped in E; [|apply syms_inv in Hc; tauto].
    rewrite N.shiftr_lxor in E. apply N.lxor_eq in E.
    destruct (table_find b m1 Hb) as (p & Hp & Hf); [lia|].
    destruct (table_find a m2 Ha) as (q & Hq & Hg); [lia|].
    rewrite Hp, Hq in E. injection E as ->. rewrite Hf in Hg. injection Hg as ->. lia. }
  destruct (expand r3 (m2 + 1) w3 W3' F3) as (d & r4 & m3 & Hd & Hm3 & W4 & F4 & L4 & E4).
  rewrite E4 in E. clear E4.
  assert (w3 = O) by lia. subst w3. rewrite (weight_0 r4) in E by lia. rewrite N.lxor_0_r in E.
  (* scale so that b becomes 1 *)
  destruct (dbln_one b Hb) as (k & Hk).
  apply (f_equal (dbln k)) in E. rewrite !dbln_xor, dbln_0, !dbln_pw, Hk in E by auto.
  apply low_dropped in E; [|apply (dbln_sym k), syms_inv in Hc; tauto].
  rewrite <- N.lxor_assoc in E.
  eapply (no_triple (dbln k a) (dbln k d) m1 m2 m3); eauto using dbln_sym; lia.
Qed.
