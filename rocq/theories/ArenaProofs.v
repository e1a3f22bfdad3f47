(** Lemmas about the tag storage. *)
From Verif Require Import Base BaseFacts Arena ArenaSpec.
Open Scope N_scope.

(** ** Bytes of a block *)
Lemma loadn_at b A X B a n : b_bytes b = A ++ X ++ B -> length X = n ->
  a = b_addr b + N.of_nat (length A) -> loadn b a n = Ok X.
Proof.
  intros E L ->. unfold loadn, in_block, b_len. rewrite E, !app_length, L.
  replace (b_addr b <=? _) with true by (symmetry; apply N.leb_le; lia).
  replace (_ <=? b_addr b + _) with true by (symmetry; apply N.leb_le; lia).
  cbn [andb]. f_equal. replace (N.to_nat _) with (length A) by lia.
  rewrite skipn_app_exact by reflexivity. apply firstn_app_exact. symmetry. exact L.
Qed.

Lemma store_at b A X B a l : b_bytes b = A ++ X ++ B -> length X = length l ->
  a = b_addr b + N.of_nat (length A) ->
  store b a l = Ok (mkBlock (b_addr b) (A ++ l ++ B)).
Proof.
  intros E L ->. unfold store, in_block, b_len. rewrite E, !app_length, L.
  replace (b_addr b <=? _) with true by (symmetry; apply N.leb_le; lia).
  replace (_ <=? b_addr b + _) with true by (symmetry; apply N.leb_le; lia).
  cbn [andb]. f_equal. f_equal. replace (N.to_nat _) with (length A) by lia.
  rewrite firstn_app_exact by reflexivity. f_equal. f_equal.
  rewrite <- skipn_add. rewrite skipn_app_exact by reflexivity. apply skipn_app_exact. symmetry. exact L.
Qed.

Lemma le_bytes_length n x : length (le_bytes n x) = n.
Proof. revert x. induction n as [|n IH]; intros x; cbn [le_bytes length]; [|rewrite IH]; reflexivity. Qed.

Lemma le_value_bytes n x : x < 256 ^ N.of_nat n -> le_value (le_bytes n x) = x.
Proof.
  revert x. induction n as [|n IH]; intros x H; cbn [le_bytes le_value].
  - change (256 ^ N.of_nat 0) with 1 in H. lia.
  - rewrite Nat2N.inj_succ, N.pow_succ_r' in H. rewrite IH.
    + pose proof (N.div_mod x 256 ltac:(lia)). lia.
    + apply N.div_lt_upper_bound; lia.
Qed.

Lemma load_ptr_at b A p B a : b_bytes b = A ++ le_bytes 8 p ++ B -> p < 2 ^ 64 ->
  a = b_addr b + N.of_nat (length A) -> load_ptr b a = Ok p.
Proof.
  intros E P Ea. unfold load_ptr.
  rewrite (loadn_at b A (le_bytes 8 p) B a 8) by (auto using le_bytes_length). cbn [bind].
  rewrite le_value_bytes; [reflexivity|]. exact P.
Qed.

(** ** Layout *)
Fixpoint ptrs (s : N) (vs : list (list N)) : list N :=
  match vs with [] => [] | v :: r => s :: ptrs (s + N.of_nat (length v) + 1) r end.
Definition strs (vs : list (list N)) : list N := flat_map (fun v => v ++ [0]) vs.
Definition image (a : N) (vs : list (list N)) : list N :=
  flat_map (le_bytes 8) (ptrs (a + 8 * N.of_nat (length vs)) vs) ++ strs vs.

Lemma ptrs_length s vs : length (ptrs s vs) = length vs.
Proof. revert s. induction vs as [|v vs IH]; intros s; cbn [ptrs length]; [|rewrite IH]; reflexivity. Qed.
Lemma flat_le_length ps : length (flat_map (le_bytes 8) ps) = (8 * length ps)%nat.
Proof. induction ps as [|p ps IH]; cbn [flat_map length]; [|rewrite app_length, le_bytes_length, IH]; lia. Qed.
Lemma image_length a vs : length (image a vs) = (8 * length vs + length (strs vs))%nat.
Proof. unfold image. rewrite app_length, flat_le_length, ptrs_length. reflexivity. Qed.

Lemma ptrs_range s vs : Forall (fun p => s <= p /\ p < s + N.of_nat (length (strs vs))) (ptrs s vs).
Proof.
  revert s. induction vs as [|v vs IH]; intros s; cbn [ptrs]; constructor;
    unfold strs in *; cbn [flat_map]; rewrite !app_length in *; cbn [length].
  - lia.
  - eapply Forall_impl; [|apply IH]. cbv beta. intros p H. lia.
Qed.

(** [lay base pos m ts vals]: the bytes [m], found at [base + pos], contain the
    tags [ts] holding [vals], in this order, possibly with gaps. *)
Inductive lay (base : N) : nat -> list N -> list tagref -> list (list (list N)) -> Prop :=
| lay_nil pos m : lay base pos m [] []
| lay_cons pos gap vs rest ts vals o :
    o = (pos + length gap)%nat ->
    Forall cstr_ok vs ->
    lay base (o + length (image (base + N.of_nat o) vs)) rest ts vals ->
    lay base pos (gap ++ image (base + N.of_nat o) vs ++ rest)
        (mkTag (base + N.of_nat o) (length vs) :: ts) (vs :: vals).

Lemma lay_app_gap base pos m ts vals g : lay base pos m ts vals -> lay base pos (m ++ g) ts vals.
Proof.
  induction 1 as [|pos gap vs rest ts vals o Eo C L IH]; [constructor|].
  rewrite <- !app_assoc. constructor; assumption.
Qed.

Lemma lay_snoc base pos m ts vals vs : lay base pos m ts vals -> Forall cstr_ok vs ->
  lay base pos (m ++ image (base + N.of_nat (pos + length m)) vs)
    (ts ++ [mkTag (base + N.of_nat (pos + length m)) (length vs)]) (vals ++ [vs]).
Proof.
  intros L C. induction L as [pos m|pos gap ws rest ts vals o Eo C' L IH].
  - cbn [app]. rewrite <- (app_nil_r (image _ vs)). constructor; [reflexivity|exact C|constructor].
  - rewrite <- !app_assoc. cbn [app]. constructor; [assumption..|].
    replace (pos + length (gap ++ image (base + N.of_nat o) ws ++ rest))%nat
      with (o + length (image (base + N.of_nat o) ws) + length rest)%nat
      by (rewrite !app_length; lia).
    exact IH.
Qed.

(** ** Reading *)
Lemma read_cstr_from_at v r : cstr_ok v -> read_cstr_from (v ++ 0 :: r) = Ok v.
Proof.
  induction v as [|c v IH]; intros H; cbn [app read_cstr_from]; [reflexivity|].
  inversion H as [|? ? H1 H2]; subst. unfold char_ok in H1.
  destruct (N.eqb_spec c 0); [lia|]. rewrite IH by assumption. reflexivity.
Qed.

Lemma read_cstr_at b A v B a : b_bytes b = A ++ v ++ 0 :: B -> cstr_ok v ->
  a = b_addr b + N.of_nat (length A) -> read_cstr b a = Ok v.
Proof.
  intros E C ->. unfold read_cstr, in_block, b_len. rewrite E, !app_length.
  replace (b_addr b <=? _) with true by (symmetry; apply N.leb_le; lia).
  replace (_ <=? b_addr b + _) with true by (symmetry; apply N.leb_le; lia).
  cbn [andb]. replace (N.to_nat _) with (length A) by lia.
  rewrite skipn_app_exact by reflexivity. apply read_cstr_from_at. exact C.
Qed.

Lemma read_values_at b vs : forall A B C a s,
  b_bytes b = A ++ flat_map (le_bytes 8) (ptrs s vs) ++ B ++ strs vs ++ C ->
  a = b_addr b + N.of_nat (length A) ->
  s = a + 8 * N.of_nat (length vs) + N.of_nat (length B) ->
  b_addr b + b_len b < 2 ^ 64 -> Forall cstr_ok vs ->
  read_values b a (length vs) = Ok vs.
Proof.
  induction vs as [|v vs IH]; intros A B C a s E Ea Es R F; [reflexivity|].
  inversion F as [|? ? F1 F2]; subst x l.
  cbn [length read_values ptrs flat_map strs] in *. fold (strs vs) in E.
  rewrite <- !app_assoc in E.
  assert (S : s < 2 ^ 64).
  { unfold b_len in R. rewrite E in R. rewrite !app_length, flat_le_length, le_bytes_length, ptrs_length in R.
    cbn [length] in R. lia. }
  rewrite (load_ptr_at b A s (flat_map (le_bytes 8) (ptrs (s + N.of_nat (length v) + 1) vs) ++
             B ++ v ++ [0] ++ strs vs ++ C)) by auto.
  cbn [bind].
  rewrite (read_cstr_at b (A ++ le_bytes 8 s ++ flat_map (le_bytes 8) (ptrs (s + N.of_nat (length v) + 1) vs) ++ B)
             v (strs vs ++ C)); cbn [bind].
  - rewrite (IH (A ++ le_bytes 8 s) (B ++ v ++ [0]) C (a + 8) (s + N.of_nat (length v) + 1)); [reflexivity|..].
    + rewrite E, <- !app_assoc. reflexivity.
    + rewrite app_length, le_bytes_length. lia.
    + rewrite !app_length. cbn [length]. lia.
    + exact R.
    + exact F2.
  - rewrite E, <- !app_assoc. reflexivity.
  - exact F1.
  - rewrite !app_length, flat_le_length, le_bytes_length, ptrs_length. lia.
Qed.

Lemma read_tags_lay b base pos m ts vals : lay base pos m ts vals ->
  forall A F, b_bytes b = A ++ m ++ F -> length A = pos -> base = b_addr b ->
  b_addr b + b_len b < 2 ^ 64 -> read_tags b ts = Ok vals.
Proof.
  induction 1 as [|pos gap vs rest ts vals o Eo C L IH]; intros A F E LA Eb R; [reflexivity|].
  cbn [read_tags t_values t_count].
  rewrite (read_values_at b vs (A ++ gap) [] (rest ++ F) (base + N.of_nat o)
             (base + N.of_nat o + 8 * N.of_nat (length vs))).
  - cbn [bind]. rewrite (IH (A ++ gap ++ image (base + N.of_nat o) vs) F); [reflexivity|..]; auto.
    + rewrite E, <- !app_assoc. reflexivity.
    + rewrite !app_length. lia.
  - rewrite E. unfold image. rewrite <- !app_assoc. reflexivity.
  - rewrite app_length. lia.
  - cbn [length]. lia.
  - exact R.
  - exact C.
Qed.

(** ** Writing *)
Lemma write_values_at vs : forall b A Q B R F slot storage,
  b_bytes b = A ++ Q ++ B ++ R ++ F ->
  length Q = (8 * length vs)%nat -> length R = length (strs vs) ->
  slot = b_addr b + N.of_nat (length A) ->
  storage = slot + N.of_nat (length Q) + N.of_nat (length B) ->
  write_values b slot storage vs =
  Ok (mkBlock (b_addr b) (A ++ flat_map (le_bytes 8) (ptrs storage vs) ++ B ++ strs vs ++ F)).
Proof.
  induction vs as [|v vs IH]; intros b A Q B R F slot storage E LQ LR Es Et.
  - cbn [length] in LQ. cbn [strs flat_map length] in LR. destruct Q; [|cbn in LQ; lia].
    destruct R; [|cbn in LR; lia]. cbn [write_values ptrs flat_map strs app] in *. rewrite <- E. destruct b; reflexivity.
  - cbn [strs flat_map] in LR. fold (strs vs) in LR. rewrite !app_length in LR. cbn [length] in LR, LQ.
    set (Q1 := firstn 8 Q). set (Q2 := skipn 8 Q). assert (EQ : Q = Q1 ++ Q2) by (symmetry; apply firstn_skipn).
    set (R1 := firstn (length v + 1) R). set (R2 := skipn (length v + 1) R).
    assert (ER : R = R1 ++ R2) by (symmetry; apply firstn_skipn).
    assert (LQ1 : length Q1 = 8%nat) by (unfold Q1; rewrite firstn_length; lia).
    assert (LR1 : length R1 = (length v + 1)%nat) by (unfold R1; rewrite firstn_length; lia).
    clearbody Q1 Q2 R1 R2. subst Q R. rewrite !app_length in *.
    cbn [write_values].
    rewrite (store_at b (A ++ (Q1 ++ Q2) ++ B) R1 (R2 ++ F) storage (v ++ [0])).
    2:{ rewrite E, <- !app_assoc. reflexivity. }
    2:{ rewrite app_length. cbn [length]. lia. }
    2:{ rewrite !app_length. lia. }
    cbn [bind]. unfold store_ptr.
    rewrite (store_at _ A Q1 (Q2 ++ B ++ (v ++ [0]) ++ R2 ++ F) slot (le_bytes 8 storage)).
    2:{ cbn [b_bytes]. rewrite <- !app_assoc. reflexivity. }
    2:{ rewrite le_bytes_length. exact LQ1. }
    2:{ cbn [b_addr]. exact Es. }
    cbn [bind b_addr].
    rewrite (IH _ (A ++ le_bytes 8 storage) Q2 (B ++ v ++ [0]) R2 F).
    + cbn [b_addr ptrs flat_map strs]. fold (strs vs). rewrite <- !app_assoc. reflexivity.
    + cbn [b_bytes]. rewrite <- !app_assoc. reflexivity.
    + lia.
    + lia.
    + cbn [b_addr]. rewrite app_length, le_bytes_length. lia.
    + rewrite !app_length. cbn [length]. lia.
Qed.

(** ** Moving the block *)
Lemma w64_small x : x < 2 ^ 64 -> w64 x = x.
Proof. intros H. apply N.mod_small. exact H. Qed.

Lemma w64_shift base nb p : 1 <= base -> base <= p -> p - base + nb < 2 ^ 64 -> base < 2 ^ 64 ->
  w64 (p + w64 (nb + 18446744073709551616 - base)) = p - base + nb.
Proof.
  intros H1 H2 H3 H4. unfold w64. rewrite N.add_mod_idemp_r by lia.
  replace (p + (nb + 18446744073709551616 - base)) with (p - base + nb + 1 * 18446744073709551616) by lia.
  rewrite N.mod_add by lia. apply N.mod_small. exact H3.
Qed.

Lemma rebase_values_at ps : forall b A B a off,
  b_bytes b = A ++ flat_map (le_bytes 8) ps ++ B ->
  a = b_addr b + N.of_nat (length A) ->
  Forall (fun p => 1 <= p < 2 ^ 64) ps ->
  rebase_values b a off (length ps) =
  Ok (mkBlock (b_addr b) (A ++ flat_map (le_bytes 8) (map (fun p => w64 (p + off)) ps) ++ B)).
Proof.
  induction ps as [|p ps IH]; intros b A B a off E Ea F.
  - cbn [length rebase_values map flat_map app] in *. rewrite <- E. destruct b; reflexivity.
  - inversion F as [|? ? F1 F2]; subst x l. cbn [flat_map] in E. rewrite <- app_assoc in E.
    cbn [length rebase_values].
    rewrite (load_ptr_at b A p (flat_map (le_bytes 8) ps ++ B)) by (auto; lia). cbn [bind].
    destruct (N.eqb_spec p 0); [lia|]. unfold store_ptr.
    rewrite (store_at b A (le_bytes 8 p) (flat_map (le_bytes 8) ps ++ B))
      by (auto; rewrite !le_bytes_length; reflexivity).
    cbn [bind]. rewrite (IH _ (A ++ le_bytes 8 (w64 (p + off))) B).
    + cbn [b_addr map flat_map]. rewrite <- !app_assoc. reflexivity.
    + cbn [b_bytes]. rewrite <- !app_assoc. reflexivity.
    + cbn [b_addr]. rewrite app_length, le_bytes_length. lia.
    + exact F2.
Qed.

Lemma ptrs_shift base nb vs : forall s, 1 <= base -> base <= s -> base < 2 ^ 64 ->
  s - base + nb + N.of_nat (length (strs vs)) < 2 ^ 64 ->
  map (fun p => w64 (p + w64 (nb + 18446744073709551616 - base))) (ptrs s vs) = ptrs (s - base + nb) vs.
Proof.
  induction vs as [|v vs IH]; intros s H1 H2 H3 H4; [reflexivity|].
  cbn [ptrs map]. cbn [strs flat_map] in H4. fold (strs vs) in H4. rewrite !app_length in H4. cbn [length] in H4.
  rewrite w64_shift by lia. f_equal. rewrite IH by lia. f_equal. lia.
Qed.

Lemma rebase_tags_lay base nb pos m ts vals : lay base pos m ts vals ->
  forall b A F, b_bytes b = A ++ m ++ F -> b_addr b = nb -> length A = pos ->
  1 <= base -> base + N.of_nat (pos + length m) < 2 ^ 64 -> nb + N.of_nat (pos + length m) < 2 ^ 64 ->
  exists m' ts', rebase_tags b (w64 (nb + 18446744073709551616 - base)) ts =
                   Ok (mkBlock nb (A ++ m' ++ F), ts') /\
    length m' = length m /\ length ts' = length ts /\ lay nb pos m' ts' vals.
Proof.
  induction 1 as [pos m|pos gap vs rest ts vals o Eo C L IH]; intros b A F E Eb LA H1 H2 H3.
  - exists m, []. cbn [rebase_tags]. rewrite <- E, <- Eb. destruct b. repeat split; constructor.
  - rewrite !app_length, image_length in H2, H3.
    cbn [rebase_tags t_values t_count].
    assert (EA : w64 (base + N.of_nat o + w64 (nb + 18446744073709551616 - base)) = nb + N.of_nat o).
    { rewrite w64_shift by lia. lia. }
    rewrite EA.
    set (s := base + N.of_nat o + 8 * N.of_nat (length vs)).
    assert (Es : s - base + nb = nb + N.of_nat o + 8 * N.of_nat (length vs)) by (unfold s; lia).
    pose proof (rebase_values_at (ptrs s vs) b (A ++ gap) (strs vs ++ rest ++ F) (nb + N.of_nat o)
                  (w64 (nb + 18446744073709551616 - base))) as RV.
    rewrite ptrs_length in RV. rewrite RV; clear RV.
    + cbn [bind]. rewrite ptrs_shift by (unfold s in *; lia). rewrite Es.
      destruct (IH (mkBlock (b_addr b) ((A ++ gap) ++
                  flat_map (le_bytes 8) (ptrs (nb + N.of_nat o + 8 * N.of_nat (length vs)) vs) ++ strs vs ++ rest ++ F))
                  (A ++ gap ++ image (nb + N.of_nat o) vs) F) as (m' & ts' & R & Lm & Lt & L').
      { cbn [b_bytes]. unfold image. rewrite <- !app_assoc. reflexivity. }
      { exact Eb. }
      { rewrite !app_length, !image_length. lia. }
      { exact H1. }
      { rewrite image_length. lia. }
      { rewrite image_length. lia. }
      rewrite R. cbn [bind fst snd].
      exists (gap ++ image (nb + N.of_nat o) vs ++ m'), (mkTag (nb + N.of_nat o) (length vs) :: ts').
      split; [rewrite <- !app_assoc; reflexivity|].
      split; [rewrite !app_length, !image_length; lia|].
      split; [cbn [length]; lia|].
      constructor; [assumption..|]. rewrite image_length in *. exact L'.
    + rewrite E. unfold image. fold s. rewrite <- !app_assoc. reflexivity.
    + rewrite app_length. lia.
    + eapply Forall_impl; [|apply ptrs_range]. cbv beta. intros p Hp. unfold s in Hp. lia.
Qed.

(** ** The doubling loop *)
Lemma grow_spec required : forall fuel cap,
  1 <= cap -> cap < 2 ^ 64 -> 2 ^ 64 <= cap * 2 ^ N.of_nat fuel -> (0 < fuel)%nat ->
  (exists c, grow fuel cap required = Ok c /\ cap <= c /\ required <= c) \/ grow fuel cap required = Err EMemory.
Proof.
  induction fuel as [|f IH]; intros cap H1 H2 H3 H4; [lia|]. cbn [grow].
  destruct (N.ltb_spec cap required); [|left; exists cap; repeat split; lia].
  destruct (N.leb_spec (w64 (cap * 2)) cap); [right; reflexivity|].
  assert (cap * 2 < 2 ^ 64).
  { destruct (N.lt_ge_cases (cap * 2) (2 ^ 64)); [assumption|]. exfalso.
    unfold w64 in *. replace (cap * 2) with (cap * 2 - 2 ^ 64 + 1 * 18446744073709551616) in * by lia.
    rewrite N.mod_add in * by lia. rewrite N.mod_small in * by lia. lia. }
  rewrite w64_small by assumption.
  destruct f as [|f'].
  { exfalso. change (2 ^ N.of_nat 1) with 2 in H3. lia. }
  destruct (IH (cap * 2)) as [(c & G & C1 & C2)|G].
  - lia.
  - assumption.
  - rewrite (Nat2N.inj_succ (S f')), N.pow_succ_r' in H3. lia.
  - lia.
  - left. exists c. repeat split; [exact G|lia|exact C2].
  - right. exact G.
Qed.

(** It succeeds when the requirement is moderate. *)
Lemma grow_succeeds required : forall fuel cap,
  1 <= cap -> cap < 2 ^ 63 -> 2 ^ 64 <= cap * 2 ^ N.of_nat fuel -> (0 < fuel)%nat -> required <= 2 ^ 62 ->
  exists c, grow fuel cap required = Ok c /\ c < 2 ^ 63.
Proof.
  induction fuel as [|f IH]; intros cap H1 H2 H3 H4 H5; [lia|]. cbn [grow].
  destruct (N.ltb_spec cap required); [|exists cap; auto].
  assert (cap * 2 < 2 ^ 63) by lia. rewrite w64_small by lia.
  destruct (N.leb_spec (cap * 2) cap); [lia|].
  destruct f as [|f']; [exfalso; change (2 ^ N.of_nat 1) with 2 in H3; lia|].
  apply IH; try lia.
  rewrite (Nat2N.inj_succ (S f')), N.pow_succ_r' in H3. lia.
Qed.

(** ** Sizes *)
Lemma strings_size_spec vs : forall acc n, strings_size acc vs = Ok n ->
  n = acc + N.of_nat (length (strs (all_some vs))) /\ length (all_some vs) = length vs /\
  vs = map Some (all_some vs).
Proof.
  induction vs as [|[v|] vs IH]; intros acc n H; cbn [strings_size] in H.
  - injection H as <-. cbn. repeat split. lia.
  - destruct (_ <? _); [discriminate|]. apply IH in H as (-> & L & E).
    unfold all_some in *. cbn [flat_map app] in *. unfold strs. cbn [flat_map].
    rewrite !app_length. cbn [length map]. fold (strs (all_some vs)). unfold all_some.
    split; [unfold strs; lia|]. split; [lia|]. f_equal. exact E.
  - discriminate.
Qed.

Lemma strings_size_no_undef vs : forall acc, strings_size acc vs <> Undef.
Proof.
  induction vs as [|[v|] vs IH]; intros acc; cbn [strings_size]; try discriminate.
  destruct (_ <? _); [discriminate|apply IH].
Qed.

Lemma all_some_map vs : all_some (map Some vs) = vs.
Proof. unfold all_some. induction vs as [|v vs IH]; cbn; [|rewrite IH]; reflexivity. Qed.

Lemma strings_size_ok vs : forall acc, acc + N.of_nat (length (strs vs)) <= SIZE_MAX ->
  strings_size acc (map Some vs) = Ok (acc + N.of_nat (length (strs vs))).
Proof.
  induction vs as [|v vs IH]; intros acc H; cbn [map strings_size].
  - cbn. f_equal. lia.
  - unfold strs in *. cbn [flat_map] in *. rewrite !app_length in *. cbn [length] in *.
    destruct (N.ltb_spec (SIZE_MAX - (N.of_nat (length v) + 1)) acc); [lia|].
    rewrite IH by lia. f_equal. lia.
Qed.

(** ** One call *)
Record inv (st : tagstore) (vals : list (list (list N))) : Prop := {
  inv_block : block_ok (s_mem st);
  inv_cap : 1 <= b_len (s_mem st);
  inv_split : exists M F, b_bytes (s_mem st) = M ++ F /\ N.of_nat (length M) = s_used st /\
                lay (b_addr (s_mem st)) 0 M (s_tags st) vals }.

Lemma lay_lengths base pos m ts vals : lay base pos m ts vals -> length ts = length vals.
Proof. induction 1; cbn [length]; congruence. Qed.

Lemma inv_read st vals : inv st vals -> tags_of st = Ok vals.
Proof.
  intros [B C (M & F & E & U & L)]. unfold tags_of.
  apply (read_tags_lay (s_mem st) (b_addr (s_mem st)) 0 M _ _ L [] F); auto. apply B.
Qed.

Lemma ensure_inv e st vals total : inv st vals -> realloc_ok e (b_len (s_mem st)) ->
  (exists st', ensure e st total = Ok st' /\ inv st' vals /\ s_used st' = s_used st /\
     w64 (s_used st + total) <= b_len (s_mem st')) \/
  ensure e st total = Err EMemory.
Proof.
  intros I R. pose proof I as [[B1 B2] C (M & F & E & U & L)]. unfold ensure.
  set (m := s_mem st) in *. set (req := w64 (s_used st + total)).
  destruct (N.ltb_spec (b_len m) req) as [HR|HR]; [|left; exists st; split; [reflexivity|]; split; [exact I|]; split; [reflexivity|exact HR]].
  destruct (grow_spec req 65 (b_len m)) as [(c & G & G1 & G2)|G]; [lia|lia| |lia| |right; rewrite G; reflexivity].
  { change (2 ^ N.of_nat 65) with (2 * 2 ^ 64). lia. }
  rewrite G. cbn [bind].
  destruct (e_realloc e c) as [(nb, junk)|] eqn:Er; [|right; reflexivity].
  destruct (R c nb junk G1 Er) as (R1 & R2 & R3).
  assert (UL : N.of_nat (length M) <= b_len m) by (unfold b_len; rewrite E, app_length; lia).
  assert (NL : forall l, length l = length (b_bytes m ++ junk) -> b_len (mkBlock nb l) = c).
  { intros l El. unfold b_len at 1. cbn [b_bytes]. rewrite El, app_length. unfold b_len in *. lia. }
  destruct (N.eqb_spec nb (b_addr m)) as [Eq|Ne].
  - left. eexists. split; [reflexivity|].
    assert (BL := NL _ eq_refl).
    split; [|split; [reflexivity|cbn [s_mem]; rewrite BL; exact G2]].
    constructor; cbn [s_mem s_used s_tags b_addr].
    + split; cbn [b_addr]; [lia|]. rewrite BL. lia.
    + rewrite BL. lia.
    + exists M, (F ++ junk). cbn [b_bytes]. rewrite E, <- app_assoc. repeat split; [exact U|]. rewrite Eq. exact L.
  - destruct (rebase_tags_lay (b_addr m) nb 0 M (s_tags st) vals L (mkBlock nb (b_bytes m ++ junk)) [] (F ++ junk))
      as (M' & ts' & RB & LM & LT & L'); try reflexivity.
    { cbn [b_bytes app]. rewrite E, <- app_assoc. reflexivity. }
    { exact B1. }
    { cbn [Nat.add]. lia. }
    { cbn [Nat.add]. lia. }
    rewrite RB. cbn [bind fst snd]. left. eexists. split; [reflexivity|].
    assert (BL : b_len (mkBlock nb ([] ++ M' ++ F ++ junk)) = c).
    { apply NL. cbn [app]. rewrite E, !app_length. lia. }
    split; [|split; [reflexivity|cbn [s_mem]; rewrite BL; exact G2]].
    constructor; cbn [s_mem s_used s_tags b_addr].
    + split; cbn [b_addr]; [lia|]. rewrite BL. lia.
    + rewrite BL. lia.
    + exists M', (F ++ junk). cbn [b_bytes app]. repeat split; [lia|exact L'].
Qed.

Lemma arena_alloc_spec st size a st' : arena_alloc st size = Some (a, st') ->
  s_used st + size <= b_len (s_mem st) /\ a = b_addr (s_mem st) + s_used st /\
  s_mem st' = s_mem st /\ s_used st' = s_used st + size /\ s_tags st' = s_tags st.
Proof.
  unfold arena_alloc. destruct (_ || _) eqn:E; [discriminate|]. intros H. injection H as <- <-.
  apply orb_false_iff in E as (E1 & E2). apply N.ltb_ge in E1. apply N.ltb_ge in E2.
  cbn [s_mem s_used s_tags]. repeat split. lia.
Qed.

Lemma place_inv e st vals vs : inv st vals -> Forall cstr_ok vs ->
  exists st' r, place e st vs (8 * N.of_nat (length vs)) (N.of_nat (length (strs vs))) = Ok (st', r) /\
    match r with
    | Ok _ => inv st' (vals ++ [vs])
    | _ => inv st' vals
    end.
Proof.
  intros I C. unfold place.
  destruct (e_tags_realloc e); cbn [negb]; [|exists st, (Err EMemory); auto].
  destruct (arena_alloc st _) as [(slot, st1)|] eqn:A1; [|exists st, (Err EMemory); auto].
  apply arena_alloc_spec in A1 as (U1 & -> & M1 & Us1 & T1).
  pose proof I as [B Cp (M & F & E & U & L)].
  set (m := s_mem st) in *.
  assert (LF : (8 * N.of_nat (length vs) <= N.of_nat (length F))%N).
  { unfold b_len in U1. rewrite E, app_length in U1. lia. }
  set (n := length vs) in *.
  set (Q := firstn (8 * n) F). set (F1 := skipn (8 * n) F).
  assert (EF : F = Q ++ F1) by (symmetry; apply firstn_skipn).
  assert (LQ : length Q = (8 * n)%nat) by (unfold Q; rewrite firstn_length; lia).
  clearbody Q F1.
  destruct (arena_alloc st1 _) as [(storage, st2)|] eqn:A2.
  2:{ exists st1, (Err EMemory). split; [reflexivity|]. constructor; rewrite ?M1; auto.
      exists (M ++ Q), F1. fold m. rewrite T1, Us1. split; [rewrite E, EF, <- app_assoc; reflexivity|].
      split; [rewrite app_length; lia|]. apply lay_app_gap. exact L. }
  apply arena_alloc_spec in A2 as (U2 & -> & M2 & Us2 & T2).
  rewrite M1 in *. fold m in U2.
  assert (LS : (length (strs vs) <= length F1)%nat).
  { unfold b_len in U2. rewrite E, EF, !app_length in U2. lia. }
  set (R := firstn (length (strs vs)) F1). set (F2 := skipn (length (strs vs)) F1).
  assert (EF1 : F1 = R ++ F2) by (symmetry; apply firstn_skipn).
  assert (LR : length R = length (strs vs)) by (unfold R; rewrite firstn_length; lia).
  clearbody R F2. rewrite M2.
  rewrite (write_values_at vs _ M Q [] R F2).
  2:{ fold m. rewrite E, EF, EF1. cbn [app]. rewrite <- ?app_assoc. reflexivity. }
  2:{ exact LQ. }
  2:{ exact LR. }
  2:{ fold m. lia. }
  2:{ fold m. cbn [length]. lia. }
  cbn [bind]. eexists _, (Ok tt). split; [reflexivity|].
  rewrite T2, T1, Us2, Us1. fold m.
  assert (IM : flat_map (le_bytes 8) (ptrs (b_addr m + (s_used st + 8 * N.of_nat n)) vs) ++ [] ++ strs vs =
               image (b_addr m + N.of_nat (0 + length M)) vs).
  { unfold image. cbn [app]. f_equal. f_equal. f_equal. unfold n. cbn [Nat.add]. lia. }
  constructor; cbn [s_mem s_used s_tags b_addr].
  - destruct B as [B1 B2]. split; cbn [b_addr]; [exact B1|].
    replace (b_len _) with (b_len m); [exact B2|]. unfold b_len. cbn [b_bytes].
    rewrite E, EF, EF1, !app_length, flat_le_length, ptrs_length. cbn [length]. lia.
  - replace (b_len _) with (b_len m); [exact Cp|]. unfold b_len. cbn [b_bytes].
    rewrite E, EF, EF1, !app_length, flat_le_length, ptrs_length. cbn [length]. lia.
  - exists (M ++ image (b_addr m + N.of_nat (0 + length M)) vs), F2. split; [|split].
    + cbn [b_bytes]. rewrite <- IM, <- !app_assoc. reflexivity.
    + rewrite app_length, image_length. fold n. lia.
    + replace (b_addr m + s_used st) with (b_addr m + N.of_nat (0 + length M)) by (cbn [Nat.add]; lia).
      apply lay_snoc; assumption.
Qed.

Lemma add_tag_inv e st vals vs : inv st vals -> realloc_ok e (b_len (s_mem st)) ->
  Forall (fun v => match v with Some s => cstr_ok s | None => True end) vs ->
  exists st' r, add_tag e st vs = Ok (st', r) /\
    match r with
    | Ok _ => inv st' (vals ++ [all_some vs]) /\ vs = map Some (all_some vs)
    | _ => inv st' vals
    end.
Proof.
  intros I R F. unfold add_tag.
  destruct (_ =? 0); [eauto|].
  destruct (match e_max_tags e with Some _ => _ | None => _ end); [eauto|].
  destruct (_ <? _); [eauto|].
  destruct (strings_size 0 vs) as [n|x|] eqn:S; [|eauto|exfalso; eapply strings_size_no_undef; exact S].
  apply strings_size_spec in S as (-> & L & Ev). rewrite N.add_0_l.
  destruct (_ <? _); [eauto|].
  assert (C : Forall cstr_ok (all_some vs)).
  { rewrite Ev in F. clear -F. induction (all_some vs) as [|v l IH]; [constructor|].
    cbn [map] in F. inversion F; subst. constructor; auto. }
  destruct (ensure_inv e st vals (8 * N.of_nat (length vs) + N.of_nat (length (strs (all_some vs)))) I R)
    as [(st' & ES & I' & _ & _)|ES]; rewrite ES; [|eauto].
  rewrite <- L. destruct (place_inv e st' vals (all_some vs) I' C) as (st2 & r & EP & P). rewrite EP.
  exists st2, r. split; [reflexivity|]. destruct r; auto.
Qed.
