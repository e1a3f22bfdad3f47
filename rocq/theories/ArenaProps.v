(** Property theorems C18 and C63 (tag storage of an event). *)
From Verif Require Import Base BaseFacts Arena ArenaSpec ArenaProofs.
Open Scope N_scope.

Lemma create_inv mem : block_ok mem -> 1 <= b_len mem -> inv (create mem) [].
Proof.
  intros B L. constructor; cbn [create s_mem s_used s_tags]; auto.
  exists [], (b_bytes mem). repeat split. constructor.
Qed.

Lemma run_inv cs : forall st vals, inv st vals -> Forall call_ok cs ->
  exists st' acc, run st cs = Ok (st', acc) /\ inv st' (vals ++ map all_some acc) /\
    acc = map (map Some) (map all_some acc).
Proof.
  induction cs as [|c cs IH]; intros st vals I F.
  - exists st, []. cbn [run map]. rewrite app_nil_r. auto.
  - inversion F as [|? ? (F1 & F2) F3]; subst. cbn [run].
    destruct (add_tag_inv (call_env c (b_len (s_mem st))) st vals (call_values c) I (F1 _) F2)
      as (st1 & r & EA & H). rewrite EA. cbn [bind fst snd].
    destruct r as [u|x|].
    + destruct H as (I1 & E). destruct (IH st1 _ I1 F3) as (st' & acc & ER & I' & E'). rewrite ER.
      cbn [bind fst snd]. exists st', (call_values c :: acc). split; [reflexivity|].
      cbn [map]. rewrite <- app_assoc in I'. split; [exact I'|]. f_equal; [exact E|exact E'].
    + destruct (IH st1 _ H F3) as (st' & acc & ER & I' & E'). rewrite ER. cbn [bind fst snd]. eauto.
    + destruct (IH st1 _ H F3) as (st' & acc & ER & I' & E'). rewrite ER. cbn [bind fst snd]. eauto.
Qed.

(** Reading back after any history of calls gives the accepted additions in
    order; no access leaves the block. *)
Theorem C18_tags_preserved : forall mem cs,
  block_ok mem -> b_len mem = 1024 -> Forall call_ok cs ->
  exists st acc tags, run (create mem) cs = Ok (st, acc) /\
    tags_of st = Ok tags /\ acc = map (map Some) tags.
Proof.
  intros mem cs B L F.
  destruct (run_inv cs (create mem) [] (create_inv mem B ltac:(lia)) F) as (st & acc & R & I & E).
  exists st, acc, (map all_some acc). split; [exact R|]. split; [|exact E].
  apply inv_read in I. exact I.
Qed.

(** A refused call changes nothing that can be read, an accepted one appends. *)
Theorem C18_refused_unchanged : forall mem cs c st acc st' r,
  block_ok mem -> b_len mem = 1024 -> Forall call_ok cs -> call_ok c ->
  run (create mem) cs = Ok (st, acc) ->
  add_tag (call_env c (b_len (s_mem st))) st (call_values c) = Ok (st', r) ->
  match r with
  | Ok _ => exists old vs, tags_of st = Ok old /\ tags_of st' = Ok (old ++ [vs]) /\ call_values c = map Some vs
  | _ => tags_of st' = tags_of st
  end.
Proof.
  intros mem cs c st acc st' r B L F (C1 & C2) R A.
  destruct (run_inv cs (create mem) [] (create_inv mem B ltac:(lia)) F) as (st0 & acc0 & R0 & I & E).
  rewrite R in R0. injection R0 as <- <-. cbn [app] in I.
  destruct (add_tag_inv _ st _ _ I (C1 _) C2) as (st1 & r1 & A1 & H).
  rewrite A in A1. injection A1 as <- <-.
  destruct r.
  - destruct H as (H & Ev). exists (map all_some acc), (all_some (call_values c)).
    split; [apply inv_read, I|]. split; [apply inv_read, H|exact Ev].
  - apply inv_read in I, H. congruence.
  - apply inv_read in I, H. congruence.
Qed.

(** Additions are refused only for a reason: non-empty lists of strings are
    accepted while the limit is not reached, the allocator succeeds and the
    sizes are reasonable. *)
Theorem C18_accepted : forall mem cs re mt vs st acc,
  block_ok mem -> b_len mem = 1024 -> Forall call_ok cs ->
  run (create mem) cs = Ok (st, acc) -> call_ok (re, mt, true, map Some vs) ->
  vs <> [] ->
  (forall m, mt = Some m -> N.of_nat (length acc) < m) ->
  (forall old cap, re old cap <> None) ->
  b_len (s_mem st) < 2 ^ 63 ->
  s_used st + 8 * N.of_nat (length vs) + N.of_nat (length (concat vs)) + N.of_nat (length vs) <= 2 ^ 62 ->
  exists st', add_tag (call_env (re, mt, true, map Some vs) (b_len (s_mem st))) st (map Some vs) = Ok (st', Ok tt).
Proof.
  intros mem cs re mt vs st acc B L F R (CO & CV) NE LIM ALLOC CAP SZ.
  destruct (run_inv cs (create mem) [] (create_inv mem B ltac:(lia)) F) as (st0 & acc0 & R0 & I & E).
  rewrite R in R0. injection R0 as <- <-. cbn [app] in I.
  assert (SL : length (strs vs) = (length (concat vs) + length vs)%nat).
  { clear. induction vs as [|v vs IH]; [reflexivity|]. unfold strs in *. cbn [flat_map concat length].
    rewrite !app_length, IH. cbn [length]. lia. }
  set (e := call_env (re, mt, true, map Some vs) (b_len (s_mem st))).
  pose proof (inv_block _ _ I) as BK. pose proof (inv_cap _ _ I) as CP.
  assert (NT : length (s_tags st) = length acc).
  { pose proof (inv_split _ _ I) as (M & G & _ & _ & LY). apply lay_lengths in LY. rewrite LY. apply map_length. }
  assert (CS : Forall cstr_ok vs).
  { unfold call_values in CV. cbn [snd] in CV. clear -CV.
    induction vs; [constructor|]. cbn [map] in CV. inversion CV; subst. constructor; auto. }
  unfold add_tag. rewrite map_length.
  destruct (N.eqb_spec (N.of_nat (length vs)) 0); [destruct vs; [congruence|cbn [length] in *; lia]|].
  replace (match e_max_tags e with Some m => m <=? N.of_nat (length (s_tags st)) | None => false end) with false.
  2:{ unfold e, call_env. cbn [e_max_tags]. destruct mt as [m|]; [|reflexivity].
      symmetry. apply N.leb_gt. rewrite NT. apply LIM. reflexivity. }
  replace (SIZE_MAX / 8 <? N.of_nat (length vs)) with false
    by (symmetry; apply N.ltb_ge; change (SIZE_MAX / 8) with 2305843009213693951; lia).
  rewrite strings_size_ok by (unfold SIZE_MAX; lia). rewrite N.add_0_l.
  replace (SIZE_MAX - N.of_nat (length (strs vs)) <? 8 * N.of_nat (length vs)) with false
    by (symmetry; apply N.ltb_ge; unfold SIZE_MAX; lia).
  set (tot := 8 * N.of_nat (length vs) + N.of_nat (length (strs vs))).
  assert (W : w64 (s_used st + tot) = s_used st + tot) by (apply w64_small; unfold tot; lia).
  assert (EN : ensure e st tot <> Err EMemory).
  { unfold ensure. rewrite W. destruct (N.ltb_spec (b_len (s_mem st)) (s_used st + tot)); [|discriminate].
    destruct (grow_succeeds (s_used st + tot) 65 (b_len (s_mem st))) as (c & G & _);
      [lia|lia|change (2 ^ N.of_nat 65) with (2 * 2 ^ 64); lia|lia|unfold tot; lia|].
    rewrite G. cbn [bind]. unfold e, call_env. cbn [e_realloc].
    destruct (re (b_len (s_mem st)) c) as [(nb, junk)|] eqn:ER; [|exfalso; eapply ALLOC; exact ER].
    destruct (nb =? b_addr (s_mem st)); [discriminate|].
    destruct (rebase_tags _ _ _) as [xx|xx|] eqn:RT; cbn [bind]; try discriminate.
    exfalso. revert RT. clear.
    assert (RV : forall n b a off x, rebase_values b a off n <> Err x).
    { induction n as [|n IH]; intros b a off x; cbn [rebase_values]; [discriminate|].
      unfold load_ptr, store_ptr, loadn, store. destruct (in_block b a _); cbn [bind]; [|discriminate].
      destruct (_ =? 0); cbn [bind]; [apply IH|]. destruct (in_block b a _); cbn [bind]; [apply IH|discriminate]. }
    generalize (mkBlock nb (b_bytes (s_mem st) ++ junk)) as b.
    induction (s_tags st) as [|t ts IH]; intros b; cbn [rebase_tags]; [discriminate|].
    destruct (rebase_values _ _ _ _) as [b'|y|] eqn:RB; cbn [bind].
    - destruct (rebase_tags b' _ ts) as [z|z|] eqn:RT; cbn [bind]; try discriminate.
      intros K. injection K as ->. eapply IH. exact RT.
    - exfalso. eapply RV. exact RB.
    - discriminate. }
  destruct (ensure_inv e st _ tot I (CO _)) as [(st' & ES & I' & U' & C')|ES]; [|contradiction].
  rewrite ES. rewrite W in C'. rewrite all_some_map.
  destruct (place_inv e st' _ vs I' CS) as (st2 & r & P & _). rewrite P.
  unfold place in P. unfold e, call_env in P. cbn [e_tags_realloc negb] in P.
  unfold tot in C'. unfold arena_alloc in P.
  pose proof (inv_split _ _ I') as (M & G & EM & UM & _).
  assert (s_used st' <= b_len (s_mem st')) by (unfold b_len; rewrite EM, app_length; lia).
  replace (b_len (s_mem st') <? s_used st') with false in P by (symmetry; apply N.ltb_ge; lia).
  replace (b_len (s_mem st') - s_used st' <? 8 * N.of_nat (length vs)) with false in P
    by (symmetry; apply N.ltb_ge; lia).
  cbn [orb s_mem s_used s_tags] in P.
  replace (b_len (s_mem st') <? s_used st' + 8 * N.of_nat (length vs)) with false in P
    by (symmetry; apply N.ltb_ge; lia).
  replace (b_len (s_mem st') - (s_used st' + 8 * N.of_nat (length vs)) <? N.of_nat (length (strs vs))) with false in P
    by (symmetry; apply N.ltb_ge; lia).
  cbn [orb s_mem s_used s_tags] in P.
  destruct (write_values _ _ _ _); cbn [bind] in P; try discriminate.
  injection P as <- <-. eauto.
Qed.

(** A configured limit on the number of tags is never exceeded, and an empty or
    incomplete value list is never accepted. *)
Theorem C18_limit_respected : forall e st vs st', add_tag e st vs = Ok (st', Ok tt) ->
  (forall m, e_max_tags e = Some m -> N.of_nat (length (s_tags st)) < m) /\
  vs <> [] /\ ~ In None vs.
Proof.
  intros e st vs st' H. unfold add_tag in H.
  destruct (N.eqb_spec (N.of_nat (length vs)) 0); [discriminate|].
  destruct (match e_max_tags e with Some m => _ | None => _ end) eqn:M; [discriminate|].
  split; [intros m Em; rewrite Em in M; apply N.leb_gt in M; exact M|].
  split; [intros ->; cbn in *; lia|].
  destruct (_ <? _); [discriminate|].
  destruct (strings_size 0 vs) as [n'|x|] eqn:S; [|discriminate..].
  apply strings_size_spec in S as (_ & _ & E). rewrite E. clear. intros I.
  apply in_map_iff in I as (v & I & _). discriminate.
Qed.

(** A history with growth and relocation: 64 tags of 20 bytes each, the block
    moving to a different address every time. *)
Definition sample_alloc (old cap : N) : option (N * list N) :=
  Some (4096 + cap * 16, repeat 204 (N.to_nat (cap - old))).
Definition sample_call (i : nat) : call :=
  (sample_alloc, Some 100, true, [Some (bs "e"); Some (repeat (97 + N.of_nat i mod 26) 20)]).
Lemma sample_alloc_ok mt tr vs old :
  realloc_ok (call_env (fun o c => if c <? 2 ^ 40 then sample_alloc o c else None, mt, tr, vs) old) old.
Proof.
  intros cap addr junk H E. cbn [call_env e_realloc] in E.
  destruct (N.ltb_spec cap (2 ^ 40)); [|discriminate]. unfold sample_alloc in E.
  assert (EA : addr = 4096 + cap * 16) by congruence.
  assert (EJ : junk = repeat 204 (N.to_nat (cap - old))) by congruence. subst.
  rewrite repeat_length. lia.
Qed.
Example C18_case :
  let mem := mkBlock 4096 (repeat 170 1024) in
  match run (create mem) (map sample_call (seq 0 64)) with
  | Ok (st, acc) => b_len (s_mem st) = 4096 /\ b_addr (s_mem st) = 69632 /\ length acc = 64%nat /\
                    match tags_of st with Ok t => acc = map (map Some) t | _ => False end
  | _ => False
  end.
Proof. vm_compute. auto. Qed.

(** ** C63: pointer arrays in the storage are suitably aligned (false) *)
Theorem C63_values_aligned_refuted :
  ~ (forall mem cs st acc, block_ok mem -> b_addr mem mod 16 = 0 -> b_len mem = 1024 -> Forall call_ok cs ->
       run (create mem) cs = Ok (st, acc) -> values_aligned st = true).
Proof.
  intros H.
  set (al := fun o c => if c <? 2 ^ 40 then sample_alloc o c else None).
  set (cs := [(al, None, true, [Some (bs "t")]) : call; (al, None, true, [Some (bs "t")])]).
  set (mem := mkBlock 4096 (repeat 170 1024)).
  destruct (run (create mem) cs) as [(st, acc)| |] eqn:R; [|vm_compute in R; discriminate..].
  assert (A : values_aligned st = true).
  { apply (H mem cs st acc); [split; vm_compute; congruence|reflexivity|reflexivity| |exact R].
    assert (K : call_ok (al, None, true, [Some (bs "t")])).
    { split; [intros old; apply sample_alloc_ok|]. constructor; [|constructor].
      constructor; [unfold char_ok; cbn; lia|constructor]. }
    constructor; [exact K|]. constructor; [exact K|constructor]. }
  vm_compute in R. injection R as <- <-. vm_compute in A. discriminate.
Qed.

(** What does hold: an array is aligned exactly if the texts stored before it, each
    with its terminator, fill a multiple of 8 bytes (the allocator's blocks being
    aligned); the first tag's array always is. *)
Definition text_bytes (vs : list (option (list N))) : N := fold_right (fun v n => n + match v with Some s => N.of_nat (length s) + 1 | None => 0 end) 0 vs.
Definition aligned_alloc (c : call) : Prop := forall old cap addr junk, e_realloc (call_env c old) cap = Some (addr, junk) -> addr mod 8 = 0.

Lemma w64_mod8 x : w64 x mod 8 = x mod 8.
Proof. unfold w64. change 18446744073709551616 with (8 * 2305843009213693952). rewrite N.mod_mul_r by discriminate. rewrite (N.mul_comm 8), N.mod_add by discriminate. apply N.mod_mod. discriminate. Qed.
Lemma strings_size_sum vs : forall a n, strings_size a vs = Ok n -> n = a + text_bytes vs.
Proof.
  induction vs as [|[v|] vs IH]; intros a n; cbn [strings_size text_bytes fold_right]; [intros E; assert (n = a) by congruence; lia| |discriminate].
  destruct (_ <? _); [discriminate|]. intros E. apply IH in E. unfold text_bytes in E. lia.
Qed.
Lemma store_addr b a l b' : store b a l = Ok b' -> b_addr b' = b_addr b.
Proof. unfold store. destruct (in_block _ _ _); [|discriminate]. intros E. match type of E with Ok ?v = _ => assert (b' = v) by congruence end. subst. reflexivity. Qed.
Lemma rebase_values_addr n : forall b a off b', rebase_values b a off n = Ok b' -> b_addr b' = b_addr b.
Proof.
  induction n as [|n IH]; intros b a off b'; cbn [rebase_values]; [congruence|]. destruct (load_ptr b a) as [p|?|]; cbn [bind]; try discriminate.
  destruct (p =? 0); cbn [bind]; [apply IH|]. destruct (store_ptr b a _) as [b1|?|] eqn:S; cbn [bind]; try discriminate. intros E. apply IH in E. apply store_addr in S. congruence.
Qed.
Lemma rebase_tags_addr ts : forall b off x, rebase_tags b off ts = Ok x -> b_addr (fst x) = b_addr b.
Proof.
  induction ts as [|t ts IH]; intros b off x; cbn [rebase_tags]; [intros E; assert (x = (b, [])) by congruence; subst; reflexivity|].
  destruct (rebase_values _ _ _ _) as [b'|?|] eqn:V; cbn [bind]; try discriminate. destruct (rebase_tags b' off ts) as [y|?|] eqn:R; cbn [bind]; try discriminate.
  intros E. assert (x = (fst y, mkTag (w64 (t_values t + off)) (t_count t) :: snd y)) by congruence. subst x. cbn [fst]. apply IH in R. apply rebase_values_addr in V. congruence.
Qed.
Lemma write_values_addr vs : forall b slot storage b', write_values b slot storage vs = Ok b' -> b_addr b' = b_addr b.
Proof.
  induction vs as [|v vs IH]; intros b slot storage b'; cbn [write_values]; [congruence|]. destruct (store b _ _) as [b1|?|] eqn:S1; cbn [bind]; try discriminate. destruct (store_ptr b1 _ _) as [b2|?|] eqn:S2; cbn [bind]; try discriminate.
  intros E. apply IH in E. apply store_addr in S1, S2. congruence.
Qed.
Lemma rebase_mod8 off ts : off mod 8 = 0 -> forall b x, rebase_tags b off ts = Ok x -> map (fun t => t_values t mod 8) (snd x) = map (fun t => t_values t mod 8) ts.
Proof.
  intros O. induction ts as [|t ts IH]; intros b x; cbn [rebase_tags]; [intros E; assert (x = (b, [])) by congruence; subst; reflexivity|].
  destruct (rebase_values _ _ _ _) as [b'|?|]; cbn [bind]; try discriminate. destruct (rebase_tags b' off ts) as [y|?|] eqn:R; cbn [bind]; try discriminate.
  intros E. assert (x = (fst y, mkTag (w64 (t_values t + off)) (t_count t) :: snd y)) by congruence. subst x. cbn [snd map t_values]. rewrite (IH _ _ R). f_equal.
  rewrite w64_mod8, N.add_mod, O, N.add_0_r, N.mod_mod by discriminate. reflexivity.
Qed.
(** [mods k l]: the remainders of the positions of the arrays, [k] for the next one *)
Fixpoint mods (k : N) (acc : list (list (option (list N)))) : list N :=
  match acc with [] => [] | vs :: r => k mod 8 :: mods (k + text_bytes vs) r end.
Definition inv8 (st : tagstore) (k : N) (before : list N) : Prop :=
  b_addr (s_mem st) mod 8 = 0 /\ s_used st mod 8 = k mod 8 /\ map (fun t => t_values t mod 8) (s_tags st) = before.
Lemma ensure_inv8 c st k before n st' : aligned_alloc c -> inv8 st k before -> ensure (call_env c (b_len (s_mem st))) st n = Ok st' -> inv8 st' k before.
Proof.
  intros A (I1 & I2 & I3). unfold ensure. destruct (_ <? _); [|intros E; assert (st' = st) by congruence; subst st'; repeat apply conj; assumption].
  destruct (grow _ _ _) as [cap|?|]; cbn [bind]; try discriminate. destruct (e_realloc _ cap) as [(addr, junk)|] eqn:R; [|discriminate]. apply A in R.
  destruct (addr =? b_addr (s_mem st)); [intros E; match type of E with Ok ?v = _ => assert (st' = v) by congruence end; subst st'; unfold inv8; cbn [s_mem s_used s_tags b_addr]; auto|].
  destruct (rebase_tags _ _ _) as [x|?|] eqn:T; cbn [bind]; try discriminate. intros E. match type of E with Ok ?v = _ => assert (st' = v) by congruence end. subst st'. unfold inv8. cbn [s_mem s_used s_tags].
  assert (O : w64 (addr + 18446744073709551616 - b_addr (s_mem st)) mod 8 = 0).
  { rewrite w64_mod8. apply N.mod_divide; [discriminate|]. apply N.mod_divide in R, I1; try discriminate.
    destruct (N.le_gt_cases (b_addr (s_mem st)) (addr + 18446744073709551616)) as [L|L].
    - apply N.divide_sub_r; [|exact I1]. apply N.divide_add_r; [exact R|]. exists 2305843009213693952. reflexivity.
    - replace (addr + 18446744073709551616 - b_addr (s_mem st)) with 0 by lia. apply N.divide_0_r. }
  pose proof (rebase_mod8 _ _ O _ _ T) as M. repeat apply conj; [|assumption|congruence].
  rewrite (rebase_tags_addr _ _ _ _ T). exact R.
Qed.
Lemma add_inv8 c st k before st' r : aligned_alloc c -> inv8 st k before -> add_tag (call_env c (b_len (s_mem st))) st (call_values c) = Ok (st', r) ->
  match r with Ok _ => inv8 st' (k + text_bytes (call_values c)) (before ++ [k mod 8]) | _ => inv8 st' k before end.
Proof.
  intros A I. unfold add_tag. assert (same : forall x, Ok (st, x) = Ok (st', r) -> match x with Ok _ => False | _ => True end -> match r with Ok _ => inv8 st' (k + text_bytes (call_values c)) (before ++ [k mod 8]) | _ => inv8 st' k before end).
  { intros x E X. assert (st' = st) by congruence. assert (r = x) by congruence. subst. destruct x; [contradiction|exact I|exact I]. }
  destruct (_ =? 0); [intros E; apply (same _ E); exact Logic.I|]. destruct (match e_max_tags _ with Some m => _ | None => _ end); [intros E; apply (same _ E); exact Logic.I|]. destruct (_ <? _); [intros E; apply (same _ E); exact Logic.I|].
  destruct (strings_size 0 (call_values c)) as [n|x|] eqn:S; [|intros E; apply (same _ E); exact Logic.I|discriminate]. apply strings_size_sum in S. rewrite N.add_0_l in S.
  destruct (_ <? _); [intros E; apply (same _ E); exact Logic.I|]. destruct (ensure _ st _) as [st1|x|] eqn:EN; [|intros E; apply (same _ E); exact Logic.I|discriminate].
  apply (ensure_inv8 _ _ _ _ _ _ A I) in EN. destruct EN as (I1 & I2 & I3). unfold place. destruct (negb _); [intros E; assert (st' = st1) by congruence; assert (r = Err EMemory) by congruence; subst st' r; repeat apply conj; assumption|].
  unfold arena_alloc. destruct (_ || _); [intros E; assert (st' = st1) by congruence; assert (r = Err EMemory) by congruence; subst st' r; repeat apply conj; assumption|].
  set (cnt := N.of_nat (length (call_values c))). cbn [s_mem s_used s_tags].
  assert (U : (s_used st1 + 8 * cnt) mod 8 = k mod 8) by (rewrite (N.mul_comm 8), N.mod_add by discriminate; exact I2).
  destruct (_ || _); [intros E; match type of E with Ok (?v, _) = _ => assert (st' = v) by congruence end; assert (r = Err EMemory) by congruence; subst st' r; repeat apply conj; assumption|].
  destruct (write_values _ _ _ _) as [b|?|] eqn:W; cbn [bind]; try discriminate. intros E. match type of E with Ok (?v, _) = _ => assert (st' = v) by congruence end. assert (r = Ok tt) by congruence. subst r st'. unfold inv8. cbn [s_mem s_used s_tags].
  repeat apply conj.
  - rewrite (write_values_addr _ _ _ _ _ W). exact I1.
  - subst n. rewrite N.add_mod, U, <- N.add_mod by discriminate. reflexivity.
  - rewrite map_app, I3. cbn [map t_values]. rewrite N.add_mod, I1, N.add_0_l, N.mod_mod, I2 by discriminate. reflexivity.
Qed.
Lemma run_inv8 cs : forall st k before st' acc, Forall aligned_alloc cs -> inv8 st k before -> run st cs = Ok (st', acc) -> map (fun t => t_values t mod 8) (s_tags st') = before ++ mods k acc.
Proof.
  induction cs as [|c cs IH]; intros st k before st' acc A I; cbn [run].
  - intros E. assert (st' = st) by congruence. assert (acc = []) by congruence. subst. cbn [mods]. rewrite app_nil_r. apply I.
  - inversion A as [|? ? A1 A2]; subst. destruct (add_tag _ st _) as [(st1, r)|?|] eqn:T; cbn [bind]; try discriminate. apply (add_inv8 _ _ _ _ _ _ A1 I) in T. cbn [fst snd].
    destruct (run st1 cs) as [(st2, acc2)|?|] eqn:R; cbn [bind]; try discriminate. cbn [fst snd]. intros E. assert (st' = st2) by congruence. subst st2.
    destruct r as [[]|x|]; [|assert (acc = acc2) by congruence; subst acc2; eapply IH; eassumption..].
    assert (acc = call_values c :: acc2) by congruence. subst acc. rewrite (IH _ _ _ _ _ A2 T R). cbn [mods]. rewrite <- app_assoc. reflexivity.
Qed.
Lemma mods_zero acc : forall k, forallb (fun x => x =? 0) (mods k acc) = true <-> forall i, (i < length acc)%nat -> (k + fold_right (fun vs n => text_bytes vs + n) 0 (firstn i acc)) mod 8 = 0.
Proof.
  induction acc as [|vs acc IH]; intros k; cbn [mods forallb length]; [split; [intros _ i L; lia|reflexivity]|].
  rewrite andb_true_iff, N.eqb_eq, IH. split.
  - intros (K & R) [|i] L; cbn [firstn fold_right]; [rewrite N.add_0_r; exact K|]. rewrite N.add_assoc. apply R. lia.
  - intros R. split; [specialize (R O ltac:(lia)); cbn [firstn fold_right] in R; rewrite N.add_0_r in R; exact R|]. intros i L. specialize (R (S i) ltac:(lia)). cbn [firstn fold_right] in R. rewrite N.add_assoc in R. exact R.
Qed.
Theorem C63_exact_partial : forall mem cs st acc, b_addr mem mod 8 = 0 -> Forall aligned_alloc cs -> run (create mem) cs = Ok (st, acc) ->
  (values_aligned st = true <-> forall i, (i < length acc)%nat -> fold_right (fun vs n => text_bytes vs + n) 0 (firstn i acc) mod 8 = 0).
Proof.
  intros mem cs st acc M A R. assert (I : inv8 (create mem) 0 []) by (repeat apply conj; [exact M|reflexivity..]).
  apply (run_inv8 cs _ _ _ _ _ A I) in R. cbn [app] in R.
  transitivity (forallb (fun x => x =? 0) (mods 0 acc) = true).
  - rewrite <- R. unfold values_aligned. clear. induction (s_tags st) as [|t ts IH]; [tauto|]. cbn [map forallb]. rewrite !andb_true_iff, IH. tauto.
  - rewrite mods_zero. split; intros H i L; specialize (H i L); [rewrite N.add_0_l in H|rewrite N.add_0_l]; exact H.
Qed.
(** Two tags, the first with 8 bytes of text. *)
Example C63_meets :
  (forall i, (i < 2)%nat -> fold_right (fun vs n => text_bytes vs + n) 0 (firstn i [[Some (bs "t"); Some (bs "nostr")]; [Some (bs "t")]]) mod 8 = 0) /\
  match run (create (mkBlock 4096 (repeat 170 1024))) [(sample_alloc, None, true, [Some (bs "t"); Some (bs "nostr")]); (sample_alloc, None, true, [Some (bs "t")])] with
  | Ok (st, acc) => values_aligned st = true /\ length acc = 2%nat | _ => False end.
Proof. split; [intros [|[|i]] L; [reflexivity|reflexivity|lia]|vm_compute; auto]. Qed.
Print Assumptions C18_tags_preserved.
Print Assumptions C18_refused_unchanged.
Print Assumptions C18_accepted.
Print Assumptions C18_limit_respected.
Print Assumptions C63_values_aligned_refuted.
Print Assumptions C63_exact_partial.
