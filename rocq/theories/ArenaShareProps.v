(** Property theorem C159: values taken from an event and used with it. *)
From Verif Require Import Base BaseFacts Arena ArenaSpec ArenaProofs ArenaProps ArenaShare RelayProto.
Open Scope N_scope.

(** ** Specification *)
(** [holds_at st old a v]: [a] is the address found in values[j] of tag [i] of
    the event, and [v] the text of that value. *)
Definition holds_at (st : tagstore) (old : list (list (list N))) (a : N) (v : list N) : Prop :=
  exists i j t vs, nth_error (s_tags st) i = Some t /\ nth_error old i = Some vs /\ nth_error vs j = Some v /\
    load_ptr (s_mem st) (t_values t + 8 * N.of_nat j) = Ok a.
(** What the caller means by a value of the new tag. *)
Definition means (st : tagstore) (old : list (list (list N))) (s : src) (v : list N) : Prop :=
  match s with Text t => v = t /\ cstr_ok t | Held a => holds_at st old a v end.
(** The storage has room for the new tag, or realloc extends it where it is. *)
Definition room (e : env) (st : tagstore) (vs : list (list N)) : Prop :=
  s_used st + 8 * N.of_nat (length vs) + N.of_nat (length (concat vs)) + N.of_nat (length vs) <= b_len (s_mem st) \/
  (forall cap addr junk, e_realloc e cap = Some (addr, junk) -> addr = b_addr (s_mem st)).

(** ** Where the values are *)
Lemma ptrs_nth vs : forall s j v, nth_error vs j = Some v ->
  exists P Q, strs vs = P ++ v ++ 0 :: Q /\ nth_error (ptrs s vs) j = Some (s + N.of_nat (length P)).
Proof.
  induction vs as [|w vs IH]; intros s [|j] v; cbn [nth_error]; try discriminate.
  - intros E. assert (w = v) by congruence. subst w. exists [], (strs vs). cbn [strs flat_map ptrs nth_error length].
    rewrite N.add_0_r, <- app_assoc. auto.
  - intros E. destruct (IH (s + N.of_nat (length w) + 1) j v E) as (P & Q & E1 & E2). exists (w ++ 0 :: P), Q.
    cbn [strs flat_map ptrs nth_error]. fold (strs vs). rewrite E1, E2, <- !app_assoc. cbn [app]. split; [reflexivity|].
    f_equal. rewrite app_length. cbn [length]. lia.
Qed.
Lemma ptr_in ps : forall A B b a j p, b_bytes b = A ++ flat_map (le_bytes 8) ps ++ B -> a = b_addr b + N.of_nat (length A) ->
  nth_error ps j = Some p -> p < 2 ^ 64 -> load_ptr b (a + 8 * N.of_nat j) = Ok p.
Proof.
  induction ps as [|q ps IH]; intros A B b a [|j] p E Ea; cbn [nth_error]; try discriminate; intros Ep R.
  - assert (q = p) by congruence. subst q. cbn [flat_map] in E. rewrite <- app_assoc in E.
    apply (load_ptr_at b A p (flat_map (le_bytes 8) ps ++ B)); [exact E|exact R|lia].
  - cbn [flat_map] in E. replace (a + 8 * N.of_nat (S j)) with (a + 8 + 8 * N.of_nat j) by lia.
    apply (IH (A ++ le_bytes 8 q) B); [rewrite E, <- !app_assoc; reflexivity|rewrite app_length, le_bytes_length; lia|assumption..].
Qed.
Lemma value_at base pos m ts vals : lay base pos m ts vals ->
  forall i t vs j v A F b, nth_error ts i = Some t -> nth_error vals i = Some vs -> nth_error vs j = Some v ->
  b_bytes b = A ++ m ++ F -> length A = pos -> base = b_addr b -> b_addr b + b_len b < 2 ^ 64 ->
  t_count t = length vs /\
  exists P Q, m = P ++ v ++ 0 :: Q /\ cstr_ok v /\ load_ptr b (t_values t + 8 * N.of_nat j) = Ok (base + N.of_nat (pos + length P)).
Proof.
  induction 1 as [|pos gap ws rest ts vals o Eo C L IH]; intros [|i] t vs j v A F b; cbn [nth_error]; try discriminate; intros Et Ev Ej EB LA Eb R.
  - assert (t = mkTag (base + N.of_nat o) (length ws)) by congruence. assert (ws = vs) by congruence. subst t ws. cbn [t_values t_count].
    split; [reflexivity|]. set (s := base + N.of_nat o + 8 * N.of_nat (length vs)).
    destruct (ptrs_nth vs s j v Ej) as (P & Q & E1 & E2).
    exists (gap ++ flat_map (le_bytes 8) (ptrs s vs) ++ P), (Q ++ rest). split; [|split].
    + unfold image. fold s. rewrite E1, <- !app_assoc. cbn [app]. reflexivity.
    + rewrite Forall_forall in C. apply C. apply (nth_error_In _ _ Ej).
    + replace (base + N.of_nat (pos + _)) with (s + N.of_nat (length P)) by (unfold s; rewrite !app_length, flat_le_length, ptrs_length; lia).
      apply (ptr_in (ptrs s vs) (A ++ gap) (strs vs ++ rest ++ F)); [|rewrite app_length; lia|exact E2|].
      * rewrite EB. unfold image. fold s. rewrite <- !app_assoc. reflexivity.
      * unfold b_len in R. rewrite EB in R. unfold image in R. fold s in R. rewrite E1 in R. rewrite !app_length, flat_le_length, ptrs_length in R. cbn [length] in R. unfold s. lia.
  - destruct (IH i t vs j v (A ++ gap ++ image (base + N.of_nat o) ws) F b Et Ev Ej) as (T & P & Q & E1 & E2 & E3).
    + rewrite EB, <- !app_assoc. reflexivity.
    + rewrite !app_length. lia.
    + exact Eb.
    + exact R.
    + split; [exact T|]. exists (gap ++ image (base + N.of_nat o) ws ++ P), Q. split; [rewrite E1, <- !app_assoc; reflexivity|]. split; [exact E2|].
      rewrite E3. f_equal. rewrite !app_length. lia.
Qed.

(** [stored M base a v]: the used part [M] of the storage has [v] and its NUL at [a]. *)
Definition stored (M : list N) (base a : N) (v : list N) : Prop :=
  exists P Q, M = P ++ v ++ 0 :: Q /\ cstr_ok v /\ a = base + N.of_nat (length P).
Lemma stored_read M base a v b F : stored M base a v -> b_bytes b = M ++ F -> b_addr b = base -> read_cstr b a = Ok v.
Proof.
  intros (P & Q & EM & C & Ea) EB Eb. apply (read_cstr_at b P v (Q ++ F)); [rewrite EB, EM, <- !app_assoc; reflexivity|exact C|congruence].
Qed.
Lemma holds_stored st old M F a v : block_ok (s_mem st) -> b_bytes (s_mem st) = M ++ F -> lay (b_addr (s_mem st)) 0 M (s_tags st) old ->
  holds_at st old a v -> stored M (b_addr (s_mem st)) a v.
Proof.
  intros B E L (i & j & t & vs & Et & Ev & Ej & Ea).
  destruct (value_at _ _ _ _ _ L i t vs j v [] F (s_mem st) Et Ev Ej E eq_refl eq_refl (proj2 B)) as (_ & P & Q & E1 & E2 & E3).
  exists P, Q. split; [exact E1|]. split; [exact E2|]. rewrite Ea in E3. cbn [Nat.add] in E3. congruence.
Qed.

Definition named (M : list N) (base : N) (s : src) (v : list N) : Prop :=
  match s with Text t => v = t /\ cstr_ok t | Held a => stored M base a v end.
Lemma read_srcs_named M base b F l vs : Forall2 (named M base) l vs -> b_bytes b = M ++ F -> b_addr b = base -> read_srcs b l = Ok vs.
Proof.
  intros H E Eb. induction H as [|s v l vs N1 N2 IH]; [reflexivity|]. cbn [read_srcs]. rewrite IH.
  destruct s as [t|a]; cbn [read_src named] in *; [destruct N1 as (-> & _); reflexivity|]. rewrite (stored_read _ _ _ _ _ _ N1 E Eb). reflexivity.
Qed.
Lemma store_keeps b a l b' M F : store b a l = Ok b' -> b_bytes b = M ++ F -> b_addr b + N.of_nat (length M) <= a ->
  exists F', b_bytes b' = M ++ F' /\ b_addr b' = b_addr b.
Proof.
  intros S E L. unfold store in S. destruct (in_block b a _) eqn:I; [|discriminate].
  assert (b' = mkBlock (b_addr b) (firstn (N.to_nat (a - b_addr b)) (b_bytes b) ++ l ++ skipn (N.to_nat (a - b_addr b) + length l) (b_bytes b))) by congruence.
  subst b'. cbn [b_bytes b_addr]. exists (firstn (N.to_nat (a - b_addr b) - length M) F ++ l ++ skipn (N.to_nat (a - b_addr b) + length l) (b_bytes b)).
  split; [|reflexivity]. rewrite (app_assoc M). f_equal. rewrite E at 1. rewrite firstn_app. f_equal. apply firstn_all2. lia.
Qed.
Lemma write_named M base l vs : Forall2 (named M base) l vs -> forall b F slot storage, b_bytes b = M ++ F -> b_addr b = base ->
  base + N.of_nat (length M) <= slot -> base + N.of_nat (length M) <= storage ->
  write_srcs false b slot storage l = write_values b slot storage vs.
Proof.
  induction 1 as [|s v l vs N1 N2 IH]; intros b F slot storage E Eb L1 L2; [reflexivity|]. cbn [write_srcs write_values].
  replace (match s with Text t => Ok t | Held a => read_cstr b a end) with (Ok v : res (list N))
    by (symmetry; destruct s as [t|a]; cbn [named] in *; [destruct N1 as (-> & _); reflexivity|apply (stored_read _ _ _ _ _ _ N1 E Eb)]).
  cbn [bind]. destruct (store b storage (v ++ [0])) as [b1|?|] eqn:S1; cbn [bind]; try reflexivity.
  destruct (store_keeps _ _ _ _ M F S1 E ltac:(lia)) as (F1 & E1 & A1). unfold store_ptr.
  destruct (store b1 slot (le_bytes 8 storage)) as [b2|?|] eqn:S2; cbn [bind]; try reflexivity.
  destruct (store_keeps _ _ _ _ M F1 S2 E1 ltac:(lia)) as (F2 & E2 & A2). apply (IH b2 F2); [exact E2|congruence|lia|lia].
Qed.
Lemma named_cstr M base l vs : Forall2 (named M base) l vs -> Forall cstr_ok vs.
Proof.
  induction 1 as [|s v l vs N1 N2 IH]; constructor; [|exact IH]. destruct s; cbn [named] in N1; [destruct N1 as (-> & C); exact C|destruct N1 as (P & Q & _ & C & _); exact C].
Qed.
Lemma same_length {A B} (R : A -> B -> Prop) l l' : Forall2 R l l' -> length l = length l'.
Proof. induction 1; cbn [length]; congruence. Qed.

(** Growing in place, or not at all, keeps the used part where it is. *)
Lemma ensure_stays e st vs n st' M F : b_bytes (s_mem st) = M ++ F -> n = 8 * N.of_nat (length vs) + N.of_nat (length (strs vs)) ->
  b_addr (s_mem st) + b_len (s_mem st) < 2 ^ 64 -> room e st vs -> ensure e st n = Ok st' ->
  b_addr (s_mem st') = b_addr (s_mem st) /\ s_used st' = s_used st /\ s_tags st' = s_tags st /\ exists F', b_bytes (s_mem st') = M ++ F'.
Proof.
  intros E En B R. unfold ensure. destruct (N.ltb_spec (b_len (s_mem st)) (w64 (s_used st + n))) as [L|L]; [|intros X; assert (st' = st) by congruence; subst st'; eauto 6].
  destruct R as [R|R].
  - exfalso. assert (SL : length (strs vs) = (length (concat vs) + length vs)%nat).
    { clear. induction vs as [|v vs IH]; [reflexivity|]. unfold strs in *. cbn [flat_map concat length]. rewrite !app_length, IH. cbn [length]. lia. }
    rewrite w64_small in L; lia.
  - destruct (grow _ _ _) as [cap|?|]; cbn [bind]; try discriminate. destruct (e_realloc e cap) as [(addr, junk)|] eqn:RE; [|discriminate].
    apply R in RE. subst addr. rewrite N.eqb_refl. intros X. match type of X with Ok ?v = _ => assert (st' = v) by congruence end. subst st'.
    cbn [s_mem s_used s_tags b_addr b_bytes]. repeat apply conj; try reflexivity. exists (F ++ junk). rewrite E, <- app_assoc. reflexivity.
Qed.

(** ** C159 *)
(** A tag made of values that the event itself holds is the tag made of their
    texts, whatever tags were added before: as long as the storage need not
    move.  What is missing is the move. *)
Theorem C159_no_move_partial : forall mem cs e st acc old l vs,
  block_ok mem -> b_len mem = 1024 -> Forall call_ok cs -> run (create mem) cs = Ok (st, acc) ->
  tags_of st = Ok old -> Forall2 (means st old) l vs -> room e st vs ->
  add_tag_src e st l = add_tag e st (map Some vs).
Proof.
  intros mem cs e st acc old l vs B L C R T H RM.
  destruct (run_inv cs (create mem) [] (create_inv mem B ltac:(lia)) C) as (st0 & acc0 & R0 & I & _).
  assert (st0 = st) by congruence. subst st0. pose proof (inv_read _ _ I) as T'. rewrite T in T'.
  assert (EO : old = [] ++ map all_some acc0) by congruence. rewrite <- EO in I. clear T' EO R0.
  destruct I as [BK CP (M & F & EM & UM & LY)]. set (base := b_addr (s_mem st)) in *.
  assert (NM : Forall2 (named M base) l vs).
  { clear -H BK EM LY. induction H as [|s v l vs N1 N2 IH]; constructor; [|exact IH]. destruct s as [t|a]; cbn [named means] in *; [exact N1|]. eapply holds_stored; eassumption. }
  pose proof (same_length _ _ _ NM) as LN. unfold add_tag_src, add_tag. rewrite map_length, <- LN.
  destruct (_ =? 0); [reflexivity|]. destruct (match e_max_tags e with Some m => _ | None => _ end); [reflexivity|]. destruct (_ <? _); [reflexivity|].
  rewrite (read_srcs_named M base _ F l vs NM EM eq_refl). cbn [bind].
  destruct (strings_size 0 (map Some vs)) as [n|?|] eqn:SS; try reflexivity. apply strings_size_spec in SS as (SS & _ & _). rewrite N.add_0_l, all_some_map in SS.
  destruct (_ <? _); [reflexivity|]. destruct (ensure e st _) as [st'|?|] eqn:EN; try reflexivity.
  apply (ensure_stays e st vs _ st' M F EM) in EN as (A' & U' & T' & F' & EM'); [|rewrite LN, SS; reflexivity|apply BK|exact RM].
  rewrite A', N.eqb_refl. cbn [negb]. unfold place_src, place. destruct (negb _); [reflexivity|]. rewrite all_some_map.
  destruct (arena_alloc st' _) as [(slot, st1)|] eqn:A1; [|reflexivity]. apply arena_alloc_spec in A1 as (_ & -> & M1 & Us1 & T1).
  destruct (arena_alloc st1 n) as [(storage, st2)|] eqn:A2; [|reflexivity]. apply arena_alloc_spec in A2 as (_ & -> & M2 & Us2 & T2).
  rewrite M2, M1. rewrite (write_named M base l vs NM (s_mem st') F'); [|exact EM'|exact A'|rewrite A', U'; fold base; lia|rewrite A', Us1, U'; fold base; lia].
  rewrite LN. reflexivity.
Qed.

(** Without the proviso it is false: the values are read after the storage
    they are in was given back.  The tag repeated is the event's own "d" tag. *)
Definition ev_calls (al : N -> N -> option (N * list N)) : list call :=
  [(al, None, true, [Some (bs "d"); Some (repeat 97 600)])].
Definition al (old cap : N) : option (N * list N) := if cap <? 2 ^ 40 then sample_alloc old cap else None.
Definition start : block := mkBlock 4096 (repeat 170 1024).
Lemma ev_calls_ok : Forall call_ok (ev_calls al).
Proof.
  apply Forall_cons; [|apply Forall_nil]. split; [intros old; apply sample_alloc_ok|].
  apply Forall_cons; [constructor; [unfold char_ok; cbn; lia|constructor]|]. apply Forall_cons; [|apply Forall_nil]. unfold cstr_ok.
  apply Forall_forall. intros x H. apply repeat_spec in H. subst x. unfold char_ok. lia.
Qed.
Definition ev_run : tagstore * list (list (option (list N))) := match run (create start) (ev_calls al) with Ok x => x | _ => (create start, []) end.
Definition d_text : list N := repeat 97 600.
Lemma ev_run_ok : run (create start) (ev_calls al) = Ok (fst ev_run, snd ev_run).
Proof. vm_compute. reflexivity. Qed.
Definition d_addr : N := 4114.
Lemma d_held : get_tag_value (fst ev_run) (bs "d") = Ok (Some d_addr) /\ means (fst ev_run) [[bs "d"; d_text]] (Held d_addr) d_text.
Proof.
  split; [vm_compute; reflexivity|]. exists O, 1%nat, (mkTag 4096 2), [bs "d"; d_text].
  repeat split; vm_compute; reflexivity.
Qed.
Lemma x_call_ok : call_ok (al, None, true, [Some (bs "x"); Some d_text]).
Proof.
  split; [intros old; apply sample_alloc_ok|]. apply Forall_cons; [constructor; [unfold char_ok; cbn; lia|constructor]|]. apply Forall_cons; [|apply Forall_nil].
  apply Forall_forall. intros x H. apply repeat_spec in H. subst x. unfold char_ok. lia.
Qed.
Theorem C159_refuted :
  ~ (forall mem cs c st acc old l vs,
       block_ok mem -> b_len mem = 1024 -> Forall call_ok cs -> run (create mem) cs = Ok (st, acc) ->
       tags_of st = Ok old -> Forall2 (means st old) l vs -> call_ok c -> call_values c = map Some vs ->
       add_tag_src (call_env c (b_len (s_mem st))) st l = add_tag (call_env c (b_len (s_mem st))) st (map Some vs)).
Proof.
  intros H. specialize (H start (ev_calls al) (al, None, true, [Some (bs "x"); Some d_text]) (fst ev_run) (snd ev_run) [[bs "d"; d_text]] [Text (bs "x"); Held d_addr] [bs "x"; d_text]).
  assert (X : match add_tag_src (call_env (al, None, true, [Some (bs "x"); Some d_text]) (b_len (s_mem (fst ev_run)))) (fst ev_run) [Text (bs "x"); Held d_addr],
                    add_tag (call_env (al, None, true, [Some (bs "x"); Some d_text]) (b_len (s_mem (fst ev_run)))) (fst ev_run) [Some (bs "x"); Some d_text] with
              | Undef, Ok (_, Ok _) => true | _, _ => false end = true) by (vm_compute; reflexivity).
  rewrite H in X.
  - cbn [map] in X. destruct (add_tag _ _ _) as [(?, [|?|])|?|]; discriminate.
  - split; vm_compute; congruence.
  - reflexivity.
  - apply ev_calls_ok.
  - apply ev_run_ok.
  - vm_compute. reflexivity.
  - apply Forall2_cons; [split; [reflexivity|constructor; [unfold char_ok; cbn; lia|constructor]]|]. apply Forall2_cons; [apply d_held|apply Forall2_nil].
  - apply x_call_ok.
  - reflexivity.
Qed.

(** The address returned by the lookup is one that the event holds, and its
    text is the value of the first tag of that name. *)
Lemma lookup_lay base pos m ts vals : lay base pos m ts vals -> forall A F b name,
  b_bytes b = A ++ m ++ F -> length A = pos -> base = b_addr b -> b_addr b + b_len b < 2 ^ 64 ->
  match tag_value vals name with
  | None => find_value b ts name = Ok None
  | Some v => exists i j t vs a, nth_error ts i = Some t /\ nth_error vals i = Some vs /\ nth_error vs j = Some v /\
      load_ptr b (t_values t + 8 * N.of_nat j) = Ok a /\ find_value b ts name = Ok (Some a)
  end.
Proof.
  intros L. induction L as [|pos gap ws rest ts vals o Eo C L IH]; intros A F b name EB LA Eb R; [reflexivity|].
  pose proof (lay_cons base pos gap ws rest ts vals o Eo C L) as LC.
  assert (NXT : match tag_value vals name with
    | None => find_value b ts name = Ok None
    | Some v => exists i j t vs a, nth_error ts i = Some t /\ nth_error vals i = Some vs /\ nth_error vs j = Some v /\
        load_ptr b (t_values t + 8 * N.of_nat j) = Ok a /\ find_value b ts name = Ok (Some a)
    end).
  { apply (IH (A ++ gap ++ image (base + N.of_nat o) ws) F); [rewrite EB, <- !app_assoc; reflexivity|rewrite !app_length; lia|exact Eb|exact R]. }
  assert (SKIP : find_value b (mkTag (base + N.of_nat o) (length ws) :: ts) name = find_value b ts name -> tag_value (ws :: vals) name = tag_value vals name ->
    match tag_value (ws :: vals) name with
    | None => find_value b (mkTag (base + N.of_nat o) (length ws) :: ts) name = Ok None
    | Some v => exists i j t vs a, nth_error (mkTag (base + N.of_nat o) (length ws) :: ts) i = Some t /\ nth_error (ws :: vals) i = Some vs /\ nth_error vs j = Some v /\
        load_ptr b (t_values t + 8 * N.of_nat j) = Ok a /\ find_value b (mkTag (base + N.of_nat o) (length ws) :: ts) name = Ok (Some a)
    end).
  { intros E1 E2. rewrite E1, E2. destruct (tag_value vals name) as [v|]; [|exact NXT]. destruct NXT as (i & j & t & vs & a & X). exists (S i), j, t, vs, a. exact X. }
  destruct ws as [|n [|v ws]]; [apply SKIP; reflexivity..|].
  destruct (value_at _ _ _ _ _ LC O _ _ O n A F b eq_refl eq_refl eq_refl EB LA Eb R) as (_ & P & Q & E1 & E2 & E3).
  destruct (value_at _ _ _ _ _ LC O _ _ 1%nat v A F b eq_refl eq_refl eq_refl EB LA Eb R) as (_ & P' & Q' & _ & _ & E3').
  cbn [t_values] in E3, E3'. replace (base + N.of_nat o + 8 * N.of_nat 0) with (base + N.of_nat o) in E3 by lia. replace (base + N.of_nat o + 8 * N.of_nat 1) with (base + N.of_nat o + 8) in E3' by lia.
  assert (RN : read_cstr b (base + N.of_nat (pos + length P)) = Ok n).
  { apply (read_cstr_at b (A ++ P) n (Q ++ F)); [rewrite EB, E1, <- !app_assoc; reflexivity|exact E2|rewrite app_length, Eb; lia]. }
  destruct (beq n name) eqn:BE.
  - cbn [tag_value]. rewrite BE. exists O, 1%nat, (mkTag (base + N.of_nat o) (length (n :: v :: ws))), (n :: v :: ws), (base + N.of_nat (pos + length P')).
    repeat split; [cbn [t_values]; replace (base + N.of_nat o + 8 * N.of_nat 1) with (base + N.of_nat o + 8) by lia; exact E3'|].
    cbn [find_value t_count t_values length Nat.ltb Nat.leb]. rewrite E3. cbn [bind]. rewrite RN. cbn [bind]. rewrite BE, E3'. reflexivity.
  - apply SKIP; [|cbn [tag_value]; rewrite BE; reflexivity]. cbn [find_value t_count t_values length Nat.ltb Nat.leb]. rewrite E3. cbn [bind]. rewrite RN. cbn [bind]. rewrite BE. reflexivity.
Qed.
Theorem C159_lookup : forall mem cs st acc old name,
  block_ok mem -> b_len mem = 1024 -> Forall call_ok cs -> run (create mem) cs = Ok (st, acc) -> tags_of st = Ok old ->
  match tag_value old name with
  | None => get_tag_value st name = Ok None
  | Some v => exists a, get_tag_value st name = Ok (Some a) /\ means st old (Held a) v
  end.
Proof.
  intros mem cs st acc old name B L C R T.
  destruct (run_inv cs (create mem) [] (create_inv mem B ltac:(lia)) C) as (st0 & acc0 & R0 & I & _).
  assert (st0 = st) by congruence. subst st0. pose proof (inv_read _ _ I) as T'. rewrite T in T'.
  assert (EO : old = [] ++ map all_some acc0) by congruence. rewrite <- EO in I. clear T' EO R0.
  destruct I as [BK CP (M & F & EM & UM & LY)].
  pose proof (lookup_lay _ _ _ _ _ LY [] F (s_mem st) name EM eq_refl eq_refl (proj2 BK)) as X.
  destruct (tag_value old name) as [v|]; [|exact X]. destruct X as (i & j & t & vs & a & X1 & X2 & X3 & X4 & X5).
  exists a. split; [exact X5|]. exists i, j, t, vs. auto.
Qed.

(** A value that was looked up reads the same after another tag was added, as
    long as the storage did not move. *)
Theorem C159_pointer_partial : forall mem cs c st acc old a v st' r,
  block_ok mem -> b_len mem = 1024 -> Forall call_ok cs -> run (create mem) cs = Ok (st, acc) ->
  tags_of st = Ok old -> holds_at st old a v -> call_ok c ->
  add_tag (call_env c (b_len (s_mem st))) st (call_values c) = Ok (st', r) -> b_addr (s_mem st') = b_addr (s_mem st) ->
  read_cstr (s_mem st') a = Ok v.
Proof.
  intros mem cs c st acc old a v st' r B L C R T H (C1 & C2) A SA.
  destruct (run_inv cs (create mem) [] (create_inv mem B ltac:(lia)) C) as (st0 & acc0 & R0 & I & _).
  assert (st0 = st) by congruence. subst st0. pose proof (inv_read _ _ I) as T'. rewrite T in T'.
  assert (EO : old = [] ++ map all_some acc0) by congruence. rewrite <- EO in I. clear T' EO R0.
  destruct I as [BK CP (M & F & EM & UM & LY)]. pose proof (holds_stored _ _ _ _ _ _ BK EM LY H) as ST.
  set (e := call_env c (b_len (s_mem st))) in *.
  assert (same : forall s2, s_mem s2 = s_mem st -> read_cstr (s_mem s2) a = Ok v) by (intros s2 E2; rewrite E2; apply (stored_read _ _ _ _ _ _ ST EM eq_refl)).
  unfold add_tag in A.
  destruct (_ =? 0); [apply same; congruence|]. destruct (match e_max_tags e with Some m => _ | None => _ end); [apply same; congruence|]. destruct (_ <? _); [apply same; congruence|].
  destruct (strings_size 0 (call_values c)) as [n|x|]; [|apply same; congruence|discriminate].
  destruct (_ <? _); [apply same; congruence|]. destruct (ensure e st _) as [st1|x|] eqn:EN; [|apply same; congruence|discriminate].
  assert (G : exists F', (b_addr (s_mem st1) = b_addr (s_mem st) -> b_bytes (s_mem st1) = M ++ F') /\ s_used st1 = s_used st).
  { unfold ensure in EN. destruct (_ <? _); [|exists F; assert (st1 = st) by congruence; subst st1; auto].
    destruct (grow _ _ _) as [cap|?|]; cbn [bind] in EN; try discriminate. destruct (e_realloc e cap) as [(addr, junk)|]; [|discriminate].
    exists (F ++ junk). destruct (N.eqb_spec addr (b_addr (s_mem st))) as [EA|EA].
    - match type of EN with Ok ?w = _ => assert (st1 = w) by congruence end. subst st1. cbn [s_mem b_bytes s_used]. rewrite EM, <- app_assoc. auto.
    - destruct (rebase_tags _ _ _) as [x|?|] eqn:RT; cbn [bind] in EN; try discriminate. match type of EN with Ok ?w = _ => assert (st1 = w) by congruence end. subst st1. cbn [s_mem s_used].
      apply rebase_tags_addr in RT. cbn [b_addr] in RT. split; [intros X; congruence|reflexivity]. }
  destruct G as (F1 & G1 & G2).
  assert (fin : forall s2 F2, b_bytes (s_mem s2) = M ++ F2 -> b_addr (s_mem s2) = b_addr (s_mem st) -> read_cstr (s_mem s2) a = Ok v) by (intros s2 F2 E2 A2; apply (stored_read _ _ _ _ _ _ ST E2 A2)).
  unfold place in A. destruct (negb _); [assert (st' = st1) by congruence; subst st'; apply (fin st1 F1); auto|].
  destruct (arena_alloc st1 _) as [(slot, st2)|] eqn:A1; [|assert (st' = st1) by congruence; subst st'; apply (fin st1 F1); auto].
  apply arena_alloc_spec in A1 as (_ & -> & M1 & Us1 & T1).
  destruct (arena_alloc st2 n) as [(storage, st3)|] eqn:A2; [|assert (st' = st2) by congruence; subst st'; apply (fin st2 F1); rewrite ?M1 in *; auto].
  apply arena_alloc_spec in A2 as (_ & -> & M2 & Us2 & T2). rewrite M2, M1 in A.
  destruct (write_values _ _ _ _) as [b|?|] eqn:W; cbn [bind] in A; try discriminate.
  match type of A with Ok (?w, _) = _ => assert (st' = w) by congruence end. subst st'. cbn [s_mem] in *.
  rewrite (write_values_addr _ _ _ _ _ W) in SA. specialize (G1 SA).
  assert (K : forall l b0 F0 slot storage b1, b_bytes b0 = M ++ F0 -> b_addr b0 = b_addr (s_mem st) -> b_addr (s_mem st) + N.of_nat (length M) <= slot -> b_addr (s_mem st) + N.of_nat (length M) <= storage ->
            write_values b0 slot storage l = Ok b1 -> exists F2, b_bytes b1 = M ++ F2).
  { clear. induction l as [|w l IH]; intros b0 F0 slot storage b1 E0 A0 L1 L2; cbn [write_values]; [intros X; assert (b1 = b0) by congruence; subst; eauto|].
    destruct (store b0 _ _) as [b2|?|] eqn:S1; cbn [bind]; try discriminate. destruct (store_keeps _ _ _ _ M F0 S1 E0 ltac:(lia)) as (F2 & E2 & A2). unfold store_ptr.
    destruct (store b2 _ _) as [b3|?|] eqn:S2; cbn [bind]; try discriminate. destruct (store_keeps _ _ _ _ M F2 S2 E2 ltac:(lia)) as (F3 & E3 & A3).
    apply (IH b3 F3); [exact E3|congruence|lia|lia]. }
  assert (W' := W). rewrite ?M2, ?M1 in *. apply K with (F0 := F1) in W as (F2 & E2); [|exact G1|exact SA|rewrite SA, G2; lia|rewrite SA, Us1, G2; lia].
  apply (stored_read M (b_addr (s_mem st)) a v b F2 ST E2). rewrite (write_values_addr _ _ _ _ _ W'). exact SA.
Qed.

(** A short tag repeated from the event: the hypotheses of the theorems hold
    and the event has both tags afterwards. *)
Example C159_meets :
  let st := match run (create start) [(al, None, true, [Some (bs "d"); Some (bs "abc")])] with Ok x => fst x | _ => create start end in
  let e := mkEnv None (fun _ => None) true in
  get_tag_value st (bs "d") = Ok (Some 4114) /\
  means st [[bs "d"; bs "abc"]] (Held 4114) (bs "abc") /\ room e st [bs "x"; bs "abc"] /\
  match add_tag_src e st [Text (bs "x"); Held 4114] with
  | Ok (st', Ok _) => tags_of st' = Ok [[bs "d"; bs "abc"]; [bs "x"; bs "abc"]] /\ read_cstr (s_mem st') 4114 = Ok (bs "abc")
  | _ => False
  end.
Proof.
  cbv zeta. split; [vm_compute; reflexivity|]. split; [|split; [left; vm_compute; congruence|vm_compute; auto]].
  exists O, 1%nat, (mkTag 4096 2), [bs "d"; bs "abc"]. repeat split; vm_compute; reflexivity.
Qed.
Print Assumptions C159_no_move_partial.
Print Assumptions C159_refuted.
Print Assumptions C159_lookup.
Print Assumptions C159_pointer_partial.
