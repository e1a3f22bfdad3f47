(** Memory of delegations: C141. *)
From Verif Require Import Base BaseFacts Heap Hex Event EventSpec EventMem RelayMemSpec RelayMemProps EventMemSpec EventMemProps EventOomSpec Nip26 Nip26Spec Nip26Props Nip26Mem Nip26MemSpec.
From Coq Require Import Permutation.
Open Scope nat_scope.

Section Grant.
Variable grant : nat -> bool.
Lemma failed_granted h h' : failed grant h h' -> ~ granted grant h h'.
Proof. intros (k & L & F) G. rewrite (G k L) in F. discriminate. Qed.
Lemma erealloc_two k h l : holds h (opt_list k ++ l) ->
  (exists q h', erealloc grant k h = Ok (Some q, h') /\ holds h' (q :: l) /\ h_next h <= h_next h') \/
  (exists h', erealloc grant k h = Ok (None, h') /\ holds h' (opt_list k ++ l) /\ h_next h <= h_next h' /\ failed grant h h').
Proof.
  intros X. unfold erealloc. destruct (ealloc_cases grant h _ X) as [(q & h1 & E & X1 & L1)|(h1 & E & X1 & L1 & F)]; rewrite (mbind_ok _ _ _ _ _ E).
  - left. destruct (free_opt_holds k h1 (q :: l)) as (h2 & E2 & X2 & L2); [eapply holds_perm; [|exact X1]; apply Permutation_middle|].
    rewrite (mbind_ok _ _ _ _ _ E2). exists q, h2. split; [reflexivity|]. split; [exact X2|lia].
  - right. exists h1. split; [reflexivity|]. auto.
Qed.
Lemma one_ok s c k h l : holds h (opt_list k ++ l) -> (k = None <-> k_kinds c = []) ->
  exists r h', one_condition_m grant s c k h = Ok (r, h') /\ h_next h <= h_next h' /\
  match r with
  | Some (c', t, k') => one_condition s c = Some (c', t) /\ holds h' (opt_list k' ++ l) /\ (k' = None <-> k_kinds c' = [])
  | None => holds h' l /\ (one_condition s c = None \/ failed grant h h')
  end.
Proof.
  intros X K. unfold one_condition_m. destruct (one_condition s c) as [(c' & t)|] eqn:O.
  2:{ destruct (free_opt_holds k h l X) as (h1 & E & X1 & L1). rewrite (mbind_ok _ _ _ _ _ E). exists None, h1. split; [reflexivity|]. split; [lia|]. auto. }
  destruct (after_prefix (bs "kind=") s) as [p|] eqn:P.
  - destruct (erealloc_two k h l X) as [(q & h1 & E & X1 & L1)|(h1 & E & X1 & L1 & F)]; rewrite (mbind_ok _ _ _ _ _ E).
    + rewrite (mbind_ok _ _ _ _ _ (use_holds q h1 _ X1 (or_introl eq_refl))). exists (Some (c', t, Some q)), h1. split; [reflexivity|]. split; [exact L1|]. split; [reflexivity|]. split; [exact X1|].
      split; [discriminate|]. intros Z. exfalso. revert O Z. unfold one_condition. rewrite P. destruct (strtoul_checked p) as [(v & r)|]; [|discriminate]. destruct (_ || _); [discriminate|]. intros O Z.
      assert (Q : c' = mkConds (k_kinds c ++ [v]) (k_after c) (k_before c)) by congruence. subst c'. cbn [k_kinds] in Z. destruct (k_kinds c); discriminate.
    + destruct (free_opt_holds k h1 l X1) as (h2 & E2 & X2 & L2). rewrite (mbind_ok _ _ _ _ _ E2). exists None, h2. split; [reflexivity|]. split; [lia|]. split; [exact X2|]. right. eapply failed_more; [reflexivity| |exact F]. lia.
  - exists (Some (c', t, k)), h. split; [reflexivity|]. split; [reflexivity|]. split; [reflexivity|]. split; [exact X|].
    revert O. unfold one_condition. rewrite P. destruct (after_prefix (bs "created_at>") s) as [p|].
    + destruct (strtoll_checked p) as [(v & r)|]; [|discriminate]. intros O. assert (Q : k_kinds c' = k_kinds c) by (assert (Z : c' = mkConds (k_kinds c) (Some v) (k_before c)) by congruence; rewrite Z; reflexivity). rewrite Q. exact K.
    + destruct (after_prefix (bs "created_at<") s) as [p|]; [|discriminate]. destruct (strtoll_checked p) as [(v & r)|]; [|discriminate]. intros O. assert (Q : k_kinds c' = k_kinds c) by (assert (Z : c' = mkConds (k_kinds c) (k_after c) (Some v)) by congruence; rewrite Z; reflexivity). rewrite Q. exact K.
Qed.
Lemma loop_ok : forall n s c m k h l, holds h (opt_list k ++ l) -> (k = None <-> k_kinds c = []) ->
  exists r h', conditions_loop_m grant n s c m k h = Ok (r, h') /\ h_next h <= h_next h' /\
  match r with
  | Some (c', m', k') => conditions_loop n s c m = Some (c', m') /\ holds h' (opt_list k' ++ l) /\ (k' = None <-> k_kinds c' = [])
  | None => holds h' l /\ (conditions_loop n s c m = None \/ failed grant h h')
  end.
Proof.
  induction n as [|n IH]; intros s c m k h l X K.
  - destruct s as [|a s]; cbn [conditions_loop_m conditions_loop].
    + exists (Some (c, m, k)), h. split; [reflexivity|]. split; [reflexivity|]. auto.
    + destruct (free_opt_holds k h l X) as (h1 & E & X1 & L1). rewrite (mbind_ok _ _ _ _ _ E). exists None, h1. split; [reflexivity|]. split; [lia|]. auto.
  - destruct s as [|a s]; cbn [conditions_loop_m conditions_loop].
    + exists (Some (c, m, k)), h. split; [reflexivity|]. split; [reflexivity|]. auto.
    + destruct (skip_amp (a :: s)) as [|b p] eqn:SK.
      * exists (Some (c, m, k)), h. split; [reflexivity|]. split; [reflexivity|]. auto.
      * destruct (one_ok (b :: p) c k h l X K) as (r & h1 & E & L1 & R). rewrite (mbind_ok _ _ _ _ _ E). destruct r as [((c' & t) & k')|].
        -- destruct R as (O & X1 & K1). rewrite O. destruct (IH t c' (S m) k' h1 l X1 K1) as (r2 & h2 & E2 & L2 & R2). exists r2, h2. split; [exact E2|]. split; [lia|].
           destruct r2 as [((c2 & m2) & k2)|]; [exact R2|]. destruct R2 as (X2 & [N|F]); (split; [exact X2|]); [left; exact N|right]. eapply failed_more; [exact L1| |exact F]. lia.
        -- destruct R as (X1 & R). exists None, h1. split; [reflexivity|]. split; [exact L1|]. split; [exact X1|]. destruct R as [-> |F]; auto.
Qed.
Lemma parse_ok s h l : holds h l ->
  exists r h', parse_conditions_m grant s h = Ok (r, h') /\ h_next h <= h_next h' /\
  match r with
  | Some (c, k) => parse_conditions s = Some c /\ holds h' (opt_list k ++ l) /\ (k = None <-> k_kinds c = [])
  | None => holds h' l /\ (parse_conditions s = None \/ failed grant h h')
  end.
Proof.
  intros X. unfold parse_conditions_m, parse_conditions. destruct s as [|a s].
  - exists None, h. split; [reflexivity|]. split; [reflexivity|]. auto.
  - destruct (loop_ok 100 (a :: s) no_conds 0 None h l X) as (r & h1 & E & L1 & R); [split; reflexivity|]. rewrite (mbind_ok _ _ _ _ _ E). destruct r as [((c & m) & k)|].
    + destruct R as (-> & X1 & K1). destruct m as [|m].
      * destruct (free_opt_holds k h1 l X1) as (h2 & E2 & X2 & L2). rewrite (mbind_ok _ _ _ _ _ E2). exists None, h2. split; [reflexivity|]. split; [lia|]. auto.
      * exists (Some (c, k)), h1. split; [reflexivity|]. split; [exact L1|]. auto.
    + destruct R as (X1 & R). exists None, h1. split; [reflexivity|]. split; [exact L1|]. split; [exact X1|]. destruct R as [-> |F]; auto.
Qed.
Lemma hash_ok sha pk c h l : holds h l ->
  exists r h', delegation_hash_m grant sha pk c h = Ok (r, h') /\ h_next h <= h_next h' /\ holds h' l /\
  (r = delegation_hash sha pk c \/ r = Err EMemory /\ failed grant h h').
Proof.
  intros X. unfold delegation_hash_m, delegation_hash. destruct (4096 <? _)%N.
  - eexists. exists h. split; [reflexivity|]. split; [reflexivity|]. auto.
  - destruct (ealloc_cases grant h l X) as [(q & h1 & E & X1 & L1)|(h1 & E & X1 & L1 & F)]; rewrite (mbind_ok _ _ _ _ _ E).
    + rewrite (mbind_ok _ _ _ _ _ (use_holds q h1 _ X1 (or_introl eq_refl))). destruct (free_holds q h1 l X1) as (h2 & E2 & X2 & L2). rewrite (mbind_ok _ _ _ _ _ E2). eexists. exists h2. split; [reflexivity|]. split; [lia|]. auto.
    + eexists. exists h1. split; [reflexivity|]. split; [exact L1|]. auto.
Qed.
Lemma hash_not_undef sha pk c : delegation_hash sha pk c <> Undef.
Proof. unfold delegation_hash. destruct (_ <? _)%N; discriminate. Qed.

(** Creating a delegation: it is the one asked for, in blocks of its own, or none is
    left and nothing was lost.  With enough memory the answer is the usual one; short
    of memory it is a refusal. *)
Theorem C141_create : forall sha pub sg sk pk conds rnd h rest, holds h rest ->
  exists d x h', create_m grant sha pub sg sk pk conds rnd h = Ok ((d, x), h') /\ holds h' (del_owned d ++ rest) /\ del_sound d /\
  (x = None -> delegation_create sha pub sg sk pk conds rnd = Ok (cd_val d) /\ cd_text d <> None) /\
  (x <> None -> del_owned d = []) /\
  (granted grant h h' -> says x (delegation_create sha pub sg sk pk conds rnd)) /\
  (says x (delegation_create sha pub sg sk pk conds rnd) \/ failed grant h h' /\ (x = Some EMemory \/ x = Some EInvalidParam)).
Proof.
  intros sha pub sg sk pk conds rnd h rest X. unfold create_m, delegation_create.
  destruct (hash_ok sha pk conds h rest X) as (r & h1 & E & L1 & X1 & R). rewrite (mbind_ok _ _ _ _ _ E).
  destruct R as [-> |(-> & F)].
  2:{ exists no_del, (Some EMemory), h1. split; [reflexivity|]. split; [exact X1|]. split; [split; reflexivity|]. split; [discriminate|]. split; [reflexivity|]. split; [intros G; destruct (failed_granted _ _ F G)|auto]. }
  destruct (delegation_hash sha pk conds) as [hash|x|] eqn:HS; cbn [bind].
  3:{ destruct (hash_not_undef _ _ _ HS). }
  2:{ exists no_del, (Some x), h1. split; [reflexivity|]. split; [exact X1|]. split; [split; reflexivity|]. split; [discriminate|]. split; [reflexivity|]. split; [reflexivity|left; reflexivity]. }
  destruct (pub sk) as [p|].
  2:{ exists no_del, (Some EInvalidKey), h1. split; [reflexivity|]. split; [exact X1|]. split; [split; reflexivity|]. split; [discriminate|]. split; [reflexivity|]. split; [reflexivity|left; reflexivity]. }
  destruct rnd as [a|].
  2:{ exists (bare p (repeat 0%N 64)), (Some EMemory), h1. split; [reflexivity|]. split; [exact X1|]. split; [split; reflexivity|]. split; [discriminate|]. split; [reflexivity|]. split; [reflexivity|left; reflexivity]. }
  destruct (sg sk hash a) as [token|].
  2:{ exists (bare p (repeat 0%N 64)), (Some EInvalidSignature), h1. split; [reflexivity|]. split; [exact X1|]. split; [split; reflexivity|]. split; [discriminate|]. split; [reflexivity|]. split; [reflexivity|left; reflexivity]. }
  destruct (ealloc_cases grant h1 rest X1) as [(t & h2 & E2 & X2 & L2)|(h2 & E2 & X2 & L2 & F)]; rewrite (mbind_ok _ _ _ _ _ E2).
  2:{ assert (F' : failed grant h h2) by (eapply failed_more; [exact L1| |exact F]; lia). exists no_del, (Some EMemory), h2. split; [reflexivity|]. split; [exact X2|]. split; [split; reflexivity|]. split; [discriminate|]. split; [reflexivity|]. split; [intros G; destruct (failed_granted _ _ F' G)|auto]. }
  destruct (parse_ok conds h2 _ X2) as (r & h3 & E3 & L3 & R). rewrite (mbind_ok _ _ _ _ _ E3). destruct r as [(c & k)|].
  - destruct R as (-> & X3 & K). eexists. exists None, h3. split; [reflexivity|]. cbn [del_owned cd_text cd_kinds opt_list].
    split; [eapply holds_perm; [|exact X3]; symmetry; cbn [app]; apply Permutation_middle|]. split; [exact K|]. split; [intros _; split; [reflexivity|discriminate]|]. split; [congruence|]. split; [reflexivity|left; reflexivity].
  - destruct R as (X3 & R). destruct (free_holds t h3 rest X3) as (h4 & E4 & X4 & L4). rewrite (mbind_ok _ _ _ _ _ E4). exists no_del, (Some EInvalidParam), h4. split; [reflexivity|]. split; [exact X4|]. split; [split; reflexivity|]. split; [discriminate|]. split; [reflexivity|].
    destruct R as [-> |F]; [split; [reflexivity|left; reflexivity]|]. assert (F' : failed grant h h4) by (eapply failed_more; [| |exact F]; lia). split; [intros G; destruct (failed_granted _ _ F' G)|auto].
Qed.
(** Reading an event's delegation, likewise. *)
Theorem C141_get : forall e h rest, holds h rest ->
  exists d x h', get_tags_m grant (ev_tags e) h = Ok ((d, x), h') /\ holds h' (del_owned d ++ rest) /\ del_sound d /\ h_next h <= h_next h' /\
  (x = None -> get_delegation e = Ok (cd_val d) /\ cd_text d <> None) /\
  (x <> None -> del_owned d = []) /\
  (granted grant h h' -> says x (get_delegation e)) /\
  (says x (get_delegation e) \/ failed grant h h' /\ (x = Some EMemory \/ x = Some EInvalidEvent)).
Proof.
  intros e h rest X. unfold get_delegation. induction (ev_tags e) as [|tag ts IH]; cbn [get_tags_m get_delegation_tags].
  - exists no_del, (Some ENotFound), h. split; [reflexivity|]. split; [exact X|]. split; [split; reflexivity|]. split; [reflexivity|]. split; [discriminate|]. split; [reflexivity|]. split; [reflexivity|left; reflexivity].
  - destruct tag as [|name [|dh [|c [|th more]]]]; try exact IH. destruct (beq name (bs "delegation")); [|exact IH]. clear IH.
    assert (BAD : forall d, del_owned d = [] -> del_sound d -> exists d' x h', (mret (d, Some EInvalidEvent) : M (cdel * option err)) h = Ok ((d', x), h') /\ holds h' (del_owned d' ++ rest) /\ del_sound d' /\ h_next h <= h_next h' /\
      (x = None -> @Err delegation EInvalidEvent = Ok (cd_val d') /\ cd_text d' <> None) /\ (x <> None -> del_owned d' = []) /\ (granted grant h h' -> says x (@Err delegation EInvalidEvent)) /\
      (says x (@Err delegation EInvalidEvent) \/ failed grant h h' /\ (x = Some EMemory \/ x = Some EInvalidEvent))).
    { intros d O S. exists d, (Some EInvalidEvent), h. split; [reflexivity|]. rewrite O. split; [exact X|]. split; [exact S|]. split; [reflexivity|]. split; [discriminate|]. split; [reflexivity|]. split; [reflexivity|left; reflexivity]. }
    destruct (_ || (4096 <? N.of_nat (length c))%N); [apply BAD; [reflexivity|split; reflexivity]|]. destruct (negb _ || negb _); [apply BAD; [reflexivity|split; reflexivity]|].
    destruct (hex_decode dh 32) as (p & n1). destruct (hex_decode th 64) as (tk & n2). destruct (negb _ || negb _); [apply BAD; [reflexivity|split; reflexivity]|]. clear BAD.
    destruct (ealloc_cases grant h rest X) as [(t & h2 & E2 & X2 & L2)|(h2 & E2 & X2 & L2 & F)]; rewrite (mbind_ok _ _ _ _ _ E2).
    2:{ exists (bare p tk), (Some EMemory), h2. split; [reflexivity|]. split; [exact X2|]. split; [split; reflexivity|]. split; [exact L2|]. split; [discriminate|]. split; [reflexivity|]. split; [intros G; destruct (failed_granted _ _ F G)|auto]. }
    destruct (parse_ok c h2 _ X2) as (r & h3 & E3 & L3 & R). rewrite (mbind_ok _ _ _ _ _ E3). destruct r as [(v & k)|].
    + destruct R as (-> & X3 & K). eexists. exists None, h3. split; [reflexivity|]. cbn [del_owned cd_text cd_kinds opt_list].
      split; [eapply holds_perm; [|exact X3]; symmetry; cbn [app]; apply Permutation_middle|]. split; [exact K|]. split; [lia|]. split; [intros _; split; [reflexivity|discriminate]|]. split; [congruence|]. split; [reflexivity|left; reflexivity].
    + destruct R as (X3 & R). destruct (free_holds t h3 rest X3) as (h4 & E4 & X4 & L4). rewrite (mbind_ok _ _ _ _ _ E4). exists (bare p tk), (Some EInvalidEvent), h4. split; [reflexivity|]. split; [exact X4|]. split; [split; reflexivity|]. split; [lia|]. split; [discriminate|]. split; [reflexivity|].
      destruct R as [-> |F]; [split; [reflexivity|left; reflexivity]|]. assert (F' : failed grant h h4) by (eapply failed_more; [| |exact F]; lia). split; [intros G; destruct (failed_granted _ _ F' G)|auto].
Qed.
(** Verifying a delegation leaves it and everything else as it was. *)
Theorem C141_verify : forall sha vf kp d pk h rest, cd_text d <> None -> holds h (del_owned d ++ rest) ->
  exists x h', verify_m grant sha vf kp d pk h = Ok (x, h') /\ holds h' (del_owned d ++ rest) /\ h_next h <= h_next h' /\
  (says x (delegation_verify sha vf kp (cd_val d) pk) \/ failed grant h h' /\ x = Some EMemory).
Proof.
  intros sha vf kp d pk h rest T X. unfold verify_m, delegation_verify. destruct (cd_text d) as [t|] eqn:TX; [|congruence].
  rewrite (mbind_ok _ _ _ _ _ (use_holds t h _ X ltac:(unfold del_owned; rewrite TX; left; reflexivity))).
  destruct (hash_ok sha pk (d_conditions (cd_val d)) h _ X) as (r & h1 & E & L1 & X1 & R). rewrite (mbind_ok _ _ _ _ _ E).
  destruct R as [-> |(-> & F)]; [|exists (Some EMemory), h1; split; [reflexivity|]; auto].
  destruct (delegation_hash sha pk _) as [hash|x|] eqn:HS; cbn [bind]; [| |destruct (hash_not_undef _ _ _ HS)].
  - destruct (kp _); cbn [negb].
    + destruct (vf _ _ _); (eexists; exists h1; split; [reflexivity|]; split; [exact X1|]; split; [exact L1|left; reflexivity]).
    + eexists; exists h1; split; [reflexivity|]; split; [exact X1|]; split; [exact L1|left; reflexivity].
  - eexists; exists h1; split; [reflexivity|]; split; [exact X1|]; split; [exact L1|left; reflexivity].
Qed.
(** Releasing gives everything back; releasing again does nothing. *)
Theorem C141_free : forall d h rest, holds h (del_owned d ++ rest) ->
  exists h', free_m d h = Ok (no_del, h') /\ holds h' rest /\ h_next h' = h_next h /\ free_m no_del h' = Ok (no_del, h').
Proof.
  intros d h rest X. unfold free_m. unfold del_owned in X. rewrite <- app_assoc in X. destruct (free_opt_holds _ h _ X) as (h1 & E & X1 & L1). rewrite (mbind_ok _ _ _ _ _ E).
  destruct (free_opt_holds _ h1 _ X1) as (h2 & E2 & X2 & L2). rewrite (mbind_ok _ _ _ _ _ E2). exists h2. split; [reflexivity|]. split; [exact X2|]. split; [lia|reflexivity].
Qed.
Lemma check_says d kind created h l : del_sound d -> holds h l -> incl (del_owned d) l -> exists x, check_m d kind created h = Ok (x, h) /\ says x (check_conditions (d_parsed (cd_val d)) kind created).
Proof.
  intros S X I. unfold check_m.
  assert (U : (match k_kinds (d_parsed (cd_val d)) with [] => mret tt | _ => huse (cd_kinds d) end) h = Ok (tt, h)).
  { destruct (k_kinds (d_parsed (cd_val d))) as [|k r] eqn:K; [reflexivity|]. destruct (cd_kinds d) as [b|] eqn:B; [|unfold del_sound in S; rewrite B, K in S; destruct S as (S & _); discriminate (S eq_refl)].
    apply (use_holds b h l X). apply I. unfold del_owned. rewrite B. apply in_or_app. right. left. reflexivity. }
  rewrite (mbind_ok _ _ _ _ _ U). destruct (check_refuses (d_parsed (cd_val d)) kind created) as [-> | ->]; eexists; split; reflexivity.
Qed.
(** Verifying an event's delegation keeps no memory, and says what it says with enough
    memory; short of memory it is a refusal, never an acceptance. *)
Theorem C141_event : forall sha vf kp e h rest, holds h rest ->
  exists x h', verify_event_m grant sha vf kp e h = Ok (x, h') /\ holds h' rest /\
  (granted grant h h' -> says x (event_verify_delegation sha vf kp e)) /\
  (x = None -> event_verify_delegation sha vf kp e = Ok tt) /\
  (says x (event_verify_delegation sha vf kp e) \/ failed grant h h' /\ (x = Some EMemory \/ x = Some EInvalidEvent)).
Proof.
  intros sha vf kp e h rest X.
  assert (G : exists x h', verify_event_m grant sha vf kp e h = Ok (x, h') /\ holds h' rest /\ (says x (event_verify_delegation sha vf kp e) \/ failed grant h h' /\ (x = Some EMemory \/ x = Some EInvalidEvent))).
  { unfold verify_event_m, event_verify_delegation. destruct (C141_get e h rest X) as (d & x & h1 & E & X1 & S & L1 & OK & BAD & _ & R). rewrite (mbind_ok _ _ _ _ _ E). destruct x as [x|].
    - exists (Some x), h1. split; [reflexivity|]. rewrite (BAD ltac:(discriminate)) in X1. split; [exact X1|]. destruct R as [R|R]; [left|right; exact R]. destruct (get_delegation e); [discriminate R|exact R|exact R].
    - destruct (OK eq_refl) as (-> & T). cbn [bind]. destruct (C141_verify sha vf kp d (ev_pubkey e) h1 rest T X1) as (v & h2 & E2 & X2 & L2 & RV). rewrite (mbind_ok _ _ _ _ _ E2).
      destruct (check_says d (ev_kind e) (ev_created e) h2 _ S X2) as (y & EY & SY); [apply incl_appl, incl_refl|].
      assert (Z : exists z, (match v with Some x => mret (Some x) | None => check_m d (ev_kind e) (ev_created e) end) h2 = Ok (z, h2) /\
        (says z (do _ <- delegation_verify sha vf kp (cd_val d) (ev_pubkey e); check_conditions (d_parsed (cd_val d)) (ev_kind e) (ev_created e)) \/ failed grant h1 h2 /\ z = Some EMemory)).
      { destruct v as [v|]; [exists (Some v)|exists y]; (split; [first [reflexivity|exact EY]|]).
        - destruct RV as [RV|RV]; [left|right; exact RV]. destruct (delegation_verify _ _ _ _ _); [discriminate RV|exact RV|exact RV].
        - destruct RV as [RV|(_ & RV)]; [left|discriminate RV]. destruct (delegation_verify _ _ _ _ _); [exact SY|discriminate RV|destruct RV]. }
      destruct Z as (z & EZ & RZ). rewrite (mbind_ok _ _ _ _ _ EZ). destruct (C141_free d h2 rest X2) as (h3 & E3 & X3 & L3 & _). rewrite (mbind_ok _ _ _ _ _ E3).
      exists z, h3. split; [reflexivity|]. split; [exact X3|]. destruct RZ as [RZ|(F & ->)]; [left; exact RZ|right]. split; [|auto]. eapply failed_more; [exact L1| |exact F]. lia. }
  destruct G as (x & h' & E & X' & R). exists x, h'. split; [exact E|]. split; [exact X'|]. split; [|split; [|exact R]].
  - intros GR. destruct R as [R|(F & _)]; [exact R|destruct (failed_granted _ _ F GR)].
  - intros ->. destruct R as [R|(_ & [R|R])]; [|discriminate R|discriminate R]. destruct (event_verify_delegation sha vf kp e) as [[]|x|]; [reflexivity|discriminate R|destruct R].
Qed.
(** Attaching: the event gains exactly the delegation's tag, or stays as it was. *)
Theorem C141_attach : forall lim c d h rest, event_sound c -> cd_text d <> None -> holds h (owned c ++ del_owned d ++ rest) ->
  exists c' x h', add_delegation_m grant lim c d h = Ok ((c', x), h') /\ event_sound c' /\ holds h' (owned c' ++ del_owned d ++ rest) /\
  (x = None -> ce_val c' = add_delegation (ce_val c) (cd_val d)) /\ (x <> None -> ce_val c' = ce_val c).
Proof.
  intros lim c d h rest ES T X. unfold add_delegation_m. destruct (cd_text d) as [t|] eqn:TX; [|congruence].
  rewrite (mbind_ok _ _ _ _ _ (use_holds t h _ X ltac:(apply in_or_app; right; unfold del_owned; rewrite TX; left; reflexivity))).
  destruct (C107_tag grant lim c (delegation_tag (cd_val d)) h _ ES X) as (c' & x & h' & E & ES' & X' & _ & R & _). exists c', x, h'. split; [exact E|]. split; [exact ES'|]. split; [exact X'|].
  destruct R as [(-> & V & _)|[(-> & V & _)|(-> & V & _)]]; (split; intros Q; try discriminate Q; try congruence; exact V).
Qed.
(** A delegation that was refused or released is not verified and not attached. *)
Theorem C141_empty : forall sha vf kp lim c d pk h, cd_text d = None ->
  verify_m grant sha vf kp d pk h = Ok (Some EInvalidParam, h) /\ add_delegation_m grant lim c d h = Ok ((c, Some EInvalidParam), h).
Proof. intros sha vf kp lim c d pk h T. unfold verify_m, add_delegation_m. rewrite T. split; reflexivity. Qed.
End Grant.

(** A shortage of memory is not always called that: a valid delegation is reported as
    an invalid event, as its conditions could not be stored. *)
Definition deleg1 : event := mkEvent [] (repeat 1%N 32) 9%Z 1%N [[bs "p"; bs "x"]; [bs "delegation"; hex_encode (repeat 2%N 32); bs "kind=1"; hex_encode (repeat 3%N 64)]] None [].
Theorem C141_reason_refuted : ~ (forall grant sha vf kp e h h' x, holds h [] -> event_verify_delegation sha vf kp e = Ok tt -> verify_event_m grant sha vf kp e h = Ok (Some x, h') -> x = EMemory).
Proof.
  intros G. assert (X : holds (mkHeap 0 []) []) by (split; [split; constructor|constructor]).
  specialize (G (fun k => negb (k =? 1)) (fun x => x) (fun _ _ _ => true) (fun _ => true) deleg1 (mkHeap 0 []) (mkHeap 2 []) EInvalidEvent X).
  discriminate (G ltac:(vm_compute; reflexivity) ltac:(vm_compute; reflexivity)).
Qed.
(** The same event with enough memory, and a delegation made, attached and released. *)
Example C141_meets : event_verify_delegation (fun x => x) (fun _ _ _ => true) (fun _ => true) deleg1 = Ok tt /\
  (exists h', verify_event_m (fun _ => true) (fun x => x) (fun _ _ _ => true) (fun _ => true) deleg1 (mkHeap 0 []) = Ok (None, h') /\ h_live h' = []) /\
  (exists d h1 h2, create_m (fun _ => true) (fun x => x) (fun _ => Some (repeat 2%N 32)) (fun _ _ _ => Some (repeat 3%N 64)) (repeat 1%N 32) (repeat 4%N 32) (bs "kind=1&kind=7&created_at>5") (Some (repeat 9%N 32)) (mkHeap 0 []) = Ok ((d, None), h1) /\
     k_kinds (d_parsed (cd_val d)) = [1%N; 7%N] /\ length (h_live h1) = 2 /\ free_m d h1 = Ok (no_del, h2) /\ h_live h2 = []).
Proof.
  split; [vm_compute; reflexivity|]. split; [eexists; split; [vm_compute; reflexivity|reflexivity]|].
  eexists. eexists. eexists. split; [vm_compute; reflexivity|]. split; [reflexivity|]. split; [reflexivity|]. split; vm_compute; reflexivity.
Qed.
Print Assumptions C141_create.
Print Assumptions C141_get.
Print Assumptions C141_verify.
Print Assumptions C141_free.
Print Assumptions C141_event.
Print Assumptions C141_empty.
Print Assumptions C141_attach.
Print Assumptions C141_reason_refuted.
