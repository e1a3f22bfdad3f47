(** Property theorems C36, C37 (delegation). *)
From Verif Require Import Base BaseFacts Dec Strto Hex HexSpec HexProofs Event Nip26 Nip26Spec Nip26Proofs.
Open Scope N_scope.

(** ** C36 *)
(** Every well-formed conditions text is read. *)
Theorem C36_reads : forall l, Forall clause_ok l -> l <> [] -> (length l <= 100)%nat ->
  exists c, parse_conditions (conditions_text l) = Some c.
Proof. intros l F NE K. exists (conds_of l). apply parse_text; assumption. Qed.

Lemma check_refuses c kind t : check_conditions c kind t = Ok tt \/ check_conditions c kind t = Err EInvalidEvent.
Proof. unfold check_conditions. destruct (negb _); [auto|]. destruct (match k_after c with Some _ => _ | None => _ end); [auto|]. destruct (match k_before c with Some _ => _ | None => _ end); auto. Qed.
Lemma conds_check l kind t : (length (afters l) <= 1)%nat -> (length (befores l) <= 1)%nat ->
  check_conditions (conds_of l) kind t = Ok tt <-> allowed l kind t.
Proof.
  intros A B. rewrite check_ok_iff. unfold conds_of, allowed. cbn [k_kinds k_after k_before].
  assert (ONE : forall (x : list Z) (P : Z -> Prop), (length x <= 1)%nat ->
    (forall a, last_opt x = Some a -> P a) <-> Forall P x).
  { intros x P L. destruct x as [|a [|b x]]; [split; [constructor|discriminate]| |cbn [length] in L; lia].
    unfold last_opt. cbn. split; [intros H; constructor; [apply H; reflexivity|constructor]|].
    intros H a' [= <-]. inversion H; assumption. }
  rewrite (ONE _ (fun a => (a < t)%Z) A), (ONE _ (fun b => (t < b)%Z) B). reflexivity.
Qed.

(** The full claim: a repeated bound replaces the earlier one instead of adding
    to it. *)
Theorem C36_refuted : ~ (forall l c kind t, Forall clause_ok l -> l <> [] -> (length l <= 100)%nat ->
  parse_conditions (conditions_text l) = Some c ->
  (check_conditions c kind t = Ok tt <-> allowed l kind t)).
Proof.
  intros H. pose (l := [CAfter 200; CAfter 100]).
  assert (P : parse_conditions (conditions_text l) = Some (conds_of l)).
  { apply parse_text; [repeat constructor; cbn; lia|discriminate|cbn; lia]. }
  destruct (H l (conds_of l) 1 150%Z) as (F & _); [repeat constructor; cbn; lia|discriminate|cbn; lia|exact P|].
  destruct (F eq_refl) as (_ & A & _). inversion A as [|? ? BAD]. lia.
Qed.

(** Partial: texts with at most one bound of each sort.  Missing: repeated
    bounds (above). *)
Theorem C36_exact_partial : forall l c kind t, Forall clause_ok l -> l <> [] -> (length l <= 100)%nat ->
  (length (afters l) <= 1)%nat -> (length (befores l) <= 1)%nat ->
  parse_conditions (conditions_text l) = Some c ->
  (check_conditions c kind t = Ok tt <-> allowed l kind t) /\ (check_conditions c kind t = Err EInvalidEvent <-> ~ allowed l kind t).
Proof.
  intros l c kind t F NE K A B P. rewrite (parse_text l F NE K) in P.
  assert (c = conds_of l) by congruence. subst c. pose proof (conds_check l kind t A B) as CC. split; [exact CC|].
  rewrite <- CC. destruct (check_refuses (conds_of l) kind t) as [-> | ->]; (split; [|intros; try reflexivity; try tauto]); congruence.
Qed.

(** With repeated bounds the last one counts, so an event that is inside every
    listed bound is never turned away. *)
Theorem C36_admits : forall l c kind t, Forall clause_ok l -> l <> [] -> (length l <= 100)%nat ->
  parse_conditions (conditions_text l) = Some c -> allowed l kind t -> check_conditions c kind t = Ok tt.
Proof.
  intros l c kind t F NE K P (AK & AA & AB). rewrite (parse_text l F NE K) in P.
  assert (c = conds_of l) by congruence. subst c. apply check_ok_iff. unfold conds_of. cbn [k_kinds k_after k_before].
  repeat split; [exact AK| |].
  - intros a E. apply nth_error_In in E. exact (proj1 (Forall_forall _ _) AA a E).
  - intros b E. apply nth_error_In in E. exact (proj1 (Forall_forall _ _) AB b E).
Qed.

(** Exactly which texts are accepted, and what each then allows. *)
Theorem C36_language : forall s c, parse_conditions s = Some c <->
  exists l n, loose s l n /\ (n <= 100)%nat /\ l <> [] /\
    k_kinds c = kinds_listed l /\ k_after c = last_opt (afters l) /\ k_before c = last_opt (befores l).
Proof.
  intros s c. rewrite parse_conditions_iff. split; intros (l & n & L & K & NE & E); exists l, n.
  - subst c. unfold conds_of. cbn [k_kinds k_after k_before]. auto 10.
  - repeat split; auto. destruct E as (E1 & E2 & E3). destruct c as [ks ka kb]; cbn [k_kinds k_after k_before] in *. subst. reflexivity.
Qed.
(** Not only well-formed texts: separators may be missing or doubled, and a
    kind may be given as a huge negative number. *)
Theorem C36_strict_refuted :
  ~ (forall s c, parse_conditions s = Some c -> exists l, Forall clause_ok l /\ s = conditions_text l) /\
  parse_conditions (bs "kind=1kind=2") = parse_conditions (bs "kind=1&kind=2") /\
  parse_conditions (bs "kind=-18446744073709551615") = parse_conditions (bs "kind=1") /\
  parse_conditions (bs "kind=1") <> None.
Proof.
  split; [|split; [vm_compute; reflexivity|split; [vm_compute; reflexivity|discriminate]]].
  intros H. destruct (H (bs "&kind=1") (mkConds [1] None None) eq_refl) as (l & F & E).
  destruct l as [|[k|t|t] [|d l]]; cbn [conditions_text clause_text] in E; discriminate.
Qed.

Example C36_meets : let l := [CKind 1; CKind 7; CAfter 100; CBefore 200] in
  Forall clause_ok l /\ conditions_text l = bs "kind=1&kind=7&created_at>100&created_at<200" /\
  allowed l 7 150 /\ ~ allowed l 7 200 /\
  match parse_conditions (conditions_text l) with
  | Some c => check_conditions c 7 150 = Ok tt /\ check_conditions c 7 200 = Err EInvalidEvent /\ check_conditions c 2 150 = Err EInvalidEvent
  | None => False
  end.
Proof.
  cbv zeta. split; [repeat constructor; cbn; lia|]. split; [vm_compute; reflexivity|].
  split; [split; [right; cbn; auto|split; repeat constructor]|].
  split; [intros (_ & _ & B); inversion B as [|? ? BAD]; lia|].
  vm_compute. auto.
Qed.

(** ** C37 *)
Lemma no_upper b : bytes_ok b -> Forall (fun c => ~ (65 <= c <= 70)) (hex_encode b).
Proof.
  induction 1 as [|x b Hx F IH]; [constructor|]. cbn [hex_encode flat_map]. apply Forall_app. split; [|exact IH].
  assert (D : forall v, ~ (65 <= hexdigit v <= 70)) by (intros v; unfold hexdigit; destruct (N.ltb_spec v 10); lia).
  repeat constructor; apply D.
Qed.

(** The text that is hashed. *)
Theorem C37_text : forall sha pk c h, length pk = 32%nat -> bytes_ok pk ->
  delegation_hash sha pk c = Ok h -> exists t, delegated_text t pk c /\ h = sha t.
Proof.
  intros sha pk c h L B H. unfold delegation_hash in H. destruct (4096 <? N.of_nat (length c)); [discriminate|].
  exists (delegation_string pk c). split; [|congruence]. rewrite delegation_string_eq by exact L.
  exists (hex_encode pk). split; [apply hextext_encode, B|]. split; [apply no_upper, B|reflexivity].
Qed.
Theorem C37_text_injective : forall t pk c pk' c', length pk = 32%nat -> length pk' = 32%nat ->
  delegated_text t pk c -> delegated_text t pk' c' -> pk = pk' /\ c = c'.
Proof.
  intros t pk c pk' c' L L' (h & H & _ & E) (h' & H' & _ & E'). rewrite E in E'.
  apply app_inv_head in E'. apply app_inv_length in E'.
  2:{ rewrite (hextext_length _ _ H), (hextext_length _ _ H'), L, L'. reflexivity. }
  destruct E' as (-> & E'). apply app_inv_head in E'. subst c'. split; [|reflexivity].
  exact (hextext_fun _ _ _ H H').
Qed.

(** A token good for two (delegatee, conditions) pairs shows a hash collision. *)
Theorem C37_binding : forall sha pub sg vf kp d pk d' pk',
  signatures pub sg vf ->
  length pk = 32%nat -> bytes_ok pk -> length pk' = 32%nat -> bytes_ok pk' ->
  d_delegator d = d_delegator d' -> d_token d = d_token d' ->
  delegation_verify sha vf kp d pk = Ok tt -> delegation_verify sha vf kp d' pk' = Ok tt ->
  pk = pk' /\ d_conditions d = d_conditions d' \/ exists x y, x <> y /\ sha x = sha y.
Proof.
  intros sha pub sg vf kp d pk d' pk' SG L B L' B' ED ET V V'. unfold delegation_verify in V, V'.
  destruct (delegation_hash sha pk (d_conditions d)) as [h| |] eqn:E; [|discriminate|discriminate].
  destruct (delegation_hash sha pk' (d_conditions d')) as [h'| |] eqn:E'; [|discriminate|discriminate].
  cbn [bind] in V, V'. destruct (negb (kp (d_delegator d))); [discriminate|]. destruct (negb (kp (d_delegator d'))); [discriminate|]. destruct (vf (d_delegator d) h (d_token d)) eqn:W; [|discriminate].
  destruct (vf (d_delegator d') h' (d_token d')) eqn:W'; [|discriminate].
  rewrite ED, ET in W. pose proof (sg_one _ _ _ SG _ _ _ _ W W') as EH. subst h'.
  destruct (C37_text _ _ _ _ L B E) as (t & T & HT). destruct (C37_text _ _ _ _ L' B' E') as (t' & T' & HT').
  destruct (list_eq_dec N.eq_dec t t') as [<-|NE].
  - left. exact (C37_text_injective _ _ _ _ _ L L' T T').
  - right. exists t, t'. split; [exact NE|congruence].
Qed.

Lemma get_skip ts d : Forall (fun t => ~ delegation_like t) ts ->
  get_delegation_tags (ts ++ [d]) = get_delegation_tags [d].
Proof.
  induction 1 as [|t ts N F IH]; [reflexivity|]. cbn [app]. rewrite <- IH.
  destruct t as [|n [|a [|b [|c r]]]]; try reflexivity. cbn [get_delegation_tags].
  destruct (beq n (bs "delegation")) eqn:E; [|reflexivity]. apply beq_eq in E. subst n.
  exfalso. apply N. exists a, b, c, r. reflexivity.
Qed.

(** A created token verifies, and attached to an event it is read back and
    verifies there, subject to the conditions only. *)
Theorem C37_roundtrip : forall sha pub sg vf kp sk pk conds rnd d e,
  signatures pub sg vf -> (forall k p, pub k = Some p -> kp p = true) ->
  delegation_create sha pub sg sk pk conds rnd = Ok d ->
  Forall (fun t => ~ delegation_like t) (ev_tags e) -> ev_pubkey e = pk ->
  d_conditions d = conds /\ pub sk = Some (d_delegator d) /\
  delegation_verify sha vf kp d pk = Ok tt /\
  get_delegation (add_delegation e d) = Ok d /\
  event_verify_delegation sha vf kp (add_delegation e d) = check_conditions (d_parsed d) (ev_kind e) (ev_created e).
Proof.
  intros sha pub sg vf kp sk pk conds rnd d e SG KP C F PK. unfold delegation_create in C.
  destruct (delegation_hash sha pk conds) as [h| |] eqn:E; [|discriminate|discriminate]. cbn [bind] in C.
  destruct (pub sk) as [p|] eqn:EP; [|discriminate]. destruct rnd as [r|]; [|discriminate].
  destruct (sg sk h r) as [t|] eqn:ES; [|discriminate]. destruct (parse_conditions conds) as [c|] eqn:EC; [|discriminate].
  assert (D : d = mkDel p conds c t) by congruence. subst d. clear C. cbn [d_conditions d_delegator d_parsed].
  assert (V : delegation_verify sha vf kp (mkDel p conds c t) pk = Ok tt).
  { unfold delegation_verify. cbn [d_conditions d_delegator d_token]. rewrite E. cbn [bind]. rewrite (KP _ _ EP). cbn [negb].
    rewrite (sg_ok _ _ _ SG _ _ _ _ _ EP ES). reflexivity. }
  assert (G : get_delegation (add_delegation e (mkDel p conds c t)) = Ok (mkDel p conds c t)).
  { unfold get_delegation, add_delegation. cbn [ev_tags]. rewrite get_skip by exact F.
    unfold delegation_tag. cbn [d_conditions d_delegator d_token get_delegation_tags]. rewrite beq_refl.
    destruct (sg_pub _ _ _ SG _ _ EP) as (LP & BP). destruct (sg_len _ _ _ SG _ _ _ _ ES) as (LT & BT).
    rewrite (is_valid_hex_encode p 64) by (rewrite ?LP; auto). rewrite (is_valid_hex_encode t 128) by (rewrite ?LT; auto).
    rewrite (hex_decode_encode p 32 BP LP), (hex_decode_encode t 64 BT LT), EC. cbn [negb orb].
    unfold delegation_hash in E. destruct (4096 <? N.of_nat (length conds)); [discriminate|]. rewrite orb_false_r.
    destruct (N.eqb_spec (N.of_nat (length conds)) 0) as [Z|]; [|reflexivity].
    destruct conds; [discriminate|cbn [length] in Z; lia]. }
  repeat split; auto.
  unfold event_verify_delegation. rewrite G. cbn [bind].
  change (ev_pubkey (add_delegation e (mkDel p conds c t))) with (ev_pubkey e). rewrite PK, V. reflexivity.
Qed.

(** An event that verifies carries a delegation tag for its own author: the
    first such tag, with a token good for the author's key and conditions that
    the event meets. *)
Theorem C37_event_sound : forall sha vf kp e,
  length (ev_pubkey e) = 32%nat -> bytes_ok (ev_pubkey e) ->
  event_verify_delegation sha vf kp e = Ok tt ->
  exists before dh c th extra after pk token l n t,
    ev_tags e = before ++ (bs "delegation" :: dh :: c :: th :: extra) :: after /\
    Forall (fun x => ~ delegation_like x) before /\
    hextext dh pk /\ length pk = 32%nat /\ hextext th token /\ length token = 64%nat /\
    delegated_text t (ev_pubkey e) c /\ vf pk (sha t) token = true /\
    loose c l n /\ (kinds_listed l = [] \/ In (ev_kind e) (kinds_listed l)) /\
    (forall a, last_opt (afters l) = Some a -> (a < ev_created e)%Z) /\
    (forall b, last_opt (befores l) = Some b -> (ev_created e < b)%Z).
Proof.
  intros sha vf kp e LP BP H. unfold event_verify_delegation in H.
  destruct (get_delegation e) as [d| |] eqn:G; [|discriminate|discriminate]. cbn [bind] in H.
  destruct (delegation_verify sha vf kp d (ev_pubkey e)) as [[]| |] eqn:V; [|discriminate|discriminate]. cbn [bind] in H.
  assert (X : exists before dh th extra after, ev_tags e = before ++ (bs "delegation" :: dh :: d_conditions d :: th :: extra) :: after /\
     Forall (fun x => ~ delegation_like x) before /\ is_valid_hex dh 64 = true /\ is_valid_hex th 128 = true /\
     hex_decode dh 32 = (d_delegator d, Some 32%nat) /\ hex_decode th 64 = (d_token d, Some 64%nat) /\
     parse_conditions (d_conditions d) = Some (d_parsed d)).
  { unfold get_delegation in G. clear H V. induction (ev_tags e) as [|tag ts IH]; [discriminate|].
    assert (SKIP : get_delegation_tags ts = Ok d -> ~ delegation_like tag -> exists before dh th extra after, tag :: ts = before ++ (bs "delegation" :: dh :: d_conditions d :: th :: extra) :: after /\
     Forall (fun x => ~ delegation_like x) before /\ is_valid_hex dh 64 = true /\ is_valid_hex th 128 = true /\
     hex_decode dh 32 = (d_delegator d, Some 32%nat) /\ hex_decode th 64 = (d_token d, Some 64%nat) /\
     parse_conditions (d_conditions d) = Some (d_parsed d)).
    { intros G' ND. destruct (IH G') as (b & dh & th & ex & af & E & FB & R). exists (tag :: b), dh, th, ex, af.
      split; [cbn [app]; congruence|]. split; [constructor; auto|exact R]. }
    destruct tag as [|n [|dh [|c [|th r]]]];
      try (apply SKIP; [exact G|intros (? & ? & ? & ? & Q); discriminate]).
    cbn [get_delegation_tags] in G. destruct (beq n (bs "delegation")) eqn:EN.
    2:{ apply SKIP; [exact G|]. intros (? & ? & ? & ? & Q). assert (n = bs "delegation") by congruence. subst n. rewrite beq_refl in EN. discriminate. }
    clear SKIP IH. apply beq_eq in EN. subst n.
    destruct (_ || _) in G; [discriminate|].
    destruct (is_valid_hex dh 64) eqn:H1; [|discriminate]. destruct (is_valid_hex th 128) eqn:H2; [|discriminate]. cbn [negb orb] in G.
    destruct (hex_decode dh 32) as [pk ok1] eqn:D1. destruct (hex_decode th 64) as [tk ok2] eqn:D2.
    assert (ok1 = Some 32%nat /\ ok2 = Some 64%nat /\ exists k, parse_conditions c = Some k /\ d = mkDel pk c k tk) as (-> & -> & k & P & ->).
    { destruct (returned ok1 32) eqn:R1; [|discriminate]. destruct (returned ok2 64) eqn:R2; [|discriminate]. cbn [negb orb] in G.
      unfold returned in R1, R2. destruct ok1 as [n1|]; [|discriminate]. destruct ok2 as [n2|]; [|discriminate].
      apply Nat.eqb_eq in R1, R2. subst n1 n2.
      destruct (parse_conditions c) as [k|]; [|discriminate]. repeat split; auto. exists k. split; [reflexivity|congruence]. }
    exists [], dh, th, r, ts. cbn [d_conditions d_delegator d_token d_parsed]. repeat split; auto. }
  destruct X as (before & dh & th & extra & after & ET & FB & H1 & H2 & D1 & D2 & P).
  assert (HX : forall s n bytes, is_valid_hex s (2 * n) = true -> hex_decode s n = (bytes, Some n) -> hextext s bytes /\ length bytes = n).
  { intros s n bytes VH DH. unfold is_valid_hex in VH. apply andb_true_iff in VH. destruct VH as (LS & FA). apply Nat.eqb_eq in LS.
    destruct (all_hex_hextext s) as (l & HT).
    { rewrite LS, Nat.mul_comm. apply Nat.mod_mul. lia. }
    { apply Forall_forall. intros x I. apply (proj1 (forallb_forall _ _) FA) in I. destruct (hex_nibble x) as [v|] eqn:NB; [|discriminate].
      exists v. apply nibble_hexdig, NB. }
    assert (bytes = l).
    { unfold hex_decode in DH. destruct (_ || _) in DH; [discriminate|]. rewrite (hex_loop_ok _ _ HT) in DH. congruence. }
    subst l. split; [exact HT|]. pose proof (hextext_length _ _ HT). lia. }
  destruct (HX dh 32%nat _ H1 D1) as (HT1 & L1). destruct (HX th 64%nat _ H2 D2) as (HT2 & L2).
  unfold delegation_verify in V. destruct (delegation_hash sha (ev_pubkey e) (d_conditions d)) as [h| |] eqn:EH; [|discriminate|discriminate].
  cbn [bind] in V. destruct (negb (kp (d_delegator d))); [discriminate|]. destruct (vf (d_delegator d) h (d_token d)) eqn:W; [|discriminate].
  destruct (C37_text _ _ _ _ LP BP EH) as (t & T & ->).
  apply parse_conditions_iff in P. destruct P as (l & k & LO & _ & _ & PC). rewrite PC in H.
  apply check_ok_iff in H. unfold conds_of in H. cbn [k_kinds k_after k_before] in H. destruct H as (HK & HA & HB).
  exists before, dh, (d_conditions d), th, extra, after, (d_delegator d), (d_token d), l, k, t. repeat split; auto.
Qed.

(** Without the condition on earlier tags the read-back claim fails: only the
    first delegation tag is ever looked at, and the last added is the last. *)
Theorem C37_earlier_tag_refuted :
  ~ (forall sha pub sg vf sk pk conds rnd d e, signatures pub sg vf ->
      delegation_create sha pub sg sk pk conds rnd = Ok d -> ev_pubkey e = pk ->
      get_delegation (add_delegation e d) = Ok d).
Proof.
  intros H.
  pose (pub := fun _ : list N => Some (repeat 2 32)).
  pose (sg := fun (_ h _ : list N) => Some (repeat 3 64)).
  pose (vf := fun (p h t : list N) => beq h []).
  pose (sha := fun _ : list N => @nil N).
  assert (SG : signatures (fun _ => Some (repeat 2 32)) (fun _ h _ => if beq h [] then Some (repeat 3 64) else None) vf).
  { split.
    - intros sk pk E. assert (pk = repeat 2 32) by congruence. subst pk. split; [reflexivity|]. apply Forall_repeat. reflexivity.
    - intros sk h r t E. destruct (beq h []); [|discriminate]. assert (t = repeat 3 64) by congruence. subst t.
      split; [reflexivity|]. apply Forall_repeat. reflexivity.
    - intros sk pk h r t _ E. unfold vf. destruct (beq h []); [reflexivity|discriminate].
    - intros pk h h' t A B. unfold vf in *. apply beq_eq in A, B. congruence. }
  specialize (H sha _ _ vf [] (repeat 1 32) (bs "kind=1") (Some []) (mkDel (repeat 2 32) (bs "kind=1") (mkConds [1] None None) (repeat 3 64))
    (mkEvent [] (repeat 1 32) 0%Z 1 [[bs "delegation"; []; []; []]] None []) SG eq_refl eq_refl). discriminate.
Qed.

Example C37_meets : exists sha pub sg vf kp sk pk rnd d e, signatures pub sg vf /\ (forall k p, pub k = Some p -> kp p = true) /\
  delegation_create sha pub sg sk pk (bs "kind=1&created_at>5") rnd = Ok d /\
  Forall (fun t => ~ delegation_like t) (ev_tags e) /\ ev_pubkey e = pk /\
  event_verify_delegation sha vf kp (add_delegation e d) = Ok tt.
Proof.
  exists (fun x => firstn 1 x), (fun _ => Some (repeat 2 32)), (fun _ h _ => if beq h [110] then Some (repeat 3 64) else None),
    (fun p h t => beq h [110]), (fun p => beq p (repeat 2 32)), [], (repeat 1 32), (Some []),
    (mkDel (repeat 2 32) (bs "kind=1&created_at>5") (mkConds [1] (Some 5%Z) None) (repeat 3 64)),
    (mkEvent [] (repeat 1 32) 9%Z 1 [[bs "p"; bs "x"]] None []).
  split; [|split; [intros k p Q; assert (p = repeat 2 32) by congruence; subst p; reflexivity|split; [reflexivity|split; [|split; [reflexivity|vm_compute; reflexivity]]]]].
  - split.
    + intros sk pk E. assert (pk = repeat 2 32) by congruence. subst pk. split; [reflexivity|]. apply Forall_repeat. reflexivity.
    + intros sk h r t E. destruct (beq h [110]); [|discriminate]. assert (t = repeat 3 64) by congruence. subst t.
      split; [reflexivity|]. apply Forall_repeat. reflexivity.
    + intros sk pk h r t _ E. destruct (beq h [110]); [reflexivity|discriminate].
    + intros pk h h' t A B. apply beq_eq in A, B. congruence.
  - constructor; [|constructor]. intros (? & ? & ? & ? & Q). discriminate.
Qed.

(** Which refusal means what.  An event is reported as having no delegation exactly
    if it carries none; it is never refused but as invalid, for its delegator's key or for its signature. *)
Lemma get_refuses ts : (get_delegation_tags ts = Err ENotFound /\ Forall (fun x => ~ delegation_like x) ts) \/
  (~ Forall (fun x => ~ delegation_like x) ts /\ (get_delegation_tags ts = Err EInvalidEvent \/ exists d, get_delegation_tags ts = Ok d /\ (N.of_nat (length (d_conditions d)) <= 4096))).
Proof.
  induction ts as [|t ts IH]; cbn [get_delegation_tags]; [auto|].
  assert (SKIP : ~ delegation_like t -> (get_delegation_tags ts = Err ENotFound /\ Forall (fun x => ~ delegation_like x) (t :: ts)) \/
    (~ Forall (fun x => ~ delegation_like x) (t :: ts) /\ (get_delegation_tags ts = Err EInvalidEvent \/ exists d, get_delegation_tags ts = Ok d /\ (N.of_nat (length (d_conditions d)) <= 4096)))).
  { intros NL. destruct IH as [(E & F)|(F & R)]; [left; auto|]. right. split; [|exact R]. intros Q. apply F. exact (Forall_inv_tail Q). }
  destruct t as [|name [|dh [|c [|th x]]]]; try (apply SKIP; intros (? & ? & ? & ? & Q); discriminate Q).
  destruct (beq name (bs "delegation")) eqn:Q.
  2:{ apply SKIP. intros (? & ? & ? & ? & W). assert (name = bs "delegation") by congruence. subst name. rewrite (proj2 (beq_eq _ _) eq_refl) in Q. discriminate Q. }
  apply beq_eq in Q. subst name. right. split.
  { intros W. apply Forall_inv in W. apply W. do 4 eexists. reflexivity. }
  destruct (_ || (4096 <? N.of_nat (length c))) eqn:L; [auto|]. destruct (negb _ || negb _); [auto|]. destruct (hex_decode dh 32) as (pk & n1). destruct (hex_decode th 64) as (tk & n2). destruct (negb _ || negb _); [auto|].
  destruct (parse_conditions c); [|auto]. right. eexists. split; [reflexivity|]. cbn [d_conditions]. apply orb_false_iff in L. destruct L as (_ & L). apply N.ltb_ge in L. exact L.
Qed.
Theorem C37_refusals : forall sha vf kp e,
  (event_verify_delegation sha vf kp e = Err ENotFound <-> Forall (fun x => ~ delegation_like x) (ev_tags e)) /\
  (forall x, event_verify_delegation sha vf kp e = Err x -> x = ENotFound \/ x = EInvalidEvent \/ x = EInvalidKey \/ x = EInvalidSignature) /\
  event_verify_delegation sha vf kp e <> Undef /\
  (event_verify_delegation sha vf kp e = Err EInvalidSignature -> exists d, get_delegation e = Ok d /\ delegation_verify sha vf kp d (ev_pubkey e) = Err EInvalidSignature /\ kp (d_delegator d) = true) /\
  (event_verify_delegation sha vf kp e = Err EInvalidKey <-> exists d, get_delegation e = Ok d /\ kp (d_delegator d) = false).
Proof.
  intros sha vf kp e. unfold event_verify_delegation, get_delegation. destruct (get_refuses (ev_tags e)) as [(E & F)|(F & [E|(d & E & L)])]; rewrite E; cbn [bind].
  - split; [tauto|]. split; [intros x Q; assert (x = ENotFound) by congruence; auto|]. split; [discriminate|]. split; [discriminate|]. split; [discriminate|]. intros (d & Q & _). discriminate.
  - split; [split; [discriminate|tauto]|]. split; [intros x Q; assert (x = EInvalidEvent) by congruence; auto|]. split; [discriminate|]. split; [discriminate|]. split; [discriminate|]. intros (d & Q & _). discriminate.
  - unfold delegation_verify, delegation_hash. destruct (N.ltb_spec 4096 (N.of_nat (length (d_conditions d)))) as [G|G]; [lia|]. cbn [bind].
    destruct (kp (d_delegator d)) eqn:K; cbn [negb bind].
    + destruct (vf _ _ _) eqn:V; cbn [bind].
      * destruct (check_refuses (d_parsed d) (ev_kind e) (ev_created e)) as [-> | ->]; (split; [split; [discriminate|tauto]|]); (split; [|split; [discriminate|split; [discriminate|split; [discriminate|intros (d' & Q & Z); congruence]]]]); intros x Q; [discriminate Q|]. assert (x = EInvalidEvent) by congruence. auto.
      * split; [split; [discriminate|tauto]|]. split; [intros x Q; assert (x = EInvalidSignature) by congruence; auto|]. split; [discriminate|]. split; [|split; [discriminate|intros (d' & Q & Z); congruence]].
        intros _. exists d. split; [reflexivity|]. split; [|exact K]. apply N.ltb_ge in G. rewrite G. cbn [bind]. rewrite K, V. reflexivity.
    + split; [split; [discriminate|tauto]|]. split; [intros x Q; assert (x = EInvalidKey) by congruence; auto|]. split; [discriminate|]. split; [discriminate|]. split; [|reflexivity]. intros _. exists d. auto.
Qed.
(** Conditions of more than 4096 bytes, or unreadable ones, are an invalid parameter. *)
Theorem C37_create_refusals : forall sha pub sg vf kp sk pk conds rnd d, 4096 < N.of_nat (length conds) ->
  delegation_create sha pub sg sk pk conds rnd = Err EInvalidParam /\
  (d_conditions d = conds -> delegation_verify sha vf kp d pk = Err EInvalidParam).
Proof.
  intros sha pub sg vf kp sk pk conds rnd d L. apply N.ltb_lt in L. unfold delegation_create, delegation_verify, delegation_hash. rewrite L. split; [reflexivity|]. intros ->. rewrite L. reflexivity.
Qed.
(** Otherwise each error names the first thing that went wrong: the key, the random
    source, the signature, the conditions. *)
Theorem C37_create_reasons : forall sha pub sg sk pk conds rnd, N.of_nat (length conds) <= 4096 ->
  let r := delegation_create sha pub sg sk pk conds rnd in
  (r = Err EInvalidKey <-> pub sk = None) /\
  (r = Err EMemory <-> pub sk <> None /\ rnd = None) /\
  (r = Err EInvalidSignature <-> pub sk <> None /\ exists a, rnd = Some a /\ sg sk (sha (delegation_string pk conds)) a = None) /\
  (r = Err EInvalidParam <-> pub sk <> None /\ (exists a, rnd = Some a /\ sg sk (sha (delegation_string pk conds)) a <> None) /\ parse_conditions conds = None) /\
  (forall x, r = Err x -> In x [EInvalidKey; EMemory; EInvalidSignature; EInvalidParam]) /\ r <> Undef.
Proof.
  intros sha pub sg sk pk conds rnd L r. unfold r, delegation_create, delegation_hash. destruct (N.ltb_spec 4096 (N.of_nat (length conds))) as [G|_]; [lia|]. cbn [bind].
  destruct (pub sk) as [p|]; [|repeat split; try discriminate; try tauto; intros; try solve [decompose [and ex] H; congruence]; assert (x = EInvalidKey) by congruence; cbn; auto].
  destruct rnd as [a|]; [|repeat split; try discriminate; try tauto; intros; try solve [decompose [and ex] H; congruence]; assert (x = EMemory) by congruence; cbn; auto].
  destruct (sg sk _ a) as [t|] eqn:SG.
  - destruct (parse_conditions conds) as [c|]; repeat split; try discriminate; try tauto; intros; try solve [decompose [and ex] H; congruence]; [exists a; split; [reflexivity|congruence]|]. assert (x = EInvalidParam) by congruence; cbn; auto.
  - repeat split; try discriminate; try tauto; intros; try solve [decompose [and ex] H; congruence]; [exists a; split; [reflexivity|assumption]|]. assert (x = EInvalidSignature) by congruence; cbn; auto.
Qed.
Example C37_create_meets : delegation_create (fun x => x) (fun _ => Some (repeat 2 32)) (fun _ _ _ => Some (repeat 3 64)) (repeat 1 32) (repeat 4 32) (bs "kind=x") (Some (repeat 9 32)) = Err EInvalidParam.
Proof. vm_compute. reflexivity. Qed.
Example C37_refusals_meets : event_verify_delegation (fun x => x) (fun _ _ _ => false) (fun _ => true) (mkEvent [] (repeat 1 32) 9%Z 1 [[bs "p"; bs "x"]; [bs "delegation"; hex_encode (repeat 2 32); bs "kind=1"; hex_encode (repeat 3 64)]] None []) = Err EInvalidSignature.
Proof. vm_compute. reflexivity. Qed.

Print Assumptions C36_reads.
Print Assumptions C36_refuted.
Print Assumptions C36_exact_partial.
Print Assumptions C36_admits.
Print Assumptions C36_language.
Print Assumptions C36_strict_refuted.
Print Assumptions C37_text.
Print Assumptions C37_text_injective.
Print Assumptions C37_binding.
Print Assumptions C37_roundtrip.
Print Assumptions C37_event_sound.
Print Assumptions C37_earlier_tag_refuted.
Print Assumptions C37_refusals.
Print Assumptions C37_create_refusals.
Print Assumptions C37_create_reasons.
