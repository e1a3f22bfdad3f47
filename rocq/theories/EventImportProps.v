(** What an imported event holds, and which documents are imported: C21. *)
From Verif Require Import Base BaseFacts Dec Json Hex HexSpec HexProofs Event EventSpec EventProofs EventProps.
Open Scope N_scope.

(** ** The specification *)
(** [z] is the number m * 2^x with what is behind the point left away *)
Definition whole_part (m x z : Z) : Prop :=
  ((0 <= x)%Z /\ z = (m * 2 ^ x)%Z) \/
  ((x < 0)%Z /\ (Z.abs z * 2 ^ (- x) <= Z.abs m < (Z.abs z + 1) * 2 ^ (- x))%Z /\ (0 <= z * m)%Z).
(** [n] is the whole number [z] *)
Definition num_is (n : jnum) (z : Z) : Prop :=
  exists m x, n = JFin m x /\ (((0 <= x)%Z /\ z = (m * 2 ^ x)%Z) \/ ((x < 0)%Z /\ m = (z * 2 ^ (- x))%Z)).
(** the tags held after reading an array: entries that are no arrays
    and empty arrays are passed over, values that are no strings are empty *)
Inductive value_read : json -> list N -> Prop :=
| vr_str s : value_read (JStr s) s
| vr_other j : (forall s, j <> JStr s) -> value_read j [].
Inductive tags_read : list json -> list (list (list N)) -> Prop :=
| tr_nil : tags_read [] []
| tr_tag v l vs r ts : Forall2 value_read (v :: l) vs -> tags_read r ts -> tags_read (JArr (v :: l) :: r) (vs :: ts)
| tr_other j r ts : (forall v l, j <> JArr (v :: l)) -> tags_read r ts -> tags_read (j :: r) ts.
(** a document that states the event [e], in any order and with anything else in it *)
Record states (j : json) (e : event) : Prop := {
  st_id : exists s, jget (bs "id") j = Some (JStr s) /\ hextext s (ev_id e);
  st_pk : exists s, jget (bs "pubkey") j = Some (JStr s) /\ hextext s (ev_pubkey e);
  st_sig : exists s, jget (bs "sig") j = Some (JStr s) /\ hextext s (ev_sig e);
  st_created : exists n, jget (bs "created_at") j = Some (JNum n) /\ num_is n (ev_created e);
  st_kind : exists n, jget (bs "kind") j = Some (JNum n) /\ num_is n (Z.of_N (ev_kind e));
  st_content : exists s, jget (bs "content") j = Some (JStr s) /\ ev_content e = Some s;
  st_tags : jget (bs "tags") j = Some (JArr (map (fun vs => JArr (map JStr vs)) (ev_tags e))) }.
Definition sized (e : event) : Prop :=
  length (ev_id e) = 32%nat /\ length (ev_pubkey e) = 32%nat /\ length (ev_sig e) = 64%nat /\
  (- 2 ^ 63 <= ev_created e < 2 ^ 63)%Z /\ ev_kind e < 65536 /\ Forall (fun vs => vs <> []) (ev_tags e).

(** ** Lemmas *)
Lemma jtrunc_whole m x : whole_part m x (jtrunc m x).
Proof.
  unfold whole_part, jtrunc. destruct (Z.leb_spec 0 x) as [L|L]; [left; auto|right].
  assert (P : (0 < 2 ^ (- x))%Z) by (apply Z.pow_pos_nonneg; lia). set (d := (2 ^ (- x))%Z) in *. split; [assumption|].
  assert (A : Z.abs (Z.quot m d) = Z.quot (Z.abs m) d) by (rewrite <- Z.quot_abs by lia; f_equal; lia).
  rewrite A. rewrite Z.quot_div_nonneg by lia.
  pose proof (Z.div_mod (Z.abs m) d ltac:(lia)). pose proof (Z.mod_pos_bound (Z.abs m) d P). split; [nia|].
  destruct (Z.le_gt_cases 0 m) as [M|M].
  - pose proof (Z.quot_pos m d M P). nia.
  - assert (Z.quot m d <= 0)%Z; [|nia]. pose proof (Z.quot_pos (- m) d ltac:(lia) P). rewrite Z.quot_opp_l in * by lia. lia.
Qed.
Lemma whole_unique m x z z' : whole_part m x z -> whole_part m x z' -> z = z'.
Proof.
  intros [(L & ->)|(L & A & S)] [(L' & ->)|(L' & A' & S')]; try lia.
  assert (P : (0 < 2 ^ (- x))%Z) by (apply Z.pow_pos_nonneg; lia). set (d := (2 ^ (- x))%Z) in *.
  assert (E : Z.abs z = Z.abs z') by nia.
  destruct (Z.eq_dec z 0) as [->|N]; [lia|]. destruct (Z.eq_dec z z') as [|N']; [assumption|]. assert (z' = - z)%Z by lia. subst z'.
  assert (z * m = 0)%Z by lia. assert (m = 0)%Z by nia. subst m. nia.
Qed.
Lemma num_trunc m x z : num_is (JFin m x) z -> jtrunc m x = z.
Proof.
  intros (m' & x' & E & D). assert (m' = m) by congruence. assert (x' = x) by congruence. subst. unfold jtrunc.
  destruct D as [(L & ->)|(L & ->)].
  - destruct (Z.leb_spec 0 x); [reflexivity|lia].
  - destruct (Z.leb_spec 0 x); [lia|]. apply Z.quot_mul. assert (0 < 2 ^ (- x))%Z by (apply Z.pow_pos_nonneg; lia). lia.
Qed.
Lemma values_read l : Forall2 value_read l (map (fun v => match v with JStr s => s | _ => [] end) l).
Proof. induction l as [|v l IH]; cbn [map]; constructor; [|exact IH]. destruct v; constructor; intros; discriminate. Qed.
Lemma import_read l : tags_read l (import_tags l).
Proof.
  induction l as [|j r IH]; cbn [import_tags]; [constructor|].
  destruct j as [| | | |[|v l]|]; cbn [tag_values]; try (apply tr_other; [intros; discriminate|exact IH]). apply tr_tag; [apply (values_read (v :: l))|exact IH].
Qed.
Lemma hex_field_stated n f b : (exists s, f = Some (JStr s) /\ hextext s b) -> length b = n -> hex_field n f = Ok b.
Proof.
  intros (s & -> & H) L. unfold hex_field, hex_to_bytes. pose proof (hextext_length _ _ H). subst n.
  replace (length s =? length b * 2)%nat with true by (symmetry; apply Nat.eqb_eq; lia). cbn [negb]. rewrite (scan_bytes_hex _ _ H). reflexivity.
Qed.
Lemma import_whole ts : Forall (fun vs => vs <> []) ts -> import_tags (map (fun vs => JArr (map JStr vs)) ts) = ts.
Proof.
  induction 1 as [|vs r NE _ IH]; [reflexivity|]. cbn [map import_tags]. destruct vs as [|v vs]; [contradiction|]. cbn [map tag_values]. rewrite IH. do 2 f_equal.
  rewrite map_map. apply map_id.
Qed.

(** ** What an imported event holds *)
Theorem C21_holds : forall lim j e, event_from_tree lim j = Ok e ->
  match jget (bs "created_at") j with
  | Some (JNum n) => exists m x, n = JFin m x /\ whole_part m x (ev_created e)
  | _ => ev_created e = 0%Z
  end /\
  match jget (bs "content") j with Some (JStr s) => ev_content e = Some s | _ => ev_content e = None end /\
  match jget (bs "tags") j with Some (JArr l) => tags_read l (ev_tags e) | _ => ev_tags e = [] end.
Proof.
  intros lim j e H. unfold event_from_tree in H.
  apply bind_ok in H as (id & Hid & H). apply bind_ok in H as (pk & Hpk & H).
  apply bind_ok in H as (cr & Hcr & H). apply bind_ok in H as (ct & Hct & H).
  apply bind_ok in H as (tg & Htg & H). apply bind_ok in H as (sg & Hsg & H).
  match type of H with Ok ?x = _ => assert (HE : e = x) by congruence end.
  subst e. clear H Hid Hpk Hsg. cbn [ev_created ev_content ev_tags]. split; [|split].
  - destruct (jget (bs "created_at") j) as [[| |n| | |]|]; try congruence. unfold j_int64 in Hcr. destruct n as [m x| |]; try discriminate Hcr.
    exists m, x. split; [reflexivity|]. destruct ((- 2 ^ 63 <=? jtrunc m x)%Z && (jtrunc m x <? 2 ^ 63)%Z); [|discriminate Hcr].
    assert (cr = jtrunc m x) by congruence. subst. apply jtrunc_whole.
  - destruct (jget (bs "content") j) as [[| | |s| |]|]; try congruence. destruct lim as [l|]; [destruct (max_content l <? N.of_nat (length s)); [discriminate Hct|]|]; congruence.
  - destruct (jget (bs "tags") j) as [[| | | |l|]|]; try congruence.
    assert (tg = import_tags l) by (destruct lim as [m|]; [destruct (max_tags m <? N.of_nat (length l)); [discriminate Htg|]|]; congruence).
    subst. apply import_read.
Qed.

(** ** Which documents are imported *)
(** Every document that states an event is imported as that event, whatever
    else is in it, in any order and with any spelling of the hexadecimals. *)
Theorem C21_imports : forall lim j e, states j e -> sized e -> within_limits lim e -> event_from_tree lim j = Ok e.
Proof.
  intros lim j e S (L1 & L2 & L3 & T & K & NE) W. unfold event_from_tree.
  rewrite (hex_field_stated 32 _ _ (st_id _ _ S) L1). cbn [bind]. rewrite (hex_field_stated 32 _ _ (st_pk _ _ S) L2). cbn [bind].
  destruct (st_created _ _ S) as (n & -> & NC). destruct n as [m x| |]; try (destruct NC as (? & ? & C & _); discriminate C).
  unfold j_int64. rewrite (num_trunc _ _ _ NC).
  replace ((- 2 ^ 63 <=? ev_created e)%Z && (ev_created e <? 2 ^ 63)%Z) with true by (symmetry; apply andb_true_iff; split; [apply Z.leb_le|apply Z.ltb_lt]; lia).
  cbn [bind]. destruct (st_kind _ _ S) as (n & -> & NK). destruct n as [m' x'| |]; try (destruct NK as (? & ? & C & _); discriminate C).
  unfold j_int32. rewrite (num_trunc _ _ _ NK). cbv zeta.
  replace (2147483647 <=? Z.of_N (ev_kind e))%Z with false by (symmetry; apply Z.leb_gt; lia).
  replace (Z.of_N (ev_kind e) <=? -2147483648)%Z with false by (symmetry; apply Z.leb_gt; lia).
  rewrite Z.mod_small by lia. rewrite N2Z.id.
  destruct (st_content _ _ S) as (s & -> & EC). rewrite (st_tags _ _ S), (import_whole _ NE), map_length.
  assert (Q : content_of e = s) by (unfold content_of; rewrite EC; reflexivity).
  destruct lim as [l|]; cbn [within_limits] in W.
  - destruct W as (W1 & W2). rewrite Q in W1.
    replace (max_content l <? N.of_nat (length s)) with false by (symmetry; apply N.ltb_ge; lia).
    replace (max_tags l <? N.of_nat (length (ev_tags e))) with false by (symmetry; apply N.ltb_ge; lia).
    cbn [bind]. rewrite (hex_field_stated 64 _ _ (st_sig _ _ S) L3). cbn [bind]. rewrite <- EC. destruct e; reflexivity.
  - cbn [bind]. rewrite (hex_field_stated 64 _ _ (st_sig _ _ S) L3). cbn [bind]. rewrite <- EC. destruct e; reflexivity.
Qed.

(** What is refused, and what has no meaning.  [spelled n f]: the field, if it
    is a string, is read as [n] bytes. *)
Definition spelled (n : nat) (f : option json) : Prop := exists b, hex_field n f = Ok b.
Lemma spelled_dec n f : spelled n f \/ (hex_field n f = Err EInvalidEvent /\ exists s, f = Some (JStr s) /\ (forall b, length b = n -> ~ hextext s b)).
Proof.
  destruct (hex_field n f) as [b|x|] eqn:E; [left; exists b; exact E| |].
  - right. assert (f <> None) by (intros ->; discriminate E). unfold hex_field in E.
    destruct f as [[| | |s| |]|]; try discriminate E. destruct (hex_to_bytes s n) as [b|] eqn:H0; [discriminate E|]. split; [congruence|].
    exists s. split; [reflexivity|]. intros b L Hx. pose proof (hex_field_stated n (Some (JStr s)) b ltac:(eauto) L) as Q. unfold hex_field in Q. rewrite H0 in Q. discriminate Q.
  - exfalso. unfold hex_field in E. destruct f as [[| | |s| |]|]; try discriminate E. destruct (hex_to_bytes s n); discriminate E.
Qed.
Definition ill (n : nat) (f : option json) : Prop := exists s, f = Some (JStr s) /\ forall b, length b = n -> ~ hextext s b.
Theorem C21_refuses : forall lim j,
  match event_from_tree lim j with
  | Ok _ => True
  | Err x =>
      (x = EInvalidEvent /\ (ill 32 (jget (bs "id") j) \/ ill 32 (jget (bs "pubkey") j) \/ ill 64 (jget (bs "sig") j))) \/
      (x = EInvalidParam /\ exists m, lim = Some m /\
        ((exists s, jget (bs "content") j = Some (JStr s) /\ max_content m < N.of_nat (length s)) \/
         (exists l, jget (bs "tags") j = Some (JArr l) /\ max_tags m < N.of_nat (length l))))
  | Undef => exists n, jget (bs "created_at") j = Some (JNum n) /\ forall m x z, n = JFin m x -> whole_part m x z -> ~ (- 2 ^ 63 <= z < 2 ^ 63)%Z
  end.
Proof.
  intros lim j. unfold event_from_tree.
  destruct (spelled_dec 32 (jget (bs "id") j)) as [(i & ->)|(-> & I)]; cbn [bind]; [|left; auto].
  destruct (spelled_dec 32 (jget (bs "pubkey") j)) as [(p & ->)|(-> & I)]; cbn [bind]; [|left; auto].
  destruct (match jget (bs "created_at") j with Some (JNum n) => j_int64 n | _ => Ok 0%Z end) as [c|x|] eqn:EC; cbn [bind].
  2:{ exfalso. destruct (jget (bs "created_at") j) as [[| |n| | |]|]; try discriminate EC. unfold j_int64 in EC. destruct n; try discriminate EC. destruct (_ && _); discriminate EC. }
  2:{ destruct (jget (bs "created_at") j) as [[| |n| | |]|]; try discriminate EC. exists n. split; [reflexivity|]. intros m x z -> WP. rewrite (whole_unique _ _ _ _ WP (jtrunc_whole m x)). unfold j_int64 in EC.
      destruct ((- 2 ^ 63 <=? jtrunc m x)%Z && (jtrunc m x <? 2 ^ 63)%Z) eqn:R; [discriminate EC|]. intros (R1 & R2).
      apply Z.leb_le in R1. apply Z.ltb_lt in R2. rewrite R1, R2 in R. discriminate R. }
  clear EC. set (content := match jget (bs "content") j with Some (JStr s) => match lim with Some l => if max_content l <? N.of_nat (length s) then Err EInvalidParam else Ok (Some s) | None => Ok (Some s) end | _ => Ok None end).
  assert (DC : (exists o, content = Ok o) \/ (content = Err EInvalidParam /\ exists m, lim = Some m /\ exists s, jget (bs "content") j = Some (JStr s) /\ max_content m < N.of_nat (length s))).
  { unfold content. destruct (jget (bs "content") j) as [[| | |s| |]|]; eauto. destruct lim as [l|]; eauto.
    destruct (N.ltb_spec (max_content l) (N.of_nat (length s))); [right; split; [reflexivity|]; exists l; split; [reflexivity|]; exists s; auto|eauto]. }
  clearbody content. destruct DC as [(o & ->)|(-> & m & -> & s & E & G)]; cbn [bind]; [|right; split; [reflexivity|]; exists m; split; [reflexivity|]; left; exists s; auto].
  set (tags := match jget (bs "tags") j with Some (JArr l) => match lim with Some m => if max_tags m <? N.of_nat (length l) then Err EInvalidParam else Ok (import_tags l) | None => Ok (import_tags l) end | _ => Ok [] end).
  assert (DT : (exists o, tags = Ok o) \/ (tags = Err EInvalidParam /\ exists m, lim = Some m /\ exists l, jget (bs "tags") j = Some (JArr l) /\ max_tags m < N.of_nat (length l))).
  { unfold tags. destruct (jget (bs "tags") j) as [[| | | |l|]|]; eauto. destruct lim as [m|]; eauto.
    destruct (N.ltb_spec (max_tags m) (N.of_nat (length l))); [right; split; [reflexivity|]; exists m; split; [reflexivity|]; exists l; auto|eauto]. }
  clearbody tags. destruct DT as [(t & ->)|(-> & m & -> & l & E & G)]; cbn [bind]; [|right; split; [reflexivity|]; exists m; split; [reflexivity|]; right; exists l; auto].
  destruct (spelled_dec 64 (jget (bs "sig") j)) as [(g & ->)|(-> & I)]; cbn [bind]; [exact I|left; auto].
Qed.

(** A document with the fields in another order, an unknown field, upper case
    hexadecimals and numbers written with binary points. *)
Definition odd_doc : json :=
  JObj [(bs "x", JBool true); (bs "sig", JStr (repeat 65 128)); (bs "kind", JNum (JFin 14 (-1))); (bs "tags", JArr [JArr [JStr (bs "t"); JStr (bs "v")]; JArr [JStr []]]);
        (bs "content", JStr (bs "hi")); (bs "created_at", JNum (JFin 3 5)); (bs "pubkey", JStr (repeat 99 64)); (bs "id", JStr (repeat 48 64))].
Definition odd_event : event := mkEvent (repeat 0 32) (repeat 204 32) 96 7 [[bs "t"; bs "v"]; [[]]] (Some (bs "hi")) (repeat 170 64).
Lemma hextext_repeat c d n : hexdig c d -> hextext (repeat c (2 * n)) (repeat (d * 16 + d) n).
Proof. intros H. induction n as [|n IH]; [constructor|]. replace (2 * S n)%nat with (S (S (2 * n))) by lia. cbn [repeat]. constructor; assumption. Qed.
Example C21_meets : states odd_doc odd_event /\ sized odd_event /\ within_limits (Some (mkEvLimits 10 2)) odd_event /\
  event_from_tree (Some (mkEvLimits 10 2)) odd_doc = Ok odd_event.
Proof.
  assert (S : states odd_doc odd_event).
  { constructor; cbn [odd_event ev_id ev_pubkey ev_sig ev_created ev_kind ev_content ev_tags].
    - eexists. split; [reflexivity|]. apply (hextext_repeat 48 0 32). left; reflexivity.
    - eexists. split; [reflexivity|]. apply (hextext_repeat 99 12 32). left; reflexivity.
    - eexists. split; [reflexivity|]. apply (hextext_repeat 65 10 64). right; reflexivity.
    - eexists. split; [reflexivity|]. exists 3%Z, 5%Z. split; [reflexivity|]. left. lia.
    - eexists. split; [reflexivity|]. exists 14%Z, (-1)%Z. split; [reflexivity|]. right. cbn. lia.
    - eexists. split; reflexivity.
    - reflexivity. }
  assert (Z : sized odd_event) by (split; [reflexivity|]; split; [reflexivity|]; split; [reflexivity|]; cbn [odd_event ev_created ev_kind ev_tags]; split; [lia|]; split; [lia|]; repeat apply Forall_cons; try apply Forall_nil; discriminate). assert (W : within_limits (Some (mkEvLimits 10 2)) odd_event) by (cbn; lia).
  split; [exact S|]. split; [exact Z|]. split; [exact W|]. exact (C21_imports _ _ _ S Z W).
Qed.
Print Assumptions C21_holds.
Print Assumptions C21_imports.
Print Assumptions C21_refuses.
