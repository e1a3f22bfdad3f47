(** Property theorems C16, C17, C19, C20, C21 (events). *)
From Verif Require Import Base BaseFacts Dec Json Hex HexSpec HexProofs Event EventSpec EventProofs.
Open Scope N_scope.

(** A concrete event used in the examples. *)
Definition sample_event : event :=
  mkEvent (repeat 1 32) (repeat 171 32) 1700000000 1
    [[bs "e"; bs "a""b\c"]; [bs "t"; [1; 10; 200]; []]] (Some (bs "hello, world")) (repeat 2 64).

Lemma sample_event_ok : event_ok sample_event.
Proof.
  constructor; cbn [sample_event ev_id ev_pubkey ev_created ev_kind ev_tags ev_sig content_of ev_content].
  - split; [reflexivity|]. apply Forall_repeat. unfold byte_ok. lia.
  - split; [reflexivity|]. apply Forall_repeat. unfold byte_ok. lia.
  - lia.
  - lia.
  - repeat constructor; try discriminate; cbn; unfold char_ok; lia.
  - repeat constructor; cbn; unfold char_ok; lia.
  - split; [reflexivity|]. apply Forall_repeat. unfold byte_ok. lia.
Qed.

(** ** C16 *)
Theorem C16_serialization_injective : forall e e',
  event_ok e -> event_ok e' -> serialize_own e = serialize_own e' -> same_fields e e'.
Proof.
  intros e e' O O' E.
  apply serialize_inj in E as (E1 & E2 & E3 & E4 & E5); auto using dec_Z_chars.
  apply dec_Z_inj in E2. repeat split; assumption.
Qed.

(** Equal ids: same fields, or an explicit hash collision. *)
Theorem C16_same_id : forall sha256 e e',
  event_ok e -> event_ok e' ->
  ev_id (compute_id serialize_own sha256 e) = ev_id (compute_id serialize_own sha256 e') ->
  same_fields e e' \/ exists x y : list N, x <> y /\ sha256 x = sha256 y.
Proof.
  intros sha e e' O O' E. cbn [compute_id ev_id] in E.
  destruct (list_eq_dec N.eq_dec (serialize_own e) (serialize_own e')) as [S|S].
  - left. apply C16_serialization_injective; assumption.
  - right. eauto.
Qed.

(** The cJSON build prints created_at through a double: two events created a
    second apart share their serialization, hence their id. *)
Theorem C16_cjson_injective_refuted : forall fmt,
  exists e e', event_ok e /\ event_ok e' /\ ev_created e <> ev_created e' /\
    serialize_cjson fmt e = serialize_cjson fmt e'.
Proof.
  intros fmt.
  set (mk := fun t => mkEvent (repeat 1 32) (repeat 2 32) t 1 [] None (repeat 3 64)).
  assert (O : forall t, (- 2 ^ 63 <= t < 2 ^ 63)%Z -> event_ok (mk t)).
  { intros t H. constructor; cbn [mk ev_id ev_pubkey ev_created ev_kind ev_tags ev_sig content_of ev_content];
      try (split; [reflexivity|apply Forall_repeat; unfold byte_ok; lia]); try lia; constructor. }
  exists (mk (2 ^ 53)%Z), (mk (2 ^ 53 + 1)%Z).
  split; [apply O; lia|]. split; [apply O; lia|].
  split; [discriminate|]. unfold serialize_cjson, serialize_with. reflexivity.
Qed.

(** With creation times below 10^15 (where cJSON prints the decimal digits)
    the cJSON build is injective too. *)
Theorem C16_cjson_injective_partial : forall fmt,
  (forall z, (Z.abs z < 10 ^ 15)%Z -> fmt z = dec_Z z) ->
  forall e e', event_ok e -> event_ok e' ->
  (Z.abs (ev_created e) < 10 ^ 15)%Z -> (Z.abs (ev_created e') < 10 ^ 15)%Z ->
  serialize_cjson fmt e = serialize_cjson fmt e' -> same_fields e e'.
Proof.
  intros fmt Hf e e' O O' H H' E. unfold serialize_cjson in E.
  assert (R : round53 (ev_created e) = ev_created e) by (apply round53_small; lia).
  assert (R' : round53 (ev_created e') = ev_created e') by (apply round53_small; lia).
  apply serialize_inj in E as (E1 & E2 & E3 & E4 & E5); try assumption;
    cbv beta in *; rewrite ?R, ?R', ?Hf in * by assumption; try apply dec_Z_chars.
  apply dec_Z_inj in E2. repeat split; assumption.
Qed.

(** A tag value with quotes or commas cannot imitate two values. *)
Example C16_case :
  serialize_own (mkEvent [] [] 0 1 [[bs "a"; bs "b"]] None []) <>
  serialize_own (mkEvent [] [] 0 1 [[bs "a"",""b"]] None []).
Proof. vm_compute. discriminate. Qed.

(** ** C17 *)
Section C17.
Variable num : Z -> list N.
Variable sha256 : list N -> list N.
Variable pubkey_of : list N -> option (list N).
Variable schnorr_sign : list N -> list N -> list N -> option (list N).
Variable schnorr_verify : list N -> list N -> list N -> bool.
Variable pubkey_parses : list N -> bool.
Hypothesis sha_len : forall x, length (sha256 x) = 32%nat.

Let ser := serialize_with num.

Theorem C17_verify_exact : forall parse e, length (ev_id e) = 32%nat ->
  (event_verify ser sha256 schnorr_verify pubkey_parses parse e = Ok tt <->
   ev_id e = sha256 (ser e) /\ (parse = true -> pubkey_parses (ev_pubkey e) = true) /\
   schnorr_verify (ev_pubkey e) (ev_id e) (ev_sig e) = true) /\
  event_verify ser sha256 schnorr_verify pubkey_parses parse e <> Undef.
Proof.
  intros parse e L. unfold event_verify. cbn [compute_id ev_id].
  destruct (memcmp_loop_spec 32 (ev_id e) (sha256 (ser e)) 0 0) as (d & E & D);
    [rewrite L; lia|rewrite sha_len; lia|].
  unfold constant_time_memcmp. rewrite E. cbn [bind fst].
  rewrite !firstn_all2 in D by (rewrite ?L, ?sha_len; lia).
  destruct (N.eqb_spec d 0) as [Z|Z]; cbn [negb].
  - destruct D as (D & _). specialize (D Z). destruct D as (_ & D).
    destruct parse, (pubkey_parses (ev_pubkey e)); cbn [andb negb];
      destruct (schnorr_verify _ _ _) eqn:V; (split; [|discriminate]); split; intros H;
      try discriminate; try (destruct H as (_ & H1 & H2); try discriminate; specialize (H1 eq_refl); discriminate);
      auto.
  - split; [|discriminate]. split; [discriminate|]. intros (H & _). exfalso. apply Z, D. auto.
Qed.

Theorem C17_sign_then_verify : forall parse e sk pk rnd e',
  pubkey_of sk = Some pk -> pubkey_parses pk = true ->
  (forall r d s, schnorr_sign sk r d = Some s -> schnorr_verify pk d s = true) ->
  event_sign ser sha256 pubkey_of schnorr_sign e sk rnd = (e', Ok tt) ->
  event_verify ser sha256 schnorr_verify pubkey_parses parse e' = Ok tt /\
  ev_pubkey e' = pk /\ ev_id e' = sha256 (ser e') /\
  ev_created e' = ev_created e /\ ev_kind e' = ev_kind e /\ ev_tags e' = ev_tags e /\
  ev_content e' = ev_content e.
Proof.
  intros parse e sk pk rnd e' P PP C E. unfold event_sign in E. rewrite P in E.
  destruct rnd as [r|]; [|discriminate].
  destruct (schnorr_sign sk r _) as [s|] eqn:S; [|discriminate]. injection E as <-.
  split; [|repeat split].
  apply C17_verify_exact; [cbn; apply sha_len|].
  split; [reflexivity|]. split; [intros _; exact PP|]. cbn [set_sig compute_id set_pubkey ev_pubkey ev_id ev_sig].
  eapply C. exact S.
Qed.

End C17.

(** Any change of a signed field of a verified event is detected, unless it
    comes with a hash collision (build without cJSON). *)
Theorem C17_tamper_detected : forall sha256 schnorr_verify pubkey_parses parse e e',
  (forall x, length (sha256 x) = 32%nat) -> event_ok e -> event_ok e' ->
  ev_id e' = ev_id e ->
  event_verify serialize_own sha256 schnorr_verify pubkey_parses parse e = Ok tt ->
  event_verify serialize_own sha256 schnorr_verify pubkey_parses parse e' = Ok tt ->
  same_fields e e' \/ exists x y : list N, x <> y /\ sha256 x = sha256 y.
Proof.
  intros sha sv pp parse e e' SL O O' I V V'.
  pose proof (proj1 (eo_id _ O)) as L. pose proof (proj1 (eo_id _ O')) as L'.
  apply (C17_verify_exact dec_Z sha sv pp SL parse e L) in V.
  apply (C17_verify_exact dec_Z sha sv pp SL parse e' L') in V'.
  destruct V as (V & _). destruct V' as (V' & _).
  apply (C16_same_id sha); [exact O|exact O'|]. cbn [compute_id ev_id]. unfold serialize_own. congruence.
Qed.

(** The hypotheses can be met (toy oracles) and a verified event is rejected
    after its content changes. *)
Example C17_case :
  let sha := fun x => repeat (N.of_nat (length x)) 32 in
  let sv := fun pk d s => beq s d in
  let signed := fst (event_sign serialize_own sha (fun _ => Some (repeat 9 32)) (fun _ _ d => Some d)
                       sample_event [] (Some [])) in
  event_verify serialize_own sha sv (fun _ => true) true signed = Ok tt /\
  event_verify serialize_own sha sv (fun _ => true) true
    (mkEvent (ev_id signed) (ev_pubkey signed) (ev_created signed) (ev_kind signed) (ev_tags signed)
       (Some (bs "hello")) (ev_sig signed)) = Err EInvalidEvent.
Proof. vm_compute. auto. Qed.

(** ** C19 *)

(** Full statement (false): 600 tags holding one empty string each. *)
Theorem C19_buffer_refuted :
  exists e, event_ok e /\ (length (ev_tags e) <= 1000)%nat /\ serialize_buffer e = Undef.
Proof.
  exists (mkEvent (repeat 1 32) (repeat 2 32) 1700000000 1 (repeat [[]] 600) None (repeat 3 64)).
  split; [|split].
  - constructor; cbn [ev_id ev_pubkey ev_created ev_kind ev_tags ev_sig content_of ev_content];
      try (split; [reflexivity|apply Forall_repeat; unfold byte_ok; lia]); try lia; [|constructor].
    apply Forall_repeat. split; [discriminate|]. repeat constructor.
  - cbn [ev_tags]. rewrite repeat_length. lia.
  - vm_compute. reflexivity.
Qed.

(** With at most 408 one-value tags (any number of longer ones) the text fits
    and is exactly the canonical serialization. *)
Theorem C19_buffer_partial : forall e, event_ok e -> (single_value_tags e <= 408)%nat ->
  serialize_buffer e = Ok (serialize_own e) /\
  N.of_nat (length (serialize_own e)) < json_size e.
Proof.
  intros e O H. pose proof (serialize_own_length e O).
  assert (N.of_nat (length (serialize_own e)) < json_size e) by lia.
  split; [|assumption]. unfold serialize_buffer.
  rewrite run_writes_fit by (rewrite serialize_ops_text; lia).
  rewrite serialize_ops_text. reflexivity.
Qed.

Example C19_case : event_ok sample_event /\ (single_value_tags sample_event <= 408)%nat /\
  serialize_buffer sample_event = Ok (serialize_own sample_event).
Proof.
  split; [apply sample_event_ok|]. split; [cbn; lia|].
  apply C19_buffer_partial; [apply sample_event_ok|cbn; lia].
Qed.

(** ** C20 *)
Definition within_limits (lim : option ev_limits) (e : event) : Prop :=
  match lim with
  | None => True
  | Some l => N.of_nat (length (content_of e)) <= max_content l /\
              N.of_nat (length (ev_tags e)) <= max_tags l
  end.

Theorem C20_json_roundtrip : forall print parse lim e,
  (forall t, t = event_to_tree e -> parse (print t) = Some t) ->
  event_ok e -> (Z.abs (ev_created e) <= 2 ^ 53)%Z -> within_limits lim e ->
  event_from_json parse lim (event_to_json print e) =
  Ok (mkEvent (ev_id e) (ev_pubkey e) (ev_created e) (ev_kind e) (ev_tags e) (Some (content_of e)) (ev_sig e)).
Proof.
  intros print parse lim e LIB O T W. unfold event_from_json, event_to_json.
  rewrite LIB by reflexivity. clear LIB. unfold event_from_tree.
  set (j := event_to_tree e).
  change (jget (bs "id") j) with (Some (JStr (hex_encode (ev_id e)))).
  change (jget (bs "pubkey") j) with (Some (JStr (hex_encode (ev_pubkey e)))).
  change (jget (bs "created_at") j) with (Some (jint (ev_created e))).
  change (jget (bs "kind") j) with (Some (jint (Z.of_N (ev_kind e)))).
  change (jget (bs "content") j) with (Some (JStr (content_of e))).
  change (jget (bs "tags") j) with (Some (JArr (map (fun vs => JArr (map JStr vs)) (ev_tags e)))).
  change (jget (bs "sig") j) with (Some (JStr (hex_encode (ev_sig e)))).
  rewrite !hex_field_encode by (apply O). cbn [bind].
  unfold jint. rewrite round53_max by exact T.
  pose proof (eo_kind _ O) as K. pose proof (eo_created _ O) as CR.
  rewrite round53_max by (change (2 ^ 53)%Z with 9007199254740992%Z; lia).
  unfold j_int64, j_int32, jtrunc. change (0 <=? 0)%Z with true. cbv iota.
  change (2 ^ 0)%Z with 1%Z. rewrite !Z.mul_1_r.
  replace ((- 2 ^ 63 <=? ev_created e)%Z && (ev_created e <? 2 ^ 63)%Z) with true
    by (symmetry; apply andb_true_iff; split; [apply Z.leb_le|apply Z.ltb_lt]; lia).
  cbn [bind].
  replace (2147483647 <=? Z.of_N (ev_kind e))%Z with false by (symmetry; apply Z.leb_gt; lia).
  replace (Z.of_N (ev_kind e) <=? -2147483648)%Z with false by (symmetry; apply Z.leb_gt; lia).
  rewrite Z.mod_small by lia. rewrite N2Z.id.
  assert (IT : import_tags (map (fun vs => JArr (map JStr vs)) (ev_tags e)) = ev_tags e).
  { apply import_tags_map. eapply Forall_impl; [|apply (eo_tags _ O)]. intros vs (H & _). exact H. }
  rewrite IT, map_length.
  destruct lim as [l|]; cbn [within_limits] in W.
  - destruct W as (W1 & W2).
    replace (max_content l <? N.of_nat (length (content_of e))) with false
      by (symmetry; apply N.ltb_ge; lia).
    replace (max_tags l <? N.of_nat (length (ev_tags e))) with false
      by (symmetry; apply N.ltb_ge; lia).
    reflexivity.
  - reflexivity.
Qed.

Example C20_case :
  event_ok sample_event /\ (Z.abs (ev_created sample_event) <= 2 ^ 53)%Z /\
  within_limits (Some (mkEvLimits 65536 100)) sample_event /\
  event_from_tree (Some (mkEvLimits 65536 100)) (event_to_tree sample_event) = Ok sample_event.
Proof.
  split; [apply sample_event_ok|]. split; [cbn; lia|]. split; [cbn; lia|]. vm_compute. reflexivity.
Qed.

(** ** C21 *)

(** Full statement (false): the empty object is imported; so is kind 65537 (as
    kind 1), an id spelled with blanks, and a too large created_at is cast
    with undefined behaviour. *)
Theorem C21_import_strict_refuted :
  ~ (forall lim j e, event_from_tree lim j = Ok e ->
       json_is_hex 32 (jget (bs "id") j) /\ json_is_hex 32 (jget (bs "pubkey") j) /\
       json_is_hex 64 (jget (bs "sig") j) /\ json_kind (jget (bs "kind") j) (ev_kind e)) /\
  (exists e, event_from_tree None (JObj [(bs "kind", JNum (JFin 65537 0))]) = Ok e /\ ev_kind e = 1) /\
  (exists e s, event_from_tree None (JObj [(bs "id", JStr s)]) = Ok e /\ length s = 64%nat /\ ~ all_hex s) /\
  event_from_tree None (JObj [(bs "created_at", JNum (JFin 1 1000))]) = Undef.
Proof.
  split; [|split; [|split]].
  - intros H. destruct (H None (JObj []) _ eq_refl) as ((s & E & _) & _). discriminate.
  - eexists. split; [vm_compute; reflexivity|]. reflexivity.
  - eexists _, (32 :: 49 :: repeat 48 62). split; [vm_compute; reflexivity|]. split; [reflexivity|].
    intros A. inversion A as [|? ? (d & D) ?]; subst. apply hexdig_cases in D. lia.
  - vm_compute. reflexivity.
Qed.

(** What an accepted import does guarantee. *)
Definition field_faithful (n : nat) (j : option json) (b : list N) : Prop :=
  length b = n /\
  (forall s, j = Some (JStr s) -> length s = (n * 2)%nat /\ (all_hex s -> hextext s b)) /\
  ((forall s, j <> Some (JStr s)) -> b = repeat 0 n).

Lemma hex_field_faithful n j b : hex_field n j = Ok b -> field_faithful n j b.
Proof.
  unfold hex_field, field_faithful. intros H.
  assert (D : (exists s, j = Some (JStr s)) \/ (forall s, j <> Some (JStr s))).
  { destruct j as [[]|]; try (right; intros; discriminate). left; eauto. }
  destruct D as [(s & ->)|D].
  - unfold hex_to_bytes in H. destruct (Nat.eqb_spec (length s) (n * 2)); cbn [negb] in H; [|discriminate].
    destruct (scan_bytes n s) as [b'|] eqn:S; [|discriminate]. injection H as ->.
    pose proof (scan_bytes_length _ _ _ S) as L. split; [exact L|]. split.
    + intros s' E. injection E as <-. split; [assumption|]. intros A.
      destruct (all_hex_hextext s) as (l & Hl); [|exact A|].
      { rewrite e. apply Nat.mod_mul. lia. }
      assert (length l = n) by (apply hextext_length in Hl; lia).
      pose proof (scan_bytes_hex _ _ Hl) as S'. rewrite H in S'. congruence.
    + intros G. exfalso. eapply G. reflexivity.
  - assert (b = repeat 0 n).
    { destruct j as [[]|]; try (injection H as <-; reflexivity). exfalso. eapply D. reflexivity. }
    subst. split; [apply repeat_length|]. split; [intros s E; exfalso; eapply D; exact E|auto].
Qed.

Theorem C21_import_partial : forall lim j e, event_from_tree lim j = Ok e ->
  field_faithful 32 (jget (bs "id") j) (ev_id e) /\
  field_faithful 32 (jget (bs "pubkey") j) (ev_pubkey e) /\
  field_faithful 64 (jget (bs "sig") j) (ev_sig e) /\
  ev_kind e < 65536 /\
  (forall k, jget (bs "kind") j = Some (JNum (JFin (Z.of_N k) 0)) -> k < 65536 -> ev_kind e = k) /\
  (- 2 ^ 63 <= ev_created e < 2 ^ 63)%Z /\
  within_limits lim e.
Proof.
  intros lim j e H. unfold event_from_tree in H.
  apply bind_ok in H as (id & Hid & H). apply bind_ok in H as (pk & Hpk & H).
  apply bind_ok in H as (cr & Hcr & H). apply bind_ok in H as (ct & Hct & H).
  apply bind_ok in H as (tg & Htg & H). apply bind_ok in H as (sg & Hsg & H).
  match type of H with Ok ?x = _ => assert (HE : e = x) by congruence end.
  subst e. clear H. cbn [ev_id ev_pubkey ev_sig ev_kind ev_created].
  split; [apply hex_field_faithful, Hid|]. split; [apply hex_field_faithful, Hpk|].
  split; [apply hex_field_faithful, Hsg|].
  split.
  { destruct (jget (bs "kind") j) as [[| |jn| | |]|]; cbv beta iota; try exact eq_refl.
    pose proof (Z.mod_pos_bound (j_int32 jn) 65536 ltac:(lia)). lia. }
  split.
  { intros k E K. rewrite E. unfold j_int32, jtrunc. change (0 <=? 0)%Z with true. cbv iota.
    change (2 ^ 0)%Z with 1%Z. rewrite Z.mul_1_r.
    replace (2147483647 <=? Z.of_N k)%Z with false by (symmetry; apply Z.leb_gt; lia).
    replace (Z.of_N k <=? -2147483648)%Z with false by (symmetry; apply Z.leb_gt; lia).
    rewrite Z.mod_small by lia. apply N2Z.id. }
  split.
  { destruct (jget (bs "created_at") j) as [[| |jn| | |]|]; try (injection Hcr as <-; lia).
    unfold j_int64 in Hcr. destruct jn as [jm je| |]; try discriminate.
    destruct ((- 2 ^ 63 <=? jtrunc jm je)%Z && (jtrunc jm je <? 2 ^ 63)%Z) eqn:R; [|discriminate].
    injection Hcr as <-. apply andb_true_iff in R as (R1 & R2).
    apply Z.leb_le in R1. apply Z.ltb_lt in R2. lia. }
  destruct lim as [l|]; [|exact I]. cbn [within_limits content_of ev_content ev_tags]. split.
  - destruct (jget (bs "content") j) as [[| | |cs| |]|]; try (injection Hct as <-; cbn; lia).
    destruct (N.ltb_spec (max_content l) (N.of_nat (length cs))); [discriminate|].
    injection Hct as <-. assumption.
  - destruct (jget (bs "tags") j) as [[| | | |l0|]|]; try (injection Htg as <-; cbn; lia).
    destruct (N.ltb_spec (max_tags l) (N.of_nat (length l0))); [discriminate|].
    injection Htg as <-.
    assert (length (import_tags l0) <= length l0)%nat; [|lia].
    clear. induction l0 as [|x l IH]; [cbn; lia|]. cbn [import_tags].
    destruct (tag_values x); cbn [length]; lia.
Qed.

Example C21_case : exists e, event_from_tree None (event_to_tree sample_event) = Ok e /\ ev_kind e = 1.
Proof. eexists. split; [vm_compute; reflexivity|reflexivity]. Qed.

Print Assumptions C16_serialization_injective.
Print Assumptions C16_same_id.
Print Assumptions C16_cjson_injective_refuted.
Print Assumptions C16_cjson_injective_partial.
Print Assumptions C17_verify_exact.
Print Assumptions C17_sign_then_verify.
Print Assumptions C17_tamper_detected.
Print Assumptions C19_buffer_refuted.
Print Assumptions C19_buffer_partial.
Print Assumptions C20_json_roundtrip.
Print Assumptions C21_import_strict_refuted.
Print Assumptions C21_import_partial.
