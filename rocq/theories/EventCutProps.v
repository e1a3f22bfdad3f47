(** What the id of the build without cJSON covers: C154. *)
From Verif Require Import Base BaseFacts Dec Hex HexProofs Event EventSpec EventProofs EventIdSpec EventProps EventIdProps EventCut.
Open Scope N_scope.

Lemma beyond size pos out ops : size <= pos -> ops <> [] -> run_writes size pos out ops = Undef.
Proof.
  intros L NE. destruct ops as [|[c|s] ops]; [congruence|cbn [run_writes]..].
  - replace (pos <? size) with false by (symmetry; apply N.ltb_ge; lia). reflexivity.
  - replace (size <=? pos) with true by (symmetry; apply N.leb_le; lia). reflexivity.
Qed.
Lemma run_last s ops : forall size pos out, run_writes size pos out (ops ++ [Fmt s]) =
  if pos + N.of_nat (length (ops_text ops)) <? size then Ok (out ++ firstn (N.to_nat (size - 1 - pos)) (ops_text ops ++ s)) else Undef.
Proof.
  assert (NE : forall l : list wop, l ++ [Fmt s] <> []) by (intros l E; apply app_eq_nil in E as (_ & E); discriminate).
  induction ops as [|[c|t] ops IH]; intros size pos out.
  - cbn [app run_writes ops_text flat_map length]. destruct (N.leb_spec size pos) as [L|L].
    + replace (pos + N.of_nat 0 <? size) with false by (symmetry; apply N.ltb_ge; lia). reflexivity.
    + replace (pos + N.of_nat 0 <? size) with true by (symmetry; apply N.ltb_lt; lia). destruct (N.ltb_spec (pos + N.of_nat (length s)) size) as [F|F].
      * rewrite firstn_all2 by lia. reflexivity.
      * replace (size - pos - 1) with (size - 1 - pos) by lia. reflexivity.
  - change (ops_text (Put c :: ops)) with (c :: ops_text ops). cbn [app run_writes length]. destruct (N.ltb_spec pos size) as [L|L].
    + rewrite IH. replace (pos + N.of_nat (S (length (ops_text ops)))) with (pos + 1 + N.of_nat (length (ops_text ops))) by lia.
      destruct (N.ltb_spec (pos + 1 + N.of_nat (length (ops_text ops))) size) as [F|F]; [|reflexivity].
      replace (N.to_nat (size - 1 - pos)) with (S (N.to_nat (size - 1 - (pos + 1)))) by lia. cbn [firstn]. rewrite <- app_assoc. reflexivity.
    + replace (pos + N.of_nat (S (length (ops_text ops))) <? size) with false by (symmetry; apply N.ltb_ge; lia). reflexivity.
  - change (ops_text (Fmt t :: ops)) with (t ++ ops_text ops). rewrite app_length. cbn [app run_writes]. destruct (N.leb_spec size pos) as [L|L].
    { replace (pos + N.of_nat (length t + length (ops_text ops)) <? size) with false by (symmetry; apply N.ltb_ge; lia). reflexivity. }
    destruct (N.ltb_spec (pos + N.of_nat (length t)) size) as [F|F].
    + rewrite IH. replace (pos + N.of_nat (length t + length (ops_text ops))) with (pos + N.of_nat (length t) + N.of_nat (length (ops_text ops))) by lia.
      destruct (N.ltb_spec (pos + N.of_nat (length t) + N.of_nat (length (ops_text ops))) size) as [G|G]; [|reflexivity].
      rewrite <- app_assoc. do 2 f_equal. rewrite <- app_assoc. rewrite (firstn_app (N.to_nat (size - 1 - pos)) t), (firstn_all2 t) by lia. do 2 f_equal. lia.
    + rewrite beyond by (try apply NE; lia). replace (pos + N.of_nat (length t + length (ops_text ops)) <? size) with false by (symmetry; apply N.ltb_ge; lia). reflexivity.
Qed.

(** The text that is hashed, for every event: the canonical text cut to the buffer;
    undefined if already the tags do not fit. *)
Theorem C154_text : forall e,
  let head := (length (serialize_own e) - (length (escape_json (content_of e)) + 5))%nat in
  serialize_buffer e = if N.of_nat head <? json_size e then Ok (firstn (N.to_nat (json_size e - 1)) (serialize_own e)) else Undef.
Proof.
  intros e head. unfold serialize_buffer, serialize_ops. rewrite app_assoc. rewrite run_last.
  match goal with |- context [ops_text ?o ++ ?s] => assert (E : ops_text o ++ s = serialize_own e) by (rewrite <- serialize_ops_text; unfold serialize_ops; rewrite (app_assoc _ (tag_ops true (ev_tags e))); unfold ops_text; rewrite (flat_map_app _ _ [Fmt s]); cbn [flat_map op_text]; rewrite app_nil_r; reflexivity); assert (L : length (ops_text o) = head) end.
  { unfold head. rewrite <- E. rewrite (app_length _ ([93; 44] ++ quote (content_of e) ++ [93])). unfold quote. rewrite !app_length. cbn [length]. lia. }
  rewrite E, L. replace (json_size e - 1 - 0) with (json_size e - 1) by lia. reflexivity.
Qed.

(** Whatever is signed verifies: both cut in the same way. *)
Theorem C154_signed : forall sha256 pubkey_of schnorr_sign schnorr_verify pubkey_parses parse e sk pk rnd e',
  (forall x, length (sha256 x) = 32%nat) -> pubkey_of sk = Some pk -> pubkey_parses pk = true ->
  (forall r d s, schnorr_sign sk r d = Some s -> schnorr_verify pk d s = true) ->
  own_sign sha256 pubkey_of schnorr_sign e sk rnd = (e', Ok tt) ->
  own_verify sha256 schnorr_verify pubkey_parses parse e' = Ok tt /\ own_id sha256 e' = Ok (ev_id e') /\
  ev_pubkey e' = pk /\ ev_created e' = ev_created e /\ ev_kind e' = ev_kind e /\ ev_tags e' = ev_tags e /\ ev_content e' = ev_content e.
Proof.
  intros sha po sign verify parses parse e sk pk rnd e' SL PK PP SV E. unfold own_sign in E. rewrite PK in E. destruct (serialize_buffer (set_pubkey e pk)) as [t|x|] eqn:T; [|congruence..].
  unfold event_sign in E. rewrite PK in E. cbn [compute_id ev_id set_pubkey] in E. destruct rnd as [r|]; [|congruence]. destruct (sign sk r (sha t)) as [sg|] eqn:SG; [|congruence].
  match type of E with (?a, _) = _ => assert (Q : e' = a) by congruence end. clear E.
  assert (T' : serialize_buffer e' = Ok t) by (rewrite Q, <- T; reflexivity).
  split.
  { unfold own_verify. rewrite T'. cbn [bind]. unfold event_verify. cbn [compute_id ev_id]. rewrite Q. cbn [set_sig compute_id set_pubkey ev_id ev_pubkey ev_sig].
    destruct (memcmp_loop_spec 32 (sha t) (sha t) 0 0) as (d & E & D); [rewrite SL; lia..|]. unfold constant_time_memcmp. rewrite E. cbn [bind fst]. replace d with 0 by (symmetry; apply D; split; reflexivity). cbn [N.eqb negb]. rewrite PP. cbn [negb andb]. rewrite andb_false_r, (SV _ _ _ SG). reflexivity. }
  split; [unfold own_id; rewrite T', Q; reflexivity|]. rewrite Q. repeat split.
Qed.

(** Within 408 one-value tags a changed event is refused (or the hash is broken). *)
Theorem C154_tamper_partial : forall sha256 schnorr_verify pubkey_parses parse e e',
  (forall x, length (sha256 x) = 32%nat) -> event_ok e -> event_ok e' -> (single_value_tags e <= 408)%nat -> (single_value_tags e' <= 408)%nat ->
  ev_id e' = ev_id e ->
  own_verify sha256 schnorr_verify pubkey_parses parse e = Ok tt ->
  own_verify sha256 schnorr_verify pubkey_parses parse e' = Ok tt ->
  same_fields e e' \/ exists x y : list N, x <> y /\ sha256 x = sha256 y.
Proof.
  intros sha sv pp parse e e' SL O O' T T' I V V'. unfold own_verify in *. rewrite (proj1 (C19_buffer_partial e O T)) in V. rewrite (proj1 (C19_buffer_partial e' O' T')) in V'. cbn [bind] in V, V'.
  exact (C17_tamper_detected sha sv pp parse e e' SL O O' I V V').
Qed.

(** The same for the build with cJSON, for times of up to 15 digits. *)
Theorem C154_cjson_partial : forall fmt sha256 schnorr_verify pubkey_parses parse e e',
  (forall z, (Z.abs z < 10 ^ 15)%Z -> fmt z = dec_Z z) ->
  (forall x, length (sha256 x) = 32%nat) -> event_ok e -> event_ok e' -> (Z.abs (ev_created e) < 10 ^ 15)%Z -> (Z.abs (ev_created e') < 10 ^ 15)%Z ->
  ev_id e' = ev_id e ->
  event_verify (serialize_cjson fmt) sha256 schnorr_verify pubkey_parses parse e = Ok tt ->
  event_verify (serialize_cjson fmt) sha256 schnorr_verify pubkey_parses parse e' = Ok tt ->
  same_fields e e' \/ exists x y : list N, x <> y /\ sha256 x = sha256 y.
Proof.
  intros fmt sha sv pp parse e e' F SL O O' T T' I V V'. pose proof (proj1 (eo_id _ O)) as L. pose proof (proj1 (eo_id _ O')) as L'.
  unfold serialize_cjson in V, V'. apply (proj1 (C17_verify_exact _ sha sv pp SL parse e L)) in V as (V & _). apply (proj1 (C17_verify_exact _ sha sv pp SL parse e' L')) in V' as (V' & _).
  destruct (list_eq_dec N.eq_dec (serialize_cjson fmt e) (serialize_cjson fmt e')) as [Q|Q]; [left; exact (C16_cjson_injective_partial fmt F e e' O O' T T' Q)|right].
  exists (serialize_cjson fmt e), (serialize_cjson fmt e'). split; [exact Q|]. unfold serialize_cjson. congruence.
Qed.
(** With the buffer, the id is the one NIP-01 prescribes (C132_own_partial) within
    408 one-value tags. *)
Theorem C154_nip01_partial : forall sha256 e, event_ok e -> no_stray_event e -> (single_value_tags e <= 408)%nat ->
  forall t, nip01_preimage e t -> own_id sha256 e = Ok (sha256 t).
Proof.
  intros sha e O S T t P. unfold own_id. rewrite (proj1 (C19_buffer_partial e O T)). cbn [bind]. f_equal. exact (C132_own_partial sha e O S t P).
Qed.

Definition with_content (e : event) (c : list N) : event :=
  mkEvent (ev_id e) (ev_pubkey e) (ev_created e) (ev_kind e) (ev_tags e) (Some c) (ev_sig e).
(** Where the text is cut in front of the end [a] of the content, any other end of
    the same length gives the same text. *)
Theorem C154_uncovered : forall e x a b, ev_content e = Some (x ++ a) -> length (escape_json a) = length (escape_json b) ->
  json_size e + N.of_nat (length (escape_json a)) + 1 <= N.of_nat (length (serialize_own e)) ->
  serialize_buffer (with_content e (x ++ b)) = serialize_buffer e.
Proof.
  intros e x a b C L U. rewrite !C154_text. cbv zeta. assert (CO : content_of e = x ++ a) by (unfold content_of; rewrite C; reflexivity).
  assert (EA : forall u v, escape_json (u ++ v) = escape_json u ++ escape_json v) by (intros; apply flat_map_app).
  assert (JS : json_size (with_content e (x ++ b)) = json_size e) by (unfold json_size; rewrite CO; cbn [with_content content_of ev_content ev_tags]; rewrite !EA, !app_length, L; reflexivity).
  assert (SP : exists P, serialize_own e = (P ++ escape_json x) ++ (escape_json a ++ [34; 93]) /\ serialize_own (with_content e (x ++ b)) = (P ++ escape_json x) ++ (escape_json b ++ [34; 93])).
  { unfold serialize_own, serialize_with. rewrite CO. cbn [with_content content_of ev_content ev_pubkey ev_created ev_kind ev_tags]. unfold quote. rewrite !EA.
    exists ([91; 48; 44; 34] ++ hex_encode (ev_pubkey e) ++ [34; 44] ++ dec_Z (ev_created e) ++ [44] ++ dec_N (ev_kind e) ++ [44; 91] ++ join_comma (map ser_tag (ev_tags e)) ++ [93; 44; 34]).
    rewrite <- !app_assoc. split; reflexivity. }
  destruct SP as (P & S1 & S2). rewrite JS, S1, S2 in *. cbn [with_content content_of ev_content]. rewrite CO, !EA, !app_length, <- L. cbn [length].
  destruct (_ <? _); [|reflexivity]. f_equal. rewrite !app_length in U. cbn [length] in U.
  rewrite !(firstn_app (N.to_nat (json_size e - 1)) (P ++ escape_json x)). replace (N.to_nat (json_size e - 1) - length (P ++ escape_json x))%nat with 0%nat by (rewrite app_length; lia). reflexivity.
Qed.
Theorem C154_uncovered_verify : forall sha256 schnorr_verify pubkey_parses parse e x a b, ev_content e = Some (x ++ a) -> length (escape_json a) = length (escape_json b) ->
  json_size e + N.of_nat (length (escape_json a)) + 1 <= N.of_nat (length (serialize_own e)) ->
  own_verify sha256 schnorr_verify pubkey_parses parse (with_content e (x ++ b)) = own_verify sha256 schnorr_verify pubkey_parses parse e.
Proof. intros sha sv pp parse e x a b C L U. unfold own_verify. rewrite (C154_uncovered e x a b C L U). destruct (serialize_buffer e); reflexivity. Qed.

Lemma schnorr_sign_case (sign : list N -> list N -> list N -> option (list N)) sk r d : sign sk r d <> None -> exists s, sign sk r d = Some s.
Proof. destruct (sign sk r d) as [s|]; [eauto|congruence]. Qed.
(** 440 tags of one empty text: whoever holds a signed event can change the end of
    its content, and it still verifies. *)
Definition agree : list N := bs "I agree to pay ".
Definition promise (pk : list N) : event := mkEvent (repeat 0 32) pk 1700000000 1 (repeat [[]] 440) (Some (agree ++ bs "00010 sats")) (repeat 0 64).
Theorem C154_refuted : forall sha256 pubkey_of schnorr_sign schnorr_verify pubkey_parses sk pk r,
  (forall x, length (sha256 x) = 32%nat) -> pubkey_of sk = Some pk -> length pk = 32%nat -> pubkey_parses pk = true ->
  (forall r d s, schnorr_sign sk r d = Some s -> schnorr_verify pk d s = true) -> (forall d, schnorr_sign sk r d <> None) ->
  exists e e1, (length (ev_tags e) <= 1000)%nat /\ own_sign sha256 pubkey_of schnorr_sign e sk (Some r) = (e1, Ok tt) /\ ev_content e1 = Some (agree ++ bs "00010 sats") /\
  own_verify sha256 schnorr_verify pubkey_parses true e1 = Ok tt /\
  own_verify sha256 schnorr_verify pubkey_parses true (with_content e1 (agree ++ bs "99999 sats")) = Ok tt.
Proof.
  intros sha po sign verify parses sk pk r SL PK LP PP SV SS. exists (promise pk).
  assert (LEN : forall i s, N.of_nat (length (serialize_own (mkEvent i pk 1700000000 1 (repeat [[]] 440) (Some (agree ++ bs "00010 sats")) s))) = 2313 /\ json_size (mkEvent i pk 1700000000 1 (repeat [[]] 440) (Some (agree ++ bs "00010 sats")) s) = 2297).
  { intros i s. split; [|vm_compute; reflexivity]. unfold serialize_own, serialize_with. cbn [ev_pubkey ev_created ev_kind ev_tags content_of ev_content]. rewrite !app_length, hex_encode_length, LP.
    assert (E : length (join_comma (map ser_tag (repeat [[]] 440))) = 2199%nat) by (vm_compute; reflexivity). rewrite E. vm_compute. reflexivity. }
  assert (BUF : forall i s, exists t, serialize_buffer (mkEvent i pk 1700000000 1 (repeat [[]] 440) (Some (agree ++ bs "00010 sats")) s) = Ok t).
  { intros i s. rewrite C154_text. cbv zeta. destruct (LEN i s) as (L1 & L2). rewrite L2. assert (LN : length (serialize_own (mkEvent i pk 1700000000 1 (repeat [[]] 440) (Some (agree ++ bs "00010 sats")) s)) = 2313%nat) by lia. rewrite LN.
    cbn [content_of ev_content]. assert (EC : length (escape_json (agree ++ bs "00010 sats")) = 25%nat) by reflexivity. rewrite EC. eexists. reflexivity. }
  assert (SAME : forall i s, serialize_buffer (mkEvent i pk 1700000000 1 (repeat [[]] 440) (Some (agree ++ bs "00010 sats")) s) = serialize_buffer (promise pk)) by reflexivity.
  destruct (BUF (repeat 0 32) (repeat 0 64)) as (t & T). fold (promise pk) in T. destruct (schnorr_sign_case sign sk r (sha t) (SS (sha t))) as (sg & SG).
  set (e1 := mkEvent (sha t) pk 1700000000 1 (repeat [[]] 440) (Some (agree ++ bs "00010 sats")) sg). exists e1.
  split; [cbn [promise ev_tags]; rewrite repeat_length; lia|].
  split. { unfold own_sign. rewrite PK. change (set_pubkey (promise pk) pk) with (promise pk). rewrite T. unfold event_sign. rewrite PK. cbn [compute_id ev_id set_pubkey]. rewrite SG. reflexivity. }
  split; [reflexivity|].
  assert (V : own_verify sha verify parses true e1 = Ok tt).
  { unfold own_verify. unfold e1 at 1. rewrite SAME, T. cbn [bind]. unfold event_verify. cbn [compute_id ev_id e1].
    destruct (memcmp_loop_spec 32 (sha t) (sha t) 0 0) as (d & E & D); [rewrite SL; lia..|]. unfold constant_time_memcmp. rewrite E. cbn [bind fst]. replace d with 0 by (symmetry; apply D; split; reflexivity). cbn [N.eqb negb]. change (ev_pubkey e1) with pk. change (ev_id e1) with (sha t). change (ev_sig e1) with sg. rewrite PP. cbn [negb andb]. rewrite (SV _ _ _ SG). reflexivity. }
  split; [exact V|]. rewrite <- V. apply (C154_uncovered_verify _ _ _ _ _ agree (bs "00010 sats")); [reflexivity..|]. destruct (LEN (sha t) sg) as (L1 & L2). fold e1 in L1, L2. rewrite L1, L2. vm_compute. discriminate.
Qed.

Lemma promise_ok : event_ok (promise (repeat 2 32)).
Proof.
  constructor; cbn [promise ev_id ev_pubkey ev_created ev_kind ev_tags ev_sig content_of ev_content]; try (split; [reflexivity|apply Forall_repeat; unfold byte_ok; lia]); try lia.
  - apply Forall_repeat. split; [discriminate|]. repeat constructor.
  - repeat constructor; cbn; unfold char_ok; lia.
Qed.
(** So two events that differ in their content may have one id (C16), and the id is
    not that of the canonical text (C17). *)
Theorem C16_buffer_refuted : exists e e' t, event_ok e /\ event_ok e' /\ content_of e <> content_of e' /\ serialize_buffer e = Ok t /\ serialize_buffer e' = Ok t.
Proof.
  exists (promise (repeat 2 32)), (with_content (promise (repeat 2 32)) (agree ++ bs "99999 sats")), (firstn 2296 (serialize_own (promise (repeat 2 32)))).
  assert (E : serialize_buffer (promise (repeat 2 32)) = Ok (firstn 2296 (serialize_own (promise (repeat 2 32))))) by (rewrite C154_text; vm_compute; reflexivity).
  split; [exact promise_ok|]. split. { pose proof promise_ok as [A1 A2 A3 A4 A5 A6 A7]. constructor; try assumption. repeat constructor; cbn; unfold char_ok; lia. }
  split; [discriminate|]. split; [exact E|]. rewrite <- E. apply (C154_uncovered _ agree (bs "00010 sats")); [reflexivity..|]. vm_compute. discriminate.
Qed.
Theorem C17_buffer_refuted : exists e t, event_ok e /\ serialize_buffer e = Ok t /\ t <> serialize_own e.
Proof.
  exists (promise (repeat 2 32)), (firstn 2296 (serialize_own (promise (repeat 2 32)))). split; [exact promise_ok|]. split; [rewrite C154_text; vm_compute; reflexivity|].
  intros Q. apply (f_equal (@length N)) in Q. vm_compute in Q. discriminate.
Qed.

(** Non-trivial cases: an event C154_tamper_partial speaks of; an event whose
    text is cut by 17 bytes. *)
Example C154_meets :
  event_ok sample_event /\ (single_value_tags sample_event <= 408)%nat /\
  own_verify (fun _ => repeat 1 32) (fun _ _ _ => true) (fun _ => true) true sample_event = Ok tt /\
  length (serialize_own (promise (repeat 2 32))) = 2313%nat /\ json_size (promise (repeat 2 32)) = 2297 /\
  own_id (fun t => [N.of_nat (length t)]) (promise (repeat 2 32)) = Ok [2296].
Proof.
  split; [apply sample_event_ok|]. split; [vm_compute; lia|]. split; [vm_compute; reflexivity|]. split; [vm_compute; reflexivity|]. split; [vm_compute; reflexivity|].
  unfold own_id. rewrite C154_text. vm_compute. reflexivity.
Qed.
Print Assumptions C154_text.
Print Assumptions C154_signed.
Print Assumptions C154_tamper_partial.
Print Assumptions C154_cjson_partial.
Print Assumptions C154_nip01_partial.
Print Assumptions C154_uncovered.
Print Assumptions C154_uncovered_verify.
Print Assumptions C154_refuted.
Print Assumptions C16_buffer_refuted.
Print Assumptions C17_buffer_refuted.
