(** C143: the limits a relay announces unless it sets others, and those it keeps. *)
From Verif Require Import Base BaseFacts Heap Json Event EventSpec EventProofs EventProps Config RelayProto RelayProtoSpec RelayFilter RelayMsg RelayMsgSpec RelayMsgProps EventOomSpec Nip11 Nip11Spec Nip11Proofs Nip11Props Nip46Spec RelayLimitsSpec RelayAccess.
From Verif Require RelayAccessProps.
Open Scope Z_scope.

(** [u] is the "limitation" object of the document of a relay that has only called
    nostr_relay_info_init; there is one, by C112. *)
Definition by_default (u : json) : Prop := exists t, announces info_init t /\ gives t (bs "limitation") u.
Lemma f2len {A B} (R : A -> B -> Prop) l m : Forall2 R l m -> length l = length m.
Proof. induction 1; [reflexivity|cbn [length]; congruence]. Qed.
Lemma gives_one t k v w : gives t k v -> gives t k w -> v = w.
Proof.
  intros (l1 & k1 & l2 & E1 & S1 & F1) (m1 & k2 & m2 & E2 & S2 & F2). rewrite E1 in E2. assert (E : l1 ++ (k1, v) :: l2 = m1 ++ (k2, w) :: m2) by congruence. clear E1 E2.
  revert m1 E F1 F2. induction l1 as [|a l1 IH]; intros [|b m1] E F1 F2; cbn [app] in E.
  - congruence.
  - destruct (F2 k1 v); [left; congruence|exact S1].
  - destruct (F1 k2 w); [left; congruence|exact S2].
  - apply (IH m1); [congruence|intros x y I; apply (F1 x y); right; exact I|intros x y I; apply (F2 x y); right; exact I].
Qed.
Lemma default_says u : by_default u -> says_limits u limitation_init.
Proof. intros (t & A & G). destruct (an_limits _ _ A) as (u' & G' & S). rewrite (gives_one _ _ _ _ G G'). exact S. Qed.
Lemma init_ok : info_ok info_init.
Proof.
  assert (A : forall A, in_order (@no_array A)) by (intros; exists []; left; split; reflexivity).
  assert (B : forall A, in_order_opt (@no_array A)) by (intros; exists []; left; split; reflexivity).
  constructor; cbn; auto; exists []; (split; [left; split; reflexivity|constructor]).
Qed.
Lemma init_small : small_info info_init.
Proof.
  assert (A : forall A l, lists (@no_array A) l -> l = []) by (intros A l [(_ & E)|(m & E & _)]; [exact E|discriminate]).
  assert (B : forall A l, lists_opt (@no_array A) l -> l = []) by (intros A' l [(_ & E)|(E & _)]; [exact E|destruct E; reflexivity]).
  constructor; cbn [info_init i_nips i_lim i_retention i_admission i_subscription i_publication]; try (intros l E; first [apply A in E|apply B in E]; subst l; constructor).
  unfold small_limits, small. cbn. repeat constructor; cbn; lia.
Qed.
(** There is such a document. *)
Lemma default_there : exists u, by_default u.
Proof. destruct (an_limits _ _ (info_says info_init init_ok init_small)) as (u & G & _). exists u, (JObj (info_members info_init)). split; [exact (info_says info_init init_ok init_small)|exact G]. Qed.

Section Lib.
Variable print : json -> list N.
Variable parse : list N -> option json.
Notation read := (client_read print parse).
(** A relay that announces the default limits takes no request with more filters or a
    longer subscription id than announced, and it takes those that use the limits up. *)
Theorem C143_requests : forall lim u, by_default u ->
  (forall j m, read lim j = ROk m -> request_obeys u m) /\
  exists nf ni, gives u (bs "max_filters") (number (Z.of_nat nf)) /\ gives u (bs "max_subid_length") (number (Z.of_nat ni)) /\
    (forall id js, length js = nf -> length id = ni -> Forall (fun c => 32 <= c <= 126)%N id -> (forall j, In j js -> parse (print j) = Some j) -> Forall request_filter js ->
       exists fs, read lim (Some (JArr (JStr (bs "REQ") :: JStr id :: js))) = ROk (CReq id fs) /\ length fs = nf) /\
    (forall id js, sub_id id -> (nf < length js)%nat -> read lim (Some (JArr (JStr (bs "REQ") :: JStr id :: js))) = RErr RTooManyFilters) /\
    (forall id js, (ni < length id)%nat -> read lim (Some (JArr (JStr (bs "REQ") :: JStr id :: js))) = RErr RInvalidSubId).
Proof.
  intros lim u D. pose proof (default_says u D) as S. split.
  - intros j m E. apply C100_exact in E as (js & -> & T). split.
    + intros n G. apply (sl_filters _ _ S) in G as (_ & G). assert (n = 10) by (unfold number, limitation_init in G; cbn in G; congruence). subst n.
      destruct T as [| | |id js fs SI L F|id js fs SI L F]; cbn [msg_filters length]; try lia; rewrite <- (f2len _ _ _ F); lia.
    + intros i I n G. apply (sl_subid _ _ S) in G as (_ & G). assert (n = 64) by (unfold number, limitation_init in G; cbn in G; congruence). subst n.
      destruct T as [| |id more SI|id js fs SI L F|id js fs SI L F]; cbn [msg_sub_id] in I; try discriminate; assert (i = id) by congruence; subst; destruct SI; lia.
  - exists 10%nat, 64%nat. split; [apply (sl_filters _ _ S); split; [cbn; lia|reflexivity]|]. split; [apply (sl_subid _ _ S); split; [cbn; lia|reflexivity]|]. split; [|split].
    + intros id js LJ LI PR LIB F. destruct (C100_request_partial print parse lim id js LIB ltac:(split; [lia|exact PR]) ltac:(lia) F) as (fs & E & _ & L & _). exists fs. split; [exact E|lia].
    + intros id js SI L. unfold client_read. cbn [bs beq]. change (beq (bs "REQ") (bs "EVENT")) with false. change (beq (bs "REQ") (bs "REQ")) with true. cbv iota.
      assert (V : validate_subscription_id id = true) by (apply RelayProtoProps.C87_checks; exact SI).
      unfold read_sub_id, parse_filters. rewrite V. cbn [rbind]. replace (max_filters <? length js)%nat with true by (symmetry; apply Nat.ltb_lt; unfold max_filters; lia). reflexivity.
    + intros id js L. unfold client_read. change (beq (bs "REQ") (bs "EVENT")) with false. change (beq (bs "REQ") (bs "REQ")) with true. cbv iota.
      unfold read_sub_id. destruct (validate_subscription_id id) eqn:V; [|reflexivity]. apply RelayProtoProps.C87_checks in V. destruct V. lia.
Qed.
(** With the library's default configuration in force it also takes no event with a longer
    content than announced. *)
Definition limits_of (c : config) : ev_limits := mkEvLimits (Z.to_N (fld c 5)) (Z.to_N (fld c 6)).
Lemma taken_within lim j m e : read lim j = ROk m -> msg_get_event m = Some e -> within_limits lim e.
Proof.
  intros E G. apply C100_exact in E as (js & -> & T).
  destruct T as [j more e' EI|j more e' EI| | |]; cbn [msg_get_event] in G; try discriminate; assert (e' = e) by congruence; subst e';
    unfold event_is, event_from_json in EI; destruct (parse (print j)); try discriminate; apply C21_import_partial in EI; tauto.
Qed.
Theorem C143_content : forall c u j m, by_default u -> fld c 5 <= 65536 -> read (Some (limits_of c)) j = ROk m -> content_obeys u m.
Proof.
  intros c u j m D C E e G n A. apply (sl_content _ _ (default_says u D)) in A as (_ & A). assert (n = 65536) by (unfold number, limitation_init in A; cbn in A; congruence). subst n.
  destruct (taken_within _ _ _ _ E G) as (W & _). unfold limits_of in W. cbn [max_content] in W. lia.
Qed.
(** It announces room for more tags than any valid configuration has: an event that obeys
    the announcement is refused. *)
Theorem C143_tags : forall c u e more, by_default u -> validate c = true -> (forall t, t = event_to_tree e -> parse (print t) = Some t) ->
  (1000 < length (ev_tags e) <= 2000)%nat -> 
  at_most u (bs "max_event_tags") (Z.of_nat (length (ev_tags e))) /\
  forall m, read (Some (limits_of c)) (Some (JArr (JStr (bs "EVENT") :: event_to_tree e :: more))) <> ROk m.
Proof.
  intros c u e more D V LIB L. split.
  - intros n A. apply (sl_tags _ _ (default_says u D)) in A as (_ & A). assert (n = 2000) by (unfold number, limitation_init in A; cbn in A; congruence). lia.
  - intros m E. assert (M : (0 <= fld c 6 <= 1000) \/ fld c 6 < 0). { unfold validate in V. repeat match type of V with (if ?b then _ else _) = true => destruct b eqn:?; [discriminate|] end.
      match goal with X : (fld c 6 =? 0) || (1000 <? fld c 6) = false |- _ => apply Bool.orb_false_iff in X as (_ & X); apply Z.ltb_ge in X end. lia. }
    unfold client_read in E. change (beq (bs "EVENT") (bs "EVENT")) with true in E. cbv iota in E. unfold read_event, event_from_json in E. rewrite (LIB _ eq_refl) in E.
    destruct (event_from_tree (Some (limits_of c)) (event_to_tree e)) as [e'| |] eqn:EF; cbn [rbind] in E; try discriminate.
    unfold event_from_tree in EF. apply bind_ok in EF as (id & _ & EF). apply bind_ok in EF as (pk & _ & EF). apply bind_ok in EF as (cr & _ & EF). apply bind_ok in EF as (ct & _ & EF). apply bind_ok in EF as (tg & T & _).
    change (jget (bs "tags") (event_to_tree e)) with (Some (JArr (map (fun vs => JArr (map JStr vs)) (ev_tags e)))) in T. cbv iota in T. rewrite map_length in T. cbn [limits_of max_tags] in T.
    destruct (N.ltb_spec (Z.to_N (fld c 6)) (N.of_nat (length (ev_tags e)))); [discriminate|lia].
Qed.
End Lib.
(** The other announced limits are not kept by the parser: a request may ask for more events
    than "max_limit", and without a configuration an event may have more tags and a longer
    content than announced. *)
Definition limit_filter (n : Z) : json := JObj [(bs "limit", JNum (JFin n 0))].
Definition with_tags_tree (n : nat) : json := JObj [(bs "tags", JArr (repeat (JArr [JStr (bs "t")]) n))].
Definition with_content_tree (n : nat) : json := JObj [(bs "content", JStr (repeat 97%N n))].
Lemma tags_imported n : import_tags (repeat (JArr [JStr (bs "t")]) n) = repeat [bs "t"] n.
Proof. induction n as [|n IH]; [reflexivity|]. cbn [repeat import_tags tag_values map]. rewrite IH. reflexivity. Qed.
Theorem C143_refuted : forall u, by_default u ->
  ~ (forall print parse lim j m, client_read print parse lim j = ROk m -> limit_obeys u m) /\
  ~ (forall print parse j m, client_read print parse None j = ROk m -> tags_obey u m) /\
  ~ (forall print parse j m, client_read print parse None j = ROk m -> content_obeys u m) /\
  ~ (forall print parse c j m, validate c = true -> client_read print parse (Some (limits_of c)) j = ROk m -> content_obeys u m).
Proof.
  intros u D. pose proof (default_says u D) as S. split; [|split; [|split]].
  - intros H. assert (E : exists f, client_read (fun _ => []) (one_text (limit_filter 5001)) None (Some (JArr [JStr (bs "REQ"); JStr (bs "s"); limit_filter 5001])) = ROk (CReq (bs "s") [f]) /\ f_limit f = 5001) by (eexists; split; [vm_compute; reflexivity|reflexivity]).
    destruct E as (f & E & F). specialize (H _ _ _ _ _ E f ltac:(left; reflexivity) 5000 (proj2 (sl_limit _ _ S _) (conj eq_refl eq_refl))). lia.
  - intros H. assert (E : exists e, client_read (fun _ => []) (one_text (with_tags_tree (N.to_nat 2001))) None (Some (JArr [JStr (bs "EVENT"); JNull])) = ROk (CEvent e) /\ length (ev_tags e) = N.to_nat 2001).
    { generalize (N.to_nat 2001). intros n. eexists. split; [unfold client_read; change (beq (bs "EVENT") (bs "EVENT")) with true; cbv iota; unfold read_event, event_from_json, one_text, event_from_tree; cbn -[import_tags]; reflexivity|].
      cbn [ev_tags]. rewrite tags_imported. apply repeat_length. }
    destruct E as (e & E & F). specialize (H _ _ _ _ E e eq_refl 2000 (proj2 (sl_tags _ _ S _) (conj eq_refl eq_refl))). lia.
  - intros H. assert (E : exists e, client_read (fun _ => []) (one_text (with_content_tree (N.to_nat 65537))) None (Some (JArr [JStr (bs "EVENT"); JNull])) = ROk (CEvent e) /\ length (content_of e) = N.to_nat 65537).
    { generalize (N.to_nat 65537). intros n. eexists. split; [unfold client_read; change (beq (bs "EVENT") (bs "EVENT")) with true; cbv iota; unfold read_event, event_from_json, one_text, event_from_tree; cbn; reflexivity|].
      unfold content_of. cbn [ev_content]. apply repeat_length. }
    destruct E as (e & E & F). specialize (H _ _ _ _ E e eq_refl 65536 (proj2 (sl_content _ _ S _) (conj eq_refl eq_refl))). lia.
  - pose (c := [1; 65535; 100; 3600; 32; 1048576; 100; 50; 30000; 10000; 44; 0; 0]).
    intros H. assert (E : exists e, client_read (fun _ => []) (one_text (with_content_tree (N.to_nat 65537))) (Some (limits_of c)) (Some (JArr [JStr (bs "EVENT"); JNull])) = ROk (CEvent e) /\ length (content_of e) = N.to_nat 65537).
    { assert (L : (N.of_nat (N.to_nat 65537) <= 1048576)%N) by lia. revert L. generalize (N.to_nat 65537). intros n L. eexists. split; [unfold client_read; change (beq (bs "EVENT") (bs "EVENT")) with true; cbv iota; unfold read_event, event_from_json, one_text, event_from_tree|].
      - change (jget (bs "content") (with_content_tree n)) with (Some (JStr (repeat 97%N n))). cbn -[N.ltb]. rewrite repeat_length. destruct (N.ltb_spec 1048576 (N.of_nat n)); [lia|]. reflexivity.
      - unfold content_of. cbn [ev_content]. apply repeat_length. }
    destruct E as (e & E & F). specialize (H _ _ c _ _ eq_refl E e eq_refl 65536 (proj2 (sl_content _ _ S _) (conj eq_refl eq_refl))). lia.
Qed.
(** By default a document asks for no authentication, payment or work and sets no bounds
    on times or writers; the length of messages it announces is 128 KiB. *)
Theorem C143_open : forall u, by_default u ->
  Forall (fun k => gives u k (JBool false)) [bs "auth_required"; bs "payment_required"; bs "restricted_writes"] /\
  Forall (fun k => forall v, ~ gives u k v) [bs "min_pow_difficulty"; bs "created_at_lower_limit"; bs "created_at_upper_limit"] /\
  (forall n, gives u (bs "max_message_length") (number n) <-> n = 131072).
Proof.
  intros u D. pose proof (default_says u D) as S. split; [|split].
  - repeat constructor; [exact (sl_auth _ _ S)|exact (sl_payment _ _ S)|exact (sl_writes _ _ S)].
  - constructor; [|constructor; [|constructor; [|constructor]]]; intros v G; [apply (sl_pow _ _ S) in G|apply (sl_lower _ _ S) in G|apply (sl_upper _ _ S) in G]; destruct G as (G & _); cbn in G; lia.
  - intros n. split; [intros G; apply (sl_message _ _ S) in G as (_ & G); unfold number, limitation_init in G; cbn in G; congruence|].
    intros ->. apply (sl_message _ _ S). split; [cbn; lia|reflexivity].
Qed.
(** It is not kept either. *)
Theorem C143_message_refuted : forall u, by_default u -> ~ (forall print parse lim buf len m, client_msg_parse print parse lim buf len = ROk m -> at_most u (bs "max_message_length") (Z.of_nat len)).
Proof.
  intros u D H. destruct (C143_open u D) as (_ & _ & ML). assert (L : exists s : list N, s <> [] /\ length s = N.to_nat 131073) by (exists (repeat 32%N (N.to_nat 131073)); split; [destruct (N.to_nat 131073) eqn:E; [lia|discriminate]|apply repeat_length]).
  destruct L as (s & NE & L). assert (E : client_msg_parse (fun _ => []) (fun _ => Some (JArr [JStr (bs "CLOSE"); JStr (bs "s")])) None s (length s) = ROk (CClose (bs "s"))).
  { rewrite <- (app_nil_r s) at 1. rewrite (proj1 (RelayAccessProps.C144_given _ _ _ s [] NE)). reflexivity. }
  specialize (H _ _ _ _ _ _ E 131072 (proj2 (ML _) eq_refl)). lia.
Qed.
(** Witness: there is a default document, the default configuration is one C143_content
    and C143_tags speak of, and some requests and events are read. *)
Example C143_meets : (exists u, by_default u) /\ fld defaults 5 <= 65536 /\ validate defaults = true /\
  (exists f, client_read (fun _ => []) (one_text (limit_filter 7)) (Some (limits_of defaults)) (Some (JArr [JStr (bs "REQ"); JStr (bs "s"); limit_filter 7])) = ROk (CReq (bs "s") [f])) /\
  (exists e, client_read (fun _ => []) (one_text (with_tags_tree 3)) (Some (limits_of defaults)) (Some (JArr [JStr (bs "EVENT"); JNull])) = ROk (CEvent e) /\ length (ev_tags e) = 3%nat).
Proof.
  split; [exact default_there|]. split; [cbn; lia|]. split; [reflexivity|]. split; [eexists; vm_compute; reflexivity|]. eexists. split; [vm_compute; reflexivity|reflexivity].
Qed.
Print Assumptions C143_requests.
Print Assumptions C143_content.
Print Assumptions C143_tags.
Print Assumptions C143_refuted.
Print Assumptions C143_open.
Print Assumptions C143_message_refuted.
