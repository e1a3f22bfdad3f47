(** From author to subscriber: C140. *)
From Verif Require Import Base BaseFacts Heap Json Event EventSpec EventProps EventMemSpec EventOomSpec RelayProto RelayProtoSpec RelayFilter RelayFilterSpec RelayMsg RelayMsgSpec RelayMsgProps RelayRecv RelayRecvSpec RelayRecvProps RelaySubProps JsonSpec JsonLib JsonLibProofs RelaySend RelaySendSpec RelaySendProps DeliverySpec.
Open Scope N_scope.

Lemma same_event_ok a b : same_event a b -> event_ok b -> event_ok a.
Proof. intros ((P & C & K & T & CT) & I & S) [A1 A2 A3 A4 A5 A6 A7]. constructor; rewrite ?I, ?P, ?C, ?K, ?T, ?CT, ?S; assumption. Qed.
Lemma same_event_carried a b : same_event a b -> carried_event b -> carried_event a.
Proof. intros E (O & T). split; [exact (same_event_ok _ _ E O)|]. destruct E as ((_ & C & _) & _). rewrite C. exact T. Qed.
Lemma same_event_limits lim a b : same_event a b -> within_limits lim b -> within_limits lim a.
Proof. intros ((P & C & K & T & CT) & _). unfold within_limits. rewrite T, CT. auto. Qed.
Lemma same_event_wanted js a b : same_event a b -> wanted js a <-> wanted js b.
Proof. intros ((P & C & K & T & CT) & I & S). destruct a, b. cbn in *. subst. split; intros W; exact W. Qed.
Lemma same_event_trans a b c : same_event a b -> same_event b c -> same_event a c.
Proof. intros ((P & C & K & T & CT) & I & S) ((P' & C' & K' & T' & CT') & I' & S'). unfold same_event, same_fields. repeat split; congruence. Qed.
(** A publication that succeeded with enough memory: the text sent for the event. *)
Definition published (print : json -> list N) (e : event) (s : list N) : Prop :=
  exists grant relay socket written h h', holds h [] /\ granted grant h h' /\ publish_event grant print relay socket written e h = Ok ((Some s, None), h').
Lemma published_read print printr parse lim e s : json_library print parse -> json_library printr parse -> carried_event e -> within_limits lim e -> published print e s ->
  exists e', client_read printr parse lim (parse s) = ROk (CEvent e') /\ same_event e' e.
Proof.
  intros LC LR C W (g & r & so & w & h & h' & X & G & E). destruct (C130_publish g print r so w e h [] X) as (sent & x & h1 & lost & E1 & _ & _ & _ & R).
  rewrite E in E1. assert (h1 = h' /\ sent = Some s) as (-> & ->) by (split; congruence). destruct (R G) as (_ & _ & R'). exact (R' s eq_refl printr parse lim LR LR C W) || exact (R' s eq_refl printr parse lim LC LR C W).
Qed.
Lemma ids_of e : event_ok e -> ids_ok e.
Proof. intros [(A & B) (C & D) _ _ _ _ _]. repeat split; assumption. Qed.
Definition few_tags (e : event) : Prop := forall name, (tags_named e name <= 256)%nat.
Lemma same_event_few a b : same_event a b -> few_tags b -> few_tags a.
Proof. intros ((_ & _ & _ & T & _) & _) F name. specialize (F name). unfold tags_named in *. rewrite T. exact F. Qed.

Lemma sub_id_cstr id : sub_id id -> cstr_ok id.
Proof. intros (_ & F). eapply Forall_impl; [|exact F]. intros c C. cbv beta in C. unfold char_ok. lia. Qed.
(** Told events of one subscription only, its handler hears them all. *)
Lemma heard_events om id k : forall es who outs, heard om who (map (TellEvent id) es) outs -> (exists r, who id = Some k :: r) ->
  exists got, outs = map (OEvent k) got /\ Forall2 same_event got es.
Proof.
  induction es as [|e es IH]; intros who outs HD (r & W); cbn [map] in HD.
  - inversion HD; subst. exists []. split; [reflexivity|constructor].
  - inversion HD as [|? ? ? k' ? ? e' o W' SE HD'|? ? ? ? ? W' HD'| |? ? ? ? ? NE]; subst.
    + assert (k' = k) by congruence. subst k'. destruct (IH _ _ HD' (ex_intro _ r W)) as (got & -> & F). exists (e' :: got). split; [reflexivity|]. constructor; assumption.
    + destruct W' as [W'|(r' & W')]; congruence.
    + destruct (NE id e eq_refl).
Qed.
Lemma forwards_picks read id fs js : forall es texts, Forall2 (fun e s => exists e', read s = ROk (CEvent e') /\ same_event e' e) es texts ->
  Forall carried_event es -> Forall few_tags es ->
  (forall e, ids_ok e -> few_tags e -> filters_match fs e = true <-> wanted js e) ->
  (exists xs, forwards read id fs texts xs) /\
  forall xs, forwards read id fs texts xs -> exists ev want, xs = map (TellEvent id) ev /\ picked (wanted js) es want /\ Forall2 same_event ev want.
Proof.
  intros es texts R C T M. induction R as [|e s es texts (e1 & R1 & SE) R IH].
  - split; [exists []; constructor|]. intros xs F. inversion F; subst. exists [], []. split; [reflexivity|]. split; constructor.
  - specialize (IH (Forall_inv_tail C) (Forall_inv_tail T)). destruct IH as ((xs & FX) & IH).
    assert (M1 : filters_match fs e1 = true <-> wanted js e).
    { rewrite <- (same_event_wanted js _ _ SE). apply M; [apply ids_of, (same_event_ok _ _ SE), (proj1 (Forall_inv C))|exact (same_event_few _ _ SE (Forall_inv T))]. }
    split.
    + destruct (filters_match fs e1) eqn:FM; eexists; [apply FwSend|apply FwKeep with (e := e1)]; eassumption.
    + intros ys F. inversion F as [|? e2 ? xs' R2 FM F'|? e2 ? xs' R2 FM F']; subst; assert (e2 = e1) by congruence; subst e2; destruct (IH _ F') as (ev & want & -> & PK & F2).
      * exists (e1 :: ev), (e :: want). split; [reflexivity|]. split; [apply PkTake; [apply M1, FM|exact PK]|constructor; assumption].
      * exists ev, want. split; [reflexivity|]. split; [|exact F2]. apply PkSkip; [|exact PK]. intros W. apply M1 in W. congruence.
Qed.
Lemma picked_all (P Q : event -> Prop) es want : picked P es want -> Forall Q es -> Forall Q want.
Proof. induction 1 as [|e l m p1 pk IH|e l m p1 pk IH]; intros F; [constructor|constructor; [exact (Forall_inv F)|apply IH, (Forall_inv_tail F)]|apply IH, (Forall_inv_tail F)]. Qed.

(** The subscriber opened [id] with the filters [js] and the handler [k]; people
    publish [es]; the relay forwards what it finds matching, and the network cuts the
    stream as it likes.  Then the relay reads everything, and exactly the events the
    filters ask for arrive at the handler, whole and in order. *)
Theorem C140_delivered_partial : forall print printr print' parse lim limr on_message l id filters k ok f l' sent js,
  json_library print parse -> json_library printr parse -> json_library print' parse -> named l ->
  subscribe l id filters (Some k) ok f = (l', sent, Ok tt) -> a_id f = true -> sub_id id ->
  elems js filters -> Forall writable js -> Forall (fun j => depth j <= 100) js -> (length js <= 10)%nat -> Forall request_filter js ->
  exists req fs, sent = Some req /\ client_read printr parse limr (parse req) = ROk (CReq id fs) /\
  forall es texts, Forall2 (published print) es texts -> Forall carried_event es -> Forall few_tags es -> Forall (within_limits limr) es -> Forall (within_limits lim) es ->
  (exists xs, forwards (fun s => client_read printr parse limr (parse s)) id fs texts xs) /\
  forall xs wires cs, forwards (fun s => client_read printr parse limr (parse s)) id fs texts xs ->
  Forall2 (serialized printr parse) xs wires -> spread wires (whole cs) -> kept rbuf0 cs ->
  exists b l'' got want, serve parse (fun j => parse (print' j)) lim (fun _ => []) on_message rbuf0 l' cs = Ok (b, l'', map (OEvent k) got) /\
    picked (wanted js) es want /\ Forall2 same_event got want.
Proof.
  intros print printr print' parse lim limr om l id filters k ok f l' sent js LC LR LP NL S AI SI EL WR DE LE RF.
  destruct (C130_subscribe_partial printr parse limr l id filters js (Some k) ok f l' sent LR S SI EL WR DE LE RF) as (req & fs & -> & RQ & _ & M).
  exists req, fs. split; [reflexivity|]. split; [exact RQ|]. intros es texts P C T WR1 WL1.
  assert (R : Forall2 (fun e s => exists e', client_read printr parse limr (parse s) = ROk (CEvent e') /\ same_event e' e) es texts).
  { clear T WL1. induction P as [|e s es texts P1 P IH]; [constructor|]. constructor; [exact (published_read _ _ _ _ _ _ LC LR (Forall_inv C) (Forall_inv WR1) P1)|].
    exact (IH (Forall_inv_tail C) (Forall_inv_tail WR1)). }
  destruct (forwards_picks _ id fs js es texts R C T M) as (EX & FP). split; [exact EX|].
  intros xs wires cs FW SE SP K. destruct (FP xs FW) as (ev & want & -> & PK & F2).
  assert (AT : named l' /\ exists r, at_id l' id = Some k :: r).
  { revert S. unfold subscribe. destruct (negb _); [discriminate|]. destruct (negb _); [discriminate|]. destruct (negb _); [discriminate|]. destruct (negb _); [discriminate|]. destruct (negb _); [discriminate|].
    destruct (a_write f); [|discriminate]. rewrite AI. intros S. assert (l' = mkSub (Some id) (Some k) :: l) by congruence. subst l'. split; [constructor; [discriminate|exact NL]|].
    unfold at_id. cbn [List.filter s_id]. rewrite (proj2 (beq_eq id id) eq_refl). cbn [map s_handler]. eexists. reflexivity. }
  destruct AT as (NL' & W).
  assert (CW : Forall carried_event want) by exact (picked_all _ _ _ _ PK C). assert (LW : Forall (within_limits lim) want) by exact (picked_all _ _ _ _ PK WL1).
  assert (CV : Forall carried_event ev /\ Forall (within_limits lim) ev).
  { clear -F2 CW LW. induction F2 as [|a b ev want E F IH]; [split; constructor|]. destruct (IH (Forall_inv_tail CW) (Forall_inv_tail LW)). split; constructor; auto.
    - exact (same_event_carried _ _ E (Forall_inv CW)).
    - exact (same_event_limits _ _ _ E (Forall_inv LW)). }
  destruct CV as (CV & LV).
  destruct (C131_heard printr print' parse lim om l' (map (TellEvent id) ev) wires cs LR LP) as (b & l'' & outs & SV & HD); [| |exact SE|exact SP|exact K|exact NL'|].
  - apply Forall_map. eapply Forall_impl; [|exact CV]. intros e CE. split; [cbn [short]; destruct SI as ((_ & L) & _); exact L|]. split; [apply sub_id_cstr, SI|exact CE].
  - intros i e I. apply in_map_iff in I as (e' & Q & I). assert (e' = e) by congruence. subst e'. exact (proj1 (Forall_forall _ _) LV e I).
  - destruct (heard_events om id k ev (at_id l') outs HD W) as (got & -> & F3). exists b, l'', got, want. split; [exact SV|]. split; [exact PK|].
    clear -F2 F3. revert want F2. induction F3 as [|a b got ev E F IH]; intros want F2; inversion F2; subst; constructor; [eapply same_event_trans; eassumption|apply IH; assumption].
Qed.

(** ** C91 *)
(** Nothing is checked on arrival, but behind a relay that forwards what matches,
    everything the handler is given matches the filters, and verifies if what was
    published verified.  Missing: relays that send something else. *)
Theorem C91_honest_partial : forall print printr print' parse lim limr on_message l id filters k ok f l' sent js num sha256 verify pubkey_parses parse_pk,
  json_library print parse -> json_library printr parse -> json_library print' parse -> named l ->
  subscribe l id filters (Some k) ok f = (l', sent, Ok tt) -> a_id f = true -> sub_id id ->
  elems js filters -> Forall writable js -> Forall (fun j => depth j <= 100) js -> (length js <= 10)%nat -> Forall request_filter js ->
  exists req fs, sent = Some req /\ client_read printr parse limr (parse req) = ROk (CReq id fs) /\
  forall es texts xs wires cs, Forall2 (published print) es texts -> Forall carried_event es -> Forall few_tags es -> Forall (within_limits limr) es -> Forall (within_limits lim) es ->
  Forall (fun e => event_verify (serialize_with num) sha256 verify pubkey_parses parse_pk e = Ok tt) es ->
  forwards (fun s => client_read printr parse limr (parse s)) id fs texts xs ->
  Forall2 (serialized printr parse) xs wires -> spread wires (whole cs) -> kept rbuf0 cs ->
  exists b l'' got, serve parse (fun j => parse (print' j)) lim (fun _ => []) on_message rbuf0 l' cs = Ok (b, l'', map (OEvent k) got) /\
    Forall (fun e => event_verify (serialize_with num) sha256 verify pubkey_parses parse_pk e = Ok tt /\ wanted js e) got.
Proof.
  intros print printr print' parse lim limr om l id filters k ok f l' sent js num sha256 verify pp ppk LC LR LP NL S AI SI EL WR DE LE RF.
  destruct (C140_delivered_partial print printr print' parse lim limr om l id filters k ok f l' sent js LC LR LP NL S AI SI EL WR DE LE RF) as (req & fs & E & RQ & D).
  exists req, fs. split; [exact E|]. split; [exact RQ|]. intros es texts xs wires cs P C T W1 W2 V FW SE SP K.
  destruct (D es texts P C T W1 W2) as (_ & D'). destruct (D' xs wires cs FW SE SP K) as (b & l'' & got & want & SV & PK & F2).
  exists b, l'', got. split; [exact SV|].
  assert (W : Forall (fun e => event_verify (serialize_with num) sha256 verify pp ppk e = Ok tt /\ wanted js e) want).
  { clear - PK V. induction PK as [|e l l' Q PK IH|e l l' Q PK IH]; [constructor| |]; inversion V; subst; [constructor; auto|auto]. }
  clear - F2 W. induction F2 as [|g w got want SG F2 IH]; [constructor|]. inversion W as [|? ? (V & Q) W']; subst. constructor; [|auto]. split.
  - rewrite <- V. destruct SG as ((X1 & X2 & X3 & X4 & X5) & X6 & X7). unfold event_verify, compute_id, serialize_with. rewrite X1, X2, X3, X4, X5, X6, X7. reflexivity.
  - apply (same_event_wanted js _ _ SG), Q.
Qed.
(** What arrives verifies for the subscriber exactly if it did for the author. *)
Theorem C140_verifies : forall print sha256 schnorr_verify pubkey_parses strict a b, same_event a b ->
  event_verify (fun e => print (id_tree e)) sha256 schnorr_verify pubkey_parses strict a = event_verify (fun e => print (id_tree e)) sha256 schnorr_verify pubkey_parses strict b.
Proof.
  intros print sha sv pp strict a b ((P & C & K & T & CT) & I & S). unfold event_verify, compute_id, id_tree. cbn [ev_id ev_pubkey ev_created ev_kind ev_tags ev_content ev_sig]. rewrite P, C, K, T, CT, I, S. reflexivity.
Qed.
(** *** A concrete run: of three notes published, the two by the author asked for arrive *)
Definition note2 : event := mkEvent (repeat 5 32) (repeat 171 32) 1700000001 1 [[bs "t"; bs "x"]] (Some (bs "]""[")) (repeat 6 64).
Definition note3 : event := mkEvent (repeat 7 32) (repeat 171 32) 1700000002 1 [] None (repeat 8 64).
Lemma note_carried a p t tags c s : a < 256 -> p < 256 -> s < 256 -> t <= 4000000000 -> Forall (fun vs => vs <> [] /\ Forall cstr_ok vs) tags -> cstr_ok match c with Some x => x | None => [] end ->
  carried_event (mkEvent (repeat a 32) (repeat p 32) (Z.of_N t) 1 tags c (repeat s 64)).
Proof.
  intros A P S T G C. split; [|cbn; lia]. constructor; cbn [ev_id ev_pubkey ev_created ev_kind ev_tags ev_sig content_of ev_content]; try assumption; try lia.
  all: split; [apply repeat_length|]; apply Forall_forall; intros x I; apply repeat_spec in I; subst; unfold byte_ok; lia.
Qed.
Definition sub1 : list subscr := [mkSub (Some (bs "s1")) (Some 4%nat)].
Definition req1 : list N := bs "[""REQ"",""s1""," ++ jprint (JObj l0) ++ bs "]".
Definition fs1 : list rfilter := match client_read jprint jparse None (jparse req1) with ROk (CReq _ fs) => fs | _ => [] end.
Definition sent (e : event) : list N := match publish_event (fun _ => true) (jpretty 0) true true true e (mkHeap 0 []) with Ok ((Some s, None), _) => s | _ => [] end.
Definition arrived (e : event) : event := match client_read jprint jparse None (jparse (sent e)) with ROk (CEvent e') => e' | _ => e end.
Definition told2 : list tells := [TellEvent (bs "s1") (arrived note2); TellEvent (bs "s1") (arrived note3)].
Example C140_meets : json_library (jpretty 0) jparse /\ json_library jprint jparse /\ named [] /\
  subscribe [] (bs "s1") (jprint (JObj l0)) (Some 4%nat) true all_well = (sub1, Some req1, Ok tt) /\ a_id all_well = true /\ sub_id (bs "s1") /\
  elems [JObj l0] (jprint (JObj l0)) /\ writable (JObj l0) /\ depth (JObj l0) <= 100 /\ request_filter (JObj l0) /\
  Forall2 (published (jpretty 0)) [note2; note1; note3] [sent note2; sent note1; sent note3] /\
  Forall carried_event [note2; note1; note3] /\ Forall few_tags [note2; note1; note3] /\
  forwards (fun s => client_read jprint jparse None (jparse s)) (bs "s1") fs1 [sent note2; sent note1; sent note3] told2 /\
  Forall2 (serialized jprint jparse) told2 (map wire told2) /\ spread (map wire told2) (flat_map wire told2) /\
  exists b e2 e3, serve jparse (fun j => jparse (jpretty 0 j)) None (fun _ => []) true rbuf0 sub1 (cut2 (flat_map wire told2) 99) =
    Ok (b, sub1, [OEvent 4 e2; OEvent 4 e3]) /\ ev_content e2 = ev_content note2 /\ ev_id e3 = ev_id note3.
Proof.
  assert (W : writable (JObj l0)).
  { constructor. apply Forall_cons; [split; [apply cstr_dec; reflexivity|]|apply Forall_cons; [split; [apply cstr_dec; reflexivity|]|apply Forall_nil]].
    - constructor. apply Forall_cons; [constructor; lia|apply Forall_nil].
    - constructor. apply Forall_cons; [constructor; apply cstr_dec; reflexivity|apply Forall_nil]. }
  split; [exact pretty_library|]. split; [exact compact_library|]. split; [apply Forall_nil|]. split; [reflexivity|]. split; [reflexivity|].
  split. { split; [cbn; lia|]. repeat (apply Forall_cons; [split; discriminate|]). apply Forall_nil. }
  split. { rewrite <- (app_nil_r (jprint _)), <- (app_nil_l (jprint _ ++ [])). apply ElOne; [exact ws_nil|exact (lib_print _ _ compact_library _ W)|exact ws_nil]. }
  split; [exact W|]. split; [cbn; lia|]. split; [exact (proj1 C100_meets)|].
  split.
  { assert (P : forall e, (exists h', publish_event (fun _ => true) (jpretty 0) true true true e (mkHeap 0 []) = Ok ((Some (sent e), None), h')) -> published (jpretty 0) e (sent e)).
    { intros e (h' & E). exists (fun _ => true), true, true, true, (mkHeap 0 []), h'. split; [|split; [intros k _; reflexivity|exact E]]. split; [split; constructor|constructor]. }
    repeat (apply Forall2_cons; [apply P; eexists; vm_compute; reflexivity|]). apply Forall2_nil. }
  split.
  { apply Forall_cons; [|apply Forall_cons; [exact note1_carried|apply Forall_cons; [|apply Forall_nil]]].
    - apply (note_carried 5 171 1700000001 _ _ 6); try lia; [repeat constructor; try discriminate; reflexivity|repeat constructor; reflexivity].
    - apply (note_carried 7 171 1700000002 _ _ 8); try lia; [repeat constructor|repeat constructor]. }
  split.
  { repeat (apply Forall_cons; [intros name; unfold tags_named; cbn; repeat match goal with |- context[match ?b with true => _ | false => _ end] => destruct b end; cbn; lia|]). apply Forall_nil. }
  split.
  { apply FwSend; [vm_compute; reflexivity|vm_compute; reflexivity|]. apply FwKeep with (e := arrived note1); [vm_compute; reflexivity|vm_compute; reflexivity|]. apply FwSend; [vm_compute; reflexivity|vm_compute; reflexivity|]. apply FwNone. }
  split.
  { assert (P : forall x, serialize_msg jprint jparse (RelayMsgProps.built x) (repeat 0 600) 600 = (ROk tt, wire x ++ [0] ++ skipn (length (wire x) + 1) (repeat 0 600), Some (N.of_nat (length (wire x)))) -> serialized jprint jparse x (wire x)).
    { intros x E. exists (repeat 0 600), 600. eexists. eexists. split; [exact E|]. rewrite Nat2N.id, firstn_app_exact by reflexivity. reflexivity. }
    repeat (apply Forall2_cons; [apply P; vm_compute; reflexivity|]). apply Forall2_nil. }
  split.
  { change (spread (map wire told2) ([] ++ wire (TellEvent (bs "s1") (arrived note2)) ++ [] ++ wire (TellEvent (bs "s1") (arrived note3)) ++ [])). apply SpMore; [apply Forall_nil|]. apply SpMore; [apply Forall_nil|]. apply SpNil, Forall_nil. }
  eexists. eexists. eexists. split; [vm_compute; reflexivity|]. split; reflexivity.
Qed.
Print Assumptions C91_honest_partial.
Print Assumptions C140_delivered_partial.
Print Assumptions C140_verifies.
