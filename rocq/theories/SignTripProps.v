(** Remote signing through a relay: C157. *)
From Verif Require Import Base BaseFacts Heap Dec Json Hex HexSpec HexProofs Event EventSpec EventProps EventMemSpec EventOomSpec Base64 Nip21 Nip44 Nip44Spec Nip44Props GiftWrap GiftWrapSpec GiftWrapProps Nip18Spec Nip46 Nip46Spec Nip46Props RelayProto RelayProtoSpec RelayProtoProps RelayFilter RelayFilterSpec RelayFilterProps RelayMsg RelayMsgSpec RelayMsgProps RelayRecv RelayRecvSpec RelayRecvProps RelaySubProps JsonSpec JsonLib JsonLibProofs RelaySend RelaySendSpec RelaySendProps DeliverySpec DeliveryProps PrivateTripProps.
Open Scope N_scope.

(** ** C157 *)
Section SignTrip.
Variable num : Z -> list N.
Variable sha256 : list N -> list N.
Variable pubkey_of : list N -> option (list N).
Variable sign : list N -> list N -> list N -> option (list N).
Variable verify : list N -> list N -> list N -> bool.
Variable pubkey_parses : list N -> bool.
Variable nce : list N -> list N -> list N -> list N -> option (list N * list N).
Variable ncm : list N -> list N -> list N.
Variable ncv : list N -> list N -> list N -> list N -> list N -> bool.
Variable ncd : list N -> list N -> list N -> list N -> option (list N).
Variable mt : list N -> list N -> list N -> list N -> Prop.
Variable b64enc : list N -> list N.
Variable b64dec : list N -> option (list N).
(** The libraries of signer, relay and client, and their configurations. *)
Variable print printr printc : json -> list N.
Variable parse : list N -> option json.
Variable l44 : limits.
Variable lim limr limc : option ev_limits.
Hypothesis CO : crypto_ok sha256 pubkey_of sign verify pubkey_parses.
Hypothesis NC : nc_contract nce ncm ncv ncd mt.
Hypothesis B64 : b64_contract b64enc b64dec.
Hypothesis B64T : forall l, bytes_ok l -> cstr_ok (b64enc l).
Hypothesis B64N : forall l, l <> [] -> b64enc l <> [].
Hypothesis LIM : 1 <= lim_min l44 /\ lim_min l44 <= lim_max l44 /\ lim_max l44 <= 65535.
Hypothesis LS : json_library print parse.
Hypothesis LR : json_library printr parse.
Hypothesis LC : json_library printc parse.
Notation ser := (serialize_with num).
Notation decrypt := (nip44_decrypt ncv ncd b64dec l44).
Notation Read := (parse_request decrypt print parse).
Notation Make := (create_response ser sha256 pubkey_of sign (nip44_encrypt nce ncm b64enc l44) print parse lim).
Notation Opens := (opens decrypt parse).

Definition has_text (e : event) : Prop := exists c, ev_content e = Some c /\ c <> [].
Lemma opens_same a b sk pk j : same_event a b -> has_text b -> Opens sk pk b j -> Opens sk pk a j.
Proof. intros SE NE (c & t & s & C & R). exists c, t, s. rewrite (same_content _ _ SE NE). auto. Qed.

Lemma signed_same a b : same_event a b -> signed ser sha256 verify b -> signed ser sha256 verify a.
Proof.
  intros ((P & T & K & G & C) & I & S) (SI & SV). split; [|congruence]. unfold serialize_with in *. rewrite I, P, T, K, G, C. exact SI.
Qed.
Lemma arrives_weaken pr pr' pa li lr om kind pk id k l' sent p w (R R' : event -> Prop) : (forall g, R g -> R' g) ->
  arrives pr pr' pa li lr om kind pk id k l' sent p w R -> arrives pr pr' pa li lr om kind pk id k l' sent p w R'.
Proof.
  intros RR (req & fs & S & CR & A). exists req, fs. split; [exact S|]. split; [exact CR|]. intros b a t F1 F2 F3 F4 F5.
  destruct (A b a t F1 F2 F3 F4 F5) as (E & B). split; [exact E|]. intros xs ws cs G1 G2 G3 G4.
  destruct (B xs ws cs G1 G2 G3 G4) as (x & y & g1 & g & g2 & w1 & w2 & H1 & H2 & H3 & H4 & H5 & H6 & H7).
  exists x, y, g1, g, g2, w1, w2. auto 10.
Qed.

(** The asking side: any client, any libraries.  [w] holds a request, encrypted
    to the signer. *)
Definition asks (w : event) (sks pks : list N) (i m : list N) (ps : json) : Prop :=
  carried_event w /\ few_tags w /\ has_text w /\ addressed 24133 pks w /\
  exists j, Opens sks (ev_pubkey w) w j /\ gives j (bs "id") (JStr i) /\ gives j (bs "method") (JStr m) /\ gives j (bs "params") ps.
(** Somebody subscribes, by the library, to what is addressed to [pk]; the
    subscription [id] is served by the handler [k]. *)
Definition subscribed (pk : list N) (id : list N) (k : nat) (l' : list subscr) (sent : option (list N)) : Prop :=
  exists l filters ok f, named l /\ subscribe l id filters (Some k) ok f = (l', sent, Ok tt) /\ a_id f = true /\ sub_id id /\ elems [JObj (inbox 24133 pk)] filters.

(** A request that is published reaches the signer, who reads what was asked, by
    whom, and under which id.  Missing: ids and methods longer than the fields
    (they are cut). *)
Theorem C157_request_partial : forall w sks pks i m ps, asks w sks pks i m ps -> (length i <= 64)%nat -> (length m <= 31)%nat ->
  length pks = 32%nat -> bytes_ok pks -> within_limits limr w -> within_limits lim w ->
  forall on_message id k l' sent, subscribed pks id k l' sent ->
  arrives printr print parse lim limr on_message 24133 pks id k l' sent printc w
    (fun g => Read g sks = Ok (mkRequest i m (Some (print ps)) (ev_pubkey w))).
Proof.
  intros w sks pks i m ps (CW & FW & HT & AD & j & O & G1 & G2 & G3) LI LM PL PB WR WL om id k l' sent (l & filters & ok & f & NL & SUB & AI & SI & EL).
  eapply addressed_arrives; try eassumption; try reflexivity.
  intros g SG. assert (P : ev_pubkey g = ev_pubkey w /\ ev_kind g = ev_kind w) by (destruct SG as ((P & _ & K & _) & _); auto). destruct P as (P & K).
  rewrite <- P. apply C104_request_partial with (j := j); try assumption.
  - rewrite K. apply AD.
  - rewrite P. eapply opens_same; eassumption.
Qed.

(** The response to id [i] that means [o]. *)
Definition answer (i : list N) (o : outcome) : response :=
  match o with Done s => mkResponse i (Some s) None | Failed x => mkResponse i None (Some x) end.
(** What the code sends unchanged: errors, and results that are not, and do not
    begin with, JSON. *)
Definition plain (o : outcome) : Prop := match o with Done s => parse s = None | Failed _ => True end.
Definition said (o : outcome) : list N := match o with Done s => s | Failed x => x end.
Definition told (i : list N) (o : outcome) : json :=
  JObj [(bs "id", JStr i); match o with Done s => (bs "result", JStr s) | Failed x => (bs "error", JStr x) end].
Lemma told_sendable i o : cstr_ok i -> cstr_ok (said o) -> blen (print (told i o)) <= 61440 -> sendable print parse (told i o).
Proof.
  intros CI CS SZ. assert (W : writable (told i o)).
  { constructor. apply Forall_cons; [split; [apply cstr_dec; reflexivity|constructor; exact CI]|]. apply Forall_cons; [|apply Forall_nil].
    destruct o; (split; [apply cstr_dec; reflexivity|constructor; exact CS]). }
  split; [|split; [|exact SZ]].
  - apply (lib_reads _ _ _ LS W). destruct o; cbn; lia.
  - apply (proj1 texts_cstr (told i o)); [apply (lib_print _ _ LS), W|exact W].
Qed.
Lemma response_carried r sks pkc nonce aux now e : (0 <= now < 10 ^ 15)%Z -> bytes_ok pkc -> nonce_ok nonce -> (forall l, lim = Some l -> 0 < max_tags l) ->
  Make r sks pkc nonce aux now = Ok e -> carried_event e /\ has_text e /\ ev_kind e = 24133 /\ ev_tags e = [[bs "p"; hex_encode pkc]].
Proof.
  intros NR PB NO L M. apply response_shape in M as (c & own & EN & P & S1 & S2 & S3 & S4 & S5 & S6 & a & S7).
  assert (TG : ev_tags e = [[bs "p"; hex_encode pkc]]).
  { rewrite S6. destruct lim as [x|]; [|reflexivity]. rewrite (proj2 (N.leb_gt _ _)); [reflexivity|apply L; reflexivity]. }
  pose proof (co_sha _ _ _ _ _ CO) as SHA. destruct (co_pub _ _ _ _ _ CO _ _ P) as (PL & PB' & _). destruct (co_sign _ _ _ _ _ CO _ _ _ _ _ P S7) as (SL & SB & _).
  assert (B53 : (10 ^ 15 < 2 ^ 53)%Z) by reflexivity.
  split; [|split; [|split; [exact S4|exact TG]]].
  - split; [|rewrite S3; lia]. constructor.
    + rewrite S2. apply SHA.
    + rewrite S1. auto.
    + rewrite S3. lia.
    + rewrite S4. reflexivity.
    + rewrite TG. constructor; [|constructor]. split; [discriminate|]. constructor; [apply cstr_dec; reflexivity|]. constructor; [apply cstr_hex, PB|constructor].
    + unfold content_of. rewrite S5. eapply (encrypted_cstr nce ncm ncv ncd mt b64enc l44 NC B64T); eassumption.
    + auto.
  - exists c. split; [exact S5|]. unfold nip44_encrypt in EN. destruct nonce as [n|]; [|discriminate].
    apply bind_ok in EN as (padded & _ & EN). destruct (nce _ _ _ _) as [[ct hk]|]; [|discriminate].
    match type of EN with Ok (b64enc ?x) = _ => assert (X : c = b64enc x) by congruence end. rewrite X. apply B64N. discriminate.
Qed.
(** A response that is published reaches the client, who finds in it the id and
    the outcome.  Missing: results that begin with JSON (see C105), and a signer
    configured to allow no tags (see C106). *)
Theorem C157_response_partial : forall i o sks pks pkc skc nonce aux now e, pubkey_of sks = Some pks -> mt sks pkc skc pks ->
  length pkc = 32%nat -> bytes_ok pkc -> nonce_ok nonce -> (0 <= now < 10 ^ 15)%Z -> cstr_ok i -> cstr_ok (said o) -> plain o -> blen (print (told i o)) <= 61440 ->
  (forall l, lim = Some l -> 0 < max_tags l) ->
  Make (answer i o) sks pkc nonce aux now = Ok e -> within_limits limr e -> within_limits limc e ->
  forall on_message id k l' sent, subscribed pkc id k l' sent ->
  arrives printr printc parse limc limr on_message 24133 pkc id k l' sent print e
    (fun g => ev_pubkey g = pks /\ signed ser sha256 verify g /\ exists j, Opens skc pks g j /\ reports j i o).
Proof.
  intros i o sks pks pkc skc nonce aux now e PK MT PL PB NO NR CI CS PO SZ LT M WR WL om id k l' sent (l & filters & ok & f & NL & SUB & AI & SI & EL).
  destruct (response_carried _ _ _ _ _ _ _ NR PB NO LT M) as (CE & HT & K & TG).
  eapply addressed_arrives; try eassumption; try reflexivity.
  - eapply one_tag_few, TG.
  - split; [exact K|]. exists []. rewrite TG. left. reflexivity.
  - intros g SG. pose proof SG as ((P & SF) & SI' & SS).
    assert (X : told i o = response_tree parse (answer i o)) by (destruct o; [cbn in PO; unfold response_tree; cbn; rewrite PO|]; reflexivity).
    destruct nonce as [n|]; [|discriminate M]. destruct (NO n eq_refl) as (LN & BN).
    destruct (response_opens _ _ _ _ _ _ _ _ _ _ _ _ _ _ _ NC B64 LIM _ _ _ skc pks _ _ _ _ _ PK MT LN BN X (told_sendable i o CI CS SZ) M) as (EP & O).
    split; [congruence|]. split.
    + destruct (C106_event_partial num sha256 pubkey_of sign verify pubkey_parses nce ncm b64enc print parse l44 lim CO _ _ _ _ _ _ _ PB M) as (_ & _ & _ & SE & _).
      eapply signed_same; eassumption.
    + exists (told i o). split; [eapply opens_same; eassumption|]. split; [apply jget_gives; destruct o; reflexivity|].
      destruct o; (split; [apply jget_gives; reflexivity|]); intros v V; apply jget_gives in V; discriminate V.
Qed.
(** Both ways: whoever answers what was read, to whom it was read from, answers
    the client under the id they chose. *)
Theorem C157_exchange_partial : forall w sks pks pkc skc i m ps, asks w sks pks i m ps -> (length i <= 64)%nat -> (length m <= 31)%nat -> cstr_ok i ->
  pubkey_of sks = Some pks -> ev_pubkey w = pkc -> mt sks pkc skc pks -> within_limits limr w -> within_limits lim w ->
  (forall l, lim = Some l -> 0 < max_tags l) ->
  forall on_message id k l' sent, subscribed pks id k l' sent ->
  arrives printr print parse lim limr on_message 24133 pks id k l' sent printc w (fun g => exists q,
    Read g sks = Ok q /\ rq_method q = m /\ rq_params q = Some (print ps) /\
    forall o nonce aux now e, nonce_ok nonce -> (0 <= now < 10 ^ 15)%Z -> cstr_ok (said o) -> plain o -> blen (print (told (rq_id q) o)) <= 61440 ->
    Make (answer (rq_id q) o) sks (rq_sender q) nonce aux now = Ok e -> within_limits limr e -> within_limits limc e ->
    forall on_message id k l' sent, subscribed pkc id k l' sent ->
    arrives printr printc parse limc limr on_message 24133 pkc id k l' sent print e
      (fun g => ev_pubkey g = pks /\ signed ser sha256 verify g /\ exists j, Opens skc pks g j /\ reports j i o)).
Proof.
  intros w sks pks pkc skc i m ps A LI LM CI PK PW MT WR WL LT om id k l' sent SUB.
  destruct (co_pub _ _ _ _ _ CO _ _ PK) as (PL & PB & _).
  assert (KC : length pkc = 32%nat /\ bytes_ok pkc) by (destruct A as ((EO & _) & _); rewrite <- PW; destruct EO; assumption). destruct KC as (KL & KB).
  eapply arrives_weaken; [|eapply C157_request_partial; eassumption].
  intros g R. eexists. split; [exact R|]. cbn [rq_id rq_method rq_params rq_sender]. split; [reflexivity|]. split; [reflexivity|].
  rewrite PW. intros. eapply C157_response_partial; eassumption.
Qed.
End SignTrip.

(** *** A concrete exchange: a ping and its answer, both published after a note *)
Definition ask_tree : json := JObj [(bs "id", JStr (bs "7")); (bs "method", JStr (bs "ping")); (bs "params", JArr [])].
Definition ask_text : list N := match nip44_encrypt toy_enc8 toy_mac b64_encode default_limits toy_pk toy_key (Some (repeat 8 32)) (jprint ask_tree) with Ok c => c | _ => [] end.
Definition ask_wire : event := mkEvent (repeat 1 32) toy_pk 1700000000 24133 [[bs "p"; hex_encode toy_key]] (Some ask_text) (repeat 2 64).
Definition pong_wire : event :=
  match create_response serialize_own GiftWrapProps.toy_sha toy_pub toy_sign (nip44_encrypt toy_enc8 toy_mac b64_encode default_limits) jprint jparse None (answer (bs "7") (Done (bs "pong")))
    toy_key toy_pk (Some (repeat 9 32)) (Some []) 1700000001%Z with Ok e => e | _ => ask_wire end.
Definition sub_of (k : nat) : list subscr := [mkSub (Some (bs "in")) (Some k)].
Definition req_of (pk : list N) : list N := bs "[""REQ"",""in""," ++ jprint (JObj (inbox 24133 pk)) ++ bs "]".
Definition fs_of (pk : list N) : list rfilter := match client_read jprint jparse None (jparse (req_of pk)) with ROk (CReq _ fs) => fs | _ => [] end.
Definition told_of (e : event) : tells := TellEvent (bs "in") (trip_got e).
Lemma toy_subscribed pk k : bytes_ok pk -> subscribed pk (bs "in") k (sub_of k) (Some (req_of pk)).
Proof.
  intros PB. exists [], (jprint (JObj (inbox 24133 pk))), true, all_well. split; [constructor|]. split; [reflexivity|]. split; [reflexivity|].
  split. { split; [cbn; lia|]. repeat (apply Forall_cons; [split; discriminate|]). apply Forall_nil. }
  assert (W : writable (JObj (inbox 24133 pk))) by (apply inbox_writable; [reflexivity|exact PB]).
  rewrite <- (app_nil_r (jprint _)), <- (app_nil_l (jprint _ ++ [])). apply ElOne; [exact ws_nil|exact (lib_print _ _ compact_library _ W)|exact ws_nil].
Qed.
Lemma toy_published e : (exists h', publish_event (fun _ => true) jprint true true true e (mkHeap 0 []) = Ok ((Some (trip_sent e), None), h')) -> published jprint e (trip_sent e).
Proof. intros (h' & E). exists (fun _ => true), true, true, true, (mkHeap 0 []), h'. split; [|split; [intros k _; reflexivity|exact E]]. split; [split; constructor|constructor]. Qed.
Example C157_meets :
  asks toy_verify toy_dec b64_decode jparse default_limits ask_wire toy_key toy_key (bs "7") (bs "ping") (JArr []) /\
  toy_pub toy_key = Some toy_key /\ cstr_ok (bs "7") /\ cstr_ok (bs "pong") /\ plain jparse (Done (bs "pong")) /\ blen (jprint (told (bs "7") (Done (bs "pong")))) <= 61440 /\
  create_response serialize_own GiftWrapProps.toy_sha toy_pub toy_sign (nip44_encrypt toy_enc8 toy_mac b64_encode default_limits) jprint jparse None (answer (bs "7") (Done (bs "pong")))
    toy_key toy_pk (Some (repeat 9 32)) (Some []) 1700000001%Z = Ok pong_wire /\
  subscribed toy_key (bs "in") 4 (sub_of 4) (Some (req_of toy_key)) /\ subscribed toy_pk (bs "in") 5 (sub_of 5) (Some (req_of toy_pk)) /\
  Forall2 (published jprint) ([note2] ++ ask_wire :: []) [trip_sent note2; trip_sent ask_wire] /\
  Forall2 (published jprint) ([note2] ++ pong_wire :: []) [trip_sent note2; trip_sent pong_wire] /\
  forwards (fun s => client_read jprint jparse None (jparse s)) (bs "in") (fs_of toy_key) [trip_sent note2; trip_sent ask_wire] [told_of ask_wire] /\
  forwards (fun s => client_read jprint jparse None (jparse s)) (bs "in") (fs_of toy_pk) [trip_sent note2; trip_sent pong_wire] [told_of pong_wire] /\
  Forall2 (serialized jprint jparse) [told_of ask_wire] [wire (told_of ask_wire)] /\ Forall2 (serialized jprint jparse) [told_of pong_wire] [wire (told_of pong_wire)].
Proof.
  assert (KB : bytes_ok toy_key /\ bytes_ok toy_pk) by (split; apply Forall_repeat; reflexivity). destruct KB as (KB & KC).
  split.
  { split; [split; [constructor|reflexivity]|].
    - split; [reflexivity|apply Forall_repeat; reflexivity].
    - split; [reflexivity|exact KC].
    - split; [discriminate|reflexivity].
    - reflexivity.
    - constructor; [|constructor]. split; [discriminate|]. constructor; [apply cstr_dec; reflexivity|]. constructor; [apply cstr_hex, KB|constructor].
    - apply cstr_dec. vm_compute. reflexivity.
    - split; [reflexivity|apply Forall_repeat; reflexivity].
    - split; [eapply one_tag_few; reflexivity|]. split; [exists ask_text; split; [reflexivity|vm_compute; discriminate]|].
      split; [split; [reflexivity|exists []; left; reflexivity]|]. exists ask_tree.
      split. { exists ask_text, (jprint ask_tree), (jprint ask_tree). split; [reflexivity|]. split; [vm_compute; reflexivity|]. split; [apply c_text_iff; vm_compute; reflexivity|vm_compute; reflexivity]. }
      split; [apply jget_gives; reflexivity|]. split; apply jget_gives; reflexivity. }
  split; [reflexivity|]. split; [apply cstr_dec; reflexivity|]. split; [apply cstr_dec; reflexivity|]. split; [vm_compute; reflexivity|]. split; [vm_compute; discriminate|].
  split; [vm_compute; reflexivity|]. split; [apply toy_subscribed, KB|]. split; [apply toy_subscribed, KC|].
  split; [repeat (apply Forall2_cons; [apply toy_published; eexists; vm_compute; reflexivity|]); apply Forall2_nil|].
  split; [repeat (apply Forall2_cons; [apply toy_published; eexists; vm_compute; reflexivity|]); apply Forall2_nil|].
  split. { apply FwKeep with (e := trip_got note2); [vm_compute; reflexivity|vm_compute; reflexivity|]. apply FwSend; [vm_compute; reflexivity|vm_compute; reflexivity|]. apply FwNone. }
  split. { apply FwKeep with (e := trip_got note2); [vm_compute; reflexivity|vm_compute; reflexivity|]. apply FwSend; [vm_compute; reflexivity|vm_compute; reflexivity|]. apply FwNone. }
  split; (apply Forall2_cons; [|apply Forall2_nil]; exists (repeat 0 3000), 3000; eexists; eexists; split; [vm_compute; reflexivity|]; vm_compute; reflexivity).
Qed.
Print Assumptions C157_request_partial.
Print Assumptions C157_response_partial.
Print Assumptions C157_exchange_partial.
