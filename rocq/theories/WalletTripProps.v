(** Wallet connect through a relay: C158. *)
From Verif Require Import Base BaseFacts Heap Dec Json Hex HexSpec HexProofs Event EventSpec EventProps EventMemSpec EventOomSpec Base64 Nip21 Nip44 Nip44Spec Nip44Props GiftWrap GiftWrapSpec GiftWrapProps Nip18Spec Nip46Spec Nip46Props RelayProto RelayProtoSpec RelayProtoProps RelayFilter RelayFilterSpec RelayFilterProps RelayMsg RelayMsgSpec RelayMsgProps RelayRecv RelayRecvSpec RelayRecvProps RelaySubProps JsonSpec JsonLib JsonLibProofs RelaySend RelaySendSpec RelaySendProps DeliverySpec DeliveryProps PrivateTripProps SignTripProps Nip47 Nip47Spec Nip47Props Nip47Cjson Nip47CjsonSpec Nip47CjsonProofs Nip47CjsonProps.
Open Scope N_scope.

(** ** C158 *)
Section WalletTrip.
Variable num : Z -> list N.
Variable sha256 : list N -> list N.
Variable pubkey_of : list N -> option (list N).
Variable sign : list N -> list N -> list N -> option (list N).
Variable verify : list N -> list N -> list N -> bool.
Variable pubkey_parses : list N -> bool.
Variable nce : list N -> list N -> list N -> list N -> option (list N * list N).
Variable ncm : list N -> list N -> list N.
Variable ncv : list N -> list N -> list N -> list N -> list N -> bool.
Variable ncd : list N -> list N -> list N -> list N -> option (list N).
Variable mt : list N -> list N -> list N -> list N -> Prop.
Variable b64enc : list N -> list N.
Variable b64dec : list N -> option (list N).
(** The libraries of client, relay and wallet, and their configurations. *)
Variable print printr printw : json -> list N.
Variable parse : list N -> option json.
Variable l44 : limits.
Variable lim limr limw : option ev_limits.
Hypothesis CO : crypto_ok sha256 pubkey_of sign verify pubkey_parses.
Hypothesis NC : nc_contract nce ncm ncv ncd mt.
Hypothesis B64 : b64_contract b64enc b64dec.
Hypothesis B64T : forall l, bytes_ok l -> cstr_ok (b64enc l).
Hypothesis B64N : forall l, l <> [] -> b64enc l <> [].
Hypothesis LIM : 1 <= lim_min l44 /\ lim_min l44 <= lim_max l44 /\ lim_max l44 <= 65535.
Hypothesis LC : json_library print parse.
Hypothesis LR : json_library printr parse.
Hypothesis LW : json_library printw parse.
Notation ser := (serialize_with num).
Notation decrypt := (nip44_decrypt ncv ncd b64dec l44).
Notation Opens := (opens decrypt parse).

(** Somebody subscribes, by the library, to what of this kind is addressed to [pk]. *)
Definition subscribed_to (kind : N) (pk : list N) (id : list N) (k : nat) (l' : list subscr) (sent : option (list N)) : Prop :=
  exists l filters ok f, named l /\ subscribe l id filters (Some k) ok f = (l', sent, Ok tt) /\ a_id f = true /\ sub_id id /\ elems [JObj (inbox kind pk)] filters.

(** The client builds the parameters and the request by the library, signs the
    event with the secret of the connection and publishes it: the wallet's handler
    is given it, signed by the client's key, and reads in it the method and the
    parameters that were asked for.  Missing: what C134 misses (long texts, large
    numbers). *)
Theorem C158_request_partial : forall grant rq m h rest b s h' conn method nonce now aux e w skw pkc, (forall k, grant k = true) -> call grant print rq m -> proper rq -> sendable rq -> holds h rest ->
  m h = Ok ((Some (b, s), None), h') -> cstr_ok method -> (length method <= 42)%nat -> N.of_nat (length s) + 6 * N.of_nat (length method) <= 8167 ->
  request parse pubkey_of (fun sk pk => nip44_encrypt nce ncm b64enc l44 sk pk nonce) conn method s true now = Ok e ->
  event_sign ser sha256 pubkey_of sign (compute_id ser sha256 e) (nw_secret conn) aux = (w, Ok tt) ->
  pubkey_of (nw_secret conn) = Some pkc -> mt (nw_secret conn) (nw_service conn) skw pkc ->
  length (nw_service conn) = 32%nat -> bytes_ok (nw_service conn) -> nonce_ok nonce -> (0 <= now < 10 ^ 15)%Z -> within_limits limr w -> within_limits limw w ->
  forall on_message id k l' sent, subscribed_to 23194 (nw_service conn) id k l' sent ->
  arrives printr printw parse limw limr on_message 23194 (nw_service conn) id k l' sent print w
    (fun g => ev_pubkey g = pkc /\ signed ser sha256 verify g /\ Opens skw pkc g (request_of method (params_of rq))).
Proof.
  intros grant rq m h rest b s h' conn method nonce now aux e w skw pkc G C P SE HD RUN CM LM SZ R SG PK MT PL PB NO NR WR WL om id k l' sent (l & filters & ok & f & NL & SUB & AI & SI & EL).
  destruct (asked_text _ _ _ _ _ _ _ LC G C P SE HD) as (b1 & s1 & h1 & RUN1 & J).
  assert (s1 = s) by congruence. subst s1. clear RUN RUN1. pose proof (params_depth rq) as DP.
  destruct (payload_text _ _ _ _ _ LC J ltac:(lia) CM LM SZ) as (p & PY & JP & LP).
  assert (PW : writable (request_of method (params_of rq))).
  { constructor. apply Forall_cons; [split; [apply cstr_dec; reflexivity|constructor; exact CM]|]. apply Forall_cons; [|apply Forall_nil]. split; [apply cstr_dec; reflexivity|].
    apply params_writable, SE. }
  assert (PC : cstr_ok p).
  { destruct JP as (w1 & x & w2 & W1 & T & W2 & ->). rewrite !cstr_app. split; [apply ws_cstr, W1|]. split; [exact (proj1 texts_cstr _ _ T PW)|apply ws_cstr, W2]. }
  assert (PP : parse p = Some (request_of method (params_of rq))).
  { apply (lib_parse _ _ LC _ _ JP). unfold request_of. cbn [depth fold_right snd]. lia. }
  unfold request in R. rewrite PK, PY in R. cbn [bind] in R. destruct (nip44_encrypt _ _ _ _ _ _ _ _) as [c| |] eqn:EN; try discriminate. cbn [bind] in R.
  assert (E : ev_created e = now /\ ev_kind e = 23194 /\ ev_content e = Some c /\ ev_tags e = [[bs "p"; hex_encode (nw_service conn)]; [bs "encryption"; bs "nip44_v2"]])
    by (match type of R with Ok ?x = _ => assert (Z : e = x) by congruence end; subst e; auto). destruct E as (E1 & E2 & E3 & E4). clear R.
  apply (sign_created num sha256 pubkey_of sign) in SG as (own & PO & S1 & S2 & S3 & S4 & S5 & S6 & a & S7). cbn [compute_id ev_created ev_kind ev_tags ev_content] in S3, S4, S5, S6.
  assert (S1' : ev_pubkey w = pkc) by congruence. clear S1. rename S1' into S1. rewrite E1 in S3. rewrite E2 in S4. rewrite E4 in S5. rewrite E3 in S6.
  assert (HT : has_text w).
  { exists c. split; [exact S6|]. unfold nip44_encrypt in EN. destruct nonce as [n|]; [|discriminate].
    apply bind_ok in EN as (padded & _ & EN). destruct (nce _ _ _ _) as [[ct hk]|]; [|discriminate].
    match type of EN with Ok (b64enc ?x) = _ => assert (X : c = b64enc x) by congruence end. rewrite X. apply B64N. discriminate. }
  pose proof (co_sha _ _ _ _ _ CO) as SHA. destruct (co_pub _ _ _ _ _ CO _ _ PK) as (KL & KB & _). destruct (co_sign _ _ _ _ _ CO _ _ _ _ _ PK S7) as (SL & SB & SV).
  assert (B53 : (10 ^ 15 < 2 ^ 53)%Z) by reflexivity.
  assert (CW : carried_event w).
  { split; [|rewrite S3; lia]. constructor.
    - rewrite S2. apply SHA.
    - rewrite S1. auto.
    - rewrite S3. lia.
    - rewrite S4. reflexivity.
    - rewrite S5. apply Forall_cons; [|apply Forall_cons; [|apply Forall_nil]]; (split; [discriminate|]);
        (apply Forall_cons; [apply cstr_dec; reflexivity|apply Forall_cons; [|apply Forall_nil]]); [apply cstr_hex, PB|apply cstr_dec; reflexivity].
    - unfold content_of. rewrite S6. eapply (encrypted_cstr nce ncm ncv ncd mt b64enc l44 NC B64T); eassumption.
    - auto. }
  eapply addressed_arrives; try eassumption; try reflexivity.
  - intros name. unfold tags_named. rewrite S5. cbn [filter]. repeat match goal with |- context[if ?b then _ else _] => destruct b end; cbn [length]; lia.
  - split; [exact S4|]. exists []. rewrite S5. left. reflexivity.
  - intros g SAME. split; [destruct SAME as ((Q & _) & _); congruence|]. split.
    + eapply signed_same; [exact SAME|]. split; [exact S2|]. rewrite S1. exact SV.
    + eapply opens_same; [exact SAME|exact HT|]. exists c, p, p. split; [exact S6|]. destruct nonce as [n|]; [|discriminate EN]. destruct (NO n eq_refl) as (LN & BN). destruct LIM as (L1 & L2 & L3). split.
      * rewrite (C11_roundtrip_partial _ _ _ _ _ _ _ _ _ _ skw pkc _ _ _ NC B64 MT L1 L2 L3 LN BN (cstr_bytes _ PC) EN). unfold blen. rewrite (proj2 (N.leb_le _ _)) by lia. reflexivity.
      * split; [|exact PP]. apply c_text_iff, until_nul_cstr, PC.
Qed.

(** What the wallet notifies the client of is read with the wallet's key. *)
Theorem C158_notification : forall w skc pkc m, carried_event w -> few_tags w -> has_text w -> addressed 23197 pkc w -> length pkc = 32%nat -> bytes_ok pkc ->
  parse_notification (fun sk pk c => match c with Some c => decrypt sk pk c | None => Err EInvalidParam end) w skc = Ok m ->
  within_limits limr w -> within_limits lim w ->
  forall on_message id k l' sent, subscribed_to 23197 pkc id k l' sent ->
  arrives printr print parse lim limr on_message 23197 pkc id k l' sent printw w
    (fun g => parse_notification (fun sk pk c => match c with Some c => decrypt sk pk c | None => Err EInvalidParam end) g skc = Ok m).
Proof.
  intros w skc pkc m CW FW HT AD PL PB PN WR WL om id k l' sent (l & filters & ok & f & NL & SUB & AI & SI & EL).
  eapply addressed_arrives; try eassumption; try reflexivity.
  intros g SG. unfold parse_notification in *. rewrite (same_content _ _ SG HT). destruct SG as ((P & _ & K & _) & _). rewrite P, K. exact PN.
Qed.
End WalletTrip.

(** *** A concrete run: an invoice to be paid, and a notification *)
Definition pay_asked : asks := PayInvoice (bs "lnbc1") (Some 7).
Definition pay_said : list N := bs "{""invoice"":""lnbc1"",""amount"":7}".
Definition toy_conn : nwc := mkNwc [bs "wss://r"] toy_key toy_pk None.
Definition toy_draft : event :=
  match request jparse toy_pub (fun sk pk => nip44_encrypt toy_enc8 toy_mac b64_encode default_limits sk pk (Some (repeat 9 32))) toy_conn (bs "pay_invoice") pay_said true 1700000000 with Ok e => e | _ => toy_event end.
Definition pay_wire : event := fst (event_sign serialize_own GiftWrapProps.toy_sha toy_pub toy_sign (compute_id serialize_own GiftWrapProps.toy_sha toy_draft) toy_key (Some [])).
Definition paid_text : list N := match nip44_encrypt toy_enc8 toy_mac b64_encode default_limits toy_pk toy_key (Some (repeat 8 32)) (bs "{}") with Ok c => c | _ => [] end.
Definition paid_wire : event := mkEvent (repeat 1 32) toy_pk 1700000000 23197 [[bs "p"; hex_encode toy_key]] (Some paid_text) (repeat 2 64).
Definition wreq_of (kind : N) (pk : list N) : list N := bs "[""REQ"",""in""," ++ jprint (JObj (inbox kind pk)) ++ bs "]".
Definition wfs_of (kind : N) (pk : list N) : list rfilter := match client_read jprint jparse None (jparse (wreq_of kind pk)) with ROk (CReq _ fs) => fs | _ => [] end.
Lemma toy_subscribed_to kind pk k : kind < 65536 -> bytes_ok pk -> subscribed_to kind pk (bs "in") k (sub_of k) (Some (wreq_of kind pk)).
Proof.
  intros KB PB. exists [], (jprint (JObj (inbox kind pk))), true, all_well. split; [constructor|]. split; [reflexivity|]. split; [reflexivity|].
  split. { split; [cbn; lia|]. repeat (apply Forall_cons; [split; discriminate|]). apply Forall_nil. }
  assert (W : writable (JObj (inbox kind pk))) by (apply inbox_writable; assumption).
  rewrite <- (app_nil_r (jprint _)), <- (app_nil_l (jprint _ ++ [])). apply ElOne; [exact ws_nil|exact (lib_print _ _ compact_library _ W)|exact ws_nil].
Qed.
Example C158_meets :
  (exists h', pay_invoice_m (fun _ => true) jprint (bs "lnbc1") (Some 7) (mkHeap 0 []) = Ok ((Some (6%nat, pay_said), None), h')) /\
  call (fun _ => true) jprint pay_asked (pay_invoice_m (fun _ => true) jprint (bs "lnbc1") (Some 7)) /\ proper pay_asked /\ sendable pay_asked /\
  N.of_nat (length pay_said) + 6 * N.of_nat (length (bs "pay_invoice")) <= 8167 /\
  request jparse toy_pub (fun sk pk => nip44_encrypt toy_enc8 toy_mac b64_encode default_limits sk pk (Some (repeat 9 32))) toy_conn (bs "pay_invoice") pay_said true 1700000000 = Ok toy_draft /\
  event_sign serialize_own GiftWrapProps.toy_sha toy_pub toy_sign (compute_id serialize_own GiftWrapProps.toy_sha toy_draft) (nw_secret toy_conn) (Some []) = (pay_wire, Ok tt) /\
  toy_pub (nw_secret toy_conn) = Some toy_key /\
  subscribed_to 23194 (nw_service toy_conn) (bs "in") 4 (sub_of 4) (Some (wreq_of 23194 toy_pk)) /\
  Forall2 (published jprint) ([note2] ++ pay_wire :: []) [trip_sent note2; trip_sent pay_wire] /\
  forwards (fun s => client_read jprint jparse None (jparse s)) (bs "in") (wfs_of 23194 toy_pk) [trip_sent note2; trip_sent pay_wire] [told_of pay_wire] /\
  Forall2 (serialized jprint jparse) [told_of pay_wire] [wire (told_of pay_wire)].
Proof.
  assert (KC : bytes_ok toy_pk) by (apply Forall_repeat; reflexivity).
  split; [eexists; vm_compute; reflexivity|]. split; [left; constructor|]. split; [exact I|]. split; [split; [apply cstr_dec; reflexivity|intros a E; injection E as <-; reflexivity]|].
  split; [vm_compute; discriminate|]. split; [vm_compute; reflexivity|]. split; [vm_compute; reflexivity|]. split; [reflexivity|].
  split; [apply toy_subscribed_to; [reflexivity|exact KC]|].
  split; [repeat (apply Forall2_cons; [apply toy_published; eexists; vm_compute; reflexivity|]); apply Forall2_nil|].
  split. { apply FwKeep with (e := trip_got note2); [vm_compute; reflexivity|vm_compute; reflexivity|]. apply FwSend; [vm_compute; reflexivity|vm_compute; reflexivity|]. apply FwNone. }
  apply Forall2_cons; [|apply Forall2_nil]; exists (repeat 0 3000), 3000; eexists; eexists; split; [vm_compute; reflexivity|]; vm_compute; reflexivity.
Qed.
Example C158_notification_meets :
  parse_notification (fun sk pk c => match c with Some c => nip44_decrypt toy_verify toy_dec b64_decode default_limits sk pk c | None => Err EInvalidParam end) paid_wire toy_key = Ok (bs "{}") /\
  has_text paid_wire /\ addressed 23197 toy_key paid_wire /\ few_tags paid_wire /\ subscribed_to 23197 toy_key (bs "in") 4 (sub_of 4) (Some (wreq_of 23197 toy_key)) /\
  forwards (fun s => client_read jprint jparse None (jparse s)) (bs "in") (wfs_of 23197 toy_key) [trip_sent paid_wire] [told_of paid_wire].
Proof.
  split; [vm_compute; reflexivity|]. split; [exists paid_text; split; [reflexivity|vm_compute; discriminate]|]. split; [split; [reflexivity|exists []; left; reflexivity]|].
  split; [eapply one_tag_few; reflexivity|]. split; [apply toy_subscribed_to; [reflexivity|apply Forall_repeat; reflexivity]|].
  apply FwSend; [vm_compute; reflexivity|vm_compute; reflexivity|]. apply FwNone.
Qed.
Print Assumptions C158_request_partial.
Print Assumptions C158_notification.
