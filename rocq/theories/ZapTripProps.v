(** A zap from the sender to the wallet server and, through a relay, to its
    recipient: C164. *)
From Verif Require Import Base BaseFacts Heap Dec Json Hex HexSpec HexProofs Event EventSpec EventProps EventMemSpec EventOomSpec Base64 Nip21 Nip44 Nip44Spec Nip44Props GiftWrap GiftWrapSpec GiftWrapProps Nip18Spec Zap ZapSpec ZapProps Nip46Spec Nip46Props RelayProto RelayProtoSpec RelayProtoProps RelayFilter RelayFilterSpec RelayFilterProps RelayMsg RelayMsgSpec RelayMsgProps RelayRecv RelayRecvSpec RelayRecvProps RelaySubProps JsonSpec JsonLib JsonLibProofs RelaySend RelaySendSpec RelaySendProps DeliverySpec DeliveryProps PrivateTripProps SignTripProps WalletTripProps PublicTripProps.
Open Scope N_scope.

(** ** C164 *)
Lemma zap_create_shape lim now amount recipient lnurl content relays q : zap_create lim now amount recipient lnurl content relays = Ok q ->
  ev_created q = now /\ ev_kind q = 9734 /\ content_of q = match content with Some c => c | None => [] end /\
  ev_tags q = (bs "relays" :: firstn 15 relays) :: [bs "amount"; dec_N amount] :: match lnurl with Some l => [[bs "lnurl"; l]] | None => [] end ++ [[bs "p"; hex_encode recipient]].
Proof.
  intros H. unfold zap_create in H. destruct (length relays =? 0)%nat; [discriminate|]. cbv zeta in H.
  apply bind_ok in H as (e1 & H1 & H). apply bind_ok in H as (e2 & H2 & H). apply bind_ok in H as (e3 & H3 & H).
  apply add_tag_ok in H1, H2, H. assert (T3 : e3 = match lnurl with Some l => push e2 [bs "lnurl"; l] | None => e2 end).
  { destruct lnurl; [apply add_tag_ok in H3; exact H3|congruence]. }
  subst q e3 e2 e1. clear H3. unfold content_of. destruct lnurl, content as [[|]|]; auto.
Qed.

Section ZapTrip.
Variable num : Z -> list N.
Variable sha256 : list N -> list N.
Variable pubkey_of : list N -> option (list N).
Variable sign : list N -> list N -> list N -> option (list N).
Variable verify : list N -> list N -> list N -> bool.
Variable pubkey_parses : list N -> bool.
Variable parse_pk : bool.
(** The libraries of the sender, the wallet server, the relay and the recipient,
    and the configurations. *)
Variable print prints printr printa : json -> list N.
Variable parse : list N -> option json.
Variable lim lims limr lima : option ev_limits.
Hypothesis CO : crypto_ok sha256 pubkey_of sign verify pubkey_parses.
Hypothesis LP : json_library print parse.
Hypothesis LS : json_library prints parse.
Hypothesis LR : json_library printr parse.
Hypothesis LA : json_library printa parse.
Notation ser := (serialize_with num).
Notation Sign := (event_sign ser sha256 pubkey_of sign).
Notation Verify mem := (zap_verify lima parse mem ser sha256 verify pubkey_parses parse_pk).

(** A request made by the library, and signed by the sender. *)
Record zap_asked (now : Z) (amount : N) (recipient : list N) (content : option (list N)) (sk own : list N) (q : event) : Prop := mkAsked {
  za_made : exists lnurl relays q0 rnd, zap_create lim now amount recipient lnurl content relays = Ok q0 /\ Sign q0 sk rnd = (q, Ok tt) /\
    opt_cstr lnurl /\ Forall cstr_ok relays;
  za_key : pubkey_of sk = Some own;
  za_now : (0 <= now < 10 ^ 15)%Z;
  za_amount : amount < 2 ^ 64;
  za_to : length recipient = 32%nat /\ bytes_ok recipient;
  za_text : opt_cstr content }.
(** A receipt as NIP-57 has it: for the recipient, holding an invoice over the
    amount and the text of the request; signed by the server. *)
Record zap_paid (text : list N) (amount : N) (recipient inv : list N) (sks srv : list N) (r : event) : Prop := mkPaid {
  zp_made : exists r0 rnd, Sign r0 sks rnd = (r, Ok tt) /\ ev_kind r0 = 9735 /\ (0 <= ev_created r0 < 10 ^ 15)%Z /\ cstr_ok (content_of r0) /\
    (length (ev_tags r0) <= 256)%nat /\ Forall (fun vs => vs <> [] /\ Forall cstr_ok vs) (ev_tags r0) /\ has_value (bs "p") (hex_encode recipient) (ev_tags r0) /\
    (forall x, has_value (bs "description") x (ev_tags r0) <-> x = text) /\ last_is (bs "bolt11") inv (ev_tags r0);
  zp_key : pubkey_of sks = Some srv;
  zp_invoice : exists n m, invoice n m inv /\ m <> Whole /\ msat n m amount /\ n < 2 ^ 64;
  zp_bitcoin : amount <= all_bitcoin }.

Lemma request_carried now amount recipient content sk own q : zap_asked now amount recipient content sk own q ->
  carried_event q /\ ev_pubkey q = own /\ signed ser sha256 verify q /\ ev_kind q = 9734 /\ content_of q = match content with Some c => c | None => [] end /\
  first_is (bs "amount") (dec_N amount) (ev_tags q) /\ has_value (bs "p") (hex_encode recipient) (ev_tags q).
Proof.
  intros [(lnurl & relays & q0 & rnd & CR & SG & OL & RL) PK NW AM (RE & RB) TX].
  apply zap_create_shape in CR as (S1 & S2 & S3 & S4).
  destruct (signed_carried num sha256 pubkey_of sign verify pubkey_parses CO q0 sk rnd q own SG PK) as (CE & EP & ES & EK & ET & EC).
  { rewrite S1. exact NW. } { rewrite S2. reflexivity. }
  { rewrite S4. apply Forall_cons. { split; [discriminate|]. apply Forall_cons; [apply cstr_dec; reflexivity|]. apply Forall_forall. intros x I. rewrite Forall_forall in RL. apply RL. rewrite <- (firstn_skipn 15 relays). apply in_or_app. left. exact I. }
    apply Forall_cons. { split; [discriminate|]. apply Forall_cons; [apply cstr_dec; reflexivity|]. apply Forall_cons; [apply dec_cstr|apply Forall_nil]. }
    apply Forall_app. split.
    - destruct lnurl as [l|]; [|apply Forall_nil]. apply Forall_cons; [|apply Forall_nil]. split; [discriminate|]. apply Forall_cons; [apply cstr_dec; reflexivity|]. apply Forall_cons; [exact OL|apply Forall_nil].
    - apply Forall_cons; [|apply Forall_nil]. split; [discriminate|]. apply Forall_cons; [apply cstr_dec; reflexivity|]. apply Forall_cons; [apply cstr_hex, RB|apply Forall_nil]. }
  { rewrite S3. destruct content; [exact TX|constructor]. }
  split; [exact CE|]. split; [exact EP|]. split; [exact ES|]. split; [congruence|]. split; [unfold content_of in *; rewrite EC; exact S3|]. rewrite ET, S4. split.
  - exists [bs "relays" :: firstn 15 relays]. eexists. eexists. split; [reflexivity|]. apply Forall_cons; [|apply Forall_nil]. intros (v & r & E). discriminate E.
  - exists []. right. right. apply in_or_app. right. left. reflexivity.
Qed.
Lemma read_back p l q : json_library p parse -> carried_event q -> within_limits l q -> exists e, event_from_json parse l (event_to_json p q) = Ok e /\ same_event e q.
Proof.
  intros L C W. eexists. split; [apply C20_json_roundtrip; [apply event_reads; assumption|apply C|pose proof (proj2 C); lia|exact W]|repeat split; reflexivity].
Qed.

(** The server reads the sender's text as the request: who asks, whom it is for,
    how much, and that it is signed. *)
Theorem C164_request : forall now amount recipient content sk own q, zap_asked now amount recipient content sk own q -> within_limits lims q ->
  exists q', event_from_json parse lims (event_to_json print q) = Ok q' /\ same_event q' q /\ signed ser sha256 verify q' /\ ev_pubkey q' = own /\
    ev_kind q' = 9734 /\ request_amount (ev_tags q') = amount /\ has_value (bs "p") (hex_encode recipient) (ev_tags q').
Proof.
  intros now amount recipient content sk own q A W. destruct (request_carried _ _ _ _ _ _ _ A) as (C & P & S & K & _ & F & H).
  destruct (read_back print lims q LP C W) as (e & R & SE). exists e. split; [exact R|]. split; [exact SE|]. pose proof SE as ((P' & _ & K' & T' & _) & _).
  split; [eapply signed_same; eassumption|]. split; [congruence|]. split; [congruence|]. rewrite T'. split; [|exact H]. apply asked_dec; [exact F|apply (za_amount _ _ _ _ _ _ _ A)].
Qed.

(** What the recipient's handler is given passes the library's check against the
    server's key, both with the request it holds and with the sender's own; reading
    it gives the amount, the invoice and the sender's signed request. *)
Definition zapped (g : event) (amount : N) (inv srv own : list N) (content : list N) (q : event) : Prop :=
  forall mem, (forall k, mem k = true) -> exists st b1 b2 e,
    parse_receipt lima parse mem all_wanted receipt0 g = (st, Ok (Some amount)) /\ rc_bolt st = SBlock b1 inv /\ rc_req st = SBlock b2 e /\
    same_event e q /\ signed ser sha256 verify e /\ ev_pubkey e = own /\ content_of e = content /\
    snd (Verify mem g e (hex_encode srv)) = Ok tt /\ snd (Verify mem g q (hex_encode srv)) = Ok tt.
Theorem C164_zap_partial : forall now amount recipient content sk own q inv sks srv r,
  zap_asked now amount recipient content sk own q -> zap_paid (event_to_json print q) amount recipient inv sks srv r ->
  within_limits lima q -> within_limits limr r -> within_limits lima r ->
  forall on_message i k l' sent, subscribed_to 9735 recipient i k l' sent ->
  arrives printr printa parse lima limr on_message 9735 recipient i k l' sent prints r
    (fun g => ev_pubkey g = srv /\ zapped g amount inv srv own (match content with Some c => c | None => [] end) q).
Proof.
  intros now amount recipient content sk own q inv sks srv r A [(r0 & rnd & SG & RK & RC & CC & TL & TG & HP & HD & HB) PK (n & m & IV & MW & MS & NB) AB] WQ WR WL om i k l' sent (l & filters & ok & f & NL & SUB & AI & SI & EL).
  destruct (request_carried _ _ _ _ _ _ _ A) as (C & P & S & K & CT & F & H). destruct A as [_ _ _ AM (RE & RB) _].
  destruct (signed_carried num sha256 pubkey_of sign verify pubkey_parses CO r0 sks rnd r srv SG PK) as (CE & EP & ES & EK & ET & EC); [exact RC|rewrite RK; reflexivity|exact TG|exact CC|].
  destruct (read_back print lima q LP C WQ) as (e & RD & SQ).
  destruct (co_pub _ _ _ _ _ CO _ _ PK) as (SL & SB & SP). pose proof (fun x => proj1 (co_sha _ _ _ _ _ CO x)) as SHA.
  rewrite <- ET in TL, HP, HD, HB.
  eapply addressed_arrives; try eassumption; try reflexivity.
  - apply short_few, TL.
  - split; [congruence|]. exact HP.
  - intros g SE. pose proof SE as ((GP & _ & GK & GT & _) & GI & GS). split; [congruence|]. intros mem MM.
    rewrite <- GT in HD, HB. assert (K9 : ev_kind g = 9735) by congruence.
    assert (DV : forall v, has_value (bs "description") v (ev_tags g) -> exists e, event_from_json parse lima v = Ok e) by (intros v V; apply HD in V; subst v; eauto).
    destruct (tags_run lima parse mem all_wanted MM eq_refl (ev_tags g) DV receipt0) as (st & RN).
    destruct (tags_ok lima parse mem all_wanted eq_refl eq_refl eq_refl _ _ _ RN) as (_ & T2 & _ & T4 & _).
    destruct (T2 _ HB) as (b1 & B1). destruct (last_or (bs "description") (ev_tags g)) as [NO|(v & LV)].
    { exfalso. destruct (proj2 (HD _) eq_refl) as (x & I). rewrite Forall_forall in NO. apply (NO _ I). eexists. eexists. reflexivity. }
    assert (v = event_to_json print q) by (apply HD, last_has, LV). subst v. destruct (T4 _ LV) as (b2 & e' & RD' & B2). assert (e' = e) by congruence. subst e'. clear RD'.
    pose proof SQ as ((QP & _ & QK & QT & QC) & QI & _).
    exists st, b1, b2, e. split.
    { unfold parse_receipt. rewrite K9. change (9735 =? ZAP_RECEIPT_KIND) with true. cbn [negb]. rewrite RN, B1. cbn [all_wanted w_amount w_bolt andb]. rewrite (C61_multiplier_partial n m inv amount IV MW MS AB NB). reflexivity. }
    split; [exact B1|]. split; [exact B2|]. split; [exact SQ|]. split; [eapply signed_same; eassumption|]. split; [congruence|]. split; [congruence|].
    assert (SZ : sized g). { destruct CE as ([I1 I2 _ _ _ _ _] & _). split; [rewrite GI; apply I1|]. rewrite GP. exact I2. }
    assert (GG : genuine num sha256 verify pubkey_parses parse_pk g).
    { destruct (signed_same num sha256 verify g r SE ES) as (G1 & G2). split; [exact G1|]. split; [intros _; rewrite GP, EP; exact SP|exact G2]. }
    assert (QL : length (ev_id q) = 32%nat) by (destruct C as ([I1 _ _ _ _ _ _] & _); apply I1).
    assert (LH : lower_hex (hex_encode srv) (ev_pubkey g)) by (rewrite GP, EP; apply lower_hex_encode, SB).
    split; eapply (C99_accepted_partial lima parse mem num sha256 verify pubkey_parses parse_pk SHA) with (a := amount); try eassumption; try congruence.
Qed.
End ZapTrip.

(** *** A concrete zap of 2000 satoshi, published after a note *)
Definition zap_draft : event := match zap_create None 1700000000 2000000 toy_pk (Some (bs "lnurl1x")) (Some (bs "thanks")) [bs "wss://r"; bs "wss://s"] with Ok e => e | _ => note2 end.
Definition zap_inv : list N := bs "lnbc20u1p3unwfusp5t9r3yymhpfqculx78u027lxspgxcr2n2987mx2j55nnfs95nxnzq".
Definition zap_receipt : event :=
  mkEvent (repeat 0 32) (repeat 0 32) 1700000005 9735 [[bs "p"; hex_encode toy_pk]; [bs "P"; hex_encode toy_key]; [bs "bolt11"; zap_inv]; [bs "description"; event_to_json jprint (toy_signed zap_draft)]; [bs "preimage"; bs "00"]] (Some []) (repeat 0 64).
Example C164_meets :
  zap_asked dec_Z GiftWrapProps.toy_sha toy_pub toy_sign None 1700000000 2000000 toy_pk (Some (bs "thanks")) toy_key toy_key (toy_signed zap_draft) /\
  zap_paid dec_Z GiftWrapProps.toy_sha toy_pub toy_sign (event_to_json jprint (toy_signed zap_draft)) 2000000 toy_pk zap_inv toy_key toy_key (toy_signed zap_receipt) /\
  toy_run 9735 (toy_signed zap_receipt).
Proof.
  assert (TP : length toy_pk = 32%nat /\ bytes_ok toy_pk) by (split; [reflexivity|apply Forall_repeat; reflexivity]).
  split; [|split; [|toy_run]].
  - constructor; [|reflexivity|lia|reflexivity|exact TP|apply cstr_dec; reflexivity].
    exists (Some (bs "lnurl1x")), [bs "wss://r"; bs "wss://s"], zap_draft, (Some []). split; [vm_compute; reflexivity|]. split; [vm_compute; reflexivity|]. split; [apply cstr_dec; reflexivity|].
    repeat (apply Forall_cons; [apply cstr_dec; reflexivity|]). apply Forall_nil.
  - constructor; [|reflexivity| |vm_compute; discriminate].
    + exists zap_receipt, (Some []). split; [vm_compute; reflexivity|]. split; [reflexivity|]. split; [cbn; lia|]. split; [apply cstr_dec; reflexivity|]. split; [cbn; lia|].
      split; [repeat (apply Forall_cons; [split; [discriminate|]; repeat (apply Forall_cons; [apply cstr_dec; vm_compute; reflexivity|]); apply Forall_nil|]); apply Forall_nil|].
      split; [exists []; left; reflexivity|]. unfold zap_receipt. cbn [ev_tags]. generalize (event_to_json jprint (toy_signed zap_draft)). intros t. split.
      * intros x. split; [|intros ->; exists []; do 3 right; left; reflexivity]. intros (r & I). repeat destruct I as [I|I]; try discriminate I; [congruence|destruct I].
      * eexists [_; _], [], [_; _]. split; [reflexivity|]. repeat (apply Forall_cons; [intros (v & r & Q); discriminate Q|]). apply Forall_nil.
    + exists 20, Micro. destruct C61_meets as (I & M & _). split; [exact I|]. split; [discriminate|]. split; [exact M|reflexivity].
Qed.
Print Assumptions C164_request.
Print Assumptions C164_zap_partial.
Print Assumptions C164_meets.
