(** What a relay keeps and what makes it forget: C165. *)
From Verif Require Import Base BaseFacts Heap Dec Json Hex HexSpec HexProofs Event EventSpec EventProps EventMemSpec EventOomSpec GiftWrap GiftWrapSpec GiftWrapProps Nip18Spec RelayProto RelayProtoSpec RelayProtoProps RelayFilter RelayFilterSpec RelayFilterProps RelayMsg RelayMsgSpec RelayMsgProps RelayRecv RelayRecvSpec RelaySubProps JsonSpec JsonLib JsonLibProofs RelaySend RelaySendSpec RelaySendProps DeliverySpec DeliveryProps PrivateTripProps SignTripProps PublicTripProps StoreSpec.
Open Scope N_scope.

(** ** C165 *)
Lemma hex_nibble_small c v : hex_nibble c = Some v -> v < 16.
Proof. unfold hex_nibble. repeat match goal with |- context[if ?b then _ else _] => destruct b eqn:? end; try discriminate; intros H; match type of H with Some ?x = _ => assert (v = x) by congruence end; rewrite ?andb_true_iff, ?N.leb_le in *; lia. Qed.
Lemma scan_hh_byte s b : scan_hh s = Some b -> byte_ok b.
Proof.
  unfold byte_ok. assert (D1 : forall s v, scan_digits1 s = Some v -> v < 16) by (intros [|c r] v Q; [cbn in Q; discriminate Q|exact (hex_nibble_small c v Q)]).
  unfold scan_hh. cbv zeta. destruct (Hex.skip_ws s) as [|c r]; [intros H; discriminate H|]. destruct (c =? 43); [intros H; apply D1 in H; lia|]. destruct (c =? 45).
  - destruct (scan_digits1 r) as [v|]; [|intros H; discriminate H]. intros H. assert (b = (256 - v) mod 256) by congruence. subst b. apply N.mod_lt. discriminate.
  - unfold scan_digits2. destruct (hex_nibble c) as [a|] eqn:A; [|intros H; discriminate H]. apply hex_nibble_small in A. destruct r as [|d r]; [intros H; assert (b = a) by congruence; lia|].
    destruct ((c =? 48) && ((d =? 120) || (d =? 88))); [intros H; assert (b = 0) by congruence; lia|].
    destruct (hex_nibble d) as [v|] eqn:V; [apply hex_nibble_small in V|]; intros H; [assert (b = a * 16 + v) by congruence|assert (b = a) by congruence]; lia.
Qed.
Lemma scan_bytes_ok n : forall s l, scan_bytes n s = Some l -> bytes_ok l.
Proof.
  induction n as [|n IH]; intros s l H; cbn [scan_bytes] in H; [assert (l = []) by congruence; subst; constructor|].
  destruct (scan_hh s) as [b|] eqn:B; [|discriminate]. destruct (scan_bytes n (skipn 2 s)) as [r|] eqn:R; [|discriminate].
  assert (l = b :: r) by congruence. subst l. constructor; [apply (scan_hh_byte s), B|apply (IH _ _ R)].
Qed.
Lemma hex_field_ok n f b : hex_field n f = Ok b -> length b = n /\ bytes_ok b.
Proof.
  intros H. split; [apply (hex_field_faithful n f b H)|]. unfold hex_field, hex_to_bytes in H.
  assert (Z : bytes_ok (repeat 0 n)) by (apply Forall_repeat; reflexivity).
  destruct f as [[| | |s| |]|]; try (assert (b = repeat 0 n) by congruence; subst b; exact Z).
  destruct (negb (length s =? n * 2)%nat); [discriminate|]. destruct (scan_bytes n s) as [x|] eqn:S; [|discriminate]. assert (b = x) by congruence. subst b. apply (scan_bytes_ok _ _ _ S).
Qed.
(** Whatever text an event was read from, its id and key are 32 bytes. *)
Lemma read_ids print parse lim j e : client_read print parse lim j = ROk (CEvent e) -> key_ok e /\ id_ok e.
Proof.
  intros R. apply C100_exact in R as (js & _ & T). inversion T as [k more e' EI| | | |]; subst. unfold event_is, event_from_json in EI. destruct (parse (print k)) as [t|]; [|discriminate].
  unfold event_from_tree in EI. apply bind_ok in EI as (id & Hid & EI). apply bind_ok in EI as (pk & Hpk & EI).
  apply bind_ok in EI as (cr & _ & EI). apply bind_ok in EI as (ct & _ & EI). apply bind_ok in EI as (tg & _ & EI). apply bind_ok in EI as (sg & _ & EI).
  apply hex_field_ok in Hid. apply hex_field_ok in Hpk. apply (f_equal (fun r => match r with Ok x => (ev_pubkey x, ev_id x) | _ => ([], []) end)) in EI. cbn in EI.
  assert (ev_pubkey e = pk /\ ev_id e = id) as (E1 & E2) by (split; congruence). unfold key_ok, id_ok. rewrite E1, E2. auto.
Qed.
Lemma removed_iff x e : key_ok x -> key_ok e -> id_ok e -> removed_by x e = true <-> asks_removal x e.
Proof.
  intros KX KE IE. unfold removed_by, asks_removal. destruct (deletion_parse x) as [d|er|] eqn:P.
  - rewrite orb_true_iff, (C55_by_id x d e KX KE IE P), (C55_by_address_partial x d e KX KE P). tauto.
  - split; [discriminate|]. intros (K & _). apply C55_kind in K as (d & D). congruence.
  - split; [discriminate|]. intros (K & _). apply C55_kind in K as (d & D). congruence.
Qed.

Lemma last_arrival (l : list arrival) : l = [] \/ exists l' z, l = l' ++ [z].
Proof. destruct l as [|a l] using rev_ind; [left; reflexivity|right; eauto]. Qed.
Section Store.
Variable num : Z -> list N.
Variable sha256 : list N -> list N.
Variable pubkey_of : list N -> option (list N).
Variable sign : list N -> list N -> list N -> option (list N).
Variable verify : list N -> list N -> list N -> bool.
Variable pubkey_parses : list N -> bool.
Variable parse_pk : bool.
Variable print printr : json -> list N.
Variable parse : list N -> option json.
Variable limr : option ev_limits.
(** How far in the future an event may be, for this relay. *)
Variable ahead : Z.
Hypothesis CO : crypto_ok sha256 pubkey_of sign verify pubkey_parses.
Hypothesis LP : json_library print parse.
Hypothesis LR : json_library printr parse.
Notation ser := (serialize_with num).
Notation Sign := (event_sign ser sha256 pubkey_of sign).
Notation reads s := (client_read printr parse limr (parse s)).
Notation After := (store_after (fun s => reads s) (fun e now now2 => validate_full ser sha256 verify pubkey_parses parse_pk e ahead now now2)).
Notation Accept := (accept (fun s => reads s) (fun e now now2 => validate_full ser sha256 verify pubkey_parses parse_pk e ahead now now2)).
Definition clocks (a : arrival) : Prop := (ar_now2 a < 2 ^ 63)%Z /\ (- 2 ^ 63 <= ar_now a + ahead < 2 ^ 63)%Z.
(** An acceptable arrival: the text of an EVENT message with a genuine event, not
    too new and not expired. *)
Definition brings (a : arrival) (e : event) : Prop :=
  reads (ar_text a) = ROk (CEvent e) /\ (ev_created e <= ar_now a + ahead)%Z /\ ~ (exists z, expires (ev_tags e) z /\ (0 < z < ar_now2 a)%Z) /\
  signed ser sha256 verify e /\ (parse_pk = true -> pubkey_parses (ev_pubkey e) = true).
Lemma accept_iff a e : clocks a -> Accept a = Some e <-> brings a e.
Proof.
  intros (C1 & C2). unfold accept, brings. destruct (reads (ar_text a)) as [[x| | | |]|er|] eqn:R; try (split; [discriminate|intros (Q & _); discriminate Q]).
  destruct (read_ids _ _ _ _ _ R) as (_ & (L & _)).
  destruct (C84_validate num sha256 verify pubkey_parses (fun y => proj1 (co_sha _ _ _ _ _ CO y)) parse_pk x ahead (ar_now a) (ar_now2 a) L C1 C2) as (V & _).
  destruct (validate_full _ _ _ _ _ x _ _ _) as [[]|er|].
  - destruct (proj1 V eq_refl) as (V1 & V2 & V3 & V4 & V5). split; [|intros (Q & _); congruence]. intros Q. assert (x = e) by congruence. subst x. unfold signed. auto 10.
  - split; [discriminate|]. intros (Q & V1 & V2 & (V3 & V5) & V4). assert (x = e) by congruence. subst x. assert (Y : RErr er = ROk tt) by (apply V; auto). discriminate Y.
  - split; [discriminate|]. intros (Q & V1 & V2 & (V3 & V5) & V4). assert (x = e) by congruence. subst x. assert (Y : @RUndef unit = ROk tt) by (apply V; auto). discriminate Y.
Qed.
Lemma brings_ids a e : brings a e -> key_ok e /\ id_ok e.
Proof. intros (R & _). eapply read_ids, R. Qed.
Lemma after_app s l a : After s (l ++ [a]) = store_one (fun s => reads s) (fun e now now2 => validate_full ser sha256 verify pubkey_parses parse_pk e ahead now now2) (After s l) a.
Proof. unfold store_after. rewrite fold_left_app. reflexivity. Qed.
(** Whatever texts arrive, in whatever order: an event is in the store exactly if it
    came in an acceptable text and no acceptable deletion request of its author that
    lists it came after that. *)
Theorem C165_exact : forall l, Forall clocks l -> forall e, In e (After [] l) <->
  exists l1 a l2, l = l1 ++ a :: l2 /\ brings a e /\ forall b x, In b l2 -> brings b x -> ~ asks_removal x e.
Proof.
  induction l as [|a l IH] using rev_ind; intros F e.
  - split; [intros []|]. intros (l1 & a & l2 & E & _). destruct l1; discriminate E.
  - apply Forall_app in F as (F & FA). apply Forall_inv in FA. specialize (IH F). rewrite after_app. unfold store_one.
    destruct (Accept a) as [x|] eqn:A.
    + apply (accept_iff a x FA) in A. pose proof (brings_ids a x A) as (KX & _). split.
      * intros [<-|I].
        -- exists l, a, []. split; [reflexivity|]. split; [exact A|]. intros b y [].
        -- apply filter_In in I as (I & N). apply IH in I as (l1 & a1 & l2 & -> & B & NO). exists l1, a1, (l2 ++ [a]). rewrite <- app_assoc. split; [reflexivity|]. split; [exact B|].
           intros b y I Y. apply in_app_or in I as [I|[<-|[]]]; [eauto|]. assert (y = x) by (apply (accept_iff a y FA) in Y; apply (accept_iff a x FA) in A; congruence). subst y.
           intros Q. destruct (brings_ids a1 e B) as (KE & IE). apply (removed_iff x e KX KE IE) in Q. rewrite Q in N. discriminate.
      * intros (l1 & a1 & l2 & E & B & NO). destruct (last_arrival l2) as [->|(l2' & z & ->)].
        -- apply app_inj_tail in E as (-> & <-). left. apply (accept_iff a e FA) in B. apply (accept_iff a x FA) in A. congruence.
        -- rewrite app_comm_cons, app_assoc in E. apply app_inj_tail in E as (E & <-). right. apply filter_In. split.
           ++ apply IH. exists l1, a1, l2'. split; [exact E|]. split; [exact B|]. intros b y I. apply NO, in_or_app. auto.
           ++ destruct (removed_by x e) eqn:Q; [|reflexivity]. exfalso. destruct (brings_ids a1 e B) as (KE & IE). apply (removed_iff x e KX KE IE) in Q. apply (NO a x); [apply in_or_app; right; left; reflexivity|exact A|exact Q].
    + assert (NA : forall y, ~ brings a y) by (intros y Y; apply (accept_iff a y FA) in Y; congruence). rewrite IH. split.
      * intros (l1 & a1 & l2 & -> & B & NO). exists l1, a1, (l2 ++ [a]). rewrite <- app_assoc. split; [reflexivity|]. split; [exact B|].
        intros b y I Y. apply in_app_or in I as [I|[<-|[]]]; [eauto|]. destruct (NA y Y).
      * intros (l1 & a1 & l2 & E & B & NO). destruct (last_arrival l2) as [->|(l2' & z & ->)].
        -- apply app_inj_tail in E as (-> & <-). destruct (NA e B).
        -- rewrite app_comm_cons, app_assoc in E. apply app_inj_tail in E as (E & <-). exists l1, a1, l2'. split; [exact E|]. split; [exact B|]. intros b y I. apply NO, in_or_app. auto.
Qed.
(** Nobody but the author can make the relay forget an event: as long as nothing
    arrives that verifies as the author's deletion request, it stays, whatever else
    arrives. *)
Theorem C165_only_author : forall l1 l2 e, Forall clocks (l1 ++ l2) -> In e (After [] l1) ->
  (forall a x, In a l2 -> reads (ar_text a) = ROk (CEvent x) -> ev_kind x = 5 -> ev_pubkey x = ev_pubkey e -> ev_id x = sha256 (ser x) -> verify (ev_pubkey e) (ev_id x) (ev_sig x) = false) ->
  In e (After [] (l1 ++ l2)).
Proof.
  intros l1 l2 e F I NO. apply (C165_exact _ F). apply Forall_app in F as (F & _). apply (C165_exact _ F) in I as (a1 & a & a2 & -> & B & N).
  exists a1, a, (a2 ++ l2). rewrite <- app_assoc. split; [reflexivity|]. split; [exact B|]. intros b x J X Q. apply in_app_or in J as [J|J]; [exact (N b x J X Q)|].
  destruct Q as (K & P & _). destruct X as (R & _ & _ & (S1 & S2) & _). rewrite <- P in NO. rewrite (NO b x J R K eq_refl S1) in S2. discriminate.
Qed.
(** Everything kept is genuine. *)
Theorem C165_genuine : forall l e, Forall clocks l -> In e (After [] l) -> signed ser sha256 verify e /\ exists a, In a l /\ reads (ar_text a) = ROk (CEvent e).
Proof.
  intros l e F I. apply (C165_exact _ F) in I as (l1 & a & l2 & -> & (R & _ & _ & S & _) & _). split; [exact S|]. exists a. split; [apply in_elt|exact R].
Qed.
(** The author's request, signed and published by the library, takes away all that
    it lists of theirs, and nothing of anybody else's. *)
Theorem C165_deletes : forall x0 sk own rnd x text l now now2, Sign x0 sk rnd = (x, Ok tt) -> pubkey_of sk = Some own -> ev_kind x0 = 5 ->
  (0 <= ev_created x0 < 10 ^ 15)%Z -> Forall (fun vs => vs <> [] /\ Forall cstr_ok vs) (ev_tags x0) -> cstr_ok (content_of x0) -> within_limits limr x ->
  no_value (bs "expiration") (ev_tags x0) -> published print x text -> Forall clocks (l ++ [mkArrival text now now2]) -> (ev_created x0 <= now + ahead)%Z ->
  (forall e, In e (After [] l) -> ~ asks_removal x e -> In e (After [] (l ++ [mkArrival text now now2]))) /\
  (forall e, In e (After [] l) -> ev_pubkey e <> own -> In e (After [] (l ++ [mkArrival text now now2]))) /\
  (forall e, In e (After [] (l ++ [mkArrival text now now2])) -> same_event e x \/ In e (After [] l) /\ ~ asks_removal x e).
Proof.
  intros x0 sk own rnd x text l now now2 SG PK K5 CR TG CT WL NX PB F NW.
  destruct (signed_carried num sha256 pubkey_of sign verify pubkey_parses CO x0 sk rnd x own SG PK CR ltac:(rewrite K5; reflexivity) TG CT) as (CE & EP & ES & EK & ET & EC).
  pose proof SG as SG'. apply (sign_created num sha256 pubkey_of sign) in SG' as (_ & _ & _ & _ & EC' & _).
  destruct (published_read _ _ _ _ _ _ LP LR CE WL PB) as (g & RG & SE). pose proof SE as ((GP & GC & GK & GT & _) & GI & GS).
  assert (BR : brings (mkArrival text now now2) g).
  { split; [exact RG|]. cbn [ar_now ar_now2]. split; [rewrite GC, EC'; exact NW|]. split.
    { intros (z & (s & neg & v & (a & r & b & E & _) & _) & _). unfold no_value in NX. rewrite Forall_forall in NX. rewrite GT, ET in E. apply (NX (bs "expiration" :: s :: r) ltac:(rewrite E; apply in_elt) s r). reflexivity. }
    split; [eapply signed_same; eassumption|]. intros _. rewrite GP, EP. apply (co_pub _ _ _ _ _ CO _ _ PK). }
  assert (AS : forall e, asks_removal g e <-> asks_removal x e) by (intros e; unfold asks_removal, lists; rewrite GK, GP, GT; tauto).
  assert (FA : clocks (mkArrival text now now2)) by (apply Forall_app in F as (_ & F); exact (Forall_inv F)).
  assert (KE : forall e, In e (After [] l) -> key_ok e /\ id_ok e).
  { intros e I. apply Forall_app in F as (F & _). apply (C165_exact _ F) in I as (? & a & ? & _ & B & _). apply (brings_ids a e B). }
  rewrite after_app. unfold store_one. rewrite (proj2 (accept_iff _ g FA) BR). pose proof (brings_ids _ _ BR) as (KG & _).
  assert (ST : forall e, In e (After [] l) -> ~ asks_removal x e -> In e (g :: filter (fun t => negb (removed_by g t)) (After [] l))).
  { intros e I N. right. apply filter_In. split; [exact I|]. destruct (removed_by g e) eqn:Q; [|reflexivity]. exfalso. destruct (KE e I) as (K1 & K2). apply (removed_iff g e KG K1 K2), AS in Q. auto. }
  split; [exact ST|]. split.
  - intros e I NE. apply ST; [exact I|]. intros (_ & Q & _). congruence.
  - intros e [<-|I]; [left; exact SE|]. right. apply filter_In in I as (I & N). split; [exact I|]. intros Q. destruct (KE e I) as (K1 & K2). apply AS, (removed_iff g e KG K1 K2) in Q. rewrite Q in N. discriminate.
Qed.
End Store.

(** *** A concrete run: signatures that name their key *)
Definition st_sign (sk r d : list N) : option (list N) := Some (sk ++ repeat 5 32).
Definition st_sver (pk d s : list N) : bool := beq s (pk ++ repeat 5 32).
Lemma st_crypto : crypto_ok GiftWrapProps.toy_sha toy_pub st_sign st_sver (fun _ => true).
Proof.
  constructor; [apply toy_crypto|apply toy_crypto|]. intros sk pk r d s P H. assert (s = sk ++ repeat 5 32) by (unfold st_sign in H; congruence). subst s. unfold toy_pub in P.
  destruct (Nat.eqb_spec (length sk) 32) as [L|]; [|discriminate]. cbn [andb] in P. destruct (forallb _ sk) eqn:F; [|discriminate]. assert (pk = sk) by congruence. subst pk.
  split; [rewrite app_length, L; reflexivity|]. split; [|apply beq_refl]. apply Forall_app. split; [|apply Forall_repeat; reflexivity].
  apply Forall_forall. intros x I. rewrite forallb_forall in F. apply F, N.ltb_lt in I. exact I.
Qed.
Definition st_signed (sk : list N) (kind : N) (t : Z) (tags : list (list (list N))) : event :=
  fst (event_sign serialize_own GiftWrapProps.toy_sha toy_pub st_sign (mkEvent (repeat 0 32) (repeat 0 32) t kind tags (Some (bs "x")) (repeat 0 64)) sk (Some [])).
Definition st_text (e : event) : list N := bs "[""EVENT""," ++ jprint (event_to_tree e) ++ bs "]".
Definition st_at (e : event) : arrival := mkArrival (st_text e) 1700000000 1700000000.
Definition st_after : list event -> list arrival -> list event :=
  store_after (fun s => client_read jprint jparse None (jparse s)) (fun e now now2 => validate_full serialize_own GiftWrapProps.toy_sha st_sver (fun _ => true) true e 900 now now2).
(** The id a text's event has when read *)
Definition st_ids (l : list event) : list (list N) := map ev_id l.
Definition st_note : event := st_signed toy_key 1 1600000000 [].
Definition st_lists (e : event) : list (list (list N)) := [[bs "e"; hex_encode (ev_id e)]].
Definition st_stranger : event := st_signed toy_pk 5 1600000001 (st_lists st_note).
(** A request that claims to be the author's *)
Definition st_forged : event := let e := st_stranger in mkEvent (ev_id e) toy_key (ev_created e) 5 (ev_tags e) (ev_content e) (ev_sig e).
Definition st_request : event := st_signed toy_key 5 1600000001 (st_lists st_note).
Example C165_meets :
  Forall (clocks 900) [st_at st_note; st_at st_stranger; st_at st_forged; st_at st_request] /\
  st_ids (st_after [] [st_at st_note; st_at st_stranger; st_at st_forged]) = [ev_id st_stranger; ev_id st_note] /\
  st_ids (st_after [] [st_at st_note; st_at st_stranger; st_at st_forged; st_at st_request]) = [ev_id st_request; ev_id st_stranger] /\
  ev_pubkey st_forged = ev_pubkey st_note /\ asks_removal st_request st_note /\ ~ asks_removal st_stranger st_note.
Proof.
  split; [repeat (apply Forall_cons; [split; cbn; lia|]); apply Forall_nil|]. split; [vm_compute; reflexivity|]. split; [vm_compute; reflexivity|]. split; [reflexivity|].
  split; [|intros (_ & Q & _); vm_compute in Q; discriminate Q]. split; [reflexivity|]. split; [reflexivity|]. left. exists (hex_encode (ev_id st_note)).
  split; [apply lower_hex_encode; apply Forall_repeat; vm_compute; reflexivity|]. exists []. left. reflexivity.
Qed.
(** C165 in full: what NIP-09 wants removed is removed, and no more.  Both fail. *)
Definition keeps_nip09 : Prop := forall num sha256 pubkey_of sign verify pubkey_parses parse_pk printr parse limr ahead l1 l2 e,
  crypto_ok sha256 pubkey_of sign verify pubkey_parses -> json_library printr parse -> Forall (clocks ahead) (l1 ++ l2) ->
  let After := store_after (fun s => client_read printr parse limr (parse s)) (fun e now now2 => validate_full (serialize_with num) sha256 verify pubkey_parses parse_pk e ahead now now2) in
  In e (After [] l1) -> (forall a x, In a l2 -> brings num sha256 verify pubkey_parses parse_pk printr parse limr ahead a x -> ~ nip09_removal x e) -> In e (After [] (l1 ++ l2)).
Definition removes_nip09 : Prop := forall num sha256 pubkey_of sign verify pubkey_parses parse_pk printr parse limr ahead l1 a x e,
  crypto_ok sha256 pubkey_of sign verify pubkey_parses -> json_library printr parse -> Forall (clocks ahead) (l1 ++ [a]) ->
  let After := store_after (fun s => client_read printr parse limr (parse s)) (fun e now now2 => validate_full (serialize_with num) sha256 verify pubkey_parses parse_pk e ahead now now2) in
  In e (After [] l1) -> brings num sha256 verify pubkey_parses parse_pk printr parse limr ahead a x -> nip09_removal x e -> ~ In e (After [] (l1 ++ [a])).
Lemma st_clocks l : Forall (clocks 900) (map st_at l).
Proof. apply Forall_forall. intros a I. apply in_map_iff in I as (e & <- & _). split; cbn; lia. Qed.
Definition st_read (e : event) : event := match client_read jprint jparse None (jparse (st_text e)) with ROk (CEvent x) => x | _ => e end.
(** A request against a request is honoured. *)
Theorem C165_request_refuted : ~ keeps_nip09.
Proof.
  intros H. set (u := st_signed toy_key 5 1600000002 (st_lists st_request)).
  specialize (H dec_Z GiftWrapProps.toy_sha toy_pub st_sign st_sver (fun _ => true) true jprint jparse None 900%Z [st_at st_request] [st_at u] (st_read st_request) st_crypto compact_library (st_clocks [st_request; u])). cbv zeta in H.
  assert (A : In (st_read st_request) (st_after [] [st_at st_request])) by (vm_compute; left; reflexivity).
  assert (B : forall a x, In a [st_at u] -> brings dec_Z GiftWrapProps.toy_sha st_sver (fun _ => true) true jprint jparse None 900 a x -> ~ nip09_removal x (st_read st_request)).
  { intros a x _ _ (_ & _ & K & _). apply K. vm_compute. reflexivity. }
  specialize (H A B). vm_compute in H. destruct H as [H|[]]. discriminate H.
Qed.
(** A request that lists an address takes away a version made after it. *)
Definition st_address (k : N) : list N := dec_N k ++ bs ":" ++ hex_encode toy_key ++ bs ":d".
Definition st_version (k : N) : event := st_signed toy_key k 1600000005 [[bs "d"; bs "d"]].
Definition st_by_address (k : N) (t : Z) : event := st_signed toy_key 5 t [[bs "a"; st_address k]].
Theorem C165_newer_refuted : ~ keeps_nip09.
Proof.
  intros H. specialize (H dec_Z GiftWrapProps.toy_sha toy_pub st_sign st_sver (fun _ => true) true jprint jparse None 900%Z [st_at (st_version 30023)] [st_at (st_by_address 30023 1600000001)] (st_read (st_version 30023)) st_crypto compact_library (st_clocks [_; _])). cbv zeta in H.
  assert (A : In (st_read (st_version 30023)) (st_after [] [st_at (st_version 30023)])) by (vm_compute; left; reflexivity).
  assert (B : forall a x, In a [st_at (st_by_address 30023 1600000001)] -> brings dec_Z GiftWrapProps.toy_sha st_sver (fun _ => true) true jprint jparse None 900 a x -> ~ nip09_removal x (st_read (st_version 30023))).
  { intros a x [<-|[]] (R & _) (_ & _ & _ & Q). assert (x = st_read (st_by_address 30023 1600000001)) by (unfold st_read; cbn [st_at ar_text] in R; rewrite R; reflexivity). subst x. clear R.
    destruct Q as [(h & _ & r & I)|(_ & C & _)].
    - vm_compute in I. destruct I as [I|[]]. discriminate I.
    - vm_compute in C. apply C. reflexivity. }
  specialize (H A B). vm_compute in H. destruct H as [H|[]]. discriminate H.
Qed.
(** A replaceable event listed by its address is not taken away. *)
Theorem C165_replaceable_refuted : ~ removes_nip09.
Proof.
  intros H. set (v := st_signed toy_key 10002 1600000000 []). set (a := dec_N 10002 ++ bs ":" ++ hex_encode toy_key ++ bs ":"). set (u := st_signed toy_key 5 1600000001 [[bs "a"; a]]).
  specialize (H dec_Z GiftWrapProps.toy_sha toy_pub st_sign st_sver (fun _ => true) true jprint jparse None 900%Z [st_at v] (st_at u) (st_read u) (st_read v) st_crypto compact_library (st_clocks [v; u])). cbv zeta in H. apply H.
  - vm_compute. left. reflexivity.
  - apply (accept_iff dec_Z GiftWrapProps.toy_sha toy_pub st_sign st_sver (fun _ => true) true jprint jparse None 900 st_crypto); [split; cbn; lia|]. vm_compute. reflexivity.
  - split; [vm_compute; reflexivity|]. split; [vm_compute; reflexivity|]. split; [vm_compute; discriminate|]. right. split; [right; vm_compute; right; right; split; [discriminate|reflexivity]|]. split; [vm_compute; discriminate|].
    exists a. split; [|exists []; vm_compute; left; reflexivity]. apply has_address_iff; [vm_compute; reflexivity|apply Forall_forall; vm_compute; intuition (subst; reflexivity)|vm_compute; reflexivity].
  - vm_compute. right. left. reflexivity.
Qed.
Print Assumptions C165_exact.
Print Assumptions C165_only_author.
Print Assumptions C165_genuine.
Print Assumptions C165_deletes.
Print Assumptions C165_meets.
Print Assumptions C165_request_refuted.
Print Assumptions C165_newer_refuted.
Print Assumptions C165_replaceable_refuted.
