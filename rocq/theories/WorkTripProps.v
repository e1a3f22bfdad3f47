(** Mined and delegated events through a relay: C166. *)
From Verif Require Import Base BaseFacts Heap Dec Json Hex HexSpec HexProofs Event EventSpec EventProps EventMemSpec EventOomSpec Nip13 Nip13Spec Nip13Proofs Nip13Props Strto Nip26 Nip26Spec Nip26Proofs Nip26Props GiftWrap GiftWrapSpec GiftWrapProps Nip18Spec RelayProto RelayProtoSpec RelayProtoProps RelayFilter RelayFilterSpec RelayFilterProps RelayMsg RelayMsgSpec RelayMsgProps RelayRecv RelayRecvSpec RelayRecvProps RelaySubProps JsonSpec JsonLib JsonLibProofs RelaySend RelaySendSpec RelaySendProps DeliverySpec DeliveryProps PrivateTripProps SignTripProps WalletTripProps PublicTripProps FollowTripProps.
Open Scope N_scope.

(** ** C166 *)
(** *** What a follower of one author is given *)
(** Whatever else was published, the follower's handler is given [w], and what it
    is given in its place is as [reads] says. *)
Definition reaches (printr print' : json -> list N) (parse : list N -> option json) (lim limr : option ev_limits) (on_message : bool) (kind : N) (pk : list N) (id : list N) (k : nat)
  (l' : list subscr) (sent : option (list N)) (print : json -> list N) (w : event) (reads : event -> Prop) : Prop :=
  exists req fs, sent = Some req /\ client_read printr parse limr (parse req) = ROk (CReq id fs) /\
  forall es texts, Forall2 (published print) es texts -> Forall carried_event es -> Forall few_tags es ->
  Forall (within_limits limr) es -> Forall (within_limits lim) es -> In w es ->
  (exists xs, forwards (fun s => client_read printr parse limr (parse s)) id fs texts xs) /\
  forall xs wires cs, forwards (fun s => client_read printr parse limr (parse s)) id fs texts xs ->
  Forall2 (serialized printr parse) xs wires -> spread wires (whole cs) -> kept rbuf0 cs ->
  exists b l'' got, serve parse (fun j => parse (print' j)) lim (fun _ => []) on_message rbuf0 l' cs = Ok (b, l'', map (OEvent k) got) /\
    (exists g, In g got /\ same_event g w /\ reads g) /\
    Forall (fun g => ev_kind g = kind /\ ev_pubkey g = pk /\ exists x, In x es /\ same_event g x) got.
Lemma follower_reached print printr print' parse lim limr om kind pk id k l' sent w (reads : event -> Prop) :
  json_library print parse -> json_library printr parse -> json_library print' parse -> kind < 65536 -> length pk = 32%nat -> bytes_ok pk ->
  follows kind pk None id k l' sent -> ev_kind w = kind -> ev_pubkey w = pk -> (forall g, same_event g w -> reads g) ->
  reaches printr print' parse lim limr om kind pk id k l' sent print w reads.
Proof.
  intros LC LR LP KB PL PB (l & filters & ok & f & NL & SUB & AI & SI & EL) WK WP RD.
  destruct (feed_writable kind pk None KB PB ltac:(discriminate)) as (IW & ID).
  destruct (C140_delivered_partial print printr print' parse lim limr om l id filters k ok f l' sent [JObj (feed kind pk None)] LC LR LP NL SUB AI SI EL
    ltac:(constructor; [exact IW|constructor]) ltac:(constructor; [exact ID|constructor]) ltac:(cbn; lia) ltac:(constructor; [apply feed_request; assumption|constructor]))
    as (req & fs & -> & RQ & DEL).
  exists req, fs. split; [reflexivity|]. split; [exact RQ|]. intros es texts PUB CA FT LA LB IW'.
  destruct (DEL _ _ PUB CA FT LA LB) as (EX & GO). split; [exact EX|].
  intros xs wires cs FWD SE SP KP. destruct (GO xs wires cs FWD SE SP KP) as (b & l'' & got & want & SV & PCK & SAME).
  pose proof (picked_in _ _ _ PCK) as PI. rewrite Forall_forall in CA. exists b, l'', got. split; [exact SV|]. split.
  - assert (WI : In w want). { apply PI. split; [exact IW'|]. apply feed_wants; [exact PL|exact PB|apply carried_ids, CA, IW'|]. split; [exact WK|]. split; [exact WP|discriminate]. }
    destruct (Forall2_in_r _ _ _ SAME w WI) as (g & GI & SG). exists g. auto.
  - apply Forall_forall. intros g GI. destruct (Forall2_in_l _ _ _ SAME g GI) as (x & XI & SX). apply PI in XI as (XI & XW).
    apply feed_wants in XW; [|exact PL|exact PB|apply carried_ids, CA, XI]. destruct XW as (XK & XP & _). pose proof SX as ((P & _ & K & _) & _).
    split; [congruence|]. split; [congruence|]. exists x. auto.
Qed.

(** *** Work *)
Definition worked (g : event) (t : Z) : Prop := has_work (ev_id g) (Z.to_nat t) /\ forall d, (1 <= d <= t)%Z -> verify_pow g d = Ok tt.
Lemma mined_worked num sha e e' t : digest32 sha -> mined (serialize_with num) sha e e' t -> (1 <= t < 2 ^ 31)%Z -> worked e' t.
Proof.
  intros D32 (_ & ID & HW & n & pre & post & rest & TG & FP & _) T. split; [exact HW|]. intros d D. unfold verify_pow.
  rewrite (proj2 (Z.ltb_ge d 1)) by lia.
  assert (FN : find_nonce (map (map Some) (ev_tags e')) = Some (length pre)).
  { rewrite TG, map_app. cbn [app map]. rewrite find_nonce_at.
    - rewrite map_length. reflexivity.
    - apply pre_is_nonce, FP.
    - apply beq_eq. reflexivity. }
  rewrite FN, TG. cbn [app]. rewrite nth_at. cbn [length Nat.ltb Nat.leb nth].
  destruct (D32 (serialize_with num e')) as (L & B). rewrite <- ID in L, B.
  apply difficulty_work in HW; [|assumption..].
  rewrite (proj2 (Z.ltb_ge _ d)) by lia.
  replace (dec_Z t) with (dec_N (Z.to_N t)) by (destruct t; [lia|reflexivity|lia]).
  rewrite atoi_dec by lia. rewrite Z2N.id by lia.
  rewrite (proj2 (Z.ltb_ge (Z.of_nat (difficulty (ev_id e'))) t)) by lia. rewrite andb_false_r. reflexivity.
Qed.
Lemma worked_same a b t : ev_id a = ev_id b -> ev_tags a = ev_tags b -> worked b t -> worked a t.
Proof. intros I T (W & V). split; [rewrite I; exact W|]. intros d D. rewrite <- (V d D). unfold verify_pow. rewrite I, T. reflexivity. Qed.
Lemma nonce_set_cstr ts ts' n t : nonce_set ts ts' n t -> (1 <= t)%Z -> Forall (fun vs => vs <> [] /\ Forall cstr_ok vs) ts ->
  Forall (fun vs => vs <> [] /\ Forall cstr_ok vs) ts' /\ (length ts' <= S (length ts))%nat.
Proof.
  intros (pre & post & rest & -> & _ & D) T F.
  assert (NC : Forall cstr_ok rest -> (bs "nonce" :: dec_N n :: dec_Z t :: rest) <> [] /\ Forall cstr_ok (bs "nonce" :: dec_N n :: dec_Z t :: rest)).
  { intros R. split; [discriminate|]. apply Forall_cons; [apply cstr_dec; reflexivity|]. apply Forall_cons; [apply dec_cstr|].
    replace (dec_Z t) with (dec_N (Z.to_N t)) by (destruct t; [lia|reflexivity|lia]). apply Forall_cons; [apply dec_cstr|exact R]. }
  destruct D as [(-> & -> & ->)|(old & -> & _ & ->)].
  - split; [|rewrite app_length; cbn; lia]. apply Forall_app. split; [exact F|]. apply Forall_cons; [|apply Forall_nil]. apply NC. apply Forall_nil.
  - split; [|rewrite !app_length; cbn; lia]. apply Forall_app in F as (F1 & F2). cbn [app] in F2 |- *. pose proof (Forall_inv F2) as (_ & FO). apply Forall_inv_tail in F2.
    apply Forall_app. split; [exact F1|]. apply Forall_cons; [|exact F2]. apply NC. rewrite <- (firstn_skipn 3 old) in FO. apply Forall_app in FO. exact (proj2 FO).
Qed.

(** *** Delegation *)
Definition is_delegation (t : list (list N)) : bool := match t with n :: _ :: _ :: _ :: _ => beq n (bs "delegation") | _ => false end.
Lemma get_filter ts : get_delegation_tags ts = get_delegation_tags (List.filter is_delegation ts).
Proof.
  induction ts as [|t r IH]; [reflexivity|]. destruct t as [|n [|a [|b [|c x]]]]; try exact IH. cbn [List.filter is_delegation get_delegation_tags].
  destruct (beq n (bs "delegation")) eqn:B; [|exact IH]. cbn [get_delegation_tags]. rewrite B. reflexivity.
Qed.
Lemma nonce_no_delegation r : is_delegation (bs "nonce" :: r) = false.
Proof. destruct r as [|a [|b [|c x]]]; reflexivity. Qed.
Lemma nonce_keeps ts ts' n t : nonce_set ts ts' n t -> List.filter is_delegation ts' = List.filter is_delegation ts.
Proof.
  intros (pre & post & rest & -> & _ & D). rewrite !filter_app. cbn [List.filter]. rewrite nonce_no_delegation. cbn [app].
  destruct D as [(-> & -> & ->)|(old & -> & (r & ->) & ->)]; [cbn; rewrite app_nil_r; reflexivity|]. rewrite !filter_app. cbn [List.filter]. rewrite nonce_no_delegation. reflexivity.
Qed.

Section WorkTrip.
Variable num : Z -> list N.
Variable sha256 : list N -> list N.
Variable pubkey_of : list N -> option (list N).
Variable sign : list N -> list N -> list N -> option (list N).
Variable verify : list N -> list N -> list N -> bool.
Variable pubkey_parses : list N -> bool.
(** The libraries of the author, the relay and the follower, and their
    configurations. *)
Variable print printr printf : json -> list N.
Variable parse : list N -> option json.
Variable limr limf : option ev_limits.
Hypothesis CO : crypto_ok sha256 pubkey_of sign verify pubkey_parses.
Hypothesis LS : json_library print parse.
Hypothesis LR : json_library printr parse.
Hypothesis LF : json_library printf parse.
Notation ser := (serialize_with num).
Notation Sign := (event_sign ser sha256 pubkey_of sign).

(** Signing with the key the event was mined for keeps the id. *)
Lemma sign_keeps_id e1 sk rnd e : Sign e1 sk rnd = (e, Ok tt) -> pubkey_of sk = Some (ev_pubkey e1) -> ev_id e1 = sha256 (ser e1) -> ev_id e = ev_id e1.
Proof.
  intros SG P I. apply sign_created in SG as (own' & P' & S1 & S2 & S3 & S4 & S5 & S6 & _). rewrite S2, I. f_equal.
  assert (S1' : ev_pubkey e = ev_pubkey e1) by congruence. unfold serialize_with. rewrite S1', S3, S4, S5. unfold content_of. rewrite S6. reflexivity.
Qed.

(** What is left to say about an event mined from [e0] and then signed. *)
Theorem C166_mined : forall e0 t e1 sk rnd e,
  mined ser sha256 e0 e1 t -> (1 <= t < 2 ^ 31)%Z -> Sign e1 sk rnd = (e, Ok tt) -> pubkey_of sk = Some (ev_pubkey e0) ->
  (0 <= ev_created e1 < 10 ^ 15)%Z -> ev_kind e0 < 65536 -> Forall (fun vs => vs <> [] /\ Forall cstr_ok vs) (ev_tags e0) -> (length (ev_tags e0) <= 255)%nat -> cstr_ok (content_of e0) ->
  forall on_message i k l' sent, follows (ev_kind e0) (ev_pubkey e0) None i k l' sent ->
  carried_event e /\ few_tags e /\
  reaches printr printf parse limf limr on_message (ev_kind e0) (ev_pubkey e0) i k l' sent print e
    (fun g => signed ser sha256 verify g /\ worked g t /\ content_of g = content_of e0).
Proof.
  intros e0 t e1 sk rnd e M T SG PK CR KB TG LT CT om i k l' sent FO. pose proof M as ((B1 & B2 & B3) & ID & _ & n & NS).
  destruct (nonce_set_cstr _ _ _ _ NS ltac:(lia) TG) as (TG1 & LT1).
  assert (CT1 : cstr_ok (content_of e1)) by (unfold content_of; rewrite B3; exact CT).
  destruct (signed_carried num sha256 pubkey_of sign verify pubkey_parses CO e1 sk rnd e (ev_pubkey e0) SG PK CR ltac:(rewrite B2; exact KB) TG1 CT1) as (CE & EP & ES & EK & ET & EC).
  destruct (co_pub _ _ _ _ _ CO _ _ PK) as (PL & PB & _).
  pose proof (sign_keeps_id e1 sk rnd e SG ltac:(congruence) ID) as EI.
  split; [exact CE|]. split; [apply short_few; rewrite ET; lia|].
  apply follower_reached; try assumption; [congruence|].
  intros g SE. pose proof SE as ((_ & _ & _ & GT & GC) & GI & _). split; [eapply signed_same; eassumption|]. split.
  - apply (worked_same g e1); [congruence|congruence|]. exact (mined_worked num sha256 e0 e1 t (co_sha _ _ _ _ _ CO) M T).
  - rewrite GC. unfold content_of. rewrite EC, B3. reflexivity.
Qed.

(** The same from the calls: both miners. *)
Corollary C166_one_thread : forall fuel a0 al clock e0 t max m, Nip13Spec.nonce_ok (ev_tags e0) -> mine_event num sha256 fuel a0 al clock e0 t max = Some (m, Ok tt) ->
  exists e1, observe m = Some e1 /\ mined ser sha256 e0 e1 t.
Proof. intros fuel a0 al clock e0 t max m NO ME. exact (C25_mined_partial num sha256 (co_sha _ _ _ _ _ CO) fuel a0 al clock e0 t max m NO ME). Qed.
Corollary C166_threads : forall a0 e0 t max n m s, Nip13Spec.nonce_ok (ev_tags e0) -> (1 <= t)%Z -> N.of_nat n < 2 ^ 31 -> prepare_threaded a0 t e0 = (m, Ok tt) ->
  treach num sha256 t max n m s -> t_main s = MDone (Ok tt) -> exists e1, observe (t_ev s) = Some e1 /\ mined ser sha256 e0 e1 t.
Proof. intros. eapply (C26_all_schedules_partial num sha256 (co_sha _ _ _ _ _ CO)); eassumption. Qed.

(** An event with a delegation attached, mined or not, then signed by the
    delegatee: the follower learns the delegator, and the delegation verifies
    exactly if its conditions admit the event. *)
Notation sg := (fun sk h r => sign sk r h).
Definition delegated (g : event) (d : delegation) : Prop :=
  get_delegation g = Ok d /\ delegation_verify sha256 verify pubkey_parses d (ev_pubkey g) = Ok tt /\
  event_verify_delegation sha256 verify pubkey_parses g = check_conditions (d_parsed d) (ev_kind g) (ev_created g).
Lemma delegated_same a b d : List.filter is_delegation (ev_tags a) = List.filter is_delegation (ev_tags b) -> ev_pubkey a = ev_pubkey b -> delegated b d -> delegated a d.
Proof.
  intros T P (G & V & _). assert (GA : get_delegation a = Ok d) by (unfold get_delegation in *; rewrite get_filter, T, <- get_filter; exact G). split; [exact GA|].
  rewrite P. split; [exact V|]. unfold event_verify_delegation. rewrite GA. cbn [bind]. rewrite P, V. reflexivity.
Qed.
Lemma delegation_cstr dsk own conds rnd d : delegation_create sha256 pubkey_of sg dsk own conds rnd = Ok d -> signatures pubkey_of sg verify -> cstr_ok conds ->
  delegation_tag d <> [] /\ Forall cstr_ok (delegation_tag d).
Proof.
  intros C SI CC. split; [discriminate|]. unfold delegation_create in C. destruct (delegation_hash sha256 own conds) as [h| |] eqn:E; [|discriminate|discriminate]. cbn [bind] in C.
  destruct (pubkey_of dsk) as [p|] eqn:EP; [|discriminate]. destruct rnd as [r|]; [|discriminate]. destruct (sign dsk r h) as [t|] eqn:ES; [|discriminate].
  destruct (parse_conditions conds) as [c|] eqn:EC; [|discriminate]. assert (D : d = mkDel p conds c t) by congruence. subst d. unfold delegation_tag. cbn [d_delegator d_conditions d_token].
  destruct (sg_pub _ _ _ SI _ _ EP) as (_ & BP). destruct (sg_len _ _ _ SI _ _ _ _ ES) as (_ & BT).
  apply Forall_cons; [apply cstr_dec; reflexivity|]. apply Forall_cons; [apply cstr_hex, BP|]. apply Forall_cons; [exact CC|]. apply Forall_cons; [apply cstr_hex, BT|]. apply Forall_nil.
Qed.
Theorem C166_delegated : forall dsk conds drnd d e0 e1 sk rnd e own, signatures pubkey_of sg verify ->
  delegation_create sha256 pubkey_of sg dsk own conds drnd = Ok d -> cstr_ok conds ->
  Forall (fun t => ~ delegation_like t) (ev_tags e0) ->
  e1 = add_delegation e0 d \/ (ev_pubkey e0 = own /\ exists t, (1 <= t < 2 ^ 31)%Z /\ mined ser sha256 (add_delegation e0 d) e1 t) ->
  Sign e1 sk rnd = (e, Ok tt) -> pubkey_of sk = Some own ->
  (0 <= ev_created e1 < 10 ^ 15)%Z -> ev_kind e0 < 65536 -> Forall (fun vs => vs <> [] /\ Forall cstr_ok vs) (ev_tags e0) -> (length (ev_tags e0) <= 254)%nat -> cstr_ok (content_of e0) ->
  forall on_message i k l' sent, follows (ev_kind e0) own None i k l' sent ->
  carried_event e /\ few_tags e /\
  reaches printr printf parse limf limr on_message (ev_kind e0) own i k l' sent print e
    (fun g => signed ser sha256 verify g /\ delegated g d /\ pubkey_of dsk = Some (d_delegator d) /\ d_conditions d = conds /\ ev_created g = ev_created e1).
Proof.
  intros dsk conds drnd d e0 e1 sk rnd e own SI DC CC ND FROM SG PK CR KB TG LT CT om i k l' sent FO.
  pose proof (delegation_cstr _ _ _ _ _ DC SI CC) as TD.
  set (ea := add_delegation e0 d) in *.
  assert (TGA : Forall (fun vs => vs <> [] /\ Forall cstr_ok vs) (ev_tags ea)) by (unfold ea; cbn [add_delegation ev_tags]; apply Forall_app; split; [exact TG|apply Forall_cons; [exact TD|apply Forall_nil]]).
  assert (LA : length (ev_tags ea) = S (length (ev_tags e0))) by (unfold ea; cbn [add_delegation ev_tags]; rewrite app_length; cbn; lia).
  assert (S1 : ev_kind e1 = ev_kind e0 /\ ev_content e1 = ev_content e0 /\ Forall (fun vs => vs <> [] /\ Forall cstr_ok vs) (ev_tags e1) /\ (length (ev_tags e1) <= 256)%nat /\
    List.filter is_delegation (ev_tags e1) = List.filter is_delegation (ev_tags ea)).
  { destruct FROM as [->|(_ & t & T & (B1 & B2 & B3) & _ & _ & n & NS)].
    - split; [reflexivity|]. split; [reflexivity|]. split; [exact TGA|]. split; [lia|reflexivity].
    - destruct (nonce_set_cstr _ _ _ _ NS ltac:(lia) TGA) as (X & Y). split; [exact B2|]. split; [exact B3|]. split; [exact X|]. split; [lia|exact (nonce_keeps _ _ _ _ NS)]. }
  destruct S1 as (K1 & C1 & T1 & L1 & F1).
  destruct (signed_carried num sha256 pubkey_of sign verify pubkey_parses CO e1 sk rnd e own SG PK CR ltac:(rewrite K1; exact KB) T1 ltac:(unfold content_of; rewrite C1; exact CT)) as (CE & EP & ES & EK & ET & EC).
  assert (ECR : ev_created e = ev_created e1) by (apply sign_created in SG as (? & ? & ? & ? & ? & _); assumption).
  destruct (co_pub _ _ _ _ _ CO _ _ PK) as (PL & PB & _).
  split; [exact CE|]. split; [apply short_few; rewrite ET; exact L1|].
  apply follower_reached; try assumption; [congruence|].
  intros g SE. pose proof SE as ((GP & GCR & _ & GT & _) & _). split; [eapply signed_same; eassumption|].
  destruct (C37_roundtrip sha256 pubkey_of sg verify pubkey_parses dsk own conds drnd d (set_pubkey e0 own) SI ltac:(intros k0 p0 Q; apply (co_pub _ _ _ _ _ CO _ _ Q)) DC ND eq_refl) as (R1 & R2 & R3 & R4 & R5).
  split.
  - apply (delegated_same g (add_delegation (set_pubkey e0 own) d)).
    + rewrite GT, ET, F1. reflexivity.
    + rewrite GP, EP. reflexivity.
    + split; [exact R4|]. split; [exact R3|exact R5].
  - split; [exact R2|]. split; [exact R1|congruence].
Qed.
End WorkTrip.

(** *** The order matters *)
(** Work done before the author's key is in the event is lost by signing: the id
    is computed again.  The hash of the witness looks at the first digit of the
    key. *)
Definition wk_sha (x : list N) : list N := if nth 4 x 0 =? 48 then repeat 0 32 else repeat 255 32.
Definition wk_sign (sk r d : list N) : option (list N) := if (length sk =? 32)%nat && forallb (fun b => b <? 256) sk && (length d =? 32)%nat && forallb (fun b => b <? 256) d then Some (sk ++ d) else None.
Definition wk_sver (pk d s : list N) : bool := beq s (pk ++ d).
Lemma wk_sha_ok : digest32 wk_sha.
Proof. intros x. unfold wk_sha. destruct (nth 4 x 0 =? 48); (split; [reflexivity|apply Forall_repeat; reflexivity]). Qed.
Lemma wk_bytes d : forallb (fun b => b <? 256) d = true -> bytes_ok d.
Proof. intros H. rewrite forallb_forall in H. apply Forall_forall. intros x I. apply N.ltb_lt, (H x I). Qed.
Lemma wk_sign_len sk r d t : wk_sign sk r d = Some t -> length t = 64%nat /\ bytes_ok t /\ t = sk ++ d.
Proof.
  unfold wk_sign. destruct ((length sk =? 32)%nat) eqn:A; [|discriminate]. destruct (forallb (fun b => b <? 256) sk) eqn:B; [|discriminate]. destruct ((length d =? 32)%nat) eqn:C; [|discriminate].
  destruct (forallb (fun b => b <? 256) d) eqn:D; [|discriminate]. cbn [andb]. intros E. assert (t = sk ++ d) by congruence. subst t. apply Nat.eqb_eq in A. apply Nat.eqb_eq in C.
  split; [rewrite app_length; lia|]. split; [apply Forall_app; split; apply wk_bytes; assumption|reflexivity].
Qed.
Lemma wk_crypto : crypto_ok wk_sha toy_pub wk_sign wk_sver (fun _ => true).
Proof.
  constructor; [exact wk_sha_ok|apply toy_crypto|]. intros sk pk r d s P H. apply wk_sign_len in H as (L & B & ->). split; [exact L|]. split; [exact B|].
  unfold toy_pub in P. destruct ((length sk =? 32)%nat && forallb (fun b => b <? 256) sk); [|discriminate]. assert (pk = sk) by congruence. subst pk. unfold wk_sver. apply beq_eq. reflexivity.
Qed.
Definition wk_key : list N := repeat 171 32.
Definition wk_event (pk : list N) : event := mkEvent (repeat 0 32) pk 1700000000 1 [[bs "t"; bs "x"]] (Some (bs "hi")) (repeat 0 64).
Definition wk_mined (pk : list N) : event := match mine_event dec_Z wk_sha 1 all_ok (fun _ => all_ok) (fun _ => 1700000005%Z) (wk_event pk) 8 0 with Some (m, Ok _) => match observe m with Some e => e | None => wk_event pk end | _ => wk_event pk end.
Definition wk_signed (pk sk : list N) : event := fst (event_sign serialize_own wk_sha toy_pub wk_sign (wk_mined pk) sk (Some [])).
Theorem C166_order_refuted : ~ (forall num sha256 pubkey_of sign verify pubkey_parses fuel a0 al clock e0 t max m e1 sk rnd e,
  crypto_ok sha256 pubkey_of sign verify pubkey_parses -> Nip13Spec.nonce_ok (ev_tags e0) -> mine_event num sha256 fuel a0 al clock e0 t max = Some (m, Ok tt) -> observe m = Some e1 ->
  event_sign (serialize_with num) sha256 pubkey_of sign e1 sk rnd = (e, Ok tt) -> verify_pow e t = Ok tt).
Proof.
  intros H.
  assert (M : exists m, mine_event dec_Z wk_sha 1 all_ok (fun _ => all_ok) (fun _ => 1700000005%Z) (wk_event (repeat 0 32)) 8 0 = Some (m, Ok tt) /\ observe m = Some (wk_mined (repeat 0 32))) by (eexists; split; vm_compute; reflexivity).
  destruct M as (m & M & O).
  specialize (H dec_Z wk_sha toy_pub wk_sign wk_sver (fun _ => true) 1%nat all_ok (fun _ => all_ok) (fun _ => 1700000005%Z) (wk_event (repeat 0 32)) 8%Z 0 m (wk_mined (repeat 0 32)) wk_key (Some []) (wk_signed (repeat 0 32) wk_key) wk_crypto).
  assert (NO : Nip13Spec.nonce_ok (ev_tags (wk_event (repeat 0 32)))).
  { intros pre old post E _ (r & ->). exfalso. destruct pre as [|p [|q pre]]; cbn in E; discriminate E. }
  specialize (H NO M O ltac:(vm_compute; reflexivity)). vm_compute in H. discriminate H.
Qed.
(** The same event with the author's key put in first: mined, delegated, signed. *)
Definition wk_author : list N := repeat 10 32.
Definition wk_del : delegation := match delegation_create wk_sha toy_pub (fun sk h r => wk_sign sk r h) wk_key wk_author (bs "kind=1&created_at<1800000000") (Some []) with Ok d => d | _ => mkDel [] [] no_conds [] end.
Definition wk_both : event := match mine_event dec_Z wk_sha 1 all_ok (fun _ => all_ok) (fun _ => 1700000005%Z) (add_delegation (wk_event wk_author) wk_del) 8 0 with Some (m, Ok _) => match observe m with Some e => e | None => wk_event [] end | _ => wk_event [] end.
Lemma wk_signatures : signatures toy_pub (fun sk h r => wk_sign sk r h) wk_sver.
Proof.
  constructor.
  - intros sk pk P. destruct (co_pub _ _ _ _ _ wk_crypto _ _ P) as (A & B & _). auto.
  - intros sk h r t S. apply wk_sign_len in S as (A & B & _). auto.
  - intros sk pk h r t P S. apply (co_sign _ _ _ _ _ wk_crypto _ _ _ _ _ P S).
  - unfold wk_sver. intros pk h h' t A B. apply beq_eq in A. apply beq_eq in B. rewrite A in B. apply app_inv_head in B. exact B.
Qed.
Example C166_meets :
  delegation_create wk_sha toy_pub (fun sk h r => wk_sign sk r h) wk_key wk_author (bs "kind=1&created_at<1800000000") (Some []) = Ok wk_del /\
  Forall (fun t => ~ delegation_like t) (ev_tags (wk_event wk_author)) /\
  mined serialize_own wk_sha (add_delegation (wk_event wk_author) wk_del) wk_both 8 /\
  exists e, event_sign serialize_own wk_sha toy_pub wk_sign wk_both wk_author (Some []) = (e, Ok tt) /\ toy_pub wk_author = Some wk_author /\
    verify_pow e 8 = Ok tt /\ event_verify_delegation wk_sha wk_sver (fun _ => true) e = Ok tt /\
    ev_tags e = [[bs "t"; bs "x"]; [bs "delegation"; hex_encode wk_key; bs "kind=1&created_at<1800000000"; hex_encode (wk_key ++ repeat 255 32)]; [bs "nonce"; bs "0"; bs "8"]].
Proof.
  split; [vm_compute; reflexivity|]. split.
  { repeat apply Forall_cons; try apply Forall_nil. intros (d & c & t & r & E). discriminate E. }
  split.
  { assert (M : exists m, mine_event dec_Z wk_sha 1 all_ok (fun _ => all_ok) (fun _ => 1700000005%Z) (add_delegation (wk_event wk_author) wk_del) 8 0 = Some (m, Ok tt) /\ observe m = Some wk_both) by (eexists; split; vm_compute; reflexivity).
    assert (NO : Nip13Spec.nonce_ok (ev_tags (add_delegation (wk_event wk_author) wk_del))).
    { intros pre old post E _ (r & ->). exfalso. destruct pre as [|p [|q [|z pre]]]; vm_compute in E; discriminate E. }
    destruct M as (m & M & O). destruct (C25_mined_partial dec_Z wk_sha wk_sha_ok _ _ _ _ _ _ _ _ NO M) as (e' & O' & MI). assert (e' = wk_both) by congruence. subst e'. exact MI. }
  eexists. split; [vm_compute; reflexivity|]. split; [vm_compute; reflexivity|]. split; [vm_compute; reflexivity|]. split; vm_compute; reflexivity.
Qed.
Print Assumptions C166_mined.
Print Assumptions C166_one_thread.
Print Assumptions C166_threads.
Print Assumptions C166_delegated.
Print Assumptions C166_order_refuted.
