(** A private message on its way through a relay: C156. *)
From Verif Require Import Base BaseFacts Heap Dec Json Hex HexSpec HexProofs Event EventSpec EventProps EventMemSpec EventOomSpec Base64 Nip21 Nip44 Nip44Spec Nip44Props GiftWrap GiftWrapSpec GiftWrapProps RelayProto RelayProtoSpec RelayProtoProps RelayFilter RelayFilterSpec RelayFilterProps RelayMsg RelayMsgSpec RelayMsgProps RelayRecv RelayRecvSpec RelayRecvProps RelaySubProps JsonSpec JsonLib JsonLibProofs RelaySend RelaySendSpec RelaySendProps DeliverySpec DeliveryProps.
Open Scope N_scope.

(** ** Texts of writable trees are C strings *)
Lemma hexdigit_char c v : hexdigit_is c v -> char_ok c.
Proof. unfold char_ok. intros []; lia. Qed.
Lemma unit_cstr h u : unit16 h u -> cstr_ok h.
Proof. intros (a & b & c & d & p & q & r & t & -> & A & B & C & D & _). repeat constructor; try (eapply hexdigit_char; eassumption); cbv; auto. all: eapply hexdigit_char in A, B, C, D; unfold char_ok in *; lia. Qed.
Lemma cstr_app a b : cstr_ok (a ++ b) <-> cstr_ok a /\ cstr_ok b.
Proof. apply Forall_app. Qed.
Lemma str_cstr v t : str_text v t -> cstr_ok v -> cstr_ok t.
Proof.
  induction 1 as [|c v t C1 C2 C3 S IH|x y v t I S IH|h u p v t U U1 U2 P S IH|h u g w p v t U G U1 U2 P S IH]; intros V.
  - constructor.
  - inversion V; subst. constructor; [assumption|apply IH; assumption].
  - inversion V; subst. assert (X : char_ok x) by (unfold char_ok; cbn in I; repeat destruct I as [I|I]; try contradiction; inversion I; lia).
    constructor; [unfold char_ok; lia|]. constructor; [exact X|apply IH; assumption].
  - apply cstr_app in V as (_ & V). constructor; [unfold char_ok; lia|]. constructor; [unfold char_ok; lia|]. apply cstr_app. split; [exact (unit_cstr _ _ U)|apply IH, V].
  - apply cstr_app in V as (_ & V). constructor; [unfold char_ok; lia|]. constructor; [unfold char_ok; lia|]. apply cstr_app. split; [exact (unit_cstr _ _ U)|].
    constructor; [unfold char_ok; lia|]. constructor; [unfold char_ok; lia|]. apply cstr_app. split; [exact (unit_cstr _ _ G)|apply IH, V].
Qed.
Lemma ws_cstr w : ws w -> cstr_ok w.
Proof. intros W. eapply Forall_impl; [|exact W]. intros c I. unfold char_ok. cbn in I. lia. Qed.
Lemma dec_cstr n : cstr_ok (dec_N n).
Proof. eapply Forall_impl; [|exact (dec_is_digits n)]. intros c D. unfold is_digit in D. apply andb_true_iff in D as (D1 & D2). apply N.leb_le in D1, D2. unfold char_ok. lia. Qed.
Lemma decz_cstr z : cstr_ok (dec_Z z).
Proof. destruct z; cbn [dec_Z]; try apply dec_cstr. constructor; [unfold char_ok; lia|apply dec_cstr]. Qed.
Lemma texts_cstr :
  (forall j s, text j s -> writable j -> cstr_ok s) /\
  (forall l s, elems l s -> Forall writable l -> cstr_ok s) /\
  (forall l s, members l s -> Forall (fun p => cstr_ok (fst p) /\ writable (snd p)) l -> cstr_ok s).
Proof.
  assert (C1 : forall c l, 0 < c < 256 -> cstr_ok l -> cstr_ok (c :: l)) by (intros; constructor; assumption).
  apply text_mutual.
  - intros _. apply cstr_dec. reflexivity.
  - intros _. apply cstr_dec. reflexivity.
  - intros _. apply cstr_dec. reflexivity.
  - intros z _ _. apply decz_cstr.
  - intros v s S W. inversion W; subst. apply C1; [lia|]. apply cstr_app. split; [eapply str_cstr; eassumption|apply cstr_dec; reflexivity].
  - intros w Ww _. apply C1; [lia|]. apply cstr_app. split; [apply ws_cstr, Ww|apply cstr_dec; reflexivity].
  - intros l s _ IH W. inversion W; subst. apply C1; [lia|]. apply cstr_app. split; [auto|apply cstr_dec; reflexivity].
  - intros w Ww _. apply C1; [lia|]. apply cstr_app. split; [apply ws_cstr, Ww|apply cstr_dec; reflexivity].
  - intros l s _ IH W. inversion W; subst. apply C1; [lia|]. apply cstr_app. split; [auto|apply cstr_dec; reflexivity].
  - intros j w1 s w2 W1 _ IH W2 W. inversion W; subst. rewrite !cstr_app. auto using ws_cstr.
  - intros j l w1 s w2 r W1 _ IH W2 _ IH2 W. inversion W; subst. rewrite !cstr_app. split; [auto using ws_cstr|]. split; [auto|]. split; [auto using ws_cstr|]. apply C1; [lia|auto].
  - intros k j w0 q w1 w2 s w3 W0 Q W1 W2 _ IH W3 W. inversion W as [|? ? (K & J) R]; subst. cbn [fst snd] in K, J. rewrite cstr_app. split; [auto using ws_cstr|]. apply C1; [lia|].
    rewrite cstr_app. split; [eapply str_cstr; eassumption|]. apply C1; [lia|]. rewrite cstr_app. split; [auto using ws_cstr|]. apply C1; [lia|]. rewrite !cstr_app. auto using ws_cstr.
  - intros k j l w0 q w1 w2 s w3 r W0 Q W1 W2 _ IH W3 _ IH2 W. inversion W as [|? ? (K & J) R]; subst. cbn [fst snd] in K, J. rewrite cstr_app. split; [auto using ws_cstr|]. apply C1; [lia|].
    rewrite cstr_app. split; [eapply str_cstr; eassumption|]. apply C1; [lia|]. rewrite cstr_app. split; [auto using ws_cstr|]. apply C1; [lia|]. rewrite !cstr_app.
    split; [auto using ws_cstr|]. split; [auto|]. split; [auto using ws_cstr|]. apply C1; [lia|auto].
Qed.
(** So such a library reads back, as a C string, every event it is given. *)
Lemma library_faithful print parse e : json_library print parse -> carried_event e -> json_faithful print parse e.
Proof.
  intros L C. split.
  - apply (lib_reads _ _ _ L); [apply event_writable, C|pose proof (event_depth e); lia].
  - apply (proj1 texts_cstr (event_to_tree e)); [apply (lib_print _ _ L), event_writable, C|apply event_writable, C].
Qed.

(** ** The recipient's filter: events of one kind addressed to a key *)
Definition inbox (kind : N) (pk : list N) : list (list N * json) :=
  [(bs "kinds", JArr [JNum (JFin (Z.of_N kind) 0)]); (bs "#p", JArr [JStr (hex_encode pk)])].
Definition addressed (kind : N) (pk : list N) (e : event) : Prop := ev_kind e = kind /\ has e (bs "p") (hex_encode pk).
Lemma inbox_request kind pk : kind < 65536 -> length pk = 32%nat -> bytes_ok pk -> request_filter (JObj (inbox kind pk)).
Proof.
  intros KB PL PB. exists (inbox kind pk). split; [reflexivity|]. split; [|split].
  - constructor.
    + cbn. repeat constructor; cbn; intuition discriminate.
    + intros k v n I R SL. apply same_letters_iff in SL. cbn in R. unfold inbox in I. cbn [In] in I.
      destruct I as [I|[I|[]]]; (assert (K := f_equal fst I); cbn [fst] in K; subst k; clear I; repeat destruct R as [R|R]; try contradiction; subst n; vm_compute in SL; try discriminate; reflexivity).
    + intros k v I C. unfold inbox in I. cbn [In] in I. destruct I as [I|[I|[]]]; (assert (K := f_equal fst I); assert (V := f_equal snd I); cbn [fst snd] in K, V; subst k v; clear I).
      * exfalso. destruct C as [C|[C|(c & C & _)]]; discriminate.
      * exists [hex_encode pk]. split; [reflexivity|cbn; lia].
    + intros v I. unfold inbox in I. cbn [In] in I. destruct I as [I|[I|[]]]; [|exfalso; discriminate (f_equal fst I)]. assert (V := f_equal snd I). cbn [snd] in V. subst v.
      exists [JFin (Z.of_N kind) 0]. split; [reflexivity|]. split; [cbn; lia|]. constructor; [|constructor]. exists (Z.of_N kind). split; [exists (Z.of_N kind), 0%Z; repeat split; lia|lia].
    + intros k v I C. unfold inbox in I. cbn [In] in I. destruct I as [I|[I|[]]]; (assert (K := f_equal fst I); cbn [fst] in K; subst k); exfalso; destruct C; discriminate.
    + intros v I. unfold inbox in I. cbn [In] in I. destruct I as [I|[I|[]]]; exfalso; discriminate (f_equal fst I).
  - intros k ss I C. unfold inbox in I. cbn [In] in I. destruct I as [I|[I|[]]]; (assert (K := f_equal fst I); cbn [fst] in K; subst k); exfalso; destruct C; discriminate.
  - intros k ss I C. unfold inbox in I. cbn [In] in I. destruct I as [I|[I|[]]]; (assert (K := f_equal fst I); assert (V := f_equal snd I); cbn [fst snd] in K, V; subst k); [exfalso; destruct C; discriminate|].
    destruct ss as [|s [|]]; try discriminate. assert (s = hex_encode pk) by (cbn [map] in V; congruence). subst s. constructor; [apply hex_encode_id; assumption|constructor].
Qed.
Lemma inbox_writable kind pk : kind < 65536 -> bytes_ok pk -> writable (JObj (inbox kind pk)) /\ depth (JObj (inbox kind pk)) <= 100.
Proof.
  intros KB PB. split; [|cbn; lia]. constructor. apply Forall_cons; [split; [apply cstr_dec; reflexivity|]|apply Forall_cons; [split; [apply cstr_dec; reflexivity|]|apply Forall_nil]].
  - constructor. apply Forall_cons; [constructor; change (10 ^ 15)%Z with 1000000000000000%Z; lia|apply Forall_nil].
  - constructor. apply Forall_cons; [constructor; apply cstr_hex, PB|apply Forall_nil].
Qed.
Lemma inbox_wants kind pk e : wanted [JObj (inbox kind pk)] e <-> addressed kind pk e.
Proof.
  split.
  - intros (l & [I|[]] & S). assert (l = inbox kind pk) by congruence. subst l. split.
    + destruct (S (bs "kinds") _ (or_introl eq_refl)) as (_ & _ & K & _). destruct (K eq_refl) as (l & n & L & I1 & (m & x & -> & X & Z)).
      assert (l = [JNum (JFin (Z.of_N kind) 0)]) by congruence. subst l. destruct I1 as [I1|[]]. assert (m = Z.of_N kind /\ x = 0%Z) as (-> & ->) by (split; congruence).
      rewrite Z.pow_0_r in Z. lia.
    + destruct (S (bs "#p") _ (or_intror (or_introl eq_refl))) as (_ & _ & _ & _ & _ & K). destruct (K 112 eq_refl ltac:(right; lia)) as (l & s & L & I1 & P).
      assert (l = [JStr (hex_encode pk)]) by congruence. subst l. destruct I1 as [I1|[]]. assert (s = hex_encode pk) by congruence. subst s. exact P.
  - intros (K & P). exists (inbox kind pk). split; [left; reflexivity|]. intros k v I. unfold inbox in I. cbn [In] in I.
    destruct I as [I|[I|[]]]; (assert (X := f_equal fst I); assert (V := f_equal snd I); cbn [fst snd] in X, V; subst k v; clear I); repeat split; try discriminate.
    + intros _. exists [JNum (JFin (Z.of_N kind) 0)], (JFin (Z.of_N kind) 0). split; [reflexivity|]. split; [left; reflexivity|]. rewrite K. exists (Z.of_N kind), 0%Z. rewrite Z.pow_0_r. repeat split; lia.
    + intros c C LE. change (bs "#p") with [35; 112] in C. assert (c = 112) by congruence. subst c. exists [JStr (hex_encode pk)], (hex_encode pk). split; [reflexivity|]. split; [left; reflexivity|exact P].
Qed.

(** ** What is addressed to a subscriber arrives *)
Lemma picked_split P : forall before w after want, picked P (before ++ w :: after) want -> P w ->
  exists w1 w2, want = w1 ++ w :: w2 /\ picked P before w1 /\ picked P after w2.
Proof.
  induction before as [|e before IH]; intros w after want PK PW; cbn [app] in PK.
  - inversion PK; subst; [|contradiction]. eexists [], _. split; [reflexivity|]. split; [constructor|assumption].
  - inversion PK as [|? ? l' PE PK'|? ? l' PE PK']; subst; destruct (IH _ _ _ PK' PW) as (w1 & w2 & -> & A & B).
    + exists (e :: w1), w2. split; [reflexivity|]. split; [apply PkTake; assumption|exact B].
    + exists w1, w2. split; [reflexivity|]. split; [apply PkSkip; assumption|exact B].
Qed.
Lemma picked_iff (P Q : event -> Prop) l l' : (forall e, P e <-> Q e) -> picked P l l' -> picked Q l l'.
Proof.
  intros E. induction 1 as [|e l l' p pk IH|e l l' p pk IH]; [constructor|apply PkTake; [apply E, p|exact IH]|apply PkSkip; [|exact IH]].
  intros q. apply p, E, q.
Qed.
Lemma Forall2_split_r {A B} (R : A -> B -> Prop) : forall m1 m x m2, Forall2 R m (m1 ++ x :: m2) ->
  exists a1 a a2, m = a1 ++ a :: a2 /\ Forall2 R a1 m1 /\ R a x /\ Forall2 R a2 m2.
Proof.
  intros m1 m x m2 F. apply Forall2_app_inv_r in F as (a1 & r & F1 & F2 & ->). inversion F2; subst. exists a1, x0, l. auto.
Qed.

Lemma same_content a b : same_event a b -> (exists c, ev_content b = Some c /\ c <> []) -> ev_content a = ev_content b.
Proof.
  intros ((_ & _ & _ & _ & C) & _) (c & EC & NE). unfold content_of in C. rewrite EC in *. destruct (ev_content a); congruence.
Qed.
(** The subscriber's handler [k] is given exactly the events of this kind
    addressed to them, whole and in order; [g] is what it gets for [w]. *)
Definition arrives (printr print' : json -> list N) (parse : list N -> option json) (lim limr : option ev_limits) (on_message : bool) (kind : N) (pk id : list N) (k : nat)
  (l' : list subscr) (sent : option (list N)) (print : json -> list N) (w : event) (reads : event -> Prop) : Prop :=
  exists req fs, sent = Some req /\ client_read printr parse limr (parse req) = ROk (CReq id fs) /\
  forall before after texts, Forall2 (published print) (before ++ w :: after) texts ->
  Forall carried_event (before ++ after) -> Forall few_tags (before ++ after) ->
  Forall (within_limits limr) (before ++ after) -> Forall (within_limits lim) (before ++ after) ->
  (exists xs, forwards (fun s => client_read printr parse limr (parse s)) id fs texts xs) /\
  forall xs wires cs, forwards (fun s => client_read printr parse limr (parse s)) id fs texts xs ->
  Forall2 (serialized printr parse) xs wires -> spread wires (whole cs) -> kept rbuf0 cs ->
  exists b l'' got1 g got2 want1 want2,
    serve parse (fun j => parse (print' j)) lim (fun _ => []) on_message rbuf0 l' cs = Ok (b, l'', map (OEvent k) (got1 ++ g :: got2)) /\
    picked (addressed kind pk) before want1 /\ Forall2 same_event got1 want1 /\
    picked (addressed kind pk) after want2 /\ Forall2 same_event got2 want2 /\
    same_event g w /\ reads g.
Lemma addressed_arrives print printr print' parse lim limr om kind pk l id filters k ok f l' sent w (reads : event -> Prop) :
  json_library print parse -> json_library printr parse -> json_library print' parse -> kind < 65536 -> length pk = 32%nat -> bytes_ok pk ->
  named l -> subscribe l id filters (Some k) ok f = (l', sent, Ok tt) -> a_id f = true -> sub_id id -> elems [JObj (inbox kind pk)] filters ->
  carried_event w -> few_tags w -> within_limits limr w -> within_limits lim w -> addressed kind pk w -> (forall g, same_event g w -> reads g) ->
  arrives printr print' parse lim limr om kind pk id k l' sent print w reads.
Proof.
  intros LC LR LP KB PL PB NL SUB AI SI EL WC FW WR WL AD RD.
  destruct (inbox_writable kind pk KB PB) as (IW & ID).
  destruct (C140_delivered_partial print printr print' parse lim limr om l id filters k ok f l' sent [JObj (inbox kind pk)] LC LR LP NL SUB AI SI EL
    ltac:(constructor; [exact IW|constructor]) ltac:(constructor; [exact ID|constructor]) ltac:(cbn; lia) ltac:(constructor; [apply inbox_request; assumption|constructor]))
    as (req & fs & -> & RQ & DEL).
  exists req, fs. split; [reflexivity|]. split; [exact RQ|]. intros before after texts PUB CA FT LA LB.
  assert (ADD : forall P : event -> Prop, Forall P (before ++ after) -> P w -> Forall P (before ++ w :: after)).
  { intros P A PW. apply Forall_app in A as (A1 & A2). apply Forall_app. split; [exact A1|constructor; assumption]. }
  destruct (DEL _ _ PUB (ADD _ CA WC) (ADD _ FT FW) (ADD _ LA WR) (ADD _ LB WL)) as (EX & GO). split; [exact EX|].
  intros xs wires cs FWD SE SP KP. destruct (GO xs wires cs FWD SE SP KP) as (b & l'' & got & want & SV & PCK & SAME).
  destruct (picked_split _ _ _ _ _ PCK (proj2 (inbox_wants kind pk w) AD)) as (w1 & w2 & -> & P1 & P2).
  destruct (Forall2_split_r _ _ _ _ _ SAME) as (g1 & g & g2 & -> & S1 & SG & S2).
  exists b, l'', g1, g, g2, w1, w2. split; [exact SV|].
  split; [eapply picked_iff; [|exact P1]; intros e; apply inbox_wants|]. split; [exact S1|].
  split; [eapply picked_iff; [|exact P2]; intros e; apply inbox_wants|]. split; [exact S2|]. split; [exact SG|]. apply RD, SG.
Qed.
Lemma one_tag_few e t : ev_tags e = [t] -> few_tags e.
Proof.
  intros T name. unfold tags_named. rewrite T. cbn [filter]. destruct (match t with [] => false | _ => _ end); cbn [length]; lia.
Qed.

(** ** C156 *)
Section Trip.
Variable num : Z -> list N.
Variable sha256 : list N -> list N.
Variable pubkey_of : list N -> option (list N).
Variable sign : list N -> list N -> list N -> option (list N).
Variable verify : list N -> list N -> list N -> bool.
Variable pubkey_parses : list N -> bool.
Variable parse_pk : bool.
Variable seckey_valid : list N -> bool.
Variable nce : list N -> list N -> list N -> list N -> option (list N * list N).
Variable ncm : list N -> list N -> list N.
Variable ncv : list N -> list N -> list N -> list N -> list N -> bool.
Variable ncd : list N -> list N -> list N -> list N -> option (list N).
Variable mt : list N -> list N -> list N -> list N -> Prop.
Variable b64enc : list N -> list N.
Variable b64dec : list N -> option (list N).
(** The libraries of sender, relay and recipient, and their configurations. *)
Variable print printr print' : json -> list N.
Variable parse : list N -> option json.
Variable lim44 : limits.
Variable lim limr : option ev_limits.
Hypothesis CO : crypto_ok sha256 pubkey_of sign verify pubkey_parses.
Hypothesis NC : nc_contract nce ncm ncv ncd mt.
Hypothesis B64 : b64_contract b64enc b64dec.
Hypothesis B64T : forall l, bytes_ok l -> cstr_ok (b64enc l).
Hypothesis B64N : forall l, l <> [] -> b64enc l <> [].
Hypothesis LIM : 1 <= lim_min lim44 /\ lim_min lim44 <= lim_max lim44 /\ lim_max lim44 <= 65535.
Hypothesis LC : json_library print parse.
Hypothesis LR : json_library printr parse.
Hypothesis LP : json_library print' parse.

Notation ser := (serialize_with num).
Notation Seal := (create_seal ser sha256 pubkey_of sign nce ncm b64enc print lim44).
Notation Gift := (create_gift_wrap ser sha256 pubkey_of sign seckey_valid nce ncm b64enc print lim44 lim).

(** Small enough for the recipient's limits and for one encrypted text. *)
Definition fits (e : event) : Prop := within_limits lim e /\ blen (event_to_json print e) <= 61440.
Definition recent (t : Z) : Prop := (172800 <= t < 10 ^ 15)%Z.

Lemma wrap_tags stamp seal pk d w : Gift stamp seal pk [] d = Ok w -> ev_tags w = [[bs "p"; hex_encode pk]].
Proof.
  unfold create_gift_wrap. intros H. apply bind_ok in H as ((sk & own) & K & H). apply bind_ok in H as (text & E & H). cbn [fst snd] in *.
  apply bind_ok in H as (t & T & H). apply bind_ok in H as (w1 & A & H). apply bind_ok in H as (w2 & A2 & H).
  destruct (event_sign _ _ _ _ _ _ _) as (s' & [[]| |]) eqn:S; try discriminate. assert (s' = w) by congruence. subst s'.
  apply (sign_created num sha256 pubkey_of sign) in S as (own' & P' & S1 & S2 & S3 & S4 & S5 & S6 & S7). cbn [compute_id ev_tags] in S5.
  cbn [add_pairs] in A2. assert (w2 = w1) by congruence. subst w2. apply add_tag_ok in A. rewrite S5, A. reflexivity.
Qed.
(** The wrap: an event of kind 1059 with one tag, which every relay can carry. *)
Lemma wrap_carried seal pk d w : nonce_ok (wd_nonce d) -> recent (wd_now d) -> bytes_ok pk -> Gift random_timestamp seal pk [] d = Ok w ->
  carried_event w /\ ev_kind w = 1059 /\ ev_tags w = [[bs "p"; hex_encode pk]] /\ (exists c, ev_content w = Some c /\ c <> []).
Proof.
  intros NW RW PB H. pose proof (wrap_tags _ _ _ _ _ H) as TG.
  apply wrap_shape in H as (eph & pke & text & KG & PE & E & T & P & K & C & I & r & S).
  apply (stamp17 lim44 LIM) in T. unfold recent in RW. pose proof (co_sha _ _ _ _ _ CO) as SHA.
  destruct (co_pub _ _ _ _ _ CO _ _ PE) as (PL & PB' & PP). destruct (co_sign _ _ _ _ _ CO _ _ _ _ _ PE S) as (SL & SB & SV).
  split; [|split; [exact K|split; [exact TG|]]].
  - split; [|lia]. constructor.
    + rewrite I. apply SHA.
    + rewrite P. auto.
    + lia.
    + rewrite K. reflexivity.
    + rewrite TG. constructor; [|constructor]. split; [discriminate|]. constructor; [apply cstr_dec; reflexivity|]. constructor; [apply cstr_hex, PB|constructor].
    + unfold content_of. rewrite C. eapply (encrypted_cstr nce ncm ncv ncd mt b64enc lim44 NC B64T); eassumption.
    + auto.
  - exists text. split; [exact C|]. unfold nip44_encrypt in E. destruct (wd_nonce d) as [n|]; [|discriminate].
    apply bind_ok in E as (padded & _ & E). destruct (nce _ _ _ _) as [[ct hk]|]; [|discriminate].
    match type of E with Ok (b64enc ?x) = _ => assert (X : text = b64enc x) by congruence end. rewrite X. apply B64N. discriminate.
Qed.

(** Reading the wrap as it arrives is reading the wrap as it was made. *)
Lemma open_same_event a b sk : same_event a b -> (exists c, ev_content b = Some c /\ c <> []) ->
  unwrap_dm ser sha256 verify pubkey_parses parse_pk ncv ncd b64dec parse lim44 lim a sk =
  unwrap_dm ser sha256 verify pubkey_parses parse_pk ncv ncd b64dec parse lim44 lim b sk.
Proof.
  intros SE NE. pose proof (same_content _ _ SE NE) as X. destruct SE as ((P & _ & K & _) & _).
  unfold unwrap_dm, open_wrap, open_content. rewrite P, K, X. reflexivity.
Qed.
Lemma rumor_carried content pka pkr subject reply created now ska rumor : pubkey_of ska = Some pka ->
  dm_rumor ser sha256 lim content pka pkr subject reply created now = Ok rumor ->
  cstr_ok content -> match subject with Some s => cstr_ok s | None => True end -> bytes_ok pkr -> match reply with Some i => bytes_ok i | None => True end ->
  (0 <= created < 10 ^ 15)%Z -> (0 <= now < 10 ^ 15)%Z -> carried_event rumor.
Proof.
  intros PK DR CC CS BP BR CR NR.
  assert (F : ev_kind rumor = 14 /\ ev_pubkey rumor = pka /\ ev_content rumor = Some content /\ ev_created rumor = (if (created =? 0)%Z then now else created) /\
    ev_tags rumor = [[bs "p"; hex_encode pkr]] ++ match subject with Some s => [[bs "subject"; s]] | None => [] end ++
                match reply with Some x => [[bs "e"; hex_encode x]] | None => [] end /\ (length (ev_id rumor) = 32%nat /\ bytes_ok (ev_id rumor)) /\ ev_sig rumor = repeat 0 64).
  { unfold dm_rumor in DR. apply bind_ok in DR as (r1 & A1 & DR). apply bind_ok in DR as (r2 & A2 & DR). apply add_tag_ok in A1.
    assert (A2' : r2 = match subject with Some s => push r1 [bs "subject"; s] | None => r1 end) by (destruct subject; [apply (add_tag_ok lim), A2|congruence]).
    assert (A3' : rumor = match reply with Some i => push r2 [bs "e"; hex_encode i] | None => r2 end) by (destruct reply; [apply (add_tag_ok lim), DR|congruence]).
    assert (ID : length (ev_id (create_rumor ser sha256 KIND_DM pka (Some content) created now)) = 32%nat /\ bytes_ok (ev_id (create_rumor ser sha256 KIND_DM pka (Some content) created now)))
      by apply (co_sha _ _ _ _ _ CO).
    rewrite A3', A2', A1. destruct subject, reply; repeat (split; [reflexivity|]); (split; [exact ID|reflexivity]). }
  destruct F as (F1 & F2 & F3 & F4 & F5 & F6 & F7). destruct (co_pub _ _ _ _ _ CO _ _ PK) as (PL & PB & PP).
  assert (TC : (0 <= ev_created rumor < 10 ^ 15)%Z) by (rewrite F4; destruct (created =? 0)%Z; assumption).
  split; [|lia]. constructor.
  - exact F6.
  - rewrite F2. auto.
  - lia.
  - rewrite F1. reflexivity.
  - assert (PE : cstr_ok (bs "p") /\ cstr_ok (bs "e") /\ cstr_ok (bs "subject")) by (repeat split; apply cstr_dec; reflexivity). destruct PE as (PE1 & PE2 & PE3).
    rewrite F5. constructor.
    + split; [discriminate|]. constructor; [exact PE1|]. constructor; [apply cstr_hex, BP|constructor].
    + apply Forall_app. split; [destruct subject|destruct reply]; try apply Forall_nil.
      * constructor; [|constructor]. split; [discriminate|]. constructor; [exact PE3|]. constructor; [exact CS|constructor].
      * constructor; [|constructor]. split; [discriminate|]. constructor; [exact PE2|]. constructor; [apply cstr_hex, BR|constructor].
  - unfold content_of. rewrite F3. exact CC.
  - rewrite F7. split; [reflexivity|]. apply Forall_repeat. reflexivity.
Qed.
Lemma seal_carried rumor ska pk sd s : nonce_ok (sd_nonce sd) -> recent (sd_now sd) -> Seal random_timestamp rumor ska pk sd = Ok s -> carried_event s.
Proof.
  intros NS RS H. apply seal_shape in H as (text & own & E1 & T1 & P1 & P2 & I1 & K1 & G1 & C1 & r1 & S1). apply (stamp17 lim44 LIM) in T1. unfold recent in RS.
  pose proof (co_sha _ _ _ _ _ CO) as SHA. destruct (co_pub _ _ _ _ _ CO _ _ P1) as (PL & PB & PP). destruct (co_sign _ _ _ _ _ CO _ _ _ _ _ P1 S1) as (SL & SB & SV).
  split; [|lia]. constructor; rewrite ?I1, ?K1, ?G1; try (split; [assumption|assumption]).
  - apply SHA.
  - rewrite P2. auto.
  - lia.
  - reflexivity.
  - constructor.
  - unfold content_of. rewrite C1. eapply (encrypted_cstr nce ncm ncv ncd mt b64enc lim44 NC B64T); eassumption.
Qed.

(** The sender makes a private message and publishes it among whatever else is
    published; the recipient asks the relay for wraps addressed to them. Then the
    handler is given the message in its place, reads sender, text, subject and
    reply from it, and the others it is given are wraps addressed to them too. *)
Theorem C156_dm_partial : forall content ska pkr skr pka subject reply created now sd wd w rumor,
  dm_rumor ser sha256 lim content pka pkr subject reply created now = Ok rumor ->
  cstr_ok content -> match subject with Some s => cstr_ok s | None => True end ->
  length pkr = 32%nat -> bytes_ok pkr -> match reply with Some i => bytes_ok i | None => True end ->
  (0 <= created < 10 ^ 15)%Z -> (0 <= now < 10 ^ 15)%Z -> recent (sd_now sd) -> recent (wd_now wd) ->
  nonce_ok (sd_nonce sd) -> nonce_ok (wd_nonce wd) ->
  pubkey_of ska = Some pka -> mt ska pkr skr pka -> (forall eph pke, pubkey_of eph = Some pke -> mt eph pkr skr pke) ->
  send_dm ser sha256 pubkey_of sign seckey_valid nce ncm b64enc print lim44 lim content ska pkr subject reply created now sd wd = Ok w ->
  fits rumor -> (forall seal, Seal random_timestamp rumor ska pkr sd = Ok seal -> fits seal) ->
  within_limits limr w -> within_limits lim w ->
  forall on_message l id filters k ok f l' sent, named l ->
  subscribe l id filters (Some k) ok f = (l', sent, Ok tt) -> a_id f = true -> sub_id id -> elems [JObj (inbox 1059 pkr)] filters ->
  arrives printr print' parse lim limr on_message 1059 pkr id k l' sent print w (fun g => exists i,
    unwrap_dm ser sha256 verify pubkey_parses parse_pk ncv ncd b64dec parse lim44 lim g skr = (Some pka, Ok i) /\
    ev_kind i = 14 /\ ev_pubkey i = pka /\ ev_content i = Some content /\ ev_created i = (if (created =? 0)%Z then now else created) /\
    ev_tags i = [[bs "p"; hex_encode pkr]] ++ match subject with Some s => [[bs "subject"; s]] | None => [] end ++
                match reply with Some x => [[bs "e"; hex_encode x]] | None => [] end).
Proof.
  intros content ska pkr skr pka subject reply created now sd wd w rumor DR CC CS PL PB BR CR NR RS RW NS NW PK MT ME H FR FS WR WL
    om l id filters k ok f l' sent NL SUB AI SI EL.
  assert (B53 : (10 ^ 15 < 2 ^ 53)%Z) by reflexivity. unfold recent in RS, RW.
  assert (RC : carried_event rumor) by (eapply rumor_carried; eassumption).
  assert (PS : forall seal, Seal random_timestamp rumor ska pkr sd = Ok seal -> portable print parse lim seal).
  { intros seal S. destruct (FS seal S) as (W1 & W2). split; [apply (library_faithful _ _ _ LC); eapply seal_carried; eassumption|]. split; assumption. }
  assert (WC : carried_event w /\ ev_kind w = 1059 /\ ev_tags w = [[bs "p"; hex_encode pkr]] /\ (exists c, ev_content w = Some c /\ c <> [])).
  { pose proof H as H'. unfold send_dm in H'. rewrite PK, DR in H'. cbn [bind] in H'. apply bind_ok in H' as (seal & _ & W). eapply wrap_carried; eassumption. }
  destruct WC as (WC & WK & WT & WN).
  destruct (C79_dm_partial num sha256 pubkey_of sign verify pubkey_parses parse_pk seckey_valid nce ncm ncv ncd mt b64enc b64dec print parse lim44 lim CO NC B64 B64T LIM
    content ska pkr skr pka subject reply created now sd wd w rumor DR CC CS PB BR) as (i & U & _ & I1 & I2 & _ & I3 & I4 & I5); try assumption; try lia.
  { destruct FR as (W1 & W2). split; [apply (library_faithful _ _ _ LC), RC|]. split; assumption. }
  eapply addressed_arrives; try eassumption; try reflexivity.
  - eapply one_tag_few, WT.
  - split; [exact WK|]. exists []. rewrite WT. left. reflexivity.
  - intros g SG. exists i. split; [rewrite (open_same_event _ _ skr SG WN); exact U|]. auto.
Qed.
End Trip.

(** *** A concrete run: a message with subject and reply, published after a note *)
Definition trip_rumor : event :=
  match dm_rumor serialize_own GiftWrapProps.toy_sha None (bs "hello") toy_key toy_pk (Some (bs "s")) (Some (repeat 3 32)) 0 1700000000 with Ok r => r | _ => toy_event end.
Definition trip_wrap : event :=
  match send_dm serialize_own GiftWrapProps.toy_sha toy_pub toy_sign toy_valid toy_enc8 toy_mac b64_encode jprint default_limits None (bs "hello") toy_key toy_pk (Some (bs "s")) (Some (repeat 3 32))
          0 1700000000 toy_sd (toy_wd (Some 5)) with Ok r => r | _ => toy_event end.
Definition trip_sub : list subscr := [mkSub (Some (bs "in")) (Some 4%nat)].
Definition trip_req : list N := bs "[""REQ"",""in""," ++ jprint (JObj (inbox 1059 toy_pk)) ++ bs "]".
Definition trip_fs : list rfilter := match client_read jprint jparse None (jparse trip_req) with ROk (CReq _ fs) => fs | _ => [] end.
Definition trip_sent (e : event) : list N := match publish_event (fun _ => true) jprint true true true e (mkHeap 0 []) with Ok ((Some s, None), _) => s | _ => [] end.
Definition trip_got (e : event) : event := match client_read jprint jparse None (jparse (trip_sent e)) with ROk (CEvent e') => e' | _ => e end.
Definition trip_told : tells := TellEvent (bs "in") (trip_got trip_wrap).
Lemma b64_nonempty l : l <> [] -> b64_encode l <> [].
Proof. destruct l as [|a [|b [|c r]]]; [congruence|discriminate|discriminate|discriminate]. Qed.
Lemma alone t : spread [t] t.
Proof.
  assert (X : spread [t] ([] ++ t ++ [])) by (apply SpMore; [apply Forall_nil|]; apply SpNil, Forall_nil).
  rewrite app_nil_r in X. exact X.
Qed.
Example C156_meets :
  crypto_ok GiftWrapProps.toy_sha toy_pub toy_sign toy_sver (fun _ => true) /\ nc_contract toy_enc8 toy_mac toy_verify toy_dec (fun _ _ _ _ => True) /\ b64_contract b64_encode b64_decode /\
  (forall l, bytes_ok l -> cstr_ok (b64_encode l)) /\ (forall l, l <> [] -> b64_encode l <> []) /\ json_library jprint jparse /\
  dm_rumor serialize_own GiftWrapProps.toy_sha None (bs "hello") toy_key toy_pk (Some (bs "s")) (Some (repeat 3 32)) 0 1700000000 = Ok trip_rumor /\
  send_dm serialize_own GiftWrapProps.toy_sha toy_pub toy_sign toy_valid toy_enc8 toy_mac b64_encode jprint default_limits None (bs "hello") toy_key toy_pk (Some (bs "s")) (Some (repeat 3 32))
    0 1700000000 toy_sd (toy_wd (Some 5)) = Ok trip_wrap /\
  fits jprint None trip_rumor /\
  (forall seal, create_seal serialize_own GiftWrapProps.toy_sha toy_pub toy_sign toy_enc8 toy_mac b64_encode jprint default_limits random_timestamp trip_rumor toy_key toy_pk toy_sd = Ok seal -> fits jprint None seal) /\
  recent (sd_now toy_sd) /\ recent (wd_now (toy_wd (Some 5))) /\ toy_pub toy_key = Some toy_key /\
  subscribe [] (bs "in") (jprint (JObj (inbox 1059 toy_pk))) (Some 4%nat) true all_well = (trip_sub, Some trip_req, Ok tt) /\ a_id all_well = true /\ sub_id (bs "in") /\
  elems [JObj (inbox 1059 toy_pk)] (jprint (JObj (inbox 1059 toy_pk))) /\
  Forall2 (published jprint) ([note2] ++ trip_wrap :: []) [trip_sent note2; trip_sent trip_wrap] /\
  Forall carried_event [note2] /\ Forall few_tags [note2] /\
  forwards (fun s => client_read jprint jparse None (jparse s)) (bs "in") trip_fs [trip_sent note2; trip_sent trip_wrap] [trip_told] /\
  Forall2 (serialized jprint jparse) [trip_told] [wire trip_told] /\ spread [wire trip_told] (wire trip_told).
Proof.
  split; [exact toy_crypto|]. split; [exact toy_contract|]. split; [exact base64_contract|]. split; [exact b64_encode_cstr|]. split; [exact b64_nonempty|]. split; [exact compact_library|].
  split; [vm_compute; reflexivity|]. split; [vm_compute; reflexivity|].
  split; [split; [exact I|vm_compute; discriminate]|].
  split. { intros seal S. split; [exact I|]. match type of S with ?x = _ => let y := eval vm_compute in x in assert (X : x = y) by (vm_compute; reflexivity); rewrite X in S; match y with Ok ?z => assert (Z : seal = z) by congruence end end.
    rewrite Z. vm_compute. discriminate. }
  split; [split; [discriminate|reflexivity]|]. split; [split; [discriminate|reflexivity]|]. split; [reflexivity|]. split; [reflexivity|]. split; [reflexivity|].
  split. { split; [cbn; lia|]. repeat (apply Forall_cons; [split; discriminate|]). apply Forall_nil. }
  assert (W : writable (JObj (inbox 1059 toy_pk))) by (apply inbox_writable; [reflexivity|apply Forall_repeat; reflexivity]).
  split. { rewrite <- (app_nil_r (jprint _)), <- (app_nil_l (jprint _ ++ [])). apply ElOne; [exact ws_nil|exact (lib_print _ _ compact_library _ W)|exact ws_nil]. }
  split.
  { assert (P : forall e, (exists h', publish_event (fun _ => true) jprint true true true e (mkHeap 0 []) = Ok ((Some (trip_sent e), None), h')) -> published jprint e (trip_sent e)).
    { intros e (h' & E). exists (fun _ => true), true, true, true, (mkHeap 0 []), h'. split; [|split; [intros k _; reflexivity|exact E]]. split; [split; constructor|constructor]. }
    repeat (apply Forall2_cons; [apply P; eexists; vm_compute; reflexivity|]). apply Forall2_nil. }
  split. { apply Forall_cons; [|apply Forall_nil]. apply (note_carried 5 171 1700000001 _ _ 6); try lia; [repeat constructor; try discriminate; reflexivity|repeat constructor; reflexivity]. }
  split. { apply Forall_cons; [intros name; unfold tags_named; cbn; repeat match goal with |- context[match ?b with true => _ | false => _ end] => destruct b end; cbn; lia|]. apply Forall_nil. }
  split. { apply FwKeep with (e := trip_got note2); [vm_compute; reflexivity|vm_compute; reflexivity|]. apply FwSend; [vm_compute; reflexivity|vm_compute; reflexivity|]. apply FwNone. }
  split.
  { apply Forall2_cons; [|apply Forall2_nil]. exists (repeat 0 3000), 3000. eexists. eexists. split; [vm_compute; reflexivity|]. vm_compute. reflexivity. }
  apply alone.
Qed.
Print Assumptions C156_dm_partial.
