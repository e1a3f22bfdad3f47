(** C104-C106: remote signing. *)
From Verif Require Import Base BaseFacts Hex HexProofs HexSpec Json Event EventProofs EventSpec EventProps Base64 Nip21 Nip44 Nip44Spec Nip44Proofs Nip44Props
  GiftWrap GiftWrapSpec GiftWrapProps Nip18Spec RelayFilterSpec RelayProtoProps RelayFilterProps Nip46 Nip46Spec.
Open Scope N_scope.

(** ** Reading members *)
Lemma jfind_gives k l v : jfind k l = Some v <-> gives (JObj l) k v.
Proof.
  induction l as [|(k', v') l IH]; cbn [jfind].
  - split; [discriminate|]. intros (l1 & k' & l2 & E & _). destruct l1; discriminate.
  - destruct (beq _ _) eqn:B.
    + apply beq_eq, same_letters_iff in B. split.
      * intros E. assert (v' = v) by congruence. subst v'. exists [], k', l. split; [reflexivity|]. split; [exact B|]. intros ? ? [].
      * intros (l1 & k2 & l2 & E & SL & NO). destruct l1 as [|(k1, v1) l1]; cbn [app] in E; [congruence|].
        exfalso. apply (NO k' v'); [left; congruence|exact B].
    + assert (NB : ~ same_letters k' k) by (intros X; apply same_letters_iff in X; rewrite X, beq_refl in B; discriminate).
      rewrite IH. split.
      * intros (l1 & k2 & l2 & E & SL & NO). assert (E' : l = l1 ++ (k2, v) :: l2) by congruence. subst l.
        exists ((k', v') :: l1), k2, l2. split; [reflexivity|]. split; [exact SL|]. intros k3 v3 [X|X]; [congruence|eapply NO; exact X].
      * intros (l1 & k2 & l2 & E & SL & NO). destruct l1 as [|(k1, v1) l1]; cbn [app] in E; [congruence|].
        assert (E' : l = l1 ++ (k2, v) :: l2) by congruence. subst l. exists l1, k2, l2. split; [reflexivity|]. split; [exact SL|].
        intros k3 v3 X. apply (NO k3 v3). right. exact X.
Qed.
Lemma jget_gives k j v : jget k j = Some v <-> gives j k v.
Proof.
  destruct j; cbn [jget]; try (split; [discriminate|intros (? & ? & ? & E & _); discriminate]). apply jfind_gives.
Qed.
Lemma c_text_iff t s : c_text t s <-> until_nul t = s.
Proof.
  split.
  - intros (b & -> & NZ & B). apply until_nul_unique; assumption.
  - intros <-. destruct (until_nul_spec t) as (b & E & NZ & B). exists b. auto.
Qed.
Lemma kept_iff n s s' : kept n s s' <-> s' = firstn n s.
Proof.
  split.
  - intros (r & -> & L & F). destruct r as [|c r]; [rewrite app_nil_r, firstn_all2 by exact L; reflexivity|].
    rewrite firstn_app_exact; [reflexivity|]. symmetry. apply F. discriminate.
  - intros ->. exists (skipn n s). split; [symmetry; apply firstn_skipn|]. split; [apply firstn_le_length|]. intros NE.
    apply firstn_length_le. destruct (Nat.le_gt_cases n (length s)); [assumption|]. rewrite skipn_all2 in NE by lia. congruence.
Qed.
Lemma text_of_iff n j k s : text_of n j k s <-> text_field n k j = s.
Proof.
  unfold text_of, text_field. split.
  - intros [(x & G & K)|(NO & ->)].
    + apply jget_gives in G. rewrite G. symmetry. apply kept_iff, K.
    + destruct (jget k j) as [[]|] eqn:G; try reflexivity. apply jget_gives in G. exfalso. apply (NO s), G.
  - destruct (jget k j) as [[| | |x| |]|] eqn:G; intros <-; try (right; split; [intros y Y; apply jget_gives in Y; congruence|reflexivity]).
    left. exists x. split; [apply jget_gives, G|apply kept_iff; reflexivity].
Qed.

Section Requests.
Variable decrypt : list N -> list N -> list N -> res (list N).
Variable print : json -> list N.
Variable parse : list N -> option json.
Notation Read := (parse_request decrypt print parse).
Lemma opens_det sk pk e j j' : opens decrypt parse sk pk e j -> opens decrypt parse sk pk e j' -> j = j'.
Proof.
  intros (c & t & s & C & D & T & P) (c' & t' & s' & C' & D' & T' & P'). apply c_text_iff in T, T'. congruence.
Qed.
(** ** C104 *)
(** Exactly which events are requests, and what is read. *)
Theorem C104_exact : forall e sk q, Read e sk = Ok q <->
  ev_kind e = 24133 /\ rq_sender q = ev_pubkey e /\ exists j, opens decrypt parse sk (ev_pubkey e) e j /\
    text_of 64 j (bs "id") (rq_id q) /\ text_of 31 j (bs "method") (rq_method q) /\
    (forall v, gives j (bs "params") v -> rq_params q = Some (print v)) /\ ((forall v, ~ gives j (bs "params") v) -> rq_params q = None).
Proof.
  intros e sk q. unfold parse_request, NIP46_KIND. split.
  - intros H. destruct (N.eqb_spec (ev_kind e) 24133) as [K|]; cbn [negb] in H; [|discriminate]. destruct (ev_content e) as [c|] eqn:C; [|discriminate].
    apply bind_ok in H as (t & D & H). destruct (parse (until_nul t)) as [j|] eqn:P; [|discriminate].
    match type of H with Ok ?x = _ => assert (X : q = x) by congruence end. subst q. cbn [rq_id rq_method rq_params rq_sender].
    split; [exact K|]. split; [reflexivity|]. exists j. split; [exists c, t, (until_nul t); split; [exact C|]; split; [exact D|]; split; [apply c_text_iff; reflexivity|exact P]|].
    split; [apply text_of_iff; reflexivity|]. split; [apply text_of_iff; reflexivity|]. split.
    + intros v G. apply jget_gives in G. rewrite G. reflexivity.
    + intros NO. destruct (jget (bs "params") j) as [v|] eqn:G; [|reflexivity]. apply jget_gives in G. destruct (NO v G).
  - intros (K & S & j & (c & t & s & C & D & T & P) & I & M & PS & PN). rewrite K, C. cbn [negb N.eqb Pos.eqb]. rewrite D. cbn [bind].
    apply c_text_iff in T. rewrite T, P. apply text_of_iff in I, M. rewrite I, M.
    assert (X : match jget (bs "params") j with Some p => Some (print p) | None => None end = rq_params q).
    { destruct (jget (bs "params") j) as [v|] eqn:G; [symmetry; apply PS, jget_gives, G|]. symmetry. apply PN. intros v V. apply jget_gives in V. congruence. }
    rewrite X, <- S. destruct q. reflexivity.
Qed.
(** A request whose id and method fit their fields is read as sent.  Missing:
    longer ids (they are cut). *)
Theorem C104_request_partial : forall e sk j i m ps, ev_kind e = 24133 -> opens decrypt parse sk (ev_pubkey e) e j ->
  gives j (bs "id") (JStr i) -> gives j (bs "method") (JStr m) -> gives j (bs "params") ps -> (length i <= 64)%nat -> (length m <= 31)%nat ->
  Read e sk = Ok (mkRequest i m (Some (print ps)) (ev_pubkey e)).
Proof.
  intros e sk j i m ps K O I M P LI LM. apply C104_exact. split; [exact K|]. split; [reflexivity|]. exists j. split; [exact O|].
  cbn [rq_id rq_method rq_params].
  split; [left; exists i; split; [exact I|apply kept_iff; symmetry; apply firstn_all2, LI]|].
  split; [left; exists m; split; [exact M|apply kept_iff; symmetry; apply firstn_all2, LM]|]. split.
  - intros v V. apply jget_gives in V, P. congruence.
  - intros NO. destruct (NO ps P).
Qed.
(** What is refused, and how. *)
Theorem C104_errors : forall e sk x, Read e sk = Err x <->
  (ev_kind e <> 24133 /\ x = EInvalidEvent) \/
  (ev_kind e = 24133 /\ ((ev_content e = None /\ x = EInvalidParam) \/ exists c, ev_content e = Some c /\
    (decrypt sk (ev_pubkey e) c = Err x \/ (x = EJsonParse /\ exists t s, decrypt sk (ev_pubkey e) c = Ok t /\ c_text t s /\ parse s = None)))).
Proof.
  intros e sk x. unfold parse_request, NIP46_KIND. destruct (N.eqb_spec (ev_kind e) 24133) as [K|K]; cbn [negb].
  2:{ split; [intros E; left; split; [exact K|congruence]|intros [(_ & ->)|(K' & _)]; [reflexivity|contradiction]]. }
  destruct (ev_content e) as [c|] eqn:C.
  2:{ split; [intros E; right; split; [exact K|]; left; split; [reflexivity|congruence]|].
      intros [(K' & _)|(_ & [(_ & ->)|(c & X & _)])]; [contradiction|reflexivity|discriminate]. }
  split.
  - intros E. right. split; [exact K|]. right. exists c. split; [reflexivity|]. destruct (decrypt sk (ev_pubkey e) c) as [t|y|] eqn:D; cbn [bind] in E; [|left; congruence|discriminate].
    right. destruct (parse (until_nul t)) eqn:P; [discriminate|]. split; [congruence|]. exists t, (until_nul t).
    split; [reflexivity|]. split; [apply c_text_iff; reflexivity|exact P].
  - intros [(K' & _)|(_ & [(X & _)|(c' & X & R)])]; [contradiction|discriminate|]. assert (c' = c) by congruence. subst c'.
    destruct R as [D|(-> & t & s & D & T & P)]; rewrite D; cbn [bind]; [reflexivity|]. apply c_text_iff in T. rewrite T, P. reflexivity.
Qed.
End Requests.
(** The other side of the ciphers' keys wrote the request: it carries a tag that
    verifies under the recipient's key and the key it names as the sender. *)
Theorem C104_authentic : forall ncv ncd dec l print parse e sk q,
  parse_request (nip44_decrypt ncv ncd dec l) print parse e sk = Ok q ->
  exists c nonce ct mac padded, ev_content e = Some c /\ dec c = Some (2 :: nonce ++ ct ++ mac) /\ length nonce = 32%nat /\ length mac = 32%nat /\
    ncv sk (rq_sender q) nonce (nonce ++ ct) mac = true /\ ncd sk (rq_sender q) nonce ct = Some padded.
Proof.
  intros ncv ncd dec l print parse e sk q H. apply C104_exact in H as (_ & -> & j & (c & t & s & C & D & _) & _).
  apply C11_decrypt_authenticated in D as (nonce & ct & mac & padded & D1 & D2 & D3 & D4 & D5 & _). exists c, nonce, ct, mac, padded. auto 10.
Qed.

(** Witnesses: a cipher that is no cipher, and a reader that knows a few texts. *)
Definition plain_dec (sk pk c : list N) : res (list N) := Ok c.
Definition long_id : list N := repeat 97 70.
Definition ask (i : list N) : json := JObj [(bs "id", JStr i); (bs "method", JStr (bs "ping")); (bs "params", JArr [])].
Definition ask_event : event := mkEvent (repeat 0 32) (repeat 3 32) 0 24133 [] (Some (bs "request")) (repeat 0 64).
(** The id of a request is not always the one it was sent with. *)
Theorem C104_refuted : ~ (forall decrypt print parse e sk j i q, opens decrypt parse sk (ev_pubkey e) e j -> gives j (bs "id") (JStr i) ->
  parse_request decrypt print parse e sk = Ok q -> rq_id q = i).
Proof.
  intros A. assert (X : rq_id (mkRequest (repeat 97 64) (bs "ping") (Some []) (repeat 3 32)) = long_id); [|discriminate X].
  apply (A plain_dec (fun _ => []) (fun _ => Some (ask long_id)) ask_event [] (ask long_id)).
  - exists (bs "request"), (bs "request"), (bs "request"). split; [reflexivity|]. split; [reflexivity|]. split; [|reflexivity]. apply c_text_iff. reflexivity.
  - apply jget_gives. reflexivity.
  - reflexivity.
Qed.
(** Nor does every accepted request have an id and a method at all. *)
Theorem C104_incomplete_refuted : ~ (forall decrypt print parse e sk j q, opens decrypt parse sk (ev_pubkey e) e j ->
  parse_request decrypt print parse e sk = Ok q -> exists i m, gives j (bs "id") (JStr i) /\ gives j (bs "method") (JStr m)).
Proof.
  intros A. destruct (A plain_dec (fun _ => []) (fun _ => Some (JNum (JFin 7 0))) ask_event [] (JNum (JFin 7 0)) (mkRequest [] [] None (repeat 3 32))) as (i & m & G & _).
  - exists (bs "request"), (bs "request"), (bs "request"). split; [reflexivity|]. split; [reflexivity|]. split; [|reflexivity]. apply c_text_iff. reflexivity.
  - reflexivity.
  - apply jget_gives in G. discriminate G.
Qed.
(** Nor does anyone check that the event is signed: this one is not. *)
Theorem C104_unsigned_refuted : ~ (forall ser sha256 verify decrypt print parse e sk q, parse_request decrypt print parse e sk = Ok q -> signed ser sha256 verify e).
Proof.
  intros A. destruct (A (fun _ => []) (fun _ => repeat 1 32) (fun _ _ _ => false) plain_dec (fun _ => []) (fun _ => Some JNull) ask_event [] (mkRequest [] [] None (repeat 3 32)) eq_refl) as (_ & V).
  discriminate V.
Qed.
Example C104_meets :
  parse_request plain_dec (fun _ => bs "[]") (fun s => if beq s (bs "request") then Some (ask (bs "42")) else None) ask_event (repeat 4 32) =
    Ok (mkRequest (bs "42") (bs "ping") (Some (bs "[]")) (repeat 3 32)) /\
  opens plain_dec (fun s => if beq s (bs "request") then Some (ask (bs "42")) else None) (repeat 4 32) (repeat 3 32) ask_event (ask (bs "42")) /\
  gives (ask (bs "42")) (bs "id") (JStr (bs "42")) /\ gives (ask (bs "42")) (bs "method") (JStr (bs "ping")) /\ gives (ask (bs "42")) (bs "params") (JArr []).
Proof.
  split; [reflexivity|]. split; [|repeat split; apply jget_gives; reflexivity].
  exists (bs "request"), (bs "request"), (bs "request"). split; [reflexivity|]. split; [reflexivity|]. split; [|reflexivity]. apply c_text_iff. reflexivity.
Qed.

Section Responses.
Variable num : Z -> list N.
Notation ser := (serialize_with num).
Variable sha256 : list N -> list N.
Variable pubkey_of : list N -> option (list N).
Variable sign : list N -> list N -> list N -> option (list N).
Variable verify : list N -> list N -> list N -> bool.
Variable pubkey_parses : list N -> bool.
Variable nce : list N -> list N -> list N -> list N -> option (list N * list N).
Variable ncm : list N -> list N -> list N.
Variable ncv : list N -> list N -> list N -> list N -> list N -> bool.
Variable ncd : list N -> list N -> list N -> list N -> option (list N).
Variable mt : list N -> list N -> list N -> list N -> Prop.
Variable b64enc : list N -> list N.
Variable b64dec : list N -> option (list N).
Variable print : json -> list N.
Variable parse : list N -> option json.
Variable l44 : limits.
Variable lim : option ev_limits.
Hypothesis CO : crypto_ok sha256 pubkey_of sign verify pubkey_parses.
Hypothesis NC : nc_contract nce ncm ncv ncd mt.
Hypothesis B64 : b64_contract b64enc b64dec.
Hypothesis LIM : 1 <= lim_min l44 /\ lim_min l44 <= lim_max l44 /\ lim_max l44 <= 65535.
Notation Make := (create_response ser sha256 pubkey_of sign (nip44_encrypt nce ncm b64enc l44) print parse lim).
Notation Opens := (opens (nip44_decrypt ncv ncd b64dec l44) parse).
(** The JSON library reads [j] back, and its text fits the cipher. *)
Definition sendable (j : json) : Prop := parse (print j) = Some j /\ cstr_ok (print j) /\ blen (print j) <= 61440.

Lemma response_shape r sk pk nonce aux now e : Make r sk pk nonce aux now = Ok e ->
  exists c own, nip44_encrypt nce ncm b64enc l44 sk pk nonce (print (response_tree parse r)) = Ok c /\ pubkey_of sk = Some own /\
    ev_pubkey e = own /\ ev_id e = sha256 (ser e) /\ ev_created e = now /\ ev_kind e = 24133 /\ ev_content e = Some c /\
    ev_tags e = (if match lim with Some l => max_tags l <=? 0 | None => false end then [] else [[bs "p"; hex_encode pk]]) /\
    exists a, sign sk a (ev_id e) = Some (ev_sig e).
Proof.
  unfold create_response. intros X. apply bind_ok in X as (c & EN & X). apply bind_ok in X as (e1 & A & X).
  destruct (event_sign _ _ _ _ _ _ _) as (e2 & [[]| |]) eqn:SG; try discriminate. assert (e2 = e) by congruence. subst e2.
  apply sign_created in SG as (own & P & S1 & S2 & S3 & S4 & S5 & S6 & S7).
  exists c, own. cbn [compute_id ev_created ev_kind ev_tags ev_content] in S3, S4, S5, S6.
  assert (Y : ev_created e1 = now /\ ev_kind e1 = 24133 /\ ev_content e1 = Some c /\
    ev_tags e1 = if match lim with Some l => max_tags l <=? 0 | None => false end then [] else [[bs "p"; hex_encode pk]]).
  { unfold add_tag in A. cbn [ev_tags length N.of_nat] in A. destruct (match lim with Some l => _ | None => false end);
    match type of A with Ok ?x = _ => assert (Z : e1 = x) by congruence end; subst e1; cbn; auto. }
  destruct Y as (Y1 & Y2 & Y3 & Y4). split; [exact EN|]. split; [exact P|]. split; [exact S1|]. split; [exact S2|].
  split; [congruence|]. split; [congruence|]. split; [congruence|]. split; [rewrite S5; exact Y4|exact S7].
Qed.
Lemma response_opens r sks pkc skc pks nonce aux now e j : pubkey_of sks = Some pks -> mt sks pkc skc pks -> length nonce = 32%nat -> bytes_ok nonce ->
  j = response_tree parse r -> sendable j -> Make r sks pkc (Some nonce) aux now = Ok e -> ev_pubkey e = pks /\ Opens skc pks e j.
Proof.
  intros PK MT NL NB -> (F & C & SZ) M. apply response_shape in M as (c & own & EN & P & S1 & _ & _ & _ & EC & _).
  split; [congruence|]. destruct LIM as (L1 & L2 & L3). exists c, (print (response_tree parse r)), (print (response_tree parse r)).
  split; [exact EC|]. split.
  - rewrite (C11_roundtrip_partial _ _ _ _ _ _ _ _ _ _ skc pks _ _ _ NC B64 MT L1 L2 L3 NL NB (cstr_bytes _ C) EN).
    rewrite (proj2 (N.leb_le _ _)) by exact SZ. reflexivity.
  - split; [|exact F]. apply c_text_iff, until_nul_cstr, C.
Qed.

(** ** C105 *)
(** A failure reaches the client, under the request's id. *)
Theorem C105_error : forall i x t sks pkc skc pks nonce aux now e, pubkey_of sks = Some pks -> mt sks pkc skc pks -> length nonce = 32%nat -> bytes_ok nonce ->
  sendable (JObj [(bs "id", JStr i); (bs "error", JStr x)]) ->
  Make (mkResponse i t (Some x)) sks pkc (Some nonce) aux now = Ok e ->
  exists j, Opens skc (ev_pubkey e) e j /\ reports j i (Failed x).
Proof.
  intros i x t sks pkc skc pks nonce aux now e PK MT NL NB SD M.
  destruct (response_opens (mkResponse i t (Some x)) _ _ skc pks _ _ _ _ _ PK MT NL NB eq_refl SD M) as (-> & O). eexists. split; [exact O|].
  split; [apply jget_gives; reflexivity|]. split; [apply jget_gives; reflexivity|]. intros v V. apply jget_gives in V. discriminate V.
Qed.
(** So does a result that is not, and does not begin with, a JSON text.
    Missing: all other results. *)
Theorem C105_result_partial : forall i s sks pkc skc pks nonce aux now e, pubkey_of sks = Some pks -> mt sks pkc skc pks -> length nonce = 32%nat -> bytes_ok nonce ->
  parse s = None -> sendable (JObj [(bs "id", JStr i); (bs "result", JStr s)]) ->
  Make (mkResponse i (Some s) None) sks pkc (Some nonce) aux now = Ok e ->
  exists j, Opens skc (ev_pubkey e) e j /\ reports j i (Done s).
Proof.
  intros i s sks pkc skc pks nonce aux now e PK MT NL NB PN SD M.
  assert (T : JObj [(bs "id", JStr i); (bs "result", JStr s)] = response_tree parse (mkResponse i (Some s) None)) by (unfold response_tree; cbn [rs_id rs_error rs_result]; rewrite PN; reflexivity).
  destruct (response_opens _ _ _ skc pks _ _ _ _ _ PK MT NL NB T SD M) as (-> & O). eexists. split; [exact O|].
  split; [apply jget_gives; reflexivity|]. split; [apply jget_gives; reflexivity|]. intros v V. apply jget_gives in V. discriminate V.
Qed.
(** A result that begins with a JSON text is sent as that JSON value. *)
Theorem C105_json : forall i s v sks pkc skc pks nonce aux now e, pubkey_of sks = Some pks -> mt sks pkc skc pks -> length nonce = 32%nat -> bytes_ok nonce ->
  parse s = Some v -> sendable (JObj [(bs "id", JStr i); (bs "result", v)]) ->
  Make (mkResponse i (Some s) None) sks pkc (Some nonce) aux now = Ok e ->
  exists j, Opens skc (ev_pubkey e) e j /\ gives j (bs "id") (JStr i) /\ gives j (bs "result") v /\ forall x, ~ gives j (bs "error") x.
Proof.
  intros i s v sks pkc skc pks nonce aux now e PK MT NL NB PN SD M.
  assert (T : JObj [(bs "id", JStr i); (bs "result", v)] = response_tree parse (mkResponse i (Some s) None)) by (unfold response_tree; cbn [rs_id rs_error rs_result]; rewrite PN; reflexivity).
  destruct (response_opens _ _ _ skc pks _ _ _ _ _ PK MT NL NB T SD M) as (-> & O). eexists. split; [exact O|].
  split; [apply jget_gives; reflexivity|]. split; [apply jget_gives; reflexivity|]. intros x V. apply jget_gives in V. discriminate V.
Qed.
(** No client is told a public key whose hex form begins with a decimal digit
    (five keys in eight): a number goes out in its place. *)
Theorem C105_public_key_refuted : reads_numbers parse -> forall i b rest sks pkc skc pks nonce aux now e, pubkey_of sks = Some pks -> mt sks pkc skc pks -> length nonce = 32%nat -> bytes_ok nonce ->
  b < 160 -> (forall n, parse (hex_encode (b :: rest)) = Some (JNum n) -> sendable (JObj [(bs "id", JStr i); (bs "result", JNum n)])) ->
  Make (mkResponse i (Some (hex_encode (b :: rest))) None) sks pkc (Some nonce) aux now = Ok e ->
  (exists j n, Opens skc (ev_pubkey e) e j /\ gives j (bs "id") (JStr i) /\ gives j (bs "result") (JNum n)) /\
  forall j, Opens skc (ev_pubkey e) e j -> ~ reports j i (Done (hex_encode (b :: rest))).
Proof.
  intros RN i b rest sks pkc skc pks nonce aux now e PK MT NL NB B SD M.
  assert (X : exists d r, hex_encode (b :: rest) = d :: r /\ 48 <= d <= 57).
  { cbn [hex_encode app]. eexists. eexists. split; [reflexivity|].
    assert (L : b / 16 < 10) by (apply N.div_lt_upper_bound; [discriminate|exact B]). unfold hexdigit. generalize dependent (b / 16). intros q L. destruct (N.ltb_spec q 10); lia. }
  destruct X as (d & r & E & D). destruct (RN d r D) as (n & P). rewrite <- E in P.
  destruct (C105_json i _ _ sks pkc skc pks nonce aux now e PK MT NL NB P (SD n P) M) as (j & O & G1 & G2 & _).
  split; [exists j, n; auto|]. intros j' O' (_ & G & _). assert (j' = j) by (eapply opens_det; eassumption). subst j'.
  apply jget_gives in G, G2. congruence.
Qed.

(** ** C106 *)
(** The event: of the right kind, by the signer, dated, signed, and addressed to
    the client.  Missing: a configuration that allows no tags. *)
Theorem C106_event_partial : forall r sks pkc nonce aux now e, bytes_ok pkc -> Make r sks pkc nonce aux now = Ok e ->
  pubkey_of sks = Some (ev_pubkey e) /\ ev_kind e = 24133 /\ ev_created e = now /\ signed ser sha256 verify e /\
  ((forall l, lim = Some l -> 0 < max_tags l) -> exists h, lower_hex h pkc /\ ev_tags e = [[bs "p"; h]]).
Proof.
  intros r sks pkc nonce aux now e BK M. apply response_shape in M as (c & own & _ & P & S1 & S2 & S3 & S4 & _ & S6 & a & S7).
  rewrite S1. split; [exact P|]. split; [exact S4|]. split; [exact S3|]. split.
  - split; [exact S2|]. rewrite S1. apply (co_sign _ _ _ _ _ CO _ _ _ _ _ P S7).
  - intros L. exists (hex_encode pkc). split; [apply lower_hex_encode, BK|]. rewrite S6.
    destruct lim as [l|]; [|reflexivity]. rewrite (proj2 (N.leb_gt _ _)); [reflexivity|apply L; reflexivity].
Qed.
(** A response is made whenever encryption and signing work: nothing else fails. *)
Theorem C106_made : forall r sks pkc pks nonce aux now, pubkey_of sks = Some pks -> (forall n d, bytes_ok d -> nce sks pkc n d <> None) -> (forall a d, sign sks a d <> None) ->
  bytes_ok (print (response_tree parse r)) ->
  lim_min l44 <= blen (print (response_tree parse r)) <= lim_max l44 ->
  exists e, Make r sks pkc (Some nonce) (Some aux) now = Ok e.
Proof.
  intros r sks pkc pks nonce aux now PK EN SG BP SZ. unfold create_response, nip44_encrypt. pose proof (pad_ok l44 _ LIM SZ) as P. rewrite P. apply Nip44Proofs.pad_bytes in P; [|exact BP]. cbn [bind].
  set (p := _ ++ _ ++ _) in *. specialize (EN nonce p P). destruct (nce sks pkc nonce p) as [[ct hk]|]; [|congruence]. cbn [bind].
  unfold add_tag. destruct (match lim with Some l => _ | None => false end); cbn [bind]; unfold event_sign; rewrite PK;
  match goal with |- context [sign sks aux ?d] => pose proof (SG aux d) as SG'; destruct (sign sks aux d) as [s|]; [|congruence] end; eexists; reflexivity.
Qed.
End Responses.

(** A small JSON library: it knows one object, reads leading digits as numbers
    and nothing else. *)
Definition one_print (j : json) : list N := bs "{..}".
Definition one_parse (k : json) (s : list N) : option json :=
  match s with
  | c :: _ => if (48 <=? c) && (c <=? 57) then Some (JNum (JFin (Z.of_N (c - 48)) 0)) else if beq s (bs "{..}") then Some k else None
  | [] => None
  end.
Lemma one_numbers k : reads_numbers (one_parse k).
Proof.
  intros d r D. unfold one_parse. rewrite (proj2 (N.leb_le _ _)), (proj2 (N.leb_le _ _)) by lia. eexists. reflexivity.
Qed.
Lemma one_sendable k : sendable one_print (one_parse k) k.
Proof. split; [reflexivity|]. split; [repeat constructor; unfold char_ok; lia|]. cbn. lia. Qed.
Definition toy_response k lim r := create_response (serialize_with (fun _ => [])) GiftWrapProps.toy_sha toy_pub toy_sign (nip44_encrypt toy_enc8 toy_mac b64_encode default_limits) one_print (one_parse k) lim
  r toy_key toy_pk (Some (repeat 9 32)) (Some []) 1700000000%Z.
Definition sample_key : list N := 59 :: repeat 191 31.
(** Full statement (false): the client is told the result it was given. *)
Theorem C105_refuted :
  ~ (forall num sha256 pubkey_of sign verify pubkey_parses nce ncm ncv ncd mt b64enc b64dec print parse l44 lim i s sks pkc skc pks nonce aux now e,
       crypto_ok sha256 pubkey_of sign verify pubkey_parses -> nc_contract nce ncm ncv ncd mt -> b64_contract b64enc b64dec ->
       reads_numbers parse -> pubkey_of sks = Some pks -> mt sks pkc skc pks -> length nonce = 32%nat -> bytes_ok nonce ->
       sendable print parse (response_tree parse (mkResponse i (Some s) None)) ->
       create_response (serialize_with num) sha256 pubkey_of sign (nip44_encrypt nce ncm b64enc l44) print parse lim (mkResponse i (Some s) None) sks pkc (Some nonce) aux now = Ok e ->
       exists j, opens (nip44_decrypt ncv ncd b64dec l44) parse skc (ev_pubkey e) e j /\ reports j i (Done s)).
Proof.
  intros A. set (k := JObj [(bs "id", JStr (bs "7")); (bs "result", JNum (JFin 3 0))]).
  assert (X : exists e, toy_response k None (mkResponse (bs "7") (Some (hex_encode sample_key)) None) = Ok e) by (eexists; vm_compute; reflexivity).
  destruct X as (e & X). unfold toy_response in X. assert (BN : bytes_ok (repeat 9 32)) by (apply Forall_repeat; unfold byte_ok; lia).
  assert (T : response_tree (one_parse k) (mkResponse (bs "7") (Some (hex_encode sample_key)) None) = k) by reflexivity.
  assert (PK : toy_pub toy_key = Some toy_key) by reflexivity.
  assert (LD : 1 <= lim_min default_limits /\ lim_min default_limits <= lim_max default_limits /\ lim_max default_limits <= 65535) by (cbn; lia).
  destruct (A _ _ _ _ _ _ _ _ _ _ _ _ _ _ _ _ _ _ _ _ _ toy_key toy_key (repeat 9 32) _ _ _ toy_crypto toy_contract base64_contract (one_numbers k) PK Logic.I eq_refl BN ltac:(rewrite T; apply one_sendable) X) as (j & O & R).
  refine (proj2 (C105_public_key_refuted _ _ _ _ _ _ _ _ _ _ _ _ _ _ _ toy_contract base64_contract LD (one_numbers k) _ 59 (repeat 191 31) _ _ toy_key _ (repeat 9 32) _ _ _ PK Logic.I eq_refl BN _ _ X) j O R).
  - reflexivity.
  - intros n P. assert (n = JFin 3 0) by (vm_compute in P; congruence). subst n. apply one_sendable.
Qed.
Example C105_meets :
  let k := JObj [(bs "id", JStr (bs "7")); (bs "result", JStr (bs "pong"))] in
  exists e, toy_response k None (mkResponse (bs "7") (Some (bs "pong")) None) = Ok e /\ one_parse k (bs "pong") = None /\ sendable one_print (one_parse k) k /\
    opens (nip44_decrypt toy_verify toy_dec b64_decode default_limits) (one_parse k) (repeat 4 32) toy_key e k /\ reports k (bs "7") (Done (bs "pong")).
Proof.
  intros k. eexists. split; [vm_compute; reflexivity|]. split; [reflexivity|]. split; [apply one_sendable|]. split.
  - exists (match ev_content match toy_response k None (mkResponse (bs "7") (Some (bs "pong")) None) with Ok e => e | _ => ask_event end with Some c => c | None => [] end), (bs "{..}"), (bs "{..}").
    split; [vm_compute; reflexivity|]. split; [vm_compute; reflexivity|]. split; [apply c_text_iff; reflexivity|reflexivity].
  - split; [apply jget_gives; reflexivity|]. split; [apply jget_gives; reflexivity|]. intros v V. apply jget_gives in V. discriminate V.
Qed.
Example C105_error_meets :
  let k := JObj [(bs "id", JStr (bs "7")); (bs "error", JStr (bs "no"))] in
  exists e, toy_response k None (mkResponse (bs "7") (Some (bs "pong")) (Some (bs "no"))) = Ok e /\ sendable one_print (one_parse k) k.
Proof. intros k. eexists. split; [vm_compute; reflexivity|apply one_sendable]. Qed.
Example C105_public_key_meets :
  let k := JObj [(bs "id", JStr (bs "7")); (bs "result", JNum (JFin 3 0))] in
  exists e, toy_response k None (mkResponse (bs "7") (Some (hex_encode sample_key)) None) = Ok e /\ sendable one_print (one_parse k) k /\ (59 < 160).
Proof. intros k. eexists. split; [vm_compute; reflexivity|]. split; [apply one_sendable|reflexivity]. Qed.
(** Full statement (false): every response is addressed to the client.  Under a
    configuration that allows no tags, a response that names no one is reported
    as made. *)
Theorem C106_refuted :
  ~ (forall num sha256 pubkey_of sign encrypt print parse lim r sks pkc nonce aux now e,
       create_response (serialize_with num) sha256 pubkey_of sign encrypt print parse lim r sks pkc nonce aux now = Ok e ->
       exists h, In [bs "p"; h] (ev_tags e)).
Proof.
  intros A. assert (X : exists e, toy_response JNull (Some (mkEvLimits 65535 0)) (mkResponse (bs "7") (Some (bs "pong")) None) = Ok e /\ ev_tags e = []).
  { eexists. split; vm_compute; reflexivity. }
  destruct X as (e & X & T). unfold toy_response in X. destruct (A _ _ _ _ _ _ _ _ _ _ _ _ _ _ _ X) as (h & I). rewrite T in I. destruct I.
Qed.
Example C106_meets : exists e, toy_response JNull (Some (mkEvLimits 65535 1)) (mkResponse (bs "7") (Some (bs "pong")) None) = Ok e /\
  ev_tags e = [[bs "p"; hex_encode toy_pk]] /\ (forall n d, toy_sign toy_key n d <> None) /\ bytes_ok toy_pk.
Proof. eexists. split; [vm_compute; reflexivity|]. split; [vm_compute; reflexivity|]. split; [discriminate|]. apply Forall_repeat. unfold byte_ok. lia. Qed.

Print Assumptions C104_exact.
Print Assumptions C104_request_partial.
Print Assumptions C104_errors.
Print Assumptions C104_authentic.
Print Assumptions C104_refuted.
Print Assumptions C104_incomplete_refuted.
Print Assumptions C104_unsigned_refuted.
Print Assumptions C105_error.
Print Assumptions C105_result_partial.
Print Assumptions C105_json.
Print Assumptions C105_public_key_refuted.
Print Assumptions C105_refuted.
Print Assumptions C106_event_partial.
Print Assumptions C106_made.
Print Assumptions C106_refuted.
