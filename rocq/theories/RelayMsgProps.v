(** C100-C103: NIP-01 messages between clients and relays. *)
From Verif Require Import Base BaseFacts Heap Hex Json Event EventSpec EventProofs EventProps Nip18Spec RelayProto RelayProtoSpec RelayProtoProps
  RelayFilter RelayFilterSpec RelayFilterProps RelayMem RelayMemSpec RelayMemProps RelayRecv RelayMsg RelayMsgSpec.
From Coq Require Import Lia Permutation.
Open Scope N_scope.

(** ** C100: messages from clients *)
Lemma rbind_inv {A B} (r : rres A) (f : A -> rres B) b : rbind r f = ROk b -> exists a, r = ROk a /\ f a = ROk b.
Proof. destruct r; cbn; try discriminate. eauto. Qed.
Lemma sub_id_read j id : read_sub_id j = ROk id <-> j = JStr id /\ sub_id id.
Proof.
  unfold read_sub_id. split.
  - destruct j; try discriminate. destruct (validate_subscription_id s) eqn:V; [|discriminate]. intros E.
    apply sub_id_iff in V. destruct V as (L & F). rewrite firstn_all2 in E by lia. assert (s = id) by congruence. subst s. split; [reflexivity|split; assumption].
  - intros (-> & V). pose proof V as (L & _). apply sub_id_iff in V. rewrite V, firstn_all2 by lia. reflexivity.
Qed.
Section Lib.
Variable print : json -> list N.
Variable parse : list N -> option json.
Variable lim : option ev_limits.
(** How the library reads one event, one filter. *)
Definition event_is (j : json) (e : event) : Prop := event_from_json parse lim (print j) = Ok e.
Definition filter_is (j : json) (f : rfilter) : Prop :=
  filter_parse (parse (print j)) = ROk f /\
  Forall hex_prefix (f_ids f) /\ Forall hex_prefix (f_authors f) /\ Forall hex_id (f_e f) /\ Forall hex_id (f_p f).
Lemma filter_is_iff j f : filter_is j f <-> filter_parse (parse (print j)) = ROk f /\ filter_validate f = ROk tt.
Proof.
  unfold filter_is. split.
  - intros (P & A & B & C & D). split; [exact P|]. apply C89_validate. pose proof (C88_bounds _ _ P). tauto.
  - intros (P & V). apply C89_validate in V. tauto.
Qed.
Lemma read_filters_iff l : forall fs, read_filters print parse l = ROk fs <-> Forall2 filter_is l fs.
Proof.
  induction l as [|j l IH]; intros fs; cbn [read_filters].
  - split; [intros E; assert (fs = []) by congruence; subst; constructor|inversion 1; reflexivity].
  - split.
    + intros E. apply rbind_inv in E as (f & P & E). apply rbind_inv in E as ([] & V & E). apply rbind_inv in E as (gs & R & E).
      assert (fs = f :: gs) by congruence. subst fs. constructor; [apply filter_is_iff; auto|apply IH, R].
    + inversion 1 as [|? f ? gs F R]; subst. apply filter_is_iff in F as (P & V). rewrite P. cbn [rbind]. rewrite V. cbn [rbind]. rewrite (proj2 (IH gs) R). reflexivity.
Qed.
Lemma parse_filters_iff l fs : parse_filters print parse l = ROk fs <-> (length l <= 10)%nat /\ Forall2 filter_is l fs.
Proof.
  unfold parse_filters, max_filters. destruct (Nat.ltb_spec 10 (length l)) as [L|L].
  - split; [discriminate|intros (X & _); lia].
  - rewrite read_filters_iff. split; [intros; split; [lia|assumption]|tauto].
Qed.
Lemma read_event_iff j e : read_event print parse lim j = ROk e <-> event_is j e.
Proof. unfold read_event, event_is. destruct (event_from_json parse lim (print j)); split; congruence. Qed.

(** Exactly these messages are taken, and they are reported as they stand. *)
Theorem C100_exact : forall j m, client_read print parse lim j = ROk m <-> exists js, j = Some (JArr js) /\ taken event_is filter_is js m.
Proof.
  intros j m. split.
  - unfold client_read. destruct j as [[| | | |js|]|]; try discriminate. destruct js as [|[| | |ty| |] args]; try discriminate. intros E. eexists. split; [reflexivity|]. revert E.
    destruct (beq ty (bs "EVENT")) eqn:B1.
    { apply beq_eq in B1. subst ty. destruct args as [|a args]; [discriminate|]. intros E. apply rbind_inv in E as (e & R & E).
      assert (m = CEvent e) by congruence. subst m. constructor. apply read_event_iff, R. }
    destruct (beq ty (bs "REQ")) eqn:B2.
    { apply beq_eq in B2. subst ty. destruct args as [|a args]; [discriminate|]. intros E. apply rbind_inv in E as (id & R & E). apply rbind_inv in E as (fs & F & E).
      assert (m = CReq id fs) by congruence. subst m. apply sub_id_read in R as (-> & SI). apply parse_filters_iff in F as (L & F). constructor; assumption. }
    destruct (beq ty (bs "CLOSE")) eqn:B3.
    { apply beq_eq in B3. subst ty. destruct args as [|a args]; [discriminate|]. intros E. apply rbind_inv in E as (id & R & E).
      assert (m = CClose id) by congruence. subst m. apply sub_id_read in R as (-> & SI). constructor; assumption. }
    destruct (beq ty (bs "AUTH")) eqn:B4.
    { apply beq_eq in B4. subst ty. destruct args as [|a args]; [discriminate|]. intros E. apply rbind_inv in E as (e & R & E).
      assert (m = CAuth e) by congruence. subst m. constructor. apply read_event_iff, R. }
    destruct (beq ty (bs "COUNT")) eqn:B5; [|discriminate].
    { apply beq_eq in B5. subst ty. destruct args as [|a args]; [discriminate|]. intros E. apply rbind_inv in E as (id & R & E). apply rbind_inv in E as (fs & F & E).
      assert (m = CCount id fs) by congruence. subst m. apply sub_id_read in R as (-> & SI). apply parse_filters_iff in F as (L & F). constructor; assumption. }
  - intros (js & -> & T). destruct T as [j more e E|j more e E|id more SI|id js fs SI L F|id js fs SI L F]; cbn [client_read].
    + change (beq (bs "EVENT") (bs "EVENT")) with true. cbv iota. rewrite (proj2 (read_event_iff j e) E). reflexivity.
    + change (beq (bs "AUTH") (bs "EVENT")) with false. change (beq (bs "AUTH") (bs "REQ")) with false. change (beq (bs "AUTH") (bs "CLOSE")) with false.
      change (beq (bs "AUTH") (bs "AUTH")) with true. cbv iota. rewrite (proj2 (read_event_iff j e) E). reflexivity.
    + change (beq (bs "CLOSE") (bs "EVENT")) with false. change (beq (bs "CLOSE") (bs "REQ")) with false. change (beq (bs "CLOSE") (bs "CLOSE")) with true. cbv iota.
      rewrite (proj2 (sub_id_read (JStr id) id)) by auto. reflexivity.
    + change (beq (bs "REQ") (bs "EVENT")) with false. change (beq (bs "REQ") (bs "REQ")) with true. cbv iota.
      rewrite (proj2 (sub_id_read (JStr id) id)) by auto. cbn [rbind]. rewrite (proj2 (parse_filters_iff js fs)) by auto. reflexivity.
    + change (beq (bs "COUNT") (bs "EVENT")) with false. change (beq (bs "COUNT") (bs "REQ")) with false. change (beq (bs "COUNT") (bs "CLOSE")) with false.
      change (beq (bs "COUNT") (bs "AUTH")) with false. change (beq (bs "COUNT") (bs "COUNT")) with true. cbv iota.
      rewrite (proj2 (sub_id_read (JStr id) id)) by auto. cbn [rbind]. rewrite (proj2 (parse_filters_iff js fs)) by auto. reflexivity.
Qed.

(** What is wrong with a message is reported as such. *)
Theorem C100_errors : forall j,
  ((forall ty args, j <> Some (JArr (JStr ty :: args))) -> client_read print parse lim j = RErr RInvalidJson) /\
  (forall ty args, j = Some (JArr (JStr ty :: args)) ->
     (~ known ty -> client_read print parse lim j = RErr RUnknownMessageType) /\
     (known ty -> args = [] -> client_read print parse lim j = RErr RMissingField) /\
     (forall a more, args = a :: more -> ty = bs "REQ" \/ ty = bs "COUNT" \/ ty = bs "CLOSE" ->
        (forall id, a = JStr id -> ~ sub_id id) -> client_read print parse lim j = RErr RInvalidSubId) /\
     (forall id js, args = JStr id :: js -> ty = bs "REQ" \/ ty = bs "COUNT" -> sub_id id -> (10 < length js)%nat ->
        client_read print parse lim j = RErr RTooManyFilters)).
Proof.
  intros j. split.
  - intros H. unfold client_read. destruct j as [[| | | |js|]|]; try reflexivity. destruct js as [|[| | |ty| |] args]; try reflexivity. exfalso. apply (H ty args eq_refl).
  - intros ty args ->. split; [|split; [|split]].
    + intros NK. unfold known in NK. cbn [In] in NK. cbn [client_read].
      destruct (beq ty (bs "EVENT")) eqn:B1; [apply beq_eq in B1; subst; tauto|].
      destruct (beq ty (bs "REQ")) eqn:B2; [apply beq_eq in B2; subst; tauto|].
      destruct (beq ty (bs "CLOSE")) eqn:B3; [apply beq_eq in B3; subst; tauto|].
      destruct (beq ty (bs "AUTH")) eqn:B4; [apply beq_eq in B4; subst; tauto|].
      destruct (beq ty (bs "COUNT")) eqn:B5; [apply beq_eq in B5; subst; tauto|]. reflexivity.
    + intros K ->. unfold known in K. cbn [In] in K. destruct K as [<-|[<-|[<-|[<-|[<-|[]]]]]]; reflexivity.
    + intros a more -> K NS. assert (R : read_sub_id a = RErr RInvalidSubId).
      { unfold read_sub_id. destruct a; try reflexivity. destruct (validate_subscription_id s) eqn:V; [|reflexivity]. apply sub_id_iff in V. exfalso. apply (NS s eq_refl V). }
      destruct K as [-> |[-> | -> ]]; cbn [client_read]; repeat change (beq (bs ?x) (bs ?y)) with true; cbn -[read_sub_id]; rewrite R; reflexivity.
    + intros id js -> K SI L. assert (R : parse_filters print parse js = RErr RTooManyFilters).
      { unfold parse_filters, max_filters. destruct (Nat.ltb_spec 10 (length js)); [reflexivity|lia]. }
      assert (S : read_sub_id (JStr id) = ROk id) by (apply sub_id_read; auto).
      destruct K as [-> | -> ]; cbn -[read_sub_id parse_filters]; rewrite S; cbn [rbind]; rewrite R; reflexivity.
Qed.

(** A request with well-formed filters is taken, and its filters select exactly
    what the JSON asks for. *)
Lemma parsed_strings l n (v : list (list N)) : good_filter l -> In n reserved -> (forall v, In (n, v) l -> string_list v) ->
  parse_string_array (jget n (JObj l)) = ROk v -> v = [] \/ In (n, JArr (map JStr v)) l.
Proof.
  intros G R SL P. destruct (field_strings l n G R SL) as (ss & P' & _ & B). assert (v = ss) by congruence. subst ss.
  destruct v; [left; reflexivity|right; apply B; discriminate].
Qed.
Lemma request_filter_read j : (parse (print j) = Some j) -> request_filter j ->
  exists l f, j = JObj l /\ filter_is j f /\ forall e, ids_ok e -> (forall name, (tags_named e name <= 256)%nat) -> filter_matches f e = true <-> json_selects l e.
Proof.
  intros LIB (l & -> & G & HP & HI). destruct (C88_end_to_end_partial l G) as (f & P & SEL). exists l, f. split; [reflexivity|]. split; [|exact SEL].
  unfold filter_is. rewrite LIB. split; [exact P|]. cbn [filter_parse] in P. unfold filter_parse_tree in P.
  apply rbind_inv in P as (ids & P1 & P). apply rbind_inv in P as (aus & P2 & P). apply rbind_inv in P as (ks & P3 & P). apply rbind_inv in P as (es & P4 & P).
  apply rbind_inv in P as (ps & P5 & P). apply rbind_inv in P as (gs & P6 & P). apply rbind_inv in P as (si & P7 & P). apply rbind_inv in P as (un & P8 & P).
  cbv zeta in P. apply rbind_inv in P as (se & P9 & P). match type of P with ROk ?x = _ => assert (EF : f = x) by congruence end. subst f.
  cbn [f_ids f_authors f_e f_p].
  apply (parsed_strings l (bs "ids") ids G) in P1; [|rsv|intros v I; apply (gf_strings l G (bs "ids") v I); auto].
  apply (parsed_strings l (bs "authors") aus G) in P2; [|rsv|intros v I; apply (gf_strings l G (bs "authors") v I); auto].
  apply (parsed_strings l (bs "#e") es G) in P4; [|rsv|intros v I; apply (gf_strings l G (bs "#e") v I); right; right; exists 101; split; [reflexivity|unfold letter; lia]].
  apply (parsed_strings l (bs "#p") ps G) in P5; [|rsv|intros v I; apply (gf_strings l G (bs "#p") v I); right; right; exists 112; split; [reflexivity|unfold letter; lia]].
  split; [|split; [|split]].
  - destruct P1 as [-> |I]; [constructor|apply (HP _ _ I); auto].
  - destruct P2 as [-> |I]; [constructor|apply (HP _ _ I); auto].
  - destruct P4 as [-> |I]; [constructor|apply (HI _ _ I); auto].
  - destruct P5 as [-> |I]; [constructor|apply (HI _ _ I); auto].
Qed.
Theorem C100_request_partial : forall id js, (forall j, In j js -> parse (print j) = Some j) -> sub_id id -> (length js <= 10)%nat -> Forall request_filter js ->
  exists fs, client_read print parse lim (Some (JArr (JStr (bs "REQ") :: JStr id :: js))) = ROk (CReq id fs) /\
    client_read print parse lim (Some (JArr (JStr (bs "COUNT") :: JStr id :: js))) = ROk (CCount id fs) /\ length fs = length js /\
    forall e, ids_ok e -> (forall name, (tags_named e name <= 256)%nat) -> filters_match fs e = true <-> wanted js e.
Proof.
  intros id js LIB SI L F.
  assert (X : exists fs, Forall2 filter_is js fs /\ forall e, ids_ok e -> (forall name, (tags_named e name <= 256)%nat) -> filters_match fs e = true <-> wanted js e).
  { clear L. induction F as [|j js G F IH].
    - exists []. split; [constructor|]. intros e _ _. unfold wanted. cbn [filters_match existsb In]. split; [discriminate|intros (l & [] & _)].
    - destruct IH as (fs & IH & SEL); [intros j' I; apply LIB; right; exact I|].
      destruct (request_filter_read j (LIB j (or_introl eq_refl)) G) as (l & f & EJ & FI & ONE). exists (f :: fs). split; [constructor; assumption|].
      intros e OK FEW. unfold filters_match, wanted. cbn [existsb In]. rewrite orb_true_iff, (ONE e OK FEW). fold (filters_match fs e). rewrite (SEL e OK FEW). unfold wanted. split.
      + intros [J|(l' & I & J)]; [exists l; auto|exists l'; auto].
      + intros (l' & [I|I] & J); [left; assert (l' = l) by congruence; subst; exact J|right; eauto]. }
  destruct X as (fs & F2 & SEL). exists fs. split; [|split; [|split; [|exact SEL]]].
  - apply C100_exact. eexists. split; [reflexivity|]. constructor; assumption.
  - apply C100_exact. eexists. split; [reflexivity|]. constructor; assumption.
  - clear -F2. induction F2; [reflexivity|cbn [length]; f_equal; assumption].
Qed.
(** A published event arrives as it was sent. *)
Theorem C100_event : forall e more, (forall t, t = event_to_tree e -> parse (print t) = Some t) -> event_ok e -> (Z.abs (ev_created e) <= 2 ^ 53)%Z -> within_limits lim e ->
  exists e', client_read print parse lim (Some (JArr (JStr (bs "EVENT") :: event_to_tree e :: more))) = ROk (CEvent e') /\
    client_read print parse lim (Some (JArr (JStr (bs "AUTH") :: event_to_tree e :: more))) = ROk (CAuth e') /\
    same_fields e' e /\ ev_id e' = ev_id e /\ ev_sig e' = ev_sig e.
Proof.
  intros e more LIB OK SMALL W. eexists. split; [|split].
  - apply C100_exact. eexists. split; [reflexivity|]. constructor. unfold event_is. apply (C20_json_roundtrip print parse lim e LIB OK SMALL W).
  - apply C100_exact. eexists. split; [reflexivity|]. constructor. unfold event_is. apply (C20_json_roundtrip print parse lim e LIB OK SMALL W).
  - repeat split.
Qed.
(** The accessors answer with what was read. *)
Theorem C100_accessors : forall js m, client_read print parse lim (Some (JArr js)) = ROk m ->
  (forall ty, nth_error js 0 = Some (JStr ty) -> (msg_type m = TEvent <-> ty = bs "EVENT") /\ (msg_type m = TReq <-> ty = bs "REQ") /\
     (msg_type m = TClose <-> ty = bs "CLOSE") /\ (msg_type m = TAuth <-> ty = bs "AUTH") /\ (msg_type m = TCount <-> ty = bs "COUNT")) /\
  (forall e, msg_get_event m = Some e <-> (m = CEvent e \/ m = CAuth e)) /\
  (forall id, msg_sub_id m = Some id <-> (nth_error js 1 = Some (JStr id) /\ msg_type m <> TEvent /\ msg_type m <> TAuth)) /\
  (msg_type m = TReq \/ msg_type m = TCount -> Forall2 filter_is (skipn 2 js) (msg_filters m)).
Proof.
  intros js m E. apply C100_exact in E as (js' & EJ & T). assert (js' = js) by congruence. subst js'. clear EJ.
  split; [|split; [|split]].
  - intros ty N. destruct T; cbn [nth_error] in N; match type of N with Some (JStr ?x) = _ => assert (ET : ty = x) by congruence end; subst ty;
      cbn [msg_type]; repeat split; intros; try reflexivity; try discriminate.
  - intros e. destruct T; cbn [msg_get_event]; split; intros X; try discriminate; try (destruct X; discriminate);
      first [left; congruence|right; congruence|destruct X; congruence].
  - intros i. destruct T as [j more e E|j more e E|id more SI|id js fs SI L F|id js fs SI L F]; cbn [msg_sub_id nth_error msg_type];
      (split; [intros X; first [discriminate|split; [congruence|split; discriminate]]|intros (X & A & B); congruence]).
  - intros K. destruct T; cbn [msg_type skipn msg_filters] in *; try (destruct K; discriminate); assumption.
Qed.
End Lib.

(** A library that reads one text only; its printed text reads back as [t]. *)
Definition one_text (t : json) : list N -> option json := fun _ => Some t.
Definition l0 : list (list N * json) := [(bs "kinds", JArr [JNum (JFin 1 0)]); (bs "authors", JArr [JStr (bs "ab")])].
Example C100_meets : request_filter (JObj l0) /\ one_text (JObj l0) [] = Some (JObj l0) /\
  exists fs, client_read (fun _ => []) (one_text (JObj l0)) None (Some (JArr [JStr (bs "REQ"); JStr (bs "s1"); JObj l0])) = ROk (CReq (bs "s1") fs) /\ length fs = 1%nat.
Proof.
  split; [|split; [reflexivity|eexists; split; [vm_compute; reflexivity|reflexivity]]].
  exists l0. split; [reflexivity|]. split; [|split].
  - constructor.
    + cbn. repeat constructor; cbn; intuition discriminate.
    + intros k v n I R SL. apply same_letters_iff in SL. cbn in R. cbn in I.
      destruct I as [I|[I|[]]]; inversion I; subst k v; clear I; (repeat destruct R as [R|R]; try contradiction; subst n; vm_compute in SL; try discriminate; reflexivity).
    + intros k v I C. cbn in I. destruct I as [I|[I|[]]]; inversion I; subst k v; clear I.
      * exfalso. destruct C as [C|[C|(c & C & _)]]; discriminate.
      * exists [bs "ab"]. split; [reflexivity|cbn; lia].
    + intros v I. cbn in I. destruct I as [I|[I|[]]]; inversion I; subst v. exists [JFin 1 0]. split; [reflexivity|]. split; [cbn; lia|].
      constructor; [|constructor]. exists 1%Z. split; [exists 1%Z, 0%Z; repeat split; lia|lia].
    + intros k v I C. cbn in I. destruct I as [I|[I|[]]]; inversion I; subst k v; clear I; exfalso; destruct C; discriminate.
    + intros v I. cbn in I. destruct I as [I|[I|[]]]; inversion I.
  - intros k ss I C. cbn in I. destruct I as [I|[I|[]]]; inversion I as [[K V]]; subst k; [exfalso; destruct C; discriminate|].
    destruct ss as [|s [|]]; try discriminate. cbn in V. injection V as V. subst s. constructor; [|constructor]. apply hex_prefix_iff. reflexivity.
  - intros k ss I C. cbn in I. destruct I as [I|[I|[]]]; inversion I as [[K V]]; subst k; exfalso; destruct C; discriminate.
Qed.
(** NIP-01's shape is not enforced: a filter that is a number selects every
    event, no filter at all is accepted, an event may be a number, and elements
    after the message are ignored. *)
Theorem C100_refuted :
  ~ (forall print parse lim js m, (forall j, In j js -> parse (print j) = Some j) -> client_read print parse lim (Some (JArr js)) = ROk m -> nip01_shape js) /\
  (exists f, client_read (fun _ => []) (one_text (JNum (JFin 5 0))) None (Some (JArr [JStr (bs "REQ"); JStr (bs "s"); JNum (JFin 5 0)])) = ROk (CReq (bs "s") [f]) /\
     forall e, filter_matches f e = true) /\
  (forall print parse lim, client_read print parse lim (Some (JArr [JStr (bs "REQ"); JStr (bs "s")])) = ROk (CReq (bs "s") [])) /\
  (exists e, client_read (fun _ => []) (one_text (JNum (JFin 5 0))) None (Some (JArr [JStr (bs "EVENT"); JNum (JFin 5 0)])) = ROk (CEvent e) /\ ev_id e = repeat 0 32) /\
  (forall print parse lim x, client_read print parse lim (Some (JArr [JStr (bs "CLOSE"); JStr (bs "s"); x])) = ROk (CClose (bs "s"))).
Proof.
  split; [|split; [|split; [|split]]].
  - intros H. specialize (H (fun j => match j with JStr s => s | _ => [] end) (fun s => Some (JStr s)) None [JStr (bs "REQ"); JStr (bs "s")] (CReq (bs "s") [])).
    assert (X : nip01_shape [JStr (bs "REQ"); JStr (bs "s")]); [|vm_compute in X; discriminate].
    apply H; [|reflexivity]. intros j [<-|[<-|[]]]; reflexivity.
  - eexists. split; [vm_compute; reflexivity|]. intros e. reflexivity.
  - reflexivity.
  - eexists. split; [vm_compute; reflexivity|reflexivity].
  - reflexivity.
Qed.
(** Whoever may send a request can bring a far-away time into a conversion whose
    result is undefined. *)
Theorem C100_undefined_refuted : ~ (forall print parse lim js, (forall j, In j js -> parse (print j) = Some j) -> client_read print parse lim (Some (JArr js)) <> RUndef).
Proof.
  pose (far := JObj [(bs "since", JNum (JFin 1 1000))]).
  intros H. apply (H (fun j => match j with JStr s => s | _ => [] end) (fun s => match s with [] => Some far | _ => Some (JStr s) end) None [JStr (bs "REQ"); JStr (bs "s"); far]).
  - intros j [<-|[<-|[<-|[]]]]; reflexivity.
  - vm_compute. reflexivity.
Qed.

(** ** C101: messages to clients *)
(** The calls that build a message. *)
Definition built (x : tells) : rmsg :=
  match x with
  | TellEvent id e => msg_event (Some id) (Some e)
  | TellOk id b t => msg_ok (Some id) b (Some t)
  | TellEose id => msg_eose (Some id)
  | TellClosed id t => msg_closed (Some id) (Some t)
  | TellNotice t => msg_notice (Some t)
  | TellAuth c => msg_auth (Some c)
  | TellCount id n a => msg_count (Some id) n a
  end.
Lemma cut_short n s : (length s <= n)%nat -> cut n (Some s) = s.
Proof. intros L. apply firstn_all2. exact L. Qed.
Lemma cut_to n s : cut_at n s (cut n (Some s)).
Proof.
  cbn [cut]. exists (skipn n s). rewrite firstn_skipn. split; [reflexivity|]. split; [apply firstn_le_length|]. split.
  - intros L. apply skipn_all2. exact L.
  - intros NE. apply firstn_length_le. destruct (Nat.le_gt_cases n (length s)) as [L|L]; [exact L|]. exfalso. apply NE, skipn_all2. lia.
Qed.
Lemma num_small z : (Z.abs z <= 2 ^ 53)%Z -> num_is (JFin (round53 z) 0) z.
Proof.
  intros B. exists z, 0%Z. split; [|split; lia]. f_equal. unfold round53. destruct (Z.ltb_spec (Z.abs z) (2 ^ 53)) as [L|L]; [reflexivity|].
  assert (EA : Z.abs z = (2 ^ 53)%Z) by lia. rewrite EA. change (Z.log2 (2 ^ 53) - 52)%Z with 1%Z. 
  change (2 ^ 53 mod 2 ^ 1)%Z with 0%Z. change (2 ^ 53 / 2 ^ 1)%Z with (2 ^ 52)%Z. change (0 <? 2 ^ (1 - 1))%Z with true. cbv iota zeta.
  change (2 ^ 52 * 2 ^ 1)%Z with (2 ^ 53)%Z. rewrite <- EA. rewrite Z.mul_comm. apply Z.abs_sgn.
Qed.
Lemma event_tree_object e : event_ok e -> (Z.abs (ev_created e) <= 2 ^ 53)%Z -> event_object (event_to_tree e) e.
Proof.
  intros [OI OP OC OK OT OCT OS] B. unfold event_object, event_to_tree. eexists. exists (hex_encode (ev_id e)), (hex_encode (ev_pubkey e)), (hex_encode (ev_sig e)).
  exists (JFin (round53 (ev_created e)) 0), (JFin (round53 (Z.of_N (ev_kind e))) 0). split; [reflexivity|].
  split; [cbn; repeat constructor; cbn; intuition discriminate|].
  split; [cbn [In]; tauto|]. split; [apply lower_hex_encode, OI|]. split; [cbn [In]; tauto|]. split; [apply lower_hex_encode, OP|].
  split; [cbn [In]; tauto|]. split; [apply lower_hex_encode, OS|]. split; [cbn [In]; tauto|]. split; [apply num_small, B|].
  split; [cbn [In]; tauto|]. split; [apply num_small; lia|]. split; cbn [In]; tauto.
Qed.
(** What is said: the texts asked for, each cut off at its field's size, the
    number as far as a double has it. *)
Theorem C101_says : forall print parse x, sayable x -> (forall id e, x = TellEvent id e -> parse (print (event_to_tree e)) = Some (event_to_tree e)) ->
  exists y j, shortened x y /\ relay_tree print parse (built x) = ROk j /\ told y j.
Proof.
  intros print parse x OK LIB. destruct x as [id e|id b t|id|id t|t|c|id n a]; cbn [built msg_event msg_ok msg_eose msg_closed msg_notice msg_auth msg_count relay_tree].
  - exists (TellEvent (cut 64 (Some id)) e). unfold event_to_json. rewrite (LIB id e eq_refl). eexists. split; [|split; [reflexivity|]]; [cbn [shortened]; split; [apply cut_to|reflexivity]|].
    cbn [told]. eexists. split; [reflexivity|]. cbn [sayable] in OK. apply event_tree_object; tauto.
  - exists (TellOk (cut 64 (Some id)) b (cut 255 (Some t))). eexists. split; [|split; [reflexivity|]]; [cbn [shortened]; split; [apply cut_to|split; [reflexivity|apply cut_to]]|reflexivity].
  - exists (TellEose (cut 64 (Some id))). eexists. split; [|split; [reflexivity|]]; [cbn [shortened]; apply cut_to|reflexivity].
  - exists (TellClosed (cut 64 (Some id)) (cut 255 (Some t))). eexists. split; [|split; [reflexivity|]]; [cbn [shortened]; split; apply cut_to|reflexivity].
  - exists (TellNotice (cut 255 (Some t))). eexists. split; [|split; [reflexivity|]]; [cbn [shortened]; apply cut_to|reflexivity].
  - exists (TellAuth (cut 127 (Some c))). eexists. split; [|split; [reflexivity|]]; [cbn [shortened]; apply cut_to|reflexivity].
  - cbn [sayable] in OK. exists (TellCount (cut 64 (Some id)) n a). eexists. split; [|split; [reflexivity|]]; [cbn [shortened]; split; [apply cut_to|split; reflexivity]|].
    cbn [told]. rewrite (proj2 (Z.ltb_ge n 0)) by lia. eexists. eexists. split; [reflexivity|]. split; [left; reflexivity|]. split; [apply num_small; lia|].
    destruct a; cbn [In app]; split.
    + split; [intros _; right; left; reflexivity|reflexivity].
    + intros k v [X|[X|[]]]; [left; congruence|right; congruence].
    + split; [discriminate|]. intros [X|[]]. apply (f_equal fst) in X. discriminate.
    + intros k v [X|[]]. left; congruence.
Qed.
(** Texts that fit are said in full. *)
Theorem C101_full_partial : forall print parse x, sayable x -> short x -> (forall id e, x = TellEvent id e -> parse (print (event_to_tree e)) = Some (event_to_tree e)) ->
  exists j, relay_tree print parse (built x) = ROk j /\ told x j.
Proof.
  intros print parse x OK SH LIB. destruct (C101_says print parse x OK LIB) as (y & j & S & E & T). exists j. split; [exact E|].
  assert (C : forall n s s', cut_at n s s' -> (length s <= n)%nat -> s' = s) by (intros n s s' (r & -> & _ & Z & _) L; rewrite (Z L), app_nil_r; reflexivity).
  destruct x, y; cbn [shortened short] in *; try contradiction.
  - destruct S as (A & ->). rewrite (C _ _ _ A) in T by tauto. exact T.
  - destruct S as (A & -> & B). rewrite (C _ _ _ A), (C _ _ _ B) in T by tauto. exact T.
  - rewrite (C _ _ _ S) in T by tauto. exact T.
  - destruct S as (A & B). rewrite (C _ _ _ A), (C _ _ _ B) in T by tauto. exact T.
  - rewrite (C _ _ _ S) in T by tauto. exact T.
  - rewrite (C _ _ _ S) in T by tauto. exact T.
  - destruct S as (A & -> & ->). rewrite (C _ _ _ A) in T by tauto. exact T.
Qed.
Example C101_meets : sayable (TellCount (bs "q") 42 true) /\ short (TellCount (bs "q") 42 true) /\
  relay_tree (fun _ => []) (fun _ => None) (built (TellCount (bs "q") 42 true)) = ROk (JArr [JStr (bs "COUNT"); JStr (bs "q"); JObj [(bs "count", JNum (JFin 42 0)); (bs "approximate", JBool true)]]).
Proof. split; [cbn; lia|]. split; [cbn; lia|reflexivity]. Qed.
(** Not what is asked in general: long notices are cut, counts above 2^53 are
    rounded and negative counts become 0; a cut may fall inside a character. *)
Theorem C101_refuted :
  ~ (forall print parse x j, (forall id e, x <> TellEvent id e) -> relay_tree print parse (built x) = ROk j -> told x j) /\
  (exists j, relay_tree (fun _ => []) (fun _ => None) (built (TellCount (bs "q") (2 ^ 53 + 1) false)) = ROk j /\ told (TellCount (bs "q") (2 ^ 53) false) j) /\
  (exists j, relay_tree (fun _ => []) (fun _ => None) (built (TellCount (bs "q") (-7) false)) = ROk j /\ told (TellCount (bs "q") 0 false) j) /\
  ~ (forall t s, two_byte_text t -> relay_tree (fun _ => []) (fun _ => None) (built (TellNotice t)) = ROk (JArr [JStr (bs "NOTICE"); JStr s]) -> two_byte_text s).
Proof.
  split; [|split; [|split]].
  - intros H. assert (X : told (TellNotice (repeat 97 256)) (JArr [JStr (bs "NOTICE"); JStr (repeat 97 255)])).
    { apply (H (fun _ => []) (fun _ => None)); [discriminate|vm_compute; reflexivity]. }
    cbn [told] in X. assert (Y : repeat 97 255 = repeat 97 256) by congruence. apply (f_equal (@length _)) in Y. rewrite !repeat_length in Y. discriminate.
  - eexists. split; [reflexivity|]. eexists. eexists. split; [reflexivity|]. split; [left; reflexivity|]. split; [exists (2 ^ 53)%Z, 0%Z; repeat split; lia|].
    cbn [In]. split; [split; [discriminate|]; intros [X|[]]; apply (f_equal fst) in X; discriminate|]. intros k v [X|[]]. left; congruence.
  - eexists. split; [reflexivity|]. eexists. eexists. split; [reflexivity|]. split; [left; reflexivity|]. split; [exists 0%Z, 0%Z; repeat split; lia|].
    cbn [In]. split; [split; [discriminate|]; intros [X|[]]; apply (f_equal fst) in X; discriminate|]. intros k v [X|[]]. left; congruence.
  - intros H. pose (t := flat_map (fun _ : nat => [195; 169]) (seq 0 128)).
    assert (X : two_byte_text (firstn 255 t)).
    { apply (H t); [|reflexivity]. exists (map (fun _ => (3, 41)) (seq 0 128)). split; [vm_compute; reflexivity|]. apply Forall_forall. intros p I. apply in_map_iff in I as (k & <- & _). cbn. lia. }
    destruct X as (l & E & _). apply (f_equal (@length _)) in E. change (length (firstn 255 t)) with 255%nat in E.
    assert (EV : forall l : list (N * N), length (flat_map (fun p => [192 + fst p; 128 + snd p]) l) = (2 * length l)%nat).
    { clear. intros l. induction l as [|p l IH]; [reflexivity|]. cbn [flat_map app length]. rewrite IH. lia. }
    rewrite EV in E. lia.
Qed.
(** An event a relay sends to a subscription reaches that subscription's
    call-back in the client. *)
Theorem C101_delivered : forall print parse reprint lim on_message l id e s k buf size buf' n,
  (forall t, t = event_to_tree e \/ t = JArr [JStr (bs "EVENT"); JStr id; event_to_tree e] -> parse (print t) = Some t) ->
  reprint (event_to_tree e) = Some (event_to_tree e) ->
  event_ok e -> (Z.abs (ev_created e) <= 2 ^ 53)%Z -> within_limits lim e -> (length id <= 64)%nat ->
  find_sub l id = Ok (Some s) -> s_handler s = Some k ->
  serialize_msg print parse (msg_event (Some id) (Some e)) buf size = (ROk tt, buf', Some n) ->
  exists e', dispatch parse reprint lim on_message l (firstn (N.to_nat n) buf') = Ok (l, [OEvent k e']) /\ same_fields e' e /\ ev_id e' = ev_id e /\ ev_sig e' = ev_sig e.
Proof.
  intros print parse reprint lim om l id e s k buf size buf' n LIB RE OK SMALL W LI FS HK E.
  unfold serialize_msg in E. destruct (size =? 0); [discriminate|]. cbn [msg_event relay_tree] in E. rewrite (cut_short 64 id LI) in E.
  unfold event_to_json in E. rewrite (LIB (event_to_tree e)) in E by auto.
  set (t := JArr [JStr (bs "EVENT"); JStr id; event_to_tree e]) in *. cbv zeta in E.
  destruct (size <=? N.of_nat (length (print t))); [discriminate|]. destruct (length buf <? length (print t) + 1)%nat; [discriminate|].
  assert (EB : buf' = print t ++ [0] ++ skipn (length (print t) + 1) buf) by congruence. assert (EN : n = N.of_nat (length (print t))) by congruence. subst n buf'. clear E.
  rewrite Nat2N.id, firstn_app_exact by reflexivity. unfold dispatch. rewrite (LIB t) by auto. unfold t. cbn [length]. change (beq (bs "EVENT") (bs "EVENT") && (3 <=? 2 + 1)%nat) with true.
  cbv iota. rewrite FS. cbn [bind]. rewrite RE.
  pose proof (C20_json_roundtrip print parse lim e ltac:(intros ? ->; apply LIB; auto) OK SMALL W) as R. unfold event_from_json, event_to_json in R.
  rewrite (LIB (event_to_tree e)) in R by auto. rewrite R, HK. eexists. split; [reflexivity|]. repeat split.
Qed.

(** ** C102: the caller's buffer *)
Theorem C102_buffer : forall print parse m buf size r buf' out, size <= N.of_nat (length buf) ->
  serialize_msg print parse m buf size = (r, buf', out) ->
  length buf' = length buf /\
  match r with
  | ROk _ => exists t, relay_tree print parse m = ROk t /\ out = Some (N.of_nat (length (print t))) /\ N.of_nat (length (print t)) < size /\
      firstn (length (print t) + 1) buf' = print t ++ [0] /\ skipn (length (print t) + 1) buf' = skipn (length (print t) + 1) buf
  | RErr e => buf' = buf /\ (e = RBufferTooSmall -> exists n, out = Some n /\ size <= n /\
      forall buf2 size2, size2 <= N.of_nat (length buf2) ->
        fst (fst (serialize_msg print parse m buf2 size2)) = ROk tt <-> n < size2)
  | RUndef => False
  end.
Proof.
  intros print parse m buf size r buf' out LB E. unfold serialize_msg in E. destruct (N.eqb_spec size 0) as [Z|NZ].
  { assert (r = RErr RInvalidJson) by congruence. assert (buf' = buf) by congruence. subst. split; [reflexivity|]. split; [reflexivity|discriminate]. }
  destruct (relay_tree print parse m) as [t|e|] eqn:T.
  - cbv zeta in E. destruct (N.leb_spec size (N.of_nat (length (print t)))) as [L|L].
    + assert (r = RErr RBufferTooSmall) by congruence. assert (buf' = buf) by congruence. assert (out = Some (N.of_nat (length (print t)))) by congruence. subst.
      split; [reflexivity|]. split; [reflexivity|]. intros _. exists (N.of_nat (length (print t))). split; [reflexivity|]. split; [exact L|]. intros buf2 size2 L2.
      unfold serialize_msg. rewrite T. cbv zeta. destruct (N.eqb_spec size2 0) as [Z|NZ2]; cbn [fst]; [split; [discriminate|lia]|].
      destruct (N.leb_spec size2 (N.of_nat (length (print t)))); cbn [fst]; [split; [discriminate|lia]|].
      destruct (Nat.ltb_spec (length buf2) (length (print t) + 1)); [lia|]. cbn [fst]. split; auto.
    + destruct (Nat.ltb_spec (length buf) (length (print t) + 1)) as [X|X]; [lia|].
      assert (r = ROk tt) by congruence. assert (EB : buf' = print t ++ [0] ++ skipn (length (print t) + 1) buf) by congruence.
      assert (out = Some (N.of_nat (length (print t)))) by congruence. subst r out. clear E.
      assert (LN : length (print t ++ [0]) = (length (print t) + 1)%nat) by (rewrite app_length; reflexivity).
      split; [rewrite EB, !app_length, skipn_length; cbn [length]; lia|]. exists t. split; [reflexivity|]. split; [reflexivity|]. split; [exact L|].
      rewrite EB, app_assoc. rewrite <- LN. split; [apply firstn_app_exact; reflexivity|apply skipn_app_exact; reflexivity].
  - assert (r = RErr e) by congruence. assert (buf' = buf) by congruence. subst. split; [reflexivity|]. split; [reflexivity|]. intros ->. exfalso.
    unfold relay_tree in T. destruct m as [id o|id b t|id|id t|t|c|id n a|]; try discriminate. destruct o; [|discriminate]. destruct (parse _); discriminate.
  - exfalso. unfold relay_tree in T. destruct m as [id o|id b t|id|id t|t|c|id n a|]; try discriminate. destruct o; [|discriminate]. destruct (parse _); discriminate.
Qed.
Example C102_meets : serialize_msg (fun _ => bs "xyz") (fun _ => None) (msg_eose (Some (bs "s"))) (repeat 7 6) 6 = (ROk tt, bs "xyz" ++ [0; 7; 7], Some 3) /\
  serialize_msg (fun _ => bs "xyz") (fun _ => None) (msg_eose (Some (bs "s"))) (repeat 7 6) 3 = (RErr RBufferTooSmall, repeat 7 6, Some 3).
Proof. split; reflexivity. Qed.

(** ** C103: memory of messages *)
Lemma free_filters_all l : forall h rest, Forall filter_sound l -> heap_ok h -> Permutation (h_live h) (flat_map blocks l ++ rest) ->
  exists h', free_filters l h = Ok (tt, h') /\ heap_ok h' /\ h_next h' = h_next h /\ Permutation (h_live h') rest.
Proof.
  induction l as [|f l IH]; intros h rest F OK P; cbn [free_filters flat_map] in *.
  - exists h. split; [reflexivity|]. auto.
  - inversion F; subst. rewrite <- app_assoc in P. destruct (C90_release f h _ H1 OK P) as (h1 & E & OK1 & N1 & P1). rewrite (mbind_ok _ _ _ _ _ E).
    destruct (IH h1 rest H2 OK1 P1) as (h2 & E2 & OK2 & N2 & P2). exists h2. split; [exact E2|]. split; [exact OK2|]. split; [lia|exact P2].
Qed.
Lemma free_got s rest h h1 : got h (s :: rest) h1 -> exists h2, hfree (Some s) h1 = Ok (tt, h2) /\ got h rest h2 /\ h_next h2 = h_next h1.
Proof.
  intros [OK L P F]. destruct (free_one s h1 _ OK P) as (h2 & E & OK2 & N2 & P2). exists h2. split; [exact E|]. split; [|exact N2].
  inversion F; subst. constructor; [exact OK2|lia|exact P2|]. rewrite N2. assumption.
Qed.
Lemma drop_ok b done e h h1 : Forall filter_sound done -> got h (flat_map blocks done ++ [b]) h1 ->
  exists h2, drop_filters b done e h1 = Ok ((None, [], Some e), h2) /\ got h [] h2 /\ h_next h2 = h_next h1.
Proof.
  intros F [OK L P N]. rewrite <- app_assoc in P. destruct (free_filters_all done h1 _ F OK P) as (h2 & E & OK2 & N2 & P2). unfold drop_filters. rewrite (mbind_ok _ _ _ _ _ E).
  destruct (free_one b h2 _ OK2 P2) as (h3 & E3 & OK3 & N3 & P3). rewrite (mbind_ok _ _ _ _ _ E3). exists h3. split; [reflexivity|].
  split; [|lia]. constructor; [exact OK3|lia|exact P3|constructor].
Qed.
Section Mem.
Variable print : json -> list N.
Variable parse : list N -> option json.
Variable lim : option ev_limits.
Variable grant : nat -> bool.
Notation defined_filter j := (filter_parse (parse (print j)) <> RUndef).
Lemma fill_spec cap b l : forall h h1 done, got h (flat_map blocks done ++ [b]) h1 -> Forall filter_sound done -> (length done + length l <= cap)%nat ->
  Forall (fun j => defined_filter j) l ->
  exists b' l' o h', fill_filters print parse grant cap b l done h1 = Ok ((b', l', o), h') /\
  match o with
  | None => b' = Some b /\ Forall filter_sound l' /\ (exists fs, read_filters print parse l = ROk fs /\ map value l' = map value done ++ fs) /\ got h (flat_map blocks l' ++ [b]) h'
  | Some e => got h [] h' /\ (read_filters print parse l = RErr e \/ e = RMemory /\ failed grant h h')
  end.
Proof.
  induction l as [|j l IH]; intros h h1 done G FS LC DF; cbn [fill_filters].
  - exists (Some b), done, None, h1. split; [reflexivity|]. split; [reflexivity|]. split; [exact FS|]. split; [exists []; split; [reflexivity|symmetry; apply app_nil_r]|exact G].
  - cbn [length] in LC. inversion DF as [|? ? D1 D2]; subst. unfold hassert, mbind at 1. destruct (Nat.ltb_spec (length done) cap) as [_|X]; [|lia].
    destruct (alloc_cases grant h1 (g_ok _ _ _ G)) as [(s & h2 & E2 & G2)|(E2 & FA)]; rewrite (mbind_ok _ _ _ _ _ E2); cbv iota.
    2:{ destruct (drop_ok b done RMemory h h1 FS G) as (h3 & E3 & G3 & N3). exists None, [], (Some RMemory), h3. split; [exact E3|]. split; [exact G3|].
        right. split; [reflexivity|]. refine (failed_more _ _ h1 h1 _ _ _ FA); [exact (g_next _ _ _ G)|lia]. }
    destruct (C90_parse grant h2 (parse (print j)) (g_ok _ _ _ G2) D1) as (f & o & h3 & E3 & R). rewrite (mbind_ok _ _ _ _ _ E3).
    destruct o as [e|].
    + destruct R as (-> & G3 & C). pose proof (got_trans _ _ _ _ _ G2 G3) as G13. cbn [app] in G13.
      destruct (free_got s [] h1 h3 G13) as (h4 & E4 & G4 & N4). rewrite (mbind_ok _ _ _ _ _ E4). cbv iota.
      pose proof (got_trans _ _ _ _ _ G G4) as G04. rewrite app_nil_r in G04.
      destruct (drop_ok b done e h h4 FS G04) as (h5 & E5 & G5 & N5). exists None, [], (Some e), h5. split; [exact E5|]. split; [exact G5|].
      destruct C as [C|(-> & FA)]; [left; cbn [read_filters]; rewrite C; reflexivity|right]. split; [reflexivity|].
      refine (failed_more _ _ h2 h3 _ _ _ FA); [pose proof (g_next _ _ _ G); pose proof (g_next _ _ _ G2); lia|lia].
    + destruct R as (P & SF & G3). pose proof (got_trans _ _ _ _ _ G2 G3) as G13. cbn [app] in G13.
      destruct (free_got s _ h1 h3 G13) as (h4 & E4 & G4 & N4). rewrite (mbind_ok _ _ _ _ _ E4). cbv iota.
      pose proof (got_trans _ _ _ _ _ G G4) as G04.
      assert (G04' : got h (flat_map blocks (done ++ [f]) ++ [b]) h4).
      { eapply got_perm; [|exact G04]. rewrite flat_map_app. cbn [flat_map]. rewrite app_nil_r, <- !app_assoc. apply Permutation_app_head, Permutation_app_comm. }
      destruct (filter_validate (value f)) as [[]|e|] eqn:V.
      * destruct (IH h h4 (done ++ [f]) G04') as (b' & l' & o & h' & E & R).
        -- apply Forall_app. split; [exact FS|constructor; [exact SF|constructor]].
        -- rewrite app_length. cbn [length]. lia.
        -- exact D2.
        -- exists b', l', o, h'. split; [exact E|]. destruct o as [e|].
           ++ destruct R as (G5 & C). split; [exact G5|]. cbn [read_filters]. rewrite P. cbn [rbind]. rewrite V. cbn [rbind]. destruct C as [C|C]; [left; rewrite C; reflexivity|right; exact C].
           ++ destruct R as (-> & FS' & (fs & RF & EV) & G5). split; [reflexivity|]. split; [exact FS'|]. split; [|exact G5]. exists (value f :: fs). cbn [read_filters]. rewrite P.
              cbn [rbind]. rewrite V. cbn [rbind]. rewrite RF. split; [reflexivity|]. rewrite EV, map_app, <- app_assoc. reflexivity.
      * destruct (C90_release f h4 (flat_map blocks done ++ [b] ++ h_live h) SF (g_ok _ _ _ G04)) as (h5 & E5 & OK5 & N5 & P5).
        { rewrite (g_live _ _ _ G04'). rewrite flat_map_app. cbn [flat_map]. rewrite app_nil_r, <- !app_assoc. rewrite !app_assoc. do 2 apply Permutation_app_tail. apply Permutation_app_comm. }
        rewrite (mbind_ok _ _ _ _ _ E5). assert (G5 : got h (flat_map blocks done ++ [b]) h5).
        { constructor; [exact OK5|rewrite N5; apply (g_next _ _ _ G04)|rewrite P5, <- app_assoc; apply Permutation_refl|].
          pose proof (g_new _ _ _ G04) as NW. apply Forall_app in NW as (NW & _). rewrite N5. exact NW. }
        destruct (drop_ok b done e h h5 FS G5) as (h6 & E6 & G6 & N6). exists None, [], (Some e), h6. split; [exact E6|]. split; [exact G6|]. left. cbn [read_filters]. rewrite P. cbn [rbind]. rewrite V. reflexivity.
      * exfalso. clear -V. unfold filter_validate in V. repeat match type of V with (if ?c then _ else _) = _ => destruct c; [discriminate|] end.
        destruct (f_search (value f)); [|discriminate]. destruct (max_search <? N.of_nat (length l)); discriminate.
Qed.
Lemma parse_filters_spec l h : heap_ok h -> Forall (fun j => defined_filter j) l ->
  exists b l' o h', parse_filters_m print parse grant l h = Ok ((b, l', o), h') /\
  match o with
  | None => exists fs, parse_filters print parse l = ROk fs /\ holds_filters b l' fs /\ got h (flat_map blocks l' ++ opt_list b) h'
  | Some e => got h [] h' /\ (parse_filters print parse l = RErr e \/ e = RMemory /\ failed grant h h')
  end.
Proof.
  intros OK DF. unfold parse_filters_m, parse_filters. destruct (max_filters <? length l)%nat.
  - exists None, [], (Some RTooManyFilters), h. split; [reflexivity|]. split; [apply got_refl, OK|]. left. reflexivity.
  - destruct l as [|j l].
    + exists None, [], None, h. split; [reflexivity|]. exists []. split; [reflexivity|]. split; [|apply got_refl, OK]. split; [reflexivity|]. split; [constructor|reflexivity].
    + remember (j :: l) as js eqn:EJ. assert (NE : js <> []) by (subst; discriminate). destruct js as [|j' l']; [congruence|]. clear EJ NE.
      destruct (alloc_cases grant h OK) as [(b & h1 & E1 & G1)|(E1 & FA)]; rewrite (mbind_ok _ _ _ _ _ E1); cbv iota.
      2:{ exists None, [], (Some RMemory), h. split; [reflexivity|]. split; [apply got_refl, OK|]. right. split; [reflexivity|exact FA]. }
      destruct (fill_spec (length (j' :: l')) b (j' :: l') h h1 [] G1 ltac:(constructor) ltac:(cbn [length]; lia) DF) as (b' & l'' & o & h' & E & R).
      exists b', l'', o, h'. split; [exact E|]. destruct o as [e|]; [exact R|]. destruct R as (-> & SF & (fs & RF & EV) & G). exists fs. split; [exact RF|].
      split; [|exact G]. split; [exact EV|]. split; [exact SF|discriminate].
Qed.
Lemma read_event_spec j h : heap_ok h -> event_from_json parse lim (print j) <> Undef ->
  exists p o h', read_event_m print parse lim grant j h = Ok ((p, o), h') /\
  match o with
  | None => exists e q, read_event print parse lim j = ROk e /\ p = Some q /\ got h [q] h'
  | Some e => got h [] h' /\ (read_event print parse lim j = RErr e \/ failed grant h h')
  end.
Proof.
  intros OK D. unfold read_event_m, read_event, event_from_json in *.
  destruct (alloc_cases grant h OK) as [(s & h1 & E1 & G1)|(E1 & FA)]; rewrite (mbind_ok _ _ _ _ _ E1); cbv iota.
  2:{ exists None, (Some RMemory), h. split; [reflexivity|]. split; [apply got_refl, OK|right; exact FA]. }
  assert (IS : In s (h_live h1)) by (apply (Permutation_in s (Permutation_sym (g_live _ _ _ G1))); left; reflexivity).
  rewrite (mbind_ok _ _ _ _ _ (use_ok s h1 IS)). destruct (parse (print j)) as [t|].
  2:{ destruct (free_got s [] h h1 G1) as (h2 & E2 & G2 & N2). rewrite (mbind_ok _ _ _ _ _ E2). exists None, (Some RInvalidJson), h2. split; [reflexivity|]. split; [exact G2|left; reflexivity]. }
  destruct (alloc_cases grant h1 (g_ok _ _ _ G1)) as [(ev & h2 & E2 & G2)|(E2 & FA)]; rewrite (mbind_ok _ _ _ _ _ E2); cbv iota.
  2:{ destruct (free_got s [] h h1 G1) as (h2 & E3 & G3 & N3). rewrite (mbind_ok _ _ _ _ _ E3). exists None, (Some RInvalidJson), h2. split; [reflexivity|]. split; [exact G3|right].
      refine (failed_more _ _ h1 h1 _ _ _ FA); [exact (g_next _ _ _ G1)|lia]. }
  pose proof (got_trans _ _ _ _ _ G1 G2) as G12. cbn [app] in G12.
  destruct (event_from_tree lim t) as [e|e|]; [| |congruence].
  - destruct (free_got s [ev] h h2 G12) as (h3 & E3 & G3 & N3). rewrite (mbind_ok _ _ _ _ _ E3). exists (Some ev), None, h3. split; [reflexivity|]. exists e, ev. auto.
  - assert (G12' : got h [ev; s] h2) by (eapply got_perm; [|exact G12]; apply perm_swap). destruct (free_got ev [s] h h2 G12') as (h3 & E3 & G3 & N3). rewrite (mbind_ok _ _ _ _ _ E3).
    destruct (free_got s [] h h3 G3) as (h4 & E4 & G4 & N4). rewrite (mbind_ok _ _ _ _ _ E4). exists None, (Some RInvalidJson), h4. split; [reflexivity|]. split; [exact G4|left; reflexivity].
Qed.
(** Nothing in the text asks for an undefined conversion. *)
Definition defined (j : option json) : Prop :=
  forall js x, j = Some (JArr js) -> In x js -> filter_parse (parse (print x)) <> RUndef /\ event_from_json parse lim (print x) <> Undef.
(** Parsing a message in memory is parsing it; a message that is not returned
    leaves no block behind. *)
Theorem C103_parse : forall h j, heap_ok h -> defined j -> exists m o h', client_parse_m print parse lim grant j h = Ok ((m, o), h') /\
  match o with
  | None => exists c, client_read print parse lim j = ROk c /\ holds m c /\ got h (msg_blocks m) h'
  | Some e => m = MmUnknown /\ got h [] h' /\ (client_read print parse lim j = RErr e \/ failed grant h h')
  end.
Proof.
  intros h j OK D. assert (FAIL : forall e, client_read print parse lim j = RErr e -> exists m o h', Ok ((MmUnknown, Some e), h) = Ok ((m, o), h') /\
    match o with
    | None => exists c, client_read print parse lim j = ROk c /\ holds m c /\ got h (msg_blocks m) h'
    | Some e => m = MmUnknown /\ got h [] h' /\ (client_read print parse lim j = RErr e \/ failed grant h h')
    end).
  { intros e E. exists MmUnknown, (Some e), h. split; [reflexivity|]. split; [reflexivity|]. split; [apply got_refl, OK|left; exact E]. }
  destruct j as [[| | | |js|]|]; try (apply FAIL; reflexivity). destruct js as [|[| | |ty| |] args]; try (apply FAIL; reflexivity).
  unfold client_parse_m. cbv zeta. destruct args as [|a fs].
  { apply FAIL. cbn [client_read]. destruct (beq ty (bs "EVENT")); [reflexivity|]. destruct (beq ty (bs "REQ")); [reflexivity|]. destruct (beq ty (bs "CLOSE")); [reflexivity|].
    destruct (beq ty (bs "AUTH")); [reflexivity|]. destruct (beq ty (bs "COUNT")); reflexivity. }
  assert (DE : event_from_json parse lim (print a) <> Undef) by (apply (D _ a eq_refl); right; left; reflexivity).
  assert (DF : Forall (fun j => defined_filter j) fs) by (apply Forall_forall; intros x I; apply (D _ x eq_refl); right; right; exact I).
  destruct (read_event_spec a h OK DE) as (p & oe & he & EE & RE). destruct (parse_filters_spec fs h OK DF) as (b & l' & of & hf & EF & RF).
  assert (NS : forall e, read_sub_id a = RErr e -> e = RInvalidSubId) by (intros e; unfold read_sub_id; destruct a; try congruence; destruct (validate_subscription_id s); congruence).
  assert (NU : read_sub_id a <> RUndef) by (unfold read_sub_id; destruct a; try congruence; destruct (validate_subscription_id s); congruence).
  cbn [client_read] in *.
  destruct (beq ty (bs "EVENT")) eqn:B1.
  { rewrite (mbind_ok _ _ _ _ _ EE). destruct oe as [e|].
    - exists MmUnknown, (Some e), he. split; [reflexivity|]. split; [reflexivity|]. destruct RE as (G & [C|C]); split; [exact G|left; rewrite C; reflexivity|exact G|right; exact C].
    - destruct RE as (e & q & R & -> & G). exists (MmEvent (Some q)), None, he. split; [reflexivity|]. exists (CEvent e). rewrite R. split; [reflexivity|]. split; [exact Logic.I|exact G]. }
  destruct (beq ty (bs "REQ")) eqn:B2.
  { destruct (read_sub_id a) as [id|e|] eqn:RS; [|rewrite (NS e eq_refl) in *; apply FAIL; reflexivity|congruence].
    rewrite (mbind_ok _ _ _ _ _ EF). destruct of as [e|].
    - exists MmUnknown, (Some e), hf. split; [reflexivity|]. split; [reflexivity|]. cbn [rbind]. destruct RF as (G & [C|(-> & C)]); split; [exact G|left; rewrite C; reflexivity|exact G|right; exact C].
    - destruct RF as (fl & R & HF & G). exists (MmReq b l'), None, hf. split; [reflexivity|]. exists (CReq id fl). cbn [rbind]. rewrite R. split; [reflexivity|]. split; [exact HF|exact G]. }
  destruct (beq ty (bs "CLOSE")) eqn:B3.
  { destruct (read_sub_id a) as [id|e|] eqn:RS; [|rewrite (NS e eq_refl) in *; apply FAIL; reflexivity|congruence].
    exists MmClose, None, h. split; [reflexivity|]. exists (CClose id). split; [reflexivity|]. split; [exact Logic.I|apply got_refl, OK]. }
  destruct (beq ty (bs "AUTH")) eqn:B4.
  { rewrite (mbind_ok _ _ _ _ _ EE). destruct oe as [e|].
    - exists MmUnknown, (Some e), he. split; [reflexivity|]. split; [reflexivity|]. destruct RE as (G & [C|C]); split; [exact G|left; rewrite C; reflexivity|exact G|right; exact C].
    - destruct RE as (e & q & R & -> & G). exists (MmAuth (Some q)), None, he. split; [reflexivity|]. exists (CAuth e). rewrite R. split; [reflexivity|]. split; [exact Logic.I|exact G]. }
  destruct (beq ty (bs "COUNT")) eqn:B5; [|apply FAIL; reflexivity].
  { destruct (read_sub_id a) as [id|e|] eqn:RS; [|rewrite (NS e eq_refl) in *; apply FAIL; reflexivity|congruence].
    rewrite (mbind_ok _ _ _ _ _ EF). destruct of as [e|].
    - exists MmUnknown, (Some e), hf. split; [reflexivity|]. split; [reflexivity|]. cbn [rbind]. destruct RF as (G & [C|(-> & C)]); split; [exact G|left; rewrite C; reflexivity|exact G|right; exact C].
    - destruct RF as (fl & R & HF & G). exists (MmCount b l'), None, hf. split; [reflexivity|]. exists (CCount id fl). cbn [rbind]. rewrite R. split; [reflexivity|]. split; [exact HF|exact G]. }
Qed.
(** Releasing a message gives back exactly its blocks; releasing it again, or
    after a failure, does nothing. *)
Theorem C103_free : forall h j m o h1, heap_ok h -> defined j -> client_parse_m print parse lim grant j h = Ok ((m, o), h1) ->
  exists h2, client_free_m m h1 = Ok (mm_zero, h2) /\ Permutation (h_live h2) (h_live h) /\ client_free_m mm_zero h2 = Ok (mm_zero, h2).
Proof.
  intros h j m o h1 OK D E. destruct (C103_parse h j OK D) as (m' & o' & h' & E' & R). rewrite E in E'.
  assert (m' = m) by congruence. assert (o' = o) by congruence. assert (h' = h1) by congruence. subst m' o' h'. clear E'.
  assert (Z : forall h2, client_free_m mm_zero h2 = Ok (mm_zero, h2)) by reflexivity.
  assert (X : exists h2, client_free_m m h1 = Ok (mm_zero, h2) /\ Permutation (h_live h2) (h_live h)).
  2:{ destruct X as (h2 & A & B). exists h2. auto. }
  destruct o as [e|].
  - destruct R as (-> & G & _). exists h1. split; [reflexivity|]. exact (g_live _ _ _ G).
  - destruct R as (c & _ & H & [G1 G2 G3 G4]). unfold client_free_m. cbv zeta.
    assert (ONE : forall q, Permutation (h_live h1) ([q] ++ h_live h) -> exists h2, (let! _ := hfree (Some q) in mret mm_zero) h1 = Ok (mm_zero, h2) /\ Permutation (h_live h2) (h_live h)).
    { intros q P. destruct (free_one q h1 _ G1 P) as (h2 & E2 & _ & _ & P2). exists h2. rewrite (mbind_ok _ _ _ _ _ E2). auto. }
    assert (MANY : forall b l fl, holds_filters b l fl -> Permutation (h_live h1) ((flat_map blocks l ++ opt_list b) ++ h_live h) ->
      exists h2, (let! _ := match b with None => mret tt | Some b => let! _ := free_filters l in hfree (Some b) end in mret mm_zero) h1 = Ok (mm_zero, h2) /\ Permutation (h_live h2) (h_live h)).
    { intros b l fl (_ & SF & NN) P. destruct b as [b|].
      - rewrite <- app_assoc in P. destruct (free_filters_all l h1 _ SF G1 P) as (h2 & E2 & OK2 & _ & P2). destruct (free_one b h2 _ OK2 P2) as (h3 & E3 & _ & _ & P3).
        exists h3. split; [|exact P3]. rewrite mbind_assoc, (mbind_ok _ _ _ _ _ E2), (mbind_ok _ _ _ _ _ E3). reflexivity.
      - rewrite (NN eq_refl) in P. exists h1. auto. }
    destruct m as [[q|]|b l| |[q|]|b l|]; destruct c; cbn [holds msg_blocks opt_list] in *; try contradiction.
    + apply ONE, G3.
    + apply (MANY b l fs H G3).
    + exists h1. auto.
    + apply ONE, G3.
    + apply (MANY b l fs H G3).
Qed.
End Mem.
(** Running out of memory while reading an event is reported as bad JSON. *)
Theorem C103_refuted : ~ (forall print parse lim grant h j m e h', heap_ok h -> defined print parse lim j -> client_parse_m print parse lim grant j h = Ok ((m, Some e), h') ->
  (exists c, client_read print parse lim j = ROk c) -> e = RMemory).
Proof.
  intros H. pose (g := fun k => Nat.eqb k 0). pose (j := Some (JArr [JStr (bs "EVENT"); JObj []])).
  specialize (H (fun _ => []) (one_text (JObj [])) None g hempty j MmUnknown RInvalidJson (mkHeap 1 [])).
  assert (X : RInvalidJson = RMemory); [|discriminate]. apply H.
  - split; constructor.
  - intros js x _ _. split; vm_compute; discriminate.
  - reflexivity.
  - eexists. vm_compute. reflexivity.
Qed.
Example C103_meets : heap_ok hempty /\ defined (fun _ => []) (one_text (JObj l0)) None (Some (JArr [JStr (bs "REQ"); JStr (bs "s"); JObj l0])) /\
  exists m h', client_parse_m (fun _ => []) (one_text (JObj l0)) None (fun _ => true) (Some (JArr [JStr (bs "REQ"); JStr (bs "s"); JObj l0])) hempty = Ok ((m, None), h') /\ length (h_live h') = 4%nat.
Proof.
  split; [split; constructor|]. split; [intros js x _ _; split; vm_compute; discriminate|]. eexists. eexists. split; [vm_compute; reflexivity|reflexivity].
Qed.

Print Assumptions C100_exact.
Print Assumptions C100_errors.
Print Assumptions C100_request_partial.
Print Assumptions C100_event.
Print Assumptions C100_refuted.
Print Assumptions C101_says.
Print Assumptions C101_refuted.
Print Assumptions C101_delivered.
Print Assumptions C102_buffer.
Print Assumptions C103_parse.
Print Assumptions C103_free.
Print Assumptions C103_refuted.
