(** Theorems about what crosses the connection: C130, C131. *)
From Verif Require Import Base BaseFacts Heap Dec Json RelayMemSpec RelayMemProps Hex HexProofs Event EventSpec EventProofs EventProps EventMem EventMemSpec EventMemProps CjsonMem CjsonMemProofs EventOom EventOomSpec EventOomProps.
From Verif Require Import RelayProto RelayProtoSpec RelayProtoProps RelayFilter RelayFilterSpec RelayMsg RelayMsgSpec RelayMsgProps RelayRecv RelayRecvSpec RelayRecvProps RelaySubProps JsonSpec JsonLib JsonLibProofs RelaySend RelaySendSpec.
Open Scope N_scope.
Notation holds := EventMemSpec.holds.

(** ** Trees and texts *)
Lemma cstr_hex b : bytes_ok b -> cstr_ok (hex_encode b).
Proof.
  unfold hex_encode. induction 1 as [|c b C _ IH]; [constructor|]. cbn [flat_map]. apply Forall_app. split; [|exact IH].
  assert (P : forall v, v < 16 -> char_ok (hexdigit v)) by (intros v L; unfold char_ok, hexdigit; destruct (N.ltb_spec v 10); lia).
  unfold byte_ok in C. constructor; [apply P, N.div_lt_upper_bound; lia|constructor; [apply P, N.mod_lt; lia|constructor]].
Qed.
Lemma jint_writable z : (Z.abs z < 10 ^ 15)%Z -> writable (jint z).
Proof. intros L. unfold jint. rewrite round53_small by lia. constructor. exact L. Qed.
Lemma strings_writable vs : Forall cstr_ok vs -> writable (JArr (map JStr vs)).
Proof. intros F. constructor. induction F; constructor; [constructor; assumption|assumption]. Qed.
Lemma event_writable e : carried_event e -> writable (event_to_tree e).
Proof.
  intros (O & T). destruct O as [OI OP OC OK OT OCT OS]. unfold event_to_tree. constructor.
  repeat (apply Forall_cons; [split; [cbn [fst]; repeat constructor; reflexivity|cbn [snd]]|]); [..|constructor].
  - constructor. apply cstr_hex, OI.
  - constructor. apply cstr_hex, OP.
  - apply jint_writable, T.
  - apply jint_writable. lia.
  - constructor. clear -OT. induction OT as [|vs ts (_ & V) _ IH]; constructor; [apply strings_writable, V|exact IH].
  - constructor. exact OCT.
  - constructor. apply cstr_hex, OS.
Qed.
Lemma strings_depth vs : depth (JArr (map JStr vs)) = 1.
Proof. cbn [depth]. assert (Z : fold_right (fun x m => N.max (depth x) m) 0 (map JStr vs) = 0); [|rewrite Z; reflexivity]. induction vs as [|v vs IH]; [reflexivity|]. cbn [map fold_right depth]. rewrite IH. reflexivity. Qed.
Lemma event_depth e : depth (event_to_tree e) <= 3.
Proof.
  unfold event_to_tree. cbn [depth fold_right snd]. assert (Z : fold_right (fun x m => N.max (depth x) m) 0 (map (fun vs => JArr (map JStr vs)) (ev_tags e)) <= 1).
  { induction (ev_tags e) as [|vs ts IH]; [cbn; lia|]. cbn [map fold_right]. rewrite strings_depth. lia. }
  unfold jint. cbn [depth]. lia.
Qed.
Lemma lib_reads print parse t : json_library print parse -> writable t -> depth t <= 1000 -> parse (print t) = Some t.
Proof. intros [P R] W D. apply R; [apply text_alone, P, W|exact D]. Qed.
Lemma event_reads print parse e : json_library print parse -> carried_event e -> forall t, t = event_to_tree e -> parse (print t) = Some t.
Proof. intros L C t ->. apply (lib_reads _ _ _ L); [apply event_writable, C|pose proof (event_depth e); lia]. Qed.
Lemma plain_text s : forallb (fun c => (32 <=? c) && negb (c =? 34) && negb (c =? 92)) s = true -> str_text s s.
Proof.
  induction s as [|c s IH]; [constructor|]. cbn [forallb]. intros E. apply andb_true_iff in E as (E & F). apply andb_true_iff in E as (E & E3). apply andb_true_iff in E as (E1 & E2).
  apply N.leb_le in E1. apply negb_true_iff, N.eqb_neq in E2, E3. constructor; auto.
Qed.
Lemma framed t s : json_text t s -> elems [t] s.
Proof. intros (w1 & x & w2 & W1 & T & W2 & ->). constructor; assumption. Qed.
Lemma named_text ty js s : str_text ty ty -> elems js s -> text (JArr (JStr ty :: js)) (91 :: 34 :: ty ++ 34 :: 44 :: s ++ [93]).
Proof.
  intros P E. pose proof (TxArr (JStr ty :: js) ([] ++ (34 :: ty ++ [34]) ++ [] ++ 44 :: s) (ElMore (JStr ty) js [] (34 :: ty ++ [34]) [] s ws_nil (TxStr _ _ P) ws_nil E)) as T.
  cbn [app] in T. revert T. flat. exact (fun T => T).
Qed.

(** ** C130 *)
(** Publishing: memory is given back and never misused, whatever fails; with memory
    the status says what happened, and what the relay reads is the event. *)
Theorem C130_publish : forall grant print relay socket written e h rest, holds h rest ->
  exists sent x h' lost, publish_event grant print relay socket written e h = Ok ((sent, x), h') /\ holds h' (lost ++ rest) /\
  (x = None <-> sent <> None) /\
  (forall s, sent = Some s -> exists t, thin (event_to_tree e) t /\ s = bs "[""EVENT""," ++ print t ++ bs "]") /\
  (granted grant h h' -> lost = [] /\ x = (if negb relay then Some EInvalidParam else if socket && written then None else Some EConnection) /\
    forall s, sent = Some s -> forall printr parse lim, json_library print parse -> json_library printr parse -> carried_event e -> within_limits lim e ->
    exists e', client_read printr parse lim (parse s) = ROk (CEvent e') /\ same_event e' e).
Proof.
  intros grant print relay socket written e h rest X. unfold publish_event, send_event. destruct relay; cbn [negb].
  2:{ exists None, (Some EInvalidParam), h, []. split; [reflexivity|]. split; [exact X|]. split; [split; [discriminate|congruence]|]. split; [discriminate|]. intros _. split; [reflexivity|]. split; [reflexivity|discriminate]. }
  destruct (C111_export grant print e h rest X) as (r & x & h1 & lost & E & X1 & L1 & G1 & OKV & BAD). rewrite (mbind_ok _ _ _ _ _ E).
  destruct x as [er|].
  { destruct (BAD ltac:(discriminate)) as (Q & ->). exists None, (Some er), h1, lost. assert (S : (match (@None (nat * list N)) with Some (_, _) => mret (@None (list N), Some er) | None => mret (None, Some er) end) = mret (None, Some er)) by reflexivity.
    split; [reflexivity|]. split; [exact X1|]. split; [split; [discriminate|congruence]|]. split; [discriminate|]. intros G. destruct (G1 G) as (Z & _). discriminate Z. }
  destruct (OKV eq_refl) as (b & t & -> & TH). cbn [text_blocks app] in X1.
  assert (GT : granted grant h h1 -> lost = [] /\ t = event_to_tree e \/ (lost = [] /\ print t = event_to_json print e)) by (intros G; destruct (G1 G) as (_ & -> & b' & Q); right; split; [reflexivity|congruence]).
  destruct socket; cbn [negb andb].
  2:{ destruct (free_holds _ _ _ X1) as (h2 & E2 & X2 & L2). rewrite (mbind_ok _ _ _ _ _ E2). exists None, (Some EConnection), h2, lost. split; [reflexivity|]. split; [exact X2|]. split; [split; [discriminate|congruence]|]. split; [discriminate|].
      intros G. assert (G' : granted grant h h1) by (apply (granted_less grant h h h1 h2 G); lia). destruct (G1 G') as (_ & -> & _). split; [reflexivity|]. split; [reflexivity|discriminate]. }
  destruct (ealloc_two grant h1 _ X1) as [(m & h2 & E2 & X2 & L2)|(h2 & E2 & X2 & L2 & F)]; rewrite (mbind_ok _ _ _ _ _ E2).
  2:{ destruct (free_holds _ _ _ X2) as (h3 & E3 & X3 & L3). rewrite (mbind_ok _ _ _ _ _ E3). exists None, (Some EMemory), h3, lost. split; [reflexivity|]. split; [exact X3|]. split; [split; [discriminate|congruence]|]. split; [discriminate|].
      intros G. destruct (not_granted grant h h1 h3 F ltac:(lia) ltac:(lia) G). }
  set (msg := bs "[""EVENT""," ++ print t ++ bs "]").
  assert (LEN : (length msg + 1 <=? length (print t) + 20)%nat = true) by (apply Nat.leb_le; unfold msg; rewrite !app_length; cbn [length bs]; change (length (bs "[""EVENT"",")) with 9%nat; change (length (bs "]")) with 1%nat; lia).
  rewrite LEN. unfold hassert at 1. rewrite (mbind_ok _ _ h2 tt h2 eq_refl).
  rewrite (mbind_ok _ _ h2 tt h2 (use_holds b h2 _ X2 ltac:(right; left; reflexivity))). rewrite (mbind_ok _ _ h2 tt h2 (use_holds m h2 _ X2 ltac:(left; reflexivity))).
  apply (holds_perm h2 _ (b :: m :: lost ++ rest)) in X2; [|apply Permutation.perm_swap]. destruct (free_holds _ _ _ X2) as (h3 & E3 & X3 & L3). rewrite (mbind_ok _ _ _ _ _ E3).
  destruct (ealloc_two grant h3 _ X3) as [(u & h4 & E4 & X4 & L4)|(h4 & E4 & X4 & L4 & F)]; rewrite (mbind_ok _ _ _ _ _ E4).
  2:{ destruct (free_holds _ _ _ X4) as (h5 & E5 & X5 & L5). rewrite (mbind_ok _ _ _ _ _ E5). exists None, (Some EMemory), h5, lost. split; [reflexivity|]. split; [exact X5|]. split; [split; [discriminate|congruence]|]. split; [discriminate|].
      intros G. destruct (not_granted grant h h3 h5 F ltac:(lia) ltac:(lia) G). }
  rewrite (mbind_ok _ _ h4 tt h4 (use_holds m h4 _ X4 ltac:(right; left; reflexivity))). rewrite (mbind_ok _ _ h4 tt h4 (use_holds u h4 _ X4 ltac:(left; reflexivity))).
  apply (holds_perm h4 _ (m :: u :: lost ++ rest)) in X4; [|apply Permutation.perm_swap]. destruct (free_holds _ _ _ X4) as (h5 & E5 & X5 & L5). rewrite (mbind_ok _ _ _ _ _ E5).
  destruct (free_holds _ _ _ X5) as (h6 & E6 & X6 & L6). rewrite (mbind_ok _ _ _ _ _ E6).
  assert (GL : granted grant h h6 -> lost = [] /\ print t = print (event_to_tree e)).
  { intros G. assert (G' : granted grant h h1) by (apply (granted_less grant h h h1 h6 G); lia). destruct (GT G') as [(A & ->)|(A & B)]; auto. }
  destruct written; cbn [andb].
  - exists (Some msg), None, h6, lost. split; [reflexivity|]. split; [exact X6|]. split; [split; [discriminate|reflexivity]|]. split; [intros s Q; injection Q as <-; exists t; auto|].
    intros G. destruct (GL G) as (-> & PT). split; [reflexivity|]. split; [reflexivity|]. intros s Q printr parse lim LP LR C W. assert (ES : s = msg) by congruence. subst s. clear Q.
    assert (JT : json_text (JArr [JStr (bs "EVENT"); event_to_tree e]) msg).
    { apply text_alone. unfold msg. rewrite PT. pose proof (named_text (bs "EVENT") [event_to_tree e] (print (event_to_tree e)) (plain_text (bs "EVENT") eq_refl) (framed _ _ (text_alone _ _ (lib_print _ _ LP _ (event_writable e C))))) as T. exact T. }
    rewrite (lib_parse _ _ LP _ _ JT) by (pose proof (event_depth e); cbn [depth fold_right]; lia).
    destruct (C100_event printr parse lim e [] (event_reads printr parse e LR C) (proj1 C)) as (e' & R & _ & SF & SI & SS); [pose proof (proj2 C); lia|exact W|]. exists e'. split; [exact R|]. split; [exact SF|]. split; assumption.
  - exists None, (Some EConnection), h6, lost. split; [reflexivity|]. split; [exact X6|]. split; [split; [discriminate|congruence]|]. split; [discriminate|]. intros G. destruct (GL G) as (-> & _). split; [reflexivity|]. split; [reflexivity|discriminate].
Qed.
Lemma valid_id_text id : valid_sub_id id = true -> str_text id id.
Proof.
  unfold valid_sub_id. intros V. apply andb_true_iff in V as (_ & V). apply plain_text. revert V. induction id as [|c id IH]; [reflexivity|]. cbn [forallb]. intros V. apply andb_true_iff in V as (V & W). rewrite (IH W), andb_true_r.
  apply andb_true_iff in V as (V & V3). apply andb_true_iff in V as (V1 & V2). rewrite V1, V2, !andb_true_r. rewrite negb_true_iff in V3. apply N.ltb_ge in V3. apply N.leb_le, V3.
Qed.
Lemma elems_depth js s k : elems js s -> Forall (fun j => depth j <= k) js -> depth (JArr js) <= 1 + k.
Proof. intros _ F. cbn [depth]. induction F; cbn [fold_right]; lia. Qed.
(** Subscribing: when the call succeeds, the relay reads the id and filters that
    select what the JSON filters ask for. *)
Theorem C130_subscribe_partial : forall print parse lim l id filters js hd ok f l' sent,
  json_library print parse -> subscribe l id filters hd ok f = (l', sent, Ok tt) -> sub_id id ->
  elems js filters -> Forall writable js -> Forall (fun j => depth j <= 100) js -> (length js <= 10)%nat -> Forall request_filter js ->
  exists s fs, sent = Some s /\ client_read print parse lim (parse s) = ROk (CReq id fs) /\ length fs = length js /\
    forall e, ids_ok e -> (forall name, (tags_named e name <= 256)%nat) -> filters_match fs e = true <-> wanted js e.
Proof.
  intros print parse lim l id filters js hd ok f l' sent LIB E SI EL W D LE RF. unfold subscribe in E.
  destruct (valid_sub_id id) eqn:V; [|discriminate]. cbn [negb] in E. destruct (negb (a_node f)); [discriminate|]. destruct (negb ok); [discriminate|]. destruct (negb (a_msg f)); [discriminate|]. destruct (negb (a_buf f)); [discriminate|].
  destruct (a_write f); [|discriminate]. set (s := bs "[""REQ"",""" ++ id ++ bs """," ++ filters ++ bs "]") in *. assert (Q : sent = Some s) by congruence. subst sent. clear E.
  assert (T : text (JArr (JStr (bs "REQ") :: JStr id :: js)) s).
  { pose proof (ElMore (JStr id) js [] (34 :: id ++ [34]) [] filters ws_nil (TxStr _ _ (valid_id_text id V)) ws_nil EL) as E1. cbn [app] in E1. pose proof (named_text (bs "REQ") _ _ (plain_text (bs "REQ") eq_refl) E1) as T. unfold s. revert T. change (bs "[""REQ"",""") with (91 :: 34 :: bs "REQ" ++ [34; 44; 34]). flat. exact (fun T => T). }
  assert (DD : depth (JArr (JStr (bs "REQ") :: JStr id :: js)) <= 1000).
  { cbn [depth fold_right]. pose proof (elems_depth js filters 100 EL D) as DJ. cbn [depth] in DJ. lia. }
  destruct (C100_request_partial print parse lim id js) as (fs & R & _ & LF & SEL); [|exact SI|exact LE|exact RF|].
  { intros j I. apply (lib_reads _ _ _ LIB); [apply (proj1 (Forall_forall _ _) W j I)|]. apply (proj1 (Forall_forall _ _) D) in I. cbv beta in I. lia. }
  exists s, fs. split; [reflexivity|]. rewrite (lib_parse _ _ LIB _ _ (text_alone _ _ T) DD). auto.
Qed.
(** Unsubscribing *)
Theorem C130_unsubscribe_partial : forall print parse lim l id f l' sent,
  json_library print parse -> unsubscribe l id f = Ok (l', sent, Ok tt) -> sub_id id ->
  exists s, sent = Some s /\ client_read print parse lim (parse s) = ROk (CClose id).
Proof.
  intros print parse lim l id f l' sent LIB E SI. unfold unsubscribe in E.
  destruct (valid_sub_id id) eqn:V; [|discriminate]. cbn [negb] in E. destruct (remove_sub l id) as [l1| |]; try discriminate. cbn [bind] in E. destruct (negb (a_msg f)); [discriminate|]. destruct (negb (a_buf f)); [discriminate|].
  destruct (a_write f); [|discriminate]. set (s := bs "[""CLOSE"",""" ++ id ++ bs """]") in *. assert (Q : sent = Some s) by congruence. subst sent. clear E. exists s. split; [reflexivity|].
  assert (T : text (JArr [JStr (bs "CLOSE"); JStr id]) s).
  { pose proof (ElOne (JStr id) [] (34 :: id ++ [34]) [] ws_nil (TxStr _ _ (valid_id_text id V)) ws_nil) as E1. cbn [app] in E1. pose proof (named_text (bs "CLOSE") _ _ (plain_text (bs "CLOSE") eq_refl) E1) as T. unfold s. revert T. change (bs "[""CLOSE"",""") with (91 :: 34 :: bs "CLOSE" ++ [34; 44; 34]). flat. exact (fun T => T). }
  rewrite (lib_parse _ _ LIB _ _ (text_alone _ _ T)) by (cbn; lia). apply C100_exact. eexists. split; [reflexivity|]. constructor. exact SI.
Qed.
(** *** Concrete cases *)
Definition note1 : event := mkEvent (repeat 1 32) (repeat 2 32) 1700000000 1 [[bs "t"; bs "a""b"]] (Some (bs "line" ++ [10; 195; 169])) (repeat 3 64).
Lemma note1_carried : carried_event note1.
Proof.
  split; [|cbn; lia]. constructor; cbn [note1 ev_id ev_pubkey ev_created ev_kind ev_tags ev_sig content_of ev_content].
  - split; [reflexivity|]. apply Forall_forall. intros x I. apply repeat_spec in I. subst. unfold byte_ok. lia.
  - split; [reflexivity|]. apply Forall_forall. intros x I. apply repeat_spec in I. subst. unfold byte_ok. lia.
  - lia.
  - lia.
  - repeat constructor; try discriminate; reflexivity.
  - repeat constructor; reflexivity.
  - split; [reflexivity|]. apply Forall_forall. intros x I. apply repeat_spec in I. subst. unfold byte_ok. lia.
Qed.
Example C130_meets : json_library (jpretty 0) jparse /\ json_library jprint jparse /\ carried_event note1 /\ within_limits (Some (mkEvLimits 100 10)) note1 /\
  (exists h' s e', publish_event (fun _ => true) (jpretty 0) true true true note1 (mkHeap 0 []) = Ok ((Some s, None), h') /\ h_live h' = [] /\ client_read jprint jparse None (jparse s) = ROk (CEvent e') /\ ev_tags e' = ev_tags note1 /\ ev_content e' = ev_content note1) /\
  (exists s fs, subscribe [] (bs "s1") (bs " {""kinds"":[1], ""authors"":[""ab""]} ") (Some 1%nat) true all_well = ([mkSub (Some (bs "s1")) (Some 1%nat)], Some s, Ok tt) /\
     client_read jprint jparse None (jparse s) = ROk (CReq (bs "s1") fs) /\ length fs = 1%nat).
Proof.
  split; [exact pretty_library|]. split; [exact compact_library|]. split; [exact note1_carried|]. split; [cbn; lia|]. split.
  - eexists. eexists. eexists. split; [vm_compute; reflexivity|]. split; [reflexivity|]. split; [vm_compute; reflexivity|]. split; reflexivity.
  - eexists. eexists. split; [vm_compute; reflexivity|]. split; [vm_compute; reflexivity|reflexivity].
Qed.
(** *** Refutations *)
(** A subscription the client opens may be one the relay refuses: ids of more than
    64 characters are sent. *)
Theorem C130_id_refuted : ~ (forall print parse lim l id filters hd f l' sent, json_library print parse ->
  subscribe l id filters hd (match parse filters with Some _ => true | None => false end) f = (l', sent, Ok tt) ->
  exists s fs, sent = Some s /\ client_read print parse lim (parse s) = ROk (CReq id fs)).
Proof.
  intros H. destruct (H jprint jparse None [] (repeat 97 65) (bs "{}") None all_well _ _ compact_library eq_refl) as (s & fs & Q & R). apply (f_equal (fun o => match o with Some x => client_read jprint jparse None (jparse x) | None => RUndef end)) in Q. rewrite R in Q. vm_compute in Q. discriminate.
Qed.
(** Filters are put into the message although only their beginning was found to be
    JSON: the message may be no JSON at all. *)
Theorem C130_injected_refuted : ~ (forall l id filters hd f l' sent,
  subscribe l id filters hd (match jparse filters with Some _ => true | None => false end) f = (l', sent, Ok tt) -> exists s t, sent = Some s /\ json_text t s).
Proof.
  intros H. destruct (H [] (bs "s") (bs "{}]x") None all_well _ _ eq_refl) as (s & t & Q & T). destruct T as (w1 & x & w2 & W1 & T & W2 & ES).
  assert (E0 : bs "[""REQ"",""s"",{}]x]" = s) by (apply (f_equal (fun o => match o with Some x => x | None => [] end)) in Q; vm_compute in Q; rewrite <- Q; reflexivity).
  assert (EN : ends w2) by (destruct W2 as [|c w2 C _]; [exact I|apply blank in C as (_ & C); exact C]).
  pose proof (proj1 text_read t x T (2 * (length w1 + length x + length w2))%nat w2 ltac:(lia) EN) as R. rewrite <- (jval_blank _ w1 _ W1), <- ES in R.
  assert (LS : (length w1 + length x + length w2 = length s)%nat) by (rewrite ES, !app_length; lia). rewrite LS, <- E0 in R. vm_compute in R. assert (EW : w2 = bs "x]") by (vm_compute; congruence). rewrite EW in W2. inversion_clear W2 as [|? ? B _]. cbn in B. lia.
Qed.
(** When memory runs out, success may be reported for an event sent without its
    signature. *)
Definition note0 : event := mkEvent (repeat 1 32) (repeat 2 32) 1700000000 1 [] (Some (bs "hi")) (repeat 3 64).
Theorem C130_memory_refuted : ~ (forall grant relay socket written e s h', publish_event grant jprint relay socket written e (mkHeap 0 []) = Ok ((Some s, None), h') -> event_ok e ->
  exists e', client_read jprint jparse None (jparse s) = ROk (CEvent e') /\ same_event e' e).
Proof.
  intros H. assert (X : exists s h', publish_event (fun k => negb (k =? 16)%nat) jprint true true true note0 (mkHeap 0 []) = Ok ((Some s, None), h') /\
    match client_read jprint jparse None (jparse s) with ROk (CEvent e) => beq (ev_sig e) (ev_sig note0) | _ => false end = false) by (eexists; eexists; split; [vm_compute; reflexivity|vm_compute; reflexivity]).
  destruct X as (s & h' & E & B). destruct (H _ _ _ _ _ _ _ E) as (e' & R & _ & _ & SG).
  - constructor; cbn [note0 ev_id ev_pubkey ev_created ev_kind ev_tags ev_sig content_of ev_content].
    + split; [reflexivity|]. apply Forall_forall. intros x I. apply repeat_spec in I. subst. unfold byte_ok. lia.
    + split; [reflexivity|]. apply Forall_forall. intros x I. apply repeat_spec in I. subst. unfold byte_ok. lia.
    + lia.
    + lia.
    + constructor.
    + repeat constructor; reflexivity.
    + split; [reflexivity|]. apply Forall_forall. intros x I. apply repeat_spec in I. subst. unfold byte_ok. lia.
  - rewrite R, SG, beq_refl in B. discriminate.
Qed.

(** ** C131 *)
(** A JSON text keeps strings and brackets balanced. *)
Lemma hex_quoted c v : hexdigit_is c v -> c <> 34 /\ c <> 92 /\ c <> 0.
Proof. intros [x L|x L|x L]; lia. Qed.
Lemma unit_quoted h u q : unit16 h u -> quoted q -> quoted (h ++ q).
Proof.
  intros (a & b & c & d & p & q' & r & t & -> & A & B & C & D & _) Q. apply hex_quoted in A as (A1 & A2 & A3), B as (B1 & B2 & B3), C as (C1 & C2 & C3), D as (D1 & D2 & D3).
  cbn [app]. repeat (apply quoted_char; [assumption|assumption|assumption|]). exact Q.
Qed.
Lemma str_quoted v t : str_text v t -> quoted t.
Proof.
  induction 1 as [|c v t L N1 N2 _ IH|x y v t X _ IH|h u p v t U POS NS P _ IH|h u g w p v t U W RU RW P _ IH].
  - constructor.
  - apply quoted_char; [exact N1|exact N2|lia|exact IH].
  - apply quoted_escape; [|exact IH]. intros ->. cbn [In escapes] in X. repeat (destruct X as [X|X]; [discriminate|]). destruct X.
  - apply quoted_escape; [discriminate|]. apply (unit_quoted _ _ _ U IH).
  - apply quoted_escape; [discriminate|]. apply (unit_quoted _ _ _ U). apply quoted_escape; [discriminate|]. apply (unit_quoted _ _ _ W IH).
Qed.
Lemma plain_nested s r : Forall plain s -> nested r -> nested (s ++ r).
Proof. induction 1; intros R; cbn [app]; [exact R|]. apply nested_char; auto. Qed.
Lemma ws_plain w : ws w -> Forall plain w.
Proof. intros W. eapply Forall_impl; [|exact W]. cbn [In]. intros c [<-|[<-|[<-|[<-|[]]]]]; repeat split; discriminate. Qed.
Lemma dec_plain z : Forall plain (dec_Z z).
Proof.
  assert (P : forall n, Forall plain (dec_N n)).
  { intros n. eapply Forall_impl; [|apply dec_is_digits]. cbv beta. intros c C. unfold is_digit in C. apply andb_true_iff in C as (A & B). apply N.leb_le in A, B. repeat split; lia. }
  unfold dec_Z. destruct z; [apply P|apply P|]. constructor; [repeat split; discriminate|apply P].
Qed.
Theorem text_nested :
  (forall j s, text j s -> forall r, nested r -> nested (s ++ r)) /\ (forall l s, elems l s -> nested s) /\ (forall l s, members l s -> nested s).
Proof.
  apply (text_mutual (fun j s _ => forall r, nested r -> nested (s ++ r)) (fun l s _ => nested s) (fun l s _ => nested s)).
  1-3: (intros r R; apply plain_nested; [repeat constructor; discriminate|exact R]).
  - intros z _ r R. apply plain_nested; [apply dec_plain|exact R].
  - intros v s Q r R. cbn [app]. rewrite <- app_assoc. cbn [app]. apply nested_string; [apply (str_quoted _ _ Q)|exact R].
  - intros w W r R. cbn [app]. rewrite <- app_assoc. cbn [app]. apply nested_array; [|exact R]. rewrite <- (app_nil_r w). apply plain_nested; [apply ws_plain, W|constructor].
  - intros l s _ IH r R. cbn [app]. rewrite <- app_assoc. cbn [app]. apply nested_array; assumption.
  - intros w W r R. cbn [app]. rewrite <- app_assoc. cbn [app]. apply nested_object; [|exact R]. rewrite <- (app_nil_r w). apply plain_nested; [apply ws_plain, W|constructor].
  - intros l s _ IH r R. cbn [app]. rewrite <- app_assoc. cbn [app]. apply nested_object; assumption.
  - intros j w1 s w2 W1 _ IH W2. apply plain_nested; [apply ws_plain, W1|]. apply IH. rewrite <- (app_nil_r w2). apply plain_nested; [apply ws_plain, W2|constructor].
  - intros j l w1 s w2 r W1 _ IH W2 _ IHl. apply plain_nested; [apply ws_plain, W1|]. apply IH. apply plain_nested; [apply ws_plain, W2|]. apply nested_char; [repeat split; discriminate|exact IHl].
  - intros k j w0 q w1 w2 s w3 W0 Q W1 W2 _ IH W3. apply plain_nested; [apply ws_plain, W0|]. apply nested_string; [apply (str_quoted _ _ Q)|]. apply plain_nested; [apply ws_plain, W1|]. apply nested_char; [repeat split; discriminate|].
    apply plain_nested; [apply ws_plain, W2|]. apply IH. rewrite <- (app_nil_r w3). apply plain_nested; [apply ws_plain, W3|constructor].
  - intros k j l w0 q w1 w2 s w3 r W0 Q W1 W2 _ IH W3 _ IHl. apply plain_nested; [apply ws_plain, W0|]. apply nested_string; [apply (str_quoted _ _ Q)|]. apply plain_nested; [apply ws_plain, W1|]. apply nested_char; [repeat split; discriminate|].
    apply plain_nested; [apply ws_plain, W2|]. apply IH. apply plain_nested; [apply ws_plain, W3|]. apply nested_char; [repeat split; discriminate|exact IHl].
Qed.
Lemma array_message l s : text (JArr l) s -> array_text s.
Proof.
  intros T. inversion T as [| | |z Z EZ| |w W|? a EL| | ]; subst.
  - exists w. split; [reflexivity|]. rewrite <- (app_nil_r w). apply plain_nested; [apply ws_plain; assumption|constructor].
  - exists a. split; [reflexivity|]. apply (proj1 (proj2 text_nested) _ _ EL).
Qed.
Lemma quoted_nul q : quoted q -> ~ In 0 q.
Proof. induction 1 as [|c q A B C _ IH|c q C _ IH]; cbn [In]; [tauto|intros [X|X]; [congruence|tauto]|intros [X|[X|X]]; [discriminate|congruence|tauto]]. Qed.
Lemma nested_nul s : nested s -> ~ In 0 s.
Proof.
  induction 1 as [|c s P _ IH|q s Q _ IH|a s _ IHa _ IH|a s _ IHa _ IH]; cbn [In]; [tauto|..].
  - intros [X|X]; [|tauto]. unfold plain in P. intuition congruence.
  - intros [X|X]; [discriminate|]. apply in_app_or in X as [X|[X|X]]; [apply (quoted_nul _ Q X)|discriminate|tauto].
  - intros [X|X]; [discriminate|]. apply in_app_or in X as [X|[X|X]]; [tauto|discriminate|tauto].
  - intros [X|X]; [discriminate|]. apply in_app_or in X as [X|[X|X]]; [tauto|discriminate|tauto].
Qed.
Lemma spread_carries ts s : Forall array_text ts -> spread ts s -> carries s ts /\ nul_free s.
Proof.
  intros F SP. induction SP as [w W|w t ts s W SP IH].
  - split; [constructor; exact W|]. intros X. apply (proj1 (Forall_forall _ _) W) in X. intuition discriminate.
  - inversion_clear F as [|? ? A B]. destruct (IH B) as (C & NF). split; [constructor; assumption|]. intros X. apply in_app_or in X as [X|X]; [apply (proj1 (Forall_forall _ _) W) in X; intuition discriminate|].
    apply in_app_or in X as [X|X]; [|exact (NF X)]. destruct A as (a & -> & A). cbn [In] in X. destruct X as [X|X]; [discriminate|]. apply in_app_or in X as [X|[X|[]]]; [apply (nested_nul _ A X)|discriminate].
Qed.
(** The tree of a message *)
Definition pieces (x : tells) (args : list json) : Prop :=
  match x with
  | TellEvent id e => args = [JStr id; event_to_tree e]
  | TellOk id b t => args = [JStr id; JBool b; JStr t]
  | TellEose id => args = [JStr id]
  | TellClosed id t => args = [JStr id; JStr t]
  | TellNotice t => args = [JStr t]
  | TellAuth c => args = [JStr c]
  | TellCount id n a => args = [JStr id; JObj ((bs "count", jint n) :: (if a then [(bs "approximate", JBool true)] else []))]
  end.
Lemma cstr_dec s : forallb (fun c => (0 <? c) && (c <? 256)) s = true -> cstr_ok s.
Proof. intros F. apply Forall_forall. intros c I. apply (proj1 (forallb_forall _ _) F) in I. apply andb_true_iff in I as (A & B). apply N.ltb_lt in A, B. split; assumption. Qed.
Ltac wr := apply WArr; repeat (apply Forall_cons; [first [apply WStr; first [apply cstr_dec; reflexivity|assumption|tauto]|apply WBool|idtac]|]); [..|apply Forall_nil].
Lemma carried_tree print parse x : json_library print parse -> carried x ->
  exists args, relay_tree print parse (RelayMsgProps.built x) = ROk (JArr (JStr (type_of x) :: args)) /\ pieces x args /\
    told x (JArr (JStr (type_of x) :: args)) /\ writable (JArr (JStr (type_of x) :: args)) /\ depth (JArr (JStr (type_of x) :: args)) <= 1000.
Proof.
  intros LIB (SH & C). assert (SAY : sayable x) by (destruct x; cbn [sayable]; try exact I; [destruct C as (_ & C1 & C2); split; [exact C1|lia]|lia]).
  assert (LE : forall id e, x = TellEvent id e -> parse (print (event_to_tree e)) = Some (event_to_tree e)) by (intros id e ->; apply (event_reads print parse e LIB (proj2 C) _ eq_refl)).
  destruct (C101_full_partial print parse x SAY SH LE) as (j & R & T).
  destruct x as [id e|id b t|id|id t|t|c|id n a]; cbn [RelayMsgProps.built msg_event msg_ok msg_eose msg_closed msg_notice msg_auth msg_count relay_tree short type_of pieces] in *.
  - unfold event_to_json in R |- *. rewrite (LE id e eq_refl) in R |- *. rewrite (cut_short 64 id SH) in R |- *. eexists. split; [reflexivity|]. split; [reflexivity|]. split; [assert (EJ : j = JArr [JStr (bs "EVENT"); JStr id; event_to_tree e]) by congruence; rewrite <- EJ; exact T|].
    destruct C as (C1 & C2). split; [wr; apply event_writable, C2|]. pose proof (event_depth e). cbn [depth fold_right]. lia.
  - destruct SH as (S1 & S2). rewrite (cut_short 64 id S1), (cut_short 255 t S2) in R |- *. eexists. split; [reflexivity|]. split; [reflexivity|]. split; [reflexivity|]. split; [wr|cbn; lia].
  - rewrite (cut_short 64 id SH) in R |- *. eexists. split; [reflexivity|]. split; [reflexivity|]. split; [reflexivity|]. split; [wr|cbn; lia].
  - destruct SH as (S1 & S2). rewrite (cut_short 64 id S1), (cut_short 255 t S2) in R |- *. eexists. split; [reflexivity|]. split; [reflexivity|]. split; [reflexivity|]. split; [wr|cbn; lia].
  - rewrite (cut_short 255 t SH) in R |- *. eexists. split; [reflexivity|]. split; [reflexivity|]. split; [reflexivity|]. split; [wr|cbn; lia].
  - rewrite (cut_short 127 c SH) in R |- *. eexists. split; [reflexivity|]. split; [reflexivity|]. split; [reflexivity|]. split; [wr|cbn; lia].
  - rewrite (cut_short 64 id SH) in R |- *. rewrite (proj2 (Z.ltb_ge n 0)) in R |- * by lia. eexists. split; [reflexivity|]. split; [reflexivity|]. split; [match goal with |- told _ ?x => assert (EJ : j = x) by congruence end; rewrite <- EJ; exact T|].
    split; [|destruct a; cbn; lia]. wr. apply WObj. apply Forall_cons; [split; [apply cstr_dec; reflexivity|apply jint_writable; lia]|]. destruct a; [apply Forall_cons; [split; [apply cstr_dec; reflexivity|apply WBool]|]|]; apply Forall_nil.
Qed.
Definition serialized (print : json -> list N) (parse : list N -> option json) (x : tells) (t : list N) : Prop :=
  exists buf size buf' n, serialize_msg print parse (RelayMsgProps.built x) buf size = (ROk tt, buf', Some n) /\ t = firstn (N.to_nat n) buf'.
Lemma serialized_text print parse x t : json_library print parse -> carried x -> serialized print parse x t ->
  exists args, text (JArr (JStr (type_of x) :: args)) t /\ pieces x args /\ told x (JArr (JStr (type_of x) :: args)) /\ parse t = Some (JArr (JStr (type_of x) :: args)).
Proof.
  intros LIB C (buf & size & buf' & n & E & ->). destruct (carried_tree print parse x LIB C) as (args & R & P & T & W & D). exists args. unfold serialize_msg in E. destruct (size =? 0); [discriminate|]. rewrite R in E. set (j := JArr _) in *. cbv zeta in E.
  destruct (size <=? N.of_nat (length (print j))); [discriminate|]. destruct (length buf <? length (print j) + 1)%nat; [discriminate|].
  assert (EB : buf' = print j ++ [0] ++ skipn (length (print j) + 1) buf) by congruence. assert (EN : n = N.of_nat (length (print j))) by congruence. subst n buf'. rewrite Nat2N.id, firstn_app_exact by reflexivity.
  pose proof (lib_print _ _ LIB j W) as TX. split; [exact TX|]. split; [exact P|]. split; [exact T|]. apply (lib_parse _ _ LIB); [apply text_alone, TX|exact D].
Qed.
Lemma heard_same all who who' xs o : heard all who xs o -> (forall i, who' i = who i) -> heard all who' xs o.
Proof.
  intros HD. revert who'. induction HD as [who|who id e k r xs e' o W S _ IH|who id e xs o W _ IH|who w2 id t xs j o U T _ IH|who x xs j o A B T _ IH]; intros who' EQ.
  - constructor.
  - apply (HdEvent all who' id e k r); [rewrite EQ; exact W|exact S|apply IH, EQ].
  - apply HdUnheard; [rewrite EQ; exact W|apply IH, EQ].
  - apply (HdClosed all who' w2); [intros i; rewrite EQ; apply U|exact T|apply IH; reflexivity].
  - apply HdOther; auto.
Qed.
Lemma dispatched print print' parse lim om l x t : json_library print parse -> json_library print' parse -> carried x -> serialized print parse x t -> named l ->
  (forall id e, x = TellEvent id e -> within_limits lim e) ->
  exists l' o, dispatch parse (fun j => parse (print' j)) lim om l t = Ok (l', o) /\ named l' /\ forall xs os, heard om (at_id l') xs os -> heard om (at_id l) (x :: xs) (o ++ os).
Proof.
  intros LIB LIB' C SE NL WL. destruct (serialized_text print parse x t LIB C SE) as (args & TX & P & T & R). unfold dispatch. rewrite R.
  destruct x as [id e|id b s|id|id s|s|c|id n a]; cbn [pieces type_of] in *; subst args.
  - change (beq (bs "EVENT") (bs "EVENT")) with true. cbn [length Nat.add Nat.leb andb]. pose proof (find_sub_at l id NL) as FS. destruct (find_sub l id) as [[y|]| |]; try contradiction; cbn [bind].
    + destruct FS as (r & FS). rewrite (event_reads print' parse e LIB' (proj2 (proj2 C)) _ eq_refl).
      pose proof (C20_json_roundtrip print' parse lim e (event_reads print' parse e LIB' (proj2 (proj2 C))) (proj1 (proj2 (proj2 C)))) as J. specialize (J ltac:(pose proof (proj2 (proj2 (proj2 C))); lia) (WL id e eq_refl)). unfold event_from_json, event_to_json in J. rewrite (event_reads print' parse e LIB' (proj2 (proj2 C)) _ eq_refl) in J. rewrite J.
      eexists. eexists. split; [reflexivity|]. split; [exact NL|]. intros xs os HD. destruct (s_handler y) as [k|].
      * cbn [app]. apply (HdEvent om _ id e k r); [exact FS|repeat split|exact HD].
      * apply HdUnheard; [right; exists r; exact FS|exact HD].
    + eexists. eexists. split; [reflexivity|]. split; [exact NL|]. intros xs os HD. apply HdUnheard; [left; exact FS|exact HD].
  - eexists. eexists. split; [reflexivity|]. split; [exact NL|]. intros xs os HD. apply HdOther; [discriminate|discriminate|exact T|exact HD].
  - eexists. eexists. split; [reflexivity|]. split; [exact NL|]. intros xs os HD. apply HdOther; [discriminate|discriminate|exact T|exact HD].
  - change (beq (bs "CLOSED") (bs "EVENT")) with false. change (beq (bs "CLOSED") (bs "CLOSED")) with true. cbn [length Nat.add Nat.leb andb]. destruct (remove_sub_at l id NL) as (l' & E & NL' & A). rewrite E. cbn [bind]. eexists. eexists. split; [reflexivity|]. split; [exact NL'|].
    intros xs os HD. apply (HdClosed om (at_id l) (at_id l')); [|exact T|exact HD]. intros i. rewrite A. destruct (list_eq_dec N.eq_dec id i), (list_eq_dec N.eq_dec i id); congruence.
  - eexists. eexists. split; [reflexivity|]. split; [exact NL|]. intros xs os HD. apply HdOther; [discriminate|discriminate|exact T|exact HD].
  - eexists. eexists. split; [reflexivity|]. split; [exact NL|]. intros xs os HD. apply HdOther; [discriminate|discriminate|exact T|exact HD].
  - eexists. eexists. split; [reflexivity|]. split; [exact NL|]. intros xs os HD. apply HdOther; [discriminate|discriminate|exact T|exact HD].
Qed.
(** Whatever a relay built on this library serializes, and however the network cuts
    the stream, the client hears exactly that, in order, at the right handlers. *)
Theorem C131_heard : forall print print' parse lim on_message l xs texts cs,
  json_library print parse -> json_library print' parse -> Forall carried xs -> (forall id e, In (TellEvent id e) xs -> within_limits lim e) ->
  Forall2 (serialized print parse) xs texts -> spread texts (whole cs) -> kept rbuf0 cs -> named l ->
  exists b l' outs, serve parse (fun j => parse (print' j)) lim (fun _ => []) on_message rbuf0 l cs = Ok (b, l', outs) /\ heard on_message (at_id l) xs outs.
Proof.
  intros print print' parse lim om l xs texts cs LIB LIB' C WL SE SP K NL.
  assert (AT : Forall array_text texts).
  { clear -LIB C SE. induction SE as [|x t xs ts S _ IH]; [constructor|]. inversion_clear C as [|? ? CX CS]. constructor; [|apply IH, CS]. destruct (serialized_text print parse x t LIB CX S) as (args & T & _). apply (array_message _ _ T). }
  destruct (spread_carries _ _ AT SP) as (CA & NF). destruct (C56_messages cs texts CA NF K) as (b & E & _). rewrite (serve_eq _ _ _ _ _ _ _ _ _ _ E).
  assert (X : exists l' o, dispatch_all parse (fun j => parse (print' j)) lim (fun _ => []) om l texts = Ok (l', o) /\ heard om (at_id l) xs o).
  { clear E CA NF SP K AT b cs. revert l NL. induction SE as [|x t xs ts S _ IH]; intros l NL; [exists l, []; split; [reflexivity|constructor]|]. inversion_clear C as [|? ? CX CS].
    destruct (dispatched print print' parse lim om l x t LIB LIB' CX S NL) as (l1 & o1 & E1 & N1 & H1); [intros id e ->; apply (WL id e); left; reflexivity|].
    destruct (IH CS (fun id e I => WL id e (or_intror I)) l1 N1) as (l2 & o2 & E2 & H2). exists l2, (o1 ++ o2). cbn [dispatch_all]. rewrite E1. cbn [bind fst snd]. assert (Z : flat_map (fun _ : output => @nil subop) o1 = []) by (clear; induction o1; [reflexivity|assumption]). rewrite Z. cbn [do_ops bind]. rewrite E2. cbn [bind fst snd]. split; [reflexivity|]. apply H1, H2. }
  destruct X as (l' & o & E2 & HD). rewrite E2. cbn [bind fst snd]. exists b, l', o. split; [reflexivity|exact HD].
Qed.
(** *** A concrete stream: three messages, cut in the middle of a string *)
Definition told3 : list tells := [TellEvent (bs "s") note1; TellNotice (bs "a]"""); TellClosed (bs "s") (bs "bye")].
Definition wire (x : tells) : list N := match relay_tree jprint jparse (RelayMsgProps.built x) with ROk j => jprint j | _ => [] end.
Definition cut2 (s : list N) (k : nat) : list (list N * (bool * (nat -> N))) := [(firstn k s, (true, fun _ => 170)); (skipn k s, (true, fun _ => 85))].
Example C131_meets : Forall carried told3 /\ Forall2 (serialized jprint jparse) told3 (map wire told3) /\ spread (map wire told3) (flat_map wire told3) /\
  named [mkSub (Some (bs "s")) (Some 4%nat)] /\
  exists b e j1 j2, serve jparse (fun j => jparse (jpretty 0 j)) None (fun _ => []) true rbuf0 [mkSub (Some (bs "s")) (Some 4%nat)] (cut2 (flat_map wire told3) 99) =
    Ok (b, [], [OEvent 4 e; OMessage (bs "NOTICE") j1; OMessage (bs "CLOSED") j2]) /\ ev_content e = ev_content note1.
Proof.
  split.
  { apply Forall_cons; [split; [cbn; lia|split; [apply cstr_dec; reflexivity|exact note1_carried]]|]. apply Forall_cons; [split; [cbn; lia|apply cstr_dec; reflexivity]|]. apply Forall_cons; [split; [cbn; lia|split; apply cstr_dec; reflexivity]|apply Forall_nil]. }
  split.
  { assert (P : forall x, serialize_msg jprint jparse (RelayMsgProps.built x) (repeat 0 600) 600 = (ROk tt, wire x ++ [0] ++ skipn (length (wire x) + 1) (repeat 0 600), Some (N.of_nat (length (wire x)))) -> serialized jprint jparse x (wire x)).
    { intros x E. exists (repeat 0 600), 600. eexists. eexists. split; [exact E|]. rewrite Nat2N.id, firstn_app_exact by reflexivity. reflexivity. }
    repeat (apply Forall2_cons; [apply P; vm_compute; reflexivity|]). apply Forall2_nil. }
  split.
  { change (spread (map wire told3) ([] ++ wire (TellEvent (bs "s") note1) ++ [] ++ wire (TellNotice (bs "a]""")) ++ [] ++ wire (TellClosed (bs "s") (bs "bye")) ++ [])). apply SpMore; [apply Forall_nil|]. apply SpMore; [apply Forall_nil|]. apply SpMore; [apply Forall_nil|]. apply SpNil, Forall_nil. }
  split; [apply Forall_cons; [discriminate|apply Forall_nil]|].
  eexists. eexists. eexists. eexists. split; [vm_compute; reflexivity|reflexivity].
Qed.
Print Assumptions C130_publish.
Print Assumptions C130_subscribe_partial.
Print Assumptions C130_unsubscribe_partial.
Print Assumptions C130_id_refuted.
Print Assumptions C130_injected_refuted.
Print Assumptions C130_memory_refuted.
Print Assumptions C131_heard.
