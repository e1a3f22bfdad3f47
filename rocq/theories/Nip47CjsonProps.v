(** Wallet-connect requests: what a wallet reads, and what happens to memory. *)
From Verif Require Import Base BaseFacts Heap Dec Strto Hex Json JsonLib JsonSpec JsonLibProofs RelaySendProps Event EventProofs RelayMemSpec RelayMemProps EventMem EventMemSpec EventMemProps CjsonMem
  EventOomSpec CjsonMemProofs Nip47 Nip47Spec Nip47Proofs Nip47Props Nip47Cjson Nip47CjsonSpec Nip47CjsonProofs.
From Coq Require Import Permutation.
Open Scope N_scope.

(** The call that asks for something.  TLV records are texts in turn for type and value;
    the type is the number strtol reads. *)
Section Calls.
Variable grant : nat -> bool.
Variable print : json -> list N.
Inductive plain_call : asks -> M (option (nat * list N) * option err) -> Prop :=
| CallPay i a : plain_call (PayInvoice i a) (pay_invoice_m grant print i a)
| CallMake a d s e : plain_call (MakeInvoice a d s e) (make_invoice_m grant print a d s e)
| CallList f u l o p t : plain_call (ListTransactions f u l o p t) (list_transactions_m grant print f u l o p t)
| CallLookup s i : plain_call (LookupInvoice s i) (lookup_invoice_m grant print s i).
Inductive array_call : asks -> M (option (nat * list N) * option err) -> Prop :=
| CallKeysend a pk pre tlv m : pairs tlv m -> array_call (keysend_asks a pk pre tlv m) (pay_keysend_m grant print a pk pre tlv)
| CallMulti l : array_call (MultiPayInvoice l) (multi_pay_m grant print l).
Inductive empty_call : asks -> M (option (nat * list N) * option err) -> Prop :=
| CallBalance : empty_call GetBalance (empty_params_m grant)
| CallInfo : empty_call GetInfo (empty_params_m grant).
Definition call (r : asks) (m : M (option (nat * list N) * option err)) : Prop := plain_call r m \/ array_call r m \/ empty_call r m.
End Calls.

(** ** C135: memory *)
Theorem C135_kept : forall grant print rq m h rest, plain_call grant print rq m -> proper rq -> holds h rest ->
  exists r x h', m h = Ok ((r, x), h') /\ answered grant print h (params_with jint rq) [] rest r x h'.
Proof.
  intros grant print rq m h rest C P X.
  assert (S : exists r x h' l, m h = Ok ((r, x), h') /\ answered grant print h (params_with jint rq) l rest r x h' /\ l = []).
  { destruct C; cbn [proper] in P; [apply pay_invoice_ok|apply make_invoice_ok|apply list_ok|apply lookup_ok]; assumption. }
  destruct S as (r & x & h' & l & E & A & ->). exists r, x, h'. auto.
Qed.
Theorem C135_partial : forall grant print rq m h rest, array_call grant print rq m -> proper rq -> holds h rest ->
  exists r x h' lost, m h = Ok ((r, x), h') /\ answered grant print h (params_with jint rq) lost rest r x h'.
Proof.
  intros grant print rq m h rest C P X.
  assert (S : exists r x h' l, m h = Ok ((r, x), h') /\ answered grant print h (params_with jint rq) l rest r x h' /\ anything l).
  { destruct C; cbn [proper] in P; [apply keysend_ok|apply multi_ok]; assumption. }
  destruct S as (r & x & h' & l & E & A & _). exists r, x, h', l. auto.
Qed.
Theorem C135_empty : forall grant rq m h rest, empty_call grant rq m -> holds h rest ->
  exists r x h', m h = Ok ((r, x), h') /\ holds h' (text_block r ++ rest) /\
  ((x = None /\ exists b s, r = Some (b, s) /\ json_text (params_of rq) s) \/ (x = Some EMemory /\ r = None /\ ~ granted grant h h')).
Proof.
  intros grant rq m h rest C X.
  assert (J : json_text (params_of rq) (bs "{}")).
  { assert (R : params_of rq = JObj []) by (destruct C; reflexivity). rewrite R. apply text_alone. exact (TxObj0 [] ws_nil). }
  assert (m = empty_params_m grant) as -> by (destruct C; reflexivity). unfold empty_params_m.
  destruct (ealloc_two grant h _ X) as [(q & h1 & E & X1 & L1)|(h1 & E & X1 & L1 & F)]; rewrite (mbind_ok _ _ _ _ _ E); do 2 eexists; exists h1; (split; [reflexivity|]); (split; [exact X1|]).
  - left. split; [reflexivity|]. exists q, (bs "{}"). auto.
  - right. split; [reflexivity|]. split; [reflexivity|]. apply (not_granted grant h h h1 F); lia.
Qed.
(** Improper arguments are refused and nothing is allocated. *)
Theorem C135_improper : forall grant print rq m h, plain_call grant print rq m \/ array_call grant print rq m -> ~ proper rq -> m h = Ok ((None, Some EInvalidParam), h).
Proof.
  intros grant print rq m h [C|C] P; destruct C; cbn [proper keysend_asks] in P; try (exfalso; apply P; exact I).
  - unfold make_invoice_m. destruct (N.eqb_spec a 0) as [->|]; [reflexivity|contradiction].
  - unfold lookup_invoice_m. destruct s as [s|]; [exfalso; apply P; left; discriminate|]. destruct i as [i|]; [exfalso; apply P; right; discriminate|]. reflexivity.
  - unfold pay_keysend_m. destruct (N.eqb_spec a 0) as [->|]; [reflexivity|contradiction].
  - unfold multi_pay_m. destruct l; [reflexivity|]. exfalso. apply P. discriminate.
Qed.
Lemma start_holds : holds (mkHeap 0 []) [].
Proof. split; [split; constructor|constructor]. Qed.
Definition size_of (j : json) : list N := match j with JObj l => [N.of_nat (length l)] | _ => [] end.
(** Refuted: success does not mean the request is whole.  When memory runs out
    after the invoice, the amount is left out. *)
Theorem C135_dropped_refuted : ~ (forall grant print rq m h b s h', plain_call grant print rq m -> proper rq -> holds h [] ->
  m h = Ok ((Some (b, s), None), h') -> s = print (params_with jint rq)).
Proof.
  intros H. specialize (H (fun k => negb (k =? 4)%nat) size_of (PayInvoice (bs "lnbc1") (Some 1000))).
  assert (E : pay_invoice_m (fun k => negb (k =? 4)%nat) size_of (bs "lnbc1") (Some 1000) (mkHeap 0 []) = Ok ((Some (5, [1%N]), None), mkHeap 6 [5])%nat) by (vm_compute; reflexivity).
  specialize (H _ _ _ _ _ (CallPay _ _ _ _) I start_holds E). discriminate H.
Qed.
(** Refuted: a failed allocation loses memory. *)
Theorem C135_lost_refuted : ~ (forall grant print rq m h r x h', array_call grant print rq m -> proper rq -> holds h [] -> m h = Ok ((r, x), h') -> h_live h' = text_block r).
Proof.
  intros H. specialize (H (fun k => negb (k =? 2)%nat) size_of (MultiPayInvoice [(None, bs "lnbc1", 0)])).
  assert (E : multi_pay_m (fun k => negb (k =? 2)%nat) size_of [(None, bs "lnbc1", 0)] (mkHeap 0 []) = Ok ((None, Some EMemory), mkHeap 3 [1])%nat) by (vm_compute; reflexivity).
  specialize (H _ _ _ _ _ (CallMulti _ _ _) ltac:(discriminate) start_holds E). discriminate H.
Qed.
Theorem C135_keysend_lost_refuted : ~ (forall grant print a pk pre tlv h r x h', a <> 0 -> holds h [] -> pay_keysend_m grant print a pk pre tlv h = Ok ((r, x), h') -> h_live h' = text_block r).
Proof.
  intros H.
  assert (E : exists r x h', pay_keysend_m (fun k => negb (k =? 7)%nat) size_of 5 (bs "02aa") None [bs "7"; bs "61"] (mkHeap 0 []) = Ok ((r, x), h') /\ h_live h' <> text_block r)
    by (do 3 eexists; split; [vm_compute; reflexivity|discriminate]).
  destruct E as (r & x & h' & E & D). apply D. refine (H _ _ _ _ _ _ _ r x h' _ start_holds E). discriminate.
Qed.
Example C135_meets : exists h', multi_pay_m (fun _ => true) jprint [(Some (bs "a"), bs "lnbc1", 7); (None, bs "ln""x", 0)] (mkHeap 3 [1%nat]) =
  Ok ((Some (19%nat, bs "{""invoices"":[{""id"":""a"",""invoice"":""lnbc1"",""amount"":7},{""invoice"":""ln\""x""}]}"), None), h') /\ h_live h' = [19; 1]%nat.
Proof. eexists. split; vm_compute; reflexivity. Qed.

(** ** C134: what the wallet reads *)
Lemma hexdig_is c x : HexSpec.hexdig c x -> hexdigit_is c x.
Proof.
  intros K. assert (L : x < 16).
  { assert (Y : forall u, length u = 16%nat -> nth_error u (N.to_nat x) = Some c -> x < 16) by (intros u U V; assert (N.to_nat x < length u)%nat by (apply nth_error_Some; congruence); lia).
    destruct K as [K|K]; apply Y in K; auto. }
  assert (B : exists k, x = N.of_nat k /\ (k < 16)%nat) by (exists (N.to_nat x); lia). destruct B as (k & -> & B). unfold HexSpec.hexdig in K. rewrite Nat2N.id in K. clear L.
  do 16 (destruct k as [|k]; [cbn in K; destruct K as [K|K]; injection K as <-; first [exact (HexNum _ ltac:(discriminate))|apply (HexLow 10); lia|apply (HexLow 11); lia|apply (HexLow 12); lia|apply (HexLow 13); lia|apply (HexLow 14); lia|apply (HexLow 15); lia
    |apply (HexUp 10); lia|apply (HexUp 11); lia|apply (HexUp 12); lia|apply (HexUp 13); lia|apply (HexUp 14); lia|apply (HexUp 15); lia
    |apply (HexNum 0); lia|apply (HexNum 1); lia|apply (HexNum 2); lia|apply (HexNum 3); lia|apply (HexNum 4); lia|apply (HexNum 5); lia|apply (HexNum 6); lia|apply (HexNum 7); lia|apply (HexNum 8); lia|apply (HexNum 9); lia]|]). lia.
Qed.
Lemma jstring_text t v : jstring t v -> cstr_ok v -> str_text v t.
Proof.
  induction 1 as [|c t v A B C _ IH|c x t v S _ IH|a b c d x y t v -> -> HC HD X _ IH]; intros O.
  - constructor.
  - apply Forall_cons_iff in O as (O & O'). constructor; auto.
  - apply Forall_cons_iff in O as (O & O'). apply StrEscape; [exact S|auto].
  - apply Forall_cons_iff in O as (O & O'). pose proof O as [P _]. apply hexdig_is in HC, HD.
    pose proof (proj2 (hexval_is _ _ HD)) as Y. apply (StrUnit [48; 48; c; d] (x * 16 + y) [x * 16 + y]).
    + exists 48, 48, c, d, 0, 0, x, y. split; [reflexivity|]. split; [apply (HexNum 0); lia|]. split; [apply (HexNum 0); lia|]. split; [exact HC|]. split; [exact HD|lia].
    + exact P.
    + lia.
    + left. split; [lia|reflexivity].
    + auto.
Qed.
Lemma key_text k : forallb (fun c => (32 <=? c) && negb (c =? 34) && negb (c =? 92)) k = true -> str_text k k.
Proof. apply plain_text. Qed.
Lemma request_text method e params s : str_text method e -> json_text params s ->
  json_text (request_of method params) (bs "{""method"":""" ++ e ++ bs """,""params"":" ++ s ++ bs "}").
Proof.
  intros M (w1 & x & w2 & W1 & T & W2 & ->). apply text_alone.
  pose proof (TxObj _ _ (MbMore (bs "method") (JStr method) _ [] (bs "method") [] [] (34 :: e ++ [34]) [] _ ws_nil (key_text (bs "method") eq_refl) ws_nil ws_nil (TxStr _ _ M) ws_nil
    (MbOne (bs "params") params [] (bs "params") [] w1 x w2 ws_nil (key_text (bs "params") eq_refl) ws_nil W1 T W2))) as R.
  unfold request_of. revert R. cbn [app]. flat. exact (fun R => R).
Qed.
Lemma flat_esc s : (length (flat_map esc s) <= 6 * length s)%nat.
Proof. induction s as [|c s IH]; [cbn; lia|]. cbn [flat_map length]. rewrite app_length. pose proof (esc_length c). lia. Qed.
Lemma payload_text print parse method params s : json_library print parse -> json_text params s -> depth params <= 999 -> cstr_ok method ->
  (length method <= 42)%nat -> N.of_nat (length s) + 6 * N.of_nat (length method) <= 8167 ->
  exists p, payload parse method s = Ok p /\ json_text (request_of method params) p /\ N.of_nat (length p) <= 8191.
Proof.
  intros [_ PA] J D O L B. unfold payload. rewrite (PA _ _ J) by lia.
  destruct (C39_recover 256 method ltac:(lia)) as (JS & _). set (e := fst (json_escape 256 method)) in *.
  assert (LE : (length e <= 6 * length method)%nat).
  { subst e. rewrite json_escape_fits by (pose proof (flat_esc method); lia). apply flat_esc. }
  set (x := bs "{""method"":""" ++ e ++ bs """,""params"":" ++ s ++ bs "}").
  assert (LX : N.of_nat (length x) <= 8190).
  { subst x. rewrite !app_length. change (length (bs "{""method"":""")) with 11%nat. change (length (bs """,""params"":")) with 11%nat. change (length (bs "}")) with 1%nat. lia. }
  exists x. split; [|split; [|lia]].
  - change [x] with ([] ++ [x]). rewrite (build_written 8192 [] x (N.of_nat (length x)) eq_refl eq_refl). cbn [concat app]. apply written_fits; [reflexivity|]. lia.
  - apply request_text; [apply jstring_text; assumption|exact J].
Qed.
(** Any parameters, in any layout, with a short method name and within the buffer. *)
Theorem C134_payload_partial : forall print parse method params s, json_library print parse -> json_text params s -> depth params <= 999 -> cstr_ok method ->
  (length method <= 42)%nat -> N.of_nat (length s) + 6 * N.of_nat (length method) <= 8167 ->
  exists p, payload parse method s = Ok p /\ parse p = Some (request_of method params).
Proof.
  intros print parse method params s LB J D O L B. destruct (payload_text _ _ _ _ _ LB J D O L B) as (p & E & T & _). exists p. split; [exact E|].
  apply (lib_parse _ _ LB _ _ T). unfold request_of. cbn [depth fold_right snd]. lia.
Qed.

Lemma jint_small z : small z -> jint z = JNum (JFin z 0).
Proof. intros L. unfold jint. rewrite round53_small; [reflexivity|]. unfold small in L. lia. Qed.
Lemma few_small n : few n -> small (Z.of_N n).
Proof. unfold few, small. lia. Qed.
Lemma may_same {A} key (x : option A) f g : (forall a, x = Some a -> f a = g a) -> may key x f = may key x g.
Proof. destruct x as [a|]; [|reflexivity]. intros E. cbn [may]. rewrite (E a eq_refl). reflexivity. Qed.
Lemma params_exact rq : sendable rq -> params_with jint rq = params_of rq.
Proof.
  assert (NF : forall a, few a -> nat_number jint a = nat_number (fun z => JNum (JFin z 0)) a) by (intros a F; apply jint_small, few_small, F).
  unfold params_of. destruct rq as [i a| | |a d s e|f u l o p t|s i|a pk pre tlv|l]; cbn [sendable params_with]; intros S; try reflexivity.
  - destruct S as (_ & A). rewrite (may_same _ a _ _ (fun x E => NF x (A x E))). reflexivity.
  - destruct S as (A & _ & _ & X). rewrite (NF _ A), (may_same _ e _ _ (fun x E => NF x (X x E))). reflexivity.
  - destruct S as (F & U & L & O & _). rewrite (may_same _ f _ _ (fun x E => jint_small x (F x E))), (may_same _ u _ _ (fun x E => jint_small x (U x E))), (may_same _ l _ _ (fun x E => NF x (L x E))), (may_same _ o _ _ (fun x E => NF x (O x E))). reflexivity.
  - destruct S as (A & _ & _ & T). rewrite (NF _ A). rewrite (may_same (bs "tlv_records") tlv _ (fun l => JArr (map (tlv_tree (fun z => JNum (JFin z 0))) l))); [reflexivity|].
    intros l E. specialize (T l E). f_equal. apply map_ext_in. intros x I. rewrite Forall_forall in T. destruct (T x I) as (Z & _). unfold tlv_tree. rewrite (jint_small _ Z). reflexivity.
  - f_equal. f_equal. f_equal. f_equal. apply map_ext_in. intros x I. rewrite Forall_forall in S. destruct (S x I) as (_ & _ & F). destruct x as [[id i] m]. cbn [snd] in F. unfold invoice_tree. rewrite (NF _ F). reflexivity.
Qed.
Definition fine (p : list N * json) : Prop := cstr_ok (fst p) /\ writable (snd p).
Lemma may_fine {A} key (x : option A) f : cstr_ok key -> (forall a, x = Some a -> writable (f a)) -> Forall fine (may key x f).
Proof. intros K W. destruct x as [a|]; cbn [may]; [|constructor]. constructor; [split; [exact K|apply W; reflexivity]|constructor]. Qed.
Lemma params_writable rq : sendable rq -> writable (params_of rq).
Proof.
  assert (NW : forall a, few a -> writable (nat_number (fun z => JNum (JFin z 0)) a)) by (intros a F; apply WNum, (few_small _ F)).
  assert (ZW : forall a, small a -> writable (JNum (JFin a 0))) by (intros a F; apply WNum, F).
  assert (ONE : forall k j, forallb (fun c => (0 <? c) && (c <? 256)) k = true -> writable j -> Forall fine [(k, j)]) by (intros k j K J; constructor; [split; [apply cstr_dec, K|exact J]|constructor]).
  unfold params_of. destruct rq as [i a| | |a d s e|f u l o p t|s i|a pk pre tlv|l]; cbn [sendable params_with]; intros S; apply WObj.
  - destruct S as (I & A). apply Forall_app. split; [apply ONE; [reflexivity|apply WStr, I]|]. apply may_fine; [apply cstr_dec; reflexivity|auto].
  - constructor.
  - constructor.
  - destruct S as (A & D & H & X). apply Forall_app. split; [apply ONE; [reflexivity|auto]|]. apply Forall_app. split; [apply may_fine; [apply cstr_dec; reflexivity|intros x E; apply WStr; auto]|].
    apply Forall_app. split; [apply may_fine; [apply cstr_dec; reflexivity|intros x E; apply WStr; auto]|]. apply may_fine; [apply cstr_dec; reflexivity|auto].
  - destruct S as (F & U & L & O & T). repeat (apply Forall_app; split); apply may_fine; try (apply cstr_dec; reflexivity); auto; [intros b _; apply WBool|intros x E; apply WStr; auto].
  - destruct S as (H & I). apply Forall_app. split; apply may_fine; try (apply cstr_dec; reflexivity); intros x E; apply WStr; auto.
  - destruct S as (A & K & P & T). apply Forall_app. split; [apply (Forall_app _ [_] [_]); split; apply ONE; try reflexivity; auto; apply WStr, K|]. apply Forall_app. split; [apply may_fine; [apply cstr_dec; reflexivity|intros x E; apply WStr; auto]|].
    apply may_fine; [apply cstr_dec; reflexivity|]. intros l E. specialize (T l E). apply WArr, Forall_map. revert T. apply Forall_impl. intros x (Z & V). apply WObj. apply (Forall_app _ [_] [_]). split; apply ONE; try reflexivity; auto. apply WStr, V.
  - apply ONE; [reflexivity|]. apply WArr, Forall_map. revert S. apply Forall_impl. intros [[id i] m] (I & V & F). cbn [fst snd] in *. apply WObj. apply Forall_app. split; [apply may_fine; [apply cstr_dec; reflexivity|intros x E; apply WStr; auto]|].
    apply Forall_app. split; [apply ONE; [reflexivity|apply WStr, V]|]. destruct (m =? 0); [constructor|apply ONE; [reflexivity|auto]].
Qed.
(** Shallow trees *)
Lemma depth_obj l k : Forall (fun p => depth (snd p) <= k) l -> depth (JObj l) <= 1 + k.
Proof. intros F. cbn [depth]. assert (fold_right (fun p m => N.max (depth (snd p)) m) 0 l <= k); [|lia]. induction F as [|p l A _ IH]; cbn [fold_right]; lia. Qed.
Lemma depth_arr l k : Forall (fun j => depth j <= k) l -> depth (JArr l) <= 1 + k.
Proof. intros F. cbn [depth]. assert (fold_right (fun p m => N.max (depth p) m) 0 l <= k); [|lia]. induction F as [|p l A _ IH]; cbn [fold_right]; lia. Qed.
Lemma may_depth {A} key (x : option A) f k : (forall a, depth (f a) <= k) -> Forall (fun p => depth (snd p) <= k) (may key x f).
Proof. intros W. destruct x as [a|]; cbn [may]; [|constructor]. constructor; [apply W|constructor]. Qed.
Lemma params_depth rq : depth (params_of rq) <= 3.
Proof.
  assert (Z2 : forall z, depth (JNum (JFin z 0)) <= 2) by (intros; cbn; lia). assert (S2 : forall s, depth (JStr s) <= 2) by (intros; cbn; lia). assert (B2 : forall s, depth (JBool s) <= 2) by (intros; cbn; lia).
  unfold params_of. destruct rq as [i a| | |a d s e|f u l o p t|s i|a pk pre tlv|l]; cbn [params_with]; apply (depth_obj _ 2).
  - apply Forall_app. split; [constructor; [apply S2|constructor]|apply may_depth; intros; apply Z2].
  - constructor.
  - constructor.
  - apply Forall_app. split; [constructor; [apply Z2|constructor]|]. repeat (apply Forall_app; split); apply may_depth; auto. intros; apply Z2.
  - repeat (apply Forall_app; split); apply may_depth; auto; intros; apply Z2.
  - apply Forall_app; split; apply may_depth; auto.
  - apply Forall_app. split; [constructor; [apply Z2|constructor; [apply S2|constructor]]|]. apply Forall_app. split; apply may_depth; auto.
    intros t. apply (depth_arr _ 1). apply Forall_map, Forall_forall. intros x _. apply (depth_obj _ 0). constructor; [cbn; lia|]. constructor; [cbn; lia|constructor].
  - constructor; [|constructor]. cbn [snd]. apply (depth_arr _ 1). apply Forall_map, Forall_forall. intros [[id i] m] _. unfold invoice_tree. apply (depth_obj _ 0). apply Forall_app. split; [apply may_depth; intros; cbn; lia|].
    constructor; [cbn; lia|]. destruct (m =? 0); [constructor|]. constructor; [cbn; lia|constructor].
Qed.
Lemma asked_text grant print parse rq m h rest : json_library print parse -> (forall k, grant k = true) -> call grant print rq m -> proper rq -> sendable rq -> holds h rest ->
  exists b s h', m h = Ok ((Some (b, s), None), h') /\ json_text (params_of rq) s.
Proof.
  intros L G C P SE X. assert (GR : forall h', granted grant h h') by (intros h' k _; apply G).
  destruct C as [C|[C|C]].
    - destruct (C135_kept _ _ _ _ _ _ C P X) as (r & x & h' & E & [_ _ AL _ _]). destruct (AL (GR h')) as (_ & -> & b & ->). exists b. eexists. exists h'. split; [exact E|].
      rewrite (params_exact _ SE). apply text_alone, (lib_print _ _ L), params_writable, SE.
    - destruct (C135_partial _ _ _ _ _ _ C P X) as (r & x & h' & lost & E & [_ _ AL _ _]). destruct (AL (GR h')) as (_ & -> & b & ->). exists b. eexists. exists h'. split; [exact E|].
      rewrite (params_exact _ SE). apply text_alone, (lib_print _ _ L), params_writable, SE.
    - destruct (C135_empty _ _ _ _ _ C X) as (r & x & h' & E & _ & [(-> & b & s & -> & J)|(_ & _ & NG)]); [|destruct (NG (GR h'))]. exists b, s, h'. auto.
Qed.
(** Asked through the library, with memory: the text reads as the parameters of NIP-47,
    and put into a request it reads as method and parameters. *)
Theorem C134_asked_partial : forall grant print parse rq m h rest, json_library print parse -> (forall k, grant k = true) -> call grant print rq m -> proper rq -> sendable rq -> holds h rest ->
  exists b s h', m h = Ok ((Some (b, s), None), h') /\ parse s = Some (params_of rq) /\
  forall method, cstr_ok method -> (length method <= 42)%nat -> N.of_nat (length s) + 6 * N.of_nat (length method) <= 8167 ->
  exists p, payload parse method s = Ok p /\ parse p = Some (request_of method (params_of rq)).
Proof.
  intros grant print parse rq m h rest L G C P SE X.
  pose proof (asked_text _ _ _ _ _ _ _ L G C P SE X) as A.
  destruct A as (b & s & h' & E & J). exists b, s, h'. split; [exact E|]. pose proof (params_depth rq). split; [apply (lib_parse _ _ L _ _ J); lia|].
  intros method O LM B. apply (C134_payload_partial print parse method (params_of rq) s L J ltac:(lia) O LM B).
Qed.
(** TLV types given in decimal are the numbers meant. *)
Theorem C134_type : forall n, n < 2 ^ 63 -> fst (strtoll (dec_N n)) = Z.of_N n.
Proof. intros n L. rewrite <- (app_nil_r (dec_N n)), strtoll_dec by (exact I || exact L). reflexivity. Qed.
(** The event: addressed to the wallet, from the key of the secret, and whoever decrypts
    its content reads the request. *)
Theorem C134_event_partial : forall print parse derive encrypt conn method params s now e, json_library print parse -> json_text params s -> depth params <= 999 -> cstr_ok method ->
  (length method <= 42)%nat -> N.of_nat (length s) + 6 * N.of_nat (length method) <= 8167 ->
  request parse derive encrypt conn method s true now = Ok e ->
  exists p c, parse p = Some (request_of method params) /\ encrypt (nw_secret conn) (nw_service conn) p = Ok c /\ ev_content e = Some c /\
  derive (nw_secret conn) = Some (ev_pubkey e) /\ ev_kind e = 23194 /\ ev_created e = now /\
  ev_tags e = [[bs "p"; hex_encode (nw_service conn)]; [bs "encryption"; bs "nip44_v2"]].
Proof.
  intros print parse derive encrypt conn method params s now e L J D O LM B R. destruct (C134_payload_partial _ _ _ _ _ L J D O LM B) as (p & E & PR).
  unfold request in R. destruct (derive (nw_secret conn)) as [pk|]; [|discriminate]. rewrite E in R. cbn [bind] in R. destruct (encrypt _ _ p) as [c| |] eqn:EN; try discriminate. cbn [bind] in R.
  assert (e = mkEvent (repeat 0 32) pk now 23194 [[bs "p"; hex_encode (nw_service conn)]; [bs "encryption"; bs "nip44_v2"]] (Some c) (repeat 0 64)) as -> by congruence.
  exists p, c. repeat (split; [solve [assumption|reflexivity]|]). reflexivity.
Qed.

(** ** Builds without cJSON *)
(** Strings written as they are: no quote, backslash or control character. *)
Definition plain_string (s : list N) : Prop := Forall (fun c => 32 <= c /\ c <> 34 /\ c <> 92) s.
Lemma plain_str s : plain_string s -> str_text s s.
Proof. induction 1 as [|c s (A & B & C) _ IH]; constructor; assumption. Qed.
Definition field_is (p : list N * json) (f : list N) : Prop := exists s, f = jfield (fst p) s /\ str_text (fst p) (fst p) /\ text (snd p) s.
Lemma object_text l fs : Forall2 field_is l fs -> text (JObj l) (jobject fs).
Proof.
  intros F. destruct F as [|p f l fs P F]; [exact (TxObj0 [] ws_nil)|].
  assert (M : members (p :: l) (joined 44 (f :: fs))).
  { revert p f P. induction F as [|q g l fs Q F IH]; intros p f (s & -> & K & T); destruct p as [k j]; cbn [fst snd] in *.
    - pose proof (MbOne k j [] k [] [] s [] ws_nil K ws_nil ws_nil T ws_nil) as M. cbn [joined]. unfold jfield. revert M. cbn [app bs ch]. rewrite ?app_nil_r. flat. exact (fun M => M).
    - pose proof (MbMore k j _ [] k [] [] s [] _ ws_nil K ws_nil ws_nil T ws_nil (IH q g Q)) as M. set (r := joined 44 (g :: fs)) in *. change (joined 44 (jfield k s :: g :: fs)) with (jfield k s ++ 44 :: r). clearbody r. unfold jfield. revert M. cbn [app bs ch]. flat. exact (fun M => M). }
  unfold jobject. set (r := joined 44 (f :: fs)) in *. clearbody r. pose proof (TxObj _ _ M) as T. exact T.
Qed.
Lemma array_text js ts : Forall2 text js ts -> text (JArr js) (jarray ts).
Proof.
  intros F. destruct F as [|j t js ts J F]; [exact (TxArr0 [] ws_nil)|].
  assert (M : elems (j :: js) (joined 44 (t :: ts))).
  { revert j t J. induction F as [|q g js ts Q F IH]; intros j t J.
    - pose proof (ElOne j [] t [] ws_nil J ws_nil) as M. cbn [app] in M. rewrite app_nil_r in M. exact M.
    - exact (ElMore j _ [] t [] _ ws_nil J ws_nil (IH q g Q)). }
  exact (TxArr _ _ M).
Qed.
Lemma field_one k j s : forallb (fun c => (32 <=? c) && negb (c =? 34) && negb (c =? 92)) k = true -> text j s -> field_is (k, j) (jfield k s).
Proof. intros K T. exists s. split; [reflexivity|]. split; [apply key_text, K|exact T]. Qed.
Lemma field_may {A} k (x : option A) f g : forallb (fun c => (32 <=? c) && negb (c =? 34) && negb (c =? 92)) k = true -> (forall a, x = Some a -> text (f a) (g a)) ->
  Forall2 field_is (may k x f) (opt x (fun a => jfield k (g a))).
Proof. intros K T. destruct x as [a|]; cbn [may opt]; [|constructor]. constructor; [apply field_one; auto|constructor]. Qed.
Lemma number_text z : small z -> text (JNum (JFin z 0)) (dec_Z z).
Proof. intros L. rewrite <- (jint_small _ L). constructor. unfold small in L. lia. Qed.
Lemma count_text n : few n -> text (nat_number (fun z => JNum (JFin z 0)) n) (dec_N n).
Proof.
  intros F. pose proof (number_text _ (few_small _ F)) as T. destruct n; exact T.
Qed.
Lemma quoted_plain s : plain_string s -> text (JStr s) (jquoted s).
Proof. intros P. exact (TxStr _ _ (plain_str _ P)). Qed.
(** What the own builder writes, for strings that need no escape (for the first two,
    escaped): JSON for the parameters of NIP-47. *)
Theorem C134_own_pay_partial : forall i a, cstr_ok i -> if_given few a -> (6 * length i <= 4000)%nat -> exists out, pay_invoice_params i a = Ok out /\ json_text (params_of (PayInvoice i a)) out.
Proof.
  intros i a C F L. rewrite C40_pay_invoice. destruct (C39_recover (N.to_nat 4096) i ltac:(lia)) as (J & _).
  assert (LE : (length (fst (json_escape (N.to_nat 4096) i)) <= 6 * length i)%nat) by (rewrite json_escape_fits by (pose proof (flat_esc i); lia); apply flat_esc).
  set (e := fst (json_escape (N.to_nat 4096) i)) in *. eexists. split; [reflexivity|].
  assert (T : text (params_of (PayInvoice i a)) (text_pay_invoice e a)).
  { apply object_text. apply Forall2_app; [constructor; [|constructor]|].
    - apply field_one; [reflexivity|]. exact (TxStr _ _ (jstring_text _ _ J C)).
    - apply field_may; [reflexivity|]. intros x E. apply count_text, F, E. }
  rewrite firstn_all2; [apply text_alone, T|].
  assert (LA : forall x, a = Some x -> (length (dec_N x) <= 20)%nat).
  { intros x E. specialize (F x E). apply dec_N_length20. unfold few in F. lia. }
  unfold text_pay_invoice, jobject, jfield, jquoted. destruct a as [x|]; cbn [opt app joined]; repeat (rewrite ?app_length; cbn [length bs]); [pose proof (LA x eq_refl)|]; lia.
Qed.
(** The strings of the others are not escaped. *)
Definition plain_asks (r : asks) : Prop :=
  match r with
  | ListTransactions _ _ _ _ _ t => if_given plain_string t
  | LookupInvoice h i => if_given plain_string h /\ if_given plain_string i
  | PayKeysend _ pk pre tlv => plain_string pk /\ if_given plain_string pre /\ if_given (Forall (fun x => plain_string (snd x))) tlv
  | MultiPayInvoice l => Forall (fun x => if_given plain_string (fst (fst x)) /\ plain_string (snd (fst x))) l
  | _ => True
  end.
Definition own_text (r : asks) : list N :=
  match r with
  | PayInvoice _ _ | MakeInvoice _ _ _ _ | GetBalance | GetInfo => []
  | ListTransactions f u l o p t => text_list_transactions f u l o p t
  | LookupInvoice h i => text_lookup_invoice h i
  | PayKeysend a pk pre tlv => text_pay_keysend a pk pre (option_map (map (fun x => (dec_Z (fst x), snd x))) tlv)
  | MultiPayInvoice l => text_multi_pay l
  end.
Inductive own_call : asks -> res (list N) -> Prop :=
| OwnList f u l o p t : own_call (ListTransactions f u l o p t) (list_transactions_params f u l o p t)
| OwnLookup h i : own_call (LookupInvoice h i) (lookup_invoice_params h i)
| OwnKeysend a pk pre : own_call (PayKeysend a pk pre None) (pay_keysend_params a pk pre [])
| OwnKeysendTlv a pk pre tlv m : tlv <> [] -> pairs tlv (map (fun x => (dec_Z (fst x), snd x)) m) -> own_call (PayKeysend a pk pre (Some m)) (pay_keysend_params a pk pre tlv)
| OwnMulti l : own_call (MultiPayInvoice l) (multi_pay_params l).
Theorem C134_own_partial : forall rq out, own_call rq out -> proper rq -> sendable rq -> plain_asks rq -> N.of_nat (length (own_text rq)) < 4096 ->
  exists s, out = Ok s /\ json_text (params_of rq) s.
Proof.
  intros rq out C P S PL L. destruct C40_fits_partial as (FL & FK & FS & FT & FM).
  assert (K : out = Ok (own_text rq) /\ text (params_of rq) (own_text rq)); [|destruct K as (-> & T); eexists; split; [reflexivity|apply text_alone, T]].
  destruct C as [f u l o p t|h i|a pk pre|a pk pre tlv m NT PR|l]; cbn [proper sendable plain_asks own_text option_map] in *.
  - split; [apply FL, L|]. destruct S as (SF & SU & SL & SO & _). apply object_text.
    repeat apply Forall2_app; apply field_may; try reflexivity; intros x E; [apply number_text|apply number_text|apply count_text|apply count_text|destruct x; constructor|apply quoted_plain]; auto.
  - split; [apply FK; assumption|]. destruct PL as (PH & PI). apply object_text. apply Forall2_app; apply field_may; try reflexivity; intros x E; apply quoted_plain; auto.
  - split; [apply FS; [exact P|lia]|]. destruct S as (SA & _), PL as (PP & PR & _). apply object_text. apply Forall2_app; [|apply Forall2_app].
    + constructor; [apply field_one; [reflexivity|apply count_text, SA]|]. constructor; [apply field_one; [reflexivity|apply quoted_plain, PP]|constructor].
    + apply field_may; [reflexivity|]. intros x E. apply quoted_plain; auto.
    + constructor.
  - split; [apply FT; [exact P|exact NT|exact PR|lia]|]. destruct S as (SA & _ & _ & ST), PL as (PP & PE & PT). specialize (ST m eq_refl). specialize (PT m eq_refl). apply object_text. apply Forall2_app; [|apply Forall2_app].
    + constructor; [apply field_one; [reflexivity|apply count_text, SA]|]. constructor; [apply field_one; [reflexivity|apply quoted_plain, PP]|constructor].
    + apply field_may; [reflexivity|]. intros x E. apply quoted_plain; auto.
    + constructor; [|constructor]. apply field_one; [reflexivity|]. apply array_text. rewrite map_map. clear -ST PT. induction m as [|[z v] m IH]; [constructor|].
      apply Forall_cons_iff in ST as ((SZ & _) & ST). apply Forall_cons_iff in PT as (PV & PT). constructor; [|auto]. cbn [fst snd] in *. apply object_text.
      constructor; [apply field_one; [reflexivity|apply number_text, SZ]|]. constructor; [apply field_one; [reflexivity|apply quoted_plain, PV]|constructor].
  - split; [apply FM; [exact P|lia]|]. apply object_text. constructor; [|constructor]. apply field_one; [reflexivity|]. apply array_text. clear -S PL. induction l as [|[[id i] n] l IH]; [constructor|].
    apply Forall_cons_iff in S as ((_ & _ & F) & S). apply Forall_cons_iff in PL as ((PI & PV) & PL). constructor; [|auto]. cbn [fst snd] in *. apply object_text. apply Forall2_app; [|apply Forall2_app].
    + apply field_may; [reflexivity|]. intros x E. apply quoted_plain; auto.
    + constructor; [|constructor]. apply field_one; [reflexivity|apply quoted_plain, PV].
    + destruct (N.eqb_spec n 0) as [->|NZ]; [constructor|]. rewrite (proj2 (N.ltb_lt 0 n)) by lia. constructor; [|constructor]. apply field_one; [reflexivity|apply count_text, F].
Qed.
(** Without that a lookup for one hash is a lookup for a hash and an invoice. *)
Theorem C134_own_refuted : ~ (forall rq out s t, own_call rq out -> proper rq -> sendable rq -> N.of_nat (length (own_text rq)) < 4096 -> out = Ok s -> jparse s = Some t -> t = params_of rq).
Proof.
  intros H. set (rq := LookupInvoice (Some (bs "a"",""invoice"":""b")) None).
  assert (X : jparse (bs "{""payment_hash"":""a"",""invoice"":""b""}") = Some (JObj [(bs "payment_hash", JStr (bs "a")); (bs "invoice", JStr (bs "b"))])) by (vm_compute; reflexivity).
  assert (Y : JObj [(bs "payment_hash", JStr (bs "a")); (bs "invoice", JStr (bs "b"))] = params_of rq); [|discriminate Y].
  refine (H rq _ (bs "{""payment_hash"":""a"",""invoice"":""b""}") _ (OwnLookup _ _) _ _ _ eq_refl X).
  - left. discriminate.
  - split; [intros a E; injection E as <-; apply cstr_dec; reflexivity|discriminate].
  - reflexivity.
Qed.

(** ** Refuted *)
Lemma payload_is parse m s t : parse s = Some t -> payload parse m s = Ok (firstn (N.to_nat 8191) (bs "{""method"":""" ++ fst (json_escape 256 m) ++ bs """,""params"":" ++ s ++ bs "}")).
Proof.
  intros E. unfold payload. rewrite E. set (x := bs "{""method"":""" ++ _). clearbody x. change [x] with ([] ++ [x]). rewrite (build_written 8192 [] x (N.of_nat (length x)) eq_refl eq_refl).
  unfold written. cbn [concat app]. rewrite (proj2 (N.ltb_ge _ _)) by lia. replace (N.to_nat 8192 - 1)%nat with (N.to_nat 8191) by lia. reflexivity.
Qed.
(** Parameters of many bytes: the text is cut without an error, and two requests are the same. *)
Theorem C134_cut_refuted : ~ (forall print parse method params s, json_library print parse -> json_text params s -> depth params <= 999 -> cstr_ok method ->
  (length method <= 42)%nat -> exists p, payload parse method s = Ok p /\ parse p = Some (request_of method params)).
Proof.
  intros H. pose (v := repeat 97 (N.to_nat 9000)).
  assert (LV : length v = N.to_nat 9000) by apply repeat_length.
  assert (CV : cstr_ok v) by (apply Forall_forall; intros c C; apply repeat_spec in C; subst c; split; reflexivity).
  assert (EV : escape_json v = v).
  { subst v. clear. induction (N.to_nat 9000) as [|n IH]; [reflexivity|]. cbn [repeat]. change (escape_json (97 :: ?x)) with (97 :: escape_json x). rewrite IH. reflexivity. }
  clearbody v.
  assert (K : forall w, cstr_ok w -> json_text (JArr [JStr (v ++ w)]) (91 :: 34 :: v ++ escape_json w ++ [34; 93])).
  { intros w W. apply text_alone. assert (E : escape_json (v ++ w) = v ++ escape_json w) by (unfold escape_json in *; rewrite flat_map_app, EV; reflexivity).
    pose proof (TxArr _ _ (ElOne (JStr (v ++ w)) [] _ [] ws_nil (TxStr _ _ (escaped_text (v ++ w) (proj2 (Forall_app _ _ _) (conj CV W)))) ws_nil)) as T. rewrite E in T. revert T. flat. exact (fun T => T). }
  assert (R : forall w, cstr_ok w -> exists p, payload jparse [] (91 :: 34 :: v ++ escape_json w ++ [34; 93]) = Ok p /\ jparse p = Some (request_of [] (JArr [JStr (v ++ w)]))).
  { intros w W. refine (H jprint jparse [] _ _ compact_library (K w W) _ _ _); [cbn; lia|constructor|cbn; lia]. }
  assert (O : cstr_ok [98]) by (apply cstr_dec; reflexivity).
  destruct (R [] (Forall_nil _)) as (p & E & P). destruct (R [98] O) as (q & E' & P').
  assert (S : forall w, cstr_ok w -> payload jparse [] (91 :: 34 :: v ++ escape_json w ++ [34; 93]) = Ok (firstn (N.to_nat 8191) (bs "{""method"":"""",""params"":[""" ++ v))).
  { intros w W. rewrite (payload_is _ _ _ _ (lib_parse _ _ compact_library _ _ (K w W) ltac:(cbn; lia))). f_equal. change (fst (json_escape 256 [])) with (@nil N).
    transitivity (firstn (N.to_nat 8191) ((bs "{""method"":"""",""params"":[""" ++ v) ++ (escape_json w ++ [34; 93]) ++ bs "}")).
    - f_equal. rewrite <- !app_assoc. cbn [app bs ch]. rewrite <- !app_assoc. cbn [app]. rewrite <- ?app_assoc. reflexivity.
    - rewrite firstn_app, (app_length _ v), LV. replace (N.to_nat 8191 - _)%nat with 0%nat by lia. cbn [firstn]. rewrite app_nil_r. reflexivity. }
  assert (Q : p = q).
  { pose proof (S [] (Forall_nil _)) as A. pose proof (S [98] O) as B. congruence. }
  subst q. assert (X : request_of [] (JArr [JStr (v ++ [])]) = request_of [] (JArr [JStr (v ++ [98])])) by congruence. unfold request_of in X.
  assert (Y : v ++ [] = v ++ [98]) by congruence. apply app_inv_head in Y. discriminate Y.
Qed.
(** A method name of many bytes is cut. *)
Theorem C134_method_refuted : ~ (forall print parse method params s, json_library print parse -> json_text params s -> depth params <= 999 -> cstr_ok method ->
  N.of_nat (length s) + 6 * N.of_nat (length method) <= 8167 -> exists p, payload parse method s = Ok p /\ parse p = Some (request_of method params)).
Proof.
  intros H. specialize (H jprint jparse (repeat 97 256) (JObj []) (bs "{}") compact_library).
  assert (E : exists p, payload jparse (repeat 97 256) (bs "{}") = Ok p /\ jparse p = Some (request_of (repeat 97 255) (JObj []))) by (eexists; split; [vm_compute; reflexivity|vm_compute; reflexivity]).
  destruct E as (p & E & P). destruct H as (q & E' & P').
  - apply text_alone. exact (TxObj0 [] ws_nil).
  - cbn. lia.
  - apply cstr_dec. reflexivity.
  - cbn. lia.
  - assert (q = p) by congruence. subst q. rewrite P in P'. discriminate P'.
Qed.
(** Only the beginning of the parameters is checked: what follows becomes part of the
    request, here a second method. *)
Theorem C134_tail_refuted : ~ (forall print parse method params s p, json_library print parse -> parse s = Some params -> cstr_ok method -> (length method <= 42)%nat ->
  N.of_nat (length s) + 6 * N.of_nat (length method) <= 8167 -> payload parse method s = Ok p -> parse p = Some (request_of method params)).
Proof.
  intros H. specialize (H jprint jparse (bs "get_balance") (JObj []) (bs "{},""method"":""pay_keysend""")).
  specialize (H (bs "{""method"":""get_balance"",""params"":{},""method"":""pay_keysend""}") compact_library).
  assert (X : jparse (bs "{""method"":""get_balance"",""params"":{},""method"":""pay_keysend""}") = Some (JObj [(bs "method", JStr (bs "get_balance")); (bs "params", JObj []); (bs "method", JStr (bs "pay_keysend"))])) by (vm_compute; reflexivity).
  rewrite X in H. discriminate H.
  - vm_compute. reflexivity.
  - apply cstr_dec. reflexivity.
  - cbn. lia.
  - vm_compute. discriminate.
  - vm_compute. reflexivity.
Qed.
(** Amounts go through a double: two different amounts make the same request. *)
Theorem C134_amount_refuted : ~ (forall grant print i a a' h r h', a < 2 ^ 64 -> a' < 2 ^ 64 ->
  pay_invoice_m grant print i (Some a) h = Ok (r, h') -> pay_invoice_m grant print i (Some a') h = Ok (r, h') -> a = a').
Proof.
  intros H. assert (E : 9007199254740993 = 9007199254740992); [|discriminate E].
  assert (S : forall a, exists r h', pay_invoice_m (fun _ => true) size_of [] (Some a) (mkHeap 0 []) = Ok (r, h')).
  { intros a. destruct (C135_kept (fun _ => true) size_of _ _ (mkHeap 0 []) [] (CallPay _ _ [] (Some a)) I start_holds) as (r & x & h' & E & _). eauto. }
  assert (J : pay_invoice_m (fun _ => true) size_of [] (Some 9007199254740993) = pay_invoice_m (fun _ => true) size_of [] (Some 9007199254740992)).
  { unfold pay_invoice_m, add_opt, num. assert (R : jint (Z.of_N 9007199254740993) = jint (Z.of_N 9007199254740992)) by (vm_compute; reflexivity). rewrite R. reflexivity. }
  destruct (S 9007199254740992) as (r & h' & E). apply (H (fun _ => true) size_of [] _ _ (mkHeap 0 []) r h'); [reflexivity|reflexivity|rewrite J; exact E|exact E].
Qed.
(** TLV types, which are 64-bit numbers: from 2^63 on they are all the same. *)
Theorem C134_type_refuted : ~ (forall n, n < 2 ^ 64 -> fst (strtoll (dec_N n)) = Z.of_N n).
Proof. intros H. assert (X : fst (strtoll (dec_N (2 ^ 63))) = 9223372036854775807%Z) by (vm_compute; reflexivity). rewrite (H (2 ^ 63) eq_refl) in X. discriminate X. Qed.

(** ** Witnesses *)
Definition asked1 : asks := keysend_asks 21000 (repeat 97 66) (Some (bs "00ff")) [bs "5482373484"; bs "0123"; bs "odd"] [(bs "5482373484", bs "0123")].
Example C134_meets : call (fun _ => true) jprint asked1 (pay_keysend_m (fun _ => true) jprint 21000 (repeat 97 66) (Some (bs "00ff")) [bs "5482373484"; bs "0123"; bs "odd"]) /\ proper asked1 /\ sendable asked1 /\
  request jparse (fun _ => Some [2]) (fun _ _ p => Ok p) (mkNwc [] [1] [7] None) (bs "pay") (bs " { } ") true 5 =
    Ok (mkEvent (repeat 0 32) [2] 5 23194 [[bs "p"; bs "07"]; [bs "encryption"; bs "nip44_v2"]] (Some (bs "{""method"":""pay"",""params"": { } }")) (repeat 0 64)).
Proof.
  split; [right; left; apply CallKeysend; repeat constructor|]. split; [discriminate|]. split; [|vm_compute; reflexivity].
  split; [reflexivity|]. split; [apply cstr_dec; reflexivity|]. split; [intros a E; injection E as <-; apply cstr_dec; reflexivity|].
  intros l E. cbn [map fst snd] in E. assert (l = [(5482373484%Z, bs "0123")]) as -> by (injection E as <-; vm_compute; reflexivity). constructor; [|constructor]. split; [reflexivity|apply cstr_dec; reflexivity].
Qed.
Print Assumptions C134_payload_partial.
Print Assumptions C134_asked_partial.
Print Assumptions C134_type.
Print Assumptions C134_event_partial.
Print Assumptions C134_cut_refuted.
Print Assumptions C134_method_refuted.
Print Assumptions C134_tail_refuted.
Print Assumptions C134_amount_refuted.
Print Assumptions C134_type_refuted.
Print Assumptions C134_own_pay_partial.
Print Assumptions C134_own_partial.
Print Assumptions C134_own_refuted.
Print Assumptions C135_kept.
Print Assumptions C135_partial.
Print Assumptions C135_empty.
Print Assumptions C135_improper.
Print Assumptions C135_dropped_refuted.
Print Assumptions C135_lost_refuted.
Print Assumptions C135_keysend_lost_refuted.
