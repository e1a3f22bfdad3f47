(** Theorems about NIP-46 requests and responses when memory runs out: C139. *)
From Verif Require Import Base BaseFacts Heap Json Hex HexProofs Event EventProofs RelayMemSpec RelayMemProps EventMem EventMemSpec EventMemProps CjsonMem CjsonMemProofs EventOom EventOomSpec EventOomProps GiftWrap Nip46 Nip46Mem.
From Coq Require Import Permutation.
Open Scope nat_scope.

Section Oom.
Variable grant : nat -> bool.
Variable print : json -> list N.
Variable parse : list N -> option json.
Variable encrypt : list N -> list N -> option (list N) -> list N -> res (list N).
Variable decrypt : list N -> list N -> list N -> res (list N).
Variable sha256 : list N -> list N.
Variable pubkey_of : list N -> option (list N).
Variable schnorr_sign : list N -> list N -> list N -> option (list N).
Variable lim : option ev_limits.
Notation granted := (granted grant).
Notation built := (built grant).
Notation builds := (builds grant).
Notation ser := (fun e => print (id_tree e)).

Lemma text_m_ok r h l : holds h l -> r <> Undef ->
  exists p x h', text_m grant r h = Ok ((p, x), h') /\ h_next h <= h_next h' /\ holds h' (text_blocks p ++ l) /\
  ((exists b t, p = Some (b, t) /\ x = None /\ r = Ok t) \/ (p = None /\ exists e, x = Some e /\ (r = Err e \/ (e = EMemory /\ ~ granted h h')))).
Proof.
  intros X D. destruct r as [t|e|]; cbn [text_m]; [| |congruence].
  - destruct (ealloc_two grant h _ X) as [(q & h1 & E & X1 & L1)|(h1 & E & X1 & L1 & F)]; rewrite (mbind_ok _ _ _ _ _ E).
    + exists (Some (q, t)), None, h1. split; [reflexivity|]. split; [lia|]. split; [exact X1|]. left. exists q, t. auto.
    + exists None, (Some EMemory), h1. split; [reflexivity|]. split; [lia|]. split; [exact X1|]. right. split; [reflexivity|]. exists EMemory. split; [reflexivity|]. right. split; [reflexivity|].
      apply (not_granted grant h h h1 F); lia.
  - exists None, (Some e), h. split; [reflexivity|]. split; [lia|]. split; [exact X|]. right. split; [reflexivity|]. exists e. auto.
Qed.
Lemma parse_m_ok s h l : holds h l ->
  exists o h', parse_m grant parse s h = Ok (o, h') /\ h_next h <= h_next h' /\ holds h' (nb o ++ l) /\
  (forall n, o = Some n -> parse s = Some (n_tree n)) /\ (o = None -> parse s = None \/ ~ granted h h').
Proof.
  intros X. unfold parse_m. destruct (parse s) as [j|].
  2:{ exists None, h. split; [reflexivity|]. split; [lia|]. split; [exact X|]. split; [discriminate|auto]. }
  unfold create. destruct (ealloc_two grant h _ X) as [(q & h1 & E & X1 & L1)|(h1 & E & X1 & L1 & F)]; rewrite (mbind_ok _ _ _ _ _ E).
  - eexists. exists h1. split; [reflexivity|]. split; [lia|]. split; [exact X1|]. split; [|discriminate]. intros n Q. injection Q as <-. reflexivity.
  - eexists. exists h1. split; [reflexivity|]. split; [lia|]. split; [exact X1|]. split; [discriminate|]. intros _. right. apply (not_granted grant h h h1 F); lia.
Qed.

(** ** C139 *)
(** Reading a request: for every pattern of failing allocations the call ends
    properly, and the only block left is the one of the params it reports, none after
    an error.  If no allocation fails the result is the one of Nip46.v.  A call that
    reports success short of memory reports the right request, except that the params
    may be missing; what else a call reports, it reports for lack of memory. *)
Definition no_params (v : request) : request := mkRequest (rq_id v) (rq_method v) None (rq_sender v).
Theorem C139_request : forall e sk h rest, holds h rest -> (forall c, decrypt sk (ev_pubkey e) c <> Undef) ->
  exists q x h', parse_request_m grant print parse decrypt e sk h = Ok ((q, x), h') /\ h_next h <= h_next h' /\ holds h' (opt_list (cq_block q) ++ rest) /\
  (cq_block q <> None <-> rq_params (cq_val q) <> None) /\ (x <> None -> cq_block q = None) /\
  (granted h h' -> match parse_request decrypt print parse e sk with Ok v => x = None /\ cq_val q = v | Err r => x = Some r | Undef => False end) /\
  (x = None -> exists v, parse_request decrypt print parse e sk = Ok v /\ (cq_val q = v \/ (cq_val q = no_params v /\ ~ granted h h'))) /\
  (forall r, x = Some r -> parse_request decrypt print parse e sk = Err r \/ ((r = EMemory \/ r = EJsonParse) /\ ~ granted h h')).
Proof.
  intros e sk h rest X D. unfold parse_request_m, parse_request. destruct (negb (ev_kind e =? NIP46_KIND)%N).
  { eexists. eexists. exists h. split; [reflexivity|]. split; [lia|]. split; [exact X|]. split; [cbn; tauto|]. split; [reflexivity|]. split; [reflexivity|]. split; [discriminate|]. intros r Q. left. congruence. }
  destruct (ev_content e) as [c|].
  2:{ eexists. eexists. exists h. split; [reflexivity|]. split; [lia|]. split; [exact X|]. split; [cbn; tauto|]. split; [reflexivity|]. split; [reflexivity|]. split; [discriminate|]. intros r Q. left. congruence. }
  destruct (text_m_ok (decrypt sk (ev_pubkey e) c) h rest X (D c)) as (p & x & h1 & E1 & L1 & X1 & R). rewrite (mbind_ok _ _ _ _ _ E1).
  destruct R as [(b & t & -> & -> & DT)|(-> & r & -> & R)].
  2:{ eexists. eexists. exists h1. split; [reflexivity|]. split; [exact L1|]. split; [exact X1|]. split; [cbn; tauto|]. split; [reflexivity|]. split; [|split; [discriminate|]].
      - intros G. destruct R as [-> | (_ & R)]; [reflexivity|]. destruct (R G).
      - intros r' Q. assert (r' = r) by congruence. subst r'. destruct R as [-> | (-> & R)]; [left; reflexivity|]. right. auto. }
  rewrite DT. cbn [bind text_blocks app] in *. rewrite (mbind_ok _ _ _ _ _ (use_holds b h1 _ X1 ltac:(left; reflexivity))).
  destruct (parse_m_ok (until_nul t) h1 _ X1) as (o & h2 & E2 & L2 & X2 & PS & PN). rewrite (mbind_ok _ _ _ _ _ E2).
  apply (holds_perm _ _ (b :: nb o ++ rest)) in X2; [|symmetry; apply Permutation_middle]. destruct (free_holds _ _ _ X2) as (h3 & E3 & X3 & L3). rewrite (mbind_ok _ _ _ _ _ E3).
  destruct o as [n|].
  2:{ eexists. eexists. exists h3. split; [reflexivity|]. split; [lia|]. split; [exact X3|]. split; [cbn; tauto|]. split; [reflexivity|]. specialize (PN eq_refl). split; [|split; [discriminate|]].
      - intros G. destruct PN as [-> | PN]; [reflexivity|]. destruct PN. apply (granted_less _ _ _ _ _ G); lia.
      - intros r' Q. assert (r' = EJsonParse) by congruence. subst r'. destruct PN as [-> | PN]; [left; reflexivity|]. right. split; [auto|]. intros G. apply PN, (granted_less _ _ _ _ _ G); lia. }
  rewrite (PS n eq_refl). cbv beta zeta. unfold params_m. destruct (jget (bs "params") (n_tree n)) as [pj|].
  - cbn [print_node n_tree nb]. rewrite mbind_assoc. destruct (ealloc_two grant h3 _ X3) as [(q & h4 & E4 & X4 & L4)|(h4 & E4 & X4 & L4 & F)]; rewrite (mbind_ok _ _ _ _ _ E4).
    + unfold mbind at 1, mret at 1. apply (holds_perm _ _ (nb (Some n) ++ q :: rest)) in X4; [|apply Permutation_middle]. destruct (delete_ok _ _ _ X4) as (h5 & E5 & X5 & L5).
      rewrite (mbind_ok _ _ _ _ _ E5). eexists. eexists. exists h5. split; [reflexivity|]. split; [lia|]. split; [exact X5|]. split; [cbn; split; discriminate|]. split; [congruence|].
      split; [intros _; auto|]. split; [intros _; eexists; split; [reflexivity|]; left; reflexivity|discriminate].
    + unfold mbind at 1, mret at 1. destruct (delete_ok _ _ _ X4) as (h5 & E5 & X5 & L5).
      rewrite (mbind_ok _ _ _ _ _ E5). eexists. eexists. exists h5. split; [reflexivity|]. split; [lia|]. split; [exact X5|]. split; [cbn; tauto|]. split; [reflexivity|].
      assert (NG : ~ granted h h5) by (apply (not_granted grant h h3 h5 F); lia). split; [intros G; destruct (NG G)|]. split; [|discriminate].
      intros _. eexists. split; [reflexivity|]. right. split; [reflexivity|exact NG].
  - unfold mbind at 1, mret at 1. destruct (delete_ok _ _ _ X3) as (h5 & E5 & X5 & L5). rewrite (mbind_ok _ _ _ _ _ E5). eexists. eexists. exists h5. split; [reflexivity|]. split; [lia|]. split; [exact X5|].
    split; [cbn; tauto|]. split; [reflexivity|]. split; [intros _; auto|]. split; [intros _; eexists; split; [reflexivity|]; left; reflexivity|discriminate].
Qed.
(** Releasing a request releases its params, and may be repeated. *)
Theorem C139_free : forall q h rest, holds h (opt_list (cq_block q) ++ rest) -> (cq_block q = None -> rq_params (cq_val q) = None) ->
  exists q' h', request_free q h = Ok (q', h') /\ holds h' rest /\ q' = mkCq (no_params (cq_val q)) None /\ request_free q' h' = Ok (q', h').
Proof.
  intros [v [b|]] h rest X N; unfold request_free; cbn [cq_block opt_list app cq_val] in *.
  - destruct (free_holds _ _ _ X) as (h' & E & X' & _). rewrite (mbind_ok _ _ _ _ _ E). eexists. exists h'. split; [reflexivity|]. auto.
  - eexists. exists h. split; [reflexivity|]. split; [exact X|]. split; [|reflexivity]. unfold no_params. destruct v. cbn in *. rewrite N by reflexivity. reflexivity.
Qed.
(** ... and releasing a response its two texts. *)
Theorem C139_free_response : forall r h rest, holds h (opt_list (cr_result r) ++ opt_list (cr_error r) ++ rest) ->
  exists r' h', response_free r h = Ok (r', h') /\ holds h' rest /\ response_free r' h' = Ok (r', h').
Proof.
  intros r h rest X. unfold response_free. destruct (free_opt_holds _ _ _ X) as (h1 & E1 & X1 & _). rewrite (mbind_ok _ _ _ _ _ E1).
  destruct (free_opt_holds _ _ _ X1) as (h2 & E2 & X2 & _). rewrite (mbind_ok _ _ _ _ _ E2). eexists. exists h2. split; [reflexivity|]. split; [exact X2|]. reflexivity.
Qed.

(** *** Responses *)
(** Time does not go back. *)
Definition mono {A} (m : M A) : Prop := forall h a h', m h = Ok (a, h') -> h_next h <= h_next h'.
Lemma mono_ret {A} (a : A) : mono (mret a).
Proof. intros h b h' E. assert (h' = h) by (unfold mret in E; congruence). subst. lia. Qed.
Lemma mono_bind {A B} (m : M A) (f : A -> M B) : mono m -> (forall a, mono (f a)) -> mono (mbind m f).
Proof. intros X Y h b h' E. unfold mbind in E. destruct (m h) as [[a h1]| |] eqn:E1; try discriminate. specialize (X _ _ _ E1). specialize (Y _ _ _ _ E). lia. Qed.
Lemma mono_free o : mono (hfree o).
Proof.
  intros h a h' E. unfold hfree in E. destruct o as [i|]; [|assert (h' = h) by congruence; subst; lia]. destruct (existsb _ _); [|discriminate].
  assert (h' = mkHeap (h_next h) (remove1 i (h_live h))) by congruence. subst. cbn. lia.
Qed.
Lemma mono_alloc : mono (ealloc grant).
Proof.
  intros h a h' E. unfold ealloc in E. destruct (grant (h_next h)).
  - assert (h' = mkHeap (S (h_next h)) (h_next h :: h_live h)) by congruence. subst. cbn. lia.
  - assert (h' = mkHeap (S (h_next h)) (h_live h)) by congruence. subst. cbn. lia.
Qed.
Lemma mono_free_all l : mono (free_all l).
Proof. induction l; cbn [free_all]; [apply mono_ret|]. apply mono_bind; [apply mono_free|auto]. Qed.
Lemma mono_string t : mono (create_string grant t).
Proof.
  apply mono_bind; [apply mono_alloc|]. intros [b|]; [|apply mono_ret]. apply mono_bind; [apply mono_alloc|]. intros [c|]; [apply mono_ret|]. apply mono_bind; [apply mono_free|]. intros. apply mono_ret.
Qed.
Lemma mono_new o k m : mono m -> mono (add_new grant o k m).
Proof.
  intros X. apply mono_bind; [exact X|]. intros x. apply mono_bind.
  - unfold add_item. destruct o as [[[] ?]|]; try apply mono_ret. destruct x; [|apply mono_ret]. apply mono_bind; [apply mono_alloc|]. intros [?|]; apply mono_ret.
  - intros [o' []]; [apply mono_ret|]. apply mono_bind; [|intros; apply mono_ret]. destruct x; cbn [delete]; [apply mono_free_all|apply mono_ret].
Qed.
Definition result_members (ps : list N -> option json) (r : response) : list (list N * json) :=
  match rs_error r, rs_result r with
  | Some e, _ => [(bs "error", JStr e)]
  | None, Some t => [(bs "result", match ps t with Some j => j | None => JStr t end)]
  | None, None => []
  end.
Definition no_parser (s : list N) : option json := None.
Lemma put_result_ok r h0 o l rest h : built h0 o (JObj l) rest h ->
  exists o' h', put_result grant parse r o h = Ok (o', h') /\
  (built h0 o' (JObj (l ++ result_members parse r)) rest h' \/ (built h0 o' (JObj (l ++ result_members no_parser r)) rest h' /\ ~ granted h0 h')).
Proof.
  intros B. unfold put_result, result_members. destruct (rs_error r) as [x|].
  { destruct (object_new grant h0 _ _ rest h (bs "error") _ _ B (string_builds grant x)) as (o1 & h2 & E2 & B2). exists o1, h2. auto. }
  destruct (rs_result r) as [t|]; [|exists o, h; rewrite app_nil_r; auto].
  unfold parse_m. destruct (parse t) as [j|] eqn:P; cbn [no_parser].
  - destruct (object_add grant h0 _ _ rest h (bs "result") _ _ B (create_builds grant j)) as (x & h1 & o' & h' & E1 & E2 & B2). rewrite (mbind_ok _ _ _ _ _ E1).
    destruct x as [n|]; [exists o', h'; auto|]. clear o' h' E2 B2.
    assert (L1 : h_next h1 = S (h_next h) /\ grant (h_next h) = false /\ h_live h1 = h_live h).
    { revert E1. unfold create, mbind, ealloc, mret. destruct (grant (h_next h)) eqn:G; intros Q; [discriminate|]. assert (h1 = mkHeap (S (h_next h)) (h_live h)) by congruence. subst h1. auto. }
    destruct L1 as (L1 & F & LV). pose proof B as [N0 T0 (lost & X0 & G0)].
    assert (NG : ~ granted h0 h1) by (apply (not_granted grant h0 h h1 F); lia).
    assert (B1 : built h0 o (JObj l) rest h1).
    { constructor; [lia|exact T0|]. exists lost. split; [|intros G; destruct (NG G)]. destruct (ealloc_two grant h _ X0) as [(q & h2 & E & X1 & _)|(h2 & E & X1 & L2 & _)].
      - revert E. unfold ealloc. rewrite F. discriminate.
      - revert E. unfold ealloc. rewrite F. intros E. assert (h2 = mkHeap (S (h_next h)) (h_live h)) by congruence. destruct h1 as [n1 l1]. cbn in L1, LV. subst. exact X1. }
    destruct (object_new grant h0 _ _ rest h1 (bs "result") _ _ B1 (string_builds grant t)) as (o1 & h2 & E2 & B2). exists o1, h2. split; [exact E2|]. right. split; [exact B2|].
    intros G. apply NG. apply (granted_less _ _ _ _ _ G); [lia|]. apply (mono_new _ _ _ (mono_string t) _ _ _ E2).
  - unfold mbind at 1, mret at 1. destruct (object_new grant h0 _ _ rest h (bs "result") _ _ B (string_builds grant t)) as (o1 & h2 & E2 & B2). exists o1, h2. auto.
Qed.
Lemma response_text_ok r h rest : holds h rest ->
  exists s h' lost, response_text grant print parse r h = Ok (s, h') /\ h_next h <= h_next h' /\ holds h' (text_blocks s ++ lost ++ rest) /\
  (forall b t, s = Some (b, t) -> exists j, t = print j /\ (thin (response_tree parse r) j \/ (thin (response_tree no_parser r) j /\ ~ granted h h'))) /\
  (granted h h' -> lost = [] /\ exists b, s = Some (b, print (response_tree parse r))).
Proof.
  intros X. unfold response_text. destruct (create_builds grant (JObj []) h rest X) as (o & h1 & E & B). rewrite (mbind_ok _ _ _ _ _ E).
  destruct o as [n|].
  2:{ exists None, h1. destruct B as [LE _ (lost & X1 & G1)]. exists lost. split; [reflexivity|]. split; [exact LE|]. split; [exact X1|]. split; [discriminate|]. intros G. destruct (G1 G) as (_ & n & Q & _). discriminate Q. }
  destruct (object_new grant h _ _ rest h1 (bs "id") _ _ B (string_builds grant (rs_id r))) as (o1 & h2 & E2 & B2). rewrite (mbind_ok _ _ _ _ _ E2).
  destruct (put_result_ok r h o1 _ rest h2 B2) as (o2 & h3 & E3 & B3). rewrite (mbind_ok _ _ _ _ _ E3).
  destruct B3 as [B3|(B3 & NG)]; destruct (print_ok grant print _ _ _ _ _ B3) as (s & h' & lost & E4 & L4 & X4 & T4 & G4 & _); exists s, h', lost; (split; [exact E4|]); (split; [exact L4|]); (split; [exact X4|]).
  - split; [|exact G4]. intros b t Q. destruct (T4 b t Q) as (j & -> & T). exists j. split; [reflexivity|]. left. exact T.
  - assert (M : h_next h3 <= h_next h').
    { refine (mono_bind _ _ _ _ _ _ _ E4).
      - destruct o2; cbn [print_node]; [|apply mono_ret]. apply mono_bind; [apply mono_alloc|]. intros [?|]; apply mono_ret.
      - intros a. apply mono_bind; [|intros; apply mono_ret]. destruct o2; cbn [delete]; [apply mono_free_all|apply mono_ret]. }
    assert (NG' : ~ granted h h') by (intros G; apply NG, (granted_less _ _ _ _ _ G); lia).
    split; [|intros G; destruct (NG' G)]. intros b t Q. destruct (T4 b t Q) as (j & -> & T). exists j. split; [reflexivity|]. right. split; [exact T|exact NG'].
Qed.

Lemma not_failed h h' h0 h1 : failed grant h h' -> h_next h0 <= h_next h -> h_next h' <= h_next h1 -> ~ granted h0 h1.
Proof. intros (k & L & F) A B G. rewrite G in F by lia. discriminate. Qed.
(** What a finished response may look like: signed by the key, addressed unless the
    tag was refused or memory ran out, its id that of some part of it. *)
Definition signed_from (e0 : event) (sk pk : list N) (aux : option (list N)) (e : event) : Prop :=
  exists ts me t r s, (ts = [] \/ ts = [[bs "p"; hex_encode pk]]) /\ pubkey_of sk = Some me /\ aux = Some r /\
  let e1 := mkEvent (sha256 (print t)) me (ev_created e0) (ev_kind e0) ts (ev_content e0) s in
  thin (id_tree e1) t /\ schnorr_sign sk r (sha256 (print t)) = Some s /\ e = e1.
Definition value_of (e0 : event) (sk pk : list N) (aux : option (list N)) : res event :=
  do e <- match GiftWrap.add_tag lim e0 [bs "p"; hex_encode pk] with Ok e' => Ok e' | Err _ => Ok e0 | Undef => Undef end;
  match event_sign ser sha256 pubkey_of schnorr_sign (compute_id ser sha256 e) sk aux with
  | (e, Ok _) => Ok e
  | (_, Err x) => Err x
  | (_, Undef) => Undef
  end.
Definition outcome (v : res event) (p : option cevent) (x : option err) : Prop :=
  match v with Ok e => x = None /\ exists c, p = Some c /\ ce_val c = e | Err r => x = Some r | Undef => False end.
Lemma finish_ok c sk pk aux h rest : event_sound c -> holds h (owned c ++ rest) -> ce_used c = 0%N -> ev_tags (ce_val c) = [] -> length pk = 32 ->
  exists p x h' lost, finish_response grant print sha256 pubkey_of schnorr_sign lim c sk pk aux h = Ok ((p, x), h') /\ h_next h <= h_next h' /\
  ((x = None /\ exists c', p = Some c' /\ event_sound c' /\ holds h' (owned c' ++ lost ++ rest) /\ signed_from (ce_val c) sk pk aux (ce_val c')) \/
   (x <> None /\ p = None /\ holds h' (lost ++ rest))) /\
  (granted h h' -> lost = [] /\ outcome (value_of (ce_val c) sk pk aux) p x).
Proof.
  intros ES X U TG PK. unfold finish_response.
  destruct (C107_tag grant lim c [bs "p"; hex_encode pk] h rest ES X) as (c1 & x1 & h1 & E1 & ES1 & X1 & L1 & R & _). rewrite (mbind_ok _ _ _ _ _ E1). cbn [fst].
  assert (SP : space [bs "p"; hex_encode pk] = 83%N).
  { rewrite !space_cons. change (length (bs "p")) with 1. rewrite EventProofs.hex_encode_length, PK. reflexivity. }
  assert (V : (ce_val c1 = ce_val c \/ ce_val c1 = tagged (ce_val c) [bs "p"; hex_encode pk]) /\
    (granted h h1 -> Ok (ce_val c1) = match GiftWrap.add_tag lim (ce_val c) [bs "p"; hex_encode pk] with Ok e' => Ok e' | Err _ => Ok (ce_val c) | Undef => Undef end)).
  { unfold GiftWrap.add_tag. destruct R as [(_ & Q & _ & NF)|[(_ & Q & [A|[A|A]])|(_ & Q & [A|A])]].
    - split; [auto|]. intros _. rewrite Q. destruct lim as [l|] eqn:LM; [|reflexivity]. destruct (N.leb_spec (max_tags l) (N.of_nat (length (ev_tags (ce_val c))))); [|reflexivity].
      destruct NF. exists l. auto.
    - discriminate A.
    - split; [auto|]. intros _. rewrite Q. destruct A as (l & -> & A). apply N.leb_le in A. rewrite A. reflexivity.
    - rewrite SP in A. change (2 ^ 64 <= 83)%N in A. apply N.leb_le in A. discriminate A.
    - split; [auto|]. intros G. destruct (not_failed _ _ _ _ A (le_n _) (le_n _) G).
    - rewrite SP, U in A. apply N.ltb_lt in A. discriminate A. }
  destruct V as (V & VG).
  destruct (C109_id grant print sha256 (ce_val c1) h1 _ X1) as (e2 & x2 & h2 & lost & E2 & L2 & X2 & G2 & T2 & F2). rewrite (mbind_ok _ _ _ _ _ E2).
  assert (ABANDON : forall c2 r h3 l, holds h3 (owned c2 ++ l) -> exists h4, abandon c2 r h3 = Ok ((None, Some r), h4) /\ holds h4 l /\ h_next h4 = h_next h3).
  { intros c2 r h3 l X3. unfold abandon. destruct (C107_destroy c2 h3 l X3) as (h4 & E4 & X4 & L4). rewrite (mbind_ok _ _ _ _ _ E4). exists h4. auto. }
  apply (holds_perm _ _ (owned c1 ++ lost ++ rest)) in X2; [|rewrite !app_assoc; apply Permutation_app_tail, Permutation_app_comm].
  destruct x2 as [r|].
  { destruct (ABANDON c1 r h2 _ X2) as (h3 & E3 & X3 & L3). exists None, (Some r), h3, lost. split; [exact E3|]. split; [lia|]. split; [right; split; [discriminate|auto]|].
    intros G. destruct (G2 ltac:(apply (granted_less _ _ _ _ _ G); lia)) as (Q & _). discriminate Q. }
  destruct (C110_sign grant print sha256 pubkey_of schnorr_sign e2 sk aux h2 _ X2) as (e3 & x3 & h3 & lost3 & E3 & L3 & X3 & G3 & T3). rewrite (mbind_ok _ _ _ _ _ E3).
  apply (holds_perm _ _ (owned c1 ++ (lost3 ++ lost) ++ rest)) in X3.
  2:{ apply (proj2 (Permutation_count_occ Nat.eq_dec _ _)). intros z. rewrite !count_occ_app. lia. }
  assert (GG : forall h4, h_next h3 <= h_next h4 -> granted h h4 -> lost3 ++ lost = [] /\
    value_of (ce_val c) sk pk aux = match x3 with None => Ok e3 | Some r => Err r end).
  { intros h4 L4 G. destruct (G2 ltac:(apply (granted_less _ _ _ _ _ G); lia)) as (_ & -> & ->). destruct (G3 ltac:(apply (granted_less _ _ _ _ _ G); lia)) as (-> & Q).
    split; [reflexivity|]. unfold value_of. rewrite <- VG by (apply (granted_less _ _ _ _ _ G); lia). cbn [bind]. rewrite Q. destruct x3; reflexivity. }
  destruct x3 as [r|].
  - destruct (ABANDON c1 r h3 _ X3) as (h4 & E4 & X4 & L4). exists None, (Some r), h4, (lost3 ++ lost). split; [exact E4|]. split; [lia|]. split; [right; split; [discriminate|auto]|].
    intros G. destruct (GG h4 ltac:(lia) G) as (-> & Q). split; [reflexivity|]. unfold outcome. rewrite Q. reflexivity.
  - rewrite (mbind_ok _ _ _ _ _ (use_holds (ce_self c1) h3 _ X3 ltac:(left; reflexivity))).
    eexists. exists None, h3, (lost3 ++ lost). split; [reflexivity|]. split; [lia|]. split.
    + left. split; [reflexivity|]. eexists. split; [reflexivity|].
      destruct (T3 eq_refl) as (me & t & rr & sg & P1 & P2 & P3 & P4 & P5). destruct (T2 eq_refl) as (t2 & _ & P6).
      assert (SH : ev_content e3 = ev_content (ce_val c1) /\ ev_tags e3 = ev_tags (ce_val c1)) by (rewrite P5, P6; split; reflexivity).
      split; [destruct ES1; constructor; cbn [with_val ce_content ce_val ce_tags ce_cap ce_used]; rewrite ?(proj1 SH), ?(proj2 SH); assumption|]. split; [exact X3|].
      cbn [with_val ce_val]. exists (ev_tags (ce_val c1)), me, t, rr, sg. split.
      { destruct V as [-> | ->]; [left; exact TG|]. right. cbn [tagged ev_tags]. rewrite TG. reflexivity. }
      split; [exact P1|]. split; [exact P2|]. cbv zeta.
      assert (Q3 : e3 = mkEvent (sha256 (print t)) me (ev_created (ce_val c)) (ev_kind (ce_val c)) (ev_tags (ce_val c1)) (ev_content (ce_val c)) sg).
      { rewrite P5, P6. destruct V as [V | V]; rewrite V; reflexivity. }
      split; [|split; [exact P4|exact Q3]]. revert P3. rewrite P6. destruct V as [V | V]; rewrite V; intros P3; exact P3.
    + intros G. destruct (GG h3 ltac:(lia) G) as (-> & Q). split; [reflexivity|]. unfold outcome. rewrite Q. split; [reflexivity|]. eexists. split; reflexivity.
Qed.
Lemma create_used now h c h' : event_create grant now h = Ok ((Some c, None), h') -> ce_used c = 0%N.
Proof.
  unfold event_create, arena_create, mbind, mret. destruct (ealloc grant h) as [[[s|] h1]| |]; try discriminate. destruct (ealloc grant h1) as [[[a|] h2]| |]; try discriminate.
  - destruct (ealloc grant h2) as [[[m|] h3]| |]; try discriminate.
    + destruct (huse (Some s) h3) as [[[] h4]| |]; try discriminate. intros E. assert (c = mkCe s a m 1024 0 None None (blank now)) by congruence. subst c. reflexivity.
    + destruct (hfree (Some a) h3) as [[[] h4]| |]; try discriminate. destruct (hfree (Some s) h4) as [[[] h5]| |]; discriminate.
  - destruct (hfree (Some s) h2) as [[[] h5]| |]; discriminate.
Qed.
Lemma content_used c src t h c' x h' : set_content grant c src t h = Ok ((c', x), h') -> ce_used c' = ce_used c.
Proof.
  unfold set_content, mbind, mret. destruct (huse (Some (ce_self c)) h) as [[[] h1]| |]; try discriminate. destruct (hfree (ce_content c) h1) as [[[] h2]| |]; try discriminate.
  destruct (huse (Some src) h2) as [[[] h3]| |]; try discriminate. destruct (ealloc grant h3) as [[[q|] h4]| |]; try discriminate; intros E.
  - assert (c' = with_content c (Some q) (Some t)) by congruence. subst c'. reflexivity.
  - assert (c' = with_content c None None) by congruence. subst c'. reflexivity.
Qed.
(** Writing a response: for every pattern of failing allocations the call ends
    properly.  Success gives a sound event that owns its blocks; after an error no
    event is left.  Nothing else is kept if no allocation fails, and then the result is
    that of Nip46.v.  Success short of memory still gives a kind 24133 event, signed by
    the given key, whose content is the encryption of part of the answer, or of part of
    the answer with the result turned into a string. *)
Theorem C139_response : forall old r sk pk nonce aux now h rest, holds h rest -> length pk = 32 -> (forall s, encrypt sk pk nonce s <> Undef) ->
  exists p x h' lost, create_response_m grant print parse encrypt sha256 pubkey_of schnorr_sign lim old r sk pk nonce aux now h = Ok ((p, x), h') /\ h_next h <= h_next h' /\
  ((x = None /\ exists c e0, p = Some c /\ event_sound c /\ holds h' (owned c ++ lost ++ rest) /\ signed_from e0 sk pk aux (ce_val c) /\
      ev_kind e0 = 24133%N /\ ev_created e0 = now /\ exists j t, ev_content e0 = Some t /\ encrypt sk pk nonce (print j) = Ok t /\
      (thin (response_tree parse r) j \/ (thin (response_tree no_parser r) j /\ ~ granted h h'))) \/
   (x <> None /\ holds h' (lost ++ rest))) /\
  (granted h h' -> lost = [] /\ outcome (create_response ser sha256 pubkey_of schnorr_sign encrypt print parse lim r sk pk nonce aux now) p x).
Proof.
  intros old r sk pk nonce aux now h rest X PK EN. unfold create_response_m.
  destruct (response_text_ok r h rest X) as (s & h1 & lost & E1 & L1 & X1 & T1 & G1). rewrite (mbind_ok _ _ _ _ _ E1).
  destruct s as [[b s]|].
  2:{ exists old, (Some EMemory), h1, lost. split; [reflexivity|]. split; [exact L1|]. split; [right; split; [discriminate|exact X1]|]. intros G. destruct (G1 G) as (_ & b & Q). discriminate Q. }
  cbn [text_blocks app] in X1. rewrite (mbind_ok _ _ _ _ _ (use_holds b h1 _ X1 ltac:(left; reflexivity))).
  destruct (text_m_ok (encrypt sk pk nonce s) h1 _ X1 (EN s)) as (p & x & h2 & E2 & L2 & X2 & R2). rewrite (mbind_ok _ _ _ _ _ E2).
  apply (holds_perm _ _ (b :: text_blocks p ++ lost ++ rest)) in X2; [|symmetry; apply Permutation_middle]. destruct (free_holds _ _ _ X2) as (h3 & E3 & X3 & L3). rewrite (mbind_ok _ _ _ _ _ E3).
  assert (GV : forall h', h_next h1 <= h_next h' -> granted h h' -> lost = [] /\ s = print (response_tree parse r)).
  { intros h' L G. destruct (G1 ltac:(apply (granted_less _ _ _ _ _ G); lia)) as (-> & b' & Q). split; [reflexivity|congruence]. }
  destruct R2 as [(q & t & -> & -> & ENC)|(-> & e & -> & R2)].
  2:{ exists old, (Some e), h3, lost. split; [reflexivity|]. split; [lia|]. split; [right; split; [discriminate|exact X3]|]. intros G. destruct (GV h3 ltac:(lia) G) as (-> & ->). split; [reflexivity|].
      unfold create_response. destruct R2 as [-> | (_ & R2)]; [reflexivity|]. destruct R2. apply (granted_less _ _ _ _ _ G); lia. }
  cbn [text_blocks app] in X3. destruct (C107_create grant now h3 _ X3) as (p & x & h4 & E4 & L4 & R4). rewrite (mbind_ok _ _ _ _ _ E4).
  destruct R4 as [(-> & c & -> & ES & X4 & V4)|(-> & X4 & F)].
  2:{ destruct (free_holds _ _ _ X4) as (h5 & E5 & X5 & L5).
      assert (ST : (let! _ := hfree (Some q) in mret (p, Some EMemory)) h4 = Ok ((p, Some EMemory), h5)) by (rewrite (mbind_ok _ _ _ _ _ E5); reflexivity).
      exists p, (Some EMemory), h5, lost. split; [destruct p; exact ST|]. split; [lia|]. split; [right; split; [discriminate|exact X5]|].
      intros G. destruct (not_failed _ _ h h5 F ltac:(lia) ltac:(lia) G). }
  pose proof (create_used _ _ _ _ E4) as U4.
  assert (ES' : event_sound (with_kind c NIP46_KIND)) by (destruct ES; constructor; assumption).
  assert (X4' : holds h4 (owned (with_kind c NIP46_KIND) ++ q :: lost ++ rest)) by exact X4.
  destruct (C107_content grant _ q t h4 _ ES' X4' ltac:(left; reflexivity)) as (c5 & x5 & h5 & E5 & ES5 & X5 & L5 & R5). rewrite (mbind_ok _ _ _ _ _ E5).
  pose proof (content_used _ _ _ _ _ _ _ E5) as U5.
  apply (holds_perm _ _ (q :: owned c5 ++ lost ++ rest)) in X5; [|symmetry; apply Permutation_middle]. destruct (free_holds _ _ _ X5) as (h6 & E6 & X6 & L6). rewrite (mbind_ok _ _ _ _ _ E6).
  destruct R5 as [(-> & V5)|(-> & _ & F)].
  2:{ unfold abandon. destruct (C107_destroy c5 h6 _ X6) as (h7 & E7 & X7 & L7). rewrite (mbind_ok _ _ _ _ _ E7). exists None, (Some EMemory), h7, lost. split; [reflexivity|]. split; [lia|]. split; [right; split; [discriminate|exact X7]|].
      intros G. destruct (not_failed _ _ h h7 F ltac:(lia) ltac:(lia) G). }
  assert (V : ce_val c5 = mkEvent (repeat 0%N 32) (repeat 0%N 32) now NIP46_KIND [] (Some t) (repeat 0%N 64)).
  { rewrite V5. unfold with_kind. cbn [with_val ce_val]. rewrite V4. reflexivity. }
  destruct (finish_ok c5 sk pk aux h6 _ ES5 X6 ltac:(rewrite U5; exact U4) ltac:(rewrite V; reflexivity) PK) as (p & x & h7 & lost7 & E7 & L7 & R7 & G7).
  exists p, x, h7, (lost7 ++ lost). split; [exact E7|]. split; [lia|]. split.
  - destruct R7 as [(-> & c' & -> & ESc & Xc & SF)|(NE & _ & Xc)].
    + left. split; [reflexivity|]. exists c', (ce_val c5). split; [reflexivity|]. split; [exact ESc|]. split; [rewrite <- app_assoc; exact Xc|]. split; [exact SF|]. rewrite V. split; [reflexivity|]. split; [reflexivity|].
      destruct (T1 b s eq_refl) as (j & Ej & Tj). exists j, t. split; [reflexivity|]. split; [rewrite <- Ej; exact ENC|]. destruct Tj as [Tj|(Tj & NG)]; [left; exact Tj|]. right. split; [exact Tj|].
      intros G. apply NG, (granted_less _ _ _ _ _ G); lia.
    + right. split; [exact NE|]. rewrite <- app_assoc. exact Xc.
  - intros G. destruct (GV h7 ltac:(lia) G) as (-> & ->). destruct (G7 ltac:(apply (granted_less _ _ _ _ _ G); lia)) as (-> & O). split; [reflexivity|].
    rewrite V in O. unfold create_response. rewrite ENC. exact O.
Qed.
End Oom.

(** ** What success may hide *)
(** A printer that shows the first letter of each key and whether the value is a string. *)
Definition keys (j : json) : list N :=
  match j with
  | JObj l => flat_map (fun m => firstn 1 (fst m) ++ bs (match snd m with JStr _ => "s" | _ => "j" end)) l
  | _ => bs "?"
  end.
Definition all_true (s : list N) : option json := Some (JBool true).
Definition plain (sk pk : list N) (nonce : option (list N)) (s : list N) : res (list N) := Ok s.
Definition key32 : list N := repeat 7%N 32.
Definition answer : response := mkResponse (bs "1") (Some (bs "true")) None.
Definition fails (n : nat) : nat -> bool := fun k => negb (k =? n).
Definition answered (g : nat -> bool) : res ((option cevent * option err) * heap) :=
  create_response_m g keys all_true plain (fun x => x) (fun _ => Some key32) (fun _ _ _ => Some []) None None answer key32 key32 None (Some []) 0 (mkHeap 0 []).
(** [answered] as a computed value: content, tags, live blocks not of the event. *)
Definition seen (x : res ((option cevent * option err) * heap)) : option (option (list N) * list (list (list N)) * nat) :=
  match x with
  | Ok ((Some c, None), h) => Some (ev_content (ce_val c), ev_tags (ce_val c), length (h_live h) - length (owned c))
  | _ => None
  end.
Definition p_tag : list (list N) := [bs "p"; hex_encode key32].
Example C139_meets : seen (answered (fun _ => true)) = Some (Some (bs "isrj"), [p_tag], 0).
Proof. vm_compute. reflexivity. Qed.
(** The same answer when one allocation fails: the id is missing; the result is
    missing and its tree lost; the result is a string; the tag is missing. *)
Example C139_no_id : seen (answered (fails 1)) = Some (Some (bs "rj"), [p_tag], 0).
Proof. vm_compute. reflexivity. Qed.
Example C139_no_result : seen (answered (fails 5)) = Some (Some (bs "is"), [p_tag], 1).
Proof. vm_compute. reflexivity. Qed.
Example C139_string_result : seen (answered (fails 4)) = Some (Some (bs "isrs"), [p_tag], 0).
Proof. vm_compute. reflexivity. Qed.
Example C139_no_tag : seen (answered (fails 12)) = Some (Some (bs "isrj"), [], 0).
Proof. vm_compute. reflexivity. Qed.
(** So success does not mean that the answer was sent as given. *)
Theorem C139_refuted : ~ (forall grant print parse encrypt sha256 pubkey_of schnorr_sign lim old r sk pk nonce aux now h c h', holds h [] -> length pk = 32 ->
  create_response_m grant print parse encrypt sha256 pubkey_of schnorr_sign lim old r sk pk nonce aux now h = Ok ((Some c, None), h') ->
  create_response (fun e => print (id_tree e)) sha256 pubkey_of schnorr_sign encrypt print parse lim r sk pk nonce aux now = Ok (ce_val c)).
Proof.
  intros G. assert (X : holds (mkHeap 0 []) []) by (split; [split; constructor|constructor]).
  set (m := answered (fails 4)). let r := eval vm_compute in m in assert (E : m = r) by (vm_compute; reflexivity).
  specialize (G _ _ _ _ _ _ _ _ _ _ _ _ _ _ _ _ _ _ X (eq_refl : length key32 = 32) E). vm_compute in G. discriminate G.
Qed.
(** ... nor that only the event is left in memory. *)
Theorem C139_leak_refuted : ~ (forall grant print parse encrypt sha256 pubkey_of schnorr_sign lim old r sk pk nonce aux now h c h', holds h [] -> length pk = 32 ->
  create_response_m grant print parse encrypt sha256 pubkey_of schnorr_sign lim old r sk pk nonce aux now h = Ok ((Some c, None), h') -> Permutation (h_live h') (owned c)).
Proof.
  intros G. assert (X : holds (mkHeap 0 []) []) by (split; [split; constructor|constructor]).
  set (m := answered (fails 5)). let r := eval vm_compute in m in assert (E : m = r) by (vm_compute; reflexivity).
  specialize (G _ _ _ _ _ _ _ _ _ _ _ _ _ _ _ _ _ _ X (eq_refl : length key32 = 32) E). apply Permutation_length in G. vm_compute in G. discriminate G.
Qed.
(** A request without params and one whose params did not fit look the same. *)
Definition asking (s : list N) : option json := Some (JObj [(bs "id", JStr (bs "1")); (bs "method", JStr (bs "ping")); (bs "params", JArr [])]).
Definition request_event : event := mkEvent (repeat 0%N 32) key32 0 24133 [] (Some (bs "x")) [].
Definition opened (sk pk : list N) (s : list N) : res (list N) := Ok s.
Definition asked (g : nat -> bool) := parse_request_m g keys asking opened request_event key32 (mkHeap 0 []).
Example C139_request_meets : asked (fun _ => true) = Ok ((mkCq (mkRequest (bs "1") (bs "ping") (Some (bs "?")) key32) (Some 2), None), mkHeap 3 [2]).
Proof. vm_compute. reflexivity. Qed.
Example C139_request_json : asked (fails 1) = Ok ((request_of key32, Some EJsonParse), mkHeap 2 []).
Proof. vm_compute. reflexivity. Qed.
Theorem C139_params_refuted : ~ (forall grant print parse decrypt e sk h q h', holds h [] -> parse_request_m grant print parse decrypt e sk h = Ok ((q, None), h') ->
  parse_request decrypt print parse e sk = Ok (cq_val q)).
Proof.
  intros G. assert (X : holds (mkHeap 0 []) []) by (split; [split; constructor|constructor]).
  set (m := asked (fails 2)). let r := eval vm_compute in m in assert (E : m = r) by (vm_compute; reflexivity).
  specialize (G _ _ _ _ _ _ _ _ _ X E). vm_compute in G. discriminate G.
Qed.
(** After a failing call the caller's variable may point to a released event. *)
Theorem C139_dangling_refuted : ~ (forall grant print parse encrypt sha256 pubkey_of schnorr_sign lim r sk pk nonce aux now h p x h', holds h [] -> length pk = 32 ->
  create_response_m grant print parse encrypt sha256 pubkey_of schnorr_sign lim None r sk pk nonce aux now h = Ok ((p, Some x), h') -> p = None).
Proof.
  intros G. assert (X : holds (mkHeap 0 []) []) by (split; [split; constructor|constructor]).
  set (m := answered (fails 9)). let r := eval vm_compute in m in assert (E : m = r) by (vm_compute; reflexivity).
  specialize (G _ _ _ _ _ _ _ _ _ _ _ _ _ _ _ _ _ _ X (eq_refl : length key32 = 32) E). discriminate G.
Qed.
Print Assumptions C139_request.
Print Assumptions C139_free.
Print Assumptions C139_free_response.
Print Assumptions C139_response.
Print Assumptions C139_refuted.
Print Assumptions C139_leak_refuted.
Print Assumptions C139_params_refuted.
Print Assumptions C139_dangling_refuted.
