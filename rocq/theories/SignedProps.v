(** Signatures serve what they were made for: C168. *)
From Verif Require Import Base BaseFacts Dec Json Hex HexSpec HexProofs Event EventSpec EventProofs EventProps Nip26 Nip26Spec Nip26Props RelayProto RelayMsg RelayMsgProps GiftWrapSpec GiftWrapProps RelaySendProps StoreSpec StoreProps JsonSpec JsonLib EventReadSpec EventReadProps ReplaceSpec ReplaceProps SignedSpec.
Open Scope N_scope.

(** ** C168 *)
Section Signed.
Variable num : Z -> list N.
Variable sha256 : list N -> list N.
Variable pubkey_of : list N -> option (list N).
Variable sign : list N -> list N -> list N -> option (list N).
Variable verify : list N -> list N -> list N -> bool.
Variable pubkey_parses : list N -> bool.
Variable print : json -> list N.
Variable parse : list N -> option json.
Variable around : list N -> Prop.
Hypothesis SH : forall x, length (sha256 x) = 32%nat /\ bytes_ok (sha256 x).
Hypothesis CL : c_library print parse.
Hypothesis NC : forall z, Forall (fun c => num_char c = true) (num z).
Notation ser := (serialize_with num).
Notation Only := (only_by ser sha256 pubkey_of sign verify around).
Notation Verify := (event_verify ser sha256 verify pubkey_parses).

Lemma sign_digest e0 sk pk rnd e' : pubkey_of sk = Some pk -> event_sign ser sha256 pubkey_of sign e0 sk rnd = (e', Ok tt) -> ev_id e' = sha256 (ser (set_pubkey e0 pk)).
Proof.
  intros P E. unfold event_sign in E. rewrite P in E. destruct rnd as [r|]; [|discriminate]. destruct (sign sk r _) as [s|]; [|discriminate]. apply (f_equal fst) in E. cbn [fst] in E. rewrite <- E. reflexivity.
Qed.
Lemma not_delegation e t pk c : delegated_text t pk c -> ser e <> t.
Proof. intros (h & _ & _ & ->). unfold serialize_with. intros Q. apply (f_equal (hd 0)) in Q. vm_compute in Q. discriminate. Qed.
Lemma genuine_said sk pk log e : Only sk pk log -> event_ok e -> around (ev_sig e) -> signed ser sha256 verify e -> ev_pubkey e = pk ->
  (forall e0, In (UEvent e0) log -> num (ev_created e) = num (ev_created e0) -> ev_created e = ev_created e0) ->
  (exists e0, In (UEvent e0) log /\ says e0 e) \/ collides sha256.
Proof.
  intros (P & F & U) OK AR (I & V) K NI. rewrite K in V. destruct (U _ _ AR V) as (u & L & S). rewrite Forall_forall in F. pose proof (F u L) as UO. destruct u as [e0|dk c].
  - destruct S as (rnd & e' & S & D). rewrite (sign_digest _ _ _ _ _ P S) in D.
    destruct (list_eq_dec N.eq_dec (ser e) (ser (set_pubkey e0 pk))) as [Q|Q]; [|right; exists (ser e), (ser (set_pubkey e0 pk)); split; [exact Q|congruence]].
    left. exists e0. split; [exact L|]. cbn [use_ok] in UO.
    assert (O2 : event_ok (set_pubkey e0 pk)). { pose proof (eo_pk _ OK) as PK. rewrite K in PK. destruct UO. split; assumption. }
    apply serialize_inj in Q as (_ & S2 & S3 & S4 & S5); [|exact OK|exact O2|apply NC|apply NC]. split; [apply (NI e0 L S2)|]. split; [exact S3|]. split; [exact S4|exact S5].
  - destruct S as (t & T & D). right. exists (ser e), t. split; [exact (not_delegation _ _ _ _ T)|congruence].
Qed.
(** Whatever text an event comes from: if it verifies as the holder's, then the
    holder signed an event with its time, kind, tags and content. *)
Theorem C168_event : forall sk pk log lim s e parse_pk, Only sk pk log -> cstr_ok s -> event_from_json parse lim s = Ok e -> Verify parse_pk e = Ok tt -> around (ev_sig e) -> ev_pubkey e = pk ->
  (forall e0, In (UEvent e0) log -> num (ev_created e) = num (ev_created e0) -> ev_created e = ev_created e0) ->
  (exists e0, In (UEvent e0) log /\ says e0 e) \/ collides sha256.
Proof.
  intros sk pk log lim s e parse_pk O S R V AR K NI. pose proof (C21_well_formed_text _ _ _ _ _ CL S R) as OK.
  apply (genuine_said sk pk log e O OK AR); [|exact K|exact NI]. apply (C17_verify_exact num sha256 verify pubkey_parses (fun x => proj1 (SH x)) parse_pk e (proj1 (eo_id _ OK))) in V as (A & _ & B). split; assumption.
Qed.
(** A delegation that verifies on an event was made by the delegator, for the author
    of the event and with the conditions of the tag; these admit the event's kind
    and lie around its time. *)
Theorem C168_delegation : forall sk pk log e, Only sk pk log -> length (ev_pubkey e) = 32%nat -> bytes_ok (ev_pubkey e) ->
  event_verify_delegation sha256 verify pubkey_parses e = Ok tt -> (forall t x s, In t (ev_tags e) -> In x t -> hextext x s -> around s) -> forall c, first_delegation e pk c ->
  (In (UDelegation (ev_pubkey e) c) log /\ exists l n, loose c l n /\ (kinds_listed l = [] \/ In (ev_kind e) (kinds_listed l)) /\
    (forall a, last_opt (afters l) = Some a -> (a < ev_created e)%Z) /\ (forall b, last_opt (befores l) = Some b -> (ev_created e < b)%Z)) \/ collides sha256.
Proof.
  intros sk pk log e (P & F & U) L B V AR c FD. destruct (C37_event_sound sha256 verify pubkey_parses e L B V) as (bf & dh & c1 & th & ex & af & pk1 & tok & l & n & t & T & NB & HX & L1 & HT & _ & DT & VF & LO & K & A1 & A2).
  assert (Q : pk1 = pk /\ c1 = c).
  { destruct FD as (bf' & dh' & th' & ex' & af' & T' & NB' & HX'). rewrite T in T'. clear - T' NB NB' HX HX'. revert bf' T' NB'. induction bf as [|x bf IH]; intros bf' T' NB'.
    - destruct bf' as [|y bf']; cbn [app] in T'.
      + assert (dh = dh' /\ c1 = c) as (-> & ->) by (split; congruence). split; [exact (hextext_fun _ _ _ HX HX')|reflexivity].
      + exfalso. apply Forall_inv in NB'. apply NB'. assert (y = bs "delegation" :: dh :: c1 :: th :: ex) by congruence. subst y. eauto.
    - destruct bf' as [|y bf']; cbn [app] in T'.
      + exfalso. apply Forall_inv in NB. apply NB. assert (x = bs "delegation" :: dh' :: c :: th' :: ex') by congruence. subst x. unfold delegation_like. eauto 8.
      + apply (IH (Forall_inv_tail NB) bf'); [congruence|exact (Forall_inv_tail NB')]. }
  destruct Q as (-> & ->). assert (AT : around tok) by (apply (AR (bs "delegation" :: dh :: c :: th :: ex) th tok); [rewrite T; apply in_elt|cbn; tauto|exact HT]). destruct (U _ _ AT VF) as (u & I & S). rewrite Forall_forall in F. pose proof (F u I) as UO. destruct u as [e0|dk c2].
  - destruct S as (rnd & e' & S & D). rewrite (sign_digest _ _ _ _ _ P S) in D. right. exists (ser (set_pubkey e0 pk)), t. split; [exact (not_delegation _ _ _ _ DT)|exact D].
  - destruct S as (t2 & T2 & D). destruct (list_eq_dec N.eq_dec t t2) as [Q|Q]; [|right; exists t, t2; split; assumption]. subst t2. cbn [use_ok] in UO.
    destruct (C37_text_injective t (ev_pubkey e) c dk c2 L (proj1 UO) DT T2) as (<- & <-). left. split; [exact I|]. exists l, n. auto.
Qed.
(** Everything a relay accepts, from whatever texts, as the holder's. *)
Theorem C168_relay : forall sk pk log lim parse_pk ahead la e, Only sk pk log -> Forall (arrives ahead) la ->
  In e (accepted (fun s => client_read print parse lim (parse s)) (fun e now now2 => validate_full ser sha256 verify pubkey_parses parse_pk e ahead now now2) la) -> around (ev_sig e) -> ev_pubkey e = pk ->
  (forall e0, In (UEvent e0) log -> num (ev_created e) = num (ev_created e0) -> ev_created e = ev_created e0) ->
  (exists e0, In (UEvent e0) log /\ says e0 e) \/ collides sha256.
Proof.
  intros sk pk log lim parse_pk ahead la e O F I AR K NI. assert (CO : crypto_ok sha256 (fun _ => None) (fun _ _ _ => None) verify pubkey_parses) by (split; [exact SH|discriminate|discriminate]).
  destruct (accepted_ok num sha256 _ _ verify pubkey_parses print parse CO CL lim parse_pk ahead la e F I) as (OK & SG). exact (genuine_said sk pk log e O OK AR SG K NI).
Qed.
End Signed.

(** *** A concrete case: a note and a delegation signed with one key *)
Definition sg_note : event := mkEvent (repeat 0 32) (repeat 0 32) 1600000000 1 [] (Some (bs "x")) (repeat 0 64).
Definition sg_log : list use := [UEvent sg_note; UDelegation toy_pk (bs "kind=1")].
Definition sg_digest1 : list N := GiftWrapProps.toy_sha (serialize_own (set_pubkey sg_note toy_key)).
Definition sg_digest2 : list N := GiftWrapProps.toy_sha (delegation_string toy_pk (bs "kind=1")).
(** The key's signatures are on these two digests only; anybody else's always pass. *)
Definition sg_sver (pk d s : list N) : bool := negb (beq pk toy_key) || beq d sg_digest1 || beq d sg_digest2.
Definition sg_signed : event := fst (event_sign serialize_own GiftWrapProps.toy_sha toy_pub toy_sign sg_note toy_key (Some [])).
Definition sg_text : list N := jprint (event_to_tree sg_signed).
(** Another author's event in the name of the holder *)
Definition sg_granted : event := mkEvent (repeat 0 32) toy_pk 1600000000 1 [[bs "delegation"; hex_encode toy_key; bs "kind=1"; hex_encode (repeat 5 64)]] (Some (bs "y")) (repeat 5 64).
Example C168_meets :
  only_by serialize_own GiftWrapProps.toy_sha toy_pub toy_sign sg_sver (fun _ => True) toy_key toy_key sg_log /\
  (exists e, cstr_ok sg_text /\ event_from_json jparse None sg_text = Ok e /\ event_verify serialize_own GiftWrapProps.toy_sha sg_sver (fun _ => true) true e = Ok tt /\ ev_pubkey e = toy_key) /\
  event_verify_delegation GiftWrapProps.toy_sha sg_sver (fun _ => true) sg_granted = Ok tt /\ first_delegation sg_granted toy_key (bs "kind=1") /\ c_library jprint jparse.
Proof.
  assert (Z : forall n, bytes_ok (repeat 0 n)) by (intros n; apply Forall_repeat; reflexivity).
  split; [|split; [|split; [|split; [|exact own_c_library]]]].
  - split; [reflexivity|]. split.
    + repeat (apply Forall_cons || apply Forall_nil).
      * split; cbn [sg_note ev_id ev_pubkey ev_created ev_kind ev_tags ev_sig]; try (split; [reflexivity|apply Z]); [lia|reflexivity|constructor|apply cstr_dec; reflexivity].
      * split; [reflexivity|]. apply Forall_forall. intros x X. apply repeat_spec in X. subst x. reflexivity.
    + intros d s _ V. unfold sg_sver in V. rewrite beq_refl in V. cbn [negb orb] in V. apply orb_true_iff in V as [V|V]; apply beq_eq in V; subst d.
      * exists (UEvent sg_note). split; [left; reflexivity|]. exists (Some []), sg_signed. split; [|reflexivity]. vm_compute. reflexivity.
      * exists (UDelegation toy_pk (bs "kind=1")). split; [right; left; reflexivity|]. destruct (C37_text GiftWrapProps.toy_sha toy_pk (bs "kind=1") sg_digest2) as (t & T & E); [reflexivity| |reflexivity|exists t; split; [exact T|exact E]].
        apply Forall_forall. intros x X. apply repeat_spec in X. subst x. reflexivity.
  - eexists. split; [apply cstr_dec; vm_compute; reflexivity|]. split; [vm_compute; reflexivity|]. split; vm_compute; reflexivity.
  - vm_compute. reflexivity.
  - exists [], (hex_encode toy_key), (hex_encode (repeat 5 64)), [], []. split; [reflexivity|]. split; [constructor|]. apply hextext_encode. apply Forall_forall. intros x X. apply repeat_spec in X. subst x. reflexivity.
Qed.
Print Assumptions C168_event.
Print Assumptions C168_delegation.
Print Assumptions C168_relay.
Print Assumptions C168_meets.
