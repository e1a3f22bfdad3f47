(** Published lists through a relay: C161. *)
From Verif Require Import Base BaseFacts Heap Dec Json Hex HexSpec HexProofs Event EventSpec EventProps EventMemSpec EventOomSpec Base64 Nip21 Nip44 Nip44Spec Nip44Props GiftWrap GiftWrapSpec GiftWrapProps Nip18 Nip18Spec Nip18Props Nip51 Nip51Spec Nip51Props Nip65 Nip65Spec Nip65Props Nip46Spec Nip46Props RelayProto RelayProtoSpec RelayProtoProps RelayFilter RelayFilterSpec RelayFilterProps RelayMsg RelayMsgSpec RelayMsgProps RelayRecv RelayRecvSpec RelayRecvProps RelaySubProps JsonSpec JsonLib JsonLibProofs RelaySend RelaySendSpec RelaySendProps DeliverySpec DeliveryProps PrivateTripProps SignTripProps WalletTripProps PublicTripProps.
Open Scope N_scope.

(** ** C161 *)
(** *** The follower's filter: one author's events of one kind, or with one
    identifier *)
Definition feed (kind : N) (pk : list N) (d : option (list N)) : list (list N * json) :=
  [(bs "kinds", JArr [JNum (JFin (Z.of_N kind) 0)]); (bs "authors", JArr [JStr (hex_encode pk)])] ++
  match d with Some x => [(bs "#d", JArr [JStr x])] | None => [] end.
Definition written (kind : N) (pk : list N) (d : option (list N)) (e : event) : Prop :=
  ev_kind e = kind /\ ev_pubkey e = pk /\ forall x, d = Some x -> has e (bs "d") x.
Lemma feed_in kind pk d k v : In (k, v) (feed kind pk d) ->
  (k = bs "kinds" /\ v = JArr [JNum (JFin (Z.of_N kind) 0)]) \/ (k = bs "authors" /\ v = JArr [JStr (hex_encode pk)]) \/ (exists x, d = Some x /\ k = bs "#d" /\ v = JArr [JStr x]).
Proof.
  unfold feed. intros I. apply in_app_or in I. destruct I as [[I|[I|[]]]|I].
  - left. split; [exact (eq_sym (f_equal fst I))|exact (eq_sym (f_equal snd I))].
  - right. left. split; [exact (eq_sym (f_equal fst I))|exact (eq_sym (f_equal snd I))].
  - destruct d as [x|]; [|destruct I]. destruct I as [I|[]]. right. right. exists x. split; [reflexivity|]. split; [exact (eq_sym (f_equal fst I))|exact (eq_sym (f_equal snd I))].
Qed.
Lemma feed_request kind pk d : kind < 65536 -> length pk = 32%nat -> bytes_ok pk -> request_filter (JObj (feed kind pk d)).
Proof.
  intros KB PL PB. exists (feed kind pk d). split; [reflexivity|]. split; [|split].
  - constructor.
    + unfold feed. rewrite map_app. destruct d; cbn; repeat constructor; cbn; intuition discriminate.
    + intros k v n I R SL. apply same_letters_iff in SL. cbn in R. apply feed_in in I.
      destruct I as [(-> & _)|[(-> & _)|(x & _ & -> & _)]]; (repeat destruct R as [R|R]; try contradiction; subst n; vm_compute in SL; try discriminate; reflexivity).
    + intros k v I C. apply feed_in in I. destruct I as [(-> & ->)|[(-> & ->)|(x & _ & -> & ->)]].
      * exfalso. destruct C as [C|[C|(c & C & _)]]; discriminate.
      * exists [hex_encode pk]. split; [reflexivity|cbn; lia].
      * exists [x]. split; [reflexivity|cbn; lia].
    + intros v I. apply feed_in in I. destruct I as [(_ & ->)|[(X & _)|(x & _ & X & _)]]; [|discriminate X|discriminate X].
      exists [JFin (Z.of_N kind) 0]. split; [reflexivity|]. split; [cbn; lia|]. constructor; [|constructor]. exists (Z.of_N kind). split; [exists (Z.of_N kind), 0%Z; repeat split; lia|lia].
    + intros k v I C. apply feed_in in I. exfalso. destruct I as [(-> & _)|[(-> & _)|(x & _ & -> & _)]]; destruct C; discriminate.
    + intros v I. apply feed_in in I. exfalso. destruct I as [(X & _)|[(X & _)|(x & _ & X & _)]]; discriminate X.
  - intros k ss I C. apply feed_in in I. destruct I as [(-> & V)|[(-> & V)|(x & _ & -> & V)]]; [exfalso; destruct C; discriminate| |exfalso; destruct C; discriminate].
    destruct ss as [|s [|]]; try discriminate. assert (s = hex_encode pk) by (cbn [map] in V; congruence). subst s. constructor; [|constructor].
    destruct (hex_encode_id pk PL PB) as (L & H). split; [lia|exact H].
  - intros k ss I C. apply feed_in in I. exfalso. destruct I as [(-> & V)|[(-> & V)|(x & _ & -> & V)]]; destruct C; discriminate.
Qed.
Lemma feed_writable kind pk d : kind < 65536 -> bytes_ok pk -> (forall x, d = Some x -> cstr_ok x) -> writable (JObj (feed kind pk d)) /\ depth (JObj (feed kind pk d)) <= 100.
Proof.
  intros KB PB DC. split; [|destruct d; cbn; lia]. constructor. apply Forall_forall. intros (k, v) I. cbn [fst snd]. apply feed_in in I. destruct I as [(-> & ->)|[(-> & ->)|(x & E & -> & ->)]]; (split; [apply cstr_dec; reflexivity|]).
  - constructor. apply Forall_cons; [constructor; change (10 ^ 15)%Z with 1000000000000000%Z; lia|apply Forall_nil].
  - constructor. apply Forall_cons; [constructor; apply cstr_hex, PB|apply Forall_nil].
  - constructor. apply Forall_cons; [constructor; apply DC, E|apply Forall_nil].
Qed.
Lemma feed_wants kind pk d e : length pk = 32%nat -> bytes_ok pk -> ids_ok e -> wanted [JObj (feed kind pk d)] e <-> written kind pk d e.
Proof.
  intros PL PB (_ & _ & EL & EB). split.
  - intros (l & [I|[]] & S). assert (l = feed kind pk d) by congruence. subst l. clear I. split; [|split].
    + destruct (S (bs "kinds") _ (or_introl eq_refl)) as (_ & _ & K & _). destruct (K eq_refl) as (l & n & L & I1 & (m & x & -> & X & Z)).
      assert (l = [JNum (JFin (Z.of_N kind) 0)]) by congruence. subst l. destruct I1 as [I1|[]]. assert (m = Z.of_N kind /\ x = 0%Z) as (-> & ->) by (split; congruence).
      rewrite Z.pow_0_r in Z. lia.
    + destruct (S (bs "authors") _ (or_intror (or_introl eq_refl))) as (_ & K & _). destruct (K eq_refl) as (l & s & L & I1 & (h & r & H1 & H2)).
      assert (l = [JStr (hex_encode pk)]) by congruence. subst l. destruct I1 as [I1|[]]. assert (s = hex_encode pk) by congruence. subst s.
      assert (HE : h = hex_encode (ev_pubkey e)) by (eapply lower_hex_fun; [exact H1|apply lower_hex_encode, EB]).
      assert (r = []). { apply length_zero_iff_nil. apply (f_equal (@length N)) in H2. rewrite HE, app_length, !EventProofs.hex_encode_length, EL, PL in H2. lia. }
      subst r. rewrite app_nil_r in H2. pose proof (hextext_encode pk PB) as T1. pose proof (hextext_encode _ EB) as T2. rewrite <- HE, H2 in T2. eapply hextext_fun; eassumption.
    + intros x ->. destruct (S (bs "#d") _ (or_intror (or_intror (or_introl eq_refl)))) as (_ & _ & _ & _ & _ & K). destruct (K 100 eq_refl ltac:(right; lia)) as (l & s & L & I1 & P).
      assert (l = [JStr x]) by congruence. subst l. destruct I1 as [I1|[]]. assert (s = x) by congruence. subst s. exact P.
  - intros (K & P & D). exists (feed kind pk d). split; [left; reflexivity|]. intros k v I. apply feed_in in I.
    destruct I as [(-> & ->)|[(-> & ->)|(x & E & -> & ->)]]; repeat split; try discriminate.
    + intros _. exists [JNum (JFin (Z.of_N kind) 0)], (JFin (Z.of_N kind) 0). split; [reflexivity|]. split; [left; reflexivity|]. rewrite K. exists (Z.of_N kind), 0%Z. rewrite Z.pow_0_r. repeat split; lia.
    + intros _. exists [JStr (hex_encode pk)], (hex_encode pk). split; [reflexivity|]. split; [left; reflexivity|]. rewrite P. exists (hex_encode pk), []. rewrite app_nil_r. split; [apply lower_hex_encode, PB|reflexivity].
    + intros c C LE. change (bs "#d") with [35; 100] in C. assert (c = 100) by congruence. subst c. exists [JStr x], x. split; [reflexivity|]. split; [left; reflexivity|exact (D x E)].
Qed.

(** *** What a follower who keeps one version ends up with *)
Definition follows (kind : N) (pk : list N) (d : option (list N)) (id : list N) (k : nat) (l' : list subscr) (sent : option (list N)) : Prop :=
  exists l filters ok f, named l /\ subscribe l id filters (Some k) ok f = (l', sent, Ok tt) /\ a_id f = true /\ sub_id id /\ elems [JObj (feed kind pk d)] filters.
(** Whatever else was published, if [w] is the author's latest version, then what
    the handler was given, reduced by the library's comparison, is [w]. *)
Definition keeps (printr print' : json -> list N) (parse : list N -> option json) (lim limr : option ev_limits) (on_message : bool) (kind : N) (pk : list N) (d : option (list N)) (id : list N) (k : nat)
  (l' : list subscr) (sent : option (list N)) (print : json -> list N) (w : event) (reads : event -> Prop) : Prop :=
  exists req fs, sent = Some req /\ client_read printr parse limr (parse req) = ROk (CReq id fs) /\
  forall es texts, Forall2 (published print) es texts -> Forall carried_event es -> Forall few_tags es ->
  Forall (within_limits limr) es -> Forall (within_limits lim) es ->
  In w es -> (forall x, In x es -> written kind pk d x -> x = w \/ beats w x) ->
  (exists xs, forwards (fun s => client_read printr parse limr (parse s)) id fs texts xs) /\
  forall xs wires cs, forwards (fun s => client_read printr parse limr (parse s)) id fs texts xs ->
  Forall2 (serialized printr parse) xs wires -> spread wires (whole cs) -> kept rbuf0 cs ->
  exists b l'' g gs, serve parse (fun j => parse (print' j)) lim (fun _ => []) on_message rbuf0 l' cs = Ok (b, l'', map (OEvent k) (g :: gs)) /\
    same_event (survivor compare_replaceable g gs) w /\ reads (survivor compare_replaceable g gs).
Lemma picked_in P l l' : picked P l l' -> forall x, In x l' <-> In x l /\ P x.
Proof.
  induction 1 as [|e l l' p pk IH|e l l' p pk IH]; intros x; cbn [In]; rewrite ?IH.
  - tauto.
  - split; [intros [->|I]; tauto|tauto].
  - split; [tauto|]. intros ([->|I] & Q); [contradiction|tauto].
Qed.
Lemma Forall2_in_l {A B} (R : A -> B -> Prop) l m : Forall2 R l m -> forall x, In x l -> exists y, In y m /\ R x y.
Proof. induction 1 as [|a b l m r f IH]; intros x I; [destruct I|]. destruct I as [->|I]; [exists b; cbn; auto|]. destruct (IH x I) as (y & Y & Q). exists y. cbn. auto. Qed.
Lemma Forall2_in_r {A B} (R : A -> B -> Prop) l m : Forall2 R l m -> forall y, In y m -> exists x, In x l /\ R x y.
Proof. induction 1 as [|a b l m r f IH]; intros y I; [destruct I|]. destruct I as [->|I]; [exists a; cbn; auto|]. destruct (IH y I) as (x & X & Q). exists x. cbn. auto. Qed.
Lemma carried_ids e : carried_event e -> ids_ok e.
Proof. intros (O & _). destruct (eo_id e O) as (A & B). destruct (eo_pk e O) as (C & D). repeat split; assumption. Qed.
Lemma follower_keeps print printr print' parse lim limr om kind pk d id k l' sent w (reads : event -> Prop) :
  json_library print parse -> json_library printr parse -> json_library print' parse -> kind < 65536 -> length pk = 32%nat -> bytes_ok pk -> (forall x, d = Some x -> cstr_ok x) ->
  follows kind pk d id k l' sent -> written kind pk d w -> (forall g, same_event g w -> reads g) ->
  keeps printr print' parse lim limr om kind pk d id k l' sent print w reads.
Proof.
  intros LC LR LP KB PL PB DC (l & filters & ok & f & NL & SUB & AI & SI & EL) WW RD.
  destruct (feed_writable kind pk d KB PB DC) as (IW & ID).
  destruct (C140_delivered_partial print printr print' parse lim limr om l id filters k ok f l' sent [JObj (feed kind pk d)] LC LR LP NL SUB AI SI EL
    ltac:(constructor; [exact IW|constructor]) ltac:(constructor; [exact ID|constructor]) ltac:(cbn; lia) ltac:(constructor; [apply feed_request; assumption|constructor]))
    as (req & fs & -> & RQ & DEL).
  exists req, fs. split; [reflexivity|]. split; [exact RQ|]. intros es texts PUB CA FT LA LB IW' BEST.
  destruct (DEL _ _ PUB CA FT LA LB) as (EX & GO). split; [exact EX|].
  intros xs wires cs FWD SE SP KP. destruct (GO xs wires cs FWD SE SP KP) as (b & l'' & got & want & SV & PCK & SAME).
  pose proof (picked_in _ _ _ PCK) as PI. rewrite Forall_forall in CA.
  assert (WI : In w want). { apply PI. split; [exact IW'|]. apply feed_wants; [exact PL|exact PB|apply carried_ids, CA, IW'|exact WW]. }
  destruct (Forall2_in_r _ _ _ SAME w WI) as (g' & GI & SG).
  destruct got as [|g gs]; [destruct GI|]. exists b, l'', g, gs. split; [exact SV|].
  assert (I32 : Forall id32 (g :: gs)).
  { apply Forall_forall. intros x I. destruct (Forall2_in_l _ _ _ SAME x I) as (y & YI & (_ & E & _)). apply PI in YI as (YI & _). unfold id32. rewrite E. apply (carried_ids y (CA y YI)). }
  destruct (survivor_best gs g (Forall_inv I32) (Forall_inv_tail I32)) as (SI' & SB). set (s := survivor compare_replaceable g gs) in *. clearbody s.
  destruct (Forall2_in_l _ _ _ SAME s SI') as (x & XI & SX). apply PI in XI as (XI & XW). apply feed_wants in XW; [|exact PL|exact PB|apply carried_ids, CA, XI].
  assert (SW : same_event s w).
  { destruct (BEST x XI XW) as [->|BT]; [exact SX|]. exfalso. rewrite Forall_forall in SB. apply (SB g' GI). clear - BT SX SG.
    destruct SX as ((_ & S1 & _) & S2 & _). destruct SG as ((_ & G1 & _) & G2 & _). unfold beats in *. rewrite S1, S2, G1, G2. exact BT. }
  split; [exact SW|apply RD, SW].
Qed.

Section FollowTrip.
Variable num : Z -> list N.
Variable sha256 : list N -> list N.
Variable pubkey_of : list N -> option (list N).
Variable sign : list N -> list N -> list N -> option (list N).
Variable verify : list N -> list N -> list N -> bool.
Variable pubkey_parses : list N -> bool.
Variable nce : list N -> list N -> list N -> list N -> option (list N * list N).
Variable ncm : list N -> list N -> list N.
Variable ncv : list N -> list N -> list N -> list N -> list N -> bool.
Variable ncd : list N -> list N -> list N -> list N -> option (list N).
Variable mt : list N -> list N -> list N -> list N -> Prop.
Variable b64enc : list N -> list N.
Variable b64dec : list N -> option (list N).
(** The libraries of the author, the relay and the follower, and their
    configurations. *)
Variable print printr printf : json -> list N.
Variable parse : list N -> option json.
Variable l44 : limits.
Variable lim limr limf : option ev_limits.
Hypothesis CO : crypto_ok sha256 pubkey_of sign verify pubkey_parses.
Hypothesis LS : json_library print parse.
Hypothesis LR : json_library printr parse.
Hypothesis LF : json_library printf parse.
Notation ser := (serialize_with num).
Notation Sign := (event_sign ser sha256 pubkey_of sign).

(** A relay list: whatever calls built it. *)
Lemma rl_shape cs a rs now e0 : rl_run rl_create cs = Ok (a, rs) -> rl_to_event lim now a = Ok e0 ->
  exists l, rl_entries a = Ok l /\ ev_kind e0 = 10002 /\ ev_created e0 = now /\ ev_content e0 = Some [] /\ ev_tags e0 = map entry_tag l /\ relays_ok l.
Proof.
  intros E T. destruct (run_spec cs _ _ holds_create empty_ok) as (a' & rs' & l & E' & _ & H & R). assert (a' = a) by congruence. subst a'.
  exists l. unfold rl_to_event in T. rewrite (entries_spec _ _ H) in T. cbn [bind] in T. split; [apply entries_spec, H|].
  apply add_tags_spec in T. subst e0. auto.
Qed.
Lemma rl_reads g l : ev_kind g = 10002 -> ev_tags g = map entry_tag l -> relays_ok l ->
  exists b, rl_from_event (fun _ => (true, true)) g = Ok b /\ rl_entries b = Ok l.
Proof.
  intros K T (F & ND & L). destruct (C49_from_event (fun _ => (true, true)) g) as [(K' & _)|[(_ & _ & j & J)|(_ & b & es & out & B & NA & FI & EN & _)]].
  - contradiction.
  - congruence.
  - exists b. split; [exact B|]. rewrite EN. f_equal. rewrite T in NA. rewrite (named_fun _ _ _ NA (entries_named l F)) in FI.
    rewrite (firsts_fun _ _ _ _ FI (firsts_distinct l [] ND)). apply firstn_all2. lia.
Qed.
Definition relays_said (g : event) (l : list entry) : Prop :=
  signed ser sha256 verify g /\ exists b, rl_from_event (fun _ => (true, true)) g = Ok b /\ rl_entries b = Ok l /\
  forall for_read : bool, exists n, rl_by_flag true [] b for_read = Ok (Ok (map en_url (filter (fun x => if for_read then en_read x else en_write x) l)), n).
Theorem C161_relays_partial : forall cs a rs now e0 sk own rnd e l,
  rl_run rl_create cs = Ok (a, rs) -> rl_entries a = Ok l -> rl_to_event lim now a = Ok e0 -> Sign e0 sk rnd = (e, Ok tt) -> pubkey_of sk = Some own ->
  (0 <= now < 10 ^ 15)%Z -> Forall (fun x => cstr_ok (en_url x)) l ->
  forall on_message i k l' sent, follows 10002 own None i k l' sent ->
  keeps printr printf parse limf limr on_message 10002 own None i k l' sent print e (fun g => relays_said g l).
Proof.
  intros cs a rs now e0 sk own rnd e l RUN EN TE SG PK NR CU om i k l' sent FO.
  destruct (rl_shape _ _ _ _ _ RUN TE) as (l0 & EN' & K & C & CT & T & R). assert (l0 = l) by congruence. subst l0. clear EN'.
  destruct (co_pub _ _ _ _ _ CO _ _ PK) as (PL & PB & _).
  destruct (signed_carried num sha256 pubkey_of sign verify pubkey_parses CO e0 sk rnd e own SG PK) as (CE & EP & ES & EK & ET & EC).
  { rewrite C. exact NR. } { rewrite K. reflexivity. }
  { rewrite T. apply Forall_forall. intros t I. apply in_map_iff in I as (x & <- & I). rewrite Forall_forall in CU. specialize (CU x I). unfold entry_tag.
    destruct (negb (en_read x) || negb (en_write x)); (split; [discriminate|]); repeat (apply Forall_cons; [first [exact CU|apply cstr_dec; reflexivity|destruct (en_read x); apply cstr_dec; reflexivity]|]); apply Forall_nil. }
  { unfold content_of. rewrite CT. constructor. }
  eapply follower_keeps; try eassumption; try reflexivity.
  - discriminate.
  - split; [congruence|]. split; [exact EP|discriminate].
  - intros g SE. pose proof SE as ((P & _ & K' & T' & _) & _). split; [eapply signed_same; eassumption|].
    destruct (rl_reads g l) as (b & B1 & B2); [congruence|congruence|exact R|]. exists b. split; [exact B1|]. split; [exact B2|].
    intros fr. unfold rl_by_flag. rewrite B2. cbn [bind]. set (us := map en_url (filter _ l)). clearbody us. pose proof (copy_spec us [] []) as X.
    destruct us as [|u us]; [eexists; reflexivity|]. cbn [negb]. destruct X as [(n & X & _)|(_ & [])]. rewrite X. eexists. reflexivity.
Qed.

(** A list of kinds 10000 to 39999, public part for anybody, private part for the
    owner. *)
Hypothesis NC : nc_contract nce ncm ncv ncd mt.
Hypothesis B64 : b64_contract b64enc b64dec.
Hypothesis B64T : forall l, bytes_ok l -> cstr_ok (b64enc l).
Hypothesis B64N : forall l, l <> [] -> b64enc l <> [].
Hypothesis LIM : 1 <= lim_min l44 /\ lim_min l44 <= lim_max l44 /\ lim_max l44 <= 65535.
Notation encrypt := (nip44_encrypt nce ncm b64enc l44).
Notation decrypt := (nip44_decrypt ncv ncd b64dec l44).
Definition list_id (l : nlist) : option (list N) :=
  if (30000 <=? nl_kind l) && (nl_kind l <? 40000) then Some (match nl_d l with Some d => d | None => [] end) else None.
Definition list_cstr (l : nlist) : Prop :=
  Forall (fun x => it_private x = false -> strings_ok x) (nl_items l) /\ opt_cstr (nl_d l) /\ opt_cstr (nl_title l) /\ opt_cstr (nl_desc l) /\ opt_cstr (nl_image l).
Lemma from_event_same a b keys : same_event a b -> from_event decrypt a keys = from_event decrypt b keys.
Proof.
  intros ((_ & _ & K & T & C) & _). unfold from_event. rewrite K, T. unfold content_of in C.
  destruct (ev_content a) as [x|], (ev_content b) as [y|]; subst; reflexivity.
Qed.
Lemma list_tags_cstr l : list_cstr l -> Forall (fun vs => vs <> [] /\ Forall cstr_ok vs) (head_tags l ++ map item_tag (filter public (nl_items l))).
Proof.
  intros (CI & C1 & C2 & C3 & C4).
  assert (ONE : forall n x, cstr_ok n -> cstr_ok x -> ([n; x] : list (list N)) <> [] /\ Forall cstr_ok [n; x]) by (intros n x A B; split; [discriminate|]; apply Forall_cons; [exact A|]; apply Forall_cons; [exact B|apply Forall_nil]).
  assert (OPT : forall n o, cstr_ok n -> opt_cstr o -> Forall (fun vs => vs <> [] /\ Forall cstr_ok vs) (match o with Some x => [[n; x]] | None => [] end)).
  { intros n o A B. destruct o; [|apply Forall_nil]. apply Forall_cons; [apply ONE; assumption|apply Forall_nil]. }
  apply Forall_app. split.
  - unfold head_tags. destruct (is_parameterized (nl_kind l)); [|apply Forall_nil].
    apply Forall_cons; [apply ONE; [apply cstr_dec; reflexivity|destruct (nl_d l); [exact C1|constructor]]|].
    repeat (apply Forall_app; split); apply OPT; try assumption; apply cstr_dec; reflexivity.
  - apply Forall_forall. intros t I. apply in_map_iff in I as (x & <- & I). apply filter_In in I as (I & P). rewrite Forall_forall in CI.
    destruct (CI x I) as (S1 & S2 & S3 & S4); [unfold public in P; apply negb_true_iff, P|]. split; [discriminate|]. unfold item_tag.
    apply Forall_app. split; [apply Forall_cons; [exact S1|]; apply Forall_cons; [exact S2|apply Forall_nil]|]. apply Forall_app. split.
    + destruct (it_relay x) as [r|]; [apply Forall_cons; [apply S3; reflexivity|]|]; apply Forall_nil.
    + destruct (it_pet x) as [p|]; [|apply Forall_nil]. apply Forall_app. split.
      * destruct (it_relay x); [apply Forall_nil|apply Forall_cons; [constructor|apply Forall_nil]].
      * apply Forall_cons; [apply S4; reflexivity|apply Forall_nil].
Qed.
Theorem C161_list_partial : forall l sk own nonce now e0 rnd e t,
  to_event lim encrypt l (Some (sk, own)) (Some nonce) now = Ok e0 -> Sign e0 sk rnd = (e, Ok tt) -> pubkey_of sk = Some own -> mt sk own sk own ->
  length nonce = 32%nat -> bytes_ok nonce -> (0 <= ev_created e0 < 10 ^ 15)%Z -> nl_kind l < 65536 -> list_cstr l ->
  Forall (fun x => it_private x = false -> ~ Nip51Props.reserved (it_tag x)) (nl_items l) -> Forall (fun x => it_private x = true -> Nip51Spec.fits x /\ strings_ok x) (nl_items l) ->
  N.of_nat (length (nl_items l)) <= 4096 -> build_private_content (nl_items l) = Ok t -> blen t <= 61440 ->
  forall on_message i k l' sent, follows (nl_kind l) own (list_id l) i k l' sent ->
  keeps printr printf parse limf limr on_message (nl_kind l) own (list_id l) i k l' sent print e (fun g => signed ser sha256 verify g /\
    from_event decrypt g None = Ok (header l (map public_form (filter public (nl_items l)))) /\
    from_event decrypt g (Some (sk, own)) = Ok (header l (map public_form (filter public (nl_items l)) ++ map tidy (filter it_private (nl_items l))))).
Proof.
  intros l sk own nonce now e0 rnd e t TE SG PK MT NL NB NR KB LC PR PF LN BT TB om i k l' sent FO.
  destruct (to_event_spec _ _ _ _ _ _ _ TE) as (K & T & CT). destruct (co_pub _ _ _ _ _ CO _ _ PK) as (PL & PB & _). destruct LIM as (L1 & L2 & L3).
  destruct (signed_carried num sha256 pubkey_of sign verify pubkey_parses CO e0 sk rnd e own SG PK NR) as (CE & EP & ES & EK & ET & EC).
  { rewrite K. exact KB. } { rewrite T. apply list_tags_cstr, LC. }
  { unfold content_of. destruct CT as [(_ & ->)|(sk' & pk' & t' & c & X & _ & _ & EN & ->)]; [constructor|].
    eapply (encrypted_cstr nce ncm ncv ncd mt b64enc l44 NC B64T); [|exact EN]. intros n EE. assert (n = nonce) by congruence. subst n. auto. }
  eapply follower_keeps; try eassumption.
  - intros x X. destruct LC as (_ & LD & _). unfold list_id in X. destruct (_ && _)%bool; [|discriminate]. destruct (nl_d l) as [d|]; [assert (x = d) by congruence; subst; exact LD|assert (x = []) by congruence; subst; constructor].
  - split; [congruence|]. split; [exact EP|]. intros x X. exists []. rewrite ET, T. apply in_or_app. left. unfold list_id in X. unfold head_tags. rewrite kind_range in X. destruct (is_parameterized (nl_kind l)); [|discriminate].
    left. assert (x = match nl_d l with Some d => d | None => [] end) by congruence. subst x. destruct (nl_d l); reflexivity.
  - intros g SE. split; [eapply signed_same; eassumption|].
    assert (SAME : forall keys, from_event decrypt g keys = from_event decrypt e0 keys).
    { intros keys. rewrite (from_event_same _ _ keys SE). unfold from_event. rewrite EK, ET, EC. reflexivity. }
    rewrite !SAME. split; [eapply C82_public; eassumption|].
    destruct (C82_roundtrip_partial nce ncm ncv ncd mt b64enc b64dec l44 lim l sk own nonce now e0 NC B64 MT B64N L1 L2 L3 NL NB PR PF LN TE) as (t' & BT' & RT).
    assert (t' = t) by congruence. subst t'. rewrite (proj2 (N.leb_le _ _) TB) in RT. exact RT.
Qed.
End FollowTrip.

(** *** Concrete runs: an old and a new version, the old one arriving last, and a
    note *)
Definition toy_rl (url : list N) (now : Z) : event :=
  match rl_run rl_create [(url, true, false, (true, true)); (bs "wss://b", true, true, (true, true))] with
  | Ok (a, _) => match rl_to_event None now a with Ok e => toy_signed e | _ => note2 end
  | _ => note2
  end.
Definition old_rl : event := toy_rl (bs "wss://old") 1700000000.
Definition new_rl : event := toy_rl (bs "wss://new") 1700000001.
Definition toy_nl (v : list N) : nlist :=
  mkList 30000 (Some (bs "friends")) (Some (bs "T")) None None [mkItem (bs "t") (bs "hush") None None true; mkItem (bs "t") v None (Some (bs "n")) false].
Definition toy_nl_event (v : list N) (now : Z) : event :=
  match to_event None (nip44_encrypt toy_enc8 toy_mac b64_encode default_limits) (toy_nl v) (Some (toy_key, toy_key)) (Some (repeat 9 32)) now with Ok e => toy_signed e | _ => note2 end.
Definition old_nl : event := toy_nl_event (bs "a") 1700000000.
Definition new_nl : event := toy_nl_event (bs "b") 1700000001.
Definition feed_req (kind : N) (d : option (list N)) : list N := bs "[""REQ"",""in""," ++ jprint (JObj (feed kind toy_key d)) ++ bs "]".
Definition feed_fs (kind : N) (d : option (list N)) : list rfilter := match client_read jprint jparse None (jparse (feed_req kind d)) with ROk (CReq _ fs) => fs | _ => [] end.
Lemma toy_follows kind d k : kind < 65536 -> (forall x, d = Some x -> cstr_ok x) -> follows kind toy_key d (bs "in") k (sub_of k) (Some (feed_req kind d)).
Proof.
  intros KB DC. exists [], (jprint (JObj (feed kind toy_key d))), true, all_well. split; [constructor|]. split; [reflexivity|]. split; [reflexivity|].
  split. { split; [cbn; lia|]. repeat (apply Forall_cons; [split; discriminate|]). apply Forall_nil. }
  assert (W : writable (JObj (feed kind toy_key d))) by (apply feed_writable; [exact KB|apply Forall_repeat; reflexivity|exact DC]).
  rewrite <- (app_nil_r (jprint _)), <- (app_nil_l (jprint _ ++ [])). apply ElOne; [exact ws_nil|exact (lib_print _ _ compact_library _ W)|exact ws_nil].
Qed.
Definition toy_follow (kind : N) (d : option (list N)) (old new : event) : Prop :=
  follows kind toy_key d (bs "in") 4 (sub_of 4) (Some (feed_req kind d)) /\
  Forall2 (published jprint) [new; note2; old] [trip_sent new; trip_sent note2; trip_sent old] /\
  (forall x, In x [new; note2; old] -> written kind toy_key d x -> x = new \/ beats new x) /\
  forwards (fun s => client_read jprint jparse None (jparse s)) (bs "in") (feed_fs kind d) [trip_sent new; trip_sent note2; trip_sent old] [told_of new; told_of old] /\
  Forall2 (serialized jprint jparse) [told_of new; told_of old] [wire (told_of new); wire (told_of old)].
Ltac toy_follow := split; [apply toy_follows; [reflexivity|intros x X; try discriminate X; assert (x = bs "friends") by congruence; subst; apply cstr_dec; reflexivity]|];
  split; [repeat (apply Forall2_cons; [apply toy_published; eexists; vm_compute; reflexivity|]); apply Forall2_nil|];
  split; [intros x [<-|[<-|[<-|[]]]] W; [left; reflexivity|exfalso; destruct W as (W & _); vm_compute in W; discriminate W|right; left; vm_compute; reflexivity]|];
  split; [apply FwSend; [vm_compute; reflexivity|vm_compute; reflexivity|]; apply FwKeep with (e := trip_got note2); [vm_compute; reflexivity|vm_compute; reflexivity|];
    apply FwSend; [vm_compute; reflexivity|vm_compute; reflexivity|]; apply FwNone|];
  repeat (apply Forall2_cons; [exists (repeat 0 3000), 3000; eexists; eexists; split; [vm_compute; reflexivity|]; vm_compute; reflexivity|]); apply Forall2_nil.
Example C161_relays_meets : exists a rs e0,
  rl_run rl_create [(bs "wss://new", true, false, (true, true)); (bs "wss://b", true, true, (true, true))] = Ok (a, rs) /\
  rl_entries a = Ok [mkEntry (bs "wss://new") true false; mkEntry (bs "wss://b") true true] /\ rl_to_event None 1700000001 a = Ok e0 /\
  event_sign serialize_own GiftWrapProps.toy_sha toy_pub toy_sign e0 toy_key (Some []) = (new_rl, Ok tt) /\ toy_follow 10002 None old_rl new_rl.
Proof.
  eexists _, _, _. split; [vm_compute; reflexivity|]. split; [vm_compute; reflexivity|]. split; [vm_compute; reflexivity|]. split; [vm_compute; reflexivity|]. toy_follow.
Qed.
Example C161_list_meets : exists e0,
  to_event None (nip44_encrypt toy_enc8 toy_mac b64_encode default_limits) (toy_nl (bs "b")) (Some (toy_key, toy_key)) (Some (repeat 9 32)) 1700000001 = Ok e0 /\
  event_sign serialize_own GiftWrapProps.toy_sha toy_pub toy_sign e0 toy_key (Some []) = (new_nl, Ok tt) /\ list_id (toy_nl (bs "b")) = Some (bs "friends") /\
  toy_follow 30000 (Some (bs "friends")) old_nl new_nl /\ from_event (nip44_decrypt toy_verify toy_dec b64_decode default_limits) new_nl (Some (toy_key, toy_key)) =
    Ok (mkList 30000 (Some (bs "friends")) (Some (bs "T")) None None [mkItem (bs "t") (bs "b") (Some []) (Some (bs "n")) false; mkItem (bs "t") (bs "hush") None None true]).
Proof.
  eexists. split; [vm_compute; reflexivity|]. split; [vm_compute; reflexivity|]. split; [reflexivity|]. split; [toy_follow|vm_compute; reflexivity].
Qed.
Print Assumptions C161_relays_partial.
Print Assumptions C161_list_partial.
