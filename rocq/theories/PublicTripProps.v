(** Reactions, reposts and replies through a relay: C160. *)
From Verif Require Import Base BaseFacts Heap Dec Json Hex HexSpec HexProofs Event EventSpec EventProps EventMemSpec EventOomSpec Base64 Nip21 Nip44 Nip44Spec Nip44Props GiftWrap GiftWrapSpec GiftWrapProps Nip10 Nip10Spec Nip10Props Nip18 Nip18Spec Nip18Props Nip46Spec Nip46Props RelayProto RelayProtoSpec RelayProtoProps RelayFilter RelayFilterSpec RelayFilterProps RelayMsg RelayMsgSpec RelayMsgProps RelayRecv RelayRecvSpec RelayRecvProps RelaySubProps JsonSpec JsonLib JsonLibProofs RelaySend RelaySendSpec RelaySendProps DeliverySpec DeliveryProps PrivateTripProps SignTripProps WalletTripProps.
Open Scope N_scope.

(** ** C160 *)
Lemma short_few e : (length (ev_tags e) <= 256)%nat -> few_tags e.
Proof.
  intros L name. unfold tags_named. assert (X : forall (f : list (list N) -> bool) l, (length (filter f l) <= length l)%nat).
  { intros f l. induction l as [|a l IH]; [cbn; lia|]. cbn [filter]. destruct (f a); cbn [length]; lia. }
  etransitivity; [apply X|exact L].
Qed.
Lemma reaction_create_shape lim now content id pk relay kind e : reaction_create lim now content id pk relay kind = Ok e ->
  ev_created e = now /\ ev_kind e = 7 /\ ev_content e = Some (match content with Some c => c | None => bs "+" end) /\
  ev_tags e = [bs "e"; id; match relay with Some r => r | None => [] end; pk] :: ([bs "p"; pk] ++ match relay with Some r => [r] | None => [] end) ::
    (if 0 <? kind then [[bs "k"; dec_N kind]] else []) /\ hex64 id.
Proof.
  unfold reaction_create. destruct (is_valid_hex_string id 64) eqn:V1; [|discriminate]. destruct (is_valid_hex_string pk 64) eqn:V2; [|discriminate].
  cbn [negb orb]. intros C. apply bind_ok in C as (e1 & A1 & C). apply bind_ok in C as (e2 & A2 & C).
  apply add_tag_ok in A1. apply add_tag_ok in A2.
  assert (E : e = if 0 <? kind then push e2 [bs "k"; dec_N kind] else e2) by (destruct (0 <? kind); [apply (add_tag_ok lim), C|congruence]).
  apply valid_hex_iff in V1. subst. destruct (0 <? kind); auto 10.
Qed.
Lemma hex64_cstr s : hex64 s -> cstr_ok s.
Proof.
  intros (_ & H). eapply Forall_impl; [|exact H]. intros c (d & D). apply hexdig_cases in D. unfold char_ok. lia.
Qed.

Section PublicTrip.
Variable num : Z -> list N.
Variable sha256 : list N -> list N.
Variable pubkey_of : list N -> option (list N).
Variable sign : list N -> list N -> list N -> option (list N).
Variable verify : list N -> list N -> list N -> bool.
Variable pubkey_parses : list N -> bool.
(** The libraries of the writer, the relay and the author, and their
    configurations. *)
Variable print printr printa : json -> list N.
Variable parse : list N -> option json.
Variable lim limr lima : option ev_limits.
Hypothesis CO : crypto_ok sha256 pubkey_of sign verify pubkey_parses.
Hypothesis LS : json_library print parse.
Hypothesis LR : json_library printr parse.
Hypothesis LA : json_library printa parse.
Notation ser := (serialize_with num).
Notation Sign := (event_sign ser sha256 pubkey_of sign).

Lemma signed_carried e0 sk rnd e own : Sign e0 sk rnd = (e, Ok tt) -> pubkey_of sk = Some own ->
  (0 <= ev_created e0 < 10 ^ 15)%Z -> ev_kind e0 < 65536 -> Forall (fun vs => vs <> [] /\ Forall cstr_ok vs) (ev_tags e0) -> cstr_ok (content_of e0) ->
  carried_event e /\ ev_pubkey e = own /\ signed ser sha256 verify e /\ ev_kind e = ev_kind e0 /\ ev_tags e = ev_tags e0 /\ ev_content e = ev_content e0.
Proof.
  intros SG PK CR KB TG CT. apply sign_created in SG as (own' & P & S1 & S2 & S3 & S4 & S5 & S6 & r & S7).
  assert (S1' : ev_pubkey e = own) by congruence. clear S1. rename S1' into S1. assert (P' : pubkey_of sk = Some own) by congruence. clear P. rename P' into P.
  pose proof (co_sha _ _ _ _ _ CO) as SHA. destruct (co_pub _ _ _ _ _ CO _ _ P) as (PL & PB' & _). destruct (co_sign _ _ _ _ _ CO _ _ _ _ _ P S7) as (SL & SB & SV).
  assert (B53 : (10 ^ 15 < 2 ^ 53)%Z) by reflexivity.
  split; [|split; [exact S1|split; [split; [exact S2|]|auto]]].
  - split; [|rewrite S3; lia]. constructor.
    + rewrite S2. apply SHA.
    + rewrite S1. auto.
    + rewrite S3. lia.
    + rewrite S4. exact KB.
    + rewrite S5. exact TG.
    + unfold content_of. rewrite S6. exact CT.
    + auto.
  - rewrite S1. exact SV.
Qed.

(** What the author's handler is given says who reacted, to what, and how. *)
Definition reaction_said (g : event) (own id pk : list N) (content : list N) (kind : N) : Prop :=
  ev_pubkey g = own /\ signed ser sha256 verify g /\
  (forall s1 s2 s3, exists o, reaction_parse g s1 s2 s3 = Ok (o, Ok tt) /\ shown s1 (Some content) (xo_content o) /\
    shown s2 (Some id) (xo_id o) /\ shown s3 (Some (hex_encode pk)) (xo_pubkey o) /\ xo_kind o = kind) /\
  (is_like g = Ok true <-> content = [] \/ content = bs "+") /\ (is_dislike g = Ok true <-> content = bs "-").
Lemma reaction_parse_same a b s1 s2 s3 : same_event a b -> reaction_parse a s1 s2 s3 = reaction_parse b s1 s2 s3.
Proof.
  intros ((_ & _ & K & T & C) & _). unfold reaction_parse. rewrite K, T.
  assert (X : copy_str_safe s1 (ev_content a) = copy_str_safe s1 (ev_content b)); [|rewrite X; reflexivity].
  unfold content_of in C. unfold copy_str_safe. destruct (N.eqb_spec s1 0) as [|NZ]; [reflexivity|].
  rewrite (proj2 (N.leb_gt s1 (s1 - 1))) by lia.
  destruct (ev_content a) as [x|], (ev_content b) as [y|]; subst; rewrite ?firstn_nil; reflexivity.
Qed.
Theorem C160_reaction_partial : forall now content id pk relay kind e0 sk own rnd e,
  reaction_create lim now content id (hex_encode pk) relay kind = Ok e0 -> Sign e0 sk rnd = (e, Ok tt) -> pubkey_of sk = Some own ->
  (0 <= now < 10 ^ 15)%Z -> kind <= 65535 -> length pk = 32%nat -> bytes_ok pk ->
  (forall c, content = Some c -> cstr_ok c) -> (forall r, relay = Some r -> cstr_ok r) -> within_limits limr e -> within_limits lima e ->
  forall on_message i k l' sent, subscribed_to 7 pk i k l' sent ->
  arrives printr printa parse lima limr on_message 7 pk i k l' sent print e
    (fun g => reaction_said g own id pk (match content with Some c => c | None => bs "+" end) kind).
Proof.
  intros now content id pk relay kind e0 sk own rnd e CR SG PK NR KB PL PB CC RC WR WL om i k l' sent (l & filters & ok & f & NL & SUB & AI & SI & EL).
  pose proof (reaction_create_shape _ _ _ _ _ _ _ _ CR) as (S1 & S2 & S3 & S4 & HI).
  assert (CX : cstr_ok (match content with Some c => c | None => bs "+" end)) by (destruct content; [auto|apply cstr_dec; reflexivity]).
  assert (HP : cstr_ok (hex_encode pk)) by (apply cstr_hex, PB). assert (HC : cstr_ok id) by (apply hex64_cstr, HI).
  destruct (signed_carried e0 sk rnd e own SG PK) as (CE & EP & ES & EK & ET & EC).
  { rewrite S1. exact NR. } { rewrite S2. reflexivity. }
  { rewrite S4. apply Forall_cons. { split; [discriminate|]. repeat (apply Forall_cons; [first [assumption|apply cstr_dec; reflexivity|destruct relay; [auto|constructor]]|]). apply Forall_nil. }
    apply Forall_cons. { split; [discriminate|]. repeat (apply Forall_cons; [first [assumption|apply cstr_dec; reflexivity]|]). destruct relay; [apply Forall_cons; [auto|]|]; apply Forall_nil. }
    destruct (0 <? kind); [|apply Forall_nil]. apply Forall_cons; [|apply Forall_nil]. split; [discriminate|]. apply Forall_cons; [apply cstr_dec; reflexivity|]. apply Forall_cons; [apply dec_cstr|apply Forall_nil]. }
  { unfold content_of. rewrite S3. exact CX. }
  eapply addressed_arrives; try eassumption; try reflexivity.
  - apply short_few. rewrite ET, S4. destruct (0 <? kind); cbn [length]; lia.
  - split; [congruence|]. eexists. rewrite ET, S4. right. left. reflexivity.
  - intros g SE. pose proof SE as ((P & _ & K & _ & C) & _). split; [congruence|]. split; [eapply signed_same; eassumption|].
    split.
    { intros s1 s2 s3. destruct (C46_reaction_roundtrip lim now content id (hex_encode pk) relay kind e0 s1 s2 s3 KB CR) as (_ & o & RP & R).
      exists o. split; [|exact R]. rewrite (reaction_parse_same _ _ _ _ _ SE). rewrite <- RP. unfold reaction_parse. rewrite EK, ET, EC. reflexivity. }
    set (c := match content with Some c => c | None => bs "+" end) in *. clearbody c.
    assert (K7 : ev_kind g = 7) by congruence. assert (CG : content_of g = c) by (rewrite C; unfold content_of; rewrite EC, S3; reflexivity).
    destruct (C46_like g K7) as (x & y & L1 & L2 & X & Y & _). rewrite L1, L2. unfold content_of in CG. split.
    { split.
      - intros Q. assert (x = true) by congruence. apply X in H. destruct H as [H|[H|H]]; rewrite H in CG; auto.
      - intros Q. f_equal. apply X. destruct (ev_content g) as [z|]; [|auto]. subst z. destruct Q as [Q|Q]; rewrite Q; auto. }
    split.
    + intros Q. assert (H : y = true) by congruence. apply Y in H. rewrite H in CG. auto.
    + intros Q. f_equal. apply Y. destruct (ev_content g) as [z|]; [congruence|]. rewrite Q in CG. discriminate CG.
Qed.

(** What the author's handler is given says who reposted what; the reposted event,
    if it was put in, can be taken out again. *)
Definition repost_said (g : event) (own id pk relay : list N) (kind : N) : Prop :=
  ev_pubkey g = own /\ signed ser sha256 verify g /\
  (forall s1 s2 s3, exists o, repost_parse g s1 s2 s3 = Ok (o, Ok tt) /\ shown s1 (Some id) (ro_id o) /\ shown s2 (Some (hex_encode pk)) (ro_pubkey o) /\
    shown s3 (Some relay) (ro_relay o) /\ ro_kind o = kind).
Lemma repost_cstr id pk relay kind d : cstr_ok id -> cstr_ok pk -> cstr_ok relay -> (forall x, d = Some x -> cstr_ok x) ->
  Forall (fun vs => vs <> [] /\ Forall cstr_ok vs) (repost_tags id pk relay kind d).
Proof.
  intros HC HP CR CD. assert (CL : cstr_ok (bs ":")) by (apply cstr_dec; reflexivity). unfold repost_tags.
  apply Forall_cons. { split; [discriminate|]. repeat (apply Forall_cons; [first [assumption|apply cstr_dec; reflexivity]|]). apply Forall_nil. }
  apply Forall_cons. { split; [discriminate|]. repeat (apply Forall_cons; [first [assumption|apply cstr_dec; reflexivity]|]). apply Forall_nil. }
  apply Forall_app. split.
  - destruct (kind =? 1); [apply Forall_nil|]. apply Forall_cons; [|apply Forall_nil]. split; [discriminate|]. apply Forall_cons; [apply cstr_dec; reflexivity|]. apply Forall_cons; [apply dec_cstr|apply Forall_nil].
  - destruct d as [x|]; [|apply Forall_nil]. apply Forall_cons; [|apply Forall_nil]. split; [discriminate|]. apply Forall_cons; [apply cstr_dec; reflexivity|]. apply Forall_cons; [|apply Forall_nil].
    apply Forall_app. split; [apply dec_cstr|]. apply Forall_app. split; [exact CL|]. apply Forall_app. split; [exact HP|]. apply Forall_app. split; [exact CL|exact (CD x eq_refl)].
Qed.
Theorem C160_repost_partial : forall now id pk relay kind d json e0 sk own rnd e,
  repost_create lim now id (hex_encode pk) relay kind d json = Ok e0 -> Sign e0 sk rnd = (e, Ok tt) -> pubkey_of sk = Some own ->
  (0 <= now < 10 ^ 15)%Z -> kind <= 65535 -> length pk = 32%nat -> bytes_ok pk ->
  cstr_ok relay -> (forall x, d = Some x -> cstr_ok x) -> (forall x, json = Some x -> cstr_ok x) -> within_limits limr e -> within_limits lima e ->
  forall on_message i k l' sent, subscribed_to (if kind =? 1 then 6 else 16) pk i k l' sent ->
  arrives printr printa parse lima limr on_message (if kind =? 1 then 6 else 16) pk i k l' sent print e
    (fun g => repost_said g own id pk relay kind /\
      forall orig, json = Some (event_to_json print orig) -> carried_event orig -> within_limits lima orig ->
      exists o, event_from_json parse lima (content_of g) = Ok o /\ same_event o orig).
Proof.
  intros now id pk relay kind d json e0 sk own rnd e CR SG PK NR KB PL PB RC DC JC WR WL om i k l' sent (l & filters & ok & f & NL & SUB & AI & SI & EL).
  pose proof CR as C0. apply C46_repost_event in C0 as (HI & _ & _ & S1 & S2 & S4 & S3 & _).
  assert (HP : cstr_ok (hex_encode pk)) by (apply cstr_hex, PB). assert (HC : cstr_ok id) by (apply hex64_cstr, HI).
  assert (KK : (if kind =? 1 then 6 else 16) < 65536) by (destruct (kind =? 1); reflexivity).
  destruct (signed_carried e0 sk rnd e own SG PK) as (CE & EP & ES & EK & ET & EC).
  { rewrite S1. exact NR. } { rewrite S2. exact KK. }
  { rewrite S4. apply repost_cstr; assumption. }
  { unfold content_of. rewrite S3. destruct json as [x|]; [exact (JC x eq_refl)|constructor]. }
  eapply addressed_arrives; try eassumption.
  - apply short_few. rewrite ET, S4. unfold repost_tags. cbn [length]. rewrite app_length. destruct (kind =? 1), d; cbn [length]; lia.
  - split; [congruence|]. eexists. rewrite ET, S4. right. left. reflexivity.
  - intros g SE. pose proof SE as ((P & _ & K & T & C) & _). split; [split; [congruence|split; [eapply signed_same; eassumption|]]|].
    + intros s1 s2 s3. destruct (C46_repost_roundtrip lim now id (hex_encode pk) relay kind d json e0 s1 s2 s3 KB CR) as (o & RP & R).
      exists o. split; [|exact R]. rewrite <- RP. unfold repost_parse. rewrite K, T, EK, ET. reflexivity.
    + intros orig EJ CO' WO. eexists. rewrite C. unfold content_of. rewrite EC, S3, EJ. split.
      * apply C20_json_roundtrip; [apply event_reads; assumption|apply CO'|pose proof (proj2 CO'); lia|exact WO].
      * repeat split; reflexivity.
Qed.

(** A reply: a note with the tags of the thread, then the people mentioned. *)
Fixpoint mention_all (max : nat) (ts : list (list (list N))) (ps : list (list N * option (list N))) : res (list (list (list N))) :=
  match ps with
  | [] => Ok ts
  | (pk, hint) :: r => do ts' <- add_mention_tag max ts (hex_encode pk) hint; mention_all max ts' r
  end.
Lemma mention_all_tags max ps : forall ts ts', mention_all max ts ps = Ok ts' ->
  ts' = ts ++ map (fun p => [bs "p"; hex_encode (fst p)] ++ match snd p with Some h => [h] | None => [] end) ps.
Proof.
  induction ps as [|(pk, hint) ps IH]; intros ts ts' M; cbn [mention_all map] in *.
  - rewrite app_nil_r. congruence.
  - apply bind_ok in M as (t1 & A & M). apply IH in M. unfold add_mention_tag, add_tag10 in A. destruct (max <=? length ts)%nat; [discriminate|].
    match type of A with Ok ?x = _ => assert (E : t1 = x) by congruence end. rewrite M, E, <- app_assoc. reflexivity.
Qed.
Definition opt_cstr (o : option (list N)) : Prop := match o with Some s => cstr_ok s | None => True end.
Theorem C160_reply_partial : forall max now content root rr rp reply pr pp ts ps ts' e0 sk own rnd e pk,
  add_reply_tags max [] (Some root) rr rp (Some reply) pr pp = (ts, Ok tt) -> mention_all max ts ps = Ok ts' ->
  e0 = mkEvent (repeat 0 32) (repeat 0 32) now 1 ts' (Some content) (repeat 0 64) -> Sign e0 sk rnd = (e, Ok tt) -> pubkey_of sk = Some own ->
  In pk (map fst ps) -> length pk = 32%nat -> (length ps <= 254)%nat -> (forall p, In p ps -> bytes_ok (fst p) /\ opt_cstr (snd p)) ->
  (0 <= now < 10 ^ 15)%Z -> cstr_ok content -> cstr_ok root -> cstr_ok reply -> opt_cstr rr -> opt_cstr rp -> opt_cstr pr -> opt_cstr pp ->
  (length root <= 64)%nat -> (length reply <= 64)%nat -> within_limits limr e -> within_limits lima e ->
  forall on_message i k l' sent, subscribed_to 1 pk i k l' sent ->
  arrives printr printa parse lima limr on_message 1 pk i k l' sent print e
    (fun g => ev_pubkey g = own /\ signed ser sha256 verify g /\ content_of g = content /\
      (forall ids rs, 65 <= ids ->
        get_root_id g ids rs = Ok (root, Nip10Spec.cut (N.min 255 (rs - 1)) (match rr with Some x => x | None => [] end)) /\
        get_reply_id g ids rs = Ok (reply, Nip10Spec.cut (N.min 255 (rs - 1)) (match pr with Some x => x | None => [] end))) /\
      (reply <> [] -> is_reply g = Ok true)).
Proof.
  intros max now content root rr rp reply pr pp ts ps ts' e0 sk own rnd e pk AR MA E0 SG PK IP PL LP PO NR CC C1 C2 O1 O2 O3 O4 L1 L2 WR WL om i k l' sent (l & filters & ok & f & NL & SUB & AI & SI & EL).
  apply mention_all_tags in MA. set (men := map _ ps) in MA.
  assert (ET : ts = [e_tag root rr (bs "root") rp; e_tag reply pr (bs "reply") pp]).
  { unfold add_reply_tags, add_tag10 in AR. destruct (max <=? length [])%nat; [discriminate|]. destruct (max <=? _)%nat; [discriminate|]. cbn [app] in AR. congruence. }
  assert (PB : bytes_ok pk). { apply in_map_iff in IP as (p & <- & IP). apply PO, IP. }
  assert (OC : forall o, opt_cstr o -> cstr_ok (match o with Some r => r | None => [] end)) by (intros [s|]; [auto|constructor]).
  assert (EC : forall a b m c, cstr_ok a -> opt_cstr b -> cstr_ok m -> opt_cstr c -> e_tag a b m c <> [] /\ Forall cstr_ok (e_tag a b m c)).
  { intros a b m c A B M C. split; [discriminate|]. unfold e_tag. apply Forall_app. split.
    - repeat (apply Forall_cons; [first [assumption|apply cstr_dec; reflexivity|apply OC; assumption]|]). apply Forall_nil.
    - destruct c; [apply Forall_cons; [exact C|]|]; apply Forall_nil. }
  assert (MC : Forall (fun vs => vs <> [] /\ Forall cstr_ok vs) men).
  { apply Forall_forall. intros t IT. apply in_map_iff in IT as (p & <- & IT). destruct (PO p IT) as (B & O). split; [discriminate|].
    apply Forall_app. split; [apply Forall_cons; [apply cstr_dec; reflexivity|]; apply Forall_cons; [apply cstr_hex, B|apply Forall_nil]|].
    destruct (snd p); [apply Forall_cons; [exact O|]|]; apply Forall_nil. }
  destruct (signed_carried e0 sk rnd e own SG PK) as (CE & EP & ES & EK & EG & EN).
  { subst e0. exact NR. } { subst e0. reflexivity. }
  { subst e0. cbn [ev_tags]. rewrite MA, ET. apply Forall_app. split; [|exact MC]. repeat (apply Forall_cons; [apply EC; try assumption; apply cstr_dec; reflexivity|]). apply Forall_nil. }
  { subst e0. exact CC. }
  subst e0. cbn [ev_kind ev_tags ev_content] in EK, EG, EN.
  assert (NM : forall m, Forall (fun t => ~ marked m t) men).
  { intros m. apply Forall_forall. intros t IT ((x & r & X) & _). apply in_map_iff in IT as (p & <- & _). discriminate X. }
  eapply addressed_arrives; try eassumption; try reflexivity.
  - apply short_few. rewrite EG, MA, ET. unfold men. rewrite app_length, map_length. cbn [length]. lia.
  - split; [exact EK|]. apply in_map_iff in IP as (p & EPK & IP). exists (match snd p with Some h => [h] | None => [] end). rewrite EG, MA. apply in_or_app. right.
    apply in_map_iff. exists p. rewrite EPK. auto.
  - intros g SE. pose proof SE as ((P & _ & K & T & C) & _). split; [congruence|]. split; [eapply signed_same; eassumption|].
    split; [rewrite C; unfold content_of; rewrite EN; reflexivity|].
    assert (RT : root_tag (ev_tags g) (e_tag root rr (bs "root") rp)).
    { left. exists [], (e_tag reply pr (bs "reply") pp :: men). rewrite T, EG, MA, ET. split; [reflexivity|]. split; [apply e_tag_marked|constructor]. }
    assert (YT : reply_tag (ev_tags g) (e_tag reply pr (bs "reply") pp)).
    { left. exists [e_tag root rr (bs "root") rp], men. rewrite T, EG, MA, ET. split; [reflexivity|]. split; [apply e_tag_marked|].
      constructor; [|constructor]. intros (_ & X). destruct rp; discriminate X. }
    split.
    + intros ids rs L. split; [apply C43_root|apply C43_reply]; (split; [exact L|]); eexists; (split; [eassumption|]).
      * split; [|destruct rp; reflexivity]. unfold Nip10Spec.cut. symmetry. apply firstn_all2. destruct rp; cbn [e_tag tag_id nth app]; lia.
      * split; [|destruct pp; reflexivity]. unfold Nip10Spec.cut. symmetry. apply firstn_all2. destruct pp; cbn [e_tag tag_id nth app]; lia.
    + intros NE. apply C78_exact_partial. eexists. split; [exact YT|]. destruct pp; exact NE.
Qed.
End PublicTrip.

(** Written in capitals, an author's key is accepted and copied as it is, and the
    author's own filter does not ask for the reaction. *)
Theorem C160_case_refuted : ~ (forall lim now content id text pk relay kind e, reaction_create lim now content id text relay kind = Ok e ->
  length pk = 32%nat -> bytes_ok pk -> hextext text pk -> wanted [JObj (inbox 7 pk)] e).
Proof.
  intros H. assert (HB : bytes_ok (repeat 170 32)) by (apply Forall_repeat; reflexivity).
  specialize (H None 5%Z None (repeat 97 64) (repeat 65 64) (repeat 170 32) None 1 _ eq_refl eq_refl HB).
  assert (X : hextext (repeat 65 64) (repeat 170 32)).
  { apply hex_loop_inv; [reflexivity|vm_compute; reflexivity]. }
  apply H in X. apply inbox_wants in X as (_ & r & I). vm_compute in I. repeat (destruct I as [I|I]; [discriminate I|]). exact I.
Qed.

(** *** Concrete runs: a reaction, a repost and a reply, each published after a
    note *)
Definition like_draft : event := match reaction_create None 1700000000 None (hex_encode (repeat 1 32)) (hex_encode toy_pk) (Some (bs "wss://r")) 1 with Ok e => e | _ => note2 end.
Definition repost_draft : event :=
  match repost_create None 1700000000 (hex_encode (repeat 1 32)) (hex_encode toy_pk) (bs "wss://r") 30023 (Some (bs "d")) (Some (event_to_json jprint note2)) with Ok e => e | _ => note2 end.
Definition reply_ts : list (list (list N)) := [e_tag (bs "r1") (Some (bs "wss://r")) (bs "root") None; e_tag (bs "r2") None (bs "reply") (Some (bs "x"))].
Definition reply_draft : event :=
  mkEvent (repeat 0 32) (repeat 0 32) 1700000000 1 (reply_ts ++ [[bs "p"; hex_encode toy_key]; [bs "p"; hex_encode toy_pk; bs "wss://r"]]) (Some (bs "yes")) (repeat 0 64).
Definition toy_signed (e : event) : event := fst (event_sign serialize_own GiftWrapProps.toy_sha toy_pub toy_sign e toy_key (Some [])).
Definition toy_run (kind : N) (w : event) : Prop :=
  subscribed_to kind toy_pk (bs "in") 4 (sub_of 4) (Some (wreq_of kind toy_pk)) /\
  Forall2 (published jprint) ([note2] ++ w :: []) [trip_sent note2; trip_sent w] /\
  forwards (fun s => client_read jprint jparse None (jparse s)) (bs "in") (wfs_of kind toy_pk) [trip_sent note2; trip_sent w] [told_of w] /\
  Forall2 (serialized jprint jparse) [told_of w] [wire (told_of w)].
Ltac toy_run := split; [apply toy_subscribed_to; [reflexivity|apply Forall_repeat; reflexivity]|];
  split; [repeat (apply Forall2_cons; [apply toy_published; eexists; vm_compute; reflexivity|]); apply Forall2_nil|];
  split; [apply FwKeep with (e := trip_got note2); [vm_compute; reflexivity|vm_compute; reflexivity|]; apply FwSend; [vm_compute; reflexivity|vm_compute; reflexivity|]; apply FwNone|];
  apply Forall2_cons; [|apply Forall2_nil]; exists (repeat 0 3000), 3000; eexists; eexists; split; [vm_compute; reflexivity|]; vm_compute; reflexivity.
Example C160_reaction_meets :
  reaction_create None 1700000000 None (hex_encode (repeat 1 32)) (hex_encode toy_pk) (Some (bs "wss://r")) 1 = Ok like_draft /\
  event_sign serialize_own GiftWrapProps.toy_sha toy_pub toy_sign like_draft toy_key (Some []) = (toy_signed like_draft, Ok tt) /\ toy_pub toy_key = Some toy_key /\
  toy_run 7 (toy_signed like_draft).
Proof. split; [vm_compute; reflexivity|]. split; [vm_compute; reflexivity|]. split; [reflexivity|]. toy_run. Qed.
Example C160_repost_meets :
  repost_create None 1700000000 (hex_encode (repeat 1 32)) (hex_encode toy_pk) (bs "wss://r") 30023 (Some (bs "d")) (Some (event_to_json jprint note2)) = Ok repost_draft /\
  event_sign serialize_own GiftWrapProps.toy_sha toy_pub toy_sign repost_draft toy_key (Some []) = (toy_signed repost_draft, Ok tt) /\
  cstr_ok (event_to_json jprint note2) /\ carried_event note2 /\ toy_run 16 (toy_signed repost_draft).
Proof.
  split; [vm_compute; reflexivity|]. split; [vm_compute; reflexivity|]. split; [apply cstr_dec; vm_compute; reflexivity|].
  split; [|toy_run]. split; [|reflexivity]. constructor.
  - split; [reflexivity|apply Forall_repeat; reflexivity].
  - split; [reflexivity|apply Forall_repeat; reflexivity].
  - split; [discriminate|reflexivity].
  - reflexivity.
  - apply Forall_forall. intros t I. revert t I. apply Forall_forall. repeat (apply Forall_cons; [split; [discriminate|]; repeat (apply Forall_cons; [apply cstr_dec; reflexivity|]); apply Forall_nil|]). apply Forall_nil.
  - apply cstr_dec. vm_compute. reflexivity.
  - split; [reflexivity|apply Forall_repeat; reflexivity].
Qed.
Example C160_reply_meets :
  add_reply_tags 100 [] (Some (bs "r1")) (Some (bs "wss://r")) None (Some (bs "r2")) None (Some (bs "x")) = (reply_ts, Ok tt) /\
  mention_all 100 reply_ts [(toy_key, None); (toy_pk, Some (bs "wss://r"))] = Ok (ev_tags reply_draft) /\
  event_sign serialize_own GiftWrapProps.toy_sha toy_pub toy_sign reply_draft toy_key (Some []) = (toy_signed reply_draft, Ok tt) /\ toy_run 1 (toy_signed reply_draft).
Proof. split; [reflexivity|]. split; [vm_compute; reflexivity|]. split; [vm_compute; reflexivity|]. toy_run. Qed.
Print Assumptions C160_reaction_partial.
Print Assumptions C160_repost_partial.
Print Assumptions C160_reply_partial.
Print Assumptions C160_case_refuted.
