(** Property C180: private messages of the library are those of NIP-17. *)
From Verif Require Import Base BaseFacts Dec Json Hex HexSpec HexProofs Event EventSpec EventProofs EventProps Base64 Nip44 Nip21 Nip44Spec Nip44Proofs Nip44Props GiftWrap GiftWrapSpec GiftWrapProps.
From Verif Require Import Nip44TextSpec Nip44TextProps ForeignDmSpec.
Open Scope N_scope.

Section Sent.
Variable num : Z -> list N.
Variable sha256 : list N -> list N.
Variable pubkey_of : list N -> option (list N).
Variable sign : list N -> list N -> list N -> option (list N).
Variable verify : list N -> list N -> list N -> bool.
Variable pubkey_parses : list N -> bool.
Variable seckey_valid : list N -> bool.
Variable print : json -> list N.
Variable parse : list N -> option json.
Variable lim44 : limits.
Variable lim : option ev_limits.
Hypothesis CO : crypto_ok sha256 pubkey_of sign verify pubkey_parses.
Variable P : prims.
Variable nce : list N -> list N -> list N -> list N -> option (list N * list N).
Variable ncm : list N -> list N -> list N.
Variable ncv : list N -> list N -> list N -> list N -> list N -> bool.
Variable ncd : list N -> list N -> list N -> list N -> option (list N).
Variable dec : list N -> option (list N).
Hypothesis PO : prims_ok P.
Hypothesis NC : noscrypt44 P nce ncm ncv ncd.
Hypothesis B64 : b64_contract (base64 P) dec.
Hypothesis B64T : forall l, bytes_ok l -> cstr_ok (base64 P l).
Hypothesis LIM : 1 <= lim_min lim44 /\ lim_min lim44 <= lim_max lim44 /\ lim_max lim44 <= 65535.
Notation ser := (serialize_with num).
Notation Seal := (create_seal ser sha256 pubkey_of sign nce ncm (base64 P) print lim44).
Notation Gift := (create_gift_wrap ser sha256 pubkey_of sign seckey_valid nce ncm (base64 P) print lim44 lim).

Lemma stamp_back d now t : random_timestamp d now = Ok t -> (now - 172800 <= t <= now)%Z.
Proof. clear. intros H. apply stamp_range in H as (r & _ & _ & W). unfold within_two_days in W. lia. Qed.
Lemma text_bytes t : cstr_ok t -> bytes_ok t.
Proof. intros C. eapply Forall_impl; [|exact C]. intros x H. unfold char_ok in H. unfold byte_ok. lia. Qed.
Lemma hex_cstr l : bytes_ok l -> cstr_ok (hex_encode l).
Proof.
  intros B. pose proof (hextext_all_hex _ _ (hextext_encode l B)) as A. eapply Forall_impl; [|exact A].
  intros c (d & D). apply hexdig_cases in D. unfold char_ok. lia.
Qed.
Lemma rumor_fields content pka pkr subject reply created now rumor :
  dm_rumor ser sha256 lim content pka pkr subject reply created now = Ok rumor ->
  ev_kind rumor = 14 /\ ev_pubkey rumor = pka /\ ev_content rumor = Some content /\ ev_created rumor = (if (created =? 0)%Z then now else created) /\
  ev_tags rumor = [[bs "p"; hex_encode pkr]] ++ match subject with Some s => [[bs "subject"; s]] | None => [] end ++
                match reply with Some x => [[bs "e"; hex_encode x]] | None => [] end /\
  (length (ev_id rumor) = 32%nat /\ bytes_ok (ev_id rumor)) /\ ev_sig rumor = repeat 0 64.
Proof.
  intros DR. unfold dm_rumor in DR. apply bind_ok in DR as (r1 & A1 & DR). apply bind_ok in DR as (r2 & A2 & DR). apply add_tag_ok in A1.
  assert (A2' : r2 = match subject with Some s => push r1 [bs "subject"; s] | None => r1 end) by (destruct subject; [apply (add_tag_ok lim), A2|congruence]).
  assert (A3' : rumor = match reply with Some i => push r2 [bs "e"; hex_encode i] | None => r2 end) by (destruct reply; [apply (add_tag_ok lim), DR|congruence]).
  assert (ID : length (ev_id (create_rumor ser sha256 KIND_DM pka (Some content) created now)) = 32%nat /\ bytes_ok (ev_id (create_rumor ser sha256 KIND_DM pka (Some content) created now)))
    by apply (co_sha _ _ _ _ _ CO).
  rewrite A3', A2', A1. destruct subject, reply; repeat (split; [reflexivity|]); (split; [exact ID|reflexivity]).
Qed.
Lemma rumor_ok content ska pka pkr subject reply created now rumor : pubkey_of ska = Some pka ->
  dm_rumor ser sha256 lim content pka pkr subject reply created now = Ok rumor ->
  cstr_ok content -> match subject with Some s => cstr_ok s | None => True end ->
  bytes_ok pkr -> match reply with Some i => bytes_ok i | None => True end ->
  (0 <= created <= 2 ^ 53)%Z -> (0 <= now <= 2 ^ 53)%Z -> event_ok rumor /\ (Z.abs (ev_created rumor) <= 2 ^ 53)%Z.
Proof.
  intros PK DR CC CS BP BR CR NR. apply rumor_fields in DR as (F1 & F2 & F3 & F4 & F5 & F6 & F7).
  destruct (co_pub _ _ _ _ _ CO _ _ PK) as (PL & PB & PP).
  assert (PE : cstr_ok (bs "p") /\ cstr_ok (bs "e") /\ cstr_ok (bs "subject")) by (repeat split; repeat constructor; unfold char_ok; cbn; lia).
  destruct PE as (PE1 & PE2 & PE3). pose proof hex_cstr as HC.
  assert (TC : (0 <= ev_created rumor <= 2 ^ 53)%Z) by (rewrite F4; destruct (created =? 0)%Z; assumption).
  split; [|lia]. constructor.
  - exact F6.
  - rewrite F2. auto.
  - change (2 ^ 53)%Z with 9007199254740992%Z in TC. lia.
  - rewrite F1. reflexivity.
  - rewrite F5. constructor.
    + split; [discriminate|]. repeat constructor; auto.
    + destruct subject, reply; cbn [app]; repeat (constructor; [split; [discriminate|repeat constructor; auto]|]); constructor.
  - unfold content_of. rewrite F3. exact CC.
  - rewrite F7. split; [reflexivity|]. apply Forall_repeat. reflexivity.
Qed.
Lemma own_text sk pk n m t : length n = 32%nat -> bytes_ok n -> bytes_ok m ->
  nip44_encrypt nce ncm (base64 P) lim44 sk pk (Some n) m = Ok t -> cstr_ok t.
Proof.
  intros N1 N2 Bm E. unfold nip44_encrypt in E. apply bind_ok in E as (pd & PD & E).
  assert (BP : bytes_ok pd) by (eapply pad_bytes; eassumption).
  rewrite (n_enc _ _ _ _ _ NC) in E. destruct (shared P sk pk) as [x|]; [|discriminate]. cbn [option_map] in E.
  match type of E with Ok ?y = _ => assert (X : t = y) by congruence end. rewrite X. apply B64T.
  rewrite (n_mac _ _ _ _ _ NC).
  apply Forall_app. split; [repeat constructor|]. apply Forall_app. split; [exact N2|]. apply Forall_app.
  split; [apply (p_bytes _ PO), BP|apply (p_mac _ PO)].
Qed.
Lemma reads e : json_faithful print parse e -> within_limits lim e -> event_ok e -> (Z.abs (ev_created e) <= 2 ^ 53)%Z ->
  (exists c, ev_content e = Some c) -> json_event parse lim (event_to_json print e) e.
Proof.
  intros (JF & _) W O T (c & C). exists (event_to_tree e). split; [exact JF|].
  pose proof (C20_json_roundtrip print parse lim e ltac:(intros t ->; exact JF) O T W) as R.
  unfold event_from_json, event_to_json in R. rewrite JF in R. rewrite R. destruct e as [i p t k g co s].
  cbn [ev_content] in C. subst co. reflexivity.
Qed.

(** What is sent is a private message as NIP-17 has it, for the drawn nonces and
    key, exactly if both texts have lengths at which the library pads as NIP-44
    does.  Missing: the other lengths, where it is false ([C180_written_refuted]). *)
Theorem C180_written_partial : forall content ska pka pkr subject reply created now sd wd n1 n2 o po rumor seal w,
  pubkey_of ska = Some pka -> sd_nonce sd = Some n1 -> wd_nonce wd = Some n2 ->
  length n1 = 32%nat -> bytes_ok n1 -> length n2 = 32%nat -> bytes_ok n2 ->
  cstr_ok content -> match subject with Some s => cstr_ok s | None => True end ->
  bytes_ok pkr -> match reply with Some i => bytes_ok i | None => True end ->
  (0 <= created <= 2 ^ 53)%Z -> (0 <= now <= 2 ^ 53)%Z -> (0 <= sd_now sd <= 2 ^ 53)%Z ->
  dm_rumor ser sha256 lim content pka pkr subject reply created now = Ok rumor ->
  Seal random_timestamp rumor ska pkr sd = Ok seal -> key_generate pubkey_of seckey_valid (wd_key wd) = Ok (o, po) ->
  send_dm ser sha256 pubkey_of sign seckey_valid nce ncm (base64 P) print lim44 lim content ska pkr subject reply created now sd wd = Ok w ->
  json_faithful print parse rumor -> within_limits lim rumor ->
  json_faithful print parse seal -> within_limits lim seal ->
  (sent P ser sha256 verify parse lim ska pka o po pkr n1 n2 (event_to_json print rumor) (event_to_json print seal) w seal rumor <->
   common_length (blen (event_to_json print rumor)) /\ common_length (blen (event_to_json print seal))).
Proof.
  intros content ska pka pkr subject reply created now sd wd n1 n2 o po rumor seal w PK S1 S2 L1 B1 L2 B2 CC CS BP BR CR NR NOW DR HS KG H JR WR JF WS.
  destruct (rumor_ok _ _ _ _ _ _ _ _ _ PK DR CC CS BP BR CR NR) as (RO & RC).
  pose proof (rumor_fields _ _ _ _ _ _ _ _ DR) as (_ & F2 & F3 & _).
  unfold send_dm in H. rewrite PK, DR in H. cbn [bind] in H. rewrite HS in H. cbn [bind] in H. rename H into HW.
  apply seal_shape in HS as (x1 & own & E1 & T1 & P1 & P2 & I1 & K1 & G1 & C1 & r1 & V1).
  apply wrap_shape in HW as (o' & po' & x2 & KG' & _ & E2 & _ & P3 & K2 & C2 & _).
  assert (Q : o' = o /\ po' = po) by (split; congruence). destruct Q as (Q1 & Q2). rewrite Q1 in E2. rewrite Q2 in P3. clear Q1 Q2 KG'.
  assert (OW : own = pka) by congruence. rewrite OW in P2. rewrite S1 in E1. rewrite S2 in E2.
  destruct (co_pub _ _ _ _ _ CO _ _ PK) as (PL & PB & PP). destruct (co_sign _ _ _ _ _ CO _ _ _ _ _ PK V1) as (SL & SB & SV).
  pose proof (text_bytes _ (proj2 JR)) as TB1. pose proof (text_bytes _ (proj2 JF)) as TB2.
  apply stamp_back in T1.
  assert (SO : event_ok seal).
  { constructor; rewrite ?I1, ?K1, ?G1; try (split; [assumption|assumption]).
    - apply (co_sha _ _ _ _ _ CO).
    - rewrite P2. auto.
    - change (2 ^ 53)%Z with 9007199254740992%Z in NOW. lia.
    - reflexivity.
    - constructor.
    - unfold content_of. rewrite C1. apply (own_text _ _ _ _ _ L1 B1 TB1 E1). }
  assert (SC : (Z.abs (ev_created seal) <= 2 ^ 53)%Z) by (change (2 ^ 53)%Z with 9007199254740992%Z in *; lia).
  destruct LIM as (LA & LB & LC).
  pose proof (C178_written_partial P nce ncm ncv ncd dec PO NC B64 lim44 _ _ _ _ _ LA LB LC L1 B1 TB1 E1) as I44.
  pose proof (C178_written_partial P nce ncm ncv ncd dec PO NC B64 lim44 _ _ _ _ _ LA LB LC L2 B2 TB2 E2) as O44.
  rewrite <- I44, <- O44. split.
  - intros [_ _ (c2 & D2 & X2) _ _ _ _ (c1 & D1 & X1) _ _].
    assert (Q1 : c1 = x1) by congruence. assert (Q2 : c2 = x2) by congruence. rewrite <- Q1, <- Q2. auto.
  - intros (X1 & X2). constructor; try assumption.
    + exists x2. auto.
    + apply reads; eauto.
    + split; [exact I1|]. rewrite P2. exact SV.
    + exists x1. auto.
    + apply reads; eauto.
Qed.
(** It names its recipient, its text and what it answers. *)
Theorem C180_fields : forall content pka pkr subject reply created now rumor,
  dm_rumor ser sha256 lim content pka pkr subject reply created now = Ok rumor ->
  ev_kind rumor = 14 /\ ev_pubkey rumor = pka /\ ev_content rumor = Some content /\
  In [bs "p"; hex_encode pkr] (ev_tags rumor) /\
  (forall s, subject = Some s -> In [bs "subject"; s] (ev_tags rumor)) /\
  (forall x, reply = Some x -> In [bs "e"; hex_encode x] (ev_tags rumor)).
Proof.
  intros content pka pkr subject reply created now rumor DR.
  apply rumor_fields in DR as (F1 & F2 & F3 & _ & F5 & _). repeat (split; [assumption|]). rewrite F5.
  split; [left; reflexivity|]. split.
  - intros y E. rewrite E. cbn [app In]. auto.
  - intros y E. rewrite E. cbn [app In]. right. apply in_or_app. right. left. reflexivity.
Qed.
End Sent.
Print Assumptions C180_written_partial.
Print Assumptions C180_fields.

(** A message whose seal has the text [L]. *)
Section Case.
Variable L : list N.
Hypothesis LH : hd_error L = Some 97.
Hypothesis LC : cstr_ok L.
Hypothesis LB : 1 <= blen L <= 65535.
Definition g_rumor : event := match dm_rumor serialize_own toy_sha None (bs "hi") toy_key toy_pk None None 0 1700000000 with Ok r => r | _ => toy_event end.
Definition g_make := create_seal serialize_own toy_sha toy_pub toy_sign p_enc p_hmac b64_encode (toy_print L) default_limits random_timestamp g_rumor toy_key toy_pk toy_sd.
Definition g_seal : event := match g_make with Ok s => s | _ => toy_event end.
Definition g_parse (s : list N) : option json := if beq s (bs "rumor") then Some (event_to_tree g_rumor) else Some (event_to_tree g_seal).
Definition g_send := send_dm serialize_own toy_sha toy_pub toy_sign toy_valid p_enc p_hmac b64_encode (toy_print L) default_limits None (bs "hi") toy_key toy_pk None None 0 1700000000 toy_sd (toy_wd (Some 5)).
Lemma g_seal_ok : g_make = Ok g_seal.
Proof. vm_compute. reflexivity. Qed.
Lemma g_rumor_text : event_to_json (toy_print L) g_rumor = bs "rumor".
Proof. vm_compute. reflexivity. Qed.
Lemma g_seal_text : event_to_json (toy_print L) g_seal = L.
Proof. vm_compute. reflexivity. Qed.
Lemma g_json_rumor : json_faithful (toy_print L) g_parse g_rumor.
Proof.
  pose proof g_rumor_text as X. unfold event_to_json in X. split; rewrite X; [reflexivity|]. repeat constructor; unfold char_ok; cbn; lia.
Qed.
Lemma g_json_seal : json_faithful (toy_print L) g_parse g_seal.
Proof.
  pose proof g_seal_text as X. unfold event_to_json in X. split; rewrite X; [|exact LC].
  unfold g_parse. destruct L as [|c r]; [discriminate|]. cbn in LH. assert (c = 97) by congruence. subst c. reflexivity.
Qed.
Lemma g_sent : exists w, g_send = Ok w.
Proof.
  assert (E : exists t, nip44_encrypt p_enc p_hmac b64_encode default_limits (repeat 6 32) toy_pk (Some (repeat 9 32)) L = Ok t).
  { unfold nip44_encrypt. rewrite pad_ok; [|unfold limits_ok; cbn; lia|cbn [default_limits lim_min lim_max]; exact LB]. eexists. reflexivity. }
  destruct E as (text & E). unfold g_send, send_dm. change (toy_pub toy_key) with (Some toy_key). cbv iota.
  assert (R : dm_rumor serialize_own toy_sha None (bs "hi") toy_key toy_pk None None 0 1700000000 = Ok g_rumor) by (vm_compute; reflexivity).
  rewrite R. cbn [bind]. pose proof g_seal_ok as S. unfold g_make in S. rewrite S. cbn [bind].
  unfold create_gift_wrap. change (key_generate toy_pub toy_valid (wd_key (toy_wd (Some 5)))) with (Ok (repeat 6 32, repeat 6 32)). cbn [bind fst snd].
  unfold encrypt. rewrite g_seal_text. change (wd_nonce (toy_wd (Some 5))) with (Some (repeat 9 32)). rewrite E. cbn [bind].
  change (random_timestamp (wd_time (toy_wd (Some 5))) (wd_now (toy_wd (Some 5)))) with (@Ok Z 1700000095%Z). cbn [bind add_tag add_pairs].
  unfold event_sign. change (toy_pub (repeat 6 32)) with (Some (repeat 6 32)).
  change (wd_aux (toy_wd (Some 5))) with (@Some (list N) []). cbv iota zeta. cbn [toy_sign]. eexists. reflexivity.
Qed.
Lemma g_exact w : g_send = Ok w ->
  (sent plain serialize_own toy_sha toy_sver g_parse None toy_key toy_key (repeat 6 32) (repeat 6 32) toy_pk (repeat 9 32) (repeat 9 32)
     (event_to_json (toy_print L) g_rumor) (event_to_json (toy_print L) g_seal) w g_seal g_rumor <-> common_length (blen (bs "rumor")) /\ common_length (blen L)).
Proof.
  intros W. assert (N9 : bytes_ok (repeat 9 32)) by (apply Forall_repeat; reflexivity).
  replace (common_length (blen (bs "rumor"))) with (common_length (blen (event_to_json (toy_print L) g_rumor))) by (rewrite g_rumor_text; reflexivity).
  replace (common_length (blen L)) with (common_length (blen (event_to_json (toy_print L) g_seal))) by (rewrite g_seal_text; reflexivity).
  apply (C180_written_partial dec_Z toy_sha toy_pub toy_sign toy_sver (fun _ => true) toy_valid (toy_print L) g_parse default_limits None toy_crypto plain p_enc p_hmac p_ver p_dec b64_decode
    plain_ok plain_nc base64_contract b64_encode_cstr ltac:(cbn; lia) (bs "hi") toy_key toy_key toy_pk None None 0 1700000000 toy_sd (toy_wd (Some 5)) (repeat 9 32) (repeat 9 32)
    (repeat 6 32) (repeat 6 32) g_rumor g_seal w); auto; try lia.
  - repeat constructor; unfold char_ok; cbn; lia.
  - apply Forall_repeat. reflexivity.
  - cbn [toy_sd sd_now]. lia.
  - exact g_json_rumor.
  - exact I.
  - exact g_json_seal.
  - exact I.
Qed.
End Case.
Example C180_meets : exists w, g_send short_seal = Ok w /\
  sent plain serialize_own toy_sha toy_sver (g_parse short_seal) None toy_key toy_key (repeat 6 32) (repeat 6 32) toy_pk (repeat 9 32) (repeat 9 32)
     (bs "rumor") short_seal w (g_seal short_seal) g_rumor.
Proof.
  assert (C : cstr_ok short_seal) by (repeat constructor; unfold char_ok; cbn; lia).
  destruct (g_sent short_seal ltac:(cbn; lia)) as (w & W). exists w. split; [exact W|].
  pose proof (g_exact short_seal eq_refl C ltac:(cbn; lia) w W) as X. rewrite g_rumor_text, g_seal_text in X. apply X. split; left; cbn; lia.
Qed.
(** Full statement (false): with a seal whose text takes 400 bytes it is not. *)
Theorem C180_written_refuted :
  ~ (forall num sha256 pubkey_of sign verify pubkey_parses seckey_valid print parse lim (P : prims) nce ncm ncv ncd dec
        content ska pka pkr subject reply created now sd wd n1 n2 o po rumor seal w,
       crypto_ok sha256 pubkey_of sign verify pubkey_parses -> prims_ok P -> noscrypt44 P nce ncm ncv ncd -> b64_contract (base64 P) dec ->
       (forall l, bytes_ok l -> cstr_ok (base64 P l)) ->
       pubkey_of ska = Some pka -> sd_nonce sd = Some n1 -> wd_nonce wd = Some n2 ->
       length n1 = 32%nat -> bytes_ok n1 -> length n2 = 32%nat -> bytes_ok n2 ->
       cstr_ok content -> match subject with Some s => cstr_ok s | None => True end ->
       bytes_ok pkr -> match reply with Some i => bytes_ok i | None => True end ->
       (0 <= created <= 2 ^ 53)%Z -> (0 <= now <= 2 ^ 53)%Z -> (0 <= sd_now sd <= 2 ^ 53)%Z ->
       dm_rumor (serialize_with num) sha256 lim content pka pkr subject reply created now = Ok rumor ->
       create_seal (serialize_with num) sha256 pubkey_of sign nce ncm (base64 P) print default_limits random_timestamp rumor ska pkr sd = Ok seal ->
       key_generate pubkey_of seckey_valid (wd_key wd) = Ok (o, po) ->
       send_dm (serialize_with num) sha256 pubkey_of sign seckey_valid nce ncm (base64 P) print default_limits lim content ska pkr subject reply created now sd wd = Ok w ->
       json_faithful print parse rumor -> within_limits lim rumor -> json_faithful print parse seal -> within_limits lim seal ->
       sent P (serialize_with num) sha256 verify parse lim ska pka o po pkr n1 n2 (event_to_json print rumor) (event_to_json print seal) w seal rumor).
Proof.
  intros H. set (L := repeat 97 400).
  assert (C : cstr_ok L) by (apply Forall_repeat; split; reflexivity).
  assert (B : blen L = 400) by reflexivity.
  assert (N9 : bytes_ok (repeat 9 32)) by (apply Forall_repeat; reflexivity).
  assert (BK : bytes_ok toy_pk) by (apply Forall_repeat; reflexivity).
  assert (CH : cstr_ok (bs "hi")) by (repeat constructor; unfold char_ok; cbn; lia).
  destruct (g_sent L ltac:(rewrite B; lia)) as (w & W).
  pose proof (H dec_Z toy_sha toy_pub toy_sign toy_sver (fun _ => true) toy_valid (toy_print L) (g_parse L) None plain p_enc p_hmac p_ver p_dec b64_decode
    (bs "hi") toy_key toy_key toy_pk None None 0%Z 1700000000%Z toy_sd (toy_wd (Some 5)) (repeat 9 32) (repeat 9 32) (repeat 6 32) (repeat 6 32) g_rumor (g_seal L) w
    toy_crypto plain_ok plain_nc base64_contract b64_encode_cstr eq_refl eq_refl eq_refl
    eq_refl N9 eq_refl N9 CH I BK I ltac:(lia) ltac:(lia) ltac:(cbn [toy_sd sd_now]; lia) ltac:(vm_compute; reflexivity) (g_seal_ok L) eq_refl W (g_json_rumor L) I (g_json_seal L eq_refl C ltac:(rewrite B; lia)) I) as X.
  apply (g_exact L eq_refl C ltac:(rewrite B; lia) w W) in X as (_ & [X|X]); rewrite B in X; [lia|discriminate X].
Qed.
Print Assumptions C180_written_refuted.
