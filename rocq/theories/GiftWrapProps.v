(** Property theorems C44, C45, C79, C80 (gift wraps). *)
From Verif Require Import Base BaseFacts Dec Json Hex HexSpec HexProofs Event EventSpec EventProofs EventProps Base64 Nip44 Nip21 Nip44Spec Nip44Proofs Nip44Props GiftWrap GiftWrapSpec.
Open Scope N_scope.

Lemma until_nul_spec t : exists b, t = until_nul t ++ b /\ ~ In 0 (until_nul t) /\ (b = [] \/ hd_error b = Some 0).
Proof.
  induction t as [|c t (b & E & N & H)]; [exists []; cbn; auto|]. cbn [until_nul]. destruct (N.eqb_spec c 0) as [->|NZ].
  - exists (0 :: t). cbn. auto.
  - exists b. cbn [app In]. split; [congruence|]. split; [intros [X|X]; [congruence|contradiction]|exact H].
Qed.
Lemma until_nul_unique a b : ~ In 0 a -> b = [] \/ hd_error b = Some 0 -> until_nul (a ++ b) = a.
Proof.
  induction a as [|c a IH]; intros N H.
  - destruct b as [|x b]; [reflexivity|]. destruct H as [|H]; [discriminate|]. cbn in H. assert (x = 0) by congruence. subst x. reflexivity.
  - cbn [app until_nul]. destruct (N.eqb_spec c 0) as [->|_]; [exfalso; apply N; left; reflexivity|]. f_equal. apply IH; [|exact H]. intros X. apply N. right. exact X.
Qed.
Lemma until_nul_cstr s : cstr_ok s -> until_nul s = s.
Proof.
  intros C. rewrite <- (app_nil_r s) at 1. apply until_nul_unique; [|left; reflexivity]. intros I. apply (proj1 (Forall_forall _ _) C) in I.
  unfold char_ok in I. lia.
Qed.
Lemma open_content_iff ncv ncd b64dec parse lim44 lim sk pk e i :
  open_content ncv ncd b64dec parse lim44 lim sk pk e = Ok i <-> carries (nip44_decrypt ncv ncd b64dec lim44) parse lim sk pk e i.
Proof.
  unfold open_content, carries, json_event, decrypt, event_from_json. split.
  - destruct (ev_content e) as [c|]; [|discriminate]. intros H. apply bind_ok in H as (t & D & H).
    destruct (until_nul_spec t) as (b & E & N & B). destruct (parse (until_nul t)) as [j|] eqn:P; [|discriminate].
    exists c, t, (until_nul t), b. repeat (split; [assumption || reflexivity|]). eauto.
  - intros (c & t & a & b & EC & D & E & NI & B & j & P & T). rewrite EC, D. cbn [bind].
    rewrite E, until_nul_unique, P by assumption. exact T.
Qed.

Lemma cstr_bytes s : cstr_ok s -> bytes_ok s.
Proof. apply Forall_impl. unfold char_ok, byte_ok. lia. Qed.
Definition push (e : event) (t : list (list N)) : event :=
  mkEvent (ev_id e) (ev_pubkey e) (ev_created e) (ev_kind e) (ev_tags e ++ [t]) (ev_content e) (ev_sig e).
Lemma add_tag_ok lim e t e' : add_tag lim e t = Ok e' -> e' = push e t.
Proof. unfold add_tag, push. destruct (match lim with Some l => _ | None => false end); [discriminate|]. congruence. Qed.
Section Props.
Variable num : Z -> list N.
Variable sha256 : list N -> list N.
Variable pubkey_of : list N -> option (list N).
Variable sign : list N -> list N -> list N -> option (list N).
Variable verify : list N -> list N -> list N -> bool.
Variable pubkey_parses : list N -> bool.
Variable parse_pk : bool.
Variable seckey_valid : list N -> bool.
Variable nce : list N -> list N -> list N -> list N -> option (list N * list N).
Variable ncm : list N -> list N -> list N.
Variable ncv : list N -> list N -> list N -> list N -> list N -> bool.
Variable ncd : list N -> list N -> list N -> list N -> option (list N).
Variable b64enc : list N -> list N.
Variable b64dec : list N -> option (list N).
Variable print : json -> list N.
Variable parse : list N -> option json.
Variable lim44 : limits.
Variable lim : option ev_limits.
Hypothesis sha_len : forall x, length (sha256 x) = 32%nat.

Notation ser := (serialize_with num).
Notation dec44 := (nip44_decrypt ncv ncd b64dec lim44).
Notation Uevent := (unwrap_event ser sha256 verify pubkey_parses parse_pk ncv ncd b64dec parse lim44 lim).
Notation Udm := (unwrap_dm ser sha256 verify pubkey_parses parse_pk ncv ncd b64dec parse lim44 lim).
Notation Auth := (authentic ser sha256 verify dec44 parse lim).

Lemma carries_idlen sk pk e i : carries dec44 parse lim sk pk e i -> length (ev_id i) = 32%nat.
Proof. intros (c & t & a & b & _ & _ & _ & _ & _ & j & _ & T). apply C21_import_partial in T as ((L & _) & _). exact L. Qed.

Lemma open_wrap_ok wrap sk w i : Uevent wrap sk = (w, Ok i) <->
  exists a, w = Some a /\ Auth sk wrap a i /\ (parse_pk = true -> pubkey_parses a = true).
Proof.
  unfold unwrap_event, open_wrap, authentic, signed. split.
  - destruct (N.eqb_spec (ev_kind wrap) KIND_GIFT_WRAP) as [K|]; cbn [negb]; [|discriminate].
    destruct (open_content ncv ncd b64dec parse lim44 lim sk (ev_pubkey wrap) wrap) as [seal| |] eqn:O; try discriminate.
    apply open_content_iff in O. destruct (N.eqb_spec (ev_kind seal) KIND_SEAL) as [KS|]; cbn [negb]; [|discriminate].
    destruct (event_verify _ _ _ _ _ seal) as [[]| |] eqn:V; try discriminate.
    apply (C17_verify_exact num sha256 verify pubkey_parses sha_len parse_pk seal (carries_idlen _ _ _ _ O)) in V.
    destruct V as (V1 & V2 & V3). intros H. exists (ev_pubkey seal). split; [congruence|]. split; [|exact V2]. split; [exact K|].
    exists seal. split; [exact O|]. split; [exact KS|]. split; [reflexivity|]. split; [auto|]. apply open_content_iff. congruence.
  - intros (a & -> & (K & seal & O & KS & <- & (V1 & V3) & O2) & V2). rewrite K. change (1059 =? KIND_GIFT_WRAP) with true. cbn [negb].
    pose proof (carries_idlen _ _ _ _ O) as L. apply open_content_iff in O. rewrite O, KS. change (13 =? KIND_SEAL) with true. cbn [negb].
    rewrite (proj2 (proj1 (C17_verify_exact num sha256 verify pubkey_parses sha_len parse_pk seal L))) by auto.
    apply open_content_iff in O2. rewrite O2. reflexivity.
Qed.
(** A direct message is delivered exactly if the wrap holds a seal signed by
    the message's own author; that author is what is reported. *)
Theorem C44_dm_exact : forall wrap sk w i, Udm wrap sk = (w, Ok i) <->
  w = Some (ev_pubkey i) /\ Auth sk wrap (ev_pubkey i) i /\ (parse_pk = true -> pubkey_parses (ev_pubkey i) = true).
Proof.
  intros wrap sk w i. unfold unwrap_dm. pose proof (open_wrap_ok wrap sk) as O. unfold unwrap_event in O.
  destruct (open_wrap _ _ _ _ _ _ _ _ _ _ _ wrap sk) as (w' & r). split.
  - intros H. destruct w' as [spk|]; destruct r as [rumor|er|]; try discriminate; try congruence.
    + destruct (beq (ev_pubkey rumor) spk) eqn:B; [|discriminate]. apply beq_eq in B. assert (rumor = i) by congruence. subst rumor spk.
      destruct (proj1 (O _ i) eq_refl) as (a & E & A & P). assert (a = ev_pubkey i) by congruence. subst a.
      split; [congruence|]. auto.
    + destruct (proj1 (O _ rumor) eq_refl) as (a & E & _). discriminate.
  - intros (-> & A & P). assert (X : (w', r) = (Some (ev_pubkey i), Ok i)) by (apply O; exists (ev_pubkey i); auto).
    assert (E1 : w' = Some (ev_pubkey i)) by congruence. assert (E2 : r = Ok i) by congruence. subst w' r. rewrite beq_refl. reflexivity.
Qed.
(** So a message said to be from a key comes from a seal that key signed. *)
Theorem C44_dm_unforgeable : forall (made : list N -> Prop) pk wrap sk w i,
  (forall d s, verify pk d s = true -> made d) -> Udm wrap sk = (w, Ok i) -> ev_pubkey i = pk ->
  exists seal, ev_kind seal = 13 /\ ev_pubkey seal = pk /\ made (sha256 (ser seal)) /\ carries dec44 parse lim sk pk seal i.
Proof.
  intros made pk wrap sk w i U H <-. apply C44_dm_exact in H as (_ & (_ & seal & _ & K & P & (I & V) & C) & _).
  exists seal. split; [exact K|]. split; [exact P|]. split; [|exact C]. rewrite <- I. rewrite <- P in U. eapply U. exact V.
Qed.
(** The generic unwrapping reports the signer of the seal.  Missing: that the
    unwrapped event is by that author. *)
Theorem C44_event_partial : forall wrap sk w i, Uevent wrap sk = (w, Ok i) <->
  exists a, w = Some a /\ Auth sk wrap a i /\ (parse_pk = true -> pubkey_parses a = true).
Proof. exact open_wrap_ok. Qed.
(** Anything but success hands out no event, and a message by someone else
    than the signer is refused as an invalid event. *)
Theorem C44_dm_impostor : forall wrap sk a i, Auth sk wrap a i -> (parse_pk = true -> pubkey_parses a = true) -> ev_pubkey i <> a ->
  Udm wrap sk = (Some a, Err EInvalidEvent).
Proof.
  intros wrap sk a i A P NE. assert (X : Uevent wrap sk = (Some a, Ok i)) by (apply open_wrap_ok; exists a; auto).
  unfold unwrap_event in X. unfold unwrap_dm. rewrite X. rewrite (proj2 (beq_neq _ _) NE). reflexivity.
Qed.

(** ** C45 *)
Notation Seal := (create_seal ser sha256 pubkey_of sign nce ncm b64enc print lim44).
Notation Gift := (create_gift_wrap ser sha256 pubkey_of sign seckey_valid nce ncm b64enc print lim44 lim).
Lemma sign_created e sk rnd e' : event_sign ser sha256 pubkey_of sign e sk rnd = (e', Ok tt) ->
  exists pk, pubkey_of sk = Some pk /\ ev_pubkey e' = pk /\ ev_id e' = sha256 (ser e') /\ ev_created e' = ev_created e /\ ev_kind e' = ev_kind e /\
    ev_tags e' = ev_tags e /\ ev_content e' = ev_content e /\ exists r, sign sk r (ev_id e') = Some (ev_sig e').
Proof.
  unfold event_sign. destruct (pubkey_of sk) as [pk|]; [|discriminate]. destruct rnd as [r|]; [|discriminate].
  destruct (sign sk r _) as [s|] eqn:S; [|discriminate]. intros H.
  assert (E : e' = set_sig (compute_id ser sha256 (set_pubkey e pk)) s) by congruence. subst e'.
  exists pk. repeat (split; [reflexivity|]). exists r. exact S.
Qed.
Lemma seal_shape stamp rumor sk pk d s : Seal stamp rumor sk pk d = Ok s ->
  exists text own, nip44_encrypt nce ncm b64enc lim44 sk pk (sd_nonce d) (event_to_json print rumor) = Ok text /\
    stamp (sd_time d) (sd_now d) = Ok (ev_created s) /\ pubkey_of sk = Some own /\ ev_pubkey s = own /\ ev_id s = sha256 (ser s) /\
    ev_kind s = 13 /\ ev_tags s = [] /\ ev_content s = Some text /\ exists r, sign sk r (ev_id s) = Some (ev_sig s).
Proof.
  unfold create_seal. intros H. apply bind_ok in H as (text & E & H). apply bind_ok in H as (t & T & H).
  destruct (pubkey_of sk) as [own|] eqn:P; [|discriminate].
  destruct (event_sign _ _ _ _ _ _ _) as (s' & [[]| |]) eqn:S; try discriminate. assert (s' = s) by congruence. subst s'.
  apply sign_created in S as (own' & P' & S1 & S2 & S3 & S4 & S5 & S6 & S7). cbn [compute_id ev_created ev_kind ev_tags ev_content] in S3, S4, S5, S6.
  exists text, own. split; [exact E|]. split; [congruence|]. split; [reflexivity|]. split; [congruence|]. auto 10.
Qed.
Lemma add_pairs_fields e l e' : add_pairs lim e l = Ok e' -> ev_created e' = ev_created e /\ ev_kind e' = ev_kind e /\ ev_content e' = ev_content e /\ ev_pubkey e' = ev_pubkey e.
Proof.
  revert e. assert (X : forall n l, (length l <= n)%nat -> forall e, add_pairs lim e l = Ok e' -> ev_created e' = ev_created e /\ ev_kind e' = ev_kind e /\ ev_content e' = ev_content e /\ ev_pubkey e' = ev_pubkey e).
  { induction n as [|n IH]; intros l' L e H.
    - destruct l'; [|cbn in L; lia]. cbn in H. assert (e = e') by congruence. subst. auto.
    - destruct l' as [|a [|b l']]; cbn [add_pairs] in H; try (assert (e = e') by congruence; subst; auto; fail).
      apply bind_ok in H as (e1 & A & H). apply IH in H; [|cbn in L; lia]. unfold add_tag in A. destruct (match lim with Some l => _ | None => false end); [discriminate|].
      assert (EE : e1 = mkEvent (ev_id e) (ev_pubkey e) (ev_created e) (ev_kind e) (ev_tags e ++ [[a; b]]) (ev_content e) (ev_sig e)) by congruence.
      subst e1. exact H. }
  intros e. apply (X (length l)). lia.
Qed.
Lemma wrap_shape stamp seal pk extra d w : Gift stamp seal pk extra d = Ok w ->
  exists sk own text, key_generate pubkey_of seckey_valid (wd_key d) = Ok (sk, own) /\ pubkey_of sk = Some own /\
    nip44_encrypt nce ncm b64enc lim44 sk pk (wd_nonce d) (event_to_json print seal) = Ok text /\
    stamp (wd_time d) (wd_now d) = Ok (ev_created w) /\ ev_pubkey w = own /\ ev_kind w = 1059 /\ ev_content w = Some text /\ ev_id w = sha256 (ser w) /\
    exists r, sign sk r (ev_id w) = Some (ev_sig w).
Proof.
  unfold create_gift_wrap. intros H. apply bind_ok in H as ((sk & own) & K & H). apply bind_ok in H as (text & E & H). cbn [fst snd] in *.
  apply bind_ok in H as (t & T & H). apply bind_ok in H as (w1 & A & H). apply bind_ok in H as (w2 & A2 & H).
  destruct (event_sign _ _ _ _ _ _ _) as (s' & [[]| |]) eqn:S; try discriminate. assert (s' = w) by congruence. subst s'.
  assert (P : pubkey_of sk = Some own).
  { unfold key_generate in K. apply bind_ok in K as (k & _ & K). destruct (pubkey_of k) eqn:Q; [|discriminate]. congruence. }
  apply sign_created in S as (own' & P' & S1 & S2 & S3 & S4 & S5 & S6 & S7). cbn [compute_id ev_created ev_kind ev_content] in S3, S4, S6.
  apply add_pairs_fields in A2 as (A3 & A4 & A5 & A6). unfold add_tag in A. destruct (match lim with Some l => _ | None => false end); [discriminate|].
  match type of A with Ok ?x = _ => assert (EE : w1 = x) by congruence end. subst w1. cbn [ev_created ev_kind ev_content] in *.
  exists sk, own, text. split; [exact K|]. split; [exact P|]. split; [exact E|]. split; [congruence|]. split; [congruence|]. split; [rewrite S4, A4; reflexivity|].
  split; [congruence|]. auto.
Qed.
Lemma stamp_range d now t : random_timestamp d now = Ok t -> exists r, d = Some r /\ t = (now - Z.of_N (r mod 172800))%Z /\ within_two_days now t.
Proof.
  unfold random_timestamp, within_two_days. destruct d as [r|]; [|discriminate]. intros H.
  assert (E : t = (now - Z.of_N (r mod TWO_DAYS))%Z) by congruence. exists r. unfold TWO_DAYS in E. split; [reflexivity|]. split; [exact E|].
  pose proof (N.mod_lt r 172800 ltac:(discriminate)) as B. set (m := r mod 172800) in *. clearbody m. lia.
Qed.
(** Private messages: the seal and the wrap carry a time drawn from the two
    days before; without a draw there is neither. *)
Theorem C45_seal : forall rumor sk pk d s, Seal random_timestamp rumor sk pk d = Ok s ->
  exists r, sd_time d = Some r /\ ev_created s = (sd_now d - Z.of_N (r mod 172800))%Z /\ within_two_days (sd_now d) (ev_created s).
Proof. intros rumor sk pk d s H. apply seal_shape in H as (_ & _ & _ & T & _). apply stamp_range, T. Qed.
Theorem C45_wrap : forall seal pk extra d w, Gift random_timestamp seal pk extra d = Ok w ->
  exists r, wd_time d = Some r /\ ev_created w = (wd_now d - Z.of_N (r mod 172800))%Z /\ within_two_days (wd_now d) (ev_created w).
Proof. intros seal pk extra d w H. apply wrap_shape in H as (sk & own & text & _ & _ & _ & T & _). apply stamp_range, T. Qed.
Theorem C45_dm : forall content sk pk subject reply created now sd wd w,
  send_dm ser sha256 pubkey_of sign seckey_valid nce ncm b64enc print lim44 lim content sk pk subject reply created now sd wd = Ok w ->
  sd_time sd <> None /\ within_two_days (wd_now wd) (ev_created w) /\ exists r, wd_time wd = Some r.
Proof.
  unfold send_dm. intros content sk pk subject reply created now sd wd w H. destruct (pubkey_of sk); [|discriminate].
  apply bind_ok in H as (rumor & _ & H). apply bind_ok in H as (seal & S & H). apply C45_seal in S as (r & S & _). apply C45_wrap in H as (r' & E & _ & R).
  split; [congruence|]. eauto.
Qed.
(** The generic wrapping: in range when the draw succeeds.  Missing: failing
    when it does not. *)
Theorem C45_event_partial : forall e sk pk sd wd w,
  wrap_event ser sha256 pubkey_of sign seckey_valid nce ncm b64enc print lim44 lim e sk pk sd wd = Ok w ->
  (wd_time wd = None -> ev_created w = wd_now wd) /\
  (forall r, wd_time wd = Some r -> ev_created w = (wd_now wd - Z.of_N (r mod 172800))%Z /\ within_two_days (wd_now wd) (ev_created w)).
Proof.
  unfold wrap_event. intros e sk pk sd wd w H. destruct (pubkey_of sk) as [me|] eqn:ME; [|discriminate H]. apply bind_ok in H as (seal & _ & H). apply wrap_shape in H as (k & own & text & _ & _ & _ & T & _).
  split.
  - intros N. rewrite N in T. cbn in T. congruence.
  - intros r N. rewrite N in T. change (random_timestamp (Some r) (wd_now wd) = Ok (ev_created w)) in T. apply stamp_range in T as (r' & E & T).
    assert (r' = r) by congruence. subst r'. exact T.
Qed.
End Props.
(** Every second of the two days is drawn by 24855 or 24856 of the 2^32 values. *)
Theorem C45_uniform : forall off r, off < 172800 -> r < 2 ^ 32 ->
  (random_timestamp (Some r) 0 = Ok (- Z.of_N off)%Z <-> exists q, r = off + 172800 * q /\ q < 24855 + (if off <? 23296 then 1 else 0)).
Proof.
  intros off r O R. unfold random_timestamp, TWO_DAYS. change (2 ^ 32) with 4294967296 in R. split.
  - intros H. assert (E : r mod 172800 = off) by (assert (X : (0 - Z.of_N (r mod 172800))%Z = (- Z.of_N off)%Z) by congruence; lia).
    exists (r / 172800). pose proof (N.div_mod r 172800 ltac:(discriminate)). split; [lia|]. destruct (N.ltb_spec off 23296); lia.
  - intros (q & -> & _). f_equal. rewrite N.mul_comm, N.mod_add, N.mod_small by lia. lia.
Qed.

(** ** C79: wrapping followed by unwrapping *)
Section Roundtrip.
Variable num : Z -> list N.
Variable sha256 : list N -> list N.
Variable pubkey_of : list N -> option (list N).
Variable sign : list N -> list N -> list N -> option (list N).
Variable verify : list N -> list N -> list N -> bool.
Variable pubkey_parses : list N -> bool.
Variable parse_pk : bool.
Variable seckey_valid : list N -> bool.
Variable nce : list N -> list N -> list N -> list N -> option (list N * list N).
Variable ncm : list N -> list N -> list N.
Variable ncv : list N -> list N -> list N -> list N -> list N -> bool.
Variable ncd : list N -> list N -> list N -> list N -> option (list N).
Variable mt : list N -> list N -> list N -> list N -> Prop.
Variable b64enc : list N -> list N.
Variable b64dec : list N -> option (list N).
Variable print : json -> list N.
Variable parse : list N -> option json.
Variable lim44 : limits.
Variable lim : option ev_limits.
Hypothesis CO : crypto_ok sha256 pubkey_of sign verify pubkey_parses.
Hypothesis NC : nc_contract nce ncm ncv ncd mt.
Hypothesis B64 : b64_contract b64enc b64dec.
Hypothesis B64T : forall l, bytes_ok l -> cstr_ok (b64enc l).
Hypothesis LIM : 1 <= lim_min lim44 /\ lim_min lim44 <= lim_max lim44 /\ lim_max lim44 <= 65535.

Notation ser := (serialize_with num).
Notation Seal := (create_seal ser sha256 pubkey_of sign nce ncm b64enc print lim44).
Notation Gift := (create_gift_wrap ser sha256 pubkey_of sign seckey_valid nce ncm b64enc print lim44 lim).
Notation Open := (open_wrap ser sha256 verify pubkey_parses parse_pk ncv ncd b64dec parse lim44 lim).

(** An event that survives the JSON text, the import limits and encryption *)
Definition portable (e : event) : Prop :=
  json_faithful print parse e /\ within_limits lim e /\ blen (event_to_json print e) <= 61440.
(** A nonce of the right shape *)
Definition nonce_ok (n : option (list N)) : Prop := forall x, n = Some x -> length x = 32%nat /\ bytes_ok x.
Definition with_content (e : event) : event :=
  mkEvent (ev_id e) (ev_pubkey e) (ev_created e) (ev_kind e) (ev_tags e) (Some (content_of e)) (ev_sig e).

Lemma encrypted_cstr sk pk n pt text : nonce_ok n -> nip44_encrypt nce ncm b64enc lim44 sk pk n pt = Ok text -> cstr_ok text.
Proof.
  intros NO E. destruct n as [n|]; [|discriminate]. destruct (NO n eq_refl) as (NL & NB). unfold nip44_encrypt in E. apply bind_ok in E as (padded & P & E).
  destruct (nce sk pk n padded) as [[ct hk]|] eqn:C; [|discriminate]. match type of E with Ok ?x = _ => assert (X : text = x) by congruence end. subst text.
  apply B64T. apply Forall_app. split; [repeat constructor|]. apply Forall_app. split; [exact NB|]. apply Forall_app.
  split; [eapply ncc_bytes; eassumption|]. apply (ncc_maclen _ _ _ _ _ NC).
Qed.
Lemma carried sa pb sb pa n e outer text : nonce_ok n -> mt sa pb sb pa -> event_ok e -> (Z.abs (ev_created e) <= 2 ^ 53)%Z -> portable e ->
  nip44_encrypt nce ncm b64enc lim44 sa pb n (event_to_json print e) = Ok text -> ev_content outer = Some text ->
  open_content ncv ncd b64dec parse lim44 lim sb pa outer = Ok (with_content e).
Proof.
  intros NO MT EO CR ((JF & JC) & W & SZ) E EC. unfold open_content. rewrite EC. destruct n as [n|]; [|discriminate]. destruct (NO n eq_refl) as (NL & NB).
  destruct LIM as (L1 & L2 & L3). unfold decrypt.
  rewrite (C11_roundtrip_partial _ _ _ _ _ _ _ _ _ _ sb pa _ _ _ NC B64 MT L1 L2 L3 NL NB (cstr_bytes _ JC) E).
  rewrite (proj2 (N.leb_le _ _)) by exact SZ. cbn [bind]. rewrite until_nul_cstr by exact JC.
  apply (C20_json_roundtrip print parse lim e); [intros t ->; exact JF|exact EO|exact CR|exact W].
Qed.

Lemma opened stamp e ska pkr skr pka sd extra wd seal w : event_ok e -> (Z.abs (ev_created e) <= 2 ^ 53)%Z -> portable e ->
  nonce_ok (sd_nonce sd) -> nonce_ok (wd_nonce wd) -> (forall d now t, stamp d now = Ok t -> (now - 172800 <= t <= now)%Z) -> (0 <= sd_now sd <= 2 ^ 53)%Z ->
  pubkey_of ska = Some pka -> mt ska pkr skr pka -> (forall eph pke, pubkey_of eph = Some pke -> mt eph pkr skr pke) ->
  Seal stamp e ska pkr sd = Ok seal -> Gift stamp seal pkr extra wd = Ok w -> portable seal ->
  Open w skr = (Some pka, Ok (with_content e)).
Proof.
  intros EO CR PE NS NW ST NOW PK MT ME HS HW PS.
  apply seal_shape in HS as (text & own & E1 & T1 & P1 & P2 & I1 & K1 & G1 & C1 & r1 & S1).
  apply wrap_shape in HW as (eph & pke & text2 & KG & PE2 & E2 & T2 & P3 & K2 & C2 & I2 & r2 & S2).
  assert (OW : own = pka) by congruence. rewrite OW in P2. clear OW P1. apply ST in T1. pose proof (co_sha _ _ _ _ _ CO) as SHA.
  destruct (co_pub _ _ _ _ _ CO _ _ PK) as (PL & PB & PP). destruct (co_sign _ _ _ _ _ CO _ _ _ _ _ PK S1) as (SL & SB & SV).
  assert (SO : event_ok seal).
  { constructor; rewrite ?I1, ?K1, ?G1; try (split; [assumption|assumption]).
    - apply SHA.
    - rewrite P2. auto.
    - change (2 ^ 53)%Z with 9007199254740992%Z in NOW. lia.
    - reflexivity.
    - constructor.
    - unfold content_of. rewrite C1. apply (encrypted_cstr _ _ _ _ _ NS E1). }
  assert (SC : (Z.abs (ev_created seal) <= 2 ^ 53)%Z) by (change (2 ^ 53)%Z with 9007199254740992%Z in *; lia).
  unfold open_wrap. rewrite K2. change (1059 =? KIND_GIFT_WRAP) with true. cbn [negb]. rewrite P3.
  rewrite (carried _ _ _ _ _ _ _ _ NW (ME _ _ PE2) SO SC PS E2 C2). cbn [with_content ev_kind ev_pubkey]. rewrite K1. change (13 =? KIND_SEAL) with true. cbn [negb].
  assert (SE : ser (with_content seal) = ser seal) by reflexivity.
  rewrite (proj2 (proj1 (C17_verify_exact num sha256 verify pubkey_parses (fun x => proj1 (SHA x)) parse_pk (with_content seal) ltac:(cbn [with_content ev_id]; rewrite I1; apply SHA)))).
  - rewrite P2. f_equal. apply (carried _ _ _ _ _ _ _ _ NS MT EO CR PE E1). cbn [with_content ev_content]. unfold content_of. rewrite C1. reflexivity.
  - cbn [with_content ev_id ev_pubkey ev_sig]. rewrite SE, P2. split; [exact I1|]. split; [intros _; exact PP|exact SV].
Qed.
Lemma stamp17 d now t : random_timestamp d now = Ok t -> (now - 172800 <= t <= now)%Z.
Proof. intros H. apply stamp_range in H as (r & _ & _ & W). unfold within_two_days in W. lia. Qed.
Lemma stamp59 d now t : randomize_timestamp d now = Ok t -> (now - 172800 <= t <= now)%Z.
Proof. destruct d; [apply (stamp17 (Some _))|]. cbn. intros H. assert (t = now) by congruence. lia. Qed.

(** The recipient of a wrapped event gets that event - whoever it claims to be
    by - and the wrapping key as author. *)
Theorem C79_event_partial : forall e ska pkr skr pka sd wd w, event_ok e -> (Z.abs (ev_created e) <= 2 ^ 53)%Z -> portable e ->
  nonce_ok (sd_nonce sd) -> nonce_ok (wd_nonce wd) -> (0 <= sd_now sd <= 2 ^ 53)%Z ->
  pubkey_of ska = Some pka -> mt ska pkr skr pka -> (forall eph pke, pubkey_of eph = Some pke -> mt eph pkr skr pke) ->
  wrap_event ser sha256 pubkey_of sign seckey_valid nce ncm b64enc print lim44 lim e ska pkr sd wd = Ok w ->
  (forall seal, Seal randomize_timestamp e ska pkr sd = Ok seal -> portable seal) ->
  unwrap_event ser sha256 verify pubkey_parses parse_pk ncv ncd b64dec parse lim44 lim w skr = (Some pka, Ok (with_content e)).
Proof.
  intros e ska pkr skr pka sd wd w EO CR PE NS NW NOW PK MT ME H PS. unfold wrap_event in H. rewrite PK in H. apply bind_ok in H as (seal & S & W).
  eapply (opened randomize_timestamp); eauto. apply stamp59.
Qed.
(** A direct message arrives with its text, tags and sender. *)
Theorem C79_dm_partial : forall content ska pkr skr pka subject reply created now sd wd w rumor,
  dm_rumor ser sha256 lim content pka pkr subject reply created now = Ok rumor ->
  cstr_ok content -> match subject with Some s => cstr_ok s | None => True end ->
  bytes_ok pkr -> match reply with Some i => bytes_ok i | None => True end ->
  (0 <= created <= 2 ^ 53)%Z -> (0 <= now <= 2 ^ 53)%Z -> portable rumor ->
  nonce_ok (sd_nonce sd) -> nonce_ok (wd_nonce wd) -> (0 <= sd_now sd <= 2 ^ 53)%Z ->
  pubkey_of ska = Some pka -> mt ska pkr skr pka -> (forall eph pke, pubkey_of eph = Some pke -> mt eph pkr skr pke) ->
  send_dm ser sha256 pubkey_of sign seckey_valid nce ncm b64enc print lim44 lim content ska pkr subject reply created now sd wd = Ok w ->
  (forall seal, Seal random_timestamp rumor ska pkr sd = Ok seal -> portable seal) ->
  exists i, unwrap_dm ser sha256 verify pubkey_parses parse_pk ncv ncd b64dec parse lim44 lim w skr = (Some pka, Ok i) /\ ev_id i = ev_id rumor /\
    ev_kind i = 14 /\ ev_pubkey i = pka /\ ev_sig i = repeat 0 64 /\ ev_content i = Some content /\ ev_created i = (if (created =? 0)%Z then now else created) /\
    ev_tags i = [[bs "p"; hex_encode pkr]] ++ match subject with Some s => [[bs "subject"; s]] | None => [] end ++
                match reply with Some x => [[bs "e"; hex_encode x]] | None => [] end.
Proof.
  intros content ska pkr skr pka subject reply created now sd wd w rumor DR CC CS BP BR CR NR PR NS NW NOW PK MT ME H PS.
  unfold send_dm in H. rewrite PK, DR in H. cbn [bind] in H. apply bind_ok in H as (seal & S & W).
  assert (F : ev_kind rumor = 14 /\ ev_pubkey rumor = pka /\ ev_content rumor = Some content /\ ev_created rumor = (if (created =? 0)%Z then now else created) /\
    ev_tags rumor = [[bs "p"; hex_encode pkr]] ++ match subject with Some s => [[bs "subject"; s]] | None => [] end ++
                match reply with Some x => [[bs "e"; hex_encode x]] | None => [] end /\ (length (ev_id rumor) = 32%nat /\ bytes_ok (ev_id rumor)) /\ ev_sig rumor = repeat 0 64).
  { unfold dm_rumor in DR. apply bind_ok in DR as (r1 & A1 & DR). apply bind_ok in DR as (r2 & A2 & DR). apply add_tag_ok in A1.
    assert (A2' : r2 = match subject with Some s => push r1 [bs "subject"; s] | None => r1 end) by (destruct subject; [apply (add_tag_ok lim), A2|congruence]).
    assert (A3' : rumor = match reply with Some i => push r2 [bs "e"; hex_encode i] | None => r2 end) by (destruct reply; [apply (add_tag_ok lim), DR|congruence]).
    assert (ID : length (ev_id (create_rumor ser sha256 KIND_DM pka (Some content) created now)) = 32%nat /\ bytes_ok (ev_id (create_rumor ser sha256 KIND_DM pka (Some content) created now)))
      by apply (co_sha _ _ _ _ _ CO).
    rewrite A3', A2', A1. destruct subject, reply; repeat (split; [reflexivity|]); (split; [exact ID|reflexivity]). }
  destruct F as (F1 & F2 & F3 & F4 & F5 & F6 & F7). destruct (co_pub _ _ _ _ _ CO _ _ PK) as (PL & PB & PP).
  assert (HC : forall l, bytes_ok l -> cstr_ok (hex_encode l)).
  { intros l B. pose proof (hextext_all_hex _ _ (hextext_encode l B)) as A. eapply Forall_impl; [|exact A]. intros c (d & D). apply hexdig_cases in D. unfold char_ok. lia. }
  assert (PE : cstr_ok (bs "p") /\ cstr_ok (bs "e") /\ cstr_ok (bs "subject")) by (repeat split; repeat constructor; unfold char_ok; cbn; lia).
  destruct PE as (PE1 & PE2 & PE3).
  assert (TC : (0 <= ev_created rumor <= 2 ^ 53)%Z) by (rewrite F4; destruct (created =? 0)%Z; assumption).
  assert (RO : event_ok rumor).
  { constructor.
    - exact F6.
    - rewrite F2. auto.
    - change (2 ^ 53)%Z with 9007199254740992%Z in TC. lia.
    - rewrite F1. reflexivity.
    - rewrite F5. constructor.
      + split; [discriminate|]. repeat constructor; auto.
      + destruct subject, reply; cbn [app]; repeat (constructor; [split; [discriminate|repeat constructor; auto]|]); constructor.
    - unfold content_of. rewrite F3. exact CC.
    - rewrite F7. split; [reflexivity|]. apply Forall_repeat. reflexivity. }
  exists (with_content rumor). split.
  - unfold unwrap_dm. rewrite (opened random_timestamp rumor ska pkr skr pka sd [] wd seal w); auto; [|lia|apply stamp17].
    cbn [with_content ev_pubkey]. rewrite F2, beq_refl. reflexivity.
  - cbn [with_content ev_id ev_kind ev_pubkey ev_sig ev_content ev_created ev_tags]. unfold content_of. rewrite F3. auto 12.
Qed.
End Roundtrip.

(** A seal whose text exceeds 61440 bytes is wrapped but never opens. *)
Theorem C79_large : forall num sha256 pubkey_of sign verify pubkey_parses parse_pk seckey_valid nce ncm ncv ncd mt b64enc b64dec print parse lim44 lim stamp seal pk extra d w skr,
  nc_contract nce ncm ncv ncd mt -> b64_contract b64enc b64dec -> limits_ok lim44 -> nonce_ok (wd_nonce d) -> 61440 < blen (event_to_json print seal) ->
  create_gift_wrap (serialize_with num) sha256 pubkey_of sign seckey_valid nce ncm b64enc print lim44 lim stamp seal pk extra d = Ok w ->
  open_wrap (serialize_with num) sha256 verify pubkey_parses parse_pk ncv ncd b64dec parse lim44 lim w skr = (None, Err EInvalidParam).
Proof.
  intros num sha256 pubkey_of sign verify pubkey_parses parse_pk seckey_valid nce ncm ncv ncd mt b64enc b64dec print parse lim44 lim stamp seal pk extra d w skr NC B L NO SZ H.
  apply wrap_shape in H as (eph & pke & text & _ & _ & E & _ & P & K & C & _). destruct (wd_nonce d) as [n|] eqn:EN; [|discriminate].
  destruct (NO n eq_refl) as (NL & NB). unfold open_wrap, open_content. rewrite K, C. change (negb (1059 =? KIND_GIFT_WRAP)) with false. cbv iota.
  unfold decrypt. rewrite (decrypt_rejects_large _ _ _ _ _ _ _ _ lim44 _ _ skr (ev_pubkey w) _ _ _ NC B L NL NB SZ E). reflexivity.
Qed.

(** ** Toy oracles: the hypotheses can be met *)
Lemma b64_encode_cstr l : bytes_ok l -> cstr_ok (b64_encode l).
Proof.
  assert (X : forall v, v < 64 -> char_ok (b64_char v)) by (intros v V; apply b64_char_ne, V).
  assert (Y : char_ok 61) by (unfold char_ok; lia).
  remember (length l) as n eqn:E. assert (Hn : (length l <= n)%nat) by lia. clear E.
  revert l Hn. induction n as [|n IH]; intros l Hn Hb.
  { destruct l; [constructor|cbn in Hn; lia]. }
  destruct l as [|a [|b [|c r]]]; [constructor| | |]; inversion Hb as [|? ? Ha H1]; subst; try (inversion H1 as [|? ? Hb' H2]; subst); try (inversion H2 as [|? ? Hc H3]; subst);
    unfold byte_ok in *; cbn [b64_encode]; repeat (constructor; [first [exact Y|apply X; dv]|]); [constructor|constructor|].
  apply IH; [cbn in Hn; lia|exact H3].
Qed.
Definition toy_pub (sk : list N) : option (list N) :=
  if (length sk =? 32)%nat && forallb (fun b => b <? 256) sk then Some sk else None.
Definition toy_sha (x : list N) : list N := repeat (N.of_nat (length x) mod 256) 32.
Definition toy_sign (sk r d : list N) : option (list N) := Some (repeat 5 64).
Definition toy_sver (pk d s : list N) : bool := beq s (repeat 5 64).
Lemma toy_crypto : crypto_ok toy_sha toy_pub toy_sign toy_sver (fun _ => true).
Proof.
  constructor.
  - intros x. split; [reflexivity|]. apply Forall_repeat. unfold byte_ok. apply N.mod_lt. discriminate.
  - unfold toy_pub. intros sk pk H. destruct (Nat.eqb_spec (length sk) 32) as [L|]; [|discriminate]. cbn [andb] in H.
    destruct (forallb _ sk) eqn:F; [|discriminate]. assert (sk = pk) by congruence. subst pk. split; [exact L|]. split; [|reflexivity].
    apply Forall_forall. intros b I. rewrite forallb_forall in F. apply N.ltb_lt, F, I.
  - unfold toy_sign, toy_sver. intros sk pk r d s _ H. assert (s = repeat 5 64) by congruence. subst s.
    split; [reflexivity|]. split; [apply Forall_repeat; reflexivity|apply beq_refl].
Qed.
Section Toy.
(** The text that stands for the seal. *)
Variable L : list N.
Hypothesis LH : hd_error L = Some 97.
Hypothesis LC : cstr_ok L.
Definition is_seal (j : json) : bool := match jget (bs "kind") j with Some (JNum (JFin 13 0)) => true | _ => false end.
Definition toy_print (j : json) : list N := if is_seal j then L else bs "rumor".
Definition toy_key : list N := repeat 7 32.
Definition toy_pk : list N := repeat 8 32.
Definition toy_sd : seal_draws := mkSealDraws (Some (repeat 9 32)) (Some 1000000) 1700000000 (Some []).
Definition toy_wd (n : option N) : wrap_draws := mkWrapDraws [Some [1]; Some (repeat 6 32)] (Some (repeat 9 32)) n 1700000100 (Some []).
Definition toy_valid (k : list N) : bool := (length k =? 32)%nat.
(** An event claiming to be by somebody else. *)
Definition toy_event : event := mkEvent (repeat 1 32) (repeat 2 32) 1600000000 14 [] (Some (bs "hi")) (repeat 0 64).
Definition toy_make stamp := create_seal serialize_own toy_sha toy_pub toy_sign toy_enc8 toy_mac b64_encode toy_print default_limits stamp toy_event toy_key toy_pk toy_sd.
Definition toy_seal : event := match toy_make randomize_timestamp with Ok s => s | _ => toy_event end.
Definition toy_parse (s : list N) : option json := if beq s (bs "rumor") then Some (event_to_tree toy_event) else Some (event_to_tree toy_seal).
Lemma toy_seal_ok : toy_make randomize_timestamp = Ok toy_seal.
Proof. vm_compute. reflexivity. Qed.
Lemma toy_event_ok : event_ok toy_event.
Proof. constructor; cbn; try lia; try (split; [reflexivity|repeat constructor]); repeat constructor; unfold char_ok; cbn; lia. Qed.
Lemma toy_json_event : json_faithful toy_print toy_parse toy_event.
Proof. split; [vm_compute; reflexivity|]. change (cstr_ok (bs "rumor")). repeat constructor; unfold char_ok; cbn; lia. Qed.
Lemma toy_json_seal : json_faithful toy_print toy_parse toy_seal.
Proof.
  assert (X : toy_print (event_to_tree toy_seal) = L) by (vm_compute; reflexivity).
  split; rewrite X; [|exact LC]. unfold toy_parse. destruct L as [|c r]; [discriminate|]. cbn in LH. assert (c = 97) by congruence. subst c. reflexivity.
Qed.
Definition toy_wrap d := wrap_event serialize_own toy_sha toy_pub toy_sign toy_valid toy_enc8 toy_mac b64_encode toy_print default_limits None toy_event toy_key toy_pk toy_sd (toy_wd d).
Definition toy_unwrap w := unwrap_event serialize_own toy_sha toy_sver (fun _ => true) true toy_verify toy_dec b64_decode toy_parse default_limits None w (repeat 4 32).
Lemma toy_wrapped d text : nip44_encrypt toy_enc8 toy_mac b64_encode default_limits (repeat 6 32) toy_pk (Some (repeat 9 32)) L = Ok text ->
  exists w, toy_wrap d = Ok w /\ create_gift_wrap serialize_own toy_sha toy_pub toy_sign toy_valid toy_enc8 toy_mac b64_encode toy_print default_limits None randomize_timestamp toy_seal toy_pk [] (toy_wd d) = Ok w.
Proof.
  intros E. unfold toy_wrap, wrap_event. change (toy_pub toy_key) with (Some toy_key). cbv iota. change (create_seal _ _ _ _ _ _ _ _ _ randomize_timestamp toy_event toy_key toy_pk toy_sd) with (toy_make randomize_timestamp).
  rewrite toy_seal_ok. cbn [bind]. unfold create_gift_wrap. change (key_generate toy_pub toy_valid (wd_key (toy_wd d))) with (Ok (repeat 6 32, repeat 6 32)). cbn [bind fst snd].
  unfold encrypt. change (event_to_json toy_print toy_seal) with (toy_print (event_to_tree toy_seal)). assert (X : toy_print (event_to_tree toy_seal) = L) by (vm_compute; reflexivity).
  rewrite X. change (wd_nonce (toy_wd d)) with (Some (repeat 9 32)). rewrite E. cbn [bind].
  assert (S : exists t, randomize_timestamp (wd_time (toy_wd d)) (wd_now (toy_wd d)) = Ok t) by (destruct d; eexists; reflexivity).
  destruct S as (t & S). rewrite S. cbn [bind add_tag add_pairs]. unfold event_sign. change (toy_pub (repeat 6 32)) with (Some (repeat 6 32)).
  change (wd_aux (toy_wd d)) with (@Some (list N) []). cbv iota zeta. cbn [toy_sign]. eexists. split; reflexivity.
Qed.
End Toy.
Definition short_seal : list N := bs "a seal".
Lemma toy_opens d : exists w, toy_wrap short_seal d = Ok w /\ toy_unwrap short_seal w = (Some toy_key, Ok toy_event).
Proof.
  assert (LC : cstr_ok short_seal) by (repeat constructor; unfold char_ok; cbn; lia).
  destruct (nip44_encrypt toy_enc8 toy_mac b64_encode default_limits (repeat 6 32) toy_pk (Some (repeat 9 32)) short_seal) as [text| |] eqn:E;
    [|exfalso; vm_compute in E; discriminate|exfalso; vm_compute in E; discriminate].
  destruct (toy_wrapped short_seal d text E) as (w & W & _). exists w. split; [exact W|].
  change toy_event with (with_content toy_event).
  refine (C79_event_partial dec_Z toy_sha toy_pub toy_sign toy_sver (fun _ => true) true toy_valid toy_enc8 toy_mac toy_verify toy_dec (fun _ _ _ _ => True) b64_encode b64_decode
    (toy_print short_seal) (toy_parse short_seal) default_limits None toy_crypto toy_contract base64_contract b64_encode_cstr _ toy_event toy_key toy_pk (repeat 4 32) toy_key toy_sd (toy_wd d) w
    toy_event_ok _ _ _ _ _ eq_refl I (fun _ _ _ => I) W _).
  - cbn. lia.
  - cbn [toy_event ev_created]. lia.
  - split; [apply toy_json_event|]. split; [exact I|]. vm_compute. discriminate.
  - intros x H. assert (x = repeat 9 32) by (change (Some (repeat 9 32) = Some x) in H; congruence). subst x. split; [reflexivity|apply Forall_repeat; reflexivity].
  - intros x H. assert (x = repeat 9 32) by (change (Some (repeat 9 32) = Some x) in H; congruence). subst x. split; [reflexivity|apply Forall_repeat; reflexivity].
  - cbn [toy_sd sd_now]. lia.
  - intros seal H. assert (X : Ok seal = Ok (toy_seal short_seal)) by (rewrite <- toy_seal_ok; symmetry; exact H). assert (seal = toy_seal short_seal) by congruence. subst seal.
    split; [apply toy_json_seal; [reflexivity|exact LC]|]. split; [exact I|]. vm_compute. discriminate.
Qed.
(** Full statement (false): an unwrapped event is by the reported author. *)
Theorem C44_event_refuted : ~ (forall sha256 pubkey_of sign verify pp nce ncm ncv ncd mt print parse wrap sk a i,
  crypto_ok sha256 pubkey_of sign verify pp -> nc_contract nce ncm ncv ncd mt ->
  unwrap_event serialize_own sha256 verify pp true ncv ncd b64_decode parse default_limits None wrap sk = (Some a, Ok i) ->
  json_faithful print parse i -> ev_pubkey i = a).
Proof.
  intros H. destruct (toy_opens (Some 5)) as (w & _ & U).
  specialize (H toy_sha toy_pub toy_sign toy_sver (fun _ => true) toy_enc8 toy_mac toy_verify toy_dec (fun _ _ _ _ => True) (toy_print short_seal) (toy_parse short_seal) w (repeat 4 32) toy_key toy_event
    toy_crypto toy_contract U (toy_json_event short_seal)). discriminate.
Qed.
(** Full statement (false): an event is only wrapped with a fuzzed timestamp. *)
Theorem C45_event_refuted : ~ (forall sha256 pubkey_of sign verify pp nce ncm ncv ncd mt valid print e sk pk sd wd w,
  crypto_ok sha256 pubkey_of sign verify pp -> nc_contract nce ncm ncv ncd mt ->
  wrap_event serialize_own sha256 pubkey_of sign valid nce ncm b64_encode print default_limits None e sk pk sd wd = Ok w ->
  wd_time wd <> None).
Proof.
  intros H. destruct (toy_opens None) as (w & W & _).
  exact (H _ _ _ _ _ _ _ _ _ _ _ _ _ _ _ _ _ _ toy_crypto toy_contract W eq_refl).
Qed.
(** Full statement (false): whatever is wrapped can be unwrapped. *)
Theorem C79_refuted : ~ (forall sha256 pubkey_of sign verify pp nce ncm ncv ncd mt valid print parse e ska pkr skr pka sd wd w,
  crypto_ok sha256 pubkey_of sign verify pp -> nc_contract nce ncm ncv ncd mt -> event_ok e -> json_faithful print parse e ->
  (forall seal, create_seal serialize_own sha256 pubkey_of sign nce ncm b64_encode print default_limits randomize_timestamp e ska pkr sd = Ok seal -> json_faithful print parse seal) ->
  pubkey_of ska = Some pka -> mt ska pkr skr pka -> (forall eph pke, pubkey_of eph = Some pke -> mt eph pkr skr pke) ->
  wrap_event serialize_own sha256 pubkey_of sign valid nce ncm b64_encode print default_limits None e ska pkr sd wd = Ok w ->
  unwrap_event serialize_own sha256 verify pp true ncv ncd b64_decode parse default_limits None w skr = (Some pka, Ok (with_content e))).
Proof.
  intros H. assert (X : exists L, hd_error L = Some 97 /\ cstr_ok L /\ blen L = 61441).
  { exists (97 :: repeat 97 (N.to_nat 61440)). split; [reflexivity|]. split; [constructor; [|apply Forall_repeat]; unfold char_ok; lia|].
    unfold blen. cbn [length]. rewrite repeat_length. lia. }
  destruct X as (L & LH & LC & LL).
  assert (NZ : forall p, bytes_ok p -> toy_enc8 (repeat 6 32) toy_pk (repeat 9 32) p <> None).
  { intros p B. unfold toy_enc8. replace (forallb _ p) with true; [discriminate|]. symmetry. apply forallb_forall. intros b I. apply N.ltb_lt. exact (proj1 (Forall_forall _ _) B b I). }
  assert (D : limits_ok default_limits) by (unfold limits_ok; cbn; lia).
  assert (E : exists text, nip44_encrypt toy_enc8 toy_mac b64_encode default_limits (repeat 6 32) toy_pk (Some (repeat 9 32)) L = Ok text).
  { unfold nip44_encrypt. pose proof (pad_ok _ L D ltac:(cbn [default_limits lim_min lim_max]; lia)) as P. rewrite P. cbn [bind].
    apply pad_bytes in P; [|apply cstr_bytes, LC]. apply NZ in P. destruct (toy_enc8 _ _ _ _) as [(ct & hk)|]; [eexists; reflexivity|congruence]. }
  destruct E as (text & E). destruct (toy_wrapped L (Some 5) text E) as (w & W & G).
  specialize (H toy_sha toy_pub toy_sign toy_sver (fun _ => true) toy_enc8 toy_mac toy_verify toy_dec (fun _ _ _ _ => True) toy_valid (toy_print L) (toy_parse L) toy_event toy_key toy_pk (repeat 4 32) toy_key toy_sd (toy_wd (Some 5)) w
    toy_crypto toy_contract toy_event_ok (toy_json_event L)).
  assert (LG : unwrap_event serialize_own toy_sha toy_sver (fun _ => true) true toy_verify toy_dec b64_decode (toy_parse L) default_limits None w (repeat 4 32) = (None, Err EInvalidParam)).
  { refine (C79_large dec_Z toy_sha toy_pub toy_sign toy_sver (fun _ => true) true toy_valid toy_enc8 toy_mac toy_verify toy_dec (fun _ _ _ _ => True) b64_encode b64_decode (toy_print L) (toy_parse L) default_limits None randomize_timestamp (toy_seal L) toy_pk [] (toy_wd (Some 5)) w (repeat 4 32)
      toy_contract base64_contract D _ _ G).
    - intros x K. assert (x = repeat 9 32) by (change (Some (repeat 9 32) = Some x) in K; congruence). subst x. split; [reflexivity|apply Forall_repeat; reflexivity].
    - change (61440 < blen (toy_print L (event_to_tree (toy_seal L)))). assert (Q : toy_print L (event_to_tree (toy_seal L)) = L) by (vm_compute; reflexivity). rewrite Q, LL. lia. }
  rewrite LG in H. assert (Y : (@None (list N), @Err event EInvalidParam) = (Some toy_key, Ok (with_content toy_event))); [|discriminate].
  apply H; try exact I; try reflexivity; try exact W.
  intros seal S. assert (X : Ok seal = Ok (toy_seal L)) by (rewrite <- (toy_seal_ok L); symmetry; exact S). assert (seal = toy_seal L) by congruence. subst seal. apply toy_json_seal; assumption.
Qed.

(** ** C80 *)
(** Full statement (false): the message inside carries the id of its fields.
    It is computed before the tags are added: if it were right, SHA-256 would
    have a collision. *)
Theorem C80_refuted : forall sha256 lim content pk pkr subject reply created now r,
  dm_rumor serialize_own sha256 lim content pk pkr subject reply created now = Ok r -> event_ok r ->
  ev_id r = sha256 (serialize_own r) -> exists x y : list N, x <> y /\ sha256 x = sha256 y.
Proof.
  intros sha256 lim content pk pkr subject reply created now r H O E. unfold dm_rumor in H.
  apply bind_ok in H as (r1 & A1 & H). apply bind_ok in H as (r2 & A2 & H). apply add_tag_ok in A1.
  assert (A2' : r2 = match subject with Some s => push r1 [bs "subject"; s] | None => r1 end) by (destruct subject; [apply (add_tag_ok lim), A2|congruence]).
  assert (A3' : r = match reply with Some i => push r2 [bs "e"; hex_encode i] | None => r2 end) by (destruct reply; [apply (add_tag_ok lim), H|congruence]).
  set (r0 := create_rumor serialize_own sha256 KIND_DM pk (Some content) created now) in *.
  assert (F : ev_id r = ev_id r0 /\ ev_pubkey r = ev_pubkey r0 /\ ev_created r = ev_created r0 /\ ev_kind r = ev_kind r0 /\ ev_content r = ev_content r0 /\ ev_sig r = ev_sig r0 /\ ev_tags r <> []).
  { rewrite A3', A2', A1. destruct subject, reply; repeat (split; [reflexivity|]); discriminate. }
  destruct F as (F1 & F2 & F3 & F4 & F5 & F6 & F7).
  assert (O0 : event_ok r0).
  { constructor; rewrite <- ?F1, <- ?F2, <- ?F3, <- ?F4, <- ?F6; try apply O; [constructor|]. unfold content_of. rewrite <- F5. apply O. }
  assert (I0 : ev_id r0 = sha256 (serialize_own r0)) by reflexivity.
  destruct (C16_same_id sha256 r r0 O O0) as [(_ & _ & _ & T & _)|C]; [cbn [compute_id ev_id]; congruence| |exact C].
  exfalso. apply F7. rewrite T. reflexivity.
Qed.
(** What does hold: the id is that of the message without its tags. *)
Theorem C80_partial : forall sha256 lim content pk pkr subject reply created now r,
  dm_rumor serialize_own sha256 lim content pk pkr subject reply created now = Ok r ->
  ev_id r = sha256 (serialize_own (mkEvent (ev_id r) (ev_pubkey r) (ev_created r) (ev_kind r) [] (ev_content r) (ev_sig r))) /\ ev_content r = Some content /\ ev_pubkey r = pk.
Proof.
  intros sha256 lim content pk pkr subject reply created now r H. unfold dm_rumor in H.
  apply bind_ok in H as (r1 & A1 & H). apply bind_ok in H as (r2 & A2 & H). apply add_tag_ok in A1.
  assert (A2' : r2 = match subject with Some s => push r1 [bs "subject"; s] | None => r1 end) by (destruct subject; [apply (add_tag_ok lim), A2|congruence]).
  assert (A3' : r = match reply with Some i => push r2 [bs "e"; hex_encode i] | None => r2 end) by (destruct reply; [apply (add_tag_ok lim), H|congruence]).
  set (r0 := create_rumor serialize_own sha256 KIND_DM pk (Some content) created now) in *.
  assert (F : ev_id r = ev_id r0 /\ mkEvent (ev_id r) (ev_pubkey r) (ev_created r) (ev_kind r) [] (ev_content r) (ev_sig r) = r0 /\ ev_content r = ev_content r0 /\ ev_pubkey r = ev_pubkey r0).
  { rewrite A3', A2', A1. destruct subject, reply; repeat (split; [reflexivity|]); reflexivity. }
  destruct F as (F1 & F2 & F3 & F4). rewrite F2, F1, F3, F4. split; [|split; reflexivity]. reflexivity.
Qed.
Example C80_meets : exists r, dm_rumor serialize_own toy_sha None (bs "hello") toy_key toy_pk None None 1600000000 0 = Ok r /\ event_ok r /\ ev_id r <> toy_sha (serialize_own r).
Proof.
  eexists. split; [reflexivity|]. split; [|vm_compute; discriminate].
  constructor; cbn [ev_id ev_pubkey ev_created ev_kind ev_tags ev_sig create_rumor compute_id].
  - split; [reflexivity|]. apply Forall_repeat. unfold byte_ok. apply N.mod_lt. discriminate.
  - split; [reflexivity|]. apply Forall_repeat. reflexivity.
  - change (1600000000 =? 0)%Z with false. cbv iota. lia.
  - reflexivity.
  - vm_compute. repeat constructor; discriminate || reflexivity.
  - repeat constructor; unfold char_ok; cbn; lia.
  - split; [reflexivity|]. apply Forall_repeat. reflexivity.
Qed.
Example C79_meets : exists w, toy_wrap short_seal (Some 5) = Ok w /\ toy_unwrap short_seal w = (Some toy_key, Ok toy_event).
Proof. exact (toy_opens (Some 5)). Qed.
(** The same wrap, taken as a direct message, is refused: its author is not
    the signer. *)
Example C44_meets : exists w, toy_wrap short_seal (Some 5) = Ok w /\
  unwrap_dm serialize_own toy_sha toy_sver (fun _ => true) true toy_verify toy_dec b64_decode (toy_parse short_seal) default_limits None w (repeat 4 32) = (Some toy_key, Err EInvalidEvent).
Proof.
  destruct (toy_opens (Some 5)) as (w & W & U). exists w. split; [exact W|]. unfold unwrap_dm. unfold toy_unwrap, unwrap_event in U. rewrite U. reflexivity.
Qed.
Example C45_meets : random_timestamp (Some 1000000) 1700000000 = Ok 1699864000%Z /\ random_timestamp None 1700000000 = Err EMemory.
Proof. split; reflexivity. Qed.

Print Assumptions C44_dm_exact.
Print Assumptions C44_dm_unforgeable.
Print Assumptions C44_event_partial.
Print Assumptions C44_dm_impostor.
Print Assumptions C44_event_refuted.
Print Assumptions C45_seal.
Print Assumptions C45_wrap.
Print Assumptions C45_dm.
Print Assumptions C45_uniform.
Print Assumptions C45_event_partial.
Print Assumptions C45_event_refuted.
Print Assumptions C79_event_partial.
Print Assumptions C79_dm_partial.
Print Assumptions C79_large.
Print Assumptions C79_refuted.
Print Assumptions C80_refuted.
Print Assumptions C80_partial.
