(** Property C179: private messages made by other programs are read. *)
From Verif Require Import Base BaseFacts Dec Json Hex HexSpec HexProofs Event EventSpec EventProofs EventProps Base64 Nip44 Nip21 Nip44Spec Nip44Proofs Nip44Props GiftWrap GiftWrapSpec GiftWrapProps.
From Verif Require EcdhSpec EcdhProps.
From Verif Require Import Nip44TextSpec Nip44TextProps ForeignDmSpec.
Open Scope N_scope.

Lemma carries_text decrypt parse lim sk pk e i c t : ev_content e = Some c -> cstr_ok t ->
  (decrypt sk pk c = Ok t \/ decrypt sk pk c = Err EInvalidParam) ->
  (carries decrypt parse lim sk pk e i <-> decrypt sk pk c = Ok t /\ json_event parse lim t i).
Proof.
  intros EC CT D. split.
  - intros (c' & t' & a & b & E1 & E2 & E3 & NI & B & J). assert (c' = c) by congruence. subst c'.
    assert (T : t' = t) by (destruct D; congruence). rewrite T in E2, E3. clear T.
    pose proof (until_nul_unique a b NI B) as U. rewrite <- E3, until_nul_cstr in U by exact CT. subst a. auto.
  - intros (E & J). exists c, t, t, []. rewrite app_nil_r. repeat (split; [assumption || reflexivity|]).
    split; [|split; [left; reflexivity|exact J]]. intros I. apply (proj1 (Forall_forall _ _) CT) in I. unfold char_ok in I. lia.
Qed.
Lemma json_event_one parse lim t a b : json_event parse lim t a -> json_event parse lim t b -> a = b.
Proof. intros (j & P & E) (k & Q & F). congruence. Qed.
Lemma cstr_bytes t : cstr_ok t -> bytes_ok t.
Proof. intros C. eapply Forall_impl; [|exact C]. intros x H. unfold char_ok in H. unfold byte_ok. lia. Qed.

Section Foreign.
Variable num : Z -> list N.
Variable sha256 : list N -> list N.
Variable verify : list N -> list N -> list N -> bool.
Variable pubkey_parses : list N -> bool.
Variable parse_pk : bool.
Variable parse : list N -> option json.
Variable lim44 : limits.
Variable lim : option ev_limits.
Hypothesis sha_len : forall x, length (sha256 x) = 32%nat.
Variable P : prims.
Variable nce : list N -> list N -> list N -> list N -> option (list N * list N).
Variable ncm : list N -> list N -> list N.
Variable ncv : list N -> list N -> list N -> list N -> list N -> bool.
Variable ncd : list N -> list N -> list N -> list N -> option (list N).
Variable dec : list N -> option (list N).
Hypothesis PO : prims_ok P.
Hypothesis NC : noscrypt44 P nce ncm ncv ncd.
Hypothesis B64 : b64_contract (base64 P) dec.
Hypothesis LIM : 1 <= lim_min lim44 /\ lim_min lim44 <= lim_max lim44 /\ lim_max lim44 <= 65535.
Notation ser := (serialize_with num).
Notation Udm := (unwrap_dm ser sha256 verify pubkey_parses parse_pk ncv ncd dec parse lim44 lim).

(** It is read, with its author, exactly if both texts have lengths at which
    the library pads as NIP-44 does.  Missing: the other lengths, where it is
    false ([C179_read_refuted]). *)
Theorem C179_read_partial : forall c a pa o po r pr n1 n2 t1 t2 wrap seal message,
  EcdhSpec.curve_ok c -> EcdhSpec.noscrypt_ok c (shared P) ->
  EcdhSpec.public c a pa -> EcdhSpec.public c o po -> EcdhSpec.public c r pr ->
  length n1 = 32%nat -> bytes_ok n1 -> length n2 = 32%nat -> bytes_ok n2 -> cstr_ok t1 -> cstr_ok t2 ->
  1 <= blen t1 <= lim_max lim44 -> 1 <= blen t2 <= lim_max lim44 -> (parse_pk = true -> pubkey_parses pa = true) ->
  sent P ser sha256 verify parse lim a pa o po pr n1 n2 t1 t2 wrap seal message ->
  (Udm wrap r = (Some pa, Ok message) <->
   (common_length (blen t1) /\ blen t1 <= 61440) /\ (common_length (blen t2) /\ blen t2 <= 61440)).
Proof.
  intros c a pa o po r pr n1 n2 t1 t2 wrap seal message K NS A O R L1 B1 L2 B2 C1 C2 M1 M2 PP [F1 F2 (c2 & F3 & T2) F4 F5 F6 F7 (c1 & F8 & T1) F9 F10].
  destruct LIM as (LA & LB & LC).
  pose proof (C178_read_partial P nce ncm ncv ncd dec PO NC B64 lim44 a pr r pa n1 t1 c1 LA LB LC (proj2 M1) L1 B1 (cstr_bytes _ C1) (proj1 M1)
    (shared_agree P c a r pa pr K NS A R) T1) as (I1 & D1).
  pose proof (C178_read_partial P nce ncm ncv ncd dec PO NC B64 lim44 o pr r po n2 t2 c2 LA LB LC (proj2 M2) L2 B2 (cstr_bytes _ C2) (proj1 M2)
    (shared_agree P c o r po pr K NS O R) T2) as (I2 & D2).
  rewrite <- I1, <- I2.
  rewrite (C44_dm_exact num sha256 verify pubkey_parses parse_pk ncv ncd dec parse lim44 lim sha_len wrap r (Some pa) message).
  rewrite F10. split.
  - intros (_ & (_ & s & Cs & _ & _ & _ & Cm) & _). rewrite F2 in Cs.
    apply (carries_text _ parse lim r po wrap s c2 t2 F3 C2 D2) in Cs as (E2 & J).
    assert (s = seal) by (eapply json_event_one; eassumption). subst s.
    apply (carries_text _ parse lim r pa seal message c1 t1 F8 C1 D1) in Cm as (E1 & _). auto.
  - intros (E1 & E2). split; [reflexivity|]. split; [|exact PP]. split; [exact F1|]. exists seal. rewrite F2.
    split; [apply (carries_text _ parse lim r po wrap seal c2 t2 F3 C2 D2); auto|].
    split; [exact F5|]. split; [exact F6|]. split; [exact F7|].
    apply (carries_text _ parse lim r pa seal message c1 t1 F8 C1 D1); auto.
Qed.
End Foreign.
Print Assumptions C179_read_partial.

(** The message inside carries no signature; it is imported, with zeros for one. *)
Theorem C179_unsigned : forall lim e, event_ok e -> (Z.abs (ev_created e) <= 2 ^ 53)%Z -> within_limits lim e ->
  event_from_tree lim (unsigned_json e) =
  Ok (mkEvent (ev_id e) (ev_pubkey e) (ev_created e) (ev_kind e) (ev_tags e) (Some (content_of e)) (repeat 0 64)).
Proof.
  intros lim e O T W. unfold event_from_tree. set (j := unsigned_json e).
  change (jget (bs "id") j) with (Some (JStr (hex_encode (ev_id e)))).
  change (jget (bs "pubkey") j) with (Some (JStr (hex_encode (ev_pubkey e)))).
  change (jget (bs "created_at") j) with (Some (JNum (JFin (ev_created e) 0))).
  change (jget (bs "kind") j) with (Some (JNum (JFin (Z.of_N (ev_kind e)) 0))).
  change (jget (bs "content") j) with (Some (JStr (content_of e))).
  change (jget (bs "tags") j) with (Some (JArr (map (fun vs => JArr (map JStr vs)) (ev_tags e)))).
  change (jget (bs "sig") j) with (@None json).
  rewrite !hex_field_encode by (apply O). cbn [bind].
  pose proof (eo_kind _ O) as K. pose proof (eo_created _ O) as CR.
  unfold j_int64, j_int32, jtrunc. change (0 <=? 0)%Z with true. cbv iota.
  change (2 ^ 0)%Z with 1%Z. rewrite !Z.mul_1_r.
  replace ((- 2 ^ 63 <=? ev_created e)%Z && (ev_created e <? 2 ^ 63)%Z) with true
    by (symmetry; apply andb_true_iff; split; [apply Z.leb_le|apply Z.ltb_lt]; lia).
  cbn [bind].
  replace (2147483647 <=? Z.of_N (ev_kind e))%Z with false by (symmetry; apply Z.leb_gt; lia).
  replace (Z.of_N (ev_kind e) <=? -2147483648)%Z with false by (symmetry; apply Z.leb_gt; lia).
  rewrite Z.mod_small by lia. rewrite N2Z.id.
  assert (IT : import_tags (map (fun vs => JArr (map JStr vs)) (ev_tags e)) = ev_tags e).
  { apply import_tags_map. eapply Forall_impl; [|apply (eo_tags _ O)]. intros vs (H & _). exact H. }
  rewrite IT, map_length.
  destruct lim as [l|]; cbn [within_limits] in W.
  - destruct W as (W1 & W2).
    replace (max_content l <? N.of_nat (length (content_of e))) with false by (symmetry; apply N.ltb_ge; lia).
    replace (max_tags l <? N.of_nat (length (ev_tags e))) with false by (symmetry; apply N.ltb_ge; lia).
    reflexivity.
  - reflexivity.
Qed.
Print Assumptions C179_unsigned.
Example C179_unsigned_meets : event_ok sample_event /\ within_limits (Some (mkEvLimits 65536 100)) sample_event /\
  exists e, event_from_tree (Some (mkEvLimits 65536 100)) (unsigned_json sample_event) = Ok e /\ ev_sig e = repeat 0 64.
Proof.
  split; [apply sample_event_ok|]. split; [cbn; lia|]. eexists. split; [apply C179_unsigned; [apply sample_event_ok|cbn; lia|cbn; lia]|reflexivity].
Qed.

(** A message on the curve of thirteen points: author 5, recipient 6, and 4 used once. *)
Definition f_num (z : Z) : list N := [].
Definition f_sha (x : list N) : list N := repeat 3 32.
Definition f_verify (pk d s : list N) : bool := true.
Definition f_message : event := mkEvent (repeat 3 32) (repeat 5 32) 1700000000 14 [] (Some (bs "hi")) (repeat 0 64).
Definition f_text (m : list N) : list N := base64 plain13 ([2] ++ repeat 9 32 ++ padded m ++ repeat 0 32).
Definition f_sealed : event := mkEvent (repeat 3 32) (repeat 5 32) 1700000000 13 [] (Some (f_text (bs "msg"))) (repeat 1 64).
Definition f_parse (t : list N) : option json :=
  Some (if beq t (bs "msg") then unsigned_json f_message else event_to_tree f_sealed).
Definition f_wrap (t2 : list N) : event := mkEvent (repeat 3 32) (repeat 4 32) 1700000000 1059 [] (Some (f_text t2)) (repeat 1 64).

Lemma f_keys k : (k = 4 \/ k = 5 \/ k = 6) -> EcdhSpec.public EcdhProps.c13 [k] (repeat k 32).
Proof. intros [->|[->| ->]]; (split; [apply EcdhProps.usableb_spec; reflexivity|reflexivity]). Qed.
Lemma f_nip44 k m : (k = 4 \/ k = 5) -> nip44_text plain13 [k] (repeat 6 32) (repeat 9 32) m (f_text m).
Proof. intros [->| ->]; (eexists; split; [vm_compute; reflexivity|reflexivity]). Qed.
Lemma f_sent t2 : beq t2 (bs "msg") = false ->
  sent plain13 (serialize_with f_num) f_sha f_verify f_parse None [5] (repeat 5 32) [4] (repeat 4 32) (repeat 6 32)
    (repeat 9 32) (repeat 9 32) (bs "msg") t2 (f_wrap t2) f_sealed f_message.
Proof.
  intros B. constructor; try reflexivity.
  - eexists. split; [reflexivity|]. apply f_nip44. auto.
  - eexists. unfold f_parse. rewrite B. split; [reflexivity|]. vm_compute. reflexivity.
  - split; reflexivity.
  - eexists. split; [reflexivity|]. apply f_nip44. auto.
  - eexists. split; [reflexivity|]. vm_compute. reflexivity.
Qed.
Lemma f_read t2 : beq t2 (bs "msg") = false -> cstr_ok t2 -> 1 <= blen t2 <= 65535 ->
  (unwrap_dm (serialize_with f_num) f_sha f_verify (fun _ => true) true v13 d13 b64_decode f_parse default_limits None (f_wrap t2) [6]
   = (Some (repeat 5 32), Ok f_message) <->
   (common_length (blen (bs "msg")) /\ blen (bs "msg") <= 61440) /\ (common_length (blen t2) /\ blen t2 <= 61440)).
Proof.
  intros B C M.
  assert (N9 : bytes_ok (repeat 9 32)) by (apply Forall_repeat; reflexivity).
  apply (C179_read_partial f_num f_sha f_verify (fun _ => true) true f_parse default_limits None (fun _ => eq_refl) plain13 e13 p_hmac v13 d13 b64_decode
    plain13_ok plain13_nc base64_contract ltac:(cbn; lia) EcdhProps.c13 [5] (repeat 5 32) [4] (repeat 4 32) [6] (repeat 6 32) (repeat 9 32) (repeat 9 32)
    (bs "msg") t2 (f_wrap t2) f_sealed f_message EcdhProps.c13_ok EcdhProps.noscrypt13); auto using f_keys, f_sent.
  - repeat constructor.
  - cbn. lia.
Qed.
Example C179_meets :
  unwrap_dm (serialize_with f_num) f_sha f_verify (fun _ => true) true v13 d13 b64_decode f_parse default_limits None (f_wrap (bs "a seal")) [6]
  = (Some (repeat 5 32), Ok f_message).
Proof.
  apply f_read; [reflexivity|repeat constructor|cbn; lia|]. split; (split; [left|]; cbn; lia).
Qed.
(** Full statement (false): a seal whose text takes 400 bytes is not read. *)
Theorem C179_read_refuted :
  ~ (forall num sha256 verify pubkey_parses parse_pk parse lim (P : prims) nce ncm ncv ncd dec c a pa o po r pr n1 n2 t1 t2 wrap seal message,
       (forall x, length (sha256 x) = 32%nat) -> prims_ok P -> noscrypt44 P nce ncm ncv ncd -> b64_contract (base64 P) dec ->
       EcdhSpec.curve_ok c -> EcdhSpec.noscrypt_ok c (shared P) ->
       EcdhSpec.public c a pa -> EcdhSpec.public c o po -> EcdhSpec.public c r pr ->
       length n1 = 32%nat -> bytes_ok n1 -> length n2 = 32%nat -> bytes_ok n2 -> cstr_ok t1 -> cstr_ok t2 ->
       1 <= blen t1 <= lim_max default_limits -> 1 <= blen t2 <= lim_max default_limits -> (parse_pk = true -> pubkey_parses pa = true) ->
       sent P (serialize_with num) sha256 verify parse lim a pa o po pr n1 n2 t1 t2 wrap seal message ->
       unwrap_dm (serialize_with num) sha256 verify pubkey_parses parse_pk ncv ncd dec parse default_limits lim wrap r = (Some pa, Ok message)).
Proof.
  intros H.
  assert (N9 : bytes_ok (repeat 9 32)) by (apply Forall_repeat; reflexivity).
  assert (L : blen (repeat 97 400) = 400) by reflexivity.
  assert (C : cstr_ok (repeat 97 400)) by (apply Forall_repeat; split; reflexivity).
  assert (E : unwrap_dm (serialize_with f_num) f_sha f_verify (fun _ => true) true v13 d13 b64_decode f_parse default_limits None (f_wrap (repeat 97 400)) [6]
    = (Some (repeat 5 32), Ok f_message)).
  { apply (H f_num f_sha f_verify (fun _ => true) true f_parse None plain13 e13 p_hmac v13 d13 b64_decode EcdhProps.c13 [5] (repeat 5 32) [4] (repeat 4 32) [6] (repeat 6 32)
      (repeat 9 32) (repeat 9 32) (bs "msg") (repeat 97 400) (f_wrap (repeat 97 400)) f_sealed f_message); auto using f_keys, plain13_ok, plain13_nc, base64_contract, EcdhProps.c13_ok.
    - exact EcdhProps.noscrypt13.
    - repeat constructor.
    - cbn. lia.
    - rewrite L. cbn. lia.
    - apply f_sent. reflexivity. }
  apply f_read in E; [|reflexivity|exact C|rewrite L; lia].
  destruct E as (_ & [X|X] & _); rewrite L in X; [lia|discriminate X].
Qed.
Print Assumptions C179_read_refuted.
