(** Who can make a client read an answer: C169. *)
From Verif Require Import Base BaseFacts Nip21 Base64 Dec Json Hex HexSpec HexProofs Event EventSpec EventProofs EventProps Nip44 Nip44Spec Nip44Proofs Nip44Props Nip47 Nip47Spec Nip47Proofs Nip47Props EventReadSpec EventReadProps SignedSpec SignedProps RelaySendProps GiftWrapProps JsonLib.
Open Scope N_scope.

(** ** C169 *)
(** The reader of the wallet's answers over NIP-44 decryption *)
Definition reads44 ncv ncd dec l (sk pk : list N) (c : option (list N)) : res (list N) :=
  match c with Some c => nip44_decrypt ncv ncd dec l sk pk c | None => Err EInvalidParam end.
(** An answer that anybody with a key of their own can write: it claims to be the
    wallet's, and its p tag names the writer. *)
Definition forged (id wallet : list N) (created : Z) (writer payload sg : list N) (more : list (list (list N))) : event :=
  mkEvent id wallet created 23195 ([[bs "p"; hex_encode writer]; [bs "encryption"; bs "nip44_v2"]] ++ more) (Some payload) sg.
(** For every wallet, client, stranger and text: the stranger's text is read by the
    client as the answer of the event's author, with any id, time and signature. *)
Theorem C169_forged : forall nce ncm ncv ncd mt enc dec l skc pkc sa pa nonce t payload, nc_contract nce ncm ncv ncd mt -> b64_contract enc dec -> mt sa pkc skc pa ->
  1 <= lim_min l -> lim_min l <= lim_max l -> lim_max l <= 65535 -> length pa = 32%nat -> bytes_ok pa -> length nonce = 32%nat -> bytes_ok nonce -> bytes_ok t -> blen t <= 61440 ->
  nip44_encrypt nce ncm enc l sa pkc (Some nonce) t = Ok payload ->
  forall id wallet created sg more, parse_response (reads44 ncv ncd dec l) (forged id wallet created pa payload sg more) skc = Ok t.
Proof.
  intros nce ncm ncv ncd mt enc dec l skc pkc sa pa nonce t payload NC BC MT L1 L2 L3 PL PB NL NB TB TL E id wallet created sg more.
  pose proof (C11_roundtrip_partial nce ncm ncv ncd mt enc dec l sa pkc skc pa nonce t payload NC BC MT L1 L2 L3 NL NB TB E) as D. apply N.leb_le in TL. rewrite TL in D.
  unfold parse_response, forged. cbn [ev_kind ev_tags ev_pubkey ev_content app N.eqb Pos.eqb negb]. cbn [first_tag_value response_peer]. 
  replace (beq (bs "p") (bs "encryption")) with false by reflexivity. replace (beq (bs "encryption") (bs "encryption")) with true by reflexivity. replace (contains (bs "nip44") (bs "nip44_v2")) with true by reflexivity.
  replace (beq (bs "p") (bs "p")) with true by reflexivity.
  assert (H : hex_decode47 (hex_encode pa) 32 = Some pa) by (apply hex_decode47_iff; split; [apply hextext_loosehex, hextext_encode; exact PB|exact PL]). rewrite H. exact D.
Qed.

(** A cipher with keys: what is made for one pair of keys does not verify for another. *)
Definition mix (sk pk : list N) : N := (hd 0 sk + hd 0 pk) mod 256.
Definition key_enc (sk pk n d : list N) : option (list N * list N) := if forallb (fun b => b <? 256) d then Some (d, [mix sk pk]) else None.
Definition key_mac (hk d : list N) : list N := repeat (hd 0 hk mod 256) 32.
Definition key_verify (sk pk n d m : list N) : bool := beq m (repeat (mix sk pk) 32).
Definition key_match (sa pb sb pa : list N) : Prop := hd 0 sa = hd 0 pa /\ hd 0 sb = hd 0 pb.
Lemma key_contract : nc_contract key_enc key_mac key_verify toy_dec key_match.
Proof.
  assert (T : forall sk pk n d ct hk, key_enc sk pk n d = Some (ct, hk) -> (ct = d /\ bytes_ok d) /\ hk = [mix sk pk]).
  { unfold key_enc. intros sk pk n d ct hk H. destruct (forallb _ d) eqn:F; [|discriminate]. assert (A : Some (d, [mix sk pk]) = Some (ct, hk)) by exact H. split.
    - split; [congruence|]. apply Forall_forall. intros b Hb. rewrite forallb_forall in F. apply F in Hb. apply N.ltb_lt in Hb. exact Hb.
    - congruence. }
  constructor; intros.
  - apply T in H as ((-> & _) & _). reflexivity.
  - apply T in H as ((-> & ?) & _). assumption.
  - split; [apply repeat_length|]. apply Forall_repeat. unfold byte_ok. apply N.mod_lt. discriminate.
  - apply T in H0 as (_ & ->). destruct H as (A & B). unfold key_verify, key_mac, mix. cbn [hd]. rewrite N.mod_mod by discriminate. rewrite A, B, N.add_comm. apply beq_refl.
  - apply T in H0 as ((-> & _) & _). reflexivity.
Qed.
Definition fake_text : list N := bs "{""result_type"":""pay_invoice""}".
Definition fake_payload : list N := match nip44_encrypt key_enc key_mac b64_encode default_limits (repeat 3 32) (repeat 2 32) (Some (repeat 7 32)) fake_text with Ok p => p | _ => [] end.
Definition fake : event := forged (repeat 9 32) (repeat 5 32) 1700000000 (repeat 3 32) fake_payload (repeat 0 64) [].
Lemma fake_ok : event_ok fake.
Proof.
  constructor; cbn [fake forged ev_id ev_pubkey ev_created ev_kind ev_tags ev_sig app].
  1, 2, 7: split; [reflexivity|apply Forall_repeat; unfold byte_ok; lia].
  - lia.
  - lia.
  - apply Forall_cons; [|apply Forall_cons; [|apply Forall_nil]]; (split; [discriminate|]); (apply Forall_cons; [|apply Forall_cons; [|apply Forall_nil]]); apply cstr_dec; reflexivity.
  - unfold content_of, fake, forged. cbn [ev_content]. apply cstr_dec. vm_compute. reflexivity.
Qed.
(** So what is read as the answer of the author need not be readable with the
    author's key at all. *)
Theorem C169_refuted : ~ (forall nce ncm ncv ncd mt enc dec l e skc t, nc_contract nce ncm ncv ncd mt -> b64_contract enc dec ->
  1 <= lim_min l -> lim_min l <= lim_max l -> lim_max l <= 65535 -> event_ok e ->
  parse_response (reads44 ncv ncd dec l) e skc = Ok t -> reads44 ncv ncd dec l skc (ev_pubkey e) (ev_content e) = Ok t).
Proof.
  intros H. assert (R : parse_response (reads44 key_verify toy_dec b64_decode default_limits) fake (repeat 2 32) = Ok fake_text).
  { assert (E : nip44_encrypt key_enc key_mac b64_encode default_limits (repeat 3 32) (repeat 2 32) (Some (repeat 7 32)) fake_text = Ok fake_payload) by (vm_compute; reflexivity).
    apply (C169_forged key_enc key_mac key_verify toy_dec key_match b64_encode b64_decode default_limits (repeat 2 32) (repeat 2 32) (repeat 3 32) (repeat 3 32) (repeat 7 32) fake_text fake_payload key_contract base64_contract);
      try exact E; try (vm_compute; discriminate); try reflexivity; try (apply Forall_repeat; unfold byte_ok; lia).
    - split; reflexivity.
    - apply EventProofs.cstr_bytes_ok, cstr_dec. reflexivity. }
  specialize (H key_enc key_mac key_verify toy_dec key_match b64_encode b64_decode default_limits fake (repeat 2 32) fake_text key_contract base64_contract ltac:(vm_compute; discriminate) ltac:(vm_compute; discriminate) ltac:(vm_compute; discriminate) fake_ok R).
  vm_compute in H. discriminate.
Qed.
Lemma peer_author author ts : (forall x r k, In (bs "p" :: x :: r) ts -> loosehex x k -> length k = 32%nat -> k = author) -> response_peer ts author = author.
Proof.
  induction ts as [|x ts IH]; intros P; [reflexivity|]. cbn [response_peer].
  assert (IH' : response_peer ts author = author) by (apply IH; intros x0 r k I; apply (P x0 r k); right; exact I).
  destruct x as [|n [|w r]]; try exact IH'. destruct (beq n (bs "p")) eqn:B; [|exact IH']. apply beq_eq in B. subst n. destruct (hex_decode47 w 32) as [k|] eqn:D; [|exact IH'].
  apply hex_decode47_iff in D as (D & L). apply (P w r k); [left; reflexivity|exact D|exact L].
Qed.
(** Partial: if every p tag that holds a key names the author, what is read was
    authenticated with the author's key.  Missing: the answers that name another. *)
Theorem C169_partial : forall ncv ncd dec l e skc t, (forall x r k, In (bs "p" :: x :: r) (ev_tags e) -> loosehex x k -> length k = 32%nat -> k = ev_pubkey e) ->
  parse_response (reads44 ncv ncd dec l) e skc = Ok t ->
  exists c nonce ct mac padded, ev_content e = Some c /\ dec c = Some (2 :: nonce ++ ct ++ mac) /\ length nonce = 32%nat /\ length mac = 32%nat /\
    ncv skc (ev_pubkey e) nonce (nonce ++ ct) mac = true /\ ncd skc (ev_pubkey e) nonce ct = Some padded /\ unpad_plaintext l padded = Ok t.
Proof.
  intros ncv ncd dec l e skc t P H. unfold parse_response in H. destruct (negb _); [discriminate|]. destruct (first_tag_value _ _) as [v|]; [|discriminate]. destruct (contains _ v); [|discriminate].
  assert (R : response_peer (ev_tags e) (ev_pubkey e) = ev_pubkey e) by (apply peer_author; exact P).
  rewrite R in H. unfold reads44 in H. destruct (ev_content e) as [c|]; [|discriminate]. destruct (C11_decrypt_authenticated _ _ _ _ _ _ _ _ H) as (nonce & ct & mac & padded & X). exists c, nonce, ct, mac, padded. split; [reflexivity|exact X].
Qed.
(** Notifications are read with the author's key only. *)
Theorem C169_notification : forall ncv ncd dec l e skc t, parse_notification (reads44 ncv ncd dec l) e skc = Ok t ->
  exists c nonce ct mac padded, ev_content e = Some c /\ dec c = Some (2 :: nonce ++ ct ++ mac) /\ length nonce = 32%nat /\ length mac = 32%nat /\
    ncv skc (ev_pubkey e) nonce (nonce ++ ct) mac = true /\ ncd skc (ev_pubkey e) nonce ct = Some padded /\ unpad_plaintext l padded = Ok t.
Proof.
  intros ncv ncd dec l e skc t H. apply C73_notification in H as (_ & H). unfold reads44 in H. destruct (ev_content e) as [c|]; [|discriminate]. destruct (C11_decrypt_authenticated _ _ _ _ _ _ _ _ H) as (nonce & ct & mac & padded & X). exists c, nonce, ct, mac, padded. split; [reflexivity|exact X].
Qed.
(** A client that verifies what it reads and looks at its author: the text is the
    decryption, with the wallet's key, of what the wallet signed, unless a signed p tag
    names somebody else. *)
Section Checked.
Variable num : Z -> list N.
Variable sha256 : list N -> list N.
Variable pubkey_of : list N -> option (list N).
Variable sign : list N -> list N -> list N -> option (list N).
Variable verify : list N -> list N -> list N -> bool.
Variable pubkey_parses : list N -> bool.
Variable print : json -> list N.
Variable parse : list N -> option json.
Variable around : list N -> Prop.
Hypothesis SH : forall x, length (sha256 x) = 32%nat /\ bytes_ok (sha256 x).
Hypothesis CL : c_library print parse.
Hypothesis NC : forall z, Forall (fun c => num_char c = true) (num z).
Notation ser := (serialize_with num).
Theorem C169_checked : forall ncv ncd dec l skw pkw log lim s e parse_pk skc t,
  only_by ser sha256 pubkey_of sign verify around skw pkw log -> cstr_ok s -> event_from_json parse lim s = Ok e -> event_verify ser sha256 verify pubkey_parses parse_pk e = Ok tt -> around (ev_sig e) -> ev_pubkey e = pkw ->
  (forall e0, In (UEvent e0) log -> num (ev_created e) = num (ev_created e0) -> ev_created e = ev_created e0) ->
  (forall e0 x r k, In (UEvent e0) log -> In (bs "p" :: x :: r) (ev_tags e0) -> loosehex x k -> length k = 32%nat -> ev_kind e0 = 23195 -> k = pkw) ->
  parse_response (reads44 ncv ncd dec l) e skc = Ok t ->
  (exists e0, In (UEvent e0) log /\ ev_kind e0 = 23195 /\ nip44_decrypt ncv ncd dec l skc pkw (content_of e0) = Ok t) \/ collides sha256.
Proof.
  intros ncv ncd dec l skw pkw log lim s e parse_pk skc t O S R V AR K NI P H.
  destruct (C168_event num sha256 pubkey_of sign verify pubkey_parses print parse around SH CL NC skw pkw log lim s e parse_pk O S R V AR K NI) as [(e0 & I & SC & SK & ST & SO)|C]; [|right; exact C]. left.
  exists e0. assert (KD : ev_kind e = 23195) by (exact (proj1 (C73_reads _ _ _ _ H))). split; [exact I|]. split; [congruence|].
  unfold parse_response in H. destruct (negb _); [discriminate|]. destruct (first_tag_value _ _) as [v|]; [|discriminate]. destruct (contains _ v); [|discriminate].
  assert (RP : response_peer (ev_tags e) (ev_pubkey e) = ev_pubkey e).
  { apply peer_author. rewrite ST. intros x r k J X L. rewrite K. apply (P e0 x r k I J X L). congruence. }
  rewrite RP, K in H. unfold reads44 in H. destruct (ev_content e) as [c|] eqn:E; [|discriminate]. rewrite <- SO. unfold content_of. rewrite E. exact H.
Qed.
End Checked.
Example C169_meets :
  nc_contract key_enc key_mac key_verify toy_dec key_match /\ b64_contract b64_encode b64_decode /\
  nip44_encrypt key_enc key_mac b64_encode default_limits (repeat 3 32) (repeat 2 32) (Some (repeat 7 32)) fake_text = Ok fake_payload /\
  (let e := mkEvent (repeat 9 32) (repeat 3 32) 1700000000 23195 [[bs "encryption"; bs "nip44_v2"]] (Some fake_payload) (repeat 0 64) in
   (forall x r k, In (bs "p" :: x :: r) (ev_tags e) -> loosehex x k -> length k = 32%nat -> k = ev_pubkey e) /\ parse_response (reads44 key_verify toy_dec b64_decode default_limits) e (repeat 2 32) = Ok fake_text) /\
  parse_notification (reads44 key_verify toy_dec b64_decode default_limits) (mkEvent (repeat 9 32) (repeat 3 32) 1700000000 23197 [] (Some fake_payload) (repeat 0 64)) (repeat 2 32) = Ok fake_text.
Proof.
  split; [exact key_contract|]. split; [exact base64_contract|]. split; [vm_compute; reflexivity|]. split; [split|].
  - intros x r k [I|[]]. discriminate.
  - vm_compute. reflexivity.
  - vm_compute. reflexivity.
Qed.
(** The wallet's own answer, signed, read and checked *)
Definition true_payload : list N := match nip44_encrypt key_enc key_mac b64_encode default_limits toy_key (repeat 2 32) (Some (repeat 7 32)) fake_text with Ok p => p | _ => [] end.
Definition wa_note : event := mkEvent (repeat 0 32) (repeat 0 32) 1600000000 23195 [[bs "encryption"; bs "nip44_v2"]] (Some true_payload) (repeat 0 64).
Definition wa_signed : event := fst (event_sign serialize_own GiftWrapProps.toy_sha toy_pub toy_sign wa_note toy_key (Some [])).
Definition wa_sver (pk d s : list N) : bool := negb (beq pk toy_key) || beq d (ev_id wa_signed).
Definition wa_text : list N := jprint (event_to_tree wa_signed).
Example C169_checked_meets : exists e,
  only_by serialize_own GiftWrapProps.toy_sha toy_pub toy_sign wa_sver (fun _ => True) toy_key toy_key [UEvent wa_note] /\ cstr_ok wa_text /\ event_from_json jparse None wa_text = Ok e /\
  event_verify serialize_own GiftWrapProps.toy_sha wa_sver (fun _ => true) true e = Ok tt /\ ev_pubkey e = toy_key /\
  (forall e0 x r k, In (UEvent e0) [UEvent wa_note] -> In (bs "p" :: x :: r) (ev_tags e0) -> loosehex x k -> length k = 32%nat -> ev_kind e0 = 23195 -> k = toy_key) /\
  parse_response (reads44 key_verify toy_dec b64_decode default_limits) e (repeat 2 32) = Ok fake_text.
Proof.
  assert (Z : forall n, bytes_ok (repeat 0 n)) by (intros n; apply Forall_repeat; reflexivity).
  eexists. split; [|split; [apply cstr_dec; vm_compute; reflexivity|split; [vm_compute; reflexivity|split; [vm_compute; reflexivity|split; [vm_compute; reflexivity|split; [|vm_compute; reflexivity]]]]]].
  - split; [reflexivity|]. split.
    + apply Forall_cons; [|apply Forall_nil]. split; cbn [wa_note ev_id ev_pubkey ev_created ev_kind ev_tags ev_sig]; try (split; [reflexivity|apply Z]); [lia|reflexivity| |apply cstr_dec; vm_compute; reflexivity].
      apply Forall_cons; [|apply Forall_nil]. split; [discriminate|]. apply Forall_cons; [|apply Forall_cons; [|apply Forall_nil]]; apply cstr_dec; reflexivity.
    + intros d s _ V. unfold wa_sver in V. rewrite beq_refl in V. cbn [negb orb] in V. apply beq_eq in V. subst d.
      exists (UEvent wa_note). split; [left; reflexivity|]. exists (Some []), wa_signed. split; [|reflexivity]. vm_compute. reflexivity.
  - intros e0 x r k [E|[]] J. assert (A : e0 = wa_note) by congruence. subst e0. destruct J as [J|[]]. discriminate.
Qed.
Print Assumptions C169_forged.
Print Assumptions C169_refuted.
Print Assumptions C169_partial.
Print Assumptions C169_notification.
Print Assumptions C169_checked.
Print Assumptions C169_meets.
Print Assumptions C169_checked_meets.
