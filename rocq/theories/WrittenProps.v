(** C171: what is decrypted was encrypted by one of the two. *)
From Verif Require Import Base BaseFacts Nip21 Base64 Dec Json Hex HexSpec HexProofs Event EventSpec EventProofs EventProps Nip44 Nip44Spec Nip44Proofs Nip44Props GiftWrap GiftWrapSpec GiftWrapProps JsonLib EventReadSpec EventReadProps SignedSpec SignedProps RelaySendProps WrittenSpec.
Open Scope N_scope.

(** Whatever text is decrypted, the message was given to the library, byte by byte, by
    somebody with the same shared secret. *)
Theorem C171_text : forall nce ncm ncv ncd mt dec l around sk pk log t m, nc_contract nce ncm ncv ncd mt -> 1 <= lim_min l -> lim_max l <= 65535 ->
  only_in around nce ncv mt l sk pk log -> mac_around around dec t -> nip44_decrypt ncv ncd dec l sk pk t = Ok m ->
  exists k, In k log /\ mt (c_sk k) (c_pk k) sk pk /\ c_text k = m.
Proof.
  intros nce ncm ncv ncd mt dec l around sk pk log t m NC L1 L2 (F & O) A H.
  destruct (C11_decrypt_authenticated _ _ _ _ _ _ _ _ H) as (nonce & ct & mac & padded & D & LN & LM & V & DC & U).
  assert (AM : around mac) by (apply (A (2 :: nonce ++ ct) mac); [rewrite D; cbn [app]; rewrite <- app_assoc; reflexivity|exact LM]).
  destruct (O nonce (nonce ++ ct) mac AM V) as (k & p & ct' & hk & I & M & P & E & Q). rewrite Forall_forall in F. destruct (F k I) as (KN & KB).
  assert (EN : nonce = c_nonce k /\ ct = ct').
  { assert (X : firstn 32 (nonce ++ ct) = firstn 32 (c_nonce k ++ ct')) by (rewrite Q; reflexivity). assert (Y : skipn 32 (nonce ++ ct) = skipn 32 (c_nonce k ++ ct')) by (rewrite Q; reflexivity).
    rewrite <- LN in X at 1. rewrite <- KN in X. rewrite <- LN in Y at 1. rewrite <- KN in Y. rewrite !firstn_app, !firstn_all, !Nat.sub_diag, !firstn_O, !app_nil_r in X. rewrite !skipn_app, !skipn_all, !Nat.sub_diag, !skipn_O in Y. cbn [app] in Y. split; assumption. }
  destruct EN as (-> & ->). pose proof (ncc_decrypt _ _ _ _ _ NC _ _ _ _ _ _ _ _ M E) as R. assert (padded = p) by congruence. subst p.
  assert (LB : lim_min l <= blen (c_text k) <= lim_max l).
  { unfold pad_plaintext in P. destruct (N.ltb_spec (blen (c_text k)) (lim_min l)); cbn [orb] in P; [discriminate|]. destruct (N.ltb_spec (lim_max l) (blen (c_text k))); [discriminate|]. lia. }
  destruct (C10_pad_unpad l (c_text k) L1 L2 KB LB) as (buf & P' & _ & _ & _ & U'). assert (buf = padded) by congruence. subst buf. exists k. split; [exact I|]. split; [exact M|]. congruence.
Qed.
Section Message.
Variable num : Z -> list N.
Variable sha256 : list N -> list N.
Variable pubkey_of : list N -> option (list N).
Variable sign : list N -> list N -> list N -> option (list N).
Variable verify : list N -> list N -> list N -> bool.
Variable pubkey_parses : list N -> bool.
Variable print : json -> list N.
Variable parse : list N -> option json.
Variable nce : list N -> list N -> list N -> list N -> option (list N * list N).
Variable ncm : list N -> list N -> list N.
Variable ncv : list N -> list N -> list N -> list N -> list N -> bool.
Variable ncd : list N -> list N -> list N -> list N -> option (list N).
Variable mt : list N -> list N -> list N -> list N -> Prop.
Variable b64dec : list N -> option (list N).
Variable l : limits.
Variable sigs macs : list N -> Prop.
Hypothesis SH : forall x, length (sha256 x) = 32%nat /\ bytes_ok (sha256 x).
Hypothesis CL : c_library print parse.
Hypothesis NC : forall z, Forall (fun c => num_char c = true) (num z).
Hypothesis CO : nc_contract nce ncm ncv ncd mt.
Hypothesis L1 : 1 <= lim_min l.
Hypothesis L2 : lim_max l <= 65535.
(** Decryption writes bytes. *)
Hypothesis DB : forall sk pk n ct p, ncd sk pk n ct = Some p -> bytes_ok p.
Notation ser := (serialize_with num).
Lemma decrypted_bytes sk pk t m : nip44_decrypt ncv ncd b64dec l sk pk t = Ok m -> bytes_ok m.
Proof.
  intros H. destruct (C11_decrypt_authenticated _ _ _ _ _ _ _ _ H) as (nonce & ct & mac & padded & _ & _ & _ & _ & DC & U). apply DB in DC. unfold unpad_plaintext in U.
  destruct padded as [|hi [|lo body]]; try discriminate. cbv zeta in U. destruct (_ || _); [discriminate|]. destruct (negb _); [discriminate|]. destruct (blen body <? _); [discriminate|].
  assert (Q : firstn (N.to_nat (N.lor (N.shiftl hi 8) lo mod 2 ^ 16)) body = m) by congruence. rewrite <- Q. apply Forall_firstn. exact (Forall_inv_tail (Forall_inv_tail DC)).
Qed.
Lemma until_nul_cstr t : bytes_ok t -> cstr_ok (until_nul t).
Proof. induction 1 as [|c t C _ IH]; [constructor|]. cbn [until_nul]. destruct (N.eqb_spec c 0) as [Z|Z]; [constructor|]. constructor; [unfold char_ok; unfold byte_ok in C; lia|exact IH]. Qed.
Lemma opened sk pk lim e i : open_content ncv ncd b64dec parse l lim sk pk e = Ok i ->
  exists c t, ev_content e = Some c /\ nip44_decrypt ncv ncd b64dec l sk pk c = Ok t /\ cstr_ok (until_nul t) /\ event_from_json parse lim (until_nul t) = Ok i.
Proof.
  intros H. unfold open_content in H. destruct (ev_content e) as [c|]; [|discriminate]. unfold decrypt in H. destruct (nip44_decrypt ncv ncd b64dec l sk pk c) as [t| |] eqn:E; try discriminate. cbn [bind] in H.
  exists c, t. split; [reflexivity|]. split; [exact E|]. split; [apply until_nul_cstr, (decrypted_bytes _ _ _ _ E)|exact H].
Qed.
(** A private message that is read as somebody's: they signed a seal, and the message is
    the text that one of the two had encrypted, with the secret they share, into the
    content of that seal. *)
Theorem C171_message : forall lim parse_pk sks pks log skr calls wrap w m,
  only_by ser sha256 pubkey_of sign verify sigs sks pks log -> only_in macs nce ncv mt l skr pks calls ->
  (forall seal c, open_content ncv ncd b64dec parse l lim skr (ev_pubkey wrap) wrap = Ok seal -> ev_content seal = Some c -> sigs (ev_sig seal) /\ mac_around macs b64dec c) ->
  (forall e0 z, In (UEvent e0) log -> num z = num (ev_created e0) -> z = ev_created e0) ->
  unwrap_dm ser sha256 verify pubkey_parses parse_pk ncv ncd b64dec parse l lim wrap skr = (w, Ok m) -> ev_pubkey m = pks ->
  (exists e0 k, In (UEvent e0) log /\ ev_kind e0 = 13 /\ In k calls /\ mt (c_sk k) (c_pk k) skr pks /\
     nip44_decrypt ncv ncd b64dec l skr pks (content_of e0) = Ok (c_text k) /\ event_from_json parse lim (until_nul (c_text k)) = Ok m) \/ collides sha256.
Proof.
  intros lim parse_pk sks pks log skr calls wrap w m O OI AR NI U K. unfold unwrap_dm in U. unfold open_wrap in U.
  destruct (negb (ev_kind wrap =? KIND_GIFT_WRAP)); [discriminate|]. destruct (open_content _ _ _ _ _ _ skr (ev_pubkey wrap) wrap) as [seal| |] eqn:OS; try discriminate.
  destruct (N.eqb_spec (ev_kind seal) KIND_SEAL) as [KS|]; cbn [negb] in U; [|discriminate].
  destruct (event_verify _ _ _ _ _ seal) as [[]| |] eqn:V; try discriminate. destruct (open_content _ _ _ _ _ _ skr (ev_pubkey seal) seal) as [r| |] eqn:OR; try discriminate.
  destruct (beq (ev_pubkey r) (ev_pubkey seal)) eqn:BP; [|discriminate]. apply beq_eq in BP. assert (r = m) by congruence. subst r. rewrite K in BP.
  destruct (opened _ _ _ _ _ OS) as (c1 & t1 & _ & _ & CS & ES). destruct (opened _ _ _ _ _ OR) as (c2 & t2 & CC & D2 & _ & E2). rewrite <- BP in D2. destruct (AR seal c2 eq_refl CC) as (SA & MA).
  destruct (C168_event num sha256 pubkey_of sign verify pubkey_parses print parse sigs SH CL NC sks pks log lim (until_nul t1) seal parse_pk O CS ES V SA (eq_sym BP)) as [(e0 & I & SC & SK & ST & SO)|C]; [intros e0 I X; exact (NI e0 _ I X)| |right; exact C].
  left. destruct (C171_text nce ncm ncv ncd mt b64dec l macs skr pks calls c2 t2 CO L1 L2 OI MA D2) as (k & IK & MK & TK). exists e0, k. split; [exact I|]. split; [unfold KIND_SEAL in KS; congruence|]. split; [exact IK|]. split; [exact MK|].
  rewrite TK. split; [|exact E2]. rewrite <- SO. unfold content_of. rewrite CC. exact D2.
Qed.
End Message.
(** *** A concrete case: a message sent with send_dm, and nothing else around *)
Definition wr_dec (sk pk n d : list N) : option (list N) := if forallb (fun b => b <? 256) d then Some d else None.
Definition wr_rumor : event := match dm_rumor serialize_own GiftWrapProps.toy_sha None (bs "hi") toy_key (repeat 4 32) None None 0 1700000000 with Ok r => r | _ => toy_event end.
Definition wr_call : call := mkCall toy_key (repeat 4 32) (repeat 9 32) (jprint (event_to_tree wr_rumor)).
Definition wr_data : list N := match pad_plaintext default_limits (c_text wr_call) with Ok p => repeat 9 32 ++ p | _ => [] end.
(** A MAC that tells the data of the call from all others *)
Definition wr_tag (d : list N) : list N := if beq d wr_data then repeat 1 32 else repeat 0 32.
Definition wr_mac (hk d : list N) : list N := wr_tag d.
Definition wr_verify (sk pk n d m : list N) : bool := beq m (wr_tag d).
Lemma wr_contract : nc_contract toy_enc8 wr_mac wr_verify wr_dec (fun _ _ _ _ => True).
Proof.
  assert (T : forall sk pk n d ct hk, toy_enc8 sk pk n d = Some (ct, hk) -> ct = d /\ bytes_ok d /\ forallb (fun b => b <? 256) d = true).
  { unfold toy_enc8. intros sk pk n d ct hk H. destruct (forallb _ d) eqn:F; [|discriminate]. assert (A : Some (d, @nil N) = Some (ct, hk)) by exact H. split; [congruence|]. split; [|reflexivity].
    apply Forall_forall. intros b Hb. rewrite forallb_forall in F. apply F in Hb. apply N.ltb_lt in Hb. exact Hb. }
  constructor; intros.
  - apply T in H as (-> & _). reflexivity.
  - apply T in H as (-> & ? & _). assumption.
  - unfold wr_mac, wr_tag. destruct (beq d wr_data); (split; [reflexivity|apply Forall_repeat; unfold byte_ok; lia]).
  - unfold wr_verify, wr_mac. apply beq_refl.
  - apply T in H0 as (-> & _ & F). unfold wr_dec. rewrite F. reflexivity.
Qed.
Definition wr_seal0 : event := match create_seal serialize_own GiftWrapProps.toy_sha toy_pub toy_sign toy_enc8 wr_mac b64_encode jprint default_limits random_timestamp wr_rumor toy_key (repeat 4 32) toy_sd with Ok s => s | _ => toy_event end.
Definition wr_sver (pk d s : list N) : bool := negb (beq pk toy_key) || beq d (ev_id wr_seal0).
Definition wr_wrap : event := match send_dm serialize_own GiftWrapProps.toy_sha toy_pub toy_sign toy_valid toy_enc8 wr_mac b64_encode jprint default_limits None (bs "hi") toy_key (repeat 4 32) None None 0 1700000000 toy_sd (toy_wd (Some 5)) with Ok w => w | _ => toy_event end.
(** What was signed: the seal before its key and signature were put in *)
Definition wr_unsigned : event := mkEvent (repeat 0 32) toy_key (ev_created wr_seal0) 13 [] (ev_content wr_seal0) (repeat 0 64).
Example C171_meets :
  nc_contract toy_enc8 wr_mac wr_verify wr_dec (fun _ _ _ _ => True) /\ (forall sk pk n ct p, wr_dec sk pk n ct = Some p -> bytes_ok p) /\
  only_by serialize_own GiftWrapProps.toy_sha toy_pub toy_sign wr_sver (fun _ => True) toy_key toy_key [UEvent wr_unsigned] /\
  only_in (fun m => m = repeat 1 32) toy_enc8 wr_verify (fun _ _ _ _ => True) default_limits (repeat 4 32) toy_key [wr_call] /\
  (forall seal c, open_content wr_verify wr_dec b64_decode jparse default_limits None (repeat 4 32) (ev_pubkey wr_wrap) wr_wrap = Ok seal -> ev_content seal = Some c -> True /\ mac_around (fun m => m = repeat 1 32) b64_decode c) /\
  exists m, unwrap_dm serialize_own GiftWrapProps.toy_sha wr_sver (fun _ => true) true wr_verify wr_dec b64_decode jparse default_limits None wr_wrap (repeat 4 32) = (Some toy_key, Ok m) /\ ev_pubkey m = toy_key /\ ev_content m = Some (bs "hi").
Proof.
  split; [exact wr_contract|]. split.
  { unfold wr_dec. intros sk pk n ct p H. destruct (forallb _ ct) eqn:F; [|discriminate]. assert (ct = p) by congruence. subst p. apply Forall_forall. intros b Hb. rewrite forallb_forall in F. apply F in Hb. apply N.ltb_lt in Hb. exact Hb. }
  split; [|split; [|split]].
  - split; [reflexivity|]. split.
    + apply Forall_cons; [|apply Forall_nil]. assert (Z : forall x n, x < 256 -> bytes_ok (repeat x n)) by (intros x n X; apply Forall_repeat; exact X).
      split; cbn [wr_unsigned ev_id ev_pubkey ev_created ev_kind ev_tags ev_sig]; try (split; [reflexivity|apply Z; reflexivity]); [vm_compute; split; [discriminate|reflexivity]|reflexivity|constructor|].
      apply cstr_dec. vm_compute. reflexivity.
    + intros d s _ V. unfold wr_sver in V. rewrite beq_refl in V. cbn [negb orb] in V. apply beq_eq in V. subst d.
      exists (UEvent wr_unsigned). split; [left; reflexivity|]. exists (Some []), wr_seal0. split; [|reflexivity]. vm_compute. reflexivity.
  - split; [apply Forall_cons; [|apply Forall_nil]; split; [reflexivity|]; apply EventProofs.cstr_bytes_ok, cstr_dec; vm_compute; reflexivity|].
    intros n d mac -> V. unfold wr_verify, wr_tag in V. destruct (beq d wr_data) eqn:Q; [|vm_compute in V; discriminate]. apply beq_eq in Q. subst d. clear V n.
    exists wr_call. eexists. eexists. exists []. split; [left; reflexivity|]. split; [exact I|]. split; [vm_compute; reflexivity|]. split; [vm_compute; reflexivity|]. vm_compute. reflexivity.
  - intros seal c OS CS. split; [exact I|]. assert (X : open_content wr_verify wr_dec b64_decode jparse default_limits None (repeat 4 32) (ev_pubkey wr_wrap) wr_wrap = Ok wr_seal0) by (vm_compute; reflexivity).
    assert (seal = wr_seal0) by congruence. subst seal. intros a m D LM. assert (Y : exists b, b64_decode c = Some (b ++ repeat 1 32)).
    { eexists (2 :: wr_data). assert (Z : Some c = ev_content wr_seal0) by congruence. assert (W : ev_content wr_seal0 = Some (b64_encode ((2 :: wr_data) ++ repeat 1 32))) by (vm_compute; reflexivity).
      rewrite W in Z. assert (c = b64_encode ((2 :: wr_data) ++ repeat 1 32)) by congruence. subst c. apply b64_roundtrip. apply Forall_app. split; [|apply Forall_repeat; unfold byte_ok; lia].
      constructor; [unfold byte_ok; lia|]. apply Forall_forall. intros b Hb. assert (F : forallb (fun b => b <? 256) wr_data = true) by (vm_compute; reflexivity). rewrite forallb_forall in F. apply F in Hb. apply N.ltb_lt in Hb. exact Hb. }
    destruct Y as (b & Y). rewrite D in Y. assert (Q : a ++ m = b ++ repeat 1 32) by congruence. assert (LL : length a = length b) by (apply (f_equal (@length N)) in Q; rewrite !app_length, LM, repeat_length in Q; lia).
    apply (f_equal (skipn (length a))) in Q. rewrite LL in Q at 2. rewrite !skipn_app, !skipn_all, !Nat.sub_diag, !skipn_O in Q. exact Q.
  - eexists. split; [vm_compute; reflexivity|]. split; reflexivity.
Qed.
Print Assumptions C171_text.
Print Assumptions C171_message.
Print Assumptions C171_meets.
