(** Property theorems C38-C40, C72-C75 (wallet connect). *)
From Verif Require Import Base BaseFacts Dec Hex HexSpec HexProofs Event Nip47 Nip47Spec Nip47Proofs.
Open Scope N_scope.

(** ** C38 *)
Lemma no_eq key : forallb (fun c => negb (c =? 61)) key = true -> ~ In 61 key.
Proof. intros H I. apply (proj1 (forallb_forall _ _) H) in I. discriminate. Qed.
Lemma listed_vals key ps vs : forallb (fun c => negb (c =? 61)) key = true -> (listed key ps vs <-> vs = vals key ps).
Proof.
  intros K. pose proof (vals_listed key ps (no_eq _ K)) as L. split; [|intros ->; exact L].
  intros H. exact (listed_fun _ _ _ H _ L).
Qed.
Lemma decoded_all vs rs : Forall2 decoded vs rs <-> rs = map url_decode vs.
Proof.
  split.
  - induction 1 as [|v r vs rs D F IH]; [reflexivity|]. cbn [map]. f_equal; [apply url_decode_iff, D|exact IH].
  - intros ->. induction vs as [|v vs IH]; [constructor|]. cbn [map]. constructor; [apply url_decode_iff; reflexivity|exact IH].
Qed.

Lemma parse_uri_full_iff uri c lost : parse_uri_full uri = Ok (c, lost) <->
  exists pk ps sks, uri_shape uri pk ps /\ loosehex pk (nw_service c) /\
    Forall2 (fun v sk => loosehex v sk /\ length sk = 32%nat) (vals (bs "secret") ps) sks /\
    last_of sks = Some (nw_secret c) /\ vals (bs "relay") ps <> [] /\
    nw_relays c = map url_decode (vals (bs "relay") ps) /\
    nw_lud16 c = last_of (map url_decode (vals (bs "lud16") ps)) /\
    lost = (length (vals (bs "lud16") ps) - 1)%nat.
Proof.
  unfold parse_uri_full. split.
  - destruct (prefixb (bs "nostr+walletconnect://") uri) eqn:P; [|discriminate]. cbn [negb].
    apply prefixb_spec in P. destruct P as (rest & ->). rewrite (skipn_app_exact (bs "nostr+walletconnect://") _ 22 eq_refl).
    destruct (split_at 63 rest) as [[pk q]|] eqn:SP; [|discriminate]. apply split_at_iff in SP. destruct SP as (-> & NQ).
    destruct (Nat.eqb_spec (length pk) 64) as [LK|NK]; [|discriminate]. cbn [negb].
    destruct (hex_decode47 pk 32) as [service|] eqn:HD; [|discriminate].
    destruct (pieces_exist 38 q) as (ps & -> & FP & NP). rewrite (tokens_joined 38 ps FP), uri_params_skip_empty.
    destruct (uri_params (mkUri [] None None 0) ps) as [st| |] eqn:U; [|discriminate|discriminate]. cbn [bind].
    apply uri_params_iff in U. destruct U as (sks & F2 & ->). cbn [u_relays u_secret u_lud16 u_lost app Nat.add lost_after].
    unfold or_last. destruct (last_of sks) as [sk|] eqn:LS; [|discriminate].
    destruct (map url_decode (vals (bs "relay") ps)) as [|r rs] eqn:RL; [discriminate|]. intros H.
    apply hex_decode47_iff in HD. destruct HD as (LH & _).
    assert (c = mkNwc (r :: rs) sk service (match last_of (map url_decode (vals (bs "lud16") ps)) with Some x => Some x | None => None end)) as -> by congruence.
    assert (lost = (length (vals (bs "lud16") ps) - 1)%nat) as -> by congruence.
    exists pk, ps, sks. cbn [nw_relays nw_secret nw_service nw_lud16]. repeat split; auto.
    + intros X. rewrite X in RL. discriminate.
    + destruct (last_of (map url_decode (vals (bs "lud16") ps))); reflexivity.
  - intros (pk & ps & sks & (-> & LK & NQ & FP & NP) & LH & F2 & LS & NR & ER & EL & ->).
    rewrite prefixb_app. cbn [negb]. rewrite (skipn_app_exact (bs "nostr+walletconnect://") _ 22 eq_refl).
    assert (SP : split_at 63 (pk ++ bs "?" ++ joined 38 ps) = Some (pk, joined 38 ps)) by (apply split_at_iff; auto). rewrite SP.
    rewrite (proj2 (Nat.eqb_eq _ _)) by exact LK. cbn [negb].
    assert (HD : hex_decode47 pk 32 = Some (nw_service c)).
    { apply hex_decode47_iff. split; [exact LH|]. apply loosehex_length in LH. lia. }
    rewrite HD, (tokens_joined 38 ps FP), uri_params_skip_empty.
    assert (U : uri_params (mkUri [] None None 0) ps = Ok (mkUri ([] ++ map url_decode (vals (bs "relay") ps)) (or_last None sks)
       (or_last None (map url_decode (vals (bs "lud16") ps))) (0 + lost_after None (length (vals (bs "lud16") ps))))).
    { apply uri_params_iff. exists sks. auto. }
    rewrite U. cbn [bind u_relays u_secret u_lud16 u_lost app]. unfold or_last. rewrite LS.
    destruct (map url_decode (vals (bs "relay") ps)) as [|r rs] eqn:RL; [destruct (vals (bs "relay") ps); [congruence|discriminate]|].
    destruct c as [cr cs cv cl]. cbn [nw_relays nw_secret nw_service nw_lud16] in *. subst cr cl. cbn [lost_after Nat.add].
    destruct (last_of (map url_decode (vals (bs "lud16") ps))); reflexivity.
Qed.

(** Exactly which URIs are accepted, and what is returned. *)
Theorem C38_exact : forall uri c, parse_uri uri = Ok c <->
  exists pk ps rels secs luds sks dls, uri_shape uri pk ps /\
    listed (bs "relay") ps rels /\ listed (bs "secret") ps secs /\ listed (bs "lud16") ps luds /\
    loosehex pk (nw_service c) /\
    Forall2 (fun v sk => loosehex v sk /\ length sk = 32%nat) secs sks /\ last_of sks = Some (nw_secret c) /\
    rels <> [] /\ Forall2 decoded rels (nw_relays c) /\
    Forall2 decoded luds dls /\ nw_lud16 c = last_of dls.
Proof.
  intros uri c. split.
  - intros H. unfold parse_uri in H. destruct (parse_uri_full uri) as [[c' lost]| |] eqn:E; [|discriminate|discriminate].
    cbn [bind fst] in H. assert (c' = c) by congruence. subst c'. apply parse_uri_full_iff in E.
    destruct E as (pk & ps & sks & SH & LH & F2 & LS & NR & ER & EL & _).
    exists pk, ps, (vals (bs "relay") ps), (vals (bs "secret") ps), (vals (bs "lud16") ps), sks, (map url_decode (vals (bs "lud16") ps)).
    split; [exact SH|]. do 3 (split; [apply listed_vals; reflexivity|]). split; [exact LH|]. split; [exact F2|]. split; [exact LS|].
    split; [exact NR|]. split; [apply decoded_all, ER|]. split; [apply decoded_all; reflexivity|exact EL].
  - intros (pk & ps & rels & secs & luds & sks & dls & SH & LR & LSE & LL & LH & F2 & LS & NR & FR & FL & EL).
    apply listed_vals in LR, LSE, LL; try reflexivity. subst rels secs luds. apply decoded_all in FR, FL. subst dls.
    assert (E : parse_uri_full uri = Ok (c, (length (vals (bs "lud16") ps) - 1)%nat)).
    { apply parse_uri_full_iff. exists pk, ps, sks. repeat split; auto; apply SH. }
    unfold parse_uri. rewrite E. reflexivity.
Qed.

(** The full claim asks for hexadecimal digits: a sign or white space is taken
    in place of the first digit of a pair. *)
Definition signs_uri : list N :=
  bs "nostr+walletconnect://" ++ bs "+f-f f0000000000000000000000000000000000000000000000000000000000" ++
  bs "?relay=wss://r&secret=" ++ bs "1111111111111111111111111111111111111111111111111111111111111111".
Theorem C38_refuted : ~ (forall uri c, parse_uri uri = Ok c ->
  exists pk ps secs, uri_shape uri pk ps /\ listed (bs "secret") ps secs /\ hextext pk (nw_service c) /\ Forall all_hex secs).
Proof.
  intros H.
  assert (E : exists c, parse_uri signs_uri = Ok c) by (eexists; vm_compute; reflexivity). destruct E as (c & E).
  destruct (H _ _ E) as (pk & ps & secs & (EU & LK & _) & _ & HX & _).
  unfold signs_uri in EU. apply app_inv_head in EU.
  apply (app_inv_length _ _ pk) in EU; [|rewrite LK; reflexivity]. destruct EU as (<- & _).
  inversion HX as [|c1 c2 d1 d2 s l H1 H2]. apply nibble_hexdig in H1. vm_compute in H1. discriminate.
Qed.

(** Partial: when the key and secret texts consist of hexadecimal digits, they
    are returned exactly.  Missing: the check that they do. *)
Theorem C38_digits_partial : forall uri c, parse_uri uri = Ok c ->
  exists pk ps secs sec, uri_shape uri pk ps /\ listed (bs "secret") ps secs /\ last_of secs = Some sec /\
    (all_hex pk -> hextext pk (nw_service c)) /\ (all_hex sec -> hextext sec (nw_secret c)).
Proof.
  intros uri c H. apply C38_exact in H.
  destruct H as (pk & ps & rels & secs & luds & sks & dls & SH & LR & LSE & LL & LH & F2 & LS & _).
  assert (X : exists sec, last_of secs = Some sec /\ loosehex sec (nw_secret c)).
  { unfold last_of in *. assert (LE : length secs = length sks).
    { clear -F2. induction F2; cbn [length]; congruence. }
    rewrite LE. revert LS. generalize (length sks - 1)%nat. clear -F2. intros n LS. revert n LS.
    induction F2 as [|v sk secs sks (P & _) F IH]; intros n LS; [destruct n; discriminate|].
    destruct n as [|n]; cbn [nth_error] in *; [|apply IH, LS]. assert (sk = nw_secret c) by congruence. subst sk. eauto. }
  destruct X as (sec & EL & LX). exists pk, ps, secs, sec. repeat split; auto; try apply SH; intros A.
  - apply loosehex_strict; assumption.
  - apply loosehex_strict; assumption.
Qed.

Lemma hextext_no c s l : hextext s l -> hex_nibble c = None -> ~ In c s.
Proof.
  intros H N I. apply hextext_all_hex in H. apply (proj1 (Forall_forall _ _) H) in I.
  destruct I as (d & D). apply nibble_hexdig in D. congruence.
Qed.
(** A well-formed URI gives back its parts. *)
Theorem C38_roundtrip : forall hpk hsk pk sk rels, hextext hpk pk -> length pk = 32%nat -> hextext hsk sk -> length sk = 32%nat ->
  rels <> [] -> Forall (fun x => pct (fst x) (snd x) /\ ~ In 0 (snd x) /\ ~ In 38 (fst x)) rels ->
  parse_uri (bs "nostr+walletconnect://" ++ hpk ++ bs "?" ++
             joined 38 (map (fun x => bs "relay" ++ 61 :: fst x) rels ++ [bs "secret" ++ 61 :: hsk])) =
  Ok (mkNwc (map snd rels) sk pk None).
Proof.
  intros hpk hsk pk sk rels HP LP HS LS NR F. apply C38_exact.
  exists hpk, (map (fun x => bs "relay" ++ 61 :: fst x) rels ++ [bs "secret" ++ 61 :: hsk]), (map fst rels), [hsk], [], [sk], [].
  cbn [nw_relays nw_secret nw_service nw_lud16].
  split.
  { split; [reflexivity|]. split; [rewrite (hextext_length _ _ HP), LP; reflexivity|]. split; [apply (hextext_no 63 _ _ HP); reflexivity|].
    split; [|destruct rels; discriminate]. apply Forall_app. split.
    - apply Forall_forall. intros p I. apply in_map_iff in I. destruct I as (x & <- & I).
      apply (proj1 (Forall_forall _ _) F) in I. destruct I as (_ & _ & N). intros J. apply in_app_or in J.
      destruct J as [J|[J|J]]; [|discriminate|exact (N J)]. cbn in J. repeat (destruct J as [J|J]; [discriminate|]). exact J.
    - constructor; [|constructor]. intros J. apply in_app_or in J.
      destruct J as [J|[J|J]]; [|discriminate|exact (hextext_no 38 _ _ HS eq_refl J)]. cbn in J. repeat (destruct J as [J|J]; [discriminate|]). exact J. }
  split.
  { clear. induction rels as [|x rels IH]; cbn [map app]; [|constructor; exact IH].
    apply LNo; [intros v Q; discriminate|constructor]. }
  split.
  { clear. induction rels as [|x rels IH]; cbn [map app]; [constructor; constructor|].
    apply LNo; [intros v Q; discriminate|exact IH]. }
  split.
  { clear. induction rels as [|x rels IH]; cbn [map app]; apply LNo; try (intros v Q; discriminate); [constructor|exact IH]. }
  split; [apply hextext_loosehex, HP|]. split; [constructor; [split; [apply hextext_loosehex, HS|exact LS]|constructor]|].
  split; [reflexivity|]. split; [destruct rels; [congruence|discriminate]|].
  split; [|split; [constructor|reflexivity]].
  clear -F. induction F as [|x rels (P & N & _) F IH]; [constructor|]. cbn [map]. constructor; [|exact IH].
  exists (snd x). split; [apply pct_unpct, P|]. left. auto.
Qed.

Example C38_meets : exists c,
  parse_uri (bs "nostr+walletconnect://b889ff5b1513b641e2a139f661a661364979c5beee91842f8f0ef42ab558e9d4?relay=wss%3A%2F%2Frelay.example&secret=71a8c14c1407c113601079c4302dab36460f0ccd0ad506f1f2dc73b5100e4f3c&lud16=a@b") = Ok c /\
  nw_relays c = [bs "wss://relay.example"] /\ nw_lud16 c = Some (bs "a@b").
Proof. eexists. split; [vm_compute; reflexivity|split; reflexivity]. Qed.

(** ** C39 *)
(** Nothing is written at or beyond the end, the text is terminated inside, and
    consists of complete escapes of a prefix of the string. *)
Theorem C39_bounded : forall size src, (0 < size)%nat ->
  (snd (json_escape size src) <= size)%nat /\ (length (fst (json_escape size src)) < size)%nat /\
  exists n, jstring (fst (json_escape size src)) (firstn n src).
Proof.
  intros size src S. destruct (json_escape_spec size src S) as (n & E & L & T & _).
  repeat split; auto. exists n. rewrite E. apply escaped_jstring.
Qed.
Theorem C39_empty : forall src, json_escape 0 src = ([], 0%nat).
Proof. reflexivity. Qed.
(** With room for the whole text (six bytes per character always suffice), the
    string can be read back, and only that string. *)
Theorem C39_recover : forall size src, (6 * length src < size)%nat ->
  jstring (fst (json_escape size src)) src /\ forall v, jstring (fst (json_escape size src)) v -> v = src.
Proof.
  intros size src L.
  assert (LE : (length (flat_map esc src) <= 6 * length src)%nat).
  { clear. induction src as [|c src IH]; [cbn; lia|]. cbn [flat_map length]. rewrite app_length. pose proof (esc_length c). lia. }
  rewrite json_escape_fits by lia. split; [apply escaped_jstring|]. intros v H. exact (jstring_fun _ _ H _ (escaped_jstring src)).
Qed.
(** What is cut off is cut off because it does not fit. *)
Lemma json_escape_loop_cut size : forall src out top, (0 < size)%nat -> (length out <= size - 1)%nat ->
  (length (fst (json_escape_loop size src out top)) + 6 < size)%nat ->
  fst (json_escape_loop size src out top) = out ++ flat_map esc src.
Proof.
  induction src as [|c src IH]; intros out top S O H; cbn [json_escape_loop flat_map] in *; [cbn [fst]; rewrite app_nil_r; reflexivity|].
  destruct (Nat.ltb_spec (length out) (size - 1)) as [LT|GE]; [|cbn [fst] in H; lia]. cbv zeta in *.
  destruct ((1 <? length (esc c))%nat && (size - 1 <? length out + length (esc c))%nat) eqn:D.
  - apply andb_true_iff in D. destruct D as (_ & D). apply Nat.ltb_lt in D. cbn [fst] in H. pose proof (esc_length c). lia.
  - apply andb_false_iff in D. pose proof (esc_length c) as EL.
    rewrite IH; [rewrite <- app_assoc; reflexivity|exact S| |exact H].
    rewrite app_length. destruct D as [D|D]; apply Nat.ltb_ge in D; lia.
Qed.
Theorem C39_cut : forall size src, (length (fst (json_escape size src)) + 6 < size)%nat ->
  fst (json_escape size src) = flat_map esc src.
Proof.
  intros size src H. unfold json_escape in *. destruct (Nat.eqb_spec size 0) as [->|NZ]; [lia|].
  pose proof (json_escape_loop_cut size src [] 0 ltac:(lia) ltac:(cbn; lia)) as C.
  destruct (json_escape_loop size src [] 0) as [out top]. cbn [fst app] in *. exact (C H).
Qed.
Example C39_meets : json_escape 10 (bs "a""b" ++ [10; 1]) = (bs "a\""b\n", 7%nat) /\
  json_escape 7 [1; 65] = ([92; 117; 48; 48; 48; 49], 7%nat) /\ json_escape 6 [1; 65] = ([], 1%nat).
Proof. repeat split. Qed.

(** ** C40 *)
Lemma concat_commas fs : concat (commas true fs) = joined 44 fs.
Proof.
  assert (G : forall fs, concat (commas false fs) = match fs with [] => [] | _ => 44 :: joined 44 fs end).
  { induction fs0 as [|f fs0 IH]; [reflexivity|]. cbn [commas concat]. rewrite IH.
    destruct fs0; cbn [joined]; [rewrite app_nil_r; reflexivity|]. cbn [app bs]. reflexivity. }
  destruct fs as [|f fs]; [reflexivity|]. cbn [commas concat]. rewrite G. destruct fs; [apply app_nil_r|reflexivity].
Qed.
Lemma build_written size parts last k : 0 < size -> k = N.of_nat (length last) ->
  build (N.to_nat size) (parts ++ [last]) = written size (concat parts ++ last) k.
Proof.
  intros S ->. rewrite build_spec; [|lia|destruct parts; discriminate]. rewrite removelast_snoc, concat_app.
  cbn [concat]. rewrite app_nil_r. unfold written. rewrite app_length.
  destruct (Nat.ltb_spec (N.to_nat size) (length (concat parts))) as [A|A],
           (N.ltb_spec size (N.of_nat (length (concat parts) + length last) - N.of_nat (length last))) as [B|B]; try reflexivity; lia.
Qed.
Lemma opt_opt {A} (o : option A) f : opt_part o f = opt o f.
Proof. destruct o; reflexivity. Qed.

(** What every builder does, for all arguments.  The escaped builders first. *)
Theorem C40_pay_invoice : forall invoice amount,
  pay_invoice_params invoice amount = Ok (firstn 4095 (text_pay_invoice (fst (json_escape (N.to_nat 4096) invoice)) amount)).
Proof.
  intros invoice amount. unfold pay_invoice_params.
  set (e := fst (json_escape (N.to_nat 4096) invoice)). clearbody e. cbv zeta.
  set (x := bs "{""invoice"":""" ++ e ++ bs """" ++ match amount with Some a => bs ",""amount"":" ++ dec_N a | None => [] end ++ bs "}").
  change [x] with ([] ++ [x]). rewrite (build_written 4096 [] x (N.of_nat (length x)) eq_refl eq_refl).
  unfold written. cbn [concat app]. rewrite (proj2 (N.ltb_ge _ _)) by lia.
  assert (E : x = text_pay_invoice e amount).
  { subst x. unfold text_pay_invoice, jobject, jfield, jquoted. destruct amount; cbn [opt app joined]; repeat (rewrite <- ?app_assoc; cbn [app bs ch]); reflexivity. }
  rewrite E. replace (N.to_nat 4096 - 1)%nat with 4095%nat by lia. reflexivity.
Qed.
Theorem C40_request : forall method params c r, params = c :: r -> c = 123 \/ c = 91 ->
  request_payload method params = Ok (firstn (N.to_nat 8191) (text_request (fst (json_escape 256 method)) params)).
Proof.
  intros method params c r E C. unfold request_payload. rewrite E.
  assert (B : negb (c =? 123) && negb (c =? 91) = false) by (destruct C as [-> | ->]; reflexivity). rewrite B. rewrite <- E.
  set (e := fst (json_escape 256 method)). clearbody e.
  set (x := bs "{""method"":""" ++ e ++ bs """,""params"":" ++ params ++ bs "}").
  change [x] with ([] ++ [x]). rewrite (build_written 8192 [] x (N.of_nat (length x)) eq_refl eq_refl).
  unfold written. cbn [concat app]. rewrite (proj2 (N.ltb_ge _ _)) by lia.
  assert (EX : x = text_request e params).
  { subst x. unfold text_request, jobject, jfield, jquoted. cbn [joined]. repeat (rewrite <- ?app_assoc; cbn [app bs ch]). reflexivity. }
  rewrite EX. replace (N.to_nat 8192 - 1)%nat with (N.to_nat 8191) by lia. reflexivity.
Qed.
Theorem C40_make_invoice_exact : forall amount d h x, amount <> 0 ->
  make_invoice_params amount d h x =
  written 4096 (text_make_invoice amount (option_map (fun s => fst (json_escape (N.to_nat 2048) s)) d)
                  (option_map (fun s => fst (json_escape (N.to_nat 2048) s)) h) x) 1.
Proof.
  intros amount d h x NZ. unfold make_invoice_params. rewrite (proj2 (N.eqb_neq _ _) NZ).
  rewrite !app_assoc. rewrite (build_written 4096 _ (bs "}") 1 eq_refl eq_refl). f_equal.
  unfold text_make_invoice, jobject, jfield, jquoted. destruct d as [d|], h as [h|], x as [x|]; cbn [opt opt_part option_map app concat joined];
    repeat (rewrite <- ?app_assoc, ?app_nil_r; cbn [app bs ch]); reflexivity.
Qed.
Theorem C40_list_exact : forall from until limit offset unpaid type,
  list_transactions_params from until limit offset unpaid type =
  written 4096 (text_list_transactions from until limit offset unpaid type) 1.
Proof.
  intros. unfold list_transactions_params. rewrite app_assoc. rewrite (build_written 4096 _ (bs "}") 1 eq_refl eq_refl). f_equal.
  rewrite concat_app. cbn [concat]. rewrite app_nil_r, concat_commas. rewrite <- app_assoc.
  reflexivity.
Qed.
Theorem C40_lookup_exact : forall h i, h <> None \/ i <> None ->
  lookup_invoice_params h i = written 4096 (text_lookup_invoice h i) 1.
Proof.
  intros h i NE. unfold lookup_invoice_params. destruct h as [h|], i as [i|]; [| | |exfalso; destruct NE; congruence];
    (rewrite !app_assoc, (build_written 4096 _ (bs "}") 1 eq_refl eq_refl); f_equal;
     unfold text_lookup_invoice, jobject, jfield, jquoted; cbn [opt opt_part app concat joined];
     repeat (rewrite <- ?app_assoc, ?app_nil_r; cbn [app bs ch]); reflexivity).
Qed.

Lemma tlv_text l m : pairs l m -> forall first, concat (tlv_parts first l) =
  (if first then [] else match m with [] => [] | _ => [44] end) ++
  joined 44 (map (fun x => jobject [jfield (bs "type") (fst x); jfield (bs "value") (jquoted (snd x))]) m).
Proof.
  induction 1 as [|a|a b l m P IH]; intros first; [destruct first; reflexivity|destruct first; reflexivity|].
  cbn [tlv_parts map]. rewrite !concat_app, (IH false). cbn [concat]. rewrite app_nil_r.
  assert (O : bs "{""type"":" ++ a ++ bs ",""value"":""" ++ b ++ bs """}" = jobject [jfield (bs "type") a; jfield (bs "value") (jquoted b)])
    by (unfold jobject, jfield, jquoted; cbn [joined]; repeat (rewrite <- ?app_assoc; cbn [app bs ch]); reflexivity).
  rewrite O. cbn [fst snd]. set (o := jobject _). clearbody o.
  destruct m as [|x m]; cbn [map joined].
  - destruct first; cbn [concat app]; rewrite ?app_nil_r; reflexivity.
  - destruct first; cbn [concat app]; reflexivity.
Qed.
Theorem C40_keysend_exact : forall amount pk pre tlv m, amount <> 0 -> pairs tlv m ->
  pay_keysend_params amount pk pre tlv =
  written 8192 (text_pay_keysend amount pk pre (match tlv with [] => None | _ => Some m end)) 1.
Proof.
  intros amount pk pre tlv m NZ P. unfold pay_keysend_params. rewrite (proj2 (N.eqb_neq _ _) NZ).
  set (TP := match tlv with [] => [] | _ => [bs ",""tlv_records"":["] ++ tlv_parts true tlv ++ [bs "]"] end).
  assert (T : concat TP =
              match tlv with [] => [] | _ => 44 :: jfield (bs "tlv_records") (jarray (map (fun x => jobject [jfield (bs "type") (fst x); jfield (bs "value") (jquoted (snd x))]) m)) end).
  { subst TP. destruct tlv as [|t tlv]; [reflexivity|]. rewrite !concat_app, (tlv_text _ _ P true). cbn [concat app]. rewrite !app_nil_r. reflexivity. }
  clearbody TP. rewrite !app_assoc. rewrite (build_written 8192 _ (bs "}") 1 eq_refl eq_refl). f_equal. rewrite !concat_app.
  rewrite T. unfold text_pay_keysend, jobject.
  destruct tlv as [|t tlv]; [|cbn [opt]; set (X := jfield (bs "tlv_records") _); clearbody X];
    destruct pre as [pre|]; unfold jfield, jquoted; cbn [opt opt_part app concat joined];
    repeat (rewrite <- ?app_assoc, ?app_nil_r; cbn [app bs ch]); reflexivity.
Qed.
Lemma multi_text l : forall first, concat (multi_parts first l) =
  (if first then [] else match l with [] => [] | _ => [44] end) ++
  joined 44 (map (fun x => let '(id, inv, a) := x in
    jobject (opt id (fun i => jfield (bs "id") (jquoted i)) ++ [jfield (bs "invoice") (jquoted inv)] ++
             (if 0 <? a then [jfield (bs "amount") (dec_N a)] else []))) l).
Proof.
  induction l as [|[[id inv] a] l IH]; intros first; [destruct first; reflexivity|].
  cbn [multi_parts map]. rewrite concat_app, (IH false).
  assert (O : concat (multi_part first (id, inv, a)) = (if first then [] else [44]) ++
    jobject (opt id (fun i => jfield (bs "id") (jquoted i)) ++ [jfield (bs "invoice") (jquoted inv)] ++
             (if 0 <? a then [jfield (bs "amount") (dec_N a)] else []))).
  { unfold multi_part, jobject, jfield, jquoted. destruct first, id, (0 <? a); cbn [opt opt_part app concat joined];
      repeat (rewrite <- ?app_assoc, ?app_nil_r; cbn [app bs ch]); reflexivity. }
  rewrite O. set (o := jobject _). clearbody o. rewrite <- app_assoc. f_equal.
  destruct l as [|y l]; cbn [map joined app]; [apply app_nil_r|reflexivity].
Qed.
Theorem C40_multi_exact : forall l, l <> [] -> multi_pay_params l = written 16384 (text_multi_pay l) 2.
Proof.
  intros l NE. unfold multi_pay_params. destruct l as [|x l]; [congruence|]. set (m := x :: l).
  rewrite app_assoc. rewrite (build_written 16384 _ (bs "]}") 2 eq_refl eq_refl). f_equal. rewrite concat_app, multi_text.
  unfold text_multi_pay. set (items := map _ m). clearbody items. unfold jobject, jfield, jarray. cbn [joined concat app].
  repeat (rewrite <- ?app_assoc, ?app_nil_r; cbn [app bs ch]). reflexivity.
Qed.

(** The full claim fails for each of the five: a long enough argument makes the
    next write start behind the buffer. *)
Theorem C40_refuted :
  ~ (forall t, list_transactions_params None None None None None (Some t) <> Undef) /\
  ~ (forall h, lookup_invoice_params (Some h) None <> Undef) /\
  ~ (forall pk, pay_keysend_params 1 pk None [] <> Undef) /\
  ~ (forall inv, multi_pay_params [(None, inv, 0)] <> Undef) /\
  ~ (forall d h, make_invoice_params 1 (Some d) (Some h) None <> Undef).
Proof.
  repeat split; intros H.
  - assert (L : length (repeat 97 (N.to_nat 5000)) = N.to_nat 5000) by apply repeat_length. apply (H (repeat 97 (N.to_nat 5000))). set (s := repeat 97 (N.to_nat 5000)) in *. clearbody s. rewrite C40_list_exact. unfold written.
    rewrite (proj2 (N.ltb_lt _ _)); [reflexivity|].
    unfold text_list_transactions, jobject, jfield, jquoted. cbn [opt app joined]. repeat (rewrite ?app_length; cbn [length bs]). rewrite ?L. lia.
  - assert (L : length (repeat 97 (N.to_nat 5000)) = N.to_nat 5000) by apply repeat_length. apply (H (repeat 97 (N.to_nat 5000))). set (s := repeat 97 (N.to_nat 5000)) in *. clearbody s. rewrite C40_lookup_exact by (left; discriminate). unfold written.
    rewrite (proj2 (N.ltb_lt _ _)); [reflexivity|].
    unfold text_lookup_invoice, jobject, jfield, jquoted. cbn [opt app joined]. repeat (rewrite ?app_length; cbn [length bs]). rewrite ?L. lia.
  - assert (L : length (repeat 97 (N.to_nat 9000)) = N.to_nat 9000) by apply repeat_length. apply (H (repeat 97 (N.to_nat 9000))). set (s := repeat 97 (N.to_nat 9000)) in *. clearbody s. rewrite (C40_keysend_exact _ _ _ _ []) by (discriminate || constructor). unfold written.
    rewrite (proj2 (N.ltb_lt _ _)); [reflexivity|].
    unfold text_pay_keysend, jobject, jfield, jquoted. cbn [opt app joined]. repeat (rewrite ?app_length; cbn [length bs]). rewrite ?L. lia.
  - assert (L : length (repeat 97 (N.to_nat 17000)) = N.to_nat 17000) by apply repeat_length. apply (H (repeat 97 (N.to_nat 17000))). set (s := repeat 97 (N.to_nat 17000)) in *. clearbody s. rewrite C40_multi_exact by discriminate. unfold written.
    rewrite (proj2 (N.ltb_lt _ _)); [reflexivity|].
    unfold text_multi_pay, jobject, jfield, jquoted, jarray. cbn [map opt]. change (0 <? 0) with false. cbn [opt app joined map]. repeat (rewrite ?app_length; cbn [length bs]). rewrite ?L. lia.
  - pose (s := repeat 97 (N.to_nat 2047)). apply (H s s). rewrite C40_make_invoice_exact by discriminate. unfold written.
    assert (E : fst (json_escape (N.to_nat 2048) s) = s).
    { rewrite json_escape_fits.
      - subst s. induction (N.to_nat 2047) as [|n IH]; [reflexivity|]. cbn [repeat flat_map]. rewrite IH. reflexivity.
      - assert (L : length (flat_map esc s) = length s).
        { subst s. induction (N.to_nat 2047) as [|n IH]; [reflexivity|]. cbn [repeat flat_map length]. rewrite app_length, IH. reflexivity. }
        rewrite L. subst s. rewrite repeat_length. lia. }
    cbn [option_map]. rewrite E. assert (L : length s = N.to_nat 2047) by apply repeat_length. clearbody s.
    rewrite (proj2 (N.ltb_lt _ _)); [reflexivity|].
    unfold text_make_invoice, jobject, jfield, jquoted. cbn [opt app joined]. repeat (rewrite ?app_length; cbn [length bs]). rewrite ?L. lia.
Qed.

(** Partial: a request whose text fits is written completely.  Missing: requests
    that do not fit. *)
Lemma written_fits size text k : 0 < size -> N.of_nat (length text) < size -> written size text k = Ok text.
Proof.
  intros S L. unfold written. rewrite (proj2 (N.ltb_ge _ _)) by lia. rewrite firstn_all2 by lia. reflexivity.
Qed.
Theorem C40_fits_partial :
  (forall from until limit offset unpaid type, N.of_nat (length (text_list_transactions from until limit offset unpaid type)) < 4096 ->
     list_transactions_params from until limit offset unpaid type = Ok (text_list_transactions from until limit offset unpaid type)) /\
  (forall h i, h <> None \/ i <> None -> N.of_nat (length (text_lookup_invoice h i)) < 4096 ->
     lookup_invoice_params h i = Ok (text_lookup_invoice h i)) /\
  (forall amount pk pre, amount <> 0 -> N.of_nat (length (text_pay_keysend amount pk pre None)) < 8192 ->
     pay_keysend_params amount pk pre [] = Ok (text_pay_keysend amount pk pre None)) /\
  (forall amount pk pre tlv m, amount <> 0 -> tlv <> [] -> pairs tlv m -> N.of_nat (length (text_pay_keysend amount pk pre (Some m))) < 8192 ->
     pay_keysend_params amount pk pre tlv = Ok (text_pay_keysend amount pk pre (Some m))) /\
  (forall l, l <> [] -> N.of_nat (length (text_multi_pay l)) < 16384 -> multi_pay_params l = Ok (text_multi_pay l)).
Proof.
  split; [|split; [|split; [|split]]].
  - intros * L. rewrite C40_list_exact. apply written_fits; [reflexivity|exact L].
  - intros h i NE L. rewrite C40_lookup_exact by exact NE. apply written_fits; [reflexivity|exact L].
  - intros * NZ L. rewrite (C40_keysend_exact _ _ _ _ []) by (exact NZ || constructor). apply written_fits; [reflexivity|exact L].
  - intros * NZ NE P L. rewrite (C40_keysend_exact _ _ _ _ m) by assumption. destruct tlv; [congruence|]. apply written_fits; [reflexivity|exact L].
  - intros l NE L. rewrite C40_multi_exact by exact NE. apply written_fits; [reflexivity|exact L].
Qed.
(** Requests that are not well-formed are refused. *)
Theorem C40_refused : (forall d h x, make_invoice_params 0 d h x = Err EInvalidParam) /\
  lookup_invoice_params None None = Err EInvalidParam /\ (forall pk pre tlv, pay_keysend_params 0 pk pre tlv = Err EInvalidParam) /\
  multi_pay_params [] = Err EInvalidParam /\
  (forall m p, (forall c r, p = c :: r -> c <> 123 /\ c <> 91) -> request_payload m p = Err EInvalidParam).
Proof.
  repeat split. intros m p H. unfold request_payload. destruct p as [|c r]; [reflexivity|].
  destruct (H c r eq_refl) as (A & B). rewrite (proj2 (N.eqb_neq _ _) A), (proj2 (N.eqb_neq _ _) B). reflexivity.
Qed.
Example C40_meets :
  pay_invoice_params (bs "lnbc1""x") (Some 5) = Ok (bs "{""invoice"":""lnbc1\""x"",""amount"":5}") /\
  list_transactions_params (Some (-1)%Z) None (Some 10) None (Some true) None = Ok (bs "{""from"":-1,""limit"":10,""unpaid"":true}") /\
  pay_keysend_params 7 (bs "aa") None [bs "1"; bs "v"; bs "odd"] = Ok (bs "{""amount"":7,""pubkey"":""aa"",""tlv_records"":[{""type"":1,""value"":""v""}]}") /\
  multi_pay_params [(Some (bs "x"), bs "i", 0); (None, bs "j", 3)] = Ok (bs "{""invoices"":[{""id"":""x"",""invoice"":""i""},{""invoice"":""j"",""amount"":3}]}").
Proof. repeat split; vm_compute; reflexivity. Qed.

(** ** C72: the request carries its arguments *)
(** A payment request that did not fill the buffer carries the whole invoice. *)
Theorem C72_pay_invoice : forall invoice amount out, pay_invoice_params invoice amount = Ok out -> (length out < 4095)%nat ->
  exists t, jstring t invoice /\ out = text_pay_invoice t amount.
Proof.
  intros invoice amount out H L. rewrite C40_pay_invoice in H.
  set (e := fst (json_escape (N.to_nat 4096) invoice)) in *.
  assert (E : out = text_pay_invoice e amount).
  { assert (E : firstn 4095 (text_pay_invoice e amount) = out) by congruence. rewrite <- E in L |- *.
    rewrite firstn_length in L. apply firstn_all2. lia. }
  assert (LE : (length e + 14 <= length out)%nat).
  { rewrite E. unfold text_pay_invoice, jobject, jfield, jquoted. destruct amount; cbn [opt app joined];
      repeat (rewrite ?app_length; cbn [length bs]); lia. }
  exists e. split; [|exact E]. subst e. rewrite C39_cut by lia. apply escaped_jstring.
Qed.
Lemma dec_N_length20 n : n < 2 ^ 64 -> (length (dec_N n) <= 20)%nat.
Proof. intros L. apply (dec_length n 20); [lia|]. change (2 ^ 64) with 18446744073709551616 in L. change (10 ^ N.of_nat 20) with 100000000000000000000. lia. Qed.
Theorem C72_pay_injective : forall i a i' a' out, pay_invoice_params i a = Ok out -> pay_invoice_params i' a' = Ok out ->
  (length out < 4095)%nat -> i = i' /\ a = a'.
Proof.
  intros i a i' a' out H H' L. destruct (C72_pay_invoice _ _ _ H L) as (t & J & E). destruct (C72_pay_invoice _ _ _ H' L) as (t' & J' & E').
  rewrite E in E'. clear -E' J J'. unfold text_pay_invoice, jobject, jfield, jquoted in E'.
  assert (X : forall t a, bs "{" ++ joined 44 ([bs """" ++ bs "invoice" ++ bs """:" ++ bs """" ++ t ++ bs """"] ++ opt a (fun a => bs """" ++ bs "amount" ++ bs """:" ++ dec_N a)) ++ bs "}" =
     bs "{""invoice"":""" ++ t ++ 34 :: (match a with Some a => bs ",""amount"":" ++ dec_N a | None => [] end ++ bs "}")).
  { clear. intros t a. destruct a; cbn [opt app joined]; repeat (rewrite <- ?app_assoc; cbn [app bs ch]); reflexivity. }
  rewrite !X in E'. apply app_inv_head in E'. destruct (jstring_delim _ _ J _ _ _ _ J' E') as (-> & R).
  split; [exact (jstring_fun _ _ J _ J')|]. apply app_inv_tail in R.
  destruct a as [a|], a' as [a'|]; [|discriminate|discriminate|reflexivity]. apply app_inv_head in R. f_equal. apply dec_inj, R.
Qed.
(** An invoice description is cut silently: two requests for different invoices
    can be the same text, far from filling the buffer. *)
Theorem C72_make_invoice_refuted : ~ (forall amount d d' out, make_invoice_params amount (Some d) None None = Ok out ->
  make_invoice_params amount (Some d') None None = Ok out -> (length out < 4095)%nat -> d = d').
Proof.
  intros H. pose (s := repeat 97 (N.to_nat 2047)).
  assert (C : forall r, fst (json_escape (N.to_nat 2048) (s ++ r)) = s).
  { intros r. subst s. unfold json_escape. rewrite (proj2 (Nat.eqb_neq _ _)) by lia.
    assert (G : forall n size out top, (length out + n = size - 1)%nat -> (0 < size)%nat ->
      fst (json_escape_loop size (repeat 97 n ++ r) out top) = out ++ repeat 97 n).
    { clear. induction n as [|n IH]; intros size out top E S.
      - cbn [repeat app]. rewrite app_nil_r. destruct r as [|c r]; [reflexivity|]. cbn [json_escape_loop].
        rewrite (proj2 (Nat.ltb_ge _ _)) by lia. reflexivity.
      - cbn [repeat app json_escape_loop]. rewrite (proj2 (Nat.ltb_lt _ _)) by lia. change (esc 97) with [97]. cbn [length Nat.ltb Nat.leb andb].
        rewrite IH; [rewrite <- app_assoc; reflexivity| |exact S]. rewrite app_length. cbn [length]. lia. }
    specialize (G (N.to_nat 2047) (N.to_nat 2048) [] 0%nat ltac:(cbn [length]; lia) ltac:(lia)).
    destruct (json_escape_loop _ _ _ _) as [o t]. cbn [fst app] in *. exact G. }
  assert (LS : length s = N.to_nat 2047) by apply repeat_length. clearbody s.
  assert (M : forall r, make_invoice_params 1 (Some (s ++ r)) None None = Ok (text_make_invoice 1 (Some s) None None)).
  { intros r. rewrite C40_make_invoice_exact by discriminate. cbn [option_map]. rewrite C. apply written_fits; [reflexivity|].
    unfold text_make_invoice, jobject, jfield, jquoted. cbn [opt app joined]. repeat (rewrite ?app_length; cbn [length bs]). rewrite LS. change (length (dec_N 1)) with 1%nat. lia. }
  assert (X : s ++ [] = s ++ [65]).
  { refine (H 1 _ _ _ (M []) (M [65]) _).
    unfold text_make_invoice, jobject, jfield, jquoted. cbn [opt app joined]. repeat (rewrite ?app_length; cbn [length bs]). rewrite LS. change (length (dec_N 1)) with 1%nat. lia. }
  apply app_inv_head in X. discriminate.
Qed.
(** Partial: descriptions of up to 341 bytes are carried exactly, for every
    amount.  Missing: longer ones. *)
Theorem C72_make_invoice_partial : forall amount d h x, amount <> 0 -> N.of_nat (length d) <= 341 -> N.of_nat (length h) <= 256 ->
  amount < 2 ^ 64 -> (match x with Some n => n < 2 ^ 64 | None => True end) ->
  exists t u, jstring t d /\ jstring u h /\ make_invoice_params amount (Some d) (Some h) x = Ok (text_make_invoice amount (Some t) (Some u) x).
Proof.
  intros amount d h x NZ LD LH BA BX. destruct (C39_recover (N.to_nat 2048) d ltac:(lia)) as (J & _).
  destruct (C39_recover (N.to_nat 2048) h ltac:(lia)) as (J' & _).
  exists (fst (json_escape (N.to_nat 2048) d)), (fst (json_escape (N.to_nat 2048) h)). split; [exact J|]. split; [exact J'|].
  rewrite C40_make_invoice_exact by exact NZ. cbn [option_map]. apply written_fits; [reflexivity|].
  assert (B : forall s n, N.of_nat (length s) <= n -> N.of_nat (length (fst (json_escape (N.to_nat 2048) s))) <= 6 * n).
  { clear. intros s n L. destruct (json_escape_spec (N.to_nat 2048) s ltac:(lia)) as (k & E & _). rewrite E.
    assert (LE : forall l, (length (flat_map esc l) <= 6 * length l)%nat).
    { clear. induction l as [|c l IH]; [cbn; lia|]. cbn [flat_map length]. rewrite app_length. pose proof (esc_length c). lia. }
    specialize (LE (firstn k s)). rewrite firstn_length in LE. lia. }
  apply B in LD, LH. pose proof (dec_N_length20 _ BA) as DA.
  unfold text_make_invoice, jobject, jfield, jquoted. destruct x as [x|]; cbn [opt app joined]; repeat (rewrite ?app_length; cbn [length bs]).
  - pose proof (dec_N_length20 _ BX). lia.
  - lia.
Qed.
(** Arguments are not escaped in a lookup: one of them can stand for two. *)
Theorem C72_lookup_refuted : ~ (forall h i h' i' out, lookup_invoice_params h i = Ok out -> lookup_invoice_params h' i' = Ok out -> h = h' /\ i = i').
Proof.
  intros H. destruct (H (Some (bs "a"",""invoice"":""b")) None (Some (bs "a")) (Some (bs "b"))
    (bs "{""payment_hash"":""a"",""invoice"":""b""}") eq_refl eq_refl). discriminate.
Qed.
(** The encrypted request is cut at 8191 bytes without an error. *)
Theorem C72_request_refuted : ~ (forall m p p' out, request_payload m p = Ok out -> request_payload m p' = Ok out -> p = p').
Proof.
  intros H. pose (s := 123 :: repeat 97 (N.to_nat 9000)).
  assert (HS : exists r, s = 123 :: r) by (eexists; reflexivity).
  assert (L : length s = Datatypes.S (N.to_nat 9000)) by (subst s; cbn [length]; rewrite repeat_length; reflexivity). clearbody s.
  assert (R : forall r, request_payload [] (s ++ r) = Ok (firstn (N.to_nat 8191) (bs "{""method"":"""",""params"":" ++ s))).
  { intros r. destruct HS as (s' & ->). rewrite (C40_request _ _ 123 (s' ++ r)) by (reflexivity || (left; reflexivity)).
    remember (123 :: s') as s. clear Heqs.
    change (fst (json_escape 256 [])) with (@nil N).
    assert (T : text_request [] (s ++ r) = (bs "{""method"":"""",""params"":" ++ s) ++ r ++ bs "}").
    { unfold text_request, jobject, jfield, jquoted. cbn [joined]. repeat (rewrite <- ?app_assoc; cbn [app bs ch]). reflexivity. }
    rewrite T, firstn_app. rewrite app_length, L.
    replace (N.to_nat 8191 - _)%nat with 0%nat by lia. cbn [firstn]. rewrite app_nil_r. reflexivity. }
  assert (X : s ++ [] = s ++ [65]) by exact (H _ _ _ _ (R []) (R [65])). apply app_inv_head in X. discriminate.
Qed.
(** Partial: a request text that did not fill the buffer, with a method name of
    at most 42 bytes, carries method and parameters.  Missing: longer ones. *)
Theorem C72_request_partial : forall m p out, request_payload m p = Ok out -> (length m <= 42)%nat -> N.of_nat (length out) < 8191 ->
  exists t, jstring t m /\ out = text_request t p.
Proof.
  intros m p out H LM L. destruct p as [|c r]; [discriminate|].
  assert (C : c = 123 \/ c = 91).
  { unfold request_payload in H. destruct (N.eqb_spec c 123); [auto|]. destruct (N.eqb_spec c 91); [auto|discriminate]. }
  rewrite (C40_request _ _ c r eq_refl C) in H. destruct (C39_recover 256 m ltac:(lia)) as (J & _).
  exists (fst (json_escape 256 m)). split; [exact J|].
  assert (E : firstn (N.to_nat 8191) (text_request (fst (json_escape 256 m)) (c :: r)) = out) by congruence. rewrite <- E in L |- *.
  rewrite firstn_length in L. apply firstn_all2. lia.
Qed.
Example C72_meets : exists out, pay_invoice_params (bs "lnbc1") None = Ok out /\ (length out < 4095)%nat.
Proof. exists (bs "{""invoice"":""lnbc1""}"). split; [vm_compute; reflexivity|]. cbn [length bs]. lia. Qed.

(** ** C73: whose key a reply is decrypted with *)
(** The wallet's reply carries the client's key in its p tag (NIP-47), and that
    is the key used: even with an encryption under which wallet and client
    agree, such a reply is not read. *)
Definition reply (wallet client : list N) (c : list N) : event :=
  mkEvent [] wallet 0 23195 [[bs "p"; hex_encode client]; [bs "encryption"; bs "nip44_v2"]] (Some c) [].
Theorem C73_refuted : ~ (forall (decrypt : list N -> list N -> option (list N) -> res (list N)) secret wallet client c m,
  length client = 32%nat -> bytes_ok client -> decrypt secret wallet (Some c) = Ok m ->
  parse_response decrypt (reply wallet client c) secret = Ok m).
Proof.
  intros H. specialize (H (fun _ peer _ => if beq peer (repeat 1 32) then Ok [] else Err EEncoding) [] (repeat 1 32) (repeat 2 32) [] []
    eq_refl ltac:(repeat constructor) eq_refl). vm_compute in H. discriminate.
Qed.
(** Partial: without a usable p tag, or when that tag names the author, the
    reply is decrypted with the author's key.  Missing: replies addressed to the
    client. *)
Theorem C73_partial : forall (decrypt : list N -> list N -> option (list N) -> res (list N)) e secret m v,
  ev_kind e = 23195 -> first_tag_value (bs "encryption") (ev_tags e) = Some v -> contains (bs "nip44") v = true ->
  (forall t x r k, In t (ev_tags e) -> t = bs "p" :: x :: r -> hextext x k -> length k = 32%nat -> k = ev_pubkey e) ->
  (forall t x r, In t (ev_tags e) -> t = bs "p" :: x :: r -> all_hex x) ->
  decrypt secret (ev_pubkey e) (ev_content e) = Ok m -> parse_response decrypt e secret = Ok m.
Proof.
  intros decrypt e secret m v K T C P X D. unfold parse_response. rewrite K, T, C. cbn [N.eqb negb Pos.eqb].
  assert (R : response_peer (ev_tags e) (ev_pubkey e) = ev_pubkey e); [|rewrite R; exact D].
  revert P X. generalize (ev_tags e). induction l as [|t l IH]; intros P X; [reflexivity|]. cbn [response_peer].
  assert (IH' : response_peer l (ev_pubkey e) = ev_pubkey e).
  { apply IH; intros; [eapply P|eapply X]; eauto; right; eauto. }
  destruct t as [|n [|x r]]; [exact IH'|exact IH'|]. destruct (beq n (bs "p")) eqn:B; [|exact IH'].
  apply beq_eq in B. subst n. destruct (hex_decode47 x 32) as [k|] eqn:HD; [|exact IH'].
  apply hex_decode47_iff in HD. destruct HD as (HL & LK).
  apply (P _ x r k (or_introl eq_refl) eq_refl); [|exact LK]. apply loosehex_strict; [exact HL|].
  exact (X _ x r (or_introl eq_refl) eq_refl).
Qed.
(** Notifications are read with the author's key, whatever the tags. *)
Theorem C73_notification : forall (decrypt : list N -> list N -> option (list N) -> res (list N)) e secret m,
  parse_notification decrypt e secret = Ok m <-> ev_kind e = 23197 /\ decrypt secret (ev_pubkey e) (ev_content e) = Ok m.
Proof.
  intros. unfold parse_notification. destruct (N.eqb_spec (ev_kind e) 23197) as [K|K]; cbn [negb andb].
  - tauto.
  - destruct (negb _); split; intros H; try discriminate; destruct H; contradiction.
Qed.
(** A reply that is read was a response marked as encrypted with version 2. *)
Theorem C73_reads : forall (decrypt : list N -> list N -> option (list N) -> res (list N)) e secret m,
  parse_response decrypt e secret = Ok m ->
  ev_kind e = 23195 /\ exists peer, decrypt secret peer (ev_content e) = Ok m /\
    (peer = ev_pubkey e \/ exists x r, In (bs "p" :: x :: r) (ev_tags e) /\ loosehex x peer).
Proof.
  intros decrypt e secret m H. unfold parse_response in H. destruct (N.eqb_spec (ev_kind e) 23195) as [K|K]; [|discriminate].
  cbn [negb] in H. split; [exact K|]. destruct (first_tag_value _ _) as [v|]; [|discriminate]. destruct (contains _ v); [|discriminate].
  exists (response_peer (ev_tags e) (ev_pubkey e)). split; [exact H|]. clear.
  induction (ev_tags e) as [|t l IH]; [left; reflexivity|]. cbn [response_peer].
  assert (IH' : response_peer l (ev_pubkey e) = ev_pubkey e \/ exists x r, In (bs "p" :: x :: r) (t :: l) /\ loosehex x (response_peer l (ev_pubkey e))).
  { destruct IH as [IH|(x & r & I & L)]; [left; exact IH|right; exists x, r; split; [right; exact I|exact L]]. }
  destruct t as [|n [|x r]]; [exact IH'|exact IH'|]. destruct (beq n (bs "p")) eqn:B; [|exact IH'].
  destruct (hex_decode47 x 32) as [k|] eqn:HD; [|exact IH']. apply beq_eq in B. subst n. apply hex_decode47_iff in HD.
  right. exists x, r. split; [left; reflexivity|apply HD].
Qed.
Example C73_meets : parse_response (fun _ peer _ => if beq peer [7] then Ok [1] else Err EEncoding)
  (mkEvent [] [7] 0 23195 [[bs "encryption"; bs "nip44_v2"]] (Some []) []) [] = Ok [1].
Proof. reflexivity. Qed.

(** ** C74: the lists in an info event *)
Inductive tagged (name : list N) : list (list (list N)) -> option (list N) -> Prop :=
| TgNone : tagged name [] None
| TgHere v x r : tagged name ((name :: v :: x) :: r) (Some v)
| TgSkip t r o : (forall v x, t <> name :: v :: x) -> tagged name r o -> tagged name (t :: r) o.
Lemma first_tag_tagged name ts : tagged name ts (first_tag_value name ts).
Proof.
  induction ts as [|t ts IH]; [constructor|]. destruct t as [|n [|v x]]; cbn [first_tag_value]; [| |destruct (beq n name) eqn:B].
  - constructor; [intros; discriminate|exact IH].
  - constructor; [intros; discriminate|exact IH].
  - apply beq_eq in B. subst n. constructor.
  - constructor; [intros w y Q|exact IH]. apply beq_neq in B. congruence.
Qed.
Theorem C74_partial : forall e c, ev_kind e = 13194 -> ev_content e = Some c ->
  exists caps nots encs on oe, parse_info_event e = Ok (caps, nots, encs) /\ words c caps /\
    tagged (bs "notifications") (ev_tags e) on /\ words (match on with Some v => v | None => [] end) nots /\
    tagged (bs "encryption") (ev_tags e) oe /\ words (match oe with Some v => v | None => [] end) encs.
Proof.
  intros e c K C. unfold parse_info_event. rewrite K, C. cbn [N.eqb negb Pos.eqb].
  eexists _, _, _, (first_tag_value (bs "notifications") (ev_tags e)), (first_tag_value (bs "encryption") (ev_tags e)).
  split; [reflexivity|]. split; [apply word_list_words|]. split; [apply first_tag_tagged|].
  split; [destruct (first_tag_value (bs "notifications") _); [apply word_list_words|constructor]|]. split; [apply first_tag_tagged|].
  destruct (first_tag_value (bs "encryption") _); [apply word_list_words|constructor].
Qed.
Theorem C74_refuses : forall e r, parse_info_event e = Err r <-> ev_kind e <> 13194 /\ r = EInvalidParam.
Proof.
  intros e r. unfold parse_info_event. destruct (N.eqb_spec (ev_kind e) 13194) as [K|K]; cbn [negb].
  - destruct (ev_content e); split; [discriminate|tauto|discriminate|tauto].
  - split; [intros H; split; [exact K|congruence]|intros (_ & ->); reflexivity].
Qed.
(** Replies of another kind, and replies not marked as encrypted with version 2,
    are refused without being decrypted. *)
Lemma contains_iff sub s : contains sub s = true <-> exists a b, s = a ++ sub ++ b.
Proof.
  induction s as [|c s IH]; cbn [contains]; rewrite orb_true_iff, prefixb_spec.
  - split; [intros [(r & E)|E]; [exists [], r; exact E|discriminate]|intros (a & b & E)]. left. exists b. destruct a; [exact E|discriminate].
  - rewrite IH. split.
    + intros [(r & E)|(a & b & E)]; [exists [], r; exact E|exists (c :: a), b; rewrite E; reflexivity].
    + intros ([|x a] & b & E); [left; exists b; exact E|right; exists a, b]. cbn [app] in E. congruence.
Qed.
Theorem C73_refuses : forall (decrypt : list N -> list N -> option (list N) -> res (list N)) e secret,
  (ev_kind e <> 23195 -> parse_response decrypt e secret = Err EInvalidParam) /\ (ev_kind e = 23195 -> forall o, tagged (bs "encryption") (ev_tags e) o -> (forall v a b, o = Some v -> v <> a ++ bs "nip44" ++ b) ->
    parse_response decrypt e secret = Err ENotSupported).
Proof.
  intros decrypt e secret. unfold parse_response. split.
  - intros K. apply N.eqb_neq in K. rewrite K. reflexivity.
  - intros K o T F. rewrite K. cbn [N.eqb Pos.eqb negb].
    assert (E : o = first_tag_value (bs "encryption") (ev_tags e)).
    { clear F K. induction T as [|v x r|t r o NT T IH].
      - reflexivity.
      - reflexivity.
      - destruct t as [|n [|v x]]; [exact IH|exact IH|]. cbn [first_tag_value]. destruct (beq n (bs "encryption")) eqn:B; [|exact IH].
        apply beq_eq in B. subst n. exfalso. apply (NT v x). reflexivity. }
    rewrite <- E. destruct o as [v|]; [|reflexivity]. destruct (contains (bs "nip44") v) eqn:C; [|reflexivity].
    apply contains_iff in C as (a & b & C). exfalso. exact (F v a b eq_refl C).
Qed.
(** An event without content, which the library itself can hold, crashes it. *)
Theorem C74_refuted : ~ (forall e, ev_kind e = 13194 -> parse_info_event e <> Undef).
Proof. intros H. apply (H (mkEvent [] [] 0 13194 [] None [])); reflexivity. Qed.
Example C74_meets : parse_info_event (mkEvent [] [] 0 13194 [[bs "encryption"; bs "nip44_v2  nip04"]] (Some (bs "pay_invoice get_balance ")) []) =
  Ok ([bs "pay_invoice"; bs "get_balance"], [], [bs "nip44_v2"; bs "nip04"]).
Proof. reflexivity. Qed.

(** ** C75: what parsing a URI leaves behind *)
Theorem C75_exact : forall uri c lost, parse_uri_full uri = Ok (c, lost) ->
  exists pk ps luds, uri_shape uri pk ps /\ listed (bs "lud16") ps luds /\ lost = (length luds - 1)%nat.
Proof.
  intros uri c lost H. apply parse_uri_full_iff in H. destruct H as (pk & ps & sks & SH & _ & _ & _ & _ & _ & _ & ->).
  exists pk, ps, (vals (bs "lud16") ps). split; [exact SH|]. split; [apply listed_vals; reflexivity|reflexivity].
Qed.
Theorem C75_refuted : ~ (forall uri c lost, parse_uri_full uri = Ok (c, lost) -> lost = 0%nat).
Proof.
  intros H.
  assert (E : exists c, parse_uri_full (signs_uri ++ bs "&lud16=a&lud16=b&lud16=c") = Ok (c, 2%nat)) by (eexists; vm_compute; reflexivity).
  destruct E as (c & E). specialize (H _ _ _ E). discriminate.
Qed.

(** A case for C75: one address loses nothing, two lose one. *)
Example C75_meets : (exists c, parse_uri_full (signs_uri ++ bs "&lud16=a") = Ok (c, 0%nat)) /\ (exists c, parse_uri_full (signs_uri ++ bs "&lud16=a&lud16=b") = Ok (c, 1%nat)).
Proof. split; eexists; vm_compute; reflexivity. Qed.

Print Assumptions C38_exact.
Print Assumptions C38_refuted.
Print Assumptions C38_digits_partial.
Print Assumptions C38_roundtrip.
Print Assumptions C39_bounded.
Print Assumptions C39_recover.
Print Assumptions C39_cut.
Print Assumptions C40_pay_invoice.
Print Assumptions C40_request.
Print Assumptions C40_make_invoice_exact.
Print Assumptions C40_list_exact.
Print Assumptions C40_lookup_exact.
Print Assumptions C40_keysend_exact.
Print Assumptions C40_multi_exact.
Print Assumptions C40_refuted.
Print Assumptions C40_fits_partial.
Print Assumptions C72_pay_injective.
Print Assumptions C72_make_invoice_refuted.
Print Assumptions C72_make_invoice_partial.
Print Assumptions C72_lookup_refuted.
Print Assumptions C72_request_refuted.
Print Assumptions C72_request_partial.
Print Assumptions C73_refuted.
Print Assumptions C73_partial.
Print Assumptions C73_notification.
Print Assumptions C73_reads.
Print Assumptions C74_partial.
Print Assumptions C74_refuses.
Print Assumptions C73_refuses.
Print Assumptions C74_refuted.
Print Assumptions C75_exact.
Print Assumptions C75_refuted.
