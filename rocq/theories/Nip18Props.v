(** Property theorems C46, C81 (NIP-18 reposts and quotes, NIP-25 reactions). *)
From Verif Require Import Base BaseFacts Dec Hex HexSpec HexProofs Bech32 Bech32Proofs Bech32Lemmas2 Bech32Spec Bech32Props
  Nip21 Nip21Spec Nip21Proofs Nip21Props Nip26 Nip26Spec Nip26Proofs Nip26Props Event GiftWrap GiftWrapProps Nip18 Nip18Spec.
Open Scope N_scope.

Lemma latest_fold {B} (says : tag -> B -> Prop) (pick : tag -> option B) d ts :
  (forall t x, pick t = Some x <-> says t x) ->
  forall x, fold_left (fun s t => match pick t with Some v => v | None => s end) ts d = x <-> latest says d ts x.
Proof.
  intros P. assert (NO : forall t, pick t = None <-> forall y, ~ says t y).
  { intros t. split.
    - intros E y Y. apply P in Y. congruence.
    - intros H. destruct (pick t) as [y|] eqn:E; [|reflexivity]. exfalso. apply P in E. exact (H y E). }
  induction ts as [|t ts IH] using rev_ind; intros x.
  - cbn. split; [intros ->; right; split; [constructor|reflexivity]|]. intros [(a & t & b & E & _)|(_ & E)]; [destruct a; discriminate|auto].
  - rewrite fold_left_app. cbn [fold_left]. destruct (pick t) as [v|] eqn:E.
    + split.
      * intros ->. left. exists ts, t, []. repeat split; [apply P, E|constructor].
      * intros [(a & u & b & E' & S & F)|(F & _)].
        { destruct b as [|w b] using rev_ind.
          - apply app_inj_tail in E' as (_ & ->). apply P in S. congruence.
          - change (a ++ u :: b ++ [w]) with (a ++ (u :: b) ++ [w]) in E'. rewrite app_assoc in E'. apply app_inj_tail in E' as (_ & <-).
            apply Forall_app in F as (_ & F). inversion F as [|? ? X ?]. apply P in E. exfalso. exact (X v E). }
        { apply Forall_app in F as (_ & F). inversion F as [|? ? X ?]. apply P in E. exfalso. exact (X v E). }
    + pose proof (proj1 (NO t) E) as E0. clear E. rename E0 into E. rewrite IH. clear IH. split.
      * intros [(a & u & b & -> & S & F)|(F & ->)].
        { left. exists a, u, (b ++ [t]). rewrite <- app_assoc. repeat split; [exact S|]. apply Forall_app. split; [exact F|constructor; [exact E|constructor]]. }
        { right. split; [|reflexivity]. apply Forall_app. split; [exact F|constructor; [exact E|constructor]]. }
      * intros [(a & u & b & E' & S & F)|(F & ->)].
        { destruct b as [|w b] using rev_ind.
          - apply app_inj_tail in E' as (_ & ->). exfalso. exact (E _ S).
          - clear IHb. change (a ++ u :: b ++ [w]) with (a ++ (u :: b) ++ [w]) in E'. rewrite app_assoc in E'. apply app_inj_tail in E' as (E' & <-).
            apply Forall_app in F as (F & _). left. exists a, u, b. auto. }
        { apply Forall_app in F as (F & _). right. auto. }
Qed.

(** The parsing loops as independent loops over the tags *)
Definition pick_value (n : list N) (t : tag) : option (option (list N)) :=
  match t with a :: v :: _ => if beq a n then Some (Some v) else None | _ => None end.
Definition pick_relay (t : tag) : option (option (list N)) :=
  match t with a :: _ :: v :: _ => if beq a (bs "e") then Some (Some v) else None | _ => None end.
Definition pick_kind (t : tag) : option N :=
  match t with a :: v :: _ => if beq a (bs "k") then match whole_number v with Some k => if k <=? 65535 then Some k else None | None => None end else None | _ => None end.
Definition pick_clamped (t : tag) : option N :=
  match t with a :: v :: _ => if beq a (bs "k") then match whole_number v with Some k => Some (if 65535 <? k then 65535 else k) | None => None end else None | _ => None end.
Definition upd {B} (pick : tag -> option B) (s : B) (t : tag) : B := match pick t with Some v => v | None => s end.

Lemma pick_value_iff n t x : pick_value n t = Some x <-> says_value n t x.
Proof.
  unfold pick_value, says_value. destruct t as [|a [|v r]].
  - split; [discriminate|intros (? & ? & X & _); discriminate].
  - split; [discriminate|intros (? & ? & X & _); discriminate].
  - destruct (beq a n) eqn:E.
    + apply beq_eq in E. subst a. split; [intros X; exists v, r; split; congruence|intros (v' & r' & X & ->); congruence].
    + apply beq_neq in E. split; [discriminate|intros (v' & r' & X & _); congruence].
Qed.
Lemma pick_relay_iff t x : pick_relay t = Some x <-> says_relay t x.
Proof.
  unfold pick_relay, says_relay. destruct t as [|a [|i [|v r]]]; try (split; [discriminate|intros (? & ? & ? & X & _); discriminate]).
  destruct (beq a (bs "e")) eqn:E.
  - apply beq_eq in E. subst a. split; [intros X; exists i, v, r; split; congruence|intros (i' & v' & r' & X & ->); congruence].
  - apply beq_neq in E. split; [discriminate|intros (i' & v' & r' & X & _); congruence].
Qed.
Lemma whole_number_iff v k : whole_number v = Some k <-> numeral v k.
Proof.
  unfold whole_number, numeral. split.
  - destruct (strtoul_checked v) as [[k' [|c r]]|] eqn:E; try discriminate. intros X. assert (k' = k) by congruence. subst k'.
    apply strtoul_checked_iff in E as (num & neg & w & -> & L & V & K & _). rewrite app_nil_r. exists neg, w. auto.
  - intros (neg & w & L & V & K). assert (E : strtoul_checked v = Some (k, [])); [|rewrite E; reflexivity].
    apply strtoul_checked_iff. exists v, neg, w. rewrite app_nil_r. repeat split; auto.
Qed.
Lemma pick_kind_iff t x : pick_kind t = Some x <-> says_kind t x.
Proof.
  unfold pick_kind, says_kind. destruct t as [|a [|v r]]; try (split; [discriminate|intros (? & ? & X & _); discriminate]).
  destruct (beq a (bs "k")) eqn:E.
  - apply beq_eq in E. subst a. split.
    + destruct (whole_number v) as [k|] eqn:W; [|discriminate]. destruct (N.leb_spec k 65535); [|discriminate]. intros X.
      assert (k = x) by congruence. subst k. apply whole_number_iff in W. exists v, r. auto.
    + intros (v' & r' & X & NM & L). assert (v' = v) by congruence. subst v'. apply whole_number_iff in NM. rewrite NM.
      rewrite (proj2 (N.leb_le _ _)) by exact L. reflexivity.
  - apply beq_neq in E. split; [discriminate|intros (v' & r' & X & _); congruence].
Qed.
Lemma pick_clamped_iff t x : pick_clamped t = Some x <-> says_clamped_kind t x.
Proof.
  unfold pick_clamped, says_clamped_kind. destruct t as [|a [|v r]]; try (split; [discriminate|intros (? & ? & ? & X & _); discriminate]).
  destruct (beq a (bs "k")) eqn:E.
  - apply beq_eq in E. subst a. split.
    + destruct (whole_number v) as [k|] eqn:W; [|discriminate]. intros X. apply whole_number_iff in W. exists v, r, k. repeat split; [exact W|].
      assert (x = if 65535 <? k then 65535 else k) by congruence. subst x. destruct (N.ltb_spec 65535 k); lia.
    + intros (v' & r' & n & X & NM & ->). assert (v' = v) by congruence. subst v'. apply whole_number_iff in NM. rewrite NM.
      f_equal. destruct (N.ltb_spec 65535 n); lia.
  - apply beq_neq in E. split; [discriminate|intros (v' & r' & n & X & _); congruence].
Qed.

Lemma repost_step_split f t : repost_step f t =
  mkFound (upd (pick_value (bs "e")) (f_e f) t) (upd pick_relay (f_relay f) t) (upd (pick_value (bs "p")) (f_p f) t) (upd pick_kind (f_kind f) t).
Proof.
  destruct f as [fe fr fp fk]. unfold repost_step, upd, pick_value, pick_relay, pick_kind. cbn [f_e f_relay f_p f_kind].
  destruct t as [|a [|v r]]; [reflexivity|reflexivity|].
  destruct (beq a (bs "e")) eqn:E1.
  { apply beq_eq in E1. subst a. cbn [beq]. change (beq (bs "e") (bs "p")) with false. change (beq (bs "e") (bs "k")) with false. destruct r; reflexivity. }
  assert (X : match r with [] => None | x :: _ => if false then Some (Some x) else None end = (None : option (option (list N)))) by (destruct r; reflexivity).
  rewrite X. clear X.
  destruct (beq a (bs "p")) eqn:E2.
  { apply beq_eq in E2. subst a. change (beq (bs "p") (bs "k")) with false. reflexivity. }
  destruct (beq a (bs "k")); [|reflexivity]. destruct (whole_number v) as [k|]; [|reflexivity]. destruct (k <=? 65535); reflexivity.
Qed.
Lemma reaction_step_split f t : reaction_step f t =
  mkFound (upd (pick_value (bs "e")) (f_e f) t) (f_relay f) (upd (pick_value (bs "p")) (f_p f) t) (upd pick_clamped (f_kind f) t).
Proof.
  destruct f as [fe fr fp fk]. unfold reaction_step, upd, pick_value, pick_clamped. cbn [f_e f_relay f_p f_kind].
  destruct t as [|a [|v r]]; [reflexivity|reflexivity|].
  destruct (beq a (bs "e")) eqn:E1.
  { apply beq_eq in E1. subst a. change (beq (bs "e") (bs "p")) with false. change (beq (bs "e") (bs "k")) with false. reflexivity. }
  destruct (beq a (bs "p")) eqn:E2.
  { apply beq_eq in E2. subst a. change (beq (bs "p") (bs "k")) with false. reflexivity. }
  destruct (beq a (bs "k")); [|reflexivity]. destruct (whole_number v) as [k|]; reflexivity.
Qed.
Lemma repost_fold ts : forall f, fold_left repost_step ts f =
  mkFound (fold_left (upd (pick_value (bs "e"))) ts (f_e f)) (fold_left (upd pick_relay) ts (f_relay f))
    (fold_left (upd (pick_value (bs "p"))) ts (f_p f)) (fold_left (upd pick_kind) ts (f_kind f)).
Proof. induction ts as [|t ts IH]; intros f; [destruct f; reflexivity|]. cbn [fold_left]. rewrite IH, repost_step_split. reflexivity. Qed.
Lemma reaction_fold ts : forall f, fold_left reaction_step ts f =
  mkFound (fold_left (upd (pick_value (bs "e"))) ts (f_e f)) (f_relay f)
    (fold_left (upd (pick_value (bs "p"))) ts (f_p f)) (fold_left (upd pick_clamped) ts (f_kind f)).
Proof. induction ts as [|t ts IH]; intros f; [destruct f; reflexivity|]. cbn [fold_left]. rewrite IH, reaction_step_split. reflexivity. Qed.

Lemma copy_shown size s : exists x, copy_str_safe size s = Ok x /\ forall y, shown size s y <-> y = x.
Proof.
  unfold copy_str_safe, shown. destruct (N.eqb_spec size 0) as [->|NZ].
  - exists None. split; [reflexivity|]. intros y. split; [intros [(_ & ->)|(X & _)]; [reflexivity|lia]|intros ->; left; auto].
  - destruct s as [s|].
    + rewrite (proj2 (N.leb_gt _ _)) by lia. eexists. split; [reflexivity|]. intros y. split; [intros [(X & _)|(_ & ->)]; [contradiction|reflexivity]|intros ->; right; split; [lia|reflexivity]].
    + eexists. split; [reflexivity|]. intros y. split; [intros [(X & _)|(_ & ->)]; [contradiction|reflexivity]|intros ->; right; split; [lia|reflexivity]].
Qed.

(** C46: on every event the parsers report what the last e, p and k tags say, cut
    to the caller's buffers, never writing outside them; without an e tag they
    report ENotFound. *)
Theorem C46_repost_parse : forall e s1 s2 s3 o r, repost_parse e s1 s2 s3 = Ok (o, r) <->
  (ev_kind e = 6 \/ ev_kind e = 16) /\
  exists i p h, latest (says_value (bs "e")) None (ev_tags e) i /\ latest (says_value (bs "p")) None (ev_tags e) p /\
    latest says_relay None (ev_tags e) h /\ shown s1 i (ro_id o) /\ shown s2 p (ro_pubkey o) /\ shown s3 h (ro_relay o) /\
    latest says_kind (if ev_kind e =? 6 then 1 else 0) (ev_tags e) (ro_kind o) /\
    r = match i with Some _ => Ok tt | None => Err ENotFound end.
Proof.
  intros e s1 s2 s3 o r. unfold repost_parse.
  pose proof (latest_fold (says_value (bs "e")) (pick_value (bs "e")) None (ev_tags e) (pick_value_iff _)) as LE.
  pose proof (latest_fold (says_value (bs "p")) (pick_value (bs "p")) None (ev_tags e) (pick_value_iff _)) as LP.
  pose proof (latest_fold says_relay pick_relay None (ev_tags e) pick_relay_iff) as LR.
  pose proof (latest_fold says_kind pick_kind (if ev_kind e =? 6 then 1 else 0) (ev_tags e) pick_kind_iff) as LK.
  assert (KD : negb (ev_kind e =? 6) && negb (ev_kind e =? 16) = false <-> ev_kind e = 6 \/ ev_kind e = 16).
  { rewrite andb_false_iff, !negb_false_iff, !N.eqb_eq. reflexivity. }
  destruct (negb (ev_kind e =? 6) && negb (ev_kind e =? 16)); [split; [discriminate|intros (X & _); apply KD in X; discriminate]|].
  rewrite repost_fold. cbn [f_e f_relay f_p f_kind].
  fold (upd (pick_value (bs "e"))) in LE. fold (upd (pick_value (bs "p"))) in LP. fold (upd pick_relay) in LR. fold (upd pick_kind) in LK.
  set (fe := fold_left (upd (pick_value (bs "e"))) (ev_tags e) None) in *. set (fp := fold_left (upd (pick_value (bs "p"))) (ev_tags e) None) in *.
  set (fr := fold_left (upd pick_relay) (ev_tags e) None) in *.
  destruct (copy_shown s1 fe) as (x1 & C1 & S1). destruct (copy_shown s2 fp) as (x2 & C2 & S2). destruct (copy_shown s3 fr) as (x3 & C3 & S3).
  rewrite C1, C2, C3. cbn [bind]. split.
  - intros H. split; [apply KD; reflexivity|]. exists fe, fp, fr. split; [apply LE; reflexivity|]. split; [apply LP; reflexivity|].
    split; [apply LR; reflexivity|]. rewrite S1, S2, S3, <- LK. assert (O : o = mkRepost x1 x2 x3 (fold_left (upd pick_kind) (ev_tags e) (if ev_kind e =? 6 then 1 else 0))) by congruence.
    rewrite O. cbn [ro_id ro_pubkey ro_relay ro_kind]. repeat split. congruence.
  - intros (_ & i & p & h & L1 & L2 & L3 & H1 & H2 & H3 & H4 & ->). apply LE in L1. apply LP in L2. apply LR in L3. subst i p h.
    apply S1 in H1. apply S2 in H2. apply S3 in H3. apply LK in H4. destruct o as [a b c d]. cbn [ro_id ro_pubkey ro_relay ro_kind] in *. subst. reflexivity.
Qed.
Theorem C46_reaction_parse : forall e s1 s2 s3 o r, reaction_parse e s1 s2 s3 = Ok (o, r) <->
  ev_kind e = 7 /\
  exists i p, latest (says_value (bs "e")) None (ev_tags e) i /\ latest (says_value (bs "p")) None (ev_tags e) p /\
    shown s1 (ev_content e) (xo_content o) /\ shown s2 i (xo_id o) /\ shown s3 p (xo_pubkey o) /\
    latest says_clamped_kind 0 (ev_tags e) (xo_kind o) /\
    r = match i with Some _ => Ok tt | None => Err ENotFound end.
Proof.
  intros e s1 s2 s3 o r. unfold reaction_parse.
  pose proof (latest_fold (says_value (bs "e")) (pick_value (bs "e")) None (ev_tags e) (pick_value_iff _)) as LE.
  pose proof (latest_fold (says_value (bs "p")) (pick_value (bs "p")) None (ev_tags e) (pick_value_iff _)) as LP.
  pose proof (latest_fold says_clamped_kind pick_clamped 0 (ev_tags e) pick_clamped_iff) as LK.
  destruct (N.eqb_spec (ev_kind e) 7) as [K|K]; cbn [negb]; [|split; [discriminate|intros (X & _); contradiction]].
  rewrite reaction_fold. cbn [f_e f_relay f_p f_kind].
  fold (upd (pick_value (bs "e"))) in LE. fold (upd (pick_value (bs "p"))) in LP. fold (upd pick_clamped) in LK.
  set (fe := fold_left (upd (pick_value (bs "e"))) (ev_tags e) None) in *. set (fp := fold_left (upd (pick_value (bs "p"))) (ev_tags e) None) in *.
  destruct (copy_shown s1 (ev_content e)) as (x1 & C1 & S1). destruct (copy_shown s2 fe) as (x2 & C2 & S2). destruct (copy_shown s3 fp) as (x3 & C3 & S3).
  rewrite C1, C2, C3. cbn [bind]. split.
  - intros H. split; [exact K|]. exists fe, fp. split; [apply LE; reflexivity|]. split; [apply LP; reflexivity|].
    rewrite S1, S2, S3, <- LK. assert (O : o = mkReaction x1 x2 x3 (fold_left (upd pick_clamped) (ev_tags e) 0)) by congruence.
    rewrite O. cbn [xo_content xo_id xo_pubkey xo_kind]. repeat split. congruence.
  - intros (_ & i & p & L1 & L2 & H1 & H2 & H3 & H4 & ->). apply LE in L1. apply LP in L2. subst i p.
    apply S1 in H1. apply S2 in H2. apply S3 in H3. apply LK in H4. destruct o as [a b c d]. cbn [xo_content xo_id xo_pubkey xo_kind] in *. subst. reflexivity.
Qed.
(** On any kind of event, and with any buffers, the parsers return. *)
Theorem C46_parse_defined : forall e s1 s2 s3,
  repost_parse e s1 s2 s3 <> Undef /\ reaction_parse e s1 s2 s3 <> Undef.
Proof.
  intros e s1 s2 s3. split.
  - unfold repost_parse. destruct (_ && _)%bool; [discriminate|]. set (f := fold_left _ _ _). clearbody f.
    destruct (copy_shown s1 (f_e f)) as (x1 & C1 & _). destruct (copy_shown s2 (f_p f)) as (x2 & C2 & _). destruct (copy_shown s3 (f_relay f)) as (x3 & C3 & _).
    rewrite C1, C2, C3. discriminate.
  - unfold reaction_parse. destruct (negb _); [discriminate|]. set (f := fold_left _ _ _). clearbody f.
    destruct (copy_shown s1 (ev_content e)) as (x1 & C1 & _). destruct (copy_shown s2 (f_e f)) as (x2 & C2 & _). destruct (copy_shown s3 (f_p f)) as (x3 & C3 & _).
    rewrite C1, C2, C3. discriminate.
Qed.

Lemma valid_hex_iff s : is_valid_hex_string s 64 = true <-> hex64 s.
Proof.
  unfold is_valid_hex_string, hex64, all_hex. rewrite andb_true_iff, Nat.eqb_eq, forallb_forall, Forall_forall.
  split; intros (L & H); (split; [exact L|]); intros c I; specialize (H c I).
  - destruct (hex_nibble c) as [d|] eqn:E; [|discriminate]. exists d. apply nibble_hexdig, E.
  - destruct H as (d & D). apply nibble_hexdig in D. rewrite D. reflexivity.
Qed.
Lemma numeral_dec k : k <= 65535 -> numeral (dec_N k) k.
Proof.
  intros L. exists false, k. split; [|split; [change (2 ^ 64) with 18446744073709551616; lia|unfold signed; rewrite Z.mod_small; [reflexivity|change (2 ^ 64)%Z with 18446744073709551616%Z; lia]]].
  exists [], [], (dec_N k). repeat split; auto; [apply dec_nonempty|apply dec_is_digits|symmetry; apply undec_dec].
Qed.
Definition room (lim : option ev_limits) (n : N) : Prop := match lim with Some l => n <= max_tags l | None => True end.

(** A repost is refused for malformed ids or when the tag limit does not allow its
    tags; otherwise it is the event of NIP-18. *)
Theorem C46_repost_event : forall lim now id pk relay kind d json e,
  repost_create lim now id pk relay kind d json = Ok e <->
  hex64 id /\ hex64 pk /\ room lim (N.of_nat (length (repost_tags id pk relay kind d))) /\
  ev_created e = now /\ ev_kind e = (if kind =? 1 then 6 else 16) /\ ev_tags e = repost_tags id pk relay kind d /\
  ev_content e = Some (match json with Some j => j | None => [] end) /\
  ev_id e = repeat 0 32 /\ ev_pubkey e = repeat 0 32 /\ ev_sig e = repeat 0 64.
Proof.
  intros lim now id pk relay kind d json e. unfold repost_create, repost_tags.
  destruct (is_valid_hex_string id 64) eqn:V1; cbn [negb orb].
  2:{ split; [discriminate|]. intros (X & _). apply valid_hex_iff in X. congruence. }
  destruct (is_valid_hex_string pk 64) eqn:V2; cbn [negb orb].
  2:{ split; [discriminate|]. intros (_ & X & _). apply valid_hex_iff in X. congruence. }
  apply valid_hex_iff in V1. apply valid_hex_iff in V2.
  set (c := match json with Some j => j | None => [] end). clearbody c.
  unfold add_tag, fresh, room. cbn [ev_id ev_pubkey ev_created ev_kind ev_tags ev_content ev_sig app].
  destruct lim as [l|]; destruct (N.eqb_spec kind 1) as [->|NK]; destruct d as [d|]; cbn [ev_id ev_pubkey ev_created ev_kind ev_tags ev_content ev_sig app length bind N.of_nat Pos.of_succ_nat Pos.succ N.eqb Pos.eqb];
  repeat match goal with |- context [max_tags ?x <=? ?n] => destruct (N.leb_spec (max_tags x) n); cbn [bind ev_id ev_pubkey ev_created ev_kind ev_tags ev_content ev_sig app length N.of_nat Pos.of_succ_nat Pos.succ N.eqb Pos.eqb] end;
  try (split; [discriminate|intros (_ & _ & X & _); lia]);
  (split; [intros X; assert (Y : e = mkEvent (ev_id e) (ev_pubkey e) (ev_created e) (ev_kind e) (ev_tags e) (ev_content e) (ev_sig e)) by (destruct e; reflexivity);
     rewrite Y in X; repeat (split; [congruence || lia || assumption || exact I |]); congruence
   |intros (_ & _ & _ & E1 & E2 & E3 & E4 & E5 & E6 & E7); destruct e as [x1 x2 x3 x4 x5 x6 x7]; cbn [ev_id ev_pubkey ev_created ev_kind ev_tags ev_content ev_sig] in *; subst; reflexivity]).
Qed.
(** What is created is parsed back, for all 65536 kinds; strings are cut only to
    the caller's buffers. *)
Theorem C46_repost_roundtrip : forall lim now id pk relay kind d json e s1 s2 s3, kind <= 65535 ->
  repost_create lim now id pk relay kind d json = Ok e ->
  exists o, repost_parse e s1 s2 s3 = Ok (o, Ok tt) /\ shown s1 (Some id) (ro_id o) /\ shown s2 (Some pk) (ro_pubkey o) /\
    shown s3 (Some relay) (ro_relay o) /\ ro_kind o = kind.
Proof.
  intros lim now id pk relay kind d json e s1 s2 s3 LK C.
  apply C46_repost_event in C as (_ & _ & _ & _ & K & T & _).
  destruct (copy_shown s1 (Some id)) as (x1 & _ & S1). destruct (copy_shown s2 (Some pk)) as (x2 & _ & S2). destruct (copy_shown s3 (Some relay)) as (x3 & _ & S3).
  exists (mkRepost x1 x2 x3 kind). cbn [ro_id ro_pubkey ro_relay ro_kind]. rewrite S1, S2, S3. split; [|auto].
  apply C46_repost_parse. split; [rewrite K; destruct (kind =? 1); auto|].
  exists (Some id), (Some pk), (Some relay). cbn [ro_id ro_pubkey ro_relay ro_kind]. rewrite S1, S2, S3. rewrite T. unfold repost_tags.
  assert (NS : forall n v m x y, m <> n -> ~ says_value n (m :: v :: x) y) by (intros n v m x y D (v' & r' & X & _); congruence).
  assert (NR : forall v m x y, m <> bs "e" -> ~ says_relay (m :: v :: x) y) by (intros v m x y D (i' & v' & r' & X & _); congruence).
  assert (NK : forall v m x y, m <> bs "k" -> ~ says_kind (m :: v :: x) y) by (intros v m x y D (v' & r' & X & _); congruence).
  set (A := match d with Some x => [[bs "a"; dec_N kind ++ bs ":" ++ pk ++ bs ":" ++ x]] | None => [] end).
  assert (FA : forall B (says : tag -> B -> Prop), (forall v y, ~ says [bs "a"; v] y) -> Forall (fun u => forall y, ~ says u y) A).
  { intros B says H. subst A. destruct d; constructor; [intros y; apply H|constructor]. }
  assert (FK : forall B (says : tag -> B -> Prop), (forall v y, ~ says [bs "a"; v] y) -> (forall v y, ~ says [bs "k"; v] y) ->
    Forall (fun u => forall y, ~ says u y) ((if kind =? 1 then [] else [[bs "k"; dec_N kind]]) ++ A)).
  { intros B says H H'. apply Forall_app. split; [|apply FA, H]. destruct (kind =? 1); constructor; [intros y; apply H'|constructor]. }
  split. { left. exists [], [bs "e"; id; relay]. eexists. split; [reflexivity|]. split; [exists id, [relay]; auto|].
    constructor; [intros y; apply NS; discriminate|]. apply FK; intros; apply NS; discriminate. }
  split. { left. exists [[bs "e"; id; relay]], [bs "p"; pk]. eexists. split; [reflexivity|]. split; [exists pk, []; auto|].
    apply FK; intros; apply NS; discriminate. }
  split. { left. exists [], [bs "e"; id; relay]. eexists. split; [reflexivity|]. split; [exists id, relay, []; auto|].
    constructor; [intros y; apply NR; discriminate|]. apply FK; intros; apply NR; discriminate. }
  repeat (split; [reflexivity|]). split; [|reflexivity]. rewrite K. destruct (N.eqb_spec kind 1) as [->|N1].
  - right. split; [|reflexivity]. constructor; [intros y; apply NK; discriminate|]. constructor; [intros y; apply NK; discriminate|].
    apply FA. intros; apply NK; discriminate.
  - left. exists [[bs "e"; id; relay]; [bs "p"; pk]], [bs "k"; dec_N kind], A. split; [reflexivity|]. split; [exists (dec_N kind), []; repeat split; [apply numeral_dec, LK|exact LK]|].
    apply FA. intros; apply NK; discriminate.
Qed.
Theorem C46_reaction_roundtrip : forall lim now content id pk relay kind e s1 s2 s3, kind <= 65535 ->
  reaction_create lim now content id pk relay kind = Ok e ->
  ev_kind e = 7 /\ exists o, reaction_parse e s1 s2 s3 = Ok (o, Ok tt) /\
    shown s1 (Some (match content with Some c => c | None => bs "+" end)) (xo_content o) /\
    shown s2 (Some id) (xo_id o) /\ shown s3 (Some pk) (xo_pubkey o) /\ xo_kind o = kind.
Proof.
  intros lim now content id pk relay kind e s1 s2 s3 LK C. unfold reaction_create in C.
  destruct (_ || _)%bool; [discriminate|]. apply bind_ok in C as (e1 & A1 & C). apply bind_ok in C as (e2 & A2 & C).
  apply add_tag_ok in A1. apply add_tag_ok in A2.
  assert (E : e = if 0 <? kind then push e2 [bs "k"; dec_N kind] else e2) by (destruct (0 <? kind); [apply (add_tag_ok lim), C|congruence]).
  set (c := match content with Some c => c | None => bs "+" end) in *. clearbody c.
  set (rl := match relay with Some r => r | None => [] end) in *. set (rr := match relay with Some r => [r] | None => [] end) in *. clearbody rl rr.
  assert (K : ev_kind e = 7) by (subst; destruct (0 <? kind); reflexivity).
  assert (CT : ev_content e = Some c) by (subst; destruct (0 <? kind); reflexivity).
  assert (T : ev_tags e = [bs "e"; id; rl; pk] :: (bs "p" :: pk :: rr) :: if 0 <? kind then [[bs "k"; dec_N kind]] else []) by (subst; destruct (0 <? kind); reflexivity).
  clear C E A1 A2. split; [exact K|].
  destruct (copy_shown s1 (Some c)) as (x1 & _ & S1). destruct (copy_shown s2 (Some id)) as (x2 & _ & S2). destruct (copy_shown s3 (Some pk)) as (x3 & _ & S3).
  exists (mkReaction x1 x2 x3 kind). cbn [xo_content xo_id xo_pubkey xo_kind]. rewrite S1, S2, S3. split; [|auto].
  apply C46_reaction_parse. split; [exact K|].
  exists (Some id), (Some pk). cbn [xo_content xo_id xo_pubkey xo_kind]. rewrite CT, S1, S2, S3, T.
  assert (NS : forall n v m x y, m <> n -> ~ says_value n (m :: v :: x) y) by (intros n v m x y D (v' & r' & X & _); congruence).
  assert (NK : forall v m x y, m <> bs "k" -> ~ says_clamped_kind (m :: v :: x) y) by (intros v m x y D (v' & r' & n & X & _); congruence).
  split. { left. exists [], [bs "e"; id; rl; pk]. eexists. split; [reflexivity|]. split; [exists id, [rl; pk]; auto|].
    constructor; [intros y; apply NS; discriminate|]. destruct (0 <? kind); constructor; [intros y; apply NS; discriminate|constructor]. }
  split. { left. exists [[bs "e"; id; rl; pk]], (bs "p" :: pk :: rr). eexists. split; [reflexivity|]. split; [exists pk, rr; auto|].
    destruct (0 <? kind); constructor; [intros y; apply NS; discriminate|constructor]. }
  repeat (split; [reflexivity|]). split; [|reflexivity]. destruct (N.ltb_spec 0 kind) as [P|Z].
  - left. exists [[bs "e"; id; rl; pk]; bs "p" :: pk :: rr], [bs "k"; dec_N kind], []. split; [reflexivity|].
    split; [exists (dec_N kind), [], kind; repeat split; [apply numeral_dec, LK|lia]|constructor].
  - right. split; [|lia]. constructor; [intros y; apply NK; discriminate|]. constructor; [intros y; apply NK; discriminate|constructor].
Qed.
(** Wherever two 64-digit ids and room for the tags are given the constructors
    succeed. *)
Theorem C46_create_total : forall lim now id pk, hex64 id -> hex64 pk ->
  (forall relay kind d json, room lim 4 -> exists e, repost_create lim now id pk relay kind d json = Ok e) /\
  (forall content relay kind, room lim 3 -> exists e, reaction_create lim now content id pk relay kind = Ok e).
Proof.
  intros lim now id pk H1 H2. apply valid_hex_iff in H1, H2. unfold room. split.
  - intros relay kind d json R. unfold repost_create. rewrite H1, H2. cbn [negb orb]. unfold add_tag, fresh.
    destruct lim as [l|]; cbn [ev_tags ev_kind length app bind N.of_nat Pos.of_succ_nat Pos.succ].
    + destruct (N.eqb_spec kind 1), d; cbn [ev_tags ev_kind length app bind N.of_nat Pos.of_succ_nat Pos.succ N.eqb Pos.eqb];
      repeat match goal with |- context [max_tags ?x <=? ?n] => destruct (N.leb_spec (max_tags x) n); [exfalso; lia|]; cbn [bind ev_tags ev_kind length app N.of_nat Pos.of_succ_nat Pos.succ N.eqb Pos.eqb] end; eauto.
    + destruct (kind =? 1), d; cbn [ev_tags ev_kind bind N.eqb Pos.eqb]; eauto.
  - intros content relay kind R. unfold reaction_create. rewrite H1, H2. cbn [negb orb]. unfold add_tag, fresh.
    destruct lim as [l|]; cbn [ev_tags ev_kind length app bind N.of_nat Pos.of_succ_nat Pos.succ].
    + destruct (0 <? kind); cbn [ev_tags ev_kind length app bind N.of_nat Pos.of_succ_nat Pos.succ];
      repeat match goal with |- context [max_tags ?x <=? ?n] => destruct (N.leb_spec (max_tags x) n); [exfalso; lia|]; cbn [bind ev_tags ev_kind length app N.of_nat Pos.of_succ_nat Pos.succ] end; eauto.
    + destruct (0 <? kind); cbn [bind]; eauto.
Qed.
(** Likes and dislikes exclude each other, the default reaction is a like, and
    what is neither has other content. *)
Theorem C46_like : forall e, ev_kind e = 7 -> exists l d, is_like e = Ok l /\ is_dislike e = Ok d /\
  (l = true <-> ev_content e = None \/ ev_content e = Some [] \/ ev_content e = Some (bs "+")) /\
  (d = true <-> ev_content e = Some (bs "-")) /\ ~ (l = true /\ d = true).
Proof.
  intros e K. unfold is_like, is_dislike. rewrite K. cbn [N.eqb Pos.eqb negb].
  destruct (ev_content e) as [c|]; [|exists true, false; repeat split; auto; try discriminate; intros (_ & X); discriminate].
  exists (beq c [] || beq c (bs "+")), (beq c (bs "-")). split; [reflexivity|]. split; [reflexivity|].
  assert (A : (beq c [] || beq c (bs "+")) = true <-> Some c = None \/ Some c = Some [] \/ Some c = Some (bs "+")).
  { rewrite orb_true_iff, !beq_eq. split; [intros [->| ->]; auto|intros [X|[X|X]]; [discriminate|left; congruence|right; congruence]]. }
  assert (B : beq c (bs "-") = true <-> Some c = Some (bs "-")) by (rewrite beq_eq; split; congruence).
  split; [exact A|]. split; [exact B|]. rewrite A, B. intros ([X|[X|X]] & Y); rewrite Y in X; discriminate.
Qed.
Theorem C46_not_reaction : forall e cs is ps, ev_kind e <> 7 -> is_like e = Err EInvalidEvent /\ is_dislike e = Err EInvalidEvent /\ reaction_parse e cs is ps = Err EInvalidEvent.
Proof. intros e cs is ps K. unfold is_like, is_dislike, reaction_parse. apply N.eqb_neq in K. rewrite K. auto. Qed.
(** The relay reported for a repost need not belong to the event reported, and the
    kind reported for a reaction need not be written anywhere. *)
Theorem C46_relay_refuted : ~ (forall e o i r, repost_parse e 65 65 256 = Ok (o, Ok tt) -> ro_id o = Some i -> ro_relay o = Some r -> r <> [] ->
  exists x, In (bs "e" :: i :: r :: x) (ev_tags e)).
Proof.
  intros H. set (e := mkEvent [] [] 0 6 [[bs "e"; bs "aa"; bs "wss://a"]; [bs "e"; bs "bb"]] None []).
  destruct (H e (mkRepost (Some (bs "bb")) (Some []) (Some (bs "wss://a")) 1) (bs "bb") (bs "wss://a")) as (x & [X|[X|[]]]);
    [reflexivity|reflexivity|reflexivity|discriminate|discriminate|discriminate].
Qed.
Theorem C46_kind_refuted : ~ (forall e o r, reaction_parse e 65 65 65 = Ok (o, r) ->
  xo_kind o = 0 \/ exists x, In (bs "k" :: dec_N (xo_kind o) :: x) (ev_tags e)).
Proof.
  intros H. set (e := mkEvent [] [] 0 7 [[bs "k"; bs "-1"]; [bs "e"; bs "bb"]] None []).
  destruct (H e (mkReaction (Some []) (Some (bs "bb")) (Some []) 65535) (Ok tt)) as [X|(x & [X|[X|[]]])];
    [vm_compute; reflexivity|discriminate|revert X; vm_compute; discriminate|discriminate].
Qed.
Example C46_meets : exists e o, repost_create (Some (mkEvLimits 100 4)) 5 (repeat 97 64) (repeat 65 64) (bs "wss://r") 30023 (Some (bs "d")) None = Ok e /\
  ev_kind e = 16 /\ repost_parse e 65 65 5 = Ok (o, Ok tt) /\ ro_id o = Some (repeat 97 64) /\ ro_relay o = Some (bs "wss:") /\ ro_kind o = 30023 /\
  exists e' o', reaction_create None 5 None (repeat 97 64) (repeat 65 64) None 0 = Ok e' /\ is_like e' = Ok true /\
    reaction_parse e' 9 65 0 = Ok (o', Ok tt) /\ xo_content o' = Some (bs "+") /\ xo_pubkey o' = None /\ xo_kind o' = 0.
Proof. do 2 eexists. split; [vm_compute; reflexivity|]. split; [reflexivity|]. split; [vm_compute; reflexivity|]. split; [reflexivity|]. split; [reflexivity|]. split; [reflexivity|].
  do 2 eexists. split; [vm_compute; reflexivity|]. split; [vm_compute; reflexivity|]. split; [vm_compute; reflexivity|]. repeat split; reflexivity. Qed.

(** * Quotes *)
Lemma bech_char_iff c : is_bech32_char c = true <-> word_char c.
Proof. unfold is_bech32_char, word_char. rewrite orb_true_iff, !andb_true_iff, !N.leb_le. tauto. Qed.
Lemma run_length_app b post : Forall word_char b -> match post with c :: _ => ~ word_char c | [] => True end -> run_length (b ++ post) = length b.
Proof.
  intros F P. induction F as [|c b W F IH]; cbn [app run_length length].
  - destruct post as [|c p]; [reflexivity|]. cbn [run_length]. destruct (is_bech32_char c) eqn:E; [|reflexivity]. apply bech_char_iff in E. contradiction.
  - apply bech_char_iff in W. rewrite W, IH. reflexivity.
Qed.
Lemma run_length_spec s : Forall word_char (firstn (run_length s) s) /\ match skipn (run_length s) s with c :: _ => ~ word_char c | [] => True end.
Proof.
  induction s as [|c s (F & P)]; cbn [run_length]; [split; [constructor|exact I]|]. destruct (is_bech32_char c) eqn:E.
  - cbn [firstn skipn]. split; [constructor; [apply bech_char_iff, E|exact F]|exact P].
  - cbn [firstn skipn]. split; [constructor|]. intros W. apply bech_char_iff in W. congruence.
Qed.
Definition starts_ref (s : list N) : bool := prefixb (bs "note1") s || prefixb (bs "nevent1") s || prefixb (bs "naddr1") s.
Lemma starts_ref_iff s : starts_ref s = true <-> exists h r, s = h ++ r /\ (h = bs "note1" \/ h = bs "nevent1" \/ h = bs "naddr1").
Proof.
  unfold starts_ref. rewrite !orb_true_iff, !prefixb_spec. split.
  - intros [[(r & ->)|(r & ->)]|(r & ->)]; eauto 6.
  - intros (h & r & -> & [->|[->| ->]]); eauto.
Qed.
Lemma at_ref_uri s uri : at_ref s uri -> exists rest, s = bs "nostr:" ++ rest /\ starts_ref rest = true /\ uri = firstn (6 + run_length rest) s.
Proof.
  intros (b & p & -> & -> & F & P & h & r & E & H). exists (b ++ p). split; [reflexivity|]. split.
  - apply starts_ref_iff. exists h, (r ++ p). split; [subst b; rewrite <- app_assoc; reflexivity|exact H].
  - rewrite run_length_app by assumption. rewrite app_assoc. symmetry. apply (firstn_app_exact (bs "nostr:" ++ b) p (6 + length b)). rewrite app_length. reflexivity.
Qed.
Lemma uri_at_ref rest : starts_ref rest = true -> at_ref (bs "nostr:" ++ rest) (bs "nostr:" ++ firstn (run_length rest) rest).
Proof.
  intros S. destruct (run_length_spec rest) as (F & P). exists (firstn (run_length rest) rest), (skipn (run_length rest) rest).
  split; [rewrite firstn_skipn; reflexivity|]. split; [reflexivity|]. split; [exact F|]. split; [exact P|].
  apply starts_ref_iff in S as (h & r & -> & H). exists h.
  assert (L : run_length (h ++ r) = (length h + run_length r)%nat) by (destruct H as [->|[->| ->]]; reflexivity).
  rewrite L, firstn_app_2. exists (firstn (run_length r) r). auto.
Qed.
Lemma strstr_some s pos : strstr (bs "nostr:") s = Some pos ->
  exists pre, s = pre ++ pos /\ prefixb (bs "nostr:") pos = true /\ forall a b, pre = a ++ b -> b <> [] -> prefixb (bs "nostr:") (b ++ pos) = false.
Proof.
  induction s as [|c s IH]; [discriminate|]. cbn [strstr]. destruct (prefixb (bs "nostr:") (c :: s)) eqn:E.
  - intros H. assert (pos = c :: s) by congruence. subst pos. exists []. split; [reflexivity|]. split; [exact E|].
    intros a b X NB. destruct a, b; discriminate || contradiction.
  - intros H. destruct (IH H) as (pre & -> & P & Q). exists (c :: pre). split; [reflexivity|]. split; [exact P|].
    intros a b X NB. destruct a as [|x a].
    + cbn [app] in X. subst b. exact E.
    + cbn [app] in X. apply (Q a b); [congruence|exact NB].
Qed.
Lemma strstr_none s : strstr (bs "nostr:") s = None -> forall a b, s = a ++ b -> prefixb (bs "nostr:") b = false.
Proof.
  induction s as [|c s IH]; intros H a b E.
  - destruct a, b; try discriminate. reflexivity.
  - cbn [strstr] in H. destruct (prefixb (bs "nostr:") (c :: s)) eqn:P; [discriminate|]. destruct a as [|x a].
    + cbn [app] in E. subst b. exact P.
    + cbn [app] in E. apply (IH H a b). congruence.
Qed.

Section Quotes.
Variable parse : list N -> res entity.
(** No reference that can be read starts in [pre]. *)
Definition quiet (pre rest : list N) : Prop :=
  forall a b, pre = a ++ b -> b <> [] -> forall uri p, at_ref (b ++ rest) uri -> parse uri <> Ok p.
Lemma refs_skip pre rest ts : quiet pre rest -> refs parse rest ts -> refs parse (pre ++ rest) ts.
Proof.
  induction pre as [|c pre IH]; intros Q R; [exact R|]. cbn [app]. apply RefsMiss.
  - exact (Q [] (c :: pre) eq_refl ltac:(discriminate)).
  - apply IH; [|exact R]. intros a b E NB. apply (Q (c :: a) b); [cbn [app]; congruence|exact NB].
Qed.
Lemma quiet_nil rest : quiet [] rest.
Proof. intros a b E NB. destruct a, b; discriminate || contradiction. Qed.
Lemma refs_none s : (forall a b, s = a ++ b -> prefixb (bs "nostr:") b = false) -> refs parse s [].
Proof.
  intros H. rewrite <- (app_nil_r s). apply refs_skip; [|constructor]. intros a b E NB uri p A. rewrite app_nil_r in A.
  destruct A as (body & post & -> & _). specialize (H a _ E). rewrite prefixb_app in H. discriminate.
Qed.
(** Finding the next reference. *)
Lemma find_spec : forall fuel s, (length s < fuel)%nat ->
  (find_nostr_uri fuel s = Ok None /\ refs parse s []) \/
  (exists pre rest, find_nostr_uri fuel s = Ok (Some (bs "nostr:" ++ rest, (6 + run_length rest)%nat)) /\
    s = pre ++ bs "nostr:" ++ rest /\ starts_ref rest = true /\ quiet pre (bs "nostr:" ++ rest)).
Proof.
  induction fuel as [|fuel IH]; intros s L; [lia|]. cbn [find_nostr_uri].
  destruct (strstr (bs "nostr:") s) as [pos|] eqn:E.
  2:{ left. split; [reflexivity|]. apply refs_none, strstr_none, E. }
  destruct (strstr_some _ _ E) as (pre & -> & P & Q). apply prefixb_spec in P as (rest & ->).
  assert (QP : quiet pre (bs "nostr:" ++ rest)).
  { intros a b X NB uri p (body & post & Y & _). specialize (Q a b X NB). rewrite Y, prefixb_app in Q. discriminate. }
  change (skipn 6 (bs "nostr:" ++ rest)) with rest. cbv zeta. fold (starts_ref rest).
  destruct (starts_ref rest) eqn:S.
  - right. exists pre, rest. auto.
  - assert (Q6 : quiet (pre ++ bs "nostr:") rest).
    { intros a b X NB uri p A. assert (A' := A). apply at_ref_uri in A as (r & Y & SR & _).
      assert (CASES : (exists a', pre = a ++ a' /\ b = a' ++ bs "nostr:") \/ exists b', b' <> [] /\ a = pre ++ b' /\ bs "nostr:" = b' ++ b).
      { clear -X. revert a X. induction pre as [|c pre IH]; intros a X.
        - destruct a as [|x a]; [left; exists []; auto|right]. exists (x :: a). split; [discriminate|]. split; [reflexivity|exact X].
        - destruct a as [|x a]; [left; exists (c :: pre); split; [reflexivity|]; symmetry; exact X|].
          cbn [app] in X. assert (c = x) by congruence. subst x. destruct (IH a) as [(a' & -> & ->)|(b' & NB & -> & W)]; [congruence| |].
          + left. exists a'. auto.
          + right. exists b'. auto. }
      destruct CASES as [(a' & E1 & E2)|(b' & NB' & E1 & E2)].
      - destruct a' as [|x a'].
        + subst b. cbn [app] in Y. assert (r = rest) by (apply (app_inv_head (bs "nostr:")); symmetry; exact Y). subst r. congruence.
        + apply (QP a (x :: a') E1 ltac:(discriminate) uri). subst b. rewrite <- app_assoc in A'. exact A'.
      - exfalso. clear -NB NB' E2 Y. change (bs "nostr:") with [110;111;115;116;114;58] in *.
        destruct b' as [|b1 b']; [contradiction|]. cbn [app] in E2. assert (E3 : [111;115;116;114;58] = b' ++ b) by congruence. clear E2.
        destruct b' as [|b2 b']; cbn [app] in E3; [rewrite <- E3 in Y; discriminate|]. assert (E4 : [115;116;114;58] = b' ++ b) by congruence. clear E3.
        destruct b' as [|b3 b']; cbn [app] in E4; [rewrite <- E4 in Y; discriminate|]. assert (E3 : [116;114;58] = b' ++ b) by congruence. clear E4.
        destruct b' as [|b4 b']; cbn [app] in E3; [rewrite <- E3 in Y; discriminate|]. assert (E4 : [114;58] = b' ++ b) by congruence. clear E3.
        destruct b' as [|b5 b']; cbn [app] in E4; [rewrite <- E4 in Y; discriminate|]. assert (E3 : [58] = b' ++ b) by congruence. clear E4.
        destruct b' as [|b6 b']; cbn [app] in E3; [rewrite <- E3 in Y; discriminate|]. destruct b', b; discriminate || contradiction. }
    destruct (IH rest) as [(E1 & R)|(pre' & rest' & E1 & E2 & S' & Q')].
    { rewrite !app_length in L. change (length (bs "nostr:")) with 6%nat in L. lia. }
    + left. split; [exact E1|]. rewrite app_assoc. apply refs_skip; assumption.
    + right. exists (pre ++ bs "nostr:" ++ pre'), rest'. split; [exact E1|]. split; [rewrite E2, <- !app_assoc; reflexivity|]. split; [exact S'|].
      intros a b X NB uri p A.
      assert (CASES : (exists a', a' <> [] /\ pre ++ bs "nostr:" = a ++ a' /\ b = a' ++ pre') \/ exists b', pre' = b' ++ b).
      { rewrite app_assoc in X. set (pp := pre ++ bs "nostr:") in *. clearbody pp. clear -X NB. revert a X. induction pp as [|c pp IH]; intros a X.
        - right. exists a. exact X.
        - destruct a as [|x a]; [left; exists (c :: pp); split; [discriminate|]; split; [reflexivity|]; symmetry; exact X|].
          cbn [app] in X. assert (c = x) by congruence. subst x. destruct (IH a) as [(a' & NA & -> & ->)|(b' & W)]; [congruence| |].
          + left. exists a'. auto.
          + right. exists b'. exact W. }
      destruct CASES as [(a' & NA & E3 & ->)|(b' & ->)].
      * apply (Q6 a a' E3 NA uri). rewrite E2. rewrite <- app_assoc in A. exact A.
      * exact (Q' b' b eq_refl NB uri p A).
Qed.
End Quotes.

Lemma no_o cap i s d : decode_chars cap i s = Ok d -> ~ In 111 s.
Proof.
  intros H. apply decode_chars_inv in H as (-> & F & _). intros I. apply in_map_iff in I as (v & E & I).
  apply (proj1 (Forall_forall _ _) F) in I. assert (X : In 111 charset).
  { rewrite <- E. unfold charset_get. apply nth_In. change (length charset) with 32%nat. lia. }
  revert X. vm_compute. intros X. repeat (destruct X as [X|X]; [discriminate|]). exact X.
Qed.
Definition named_ref (h : list N) : Prop := h = bs "note1" \/ h = bs "nevent1" \/ h = bs "naddr1".
Definition decoder (h : list N) : list N -> res entity :=
  if beq h (bs "note1") then fun e => rmap Note (event_id_from_bech32 e) else if beq h (bs "nevent1") then nevent_decode else naddr_decode.
Lemma uri_parse_ref h r : named_ref h -> uri_parse (bs "nostr:" ++ h ++ r) = decoder h (h ++ r).
Proof. intros [->|[->| ->]]; reflexivity. Qed.
Lemma rmap_ok {A B} (f : A -> B) r x : rmap f r = Ok x -> exists a, r = Ok a /\ x = f a.
Proof. destruct r; cbn; intros H; try discriminate. exists a. split; congruence. Qed.
Lemma bytes_decode_no_o s hrp n d : decode_bech32_to_bytes s hrp n = Ok d -> ~ In 111 (skipn (length hrp + 1) s).
Proof.
  unfold decode_bech32_to_bytes. intros H. destruct (_ || _)%bool; [discriminate|]. destruct (_ || _)%bool; [discriminate|].
  apply bind_ok in H as (x & D & _). eapply no_o, D.
Qed.
Lemma parse_no_o h r p : named_ref h -> uri_parse (bs "nostr:" ++ h ++ r) = Ok p -> ~ In 111 r.
Proof.
  intros N H. rewrite uri_parse_ref in H by exact N. destruct N as [->|[->| ->]].
  - change (decoder (bs "note1") (bs "note1" ++ r)) with (rmap Note (event_id_from_bech32 (bs "note1" ++ r))) in H.
    apply rmap_ok in H as (k & H & _). unfold event_id_from_bech32, fixed_from_bech32 in H.
    destruct (negb _); [discriminate|]. destruct (_ || _)%bool; [discriminate|]. apply bind_ok in H as (d & D & _).
    apply no_o in D. exact D.
  - change (decoder (bs "nevent1") (bs "nevent1" ++ r)) with (nevent_decode (bs "nevent1" ++ r)) in H.
    unfold nevent_decode in H. apply bind_ok in H as (d & D & _). apply bytes_decode_no_o in D. exact D.
  - change (decoder (bs "naddr1") (bs "naddr1" ++ r)) with (naddr_decode (bs "naddr1" ++ r)) in H.
    unfold naddr_decode in H. apply bind_ok in H as (d & D & _). apply bytes_decode_no_o in D. exact D.
Qed.
Definition tlv_ok (st : tlv_state) : Prop :=
  bytes_ok (special st) /\ (forall a, author st = Some a -> bytes_ok a /\ length a = 32%nat) /\ (forall k, kind st = Some k -> k < 2 ^ 32).
Lemma be32_lt v : length v = 4%nat -> bytes_ok v -> be32 v < 2 ^ 32.
Proof.
  intros L B. rewrite be32_value by assumption. destruct v as [|a [|b [|c [|d [|]]]]]; try discriminate L.
  inversion B as [|? ? Ba B1]; inversion B1 as [|? ? Bb B2]; inversion B2 as [|? ? Bc B3]; inversion B3 as [|? ? Bd _]; subst.
  unfold be_value, byte_ok in *. cbn [fold_left]. change (2 ^ 32) with 4294967296. lia.
Qed.
Lemma parse_loop_ok ss wr wa data : bytes_ok data -> forall fuel pos st st', tlv_ok st -> parse_loop fuel ss wr wa data pos st = Ok st' -> tlv_ok st'.
Proof.
  intros B. induction fuel as [|fuel IH]; intros pos st st' O H; [discriminate|]. cbn [parse_loop] in H.
  destruct (pos + 2 <=? length data)%nat; [|congruence].
  apply bind_ok in H as (t & T & H). apply bind_ok in H as (l & L & H). cbv zeta in H. destruct (_ <? _)%nat; [discriminate|].
  apply bind_ok in H as (v & V & H).
  assert (BV : bytes_ok v).
  { unfold slice in V. destruct (_ <=? _)%nat; [|discriminate]. assert (v = firstn (N.to_nat (nth 0 l 0)) (skipn (pos + 2) data)) by congruence. subst v. apply Forall_firstn, Forall_skipn, B. }
  destruct (tlv_switch ss wr wa (nth 0 t 0) v st) as [st1|] eqn:SW; [|discriminate].
  eapply IH; [|exact H]. clear IH H. destruct O as (O1 & O2 & O3). unfold tlv_switch in SW.
  assert (OS : tlv_ok st) by exact (conj O1 (conj O2 O3)).
  assert (CASE : st1 = st \/ st1 = {| special := v; relays := relays st; author := author st; kind := kind st |} \/
    st1 = {| special := special st; relays := relays st ++ [v]; author := author st; kind := kind st |} \/
    (length v = 32%nat /\ st1 = {| special := special st; relays := relays st; author := Some v; kind := kind st |}) \/
    (length v = 4%nat /\ st1 = {| special := special st; relays := relays st; author := author st; kind := Some (be32 v) |})).
  { destruct (nth 0 t 0) as [|[[p|p|]|[p|p|]|]]; try (left; congruence).
    - destruct (_ <? _)%nat; [discriminate|]. right; left; congruence.
    - destruct wa; cbn [andb] in SW; [|left; congruence]. destruct (Nat.eqb_spec (length v) 4); [|left; congruence]. right; right; right; right. split; congruence.
    - destruct wa; cbn [andb] in SW; [|left; congruence]. destruct (Nat.eqb_spec (length v) 32); [|left; congruence]. right; right; right; left. split; congruence.
    - destruct (_ && _)%bool; [|left; congruence]. destruct (is_valid_relay_url v); [|left; congruence]. right; right; left. congruence. }
  destruct CASE as [->|[->|[->|[(L1 & ->)|(L1 & ->)]]]]; unfold tlv_ok; cbn [special author kind]; auto.
  - split; [exact O1|]. split; [|exact O3]. intros a E. assert (a = v) by congruence. subst a. auto.
  - split; [exact O1|]. split; [exact O2|]. intros k E. assert (k = be32 v) by congruence. subst k. apply be32_lt; assumption.
Qed.
Lemma parse_tlv_ok ss wr wa data st : bytes_ok data -> parse_tlv ss wr wa data = Ok st -> tlv_ok st.
Proof.
  intros B H. apply (parse_loop_ok ss wr wa data B _ _ _ _) in H; [exact H|]. unfold tlv_ok, tlv_init. cbn. split; [constructor|]. split; discriminate.
Qed.
Lemma lower_encode b : bytes_ok b -> lower_hex (hex_encode b) b.
Proof. intros B. split; [apply hextext_encode, B|apply no_upper, B]. Qed.
Lemma quote_tag_ok h r p : named_ref h -> uri_parse (bs "nostr:" ++ h ++ r) = Ok p -> exists t, quote_tag p = Some t /\ quotes p t.
Proof.
  intros N H. rewrite uri_parse_ref in H by exact N. destruct N as [->|[->| ->]].
  - change (decoder (bs "note1") (bs "note1" ++ r)) with (rmap Note (event_id_from_bech32 (bs "note1" ++ r))) in H.
    apply rmap_ok in H as (k & H & ->). apply fixed_from_ok in H as ((L & B) & _); [|reflexivity|apply bytes_bs_note].
    eexists. split; [reflexivity|]. exists (hex_encode k). split; [apply lower_encode, B|reflexivity].
  - change (decoder (bs "nevent1") (bs "nevent1" ++ r)) with (nevent_decode (bs "nevent1" ++ r)) in H.
    unfold nevent_decode in H. apply bind_ok in H as (d & D & H). apply decode_bytes_bytes in D as (BD & _). apply bind_ok in H as (st & P & H).
    apply parse_tlv_ok in P as (O1 & O2 & O3); [|exact BD]. destruct (_ =? 32)%nat; [|discriminate].
    assert (E : p = Nevent (special st) (relays st) (author st) (kind st)) by congruence. subst p. eexists. split; [reflexivity|].
    cbn [quotes]. exists (hex_encode (special st)), (match author st with Some a => hex_encode a | None => [] end). split; [apply lower_encode, O1|]. split; [|reflexivity].
    destruct (author st) as [a|]; [apply lower_encode, (O2 a eq_refl)|reflexivity].
  - change (decoder (bs "naddr1") (bs "naddr1" ++ r)) with (naddr_decode (bs "naddr1" ++ r)) in H.
    unfold naddr_decode in H. apply bind_ok in H as (d & D & H). apply decode_bytes_bytes in D as (BD & _). apply bind_ok in H as (st & P & H).
    apply parse_tlv_ok in P as (O1 & O2 & O3); [|exact BD].
    destruct (author st) as [a|]; [|discriminate]. destruct (kind st) as [k|]; [|discriminate].
    destruct (Nat.leb_spec 256 (length (special st))) as [|SL]; [discriminate|].
    assert (E : p = Naddr (special st) a k (relays st)) by congruence. subst p. eexists. split; [reflexivity|].
    destruct (O2 a eq_refl) as (BA & LA). specialize (O3 k eq_refl).
    cbn [quotes]. exists (hex_encode a), (until_nul (special st)). split; [apply lower_encode, BA|].
    destruct (until_nul_spec (special st)) as (b & EB & NB & HB). split; [exists b; auto|].
    f_equal. f_equal. apply firstn_all2. rewrite !app_length, hex_encode_length, LA.
    assert (length (dec_N k) <= 10)%nat by (apply dec_length; [lia|]; change (10 ^ N.of_nat 10) with 10000000000; change (2 ^ 32) with 4294967296 in O3; lia).
    assert (length (until_nul (special st)) <= length (special st))%nat by (rewrite EB at 2; rewrite app_length; lia).
    change (length (bs ":")) with 1%nat. lia.
Qed.

(** After a reference that is read, nothing starts inside it. *)
Lemma read_quiet rest p : starts_ref rest = true -> uri_parse (bs "nostr:" ++ firstn (run_length rest) rest) = Ok p ->
  quiet uri_parse (skipn 1 (bs "nostr:" ++ firstn (run_length rest) rest)) (skipn (run_length rest) rest).
Proof.
  intros S P a b E NB uri q A. exfalso.
  destruct (uri_at_ref rest S) as (body & post & E1 & E2 & W & PW & h & r & EH & NH).
  assert (body = firstn (run_length rest) rest) by (apply (app_inv_head (bs "nostr:")); congruence).
  assert (post = skipn (run_length rest) rest).
  { apply app_inv_head in E1. apply (app_inv_head body). rewrite <- E1. rewrite H at 1. rewrite <- (firstn_skipn (run_length rest) rest) at 1. reflexivity. }
  rewrite <- H, <- H0 in *. clear H H0 E1 E2 S. clear rest. subst body.
  assert (NO : ~ In 111 r) by (eapply parse_no_o; [exact NH|exact P]). clear P.
  destruct A as (b2 & p2 & E2 & _). change (bs "nostr:") with [110;111;115;116;114;58] in *. cbn [skipn app] in E.
  set (body := h ++ r) in *.
  assert (LB : (5 <= length body)%nat) by (subst body; rewrite app_length; destruct NH as [->|[->| ->]]; cbn [length bs]; change (length (bs "note1")) with 5%nat; change (length (bs "nevent1")) with 7%nat; change (length (bs "naddr1")) with 6%nat; lia).
  (* where the 58 of the inner reference sits *)
  assert (NC : ~ In 58 body).
  { intros I. apply (proj1 (Forall_forall _ _) W) in I. unfold word_char in I. lia. }
  assert (SUF : exists a', body = a' ++ b).
  { destruct a as [|x1 a]; cbn [app] in E; [subst b; discriminate|]. assert (E' : [115;116;114;58] ++ body = a ++ b) by (cbn [app]; congruence). clear E. rename E' into E.
    destruct a as [|x2 a]; cbn [app] in E; [subst b; discriminate|]. assert (E' : [116;114;58] ++ body = a ++ b) by (cbn [app]; congruence). clear E. rename E' into E.
    destruct a as [|x3 a]; cbn [app] in E; [subst b; discriminate|]. assert (E' : [114;58] ++ body = a ++ b) by (cbn [app]; congruence). clear E. rename E' into E.
    destruct a as [|x4 a]; cbn [app] in E; [subst b; discriminate|]. assert (E' : [58] ++ body = a ++ b) by (cbn [app]; congruence). clear E. rename E' into E.
    destruct a as [|x5 a]; cbn [app] in E; [subst b; discriminate|]. exists a. congruence. }
  destruct SUF as (a' & SUF).
  assert (NCB : ~ In 58 b) by (intros I; apply NC; rewrite SUF; apply in_or_app; auto).
  assert (HB : b = [110;111;115;116;114]).
  { destruct b as [|c1 b]; [contradiction|]. cbn [app] in E2. assert (c1 = 110) by congruence. subst c1.
    assert (PW' : forall c l, word_char c -> post = c :: l -> False) by (intros c l WC ->; exact (PW WC)).
    assert (X : b ++ post = [111;115;116;114;58] ++ b2 ++ p2) by (cbn [app]; congruence). clear E2.
    destruct b as [|c2 b]; [exfalso; cbn [app] in X; eapply (PW' 111); [unfold word_char; lia|exact X]|]. cbn [app] in X. assert (c2 = 111) by congruence. subst c2.
    assert (Y : b ++ post = [115;116;114;58] ++ b2 ++ p2) by (cbn [app]; congruence). clear X.
    destruct b as [|c2 b]; [exfalso; cbn [app] in Y; eapply (PW' 115); [unfold word_char; lia|exact Y]|]. cbn [app] in Y. assert (c2 = 115) by congruence. subst c2.
    assert (X : b ++ post = [116;114;58] ++ b2 ++ p2) by (cbn [app]; congruence). clear Y.
    destruct b as [|c2 b]; [exfalso; cbn [app] in X; eapply (PW' 116); [unfold word_char; lia|exact X]|]. cbn [app] in X. assert (c2 = 116) by congruence. subst c2.
    assert (Y : b ++ post = [114;58] ++ b2 ++ p2) by (cbn [app]; congruence). clear X.
    destruct b as [|c2 b]; [exfalso; cbn [app] in Y; eapply (PW' 114); [unfold word_char; lia|exact Y]|]. cbn [app] in Y. assert (c2 = 114) by congruence. subst c2.
    assert (X : b ++ post = [58] ++ b2 ++ p2) by (cbn [app]; congruence). clear Y.
    destruct b as [|c2 b]; [reflexivity|]. exfalso. cbn [app] in X. assert (c2 = 58) by congruence. subst c2. apply NCB. right; right; right; right; right; left. reflexivity. }
  subst b. assert (REV : [114;116;115;111;110] ++ rev a' = rev r ++ rev h).
  { rewrite <- rev_app_distr. fold body. rewrite SUF, rev_app_distr. reflexivity. }
  assert (HH : exists h', rev h = 49 :: h') by (destruct NH as [->|[->| ->]]; eexists; reflexivity). destruct HH as (h' & HH). rewrite HH in REV.
  assert (NO' : ~ In 111 (rev r)) by (intros I; apply NO, in_rev, I). set (rr := rev r) in *. clearbody rr. cbn [app] in REV.
  destruct rr as [|c1 rr]; cbn [app] in REV; [discriminate|].
  destruct rr as [|c2 rr]; cbn [app] in REV; [discriminate|].
  destruct rr as [|c3 rr]; cbn [app] in REV; [discriminate|].
  destruct rr as [|c4 rr]; cbn [app] in REV; [discriminate|].
  apply NO'. right; right; right; left. congruence.
Qed.
Lemma read_uri rest : firstn (6 + run_length rest) (bs "nostr:" ++ rest) = bs "nostr:" ++ firstn (run_length rest) rest.
Proof. reflexivity. Qed.
Lemma ref_split rest : starts_ref rest = true -> exists h r, firstn (run_length rest) rest = h ++ r /\ named_ref h.
Proof.
  intros S. destruct (uri_at_ref rest S) as (body & post & _ & E2 & _ & _ & h & r & EH & NH). exists h, r. split; [|exact NH].
  rewrite <- EH. apply (app_inv_head (bs "nostr:")). symmetry. congruence.
Qed.
Lemma refs_total s : exists ts, refs uri_parse s ts.
Proof.
  induction s as [|c s (ts & IH)]; [exists []; constructor|].
  destruct (prefixb (bs "nostr:") (c :: s)) eqn:P.
  - apply prefixb_spec in P as (rest & E). destruct (starts_ref rest) eqn:S.
    + pose proof (uri_at_ref rest S) as A. destruct (uri_parse (bs "nostr:" ++ firstn (run_length rest) rest)) as [p| |] eqn:U.
      * destruct (ref_split rest S) as (h & r & EH & NH). rewrite EH in U, A. destruct (quote_tag_ok h r p NH U) as (t & _ & Q).
        exists (t :: ts). rewrite <- E in A. eapply RefsHit; eassumption.
      * exists ts. apply RefsMiss; [|exact IH]. intros uri p A'. rewrite E in A'. apply at_ref_uri in A' as (rest' & E' & _ & ->).
        apply app_inv_head in E'. subst rest'. rewrite read_uri, U. discriminate.
      * exists ts. apply RefsMiss; [|exact IH]. intros uri p A'. rewrite E in A'. apply at_ref_uri in A' as (rest' & E' & _ & ->).
        apply app_inv_head in E'. subst rest'. rewrite read_uri, U. discriminate.
    + exists ts. apply RefsMiss; [|exact IH]. intros uri p A'. rewrite E in A'. apply at_ref_uri in A' as (rest' & E' & S' & _).
      apply app_inv_head in E'. congruence.
  - exists ts. apply RefsMiss; [|exact IH]. intros uri p (b & q & E & _). rewrite E, prefixb_app in P. discriminate.
Qed.
Definition with_tags (e : event) (ts : list tag) : event :=
  mkEvent (ev_id e) (ev_pubkey e) (ev_created e) (ev_kind e) (ev_tags e ++ ts) (ev_content e) (ev_sig e).
Lemma with_tags_push e t ts : with_tags (push e t) ts = with_tags e (t :: ts).
Proof. unfold with_tags, push. cbn. rewrite <- app_assoc. reflexivity. Qed.
Lemma with_tags_nil e : with_tags e [] = e.
Proof. unfold with_tags. rewrite app_nil_r. destruct e; reflexivity. Qed.
Definition full (lim : option ev_limits) (n : nat) : Prop := match lim with Some l => max_tags l <= N.of_nat n | None => False end.
Lemma add_tag_cases lim e t : (add_tag lim e t = Ok (push e t) /\ ~ full lim (length (ev_tags e))) \/ (add_tag lim e t = Err EInvalidParam /\ full lim (length (ev_tags e))).
Proof.
  unfold add_tag, full, push. destruct lim as [l|]; [|left; split; [reflexivity|tauto]].
  destruct (N.leb_spec (max_tags l) (N.of_nat (length (ev_tags e)))); [right|left]; split; auto; lia.
Qed.
Lemma quote_loop_spec lim : forall fuel e s, (length s < fuel)%nat ->
  (exists ts, quote_loop lim fuel e s = Ok (with_tags e ts, Ok tt) /\ refs uri_parse s ts) \/
  (exists ts t more, quote_loop lim fuel e s = Ok (with_tags e ts, Err EInvalidParam) /\ refs uri_parse s (ts ++ t :: more) /\ full lim (length (ev_tags e) + length ts)) \/
  (quote_loop lim fuel e s = Undef /\ exists a b uri, s = a ++ b /\ at_ref b uri /\ uri_parse uri = Undef).
Proof.
  induction fuel as [|fuel IH]; intros e s L; [lia|]. cbn [quote_loop].
  destruct (find_spec uri_parse (Datatypes.S (length s)) s ltac:(lia)) as [(F & R)|(pre & rest & F & ES & S & Q)]; rewrite F; cbn [bind].
  { left. exists []. rewrite with_tags_nil. auto. }
  rewrite read_uri. destruct (uri_parse (bs "nostr:" ++ firstn (run_length rest) rest)) as [p| |] eqn:U.
  - destruct (ref_split rest S) as (h & r & EH & NH).
    assert (QT : exists t, quote_tag p = Some t /\ quotes p t) by (apply (quote_tag_ok h r p NH); rewrite <- EH; exact U). destruct QT as (t & QT & QS). rewrite QT.
    assert (HIT : forall ts, refs uri_parse (skipn (run_length rest) rest) ts -> refs uri_parse s (t :: ts)).
    { intros ts R. rewrite ES. apply refs_skip; [exact Q|]. change (bs "nostr:" ++ rest) with (110 :: (bs "ostr:" ++ rest)).
      eapply RefsHit; [exact (uri_at_ref rest S)|exact U|exact QS|].
      replace (bs "ostr:" ++ rest) with (skipn 1 (bs "nostr:" ++ firstn (run_length rest) rest) ++ skipn (run_length rest) rest).
      2:{ change (skipn 1 (bs "nostr:" ++ firstn (run_length rest) rest)) with (bs "ostr:" ++ firstn (run_length rest) rest). rewrite <- app_assoc, firstn_skipn. reflexivity. }
      apply refs_skip; [eapply read_quiet; eassumption|exact R]. }
    destruct (refs_total (skipn (run_length rest) rest)) as (ts0 & R0).
    destruct (add_tag_cases lim e t) as [(A & NF)|(A & FU)]; rewrite A.
    2:{ right. left. exists [], t, ts0. rewrite with_tags_nil, Nat.add_0_r. repeat split; [apply HIT, R0|exact FU]. }
    change (skipn (6 + run_length rest) (bs "nostr:" ++ rest)) with (skipn (run_length rest) rest).
    assert (L' : (length (skipn (run_length rest) rest) < fuel)%nat).
    { rewrite ES, !app_length in L. change (length (bs "nostr:")) with 6%nat in L. rewrite skipn_length. lia. }
    destruct (IH (push e t) (skipn (run_length rest) rest) L') as [(ts & E & R)|[(ts & t' & more & E & R & FU)|(E & a & b & uri & E2 & AR & UU)]]; rewrite E.
    + left. exists (t :: ts). rewrite with_tags_push. split; [reflexivity|apply HIT, R].
    + right. left. exists (t :: ts), t', more. rewrite with_tags_push. split; [reflexivity|]. split; [exact (HIT _ R)|].
      unfold push in FU. cbn [ev_tags] in FU. rewrite app_length in FU. cbn [length] in *. rewrite <- Nat.add_assoc in FU. exact FU.
    + right. right. split; [reflexivity|]. exists (pre ++ bs "nostr:" ++ firstn (run_length rest) rest ++ a), b, uri. split; [|auto].
      rewrite ES, <- !app_assoc, <- E2, firstn_skipn. reflexivity.
  - change (skipn 1 (bs "nostr:" ++ rest)) with (bs "ostr:" ++ rest).
    assert (MISS : forall ts, refs uri_parse (bs "ostr:" ++ rest) ts -> refs uri_parse s ts).
    { intros ts R. rewrite ES. apply refs_skip; [exact Q|]. change (bs "nostr:" ++ rest) with (110 :: (bs "ostr:" ++ rest)).
      apply RefsMiss; [|exact R]. intros uri p A. change (110 :: bs "ostr:" ++ rest) with (bs "nostr:" ++ rest) in A.
      apply at_ref_uri in A as (rest' & E' & _ & ->). apply app_inv_head in E'. subst rest'. rewrite read_uri, U. discriminate. }
    assert (L' : (length (bs "ostr:" ++ rest) < fuel)%nat).
    { rewrite ES, !app_length in L. rewrite app_length. change (length (bs "nostr:")) with 6%nat in L. change (length (bs "ostr:")) with 5%nat. lia. }
    destruct (IH e _ L') as [(ts & E & R)|[(ts & t' & more & E & R & FU)|(E & a & b & uri & E2 & AR & UU)]]; rewrite E.
    + left. exists ts. auto.
    + right. left. exists ts, t', more. auto.
    + right. right. split; [reflexivity|]. exists (pre ++ [110] ++ a), b, uri. split; [|auto]. rewrite ES, <- !app_assoc, <- E2. reflexivity.
  - right. right. split; [reflexivity|]. exists pre, (bs "nostr:" ++ rest), (bs "nostr:" ++ firstn (run_length rest) rest). split; [exact ES|]. split; [apply uri_at_ref, S|exact U].
Qed.

(** C81: a call that succeeds appends the q tags of exactly the references in the
    content that can be read, in their order, and changes nothing else. *)
Theorem C81_exact : forall lim e e', quote_tags lim e = Ok (e', Ok tt) ->
  exists qs, refs uri_parse (match ev_content e with Some c => c | None => [] end) qs /\
    e' = mkEvent (ev_id e) (ev_pubkey e) (ev_created e) (ev_kind e) (ev_tags e ++ qs) (ev_content e) (ev_sig e).
Proof.
  intros lim e e' H. unfold quote_tags in H. destruct (ev_content e) as [[|c0 c]|] eqn:EC.
  - exists []. split; [constructor|]. assert (e' = e) by congruence. subst e'. rewrite <- EC, app_nil_r. destruct e; reflexivity.
  - set (s := c0 :: c) in *. destruct (quote_loop_spec lim (Datatypes.S (length s)) e s ltac:(lia)) as [(ts & E & R)|[(ts & t & more & E & _)|(E & _)]]; rewrite E in H; [|discriminate|discriminate].
    exists ts. split; [exact R|]. rewrite <- EC. fold (with_tags e ts). congruence.
  - exists []. split; [constructor|]. assert (e' = e) by congruence. subst e'. rewrite <- EC, app_nil_r. destruct e; reflexivity.
Qed.
(** A call that fails hit the tag limit: the first references are tagged, the
    next one is not. *)
Theorem C81_limit : forall lim e e' err, quote_tags lim e = Ok (e', Err err) ->
  err = EInvalidParam /\ exists qs q more l, lim = Some l /\ refs uri_parse (match ev_content e with Some c => c | None => [] end) (qs ++ q :: more) /\
    ev_tags e' = ev_tags e ++ qs /\ ev_content e' = ev_content e /\ max_tags l <= N.of_nat (length (ev_tags e')).
Proof.
  intros lim e e' err H. unfold quote_tags in H. destruct (ev_content e) as [[|c0 c]|] eqn:EC; [discriminate| |discriminate].
  set (s := c0 :: c) in *. destruct (quote_loop_spec lim (Datatypes.S (length s)) e s ltac:(lia)) as [(ts & E & R)|[(ts & t & more & E & R & FU)|(E & _)]]; rewrite E in H; [discriminate| |discriminate].
  split; [congruence|]. destruct lim as [l|]; [|destruct FU]. exists ts, t, more, l. assert (EE : e' = with_tags e ts) by congruence. subst e'.
  split; [reflexivity|]. split; [exact R|]. split; [reflexivity|]. split; [exact EC|]. cbn [with_tags ev_tags]. rewrite app_length. exact FU.
Qed.
(** The decoder's out-of-bounds access of C04 is reachable from any note's text... *)
Theorem C81_refuted : ~ (forall lim e, match ev_content e with Some c => cstr_ok c | None => True end -> quote_tags lim e <> Undef).
Proof.
  intros H. apply (H None (mkEvent [] [] 0 1 [] (Some (bs "see nostr:note1kfrvu")) [])).
  - cbn [ev_content]. apply Forall_forall. intros x I. revert x I. apply Forall_forall. repeat constructor.
  - vm_compute. reflexivity.
Qed.
(** ... and from nothing else: if no note1 reference has 10 or 90 characters the
    call is defined; without a tag limit it succeeds. *)
Theorem C81_defined_partial : forall lim e,
  (forall a b body, ev_content e = Some (a ++ b) -> at_ref b (bs "nostr:" ++ body) -> prefixb (bs "note1") body = true ->
     (length body <> 10 /\ length body <> 90)%nat) ->
  quote_tags lim e <> Undef /\ (lim = None -> exists e', quote_tags lim e = Ok (e', Ok tt)).
Proof.
  intros lim e H. unfold quote_tags. destruct (ev_content e) as [[|c0 c]|] eqn:EC; [split; [discriminate|eauto]| |split; [discriminate|eauto]].
  set (s := c0 :: c) in *. destruct (quote_loop_spec lim (Datatypes.S (length s)) e s ltac:(lia)) as [(ts & E & R)|[(ts & t & more & E & R & FU)|(E & a & b & uri & ES & AR & UU)]].
  - rewrite E. split; [discriminate|eauto].
  - rewrite E. split; [discriminate|]. intros ->. destruct FU.
  - exfalso. assert (AR' := AR). destruct AR as (body & post & EB & EU & W & P & h & r & EH & NH). subst uri.
    specialize (H a b body ltac:(congruence) AR'). rewrite EH in UU. rewrite uri_parse_ref in UU by exact NH. rewrite <- EH in UU.
    destruct NH as [X|[X|X]]; subst h.
    + change (decoder (bs "note1") body) with (rmap Note (event_id_from_bech32 body)) in UU.
      destruct (C04_decoders_in_bounds_partial body) as (_ & C4 & _). apply C4.
      * apply H. rewrite EH. apply prefixb_app.
      * destruct (event_id_from_bech32 body); cbn [rmap] in UU; congruence.
    + exact (proj1 (proj2 (C07_entity_decoders_safe body)) UU).
    + exact (proj1 (proj2 (proj2 (C07_entity_decoders_safe body))) UU).
Qed.
Example C81_meets : exists e' qs, quote_tags None (mkEvent [] [] 0 1 [[bs "t"]]
    (Some (bs "nostr:note1nostr:note1qqqqqqqqqqqqqqqqqqqqqqqqqqqqqqqqqqqqqqqqqqqqqqqqqqqqn2l0z3, nostr:npub1x nostr:nevent1qqsqzqgpqyqszqgpqyqszqgpqyqszqgpqyqszqgpqyqszqgpqyqszqgscccc3!")) []) = Ok (e', Ok tt) /\
  ev_tags e' = [bs "t"] :: qs /\ length qs = 2%nat.
Proof. do 2 eexists. split; [vm_compute; reflexivity|]. split; reflexivity. Qed.

Print Assumptions C46_repost_parse.
Print Assumptions C46_reaction_parse.
Print Assumptions C46_parse_defined.
Print Assumptions C46_repost_event.
Print Assumptions C46_repost_roundtrip.
Print Assumptions C46_reaction_roundtrip.
Print Assumptions C46_create_total.
Print Assumptions C46_like.
Print Assumptions C46_not_reaction.
Print Assumptions C46_relay_refuted.
Print Assumptions C46_kind_refuted.
Print Assumptions C81_exact.
Print Assumptions C81_limit.
Print Assumptions C81_refuted.
Print Assumptions C81_defined_partial.
