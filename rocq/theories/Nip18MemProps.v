(** Memory of reposts, reactions and quotes: C149. *)
From Verif Require Import Base BaseFacts Bech32 Bech32Lemmas2 Bech32Props Nip21Proofs Heap Arena Dec Hex HexProofs Event EventProps EventMem RelayMemSpec RelayMemProps EventMemSpec EventMemProps EventOomSpec
  GiftWrap Nip26Proofs Nip21 Nip21Props Nip21Mem Nip21MemSpec Nip21MemProps Nip46Mem Nip46MemProps GiftWrapMem GiftWrapMemProps Nip18 Nip18Spec Nip18Props Nip18Mem Nip18MemSpec.
From Coq Require Import Permutation.
Open Scope nat_scope.

Section Grant.
Variable grant : nat -> bool.
Variable lim : option ev_limits.

(** ** Making events *)
(** [m] makes the event [r] says, or releases everything. *)
Definition makes (m : M (option cevent * option err)) (r : res event) (h0 h : heap) (l : list nat) : Prop :=
  exists p x h', m h = Ok ((p, x), h') /\ h_next h <= h_next h' /\
  match x with
  | None => exists c, p = Some c /\ event_sound c /\ holds h' (owned c ++ l) /\ r = Ok (ce_val c)
  | Some e => holds h' l /\ (r = Err e \/ e = EMemory /\ failed grant h0 h')
  end.
Lemma quit_makes c x r h0 h l : holds h (owned c ++ l) -> (r = Err x \/ x = EMemory /\ failed grant h0 h) -> makes (abandon c x) r h0 h l.
Proof.
  intros X R. destruct (abandon_ok c x h l X) as (h1 & E & X1 & L1). exists None, (Some x), h1. split; [exact E|]. split; [lia|]. split; [exact X1|].
  destruct R as [R|(R & (k & A & B))]; [left; exact R|right]. split; [exact R|]. exists k. split; [lia|exact B].
Qed.
Lemma add_pure e vs : GiftWrap.add_tag lim e vs = (if match lim with Some l => (max_tags l <=? N.of_nat (length (ev_tags e)))%N | None => false end then Err EInvalidParam else Ok (tagged e vs)).
Proof. reflexivity. Qed.
Lemma full_pure e : EventMemProps.full lim e <-> match lim with Some l => (max_tags l <=? N.of_nat (length (ev_tags e)))%N | None => false end = true.
Proof.
  unfold EventMemProps.full. split.
  - intros (l & -> & F). apply N.leb_le, F.
  - destruct lim as [l|]; [|discriminate]. intros F. exists l. split; [reflexivity|apply N.leb_le, F].
Qed.
Lemma tag_cases c vs h l : event_sound c -> holds h (owned c ++ l) -> vs <> [] -> (ce_used c + space vs <= 2 ^ 62)%N ->
  exists c' x h', EventMem.add_tag grant lim c vs h = Ok ((c', x), h') /\ event_sound c' /\ holds h' (owned c' ++ l) /\ h_next h <= h_next h' /\ ce_content c' = ce_content c /\ ce_self c' = ce_self c /\
  match x with
  | None => GiftWrap.add_tag lim (ce_val c) vs = Ok (ce_val c') /\ ce_val c' = tagged (ce_val c) vs /\ ce_used c' = (ce_used c + space vs)%N
  | Some e => ce_val c' = ce_val c /\ (GiftWrap.add_tag lim (ce_val c) vs = Err e \/ e = EMemory /\ failed grant h h')
  end.
Proof.
  intros ES X NE SM. destruct (C107_tag grant lim c vs h l ES X) as (c' & x & h' & E & ES' & X' & L & R & U). exists c', x, h'. split; [exact E|]. split; [exact ES'|]. split; [exact X'|]. split; [exact L|].
  assert (CK : ce_content c' = ce_content c /\ ce_self c' = ce_self c).
  { clear -E. assert (BI : forall (A B : Type) (m : M A) (f : A -> M B) h r, mbind m f h = Ok r -> exists a h1, f a h1 = Ok r).
    { intros A B m f h0 r Q. unfold mbind in Q. destruct (m h0) as [[a h1]| |]; try discriminate. eauto. }
    assert (PL : forall c vs h c' x h', place_tag grant c vs h = Ok ((c', x), h') -> ce_content c' = ce_content c /\ ce_self c' = ce_self c).
    { clear. intros c vs h c' x h' E. assert (BI : forall (A B : Type) (m : M A) (f : A -> M B) h r, mbind m f h = Ok r -> exists a h1, f a h1 = Ok r).
      { intros A B m f h0 r Q. unfold mbind in Q. destruct (m h0) as [[a h1]| |]; try discriminate. eauto. }
      unfold place_tag in E. apply BI in E as ([q|] & h1 & E).
      - cbv zeta in E. destruct (_ <? _)%N in E; [unfold mret in E; assert (c' = with_tagblock c (Some q)) by congruence; subst; auto|].
        destruct (_ <? _)%N in E; [unfold mret in E; match type of E with Ok ((?a, _), _) = _ => assert (c' = a) by congruence end; subst; auto|].
        apply BI in E as (u & h2 & E). unfold mret in E. match type of E with Ok ((?a, _), _) = _ => assert (c' = a) by congruence end; subst; auto.
      - unfold mret in E. assert (c' = c) by congruence. subst. auto. }
    unfold EventMem.add_tag in E. apply BI in E as (u & h1 & E).
    assert (SAME : forall (y : err) h2, @mret (cevent * option err) (c, Some y) h2 = Ok ((c', x), h') -> ce_content c' = ce_content c /\ ce_self c' = ce_self c) by (intros y h2 Q; unfold mret in Q; assert (c' = c) by congruence; subst; auto).
    destruct vs as [|v vs]; [exact (SAME _ _ E)|]. destruct (match lim with Some _ => _ | None => _ end); [exact (SAME _ _ E)|]. destruct (_ <? _)%N in E; [exact (SAME _ _ E)|].
    apply BI in E as (u2 & h2 & E). destruct (_ <? _)%N in E; [|exact (PL _ _ _ _ _ _ E)].
    destruct (grow _ _ _) as [cap|y|]; [|exact (SAME _ _ E)|discriminate]. apply BI in E as ([m|] & h3 & E); [|exact (SAME _ _ E)]. apply PL in E. exact E. }
  split; [apply CK|]. split; [apply CK|].
  rewrite add_pure. destruct R as [(-> & V & _ & NF)|[(-> & V & F)|(-> & V & F)]].
  - split; [|auto]. rewrite full_pure in NF. destruct (match lim with Some _ => _ | None => _ end); [destruct (NF eq_refl)|]. rewrite V. reflexivity.
  - split; [exact V|]. left. destruct F as [F|[F|F]]; [destruct (NE F)| |].
    + apply full_pure in F. rewrite F. reflexivity.
    + exfalso. change (2 ^ 64)%N with (4 * 2 ^ 62)%N in F. lia.
  - split; [exact V|]. right. split; [reflexivity|]. destruct F as [F|F]; [exact F|lia].
Qed.
Lemma tag_makes c vs k r h0 h l : event_sound c -> holds h (owned c ++ l) -> vs <> [] -> (ce_used c + space vs <= 2 ^ 62)%N -> h_next h0 <= h_next h ->
  (forall c' h', event_sound c' -> holds h' (owned c' ++ l) -> ce_val c' = tagged (ce_val c) vs -> ce_used c' = (ce_used c + space vs)%N -> h_next h0 <= h_next h' -> makes (k c') (r (ce_val c')) h0 h' l) ->
  makes (tag_or_quit grant lim c vs k) (do e <- GiftWrap.add_tag lim (ce_val c) vs; r e) h0 h l.
Proof.
  intros ES X NE SM L0 K. destruct (tag_cases c vs h l ES X NE SM) as (c1 & x & h1 & E & ES1 & X1 & L1 & _ & _ & R). unfold tag_or_quit. unfold makes. rewrite (mbind_ok _ _ _ _ _ E).
  destruct x as [e|].
  - destruct R as (_ & R). destruct (quit_makes c1 e (do e <- GiftWrap.add_tag lim (ce_val c) vs; r e) h0 h1 l X1) as (p & x & h2 & E2 & L2 & R2).
    { destruct R as [R|(-> & (j & A & B))]; [left; rewrite R; reflexivity|right]. split; [reflexivity|]. exists j. split; [lia|exact B]. }
    exists p, x, h2. split; [exact E2|]. split; [lia|exact R2].
  - destruct R as (R & V & U). rewrite R. cbn [bind]. destruct (K c1 h1 ES1 X1 V U ltac:(lia)) as (p & x & h2 & E2 & L2 & R2). exists p, x, h2. split; [exact E2|]. split; [lia|exact R2].
Qed.
Lemma address_makes c kind pk d h0 h l : event_sound c -> holds h (owned c ++ l) -> (ce_used c + space [bs "a"; dec_N kind ++ bs ":" ++ pk ++ bs ":" ++ d] <= 2 ^ 62)%N -> h_next h0 <= h_next h ->
  makes (address_tag grant lim c kind pk d) (GiftWrap.add_tag lim (ce_val c) [bs "a"; dec_N kind ++ bs ":" ++ pk ++ bs ":" ++ d]) h0 h l.
Proof.
  intros ES X SM L0. unfold address_tag. set (vs := [bs "a"; _]) in *. unfold makes. destruct (ealloc_cases grant h _ X) as [(b & h1 & E & X1 & L1)|(h1 & E & X1 & L1 & F)]; rewrite (mbind_ok _ _ _ _ _ E).
  2:{ destruct (quit_makes c EMemory (GiftWrap.add_tag lim (ce_val c) vs) h0 h1 l X1) as (p & x & h2 & E2 & L2 & R2).
      { right. split; [reflexivity|]. destruct F as (j & A & B). exists j. split; [lia|exact B]. }
      exists p, x, h2. split; [exact E2|]. split; [lia|exact R2]. }
  rewrite (mbind_ok _ _ _ _ _ (use_holds b h1 _ X1 (or_introl eq_refl))). apply (holds_perm _ _ (owned c ++ b :: l)) in X1; [|apply Permutation_middle].
  destruct (tag_cases c vs h1 _ ES X1 ltac:(discriminate) SM) as (c1 & x & h2 & E2 & ES1 & X2 & L2 & _ & _ & R). rewrite (mbind_ok _ _ _ _ _ E2).
  apply (holds_perm _ _ (b :: owned c1 ++ l)) in X2; [|symmetry; apply Permutation_middle]. destruct (free_holds _ _ _ X2) as (h3 & E3 & X3 & L3). rewrite (mbind_ok _ _ _ _ _ E3).
  destruct x as [e|].
  - destruct R as (_ & R). destruct (quit_makes c1 e (GiftWrap.add_tag lim (ce_val c) vs) h0 h3 l X3) as (p & x & h4 & E4 & L4 & R4).
    { destruct R as [R|(-> & (j & A & B))]; [left; exact R|right]. split; [reflexivity|]. exists j. split; [lia|exact B]. }
    exists p, x, h4. split; [exact E4|]. split; [lia|exact R4].
  - exists (Some c1), None, h3. split; [reflexivity|]. split; [lia|]. exists c1. split; [reflexivity|]. split; [exact ES1|]. split; [exact X3|apply R].
Qed.
Lemma start_makes now kind src t k r h l : holds h l -> In src l ->
  (forall c h', event_sound c -> holds h' (owned c ++ l) -> ce_val c = fresh now kind t -> ce_used c = 0%N -> h_next h <= h_next h' -> makes (k c) r h h' l) ->
  makes (start grant now kind src t k) r h h l.
Proof.
  intros X I K. unfold start, makes. destruct (C107_create grant now h l X) as (p & x & h1 & E & L1 & R). rewrite (mbind_ok _ _ _ _ _ E).
  destruct R as [(-> & c & -> & ES & X1 & V)|(-> & X1 & F)].
  2:{ exists p, (Some EMemory), h1. split; [destruct p; reflexivity|]. split; [exact L1|]. split; [exact X1|auto]. }
  assert (ES2 : event_sound (with_kind c kind)) by (destruct ES as [S1 S2 S3 S4]; constructor; assumption).
  assert (U0 : ce_used c = 0%N).
  { clear -E. unfold event_create in E. unfold mbind at 1 in E. destruct (ealloc grant h) as [[[s|] h2]| |]; try discriminate. unfold mbind at 1 in E. destruct (arena_create grant h2) as [[[(a & m)|] h3]| |]; try discriminate.
    - unfold mbind at 1 in E. destruct (huse (Some s) h3) as [[u h4]| |]; try discriminate. unfold mret in E. assert (Q : Some (mkCe s a m 1024 0 None None (blank now)) = Some c) by congruence. injection Q; intros <-. reflexivity.
    - unfold mbind at 1 in E. destruct (hfree (Some s) h3) as [[u h4]| |]; discriminate. }
  destruct (C107_content grant (with_kind c kind) src t h1 l ES2 X1 I) as (c1 & x & h2 & E2 & ES1 & X2 & L2 & R2). rewrite (mbind_ok _ _ _ _ _ E2).
  destruct R2 as [(-> & V2)|(-> & V2 & F)].
  - destruct (K c1 h2 ES1 X2) as (p & x & h3 & E3 & L3 & R3); [|rewrite (content_used _ _ _ _ _ _ _ _ E2); exact U0|lia|exists p, x, h3; split; [exact E3|]; split; [lia|exact R3]].
    rewrite V2. unfold with_kind, with_val. cbn [ce_val]. rewrite V. reflexivity.
  - destruct (quit_makes c1 EMemory r h h2 l X2) as (p & x & h3 & E3 & L3 & R3).
    { right. split; [reflexivity|]. destruct F as (j & A & B). exists j. split; [lia|exact B]. }
    exists p, x, h3. split; [exact E3|]. split; [lia|exact R3].
Qed.
Lemma space_cons v vs : space (v :: vs) = (9 + N.of_nat (length v) + space vs)%N.
Proof. unfold space. cbn [length fold_right]. lia. Qed.
Lemma space_nil : space [] = 0%N. Proof. reflexivity. Qed.
Lemma dec_small k : (k < 2 ^ 32)%N -> length (dec_N k) <= 10.
Proof. intros K. apply dec_length; [lia|]. change (10 ^ N.of_nat 10)%N with 10000000000%N. change (2 ^ 32)%N with 4294967296%N in K. lia. Qed.
Lemma hex_len s n : is_valid_hex_string s n = true -> length s = n.
Proof. unfold is_valid_hex_string. rewrite andb_true_iff. intros (A & _). apply Nat.eqb_eq, A. Qed.

(** ** C149 *)
(** A repost is made as Nip18.v says, or nothing is kept. *)
Theorem C149_repost : forall now id pk relay kind d src json h l, holds h l -> In src l -> (kind < 2 ^ 16)%N ->
  (N.of_nat (length relay + length (match d with Some x => x | None => [] end)) < 2 ^ 60)%N ->
  exists p x h', repost_create_m grant lim now id pk relay kind d src json h = Ok ((p, x), h') /\ h_next h <= h_next h' /\
  match x with
  | None => exists c, p = Some c /\ event_sound c /\ holds h' (owned c ++ l) /\ repost_create lim now id pk relay kind d json = Ok (ce_val c)
  | Some e => holds h' l /\ (repost_create lim now id pk relay kind d json = Err e \/ e = EMemory /\ failed grant h h')
  end.
Proof.
  intros now id pk relay kind d src json h l X I K SM. unfold repost_create_m, repost_create. destruct (negb _ || negb _)%bool eqn:HX.
  { exists None, (Some EInvalidParam), h. split; [reflexivity|]. split; [lia|]. auto. }
  apply orb_false_iff in HX as (H1 & H2). apply negb_false_iff in H1, H2. apply hex_len in H1, H2.
  assert (DK : length (dec_N kind) <= 10) by (apply dec_small; apply (N.lt_trans _ _ _ K); reflexivity).
  cbv zeta. apply start_makes; [exact X|exact I|]. intros c0 h0 ES0 X0 V0 U0 L0. rewrite <- V0.
  assert (K6 : ev_kind (ce_val c0) = if (kind =? 1)%N then 6%N else 16%N) by (rewrite V0; reflexivity).
  change (2 ^ 60)%N with 1152921504606846976%N in SM.
  apply tag_makes; [exact ES0|exact X0|discriminate|rewrite !space_cons, space_nil, U0; change (2 ^ 62)%N with 4611686018427387904%N; cbn [length bs String.length]; lia|lia|].
  intros c1 h1 ES1 X1 V1 U1 L1.
  apply tag_makes; [exact ES1|exact X1|discriminate|rewrite U1, !space_cons, space_nil, U0; change (2 ^ 62)%N with 4611686018427387904%N; cbn [length bs String.length]; lia|lia|].
  intros c2 h2 ES2 X2 V2 U2 L2.
  assert (LAST : forall c h3, event_sound c -> holds h3 (owned c ++ l) -> (ce_used c <= 2000 + N.of_nat (length relay))%N -> h_next h <= h_next h3 ->
    makes (match d with Some d => address_tag grant lim c kind pk d | None => mret (Some c, None) end)
      (match d with Some d => GiftWrap.add_tag lim (ce_val c) [bs "a"; dec_N kind ++ bs ":" ++ pk ++ bs ":" ++ d] | None => Ok (ce_val c) end) h h3 l).
  { intros c h3 ES X3 U L3. destruct d as [d|].
    - apply address_makes; [exact ES|exact X3| |exact L3]. rewrite !space_cons, space_nil, !app_length. change (2 ^ 62)%N with 4611686018427387904%N. cbn [length bs String.length]. lia.
    - exists (Some c), None, h3. split; [reflexivity|]. split; [lia|]. exists c. auto. }
  assert (U2' : (ce_used c2 <= 1000 + N.of_nat (length relay))%N) by (rewrite U2, U1, U0, !space_cons, !space_nil; cbn [length bs String.length]; lia).
  destruct (ev_kind (ce_val c2) =? 16)%N.
  - apply (tag_makes c2 [bs "k"; dec_N kind] _ (fun e => match d with Some d => GiftWrap.add_tag lim e [bs "a"; dec_N kind ++ bs ":" ++ pk ++ bs ":" ++ d] | None => Ok e end));
      [exact ES2|exact X2|discriminate|rewrite !space_cons, space_nil; change (2 ^ 62)%N with 4611686018427387904%N; cbn [length bs String.length]; lia|lia|].
    intros c3 h3 ES3 X3 V3 U3 L3. apply LAST; [exact ES3|exact X3| |exact L3]. rewrite U3, !space_cons, space_nil. cbn [length bs String.length]. lia.
  - cbn [bind]. apply LAST; [exact ES2|exact X2|lia|exact L2].
Qed.
(** So is a reaction. *)
Theorem C149_reaction : forall now src content id pk relay kind h l, holds h l -> In src l -> (kind < 2 ^ 16)%N ->
  (N.of_nat (length (match relay with Some x => x | None => [] end)) < 2 ^ 60)%N ->
  exists p x h', reaction_create_m grant lim now src content id pk relay kind h = Ok ((p, x), h') /\ h_next h <= h_next h' /\
  match x with
  | None => exists c, p = Some c /\ event_sound c /\ holds h' (owned c ++ l) /\ reaction_create lim now content id pk relay kind = Ok (ce_val c)
  | Some e => holds h' l /\ (reaction_create lim now content id pk relay kind = Err e \/ e = EMemory /\ failed grant h h')
  end.
Proof.
  intros now src content id pk relay kind h l X I K SM. unfold reaction_create_m, reaction_create. destruct (negb _ || negb _)%bool eqn:HX.
  { exists None, (Some EInvalidParam), h. split; [reflexivity|]. split; [lia|]. auto. }
  apply orb_false_iff in HX as (H1 & H2). apply negb_false_iff in H1, H2. apply hex_len in H1, H2.
  assert (DK : length (dec_N kind) <= 10) by (apply dec_small; apply (N.lt_trans _ _ _ K); reflexivity).
  cbv zeta. apply start_makes; [exact X|exact I|]. intros c0 h0 ES0 X0 V0 U0 L0. rewrite <- V0. change (2 ^ 60)%N with 1152921504606846976%N in SM.
  set (rel := match relay with Some r => r | None => [] end) in *.
  assert (RS : (space ([bs "p"; pk] ++ match relay with Some r => [r] | None => [] end) <= 200 + N.of_nat (length rel))%N).
  { unfold rel. destruct relay; cbn [app]; rewrite !space_cons, space_nil; cbn [length bs String.length]; lia. }
  apply tag_makes; [exact ES0|exact X0|discriminate|rewrite !space_cons, space_nil, U0; change (2 ^ 62)%N with 4611686018427387904%N; cbn [length bs String.length]; lia|lia|].
  intros c1 h1 ES1 X1 V1 U1 L1. rewrite !space_cons, space_nil, U0 in U1. cbn [length bs String.length] in U1.
  apply tag_makes; [exact ES1|exact X1|discriminate|change (2 ^ 62)%N with 4611686018427387904%N; lia|lia|].
  intros c2 h2 ES2 X2 V2 U2 L2.
  destruct (0 <? kind)%N; [|exists (Some c2), None, h2; split; [reflexivity|]; split; [lia|]; exists c2; auto].
  assert (Q : makes (tag_or_quit grant lim c2 [bs "k"; dec_N kind] (fun c => mret (Some c, None))) (do e <- GiftWrap.add_tag lim (ce_val c2) [bs "k"; dec_N kind]; Ok e) h h2 l).
  { apply tag_makes; [exact ES2|exact X2|discriminate|rewrite !space_cons, space_nil; change (2 ^ 62)%N with 4611686018427387904%N; cbn [length bs String.length]; lia|lia|].
    intros c3 h3 ES3 X3 _ _ L3. exists (Some c3), None, h3. split; [reflexivity|]. split; [lia|]. exists c3. auto. }
  destruct (GiftWrap.add_tag lim (ce_val c2) [bs "k"; dec_N kind]); exact Q.
Qed.

(** ** Quotes *)
Definition short_relays (st : tlv_state) : Prop := Forall (fun r => length r <= 255) (relays st).
Lemma loop_short ss wr wa data : forall fuel pos st st', parse_loop fuel ss wr wa data pos st = Ok st' -> short_relays st -> short_relays st'.
Proof.
  induction fuel as [|fuel IH]; intros pos st st' E R; cbn [parse_loop] in E; [discriminate|]. destruct (_ <=? _) in E; [|congruence].
  apply bind_ok in E as (t & _ & E). apply bind_ok in E as (n & _ & E). cbv zeta in E. destruct (_ <? _) in E; [discriminate|]. apply bind_ok in E as (v & _ & E).
  destruct (tlv_switch _ _ _ _ _ _) as [st1|] eqn:SW in E; [|discriminate]. apply (IH _ _ _ E). clear IH E. unfold short_relays in *. unfold tlv_switch in SW.
  destruct (is_valid_relay_url v) eqn:VU.
  - assert (LV : length v <= 255).
    { unfold is_valid_relay_url in VU. rewrite !andb_true_iff, !negb_true_iff in VU. destruct VU as (((_ & VU) & _) & _). apply N.leb_gt in VU. unfold blen in VU. lia. }
    repeat match type of SW with context [match ?x with _ => _ end] => destruct x; try discriminate end; injection SW; intros; subst; try exact R. cbn [relays]. apply Forall_app. split; [exact R|]. constructor; [exact LV|constructor].
  - repeat match type of SW with context [match ?x with _ => _ end] => destruct x; try discriminate end; injection SW; intros; subst; exact R.
Qed.
Lemma first_short st : short_relays st -> length (match relays st with r :: _ => r | [] => [] end) <= 255.
Proof. unfold short_relays. intros F. destruct (relays st); [cbn; lia|]. inversion F. assumption. Qed.
(** A quote takes little room. *)
Lemma quote_small h r p t : named_ref h -> uri_parse (bs "nostr:" ++ h ++ r) = Ok p -> quote_tag p = Some t -> t <> [] /\ (space t <= 1000)%N.
Proof.
  intros NR H Q. rewrite uri_parse_ref in H by exact NR. destruct NR as [->|[->| ->]].
  - change (decoder (bs "note1") (bs "note1" ++ r)) with (rmap Note (event_id_from_bech32 (bs "note1" ++ r))) in H.
    apply rmap_ok in H as (k & H & ->). apply fixed_from_ok in H as ((L & B) & _); [|reflexivity|apply bytes_bs_note].
    cbn [quote_tag] in Q. match type of Q with Some ?w = Some t => assert (TW : t = w) by congruence; subst t; clear Q end. split; [discriminate|]. rewrite !space_cons, space_nil, hex_encode_length, L. cbn [length bs String.length]. lia.
  - change (decoder (bs "nevent1") (bs "nevent1" ++ r)) with (nevent_decode (bs "nevent1" ++ r)) in H.
    unfold nevent_decode in H. apply bind_ok in H as (d & D & H). apply decode_bytes_bytes in D as (BD & _). apply bind_ok in H as (st & P & H).
    pose proof (first_short st (loop_short _ _ _ _ _ _ _ _ P (Forall_nil _))) as FS. apply parse_tlv_ok in P as (O1 & O2 & O3); [|exact BD].
    destruct (Nat.eqb_spec (length (special st)) 32) as [L|]; [|discriminate]. assert (E : p = Nevent (special st) (relays st) (author st) (kind st)) by congruence. subst p. cbn [quote_tag] in Q. match type of Q with Some ?w = Some t => assert (TW : t = w) by congruence; subst t; clear Q end.
    split; [discriminate|]. rewrite !space_cons, space_nil, hex_encode_length, L. destruct (author st) as [a|].
    + rewrite hex_encode_length, (proj2 (O2 a eq_refl)). cbn [length bs String.length]. lia.
    + cbn [length bs String.length]. lia.
  - change (decoder (bs "naddr1") (bs "naddr1" ++ r)) with (naddr_decode (bs "naddr1" ++ r)) in H.
    unfold naddr_decode in H. apply bind_ok in H as (d & D & H). apply bind_ok in H as (st & P & H).
    pose proof (first_short st (loop_short _ _ _ _ _ _ _ _ P (Forall_nil _))) as FS. destruct (author st) as [a|]; [|discriminate]. destruct (kind st) as [k|]; [|discriminate]. destruct (256 <=? _) in H; [discriminate|].
    assert (E : p = Naddr (special st) a k (relays st)) by congruence. subst p. cbn [quote_tag] in Q. match type of Q with Some ?w = Some t => assert (TW : t = w) by congruence; subst t; clear Q end. split; [discriminate|]. rewrite !space_cons, space_nil. set (w := firstn 511 (_ : list N)). assert (length w <= 511) by apply firstn_le_length. clearbody w. cbn [length bs String.length]. lia.
Qed.
Definition outcome (x : option err) : res unit := match x with None => Ok tt | Some e => Err e end.
Lemma sub_refl_nil {A} (b : list A) : sub [] b.
Proof. induction b; constructor; assumption. Qed.
Lemma with_tags_tagged e t ts : with_tags (tagged e t) ts = with_tags e (t :: ts).
Proof. unfold with_tags, tagged. cbn. rewrite <- app_assoc. reflexivity. Qed.
Lemma granted_sub h0 h1 h2 h3 : granted grant h0 h3 -> h_next h0 <= h_next h1 -> h_next h2 <= h_next h3 -> granted grant h1 h2.
Proof. intros G A B k K. apply G. lia. Qed.
Lemma quote_loop_ok : forall fuel c s h l, length s < fuel -> event_sound c -> holds h (owned c ++ l) -> ce_content c <> None -> readable uri_parse s ->
  (ce_used c + 1000 * N.of_nat (length s) <= 2 ^ 62)%N ->
  exists c' x h' ts all, quote_loop_m grant lim fuel c s h = Ok ((c', x), h') /\ event_sound c' /\ holds h' (owned c' ++ l) /\ h_next h <= h_next h' /\
    refs uri_parse s all /\ sub ts all /\ ce_val c' = with_tags (ce_val c) ts /\
    (granted grant h h' -> quote_loop lim fuel (ce_val c) s = Ok (ce_val c', outcome x)) /\
    match x with None => True | Some EMemory => failed grant h h' | Some EInvalidParam => EventMemProps.full lim (ce_val c') | Some _ => False end.
Proof.
  induction fuel as [|fuel IH]; intros c s h l L ES X CN RD SM; [lia|]. cbn [quote_loop_m quote_loop].
  assert (UC : huse (ce_content c) h = Ok (tt, h)).
  { destruct (ce_content c) as [b|] eqn:CC; [|destruct (CN eq_refl)]. apply (use_holds b h _ X). unfold owned. rewrite CC. cbn [opt_list]. apply in_or_app. left. do 3 right. apply in_or_app. right. left. reflexivity. }
  rewrite (mbind_ok _ _ _ _ _ UC).
  destruct (find_spec uri_parse (Datatypes.S (length s)) s ltac:(lia)) as [(F & R)|(pre & rest & F & EQ & SR & Q)]; rewrite F; cbn [bind].
  { exists c, None, h, [], []. split; [reflexivity|]. split; [exact ES|]. split; [exact X|]. split; [lia|]. split; [exact R|]. split; [constructor|]. rewrite with_tags_nil. auto. }
  assert (LS : length s = length pre + 6 + length rest) by (rewrite EQ, !app_length; change (length (bs "nostr:")) with 6; lia).
  destruct (ealloc_cases grant h _ X) as [(b & h1 & E1 & X1 & L1)|(h1 & E1 & X1 & L1 & F1)]; rewrite (mbind_ok _ _ _ _ _ E1).
  2:{ destruct (refs_total s) as (all & RA). exists c, (Some EMemory), h1, [], all. split; [reflexivity|]. split; [exact ES|]. split; [exact X1|]. split; [exact L1|]. split; [exact RA|]. split; [apply sub_refl_nil|].
      rewrite with_tags_nil. split; [reflexivity|]. split; [|exact F1]. intros G. destruct (failed_not_granted _ _ _ F1 G). }
  rewrite (mbind_ok _ _ _ _ _ (use_holds b h1 _ X1 (or_introl eq_refl))). rewrite read_uri. set (uri := bs "nostr:" ++ firstn (run_length rest) rest) in *.
  assert (AR : at_ref (bs "nostr:" ++ rest) uri) by (apply uri_at_ref, SR).
  destruct (C148_parse grant uri h1 _ X1) as (u & o & h2 & E2 & X2 & L2 & NR & R2); [exact (RD pre _ uri EQ AR)|]. rewrite (mbind_ok _ _ _ _ _ E2).
  apply (holds_perm _ _ (b :: cu_blocks u ++ owned c ++ l)) in X2; [|symmetry; apply Permutation_middle]. destruct (free_holds _ _ _ X2) as (h3 & E3 & X3 & L3). rewrite (mbind_ok _ _ _ _ _ E3).
  destruct (ref_split rest SR) as (hd & r & EH & NH).
  destruct o as [p|er].
  - destruct R2 as (U & LB). rewrite U. assert (UR := U). unfold uri in UR. rewrite EH in UR. destruct (quote_tag_ok hd r p NH UR) as (t & QT & QS). rewrite QT. destruct (quote_small hd r p t NH UR QT) as (NE & SP).
    assert (HIT : forall ts, refs uri_parse (skipn (run_length rest) rest) ts -> refs uri_parse s (t :: ts)).
    { intros ts R. rewrite EQ. apply refs_skip; [exact Q|]. change (bs "nostr:" ++ rest) with (110%N :: (bs "ostr:" ++ rest)).
      eapply RefsHit; [exact AR|exact U|exact QS|].
      replace (bs "ostr:" ++ rest) with (skipn 1 uri ++ skipn (run_length rest) rest).
      2:{ unfold uri. change (skipn 1 (bs "nostr:" ++ firstn (run_length rest) rest)) with (bs "ostr:" ++ firstn (run_length rest) rest). rewrite <- app_assoc, firstn_skipn. reflexivity. }
      apply refs_skip; [eapply read_quiet; eassumption|exact R]. }
    assert (UA : use_all (firstn 1 (cu_blocks u)) h3 = Ok (tt, h3)).
    { apply (use_all_ok _ h3 _ X3). intros z Z. apply in_or_app. left. rewrite <- (firstn_skipn 1 (cu_blocks u)). apply in_or_app. left. exact Z. }
    rewrite (mbind_ok _ _ _ _ _ UA). apply (holds_perm _ _ (owned c ++ cu_blocks u ++ l)) in X3; [|apply Permutation_app_swap_app].
    destruct (tag_cases c t h3 _ ES X3 NE ltac:(lia)) as (c1 & x & h4 & E4 & ES4 & X4 & L4 & CC & CS & R4). rewrite (mbind_ok _ _ _ _ _ E4).
    apply (holds_perm _ _ (cu_blocks u ++ owned c1 ++ l)) in X4; [|apply Permutation_app_swap_app].
    destruct (C148_free u h4 _ NR X4) as (u' & h5 & E5 & X5 & _). rewrite (mbind_ok _ _ _ _ _ E5).
    assert (L5 : h_next h5 = h_next h4).
    { clear -E5 NR X4. unfold uri_free_m in E5. destruct (cu_relays u).
      - destruct (free_all_ok _ _ _ X4) as (h6 & E6 & _ & L6). rewrite (mbind_ok _ _ _ _ _ E6) in E5. unfold mret in E5. assert (h6 = h5) by congruence. subst. exact L6.
      - unfold mbind, mret in E5. assert (h4 = h5) by congruence. subst. reflexivity. }
    destruct x as [e|].
    + destruct R4 as (V & R4). destruct (refs_total (skipn (run_length rest) rest)) as (ts0 & R0). exists c1, (Some e), h5, [], (t :: ts0). split; [reflexivity|]. split; [exact ES4|]. split; [exact X5|]. split; [lia|].
      split; [apply HIT, R0|]. split; [apply sub_refl_nil|]. rewrite with_tags_nil. split; [exact V|]. rewrite V. split.
      * intros G. destruct R4 as [R4|(_ & FF)]; [rewrite R4; reflexivity|]. destruct (failed_not_granted _ _ _ FF (granted_sub h h3 h4 h5 G ltac:(lia) ltac:(lia))).
      * destruct R4 as [R4|(-> & (j & A & B))]; [|exists j; split; [lia|exact B]]. rewrite add_pure in R4. destruct (match lim with Some _ => _ | None => _ end) eqn:FU in R4; [|discriminate]. assert (e = EInvalidParam) by congruence. subst e.
        apply full_pure. exact FU.
    + destruct R4 as (R4 & V & U4). change (skipn (6 + run_length rest) (bs "nostr:" ++ rest)) with (skipn (run_length rest) rest).
      assert (LR : length (skipn (run_length rest) rest) <= length rest) by (rewrite skipn_length; lia).
      destruct (IH c1 (skipn (run_length rest) rest) h5 l) as (c2 & x & h6 & ts & all & E6 & ES6 & X6 & L6 & RA & SB & V6 & G6 & R6); [lia|exact ES4|exact X5|congruence| |lia|].
      { intros a b' uri' EA A'. apply (RD (pre ++ uri ++ a) b' uri'); [|exact A']. rewrite EQ. unfold uri. rewrite <- !app_assoc, <- EA, firstn_skipn. reflexivity. }
      rewrite E6. exists c2, x, h6, (t :: ts), (t :: all). split; [reflexivity|]. split; [exact ES6|]. split; [exact X6|]. split; [lia|]. split; [apply HIT, RA|]. split; [constructor; exact SB|].
      split; [rewrite V6, V; apply with_tags_tagged|]. split.
      * intros G. rewrite R4. apply G6. exact (granted_sub h h5 h6 h6 G ltac:(lia) ltac:(lia)).
      * destruct x as [[]|]; try exact R6. destruct R6 as (j & A & B). exists j. split; [lia|exact B].
  - destruct R2 as (BN & R2). rewrite BN in X3. change (skipn 1 (bs "nostr:" ++ rest)) with (bs "ostr:" ++ rest).
    assert (LO : length (bs "ostr:" ++ rest) = 5 + length rest) by (rewrite app_length; reflexivity).
    destruct (IH c (bs "ostr:" ++ rest) h3 l) as (c2 & x & h6 & ts & all & E6 & ES6 & X6 & L6 & RA & SB & V6 & G6 & R6); [lia|exact ES|exact X3|exact CN| |lia|].
    { intros a b' uri' EA A'. apply (RD (pre ++ [110%N] ++ a) b' uri'); [|exact A']. rewrite EQ, <- !app_assoc, <- EA. reflexivity. }
    rewrite E6.
    assert (TAIL : match x with None => True | Some EMemory => failed grant h h6 | Some EInvalidParam => EventMemProps.full lim (ce_val c2) | Some _ => False end).
    { destruct x as [[]|]; try exact R6. destruct R6 as (j & A & B). exists j. split; [lia|exact B]. }
    destruct (uri_parse uri) as [p|e1|] eqn:U.
    + (* the reference could be read, but memory was short *)
      assert (UR := U). unfold uri in UR. rewrite EH in UR. destruct (quote_tag_ok hd r p NH UR) as (t & QT & QS).
      exists c2, x, h6, ts, (t :: all). split; [reflexivity|]. split; [exact ES6|]. split; [exact X6|]. split; [lia|]. split; [|split; [constructor; exact SB|]].
      * rewrite EQ. apply refs_skip; [exact Q|]. change (bs "nostr:" ++ rest) with (110%N :: (bs "ostr:" ++ rest)). eapply RefsHit; [exact AR|exact U|exact QS|exact RA].
      * split; [exact V6|]. split; [|exact TAIL]. intros G. destruct R2 as [R2|R2]; [discriminate|]. destruct (failed_not_granted _ _ _ R2 (granted_sub h h1 h2 h6 G ltac:(lia) ltac:(lia))).
    + exists c2, x, h6, ts, all. split; [reflexivity|]. split; [exact ES6|]. split; [exact X6|]. split; [lia|]. split; [|split; [exact SB|]].
      * rewrite EQ. apply refs_skip; [exact Q|]. change (bs "nostr:" ++ rest) with (110%N :: (bs "ostr:" ++ rest)). apply RefsMiss; [|exact RA]. intros uri' p A. change (110%N :: bs "ostr:" ++ rest) with (bs "nostr:" ++ rest) in A.
        apply at_ref_uri in A as (rest' & E' & _ & ->). apply app_inv_head in E'. subst rest'. rewrite read_uri. fold uri. rewrite U. discriminate.
      * split; [exact V6|]. split; [|exact TAIL]. intros G. apply G6. exact (granted_sub h h3 h6 h6 G ltac:(lia) ltac:(lia)).
    + destruct (RD pre _ uri EQ AR U).
Qed.
(** The q tags added are some of those C81 asks for, in their order; with enough
    memory the call is that of C81.  Whatever happens the event stays in order and
    nothing else is kept. *)
Theorem C149_quotes : forall c h l, event_sound c -> holds h (owned c ++ l) -> readable uri_parse (match ev_content (ce_val c) with Some s => s | None => [] end) ->
  (ce_used c + 1000 * N.of_nat (length (match ev_content (ce_val c) with Some s => s | None => [] end)) <= 2 ^ 62)%N ->
  exists c' x h' ts all, quote_tags_m grant lim c h = Ok ((c', x), h') /\ event_sound c' /\ holds h' (owned c' ++ l) /\
    refs uri_parse (match ev_content (ce_val c) with Some s => s | None => [] end) all /\ sub ts all /\
    ce_val c' = (let e := ce_val c in mkEvent (ev_id e) (ev_pubkey e) (ev_created e) (ev_kind e) (ev_tags e ++ ts) (ev_content e) (ev_sig e)) /\
    (granted grant h h' -> quote_tags lim (ce_val c) = Ok (ce_val c', match x with None => Ok tt | Some e => Err e end)) /\
    (x = None \/ x = Some EMemory /\ failed grant h h' \/ x = Some EInvalidParam /\ exists n, lim = Some n /\ (max_tags n <= N.of_nat (length (ev_tags (ce_val c'))))%N).
Proof.
  intros c h l ES X RD SM. unfold quote_tags_m, quote_tags. rewrite (mbind_ok _ _ _ _ _ (use_holds _ h _ X ltac:(left; reflexivity))).
  destruct (ev_content (ce_val c)) as [[|c0 s]|] eqn:EC.
  - exists c, None, h, [], []. split; [reflexivity|]. split; [exact ES|]. split; [exact X|]. split; [constructor|]. split; [constructor|]. split; [cbv zeta; rewrite <- EC, app_nil_r; destruct (ce_val c); reflexivity|]. auto.
  - assert (CN : ce_content c <> None) by (intros Z; apply (es_content _ ES) in Z; congruence). set (t := c0 :: s) in *.
    destruct (quote_loop_ok (Datatypes.S (length t)) c t h l ltac:(lia) ES X CN RD SM) as (c' & x & h' & ts & all & E & ES' & X' & L & RA & SB & V & G & R).
    exists c', x, h', ts, all. split; [exact E|]. split; [exact ES'|]. split; [exact X'|]. split; [exact RA|]. split; [exact SB|]. split; [rewrite <- EC; exact V|]. split; [exact G|].
    destruct x as [[]|]; try contradiction; first [left; reflexivity|right; left; split; [reflexivity|exact R]|right; right; split; [reflexivity|exact R]].
  - exists c, None, h, [], []. split; [reflexivity|]. split; [exact ES|]. split; [exact X|]. split; [constructor|]. split; [constructor|]. split; [cbv zeta; rewrite <- EC, app_nil_r; destruct (ce_val c); reflexivity|]. auto.
Qed.
End Grant.

(** A reference that could be read is passed over, and the call succeeds, when
    memory is short: one quote of two is missing here. *)
Definition two_notes : list N := bs "a nostr:note1qqqqqqqqqqqqqqqqqqqqqqqqqqqqqqqqqqqqqqqqqqqqqqqqqqqqn2l0z3, nostr:nevent1qqsqzqgpqyqszqgpqyqszqgpqyqszqgpqyqszqgpqyqszqgpqyqszqgscccc3!".
Definition quoting : cevent := mkCe 0 1 2 1024 0 None (Some 3) (mkEvent [] [] 0 1 [] (Some two_notes) []).
Definition before : heap := mkHeap 4 [0; 1; 2; 3].
Lemma quoting_sound : event_sound quoting.
Proof. constructor; cbn; [split; discriminate|reflexivity|lia|lia]. Qed.
Lemma quoting_holds : holds before (owned quoting ++ []).
Proof.
  split; [|cbn; apply Permutation_refl]. split; cbn; [|repeat constructor]. repeat constructor; cbn; intuition discriminate.
Qed.
Theorem C149_quotes_refuted : ~ (forall grant lim c h l c' h', event_sound c -> holds h (owned c ++ l) -> quote_tags_m grant lim c h = Ok ((c', None), h') -> quote_tags lim (ce_val c) = Ok (ce_val c', Ok tt)).
Proof.
  intros G. destruct (quote_tags_m (fun k => negb (k =? 5)) None quoting before) as [[[c' x] h']| |] eqn:E; [|vm_compute in E; discriminate E|vm_compute in E; discriminate E].
  assert (x = None) as -> by (vm_compute in E; congruence). specialize (G _ _ _ _ _ _ _ quoting_sound quoting_holds E).
  assert (A : length (ev_tags (ce_val c')) = 1) by (apply (f_equal (fun r => match r with Ok ((c, _), _) => length (ev_tags (ce_val c)) | _ => 0 end)) in E; vm_compute in E; symmetry; exact E).
  apply (f_equal (fun r => match r with Ok (e, _) => length (ev_tags e) | _ => 0 end)) in G. rewrite A in G. vm_compute in G. discriminate G.
Qed.
(** A caller who finds a pointer set may not take it for an event: when the arena
    cannot be had the pointer is left aiming at a block already released. *)
Definition some_id : list N := repeat 97%N 64.
Theorem C149_pointer_refuted : ~ (forall grant lim now id pk relay kind d src json h l c x h', holds h l -> In src l -> repost_create_m grant lim now id pk relay kind d src json h = Ok ((Some c, Some x), h') -> In (ce_self c) (h_live h')).
Proof.
  intros G. destruct (repost_create_m (fun k => k =? 1) None 5 some_id some_id [] 1 None 0 None (mkHeap 1 [0])) as [[[[c|] [x|]] h']| |] eqn:E; try (vm_compute in E; discriminate E).
  specialize (G (fun k => k =? 1) None 5%Z some_id some_id [] 1%N None 0 None (mkHeap 1 [0]) [0] c x h').
  assert (X : holds (mkHeap 1 [0]) [0]) by (split; [split; [constructor; [intros []|constructor]|repeat constructor]|apply Permutation_refl]).
  specialize (G X (or_introl eq_refl) E). assert (Q : match repost_create_m (fun k => k =? 1) None 5 some_id some_id [] 1 None 0 None (mkHeap 1 [0]) with Ok ((Some c, _), h) => Some (ce_self c, h_live h) | _ => None end = Some (1, [0])) by (vm_compute; reflexivity).
  rewrite E in Q. assert (S1 : ce_self c = 1) by congruence. assert (S2 : h_live h' = [0]) by congruence. rewrite S1, S2 in G. destruct G as [G|[]]. discriminate G.
Qed.
(** Texts that can be read: those without a note1 reference of 10 or 90 characters. *)
Lemma readable_but s : (forall a b body, s = a ++ b -> at_ref b (bs "nostr:" ++ body) -> prefixb (bs "note1") body = true -> length body <> 10 /\ length body <> 90) -> readable uri_parse s.
Proof.
  intros H a b uri E AR UU. assert (AR' := AR). destruct AR as (body & post & EB & EU & W & P & h & r & EH & NH). subst uri.
  specialize (H a b body E AR'). rewrite EH in UU. rewrite uri_parse_ref in UU by exact NH. rewrite <- EH in UU. destruct NH as [X|[X|X]]; subst h.
  - change (decoder (bs "note1") body) with (rmap Note (event_id_from_bech32 body)) in UU.
    destruct (C04_decoders_in_bounds_partial body) as (_ & C4 & _). apply C4; [apply H; rewrite EH; apply prefixb_app|]. destruct (event_id_from_bech32 body); cbn [rmap] in UU; congruence.
  - exact (proj1 (proj2 (C07_entity_decoders_safe body)) UU).
  - exact (proj1 (proj2 (proj2 (C07_entity_decoders_safe body))) UU).
Qed.
Definition one_note : list N := bs "see nostr:nevent1qqsqzqgpqyqszqgpqyqszqgpqyqszqgpqyqszqgpqyqszqgpqyqszqgscccc3!".
Lemma one_readable : readable uri_parse one_note.
Proof.
  apply readable_but. intros a b body E (body' & post & EB & EU & _) P. exfalso. apply app_inv_head in EU. subst body'.
  assert (Q : forallb (fun n => negb (prefixb (bs "nostr:note1") (skipn n one_note))) (seq 0 (Datatypes.S (length one_note))) = true) by (vm_compute; reflexivity).
  rewrite forallb_forall in Q. specialize (Q (length a)). assert (IN : In (length a) (seq 0 (Datatypes.S (length one_note)))) by (apply in_seq; rewrite E, app_length; lia).
  specialize (Q IN). apply negb_true_iff in Q. rewrite E in Q. rewrite skipn_app, skipn_all, Nat.sub_diag in Q. cbn [app skipn] in Q. apply prefixb_spec in P as (r & ->). rewrite EB in Q.
  change (bs "nostr:note1") with (bs "nostr:" ++ bs "note1") in Q. rewrite <- !app_assoc, (app_assoc (bs "nostr:")) in Q. rewrite prefixb_app in Q. discriminate Q.
Qed.
Definition seen {A} (r : res (A * option err * heap)) : option (option err * list nat) := match r with Ok (_, x, h) => Some (x, h_live h) | _ => None end.
Definition tags_of (r : res (cevent * option err * heap)) : nat := match r with Ok (c, _, _) => length (ev_tags (ce_val c)) | _ => 0 end.
Example C149_meets :
  holds (mkHeap 1 [0]) [0] /\
  seen (repost_create_m (fun _ => true) None 5 some_id some_id (bs "wss://r") 30023 (Some (bs "d")) 0 (Some (bs "{}")) (mkHeap 1 [0])) = Some (None, [9; 4; 3; 2; 1; 0]) /\
  seen (repost_create_m (fun k => negb (k =? 8)) None 5 some_id some_id (bs "wss://r") 30023 (Some (bs "d")) 0 (Some (bs "{}")) (mkHeap 1 [0])) = Some (Some EMemory, [0]) /\
  seen (reaction_create_m (fun _ => true) None 5 0 None some_id some_id None 1 (mkHeap 1 [0])) = Some (None, [7; 4; 3; 2; 1; 0]) /\
  seen (reaction_create_m (fun k => negb (k =? 4)) None 5 0 None some_id some_id None 1 (mkHeap 1 [0])) = Some (Some EMemory, [0]) /\
  event_sound quoting /\ holds before (owned quoting ++ []) /\ readable uri_parse one_note /\
  seen (quote_tags_m (fun _ => true) None quoting before) = Some (None, [10; 0; 1; 2; 3]) /\ tags_of (quote_tags_m (fun _ => true) None quoting before) = 2 /\
  seen (quote_tags_m (fun k => negb (k =? 7)) None quoting before) = Some (Some EMemory, [6; 0; 1; 2; 3]).
Proof.
  split; [split; [split; [constructor; [intros []|constructor]|repeat constructor]|apply Permutation_refl]|]. do 4 (split; [vm_compute; reflexivity|]).
  split; [exact quoting_sound|]. split; [exact quoting_holds|]. split; [exact one_readable|]. split; [vm_compute; reflexivity|]. split; vm_compute; reflexivity.
Qed.
Print Assumptions C149_repost.
Print Assumptions C149_reaction.
Print Assumptions C149_quotes.
Print Assumptions C149_quotes_refuted.
Print Assumptions C149_pointer_refuted.
