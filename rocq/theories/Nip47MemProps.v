(** Memory of wallet connections and info events: C146, C147. *)
From Verif Require Import Base BaseFacts Heap Event EventSpec EventMem RelayMemSpec RelayMemProps EventMemSpec EventMemProps EventOomSpec Nip47 Nip47Spec Nip47Proofs Nip47Props Nip47Mem Nip47MemSpec.
From Coq Require Import Permutation.
Open Scope nat_scope.

Ltac bperm := clear; unfold conn_blocks, list_blocks, ptr; cbn [cc_self cc_array cc_cap cc_relays cc_secret cc_service cc_lud16 cc_set_array cc_add_relay cc_set_secret cc_set_lud16 wl_array wl_count wl_items map option_map opt_list app fst snd];
  repeat rewrite ?map_app, ?app_nil_r; cbn [map fst];
  apply (proj2 (Permutation_count_occ Nat.eq_dec _ _)); let x := fresh "x" in intros x;
  repeat (progress (repeat rewrite count_occ_app; cbn [count_occ]));
  repeat match goal with |- context [Nat.eq_dec ?a ?b] => destruct (Nat.eq_dec a b) end; lia.
(** ** Releasing *)
Lemma free_relays_ok a l : forall h rest, holds h (a :: map fst l ++ rest) ->
  exists h', free_relays a l h = Ok (tt, h') /\ holds h' (a :: rest) /\ h_next h' = h_next h.
Proof.
  induction l as [|(p & t) l IH]; intros h rest X; cbn [free_relays map app fst] in *.
  - exists h. auto.
  - rewrite (mbind_ok _ _ _ _ _ (use_holds a h _ X (or_introl eq_refl))).
    apply (holds_perm _ _ (p :: a :: map fst l ++ rest)) in X; [|apply perm_swap].
    destruct (free_holds _ _ _ X) as (h1 & E & X1 & L1). rewrite (mbind_ok _ _ _ _ _ E). destruct (IH h1 rest X1) as (h2 & E2 & X2 & L2). exists h2. split; [exact E2|]. split; [exact X2|congruence].
Qed.
Theorem C146_release : forall c h l, conn_sound c -> holds h (conn_blocks c ++ l) -> exists h', free_connection c h = Ok (tt, h') /\ holds h' l /\ h_next h' = h_next h.
Proof.
  intros c h l SO X. unfold free_connection. rewrite (mbind_ok _ _ _ _ _ (use_holds (cc_self c) h _ X (or_introl eq_refl))).
  assert (A : exists h1, match cc_array c with Some a => let! _ := free_relays a (cc_relays c) in hfree (Some a) | None => mret tt end h = Ok (tt, h1) /\ holds h1 (opt_list (ptr (cc_lud16 c)) ++ cc_self c :: l) /\ h_next h1 = h_next h).
  { destruct (cc_array c) as [a|] eqn:EA.
    - destruct (free_relays_ok a (cc_relays c) h (opt_list (ptr (cc_lud16 c)) ++ cc_self c :: l)) as (h1 & E1 & X1 & L1).
      { revert X. apply holds_perm. unfold conn_blocks, ptr. rewrite EA. cbn [opt_list app]. perm. }
      destruct (free_holds _ _ _ X1) as (h2 & E2 & X2 & L2). exists h2. split; [rewrite (mbind_ok _ _ _ _ _ E1); exact E2|]. split; [exact X2|lia].
    - exists h. split; [reflexivity|]. split; [|reflexivity]. revert X. apply holds_perm. unfold conn_blocks, ptr. rewrite EA, (SO EA). cbn [opt_list app map]. perm. }
  destruct A as (h1 & E1 & X1 & L1). rewrite (mbind_ok _ _ _ _ _ E1). destruct (free_opt_holds _ _ _ X1) as (h2 & E2 & X2 & L2). rewrite (mbind_ok _ _ _ _ _ E2).
  destruct (free_holds _ _ _ X2) as (h3 & E3 & X3 & L3). exists h3. split; [exact E3|]. split; [exact X3|lia].
Qed.

(** ** Reading *)
Record stands (c : cconn) (lost : list nat) (st : uri_state) : Prop := mkStands {
  sd_relays : map snd (cc_relays c) = u_relays st; sd_secret : cc_secret c = u_secret st;
  sd_lud : option_map snd (cc_lud16 c) = u_lud16 st; sd_lost : length lost = u_lost st }.
Definition array_ok (c : cconn) : Prop := (exists a, cc_array c = Some a) /\ length (cc_relays c) <= cc_cap c /\ 0 < cc_cap c.
(** [n] Lightning addresses were seen *)
Definition few (c : cconn) (lost : list nat) (n : nat) : Prop := length lost + length (opt_list (cc_lud16 c)) <= n /\ length lost <= n - 1.
Section Grant.
Variable grant : nat -> bool.
Lemma url_decode_cases v h l : holds h l ->
  (exists q h', url_decode_m grant v h = Ok (Some (q, url_decode v), h') /\ holds h' (q :: l) /\ h_next h <= h_next h') \/
  (exists h', url_decode_m grant v h = Ok (None, h') /\ holds h' l /\ h_next h <= h_next h' /\ failed grant h h').
Proof.
  intros X. unfold url_decode_m. destruct (ealloc_cases grant h l X) as [(q & h1 & E & X1 & L1)|(h1 & E & X1 & L1 & F)]; rewrite (mbind_ok _ _ _ _ _ E).
  - left. rewrite (mbind_ok _ _ _ _ _ (use_holds q h1 _ X1 (or_introl eq_refl))). exists q, h1. auto.
  - right. exists h1. auto.
Qed.
Lemma room_ok c h rest : array_ok c -> holds h (conn_blocks c ++ rest) ->
  exists c' b h', relay_room grant c h = Ok ((c', b), h') /\ holds h' (conn_blocks c' ++ rest) /\ h_next h <= h_next h' /\
    cc_self c' = cc_self c /\ cc_relays c' = cc_relays c /\ cc_secret c' = cc_secret c /\ cc_service c' = cc_service c /\ cc_lud16 c' = cc_lud16 c /\ array_ok c' /\
    (if b then length (cc_relays c') < cc_cap c' else failed grant h h').
Proof.
  intros AO X. pose proof AO as ((a & EA) & LE & POS). unfold relay_room. destruct (Nat.leb_spec (cc_cap c) (length (cc_relays c))) as [G|G].
  - destruct (erealloc_cases grant (cc_array c) h (cc_self c :: map fst (cc_relays c) ++ opt_list (option_map fst (cc_lud16 c)) ++ rest)) as [(q & h1 & E & X1 & L1)|(h1 & E & X1 & L1 & F)].
    { revert X. apply holds_perm. unfold conn_blocks. perm. }
    + rewrite (mbind_ok _ _ _ _ _ E). exists (cc_set_array c (Some q) (2 * cc_cap c)), true, h1. split; [reflexivity|]. split; [revert X1; apply holds_perm; bperm|]. split; [exact L1|].
      cbn [cc_set_array cc_self cc_relays cc_secret cc_service cc_lud16 cc_cap]. repeat (split; [reflexivity|]). split; [|lia]. split; [exists q; reflexivity|]. cbn [cc_set_array cc_relays cc_cap]. lia.
    + rewrite (mbind_ok _ _ _ _ _ E). exists c, false, h1. split; [reflexivity|]. split; [revert X1; apply holds_perm; bperm|]. split; [exact L1|]. repeat (split; [reflexivity|]). split; [exact AO|exact F].
  - exists c, true, h. split; [reflexivity|]. split; [exact X|]. split; [lia|]. repeat (split; [reflexivity|]). split; [exact AO|exact G].
Qed.
Lemma vals_one key p r : vals key (p :: r) = vals key [p] ++ vals key r.
Proof. unfold vals. cbn [flat_map]. rewrite app_nil_r. reflexivity. Qed.
Lemma param_ok params c p st lost n h l : array_ok c -> stands c lost st -> few c lost n -> holds h (params :: conn_blocks c ++ lost ++ l) ->
  exists c' x lost' h', uri_param_m grant params c p h = Ok ((c', x), h') /\ holds h' (params :: conn_blocks c' ++ lost' ++ l) /\ h_next h <= h_next h' /\
    array_ok c' /\ cc_service c' = cc_service c /\ few c' lost' (n + length (vals (bs "lud16") [p])) /\
    match x with
    | None => exists st', uri_param st p = Ok st' /\ stands c' lost' st'
    | Some e => uri_param st p = Err e \/ e = EMemory /\ failed grant h h'
    end.
Proof.
  intros AO SD FW X. unfold uri_param_m, uri_param, vals. rewrite (mbind_ok _ _ _ _ _ (use_holds params h _ X (or_introl eq_refl))). cbn [flat_map]. rewrite app_nil_r.
  assert (SAME : forall k, few c lost (n + k)) by (intros k; destruct FW as (F1 & F2); split; lia).
  destruct (split_at 61 p) as [(k & v)|].
  2:{ exists c, None, lost, h. split; [reflexivity|]. split; [exact X|]. split; [lia|]. split; [exact AO|]. split; [reflexivity|]. split; [apply SAME|]. exists st. auto. }
  destruct (beq k (bs "relay")) eqn:KR.
  - apply (holds_perm _ _ (conn_blocks c ++ params :: lost ++ l)) in X; [|perm].
    destruct (room_ok c h _ AO X) as (c1 & b & h1 & E1 & X1 & L1 & S1 & S2 & S3 & S4 & S5 & AO1 & R1). rewrite (mbind_ok _ _ _ _ _ E1).
    assert (FW1 : forall k, few c1 lost (n + k)) by (intros k0; unfold few; rewrite S5; apply SAME).
    destruct b.
    + pose proof AO1 as ((a & EA) & LE & POS). destruct (url_decode_cases v h1 _ X1) as [(q & h2 & E2 & X2 & L2)|(h2 & E2 & X2 & L2 & F2)]; rewrite (mbind_ok _ _ _ _ _ E2).
      * unfold hassert at 1. assert (LT : (length (cc_relays c1) <? cc_cap c1) = true) by (apply Nat.ltb_lt; exact R1). rewrite LT. erewrite mbind_ok by reflexivity.
        rewrite EA. erewrite mbind_ok by (apply (use_holds a h2 _ X2); right; unfold conn_blocks; rewrite EA; right; left; reflexivity).
        exists (cc_add_relay c1 (q, url_decode v)), None, lost, h2. split; [reflexivity|]. split; [revert X2; apply holds_perm; bperm|]. split; [lia|].
        split; [split; [exists a; exact EA|]; cbn [cc_add_relay cc_relays cc_cap]; rewrite app_length; cbn [length]; lia|]. split; [exact S4|]. split; [apply FW1|].
        eexists. split; [reflexivity|]. destruct SD as [D1 D2 D3 D4]. split; cbn [cc_add_relay cc_relays cc_secret cc_lud16 u_relays u_secret u_lud16 u_lost]; [rewrite map_app, S2, D1; reflexivity|rewrite S3; exact D2|rewrite S5; exact D3|exact D4].
      * unfold hassert at 1. assert (LT : (length (cc_relays c1) <? cc_cap c1) = true) by (apply Nat.ltb_lt; exact R1). rewrite LT. erewrite mbind_ok by reflexivity.
        rewrite EA. erewrite mbind_ok by (apply (use_holds a h2 _ X2); unfold conn_blocks; rewrite EA; right; left; reflexivity).
        exists c1, (Some EMemory), lost, h2. split; [reflexivity|]. split; [revert X2; apply holds_perm; perm|]. split; [lia|]. split; [exact AO1|]. split; [exact S4|]. split; [apply FW1|].
        right. split; [reflexivity|]. refine (EventMemProps.failed_more _ _ _ _ _ _ _ F2); lia.
    + exists c1, (Some EMemory), lost, h1. split; [reflexivity|]. split; [revert X1; apply holds_perm; perm|]. split; [lia|]. split; [exact AO1|]. split; [exact S4|]. split; [apply FW1|]. auto.
  - destruct (beq k (bs "secret")) eqn:KS.
    + destruct (negb (length v =? 64)).
      * exists c, (Some EInvalidParam), lost, h. split; [reflexivity|]. split; [exact X|]. split; [lia|]. split; [exact AO|]. split; [reflexivity|]. split; [apply SAME|]. auto.
      * destruct (hex_decode47 v 32) as [s|].
        -- exists (cc_set_secret c s), None, lost, h. split; [reflexivity|]. split; [exact X|]. split; [lia|]. split; [exact AO|]. split; [reflexivity|]. split; [apply SAME|].
           eexists. split; [reflexivity|]. destruct SD as [D1 D2 D3 D4]. split; [exact D1|reflexivity|exact D3|exact D4].
        -- exists c, (Some EInvalidParam), lost, h. split; [reflexivity|]. split; [exact X|]. split; [lia|]. split; [exact AO|]. split; [reflexivity|]. split; [apply SAME|]. auto.
    + destruct (beq k (bs "lud16")) eqn:KL.
      * destruct (url_decode_cases v h _ X) as [(q & h2 & E2 & X2 & L2)|(h2 & E2 & X2 & L2 & F2)]; rewrite (mbind_ok _ _ _ _ _ E2).
        -- exists (cc_set_lud16 c (q, url_decode v)), None, (opt_list (option_map fst (cc_lud16 c)) ++ lost), h2. split; [reflexivity|]. split; [revert X2; apply holds_perm; bperm|]. split; [lia|].
           split; [exact AO|]. split; [reflexivity|]. destruct FW as (F1 & F2). split.
           ++ unfold few. cbn [cc_set_lud16 cc_lud16 opt_list length]. rewrite app_length. destruct (cc_lud16 c); cbn [option_map opt_list length] in *; lia.
           ++ eexists. split; [reflexivity|]. destruct SD as [D1 D2 D3 D4]. split; [exact D1|exact D2|reflexivity|]. cbn [u_lost]. rewrite app_length, D4, <- D3. destruct (cc_lud16 c); cbn; lia.
        -- exists (mkCc (cc_self c) (cc_array c) (cc_cap c) (cc_relays c) (cc_secret c) (cc_service c) None), (Some EMemory), (opt_list (option_map fst (cc_lud16 c)) ++ lost), h2.
           split; [reflexivity|]. split; [revert X2; apply holds_perm; bperm|]. split; [lia|]. split; [exact AO|]. split; [reflexivity|]. destruct FW as (F1 & F3). split; [|auto].
           unfold few. cbn [cc_lud16 opt_list length]. rewrite app_length. destruct (cc_lud16 c); cbn [option_map opt_list length] in *; lia.
      * exists c, None, lost, h. split; [reflexivity|]. split; [exact X|]. split; [lia|]. split; [exact AO|]. split; [reflexivity|]. split; [apply SAME|]. exists st. auto.
Qed.
Lemma params_ok params : forall ps c st lost n h l, array_ok c -> stands c lost st -> few c lost n -> holds h (params :: conn_blocks c ++ lost ++ l) ->
  exists c' x lost' h', uri_params_m grant params c ps h = Ok ((c', x), h') /\ holds h' (params :: conn_blocks c' ++ lost' ++ l) /\ h_next h <= h_next h' /\
    array_ok c' /\ cc_service c' = cc_service c /\ few c' lost' (n + length (vals (bs "lud16") ps)) /\
    match x with
    | None => exists st', uri_params st ps = Ok st' /\ stands c' lost' st'
    | Some e => uri_params st ps = Err e \/ e = EMemory /\ failed grant h h'
    end.
Proof.
  induction ps as [|p ps IH]; intros c st lost n h l AO SD FW X; cbn [uri_params_m uri_params].
  - exists c, None, lost, h. split; [reflexivity|]. split; [exact X|]. split; [lia|]. split; [exact AO|]. split; [reflexivity|]. split; [destruct FW; split; lia|]. exists st. auto.
  - destruct (param_ok params c p st lost n h l AO SD FW X) as (c1 & x & lost1 & h1 & E1 & X1 & L1 & AO1 & S1 & FW1 & R1). rewrite (mbind_ok _ _ _ _ _ E1). rewrite vals_one, app_length, Nat.add_assoc.
    destruct x as [e|].
    + exists c1, (Some e), lost1, h1. split; [reflexivity|]. split; [exact X1|]. split; [lia|]. split; [exact AO1|]. split; [exact S1|]. split; [destruct FW1; split; lia|]. destruct R1 as [-> |R1]; auto.
    + destruct R1 as (st1 & -> & SD1). destruct (IH c1 st1 lost1 _ h1 l AO1 SD1 FW1 X1) as (c2 & x & lost2 & h2 & E2 & X2 & L2 & AO2 & S2 & FW2 & R2).
      exists c2, x, lost2, h2. split; [exact E2|]. split; [exact X2|]. split; [lia|]. split; [exact AO2|]. split; [congruence|]. split; [exact FW2|]. cbn [bind].
      destruct x as [e|]; [|exact R2]. destruct R2 as [R2|(-> & F2)]; [auto|]. right. split; [reflexivity|]. refine (EventMemProps.failed_more _ _ _ _ _ _ _ F2); lia.
Qed.
Lemma vals_nonempty key ps : vals key (filter nonempty ps) = vals key ps.
Proof.
  unfold vals. induction ps as [|p ps IH]; [reflexivity|]. destruct p as [|c p]; [cbn [filter nonempty flat_map split_at app]; exact IH|]. cbn [filter nonempty flat_map]. rewrite IH. reflexivity.
Qed.
(** Whatever fails, no memory is misused; a connection says what the address says and owns
    its blocks; an error has a reason, and its blocks are gone.  Lost blocks are one fewer
    than the Lightning addresses at most. *)
Theorem C146_parse : forall uri h l, holds h l ->
  exists r lost h', parse_uri_m grant uri h = Ok (r, h') /\ h_next h <= h_next h' /\
  match r with
  | inr c => holds h' (conn_blocks c ++ lost ++ l) /\ conn_sound c /\ exists v, parse_uri uri = Ok v /\ conn_says c v
  | inl e => holds h' (lost ++ l) /\ (parse_uri uri = Err e \/ e = EMemory /\ failed grant h h')
  end /\
  (lost <> [] -> exists pk ps luds, uri_shape uri pk ps /\ listed (bs "lud16") ps luds /\ length lost < length luds).
Proof.
  intros uri h l X. unfold parse_uri_m, parse_uri, parse_uri_full.
  assert (STOP : forall e, exists r lost h', mret (inl e : err + cconn) h = Ok (r, h') /\ h_next h <= h_next h' /\
     match r with inr c => holds h' (conn_blocks c ++ lost ++ l) /\ conn_sound c /\ exists v, (do r0 <- Err e; Ok (fst (r0 : nwc * nat))) = Ok v /\ conn_says c v
     | inl e' => holds h' (lost ++ l) /\ ((do r0 <- Err e; Ok (fst (r0 : nwc * nat))) = Err e' \/ e' = EMemory /\ failed grant h h') end /\
     (lost <> [] -> exists pk ps luds, uri_shape uri pk ps /\ listed (bs "lud16") ps luds /\ length lost < length luds)).
  { intros e. exists (inl e), [], h. split; [reflexivity|]. split; [lia|]. split; [split; [exact X|left; reflexivity]|congruence]. }
  destruct (prefixb (bs "nostr+walletconnect://") uri) eqn:PF; [cbn [negb]|apply STOP].
  destruct (split_at 63 (skipn 22 uri)) as [(pk & query)|] eqn:SP; [|apply STOP].
  destruct (Nat.eqb_spec (length pk) 64) as [LP|LP]; [cbn [negb]|apply STOP]. clear STOP.
  destruct (ealloc_cases grant h l X) as [(s & h1 & E1 & X1 & L1)|(h1 & E1 & X1 & L1 & F1)]; rewrite (mbind_ok _ _ _ _ _ E1).
  2:{ exists (inl EMemory), [], h1. split; [reflexivity|]. split; [lia|]. split; [split; [exact X1|auto]|congruence]. }
  destruct (hex_decode47 pk 32) as [service|] eqn:HX.
  2:{ destruct (C146_release (mkCc s None 0 [] None (repeat 0%N 32) None) h1 l) as (h2 & E2 & X2 & L2); [intros _; reflexivity|exact X1|]. rewrite (mbind_ok _ _ _ _ _ E2).
      exists (inl EInvalidParam), [], h2. split; [reflexivity|]. split; [lia|]. split; [split; [exact X2|left; reflexivity]|congruence]. }
  destruct (ealloc_cases grant h1 _ X1) as [(params & h2 & E2 & X2 & L2)|(h2 & E2 & X2 & L2 & F2)]; rewrite (mbind_ok _ _ _ _ _ E2).
  2:{ destruct (C146_release (mkCc s None 0 [] None service None) h2 l) as (h3 & E3 & X3 & L3); [intros _; reflexivity|exact X2|]. rewrite (mbind_ok _ _ _ _ _ E3).
      exists (inl EMemory), [], h3. split; [reflexivity|]. split; [lia|]. split; [split; [exact X3|right]|congruence]. split; [reflexivity|]. refine (EventMemProps.failed_more _ _ _ _ _ _ _ F2); lia. }
  destruct (ealloc_cases grant h2 _ X2) as [(a & h3 & E3 & X3 & L3)|(h3 & E3 & X3 & L3 & F3)]; rewrite (mbind_ok _ _ _ _ _ E3).
  2:{ destruct (free_holds _ _ _ X3) as (h4 & E4 & X4 & L4). rewrite (mbind_ok _ _ _ _ _ E4).
      destruct (C146_release (mkCc s None 0 [] None service None) h4 l) as (h5 & E5 & X5 & L5); [intros _; reflexivity|exact X4|]. rewrite (mbind_ok _ _ _ _ _ E5).
      exists (inl EMemory), [], h5. split; [reflexivity|]. split; [lia|]. split; [split; [exact X5|right]|congruence]. split; [reflexivity|]. refine (EventMemProps.failed_more _ _ _ _ _ _ _ F3); lia. }
  destruct (params_ok params (tokens 38 query) (cc_set_array (mkCc s None 0 [] None service None) (Some a) 4) (mkUri [] None None 0) [] 0 h3 l) as (c & x & lost & h4 & E4 & X4 & L4 & AO & SV & FW & R).
  { split; [exists a; reflexivity|]. cbn. lia. } { split; reflexivity. } { split; cbn; lia. } { revert X3. apply holds_perm. bperm. }
  rewrite (mbind_ok _ _ _ _ _ E4). destruct (free_holds _ _ _ X4) as (h5 & E5 & X5 & L5). rewrite (mbind_ok _ _ _ _ _ E5).
  assert (SO : conn_sound c) by (intros Z; destruct AO as ((b & EB) & _); congruence).
  assert (LS : lost <> [] -> exists pk ps luds, uri_shape uri pk ps /\ listed (bs "lud16") ps luds /\ length lost < length luds).
  { intros NE. destruct (pieces_exist 38%N query) as (ps & EQ & FP & NP). exists pk, ps, (vals (bs "lud16") ps). split; [|split].
    - split; [|split; [exact LP|split; [apply split_at_iff in SP; tauto|auto]]]. apply split_at_iff in SP as (SP & _). rewrite <- EQ. change (bs "?" ++ query) with (63%N :: query). rewrite <- SP.
      apply prefixb_spec in PF. destruct PF as (r & ->). rewrite skipn_app. reflexivity.
    - apply vals_listed. cbn. intuition discriminate.
    - rewrite EQ, (tokens_joined 38 ps FP), vals_nonempty in FW. destruct FW as (FW1 & FW2). destruct lost as [|b lost]; [congruence|]. cbn [length] in *. lia. }
  destruct x as [e|].
  - destruct (C146_release c h5 (lost ++ l) SO X5) as (h6 & E6 & X6 & L6). rewrite (mbind_ok _ _ _ _ _ E6). exists (inl e), lost, h6. split; [reflexivity|]. split; [lia|]. split; [|exact LS]. split; [exact X6|].
    destruct R as [-> |(-> & F4)]; [left; reflexivity|right]. split; [reflexivity|]. refine (EventMemProps.failed_more _ _ _ _ _ _ _ F4); lia.
  - destruct R as (st & -> & [D1 D2 D3 D4]). cbn [bind]. rewrite <- D2, <- D1. destruct (cc_secret c) as [sec|] eqn:ES; [destruct (cc_relays c) as [|r0 rs] eqn:ER|].
    + destruct (C146_release c h5 (lost ++ l) SO X5) as (h6 & E6 & X6 & L6). rewrite (mbind_ok _ _ _ _ _ E6). exists (inl EInvalidParam), lost, h6. split; [reflexivity|]. split; [lia|]. split; [|exact LS]. split; [exact X6|left; reflexivity].
    + exists (inr c), lost, h5. split; [reflexivity|]. split; [lia|]. split; [|exact LS]. split; [exact X5|]. split; [exact SO|]. eexists. split; [reflexivity|].
      repeat split; cbn [nw_relays nw_secret nw_service nw_lud16]; [rewrite ER; reflexivity|exact ES|exact SV|exact D3].
    + destruct (C146_release c h5 (lost ++ l) SO X5) as (h6 & E6 & X6 & L6). rewrite (mbind_ok _ _ _ _ _ E6). exists (inl EInvalidParam), lost, h6. split; [reflexivity|]. split; [lia|]. split; [|exact LS]. split; [exact X6|left; reflexivity].
Qed.
End Grant.
(** With at most one Lightning address, nothing is left once a connection is closed or an
    error is reported. *)
Theorem C146_life : forall grant uri h l, holds h l -> one_lud16 uri ->
  exists r h', parse_uri_m grant uri h = Ok (r, h') /\
  match r with
  | inr c => holds h' (conn_blocks c ++ l) /\ exists h2, free_connection c h' = Ok (tt, h2) /\ holds h2 l
  | inl _ => holds h' l
  end.
Proof.
  intros grant uri h l X ONE. destruct (C146_parse grant uri h l X) as (r & lost & h1 & E & L & R & LS). exists r, h1. split; [exact E|].
  assert (Z : lost = []). { destruct lost as [|b lost]; [reflexivity|]. destruct (LS ltac:(discriminate)) as (pk & ps & luds & SH & LI & LT). specialize (ONE pk ps luds SH LI). cbn [length] in LT. lia. }
  subst lost. cbn [app] in R. destruct r as [x|c]; [tauto|]. destruct R as (X1 & SO & _). split; [exact X1|]. destruct (C146_release c h1 l SO X1) as (h2 & E2 & X2 & _). eauto.
Qed.
(** With enough memory the answer is that of C38. *)
Theorem C146_enough : forall grant uri h l, holds h l -> exists r h', parse_uri_m grant uri h = Ok (r, h') /\
  (granted grant h h' -> match r with inr c => exists v, parse_uri uri = Ok v /\ conn_says c v | inl e => parse_uri uri = Err e end).
Proof.
  intros grant uri h l X. destruct (C146_parse grant uri h l X) as (r & lost & h1 & E & L & R & _). exists r, h1. split; [exact E|]. intros G. destruct r as [x|c].
  - destruct R as (_ & [R|(_ & (k & LK & FK))]); [exact R|]. rewrite (G k LK) in FK. discriminate.
  - destruct R as (_ & _ & R). exact R.
Qed.
(** Not in general, neither for addresses that are refused nor for those accepted. *)
Definition twice : list N := signs_uri ++ bs "&lud16=a&lud16=b".
Definition twice_bad : list N := bs "nostr+walletconnect://" ++ repeat 48%N 64 ++ bs "?lud16=a&lud16=b".
Theorem C146_refuted :
  ~ (forall grant uri h l e h', holds h l -> parse_uri_m grant uri h = Ok (inl e, h') -> holds h' l) /\
  ~ (forall grant uri h l c h' h2, holds h l -> parse_uri_m grant uri h = Ok (inr c, h') -> free_connection c h' = Ok (tt, h2) -> holds h2 l).
Proof.
  assert (X0 : holds hempty []) by (split; [split; constructor|constructor]).
  assert (NO : forall h, h_live h <> [] -> ~ holds h []) by (intros h NE (_ & P); apply Permutation_sym, Permutation_nil in P; contradiction).
  split; intros H.
  - assert (E : exists h', parse_uri_m (fun _ => true) twice_bad hempty = Ok (inl EInvalidParam, h') /\ h_live h' <> []) by (eexists; split; [vm_compute; reflexivity|discriminate]).
    destruct E as (h' & E & NE). exact (NO h' NE (H _ _ _ _ _ _ X0 E)).
  - assert (E : exists c h' h2, parse_uri_m (fun _ => true) twice hempty = Ok (inr c, h') /\ free_connection c h' = Ok (tt, h2) /\ h_live h2 <> []) by (eexists _, _, _; split; [vm_compute; reflexivity|split; [vm_compute; reflexivity|discriminate]]).
    destruct E as (c & h' & h2 & E & E2 & NE). exact (NO h2 NE (H _ _ _ _ _ _ _ X0 E E2)).
Qed.
(** Witness: an address with one Lightning address, and one whose fifth relay has no memory. *)
Definition once_uri : list N := signs_uri ++ bs "&lud16=a%40b".
Definition five_uri : list N := signs_uri ++ bs "&relay=a&relay=b&relay=c&relay=d".
Example C146_meets : (exists c h', parse_uri_m (fun _ => true) once_uri hempty = Ok (inr c, h') /\ option_map snd (cc_lud16 c) = Some (bs "a@b") /\ length (conn_blocks c) = 4) /\
  (exists c h', parse_uri_m (fun _ => true) five_uri hempty = Ok (inr c, h') /\ length (cc_relays c) = 5 /\ cc_cap c = 8) /\
  (exists h', parse_uri_m (fun n => negb (n =? 7)) five_uri hempty = Ok (inl EMemory, h') /\ h_live h' = []).
Proof. split; [|split]; [eexists _, _|eexists _, _|eexists]; (split; [vm_compute; reflexivity|]); vm_compute; auto. Qed.

(** ** C147 *)
Lemma free_words_ok a l : forall h rest, holds h (a :: map fst l ++ rest) ->
  exists h', free_words a l h = Ok (tt, h') /\ holds h' (a :: rest) /\ h_next h' = h_next h.
Proof.
  induction l as [|(p & t) l IH]; intros h rest X; cbn [free_words map app fst] in *.
  - exists h. auto.
  - rewrite (mbind_ok _ _ _ _ _ (use_holds a h _ X (or_introl eq_refl))).
    apply (holds_perm _ _ (p :: a :: map fst l ++ rest)) in X; [|apply perm_swap].
    destruct (free_holds _ _ _ X) as (h1 & E & X1 & L1). rewrite (mbind_ok _ _ _ _ _ E). destruct (IH h1 rest X1) as (h2 & E2 & X2 & L2). exists h2. split; [exact E2|]. split; [exact X2|congruence].
Qed.
Section Info.
Variable grant : nat -> bool.
Lemma copy_ok a str : forall room ws done h l, holds h (str :: a :: map fst done ++ l) ->
  exists r b h', copy_words grant a str room ws done h = Ok ((r, b), h') /\ h_next h <= h_next h' /\
  (if b then holds h' (str :: a :: map fst r ++ l) /\ map snd r = map snd done ++ firstn room ws else holds h' l /\ failed grant h h').
Proof.
  induction room as [|room IH]; intros ws done h l X; destruct ws as [|w ws]; cbn [copy_words firstn];
    try (exists done, true, h; split; [reflexivity|]; split; [lia|]; split; [exact X|symmetry; apply app_nil_r]).
  rewrite (mbind_ok _ _ _ _ _ (use_holds str h _ X (or_introl eq_refl))).
  destruct (ealloc_cases grant h _ X) as [(p & h1 & E & X1 & L1)|(h1 & E & X1 & L1 & F)]; rewrite (mbind_ok _ _ _ _ _ E).
  - erewrite mbind_ok by (apply (use_holds a h1 _ X1); right; right; left; reflexivity).
    destruct (IH ws (done ++ [(p, w)]) h1 l) as (r & b & h2 & E2 & L2 & R2); [revert X1; apply holds_perm; bperm|]. exists r, b, h2. split; [exact E2|]. split; [lia|].
    destruct b; [|destruct R2 as (X2 & F2); split; [exact X2|]; refine (EventMemProps.failed_more _ _ _ _ _ _ _ F2); lia].
    destruct R2 as (X2 & R2). split; [exact X2|]. rewrite R2, map_app, <- app_assoc. reflexivity.
  - erewrite mbind_ok by (apply (use_holds a h1 _ X1); right; left; reflexivity).
    apply (holds_perm _ _ (a :: map fst done ++ str :: l)) in X1; [|bperm]. destruct (free_words_ok a done h1 _ X1) as (h2 & E2 & X2 & L2). rewrite (mbind_ok _ _ _ _ _ E2).
    destruct (free_holds _ _ _ X2) as (h3 & E3 & X3 & L3). rewrite (mbind_ok _ _ _ _ _ E3). destruct (free_holds _ _ _ X3) as (h4 & E4 & X4 & L4). rewrite (mbind_ok _ _ _ _ _ E4).
    exists done, false, h4. split; [reflexivity|]. split; [lia|]. split; [exact X4|]. refine (EventMemProps.failed_more _ _ _ _ _ _ _ F); lia.
Qed.
Lemma split_ok v s h l : holds h l ->
  exists u b h', split_words_m grant v s h = Ok ((u, b), h') /\ h_next h <= h_next h' /\
  (if b then holds h' (list_blocks u ++ l) /\ lists u (word_list s) else holds h' l /\ failed grant h h').
Proof.
  intros X. unfold split_words_m. destruct (ealloc_cases grant h _ X) as [(str & h1 & E1 & X1 & L1)|(h1 & E1 & X1 & L1 & F1)]; rewrite (mbind_ok _ _ _ _ _ E1).
  2:{ exists v, false, h1. auto. }
  destruct (ealloc_cases grant h1 _ X1) as [(a & h2 & E2 & X2 & L2)|(h2 & E2 & X2 & L2 & F2)]; rewrite (mbind_ok _ _ _ _ _ E2).
  2:{ destruct (free_holds _ _ _ X2) as (h3 & E3 & X3 & L3). rewrite (mbind_ok _ _ _ _ _ E3). eexists _, false, h3. split; [reflexivity|]. split; [lia|]. split; [exact X3|]. refine (EventMemProps.failed_more _ _ _ _ _ _ _ F2); lia. }
  destruct (copy_ok a str (count_spaces s + 1) (tokens 32 s) [] h2 l) as (r & b & h3 & E3 & L3 & R3); [revert X2; apply holds_perm, perm_swap|]. rewrite (mbind_ok _ _ _ _ _ E3). destruct b.
  - destruct R3 as (X3 & R3). destruct (free_holds _ _ _ X3) as (h4 & E4 & X4 & L4). rewrite (mbind_ok _ _ _ _ _ E4). eexists _, true, h4. split; [reflexivity|]. split; [lia|]. split; [exact X4|].
    split; [exact R3|]. split; [|discriminate]. cbn [wl_count]. assert (LEN : length (map snd r) = length (word_list s)) by (f_equal; exact R3). rewrite map_length in LEN. rewrite LEN. reflexivity.
  - destruct R3 as (X3 & F3). eexists _, false, h3. split; [reflexivity|]. split; [lia|]. split; [exact X3|]. refine (EventMemProps.failed_more _ _ _ _ _ _ _ F3); lia.
Qed.
Lemma tag_ok (w : bool) v name ts h l : holds h l ->
  exists u b h', tag_words_m grant w v name ts h = Ok ((u, b), h') /\ h_next h <= h_next h' /\ (w = false -> u = v) /\
  (if b then holds h' ((if w then list_blocks u else []) ++ l) /\ (w = true -> lists u (match first_tag_value name ts with Some s => word_list s | None => [] end)) else holds h' l /\ failed grant h h').
Proof.
  intros X. unfold tag_words_m. destruct w; cbn [negb].
  2:{ exists v, true, h. split; [reflexivity|]. split; [lia|]. split; [reflexivity|]. split; [exact X|discriminate]. }
  destruct (first_tag_value name ts) as [s|].
  - destruct (split_ok empty_list s h l X) as (u & b & h1 & E & L & R). exists u, b, h1. split; [exact E|]. split; [exact L|]. split; [discriminate|]. destruct b; [|exact R]. destruct R as (X1 & R). auto.
  - exists empty_list, true, h. split; [reflexivity|]. split; [lia|]. split; [discriminate|]. split; [exact X|]. intros _. repeat split.
Qed.
Definition if_wanted (w : bool) (u : wlist) : list nat := if w then list_blocks u else [].
(** Whatever fails, no memory is misused.  Without an error the lists asked for are those of
    C74 and own their blocks; with one, at most the lists finished before are left. *)
Theorem C147_parse : forall w1 w2 w3 v1 v2 v3 e h l, holds h l -> (w1 = true -> ev_content e <> None) ->
  exists u1 u2 u3 x h', parse_info_m grant w1 w2 w3 v1 v2 v3 e h = Ok ((u1, u2, u3, x), h') /\
  (w1 = false -> u1 = v1) /\ (w2 = false -> u2 = v2) /\ (w3 = false -> u3 = v3) /\
  match x with
  | None => ev_kind e = 13194%N /\ holds h' (if_wanted w1 u1 ++ if_wanted w2 u2 ++ if_wanted w3 u3 ++ l) /\
      (w1 = true -> exists s ws, ev_content e = Some s /\ words s ws /\ lists u1 ws) /\
      (w2 = true -> exists o ws, Nip47Props.tagged (bs "notifications") (ev_tags e) o /\ words (match o with Some s => s | None => [] end) ws /\ lists u2 ws) /\
      (w3 = true -> exists o ws, Nip47Props.tagged (bs "encryption") (ev_tags e) o /\ words (match o with Some s => s | None => [] end) ws /\ lists u3 ws)
  | Some EInvalidParam => ev_kind e <> 13194%N /\ u1 = v1 /\ u2 = v2 /\ u3 = v3 /\ h' = h
  | Some EMemory => failed grant h h' /\
      (holds h' l \/ holds h' (if_wanted w1 u1 ++ l) /\ (w1 = true -> exists ws, lists u1 ws) \/
       holds h' (if_wanted w1 u1 ++ if_wanted w2 u2 ++ l) /\ (w1 = true -> exists ws, lists u1 ws) /\ (w2 = true -> exists ws, lists u2 ws))
  | Some _ => False
  end.
Proof.
  intros w1 w2 w3 v1 v2 v3 e h l X C. unfold parse_info_m. destruct (N.eqb_spec (ev_kind e) 13194) as [K|K]; cbn [negb].
  2:{ exists v1, v2, v3, (Some EInvalidParam), h. split; [reflexivity|]. do 3 (split; [reflexivity|]). auto. }
  assert (A : exists u b h', match w1, ev_content e with true, None => fun _ => Undef | true, Some s => split_words_m grant v1 s | false, _ => mret (v1, true) end h = Ok ((u, b), h') /\ h_next h <= h_next h' /\ (w1 = false -> u = v1) /\
    (if b then holds h' (if_wanted w1 u ++ l) /\ (w1 = true -> exists s, ev_content e = Some s /\ lists u (word_list s)) else holds h' l /\ failed grant h h')).
  { destruct w1.
    - destruct (ev_content e) as [s|]; [|destruct (C eq_refl eq_refl)]. destruct (split_ok v1 s h l X) as (u & b & h1 & E & L & R). exists u, b, h1. split; [exact E|]. split; [exact L|]. split; [discriminate|]. destruct b; [|exact R]. destruct R as (X1 & R). split; [exact X1|]. eauto.
    - exists v1, true, h. split; [reflexivity|]. split; [lia|]. split; [reflexivity|]. split; [exact X|discriminate]. }
  destruct A as (u1 & b1 & h1 & E1 & L1 & K1 & R1). rewrite (mbind_ok _ _ _ _ _ E1). destruct b1.
  2:{ destruct R1 as (X1 & F1). exists u1, v2, v3, (Some EMemory), h1. split; [reflexivity|]. split; [exact K1|]. do 2 (split; [reflexivity|]). auto. }
  destruct R1 as (X1 & R1).
  destruct (tag_ok w2 v2 (bs "notifications") (ev_tags e) h1 _ X1) as (u2 & b2 & h2 & E2 & L2 & K2 & R2). rewrite (mbind_ok _ _ _ _ _ E2). destruct b2.
  2:{ destruct R2 as (X2 & F2). exists u1, u2, v3, (Some EMemory), h2. split; [reflexivity|]. split; [exact K1|]. split; [exact K2|]. split; [reflexivity|].
      split; [refine (EventMemProps.failed_more _ _ _ _ _ _ _ F2); lia|]. right. left. split; [exact X2|]. intros W. destruct (R1 W) as (s & _ & R). eauto. }
  destruct R2 as (X2 & R2).
  destruct (tag_ok w3 v3 (bs "encryption") (ev_tags e) h2 _ X2) as (u3 & b3 & h3 & E3 & L3 & K3 & R3). rewrite (mbind_ok _ _ _ _ _ E3). destruct b3.
  2:{ destruct R3 as (X3 & F3). exists u1, u2, u3, (Some EMemory), h3. split; [reflexivity|]. split; [exact K1|]. split; [exact K2|]. split; [exact K3|].
      split; [refine (EventMemProps.failed_more _ _ _ _ _ _ _ F3); lia|]. right. right. split; [|split].
      - revert X3. apply holds_perm. rewrite !app_assoc. apply Permutation_app_tail, Permutation_app_comm.
      - intros W. destruct (R1 W) as (s & _ & R). eauto.
      - intros W. eauto. }
  destruct R3 as (X3 & R3). exists u1, u2, u3, None, h3. split; [reflexivity|]. split; [exact K1|]. split; [exact K2|]. split; [exact K3|]. split; [exact K|]. split; [|split; [|split]].
  - revert X3. apply holds_perm. unfold if_wanted. clear. set (a := if w1 then _ else _). set (b := if w2 then _ else _). set (c := if w3 then _ else _). bperm.
  - intros W. destruct (R1 W) as (s & ES & R). exists s, (word_list s). split; [exact ES|]. split; [apply word_list_words|exact R].
  - intros W. eexists _, _. split; [apply first_tag_tagged|]. split; [|apply (R2 W)]. destruct (first_tag_value (bs "notifications") (ev_tags e)); [apply word_list_words|constructor].
  - intros W. eexists _, _. split; [apply first_tag_tagged|]. split; [|apply (R3 W)]. destruct (first_tag_value (bs "encryption") (ev_tags e)); [apply word_list_words|constructor].
Qed.
End Info.
(** A list in good order is released by its caller. *)
Theorem C147_release : forall v ws h l, lists v ws -> holds h (list_blocks v ++ l) -> exists h', release_list v h = Ok (tt, h') /\ holds h' l.
Proof.
  intros v ws h l (EI & EC & EA) X. unfold release_list. rewrite EC, Nnat.Nat2N.id, <- EI, map_length.
  assert (A : exists h1, release_items (wl_array v) (length (wl_items v)) (wl_items v) h = Ok (tt, h1) /\ holds h1 (opt_list (wl_array v) ++ l)).
  { unfold list_blocks in X. destruct (wl_array v) as [a|].
    - clear -X. revert h X. induction (wl_items v) as [|(p & t) r IH]; intros h X; cbn [length release_items]; [exists h; split; [reflexivity|exact X]|].
      rewrite (mbind_ok _ _ _ _ _ (use_holds a h _ X (or_introl eq_refl))). destruct (free_holds p h (a :: map fst r ++ l)) as (h1 & E1 & X1 & _); [revert X; apply holds_perm; bperm|]. rewrite (mbind_ok _ _ _ _ _ E1). apply IH, X1.
    - assert (Z : wl_items v = []) by (rewrite (EA eq_refl) in EI; destruct (wl_items v); [reflexivity|discriminate]). rewrite Z in *. exists h. split; [reflexivity|exact X]. }
  destruct A as (h1 & E1 & X1). rewrite (mbind_ok _ _ _ _ _ E1). destruct (free_opt_holds _ _ _ X1) as (h2 & E2 & X2 & _). eauto.
Qed.
(** After an error: a list finished before it is left to the caller, and a list it happened
    in cannot be released like the others -- the variable has a count with no array, or an
    array that is gone. *)
Definition info : event := mkEvent [] [] 0%Z 13194 [[bs "notifications"; bs "a b"]] (Some (bs "pay_invoice get_info")) [].
Theorem C147_refuted :
  ~ (forall grant e h l u1 u2 u3 x h', holds h l -> parse_info_m grant true true true empty_list empty_list empty_list e h = Ok ((u1, u2, u3, Some x), h') -> holds h' l) /\
  ~ (forall grant e h l u1 u2 u3 x h', holds h l -> parse_info_m grant true true true empty_list empty_list empty_list e h = Ok ((u1, u2, u3, Some x), h') -> release_list u1 h' <> Undef) /\
  ~ (forall grant e h l u1 u2 u3 x h', holds h l -> parse_info_m grant true true true empty_list empty_list empty_list e h = Ok ((u1, u2, u3, Some x), h') ->
       forall a, wl_array u1 = Some a -> In a (h_live h')).
Proof.
  assert (X0 : holds hempty []) by (split; [split; constructor|constructor]). split; [|split]; intros H.
  - assert (E : exists u1 u2 u3 h', parse_info_m (fun n => n <? 4) true true true empty_list empty_list empty_list info hempty = Ok ((u1, u2, u3, Some EMemory), h') /\ h_live h' <> []) by (eexists _, _, _, _; split; [vm_compute; reflexivity|discriminate]).
    destruct E as (u1 & u2 & u3 & h' & E & NE). destruct (H _ _ _ _ _ _ _ _ _ X0 E) as (_ & P). apply Permutation_sym, Permutation_nil in P. contradiction.
  - assert (E : exists u1 u2 u3 h', parse_info_m (fun n => n <? 1) true true true empty_list empty_list empty_list info hempty = Ok ((u1, u2, u3, Some EMemory), h') /\ release_list u1 h' = Undef) by (eexists _, _, _, _; split; [vm_compute; reflexivity|reflexivity]).
    destruct E as (u1 & u2 & u3 & h' & E & NE). exact (H _ _ _ _ _ _ _ _ _ X0 E NE).
  - assert (E : exists u1 u2 u3 h', parse_info_m (fun n => n <? 3) true true true empty_list empty_list empty_list info hempty = Ok ((u1, u2, u3, Some EMemory), h') /\ wl_array u1 = Some 1 /\ h_live h' = []) by (eexists _, _, _, _; split; [vm_compute; reflexivity|split; reflexivity]).
    destruct E as (u1 & u2 & u3 & h' & E & EA & NE). specialize (H _ _ _ _ _ _ _ _ _ X0 E 1 EA). rewrite NE in H. exact H.
Qed.
Example C147_meets : exists u1 u2 u3 h', parse_info_m (fun _ => true) true true true empty_list empty_list empty_list info hempty = Ok ((u1, u2, u3, None), h') /\
  lists u1 [bs "pay_invoice"; bs "get_info"] /\ lists u2 [bs "a"; bs "b"] /\ lists u3 [] /\ length (h_live h') = 6.
Proof. eexists _, _, _, _. split; [vm_compute; reflexivity|]. repeat split; discriminate. Qed.
Print Assumptions C146_release.
Print Assumptions C146_parse.
Print Assumptions C146_life.
Print Assumptions C146_enough.
Print Assumptions C146_refuted.
Print Assumptions C147_parse.
Print Assumptions C147_release.
Print Assumptions C147_refuted.
