(** Theorems about gift-wrapped messages when memory runs out: C142. *)
From Verif Require Import Base BaseFacts Heap Json Hex HexProofs Event EventProofs EventProps RelayMemSpec RelayMemProps EventMem EventMemSpec EventMemProps CjsonMem CjsonMemProofs EventOom EventOomSpec EventOomProps Nip21 Nip44 Nip44Proofs GiftWrap Nip46Mem Nip46MemProps GiftWrapMem GiftWrapMemSpec GiftWrapSpec.
From Verif Require GiftWrapProps.
From Coq Require Import Permutation.
Open Scope nat_scope.

Section Oom.
Variable grant : nat -> bool.
Variable print : json -> list N.
Variable parse : list N -> option json.
Variable sha256 : list N -> list N.
Variable pubkey_of : list N -> option (list N).
Variable sign : list N -> list N -> list N -> option (list N).
Variable verify : list N -> list N -> list N -> bool.
Variable pubkey_parses : list N -> bool.
Variable parse_pk : bool.
Variable seckey_valid : list N -> bool.
Variable nce : list N -> list N -> list N -> list N -> option (list N * list N).
Variable ncm : list N -> list N -> list N.
Variable ncv : list N -> list N -> list N -> list N -> list N -> bool.
Variable ncd : list N -> list N -> list N -> list N -> option (list N).
Variable b64enc : list N -> list N.
Variable b64dec : list N -> option (list N).
Variable lim44 : limits.
Variable lim : option ev_limits.
Hypothesis limits44 : limits_ok lim44.
Notation granted := (granted grant).
Notation ser := (fun e => print (id_tree e)).
Notation encrypt := (GiftWrap.encrypt nce ncm b64enc lim44).
Notation decrypt := (GiftWrap.decrypt ncv ncd b64dec lim44).

Ltac perm := apply (proj2 (Permutation_count_occ Nat.eq_dec _ _)); intros ?z; unfold owned; cbn [app]; repeat first [rewrite count_occ_app | cbn [count_occ]]; repeat (destruct (Nat.eq_dec _ _)); lia.
Ltac less G := apply (granted_less _ _ _ _ _ G); lia.

(** ** Parts *)
Lemma use_opt_ok o h l : holds h l -> incl (opt_list o) l -> use_opt o h = Ok (tt, h).
Proof. intros X I. destruct o as [b|]; [|reflexivity]. apply (use_holds b h l X). apply I. left. reflexivity. Qed.
Lemma owned_parts c l : incl (owned c) l -> In (ce_self c) l /\ In (ce_mem c) l /\ incl (opt_list (ce_content c)) l /\ incl (opt_list (ce_tags c)) l.
Proof.
  intros I. unfold owned in I. split; [apply I; left; reflexivity|]. split; [apply I; right; right; left; reflexivity|].
  split; intros z Z; apply I; do 3 right; apply in_or_app; auto.
Qed.
Lemma json_m_ok src h l : holds h l -> incl (owned src) l ->
  exists r x h' lost, json_m grant print src h = Ok ((r, x), h') /\ holds h' (text_blocks r ++ lost ++ l) /\ h_next h <= h_next h' /\
  (granted h h' -> x = None /\ lost = [] /\ exists b, r = Some (b, event_to_json print (ce_val src))) /\
  (x = None -> exists b t, r = Some (b, print t) /\ thin (event_to_tree (ce_val src)) t) /\ (x <> None -> r = None).
Proof.
  intros X I. destruct (owned_parts _ _ I) as (I1 & I2 & I3 & I4). unfold json_m, read_event.
  rewrite mbind_assoc, (mbind_ok _ _ _ _ _ (use_holds _ h l X I1)), mbind_assoc, (mbind_ok _ _ _ _ _ (use_opt_ok _ h l X I3)), mbind_assoc, (mbind_ok _ _ _ _ _ (use_opt_ok _ h l X I4)),
    (mbind_ok _ _ _ _ _ (use_holds _ h l X I2)).
  destruct (C111_export grant print (ce_val src) h l X) as (r & x & h' & lost & E & X' & L & G & T & F). exists r, x, h', lost. split; [exact E|]. split; [exact X'|]. split; [exact L|]. split; [exact G|]. split; [exact T|]. intros N0. apply (F N0).
Qed.
Lemma enc_m_ok b r h l : holds h (b :: l) -> r <> Undef ->
  exists p x h', enc_m grant b r h = Ok ((p, x), h') /\ h_next h <= h_next h' /\ holds h' (text_blocks p ++ l) /\
  ((exists q t, p = Some (q, t) /\ x = None /\ r = Ok t) \/ (p = None /\ exists e, x = Some e /\ (r = Err e \/ (e = EMemory /\ ~ granted h h')))).
Proof.
  intros X D. unfold enc_m. rewrite (mbind_ok _ _ _ _ _ (use_holds b h _ X ltac:(left; reflexivity))).
  destruct (text_m_ok grant r h _ X D) as (p & x & h1 & E & L & X1 & R). rewrite (mbind_ok _ _ _ _ _ E).
  apply (holds_perm _ _ (b :: text_blocks p ++ l)) in X1; [|symmetry; apply Permutation_middle]. destruct (free_holds _ _ _ X1) as (h2 & E2 & X2 & L2). rewrite (mbind_ok _ _ _ _ _ E2).
  exists p, x, h2. split; [reflexivity|]. split; [lia|]. split; [exact X2|].
  destruct R as [(q & t & A)|(A & e & B & [C|(C & D')])]; [left; eauto|right; split; [exact A|]; exists e; auto..].
  split; [exact B|]. right. split; [exact C|]. intros G. apply D'. less G.
Qed.
Lemma move_ok c q t h l : event_sound c -> holds h (owned c ++ q :: l) ->
  exists c' x h', move_content grant c q t h = Ok ((c', x), h') /\ event_sound c' /\ holds h' (owned c' ++ l) /\ h_next h <= h_next h' /\ ce_used c' = ce_used c /\
  ((x = None /\ ce_val c' = saying (ce_val c) (Some t)) \/ (x = Some EMemory /\ ~ granted h h')).
Proof.
  intros ES X. unfold move_content. destruct (C107_content grant c q t h _ ES X ltac:(left; reflexivity)) as (c1 & x & h1 & E1 & ES1 & X1 & L1 & R). rewrite (mbind_ok _ _ _ _ _ E1).
  apply (holds_perm _ _ (q :: owned c1 ++ l)) in X1; [|symmetry; apply Permutation_middle]. destruct (free_holds _ _ _ X1) as (h2 & E2 & X2 & L2). rewrite (mbind_ok _ _ _ _ _ E2).
  exists c1, x, h2. split; [reflexivity|]. split; [exact ES1|]. split; [exact X2|]. split; [lia|]. split; [exact (content_used _ _ _ _ _ _ _ _ E1)|].
  destruct R as [R|(-> & _ & F)]; [left; exact R|right]. split; [reflexivity|]. apply (not_failed grant _ _ h h2 F); lia.
Qed.
Lemma abandon_ok c r h l : holds h (owned c ++ l) -> exists h', abandon c r h = Ok ((None, Some r), h') /\ holds h' l /\ h_next h' = h_next h.
Proof. intros X. unfold abandon. destruct (C107_destroy c h l X) as (h' & E & X' & L). rewrite (mbind_ok _ _ _ _ _ E). exists h'. auto. Qed.
Lemma drop_ok c q r h l : holds h (owned c ++ q :: l) -> exists h', drop c q r h = Ok ((None, Some r), h') /\ holds h' l /\ h_next h' = h_next h.
Proof.
  intros X. unfold drop. destruct (C107_destroy c h _ X) as (h1 & E & X1 & L). rewrite (mbind_ok _ _ _ _ _ E). destruct (free_holds _ _ _ X1) as (h2 & E2 & X2 & L2). rewrite (mbind_ok _ _ _ _ _ E2).
  exists h2. split; [reflexivity|]. split; [exact X2|lia].
Qed.
Definition finished (e : event) (sk : list N) (aux : option (list N)) : res event :=
  match event_sign ser sha256 pubkey_of sign (compute_id ser sha256 e) sk aux with
  | (e, Ok _) => Ok e
  | (_, Err x) => Err x
  | (_, Undef) => Undef
  end.
Notation part_signed := (part_signed print sha256 pubkey_of sign).
Definition same_but_proof (e0 e : event) : Prop := ev_created e = ev_created e0 /\ ev_kind e = ev_kind e0 /\ ev_tags e = ev_tags e0 /\ ev_content e = ev_content e0.
Lemma finish_m_ok c sk aux h l : event_sound c -> holds h (owned c ++ l) ->
  exists p x h' lost, finish_m grant print sha256 pubkey_of sign c sk aux h = Ok ((p, x), h') /\ h_next h <= h_next h' /\
  delivers (fun e => part_signed sk aux e /\ same_but_proof (ce_val c) e) p x h' (lost ++ l) /\ (x <> None -> p = None) /\
  (granted h h' -> lost = [] /\ agrees (finished (ce_val c) sk aux) p x).
Proof.
  intros ES X. unfold finish_m.
  destruct (C109_id grant print sha256 (ce_val c) h _ X) as (e2 & x2 & h2 & lost & E2 & L2 & X2 & G2 & T2 & F2). rewrite (mbind_ok _ _ _ _ _ E2).
  apply (holds_perm _ _ (owned c ++ lost ++ l)) in X2; [|rewrite !app_assoc; apply Permutation_app_tail, Permutation_app_comm].
  destruct x2 as [r|].
  { destruct (abandon_ok c r h2 _ X2) as (h3 & E3 & X3 & L3). exists None, (Some r), h3, lost. split; [exact E3|]. split; [lia|]. split; [right; split; [discriminate|exact X3]|]. split; [reflexivity|].
    intros G. destruct (G2 ltac:(less G)) as (Q & _). discriminate Q. }
  destruct (C110_sign grant print sha256 pubkey_of sign e2 sk aux h2 _ X2) as (e3 & x3 & h3 & lost3 & E3 & L3 & X3 & G3 & T3). rewrite (mbind_ok _ _ _ _ _ E3).
  apply (holds_perm _ _ (owned c ++ (lost3 ++ lost) ++ l)) in X3.
  2:{ apply (proj2 (Permutation_count_occ Nat.eq_dec _ _)). intros z. rewrite !count_occ_app. lia. }
  assert (GG : forall h4, h_next h3 <= h_next h4 -> granted h h4 -> lost3 ++ lost = [] /\ finished (ce_val c) sk aux = match x3 with None => Ok e3 | Some r => Err r end).
  { intros h4 L4 G. destruct (G2 ltac:(less G)) as (_ & -> & ->). destruct (G3 ltac:(less G)) as (-> & Q). split; [reflexivity|]. unfold finished. rewrite Q. destruct x3; reflexivity. }
  destruct x3 as [r|].
  - destruct (abandon_ok c r h3 _ X3) as (h4 & E4 & X4 & L4). exists None, (Some r), h4, (lost3 ++ lost). split; [exact E4|]. split; [lia|]. split; [right; split; [discriminate|exact X4]|]. split; [reflexivity|].
    intros G. destruct (GG h4 ltac:(lia) G) as (-> & Q). split; [reflexivity|]. unfold agrees. rewrite Q. reflexivity.
  - rewrite (mbind_ok _ _ _ _ _ (use_holds (ce_self c) h3 _ X3 ltac:(left; reflexivity))).
    eexists. exists None, h3, (lost3 ++ lost). split; [reflexivity|]. split; [lia|]. split; [|split; [congruence|]].
    + left. split; [reflexivity|]. eexists. split; [reflexivity|].
      destruct (T3 eq_refl) as (me & t & rr & sg & P1 & P2 & P3 & P4 & P5). destruct (T2 eq_refl) as (t2 & _ & P6).
      assert (SH : ev_content e3 = ev_content (ce_val c) /\ ev_tags e3 = ev_tags (ce_val c)) by (rewrite P5, P6; split; reflexivity).
      split; [destruct ES; constructor; cbn [with_val ce_content ce_val ce_tags ce_cap ce_used]; rewrite ?(proj1 SH), ?(proj2 SH); assumption|]. split; [exact X3|].
      cbn [with_val ce_val]. split; [|rewrite P5, P6; repeat split; reflexivity].
      exists t, rr. rewrite P5. split; [exact P1|]. split; [exact P2|]. split; [exact P3|]. split; [reflexivity|exact P4].
    + intros G. destruct (GG h3 ltac:(lia) G) as (-> & Q). split; [reflexivity|]. unfold agrees. rewrite Q. split; [reflexivity|]. eexists. split; reflexivity.
Qed.
(** Tags, one after the other. *)
Fixpoint with_tags (e : event) (ts : list (list (list N))) : res event :=
  match ts with
  | [] => Ok e
  | vs :: r => do e' <- GiftWrap.add_tag lim e vs; with_tags e' r
  end.
Definition all_space (ts : list (list (list N))) : N := fold_right (fun vs n => (space vs + n)%N) 0%N ts.
Lemma tags_m_ok : forall ts c h l, event_sound c -> holds h (owned c ++ l) -> Forall (fun vs => vs <> []) ts ->
  exists c' x h', tags_m grant lim c ts h = Ok ((c', x), h') /\ event_sound c' /\ holds h' (owned c' ++ l) /\ h_next h <= h_next h' /\
  (x = None -> ce_val c' = fold_left tagged ts (ce_val c)) /\
  (granted h h' -> (ce_used c + all_space ts <= 2 ^ 62)%N ->
    match with_tags (ce_val c) ts with Ok e => x = None /\ ce_val c' = e | Err r => x = Some r | Undef => False end).
Proof.
  induction ts as [|vs ts IH]; intros c h l ES X NE; cbn [tags_m with_tags fold_left].
  { exists c, None, h. split; [reflexivity|]. split; [exact ES|]. split; [exact X|]. split; [lia|]. auto. }
  pose proof (Forall_inv NE) as NE1. pose proof (Forall_inv_tail NE) as NE2.
  destruct (C107_tag grant lim c vs h l ES X) as (c1 & x1 & h1 & E1 & ES1 & X1 & L1 & R & U). rewrite (mbind_ok _ _ _ _ _ E1).
  assert (SP : (space vs <= all_space (vs :: ts))%N) by (cbn [all_space fold_right]; lia).
  assert (BIG : (2 ^ 62 < 2 ^ 64)%N) by reflexivity.
  destruct R as [(-> & V & _ & NF)|R].
  - destruct (IH c1 h1 l ES1 X1 NE2) as (c' & x & h' & E & ES' & X' & L' & V' & G'). exists c', x, h'. split; [exact E|]. split; [exact ES'|]. split; [exact X'|]. split; [lia|]. split; [intros Q; rewrite V', V by exact Q; reflexivity|].
    intros G B. assert (AT : GiftWrap.add_tag lim (ce_val c) vs = Ok (tagged (ce_val c) vs)).
    { unfold GiftWrap.add_tag. destruct lim as [m|] eqn:LM; [|reflexivity]. destruct (N.leb_spec (max_tags m) (N.of_nat (length (ev_tags (ce_val c))))); [|reflexivity]. destruct NF. exists m. auto. }
    rewrite AT. cbn [bind]. rewrite <- V. apply G'; [less G|]. rewrite U by reflexivity. cbn [all_space fold_right] in B. unfold all_space. lia.
  - assert (X1' : exists r, x1 = Some r) by (destruct R as [(-> & _)|(-> & _)]; eauto). destruct X1' as (r & ->).
    exists c1, (Some r), h1. split; [reflexivity|]. split; [exact ES1|]. split; [exact X1|]. split; [exact L1|]. split; [discriminate|]. intros G B.
    destruct R as [(Q & _ & [A|[A|A]])|(_ & _ & [A|A])]; [congruence| |lia| |lia].
    + unfold GiftWrap.add_tag. destruct A as (m & -> & A). apply N.leb_le in A. rewrite A. exact Q.
    + destruct (not_failed grant _ _ h h1 A (le_n _) (le_n _) G).
Qed.
Lemma create_ok now h l : holds h l ->
  exists p x h', event_create grant now h = Ok ((p, x), h') /\ h_next h <= h_next h' /\
  ((x = None /\ exists c, p = Some c /\ event_sound c /\ holds h' (owned c ++ l) /\ ce_val c = blank now /\ ce_used c = 0%N) \/
   (x = Some EMemory /\ holds h' l /\ ~ granted h h')).
Proof.
  intros X. destruct (C107_create grant now h l X) as (p & x & h' & E & L & [(-> & c & -> & ES & X' & V)|(-> & X' & F)]).
  - exists (Some c), None, h'. split; [exact E|]. split; [exact L|]. left. split; [reflexivity|]. exists c. split; [reflexivity|]. split; [exact ES|]. split; [exact X'|]. split; [exact V|]. exact (create_used _ _ _ _ _ E).
  - exists p, (Some EMemory), h'. split; [exact E|]. split; [exact L|]. right. split; [reflexivity|]. split; [exact X'|]. apply (not_failed grant _ _ h h' F); lia.
Qed.
Lemma fill_sound c k pk t : event_sound c -> event_sound (fill c k pk t).
Proof. intros [A B C D]. constructor; assumption. Qed.
Lemma encrypt_defined sk pk n s : encrypt sk pk n s <> Undef.
Proof.
  unfold GiftWrap.encrypt, nip44_encrypt. destruct n as [n|]; [|discriminate].
  assert (P : pad_plaintext lim44 s <> Undef).
  { destruct (N.lt_ge_cases (blen s) (lim_min lim44)) as [A|A].
    - unfold pad_plaintext. apply N.ltb_lt in A. rewrite A. discriminate.
    - destruct (N.lt_ge_cases (lim_max lim44) (blen s)) as [B|B].
      + unfold pad_plaintext. apply N.ltb_lt in B. rewrite B, Bool.orb_true_r. discriminate.
      + rewrite (pad_ok lim44 s limits44 (conj A B)). discriminate. }
  destruct (pad_plaintext lim44 s) as [b| |]; cbn [bind]; [|discriminate|congruence]. destruct (nce sk pk n b) as [[]|]; discriminate.
Qed.

(** ** C142: sending *)
(** An unsigned event: for every pattern of failing allocations the call ends properly
    and leaves either the event or nothing.  Short of memory the id may be that of part
    of the event. *)
Theorem C142_rumor : forall kind pk content created now h rest, holds h rest -> match content with Some (b, _) => In b rest | None => True end ->
  exists p x h' lost, create_rumor_m grant print sha256 kind pk content created now h = Ok ((p, x), h') /\ h_next h <= h_next h' /\
  delivers (fun e => ev_pubkey e = pk /\ ev_kind e = kind /\ ev_created e = (if created =? 0 then now else created)%Z /\ ev_tags e = [] /\
    ev_content e = option_map snd content /\ ev_sig e = repeat 0%N 64 /\ exists t, thin (id_tree e) t /\ ev_id e = sha256 (print t)) p x h' (lost ++ rest) /\
  (forall c, p = Some c -> x = None -> ce_used c = 0%N) /\
  (granted h h' -> lost = [] /\ agrees (Ok (create_rumor ser sha256 kind pk (option_map snd content) created now)) p x).
Proof.
  intros kind pk content created now h rest X IB. unfold create_rumor_m. destruct (create_ok now h rest X) as (p & x & h1 & E1 & L1 & R1). rewrite (mbind_ok _ _ _ _ _ E1).
  destruct R1 as [(-> & c & -> & ES & X1 & V1 & U1)|(-> & X1 & NG)].
  2:{ exists p, (Some EMemory), h1, []. split; [destruct p; reflexivity|]. split; [exact L1|]. split; [right; split; [discriminate|exact X1]|]. split; [discriminate|]. intros G. destruct (NG G). }
  cbv zeta. set (at' := (if created =? 0 then now else created)%Z). set (c0 := fill c kind pk at').
  assert (ES0 : event_sound c0) by (apply fill_sound; exact ES). assert (X0 : holds h1 (owned c0 ++ rest)) by exact X1.
  assert (SC : exists c2 x2 h2, match content with Some (b, t) => set_content grant c0 b t | None => mret (c0, None) end h1 = Ok ((c2, x2), h2) /\ event_sound c2 /\ holds h2 (owned c2 ++ rest) /\
    h_next h1 <= h_next h2 /\ ce_used c2 = 0%N /\ ((x2 = None /\ ce_val c2 = saying (ce_val c0) (option_map snd content)) \/ (x2 = Some EMemory /\ ~ granted h1 h2))).
  { destruct content as [[b t]|].
    - destruct (C107_content grant c0 b t h1 rest ES0 X0 IB) as (c2 & x2 & h2 & E2 & ES2 & X2 & L2 & R2). exists c2, x2, h2. split; [exact E2|]. split; [exact ES2|]. split; [exact X2|]. split; [exact L2|].
      split; [rewrite (content_used _ _ _ _ _ _ _ _ E2); exact U1|]. destruct R2 as [R2|(-> & _ & F)]; [left; exact R2|right]. split; [reflexivity|]. apply (not_failed grant _ _ h1 h2 F); lia.
    - exists c0, None, h1. split; [reflexivity|]. split; [exact ES0|]. split; [exact X0|]. split; [lia|]. split; [exact U1|]. left. split; [reflexivity|]. unfold c0, fill. cbn [with_val ce_val]. rewrite V1. reflexivity. }
  destruct SC as (c2 & x2 & h2 & E2 & ES2 & X2 & L2 & U2 & R2). rewrite (mbind_ok _ _ _ _ _ E2).
  destruct R2 as [(-> & V2)|(-> & NG)].
  2:{ destruct (abandon_ok c2 EMemory h2 _ X2) as (h3 & E3 & X3 & L3). exists None, (Some EMemory), h3, []. split; [exact E3|]. split; [lia|]. split; [right; split; [discriminate|exact X3]|]. split; [discriminate|]. intros G. destruct NG. less G. }
  assert (V : ce_val c2 = mkEvent (repeat 0%N 32) pk at' kind [] (option_map snd content) (repeat 0%N 64)) by (rewrite V2; unfold c0, fill; cbn [with_val ce_val]; rewrite V1; reflexivity).
  destruct (C109_id grant print sha256 (ce_val c2) h2 _ X2) as (e3 & x3 & h3 & lost & E3 & L3 & X3 & G3 & T3 & F3). rewrite (mbind_ok _ _ _ _ _ E3).
  apply (holds_perm _ _ (owned c2 ++ lost ++ rest)) in X3; [|rewrite !app_assoc; apply Permutation_app_tail, Permutation_app_comm].
  destruct x3 as [r|].
  { destruct (abandon_ok c2 r h3 _ X3) as (h4 & E4 & X4 & L4). exists None, (Some r), h4, lost. split; [exact E4|]. split; [lia|]. split; [right; split; [discriminate|exact X4]|]. split; [discriminate|].
    intros G. destruct (G3 ltac:(less G)) as (Q & _). discriminate Q. }
  rewrite (mbind_ok _ _ _ _ _ (use_holds (ce_self c2) h3 _ X3 ltac:(left; reflexivity))).
  eexists. exists None, h3, lost. split; [reflexivity|]. split; [lia|]. destruct (T3 eq_refl) as (t & TT & ->). split; [|split].
  - left. split; [reflexivity|]. eexists. split; [reflexivity|]. split; [destruct ES2; constructor; assumption|]. split; [exact X3|]. cbn [with_val ce_val]. rewrite V in *. cbn [set_sig set_id ev_pubkey ev_kind ev_created ev_tags ev_content ev_sig ev_id].
    do 6 (split; [reflexivity|]). exists t. split; [exact TT|reflexivity].
  - intros c' Q _. assert (c' = with_val c2 (set_sig (set_id (ce_val c2) (sha256 (print t))) (repeat 0%N 64))) by congruence. subst c'. exact U2.
  - intros G. destruct (G3 ltac:(less G)) as (_ & Q & ->). split; [reflexivity|]. cbn [agrees]. split; [reflexivity|]. eexists. split; [reflexivity|]. cbn [with_val ce_val]. rewrite Q, V. reflexivity.
Qed.

Section Stamp.
Variable stamp : option N -> Z -> res Z.
Hypothesis stamp_defined : forall d now, stamp d now <> Undef.
Definition seal_value (t : list N) (sk : list N) (d : seal_draws) : res event :=
  do created <- stamp (sd_time d) (sd_now d);
  match pubkey_of sk with
  | None => Err EInvalidKey
  | Some own => finished (mkEvent (repeat 0%N 32) own created KIND_SEAL [] (Some t) (repeat 0%N 64)) sk (sd_aux d)
  end.
Definition sealed (t : list N) (sk : list N) (d : seal_draws) (e : event) : Prop :=
  part_signed sk (sd_aux d) e /\ stamp (sd_time d) (sd_now d) = Ok (ev_created e) /\ ev_kind e = 13%N /\ ev_tags e = [] /\ ev_content e = Some t.
Lemma seal_from_ok q t sk d h l : holds h (q :: l) ->
  exists p x h' lost, seal_from grant print sha256 pubkey_of sign stamp q t sk d h = Ok ((p, x), h') /\ h_next h <= h_next h' /\
  delivers (sealed t sk d) p x h' (lost ++ l) /\ (granted h h' -> lost = [] /\ (x <> None -> p = None) /\ agrees (seal_value t sk d) p x).
Proof.
  intros X. unfold seal_from, seal_value. destruct (create_ok (sd_now d) h _ X) as (p & x & h1 & E1 & L1 & R1). rewrite (mbind_ok _ _ _ _ _ E1).
  destruct R1 as [(-> & c & -> & ES & X1 & V1 & U1)|(-> & X1 & NG)].
  2:{ destruct (free_holds _ _ _ X1) as (h2 & E2 & X2 & L2). exists p, (Some EMemory), h2, []. split; [destruct p; rewrite (mbind_ok _ _ _ _ _ E2); reflexivity|]. split; [lia|]. split; [right; split; [discriminate|exact X2]|].
      intros G. destruct NG. less G. }
  assert (DR : forall r, exists p x h' lost, drop c q r h1 = Ok ((p, x), h') /\ h_next h <= h_next h' /\ delivers (sealed t sk d) p x h' (lost ++ l) /\ (granted h h' -> lost = [] /\ (x <> None -> p = None) /\ agrees (Err r) p x)).
  { intros r. destruct (drop_ok c q r h1 l X1) as (h2 & E2 & X2 & L2). exists None, (Some r), h2, []. split; [exact E2|]. split; [lia|]. split; [right; split; [discriminate|exact X2]|]. intros _. cbn [agrees]. auto. }
  pose proof (stamp_defined (sd_time d) (sd_now d)) as SD. destruct (stamp (sd_time d) (sd_now d)) as [created|r|] eqn:ST; cbn [bind]; [|apply DR|congruence].
  destruct (pubkey_of sk) as [own|] eqn:PK; [|apply DR].
  destruct (move_ok (fill c KIND_SEAL own created) q t h1 l (fill_sound _ _ _ _ ES) X1) as (c2 & x2 & h2 & E2 & ES2 & X2 & L2 & U2 & R2). rewrite (mbind_ok _ _ _ _ _ E2).
  destruct R2 as [(-> & V2)|(-> & NG)].
  2:{ destruct (abandon_ok c2 EMemory h2 _ X2) as (h3 & E3 & X3 & L3). exists None, (Some EMemory), h3, []. split; [exact E3|]. split; [lia|]. split; [right; split; [discriminate|exact X3]|]. intros G. destruct NG. less G. }
  assert (V : ce_val c2 = mkEvent (repeat 0%N 32) own created KIND_SEAL [] (Some t) (repeat 0%N 64)) by (rewrite V2; unfold fill; cbn [with_val ce_val]; rewrite V1; reflexivity).
  destruct (finish_m_ok c2 sk (sd_aux d) h2 l ES2 X2) as (p & x & h3 & lost & E3 & L3 & D3 & N3 & G3). exists p, x, h3, lost. split; [exact E3|]. split; [lia|]. split.
  - destruct D3 as [(-> & c3 & -> & ES3 & X3 & PS & SB)|D3]; [left|right; exact D3]. split; [reflexivity|]. exists c3. split; [reflexivity|]. split; [exact ES3|]. split; [exact X3|].
    destruct SB as (S1 & S2 & S3 & S4). rewrite V in *. split; [exact PS|]. rewrite S1, S2, S3, S4. auto.
  - intros G. destruct (G3 ltac:(less G)) as (-> & A). rewrite V in A. auto.
Qed.
Notation Seal := (create_seal ser sha256 pubkey_of sign nce ncm b64enc print lim44 stamp).
Lemma seal_value_is rumor sk pk d : Seal rumor sk pk d = (do text <- encrypt sk pk (sd_nonce d) (event_to_json print rumor); seal_value text sk d).
Proof. reflexivity. Qed.
(** A seal: for every pattern of failing allocations the call ends properly and leaves
    either the seal or nothing.  Short of memory the seal may hold part of the message
    only.  If no allocation fails, the result is that of GiftWrap.v, and after an error
    the caller's variable holds what it held, or nothing. *)
Theorem C142_seal : forall old rumor sk pk d h rest, holds h rest -> incl (owned rumor) rest ->
  exists p x h' lost, create_seal_m grant print encrypt sha256 pubkey_of sign stamp old rumor sk pk d h = Ok ((p, x), h') /\ h_next h <= h_next h' /\
  delivers (fun e => part_signed sk (sd_aux d) e /\ stamp (sd_time d) (sd_now d) = Ok (ev_created e) /\ ev_kind e = 13%N /\ ev_tags e = [] /\
    part_of print (encrypt sk pk (sd_nonce d)) (ce_val rumor) e) p x h' (lost ++ rest) /\
  (granted h h' -> lost = [] /\ untouched old p x /\ agrees (Seal (ce_val rumor) sk pk d) p x).
Proof.
  intros old rumor sk pk d h rest X I. unfold create_seal_m. rewrite seal_value_is.
  destruct (json_m_ok rumor h rest X I) as (r & x1 & h1 & lost & E1 & X1 & L1 & G1 & T1 & F1). rewrite (mbind_ok _ _ _ _ _ E1).
  destruct x1 as [e|].
  { exists old, (Some e), h1, lost. rewrite F1 in * by discriminate. split; [reflexivity|]. split; [exact L1|]. split; [right; split; [discriminate|exact X1]|]. intros G. destruct (G1 G) as (Q & _). discriminate Q. }
  destruct (T1 eq_refl) as (b & j & -> & TH). cbn [text_blocks app] in X1.
  destruct (enc_m_ok b (encrypt sk pk (sd_nonce d) (print j)) h1 _ X1 (encrypt_defined _ _ _ _)) as (p2 & x2 & h2 & E2 & L2 & X2 & R2). rewrite (mbind_ok _ _ _ _ _ E2).
  assert (GJ : forall h', h_next h1 <= h_next h' -> granted h h' -> lost = [] /\ print j = event_to_json print (ce_val rumor)).
  { intros h' L G. destruct (G1 ltac:(less G)) as (_ & -> & b' & Q). split; [reflexivity|]. congruence. }
  destruct R2 as [(q & t & -> & -> & ENC)|(-> & e & -> & R2)].
  2:{ exists old, (Some e), h2, lost. split; [reflexivity|]. split; [lia|]. split; [right; split; [discriminate|exact X2]|]. intros G. destruct (GJ h2 L2 G) as (-> & Q). split; [reflexivity|]. split; [intros _; left; reflexivity|].
      rewrite <- Q. destruct R2 as [-> | (_ & NG)]; [reflexivity|]. destruct NG. less G. }
  cbn [text_blocks app] in X2. destruct (seal_from_ok q t sk d h2 _ X2) as (p & x & h3 & lost3 & E3 & L3 & D3 & G3). exists p, x, h3, (lost3 ++ lost). split; [exact E3|]. split; [lia|]. split.
  - rewrite <- app_assoc. destruct D3 as [(-> & c3 & -> & ES3 & X3 & PS & S1 & S2 & S3 & S4)|D3]; [left|right; exact D3]. split; [reflexivity|]. exists c3. split; [reflexivity|]. split; [exact ES3|]. split; [exact X3|].
    split; [exact PS|]. split; [exact S1|]. split; [exact S2|]. split; [exact S3|]. exists j, t. auto.
  - intros G. destruct (GJ h3 ltac:(lia) G) as (-> & Q). destruct (G3 ltac:(less G)) as (-> & N3 & A). split; [reflexivity|]. split; [intros NE; right; exact (N3 NE)|]. rewrite <- Q, ENC. exact A.
Qed.

(** *** The gift wrap *)
(** A seal whose time cannot be drawn is never handed out: an error is reported, nothing
    is kept, and with enough memory the caller's variable is untouched or empty. *)
Theorem C142_no_time : forall old rumor sk pk d h rest, holds h rest -> incl (owned rumor) rest -> (forall t, stamp (sd_time d) (sd_now d) <> Ok t) ->
  exists p x h' lost, create_seal_m grant print encrypt sha256 pubkey_of sign stamp old rumor sk pk d h = Ok ((p, x), h') /\ x <> None /\ holds h' (lost ++ rest) /\ (granted h h' -> lost = [] /\ (p = old \/ p = None)).
Proof.
  intros old rumor sk pk d h rest X I B. destruct (C142_seal old rumor sk pk d h rest X I) as (p & x & h' & lost & E & _ & D & G). exists p, x, h', lost. split; [exact E|].
  destruct D as [(_ & c & _ & _ & _ & _ & T & _)|(NE & X')]; [destruct (B _ T)|]. split; [exact NE|]. split; [exact X'|]. intros GG. destruct (G GG) as (-> & U & _). split; [reflexivity|exact (U NE)].
Qed.
Notation Wrap := (create_gift_wrap ser sha256 pubkey_of sign seckey_valid nce ncm b64enc print lim44 lim stamp).
Definition wrap_value (t : list N) (k : list N * list N) (pk : list N) (extra : list (list N)) (d : wrap_draws) : res event :=
  do created <- stamp (wd_time d) (wd_now d);
  do w <- with_tags (mkEvent (repeat 0%N 32) (snd k) created KIND_GIFT_WRAP [] (Some t) (repeat 0%N 64)) ([bs "p"; hex_encode pk] :: pair_tags extra);
  finished w (fst k) (wd_aux d).
Lemma pairs_with_tags : forall n extra e, length extra <= n -> add_pairs lim e extra = with_tags e (pair_tags extra).
Proof.
  induction n as [|n IH]; intros [|a [|b r]] e L; cbn in L; try lia; try reflexivity. cbn [add_pairs pair_tags with_tags]. destruct (GiftWrap.add_tag lim e [a; b]); cbn [bind]; try reflexivity. apply IH. lia.
Qed.
Lemma wrap_value_is seal pk extra d : Wrap seal pk extra d = (do k <- key_generate pubkey_of seckey_valid (wd_key d);
  do text <- encrypt (fst k) pk (wd_nonce d) (event_to_json print seal); wrap_value text k pk extra d).
Proof.
  unfold create_gift_wrap, wrap_value. destruct (key_generate _ _ _) as [k| |]; cbn [bind]; try reflexivity. destruct (GiftWrap.encrypt _ _ _ _ _ _ _ _) as [t| |]; cbn [bind]; try reflexivity.
  destruct (stamp _ _) as [created| |]; cbn [bind]; try reflexivity. cbn [with_tags]. destruct (GiftWrap.add_tag _ _ _) as [w| |]; cbn [bind]; try reflexivity.
  rewrite (pairs_with_tags _ _ w (le_n _)). destruct (with_tags _ _) as [w'| |]; reflexivity.
Qed.
Lemma pair_tags_some : forall n extra, length extra <= n -> Forall (fun vs => vs <> []) (pair_tags extra).
Proof. induction n as [|n IH]; intros [|a [|b r]] L; cbn in L; try lia; try constructor; [discriminate|]. apply IH. lia. Qed.
Definition wrapped (t : list N) (k : list N * list N) (pk : list N) (extra : list (list N)) (d : wrap_draws) (e : event) : Prop :=
  part_signed (fst k) (wd_aux d) e /\ stamp (wd_time d) (wd_now d) = Ok (ev_created e) /\ ev_kind e = 1059%N /\ ev_tags e = [bs "p"; hex_encode pk] :: pair_tags extra /\ ev_content e = Some t.
Lemma tags_folded : forall ts e, ev_tags (fold_left tagged ts e) = ev_tags e ++ ts /\ ev_kind (fold_left tagged ts e) = ev_kind e /\ ev_created (fold_left tagged ts e) = ev_created e /\ ev_content (fold_left tagged ts e) = ev_content e.
Proof. induction ts as [|a ts IH]; intros e; cbn [fold_left]; [rewrite app_nil_r; auto|]. destruct (IH (tagged e a)) as (A & B & C & D). rewrite A, B, C, D. cbn [tagged ev_tags ev_kind ev_created ev_content]. rewrite <- app_assoc. auto. Qed.
Lemma wrap_from_ok q t k pk extra d h l : holds h (q :: l) ->
  exists p x h' lost, wrap_from grant print sha256 pubkey_of sign lim stamp q t k pk extra d h = Ok ((p, x), h') /\ h_next h <= h_next h' /\
  delivers (wrapped t k pk extra d) p x h' (lost ++ l) /\
  (granted h h' -> (all_space ([bs "p"; hex_encode pk] :: pair_tags extra) <= 2 ^ 62)%N -> lost = [] /\ (x <> None -> p = None) /\ agrees (wrap_value t k pk extra d) p x).
Proof.
  intros X. unfold wrap_from, wrap_value. destruct (create_ok (wd_now d) h _ X) as (p & x & h1 & E1 & L1 & R1). rewrite (mbind_ok _ _ _ _ _ E1).
  destruct R1 as [(-> & c & -> & ES & X1 & V1 & U1)|(-> & X1 & NG)].
  2:{ destruct (free_holds _ _ _ X1) as (h2 & E2 & X2 & L2). exists p, (Some EMemory), h2, []. split; [destruct p; rewrite (mbind_ok _ _ _ _ _ E2); reflexivity|]. split; [lia|]. split; [right; split; [discriminate|exact X2]|].
      intros G. destruct NG. less G. }
  pose proof (stamp_defined (wd_time d) (wd_now d)) as SD. destruct (stamp (wd_time d) (wd_now d)) as [created|r|] eqn:ST; cbn [bind]; [| |congruence].
  2:{ destruct (drop_ok c q r h1 l X1) as (h2 & E2 & X2 & L2). exists None, (Some r), h2, []. split; [exact E2|]. split; [lia|]. split; [right; split; [discriminate|exact X2]|]. intros _ _. cbn [agrees]. auto. }
  destruct (move_ok (fill c KIND_GIFT_WRAP (snd k) created) q t h1 l (fill_sound _ _ _ _ ES) X1) as (c2 & x2 & h2 & E2 & ES2 & X2 & L2 & U2 & R2). rewrite (mbind_ok _ _ _ _ _ E2).
  destruct R2 as [(-> & V2)|(-> & NG)].
  2:{ destruct (abandon_ok c2 EMemory h2 _ X2) as (h3 & E3 & X3 & L3). exists None, (Some EMemory), h3, []. split; [exact E3|]. split; [lia|]. split; [right; split; [discriminate|exact X3]|]. intros G. destruct NG. less G. }
  assert (V : ce_val c2 = mkEvent (repeat 0%N 32) (snd k) created KIND_GIFT_WRAP [] (Some t) (repeat 0%N 64)) by (rewrite V2; unfold fill; cbn [with_val ce_val]; rewrite V1; reflexivity).
  assert (NE : Forall (fun vs : list (list N) => vs <> []) ([bs "p"; hex_encode pk] :: pair_tags extra)) by (constructor; [discriminate|apply (pair_tags_some _ _ (le_n _))]).
  destruct (tags_m_ok ([bs "p"; hex_encode pk] :: pair_tags extra) c2 h2 l ES2 X2 NE) as (c3 & x3 & h3 & E3 & ES3 & X3 & L3 & V3 & G3). rewrite (mbind_ok _ _ _ _ _ E3).
  rewrite V in G3. assert (U3 : ce_used c2 = 0%N) by (rewrite U2; exact U1). rewrite U3 in G3.
  destruct x3 as [r|].
  { destruct (abandon_ok c3 r h3 _ X3) as (h4 & E4 & X4 & L4). exists None, (Some r), h4, []. split; [exact E4|]. split; [lia|]. split; [right; split; [discriminate|exact X4]|]. intros G B. split; [reflexivity|]. split; [reflexivity|].
    specialize (G3 ltac:(less G) ltac:(lia)). destruct (with_tags _ _) as [w|r'|]; [destruct G3; discriminate| |contradiction]. cbn [bind agrees]. exact G3. }
  destruct (finish_m_ok c3 (fst k) (wd_aux d) h3 l ES3 X3) as (p & x & h4 & lost & E4 & L4 & D4 & N4 & G4). exists p, x, h4, lost. split; [exact E4|]. split; [lia|]. split.
  - destruct D4 as [(-> & c4 & -> & ES4 & X4 & PS & SB)|D4]; [left|right; exact D4]. split; [reflexivity|]. exists c4. split; [reflexivity|]. split; [exact ES4|]. split; [exact X4|].
    destruct SB as (S1 & S2 & S3 & S4). rewrite (V3 eq_refl), V in *. set (ts := [bs "p"; hex_encode pk] :: pair_tags extra) in *.
    destruct (tags_folded ts (mkEvent (repeat 0%N 32) (snd k) created KIND_GIFT_WRAP [] (Some t) (repeat 0%N 64))) as (F1 & F2 & F3 & F4). split; [exact PS|]. rewrite S1, S2, S3, S4, F1, F2, F3, F4. auto.
  - intros G B. specialize (G3 ltac:(less G) ltac:(lia)). destruct (G4 ltac:(less G)) as (-> & A). split; [reflexivity|]. split; [exact N4|]. destruct (with_tags _ _) as [w|r'|]; [|discriminate|contradiction].
    cbn [bind]. destruct G3 as (_ & <-). exact A.
Qed.
Lemma key_defined l : key_generate pubkey_of seckey_valid l <> Undef.
Proof.
  unfold key_generate. assert (A : forall n l, key_attempts seckey_valid n l <> Undef).
  { induction n as [|n IH]; intros [|[k|] r]; cbn [key_attempts]; try discriminate. destruct (seckey_valid k); [discriminate|apply IH]. }
  specialize (A 128 l). destruct (key_attempts _ _ _) as [sk| |]; cbn [bind]; try discriminate; [|congruence]. destruct (pubkey_of sk); discriminate.
Qed.
(** A gift wrap: the same.  It is signed with a key made for it, and it carries the
    recipient's tag and all extra tags even when memory runs out. *)
Theorem C142_wrap : forall old seal pk extra d h rest, holds h rest -> incl (owned seal) rest ->
  exists p x h' lost, create_gift_wrap_m grant print encrypt sha256 pubkey_of sign seckey_valid lim stamp old seal pk extra d h = Ok ((p, x), h') /\ h_next h <= h_next h' /\
  delivers (fun e => exists k, key_generate pubkey_of seckey_valid (wd_key d) = Ok k /\ part_signed (fst k) (wd_aux d) e /\ stamp (wd_time d) (wd_now d) = Ok (ev_created e) /\ ev_kind e = 1059%N /\
    ev_tags e = [bs "p"; hex_encode pk] :: pair_tags extra /\ part_of print (encrypt (fst k) pk (wd_nonce d)) (ce_val seal) e) p x h' (lost ++ rest) /\
  (granted h h' -> (all_space ([bs "p"; hex_encode pk] :: pair_tags extra) <= 2 ^ 62)%N -> lost = [] /\ untouched old p x /\ agrees (Wrap (ce_val seal) pk extra d) p x).
Proof.
  intros old seal pk extra d h rest X I. unfold create_gift_wrap_m. rewrite wrap_value_is.
  pose proof (key_defined (wd_key d)) as KD. destruct (key_generate pubkey_of seckey_valid (wd_key d)) as [k|r|]; cbn [bind]; [| |congruence].
  2:{ exists old, (Some r), h, []. split; [reflexivity|]. split; [lia|]. split; [right; split; [discriminate|exact X]|]. intros _ _. split; [reflexivity|]. split; [intros _; left; reflexivity|reflexivity]. }
  destruct (json_m_ok seal h rest X I) as (r & x1 & h1 & lost & E1 & X1 & L1 & G1 & T1 & F1). rewrite (mbind_ok _ _ _ _ _ E1).
  destruct x1 as [e|].
  { exists old, (Some e), h1, lost. rewrite F1 in * by discriminate. split; [reflexivity|]. split; [exact L1|]. split; [right; split; [discriminate|exact X1]|]. intros G. destruct (G1 G) as (Q & _). discriminate Q. }
  destruct (T1 eq_refl) as (b & j & -> & TH). cbn [text_blocks app] in X1.
  destruct (enc_m_ok b (encrypt (fst k) pk (wd_nonce d) (print j)) h1 _ X1 (encrypt_defined _ _ _ _)) as (p2 & x2 & h2 & E2 & L2 & X2 & R2). rewrite (mbind_ok _ _ _ _ _ E2).
  assert (GJ : forall h', h_next h1 <= h_next h' -> granted h h' -> lost = [] /\ print j = event_to_json print (ce_val seal)).
  { intros h' L G. destruct (G1 ltac:(less G)) as (_ & -> & b' & Q). split; [reflexivity|]. congruence. }
  destruct R2 as [(q & t & -> & -> & ENC)|(-> & e & -> & R2)].
  2:{ exists old, (Some e), h2, lost. split; [reflexivity|]. split; [lia|]. split; [right; split; [discriminate|exact X2]|]. intros G _. destruct (GJ h2 L2 G) as (-> & Q). split; [reflexivity|]. split; [intros _; left; reflexivity|].
      rewrite <- Q. destruct R2 as [-> | (_ & NG)]; [reflexivity|]. destruct NG. less G. }
  cbn [text_blocks app] in X2. destruct (wrap_from_ok q t k pk extra d h2 _ X2) as (p & x & h3 & lost3 & E3 & L3 & D3 & G3). exists p, x, h3, (lost3 ++ lost). split; [exact E3|]. split; [lia|]. split.
  - rewrite <- app_assoc. destruct D3 as [(-> & c3 & -> & ES3 & X3 & PS & S1 & S2 & S3 & S4)|D3]; [left|right; exact D3]. split; [reflexivity|]. exists c3. split; [reflexivity|]. split; [exact ES3|]. split; [exact X3|].
    exists k. split; [reflexivity|]. split; [exact PS|]. split; [exact S1|]. split; [exact S2|]. split; [exact S3|]. exists j, t. auto.
  - intros G B. destruct (GJ h3 ltac:(lia) G) as (-> & Q). destruct (G3 ltac:(less G) B) as (-> & N3 & A). split; [reflexivity|]. split; [intros NE; right; exact (N3 NE)|]. rewrite <- Q, ENC. exact A.
Qed.
End Stamp.

Lemma random_defined d now : random_timestamp d now <> Undef.
Proof. destruct d; discriminate. Qed.
Lemma randomize_defined d now : randomize_timestamp d now <> Undef.
Proof. destruct d; discriminate. Qed.
Lemma dm_rumor_is content own pk subject reply created now : dm_rumor ser sha256 lim content own pk subject reply created now =
  with_tags (create_rumor ser sha256 KIND_DM own (Some content) created now) (dm_tags pk subject reply).
Proof.
  unfold dm_rumor, dm_tags. cbn [with_tags app]. destruct (GiftWrap.add_tag lim _ [bs "p"; hex_encode pk]) as [r| |]; cbn [bind]; try reflexivity.
  destruct subject as [s|]; cbn [app with_tags bind].
  - destruct (GiftWrap.add_tag lim r [bs "subject"; s]) as [r'| |]; cbn [bind]; try reflexivity. destruct reply as [i|]; cbn [with_tags]; [|reflexivity].
    destruct (GiftWrap.add_tag lim r' [bs "e"; hex_encode i]) as [r''| |]; reflexivity.
  - destruct reply as [i|]; cbn [with_tags]; [|reflexivity]. destruct (GiftWrap.add_tag lim r [bs "e"; hex_encode i]) as [r''| |]; reflexivity.
Qed.
(** The layers of a message handed out: a wrap addressed to the recipient and signed with
    a fresh key, holding part of a seal signed by the sender, holding part of the message. *)
Definition layers (stamp : option N -> Z -> res Z) (sk pk : list N) (sd : seal_draws) (wd : wrap_draws) (inner : event -> Prop) (e : event) : Prop :=
  exists k seal msg, key_generate pubkey_of seckey_valid (wd_key wd) = Ok k /\ part_signed (fst k) (wd_aux wd) e /\ stamp (wd_time wd) (wd_now wd) = Ok (ev_created e) /\ ev_kind e = 1059%N /\
    ev_tags e = [[bs "p"; hex_encode pk]] /\ part_of print (encrypt (fst k) pk (wd_nonce wd)) seal e /\
    part_signed sk (sd_aux sd) seal /\ stamp (sd_time sd) (sd_now sd) = Ok (ev_created seal) /\ ev_kind seal = 13%N /\ ev_tags seal = [] /\ part_of print (encrypt sk pk (sd_nonce sd)) msg seal /\ inner msg.
(** Sending a direct message: all intermediate events and texts are released, whatever
    fails. *)
Theorem C142_send : forall old src content sk pk subject reply created now sd wd h rest, holds h rest -> In src rest -> length pk = 32 ->
  exists p x h' lost, send_dm_m grant print encrypt sha256 pubkey_of sign seckey_valid lim old src content sk pk subject reply created now sd wd h = Ok ((p, x), h') /\ h_next h <= h_next h' /\
  delivers (layers random_timestamp sk pk sd wd (fun m => pubkey_of sk = Some (ev_pubkey m) /\ ev_kind m = 14%N /\ ev_content m = Some content /\
    ev_created m = (if created =? 0 then now else created)%Z /\ ev_tags m = dm_tags pk subject reply)) p x h' (lost ++ rest) /\
  (granted h h' -> (all_space (dm_tags pk subject reply) <= 2 ^ 62)%N -> lost = [] /\ untouched old p x /\
    agrees (send_dm ser sha256 pubkey_of sign seckey_valid nce ncm b64enc print lim44 lim content sk pk subject reply created now sd wd) p x).
Proof.
  intros old src content sk pk subject reply created now sd wd h rest X IS PK. unfold send_dm_m, send_dm.
  assert (STOP : forall e h' lost, h_next h <= h_next h' -> holds h' (lost ++ rest) -> forall v, (granted h h' -> (all_space (dm_tags pk subject reply) <= 2 ^ 62)%N -> lost = [] /\ v = Err e) -> forall P,
    exists p x h'' lost', @Ok (option cevent * option err * heap) ((old, Some e), h') = Ok ((p, x), h'') /\ h_next h <= h_next h'' /\ delivers P p x h'' (lost' ++ rest) /\
    (granted h h'' -> (all_space (dm_tags pk subject reply) <= 2 ^ 62)%N -> lost' = [] /\ untouched old p x /\ agrees v p x)).
  { intros e h' lost L X' v A P. exists old, (Some e), h', lost. split; [reflexivity|]. split; [exact L|]. split; [right; split; [discriminate|exact X']|]. intros G B. destruct (A G B) as (-> & ->).
    split; [reflexivity|]. split; [intros _; left; reflexivity|reflexivity]. }
  destruct (pubkey_of sk) as [own|] eqn:PO.
  2:{ apply (STOP EInvalidKey h [] (le_n _) X). auto. }
  destruct (C142_rumor KIND_DM own (Some (src, content)) created now h rest X IS) as (p1 & x1 & h1 & lost1 & E1 & L1 & D1 & U1 & G1). rewrite (mbind_ok _ _ _ _ _ E1).
  destruct D1 as [(-> & c1 & -> & ES1 & X1 & P1)|(NE & X1)].
  2:{ destruct x1 as [e|]; [|congruence]. 
      destruct p1; apply (STOP e h1 lost1 L1 X1); intros G B; destruct (G1 G) as (_ & Q); destruct Q; discriminate. }
  rewrite dm_rumor_is. set (v1 := create_rumor ser sha256 KIND_DM own (Some content) created now) in *.
  assert (NT : Forall (fun vs : list (list N) => vs <> []) (dm_tags pk subject reply)) by (unfold dm_tags; destruct subject, reply; repeat (constructor; [discriminate|]); constructor).
  destruct (tags_m_ok (dm_tags pk subject reply) c1 h1 _ ES1 X1 NT) as (c2 & x2 & h2 & E2 & ES2 & X2 & L2 & V2 & G2). rewrite (mbind_ok _ _ _ _ _ E2).
  assert (C1 : granted h h2 -> lost1 = [] /\ ce_val c1 = v1).
  { intros G. destruct (G1 ltac:(less G)) as (-> & _ & c & Q & W). split; [reflexivity|]. assert (c = c1) by congruence. subst c. exact W. }
  rewrite (U1 c1 eq_refl eq_refl) in G2.
  destruct x2 as [e|].
  { destruct (C107_destroy c2 h2 _ X2) as (h3 & E3 & X3 & L3). rewrite (mbind_ok _ _ _ _ _ E3). apply (STOP e h3 lost1 ltac:(lia) X3). intros G B.
    destruct (C1 ltac:(less G)) as (-> & Q). split; [reflexivity|]. specialize (G2 ltac:(less G) ltac:(lia)). rewrite Q in G2. destruct (with_tags v1 _) as [w|r|]; [destruct G2; discriminate| |contradiction]. cbn [bind]. congruence. }
  assert (C2 : granted h h2 -> (all_space (dm_tags pk subject reply) <= 2 ^ 62)%N -> lost1 = [] /\ with_tags v1 (dm_tags pk subject reply) = Ok (ce_val c2)).
  { intros G B. destruct (C1 G) as (-> & Q). split; [reflexivity|]. specialize (G2 ltac:(less G) ltac:(lia)). rewrite Q in G2. destruct (with_tags v1 _) as [w|r|]; [|discriminate|contradiction]. destruct G2 as (_ & ->). reflexivity. }
  destruct (C142_seal random_timestamp random_defined None c2 sk pk sd h2 _ X2 ltac:(intros z Z; apply in_or_app; left; exact Z)) as (p3 & x3 & h3 & lost3 & E3 & L3 & D3 & G3). rewrite (mbind_ok _ _ _ _ _ E3).
  destruct D3 as [(-> & seal & -> & ES3 & X3 & P3)|(NE & X3)].
  2:{ apply (holds_perm _ _ (owned c2 ++ (lost3 ++ lost1) ++ rest)) in X3; [|apply (proj2 (Permutation_count_occ Nat.eq_dec _ _)); intros z; rewrite !count_occ_app; lia].
      destruct (C107_destroy c2 h3 _ X3) as (h4 & E4 & X4 & L4). rewrite (mbind_ok _ _ _ _ _ E4). destruct x3 as [e|]; [|congruence].
      destruct p3; apply (STOP e h4 (lost3 ++ lost1) ltac:(lia) X4); intros G B; destruct (C2 ltac:(less G) B) as (-> & ->); destruct (G3 ltac:(less G)) as (-> & _ & A); (split; [reflexivity|]);
      cbn [bind]; destruct (create_seal _ _ _ _ _ _ _ _ _ _ _ _ _ _) as [w|r|]; cbn [agrees bind] in *; (try contradiction); [destruct A; discriminate|congruence|destruct A; discriminate|congruence]. }
  apply (holds_perm _ _ (owned c2 ++ owned seal ++ (lost3 ++ lost1) ++ rest)) in X3; [|apply (proj2 (Permutation_count_occ Nat.eq_dec _ _)); intros z; rewrite !count_occ_app; lia].
  destruct (C107_destroy c2 h3 _ X3) as (h4 & E4 & X4 & L4). rewrite (mbind_ok _ _ _ _ _ E4).
  destruct (C142_wrap random_timestamp random_defined old seal pk [] wd h4 _ X4 ltac:(intros z Z; apply in_or_app; left; exact Z)) as (p5 & x5 & h5 & lost5 & E5 & L5 & D5 & G5). rewrite (mbind_ok _ _ _ _ _ E5).
  assert (B5 : (all_space ([bs "p"; hex_encode pk] :: pair_tags []) <= 2 ^ 62)%N).
  { cbn [pair_tags all_space fold_right]. rewrite !space_cons, EventProofs.hex_encode_length, PK. vm_compute. discriminate. }
  assert (GG : forall h6, h_next h5 <= h_next h6 -> granted h h6 -> (all_space (dm_tags pk subject reply) <= 2 ^ 62)%N -> lost5 ++ lost3 ++ lost1 = [] /\ untouched old p5 x5 /\
    agrees (do rumor <- with_tags v1 (dm_tags pk subject reply); do seal <- create_seal ser sha256 pubkey_of sign nce ncm b64enc print lim44 random_timestamp rumor sk pk sd;
      create_gift_wrap ser sha256 pubkey_of sign seckey_valid nce ncm b64enc print lim44 lim random_timestamp seal pk [] wd) p5 x5).
  { intros h6 L6 G B. destruct (C2 ltac:(less G) B) as (-> & ->). destruct (G3 ltac:(less G)) as (-> & _ & A). destruct (G5 ltac:(less G) B5) as (-> & UT & A5). split; [reflexivity|]. split; [exact UT|].
    cbn [bind]. destruct (create_seal _ _ _ _ _ _ _ _ _ _ _ _ _ _) as [w|r|]; cbn [agrees bind] in *; [|discriminate|contradiction].
    destruct A as (_ & c & Q & W). assert (c = seal) by congruence. subst c. rewrite <- W. exact A5. }
  destruct D5 as [(-> & w & -> & ES5 & X5 & k & K & K1 & K2 & K3 & K4 & K5)|(NE & X5)].
  - apply (holds_perm _ _ (owned seal ++ owned w ++ (lost5 ++ lost3 ++ lost1) ++ rest)) in X5; [|apply (proj2 (Permutation_count_occ Nat.eq_dec _ _)); intros z; rewrite !count_occ_app; lia].
    destruct (C107_destroy seal h5 _ X5) as (h6 & E6 & X6 & L6). rewrite (mbind_ok _ _ _ _ _ E6). exists (Some w), None, h6, (lost5 ++ lost3 ++ lost1). split; [reflexivity|]. split; [lia|]. split; [|apply GG; lia].
    left. split; [reflexivity|]. exists w. split; [reflexivity|]. split; [exact ES5|]. split; [exact X6|]. destruct P3 as (S1 & S2 & S3 & S4 & S5).
    exists k, (ce_val seal), (ce_val c2). do 5 (split; [assumption|]). split; [exact K5|]. do 5 (split; [assumption|]).
    rewrite (V2 eq_refl). destruct (tags_folded (dm_tags pk subject reply) (ce_val c1)) as (F1 & F2 & F3 & F4). rewrite F1, F2, F3, F4.
    assert (PKF : forall ts e, ev_pubkey (fold_left tagged ts e) = ev_pubkey e) by (induction ts; intros e0; cbn [fold_left]; [reflexivity|rewrite IHts; reflexivity]). rewrite PKF.
    destruct P1 as (Q1 & Q2 & Q3 & Q4 & Q5 & _). rewrite Q1, Q2, Q3, Q4, Q5. auto.
  - apply (holds_perm _ _ (owned seal ++ (lost5 ++ lost3 ++ lost1) ++ rest)) in X5; [|apply (proj2 (Permutation_count_occ Nat.eq_dec _ _)); intros z; rewrite !count_occ_app; lia].
    destruct (C107_destroy seal h5 _ X5) as (h6 & E6 & X6 & L6). rewrite (mbind_ok _ _ _ _ _ E6). exists p5, x5, h6, (lost5 ++ lost3 ++ lost1). split; [reflexivity|]. split; [lia|]. split; [|apply GG; lia].
    right. split; [exact NE|exact X6].
Qed.

Lemma inner_seal_ok b s sk pk d h l : holds h (b :: l) ->
  exists p x h' lost, inner_seal grant print encrypt sha256 pubkey_of sign b s sk pk d h = Ok ((p, x), h') /\ h_next h <= h_next h' /\
  delivers (fun e => exists t, encrypt sk pk (sd_nonce d) s = Ok t /\ sealed randomize_timestamp t sk d e) p x h' (lost ++ l) /\
  (granted h h' -> lost = [] /\ agrees (match pubkey_of sk with None => Err EInvalidKey | Some _ => do t <- encrypt sk pk (sd_nonce d) s; seal_value randomize_timestamp t sk d end) p x).
Proof.
  intros X. unfold inner_seal, seal_value. destruct (create_ok (sd_now d) h _ X) as (p & x & h1 & E1 & L1 & R1). rewrite (mbind_ok _ _ _ _ _ E1).
  destruct R1 as [(-> & c & -> & ES & X1 & V1 & U1)|(-> & X1 & NG)].
  2:{ destruct (free_holds _ _ _ X1) as (h2 & E2 & X2 & L2). exists p, (Some EMemory), h2, []. split; [destruct p; rewrite (mbind_ok _ _ _ _ _ E2); reflexivity|]. split; [lia|]. split; [right; split; [discriminate|exact X2]|].
      intros G. destruct NG. less G. }
  destruct (randomize_timestamp (sd_time d) (sd_now d)) as [created|r|] eqn:ST; [|destruct (sd_time d); discriminate ST|destruct (randomize_defined _ _ ST)].
  destruct (pubkey_of sk) as [own|] eqn:PK.
  2:{ destruct (drop_ok c b EInvalidKey h1 l X1) as (h2 & E2 & X2 & L2). exists None, (Some EInvalidKey), h2, []. split; [exact E2|]. split; [lia|]. split; [right; split; [discriminate|exact X2]|]. intros _. cbn [agrees]. auto. }
  cbv zeta. set (c0 := fill c KIND_SEAL own created). assert (ES0 : event_sound c0) by (apply fill_sound; exact ES).
  apply (holds_perm _ _ (b :: owned c0 ++ l)) in X1; [|symmetry; apply Permutation_middle].
  destruct (enc_m_ok b (encrypt sk pk (sd_nonce d) s) h1 _ X1 (encrypt_defined _ _ _ _)) as (p2 & x2 & h2 & E2 & L2 & X2 & R2). rewrite (mbind_ok _ _ _ _ _ E2).
  destruct R2 as [(q & t & -> & -> & ENC)|(-> & e & -> & R2)].
  2:{ destruct (abandon_ok c0 e h2 _ X2) as (h3 & E3 & X3 & L3). exists None, (Some e), h3, []. split; [exact E3|]. split; [lia|]. split; [right; split; [discriminate|exact X3]|]. intros G. split; [reflexivity|].
      destruct R2 as [-> | (_ & NG)]; [reflexivity|]. destruct NG. less G. }
  rewrite ENC. cbn [bind text_blocks app] in *. apply (holds_perm _ _ (owned c0 ++ q :: l)) in X2; [|apply Permutation_middle].
  destruct (move_ok c0 q t h2 l ES0 X2) as (c3 & x3 & h3 & E3 & ES3 & X3 & L3 & _ & R3). rewrite (mbind_ok _ _ _ _ _ E3).
  destruct R3 as [(-> & V3)|(-> & NG)].
  2:{ destruct (abandon_ok c3 EMemory h3 _ X3) as (h4 & E4 & X4 & L4). exists None, (Some EMemory), h4, []. split; [exact E4|]. split; [lia|]. split; [right; split; [discriminate|exact X4]|]. intros G. destruct NG. less G. }
  assert (V : ce_val c3 = mkEvent (repeat 0%N 32) own created KIND_SEAL [] (Some t) (repeat 0%N 64)) by (rewrite V3; unfold c0, fill; cbn [with_val ce_val]; rewrite V1; reflexivity).
  destruct (finish_m_ok c3 sk (sd_aux d) h3 l ES3 X3) as (p & x & h4 & lost & E4 & L4 & D4 & N4 & G4). exists p, x, h4, lost. split; [exact E4|]. split; [lia|]. split.
  - destruct D4 as [(-> & c4 & -> & ES4 & X4 & PS & SB)|D4]; [left|right; exact D4]. split; [reflexivity|]. exists c4. split; [reflexivity|]. split; [exact ES4|]. split; [exact X4|].
    destruct SB as (S1 & S2 & S3 & S4). rewrite V in *. exists t. split; [reflexivity|]. split; [exact PS|]. rewrite S1, S2, S3, S4. auto.
  - intros G. destruct (G4 ltac:(less G)) as (-> & A). rewrite V in A. auto.
Qed.
(** Wrapping an event in one call: the same. *)
Theorem C142_wrap_event : forall old e sk pk sd wd h rest, holds h rest -> incl (owned e) rest -> length pk = 32 ->
  exists p x h' lost, wrap_event_m grant print encrypt sha256 pubkey_of sign seckey_valid lim old e sk pk sd wd h = Ok ((p, x), h') /\ h_next h <= h_next h' /\
  delivers (layers randomize_timestamp sk pk sd wd (fun m => m = ce_val e)) p x h' (lost ++ rest) /\
  (granted h h' -> lost = [] /\ untouched old p x /\ agrees (wrap_event ser sha256 pubkey_of sign seckey_valid nce ncm b64enc print lim44 lim (ce_val e) sk pk sd wd) p x).
Proof.
  intros old e sk pk sd wd h rest X I PK. unfold wrap_event_m, wrap_event.
  assert (STOP : forall r h' lost, h_next h <= h_next h' -> holds h' (lost ++ rest) -> forall v, (granted h h' -> lost = [] /\ v = Err r) -> forall P,
    exists p x h'' lost', @Ok (option cevent * option err * heap) ((old, Some r), h') = Ok ((p, x), h'') /\ h_next h <= h_next h'' /\ delivers P p x h'' (lost' ++ rest) /\
    (granted h h'' -> lost' = [] /\ untouched old p x /\ agrees v p x)).
  { intros r h' lost L X' v A P. exists old, (Some r), h', lost. split; [reflexivity|]. split; [exact L|]. split; [right; split; [discriminate|exact X']|]. intros G. destruct (A G) as (-> & ->).
    split; [reflexivity|]. split; [intros _; left; reflexivity|reflexivity]. }
  destruct (json_m_ok e h rest X I) as (r & x1 & h1 & lost & E1 & X1 & L1 & G1 & T1 & F1). rewrite (mbind_ok _ _ _ _ _ E1).
  destruct x1 as [er|].
  { rewrite F1 in * by discriminate. apply (STOP er h1 lost L1 X1). intros G. destruct (G1 G) as (Q & _). discriminate Q. }
  destruct (T1 eq_refl) as (b & j & -> & TH). cbn [text_blocks app] in X1.
  destruct (inner_seal_ok b (print j) sk pk sd h1 _ X1) as (p2 & x2 & h2 & lost2 & E2 & L2 & D2 & G2). rewrite (mbind_ok _ _ _ _ _ E2).
  assert (GS : granted h h2 -> lost2 ++ lost = [] /\ agrees (match pubkey_of sk with None => Err EInvalidKey | Some _ => create_seal ser sha256 pubkey_of sign nce ncm b64enc print lim44 randomize_timestamp (ce_val e) sk pk sd end) p2 x2).
  { intros G. destruct (G1 ltac:(less G)) as (_ & -> & b' & Q). destruct (G2 ltac:(less G)) as (-> & A). split; [reflexivity|]. assert (Q' : print j = event_to_json print (ce_val e)) by congruence. rewrite Q' in A. exact A. }
  destruct D2 as [(-> & seal & -> & ES2 & X2 & t2 & ENC2 & S1 & S2 & S3 & S4 & S5)|(NE & X2)].
  2:{ destruct x2 as [er|]; [|congruence]. rewrite app_assoc in X2. destruct p2; apply (STOP er h2 (lost2 ++ lost) ltac:(lia) X2); intros G; destruct (GS G) as (-> & A); (split; [reflexivity|]);
      (destruct (pubkey_of sk) as [own|]; [|cbn [agrees] in A; congruence]); destruct (create_seal _ _ _ _ _ _ _ _ _ _ _ _ _ _) as [w|r'|]; cbn [agrees bind] in *; (try contradiction); [destruct A; discriminate|congruence|destruct A; discriminate|congruence]. }
  assert (GV : forall (v : event -> res event) h', h_next h2 <= h_next h' -> granted h h' -> lost2 ++ lost = [] /\ (match pubkey_of sk with None => Err EInvalidKey | Some _ => do seal <- create_seal ser sha256 pubkey_of sign nce ncm b64enc print lim44 randomize_timestamp (ce_val e) sk pk sd; v seal end) = v (ce_val seal)).
  { intros v h' L G. destruct (GS ltac:(less G)) as (-> & A). split; [reflexivity|]. destruct (pubkey_of sk) as [own|]; [|discriminate A]. destruct (create_seal _ _ _ _ _ _ _ _ _ _ _ _ _ _) as [w|r'|]; cbn [agrees bind] in *; [|discriminate|contradiction].
    destruct A as (_ & c & Q & W). assert (c = seal) by congruence. subst c. rewrite <- W. reflexivity. }
  assert (DEST : forall (er : err) h' l', h_next h2 <= h_next h' -> holds h' (l' ++ owned seal ++ lost2 ++ lost ++ rest) ->
    exists h'', (let! _ := event_destroy (Some seal) in mret (old, Some er)) h' = Ok ((old, Some er), h'') /\ h_next h'' = h_next h' /\ holds h'' ((l' ++ lost2 ++ lost) ++ rest)).
  { intros er h' l' L X'. apply (holds_perm _ _ (owned seal ++ (l' ++ lost2 ++ lost) ++ rest)) in X'; [|apply (proj2 (Permutation_count_occ Nat.eq_dec _ _)); intros z; rewrite !count_occ_app; lia].
    destruct (C107_destroy seal h' _ X') as (h'' & E' & X'' & L'). rewrite (mbind_ok _ _ _ _ _ E'). exists h''. auto. }
  pose proof (key_defined (wd_key wd)) as KD. destruct (key_generate pubkey_of seckey_valid (wd_key wd)) as [k|r|] eqn:KG; [| |congruence].
  2:{ destruct (DEST r h2 [] (le_n _) X2) as (h3 & E3 & L3 & X3). rewrite E3. apply (STOP r h3 ([] ++ lost2 ++ lost) ltac:(lia) X3). intros G.
      destruct (GV (fun s => create_gift_wrap ser sha256 pubkey_of sign seckey_valid nce ncm b64enc print lim44 lim randomize_timestamp s pk [] wd) h3 ltac:(lia) G) as (-> & ->). split; [reflexivity|].
      rewrite wrap_value_is, KG. reflexivity. }
  destruct (json_m_ok seal h2 _ X2 ltac:(intros z Z; apply in_or_app; left; exact Z)) as (r3 & x3 & h3 & lost3 & E3 & X3 & L3 & G3 & T3 & F3). rewrite (mbind_ok _ _ _ _ _ E3).
  destruct x3 as [er|].
  { rewrite F3 in * by discriminate. destruct (DEST er h3 lost3 L3 X3) as (h4 & E4 & L4 & X4). rewrite E4. apply (STOP er h4 _ ltac:(lia) X4). intros G. destruct (G3 ltac:(less G)) as (Q & _). discriminate Q. }
  destruct (T3 eq_refl) as (b3 & j3 & -> & TH3). cbn [text_blocks app] in X3.
  destruct (enc_m_ok b3 (encrypt (fst k) pk (wd_nonce wd) (print j3)) h3 _ X3 (encrypt_defined _ _ _ _)) as (p4 & x4 & h4 & E4 & L4 & X4 & R4). rewrite (mbind_ok _ _ _ _ _ E4).
  assert (GJ : forall h', h_next h3 <= h_next h' -> granted h h' -> lost3 = [] /\ print j3 = event_to_json print (ce_val seal)).
  { intros h' L G. destruct (G3 ltac:(less G)) as (_ & -> & b' & Q). split; [reflexivity|]. congruence. }
  assert (B5 : (all_space ([bs "p"; hex_encode pk] :: pair_tags []) <= 2 ^ 62)%N).
  { cbn [pair_tags all_space fold_right]. rewrite !space_cons, EventProofs.hex_encode_length, PK. vm_compute. discriminate. }
  apply (holds_perm _ _ (owned seal ++ text_blocks p4 ++ (lost3 ++ lost2 ++ lost) ++ rest)) in X4; [|apply (proj2 (Permutation_count_occ Nat.eq_dec _ _)); intros z; rewrite !count_occ_app; lia].
  destruct (C107_destroy seal h4 _ X4) as (h5 & E5 & X5 & L5). rewrite (mbind_ok _ _ _ _ _ E5).
  destruct R4 as [(q & t & -> & -> & ENC)|(-> & er & -> & R4)].
  2:{ apply (STOP er h5 (lost3 ++ lost2 ++ lost) ltac:(lia) X5). intros G.
      destruct (GV (fun s => create_gift_wrap ser sha256 pubkey_of sign seckey_valid nce ncm b64enc print lim44 lim randomize_timestamp s pk [] wd) h5 ltac:(lia) G) as (-> & ->). destruct (GJ h5 ltac:(lia) G) as (-> & Q).
      split; [reflexivity|]. rewrite wrap_value_is, KG. cbn [bind]. rewrite <- Q. destruct R4 as [-> | (_ & NG)]; [reflexivity|]. destruct NG. less G. }
  cbn [text_blocks app] in X5. destruct (wrap_from_ok randomize_timestamp randomize_defined q t k pk [] wd h5 _ X5) as (p & x & h6 & lost6 & E6 & L6 & D6 & G6). exists p, x, h6, (lost6 ++ lost3 ++ lost2 ++ lost). split; [exact E6|]. split; [lia|]. split.
  - rewrite <- app_assoc. destruct D6 as [(-> & w & -> & ES6 & X6 & K1 & K2 & K3 & K4 & K5)|D6]; [left|right; exact D6]. split; [reflexivity|]. exists w. split; [reflexivity|]. split; [exact ES6|]. split; [exact X6|].
    exists k, (ce_val seal), (ce_val e). split; [exact KG|]. do 4 (split; [assumption|]). split; [exists j3, t; auto|]. do 4 (split; [assumption|]). split; [exists j, t2; auto|reflexivity].
  - intros G. destruct (GV (fun s => create_gift_wrap ser sha256 pubkey_of sign seckey_valid nce ncm b64enc print lim44 lim randomize_timestamp s pk [] wd) h6 ltac:(lia) G) as (-> & ->). destruct (GJ h6 ltac:(lia) G) as (-> & Q).
    destruct (G6 ltac:(less G) B5) as (-> & N6 & A). split; [reflexivity|]. split; [intros NE; right; exact (N6 NE)|]. rewrite wrap_value_is, KG. cbn [bind]. rewrite <- Q, ENC. exact A.
Qed.

(** ** C142: receiving *)
Hypothesis sha_len : forall x, length (sha256 x) = 32.
Hypothesis plain_bytes : forall sk pk n c p, ncd sk pk n c = Some p -> bytes_ok p.
Lemma decrypt_defined sk pk c : decrypt sk pk c <> Undef.
Proof.
  unfold GiftWrap.decrypt, nip44_decrypt. destruct (match c with [] => false | c :: _ => c =? 35 end)%N; [discriminate|]. destruct (b64dec c) as [pl|]; [|discriminate].
  destruct ((blen pl <? 97) || (65600 <? blen pl))%N eqn:B; [discriminate|]. destruct pl as [|v r]; [discriminate B|]. destruct (negb (v =? 2)%N); [discriminate|].
  cbv zeta. destruct (negb _); [discriminate|]. destruct (ncd _ _ _ _) as [p|] eqn:D; [|discriminate]. apply (unpad_safe lim44 p limits44 (plain_bytes _ _ _ _ _ D)).
Qed.
Definition opened (sk : list N) (e : event) : res (list N) := match ev_content e with None => Err EInvalidParam | Some c => decrypt sk (ev_pubkey e) c end.
Lemma open_m_ok src sk h l : holds h l -> incl (owned src) l ->
  exists p x h', open_m grant decrypt src sk h = Ok ((p, x), h') /\ h_next h <= h_next h' /\ holds h' (text_blocks p ++ l) /\
  ((exists b t, p = Some (b, t) /\ x = None /\ opened sk (ce_val src) = Ok t) \/ (p = None /\ exists e, x = Some e /\ (opened sk (ce_val src) = Err e \/ (e = EMemory /\ ~ granted h h')))).
Proof.
  intros X I. destruct (owned_parts _ _ I) as (I1 & _ & I3 & _). unfold open_m. rewrite (mbind_ok _ _ _ _ _ (use_holds _ h l X I1)), (mbind_ok _ _ _ _ _ (use_opt_ok _ h l X I3)).
  apply (text_m_ok grant (opened sk (ce_val src)) h l X). unfold opened. destruct (ev_content (ce_val src)); [apply decrypt_defined|discriminate].
Qed.
Lemma import_m_ok old b t h l : holds h (b :: l) -> event_from_json parse lim (until_nul t) <> Undef ->
  exists p x h', import_m grant parse lim old b t h = Ok ((p, x), h') /\ h_next h <= h_next h' /\
  ((x = None /\ exists c, p = Some c /\ event_sound c /\ holds h' (owned c ++ l) /\ event_from_json parse lim (until_nul t) = Ok (ce_val c)) \/
   (exists e, x = Some e /\ holds h' l /\ (event_from_json parse lim (until_nul t) = Err e \/ ~ granted h h' \/ huge parse (until_nul t)))).
Proof.
  intros X D. unfold import_m. rewrite (mbind_ok _ _ _ _ _ (use_holds b h _ X ltac:(left; reflexivity))).
  destruct (C108_import grant lim parse old (until_nul t) h _ X D) as (p & x & h1 & E1 & L1 & R). rewrite (mbind_ok _ _ _ _ _ E1).
  destruct R as [(-> & c & -> & ES & X1 & V)|(e & -> & X1 & R)].
  - apply (holds_perm _ _ (b :: owned c ++ l)) in X1; [|symmetry; apply Permutation_middle]. rewrite (mbind_ok _ _ _ _ _ (use_holds b h1 _ X1 ltac:(left; reflexivity))).
    destruct (free_holds _ _ _ X1) as (h2 & E2 & X2 & L2). rewrite (mbind_ok _ _ _ _ _ E2). exists (Some c), None, h2. split; [reflexivity|]. split; [lia|]. left. split; [reflexivity|]. exists c. auto.
  - rewrite (mbind_ok _ _ _ _ _ (use_holds b h1 _ X1 ltac:(left; reflexivity))).
    destruct (free_holds _ _ _ X1) as (h2 & E2 & X2 & L2). rewrite (mbind_ok _ _ _ _ _ E2). exists p, (Some e), h2. split; [reflexivity|]. split; [lia|]. right. exists e. split; [reflexivity|]. split; [exact X2|].
    destruct R as [R|(_ & [F|H])]; [left; exact R| |right; right; exact H]. right. left. apply (not_failed grant _ _ h h2 F); lia.
Qed.
Lemma idlen t e : event_from_json parse lim t = Ok e -> length (ev_id e) = 32.
Proof. unfold event_from_json. destruct (parse t) as [j|]; [|discriminate]. intros T. apply C21_import_partial in T as ((L & _) & _). exact L. Qed.
Lemma verify_m_ok e h l : holds h l -> length (ev_id e) = 32 ->
  exists x h' lost, verify_m (serialize_m grant print) sha256 verify pubkey_parses parse_pk e h = Ok (x, h') /\ holds h' (lost ++ l) /\ h_next h <= h_next h' /\
  (granted h h' -> lost = [] /\ event_verify ser sha256 verify pubkey_parses parse_pk e = match x with None => Ok tt | Some r => Err r end) /\
  (x = None -> verify (ev_pubkey e) (ev_id e) (ev_sig e) = true /\ exists t, thin (id_tree e) t /\ ev_id e = sha256 (print t)).
Proof.
  intros X L. destruct (C110_verify grant print sha256 verify pubkey_parses sha_len parse_pk e h l X L) as (x & h' & lost & E & X' & G & T). exists x, h', lost. split; [exact E|]. split; [exact X'|]. split; [|auto].
  destruct (C109_id grant print sha256 e h l X) as (e' & x1 & h1 & lost1 & E1 & L1 & _). unfold verify_m in E. rewrite (mbind_ok _ _ _ _ _ E1) in E.
  destruct x1; [unfold mret in E; assert (h1 = h') by congruence; subst; exact L1|]. destruct (constant_time_memcmp _ _ _); [unfold mret in E|unfold mret in E|discriminate]; assert (h1 = h') by congruence; subst; exact L1.
Qed.
Definition texts_defined (sk : list N) : Prop := forall pk c t, decrypt sk pk c = Ok t -> event_from_json parse lim (until_nul t) <> Undef.
Definition texts_fit (sk : list N) : Prop := forall pk c t, decrypt sk pk c = Ok t -> ~ huge parse (until_nul t).
Notation Open := (open_content ncv ncd b64dec parse lim44 lim).
Lemma opened_is sk e t : opened sk e = Ok t -> exists c, ev_content e = Some c /\ decrypt sk (ev_pubkey e) c = Ok t.
Proof. unfold opened. destruct (ev_content e) as [c|]; [|discriminate]. eauto. Qed.
Lemma open_is sk e : Open sk (ev_pubkey e) e = (do t <- opened sk e; event_from_json parse lim (until_nul t)).
Proof. unfold open_content, opened. destruct (ev_content e); reflexivity. Qed.
(** The seal, if it is taken. *)
Definition good_seal (sk : list N) (wrap seal : event) : Prop :=
  ev_kind wrap = 1059%N /\ carries decrypt parse lim sk (ev_pubkey wrap) wrap seal /\ ev_kind seal = 13%N /\
  verify (ev_pubkey seal) (ev_id seal) (ev_sig seal) = true /\ exists t, thin (id_tree seal) t /\ ev_id seal = sha256 (print t).
Definition seal_of (wrap : event) (sk : list N) : res event :=
  if negb (ev_kind wrap =? KIND_GIFT_WRAP)%N then Err EInvalidEvent
  else do seal <- Open sk (ev_pubkey wrap) wrap;
    if negb (ev_kind seal =? KIND_SEAL)%N then Err EInvalidEvent
    else do _ <- event_verify ser sha256 verify pubkey_parses parse_pk seal; Ok seal.
Lemma open_seal_ok wrap sk h l : holds h l -> incl (owned wrap) l -> texts_defined sk ->
  exists p x h' lost, open_seal_m grant print parse decrypt sha256 verify pubkey_parses parse_pk lim wrap sk h = Ok ((p, x), h') /\ h_next h <= h_next h' /\
  delivers (good_seal sk (ce_val wrap)) p x h' (lost ++ l) /\ (granted h h' -> texts_fit sk -> lost = [] /\ agrees (seal_of (ce_val wrap) sk) p x).
Proof.
  intros X I D. unfold open_seal_m, seal_of. destruct (owned_parts _ _ I) as (I1 & _). rewrite (mbind_ok _ _ _ _ _ (use_holds _ h l X I1)).
  assert (STOP : forall r h' lost, h_next h <= h_next h' -> holds h' (lost ++ l) -> forall v, (granted h h' -> texts_fit sk -> lost = [] /\ v = Err r) -> forall P,
    exists p x h'' lost', @Ok (option cevent * option err * heap) ((None, Some r), h') = Ok ((p, x), h'') /\ h_next h <= h_next h'' /\ delivers P p x h'' (lost' ++ l) /\
    (granted h h'' -> texts_fit sk -> lost' = [] /\ agrees v p x)).
  { intros r h' lost L X' v A P. exists None, (Some r), h', lost. split; [reflexivity|]. split; [exact L|]. split; [right; split; [discriminate|exact X']|]. intros G B. destruct (A G B) as (-> & ->).
    split; reflexivity. }
  destruct (N.eqb_spec (ev_kind (ce_val wrap)) KIND_GIFT_WRAP) as [KW|KW]; cbn [negb].
  2:{ apply (STOP EInvalidEvent h [] (le_n _) X). auto. }
  rewrite open_is. destruct (open_m_ok wrap sk h l X I) as (p1 & x1 & h1 & E1 & L1 & X1 & R1). rewrite (mbind_ok _ _ _ _ _ E1).
  destruct R1 as [(b & t & -> & -> & OP)|(-> & e & -> & R1)].
  2:{ apply (STOP e h1 [] L1 X1). intros G _. split; [reflexivity|]. destruct R1 as [-> | (_ & NG)]; [reflexivity|]. destruct (NG G). }
  rewrite OP. cbn [bind text_blocks app] in *. destruct (opened_is _ _ _ OP) as (c & CT & DC).
  destruct (import_m_ok None b t h1 l X1 (D _ _ _ DC)) as (p2 & x2 & h2 & E2 & L2 & R2). rewrite (mbind_ok _ _ _ _ _ E2).
  destruct R2 as [(-> & seal & -> & ES2 & X2 & V2)|(e & -> & X2 & R2)].
  2:{ destruct p2; apply (STOP e h2 [] ltac:(lia) X2); intros G F; (split; [reflexivity|]); (destruct R2 as [-> | [NG|H]]; [reflexivity|destruct NG; less G|destruct (F _ _ _ DC H)]). }
  rewrite V2. cbn [bind].
  assert (ABANDON : forall r h' lost, h_next h2 <= h_next h' -> holds h' (lost ++ owned seal ++ l) -> forall v, (granted h h' -> texts_fit sk -> lost = [] /\ v = Err r) -> forall P,
    exists p x h'' lost', abandon seal r h' = Ok ((p, x), h'') /\ h_next h <= h_next h'' /\ delivers P p x h'' (lost' ++ l) /\ (granted h h'' -> texts_fit sk -> lost' = [] /\ agrees v p x)).
  { intros r h' lost L X' v A P. apply (holds_perm _ _ (owned seal ++ lost ++ l)) in X'; [|apply (proj2 (Permutation_count_occ Nat.eq_dec _ _)); intros z; rewrite !count_occ_app; lia].
    destruct (abandon_ok seal r h' _ X') as (h3 & E3 & X3 & L3). rewrite E3. apply (STOP r h3 lost ltac:(lia) X3). intros G. apply A. less G. }
  destruct (N.eqb_spec (ev_kind (ce_val seal)) KIND_SEAL) as [KS|KS]; cbn [negb].
  2:{ apply (ABANDON EInvalidEvent h2 [] (le_n _) X2). auto. }
  destruct (verify_m_ok (ce_val seal) h2 _ X2 (idlen _ _ V2)) as (x3 & h3 & lost3 & E3 & X3 & L3 & G3 & T3). rewrite (mbind_ok _ _ _ _ _ E3).
  destruct x3 as [r|].
  { apply (ABANDON r h3 lost3 L3 X3). intros G _. destruct (G3 ltac:(less G)) as (-> & ->). auto. }
  apply (holds_perm _ _ (owned seal ++ lost3 ++ l)) in X3; [|apply (proj2 (Permutation_count_occ Nat.eq_dec _ _)); intros z; rewrite !count_occ_app; lia].
  exists (Some seal), None, h3, lost3. split; [reflexivity|]. split; [lia|]. split.
  - left. split; [reflexivity|]. exists seal. split; [reflexivity|]. split; [exact ES2|]. split; [exact X3|]. split; [exact KW|]. split; [|split; [exact KS|exact (T3 eq_refl)]].
    apply GiftWrapProps.open_content_iff. rewrite open_is, OP. exact V2.
  - intros G _. destruct (G3 ltac:(less G)) as (-> & ->). split; [reflexivity|]. cbn [bind agrees]. split; [reflexivity|]. exists seal. auto.
Qed.
Lemma open_wrap_is wrap sk : open_wrap ser sha256 verify pubkey_parses parse_pk ncv ncd b64dec parse lim44 lim wrap sk =
  match seal_of wrap sk with Ok seal => (Some (ev_pubkey seal), Open sk (ev_pubkey seal) seal) | Err e => (None, Err e) | Undef => (None, Undef) end.
Proof.
  unfold open_wrap, seal_of. destruct (negb _); [reflexivity|]. destruct (Open sk (ev_pubkey wrap) wrap) as [seal| |]; cbn [bind]; try reflexivity.
  destruct (negb _); [reflexivity|]. destruct (event_verify _ _ _ _ _ seal) as [[]| |]; reflexivity.
Qed.
Notation Udm := (unwrap_dm ser sha256 verify pubkey_parses parse_pk ncv ncd b64dec parse lim44 lim).
Notation Uevent := (unwrap_event ser sha256 verify pubkey_parses parse_pk ncv ncd b64dec parse lim44 lim).
(** Opening a direct message: for every pattern of failing allocations the call ends
    properly, leaves either the message or nothing, and releases the seal and all texts.
    What it hands out even short of memory was held by a seal whose signature is valid for
    its id, and is by that seal's author.  If no allocation fails, the result is that of
    GiftWrap.v. *)
Theorem C142_unwrap_dm : forall old wrap sk h rest, holds h rest -> incl (owned wrap) rest -> texts_defined sk ->
  exists p a x h' lost, unwrap_dm_m grant print parse decrypt sha256 verify pubkey_parses parse_pk lim old wrap sk h = Ok ((p, a, x), h') /\ h_next h <= h_next h' /\
  delivers (fun m => exists seal, good_seal sk (ce_val wrap) seal /\ carries decrypt parse lim sk (ev_pubkey seal) seal m /\ ev_pubkey m = ev_pubkey seal /\ a = Some (ev_pubkey seal)) p x h' (lost ++ rest) /\
  (granted h h' -> texts_fit sk -> lost = [] /\ a = fst (Udm (ce_val wrap) sk) /\ agrees (snd (Udm (ce_val wrap) sk)) p x).
Proof.
  intros old wrap sk h rest X I D. unfold unwrap_dm_m, unwrap_dm. rewrite open_wrap_is.
  destruct (open_seal_ok wrap sk h rest X I D) as (p1 & x1 & h1 & lost & E1 & L1 & D1 & G1). rewrite (mbind_ok _ _ _ _ _ E1).
  destruct D1 as [(-> & seal & -> & ES1 & X1 & GS)|(NE & X1)].
  2:{ destruct x1 as [r|]; [|congruence]. exists old, None, (Some r), h1, lost. split; [destruct p1; reflexivity|]. split; [exact L1|]. split; [right; split; [discriminate|exact X1]|]. intros G F. destruct (G1 G F) as (-> & A).
      split; [reflexivity|]. destruct (seal_of _ _) as [w|r'|]; cbn [agrees] in A; [destruct A; discriminate| |contradiction]. split; [reflexivity|]. cbn [snd agrees]. exact A. }
  assert (GV : forall h', h_next h1 <= h_next h' -> granted h h' -> texts_fit sk -> lost = [] /\ seal_of (ce_val wrap) sk = Ok (ce_val seal)).
  { intros h' L G F. destruct (G1 ltac:(less G) F) as (-> & A). split; [reflexivity|]. destruct (seal_of _ _) as [w|r'|]; cbn [agrees] in A; [|discriminate|contradiction]. destruct A as (_ & c & Q & W). congruence. }
  cbv zeta. set (spk := ev_pubkey (ce_val seal)) in *.
  destruct (open_m_ok seal sk h1 _ X1 ltac:(intros z Z; apply in_or_app; left; exact Z)) as (p2 & x2 & h2 & E2 & L2 & X2 & R2). rewrite (mbind_ok _ _ _ _ _ E2).
  apply (holds_perm _ _ (owned seal ++ text_blocks p2 ++ lost ++ rest)) in X2; [|rewrite !app_assoc; do 2 apply Permutation_app_tail; apply Permutation_app_comm].
  destruct (C107_destroy seal h2 _ X2) as (h3 & E3 & X3 & L3). rewrite (mbind_ok _ _ _ _ _ E3).
  destruct R2 as [(b & t & -> & -> & OP)|(-> & e & -> & R2)].
  2:{ exists old, (Some spk), (Some e), h3, lost. split; [reflexivity|]. split; [lia|]. split; [right; split; [discriminate|exact X3]|]. intros G F. destruct (GV h3 ltac:(lia) G F) as (-> & ->). split; [reflexivity|]. rewrite open_is.
      destruct R2 as [-> | (_ & NG)]; [cbn [bind fst snd agrees]; auto|]. destruct NG. less G. }
  destruct (opened_is _ _ _ OP) as (c & CT & DC). cbn [text_blocks app] in X3.
  destruct (import_m_ok old b t h3 _ X3 (D _ _ _ DC)) as (p4 & x4 & h4 & E4 & L4 & R4). rewrite (mbind_ok _ _ _ _ _ E4).
  destruct R4 as [(-> & rumor & -> & ES4 & X4 & V4)|(e & -> & X4 & R4)].
  2:{ exists p4, (Some spk), (Some e), h4, lost. split; [destruct p4; reflexivity|]. split; [lia|]. split; [right; split; [discriminate|exact X4]|]. intros G F. destruct (GV h4 ltac:(lia) G F) as (-> & ->). split; [reflexivity|]. rewrite open_is, OP. cbn [bind].
      destruct R4 as [-> | [NG|H]]; [cbn [fst snd agrees]; auto|destruct NG; less G|destruct (F _ _ _ DC H)]. }
  rewrite (mbind_ok _ _ _ _ _ (use_holds (ce_self rumor) h4 _ X4 ltac:(left; reflexivity))).
  destruct (beq (ev_pubkey (ce_val rumor)) spk) eqn:BQ.
  - apply beq_eq in BQ. exists (Some rumor), (Some spk), None, h4, lost. split; [reflexivity|]. split; [lia|]. split.
    + left. split; [reflexivity|]. exists rumor. split; [reflexivity|]. split; [exact ES4|]. split; [exact X4|]. exists (ce_val seal). split; [exact GS|]. split; [|auto].
      apply GiftWrapProps.open_content_iff. rewrite open_is, OP. exact V4.
    + intros G F. destruct (GV h4 ltac:(lia) G F) as (-> & ->). split; [reflexivity|]. rewrite open_is, OP. cbn [bind]. rewrite V4. fold spk. rewrite BQ, beq_refl. cbn [fst snd agrees]. split; [reflexivity|]. split; [reflexivity|]. exists rumor. auto.
  - destruct (C107_destroy rumor h4 _ X4) as (h5 & E5 & X5 & L5). rewrite (mbind_ok _ _ _ _ _ E5). exists None, (Some spk), (Some EInvalidEvent), h5, lost. split; [reflexivity|]. split; [lia|]. split; [right; split; [discriminate|exact X5]|].
    intros G F. destruct (GV h5 ltac:(lia) G F) as (-> & ->). split; [reflexivity|]. rewrite open_is, OP. cbn [bind]. rewrite V4. fold spk. rewrite BQ. cbn [fst snd agrees]. auto.
Qed.
(** Opening a wrapped event: the same, except that the event need not be by the seal's
    author. *)
Theorem C142_unwrap_event : forall old wrap sk h rest, holds h rest -> incl (owned wrap) rest -> texts_defined sk ->
  exists p a x h' lost, unwrap_event_m grant print parse decrypt sha256 verify pubkey_parses parse_pk lim old wrap sk h = Ok ((p, a, x), h') /\ h_next h <= h_next h' /\
  delivers (fun m => exists seal, good_seal sk (ce_val wrap) seal /\ carries decrypt parse lim sk (ev_pubkey seal) seal m /\ a = Some (ev_pubkey seal)) p x h' (lost ++ rest) /\
  (granted h h' -> texts_fit sk -> lost = [] /\ a = fst (Uevent (ce_val wrap) sk) /\ agrees (snd (Uevent (ce_val wrap) sk)) p x).
Proof.
  intros old wrap sk h rest X I D. unfold unwrap_event_m, unwrap_event. rewrite open_wrap_is.
  destruct (open_seal_ok wrap sk h rest X I D) as (p1 & x1 & h1 & lost & E1 & L1 & D1 & G1). rewrite (mbind_ok _ _ _ _ _ E1).
  destruct D1 as [(-> & seal & -> & ES1 & X1 & GS)|(NE & X1)].
  2:{ destruct x1 as [r|]; [|congruence]. exists old, None, (Some r), h1, lost. split; [destruct p1; reflexivity|]. split; [exact L1|]. split; [right; split; [discriminate|exact X1]|]. intros G F. destruct (G1 G F) as (-> & A).
      split; [reflexivity|]. destruct (seal_of _ _) as [w|r'|]; cbn [agrees] in A; [destruct A; discriminate| |contradiction]. split; [reflexivity|]. cbn [snd agrees]. exact A. }
  assert (GV : forall h', h_next h1 <= h_next h' -> granted h h' -> texts_fit sk -> lost = [] /\ seal_of (ce_val wrap) sk = Ok (ce_val seal)).
  { intros h' L G F. destruct (G1 ltac:(less G) F) as (-> & A). split; [reflexivity|]. destruct (seal_of _ _) as [w|r'|]; cbn [agrees] in A; [|discriminate|contradiction]. destruct A as (_ & c & Q & W). congruence. }
  cbv zeta. set (spk := ev_pubkey (ce_val seal)) in *.
  destruct (open_m_ok seal sk h1 _ X1 ltac:(intros z Z; apply in_or_app; left; exact Z)) as (p2 & x2 & h2 & E2 & L2 & X2 & R2). rewrite (mbind_ok _ _ _ _ _ E2).
  destruct R2 as [(b & t & -> & -> & OP)|(-> & e & -> & R2)].
  2:{ cbn [text_blocks app] in X2. destruct (C107_destroy seal h2 _ X2) as (h3 & E3 & X3 & L3). rewrite (mbind_ok _ _ _ _ _ E3).
      exists old, (Some spk), (Some e), h3, lost. split; [reflexivity|]. split; [lia|]. split; [right; split; [discriminate|exact X3]|]. intros G F. destruct (GV h3 ltac:(lia) G F) as (-> & ->). split; [reflexivity|]. rewrite open_is.
      destruct R2 as [-> | (_ & NG)]; [cbn [bind fst snd agrees]; auto|]. destruct NG. less G. }
  destruct (opened_is _ _ _ OP) as (c & CT & DC). cbn [text_blocks app] in X2.
  destruct (import_m_ok old b t h2 _ X2 (D _ _ _ DC)) as (p4 & x4 & h4 & E4 & L4 & R4). rewrite (mbind_ok _ _ _ _ _ E4). cbn [fst snd].
  destruct R4 as [(-> & m & -> & ES4 & X4 & V4)|(e & -> & X4 & R4)].
  - apply (holds_perm _ _ (owned seal ++ owned m ++ lost ++ rest)) in X4; [|rewrite !app_assoc; do 2 apply Permutation_app_tail; apply Permutation_app_comm].
    destruct (C107_destroy seal h4 _ X4) as (h5 & E5 & X5 & L5). rewrite (mbind_ok _ _ _ _ _ E5). exists (Some m), (Some spk), None, h5, lost. split; [reflexivity|]. split; [lia|]. split.
    + left. split; [reflexivity|]. exists m. split; [reflexivity|]. split; [exact ES4|]. split; [exact X5|]. exists (ce_val seal). split; [exact GS|]. split; [|auto].
      apply GiftWrapProps.open_content_iff. rewrite open_is, OP. exact V4.
    + intros G F. destruct (GV h5 ltac:(lia) G F) as (-> & ->). split; [reflexivity|]. rewrite open_is, OP. cbn [bind]. rewrite V4. cbn [fst snd agrees]. split; [reflexivity|]. split; [reflexivity|]. exists m. auto.
  - destruct (C107_destroy seal h4 _ X4) as (h5 & E5 & X5 & L5). rewrite (mbind_ok _ _ _ _ _ E5). exists p4, (Some spk), (Some e), h5, lost. split; [reflexivity|]. split; [lia|]. split; [right; split; [discriminate|exact X5]|].
    intros G F. destruct (GV h5 ltac:(lia) G F) as (-> & ->). split; [reflexivity|]. rewrite open_is, OP. cbn [bind].
    destruct R4 as [-> | [NG|H]]; [cbn [fst snd agrees]; auto|destruct NG; less G|destruct (F _ _ _ DC H)].
Qed.
End Oom.

(** ** What does not hold *)
(** a rumor on the author's key whose signature is one digit short *)
Definition sick_tree (e : event) : json := match event_to_tree e with JObj l => JObj (map (fun p => if beq (fst p) (bs "sig") then (fst p, JStr (bs "0")) else p) l) | j => j end.
Definition oom_key : list N := repeat 7%N 32.
Definition oom_rumor : event := mkEvent (repeat 1%N 32) oom_key 1600000000 14 [[bs "p"; bs "x"]] (Some (bs "hi")) (repeat 0%N 64).
Definition oom_seal : event := mkEvent (repeat 3%N 32) oom_key 1600000000 13 [] (Some (bs "rumor")) (repeat 5%N 64).
Definition oom_wrap : event := mkEvent (repeat 4%N 32) (repeat 2%N 32) 1600000000 1059 [] (Some (bs "seal")) (repeat 5%N 64).
Definition oom_parse (rumor : json) (s : list N) : option json := if beq s (bs "rumor") then Some rumor else Some (event_to_tree oom_seal).
Definition oom_open (rumor : json) grant := unwrap_dm_m grant (fun _ => []) (oom_parse rumor) (fun _ _ c => Ok c) (fun _ => repeat 3%N 32) (fun _ _ _ => true) (fun _ => true) true None None
  (mkCe 0 1 2 1024 0 None (Some 3) oom_wrap) oom_key.
(** The caller's variable is not safe to use after an error, even with enough memory: the
    signature of the inner event is read last, and if it is malformed the event is released
    while the variable keeps its address.  The sender chooses that signature. *)
Theorem C142_variable_refuted : ~ (forall print parse decrypt sha verify parses pp lim wrap sk h rest p a x h', holds h rest -> incl (owned wrap) rest ->
  unwrap_dm_m (fun _ => true) print parse decrypt sha verify parses pp lim None wrap sk h = Ok ((p, a, x), h') -> usable p h').
Proof.
  intros H. assert (X : holds (mkHeap 4 [0; 1; 2; 3]) [0; 1; 2; 3]) by (split; [split; cbn; [repeat constructor; cbn; intuition lia|repeat constructor; lia]|apply Permutation_refl]).
  assert (E : oom_open (sick_tree oom_rumor) (fun _ => true) (mkHeap 4 [0; 1; 2; 3]) = Ok ((Some (mkCe 22 23 24 1024 20 (Some 28) (Some 25) oom_rumor), Some oom_key, Some EInvalidEvent), mkHeap 29 [0; 1; 2; 3])) by (vm_compute; reflexivity).
  specialize (H _ _ _ _ _ _ _ _ _ _ _ _ _ _ _ _ X (incl_refl _ : incl (owned (mkCe 0 1 2 1024 0 None (Some 3) oom_wrap)) _) E _ eq_refl). cbn in H. intuition discriminate.
Qed.
Definition oom_field (j : json) : list N := match jget (bs "content") j with Some (JStr s) => s | _ => [] end.
Definition oom_mine : cevent := mkCe 0 1 2 1024 20 (Some 4) (Some 3) oom_rumor.
Definition oom_draws : seal_draws := mkSealDraws (Some (repeat 9%N 32)) (Some 1%N) 1700000000 (Some []).
Definition oom_made grant := create_seal_m grant oom_field (fun _ _ _ c => Ok c) (fun _ => repeat 3%N 32) (fun k => Some k) (fun _ _ _ => Some (repeat 5%N 64)) random_timestamp None oom_mine oom_key oom_key oom_draws (mkHeap 5 [0; 1; 2; 3; 4]).
Lemma oom_mine_held : holds (mkHeap 5 [0; 1; 2; 3; 4]) [0; 1; 2; 3; 4].
Proof. split; [split; cbn; [repeat constructor; cbn; intuition lia|repeat constructor; lia]|apply Permutation_refl]. Qed.
Lemma oom_mine_owned : incl (owned oom_mine) [0; 1; 2; 3; 4].
Proof. intros z Z. cbn in *. intuition. Qed.
(** Nor after an error for want of memory while sealing. *)
Theorem C142_seal_variable_refuted : ~ (forall grant print encrypt sha pubkey_of sign stamp rumor sk pk d h rest p x h', holds h rest -> incl (owned rumor) rest ->
  create_seal_m grant print encrypt sha pubkey_of sign stamp None rumor sk pk d h = Ok ((p, x), h') -> usable p h').
Proof.
  intros H. assert (E : exists c h', oom_made (fun k => negb (k =? 32)) = Ok ((Some c, Some EMemory), h') /\ ce_self c = 31 /\ h_live h' = [0; 1; 2; 3; 4]) by (eexists; eexists; split; [vm_compute; reflexivity|split; reflexivity]).
  destruct E as (c & h' & E & C & L). specialize (H _ _ _ _ _ _ _ _ _ _ _ _ _ _ _ _ oom_mine_held oom_mine_owned E c eq_refl). rewrite C, L in H. cbn in H. intuition discriminate.
Qed.
(** Success does not mean that all of the message was sealed: here its text is gone. *)
Theorem C142_whole_refuted : ~ (forall grant print encrypt sha pubkey_of sign stamp rumor sk pk d h rest c h', holds h rest -> incl (owned rumor) rest ->
  create_seal_m grant print encrypt sha pubkey_of sign stamp None rumor sk pk d h = Ok ((Some c, None), h') ->
  exists t, encrypt sk pk (sd_nonce d) (print (event_to_tree (ce_val rumor))) = Ok t /\ ev_content (ce_val c) = Some t).
Proof.
  intros H. assert (E : exists c h', oom_made (fun k => negb (k =? 23)) = Ok ((Some c, None), h') /\ ev_content (ce_val c) = Some []) by (eexists; eexists; split; [vm_compute; reflexivity|reflexivity]).
  destruct E as (c & h' & E & C). destruct (H _ _ _ _ _ _ _ _ _ _ _ _ _ _ _ oom_mine_held oom_mine_owned E) as (t & T & Q). cbv beta in T. vm_compute in T. rewrite C in Q. congruence.
Qed.
(** Nor is everything given back: when a tag cannot be attached, it stays behind. *)
Theorem C142_leak_refuted : ~ (forall grant print encrypt sha pubkey_of sign stamp rumor sk pk d h rest c h', holds h rest -> incl (owned rumor) rest ->
  create_seal_m grant print encrypt sha pubkey_of sign stamp None rumor sk pk d h = Ok ((Some c, None), h') -> holds h' (owned c ++ rest)).
Proof.
  intros H. assert (E : exists c h', oom_made (fun k => negb (k =? 16)) = Ok ((Some c, None), h') /\ length (owned c) = 4 /\ length (h_live h') = 14) by (eexists; eexists; split; [vm_compute; reflexivity|split; reflexivity]).
  destruct E as (c & h' & E & C & L). destruct (H _ _ _ _ _ _ _ _ _ _ _ _ _ _ _ oom_mine_held oom_mine_owned E) as (_ & P). apply Permutation_length in P. rewrite app_length, C, L in P. discriminate P.
Qed.
(** ** Witness: a seal made and a message opened with enough memory, and the memory released *)
Example C142_meets :
  (exists c h1 h2, oom_made (fun _ => true) = Ok ((Some c, None), h1) /\ ev_content (ce_val c) = Some (bs "hi") /\ length (h_live h1) = 9 /\ event_destroy (Some c) h1 = Ok (tt, h2) /\ h_live h2 = [0; 1; 2; 3; 4]) /\
  (exists c h1, oom_open (event_to_tree oom_rumor) (fun _ => true) (mkHeap 4 [0; 1; 2; 3]) = Ok ((Some c, Some oom_key, None), h1) /\ ce_val c = oom_rumor /\ length (h_live h1) = 9) /\
  (forall text, event_from_json (oom_parse (event_to_tree oom_rumor)) None text <> Undef).
Proof.
  split; [eexists; eexists; eexists; split; [vm_compute; reflexivity|split; [reflexivity|split; [reflexivity|split; vm_compute; reflexivity]]]|].
  split; [eexists; eexists; split; [vm_compute; reflexivity|split; vm_compute; reflexivity]|].
  intros text. unfold event_from_json, oom_parse. destruct (beq text (bs "rumor")); vm_compute; discriminate.
Qed.
Print Assumptions C142_rumor.
Print Assumptions C142_seal.
Print Assumptions C142_no_time.
Print Assumptions C142_wrap.
Print Assumptions C142_send.
Print Assumptions C142_wrap_event.
Print Assumptions C142_unwrap_dm.
Print Assumptions C142_unwrap_event.
Print Assumptions C142_variable_refuted.
Print Assumptions C142_seal_variable_refuted.
Print Assumptions C142_whole_refuted.
Print Assumptions C142_leak_refuted.
