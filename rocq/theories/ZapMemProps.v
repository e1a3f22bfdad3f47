(** Memory of zap requests: C151. *)
From Verif Require Import Base BaseFacts Heap Dec Hex HexProofs Event EventProps EventMem RelayMemSpec RelayMemProps EventMemSpec EventMemProps EventOomSpec
  GiftWrap Nip26Proofs Nip46Mem Nip46MemProps GiftWrapMem GiftWrapMemProps Nip18MemProps Zap ZapMem.
From Coq Require Import Permutation.
Open Scope nat_scope.

Definition texts (l : list (list N)) : nat := fold_right (fun s n => length s + n) 0 l.
Lemma space_texts l : space l = (9 * N.of_nat (length l) + N.of_nat (texts l))%N.
Proof. induction l as [|v l IH]; [reflexivity|]. rewrite space_cons, IH. cbn [length texts fold_right]. fold (texts l). lia. Qed.
Lemma texts_firstn n : forall l, texts (firstn n l) <= texts l.
Proof. induction n; intros l; [cbn; lia|]. destruct l as [|v l]; cbn [firstn texts fold_right]; [lia|]. fold (texts l) (texts (firstn n l)). specialize (IHn l). lia. Qed.

Section Grant.
Variable grant : nat -> bool.
Variable lim : option ev_limits.
Notation makes := (makes grant).

Lemma discard_makes c x r h0 h l : holds h (owned c ++ l) -> (r = Err x \/ x = EMemory /\ failed grant h0 h) -> makes (discard c x) r h0 h l.
Proof.
  intros X R. unfold discard. destruct (C107_destroy c h l X) as (h1 & E & X1 & L1). exists (Some c), (Some x), h1. split; [unfold mbind; rewrite E; reflexivity|]. split; [lia|]. split; [exact X1|].
  destruct R as [R|(R & (k & A & B))]; [left; exact R|right]. split; [exact R|]. exists k. split; [lia|exact B].
Qed.
Lemma tag_or c vs k r h0 h l : event_sound c -> holds h (owned c ++ l) -> vs <> [] -> (ce_used c + space vs <= 2 ^ 62)%N -> h_next h0 <= h_next h ->
  (forall c' h', event_sound c' -> holds h' (owned c' ++ l) -> ce_used c' = (ce_used c + space vs)%N -> h_next h0 <= h_next h' -> makes (k c') (r (ce_val c')) h0 h' l) ->
  makes (tag_or_discard grant lim c vs k) (do e <- GiftWrap.add_tag lim (ce_val c) vs; r e) h0 h l.
Proof.
  intros ES X NE SM L0 K. destruct (tag_cases grant lim c vs h l ES X NE SM) as (c1 & x & h1 & E & ES1 & X1 & L1 & _ & _ & R). unfold tag_or_discard. unfold Nip18MemProps.makes. rewrite (mbind_ok _ _ _ _ _ E).
  destruct x as [e|].
  - destruct R as (_ & R). destruct (discard_makes c1 e (do e <- GiftWrap.add_tag lim (ce_val c) vs; r e) h0 h1 l X1) as (p & x & h2 & E2 & L2 & R2).
    { destruct R as [R|(-> & (j & A & B))]; [left; rewrite R; reflexivity|right]. split; [reflexivity|]. exists j. split; [lia|exact B]. }
    exists p, x, h2. split; [exact E2|]. split; [lia|exact R2].
  - destruct R as (R & V & U). rewrite R. cbn [bind]. destruct (K c1 h1 ES1 X1 U ltac:(lia)) as (p & x & h2 & E2 & L2 & R2). exists p, x, h2. split; [exact E2|]. split; [lia|exact R2].
Qed.
Lemma created_unused now h c h' : event_create grant now h = Ok ((Some c, None), h') -> ce_used c = 0%N.
Proof.
  intros E. unfold event_create in E. unfold mbind at 1 in E. destruct (ealloc grant h) as [[[s|] h2]| |]; try discriminate. unfold mbind at 1 in E. destruct (arena_create grant h2) as [[[(a & m)|] h3]| |]; try discriminate.
  - unfold mbind at 1 in E. destruct (huse (Some s) h3) as [[u h4]| |]; try discriminate. unfold mret in E. assert (Q : Some (mkCe s a m 1024 0 None None (blank now)) = Some c) by congruence. injection Q; intros <-. reflexivity.
  - unfold mbind at 1 in E. destruct (hfree (Some s) h3) as [[u h4]| |]; discriminate.
Qed.
(** Whatever is refused, the request is the one of C96 or nothing of it is left. *)
Theorem C151_request : forall now amount recipient lnurl src content relays h l, holds h l -> In src l -> (amount < 2 ^ 64)%N -> length recipient = 32 ->
  (N.of_nat (texts relays + length (match lnurl with Some x => x | None => [] end)) < 2 ^ 60)%N ->
  exists p x h', zap_create_m grant lim now amount recipient lnurl src content relays h = Ok ((p, x), h') /\ h_next h <= h_next h' /\
  match x with
  | None => exists c, p = Some c /\ event_sound c /\ holds h' (owned c ++ l) /\ zap_create lim now amount recipient lnurl content relays = Ok (ce_val c)
  | Some e => holds h' l /\ (zap_create lim now amount recipient lnurl content relays = Err e \/ e = EMemory /\ failed grant h h')
  end.
Proof.
  intros now amount recipient lnurl src content relays h l X I AM RL SM. unfold zap_create_m, zap_create. destruct (length relays =? 0).
  { exists None, (Some EInvalidParam), h. split; [reflexivity|]. split; [lia|]. auto. }
  change (2 ^ 60)%N with 1152921504606846976%N in SM. cbv zeta.
  destruct (C107_create grant now h l X) as (p & x & h1 & E & L1 & R). rewrite (mbind_ok _ _ _ _ _ E). destruct R as [(-> & c & -> & ES & X1 & V)|(-> & X1 & F)].
  2:{ exists p, (Some EMemory), h1. split; [destruct p; reflexivity|]. split; [exact L1|]. split; [exact X1|auto]. }
  assert (ES2 : event_sound (with_kind c ZAP_REQUEST_KIND)) by (destruct ES as [S1 S2 S3 S4]; constructor; assumption).
  assert (U0 := created_unused _ _ _ _ E).
  assert (DA : length (dec_N amount) <= 20) by (apply dec_length; [lia|]; apply (N.lt_trans _ _ _ AM); reflexivity).
  assert (HR : length (hex_encode recipient) = 64) by (rewrite hex_encode_length, RL; reflexivity).
  assert (RT := texts_firstn 15 relays). assert (R15 : length (firstn 15 relays) <= 15) by (rewrite firstn_length; lia).
  assert (REST : forall c h2, event_sound c -> holds h2 (owned c ++ l) -> ce_used c = 0%N -> h_next h <= h_next h2 ->
    makes (tag_or_discard grant lim c (bs "relays" :: firstn 15 relays) (fun c =>
        tag_or_discard grant lim c [bs "amount"; dec_N amount] (fun c =>
        match lnurl with Some s => tag_or_discard grant lim c [bs "lnurl"; s] (fun c => tag_or_discard grant lim c [bs "p"; hex_encode recipient] (fun c => mret (Some c, None)))
        | None => tag_or_discard grant lim c [bs "p"; hex_encode recipient] (fun c => mret (Some c, None)) end)))
      (do e <- GiftWrap.add_tag lim (ce_val c) (bs "relays" :: firstn 15 relays);
       do e <- GiftWrap.add_tag lim e [bs "amount"; dec_N amount];
       do e <- match lnurl with Some s => GiftWrap.add_tag lim e [bs "lnurl"; s] | None => Ok e end;
       do e <- GiftWrap.add_tag lim e [bs "p"; hex_encode recipient]; Ok e) h h2 l).
  { clear c E ES X1 V ES2 U0. intros c h2 ES X2 U0 L2.
    apply (tag_or c (bs "relays" :: firstn 15 relays) _ (fun e => do e <- GiftWrap.add_tag lim e [bs "amount"; dec_N amount]; do e <- match lnurl with Some s => GiftWrap.add_tag lim e [bs "lnurl"; s] | None => Ok e end; do e <- GiftWrap.add_tag lim e [bs "p"; hex_encode recipient]; Ok e));
      [exact ES|exact X2|discriminate|rewrite U0, space_cons, space_texts; change (2 ^ 62)%N with 4611686018427387904%N; cbn [length bs String.length]; lia|exact L2|].
    intros c1 h3 ES1 X3 U1 L3. rewrite U0, space_cons, space_texts in U1. cbn [length bs String.length] in U1.
    apply (tag_or c1 [bs "amount"; dec_N amount] _ (fun e => do e <- match lnurl with Some s => GiftWrap.add_tag lim e [bs "lnurl"; s] | None => Ok e end; do e <- GiftWrap.add_tag lim e [bs "p"; hex_encode recipient]; Ok e));
      [exact ES1|exact X3|discriminate|rewrite !space_cons, space_nil; change (2 ^ 62)%N with 4611686018427387904%N; cbn [length bs String.length]; lia|exact L3|].
    intros c2 h4 ES4 X4 U2 L4. rewrite !space_cons, space_nil in U2. cbn [length bs String.length] in U2.
    assert (LAST : forall c h5, event_sound c -> holds h5 (owned c ++ l) -> (ce_used c <= 2000 + N.of_nat (texts relays + length (match lnurl with Some x => x | None => [] end)))%N -> h_next h <= h_next h5 ->
      makes (tag_or_discard grant lim c [bs "p"; hex_encode recipient] (fun c => mret (Some c, None))) (do e <- GiftWrap.add_tag lim (ce_val c) [bs "p"; hex_encode recipient]; Ok e) h h5 l).
    { intros c5 h5 ES5 X5 U5 L5. apply (tag_or c5 [bs "p"; hex_encode recipient] _ (fun e => Ok e)); [exact ES5|exact X5|discriminate|rewrite !space_cons, space_nil, HR; change (2 ^ 62)%N with 4611686018427387904%N; cbn [length bs String.length]; lia|exact L5|].
      intros c6 h6 ES6 X6 U6 L6. exists (Some c6), None, h6. split; [reflexivity|]. split; [lia|]. exists c6. auto. }
    destruct lnurl as [s|].
    - apply (tag_or c2 [bs "lnurl"; s] _ (fun e => do e <- GiftWrap.add_tag lim e [bs "p"; hex_encode recipient]; Ok e));
        [exact ES4|exact X4|discriminate|rewrite !space_cons, space_nil; change (2 ^ 62)%N with 4611686018427387904%N; cbn [length bs String.length]; lia|exact L4|].
      intros c3 h5 ES5 X5 U5 L5. rewrite !space_cons, space_nil in U5. cbn [length bs String.length] in U5. apply LAST; [exact ES5|exact X5|lia|exact L5].
    - cbn [bind]. apply LAST; [exact ES4|exact X4|lia|exact L4]. }
  assert (TAIL : forall e : event, (do e <- GiftWrap.add_tag lim e [bs "p"; hex_encode recipient]; Ok e) = GiftWrap.add_tag lim e [bs "p"; hex_encode recipient]) by (intros e; destruct (GiftWrap.add_tag lim e _); reflexivity).
  assert (DONE : forall m e0 h2, makes m (do e <- GiftWrap.add_tag lim e0 (bs "relays" :: firstn 15 relays);
       do e <- GiftWrap.add_tag lim e [bs "amount"; dec_N amount];
       do e <- match lnurl with Some s => GiftWrap.add_tag lim e [bs "lnurl"; s] | None => Ok e end;
       do e <- GiftWrap.add_tag lim e [bs "p"; hex_encode recipient]; Ok e) h h2 l -> h_next h <= h_next h2 ->
     exists p x h', m h2 = Ok ((p, x), h') /\ h_next h <= h_next h' /\ match x with
       | None => exists c, p = Some c /\ event_sound c /\ holds h' (owned c ++ l) /\ (do e <- GiftWrap.add_tag lim e0 (bs "relays" :: firstn 15 relays); do e <- GiftWrap.add_tag lim e [bs "amount"; dec_N amount];
          do e <- match lnurl with Some s => GiftWrap.add_tag lim e [bs "lnurl"; s] | None => Ok e end; GiftWrap.add_tag lim e [bs "p"; hex_encode recipient]) = Ok (ce_val c)
       | Some e => holds h' l /\ ((do e <- GiftWrap.add_tag lim e0 (bs "relays" :: firstn 15 relays); do e <- GiftWrap.add_tag lim e [bs "amount"; dec_N amount];
          do e <- match lnurl with Some s => GiftWrap.add_tag lim e [bs "lnurl"; s] | None => Ok e end; GiftWrap.add_tag lim e [bs "p"; hex_encode recipient]) = Err e \/ e = EMemory /\ failed grant h h') end).
  { intros m e0 h2 (p & x & h3 & E3 & L3 & R3) L2. exists p, x, h3. split; [exact E3|]. split; [lia|].
    destruct (GiftWrap.add_tag lim e0 _) as [e1| |]; cbn [bind] in *; [|exact R3|exact R3]. destruct (GiftWrap.add_tag lim e1 _) as [e2| |]; cbn [bind] in *; [|exact R3|exact R3].
    destruct (match lnurl with Some s => GiftWrap.add_tag lim e2 [bs "lnurl"; s] | None => Ok e2 end) as [e3| |]; cbn [bind] in *; [|exact R3|exact R3]. rewrite TAIL in R3. exact R3. }
  assert (VK : ce_val (with_kind c ZAP_REQUEST_KIND) = mkEvent (repeat 0%N 32) (repeat 0%N 32) now ZAP_REQUEST_KIND [] None (repeat 0%N 64)) by (unfold with_kind, with_val; cbn [ce_val]; rewrite V; reflexivity).
  destruct content as [[|a t]|].
  - specialize (REST _ h1 ES2 X1 U0 L1). rewrite VK in REST. exact (DONE _ _ _ REST L1).
  - destruct (C107_content grant (with_kind c ZAP_REQUEST_KIND) src (a :: t) h1 l ES2 X1 I) as (c1 & x & h2 & E2 & ES1 & X2 & L2 & R2). rewrite (mbind_ok _ _ _ _ _ E2). destruct R2 as [(-> & V2)|(-> & V2 & F)].
    + specialize (REST c1 h2 ES1 X2). rewrite (content_used _ _ _ _ _ _ _ _ E2) in REST. specialize (REST U0 ltac:(lia)). rewrite V2, VK in REST. exact (DONE _ _ _ REST ltac:(lia)).
    + destruct (discard_makes c1 EMemory (Err EMemory) h h2 l X2) as (p & x & h3 & E3 & L3 & R3); [left; reflexivity|]. exists p, x, h3. split; [exact E3|]. split; [lia|].
      unfold discard in E3. destruct (C107_destroy c1 h2 l X2) as (h4 & E4 & X4 & L4). unfold mbind in E3. rewrite E4 in E3. unfold mret in E3. assert (x = Some EMemory) as -> by congruence. split; [apply R3|].
      right. split; [reflexivity|]. destruct F as (j & A & B). exists j. split; [lia|exact B].
  - specialize (REST _ h1 ES2 X1 U0 L1). rewrite VK in REST. exact (DONE _ _ _ REST L1).
Qed.
End Grant.

(** After an error the caller's variable is neither NULL nor an event: releasing it,
    as the other functions allow, releases it a second time; here although memory
    suffices, for a limit of two tags. *)
Theorem C151_pointer_refuted : ~ (forall grant lim now amount recipient lnurl src content relays h l p x h', holds h l -> In src l -> (forall k, grant k = true) ->
  zap_create_m grant lim now amount recipient lnurl src content relays h = Ok ((p, Some x), h') -> event_destroy p h' <> Undef).
Proof.
  intros G. destruct (zap_create_m (fun _ => true) (Some (mkEvLimits 10 2)) 5 1000 (repeat 7%N 32) None 0 None [bs "wss://r"] (mkHeap 1 [0])) as [[[p [x|]] h']| |] eqn:E; try (vm_compute in E; discriminate E).
  assert (X : holds (mkHeap 1 [0]) [0]) by (split; [split; [constructor; [intros []|constructor]|repeat constructor]|apply Permutation_refl]).
  apply (G _ _ _ _ _ _ _ _ _ _ _ _ _ _ X (or_introl eq_refl) (fun _ => eq_refl) E).
  assert (Q : match zap_create_m (fun _ => true) (Some (mkEvLimits 10 2)) 5 1000 (repeat 7%N 32) None 0 None [bs "wss://r"] (mkHeap 1 [0]) with Ok ((p, _), h) => event_destroy p h | _ => Ok (tt, mkHeap 0 []) end = Undef) by (vm_compute; reflexivity).
  rewrite E in Q. exact Q.
Qed.
Example C151_meets :
  holds (mkHeap 1 [0]) [0] /\
  seen (zap_create_m (fun _ => true) None 5 1000 (repeat 7%N 32) (Some (bs "lnurl1x")) 0 (Some (bs "hi")) [bs "wss://r"; bs "wss://s"] (mkHeap 1 [0])) = Some (None, [8; 4; 3; 2; 1; 0]) /\
  seen (zap_create_m (fun k => negb (k =? 4)) None 5 1000 (repeat 7%N 32) (Some (bs "lnurl1x")) 0 (Some (bs "hi")) [bs "wss://r"; bs "wss://s"] (mkHeap 1 [0])) = Some (Some EMemory, [0]) /\
  seen (zap_create_m (fun k => negb (k =? 7)) None 5 1000 (repeat 7%N 32) (Some (bs "lnurl1x")) 0 (Some (bs "hi")) [bs "wss://r"; bs "wss://s"] (mkHeap 1 [0])) = Some (Some EMemory, [0]).
Proof.
  split; [split; [split; [constructor; [intros []|constructor]|repeat constructor]|apply Permutation_refl]|]. repeat split; vm_compute; reflexivity.
Qed.
Print Assumptions C151_request.
Print Assumptions C151_pointer_refuted.
