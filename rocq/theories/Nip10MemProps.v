(** Memory of reply threads: C152. *)
From Verif Require Import Base BaseFacts Heap Dec Event EventProps EventMem RelayMemSpec RelayMemProps EventMemSpec EventMemProps EventOomSpec
  Nip10 Nip10Props Nip21Mem Nip21MemProps Nip18MemProps Nip10Mem.
From Coq Require Import Permutation.
Open Scope nat_scope.

Section Grant.
Variable grant : nat -> bool.
Variable lim : option ev_limits.

Lemma parse_e_cases t : (is_e t = true /\ exists i, parse_e_tag t = Ok (Some i)) \/ (is_e t = false /\ parse_e_tag t = Ok None).
Proof.
  unfold is_e, parse_e_tag. destruct t as [|n [|v r]]; [auto|auto|]. destruct (beq n (bs "e")); cbn [negb]; [left|auto]. split; [reflexivity|].
  assert (CB : forall size src k, (N.of_nat k < size)%N -> copy_bounded size src k = Ok (firstn k src)).
  { intros size src k K. unfold copy_bounded. replace (size <? _)%N with false; [reflexivity|]. symmetry. apply N.ltb_ge. rewrite firstn_length. lia. }
  rewrite CB by reflexivity. cbn [bind]. destruct r as [|x [|y [|z r]]]; cbn [bind]; repeat (rewrite CB by reflexivity; cbn [bind]); eauto.
Qed.
Lemma fill_ok : forall ts, exists l, collect_e_tags ts = Ok l /\ fill_e_tags (e_count ts) ts = Ok l /\ length l = e_count ts.
Proof.
  induction ts as [|t r (l & C & F & L)]; [exists []; auto|]. unfold e_count in *. cbn [collect_e_tags filter fill_e_tags].
  destruct (parse_e_cases t) as [(-> & i & ->)|(-> & ->)]; cbn [bind length].
  - rewrite C, F. cbn [bind]. exists (i :: l). cbn [length]. auto.
  - rewrite C. cbn [bind]. exists l. split; [reflexivity|]. destruct (length (filter is_e r)) as [|m] eqn:Z; [|auto].
    destruct r; cbn in F; [auto|]. split; [|exact L]. destruct l; [reflexivity|discriminate L].
Qed.
Lemma last_nth {A} (l : list A) x : nth_error (x :: l) (length (x :: l) - 1) = Some (last l x).
Proof.
  revert x. induction l as [|y l IH]; intros x; [reflexivity|]. cbn [length]. replace (S (S (length l)) - 1) with (S (length (y :: l) - 1)) by (cbn [length]; lia). cbn [nth_error]. rewrite IH.
  f_equal. clear. revert x y. induction l; intros; [reflexivity|]. cbn [last] in *. destruct l; [reflexivity|]. apply IHl.
Qed.
(** Looking for a root or parent keeps no memory; the answer is that of C43, or the
    array was refused. *)
Theorem C152_find : forall ts marker last id_size relay_size h l, holds h l ->
  exists o h', find_e_tag_m grant ts marker last id_size relay_size h = Ok (o, h') /\ holds h' l /\ h_next h <= h_next h' /\
  match o with
  | inl r => find_e_tag_by_marker ts marker last id_size relay_size = Ok r
  | inr x => find_e_tag_by_marker ts marker last id_size relay_size = Err x \/ x = EMemory /\ failed grant h h' /\ exists r, find_e_tag_by_marker ts marker last id_size relay_size = Ok r
  end.
Proof.
  intros ts marker lst id_size relay_size h l X. unfold find_e_tag_m, find_e_tag_by_marker. destruct (id_size <? 65)%N; [exists (inr EInvalidParam), h; auto|].
  destruct (fill_ok ts) as (el & C & F & L). rewrite C. cbn [bind].
  assert (R : e_count ts = 0 /\ el = [] \/ e_count ts <> 0 /\ exists i m, el = i :: m).
  { destruct el; [left|right]; cbn [length] in L; split; [lia|reflexivity|lia|eauto]. }
  destruct R as [(Z & ->)|(NZ & i & m & ->)].
  { rewrite Z. exists (inr ENotFound), h. auto. }
  destruct (e_count ts =? 0) eqn:Q; [apply Nat.eqb_eq in Q; contradiction|]. clear Q.
  set (r := match find (fun i => beq (et_marker i) marker) (i :: m) with Some i => copy_id_and_relay i id_size relay_size | None => if negb lst then copy_id_and_relay i id_size relay_size else copy_id_and_relay (List.last m i) id_size relay_size end).
  assert (R : match find (fun i => beq (et_marker i) marker) (i :: m) with
      | Some i => Ok (copy_id_and_relay i id_size relay_size)
      | None => if negb lst then Ok (copy_id_and_relay i id_size relay_size) else match nth_error (i :: m) (length (i :: m) - 1) with Some i => Ok (copy_id_and_relay i id_size relay_size) | None => Err ENotFound end
      end = Ok r).
  { unfold r. destruct (find _ (i :: m)); [reflexivity|]. destruct (negb lst); [reflexivity|]. rewrite last_nth. reflexivity. }
  rewrite R. destruct (ealloc_cases grant h _ X) as [(b & h1 & E & X1 & L1)|(h1 & E & X1 & L1 & FF)]; rewrite (mbind_ok _ _ _ _ _ E).
  - rewrite (mbind_ok _ _ _ _ _ (use_holds b h1 _ X1 (or_introl eq_refl))), F. rewrite (mbind_ok _ _ _ _ _ (eq_refl : lift (Ok (i :: m)) h1 = Ok (inl (i :: m), h1))).
    rewrite (mbind_ok _ _ _ _ _ (use_holds b h1 _ X1 (or_introl eq_refl))). cbv zeta. destruct (free_holds _ _ _ X1) as (h2 & E2 & X2 & L2). rewrite (mbind_ok _ _ _ _ _ E2).
    exists (inl r), h2. split; [reflexivity|]. split; [exact X2|]. split; [lia|reflexivity].
  - exists (inr EMemory), h1. split; [reflexivity|]. split; [exact X1|]. split; [exact L1|]. right. eauto.
Qed.
(** So the root and the parent are those of C43. *)
Theorem C152_root_parent : forall e id_size relay_size h l, holds h l ->
  (exists o h', get_root_id_m grant e id_size relay_size h = Ok (o, h') /\ holds h' l /\
   match o with inl r => get_root_id e id_size relay_size = Ok r | inr x => get_root_id e id_size relay_size = Err x \/ x = EMemory /\ failed grant h h' end) /\
  (exists o h', get_reply_id_m grant e id_size relay_size h = Ok (o, h') /\ holds h' l /\
   match o with inl r => get_reply_id e id_size relay_size = Ok r | inr x => get_reply_id e id_size relay_size = Err x \/ x = EMemory /\ failed grant h h' end).
Proof.
  intros e id_size relay_size h l X. split.
  - destruct (C152_find (ev_tags e) (bs "root") false id_size relay_size h l X) as (o & h' & E & X' & _ & R). exists o, h'. split; [exact E|]. split; [exact X'|]. destruct o; [exact R|]. destruct R as [R|(R & F & _)]; [left; exact R|right; auto].
  - destruct (C152_find (ev_tags e) (bs "reply") true id_size relay_size h l X) as (o & h' & E & X' & _ & R). exists o, h'. split; [exact E|]. split; [exact X'|]. destruct o; [exact R|]. destruct R as [R|(R & F & _)]; [left; exact R|right; auto].
Qed.
(** Whether an event is a reply: right if memory suffices. *)
Theorem C152_is_reply_partial : forall e h l, holds h l -> exists b h', is_reply_m grant e h = Ok (b, h') /\ holds h' l /\ (is_reply e = Ok b \/ b = false /\ failed grant h h').
Proof.
  intros e h l X. unfold is_reply_m, get_reply_id_m, is_reply, get_reply_id. destruct (C152_find (ev_tags e) (bs "reply") true 65 0 h l X) as (o & h1 & E & X1 & _ & R). rewrite (mbind_ok _ _ _ _ _ E).
  eexists. exists h1. split; [reflexivity|]. split; [exact X1|]. destruct o as [[id rl]|x].
  - rewrite R. left. destruct id; reflexivity.
  - destruct R as [R|(-> & F & _)]; [left; rewrite R; reflexivity|right; auto].
Qed.

Lemma e_tag_space id relay marker pk : (space (e_tag id relay marker pk) <= 50 + N.of_nat (length id + length (match relay with Some r => r | None => [] end) + length marker + length (match pk with Some r => r | None => [] end)))%N.
Proof. unfold e_tag. destruct relay, pk; cbn [app]; rewrite !space_cons, space_nil; cbn [length bs String.length]; lia. Qed.
(** What is asked to be added. *)
Definition asked (id relay : option (list N)) (marker : list N) (pk : option (list N)) : list (list (list N)) :=
  match id with Some i => [[bs "e"; i; match relay with Some r => r | None => [] end; marker] ++ match pk with Some p => [p] | None => [] end] | None => [] end.
Definition size_of (s : option (list N)) : nat := match s with Some x => length x | None => 0 end.
Definition with_all (e : event) (ts : list (list (list N))) : event := fold_left tagged ts e.
Definition full_at (e : event) : Prop := exists m, lim = Some m /\ (max_tags m <= N.of_nat (length (ev_tags e)))%N.
(** The event gets the tags asked for; with an error the first of them, or none. *)
Theorem C152_reply : forall c root root_relay root_pk reply reply_relay reply_pk h l, event_sound c -> holds h (owned c ++ l) ->
  (ce_used c + N.of_nat (size_of root + size_of root_relay + size_of root_pk + size_of reply + size_of reply_relay + size_of reply_pk) < 2 ^ 61)%N ->
  exists c' x h' added left, add_reply_tags_m grant lim c root root_relay root_pk reply reply_relay reply_pk h = Ok ((c', x), h') /\
    event_sound c' /\ holds h' (owned c' ++ l) /\ ce_self c' = ce_self c /\
    asked root root_relay (bs "root") root_pk ++ asked reply reply_relay (bs "reply") reply_pk = added ++ left /\ ce_val c' = with_all (ce_val c) added /\
    match x with
    | None => left = [] /\ added <> []
    | Some e => (e = EInvalidParam /\ (root = None /\ reply = None \/ left <> [] /\ full_at (ce_val c'))) \/ (e = EMemory /\ left <> [] /\ failed grant h h')
    end.
Proof.
  intros c root rr rp reply yr yp h l ES X SM. unfold add_reply_tags_m. change (2 ^ 61)%N with 2305843009213693952%N in SM.
  assert (TAG : forall c id relay marker pk h, event_sound c -> holds h (owned c ++ l) -> (ce_used c + space (e_tag id relay marker pk) <= 2 ^ 62)%N ->
    exists c' x h', EventMem.add_tag grant lim c (e_tag id relay marker pk) h = Ok ((c', x), h') /\ event_sound c' /\ holds h' (owned c' ++ l) /\ h_next h <= h_next h' /\ ce_self c' = ce_self c /\
    match x with None => ce_val c' = tagged (ce_val c) (e_tag id relay marker pk) /\ ce_used c' = (ce_used c + space (e_tag id relay marker pk))%N
      | Some e => ce_val c' = ce_val c /\ (e = EInvalidParam /\ full_at (ce_val c) \/ e = EMemory /\ failed grant h h') end).
  { clear - grant lim. intros c id relay marker pk h ES X SM. destruct (tag_cases grant lim c (e_tag id relay marker pk) h l ES X ltac:(discriminate) SM) as (c1 & x & h1 & E & ES1 & X1 & L1 & _ & S1 & R).
    exists c1, x, h1. do 5 (split; [assumption|]). destruct x as [e|]; [|split; apply R]. destruct R as (V & [R|R]); (split; [exact V|]); [left|right; exact R].
    rewrite add_pure in R. destruct (match lim with Some _ => _ | None => _ end) eqn:Q; [|discriminate]. split; [congruence|]. unfold full_at. destruct lim as [m|]; [|discriminate]. exists m. split; [reflexivity|apply N.leb_le, Q]. }
  assert (SR := fun id => e_tag_space id rr (bs "root") rp). assert (SY := fun id => e_tag_space id yr (bs "reply") yp).
  assert (B4 : length (bs "root") = 4) by reflexivity. assert (B5 : length (bs "reply") = 5) by reflexivity. rewrite B4 in SR. rewrite B5 in SY.
  unfold size_of in SM. change (2 ^ 62)%N with 4611686018427387904%N in *. destruct root as [id|].
  - destruct (TAG c id rr (bs "root") rp h ES X) as (c1 & x & h1 & E & ES1 & X1 & L1 & S1 & R). { specialize (SR id). destruct rr, rp; cbn [length] in *; lia. }
    cbv beta iota. rewrite (mbind_ok _ _ _ _ _ E). destruct x as [e|].
    + destruct R as (V & R). exists c1, (Some e), h1, [], (asked (Some id) rr (bs "root") rp ++ asked reply yr (bs "reply") yp). split; [reflexivity|]. do 3 (split; [assumption|]). split; [reflexivity|]. split; [exact V|].
      destruct R as [(-> & F)|(-> & F)]; [left|right]; (split; [reflexivity|]). { right. split; [discriminate|]. rewrite V. exact F. } split; [discriminate|exact F].
    + destruct R as (V & U). destruct reply as [id2|].
      * destruct (TAG c1 id2 yr (bs "reply") yp h1 ES1 X1) as (c2 & x & h2 & E2 & ES2 & X2 & L2 & S2 & R2). { rewrite U. specialize (SR id). specialize (SY id2). destruct rr, rp, yr, yp; cbn [length] in *; lia. }
        destruct x as [e|].
        -- destruct R2 as (V2 & R2). exists c2, (Some e), h2, (asked (Some id) rr (bs "root") rp), (asked (Some id2) yr (bs "reply") yp). split; [exact E2|]. split; [exact ES2|]. split; [exact X2|]. split; [congruence|]. split; [reflexivity|]. split; [rewrite V2, V; reflexivity|].
           destruct R2 as [(-> & F)|(-> & (k & A & B))]; [left|right]; (split; [reflexivity|]). { right. split; [discriminate|]. rewrite V2. exact F. } split; [discriminate|]. exists k. split; [lia|exact B].
        -- destruct R2 as (V2 & _). exists c2, None, h2, (asked (Some id) rr (bs "root") rp ++ asked (Some id2) yr (bs "reply") yp), []. split; [exact E2|]. split; [exact ES2|]. split; [exact X2|]. split; [congruence|]. split; [rewrite app_nil_r; reflexivity|]. split; [rewrite V2, V; reflexivity|].
           split; [reflexivity|discriminate].
      * exists c1, None, h1, (asked (Some id) rr (bs "root") rp), []. split; [reflexivity|]. split; [exact ES1|]. split; [exact X1|]. split; [exact S1|]. split; [rewrite app_nil_r; reflexivity|]. split; [exact V|]. split; [reflexivity|discriminate].
  - destruct reply as [id2|].
    + destruct (TAG c id2 yr (bs "reply") yp h ES X) as (c2 & x & h2 & E2 & ES2 & X2 & L2 & S2 & R2). { specialize (SY id2). destruct yr, yp; cbn [length] in *; lia. }
      rewrite (mbind_ok _ _ _ _ _ (eq_refl : mret (c, @None err) h = Ok ((c, None), h))). destruct x as [e|].
      * destruct R2 as (V2 & R2). exists c2, (Some e), h2, [], (asked (Some id2) yr (bs "reply") yp). split; [exact E2|]. split; [exact ES2|]. split; [exact X2|]. split; [exact S2|]. split; [reflexivity|]. split; [exact V2|].
        destruct R2 as [(-> & F)|(-> & F)]; [left|right]; (split; [reflexivity|]). { right. split; [discriminate|]. rewrite V2. exact F. } split; [discriminate|exact F].
      * destruct R2 as (V2 & _). exists c2, None, h2, (asked (Some id2) yr (bs "reply") yp), []. split; [exact E2|]. split; [exact ES2|]. split; [exact X2|]. split; [exact S2|]. split; [reflexivity|]. split; [exact V2|]. split; [reflexivity|discriminate].
    + exists c, (Some EInvalidParam), h, [], []. split; [reflexivity|]. split; [exact ES|]. split; [exact X|]. split; [reflexivity|]. split; [reflexivity|]. split; [reflexivity|]. left. auto.
Qed.
Theorem C152_mention : forall c pk hint h l, event_sound c -> holds h (owned c ++ l) -> (ce_used c + N.of_nat (length pk + size_of hint) < 2 ^ 61)%N ->
  exists c' x h', add_mention_tag_m grant lim c pk hint h = Ok ((c', x), h') /\ event_sound c' /\ holds h' (owned c' ++ l) /\ ce_self c' = ce_self c /\
  match x with
  | None => ce_val c' = tagged (ce_val c) (match hint with Some r => [bs "p"; pk; r] | None => [bs "p"; pk] end)
  | Some e => ce_val c' = ce_val c /\ (e = EInvalidParam /\ full_at (ce_val c) \/ e = EMemory /\ failed grant h h')
  end.
Proof.
  intros c pk hint h l ES X SM. unfold add_mention_tag_m. change (2 ^ 61)%N with 2305843009213693952%N in SM. unfold size_of in SM.
  destruct (tag_cases grant lim c ([bs "p"; pk] ++ match hint with Some h => [h] | None => [] end) h l ES X ltac:(discriminate)) as (c1 & x & h1 & E & ES1 & X1 & L1 & _ & S1 & R).
  { change (2 ^ 62)%N with 4611686018427387904%N. destruct hint; cbn [app]; rewrite !space_cons, space_nil; cbn [length bs String.length]; lia. }
  exists c1, x, h1. do 4 (split; [assumption|]). destruct x as [e|].
  - destruct R as (V & [R|R]); (split; [exact V|]); [left|right; exact R].
    rewrite add_pure in R. destruct (match lim with Some _ => _ | None => _ end) eqn:Q; [|discriminate]. split; [congruence|]. unfold full_at. destruct lim as [m|]; [|discriminate]. exists m. split; [reflexivity|apply N.leb_le, Q].
  - destruct R as (_ & V & _). rewrite V. destruct hint; reflexivity.
Qed.
End Grant.

Definition thread : event := mkEvent [] [] 0 1 [[bs "e"; repeat 97%N 64; []; bs "reply"]] None [].
(** Short of memory a reply is reported not to be one, without an error. *)
Theorem C152_is_reply_refuted : ~ (forall grant e h l b h', holds h l -> is_reply_m grant e h = Ok (b, h') -> is_reply e = Ok b).
Proof.
  intros G. assert (X : holds (mkHeap 0 []) []) by (split; [split; constructor|constructor]).
  assert (E : is_reply_m (fun _ => false) thread (mkHeap 0 []) = Ok (false, mkHeap 1 [])) by (vm_compute; reflexivity). specialize (G _ _ _ _ _ _ X E). vm_compute in G. discriminate G.
Qed.
Definition note : cevent := mkCe 0 1 2 1024 0 None (Some 3) (mkEvent [] [] 0 1 [] (Some (bs "hi")) []).
(** The two tags are not added together. *)
Theorem C152_both_refuted : ~ (forall grant lim c root reply h l c' x h', event_sound c -> holds h (owned c ++ l) ->
  add_reply_tags_m grant lim c (Some root) None None (Some reply) None None h = Ok ((c', Some x), h') -> ce_val c' = ce_val c).
Proof.
  intros G. assert (ES : event_sound note) by (constructor; cbn; [split; discriminate|reflexivity|lia|lia]).
  assert (X : holds (mkHeap 4 [0; 1; 2; 3]) (owned note ++ [])) by (split; [split; cbn; [repeat constructor; cbn; intuition discriminate|repeat constructor]|cbn; apply Permutation_refl]).
  destruct (add_reply_tags_m (fun k => k <? 5) None note (Some (bs "a")) None None (Some (bs "b")) None None (mkHeap 4 [0; 1; 2; 3])) as [[[c' [x|]] h']| |] eqn:E; try (vm_compute in E; discriminate E).
  specialize (G _ _ _ _ _ _ _ _ _ _ ES X E).
  assert (Q : match add_reply_tags_m (fun k => k <? 5) None note (Some (bs "a")) None None (Some (bs "b")) None None (mkHeap 4 [0; 1; 2; 3]) with Ok ((c, _), _) => length (ev_tags (ce_val c)) | _ => 0 end = 1) by (vm_compute; reflexivity).
  rewrite E, G in Q. discriminate Q.
Qed.
Example C152_meets :
  holds (mkHeap 0 []) [] /\ is_reply_m (fun _ => true) thread (mkHeap 0 []) = Ok (true, mkHeap 1 []) /\
  get_root_id_m (fun _ => true) thread 65 0 (mkHeap 0 []) = Ok (inl (repeat 97%N 64, []), mkHeap 1 []) /\ get_root_id_m (fun _ => false) thread 65 0 (mkHeap 0 []) = Ok (inr EMemory, mkHeap 1 []) /\
  event_sound note /\ seen (add_reply_tags_m (fun _ => true) None note (Some (bs "a")) None None (Some (bs "b")) (Some (bs "wss://r")) None (mkHeap 4 [0; 1; 2; 3])) = Some (None, [5; 0; 1; 2; 3]) /\
  seen (add_mention_tag_m (fun _ => false) None note (bs "a") None (mkHeap 4 [0; 1; 2; 3])) = Some (Some EMemory, [0; 1; 2; 3]).
Proof.
  split; [split; [split; constructor|constructor]|]. do 3 (split; [vm_compute; reflexivity|]). split; [constructor; cbn; [split; discriminate|reflexivity|lia|lia]|]. split; vm_compute; reflexivity.
Qed.
Print Assumptions C152_find.
Print Assumptions C152_root_parent.
Print Assumptions C152_is_reply_partial.
Print Assumptions C152_reply.
Print Assumptions C152_mention.
Print Assumptions C152_is_reply_refuted.
Print Assumptions C152_both_refuted.
