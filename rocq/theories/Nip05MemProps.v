(** Memory of NIP-05 look-ups: C150. *)
From Verif Require Import Base BaseFacts Heap Nip05 EventMem RelayMemSpec RelayMemProps EventMemSpec EventMemProps EventOomSpec Nip21Mem Nip21MemProps Nip05Mem Nip05MemSpec.
From Coq Require Import Permutation.
Open Scope nat_scope.

Lemma failed_wider grant h h1 h2 h3 : failed grant h1 h2 -> h_next h <= h_next h1 -> h_next h2 <= h_next h3 -> failed grant h h3.
Proof. intros (k & L & F) A B. exists k. split; [lia|exact F]. Qed.
(** Releasing gives everything back. *)
Theorem C150_free : forall r h l, (hi_array r = None -> hi_strings r = []) -> holds h (hint_blocks r ++ l) -> exists h', free_relays_m r h = Ok (tt, h') /\ holds h' l /\ h_next h' = h_next h.
Proof.
  intros r h l NA X. unfold free_relays_m, hint_blocks in *. destruct (hi_array r) as [a|].
  - cbn [opt_list app] in X. rewrite (mbind_ok _ _ _ _ _ (use_holds a h _ X (or_introl eq_refl))).
    apply (holds_perm _ _ (hi_strings r ++ a :: l)) in X; [|apply Permutation_middle]. destruct (free_all_ok _ _ _ X) as (h1 & E1 & X1 & L1). rewrite (mbind_ok _ _ _ _ _ E1).
    destruct (free_holds _ _ _ X1) as (h2 & E2 & X2 & L2). exists h2. split; [exact E2|]. split; [exact X2|lia].
  - rewrite (NA eq_refl) in X. exists h. auto.
Qed.

Section Grant.
Variable grant : nat -> bool.
Lemma collect_ok a : forall fuel n before s bl h l, holds h (a :: bl ++ l) ->
  exists o h', collect_m grant a fuel n before s bl h = Ok (o, h') /\ h_next h <= h_next h' /\
  match o with
  | Some (bl', rs) => holds h' (a :: bl' ++ l) /\ rs = collect_relays fuel n before s /\ length bl' = length bl + length rs
  | None => holds h' l /\ failed grant h h'
  end.
Proof.
  induction fuel as [|f IH]; intros n before s bl h l X; cbn [collect_m collect_relays].
  { exists (Some (bl, [])), h. split; [reflexivity|]. split; [lia|]. split; [exact X|]. cbn. auto. }
  assert (STOP : exists o h', @mret (option (list nat * list (list N))) (Some (bl, [])) h = Ok (o, h') /\ h_next h <= h_next h' /\
    match o with Some (bl', rs) => holds h' (a :: bl' ++ l) /\ rs = [] /\ length bl' = length bl + length rs | None => holds h' l /\ failed grant h h' end).
  { exists (Some (bl, [])), h. split; [reflexivity|]. split; [lia|]. split; [exact X|]. cbn. auto. }
  destruct n as [|n']; [exact STOP|]. destruct s as [|c s']; [exact STOP|]. destruct (c =? 93)%N; [exact STOP|].
  destruct (to_quote before (c :: s')) as [b1 s1]. destruct (after 34 s1) as [r1|]; [|exact STOP]. destruct (to_string_end (34%N :: b1) [] r1) as [[u b2] s2]. destruct (after 34 s2) as [r2|]; [|exact STOP].
  clear STOP. destruct (is_valid_relay_url u); [|apply IH, X].
  destruct (ealloc_cases grant h _ X) as [(b & h1 & E & X1 & L1)|(h1 & E & X1 & L1 & F)]; rewrite (mbind_ok _ _ _ _ _ E).
  - rewrite (mbind_ok _ _ _ _ _ (use_holds a h1 _ X1 ltac:(right; left; reflexivity))), (mbind_ok _ _ _ _ _ (use_holds b h1 _ X1 ltac:(left; reflexivity))).
    destruct (IH n' (34%N :: b2) r2 (bl ++ [b]) h1 l) as (o & h2 & E2 & L2 & R2).
    { revert X1. apply holds_perm. rewrite <- app_assoc. cbn [app]. etransitivity; [apply perm_swap|]. apply perm_skip, Permutation_middle. }
    rewrite (mbind_ok _ _ _ _ _ E2). eexists. exists h2. split; [reflexivity|]. split; [lia|]. destruct o as [[bl' rs]|]; cbn [option_map fst snd].
    + destruct R2 as (X2 & R & LN). split; [exact X2|]. split; [rewrite R; reflexivity|]. rewrite LN, app_length. cbn [length]. lia.
    + destruct R2 as (X2 & F2). split; [exact X2|]. exact (failed_wider _ _ _ _ _ F2 L1 (Nat.le_refl _)).
  - rewrite (mbind_ok _ _ _ _ _ (use_holds a h1 _ X1 ltac:(left; reflexivity))).
    destruct (C150_free (mkHints (Some a) bl) h1 l ltac:(discriminate) X1) as (h2 & E2 & X2 & L2). rewrite (mbind_ok _ _ _ _ _ E2).
    exists None, h2. split; [reflexivity|]. split; [lia|]. split; [exact X2|]. refine (failed_wider _ _ _ _ _ F _ _); lia.
Qed.
Lemma relays_ok json key h l : holds h l ->
  exists r o h', find_relays_m grant json key h = Ok ((r, o), h') /\ holds h' (hint_blocks r ++ l) /\ h_next h <= h_next h' /\
  match o with inl rs => find_relays json key = Ok rs /\ hints_for r rs | inr x => r = no_hints /\ (find_relays json key = Err x \/ x = EMemory /\ failed grant h h') end.
Proof.
  intros X. unfold find_relays_m, find_relays.
  assert (NONE : exists r o h', @mret (hints * ans (list (list N))) (no_hints, inl []) h = Ok ((r, o), h') /\ holds h' (hint_blocks r ++ l) /\ h_next h <= h_next h' /\
    match o with inl rs => Ok [] = Ok rs /\ hints_for r rs | inr x => r = no_hints /\ (Ok (@nil (list N)) = Err x \/ x = EMemory /\ failed grant h h') end).
  { exists no_hints, (inl []), h. split; [reflexivity|]. split; [exact X|]. split; [lia|]. split; [reflexivity|]. split; [reflexivity|reflexivity]. }
  destruct (json_strstr json _) as [p|]; [|exact NONE]. cbv zeta. destruct (after 123 _) as [x1|]; [|exact NONE]. destruct (json_strstr _ _) as [q|]; [|exact NONE]. destruct (after 91 _) as [t|]; [|exact NONE].
  destruct (_ =? 0); [exact NONE|]. clear NONE. destruct (100 <? _).
  { exists no_hints, (inr EInvalidParam), h. split; [reflexivity|]. split; [exact X|]. split; [lia|]. split; [reflexivity|left; reflexivity]. }
  destruct (ealloc_cases grant h _ X) as [(a & h1 & E & X1 & L1)|(h1 & E & X1 & L1 & F)]; rewrite (mbind_ok _ _ _ _ _ E).
  - destruct (collect_ok a (S (length t)) (count_strings [] false t) [] t [] h1 l X1) as (o & h2 & E2 & L2 & R2). rewrite (mbind_ok _ _ _ _ _ E2). destruct o as [[bl rs]|].
    + destruct R2 as (X2 & R & LN). eexists. eexists. exists h2. split; [reflexivity|]. split; [exact X2|]. split; [lia|]. split; [rewrite R; reflexivity|]. split; [discriminate|]. cbn [hi_strings]. rewrite LN. reflexivity.
    + destruct R2 as (X2 & F2). eexists. eexists. exists h2. split; [reflexivity|]. split; [exact X2|]. split; [lia|]. split; [reflexivity|right]. split; [reflexivity|]. exact (failed_wider _ _ _ _ _ F2 L1 (Nat.le_refl _)).
  - eexists. eexists. exists h1. split; [reflexivity|]. split; [exact X1|]. split; [lia|]. split; [reflexivity|right]. auto.
Qed.
(** A response is read as Nip05.v says and the caller gets one string per relay and
    their array; with an error the caller gets nothing. *)
Theorem C150_response : forall json name size want h l, holds h l ->
  exists r o h', parse_response_m grant json name size want h = Ok ((r, o), h') /\ holds h' (hint_blocks r ++ l) /\ h_next h <= h_next h' /\
  match o with
  | inl (k, rs) => nip05_parse_response json name size want = Ok (k, rs) /\ hints_for r rs
  | inr x => r = no_hints /\ (nip05_parse_response json name size want = Err x \/ x = EMemory /\ failed grant h h')
  end.
Proof.
  intros json name size want h l X. unfold parse_response_m, nip05_parse_response. destruct (size <? 65)%N.
  { exists no_hints, (inr EInvalidParam), h. split; [reflexivity|]. split; [exact X|]. split; [lia|]. split; [reflexivity|left; reflexivity]. }
  destruct (find_pubkey json name) as [k|x|] eqn:K; cbn [bind].
  - rewrite (mbind_ok _ _ _ _ _ (eq_refl : lift (Ok k) h = Ok (inl k, h))). destruct want.
    + destruct (relays_ok json k h l X) as (r & o & h1 & E & X1 & L1 & R). rewrite (mbind_ok _ _ _ _ _ E). eexists. eexists. exists h1. split; [reflexivity|]. cbn [fst snd]. split; [exact X1|]. split; [exact L1|].
      destruct o as [rs|x].
      * destruct R as (R & HF). rewrite R. cbn [bind]. split; [reflexivity|exact HF].
      * destruct R as (RN & [R|(-> & F)]); split; auto. rewrite R. left. reflexivity.
    + eexists. eexists. exists h. split; [reflexivity|]. split; [exact X|]. split; [lia|]. split; [reflexivity|]. split; reflexivity.
  - eexists. eexists. exists h. split; [reflexivity|]. split; [exact X|]. split; [lia|]. split; [reflexivity|left; reflexivity].
  - exfalso. unfold find_pubkey in K. repeat match type of K with context [match ?x with _ => _ end] => destruct x; try discriminate K end.
Qed.

(** Looking up an identity: the response is always released, and the caller gets the
    relays only when the key is the expected one. *)
Theorem C150_verify : forall f fetch id key want h l, serves f fetch -> holds h l -> nip05_verify id key (answer f) want <> Undef ->
  exists r o h', verify_id_m grant fetch id key want h = Ok ((r, o), h') /\ holds h' (hint_blocks r ++ l) /\
  match o with
  | inl rs => nip05_verify id key (answer f) want = Ok rs /\ hints_for r rs
  | inr x => r = no_hints /\ (nip05_verify id key (answer f) want = Err x \/ x = EMemory /\ failed grant h h')
  end.
Proof.
  intros f fetch id key want h l SV X D. unfold verify_id_m, nip05_verify in *.
  assert (OUT : forall x h1 (r : res (list (list N))), holds h1 l -> r = Err x -> exists r' o h', @mret (hints * ans (list (list N))) (no_hints, inr x) h1 = Ok ((r', o), h') /\ holds h' (hint_blocks r' ++ l) /\
    match o with inl rs => r = Ok rs /\ hints_for r' rs | inr x => r' = no_hints /\ (r = Err x \/ x = EMemory /\ failed grant h h') end).
  { intros x h1 r X1 R. eexists. eexists. exists h1. split; [reflexivity|]. split; [exact X1|]. split; [reflexivity|left; exact R]. }
  destruct (nip05_parse id 65 257) as [nd|x|]; cbn [bind] in *; [|apply OUT; auto|congruence].
  rewrite (mbind_ok _ _ _ _ _ (eq_refl : lift (Ok nd) h = Ok (inl nd, h))).
  destruct (nip05_build_url (fst nd) (snd nd) 512) as [url|x|]; cbn [bind] in *; [|apply OUT; auto|congruence].
  rewrite (mbind_ok _ _ _ _ _ (eq_refl : lift (Ok url) h = Ok (inl url, h))).
  destruct (SV url h l X) as (p & h1 & E & P & X1 & L1). rewrite (mbind_ok _ _ _ _ _ E). clear E SV. unfold answer in *. destruct (f url) as [[x b] n]. cbn [fst snd] in *.
  destruct x as [x|]; cbn [bind] in *.
  { destruct (free_opt_holds _ _ _ X1) as (h2 & E2 & X2 & L2). rewrite (mbind_ok _ _ _ _ _ E2). apply OUT; auto. }
  destruct p as [[q buf]|]; cbn [option_map snd fst] in *; subst b; [|apply OUT; auto].
  assert (FREE : forall x h2 l2 (r : res (list (list N))), holds h2 (q :: l2 ++ l) -> l2 = [] -> r = Err x -> exists r' o h', (let! _ := hfree (Some q) in @mret (hints * ans (list (list N))) (no_hints, inr x)) h2 = Ok ((r', o), h') /\ holds h' (hint_blocks r' ++ l) /\
    match o with inl rs => r = Ok rs /\ hints_for r' rs | inr x => r' = no_hints /\ (r = Err x \/ x = EMemory /\ failed grant h h') end).
  { intros x h2 l2 r X2 -> R. destruct (free_holds _ _ _ X2) as (h3 & E3 & X3 & L3). rewrite (mbind_ok _ _ _ _ _ E3). apply OUT; auto. }
  destruct (n =? 0)%N; [apply (FREE _ h1 []); auto|]. destruct (1048576 <? n)%N; [apply (FREE _ h1 []); auto|]. clear FREE.
  rewrite (mbind_ok _ _ _ _ _ (use_holds q h1 _ X1 (or_introl eq_refl))). destruct (c_string buf) as [doc|x|] eqn:CS; cbn [bind] in *; [| |congruence].
  2:{ exfalso. clear - CS. revert x CS. induction buf as [|c r IH]; cbn [c_string]; intros x; [discriminate|]. destruct (c =? 0)%N; [discriminate|]. destruct (c_string r) as [|y|]; cbn [bind]; try discriminate. intros _. exact (IH y eq_refl). }
  rewrite (mbind_ok _ _ _ _ _ (eq_refl : lift (Ok doc) h1 = Ok (inl doc, h1))).
  destruct (C150_response doc (fst nd) 65 want h1 _ X1) as (r & o & h2 & E2 & X2 & L2 & R2). rewrite (mbind_ok _ _ _ _ _ E2).
  apply (holds_perm _ _ (q :: hint_blocks r ++ l)) in X2; [|symmetry; apply Permutation_middle]. destruct (free_holds _ _ _ X2) as (h3 & E3 & X3 & L3). rewrite (mbind_ok _ _ _ _ _ E3).
  destruct o as [[k rs]|x].
  - destruct R2 as (R2 & HF). rewrite R2 in *. cbn [bind fst snd] in *.
    assert (BAD : forall res, res = Err EInvalidKey -> exists r' o h', (let! _ := free_relays_m r in @mret (hints * ans (list (list N))) (no_hints, inr EInvalidKey)) h3 = Ok ((r', o), h') /\ holds h' (hint_blocks r' ++ l) /\
      match o with inl rs => res = Ok rs /\ hints_for r' rs | inr x => r' = no_hints /\ (res = Err x \/ x = EMemory /\ failed grant h h') end).
    { intros re RE. destruct (C150_free r h3 l (proj1 HF) X3) as (h4 & E4 & X4 & _). rewrite (mbind_ok _ _ _ _ _ E4). apply OUT; auto. }
    destruct (negb _); [apply BAD; reflexivity|]. destruct (beq k _); [|apply BAD; reflexivity].
    exists r, (inl rs), h3. split; [reflexivity|]. split; [exact X3|]. split; [reflexivity|exact HF].
  - destruct R2 as (RN & R2). rewrite RN in X3. exists no_hints, (inr x), h3. split; [reflexivity|]. split; [exact X3|]. split; [reflexivity|].
    destruct R2 as [R2|(-> & F)]; [left; rewrite R2; reflexivity|right]. split; [reflexivity|]. refine (failed_wider _ _ _ _ _ F _ _); lia.
Qed.
(** From look-up to release nothing is kept. *)
Corollary C150_life : forall f fetch id key want h l, serves f fetch -> holds h l -> nip05_verify id key (answer f) want <> Undef ->
  exists r o h' h'', verify_id_m grant fetch id key want h = Ok ((r, o), h') /\ free_relays_m r h' = Ok (tt, h'') /\ holds h'' l.
Proof.
  intros f fetch id key want h l SV X D. destruct (C150_verify f fetch id key want h l SV X D) as (r & o & h1 & E & X1 & R).
  destruct (C150_free r h1 l) as (h2 & E2 & X2 & _); [destruct o; [apply (proj2 R)|rewrite (proj1 R); reflexivity]|exact X1|]. exists r, o, h1, h2. auto.
Qed.
End Grant.

Definition key_a : list N := bs "aaaaaaaaaaaaaaaaaaaaaaaaaaaaaaaaaaaaaaaaaaaaaaaaaaaaaaaaaaaaaaaa".
Definition page (urls : list N) : list N := bs "{""names"":{""bob"":""" ++ key_a ++ bs """},""relays"":{""" ++ key_a ++ bs """:[" ++ urls ++ bs "]}}".
Definition client (s : list N) : list N -> M (option err * option (nat * list N) * N) :=
  fun _ => let! p := ealloc (fun _ => true) in mret (None, option_map (fun b => (b, s ++ [0%N])) p, N.of_nat (length s)).
Definition site (s : list N) : list N -> option err * option (list N) * N := fun _ => (None, Some (s ++ [0%N]), N.of_nat (length s)).
Lemma client_serves s : serves (site s) (client s).
Proof.
  intros url h l X. destruct (ealloc_cases (fun _ => true) h l X) as [(b & h1 & E & X1 & L1)|(h1 & E & X1 & L1 & (k & _ & F))]; [|discriminate F].
  exists (Some (b, s ++ [0%N])), h1. unfold client. rewrite (mbind_ok _ _ _ _ _ E). split; [reflexivity|]. split; [reflexivity|]. split; [exact X1|exact L1].
Qed.
(** A count of 0 does not mean that there is nothing to release. *)
Theorem C150_empty_refuted : ~ (forall grant json name size h l r k h', holds h l -> parse_response_m grant json name size true h = Ok ((r, inl (k, [])), h') -> holds h' l).
Proof.
  intros H. assert (X : holds (mkHeap 0 []) []) by (split; [split; constructor|constructor]).
  assert (E : parse_response_m (fun _ => true) (page (bs """http://x""")) (bs "bob") 65 true (mkHeap 0 []) = Ok ((mkHints (Some 0) [], inl (key_a, [])), mkHeap 1 [0])) by (vm_compute; reflexivity).
  specialize (H _ _ _ _ _ _ _ _ _ X E). destruct H as (_ & P). apply Permutation_length in P. discriminate P.
Qed.
Definition two : list N := bs """wss://a.b"",""http://x"",""ws://c.dd""".
Example C150_meets :
  holds (mkHeap 0 []) [] /\ serves (site (page two)) (client (page two)) /\ nip05_verify (bs "bob@a.b") key_a (answer (site (page two))) true = Ok [bs "wss://a.b"; bs "ws://c.dd"] /\
  verify_id_m (fun _ => true) (client (page two)) (bs "bob@a.b") key_a true (mkHeap 0 []) = Ok ((mkHints (Some 1) [2; 3], inl [bs "wss://a.b"; bs "ws://c.dd"]), mkHeap 4 [3; 2; 1]) /\
  verify_id_m (fun k => k <? 3) (client (page two)) (bs "bob@a.b") key_a true (mkHeap 0 []) = Ok ((no_hints, inr EMemory), mkHeap 4 []) /\
  verify_id_m (fun _ => true) (client (page two)) (bs "bob@a.b") (repeat 98%N 64) true (mkHeap 0 []) = Ok ((no_hints, inr EInvalidKey), mkHeap 4 []).
Proof.
  split; [split; [split; constructor|constructor]|]. split; [apply client_serves|]. repeat split; vm_compute; reflexivity.
Qed.
Print Assumptions C150_free.
Print Assumptions C150_response.
Print Assumptions C150_verify.
Print Assumptions C150_life.
Print Assumptions C150_empty_refuted.
