(** C112-C114: the relay information document (NIP-11). *)
From Verif Require Import Base BaseFacts Heap Json RelayProto RelayMemProps RelayMemSpec EventMem EventMemSpec EventMemProps CjsonMem CjsonMemProofs EventOomSpec EventOomProps Nip46Spec Nip46Props Nip11 Nip11Mem Nip11Spec Nip11Proofs.
From Coq Require Import Permutation.
Open Scope nat_scope.

Section Doc.
Variable grant : nat -> bool.
Variable print : json -> list N.
Notation granted := (granted grant).
Notation built := (built grant).

(** A run that ends with the text of (what is left of) a tree, or without memory. *)
Definition serves (j : json) (h : heap) (rest : list nat) (buf : list N) (size : N) (r : res (option rerr * list N * option N * heap)) : Prop :=
  exists st buf' len h' lost, r = Ok ((st, buf', len), h') /\ h_next h <= h_next h' /\ holds h' (lost ++ rest) /\
  ((st = Some RMemory /\ buf' = buf /\ len = None /\ ~ granted h h') \/ (exists t, thin j t /\ delivered (print t) buf size st buf' len)) /\
  (granted h h' -> lost = [] /\ delivered (print j) buf size st buf' len).
Lemma then_delete {A B} (m : M A) (d : M unit) (k : A -> M B) h : (let! s := m in let! _ := d in k s) h = (let! s := (let! r := m in let! _ := d in mret r) in k s) h.
Proof. unfold mbind. destruct (m h) as [[a h1]| |]; try reflexivity. destruct (d h1) as [[[] h2]| |]; reflexivity. Qed.
Lemma deliver_ok h0 o j rest h buf size : built h0 o j rest h -> (size <= N.of_nat (length buf))%N -> serves j h0 rest buf size (deliver grant print o buf size h).
Proof.
  intros B SZ. destruct (print_ok grant print h0 o j rest h B) as (r & h1 & lost & E & L1 & X1 & T & G & _).
  unfold deliver. rewrite then_delete, (mbind_ok _ _ _ _ _ E). destruct r as [(b, s)|].
  2:{ exists (Some RMemory), buf, None, h1, lost. split; [reflexivity|]. split; [exact L1|]. split; [exact X1|].
      assert (NG : ~ granted h0 h1) by (intros Q; destruct (G Q) as (_ & b & Z); discriminate Z). split; [left; auto|]. intros Q. destruct (NG Q). }
  destruct (free_holds _ _ _ X1) as (h2 & E2 & X2 & L2). cbv zeta.
  assert (D : forall st buf' len, ((if (size <=? N.of_nat (length s))%N then let! _ := hfree (Some b) in mret (Some RBufferTooSmall, buf, Some (N.of_nat (length s)))
      else if (length buf <? length s + 1) then fun _ => Undef else let! _ := hfree (Some b) in mret (None, s ++ [0%N] ++ skipn (length s + 1) buf, Some (N.of_nat (length s)))) h1 = Ok ((st, buf', len), h2)) -> delivered s buf size st buf' len).
  { intros st buf' len. destruct (N.leb_spec size (N.of_nat (length s))) as [C|C].
    - rewrite (mbind_ok _ _ _ _ _ E2). intros Q. unfold mret in Q. constructor; [congruence|lia|]. intros _. split; congruence.
    - destruct (Nat.ltb_spec (length buf) (length s + 1)); [discriminate|]. rewrite (mbind_ok _ _ _ _ _ E2). intros Q. unfold mret in Q. constructor; [congruence| |lia].
      intros _. split; [congruence|]. exists (firstn (length s + 1) buf), (skipn (length s + 1) buf). rewrite firstn_skipn, firstn_length. split; [reflexivity|]. split; [lia|]. cbn [app] in Q. congruence. }
  assert (R : exists st buf' len, ((if (size <=? N.of_nat (length s))%N then let! _ := hfree (Some b) in mret (Some RBufferTooSmall, buf, Some (N.of_nat (length s)))
      else if (length buf <? length s + 1) then fun _ => Undef else let! _ := hfree (Some b) in mret (None, s ++ [0%N] ++ skipn (length s + 1) buf, Some (N.of_nat (length s)))) h1 = Ok ((st, buf', len), h2))).
  { destruct (N.leb_spec size (N.of_nat (length s))); [|destruct (Nat.ltb_spec (length buf) (length s + 1)); [lia|]]; rewrite (mbind_ok _ _ _ _ _ E2); repeat eexists. }
  destruct R as (st & buf' & len & R). specialize (D _ _ _ R). exists st, buf', len, h2, lost. split; [exact R|]. split; [lia|]. split; [exact X2|].
  destruct (T b s eq_refl) as (t & -> & TH). split; [right; exists t; auto|]. intros Q. destruct (G ltac:(apply (granted_less _ _ _ _ _ Q); lia)) as (LN & b' & Z). split; [exact LN|].
  assert (PT : print t = print j) by congruence. rewrite <- PT. exact D.
Qed.
Lemma serves_limits l buf size h rest : holds h rest -> (size <> 0)%N -> (size <= N.of_nat (length buf))%N ->
  serves (JObj (limit_members l)) h rest buf size (limitation_serialize grant print l buf size h).
Proof.
  intros X NZ SZ. unfold limitation_serialize. destruct (N.eqb_spec size 0) as [Z|_]; [contradiction|].
  destruct (create_builds grant (JObj []) h rest X) as (o & h1 & E & B). rewrite (mbind_ok _ _ _ _ _ E). destruct o as [n|].
  - destruct (limits_grow grant l h (Some n) [] rest h1 B) as (o2 & h2 & E2 & B2). rewrite (mbind_ok _ _ _ _ _ E2). apply deliver_ok; [exact B2|exact SZ].
  - destruct B as [N1 _ (lost & X1 & G1)]. exists (Some RMemory), buf, None, h1, lost. split; [reflexivity|]. split; [exact N1|]. split; [exact X1|].
    assert (NG : ~ granted h h1) by (intros Q; destruct (G1 Q) as (_ & n & Z & _); discriminate Z). split; [left; auto|]. intros Q. destruct (NG Q).
Qed.
Ltac grow X := match goal with B : CjsonMemProofs.built _ ?h0 ?o (JObj ?l) ?rest ?h |- _ =>
  let o' := fresh "o" in let h' := fresh "h" in let E := fresh "E" in let B' := fresh "B" in
  destruct (X h0 o l rest h B) as (o' & h' & E & B'); rewrite (mbind_ok _ _ _ _ _ E); clear B E; rename B' into B end.
Lemma serves_info i buf size h rest : holds h rest -> info_ok i -> (size <> 0)%N -> (size <= N.of_nat (length buf))%N ->
  serves (JObj (info_members i)) h rest buf size (info_serialize grant print i buf size h).
Proof.
  intros X OK NZ SZ. unfold info_serialize. destruct (N.eqb_spec size 0) as [Z|_]; [contradiction|].
  destruct (create_builds grant (JObj []) h rest X) as (o & h1 & E & B). rewrite (mbind_ok _ _ _ _ _ E). destruct o as [n|].
  2:{ destruct B as [N1 _ (lost & X1 & G1)]. exists (Some RMemory), buf, None, h1, lost. split; [reflexivity|]. split; [exact N1|]. split; [exact X1|].
    assert (NG : ~ granted h h1) by (intros Q; destruct (G1 Q) as (_ & n & Z & _); discriminate Z). split; [left; auto|]. intros Q. destruct (NG Q). }
  grow (text_grows grant (bs "name") (i_name i)). grow (text_grows grant (bs "description") (i_description i)). grow (text_grows grant (bs "banner") (i_banner i)).
  grow (text_grows grant (bs "icon") (i_icon i)). grow (text_grows grant (bs "pubkey") (i_pubkey i)). grow (text_grows grant (bs "self") (i_self i)). grow (text_grows grant (bs "contact") (i_contact i)).
  pose proof B as [N6 T6 (lost6 & X6 & G6)]. pose proof OK as [(l & L) _ _ _ _ _ _ _]. pose proof (proj2 (elements_iff _ _) L) as EL.
  destruct (create_builds grant (JArr []) _ _ X6) as (a & h7x & E7x & B7x). 
  match type of B with built _ ?o _ _ ?h6 => set (o6 := o) in *; set (hh := h6) in * end.
  assert (MK : builds grant (array_of grant (make_number grant) (i_nips i)) (JArr (map jint l))).
  { rewrite <- (flat_one jint). apply array_builds; [exact EL|]. apply Forall_forall. intros y _. apply number_makes. }
  destruct a as [na|].
  2:{ rewrite (mbind_ok _ _ _ _ _ E7x). destruct B7x as [N7 _ (lost7 & X7 & G7)]. apply (holds_perm _ _ (nb o6 ++ lost7 ++ lost6 ++ rest)) in X7; [|cnt].
      destruct (delete_ok _ _ _ X7) as (h8x & E8x & X8 & L8). rewrite (mbind_ok _ _ _ _ _ E8x). exists (Some RMemory), buf, None, h8x, (lost7 ++ lost6). split; [reflexivity|]. split; [lia|].
      split; [rewrite <- app_assoc; exact X8|]. assert (NG : ~ granted h h8x). { intros Q. destruct (G7 ltac:(apply (granted_less _ _ _ _ _ Q); lia)) as (_ & z & Z & _). discriminate Z. }
      split; [left; auto|]. intros Q. destruct (NG Q). }
  destruct (object_add grant _ _ _ _ _ (bs "supported_nips") _ _ B MK) as (x & hx & o8x & h8x & EX & E8x & B8x). unfold array_of in EX. rewrite (mbind_ok _ _ _ _ _ E7x), EL in EX.
  rewrite (mbind_ok _ _ _ _ _ E7x), EL, (mbind_ok _ _ _ _ _ EX), (mbind_ok _ _ _ _ _ E8x). clear B. rename B8x into B. clear EX E8x E7x X6 G6 T6 B7x MK. subst o6 hh.
  grow (text_grows grant (bs "software") (i_software i)). grow (text_grows grant (bs "version") (i_version i)). grow (text_grows grant (bs "privacy_policy") (i_privacy i)). grow (text_grows grant (bs "terms_of_service") (i_terms i)).
  destruct (object_add grant _ _ _ _ _ (bs "limitation") (make_limits grant (i_lim i)) _ B (builds_object grant _ _ (limits_grow grant (i_lim i)))) as (y & hy & o9x & h9x & EX & E9x & B9x).
  rewrite (mbind_ok _ _ _ _ _ EX), (mbind_ok _ _ _ _ _ E9x). clear B. rename B9x into B. grow (rest_grows grant i OK).
  unfold info_members, head_members, mid_members. rewrite (els_lists _ _ L). rewrite <- ?app_assoc in *. cbn [app] in B |- *. apply deliver_ok; [exact B|exact SZ].
Qed.
End Doc.

Section Theorems.
Variable grant : nat -> bool.
Variable print : json -> list N.
Notation granted := (granted grant).
(** ** C112 *)
(** With memory, the text put out is that of a document saying what was set (numbers
    up to 2^53); without, of such a document with parts missing.  The buffer is
    handled as in C113. *)
Theorem C112_partial : forall i buf size h rest, holds h rest -> info_ok i -> small_info i -> (0 < size)%N -> (size <= N.of_nat (length buf))%N ->
  exists st buf' len h' lost, info_serialize grant print i buf size h = Ok ((st, buf', len), h') /\ holds h' (lost ++ rest) /\
  (granted h h' -> lost = [] /\ exists t, announces i t /\ delivered (print t) buf size st buf' len) /\
  (st = None -> exists t0 t, announces i t0 /\ thin t0 t /\ delivered (print t) buf size st buf' len).
Proof.
  intros i buf size h rest X OK SM NZ SZ. destruct (serves_info grant print i buf size h rest X OK ltac:(lia) SZ) as (st & buf' & len & h' & lost & E & L & X' & R & G).
  exists st, buf', len, h', lost. split; [exact E|]. split; [exact X'|]. split.
  - intros Q. destruct (G Q) as (-> & D). split; [reflexivity|]. eexists. split; [apply info_says; assumption|exact D].
  - intros ->. destruct R as [(Q & _)|(t & T & D)]; [discriminate|]. eexists. exists t. split; [apply info_says; assumption|]. auto.
Qed.
Theorem C112_limits_partial : forall l buf size h rest, holds h rest -> small_limits l -> (0 < size)%N -> (size <= N.of_nat (length buf))%N ->
  exists st buf' len h' lost, limitation_serialize grant print l buf size h = Ok ((st, buf', len), h') /\ holds h' (lost ++ rest) /\
  (granted h h' -> lost = [] /\ exists t, says_limits t l /\ delivered (print t) buf size st buf' len) /\
  (st = None -> exists t0 t, says_limits t0 l /\ thin t0 t /\ delivered (print t) buf size st buf' len).
Proof.
  intros l buf size h rest X SM NZ SZ. destruct (serves_limits grant print l buf size h rest X ltac:(lia) SZ) as (st & buf' & len & h' & lost & E & L & X' & R & G).
  exists st, buf', len, h', lost. split; [exact E|]. split; [exact X'|]. split.
  - intros Q. destruct (G Q) as (-> & D). split; [reflexivity|]. eexists. split; [apply limits_say, SM|exact D].
  - intros ->. destruct R as [(Q & _)|(t & T & D)]; [discriminate|]. eexists. exists t. split; [apply limits_say, SM|]. auto.
Qed.

(** ** C113 *)
(** Whatever fails and whatever the size: nothing beyond the size is touched, on
    success the text is there, ends with a zero and has the reported length; on
    failure the buffer is as before. *)
Definition respects (buf : list N) (size : N) (st : option rerr) (buf' : list N) (len : option N) : Prop :=
  length buf' = length buf /\ skipn (N.to_nat size) buf' = skipn (N.to_nat size) buf /\
  (st = None -> exists s rest, buf' = s ++ 0%N :: rest /\ len = Some (N.of_nat (length s)) /\ (N.of_nat (length s) < size)%N) /\
  (st <> None -> buf' = buf) /\ (st = Some RBufferTooSmall -> exists n, len = Some n /\ (size <= n)%N).
Lemma delivered_respects s buf size st buf' len : (size <= N.of_nat (length buf))%N -> delivered s buf size st buf' len -> respects buf size st buf' len.
Proof.
  intros SZ [-> F T]. destruct (N.lt_ge_cases (N.of_nat (length s)) size) as [C|C].
  - destruct (F C) as (-> & old & rest & EB & EL & EB'). subst buf buf'. unfold respects. rewrite !app_length in *. cbn [length] in *. split; [lia|]. split.
    + assert (K : exists k, N.to_nat size = (length s + 1) + k) by (exists (N.to_nat size - (length s + 1)); lia). destruct K as (k & ->).
      replace (s ++ 0%N :: rest) with ((s ++ [0%N]) ++ rest) by (rewrite <- app_assoc; reflexivity).
      rewrite (skipn_app _ (s ++ [0%N])), (skipn_app _ old), app_length, EL. cbn [length]. rewrite (skipn_all2 (s ++ [0%N])) by (rewrite app_length; cbn [length]; lia). rewrite (skipn_all2 old) by lia. reflexivity.
    + split; [intros _; exists s, rest; auto|]. split; [congruence|discriminate].
  - destruct (T C) as (-> & ->). unfold respects. split; [reflexivity|]. split; [reflexivity|]. split; [discriminate|]. split; [auto|]. intros _. eexists. split; [reflexivity|exact C].
Qed.
Lemma serves_respects j h rest buf size r : (size <= N.of_nat (length buf))%N -> serves grant print j h rest buf size r ->
  exists st buf' len h', r = Ok ((st, buf', len), h') /\ respects buf size st buf' len /\ (granted h h' -> st = None \/ st = Some RBufferTooSmall).
Proof.
  intros SZ (st & buf' & len & h' & lost & E & _ & _ & R & G). exists st, buf', len, h'. split; [exact E|]. split.
  - destruct R as [(-> & -> & -> & _)|(t & _ & D)]; [|apply (delivered_respects (print t)); assumption].
    unfold respects. split; [reflexivity|]. split; [reflexivity|]. split; [discriminate|]. split; [auto|discriminate].
  - intros Q. destruct (G Q) as (_ & [_ F T]). destruct (N.lt_ge_cases (N.of_nat (length (print j))) size) as [C|C]; [destruct (F C); auto|destruct (T C); auto].
Qed.
Theorem C113_info : forall i buf size h rest, holds h rest -> info_ok i -> (size <= N.of_nat (length buf))%N ->
  exists st buf' len h', info_serialize grant print i buf size h = Ok ((st, buf', len), h') /\ respects buf size st buf' len /\
  (granted h h' -> (0 < size)%N -> st = None \/ st = Some RBufferTooSmall).
Proof.
  intros i buf size h rest X OK SZ. destruct (N.eq_dec size 0) as [->|NZ].
  - exists (Some RInvalidJson), buf, None, h. split; [reflexivity|]. split; [|lia]. unfold respects. repeat split; auto; discriminate.
  - destruct (serves_respects _ _ _ _ _ _ SZ (serves_info grant print i buf size h rest X OK NZ SZ)) as (st & buf' & len & h' & E & R & G). exists st, buf', len, h'. auto.
Qed.
Theorem C113_limits : forall l buf size h rest, holds h rest -> (size <= N.of_nat (length buf))%N ->
  exists st buf' len h', limitation_serialize grant print l buf size h = Ok ((st, buf', len), h') /\ respects buf size st buf' len /\
  (granted h h' -> (0 < size)%N -> st = None \/ st = Some RBufferTooSmall).
Proof.
  intros l buf size h rest X SZ. destruct (N.eq_dec size 0) as [->|NZ].
  - exists (Some RInvalidJson), buf, None, h. split; [reflexivity|]. split; [|lia]. unfold respects. repeat split; auto; discriminate.
  - destruct (serves_respects _ _ _ _ _ _ SZ (serves_limits grant print l buf size h rest X NZ SZ)) as (st & buf' & len & h' & E & R & G). exists st, buf', len, h'. auto.
Qed.
(** The length reported for a short buffer is enough for the next call. *)
Theorem C113_retry : forall i buf size buf2 h rest b1 n h1, holds h rest -> info_ok i -> (0 < size)%N -> (size <= N.of_nat (length buf))%N ->
  info_serialize grant print i buf size h = Ok ((Some RBufferTooSmall, b1, Some n), h1) -> granted h h1 -> (n < N.of_nat (length buf2))%N ->
  exists st b2 len h2, info_serialize grant print i buf2 (n + 1) h1 = Ok ((st, b2, len), h2) /\ (granted h1 h2 -> st = None /\ len = Some n).
Proof.
  intros i buf size buf2 h rest b1 n h1 X OK NZ SZ E G1 LB. destruct (serves_info grant print i buf size h rest X OK ltac:(lia) SZ) as (st & buf' & len & h' & lost & E' & _ & X' & _ & G).
  rewrite E in E'. assert (h' = h1) by congruence. subst h'. assert (LE : len = Some n) by congruence. destruct (G G1) as (-> & [D _ _]). 
  destruct (serves_info grant print i buf2 (n + 1) h1 rest X' OK ltac:(lia) ltac:(lia)) as (st2 & b2 & len2 & h2 & lost2 & E2 & _ & _ & _ & G2).
  exists st2, b2, len2, h2. split; [exact E2|]. intros Q. destruct (G2 Q) as (_ & [D2 F2 _]). assert (n = N.of_nat (length (print (JObj (info_members i))))) by congruence. subst n. split; [apply F2; lia|exact D2].
Qed.

(** ** C114 *)
Lemma erealloc_two o h l : holds h (opt_list o ++ l) ->
  (exists q h', erealloc grant o h = Ok (Some q, h') /\ holds h' (q :: l) /\ h_next h' = S (h_next h)) \/
  (exists h', erealloc grant o h = Ok (None, h') /\ holds h' (opt_list o ++ l) /\ h_next h' = S (h_next h) /\ grant (h_next h) = false).
Proof.
  intros X. unfold erealloc. destruct (ealloc_two grant _ _ X) as [(q & h1 & E & X1 & L1)|(h1 & E & X1 & L1 & F)]; rewrite (mbind_ok _ _ _ _ _ E); [left|right; exists h1; auto].
  apply (holds_perm _ _ (opt_list o ++ q :: l)) in X1; [|cnt]. destruct (free_opt_holds _ _ _ X1) as (h2 & E2 & X2 & L2). rewrite (mbind_ok _ _ _ _ _ E2). exists q, h2. split; [reflexivity|]. split; [exact X2|lia].
Qed.
(** Any sequence of calls on the list: the block of the list is the only one, the
    list is what the calls reported to have worked make it, and a call fails only
    for lack of memory. *)
Theorem C114_nips : forall ops h rest, holds h rest ->
  exists m xs h', do_ops grant minfo0 ops h = Ok ((m, xs), h') /\ holds h' (info_blocks m ++ rest) /\ length xs = length ops /\
  m_values m = nips_run [] ops xs /\ Forall (fun x => x = None \/ x = Some RMemory) xs /\ (granted h h' -> Forall (fun x => x = None) xs).
Proof.
  assert (Y : forall ops m h rest, m = with_nips minfo0 (m_nips m) (m_values m) -> holds h (opt_list (m_nips m) ++ rest) ->
    exists m' xs h', do_ops grant m ops h = Ok ((m', xs), h') /\ m' = with_nips minfo0 (m_nips m') (m_values m') /\ holds h' (opt_list (m_nips m') ++ rest) /\ h_next h <= h_next h' /\ length xs = length ops /\
    m_values m' = nips_run (m_values m) ops xs /\ Forall (fun x => x = None \/ x = Some RMemory) xs /\ (granted h h' -> Forall (fun x => x = None) xs)).
  { induction ops as [|o ops IH]; intros m h rest M X; cbn [do_ops].
    { exists m, [], h. repeat split; auto; apply X. }
    assert (W : exists m' x h', do_op grant m o h = Ok ((m', x), h') /\ m' = with_nips minfo0 (m_nips m') (m_values m') /\ holds h' (opt_list (m_nips m') ++ rest) /\ h_next h <= h_next h' /\
      m_values m' = nips_after (m_values m) o x /\ (x = None \/ x = Some RMemory) /\ (granted h h' -> x = None)).
    { destruct o as [l|z|]; cbn [do_op].
      - unfold set_nips. destruct (free_opt_holds _ _ _ X) as (h1 & E1 & X1 & L1). rewrite (mbind_ok _ _ _ _ _ E1). rewrite M.
        destruct l as [[|z l]|]; try (eexists; exists None, h1; split; [reflexivity|]; split; [reflexivity|]; split; [exact X1|]; split; [lia|]; repeat split; auto; fail).
        destruct (ealloc_two grant _ _ X1) as [(q & h2 & E2 & X2 & L2)|(h2 & E2 & X2 & L2 & F2)]; rewrite (mbind_ok _ _ _ _ _ E2).
        + eexists. exists None, h2. split; [reflexivity|]. split; [reflexivity|]. split; [exact X2|]. split; [lia|]. repeat split; auto.
        + eexists. exists (Some RMemory), h2. split; [reflexivity|]. split; [reflexivity|]. split; [exact X2|]. split; [lia|]. split; [reflexivity|]. split; [auto|]. intros G. destruct (not_granted grant h h1 h2 F2 ltac:(lia) ltac:(lia) G).
      - unfold add_nip. destruct (erealloc_two _ _ _ X) as [(q & h1 & E1 & X1 & L1)|(h1 & E1 & X1 & L1 & F1)]; rewrite (mbind_ok _ _ _ _ _ E1).
        + rewrite (mbind_ok _ _ _ _ _ (use_holds q _ _ X1 (or_introl eq_refl))). eexists. exists None, h1. split; [reflexivity|]. rewrite M. split; [reflexivity|]. split; [exact X1|]. split; [lia|]. repeat split; auto.
        + exists m, (Some RMemory), h1. split; [reflexivity|]. split; [exact M|]. split; [exact X1|]. split; [lia|]. split; [reflexivity|]. split; [auto|]. intros G. destruct (not_granted grant h h h1 F1 ltac:(lia) ltac:(lia) G).
      - rewrite M. unfold info_free. cbn [with_nips minfo0 m_retention m_admission m_subscription m_publication m_nips m_countries m_langs m_tags m_ret m_adm m_sub m_pub free_array].
        destruct (free_opt_holds _ _ _ X) as (h1 & E1 & X1 & L1). exists minfo0, None, h1.
        split; [unfold mbind, mret; rewrite E1; reflexivity|]. split; [reflexivity|]. split; [exact X1|]. split; [lia|]. repeat split; auto. }
    destruct W as (m1 & x & h1 & E1 & M1 & X1 & L1 & V1 & R1 & G1). rewrite (mbind_ok _ _ _ _ _ E1).
    destruct (IH m1 h1 rest M1 X1) as (m2 & xs & h2 & E2 & M2 & X2 & L2 & LX & V2 & R2 & G2). rewrite (mbind_ok _ _ _ _ _ E2).
    exists m2, (x :: xs), h2. split; [reflexivity|]. split; [exact M2|]. split; [exact X2|]. split; [lia|]. split; [cbn; lia|]. split; [cbn [nips_run]; rewrite <- V1; exact V2|]. split; [constructor; assumption|].
    intros G. constructor; [apply G1; apply (granted_less _ _ _ _ _ G); lia|apply G2; apply (granted_less _ _ _ _ _ G); lia]. }
  intros ops h rest X. destruct (Y ops minfo0 h rest eq_refl X) as (m & xs & h' & E & M & X' & _ & LX & V & R & G). exists m, xs, h'. split; [exact E|]. split; [|auto 6].
  rewrite M. unfold info_blocks. cbn [with_nips minfo0 m_retention m_admission m_subscription m_publication m_nips m_countries m_langs m_tags m_ret m_adm m_sub m_pub some flat_map app]. rewrite app_nil_r. exact X'.
Qed.
End Theorems.
Lemma use_in b h l rest : holds h (l ++ b :: rest) -> huse (Some b) h = Ok (tt, h).
Proof. intros X. apply (use_holds b h _ X). apply in_or_app. right. left. reflexivity. Qed.
Lemma free_kinds_ok a : forall l h rest, holds h (flat_map some l ++ a :: rest) -> exists h', free_kinds a l h = Ok (tt, h') /\ holds h' (a :: rest).
Proof.
  induction l as [|k l IH]; intros h rest X; cbn [free_kinds flat_map app] in *; [exists h; auto|]. rewrite (mbind_ok _ _ _ _ _ (use_in a h _ rest X)).
  rewrite <- app_assoc in X. destruct (free_opt_holds k _ _ X) as (h1 & E1 & X1 & _). rewrite (mbind_ok _ _ _ _ _ E1). apply IH, X1.
Qed.
Lemma free_units_ok a : forall l h rest, holds h (flat_map (fun f => some (fst f)) l ++ a :: rest) -> exists h', free_units a l h = Ok (tt, h') /\ holds h' (a :: rest).
Proof.
  induction l as [|(u, k) l IH]; intros h rest X; cbn [free_units flat_map app fst] in *; [exists h; auto|]. rewrite (mbind_ok _ _ _ _ _ (use_in a h _ rest X)).
  rewrite <- app_assoc in X. destruct (free_opt_holds u _ _ X) as (h1 & E1 & X1 & _). rewrite (mbind_ok _ _ _ _ _ E1). apply IH, X1.
Qed.
Lemma free_pubs_ok a : forall l h rest, holds h (flat_map (fun f => some (fst f) ++ some (snd f)) l ++ a :: rest) -> exists h', free_pubs a l h = Ok (tt, h') /\ holds h' (a :: rest).
Proof.
  induction l as [|(u, k) l IH]; intros h rest X; cbn [free_pubs flat_map app fst snd] in *; [exists h; auto|]. rewrite (mbind_ok _ _ _ _ _ (use_in a h _ rest X)).
  apply (holds_perm _ _ (some k ++ (some u ++ flat_map (fun f => some (fst f) ++ some (snd f)) l) ++ a :: rest)) in X; [|cnt]. destruct (free_opt_holds k _ _ X) as (h1 & E1 & X1 & _). rewrite (mbind_ok _ _ _ _ _ E1).
  rewrite (mbind_ok _ _ _ _ _ (use_in a _ _ rest X1)). rewrite <- app_assoc in X1. destruct (free_opt_holds u _ _ X1) as (h2 & E2 & X2 & _). rewrite (mbind_ok _ _ _ _ _ E2). apply IH, X2.
Qed.
Lemma free_array_ok {A} (f : nat -> list A -> M unit) (bl : list A -> list nat) o l h rest :
  (forall a h rest, holds h (bl l ++ a :: rest) -> exists h', f a l h = Ok (tt, h') /\ holds h' (a :: rest)) -> (o = None -> bl l = []) ->
  holds h (some o ++ bl l ++ rest) -> exists h', free_array f o l h = Ok (tt, h') /\ holds h' rest.
Proof.
  intros F Z X. destruct o as [b|]; cbn [free_array some app] in *; [|rewrite (Z eq_refl) in X; exists h; auto].
  apply (holds_perm _ _ (bl l ++ b :: rest)) in X; [|cnt]. destruct (F b h rest X) as (h1 & E1 & X1). rewrite (mbind_ok _ _ _ _ _ E1). destruct (free_holds _ _ _ X1) as (h2 & E2 & X2 & _). exists h2. auto.
Qed.
(** Releasing an information that owns its memory releases all of it but the kinds
    of admission and subscription fees, and empties the struct. *)
Theorem C114_free : forall m h rest, holds h (info_blocks m ++ fee_kinds m ++ rest) -> arrays_there m ->
  exists h', info_free m h = Ok (minfo0, h') /\ holds h' (fee_kinds m ++ rest).
Proof.
  intros m h rest X (Z1 & Z2 & Z3 & Z4). unfold info_blocks in X. set (tl := fee_kinds m ++ rest) in *. clearbody tl. unfold info_free.
  apply (holds_perm _ _ (some (m_retention m) ++ flat_map some (m_ret m) ++ some (m_admission m) ++ flat_map (fun f => some (fst f)) (m_adm m) ++ some (m_subscription m) ++ flat_map (fun f => some (fst f)) (m_sub m) ++
    some (m_publication m) ++ flat_map (fun f => some (fst f) ++ some (snd f)) (m_pub m) ++ some (m_nips m) ++ some (m_countries m) ++ some (m_langs m) ++ some (m_tags m) ++ tl)) in X; [|cnt].
  destruct (free_array_ok free_kinds (flat_map some) _ _ _ _ (fun a => free_kinds_ok a (m_ret m)) (fun Q => f_equal _ (Z1 Q)) X) as (h1 & E1 & X1). rewrite (mbind_ok _ _ _ _ _ E1).
  destruct (free_array_ok free_units (flat_map (fun f => some (fst f))) _ _ _ _ (fun a => free_units_ok a (m_adm m)) (fun Q => f_equal _ (Z2 Q)) X1) as (h2 & E2 & X2). rewrite (mbind_ok _ _ _ _ _ E2).
  destruct (free_array_ok free_units (flat_map (fun f => some (fst f))) _ _ _ _ (fun a => free_units_ok a (m_sub m)) (fun Q => f_equal _ (Z3 Q)) X2) as (h3 & E3 & X3). rewrite (mbind_ok _ _ _ _ _ E3).
  destruct (free_array_ok free_pubs (flat_map (fun f => some (fst f) ++ some (snd f))) _ _ _ _ (fun a => free_pubs_ok a (m_pub m)) (fun Q => f_equal _ (Z4 Q)) X3) as (h4 & E4 & X4). rewrite (mbind_ok _ _ _ _ _ E4).
  destruct (free_opt_holds _ _ _ X4) as (h5 & E5 & X5 & _). rewrite (mbind_ok _ _ _ _ _ E5). destruct (free_opt_holds _ _ _ X5) as (h6 & E6 & X6 & _). rewrite (mbind_ok _ _ _ _ _ E6).
  destruct (free_opt_holds _ _ _ X6) as (h7 & E7 & X7 & _). rewrite (mbind_ok _ _ _ _ _ E7). destruct (free_opt_holds _ _ _ X7) as (h8 & E8 & X8 & _). rewrite (mbind_ok _ _ _ _ _ E8). exists h8. auto.
Qed.
(** ... so an information whose fees list kinds leaks them. *)
Theorem C114_leak_refuted : ~ (forall m h h', holds h (info_blocks m ++ fee_kinds m) -> arrays_there m -> info_free m h = Ok (minfo0, h') -> h_live h' = []).
Proof.
  intros P. set (m := mkMinfo None [] None [] (Some 0) [(None, Some 1)] None [] None [] None None None).
  specialize (P m (mkHeap 2 [0; 1]) (mkHeap 2 [1])). discriminate P.
  - split; [split; [constructor; [intros [Q|[]]; discriminate|constructor; [intros []|constructor]]|repeat constructor]|reflexivity].
  - repeat split; discriminate.
  - vm_compute. reflexivity.
Qed.
(** A unit that is a literal, which the type allows and the serializer takes, is
    released all the same. *)
Theorem C114_literal_refuted : forall m a u k l h, m_retention m = None -> m_admission m = Some a -> m_adm m = (Some u, k) :: l -> ~ In u (h_live h) -> info_free m h = Undef.
Proof.
  intros m a u k l h R A L U. unfold info_free. rewrite R, A, L. cbn [free_array free_units]. unfold mbind at 1. cbn [mret]. unfold mbind at 1. unfold mbind at 1. unfold mbind at 1.
  unfold huse. destruct (existsb (Nat.eqb a) (h_live h)); [|reflexivity]. unfold mbind at 1. unfold hfree.
  destruct (existsb (Nat.eqb u) (h_live h)) eqn:Q; [|reflexivity]. apply existsb_exists in Q. destruct Q as (b & I & Q). apply Nat.eqb_eq in Q. subst b. contradiction.
Qed.
(** Setting the list from itself reads released memory; without memory, setting
    loses the list that was there. *)
Theorem C114_alias_refuted : forall grant m b l h rest, m_nips m = Some b -> l <> [] -> holds h (b :: rest) -> grant (h_next h) = true -> set_nips grant m (Some l) (Some b) h = Undef.
Proof.
  intros grant m b l h rest Q NE X G. unfold set_nips. rewrite Q. destruct (free_holds _ _ _ X) as (h1 & E1 & X1 & L1). rewrite (mbind_ok _ _ _ _ _ E1). destruct l as [|z l]; [contradiction|].
  unfold mbind at 1. unfold ealloc. rewrite L1, G. unfold mbind at 1. unfold huse. cbn [h_live]. destruct (existsb (Nat.eqb b) (h_next h :: h_live h1)) eqn:Y; [|reflexivity].
  exfalso. apply existsb_exists in Y. destruct Y as (x & I & Y). apply Nat.eqb_eq in Y. subst x. destruct X as ((ND & LT) & P). destruct I as [I|I].
  - assert (B : In b (h_live h)) by (apply (Permutation_in b (Permutation_sym P)); left; reflexivity). rewrite Forall_forall in LT. specialize (LT _ B). lia.
  - assert (NR : ~ In b rest) by (apply (Permutation_NoDup P) in ND; inversion ND; assumption). apply NR. apply (Permutation_in b (proj2 X1)), I.
Qed.
Theorem C114_refuted : ~ (forall grant m nips h rest m' x h', holds h (opt_list (m_nips m) ++ rest) -> set_nips grant m nips None h = Ok ((m', Some x), h') -> m_values m' = m_values m).
Proof.
  intros P. specialize (P (fun _ => false) (with_nips minfo0 (Some 0) [1%Z; 11%Z]) (Some [1%Z]) (mkHeap 1 [0]) [] minfo0 RMemory (mkHeap 2 [])). discriminate P.
  - split; [split; [constructor; [intros []|constructor]|repeat constructor]|reflexivity].
  - reflexivity.
Qed.

(** ** What the document does not say *)
Definition sold (amount : N) : info := mkInfo None None None None None None None no_array None None None None limitation_init no_array no_array no_array no_array None None
  (mkArr (Some [mkFee amount None 0 no_array]) 1) no_array no_array.
Lemma sold_ok amount : info_ok (sold amount).
Proof.
  assert (Z : forall A, in_order_opt (@no_array A)) by (intros A; exists []; left; auto).
  constructor; cbn [sold i_nips i_retention i_countries i_langs i_tags i_admission i_subscription i_publication]; auto.
  - exists []. left. auto.
  - exists []. split; [left; auto|constructor].
  - exists [mkFee amount None 0 no_array]. right. split; [discriminate|]. right. exists []. auto.
  - exists []. split; [left; auto|constructor].
Qed.
(** An amount above 2^53 is rounded. *)
Theorem C112_refuted : ~ (forall print i buf size h h' buf' len, holds h [] -> info_ok i -> (size <= N.of_nat (length buf))%N ->
  info_serialize (fun _ => true) print i buf size h = Ok ((None, buf', len), h') -> exists t, announces i t /\ delivered (print t) buf size None buf' len).
Proof.
  intros P. set (amount := 9007199254740993%N). set (i := sold amount).
  set (print := fun j => match jget (bs "fees") j with Some f => match jget (bs "admission") f with Some (JArr (a :: _)) => match jget (bs "amount") a with Some (JNum (JFin z _)) => if (z =? 9007199254740992)%Z then [65%N] else [66%N] | _ => [] end | _ => [] end | _ => [] end).
  specialize (P print i [1; 1; 1]%N 3%N (mkHeap 0 []) (mkHeap 35 []) [65; 0; 1]%N (Some 1%N)).
  destruct P as (t & A & [D F _]).
  - split; [split; constructor|reflexivity].
  - apply sold_ok.
  - cbn. lia.
  - vm_compute. reflexivity.
  - destruct A as [_ _ _ _ _ _ _ _ _ _ _ _ _ _ _ _ _ _ _ (A & _)]. destruct A as (u & U & (l & L & SL) & _); [left; discriminate|].
    assert (l = [mkFee amount None 0 no_array]). { apply (lists_opt_det (i_admission i)); [exact L|]. right. split; [discriminate|]. right. exists []. auto. } subst l.
    destruct SL as (js & J & F2). inversion F2 as [|? ? ? ? (AM & _) F3]; subst. inversion F3; subst. apply jget_gives in U. apply jget_gives in J. apply jget_gives in AM.
    assert (PT : print t = [66%N]). { unfold print. rewrite U, J, AM. reflexivity. } rewrite PT in F. destruct (F eq_refl) as (_ & old & rest & _ & _ & Q). discriminate Q.
Qed.
(** "Not stored" (a retention time of zero) cannot be announced. *)
Theorem C112_never_zero : forall grant print i buf size h rest, holds h rest -> info_ok i -> small_info i -> (0 < size)%N -> (size <= N.of_nat (length buf))%N ->
  exists st buf' len h', info_serialize grant print i buf size h = Ok ((st, buf', len), h') /\
  (granted grant h h' -> exists t, announces i t /\ delivered (print t) buf size st buf' len /\ forall l e, gives t (bs "retention") (JArr l) -> In e l -> ~ gives e (bs "time") (number 0)).
Proof.
  intros grant print i buf size h rest X OK SM NZ SZ. destruct (C112_partial grant print i buf size h rest X OK SM NZ SZ) as (st & buf' & len & h' & lost & E & _ & G & _).
  exists st, buf', len, h'. split; [exact E|]. intros Q. destruct (G Q) as (_ & t & A & D). exists t. split; [exact A|]. split; [exact D|]. intros l e R I T.
  destruct A as [_ _ _ _ _ _ _ _ _ _ _ _ _ (rs & L & SL) _ _ _ _ _ _]. destruct rs as [|r rs]; [apply (SL _ R)|]. destruct SL as (js & J & F).
  apply jget_gives in R. apply jget_gives in J. assert (js = l) by congruence. subst js. clear - F I T. revert F. generalize (r :: rs). intros k F. induction F as [|x y k js (_ & TM & _) F IH]; [contradiction|].
  destruct I as [->|I]; [|apply IH, I]. apply TM in T. destruct T as (NZ & T). apply NZ. unfold number in T. congruence.
Qed.
(** Short of memory, the limits can be missing from a document reported as made. *)
Theorem C112_memory_refuted : ~ (forall grant print i buf size h h' buf' len, holds h [] -> info_ok i -> small_info i -> (size <= N.of_nat (length buf))%N ->
  info_serialize grant print i buf size h = Ok ((None, buf', len), h') -> exists t, announces i t /\ delivered (print t) buf size None buf' len).
Proof.
  intros P. set (print := fun j => match jget (bs "limitation") j with Some _ => [66%N] | None => [65%N] end).
  assert (Z : forall A, in_order_opt (@no_array A)) by (intros A; exists []; left; auto).
  assert (Z' : forall A l, lists_opt (@no_array A) l -> l = []) by (intros A l [(_ & ->)|(Q & _)]; [reflexivity|destruct Q; reflexivity]).
  specialize (P (fun k => negb (k =? 3)) print info_init [1; 1; 1]%N 3%N (mkHeap 0 []) (mkHeap 16 []) [65; 0; 1]%N (Some 1%N)).
  destruct P as (t & A & [D F _]).
  - split; [split; constructor|reflexivity].
  - constructor; cbn [info_init i_nips i_retention i_countries i_langs i_tags i_admission i_subscription i_publication]; auto.
    + exists []. left. auto.
    + exists []. split; [left; auto|constructor].
    + exists []. split; [left; auto|constructor].
  - constructor; cbn [info_init i_nips i_lim i_retention i_admission i_subscription i_publication].
    + intros l L. rewrite (lists_det _ _ [] L); [constructor|left; auto].
    + unfold small_limits, small. repeat constructor; cbn; lia.
    + intros l L. rewrite (Z' _ _ L). constructor.
    + intros l L. rewrite (Z' _ _ L). constructor.
    + intros l L. rewrite (Z' _ _ L). constructor.
    + intros l L. rewrite (Z' _ _ L). constructor.
  - cbn. lia.
  - vm_compute. reflexivity.
  - destruct A as [_ _ _ _ _ _ _ _ _ _ _ _ (u & U & _) _ _ _ _ _ _ _]. apply jget_gives in U. assert (PT : print t = [66%N]) by (unfold print; rewrite U; reflexivity).
    rewrite PT in F. destruct (F eq_refl) as (_ & old & rest & _ & _ & Q). discriminate Q.
Qed.
(** A retention entry with a count but no list, which the other arrays tolerate, is
    read through NULL. *)
Definition kept (n : nat) (t c : Z) : info := mkInfo None None None None None None None no_array None None None None limitation_init
  (mkArr (Some [mkRet (mkArr None (S n)) t c]) 1) no_array no_array no_array None None no_array no_array no_array.
Theorem C112_null_refuted : forall print n t c buf size h, (0 < size)%N -> info_serialize (fun _ => true) print (kept n t c) buf size h = Undef.
Proof. intros print n t c buf size h NZ. destruct size as [|p]; [lia|]. vm_compute. reflexivity. Qed.

(** ** Witnesses *)
Definition relay : info := mkInfo (Some (bs "r")) None None None None None (Some (bs "a@b")) (mkArr (Some [1; 11]%Z) 2) (Some (bs "x")) None None None limitation_init
  (mkArr (Some [mkRet (mkArr (Some [0; 1]%Z) 2) 3600 0]) 1) (mkArr (Some [Some (bs "CH"); None]) 2) no_array no_array None None
  (mkArr (Some [mkFee 1000 (Some (bs "msats")) 0 no_array]) 1) no_array (mkArr (Some [mkFee 100 None 0 (mkArr (Some [4%Z]) 1)]) 1).
Ltac one_list := match goal with |- lists_opt (mkArr (Some ?l) _) _ => right; split; [discriminate|right; exists []; rewrite app_nil_r; split; reflexivity] | |- lists_opt no_array _ => left; split; reflexivity | |- lists (mkArr (Some _) _) _ => right; exists []; rewrite app_nil_r; split; reflexivity end.
Lemma relay_ok : info_ok relay.
Proof.
  constructor; cbn [relay i_nips i_retention i_countries i_langs i_tags i_admission i_subscription i_publication]; try (eexists; one_list; fail).
  - eexists. split; [one_list|]. constructor; [|constructor]. eexists. cbn [r_kinds]. one_list.
  - eexists. split; [one_list|]. constructor; [|constructor]. eexists. cbn [f_kinds]. one_list.
Qed.
Lemma relay_small : small_info relay.
Proof.
  constructor; cbn [relay i_nips i_lim i_retention i_admission i_subscription i_publication].
  - intros l L. rewrite (lists_det _ _ [1; 11]%Z L); [repeat constructor; cbn; discriminate|one_list].
  - unfold small_limits, small. repeat constructor; cbn; discriminate.
  - intros l L. rewrite (lists_opt_det _ _ [mkRet (mkArr (Some [0; 1]%Z) 2) 3600 0] L); [|one_list]. constructor; [|constructor]. split; [cbn; discriminate|]. split; [cbn; discriminate|].
    intros k K. rewrite (lists_det _ _ [0; 1]%Z K); [repeat constructor; cbn; discriminate|cbn [r_kinds]; one_list].
  - intros l L. rewrite (lists_opt_det _ _ [mkFee 1000 (Some (bs "msats")) 0 no_array] L); [|one_list]. constructor; [|constructor]. split; [cbn; discriminate|]. split; [cbn; discriminate|].
    intros k K. rewrite (lists_opt_det _ _ [] K); [constructor|cbn [f_kinds]; one_list].
  - intros l L. rewrite (lists_opt_det _ _ [] L); [constructor|one_list].
  - intros l L. rewrite (lists_opt_det _ _ [mkFee 100 None 0 (mkArr (Some [4%Z]) 1)] L); [|one_list]. constructor; [|constructor]. split; [cbn; discriminate|]. split; [cbn; discriminate|].
    intros k K. rewrite (lists_opt_det _ _ [4%Z] K); [repeat constructor; cbn; discriminate|cbn [f_kinds]; one_list].
Qed.
Definition toy_len (j : json) : list N := match j with JObj l => repeat 65%N (length l) | _ => [] end.
Example C112_meets : info_ok relay /\ small_info relay /\ exists h', info_serialize (fun _ => true) toy_len relay (repeat 1%N 12) 12 hempty = Ok ((None, repeat 65%N 8 ++ [0; 1; 1; 1]%N, Some 8%N), h') /\ h_live h' = [].
Proof. split; [apply relay_ok|]. split; [apply relay_small|]. eexists. vm_compute. auto. Qed.
Example C113_meets : exists h', info_serialize (fun _ => true) toy_len relay (repeat 1%N 12) 8 hempty = Ok ((Some RBufferTooSmall, repeat 1%N 12, Some 8%N), h') /\ holds hempty [].
Proof. eexists. split; [vm_compute; reflexivity|]. split; [split; constructor|reflexivity]. Qed.
Example C114_meets : exists m h', do_ops (fun k => negb (k =? 2)) minfo0 [OSet (Some [1; 9]%Z); OAdd 11; OAdd 42; OAdd 50] hempty = Ok ((m, [None; None; Some RMemory; None]), h') /\ m_values m = [1; 9; 11; 50]%Z /\ length (h_live h') = 1.
Proof. eexists. eexists. vm_compute. auto. Qed.
Example C114_free_meets : let m := mkMinfo (Some 0) [1%Z] (Some 1) [Some 2; None] (Some 3) [(Some 4, None)] None [] (Some 5) [(None, Some 6); (Some 7, Some 8)] (Some 9) None None in
  arrays_there m /\ exists h', info_free m (mkHeap 10 [9; 8; 7; 6; 5; 4; 3; 2; 1; 0]) = Ok (minfo0, h') /\ h_live h' = [].
Proof. cbv zeta. split; [repeat split; (discriminate || reflexivity)|]. eexists. vm_compute. auto. Qed.

Print Assumptions C112_partial.
Print Assumptions C112_limits_partial.
Print Assumptions C112_refuted.
Print Assumptions C112_never_zero.
Print Assumptions C112_memory_refuted.
Print Assumptions C112_null_refuted.
Print Assumptions C113_info.
Print Assumptions C113_limits.
Print Assumptions C113_retry.
Print Assumptions C114_nips.
Print Assumptions C114_free.
Print Assumptions C114_leak_refuted.
Print Assumptions C114_literal_refuted.
Print Assumptions C114_alias_refuted.
Print Assumptions C114_refuted.
