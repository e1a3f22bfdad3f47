(** Theorems about src/relay_protocol.c: C52-C55, C83-C87. *)
From Coq Require Import Permutation.
From Verif Require Import Base BaseFacts Dec Hex HexSpec HexProofs Strto Event EventSpec EventProofs EventProps Nip05 Nip05Proofs
  Nip26Spec Nip26Proofs Nip26Props Nip18Spec RelayProto RelayProtoSpec.
Open Scope N_scope.

(** ** Lemmas *)
Lemma low_char c : lower_hex_char c = true <-> In c (bs "0123456789abcdef").
Proof.
  unfold lower_hex_char. split.
  - intros H. apply orb_true_iff in H as [H|H]; apply andb_true_iff in H as (A & B); apply N.leb_le in A, B; cbn.
    + assert (c = 48 \/ c = 49 \/ c = 50 \/ c = 51 \/ c = 52 \/ c = 53 \/ c = 54 \/ c = 55 \/ c = 56 \/ c = 57) by lia. intuition.
    + assert (c = 97 \/ c = 98 \/ c = 99 \/ c = 100 \/ c = 101 \/ c = 102) by lia. intuition.
  - cbn. intros H. repeat (destruct H as [<-|H]; [reflexivity|]). destruct H.
Qed.
Lemma digit_char c : (48 <=? c) && (c <=? 57) = true <-> In c (bs "0123456789").
Proof.
  split.
  - intros H. apply andb_true_iff in H as (A & B); apply N.leb_le in A, B; cbn.
    assert (c = 48 \/ c = 49 \/ c = 50 \/ c = 51 \/ c = 52 \/ c = 53 \/ c = 54 \/ c = 55 \/ c = 56 \/ c = 57) by lia. intuition.
  - cbn. intros H. repeat (destruct H as [<-|H]; [reflexivity|]). destruct H.
Qed.
Lemma forallb_iff {A} (f : A -> bool) (P : A -> Prop) l : (forall x, f x = true <-> P x) -> forallb f l = true <-> Forall P l.
Proof.
  intros H. rewrite forallb_forall, Forall_forall. split; intros G x I; apply H, G, I.
Qed.
Lemma hex64_iff s : validate_hex64 s = true <-> hex_id s.
Proof.
  unfold validate_hex64, hex_id, low_hex. rewrite andb_true_iff, Nat.eqb_eq, (forallb_iff _ _ s low_char). reflexivity.
Qed.
Lemma hex_prefix_iff s : validate_hex_prefix s = true <-> hex_prefix s.
Proof.
  unfold validate_hex_prefix, hex_prefix, low_hex. rewrite !andb_true_iff, negb_true_iff, Nat.eqb_neq, Nat.leb_le, (forallb_iff _ _ s low_char).
  split; intros; intuition lia.
Qed.
Lemma sub_id_iff s : validate_subscription_id s = true <-> sub_id s.
Proof.
  unfold validate_subscription_id, sub_id. rewrite !andb_true_iff, negb_true_iff, Nat.eqb_neq, Nat.leb_le.
  rewrite (forallb_iff _ (fun c => 32 <= c <= 126)) by (intros x; rewrite andb_true_iff, !N.leb_le; tauto).
  split; intros; intuition lia.
Qed.
Lemma no_colon_digits k : Forall (fun c => In c (bs "0123456789")) k -> ~ In 58 k.
Proof. intros F I. rewrite Forall_forall in F. apply F in I. cbn in I. intuition discriminate. Qed.
Lemma no_colon_hex k : low_hex k -> ~ In 58 k.
Proof. intros F I. unfold low_hex in F. rewrite Forall_forall in F. apply F in I. cbn in I. intuition discriminate. Qed.
Lemma address_iff s : validate_address s = true <-> address s.
Proof.
  unfold validate_address, address. change (bs ":") with [58]. split.
  - destruct (split_char 58 s) as [[k rest]|] eqn:E1; [|discriminate]. apply split_char_iff in E1 as (-> & N1).
    destruct k as [|k0 k]; [discriminate|]. intros H. apply andb_true_iff in H as (D & H).
    destruct (split_char 58 rest) as [[pk d]|] eqn:E2; [|discriminate]. apply split_char_iff in E2 as (-> & N2).
    exists (k0 :: k), pk, d. repeat split; [discriminate|..].
    + apply (forallb_iff _ _ _ digit_char), D.
    + apply hex64_iff in H as (L & _). exact L.
    + apply hex64_iff in H as (_ & L). exact L.
  - intros (k & pk & d & -> & NE & D & L & X).
    assert (E1 : split_char 58 (k ++ [58] ++ pk ++ [58] ++ d) = Some (k, pk ++ [58] ++ d)).
    { apply split_char_iff. split; [reflexivity|apply no_colon_digits, D]. }
    assert (E2 : split_char 58 (pk ++ [58] ++ d) = Some (pk, d)).
    { apply split_char_iff. split; [reflexivity|apply no_colon_hex, X]. }
    rewrite E1. destruct k as [|k0 k]; [congruence|]. rewrite E2, (proj2 (forallb_iff _ _ _ digit_char) D).
    cbn [andb]. fold (validate_hex64 pk). apply hex64_iff. split; assumption.
Qed.

Lemma tag_value_some ts name v : tag_value ts name = Some v <-> first_value name ts v.
Proof.
  unfold first_value. induction ts as [|t ts IH]; cbn [tag_value].
  - split; [discriminate|]. intros (a & r & b & E & _). destruct a; discriminate.
  - assert (SKIP : (forall x y, t <> name :: x :: y) ->
      (exists a r b, ts = a ++ (name :: v :: r) :: b /\ Forall (fun t => forall x y, t <> name :: x :: y) a) <->
      (exists a r b, t :: ts = a ++ (name :: v :: r) :: b /\ Forall (fun t => forall x y, t <> name :: x :: y) a)).
    { intros NT. split.
      - intros (a & r & b & -> & F). exists (t :: a), r, b. split; [reflexivity|constructor; assumption].
      - intros (a & r & b & E & F). destruct a as [|t' a]; [cbn in E; exfalso; apply (NT v r); congruence|].
        cbn in E. exists a, r, b. split; [congruence|]. inversion F; assumption. }
    destruct t as [|n [|w r]].
    + rewrite IH. apply SKIP. intros; discriminate.
    + rewrite IH. apply SKIP. intros; discriminate.
    + destruct (beq n name) eqn:B.
      * apply beq_eq in B. subst n. split.
        -- intros H. exists [], r, ts. cbn. split; [congruence|constructor].
        -- intros (a & r' & b & E & F). destruct a as [|t' a]; [cbn in E; congruence|].
           cbn in E. inversion F as [|? ? NT _]; subst. exfalso. apply (NT w r). congruence.
      * apply beq_neq in B. rewrite IH. apply SKIP. intros x y E. congruence.
Qed.
Lemma tag_value_none ts name : tag_value ts name = None <-> no_value name ts.
Proof.
  unfold no_value. induction ts as [|t ts IH]; cbn [tag_value].
  - split; [constructor|reflexivity].
  - destruct t as [|n [|w r]].
    + rewrite IH. split; intros H; [constructor; [intros; discriminate|exact H]|inversion H; assumption].
    + rewrite IH. split; intros H; [constructor; [intros; discriminate|exact H]|inversion H; assumption].
    + destruct (beq n name) eqn:B.
      * apply beq_eq in B. subst n. split; [discriminate|]. intros H. inversion H as [|? ? NT _]; subst. exfalso. apply (NT w r). reflexivity.
      * apply beq_neq in B. rewrite IH. split; intros H; [constructor; [intros x y E; congruence|exact H]|inversion H; assumption].
Qed.

(** ** C52 *)
Lemma memcmp_spec n : forall a b, length a = n -> length b = n ->
  (memcmp n a b = (-1)%Z /\ lex_lt a b) \/ (memcmp n a b = 0%Z /\ a = b) \/ (memcmp n a b = 1%Z /\ lex_lt b a).
Proof.
  induction n as [|n IH]; intros [|x a] [|y b] LA LB; try discriminate; cbn [memcmp].
  - right. left. auto.
  - injection LA as LA. injection LB as LB. destruct (N.eqb_spec x y) as [->|NE].
    + destruct (IH a b LA LB) as [(-> & L)|[(-> & ->)|(-> & L)]].
      * left. split; [reflexivity|]. constructor 2. exact L.
      * right. left. auto.
      * right. right. split; [reflexivity|]. constructor 2. exact L.
    + destruct (N.ltb_spec x y).
      * left. split; [reflexivity|]. constructor. assumption.
      * right. right. split; [reflexivity|]. constructor. lia.
Qed.
Lemma lex_irrefl a : ~ lex_lt a a.
Proof. induction a; intros H; inversion H; subst; [lia|auto]. Qed.
Lemma lex_trans a b c : lex_lt a b -> lex_lt b c -> lex_lt a c.
Proof.
  intros H. revert c. induction H as [x y a b L|x a b L IH]; intros c G; inversion G; subst.
  - constructor. lia.
  - constructor. assumption.
  - constructor. assumption.
  - constructor 2. apply IH. assumption.
Qed.
Lemma beats_irrefl a : ~ beats a a.
Proof. intros [H|(_ & H)]; [lia|]. apply (lex_irrefl _ H). Qed.
Lemma beats_trans a b c : beats a b -> beats b c -> beats a c.
Proof.
  unfold beats. intros [H|(E & H)] [G|(F & G)]; [left; lia|left; lia|left; lia|].
  right. split; [lia|]. apply (lex_trans _ _ _ H G).
Qed.
Definition id32 (e : event) : Prop := length (ev_id e) = 32%nat.
Lemma compare_cases a b : id32 a -> id32 b ->
  (compare_replaceable a b = 1%Z /\ beats a b) \/ (compare_replaceable a b = (-1)%Z /\ beats b a) \/
  (compare_replaceable a b = 0%Z /\ ev_created a = ev_created b /\ ev_id a = ev_id b).
Proof.
  intros LA LB. unfold compare_replaceable, beats.
  destruct (Z.ltb_spec (ev_created a) (ev_created b)) as [L1|L1]; [right; left; auto|].
  destruct (Z.ltb_spec (ev_created b) (ev_created a)) as [L2|L2]; [left; auto|].
  assert (E : ev_created a = ev_created b) by lia.
  destruct (memcmp_spec 32 (ev_id a) (ev_id b) LA LB) as [(-> & L)|[(-> & ->)|(-> & L)]]; cbn.
  - left. auto.
  - right. right. auto.
  - right. left. auto.
Qed.

(** The sign of the comparison says who wins: the newer version, and of two
    equally new ones the one with the lower id. *)
Theorem C52_meaning : forall a b, id32 a -> id32 b ->
  (compare_replaceable a b = 1%Z <-> beats a b) /\
  (compare_replaceable a b = (-1)%Z <-> beats b a) /\
  (compare_replaceable a b = 0%Z <-> ev_created a = ev_created b /\ ev_id a = ev_id b).
Proof.
  intros a b LA LB.
  assert (X1 : beats a b -> ~ beats b a) by (intros H G; apply (beats_irrefl a), (beats_trans a b a H G)).
  assert (X2 : beats a b -> ~ (ev_created a = ev_created b /\ ev_id a = ev_id b)).
  { intros [H|(_ & H)] (E & F); [lia|]. rewrite F in H. apply (lex_irrefl _ H). }
  assert (X3 : beats b a -> ~ (ev_created a = ev_created b /\ ev_id a = ev_id b)).
  { intros [H|(_ & H)] (E & F); [lia|]. rewrite F in H. apply (lex_irrefl _ H). }
  destruct (compare_cases a b LA LB) as [(-> & B)|[(-> & B)|(-> & B)]];
    (split; [|split]; split; intros Q; try discriminate; try tauto; try (exfalso; tauto)).
Qed.
(** It is antisymmetric, transitive and total. *)
Theorem C52_order : forall a b c, id32 a -> id32 b -> id32 c ->
  compare_replaceable a a = 0%Z /\
  compare_replaceable b a = (- compare_replaceable a b)%Z /\
  (compare_replaceable a b = 1 \/ compare_replaceable a b = 0 \/ compare_replaceable a b = -1)%Z /\
  ((0 <= compare_replaceable a b)%Z -> (0 <= compare_replaceable b c)%Z -> (0 <= compare_replaceable a c)%Z) /\
  ((0 < compare_replaceable a b)%Z -> (0 <= compare_replaceable b c)%Z -> (0 < compare_replaceable a c)%Z).
Proof.
  intros a b c LA LB LC.
  pose proof (C52_meaning a a LA LA) as (_ & _ & AA). pose proof (C52_meaning a b LA LB) as AB.
  pose proof (C52_meaning b a LB LA) as BA. pose proof (C52_meaning b c LB LC) as BC. pose proof (C52_meaning a c LA LC) as AC.
  pose proof (compare_cases a b LA LB) as CAB. pose proof (compare_cases b c LB LC) as CBC.
  assert (EQL : forall x y z, ev_created x = ev_created y /\ ev_id x = ev_id y -> beats y z -> beats x z).
  { unfold beats. intros x y z (E & F). rewrite E, F. auto. }
  assert (EQR : forall x y z, ev_created y = ev_created z /\ ev_id y = ev_id z -> beats x y -> beats x z).
  { unfold beats. intros x y z (E & F). rewrite E, F. auto. }
  split; [|split; [|split; [|split]]].
  - apply AA. auto.
  - destruct CAB as [(E & B)|[(E & B)|(E & B)]]; rewrite E; [apply BA in B|apply BA in B|destruct BA as (_ & _ & BA); apply BA; intuition congruence]; lia.
  - intuition.
  - intros H G. destruct CAB as [(E & B)|[(E & B)|(E & B)]]; [|lia|]; (destruct CBC as [(E' & B')|[(E' & B')|(E' & B')]]; [|lia|]).
    + assert (X : beats a c) by (apply (beats_trans a b c); assumption). apply AC in X. lia.
    + assert (X : beats a c) by (apply (EQR a b c); assumption). apply AC in X. lia.
    + assert (X : beats a c) by (apply (EQL a b c); assumption). apply AC in X. lia.
    + assert (X : compare_replaceable a c = 0%Z) by (apply AC; intuition congruence). lia.
  - intros H G. destruct CAB as [(E & B)|[(E & B)|(E & B)]]; [|lia|lia]; (destruct CBC as [(E' & B')|[(E' & B')|(E' & B')]]; [|lia|]).
    + assert (X : beats a c) by (apply (beats_trans a b c); assumption). apply AC in X. lia.
    + assert (X : beats a c) by (apply (EQR a b c); assumption). apply AC in X. lia.
Qed.
Lemma survivor_best : forall l e, id32 e -> Forall id32 l ->
  In (survivor compare_replaceable e l) (e :: l) /\ Forall (fun x => ~ beats x (survivor compare_replaceable e l)) (e :: l).
Proof.
  induction l as [|x l IH]; intros e LE F.
  - cbn. split; [auto|]. constructor; [apply beats_irrefl|constructor].
  - inversion F as [|? ? LX F']; subst. cbn [survivor].
    pose proof (C52_meaning x e LX LE) as (M1 & M2 & M3).
    destruct (Z.ltb_spec 0 (compare_replaceable x e)) as [L|L].
    + assert (B : beats x e). { destruct (compare_cases x e LX LE) as [(E & B)|[(E & B)|(E & B)]]; [exact B|lia|lia]. }
      destruct (IH x LX F') as (I1 & I2). split; [destruct I1 as [I1|I1]; [right; left; exact I1|right; right; exact I1]|].
      constructor; [|exact I2]. intros B'. inversion I2 as [|? ? NB _]; subst. apply NB. apply (beats_trans x e); assumption.
    + assert (NB : ~ beats x e). { intros B. apply M1 in B. lia. }
      destruct (IH e LE F') as (I1 & I2). split; [destruct I1 as [I1|I1]; [left; exact I1|right; right; exact I1]|].
      inversion I2 as [|? ? N1 N2]; subst. constructor; [exact N1|]. constructor; [|exact N2].
      intros B. set (s := survivor compare_replaceable e l) in *.
      assert (LS : id32 s). { destruct I1 as [<-|I1]; [exact LE|]. rewrite Forall_forall in F'. apply F', I1. }
      destruct (compare_cases e s LE LS) as [(_ & Q)|[(_ & Q)|(_ & Q1 & Q2)]]; [contradiction| |].
      * apply NB. apply (beats_trans x s e); assumption.
      * apply NB. unfold beats in *. rewrite Q1, Q2. exact B.
Qed.
(** Whatever the arrival order, the version that is kept is the same, and no
    other version beats it. *)
Theorem C52_arrival_order : forall e l e' l', Forall id32 (e :: l) -> Permutation (e :: l) (e' :: l') ->
  let s := survivor compare_replaceable e l in let s' := survivor compare_replaceable e' l' in
  In s (e :: l) /\ Forall (fun x => ~ beats x s) (e :: l) /\
  ev_created s = ev_created s' /\ ev_id s = ev_id s' /\
  ((forall x y, In x (e :: l) -> In y (e :: l) -> ev_id x = ev_id y -> x = y) -> s = s').
Proof.
  intros e l e' l' F P s s'.
  assert (F' : Forall id32 (e' :: l')) by (apply (Permutation_Forall P F)).
  inversion F as [|? ? LE FL]; subst. inversion F' as [|? ? LE' FL']; subst.
  destruct (survivor_best l e LE FL) as (I1 & I2). destruct (survivor_best l' e' LE' FL') as (I1' & I2').
  fold s in I1, I2. fold s' in I1', I2'.
  assert (IN' : In s' (e :: l)) by (apply (Permutation_in _ (Permutation_sym P)), I1').
  assert (IN : In s (e' :: l')) by (apply (Permutation_in _ P), I1).
  rewrite Forall_forall in I2', F. pose proof I2 as I2F. rewrite Forall_forall in I2.
  pose proof (I2 s' IN') as A1. pose proof (I2' s IN) as A2.
  destruct (compare_cases s s' (F s I1) (F s' IN')) as [(_ & Q)|[(_ & Q)|(_ & Q1 & Q2)]]; [contradiction|contradiction|].
  repeat split; auto.
Qed.

(** ** C53 *)
Definition as_class (t : kind_type) : class :=
  match t with KRegular => Regular | KReplaceable => Replaceable | KEphemeral => Ephemeral | KAddressable => Addressable end.
(** The NIP-01 classes are respected, other kinds count as regular, and exactly
    one of the four predicates holds. *)
Theorem C53_classes : forall k : Z,
  (forall c, nip01_class k c -> as_class (kind_get_type k) = c) /\
  ((forall c, ~ nip01_class k c) -> kind_get_type k = KRegular) /\
  (kind_is_regular k = true <-> as_class (kind_get_type k) = Regular) /\
  (kind_is_replaceable k = true <-> nip01_class k Replaceable) /\
  (kind_is_ephemeral k = true <-> nip01_class k Ephemeral) /\
  (kind_is_addressable k = true <-> nip01_class k Addressable) /\
  length (filter (fun b : bool => b) [kind_is_regular k; kind_is_replaceable k; kind_is_ephemeral k; kind_is_addressable k]) = 1%nat.
Proof.
  intros k. unfold kind_is_regular, kind_is_replaceable, kind_is_ephemeral, kind_is_addressable, kind_get_type.
  destruct (Z.leb_spec 20000 k), (Z.ltb_spec k 30000), (Z.leb_spec 30000 k), (Z.ltb_spec k 40000),
    (Z.eqb_spec k 0), (Z.eqb_spec k 3), (Z.leb_spec 10000 k), (Z.ltb_spec k 20000); cbn [andb orb as_class filter length];
    try lia;
    (split; [intros [] H9; cbn in H9; try reflexivity; lia|]);
    (split; [intros H9; pose proof (H9 Replaceable) as Q1; pose proof (H9 Ephemeral) as Q2; pose proof (H9 Addressable) as Q3; cbn in Q1, Q2, Q3; try reflexivity; lia|]);
    cbn [nip01_class];
    (split; [split; intros H9|split; [split; intros H9|split; [split; intros H9|split; [split; intros H9|]]]]; try reflexivity; try discriminate; try lia).
Qed.
Example C53_meets : nip01_class 1 Regular /\ nip01_class 10002 Replaceable /\ nip01_class 30023 Addressable /\ forall c, ~ nip01_class 45 c.
Proof. cbn. repeat split; try lia. intros []; cbn; lia. Qed.

(** ** C54 *)
Definition c54_statement : Prop := forall e now, (- 2 ^ 63 <= now < 2 ^ 63)%Z ->
  is_expired e now = true <-> exists z, expires (ev_tags e) z /\ (z < now)%Z.
Definition stamped (s : list N) : event := mkEvent [] [] 0 1 [[bs "expiration"; s]] None [].
(** An expiration of 0 counts as none. *)
Theorem C54_refuted : ~ c54_statement.
Proof.
  intros H. specialize (H (stamped (bs "0")) 5%Z ltac:(lia)). apply proj2 in H.
  assert (X : is_expired (stamped (bs "0")) 5 = true).
  { apply H. exists 0%Z. split; [|lia]. exists (bs "0"), false, 0. split; [|split; [|reflexivity]].
    - exists [], [], []. split; [reflexivity|constructor].
    - exists [], [], (bs "0"). repeat split; [constructor|auto|discriminate|repeat constructor]. }
  vm_compute in X. discriminate.
Qed.
Lemma strtoll_rest s v : strtoll s = (v, []) ->
  (s = [] /\ v = 0%Z) \/ exists neg w, loose_number s neg w /\ v = Z.max (- 2 ^ 63) (Z.min (signed neg w) (2 ^ 63 - 1)).
Proof.
  unfold strtoll. destruct (scan_int s) as [[[neg w] t]|] eqn:E.
  - intros H. assert (t = []) by congruence. subst t. apply scan_int_iff in E as (num & -> & L & _). rewrite app_nil_r. right. exists neg, w.
    split; [exact L|]. unfold signed. congruence.
  - intros H. left. split; congruence.
Qed.
(** Expired exactly when the first expiration tag holds a positive number before
    the current time; anything that is not a whole number never expires. *)
Theorem C54_exact_partial : forall e now, (now < 2 ^ 63)%Z ->
  is_expired e now = true <-> exists z, expires (ev_tags e) z /\ (0 < z)%Z /\ (z < now)%Z.
Proof.
  intros e now LN. unfold is_expired, get_expiration, expires. split.
  - destruct (tag_value (ev_tags e) (bs "expiration")) as [s|] eqn:T; [|discriminate].
    apply tag_value_some in T. destruct (strtoll s) as (v, [|c r]) eqn:E; [|discriminate].
    destruct (Z.ltb_spec v 0) as [L0|L0]; [discriminate|]. destruct (Z.eqb_spec v 0) as [|NZ]; [discriminate|].
    intros H. apply Z.ltb_lt in H. apply strtoll_rest in E as [(_ & ->)|(neg & w & L & V)]; [lia|].
    exists (signed neg w). split; [exists s, neg, w; auto|]. lia.
  - intros (z & (s & neg & w & T & L & ->) & P & Q). apply tag_value_some in T. rewrite T.
    assert (SC : scan_int s = Some (neg, w, [])) by (apply scan_int_iff; exists s; rewrite app_nil_r; auto).
    unfold strtoll. rewrite SC. fold (signed neg w). cbv zeta beta iota.
    set (v := Z.max (- 2 ^ 63) (Z.min (signed neg w) (2 ^ 63 - 1))).
    assert (V : v = signed neg w) by (unfold v; lia). rewrite V.
    rewrite (proj2 (Z.ltb_ge _ _)) by lia. rewrite (proj2 (Z.eqb_neq _ _)) by lia. apply Z.ltb_lt. exact Q.
Qed.
Example C54_meets : is_expired (stamped (bs "1700000000")) 1700000001 = true /\ is_expired (stamped (bs "1700000000")) 1700000000 = false /\
  is_expired (stamped (bs "17 ")) 1700000000 = false /\ is_expired (stamped (bs "99999999999999999999")) (2 ^ 63 - 1) = false.
Proof. repeat split; vm_compute; reflexivity. Qed.

(** ** C55 *)
Lemma refs_ids ts v : In v (fst (deletion_refs ts)) <-> hex_id v /\ exists r, In (bs "e" :: v :: r) ts.
Proof.
  induction ts as [|t ts IH]; cbn [deletion_refs].
  - cbn. split; [tauto|]. intros (_ & r & []).
  - destruct (deletion_refs ts) as (es, xs) eqn:D. cbn [fst] in IH.
    assert (SKIP : (forall r, t <> bs "e" :: v :: r) -> In v es <-> hex_id v /\ exists r, In (bs "e" :: v :: r) (t :: ts)).
    { intros NT. rewrite IH. split; intros (A & r & B); (split; [exact A|]); exists r; [right; exact B|].
      destruct B as [B|B]; [exfalso; apply (NT r B)|exact B]. }
    destruct t as [|n [|w r0]]; cbn [fst]; [apply SKIP; intros; discriminate|apply SKIP; intros; discriminate|].
    destruct (beq n (bs "e")) eqn:BE.
    + apply beq_eq in BE. subst n. destruct (validate_hex64 w) eqn:V; cbn [fst].
      * apply hex64_iff in V. cbn [In]. split.
        -- intros [->|X]; [split; [exact V|exists r0; left; reflexivity]|]. apply IH in X as (A & r & B). split; [exact A|]. exists r. right. exact B.
        -- intros (A & r & [B|B]); [left; congruence|right]. apply IH. split; [exact A|exists r; exact B].
      * rewrite IH. split; intros (A & r & B); (split; [exact A|]); exists r; [right; exact B|].
        destruct B as [B|B]; [|exact B]. exfalso. assert (w = v) by congruence. subst w. apply hex64_iff in A. congruence.
    + apply beq_neq in BE. destruct (beq n (bs "a")); cbn [fst]; apply SKIP; intros r E; congruence.
Qed.
Lemma refs_addresses ts v : In v (snd (deletion_refs ts)) <-> address v /\ exists r, In (bs "a" :: v :: r) ts.
Proof.
  induction ts as [|t ts IH]; cbn [deletion_refs].
  - cbn. split; [tauto|]. intros (_ & r & []).
  - destruct (deletion_refs ts) as (es, xs) eqn:D. cbn [snd] in IH.
    assert (SKIP : (forall r, t <> bs "a" :: v :: r) -> In v xs <-> address v /\ exists r, In (bs "a" :: v :: r) (t :: ts)).
    { intros NT. rewrite IH. split; intros (A & r & B); (split; [exact A|]); exists r; [right; exact B|].
      destruct B as [B|B]; [exfalso; apply (NT r B)|exact B]. }
    destruct t as [|n [|w r0]]; cbn [snd]; [apply SKIP; intros; discriminate|apply SKIP; intros; discriminate|].
    destruct (beq n (bs "e")) eqn:BE.
    + apply beq_eq in BE. subst n. cbn [snd]. apply SKIP. intros r E. discriminate.
    + apply beq_neq in BE. destruct (beq n (bs "a")) eqn:BA; cbn [snd].
      * apply beq_eq in BA. subst n. destruct (validate_address w) eqn:V.
        -- apply address_iff in V. cbn [In]. split.
           ++ intros [->|X]; [split; [exact V|exists r0; left; reflexivity]|]. apply IH in X as (A & r & B). split; [exact A|]. exists r. right. exact B.
           ++ intros (A & r & [B|B]); [left; congruence|right]. apply IH. split; [exact A|exists r; exact B].
        -- rewrite IH. split; intros (A & r & B); (split; [exact A|]); exists r; [right; exact B|].
           destruct B as [B|B]; [|exact B]. exfalso. assert (w = v) by congruence. subst w. apply address_iff in A. congruence.
      * apply beq_neq in BA. apply SKIP. intros r E. congruence.
Qed.
Lemma parse_ok e d : deletion_parse e = ROk d -> ev_kind e = 5 /\ d_pubkey d = hex_encode (ev_pubkey e) /\
  (forall v, In v (d_ids d) <-> hex_id v /\ lists (bs "e") e v) /\ (forall v, In v (d_addresses d) <-> address v /\ lists (bs "a") e v).
Proof.
  unfold deletion_parse. destruct (N.eqb_spec (ev_kind e) 5) as [K|]; [|discriminate]. cbn [negb].
  pose proof (refs_ids (ev_tags e)) as RI. pose proof (refs_addresses (ev_tags e)) as RA.
  destruct (deletion_refs (ev_tags e)) as (es, xs). cbn [fst snd] in RI, RA. intros H. assert (D : d = mkDeletion (hex_encode (ev_pubkey e))
           (match ev_content e with Some (c :: r) => Some (c :: r) | _ => None end) es xs) by congruence. subst d.
  cbn [d_pubkey d_ids d_addresses]. split; [exact K|]. split; [reflexivity|]. split; [exact RI|exact RA].
Qed.
Lemma existsb_beq l v : existsb (fun i => beq i v) l = true <-> In v l.
Proof.
  rewrite existsb_exists. split; [intros (x & I & B); apply beq_eq in B; subst; exact I|].
  intros I. exists v. split; [exact I|apply beq_refl].
Qed.
Lemma hex_encode_low l : bytes_ok l -> low_hex (hex_encode l).
Proof.
  unfold low_hex, hex_encode. induction l as [|x l IH]; intros B; [constructor|].
  inversion B as [|? ? X B']; subst. cbn [flat_map]. apply Forall_app. split; [|apply IH, B'].
  assert (D : forall v, v < 16 -> In (hexdigit v) (bs "0123456789abcdef")).
  { intros v LV. apply low_char. unfold hexdigit, lower_hex_char. destruct (N.ltb_spec v 10).
    - rewrite (proj2 (N.leb_le 48 (48 + v))), (proj2 (N.leb_le (48 + v) 57)) by lia. reflexivity.
    - rewrite (proj2 (N.leb_le 97 (87 + v))), (proj2 (N.leb_le (87 + v) 102)) by lia. apply orb_true_r. }
  unfold byte_ok in X.
  constructor; [apply D, N.div_lt_upper_bound; lia|]. constructor; [apply D, N.mod_lt; lia|constructor].
Qed.
Lemma hex_encode_id l : length l = 32%nat -> bytes_ok l -> hex_id (hex_encode l).
Proof. intros L B. split; [rewrite EventProofs.hex_encode_length, L; reflexivity|apply hex_encode_low, B]. Qed.
Lemma lower_hex_encode l : bytes_ok l -> lower_hex (hex_encode l) l.
Proof.
  intros B. split; [apply hextext_encode, B|]. pose proof (hex_encode_low l B) as L. unfold low_hex in L.
  rewrite Forall_forall in *. intros c I R. specialize (L c I). cbn in L. intuition (subst; lia).
Qed.
Lemma hexdig_low_fun c c' d : hexdig c d -> hexdig c' d -> ~ (65 <= c <= 70) -> ~ (65 <= c' <= 70) -> c = c'.
Proof.
  intros H G. pose proof (hexdig_cases c d H). pose proof (hexdig_cases c' d G). intros. lia.
Qed.
Lemma lower_hex_fun h b h' : lower_hex h b -> lower_hex h' b -> h = h'.
Proof.
  intros (H & F) (G & F'). revert h' G F'. induction H as [|c1 c2 d1 d2 s l D1 D2 H IH]; intros h' G F'; inversion G; subst; [reflexivity|].
  inversion F as [|? ? A1 F1]; subst. inversion F1 as [|? ? A2 F2]; subst.
  inversion F' as [|? ? A1' F1']; subst. inversion F1' as [|? ? A2' F2']; subst.
  pose proof (hextext_bytes _ _ H) as BB.
  match goal with E : _ * 16 + _ = _ * 16 + _ |- _ => rename E into EQ end.
  match goal with A : hexdig c0 ?x, B : hexdig c3 ?y |- _ => rename A into E1; rename B into E2 end.
  assert (R1 : d1 < 16 /\ d2 < 16). { pose proof (hexdig_cases _ _ D1). pose proof (hexdig_cases _ _ D2). lia. }
  match type of E1 with hexdig _ ?x => match type of E2 with hexdig _ ?y =>
    assert (R2 : x < 16 /\ y < 16) by (pose proof (hexdig_cases _ _ E1); pose proof (hexdig_cases _ _ E2); lia);
    assert (x = d1) by lia; assert (y = d2) by lia; subst x y end end.
  f_equal; [eapply hexdig_low_fun; eauto|]. f_equal; [eapply hexdig_low_fun; eauto|]. apply IH; assumption.
Qed.
Lemma has_address_iff e s : length (ev_pubkey e) = 32%nat -> bytes_ok (ev_pubkey e) -> has_address e s <->
  s = dec_N (ev_kind e) ++ bs ":" ++ hex_encode (ev_pubkey e) ++ bs ":" ++
      match tag_value (ev_tags e) (bs "d") with Some v => v | None => [] end.
Proof.
  intros LP BP. unfold has_address. split.
  - intros (h & d & L & -> & D). assert (EH : h = hex_encode (ev_pubkey e)) by (apply (lower_hex_fun h _ _ L), lower_hex_encode, BP). subst h.
    destruct D as [D|(D & ->)]; [apply tag_value_some in D|apply tag_value_none in D]; rewrite D; reflexivity.
  - intros ->. exists (hex_encode (ev_pubkey e)). eexists. split; [apply lower_hex_encode, BP|]. split; [reflexivity|].
    destruct (tag_value (ev_tags e) (bs "d")) as [v|] eqn:T; [left; apply tag_value_some, T|right]. split; [apply tag_value_none, T|reflexivity].
Qed.
Definition key_ok (e : event) : Prop := length (ev_pubkey e) = 32%nat /\ bytes_ok (ev_pubkey e).
Definition id_ok (e : event) : Prop := length (ev_id e) = 32%nat /\ bytes_ok (ev_id e).
(** By id: exactly for the author's own events that the request lists. *)
Theorem C55_by_id : forall req d target, key_ok req -> key_ok target -> id_ok target -> deletion_parse req = ROk d ->
  deletion_authorized d target = true <->
  ev_kind req = 5 /\ ev_pubkey req = ev_pubkey target /\ exists h, lower_hex h (ev_id target) /\ lists (bs "e") req h.
Proof.
  intros req d t (LR & BR) (LT & BT) (LI & BI) P. apply parse_ok in P as (K & PK & IDS & _).
  unfold deletion_authorized. rewrite PK. split.
  - destruct (beq (hex_encode (ev_pubkey req)) (hex_encode (ev_pubkey t))) eqn:B; [|discriminate]. cbn [negb].
    intros H. apply existsb_beq, IDS in H as (_ & L). apply beq_eq in B.
    split; [exact K|]. split; [apply (EventProofs.hex_encode_inj _ _ BR BT B)|]. exists (hex_encode (ev_id t)). split; [apply lower_hex_encode, BI|exact L].
  - intros (_ & E & h & LH & L). rewrite E, beq_refl. cbn [negb]. apply existsb_beq, IDS.
    assert (h = hex_encode (ev_id t)) by (apply (lower_hex_fun h _ _ LH), lower_hex_encode, BI). subst h.
    split; [apply hex_encode_id; assumption|exact L].
Qed.
Lemma dec_digits_In n : Forall (fun c => In c (bs "0123456789")) (dec_N n).
Proof.
  eapply Forall_impl; [|apply dec_is_digits]. cbv beta. intros c H. apply digit_char. exact H.
Qed.
Lemma own_address e s : key_ok e -> has_address e s -> address s.
Proof.
  intros (L & B) H. apply (has_address_iff e s L B) in H. subst s. exists (dec_N (ev_kind e)), (hex_encode (ev_pubkey e)). eexists.
  split; [reflexivity|]. split; [destruct (dec_head_digit (ev_kind e)) as (c & t & E & _); rewrite E; discriminate|].
  split; [apply dec_digits_In|apply hex_encode_id; assumption].
Qed.
(** By address: exactly for the author's own addressable events whose address
    is listed and shorter than 256 bytes. *)
Theorem C55_by_address_partial : forall req d target, key_ok req -> key_ok target -> deletion_parse req = ROk d ->
  deletion_authorized_address d target = true <->
  ev_kind req = 5 /\ ev_pubkey req = ev_pubkey target /\ nip01_class (Z.of_N (ev_kind target)) Addressable /\
  exists s, has_address target s /\ (length s < 256)%nat /\ lists (bs "a") req s.
Proof.
  intros req d t (LR & BR) (LT & BT) P. apply parse_ok in P as (K & PK & _ & ADS).
  unfold deletion_authorized_address. rewrite PK.
  pose proof (C53_classes (Z.of_N (ev_kind t))) as (_ & _ & _ & _ & _ & CA & _).
  set (s0 := dec_N (ev_kind t) ++ bs ":" ++ hex_encode (ev_pubkey t) ++ bs ":" ++
        match tag_value (ev_tags t) (bs "d") with Some v => v | None => [] end).
  assert (HA : has_address t s0) by (apply has_address_iff; auto).
  split.
  - destruct (kind_is_addressable (Z.of_N (ev_kind t))) eqn:KA; [|discriminate]. cbn [negb].
    destruct (beq (hex_encode (ev_pubkey req)) (hex_encode (ev_pubkey t))) eqn:B; [|discriminate]. cbn [negb]. cbv zeta.
    fold s0. destruct (Nat.leb_spec 256 (length s0)) as [|L]; [discriminate|]. intros H. apply existsb_beq, ADS in H as (_ & LS).
    apply beq_eq in B. split; [exact K|]. split; [apply (EventProofs.hex_encode_inj _ _ BR BT B)|]. split; [apply CA; reflexivity|]. exists s0. auto.
  - intros (_ & E & KA & s & HS & L & LS). apply CA in KA. rewrite KA, E, beq_refl. cbn [negb]. cbv zeta. fold s0.
    assert (s = s0) by (apply has_address_iff in HS; auto). subst s.
    destruct (Nat.leb_spec 256 (length s0)); [lia|]. apply existsb_beq, ADS. split; [|exact LS]. apply (own_address t); [split; assumption|exact HA].
Qed.
(** A listed address with a long identifier, or of a replaceable event, is not
    honoured. *)
Definition c55_statement : Prop := forall req d target s, key_ok req -> key_ok target -> deletion_parse req = ROk d ->
  ev_pubkey req = ev_pubkey target -> has_address target s -> lists (bs "a") req s ->
  nip01_class (Z.of_N (ev_kind target)) Addressable \/ nip01_class (Z.of_N (ev_kind target)) Replaceable ->
  deletion_authorized_address d target = true.
Definition long_d : list N := repeat 120 200.
Definition pk1 : list N := repeat 17 32.
Definition sample_del (a : list N) : event := mkEvent (repeat 1 32) pk1 100 5 [[bs "a"; a]; [bs "e"; hex_encode (repeat 2 32)]] (Some (bs "oops")) (repeat 0 64).
Definition sample_post (k : N) (d : list N) (t : Z) : event := mkEvent (repeat 2 32) pk1 t k [[bs "d"; d]] None (repeat 0 64).
Lemma pk1_ok : length pk1 = 32%nat /\ bytes_ok pk1.
Proof. split; [reflexivity|]. apply Forall_repeat. unfold byte_ok. lia. Qed.
Theorem C55_refuted : ~ c55_statement /\
  (* a replaceable event *) exists req d target s, key_ok req /\ key_ok target /\ deletion_parse req = ROk d /\
    ev_pubkey req = ev_pubkey target /\ has_address target s /\ (length s < 256)%nat /\ lists (bs "a") req s /\
    nip01_class (Z.of_N (ev_kind target)) Replaceable /\ deletion_authorized_address d target = false.
Proof.
  split.
  - intros H. set (a := bs "30023:" ++ hex_encode pk1 ++ bs ":" ++ long_d).
    specialize (H (sample_del a) (mkDeletion (hex_encode pk1) (Some (bs "oops")) [hex_encode (repeat 2 32)] [a]) (sample_post 30023 long_d 50) a
      pk1_ok pk1_ok ltac:(vm_compute; reflexivity) eq_refl).
    assert (X : has_address (sample_post 30023 long_d 50) a) by (apply has_address_iff; [apply pk1_ok|apply pk1_ok|vm_compute; reflexivity]).
    specialize (H X). assert (Y : lists (bs "a") (sample_del a) a) by (exists []; left; reflexivity).
    assert (Z0 : nip01_class (Z.of_N (ev_kind (sample_post 30023 long_d 50))) Addressable) by (cbn; lia).
    specialize (H Y (or_introl Z0)). vm_compute in H. discriminate.
  - set (a := bs "10002:" ++ hex_encode pk1 ++ bs ":").
    exists (sample_del a), (mkDeletion (hex_encode pk1) (Some (bs "oops")) [hex_encode (repeat 2 32)] [a]), (sample_post 10002 [] 50), a.
    split; [apply pk1_ok|]. split; [apply pk1_ok|]. split; [vm_compute; reflexivity|]. split; [reflexivity|].
    split; [apply has_address_iff; [apply pk1_ok|apply pk1_ok|vm_compute; reflexivity]|]. split; [vm_compute; lia|].
    split; [exists []; left; reflexivity|]. split; [cbn; lia|vm_compute; reflexivity].
Qed.
(** Only deletion events are read as deletion requests. *)
Theorem C55_kind : forall e, (exists d, deletion_parse e = ROk d) <-> ev_kind e = 5.
Proof.
  intros e. unfold deletion_parse. destruct (N.eqb_spec (ev_kind e) 5) as [K|K]; cbn [negb].
  - destruct (deletion_refs (ev_tags e)). split; [auto|]. eauto.
  - split; [intros (d & H); discriminate|contradiction].
Qed.
Example C55_meets : exists d, deletion_parse (sample_del (bs "30023:" ++ hex_encode pk1 ++ bs ":blog")) = ROk d /\
  deletion_authorized d (sample_post 30023 (bs "blog") 50) = true /\ deletion_authorized_address d (sample_post 30023 (bs "blog") 50) = true /\
  deletion_authorized_address d (sample_post 30023 (bs "blogs") 50) = false.
Proof. eexists. split; [vm_compute; reflexivity|]. repeat split; vm_compute; reflexivity. Qed.

(** ** C83 deletion by address and newer versions *)
Definition c83_statement : Prop := forall req d target, key_ok req -> key_ok target -> deletion_parse req = ROk d ->
  deletion_authorized_address d target = true -> (ev_created target <= ev_created req)%Z.
Theorem C83_refuted : ~ c83_statement.
Proof.
  intros H. set (a := bs "30023:" ++ hex_encode pk1 ++ bs ":blog").
  specialize (H (sample_del a) (mkDeletion (hex_encode pk1) (Some (bs "oops")) [hex_encode (repeat 2 32)] [a]) (sample_post 30023 (bs "blog") 500)
      pk1_ok pk1_ok ltac:(vm_compute; reflexivity) ltac:(vm_compute; reflexivity)). cbn in H. lia.
Qed.

(** Partial: two versions of an address get the same answer whatever their times,
    so a caller who compares the times themself removes exactly the versions up
    to the request.  Missing: that comparison. *)
Theorem C83_partial : forall req d target target' s, key_ok req -> key_ok target -> key_ok target' -> deletion_parse req = ROk d ->
  has_address target s -> has_address target' s -> ev_kind target = ev_kind target' -> ev_pubkey target = ev_pubkey target' ->
  deletion_authorized_address d target = deletion_authorized_address d target' /\
  (nip01_class (Z.of_N (ev_kind target)) Addressable -> (length s < 256)%nat -> lists (bs "a") req s -> ev_pubkey req = ev_pubkey target -> ev_kind req = 5 ->
   deletion_authorized_address d target = true).
Proof.
  intros req d t t' s KR KT KT' P HA HA' K PK.
  pose proof (C55_by_address_partial req d t KR KT P) as X. pose proof (C55_by_address_partial req d t' KR KT' P) as X'.
  assert (U : forall e s1, key_ok e -> has_address e s -> has_address e s1 -> s1 = s).
  { intros e s1 (L & B) A A1. apply has_address_iff in A, A1; auto. congruence. }
  split.
  - destruct (deletion_authorized_address d t) eqn:E, (deletion_authorized_address d t') eqn:E'; try reflexivity.
    + destruct (proj1 X eq_refl) as (Q1 & Q2 & Q3 & s1 & Q4 & Q5 & Q6). assert (s1 = s) by eauto. subst s1.
      rewrite (proj2 X'); [reflexivity|]. rewrite <- K, <- PK. eauto 10.
    + destruct (proj1 X' eq_refl) as (Q1 & Q2 & Q3 & s1 & Q4 & Q5 & Q6). assert (s1 = s) by eauto. subst s1.
      rewrite (proj2 X); [reflexivity|]. rewrite K, PK. eauto 10.
  - intros A L LS PR KQ. apply X. eauto 10.
Qed.
Example C83_meets : let a := bs "30023:" ++ hex_encode pk1 ++ bs ":blog" in exists d, deletion_parse (sample_del a) = ROk d /\
  has_address (sample_post 30023 (bs "blog") 50) a /\ has_address (sample_post 30023 (bs "blog") 500) a /\ lists (bs "a") (sample_del a) a /\
  deletion_authorized_address d (sample_post 30023 (bs "blog") 50) = true.
Proof.
  intros a. eexists. split; [vm_compute; reflexivity|]. split; [apply has_address_iff; [apply pk1_ok|apply pk1_ok|reflexivity]|]. split; [apply has_address_iff; [apply pk1_ok|apply pk1_ok|reflexivity]|].
  split; [exists []; left; reflexivity|vm_compute; reflexivity].
Qed.

(** ** C84 full validation *)
Section C84.
Variable num : Z -> list N.
Variable sha256 : list N -> list N.
Variable schnorr_verify : list N -> list N -> list N -> bool.
Variable pubkey_parses : list N -> bool.
Hypothesis sha_len : forall x, length (sha256 x) = 32%nat.
Let ser := serialize_with num.
(** Accepted exactly when the event is not too far in the future, has not
    expired, its id is the hash of its contents and the signature verifies; a
    clock limit that fits 64 bits never makes the call undefined. *)
Theorem C84_validate : forall parse e max_future now now2, length (ev_id e) = 32%nat -> (now2 < 2 ^ 63)%Z ->
  (- 2 ^ 63 <= now + max_future < 2 ^ 63)%Z ->
  (validate_full ser sha256 schnorr_verify pubkey_parses parse e max_future now now2 = ROk tt <->
   (ev_created e <= now + max_future)%Z /\ ~ (exists z, expires (ev_tags e) z /\ (0 < z < now2)%Z) /\
   ev_id e = sha256 (ser e) /\ (parse = true -> pubkey_parses (ev_pubkey e) = true) /\
   schnorr_verify (ev_pubkey e) (ev_id e) (ev_sig e) = true) /\
  validate_full ser sha256 schnorr_verify pubkey_parses parse e max_future now now2 <> RUndef.
Proof.
  intros parse e mf now now2 L LN LM. unfold validate_full, validate_timestamp. cbv zeta.
  rewrite (proj2 (Z.ltb_ge _ _)) by lia. rewrite (proj2 (Z.leb_gt (2 ^ 63) _)) by lia. cbn [orb rbind].
  destruct (Z.leb_spec (ev_created e) (now + mf)) as [LC|LC]; cbn [negb].
  2:{ split; [|discriminate]. split; [discriminate|lia]. }
  pose proof (C54_exact_partial e now2 LN) as X. destruct (is_expired e now2).
  { split; [|discriminate]. split; [discriminate|]. intros (_ & N & _). exfalso. apply N. apply (proj1 X). reflexivity. }
  assert (NE : ~ (exists z, expires (ev_tags e) z /\ (0 < z < now2)%Z)).
  { intros (z & A & B). assert (Y : false = true) by (apply X; exists z; split; [exact A|lia]). discriminate. }
  cbn [compute_id ev_id]. destruct (beq (ev_id e) (sha256 (ser e))) eqn:B; cbn [negb].
  2:{ apply beq_neq in B. split; [|discriminate]. split; [discriminate|tauto]. }
  destruct (C17_verify_exact num sha256 schnorr_verify pubkey_parses sha_len parse e L) as (V & U). fold ser in V, U.
  destruct (event_verify ser sha256 schnorr_verify pubkey_parses parse e) as [[]|er|].
  - split; [|discriminate]. split; [|reflexivity]. intros _. split; [exact LC|]. split; [exact NE|]. apply V. reflexivity.
  - split; [|discriminate]. split; [discriminate|]. intros (_ & _ & H). apply V in H. discriminate.
  - congruence.
Qed.
End C84.
(** A huge allowance overflows the clock. *)
Theorem C84_refuted : forall ser sha v p parse e, validate_full ser sha v p parse e (2 ^ 63 - 1) 1 1 = RUndef.
Proof. reflexivity. Qed.
Definition toy_sha (x : list N) : list N := repeat 7 32.
Example C84_meets : validate_full serialize_own toy_sha (fun _ _ _ => true) (fun _ => true) true
  (mkEvent (repeat 7 32) (repeat 1 32) 100 1 [[bs "expiration"; bs "200"]] (Some (bs "hi")) (repeat 0 64)) 60 150 150 = ROk tt.
Proof. vm_compute. reflexivity. Qed.

(** ** C85 serializing into a caller's buffer *)
(** With an honest size nothing is written out of bounds: either the buffer ends
    up holding the whole text and its terminator, or it is left alone and the
    length needed is reported. *)
Theorem C85_bounds : forall text buf, buf <> [] ->
  exists st buf', serialize_into text buf (N.of_nat (length buf)) = Ok (st, N.of_nat (length text), buf') /\
    length buf' = length buf /\
    ((st = None /\ (length text < length buf)%nat /\ exists rest, buf' = text ++ 0 :: rest) \/
     (st = Some RBufferTooSmall /\ (length buf <= length text)%nat /\ buf' = buf)).
Proof.
  intros text buf NE. unfold serialize_into, put_text.
  destruct (N.eqb_spec (N.of_nat (length buf)) 0) as [Z|Z]; [destruct buf; [congruence|cbn in Z; lia]|]. cbv zeta.
  destruct (N.leb_spec (N.of_nat (length buf)) (N.of_nat (length text))) as [L|L].
  - exists (Some RBufferTooSmall), buf. split; [reflexivity|]. split; [reflexivity|]. right. repeat split. lia.
  - destruct (Nat.ltb_spec (length buf) (length text + 1)); [lia|]. exists None, (text ++ [0] ++ skipn (length text + 1) buf).
    split; [reflexivity|]. split; [rewrite !app_length, skipn_length; cbn [length]; lia|]. left. split; [reflexivity|]. split; [lia|]. exists (skipn (length text + 1) buf). reflexivity.
Qed.

(** ** C86 tag access *)
Lemma iter_all_from ts : Forall (fun t => t <> []) ts -> forall fuel pre, (length ts < fuel)%nat ->
  map (fun x => fst x :: snd x) (iter_all fuel (pre ++ ts) (length pre)) = ts.
Proof.
  induction 1 as [|t ts NE F IH]; intros fuel pre L; (destruct fuel as [|fuel]; [lia|]); cbn [iter_all]; unfold iter_next_info, iter_next.
  - rewrite app_nil_r, (proj2 (nth_error_None pre (length pre))) by lia. reflexivity.
  - rewrite nth_error_app2 by lia. rewrite Nat.sub_diag. cbn [nth_error]. destruct t as [|n vs]; [congruence|]. cbn [map fst snd]. f_equal.
    specialize (IH fuel (pre ++ [n :: vs])). rewrite <- app_assoc in IH. cbn [app] in IH. rewrite app_length in IH. cbn [length] in IH.
    rewrite Nat.add_1_r in IH. apply IH. cbn [length] in L. lia.
Qed.
(** Iterating an event's tags visits each of them once, in order. *)
Theorem C86_iterate : forall e fuel, Forall (fun t => t <> []) (ev_tags e) -> (length (ev_tags e) < fuel)%nat ->
  map (fun x => fst x :: snd x) (iter_all fuel (ev_tags e) 0) = ev_tags e.
Proof. intros e fuel F L. apply (iter_all_from (ev_tags e) F fuel [] L). Qed.
(** Lookups find the first matching tag. *)
Theorem C86_lookup : forall ts name,
  (forall v, tag_value ts name = Some v <-> first_value name ts v) /\ (tag_value ts name = None <-> no_value name ts) /\
  (forall t, find_tag ts name = Some t <-> exists a vs b, ts = a ++ t :: b /\ t = name :: vs /\ Forall (fun u => forall y, u <> name :: y) a) /\
  (has_tag ts name = true <-> exists vs, In (name :: vs) ts).
Proof.
  intros ts name. split; [intros v; apply tag_value_some|]. split; [apply tag_value_none|].
  assert (FT : forall ts, (forall t, find_tag ts name = Some t <-> exists a vs b, ts = a ++ t :: b /\ t = name :: vs /\ Forall (fun u => forall y, u <> name :: y) a)).
  { clear ts. induction ts as [|u ts IH]; intros t; cbn [find_tag].
    - split; [discriminate|]. intros (a & vs & b & E & _). destruct a; discriminate.
    - assert (SKIP : (forall y, u <> name :: y) -> find_tag ts name = Some t <->
         exists a vs b, u :: ts = a ++ t :: b /\ t = name :: vs /\ Forall (fun u => forall y, u <> name :: y) a).
      { intros NU. rewrite IH. split.
        - intros (a & vs & b & -> & T & F). exists (u :: a), vs, b. repeat split; [exact T|constructor; assumption].
        - intros (a & vs & b & E & T & F). destruct a as [|u' a]; [cbn in E; exfalso; apply (NU vs); congruence|].
          cbn in E. exists a, vs, b. inversion F; subst. repeat split; [congruence|assumption]. }
      destruct u as [|n vs]; [apply SKIP; intros; discriminate|]. destruct (beq n name) eqn:B.
      + apply beq_eq in B. subst n. split.
        * intros H. exists [], vs, ts. cbn. repeat split; [congruence|congruence|constructor].
        * intros (a & vs' & b & E & T & F). destruct a as [|u' a]; [cbn in E; congruence|]. cbn in E. inversion F as [|? ? N _]; subst.
          exfalso. apply (N vs). congruence.
      + apply beq_neq in B. apply SKIP. intros y E. congruence. }
  split; [apply FT|]. unfold has_tag. destruct (find_tag ts name) as [t|] eqn:E.
  - apply FT in E as (a & vs & b & -> & -> & _). split; [|reflexivity]. intros _. exists vs. apply in_or_app. right. left. reflexivity.
  - split; [discriminate|]. intros (vs & I). exfalso. revert E I. clear. induction ts as [|u ts IH]; cbn [find_tag In]; [tauto|].
    destruct u as [|n ws]; [intros E [X|X]; [discriminate|auto]|]. destruct (beq n name) eqn:B; [discriminate|]. apply beq_neq in B.
    intros E [X|X]; [congruence|auto].
Qed.
(** [binary name ts out]: the 32-byte values of the tags of that name, in order. *)
Inductive binary (name : list N) : list tag -> list (list N) -> Prop :=
| BinNil : binary name [] []
| BinHit v b r ts out : hex_id v -> hextext v b -> binary name ts out -> binary name ((name :: v :: r) :: ts) (b :: out)
| BinMiss t ts out : (forall v r, t = name :: v :: r -> ~ hex_id v) -> binary name ts out -> binary name (t :: ts) out.
Lemma hex_id_text v : hex_id v -> exists b, hextext v b /\ length b = 32%nat.
Proof.
  intros (L & LO). destruct (all_hex_hextext v) as (b & H); [rewrite L; reflexivity| |].
  - unfold all_hex. eapply Forall_impl; [|exact LO]. cbv beta. intros c I.
    apply (In_nth_error) in I as (n & I). exists (N.of_nat n). left. rewrite Nat2N.id. exact I.
  - exists b. split; [exact H|]. apply hextext_length in H. lia.
Qed.
Lemma binary_tag_iff name t v : binary_tag name t = Some v <-> exists r, t = name :: v :: r /\ hex_id v.
Proof.
  unfold binary_tag. destruct t as [|n [|w r]]; try (split; [discriminate|intros (r' & E & _); discriminate]).
  destruct (beq n name) eqn:B; cbn [andb].
  - apply beq_eq in B. subst n. destruct (validate_hex64 w) eqn:V.
    + apply hex64_iff in V. split; [intros H; exists r; split; congruence|intros (r' & E & _); congruence].
    + split; [discriminate|]. intros (r' & E & H). assert (w = v) by congruence. subst w. apply hex64_iff in H. congruence.
  - apply beq_neq in B. split; [discriminate|]. intros (r' & E & _). congruence.
Qed.
Lemma fill_binary_spec name ts : forall idx, exists out,
  fill_binary name ts (idx + count_binary name ts) idx = Ok out /\ binary name ts out /\ length out = count_binary name ts.
Proof.
  induction ts as [|t ts IH]; intros idx; cbn [fill_binary count_binary].
  - exists []. repeat split. constructor.
  - destruct (binary_tag name t) as [v|] eqn:T.
    + apply binary_tag_iff in T as (r & -> & HV). destruct (Nat.leb_spec (idx + S (count_binary name ts)) idx); [lia|].
      destruct (hex_id_text v HV) as (b & HB & LB). pose proof HV as (LV & _). rewrite LV. cbn [Nat.eqb].
      pose proof (scan_bytes_hex v b HB) as SB. rewrite LB in SB. rewrite SB.
      destruct (Nat.ltb_spec idx (idx + S (count_binary name ts))); [|lia].
      destruct (IH (S idx)) as (out & E & BO & LO). replace (idx + S (count_binary name ts))%nat with (S idx + count_binary name ts)%nat by lia.
      rewrite E. cbn [bind]. exists (b :: out). split; [reflexivity|]. split; [constructor; assumption|cbn; lia].
    + assert (NT : forall v r, t = name :: v :: r -> ~ hex_id v).
      { intros v r -> HV. assert (X : binary_tag name (name :: v :: r) = Some v) by (apply binary_tag_iff; eauto). congruence. }
      destruct (Nat.leb_spec (idx + count_binary name ts) idx) as [L|L].
      * exists []. split; [reflexivity|]. assert (C0 : count_binary name ts = O) by lia. split; [|rewrite C0; reflexivity].
        constructor 3; [exact NT|]. destruct (IH idx) as (out & E & BO & LO). rewrite C0 in LO. destruct out; [exact BO|discriminate].
      * destruct (IH idx) as (out & E & BO & LO). exists out. repeat split; [exact E| |exact LO]. constructor 3; assumption.
Qed.
Lemma count_zero name ts : count_binary name ts = O -> binary name ts [].
Proof.
  intros C. destruct (fill_binary_spec name ts 0) as (out & _ & B & L). rewrite C in L. destruct out; [exact B|discriminate].
Qed.
(** The binary accessors give the decoded values of the well-formed tags, in
    order, never writing past the array; [None] (NULL, count 0) only if there
    is none or memory runs out. *)
Theorem C86_binary : forall name e ok, exists r, tags_binary name e ok = Ok r /\
  match r with
  | Some out => ok = true /\ out <> [] /\ binary name (ev_tags e) out
  | None => ok = false \/ binary name (ev_tags e) []
  end.
Proof.
  intros name e ok. unfold tags_binary. cbv zeta.
  destruct (Nat.eqb_spec (count_binary name (ev_tags e)) 0) as [C|C]; cbn [orb].
  - exists None. split; [reflexivity|]. right. apply count_zero, C.
  - destruct ok; cbn [negb].
    + destruct (fill_binary_spec name (ev_tags e) 0) as (out & E & B & L). cbn [Nat.add] in E. rewrite E. cbn [bind]. exists (Some out).
      split; [reflexivity|]. split; [reflexivity|]. split; [|exact B]. intros ->. cbn in L. lia.
    + exists None. split; [reflexivity|left; reflexivity].
Qed.
Example C86_meets : tags_binary (bs "e") (sample_del []) true = Ok (Some [repeat 2 32]).
Proof. vm_compute. reflexivity. Qed.
Theorem C86_indexable : forall s, tag_is_indexable s = true <-> exists c, s = [c] /\ (97 <= c <= 122 \/ 65 <= c <= 90).
Proof.
  intros s. unfold tag_is_indexable. destruct s as [|c [|d s]]; try (split; [discriminate|intros (x & E & _); discriminate]).
  rewrite orb_true_iff, !andb_true_iff, !N.leb_le. split; [intros H; exists c; auto|intros (x & E & H)]. assert (x = c) by congruence. subst x. exact H.
Qed.

(** ** C87 hex helpers *)
Lemma hex_loop_prefix : forall n i hex out, (2 * (i + n) <= length hex)%nat -> (i + n <= length out)%nat ->
  exists st out', hex_to_bytes_loop n i hex out = Ok (st, out') /\ length out' = length out /\
    (exists k w, (k <= n)%nat /\ hextext (firstn (2 * k) (skipn (2 * i) hex)) w /\ out' = firstn i out ++ w ++ skipn (i + k) out /\
       (st = None /\ k = n \/ st = Some RInvalidId /\ (k < n)%nat /\ ~ all_hex (firstn 2 (skipn (2 * (i + k)) hex)))).
Proof.
  induction n as [|n IH]; intros i hex out LH LO; cbn [hex_to_bytes_loop].
  - exists None, out. repeat split. exists O, []. split; [lia|]. split; [constructor|]. split; [|left; auto]. rewrite Nat.add_0_r. cbn [app]. symmetry. apply firstn_skipn.
  - destruct (nth_error hex (2 * i)) as [c1|] eqn:N1; [|apply nth_error_None in N1; lia].
    destruct (nth_error hex (2 * i + 1)) as [c2|] eqn:N2; [|apply nth_error_None in N2; lia].
    assert (SK : skipn (2 * i) hex = c1 :: c2 :: skipn (2 * (i + 1)) hex).
    { apply nth_error_split in N1 as (a & b & -> & LA). rewrite <- LA in *. rewrite skipn_app, skipn_all2, Nat.sub_diag by lia. cbn [app skipn].
      f_equal. rewrite nth_error_app2 in N2 by lia. replace (length a + 1 - length a)%nat with 1%nat in N2 by lia. cbn [nth_error] in N2.
      destruct b as [|b0 b]; [discriminate|]. assert (b0 = c2) by congruence. subst b0. f_equal.
      replace (2 * (i + 1))%nat with (length a + 2)%nat by lia. rewrite skipn_app, skipn_all2 by lia. replace (length a + 2 - length a)%nat with 2%nat by lia. reflexivity. }
    assert (BAD : forall x, (x = c1 \/ x = c2) -> hex_nibble x = None -> exists st out', Ok (Some RInvalidId, out) = Ok (st, out') /\ length out' = length out /\
       (exists k w, (k <= S n)%nat /\ hextext (firstn (2 * k) (skipn (2 * i) hex)) w /\ out' = firstn i out ++ w ++ skipn (i + k) out /\
       (st = None /\ k = S n \/ st = Some RInvalidId /\ (k < S n)%nat /\ ~ all_hex (firstn 2 (skipn (2 * (i + k)) hex))))).
    { intros x X H. exists (Some RInvalidId), out. repeat split. exists O, []. split; [lia|]. split; [constructor|].
      split; [rewrite Nat.add_0_r; symmetry; apply firstn_skipn|]. right. repeat split; [lia|]. rewrite Nat.add_0_r, SK. cbn [firstn].
      intros A. inversion A as [|? ? (d1 & A1) A']; subst. inversion A' as [|? ? (d2 & A2) _]; subst.
      apply nibble_hexdig in A1, A2. destruct X as [X|X]; subst x; congruence. }
    destruct (hex_nibble c1) as [a|] eqn:H1; [|apply (BAD c1); auto].
    destruct (hex_nibble c2) as [b|] eqn:H2; [|apply (BAD c2); auto]. clear BAD.
    destruct (Nat.ltb_spec i (length out)) as [L|L]; [|lia].
    set (v := N.lor (N.shiftl a 4) b). set (out1 := firstn i out ++ [v] ++ skipn (S i) out).
    assert (L1 : length out1 = length out) by (unfold out1; rewrite !app_length, firstn_length, skipn_length; cbn [length]; lia).
    destruct (IH (S i) hex out1) as (st & out' & E & LE & k & w & LK & HT & OUT & ST); [lia|lia|].
    exists st, out'. split; [exact E|]. split; [congruence|]. exists (S k), (v :: w).
    apply nibble_hexdig in H1, H2.
    assert (V : v = a * 16 + b). { unfold v. apply shl4_lor. pose proof (hexdig_cases _ _ H2). lia. }
    split; [lia|]. split.
    { rewrite SK. replace (2 * S k)%nat with (S (S (2 * k))) by lia. cbn [firstn]. rewrite V. constructor; [exact H1|exact H2|].
      replace (i + 1)%nat with (S i) by lia. exact HT. }
    split.
    { rewrite OUT. unfold out1. replace (S i) with (i + 1)%nat by lia.
      assert (LF : length (firstn i out) = i) by (rewrite firstn_length; lia).
      assert (F1 : firstn (i + 1) (firstn i out ++ [v] ++ skipn (i + 1) out) = firstn i out ++ [v]).
      { rewrite app_assoc. apply firstn_app_exact. rewrite app_length, LF. reflexivity. }
      assert (F2 : skipn (i + 1 + k) (firstn i out ++ [v] ++ skipn (i + 1) out) = skipn (i + 1 + k) out).
      { rewrite <- skipn_add, app_assoc. rewrite skipn_app_exact by (rewrite app_length, LF; reflexivity). rewrite skipn_add. reflexivity. }
      rewrite F1, F2, <- app_assoc. cbn [app]. do 3 f_equal. f_equal. lia. }
    destruct ST as [(-> & ->)|(-> & LK' & NA)]; [left; auto|right]. split; [reflexivity|]. split; [lia|].
    replace (i + S k)%nat with (S i + k)%nat by lia. exact NA.
Qed.
(** With honest sizes the decoder stays within both buffers, writes exactly the
    bytes spelled by the text, and reports bad text and small buffers. *)
Theorem C87_decode : forall hex out, exists st out',
  relay_hex_to_bytes hex (length hex) out (length out) = Ok (st, out') /\ length out' = length out /\
  match st with
  | None => exists w, hextext hex w /\ (length w <= length out)%nat /\ out' = w ++ skipn (length w) out
  | Some RInvalidId => ~ exists w, hextext hex w
  | Some RBufferTooSmall => (2 * length out < length hex)%nat /\ out' = out
  | Some _ => False
  end.
Proof.
  intros hex out. unfold relay_hex_to_bytes.
  destruct (Nat.eqb_spec (length hex mod 2) 0) as [E|E]; cbn [negb].
  2:{ exists (Some RInvalidId), out. repeat split. intros (w & H). apply hextext_length in H. apply E. rewrite H, Nat.mul_comm. apply Nat.mod_mul. lia. }
  assert (EV : length hex = (2 * (length hex / 2))%nat). { pose proof (Nat.div_mod (length hex) 2 ltac:(lia)). lia. }
  set (n := (length hex / 2)%nat) in *.
  destruct (Nat.ltb_spec (length out) n) as [L|L].
  - exists (Some RBufferTooSmall), out. repeat split. lia.
  - destruct (hex_loop_prefix n 0 hex out) as (st & out' & EQ & LE & k & w & LK & HT & OUT & ST); [lia|lia|].
    exists st, out'. split; [exact EQ|]. split; [exact LE|]. cbn [Nat.mul skipn Nat.add] in HT, OUT, ST.
    destruct ST as [(-> & ->)|(-> & LK' & NA)].
    + exists w. rewrite firstn_all2 in HT by lia. split; [exact HT|]. apply hextext_length in HT. split; [lia|]. rewrite OUT. cbn [firstn app]. do 2 f_equal. lia.
    + intros (w' & H). apply NA. apply hextext_all_hex in H. unfold all_hex in *. apply Forall_firstn, Forall_skipn, H.
Qed.
(** The encoder writes lower-case digits that decode to the same bytes. *)
Theorem C87_encode : forall l, bytes_ok l -> relay_bytes_to_hex l = hex_encode l /\ lower_hex (relay_bytes_to_hex l) l.
Proof.
  intros l B. assert (E : relay_bytes_to_hex l = hex_encode l).
  { unfold relay_bytes_to_hex, hex_encode. induction B as [|x l X B IH]; [reflexivity|]. cbn [flat_map]. rewrite IH. f_equal.
    unfold hex_byte. unfold byte_ok in X.
    assert (D : forall v, v < 16 -> nth (N.to_nat v) (bs "0123456789abcdef") 0 = hexdigit v).
    { intros v LV. assert (v = 0 \/ v = 1 \/ v = 2 \/ v = 3 \/ v = 4 \/ v = 5 \/ v = 6 \/ v = 7 \/ v = 8 \/ v = 9 \/ v = 10 \/ v = 11 \/ v = 12 \/ v = 13 \/ v = 14 \/ v = 15) by lia.
      repeat match goal with H : _ \/ _ |- _ => destruct H as [->|H]; [reflexivity|] end. subst v. reflexivity. }
    change 15 with (N.ones 4). rewrite !N.land_ones, N.shiftr_div_pow2. change (2 ^ 4) with 16.
    rewrite (N.mod_small (x / 16)) by (apply N.div_lt_upper_bound; lia).
    rewrite !D; [reflexivity|apply N.mod_lt; lia|apply N.div_lt_upper_bound; lia]. }
  split; [exact E|]. rewrite E. apply lower_hex_encode, B.
Qed.
(** The text checks accept exactly the documented forms. *)
Theorem C87_checks : forall s, (validate_hex64 s = true <-> hex_id s) /\ (validate_hex_prefix s = true <-> hex_prefix s) /\
  (validate_subscription_id s = true <-> sub_id s) /\ (validate_address s = true <-> address s).
Proof. intros s. split; [apply hex64_iff|]. split; [apply hex_prefix_iff|]. split; [apply sub_id_iff|apply address_iff]. Qed.

(** Cases for C52, C85 and C87: two events of the same second; a text in a
    buffer that takes it and in one that does not; upper and lower case hex. *)
Example C52_meets : let a := mkEvent (repeat 1 32) [] 7 10002 [] None [] in let b := mkEvent (repeat 2 32) [] 7 10002 [] None [] in
  let c := mkEvent (repeat 3 32) [] 6 10002 [] None [] in
  Forall id32 [a; b; c] /\ compare_replaceable a b = 1%Z /\ beats a b /\ survivor compare_replaceable c [b; a] = a /\ survivor compare_replaceable a [c; b] = a.
Proof.
  intros a b c. assert (F : Forall id32 [a; b; c]) by (repeat (constructor; [reflexivity|]); constructor). split; [exact F|].
  assert (C : compare_replaceable a b = 1%Z) by (vm_compute; reflexivity). split; [exact C|].
  split; [apply (proj1 (C52_meaning a b eq_refl eq_refl)), C|]. split; vm_compute; reflexivity.
Qed.
Example C85_meets : serialize_into (bs "abc") (repeat 7 6) 6 = Ok (None, 3, bs "abc" ++ [0; 7; 7]) /\
  serialize_into (bs "abc") (repeat 7 3) 3 = Ok (Some RBufferTooSmall, 3, repeat 7 3).
Proof. split; vm_compute; reflexivity. Qed.
Example C87_meets : relay_hex_to_bytes (bs "0aFF") 4 [1; 2; 3] 3 = Ok (None, [10; 255; 3]) /\ relay_bytes_to_hex [10; 255] = bs "0aff" /\
  fst (match relay_hex_to_bytes (bs "0axx") 4 [1; 2; 3] 3 with Ok r => r | _ => (None, []) end) = Some RInvalidId /\
  hex_id (relay_bytes_to_hex (repeat 171 32)).
Proof. split; [vm_compute; reflexivity|]. split; [vm_compute; reflexivity|]. split; [vm_compute; reflexivity|]. apply C87_checks. vm_compute. reflexivity. Qed.

Print Assumptions C52_meaning.
Print Assumptions C52_order.
Print Assumptions C52_arrival_order.
Print Assumptions C53_classes.
Print Assumptions C54_refuted.
Print Assumptions C54_exact_partial.
Print Assumptions C55_by_id.
Print Assumptions C55_by_address_partial.
Print Assumptions C55_refuted.
Print Assumptions C55_kind.
Print Assumptions C83_refuted.
Print Assumptions C83_partial.
Print Assumptions C84_validate.
Print Assumptions C84_refuted.
Print Assumptions C85_bounds.
Print Assumptions C86_iterate.
Print Assumptions C86_lookup.
Print Assumptions C86_binary.
Print Assumptions C86_indexable.
Print Assumptions C87_decode.
Print Assumptions C87_encode.
Print Assumptions C87_checks.
