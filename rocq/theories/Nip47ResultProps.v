(** C115-C117: reading a wallet's answers. *)
From Verif Require Import Base BaseFacts Heap Json Dec Strto GiftWrap GiftWrapProps RelayMemSpec RelayMemProps EventMem EventMemSpec EventMemProps CjsonMemProofs EventOomSpec RelayFilterSpec RelayFilterProps Nip46Spec Nip46Props Nip47Result Nip47ResultSpec.
From Coq Require Import Permutation.
Open Scope nat_scope.

Lemma worth_trunc n z : worth n z -> exists m x, n = JFin m x /\ jtrunc m x = z.
Proof.
  intros (m & x & -> & P & Q). exists m, x. split; [reflexivity|]. unfold jtrunc. destruct (Z.leb_spec 0 x); [symmetry; apply P; assumption|].
  rewrite Q by assumption. apply Z.quot_mul. apply Z.pow_nonzero; lia.
Qed.
Lemma unsigned_worth bits n z : worth n (Z.of_N z) -> (Z.of_N z < 2 ^ bits)%Z -> j_unsigned bits n = Ok z.
Proof.
  intros W L. destruct (worth_trunc _ _ W) as (m & x & -> & T). unfold j_unsigned. cbv zeta. rewrite T. rewrite (proj2 (Z.leb_le _ _)) by lia. rewrite (proj2 (Z.ltb_lt _ _)) by lia. cbn [andb]. rewrite N2Z.id. reflexivity.
Qed.

Lemma Forall2_impl {A B} (P Q : A -> B -> Prop) : (forall a b, P a b -> Q a b) -> forall l m, Forall2 P l m -> Forall2 Q l m.
Proof. intros I l m F. induction F; constructor; auto. Qed.

Section Results.
Variable grant : nat -> bool.
Variable parse : list N -> option json.
Notation granted := (granted grant).
Lemma dup_ok s h l : holds h l -> exists r h', dup grant s h = Ok (r, h') /\ h_next h <= h_next h' /\ holds h' (text_block (Stored r) ++ l) /\
  ((exists b, r = Some (b, until_nul s)) \/ (r = None /\ ~ granted h h')).
Proof.
  intros X. unfold dup. destruct (ealloc_two grant h l X) as [(q & h1 & E & X1 & L1)|(h1 & E & X1 & L1 & F)]; rewrite (mbind_ok _ _ _ _ _ E); cbn [option_map].
  - eexists. exists h1. split; [reflexivity|]. split; [lia|]. split; [exact X1|]. left. eauto.
  - exists None, h1. split; [reflexivity|]. split; [lia|]. split; [exact X1|]. right. split; [reflexivity|]. intros G. apply (not_granted grant h h h1 F ltac:(lia) ltac:(lia) G).
Qed.
Lemma read_as_less j k (P Q : Prop) c : (Q -> P) -> read_as j k P c -> read_as j k Q c.
Proof. intros I [(s & u & G & T & [B|(B & N)])|R]; [left; exists s, u; auto|left; exists s, u; split; [exact G|]; split; [exact T|]; right; tauto|right; exact R]. Qed.
Lemma read_text_ok j k h l : holds h l -> exists c h', read_text grant true j k h = Ok (c, h') /\ h_next h <= h_next h' /\ holds h' (text_block c ++ l) /\ read_as j k (granted h h') c.
Proof.
  intros X. unfold read_text. destruct (jget k j) as [v|] eqn:J.
  2:{ exists Kept, h. split; [reflexivity|]. split; [lia|]. split; [exact X|]. right. split; [|reflexivity]. intros s G. apply jget_gives in G. congruence. }
  assert (NS : (forall s, v <> JStr s) -> exists c h', mret (A := cell text) Kept h = Ok (c, h') /\ h_next h <= h_next h' /\ holds h' (text_block c ++ l) /\ read_as j k (granted h h') c).
  { intros V. exists Kept, h. split; [reflexivity|]. split; [lia|]. split; [exact X|]. right. split; [|reflexivity]. intros s G. apply jget_gives in G. apply (V s). congruence. }
  destruct v; try (apply NS; discriminate). destruct (dup_ok s h l X) as (r & h1 & E & L & X1 & R). rewrite (mbind_ok _ _ _ _ _ E). exists (Stored r), h1. split; [reflexivity|]. split; [exact L|]. split; [exact X1|].
  left. exists s, (until_nul s). split; [apply jget_gives, J|]. split; [apply c_text_iff; reflexivity|]. destruct R as [(b & ->)|(-> & N)]; eauto.
Qed.
Lemma read_number_ok bits j k h : fits j k bits -> exists c, read_unsigned true bits j k h = Ok (c, h) /\ read_number j k c.
Proof.
  intros F. unfold read_unsigned. destruct (jget k j) as [v|] eqn:J.
  2:{ exists Kept. split; [reflexivity|]. right. split; [|reflexivity]. intros n G. apply jget_gives in G. congruence. }
  destruct v; try (exists Kept; split; [reflexivity|]; right; split; [|reflexivity]; intros m G; apply jget_gives in G; congruence).
  pose proof (proj1 (jget_gives _ _ _) J) as G. destruct (F _ G) as (z & W & L). rewrite (unsigned_worth _ _ _ W L). eexists. split; [reflexivity|]. left. eauto.
Qed.
Lemma parse_tree_ok t h l : holds h l ->
  (exists b j h', parse_tree grant parse t h = Ok (Some (b, j), h') /\ parse t = Some j /\ h_next h <= h_next h' /\ holds h' (b :: l)) \/
  (exists h', parse_tree grant parse t h = Ok (None, h') /\ h_next h <= h_next h' /\ holds h' l /\ (granted h h' -> parse t = None)).
Proof.
  intros X. unfold parse_tree. destruct (ealloc_two grant h l X) as [(q & h1 & E & X1 & L1)|(h1 & E & X1 & L1 & F)]; rewrite (mbind_ok _ _ _ _ _ E).
  - destruct (parse t) as [j|] eqn:P; [left; exists q, j, h1; split; [reflexivity|]; split; [reflexivity|]; split; [lia|exact X1]|right]. destruct (free_holds _ _ _ X1) as (h2 & E2 & X2 & L2). rewrite (mbind_ok _ _ _ _ _ E2).
    exists h2. split; [reflexivity|]. split; [lia|]. auto.
  - right. exists h1. split; [reflexivity|]. split; [lia|]. split; [exact X1|]. intros G. destruct (not_granted grant h h h1 F ltac:(lia) ltac:(lia) G).
Qed.

(** ** C115 *)
(** A whole balance below 2^64 is read as it stands; without one, or without
    memory, there is an error and the variable is untouched. *)
Theorem C115_balance_partial : forall t h rest, holds h rest -> (forall j n, parse t = Some j -> gives j (bs "balance") (JNum n) -> exists z, worth n (Z.of_N z) /\ (Z.of_N z < 2 ^ 64)%Z) ->
  exists c x h', parse_balance grant parse t h = Ok ((c, x), h') /\ holds h' rest /\
  ((x = None /\ exists j n z, parse t = Some j /\ gives j (bs "balance") (JNum n) /\ worth n (Z.of_N z) /\ c = Stored (Some z)) \/
   (x = Some EInvalidParam /\ c = Kept /\ (granted h h' -> forall j n, parse t = Some j -> ~ gives j (bs "balance") (JNum n)))).
Proof.
  intros t h rest X W. unfold parse_balance. destruct (parse_tree_ok t h rest X) as [(b & j & h1 & E & P & L & X1)|(h1 & E & L & X1 & G)]; rewrite (mbind_ok _ _ _ _ _ E).
  2:{ exists Kept, (Some EInvalidParam), h1. split; [reflexivity|]. split; [exact X1|]. right. split; [reflexivity|]. split; [reflexivity|]. intros Q j n P. rewrite (G Q) in P. discriminate. }
  destruct (free_holds _ _ _ X1) as (h2 & E2 & X2 & L2).
  assert (NN : (forall n, jget (bs "balance") j <> Some (JNum n)) -> exists c x h', (let! _ := hfree (Some b) in mret (A := cell N * option err) (Kept, Some EInvalidParam)) h1 = Ok ((c, x), h') /\ holds h' rest /\
    ((x = None /\ exists j n z, parse t = Some j /\ gives j (bs "balance") (JNum n) /\ worth n (Z.of_N z) /\ c = Stored (Some z)) \/
     (x = Some EInvalidParam /\ c = Kept /\ (granted h h' -> forall j n, parse t = Some j -> ~ gives j (bs "balance") (JNum n))))).
  { intros V. rewrite (mbind_ok _ _ _ _ _ E2). exists Kept, (Some EInvalidParam), h2. split; [reflexivity|]. split; [exact X2|]. right. split; [reflexivity|]. split; [reflexivity|].
    intros _ j' n P' Gv. apply jget_gives in Gv. apply (V n). congruence. }
  destruct (jget (bs "balance") j) as [[]|] eqn:J; try (apply NN; discriminate).
  pose proof (proj1 (jget_gives _ _ _) J) as Gv. destruct (W j n P Gv) as (z & Wz & Lz). rewrite (unsigned_worth _ _ _ Wz Lz), (mbind_ok _ _ _ _ _ E2).
  eexists. exists None, h2. split; [reflexivity|]. split; [exact X2|]. left. split; [reflexivity|]. exists j, n, z. auto.
Qed.

(** ** C116 and C117: the other readers *)
(** An answer to a payment. *)
Theorem C117_payment : forall t h rest, holds h rest -> (forall j, parse t = Some j -> fits j (bs "fees_paid") 64) ->
  exists p f x h', parse_payment grant parse t true true h = Ok ((p, f, x), h') /\ holds h' (text_block p ++ rest) /\
  ((x = None /\ exists j, parse t = Some j /\ read_as j (bs "preimage") (granted h h') p /\ read_number j (bs "fees_paid") f) \/
   (x = Some EInvalidParam /\ p = Kept /\ f = Kept /\ (granted h h' -> parse t = None))).
Proof.
  intros t h rest X W. unfold parse_payment. destruct (parse_tree_ok t h rest X) as [(b & j & h1 & E & P & L & X1)|(h1 & E & L & X1 & G)]; rewrite (mbind_ok _ _ _ _ _ E).
  2:{ exists Kept, Kept, (Some EInvalidParam), h1. split; [reflexivity|]. split; [exact X1|]. right. auto. }
  destruct (read_text_ok j (bs "preimage") _ _ X1) as (p & h2 & E2 & L2 & X2 & R2). rewrite (mbind_ok _ _ _ _ _ E2). destruct (read_number_ok 64 j (bs "fees_paid") h2 (W j P)) as (f & E3 & R3). rewrite (mbind_ok _ _ _ _ _ E3).
  apply (holds_perm _ _ (b :: text_block p ++ rest)) in X2; [|cnt]. destruct (free_holds _ _ _ X2) as (h4 & E4 & X4 & L4). rewrite (mbind_ok _ _ _ _ _ E4).
  exists p, f, None, h4. split; [reflexivity|]. split; [exact X4|]. left. split; [reflexivity|]. exists j. split; [exact P|]. split; [|exact R3]. apply (read_as_less _ _ (granted h1 h2)); [|exact R2].
  intros G. apply (granted_less _ _ _ _ _ G); lia.
Qed.
Lemma methods_ok : forall l h rest, holds h rest -> exists cs h', read_methods grant l h = Ok (cs, h') /\ h_next h <= h_next h' /\ holds h' (flat_map text_block cs ++ rest) /\ Forall2 (method_as (granted h h')) l cs.
Proof.
  induction l as [|x l IH]; intros h rest X; cbn [read_methods]; [exists [], h; repeat split; auto; apply X|].
  assert (S1 : exists c h1, (match x with JStr s => let! d := dup grant s in mret (Stored d) | _ => mret Kept end) h = Ok (c, h1) /\ h_next h <= h_next h1 /\ holds h1 (text_block c ++ rest) /\ method_as (granted h h1) x c).
  { destruct x; try (exists Kept, h; repeat split; auto; apply X). destruct (dup_ok s h rest X) as (r & h1 & E & L & X1 & R). rewrite (mbind_ok _ _ _ _ _ E). exists (Stored r), h1. split; [reflexivity|]. split; [exact L|]. split; [exact X1|].
    exists (until_nul s). split; [apply c_text_iff; reflexivity|]. destruct R as [(b & ->)|(-> & N)]; eauto. }
  destruct S1 as (c & h1 & E1 & L1 & X1 & R1). rewrite (mbind_ok _ _ _ _ _ E1). destruct (IH h1 _ X1) as (cs & h2 & E2 & L2 & X2 & R2). rewrite (mbind_ok _ _ _ _ _ E2).
  assert (LESS : forall P Q : Prop, (Q -> P) -> forall y d, method_as P y d -> method_as Q y d).
  { intros P Q I y d. destruct y; cbn [method_as]; auto. intros (u & T & [B|(B & N)]); exists u; split; auto. right. tauto. }
  exists (c :: cs), h2. split; [reflexivity|]. split; [lia|]. split; [cbn [flat_map]; apply (holds_perm _ (flat_map text_block cs ++ text_block c ++ rest)); [cnt|exact X2]|].
  constructor; [apply (LESS _ _ (fun G => granted_less grant h h h1 h2 G (le_n _) L2) x c R1)|].
  eapply Forall2_impl; [|exact R2]. intros y d. apply LESS. intros G. apply (granted_less _ _ _ _ _ G); lia.
Qed.
(** The wallet's description of itself. *)
Theorem C117_info : forall t h rest, holds h rest -> (forall j, parse t = Some j -> fits j (bs "block_height") 32) ->
  exists w x h', parse_info grant parse t h = Ok ((w, x), h') /\ holds h' (winfo_blocks w ++ rest) /\
  ((x = None /\ exists j, parse t = Some j /\ read_as j (bs "alias") (granted h h') (w_alias w) /\ read_as j (bs "color") (granted h h') (w_color w) /\ read_as j (bs "pubkey") (granted h h') (w_pubkey w) /\
      read_as j (bs "network") (granted h h') (w_network w) /\ read_number j (bs "block_height") (w_height w) /\ methods_as j (granted h h') (w_methods w)) \/
   (x = Some EInvalidParam /\ w = no_info /\ (granted h h' -> parse t = None))).
Proof.
  intros t h rest X W. unfold parse_info. destruct (parse_tree_ok t h rest X) as [(b & j & h0 & E & P & L & X0)|(h1 & E & L & X1 & G)]; rewrite (mbind_ok _ _ _ _ _ E).
  2:{ exists no_info, (Some EInvalidParam), h1. split; [reflexivity|]. split; [exact X1|]. right. auto. }
  destruct (read_text_ok j (bs "alias") _ _ X0) as (al & h1 & E1 & L1 & X1 & R1). rewrite (mbind_ok _ _ _ _ _ E1). destruct (read_text_ok j (bs "color") _ _ X1) as (co & h2 & E2 & L2 & X2 & R2). rewrite (mbind_ok _ _ _ _ _ E2).
  destruct (read_text_ok j (bs "pubkey") _ _ X2) as (pk & h3 & E3 & L3 & X3 & R3). rewrite (mbind_ok _ _ _ _ _ E3). destruct (read_text_ok j (bs "network") _ _ X3) as (ne & h4 & E4 & L4 & X4 & R4). rewrite (mbind_ok _ _ _ _ _ E4).
  destruct (read_number_ok 32 j (bs "block_height") h4 (W j P)) as (he & E5 & R5). rewrite (mbind_ok _ _ _ _ _ E5).
  match goal with |- context [mbind ?m _ h4] => assert (S6 : exists me h6, m h4 = Ok (me, h6) /\ h_next h4 <= h_next h6 /\ holds h6 (methods_blocks me ++ text_block ne ++ text_block pk ++ text_block co ++ text_block al ++ b :: rest) /\ methods_as j (granted h4 h6) me) end.
  { destruct (jget (bs "methods") j) as [v|] eqn:J.
    2:{ eexists. exists h4. split; [reflexivity|]. split; [lia|]. split; [exact X4|]. right. split; [|auto]. intros l G. apply jget_gives in G. congruence. }
    destruct v as [| | | |l|]; try (eexists; exists h4; split; [reflexivity|]; split; [lia|]; split; [exact X4|]; right; split; [|auto]; intros k G; apply jget_gives in G; congruence).
    destruct (ealloc_two grant h4 _ X4) as [(q & h5 & E6 & X5 & L5)|(h5 & E6 & X5 & L5 & F)]; rewrite (mbind_ok _ _ _ _ _ E6).
    - destruct (methods_ok l h5 _ X5) as (cs & h6 & E7 & L6 & X6 & R6). rewrite (mbind_ok _ _ _ _ _ E7). eexists. exists h6. split; [reflexivity|]. split; [lia|]. split.
      + unfold methods_blocks. cbn [me_array]. apply (holds_perm _ (flat_map text_block cs ++ q :: text_block ne ++ text_block pk ++ text_block co ++ text_block al ++ b :: rest)); [cnt|exact X6].
      + left. exists l. split; [apply jget_gives, J|]. split; [reflexivity|]. left. exists q, cs. split; [reflexivity|]. eapply Forall2_impl; [|exact R6]. intros y d. destruct y; cbn [method_as]; auto.
        intros (u & T & [B|(B & N)]); exists u; split; auto. right. split; [exact B|]. intros G. apply N. apply (granted_less _ _ _ _ _ G); lia.
    - eexists. exists h5. split; [reflexivity|]. split; [lia|]. split; [exact X5|]. left. exists l. split; [apply jget_gives, J|]. split; [reflexivity|]. right. split; [reflexivity|].
      intros G. apply (not_granted grant h4 h4 h5 F ltac:(lia) ltac:(lia) G). }
  destruct S6 as (me & h6 & E6 & L6 & X6 & R6). rewrite (mbind_ok _ _ _ _ _ E6).
  apply (holds_perm _ _ (b :: methods_blocks me ++ text_block ne ++ text_block pk ++ text_block co ++ text_block al ++ rest)) in X6; [|cnt]. destruct (free_holds _ _ _ X6) as (h7 & E7 & X7 & L7). rewrite (mbind_ok _ _ _ _ _ E7).
  eexists. exists None, h7. split; [reflexivity|]. split.
  { unfold winfo_blocks. cbn [w_alias w_color w_pubkey w_network w_methods]. apply (holds_perm _ (methods_blocks me ++ text_block ne ++ text_block pk ++ text_block co ++ text_block al ++ rest)); [cnt|exact X7]. }
  left. split; [reflexivity|]. exists j. split; [exact P|]. cbn [w_alias w_color w_pubkey w_network w_height w_methods].
  assert (LE : forall a c, h_next h <= h_next a -> h_next c <= h_next h7 -> granted h h7 -> granted a c) by (intros a c A C G; apply (granted_less _ _ _ _ _ G); lia).
  repeat split; try (eapply read_as_less; [|eassumption]; apply LE; lia); [exact R5|].
  destruct R6 as [(l & G & C & [(a & cs & A & F)|(A & N)])|R]; [left|left|right; exact R]; exists l; (split; [exact G|]); (split; [exact C|]).
  - left. exists a, cs. split; [exact A|]. eapply Forall2_impl; [|exact F]. intros y d. destruct y; cbn [method_as]; auto. intros (u & T & [B|(B & N)]); exists u; split; auto. right. split; [exact B|]. intros Q. apply N. apply LE; auto; lia.
  - right. split; [exact A|]. intros Q. apply N. apply LE; auto; lia.
Qed.
Variable print : json -> list N.
Lemma read_tree_ok j k h l : holds h l -> exists c h', read_tree grant print true j k h = Ok (c, h') /\ h_next h <= h_next h' /\ holds h' (text_block c ++ l) /\ read_json print j k (granted h h') c.
Proof.
  intros X. unfold read_tree. destruct (jget k j) as [v|] eqn:J.
  2:{ exists Kept, h. split; [reflexivity|]. split; [lia|]. split; [exact X|]. right. split; [|reflexivity]. intros s G. apply jget_gives in G. congruence. }
  destruct (ealloc_two grant h l X) as [(q & h1 & E & X1 & L1)|(h1 & E & X1 & L1 & F)]; rewrite (mbind_ok _ _ _ _ _ E); cbn [option_map]; eexists; exists h1; (split; [reflexivity|]); (split; [lia|]); (split; [exact X1|]);
    left; exists v; (split; [apply jget_gives, J|]); [left; eauto|right; split; [reflexivity|]].
  intros G. apply (not_granted grant h h h1 F ltac:(lia) ltac:(lia) G).
Qed.
(** The wallet's response, once decrypted to [d]; [print] prints a tree. *)
Theorem C117_response : forall d h rest, holds h (fst d :: rest) ->
  exists ty rs ec em x h', read_response grant parse print d h = Ok ((ty, rs, ec, em, x), h') /\ holds h' (text_block ty ++ text_block rs ++ text_block ec ++ text_block em ++ rest) /\
  ((x = None /\ exists u j, c_text (snd d) u /\ parse u = Some j /\ read_as j (bs "result_type") (granted h h') ty /\ read_json print j (bs "result") (granted h h') rs /\
      ((exists e, gives j (bs "error") e /\ read_as e (bs "code") (granted h h') ec /\ read_as e (bs "message") (granted h h') em) \/ ((forall e, ~ gives j (bs "error") e) /\ ec = Kept /\ em = Kept))) \/
   (x = Some EInvalidParam /\ ty = Kept /\ rs = Kept /\ ec = Kept /\ em = Kept /\ (granted h h' -> forall u, c_text (snd d) u -> parse u = None))).
Proof.
  intros d h rest X. unfold read_response. assert (U : c_text (snd d) (until_nul (snd d))) by (apply c_text_iff; reflexivity).
  destruct (parse_tree_ok (until_nul (snd d)) h _ X) as [(b & j & h0 & E & P & L & X0)|(h1 & E & L & X1 & G)]; rewrite (mbind_ok _ _ _ _ _ E).
  2:{ destruct (free_holds _ _ _ X1) as (h2 & E2 & X2 & L2). rewrite (mbind_ok _ _ _ _ _ E2). exists Kept, Kept, Kept, Kept, (Some EInvalidParam), h2. split; [reflexivity|]. split; [exact X2|]. right. repeat (split; [reflexivity|]).
      intros Q u T. apply c_text_iff in T. subst u. apply G. apply (granted_less _ _ _ _ _ Q); lia. }
  destruct (read_text_ok j (bs "result_type") _ _ X0) as (ty & h1 & E1 & L1 & X1 & R1). rewrite (mbind_ok _ _ _ _ _ E1). destruct (read_tree_ok j (bs "result") _ _ X1) as (rs & h2 & E2 & L2 & X2 & R2). rewrite (mbind_ok _ _ _ _ _ E2).
  match goal with |- context [mbind ?m _ h2] => assert (S3 : exists ec em h3, m h2 = Ok ((ec, em), h3) /\ h_next h2 <= h_next h3 /\ holds h3 (text_block ec ++ text_block em ++ text_block rs ++ text_block ty ++ b :: fst d :: rest) /\
    ((exists e, gives j (bs "error") e /\ read_as e (bs "code") (granted h2 h3) ec /\ read_as e (bs "message") (granted h2 h3) em) \/ ((forall e, ~ gives j (bs "error") e) /\ ec = Kept /\ em = Kept))) end.
  { destruct (jget (bs "error") j) as [e|] eqn:J.
    2:{ exists Kept, Kept, h2. split; [reflexivity|]. split; [lia|]. split; [exact X2|]. right. split; [|auto]. intros e G. apply jget_gives in G. congruence. }
    destruct (read_text_ok e (bs "code") _ _ X2) as (ec & h3 & E3 & L3 & X3 & R3). rewrite (mbind_ok _ _ _ _ _ E3). destruct (read_text_ok e (bs "message") _ _ X3) as (em & h4 & E4 & L4 & X4 & R4). rewrite (mbind_ok _ _ _ _ _ E4).
    exists ec, em, h4. split; [reflexivity|]. split; [lia|]. split; [apply (holds_perm _ (text_block em ++ text_block ec ++ text_block rs ++ text_block ty ++ b :: fst d :: rest)); [cnt|exact X4]|].
    left. exists e. split; [apply jget_gives, J|]. split; (eapply read_as_less; [|eassumption]; intros G; apply (granted_less _ _ _ _ _ G); lia). }
  destruct S3 as (ec & em & h3 & E3 & L3 & X3 & R3). rewrite (mbind_ok _ _ _ _ _ E3).
  apply (holds_perm _ _ (b :: fst d :: text_block ty ++ text_block rs ++ text_block ec ++ text_block em ++ rest)) in X3; [|cnt].
  destruct (free_holds _ _ _ X3) as (h4 & E4 & X4 & L4). rewrite (mbind_ok _ _ _ _ _ E4). destruct (free_holds _ _ _ X4) as (h5 & E5 & X5 & L5). rewrite (mbind_ok _ _ _ _ _ E5). cbn [fst snd].
  assert (LE : forall a c, h_next h <= h_next a -> h_next c <= h_next h5 -> granted h h5 -> granted a c) by (intros a c A C G; apply (granted_less _ _ _ _ _ G); lia).
  exists ty, rs, ec, em, None, h5. split; [reflexivity|]. split; [exact X5|]. left. split; [reflexivity|]. exists (until_nul (snd d)), j. split; [exact U|]. split; [exact P|].
  split; [eapply read_as_less; [|exact R1]; apply LE; lia|]. split.
  - destruct R2 as [(v & G & [B|(B & N)])|R]; [left; exists v; auto|left; exists v; split; [exact G|]; right; split; [exact B|]; intros Q; apply N; apply LE; auto; lia|right; exact R].
  - destruct R3 as [(e & G & A & B)|R]; [left; exists e; split; [exact G|]; split; (eapply read_as_less; [|eassumption]; apply LE; lia)|right; exact R].
Qed.
(** A notification, once decrypted. *)
Theorem C117_notification : forall d h rest, holds h (fst d :: rest) ->
  exists ty no x h', read_notification grant parse print d h = Ok ((ty, no, x), h') /\ holds h' (text_block ty ++ text_block no ++ rest) /\
  ((x = None /\ exists u j, c_text (snd d) u /\ parse u = Some j /\ read_as j (bs "notification_type") (granted h h') ty /\ read_json print j (bs "notification") (granted h h') no) \/
   (x = Some EInvalidParam /\ ty = Kept /\ no = Kept /\ (granted h h' -> forall u, c_text (snd d) u -> parse u = None))).
Proof.
  intros d h rest X. unfold read_notification. assert (U : c_text (snd d) (until_nul (snd d))) by (apply c_text_iff; reflexivity).
  destruct (parse_tree_ok (until_nul (snd d)) h _ X) as [(b & j & h0 & E & P & L & X0)|(h1 & E & L & X1 & G)]; rewrite (mbind_ok _ _ _ _ _ E).
  2:{ destruct (free_holds _ _ _ X1) as (h2 & E2 & X2 & L2). rewrite (mbind_ok _ _ _ _ _ E2). exists Kept, Kept, (Some EInvalidParam), h2. split; [reflexivity|]. split; [exact X2|]. right. repeat (split; [reflexivity|]).
      intros Q u T. apply c_text_iff in T. subst u. apply G. apply (granted_less _ _ _ _ _ Q); lia. }
  destruct (read_text_ok j (bs "notification_type") _ _ X0) as (ty & h1 & E1 & L1 & X1 & R1). rewrite (mbind_ok _ _ _ _ _ E1). destruct (read_tree_ok j (bs "notification") _ _ X1) as (no & h2 & E2 & L2 & X2 & R2). rewrite (mbind_ok _ _ _ _ _ E2).
  apply (holds_perm _ _ (b :: fst d :: text_block ty ++ text_block no ++ rest)) in X2; [|cnt].
  destruct (free_holds _ _ _ X2) as (h4 & E4 & X4 & L4). rewrite (mbind_ok _ _ _ _ _ E4). destruct (free_holds _ _ _ X4) as (h5 & E5 & X5 & L5). rewrite (mbind_ok _ _ _ _ _ E5).
  assert (LE : forall a c, h_next h <= h_next a -> h_next c <= h_next h5 -> granted h h5 -> granted a c) by (intros a c A C G; apply (granted_less _ _ _ _ _ G); lia).
  exists ty, no, None, h5. split; [reflexivity|]. split; [exact X5|]. left. split; [reflexivity|]. exists (until_nul (snd d)), j. split; [exact U|]. split; [exact P|].
  split; [eapply read_as_less; [|exact R1]; apply LE; lia|].
  destruct R2 as [(v & G & [B|(B & N)])|R]; [left; exists v; auto|left; exists v; split; [exact G|]; right; split; [exact B|]; intros Q; apply N; apply LE; auto; lia|right; exact R].
Qed.
End Results.

(** ** Outputs that stay unset *)
(** A payment's answer with both members leaves both variables set. *)
Theorem C116_payment_partial : forall grant parse t h rest p f h' j s n, holds h rest -> fits j (bs "fees_paid") 64 -> parse t = Some j -> gives j (bs "preimage") (JStr s) -> gives j (bs "fees_paid") (JNum n) ->
  parse_payment grant parse t true true h = Ok ((p, f, None), h') -> defined p /\ defined f.
Proof.
  intros grant parse t h rest p f h' j s n X W P G1 G2 E. destruct (C117_payment grant parse t h rest X) as (p' & f' & x & h2 & E' & _ & R). { intros k K. assert (k = j) by congruence. subst k. exact W. }
  rewrite E in E'. injection E' as <- <- <- _. destruct R as [(_ & k & K & A & B)|(D & _)]; [|discriminate]. assert (k = j) by congruence. subst k.
  split; [destruct A as [(u & v & _ & _ & [(b & ->)|(-> & _)])|(A & _)]; [discriminate|discriminate|destruct (A _ G1)]|destruct B as [(m & z & _ & _ & ->)|(B & _)]; [discriminate|destruct (B _ G2)]].
Qed.
(** A description whose methods are strings leaves an array with no unset entry,
    as long as the count, or no array without memory. *)
Theorem C116_methods_partial : forall grant parse t h rest w h' j l, holds h rest -> fits j (bs "block_height") 32 -> parse t = Some j -> gives j (bs "methods") (JArr l) -> Forall (fun x => exists s, x = JStr s) l ->
  parse_info grant parse t h = Ok ((w, None), h') ->
  me_count (w_methods w) = Stored (Some (N.of_nat (length l))) /\ (granted grant h h' -> exists a cs, me_array (w_methods w) = Stored (Some (a, cs)) /\ length cs = length l /\ Forall defined cs).
Proof.
  intros grant parse t h rest w h' j l X W P G1 A E. destruct (C117_info grant parse t h rest X) as (w' & x & h2 & E' & _ & R). { intros k K. assert (k = j) by congruence. subst k. exact W. }
  rewrite E in E'. assert (w' = w /\ x = None /\ h2 = h') as (-> & -> & ->) by (split; [|split]; congruence). destruct R as [(_ & k & K & _ & _ & _ & _ & _ & B)|(D & _)]; [|discriminate]. assert (k = j) by congruence. subst k.
  destruct B as [(l' & G2 & C & D)|(B & _)]; [|destruct (B _ G1)]. assert (l' = l) by (apply jget_gives in G1, G2; congruence). subst l'. split; [exact C|]. intros M. destruct D as [(a & cs & Q & F)|(_ & N)]; [|destruct (N M)].
  exists a, cs. split; [exact Q|]. split; [clear -F; induction F; cbn [length]; congruence|]. clear -F A. induction F as [|x c l cs Y F IH]; [constructor|]. inversion A as [|? ? (s & ->) A']; subst. constructor; [|apply IH, A'].
  destruct Y as (u & _ & [(b & ->)|(-> & _)]); discriminate.
Qed.

(** ** The build without cJSON *)
Lemma beq_firstn sub s : beq (firstn (length sub) s) sub = true <-> exists r, s = sub ++ r.
Proof.
  rewrite beq_eq. split; [intros E; exists (skipn (length sub) s); rewrite <- E at 1; symmetry; apply firstn_skipn|]. intros (r & ->). rewrite firstn_app, Nat.sub_diag, firstn_all. cbn [firstn]. apply app_nil_r.
Qed.
Lemma after_first p : forall pre t r, first_at p t pre r -> after p t = Some r.
Proof.
  induction pre as [|c pre IH]; intros t r (-> & F).
  - destruct (p ++ r) as [|y t'] eqn:Q.
    + destruct p; [|discriminate]. cbn [app] in *. subst r. reflexivity.
    + cbn [app after]. rewrite <- Q. rewrite (proj2 (beq_firstn p (p ++ r)) ltac:(eauto)). f_equal. rewrite skipn_app, skipn_all, Nat.sub_diag. reflexivity.
  - change ((c :: pre) ++ p ++ r) with (c :: (pre ++ p ++ r)) in *. cbn [after]. destruct (beq (firstn (length p) (c :: (pre ++ p ++ r))) p) eqn:B.
    + apply beq_firstn in B as (q & B). specialize (F [] q B). cbn [length] in F. lia.
    + apply IH. split; [reflexivity|]. intros a b E. specialize (F (c :: a) b). cbn [app length] in F. rewrite E in F at 1. specialize (F eq_refl). lia.
Qed.
Lemma after_none p : forall t, after p t = None -> forall a b, t <> a ++ p ++ b.
Proof.
  induction t as [|c t IH]; cbn [after]; intros E a b Q.
  - destruct (beq (firstn (length p) []) p) eqn:B; [discriminate|]. symmetry in Q. apply app_eq_nil in Q as (-> & Q). apply app_eq_nil in Q as (-> & ->). discriminate.
  - destruct (beq (firstn (length p) (c :: t)) p) eqn:B; [discriminate|]. destruct a as [|x a]; cbn [app] in Q.
    + assert (beq (firstn (length p) (c :: t)) p = true) by (apply beq_firstn; eauto). congruence.
    + apply (IH E a b). congruence.
Qed.
(** The first number written as the balance is read; where the key is not written
    out, there is an error. *)
Theorem C115_own_partial : forall t,
  (forall pre n r, (n < 2 ^ 64)%N -> match r with c :: _ => is_digit c = false | [] => True end -> first_at (bs """balance"":") t pre (dec_N n ++ r) -> parse_balance_own t = (Stored (Some n), None)) /\
  ((forall a b, t <> a ++ bs """balance"":" ++ b) <-> parse_balance_own t = (Kept, Some EInvalidParam)).
Proof.
  intros t. unfold parse_balance_own. split.
  - intros pre n r B D F. rewrite (after_first _ _ _ _ F), (strtoul_dec n r B D). reflexivity.
  - destruct (after (bs """balance"":") t) as [r|] eqn:E; split; try discriminate; auto.
    + intros F. exfalso. revert E F. generalize (bs """balance"":"). clear. intros p. revert r. induction t as [|c t IH]; cbn [after]; intros r E F.
      * destruct (beq (firstn (length p) []) p) eqn:B; [|discriminate]. apply beq_firstn in B as (q & B). apply (F [] q B).
      * destruct (beq (firstn (length p) (c :: t)) p) eqn:B; [apply beq_firstn in B as (q & B); apply (F [] q B)|]. apply (IH r E). intros a b Q. apply (F (c :: a) b). cbn [app]. congruence.
    + intros _. apply after_none, E.
Qed.
(** *** What does not hold *)
Notation all := (fun _ : nat => true).
Definition said (k : string) (v : json) : json := JObj [(bs k, v)].
Definition means (j : json) : list N -> option json := fun _ => Some j.
Lemma said_gives k v : gives (said k v) (bs k) v.
Proof. exists [], (bs k), []. split; [reflexivity|]. split; [|intros ? ? []]. apply same_letters_iff. reflexivity. Qed.

(** Not every answer with a balance can be read: a negative one is converted to an
    unsigned integer, which is undefined. *)
Theorem C115_refuted : ~ (forall grant parse t j n h, holds h [] -> parse t = Some j -> gives j (bs "balance") (JNum n) -> exists r h', parse_balance grant parse t h = Ok (r, h')).
Proof.
  intros C. destruct (C all (means (said "balance" (JNum (JFin (-1) 0)))) [] _ _ hempty ltac:(split; [split; constructor|reflexivity]) eq_refl (said_gives _ _)) as (r & h' & E). vm_compute in E. discriminate.
Qed.
(** Nor is what is read the balance: half a unit is zero. *)
Theorem C115_fraction_refuted : ~ (forall grant parse t j n z h h', holds h [] -> parse t = Some j -> gives j (bs "balance") (JNum n) -> parse_balance grant parse t h = Ok ((Stored (Some z), None), h') -> worth n (Z.of_N z)).
Proof.
  intros C. destruct (C all (means (said "balance" (JNum (JFin 1 (-1))))) [] _ _ 0%N hempty (mkHeap 1 []) ltac:(split; [split; constructor|reflexivity]) eq_refl (said_gives _ _) eq_refl) as (m & x & E & _ & F).
  assert (m = 1%Z /\ x = (-1)%Z) as (-> & ->) by (split; congruence). specialize (F eq_refl). discriminate.
Qed.
(** The other build reads the negative balance as a huge one, an unfinished number
    as zero, and a balance inside another member before the answer's own. *)
Theorem C115_own_refuted : parse_balance_own (bs "{""balance"":-1}") = (Stored (Some (2 ^ 64 - 1)%N), None) /\ parse_balance_own (bs "{""balance"":""7""}") = (Stored (Some 0%N), None) /\
  parse_balance_own (bs "{""old"":{""balance"":5},""balance"":7}") = (Stored (Some 5%N), None) /\ parse_balance_own (bs "{""balance"" : 7}") = (Kept, Some EInvalidParam) /\
  parse_balance_own (bs "{""balance"":1e3}") = (Stored (Some 1%N), None).
Proof. vm_compute. auto 6. Qed.
(** An answer that is read without error leaves variables unset. *)
Theorem C116_refuted : ~ (forall grant parse t p f h h', holds h [] -> parse_payment grant parse t true true h = Ok ((p, f, None), h') -> defined p /\ defined f).
Proof.
  intros C. destruct (C all (means (JObj [])) [] Kept Kept hempty (mkHeap 1 []) ltac:(split; [split; constructor|reflexivity]) eq_refl) as (D & _). exact (D eq_refl).
Qed.
(** Entries of the delivered array of methods are unset. *)
Theorem C116_methods_refuted : ~ (forall grant parse t w a cs h h', holds h [] -> parse_info grant parse t h = Ok ((w, None), h') -> me_array (w_methods w) = Stored (Some (a, cs)) -> Forall defined cs).
Proof.
  intros C. pose proof (C all (means (said "methods" (JArr [JStr (bs "pay_invoice"); JNull]))) []) as D.
  specialize (D _ 1 [Stored (Some (2, bs "pay_invoice")); Kept] hempty _ ltac:(split; [split; constructor|reflexivity]) ltac:(vm_compute; reflexivity) eq_refl).
  inversion D as [|? ? _ D']; subst. inversion D' as [|? ? D'' _]; subst. exact (D'' eq_refl).
Qed.
(** Without memory the count is set although there is no array. *)
Theorem C116_count_refuted : ~ (forall grant parse t w n h h', holds h [] -> parse_info grant parse t h = Ok ((w, None), h') -> me_count (w_methods w) = Stored (Some n) -> n <> 0%N -> exists a cs, me_array (w_methods w) = Stored (Some (a, cs))).
Proof.
  intros C. pose proof (C (fun k => k =? 0) (means (said "methods" (JArr [JStr (bs "pay_invoice")]))) []) as D.
  destruct (D _ 1%N hempty _ ltac:(split; [split; constructor|reflexivity]) ltac:(vm_compute; reflexivity) eq_refl ltac:(discriminate)) as (a & cs & E). discriminate.
Qed.

(** ** Cases *)
Definition answer : json := JObj [(bs "preimage", JStr (bs "ab")); (bs "Fees_Paid", JNum (JFin 21 1)); (bs "balance", JNum (JFin 84 (-1)))].
Example C115_meets : exists h', parse_balance all (means answer) [] (mkHeap 3 [1]) = Ok ((Stored (Some 42%N), None), h') /\ h_live h' = [1] /\ gives answer (bs "balance") (JNum (JFin 84 (-1))) /\ worth (JFin 84 (-1)) 42.
Proof.
  eexists. split; [vm_compute; reflexivity|]. split; [reflexivity|]. split; [apply jget_gives; reflexivity|]. exists 84%Z, (-1)%Z. split; [reflexivity|]. split; [lia|reflexivity].
Qed.
Example C115_own_meets : first_at (bs """balance"":") (bs "{""balance"":42,""x"":1}") (bs "{") (dec_N 42 ++ bs ",""x"":1}").
Proof. split; [reflexivity|]. intros [|a l] b E; [discriminate|change (1 <= S (length l)); lia]. Qed.
Example C117_meets : exists b h', parse_payment all (means answer) [] true true (mkHeap 3 [1]) = Ok ((Stored (Some (b, bs "ab")), Stored (Some 42%N), None), h') /\ h_live h' = [b; 1].
Proof. eexists. eexists. vm_compute. auto. Qed.
Example C117_info_meets : exists b h', parse_info (fun k => negb (k =? 4)) (means (JObj [(bs "alias", JStr (bs "w")); (bs "block_height", JNum (JFin 5 2)); (bs "methods", JArr [JStr (bs "a"); JStr (bs "b"); JNull])])) [] (mkHeap 0 []) =
  Ok ((mkWinfo (Stored (Some (1, bs "w"))) Kept Kept Kept (Stored (Some 20%N)) (mkMethods (Stored (Some (b, [Stored (Some (3, bs "a")); Stored None; Kept]))) (Stored (Some 3%N))), None), h') /\ h_live h' = [3; b; 1].
Proof. eexists. eexists. vm_compute. auto. Qed.
Example C117_response_meets : exists b c h', read_response all (means (JObj [(bs "result_type", JStr (bs "pay")); (bs "result", JNull); (bs "error", said "code" (JStr (bs "OTHER")))])) (fun _ => bs "null") (0, []) (mkHeap 1 [0]) =
  Ok ((Stored (Some (b, bs "pay")), Stored (Some (c, bs "null")), Stored (Some (4, bs "OTHER")), Kept, None), h') /\ h_live h' = [4; c; b].
Proof. eexists. eexists. eexists. vm_compute. auto. Qed.

Example C116_meets : exists p f h', parse_payment all (means (JObj [(bs "preimage", JStr (bs "ab")); (bs "fees_paid", JNum (JFin 21 0))])) [] true true hempty = Ok ((p, f, None), h') /\
  defined p /\ defined f.
Proof.
  do 3 eexists. split; [vm_compute; reflexivity|]. split; discriminate.
Qed.

Print Assumptions C115_balance_partial.
Print Assumptions C115_own_partial.
Print Assumptions C115_refuted.
Print Assumptions C115_fraction_refuted.
Print Assumptions C115_own_refuted.
Print Assumptions C116_payment_partial.
Print Assumptions C116_methods_partial.
Print Assumptions C116_refuted.
Print Assumptions C116_methods_refuted.
Print Assumptions C116_count_refuted.
Print Assumptions C117_payment.
Print Assumptions C117_info.
Print Assumptions C117_response.
Print Assumptions C117_notification.
