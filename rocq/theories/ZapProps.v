(** C60-C62 and C96-C99: zaps. *)
From Verif Require Import Base BaseFacts Bech32 Bech32Spec Bech32Proofs Hex HexProofs HexProps Dec Strto Json Event EventProps GiftWrap GiftWrapProps Nip18 Nip18Spec RelayProtoProps Zap ZapSpec.
From Coq Require Import Lia.
Open Scope N_scope.

(** ** LNURL *)
Lemma last_one_none i sep s : ~ In 49 s -> last_one i sep s = sep.
Proof.
  revert i sep. induction s as [|c s IH]; intros i sep H; [reflexivity|]. cbn [last_one].
  destruct (N.eqb_spec c 49) as [->|]; [exfalso; apply H; left; reflexivity|]. apply IH. intros X. apply H. right. exact X.
Qed.
Lemma last_one_app a b : forall i sep, ~ In 49 b -> last_one i sep (a ++ 49 :: b) = (i + length a)%nat.
Proof.
  induction a as [|c a IH]; intros i sep H.
  - cbn [app last_one length]. cbn [N.eqb Pos.eqb]. rewrite last_one_none by exact H. lia.
  - cbn [app last_one length]. rewrite IH by exact H. lia.
Qed.
Lemma split_last s : ~ In 49 s \/ exists a b, s = a ++ 49 :: b /\ ~ In 49 b.
Proof.
  induction s as [|c s IH]; [left; intros []|]. destruct IH as [IH|(a & b & -> & H)].
  - destruct (N.eq_dec c 49) as [->|]; [right; exists [], s; auto|]. left. intros [X|X]; auto.
  - right. exists (c :: a), b. auto.
Qed.
Lemma decode_spec size s :
  ((length s < 8 \/ 90 < length s)%nat /\ decode_bech32 size s = Ok None) \/
  ((8 <= length s <= 90)%nat /\ ~ In 49 s /\ decode_bech32 size s = Ok None) \/
  (exists a b, (8 <= length s <= 90)%nat /\ s = a ++ 49 :: b /\ ~ In 49 b /\
    decode_bech32 size s = if (length a =? 0)%nat || (length b <? 6)%nat then Ok None else if (size <=? length a)%nat then Undef else Ok (Some a)).
Proof.
  unfold decode_bech32. destruct (Nat.ltb_spec (length s) 8); [left; auto|]. destruct (Nat.ltb_spec 90 (length s)); [left; auto|]. cbn [orb].
  right. destruct (split_last s) as [X|(a & b & -> & X)].
  - left. rewrite last_one_none by exact X. auto.
  - right. exists a, b. split; [lia|]. split; [reflexivity|]. split; [exact X|]. rewrite last_one_app by exact X. cbn [Nat.add].
    rewrite app_length in *. cbn [length] in *.
    replace (length a <? 1)%nat with (length a =? 0)%nat by (destruct a; reflexivity).
    replace (length a + S (length b) <? length a + 7)%nat with (length b <? 6)%nat
      by (destruct (Nat.ltb_spec (length b) 6); symmetry; [apply Nat.ltb_lt|apply Nat.ltb_ge]; lia).
    rewrite firstn_app_exact by reflexivity. reflexivity.
Qed.
(** C62: exactly which texts make the validation write outside its buffer. *)
Theorem C62_exact_refuted : forall s, validate_lnurl s = Undef <->
  exists a b, s = bs "lnurl" ++ a ++ bs "1" ++ b /\ ~ In 49 b /\ (27 <= length a)%nat /\ (6 <= length b)%nat /\ (length s <= 90)%nat.
Proof.
  intros s. unfold validate_lnurl. split.
  - destruct (prefixb (bs "lnurl") s) eqn:P; [|discriminate]. cbn [negb]. apply prefixb_spec in P. destruct P as (r & ->).
    destruct (decode_spec 32 (bs "lnurl" ++ r)) as [(L & E)|[(L & N & E)|(a & b & L & EQ & N & E)]]; rewrite E; try discriminate.
    destruct ((length a =? 0)%nat || (length b <? 6)%nat) eqn:C; [discriminate|]. apply orb_false_iff in C. destruct C as (C1 & C2).
    apply Nat.eqb_neq in C1. apply Nat.ltb_ge in C2.
    destruct (Nat.leb_spec 32 (length a)) as [G|G]; [|cbn [bind]; destruct (beq a (bs "lnurl")); discriminate]. intros _.
    assert (A : a = bs "lnurl" ++ skipn 5 a).
    { rewrite <- (firstn_skipn 5 a) at 1. f_equal. assert (X : firstn 5 (bs "lnurl" ++ r) = firstn 5 (a ++ 49 :: b)) by (f_equal; exact EQ).
      rewrite (firstn_app 5 a) in X. replace (5 - length a)%nat with 0%nat in X by lia. change (firstn 0 (49 :: b)) with (@nil BinNums.N) in X. rewrite app_nil_r in X.
      rewrite <- X. reflexivity. }
    exists (skipn 5 a), b. split; [rewrite EQ, A at 1; rewrite <- app_assoc; reflexivity|]. split; [exact N|].
    rewrite skipn_length. lia.
  - intros (a & b & -> & N & LA & LB & LL). rewrite prefixb_app. cbn [negb].
    destruct (decode_spec 32 (bs "lnurl" ++ a ++ bs "1" ++ b)) as [(L & E)|[(L & X & E)|(a' & b' & L & EQ & X & E)]].
    + rewrite !app_length in *. cbn [length bs app] in *. change (length (bs "lnurl")) with 5%nat in *. lia.
    + exfalso. apply X. rewrite !in_app_iff. right. right. left. left. reflexivity.
    + assert (Z : bs "lnurl" ++ a = a' /\ b = b').
      { rewrite app_assoc in EQ. change (bs "1" ++ b) with (49 :: b) in EQ. revert EQ. generalize (bs "lnurl" ++ a) as u.
        intros u. clear - N X. revert a'. induction u as [|c u IH]; intros a' EQ.
        - destruct a' as [|c' a']; [cbn [app] in EQ; split; congruence|]. exfalso. cbn [app] in EQ. assert (b = a' ++ 49 :: b') by congruence.
          apply N. subst b. apply in_elt.
        - destruct a' as [|c' a']; cbn [app] in EQ.
          + exfalso. assert (b' = u ++ 49 :: b) by congruence. apply X. subst b'. apply in_elt.
          + destruct (IH a') as (-> & ->); [congruence|]. split; congruence. }
      destruct Z as (<- & <-). rewrite E. rewrite app_length. change (length (bs "lnurl")) with 5%nat.
      rewrite (proj2 (Nat.eqb_neq _ _)) by lia. rewrite (proj2 (Nat.ltb_ge _ _)) by lia. cbn [orb].
      rewrite (proj2 (Nat.leb_le _ _)) by lia. reflexivity.
Qed.
Theorem C62_refuted : ~ (forall s, validate_lnurl s <> Undef).
Proof.
  intros H. apply (H (bs "lnurl" ++ repeat 113 27 ++ bs "1" ++ repeat 113 6)). apply C62_exact_refuted.
  exists (repeat 113 27), (repeat 113 6). split; [reflexivity|]. cbn [length repeat]. split; [cbn; intuition discriminate|]. cbn. lia.
Qed.
(** What holds: a text whose last separator is among the first 32 characters. *)
Theorem C62_early_partial : forall a b, (length a <= 31)%nat -> ~ In 49 b -> validate_lnurl (a ++ b) <> Undef.
Proof.
  intros a b L N X. apply C62_exact_refuted in X. destruct X as (a' & b' & E & N' & LA & LB & LL).
  assert (length (a ++ b) = length (bs "lnurl" ++ a' ++ bs "1" ++ b')) by (f_equal; exact E).
  assert (Z : nth_error (a ++ b) (5 + length a') = Some 49).
  { rewrite E. rewrite nth_error_app2 by (cbn; lia). change (length (bs "lnurl")) with 5%nat. replace (5 + length a' - 5)%nat with (length a') by lia.
    rewrite nth_error_app2 by lia. rewrite Nat.sub_diag. reflexivity. }
  rewrite nth_error_app2 in Z by lia. apply nth_error_In in Z. contradiction.
Qed.
Example C62_meets : (length (bs "lnurl1") <= 31)%nat /\ ~ In 49 (bs "dp68gurn8ghj7") /\ validate_lnurl (bs "lnurl1" ++ bs "dp68gurn8ghj7") = Ok tt.
Proof. split; [cbn; lia|]. split; [cbn; intuition discriminate|vm_compute; reflexivity]. Qed.

(** C97: exactly which texts are accepted: no checksum, no alphabet. *)
Theorem C97_exact : forall s, validate_lnurl s = Ok tt <->
  exists d, s = bs "lnurl1" ++ d /\ ~ In 49 d /\ (6 <= length d <= 84)%nat.
Proof.
  intros s. unfold validate_lnurl. split.
  - destruct (prefixb (bs "lnurl") s) eqn:P; [|discriminate]. cbn [negb]. 
    destruct (decode_spec 32 s) as [(L & E)|[(L & N & E)|(a & b & L & EQ & N & E)]]; rewrite E; try discriminate.
    destruct ((length a =? 0)%nat || (length b <? 6)%nat) eqn:C; [discriminate|]. apply orb_false_iff in C. destruct C as (C1 & C2). apply Nat.ltb_ge in C2.
    destruct (32 <=? length a)%nat; [discriminate|]. cbn [bind]. destruct (beq a (bs "lnurl")) eqn:B; [|discriminate]. apply beq_eq in B. subst a s.
    intros _. exists b. split; [reflexivity|]. split; [exact N|]. rewrite app_length in L. cbn in L. lia.
  - intros (d & -> & N & L). assert (P : prefixb (bs "lnurl") (bs "lnurl1" ++ d) = true) by (change (bs "lnurl1" ++ d) with (bs "lnurl" ++ bs "1" ++ d); apply prefixb_app).
    rewrite P. cbn [negb]. unfold decode_bech32. rewrite app_length. change (length (bs "lnurl1")) with 6%nat.
    rewrite (proj2 (Nat.ltb_ge _ _)), (proj2 (Nat.ltb_ge _ _)) by lia. cbn [orb]. change (bs "lnurl1" ++ d) with (bs "lnurl" ++ 49 :: d).
    rewrite (last_one_app (bs "lnurl") d 0 0 N). cbn [Nat.add]. change (length (bs "lnurl")) with 5%nat.
    rewrite (proj2 (Nat.ltb_ge _ 12)) by lia. cbn [Nat.ltb Nat.leb orb bind]. rewrite firstn_app_exact by reflexivity. reflexivity.
Qed.
(** The LNURL of an address, by the library's own bech32 encoder *)
Definition lnurl_of (url s : list N) : Prop :=
  encode_out (bs "lnurl") (convert_bits url 4096 8 5 true) 4096 = Ok s.
Theorem C97_refuted : ~ (forall url s, lnurl_of url s -> validate_lnurl s = Ok tt).
Proof.
  intros H. destruct (encode_out (bs "lnurl") (convert_bits (repeat 97 50) 4096 8 5 true) 4096) as [s| |] eqn:E; try (vm_compute in E; discriminate).
  pose proof (H (repeat 97 50) s E) as X. assert (Z : s = match encode_out (bs "lnurl") (convert_bits (repeat 97 50) 4096 8 5 true) 4096 with Ok t => t | _ => [] end) by (rewrite E; reflexivity).
  clear E. vm_compute in Z. subst s. vm_compute in X. discriminate.
Qed.
Theorem C97_checksum_refuted : ~ (forall s s', validate_lnurl s = Ok tt -> validate_lnurl s' = Ok tt -> length s = length s' -> (1 <= hamming s s' <= 4)%nat -> False).
Proof.
  intros H. apply (H (bs "lnurl1qqqqqqq") (bs "lnurl1qqqqqqb")); vm_compute; try reflexivity. split; repeat constructor.
Qed.
(** Which refusal means what: not an lnurl at all, or not of the form of one. *)
Theorem C97_codes : forall s x, validate_lnurl s = Err x ->
  (x = EInvalidParam /\ ((forall r, s <> bs "lnurl" ++ r) \/ exists a b, s = bs "lnurl" ++ a ++ bs "1" ++ b /\ a <> [] /\ ~ In 49 b /\ (6 <= length b)%nat)) \/
  (x = EEncoding /\ (exists r, s = bs "lnurl" ++ r) /\ ((length s < 8 \/ 90 < length s)%nat \/ ~ In 49 s \/ exists a b, s = a ++ bs "1" ++ b /\ (length b < 6)%nat)).
Proof.
  intros s x. unfold validate_lnurl. destruct (prefixb (bs "lnurl") s) eqn:P; cbn [negb].
  2:{ intros E. left. split; [congruence|]. left. intros r ->. rewrite prefixb_app in P. discriminate. }
  apply prefixb_spec in P. destruct P as (r & ->).
  destruct (decode_spec 32 (bs "lnurl" ++ r)) as [(L & E)|[(L & NI & E)|(a & b & L & EQ & NI & E)]]; rewrite E; cbn [bind].
  - intros Q. right. split; [congruence|]. split; [exists r; reflexivity|]. left. exact L.
  - intros Q. right. split; [congruence|]. split; [exists r; reflexivity|]. auto.
  - destruct (Nat.eqb_spec (length a) 0) as [Z|NZ]; cbn [orb].
    { destruct a; [|discriminate Z]. discriminate EQ. }
    destruct (Nat.ltb_spec (length b) 6) as [LB|LB]; cbn [bind].
    + intros Q. right. split; [congruence|]. split; [exists r; reflexivity|]. right. right. exists a, b. auto.
    + destruct (32 <=? length a)%nat; [discriminate|]. cbn [bind]. destruct (beq a (bs "lnurl")) eqn:BE; [discriminate|]. intros Q. left. split; [congruence|]. right.
      assert (LA : (5 <= length a)%nat).
      { destruct (Nat.le_gt_cases 5 (length a)) as [G|G]; [exact G|]. exfalso. assert (Q2 : nth_error (bs "lnurl" ++ r) (length a) = Some 49).
        { rewrite EQ, nth_error_app2, Nat.sub_diag by lia. reflexivity. }
        rewrite nth_error_app1 in Q2 by (cbn; lia). apply nth_error_In in Q2. cbn in Q2. intuition discriminate. }
      assert (A : a = bs "lnurl" ++ skipn 5 a).
      { rewrite <- (firstn_skipn 5 a) at 1. f_equal. assert (F : firstn 5 (bs "lnurl" ++ r) = firstn 5 (a ++ 49 :: b)) by (rewrite EQ; reflexivity).
        rewrite firstn_app in F. replace (5 - length (bs "lnurl"))%nat with 0%nat in F by reflexivity. rewrite firstn_app in F. replace (5 - length a)%nat with 0%nat in F by lia. rewrite !firstn_O, !app_nil_r in F. symmetry. exact F. }
      exists (skipn 5 a), b. split; [rewrite app_assoc, <- A; exact EQ|]. split; [|auto]. intros Z. rewrite A, Z, app_nil_r, beq_refl in BE. discriminate.
Qed.
(** What holds: an LNURL of at most 90 characters is accepted. *)
Theorem C97_short_partial : forall url s, lnurl_of url s -> (length s <= 90)%nat -> validate_lnurl s = Ok tt.
Proof.
  intros url s H L. unfold lnurl_of, encode_out in H. set (data := convert_bits url 4096 8 5 true) in *. clearbody data.
  destruct (create_checksum (bs "lnurl") data) as [ck|] eqn:C; [|discriminate]. cbv zeta in H. destruct (_ <=? _)%nat; [|discriminate].
  assert (E : s = bs "lnurl1" ++ map charset_get data ++ map charset_get ck) by (change (bs "lnurl1" ++ map charset_get data ++ map charset_get ck) with (bs "lnurl" ++ [49] ++ map charset_get data ++ map charset_get ck); congruence).
  clear H. subst s. destruct (create_checksum_digits _ _ _ C) as [_ LC]. apply C97_exact. eexists. split; [reflexivity|]. split.
  - rewrite <- map_app. intros I. apply in_map_iff in I. destruct I as (v & E & _). unfold charset_get in E.
    destruct (nth_in_or_default (N.to_nat v) charset 0) as [Hn|Hn]; [|rewrite Hn in E; discriminate]. rewrite E in Hn. cbn in Hn. intuition discriminate.
  - rewrite !app_length, !map_length in *. change (length (bs "lnurl1")) with 6%nat in L. lia.
Qed.
Example C97_meets : exists s, lnurl_of (bs "https://a.io/l") s /\ (length s <= 90)%nat.
Proof. eexists. split; [vm_compute; reflexivity|]. cbn. lia. Qed.

(** ** Amounts *)
Lemma letter_stop m data : m <> Whole -> exists c r, letter m ++ bs "1" ++ data = c :: r /\ is_digit c = false /\ tolower c = c /\ [c] = letter m.
Proof. destruct m; intros H; [congruence| | | |]; eexists; eexists; (split; [reflexivity|split; [reflexivity|split; reflexivity]]). Qed.
(** C61: with a multiplier the amount is read exactly, up to more than all
    bitcoin for m, u and n and to 2^64 pico-bitcoin for p. *)
Theorem C61_multiplier_partial : forall n m s v, invoice n m s -> m <> Whole -> msat n m v -> v <= all_bitcoin -> n < 2 ^ 64 ->
  invoice_amount s = Some v.
Proof.
  intros n m s v (P & data & _ & ->) M V A B. unfold invoice_amount.
  assert (E : strstr (bs "lnbc") (bs "lnbc" ++ dec_N n ++ letter m ++ bs "1" ++ data) = Some (bs "lnbc" ++ dec_N n ++ letter m ++ bs "1" ++ data)) by reflexivity.
  rewrite E. clear E. change (skipn 4 (bs "lnbc" ++ dec_N n ++ letter m ++ bs "1" ++ data)) with (dec_N n ++ letter m ++ bs "1" ++ data).
  destruct (letter_stop m data M) as (c & r & E & D & T & LT). rewrite E. cbv zeta.
  rewrite (strtoul_dec n (c :: r)) by (exact B || exact D). rewrite app_length.
  pose proof (dec_nonempty n) as NE. destruct (dec_N n) as [|d0 ds]; [congruence|]. cbn [length Nat.add].
  rewrite (proj2 (Nat.ltb_lt _ _)) by lia. f_equal. rewrite T. unfold all_bitcoin in A.
  destruct m; cbn [letter] in LT; try congruence; cbn [bs] in LT; cbn in LT; injection LT as ->; cbn [N.eqb Pos.eqb]; cbn [msat] in V; subst.
  - unfold wrap64. apply N.mod_small. change (10 ^ 8) with 100000000 in A. change (21 * 10 ^ 17) with 2100000000000000000 in A. lia.
  - unfold wrap64. apply N.mod_small. change (10 ^ 5) with 100000 in A. change (21 * 10 ^ 17) with 2100000000000000000 in A. lia.
  - unfold wrap64. apply N.mod_small. change (10 ^ 2) with 100 in A. change (21 * 10 ^ 17) with 2100000000000000000 in A. lia.
  - apply N.div_mul. discriminate.
Qed.
Example C61_meets : invoice 20 Micro (bs "lnbc20u1p3unwfusp5t9r3yymhpfqculx78u027lxspgxcr2n2987mx2j55nnfs95nxnzq") /\ msat 20 Micro 2000000 /\ 2000000 <= all_bitcoin.
Proof.
  split; [|split; [reflexivity|vm_compute; discriminate]]. split; [reflexivity|]. eexists. split; [|reflexivity].
  apply Forall_forall. intros c I. cbn in I. unfold data_char. repeat destruct I as [<-|I]; try contradiction; vm_compute; repeat (first [left; reflexivity|right]).
Qed.
Lemma stands_small m rest : m <> Whole -> stands_for m rest -> exists c r, rest = c :: r /\ [tolower c] = letter m.
Proof.
  intros W ST. assert (X : exists c r, rest = c :: r /\ (letter m = [c] \/ 65 <= c <= 90 /\ letter m = [c + 32])) by (destruct m; [congruence|exact ST..]).
  destruct X as (c & r & -> & LT). exists c, r. split; [reflexivity|]. unfold tolower. destruct LT as [LT|(U & LT)]; rewrite LT.
  - destruct m; [congruence|..]; cbn in LT; injection LT as <-; reflexivity.
  - rewrite (proj2 (N.leb_le _ _)), (proj2 (N.leb_le _ _)) by apply U. reflexivity.
Qed.
(** Exactly what is read for every number and whatever follows it: capitals count
    as small letters, and large amounts lose their upper bits. *)
Theorem C61_reads : forall n m rest, n < 2 ^ 64 -> match rest with c :: _ => is_digit c = false | [] => True end -> stands_for m rest ->
  exists v, invoice_amount (bs "lnbc" ++ dec_N n ++ rest) = Some v /\ amount64 n m v.
Proof.
  intros n m rest B D ST. unfold invoice_amount.
  assert (E : strstr (bs "lnbc") (bs "lnbc" ++ dec_N n ++ rest) = Some (bs "lnbc" ++ dec_N n ++ rest)) by reflexivity.
  rewrite E. clear E. change (skipn 4 (bs "lnbc" ++ dec_N n ++ rest)) with (dec_N n ++ rest). cbv zeta.
  rewrite (strtoul_dec n rest) by (exact B || (destruct rest; exact D)). rewrite app_length.
  pose proof (dec_nonempty n) as NE. destruct (dec_N n) as [|d0 ds]; [congruence|]. cbn [length Nat.add].
  rewrite (proj2 (Nat.ltb_lt _ _)) by lia. eexists. split; [reflexivity|].
  change (2 ^ 64) with 18446744073709551616. unfold amount64, wrap64.
  destruct m.
  2-5: apply stands_small in ST; [|discriminate]; destruct ST as (c & r & -> & TL); apply (f_equal (hd 0)) in TL; cbn [hd] in TL;
    match type of TL with _ = ?h => let v := eval vm_compute in h in change h with v in TL end; rewrite TL; cbn [N.eqb Pos.eqb].
  - assert (X : forall k, In k [109; 117; 110; 112] -> tolower (match rest with c :: _ => c | [] => 0 end) <> k).
    { intros k I Q. destruct rest as [|c r]; [cbn in I, Q; subst k; intuition discriminate|]. apply ST. unfold tolower in Q.
      destruct ((65 <=? c) && (c <=? 90)) eqn:R; cbn in I.
      - cbn. destruct I as [<-|[<-|[<-|[<-|[]]]]]; [assert (c = 77) by lia|assert (c = 85) by lia|assert (c = 78) by lia|assert (c = 80) by lia]; subst c; tauto.
      - subst c. cbn. intuition. }
    rewrite !(proj2 (N.eqb_neq _ _)) by (apply X; cbn; tauto). eexists. split; [reflexivity|reflexivity].
  - eexists. split; reflexivity.
  - eexists. split; reflexivity.
  - eexists. split; reflexivity.
  - pose proof (N.div_mod n 10 ltac:(discriminate)) as DM. pose proof (N.mod_lt n 10 ltac:(discriminate)) as ML. set (q := n / 10) in *. set (r0 := n mod 10) in *. clearbody q r0. lia.
Qed.
Example C61_reads_meets : stands_for Milli (bs "M1") /\ invoice_amount (bs "lnbc25M1") = Some 2500000000 /\ stands_for Whole [] /\ invoice_amount (bs "lnbc3") = Some 300000000000.
Proof.
  split; [exists 77, (bs "1"); split; [reflexivity|]; right; split; [split; discriminate|reflexivity]|]. split; [vm_compute; reflexivity|]. split; [exact I|vm_compute; reflexivity].
Qed.
(** C61 fails above 2^64 millisatoshi. *)
Theorem C61_huge_refuted : ~ (forall n m s v, invoice n m s -> m <> Whole -> msat n m v -> n < 2 ^ 64 -> invoice_amount s = Some v).
Proof.
  intros H. assert (X : invoice_amount (bs "lnbc" ++ dec_N 184467440738 ++ bs "m1") = Some 18446744073800000000).
  { apply (H 184467440738 Milli _ _); [|discriminate|reflexivity|reflexivity]. split; [reflexivity|]. exists []. split; [constructor|reflexivity]. }
  vm_compute in X. discriminate X.
Qed.
Lemma strtoul_digits ds c r : ds <> [] -> Forall (fun c => is_digit c = true) ds -> undec ds < 2 ^ 64 -> is_digit c = false ->
  strtoul (ds ++ c :: r) = (undec ds, c :: r).
Proof.
  intros NE F B C. destruct ds as [|d0 ds]; [congruence|]. assert (D0 : is_digit d0 = true) by (inversion F; assumption).
  destruct (digit_not_space d0 D0) as (S1 & S2 & S3). unfold strtoul, scan_int. cbn [app skip_space]. rewrite S1. cbn [scan_sign]. rewrite S2, S3.
  change (d0 :: ds ++ c :: r) with ((d0 :: ds) ++ c :: r). rewrite (span_digits_app (d0 :: ds) (c :: r) F C).
  rewrite (proj2 (N.ltb_ge _ _)); [reflexivity|]. change (2 ^ 64) with 18446744073709551616 in B. lia.
Qed.
(** C61 fails without a multiplier: the separator is read as a digit, and for
    every invoice dated 2004 to 2037 (data part starting with p) the result is
    the number of bitcoin taken as millisatoshi. *)
Theorem C61_whole_refuted : forall n data, 0 < n -> 10 * n + 1 < 2 ^ 64 ->
  invoice_amount (bs "lnbc" ++ dec_N n ++ bs "1p" ++ data) = Some n /\ ~ msat n Whole n.
Proof.
  intros n data P B. split; [|cbn [msat]; change (10 ^ 11) with 100000000000; lia]. unfold invoice_amount.
  assert (E : strstr (bs "lnbc") (bs "lnbc" ++ dec_N n ++ bs "1p" ++ data) = Some (bs "lnbc" ++ dec_N n ++ bs "1p" ++ data)) by reflexivity.
  rewrite E. clear E. change (skipn 4 (bs "lnbc" ++ dec_N n ++ bs "1p" ++ data)) with (dec_N n ++ [49] ++ 112 :: data). rewrite app_assoc.
  assert (U : undec (dec_N n ++ [49]) = 10 * n + 1).
  { unfold undec. rewrite undec_from_app. fold (undec (dec_N n)). rewrite undec_dec. cbn [undec_from fold_left]. lia. }
  cbv zeta. rewrite (strtoul_digits (dec_N n ++ [49]) 112 data); [|destruct (dec_N n); discriminate| |rewrite U; exact B|reflexivity].
  2:{ apply Forall_app. split; [apply dec_is_digits|repeat constructor]. }
  rewrite U, app_length, app_length. rewrite (proj2 (Nat.ltb_lt _ _)) by (cbn [length]; lia). f_equal.
  change (tolower 112) with 112. cbn [N.eqb Pos.eqb]. rewrite N.mul_comm, N.div_add_l by discriminate. change (1 / 10) with 0. lia.
Qed.
Theorem C61_refuted : ~ (forall n m s v, invoice n m s -> msat n m v -> v <= all_bitcoin -> invoice_amount s = Some v).
Proof.
  intros H. destruct (C61_whole_refuted 5 (bs "vjluez")) as (A & _); [reflexivity|reflexivity|].
  assert (X : invoice_amount (bs "lnbc" ++ dec_N 5 ++ bs "1p" ++ bs "vjluez") = Some 500000000000).
  { apply (H 5 Whole _ 500000000000); [|reflexivity|vm_compute; discriminate]. split; [reflexivity|]. exists (bs "pvjluez"). split; [|reflexivity].
    apply Forall_forall. intros c I. cbn in I. unfold data_char. repeat destruct I as [<-|I]; try contradiction; vm_compute; repeat (first [left; reflexivity|right]). }
  congruence.
Qed.
(** An invoice that leaves the amount open reads as 0 until 2037, as one
    bitcoin from then on. *)
Theorem C61_open : forall data, invoice_amount (bs "lnbc1p" ++ data) = Some 0.
Proof.
  intros data. unfold invoice_amount. assert (E : strstr (bs "lnbc") (bs "lnbc1p" ++ data) = Some (bs "lnbc1p" ++ data)) by reflexivity.
  rewrite E. change (skipn 4 (bs "lnbc1p" ++ data)) with ([49] ++ 112 :: data). cbv zeta.
  rewrite (strtoul_digits [49] 112 data); [|discriminate|repeat constructor|reflexivity|reflexivity].
  rewrite app_length. rewrite (proj2 (Nat.ltb_lt _ _)) by (cbn [length]; lia). reflexivity.
Qed.
Theorem C61_open_refuted : ~ (forall s, open_invoice s -> invoice_amount s = None \/ invoice_amount s = Some 0).
Proof.
  intros H. destruct (H (bs "lnbc1zqqqqqq")) as [X|X]; [|vm_compute in X; discriminate..].
  exists (bs "zqqqqqq"). split; [|reflexivity]. apply Forall_forall. intros c I. cbn in I. unfold data_char.
  repeat destruct I as [<-|I]; try contradiction; vm_compute; repeat (first [left; reflexivity|right]).
Qed.
(** Capitals, which invoices may use, are not recognised. *)
Example C61_capitals : invoice_amount (bs "LNBC20U1P3UNWFUSP5T9R3YY") = None.
Proof. vm_compute. reflexivity. Qed.

(** ** Receipts *)
Lemma named_dec name t : {named name t} + {~ named name t}.
Proof.
  destruct t as [|x [|v r]]; [right; intros (? & ? & ?); discriminate..|]. destruct (list_eq_dec N.eq_dec x name) as [->|E].
  - left. exists v, r. reflexivity.
  - right. intros (? & ? & ?). congruence.
Qed.
Lemma last_cons name v t ts : last_is name v (t :: ts) <-> last_is name v ts \/ ((exists r, t = name :: v :: r) /\ Forall (fun t => ~ named name t) ts).
Proof.
  split.
  - intros (a & r & b & E & F). destruct a as [|t' a]; cbn [app] in E.
    + right. split; [exists r; congruence|]. assert (ts = b) by congruence. subst. exact F.
    + left. exists a, r, b. split; [congruence|exact F].
  - intros [(a & r & b & -> & F)|((r & ->) & F)]; [exists (t :: a), r, b; auto|exists [], r, ts; auto].
Qed.
Lemma last_or name ts : Forall (fun t => ~ named name t) ts \/ exists v, last_is name v ts.
Proof.
  induction ts as [|t ts IH]; [left; constructor|]. destruct IH as [F|(v & L)]; [|right; exists v; apply last_cons; auto].
  destruct (named_dec name t) as [(v & r & ->)|X]; [|left; constructor; assumption]. right. exists v. apply last_cons. right. eauto.
Qed.
Lemma last_fun name v w ts : last_is name v ts -> last_is name w ts -> v = w.
Proof.
  induction ts as [|t ts IH]; intros A B; [destruct A as ([|] & ? & ? & ? & _); discriminate|].
  apply last_cons in A, B. destruct A as [A|((r & ->) & F)], B as [B|((r' & E') & F')].
  - apply IH; assumption.
  - exfalso. destruct A as (a & x & b & -> & _). apply Forall_app in F'. destruct F' as (_ & F'). inversion F' as [|? ? G _]; subst. apply G. exists v, x. reflexivity.
  - exfalso. destruct B as (a & x & b & -> & _). apply Forall_app in F. destruct F as (_ & F). inversion F as [|? ? G _]; subst. apply G. exists w, x. reflexivity.
  - congruence.
Qed.
Lemma none_last name ts v : Forall (fun t => ~ named name t) ts -> ~ last_is name v ts.
Proof. intros F (a & r & b & -> & _). apply Forall_app in F. destruct F as (_ & F). inversion F as [|? ? G _]; subst. apply G. exists v, r. reflexivity. Qed.
Lemma has_cons name v t ts : has_value name v (t :: ts) <-> (exists r, t = name :: v :: r) \/ has_value name v ts.
Proof.
  unfold has_value. split.
  - intros (r & [E|I]); [left; eauto|right; eauto].
  - intros [(r & ->)|(r & I)]; exists r; [left; reflexivity|right; exact I].
Qed.
Lemma last_has name v ts : last_is name v ts -> has_value name v ts.
Proof. intros (a & r & b & -> & _). exists r. apply in_elt. Qed.
(** What a tag is to the loop. *)
Lemma tag_cases t : named (bs "bolt11") t \/ named (bs "preimage") t \/ named (bs "description") t \/
  (~ named (bs "bolt11") t /\ ~ named (bs "preimage") t /\ ~ named (bs "description") t).
Proof.
  destruct (named_dec (bs "bolt11") t); [auto|]. destruct (named_dec (bs "preimage") t); [auto|]. destruct (named_dec (bs "description") t); tauto.
Qed.
Lemma other_names a b t : a <> b -> named a t -> ~ named b t.
Proof. intros N (v & r & ->) (w & q & E). congruence. Qed.

Section Receipts.
Variable lim : option ev_limits.
Variable parse : list N -> option json.
Variable mem : nat -> bool.
Notation reads := (event_from_json parse lim).

Lemma tag_other w st t : ~ named (bs "bolt11") t -> ~ named (bs "preimage") t -> ~ named (bs "description") t -> receipt_tag lim parse mem w st t = (st, Ok tt).
Proof.
  intros A B C. destruct t as [|name [|v r]]; [reflexivity..|]. cbn [receipt_tag].
  assert (X : forall n, ~ named n (name :: v :: r) -> beq name n = false) by (intros n H; apply beq_neq; intros ->; apply H; exists v, r; reflexivity).
  rewrite (X _ A), (X _ B), (X _ C). reflexivity.
Qed.
(** The loop without a preimage buffer, when it ends well. *)
Lemma tags_ok w : w_bolt w = true -> w_req w = true -> w_pre w = None -> forall ts st st', receipt_tags lim parse mem w st ts = (st', Ok tt) ->
  (forall v, has_value (bs "description") v ts -> exists e, reads v = Ok e) /\
  (forall v, last_is (bs "bolt11") v ts -> exists b, rc_bolt st' = SBlock b v) /\
  (Forall (fun t => ~ named (bs "bolt11") t) ts -> rc_bolt st' = rc_bolt st) /\
  (forall v, last_is (bs "description") v ts -> exists b e, reads v = Ok e /\ rc_req st' = SBlock b e) /\
  (Forall (fun t => ~ named (bs "description") t) ts -> rc_req st' = rc_req st).
Proof.
  intros WB WR WP. induction ts as [|t ts IH]; intros st st' H.
  - cbn [receipt_tags] in H. assert (st' = st) by congruence. subst st'. split; [intros v (r & [])|]. split; [intros v (a & ? & ? & E & _); destruct a; discriminate|].
    split; [reflexivity|]. split; [intros v (a & ? & ? & E & _); destruct a; discriminate|reflexivity].
  - cbn [receipt_tags] in H.
    assert (N1 : bs "bolt11" <> bs "preimage") by discriminate. assert (N2 : bs "bolt11" <> bs "description") by discriminate. assert (N3 : bs "preimage" <> bs "description") by discriminate.
    assert (GEN : forall st1, receipt_tag lim parse mem w st t = (st1, Ok tt) ->
      (forall v, (exists r, t = bs "description" :: v :: r) -> exists e, reads v = Ok e) ->
      (forall v, (exists r, t = bs "bolt11" :: v :: r) -> exists b, rc_bolt st1 = SBlock b v) ->
      (~ named (bs "bolt11") t -> rc_bolt st1 = rc_bolt st) ->
      (forall v, (exists r, t = bs "description" :: v :: r) -> exists b e, reads v = Ok e /\ rc_req st1 = SBlock b e) ->
      (~ named (bs "description") t -> rc_req st1 = rc_req st) -> 
      (forall v, has_value (bs "description") v (t :: ts) -> exists e, reads v = Ok e) /\
      (forall v, last_is (bs "bolt11") v (t :: ts) -> exists b, rc_bolt st' = SBlock b v) /\
      (Forall (fun t => ~ named (bs "bolt11") t) (t :: ts) -> rc_bolt st' = rc_bolt st) /\
      (forall v, last_is (bs "description") v (t :: ts) -> exists b e, reads v = Ok e /\ rc_req st' = SBlock b e) /\
      (Forall (fun t => ~ named (bs "description") t) (t :: ts) -> rc_req st' = rc_req st)).
    { intros st1 E A B C D F. rewrite E in H. destruct (IH _ _ H) as (I1 & I2 & I3 & I4 & I5).
      split; [intros v X; apply has_cons in X; destruct X; auto|].
      split; [intros v X; apply last_cons in X; destruct X as [X|(X & Y)]; [auto|rewrite (I3 Y); auto]|].
      split; [intros X; inversion X; subst; rewrite I3 by assumption; auto|].
      split; [intros v X; apply last_cons in X; destruct X as [X|(X & Y)]; [auto|rewrite (I5 Y); auto]|].
      intros X. inversion X; subst. rewrite I5 by assumption. auto. }
    destruct (tag_cases t) as [X|[X|[X|(X1 & X2 & X3)]]].
    + pose proof (other_names _ _ t N2 X) as ND. destruct X as (v & r & ->). cbn [receipt_tag] in *. rewrite beq_refl, WB in *. cbn [andb] in *.
      destruct (mem (rc_next st)); [|discriminate]. apply (GEN _ eq_refl); cbn [rc_bolt rc_req].
      * intros u (q & E). exfalso. apply ND. exists u, q. exact E.
      * intros u (q & E). exists (rc_next st). congruence.
      * intros X. exfalso. apply X. exists v, r. reflexivity.
      * intros u (q & E). exfalso. apply ND. exists u, q. exact E.
      * reflexivity.
    + pose proof (other_names _ _ t N3 X) as ND. pose proof (other_names _ _ t (not_eq_sym N1) X) as NB.
      assert (E : receipt_tag lim parse mem w st t = (st, Ok tt)).
      { destruct X as (v & r & ->). cbn [receipt_tag]. change (beq (bs "preimage") (bs "bolt11")) with false. change (beq (bs "preimage") (bs "description")) with false. cbn [andb].
        rewrite WP, andb_false_r. reflexivity. }
      apply (GEN _ E); [intros u (q & Q); exfalso; apply ND; exists u, q; exact Q|intros u (q & Q); exfalso; apply NB; exists u, q; exact Q|reflexivity|
                        intros u (q & Q); exfalso; apply ND; exists u, q; exact Q|reflexivity].
    + pose proof (other_names _ _ t (not_eq_sym N2) X) as NB. destruct X as (v & r & ->). cbn [receipt_tag] in *.
      change (beq (bs "description") (bs "bolt11")) with false in *. change (beq (bs "description") (bs "preimage")) with false in *. rewrite beq_refl, WR in *. cbn [andb] in *.
      destruct (if mem (rc_next st) then reads v else Err EMemory) as [e|x|] eqn:R; [| |discriminate].
      2:{ exfalso. destruct (w_bolt w); [destruct (rc_bolt st)|]; discriminate. }
      assert (R' : reads v = Ok e) by (destruct (mem (rc_next st)); [exact R|discriminate]).
      apply (GEN _ eq_refl); cbn [rc_bolt rc_req].
      * intros u (q & Q). exists e. congruence.
      * intros u (q & Q). exfalso. apply NB. exists u, q. exact Q.
      * reflexivity.
      * intros u (q & Q). exists (rc_next st), e. split; [congruence|reflexivity].
      * intros X. exfalso. apply X. exists v, r. reflexivity.
    + apply (GEN _ (tag_other w st t X1 X2 X3)); auto; intros u (q & Q); exfalso; [apply X3|apply X1|apply X3]; exists u, q; exact Q.
Qed.
(** With memory and readable descriptions it does end well. *)
Lemma tags_run w : (forall n, mem n = true) -> w_pre w = None -> forall ts, (forall v, has_value (bs "description") v ts -> exists e, reads v = Ok e) ->
  forall st, exists st', receipt_tags lim parse mem w st ts = (st', Ok tt).
Proof.
  intros M WP. induction ts as [|t ts IH]; intros D st; [eexists; reflexivity|]. cbn [receipt_tags].
  assert (E : exists st1, receipt_tag lim parse mem w st t = (st1, Ok tt)).
  { destruct t as [|name [|v r]]; [eexists; reflexivity..|]. cbn [receipt_tag].
    destruct (beq name (bs "bolt11") && w_bolt w); [rewrite M; eexists; reflexivity|].
    rewrite WP, andb_false_r. destruct (beq name (bs "description")) eqn:B; cbn [andb]; [|eexists; reflexivity].
    destruct (w_req w); [|eexists; reflexivity]. apply beq_eq in B. subst name. rewrite M.
    destruct (D v) as (e & R); [apply has_cons; left; eauto|]. rewrite R. eexists. reflexivity. }
  destruct E as (st1 & E). rewrite E. apply IH. intros v H. apply D. apply has_cons. right. exact H.
Qed.
Lemma reads_id v e : reads v = Ok e -> length (ev_id e) = 32%nat.
Proof. unfold event_from_json. destruct (parse v) as [j|]; [|discriminate]. intros T. apply C21_import_partial in T as ((L & _) & _). exact L. Qed.

Variable num : Z -> list N.
Variable sha256 : list N -> list N.
Variable schnorr_verify : list N -> list N -> list N -> bool.
Variable pubkey_parses : list N -> bool.
Variable parse_pk : bool.
Hypothesis sha_len : forall x, length (sha256 x) = 32%nat.
Notation verify := (zap_verify lim parse mem (serialize_with num) sha256 schnorr_verify pubkey_parses parse_pk).
(** A correctly signed event *)
Definition genuine (e : event) : Prop :=
  ev_id e = sha256 (serialize_with num e) /\ (parse_pk = true -> pubkey_parses (ev_pubkey e) = true) /\ schnorr_verify (ev_pubkey e) (ev_id e) (ev_sig e) = true.
Definition sized (e : event) : Prop := length (ev_id e) = 32%nat /\ length (ev_pubkey e) = 32%nat /\ bytes_ok (ev_pubkey e).

Lemma cmp_eq a b n : length a = n -> length b = n -> exists d, constant_time_memcmp a b n = Ok (d, n) /\ (d = 0 <-> a = b).
Proof.
  intros A B. destruct (C15_memcmp_decides_equality a b n) as (d & E & H); [lia..|]. exists d. split; [exact E|].
  rewrite !firstn_all2 in H by lia. exact H.
Qed.
(** The last invoice, if any *)
Definition paid_of (ts : list tag) (p : option N) : Prop :=
  (Forall (fun t => ~ named (bs "bolt11") t) ts /\ p = None) \/ exists s, last_is (bs "bolt11") s ts /\ p = invoice_amount s.
Lemma verify_ok rcpt req server : sized rcpt -> length (ev_id req) = 32%nat -> snd (verify rcpt req server) = Ok tt ->
  ev_kind rcpt = 9735 /\ ev_kind req = 9734 /\ lower_hex server (ev_pubkey rcpt) /\ genuine rcpt /\
  (forall v, has_value (bs "description") v (ev_tags rcpt) -> exists e, reads v = Ok e) /\
  (exists v e, last_is (bs "description") v (ev_tags rcpt) /\ reads v = Ok e /\ ev_id e = ev_id req) /\
  exists p, paid_of (ev_tags rcpt) p /\
    (0 < request_amount (ev_tags req) -> forall a, p = Some a -> 0 < a -> request_amount (ev_tags req) = a).
Proof.
  intros (SI & SP & SB) SR H. unfold zap_verify in H.
  destruct (N.eqb_spec (ev_kind rcpt) ZAP_RECEIPT_KIND) as [K1|]; [|discriminate]. destruct (N.eqb_spec (ev_kind req) ZAP_REQUEST_KIND) as [K2|]; [|discriminate].
  cbn [negb orb] in H. destruct (Nat.eqb_spec (length server) 64) as [LS|]; [|discriminate]. cbn [negb] in H.
  destruct (cmp_eq (hex_encode (ev_pubkey rcpt)) server 64) as (d & E & D); [rewrite EventProofs.hex_encode_length, SP; reflexivity|exact LS|].
  rewrite E in H. destruct (N.eqb_spec d 0) as [Z|]; [|discriminate]. cbn [negb] in H. apply D in Z. clear E D d.
  unfold parse_receipt in H. rewrite K1 in H. change (ZAP_RECEIPT_KIND =? ZAP_RECEIPT_KIND) with true in H. cbn [negb] in H.
  destruct (receipt_tags lim parse mem all_wanted receipt0 (ev_tags rcpt)) as [st [[]|x|]] eqn:R; [|discriminate..].
  destruct (tags_ok all_wanted eq_refl eq_refl eq_refl _ _ _ R) as (T1 & T2 & T3 & T4 & T5).
  cbn [all_wanted w_amount w_bolt andb] in H.
  assert (P : exists p, paid_of (ev_tags rcpt) p /\ match rc_bolt st with SBlock _ s => (st, Ok (invoice_amount s)) | SNull => (st, Ok None) | SGarbage => (st, Undef) end = (st, Ok p)).
  { destruct (last_or (bs "bolt11") (ev_tags rcpt)) as [F|(v & L)].
    - exists None. split; [left; auto|]. rewrite (T3 F). reflexivity.
    - exists (invoice_amount v). split; [right; eauto|]. destruct (T2 v L) as (b & ->). reflexivity. }
  destruct P as (p & P & EP). rewrite EP in H. clear EP.
  destruct (last_or (bs "description") (ev_tags rcpt)) as [F|(v & L)]; [rewrite (T5 F) in H; discriminate|].
  destruct (T4 v L) as (b & e & RE & ER). rewrite ER in H.
  destruct (cmp_eq (ev_id req) (ev_id e) 32 SR (reads_id v e RE)) as (d & E & D). rewrite E in H.
  destruct (N.eqb_spec d 0) as [Z2|]; [|discriminate]. cbn [negb] in H. apply D in Z2.
  assert (AM : 0 < request_amount (ev_tags req) -> forall a, p = Some a -> 0 < a -> request_amount (ev_tags req) = a).
  { intros A a -> B. cbv zeta in H. destruct (N.ltb_spec 0 (request_amount (ev_tags req))); [|lia]. destruct (N.ltb_spec 0 a); [|lia]. cbn [andb] in H.
    destruct (N.eqb_spec (request_amount (ev_tags req)) a); [assumption|discriminate]. }
  cbv zeta in H. destruct ((0 <? request_amount (ev_tags req)) && (0 <? match p with Some a => a | None => 0 end) && negb (request_amount (ev_tags req) =? match p with Some a => a | None => 0 end)); [discriminate|].
  cbn [snd] in H. pose proof (proj1 (proj1 (C17_verify_exact num sha256 schnorr_verify pubkey_parses sha_len parse_pk rcpt SI)) H) as V.
  split; [exact K1|]. split; [exact K2|]. split; [rewrite <- Z; apply lower_hex_encode, SB|]. split; [exact V|].
  split; [exact T1|]. split; [exists v, e; auto|]. exists p. auto.
Qed.
Lemma verify_complete rcpt req server : (forall n, mem n = true) -> sized rcpt -> length (ev_id req) = 32%nat ->
  ev_kind rcpt = 9735 -> ev_kind req = 9734 -> lower_hex server (ev_pubkey rcpt) -> genuine rcpt ->
  (forall v, has_value (bs "description") v (ev_tags rcpt) -> exists e, reads v = Ok e) ->
  (exists v e, last_is (bs "description") v (ev_tags rcpt) /\ reads v = Ok e /\ ev_id e = ev_id req) ->
  (exists p, paid_of (ev_tags rcpt) p /\
    (0 < request_amount (ev_tags req) -> forall a, p = Some a -> 0 < a -> request_amount (ev_tags req) = a)) ->
  snd (verify rcpt req server) = Ok tt.
Proof.
  intros M (SI & SP & SB) SR K1 K2 LH G D (v & e & L & RE & EI) (p & P & AM). unfold zap_verify. rewrite K1, K2.
  change (9735 =? ZAP_RECEIPT_KIND) with true. change (9734 =? ZAP_REQUEST_KIND) with true. cbn [negb orb].
  assert (ES : server = hex_encode (ev_pubkey rcpt)) by (apply (lower_hex_fun _ _ _ LH), lower_hex_encode, SB).
  assert (LS : length server = 64%nat) by (rewrite ES, EventProofs.hex_encode_length, SP; reflexivity).
  rewrite LS. cbn [Nat.eqb negb]. destruct (cmp_eq (hex_encode (ev_pubkey rcpt)) server 64) as (d & E & DD); [rewrite EventProofs.hex_encode_length, SP; reflexivity|exact LS|].
  rewrite E. rewrite (proj2 DD) by auto. change (negb (0 =? 0)) with false. cbv iota.
  unfold parse_receipt. rewrite K1. change (9735 =? ZAP_RECEIPT_KIND) with true. cbn [negb].
  destruct (tags_run all_wanted M eq_refl (ev_tags rcpt) D receipt0) as (st & R). rewrite R.
  destruct (tags_ok all_wanted eq_refl eq_refl eq_refl _ _ _ R) as (T1 & T2 & T3 & T4 & T5).
  cbn [all_wanted w_amount w_bolt andb].
  assert (EP : match rc_bolt st with SBlock _ s => (st, Ok (invoice_amount s)) | SNull => (st, Ok None) | SGarbage => (st, Undef) end = (st, Ok p)).
  { destruct P as [(F & ->)|(s & LB & ->)]; [rewrite (T3 F); reflexivity|]. destruct (T2 s LB) as (b & ->). reflexivity. }
  rewrite EP. destruct (T4 v L) as (b & e' & RE' & ER). assert (e' = e) by congruence. subst e'. rewrite ER.
  destruct (cmp_eq (ev_id req) (ev_id e) 32 SR (reads_id v e RE)) as (d2 & E2 & D2). rewrite E2.
  rewrite (proj2 D2) by auto. change (negb (0 =? 0)) with false. cbv iota zeta.
  destruct ((0 <? request_amount (ev_tags req)) && (0 <? match p with Some a => a | None => 0 end) && negb (request_amount (ev_tags req) =? match p with Some a => a | None => 0 end)) eqn:X.
  - exfalso. apply andb_true_iff in X. destruct X as (X & X3). apply andb_true_iff in X. destruct X as (X1 & X2). apply N.ltb_lt in X1, X2.
    destruct p as [a|]; [|lia]. rewrite (AM X1 a eq_refl X2), N.eqb_refl in X3. discriminate.
  - cbn [snd]. apply (C17_verify_exact num sha256 schnorr_verify pubkey_parses sha_len parse_pk rcpt SI). exact G.
Qed.
(** The amount asked for *)
Lemma asked ts v : first_is (bs "amount") v ts -> request_amount ts = fst (strtoul v).
Proof.
  intros (a & r & b & -> & F). induction F as [|t a NT F IH]; cbn [app request_amount]; [rewrite beq_refl; reflexivity|].
  destruct t as [|x [|y z]]; [exact IH..|]. destruct (beq x (bs "amount")) eqn:B; [|exact IH].
  exfalso. apply beq_eq in B. subst x. apply NT. exists y, z. reflexivity.
Qed.
Lemma asked_dec ts a : first_is (bs "amount") (dec_N a) ts -> a < 2 ^ 64 -> request_amount ts = a.
Proof. intros F B. rewrite (asked _ _ F). rewrite <- (app_nil_r (dec_N a)), strtoul_dec by (exact B || exact I). reflexivity. Qed.
(** C60, what holds of every receipt that passes, whatever memory there is. *)
Theorem C60_signed_partial : forall rcpt req server, sized rcpt -> length (ev_id req) = 32%nat -> snd (verify rcpt req server) = Ok tt ->
  ev_kind rcpt = 9735 /\ ev_kind req = 9734 /\ lower_hex server (ev_pubkey rcpt) /\ genuine rcpt /\
  exists v e, last_is (bs "description") v (ev_tags rcpt) /\ event_from_json parse lim v = Ok e /\ ev_id e = ev_id req.
Proof. intros rcpt req server A B H. destruct (verify_ok _ _ _ A B H) as (C1 & C2 & C3 & C4 & _ & C5 & _). auto. Qed.
Theorem C60_amount_partial : forall rcpt req server a n m s v, sized rcpt -> length (ev_id req) = 32%nat -> snd (verify rcpt req server) = Ok tt ->
  first_is (bs "amount") (dec_N a) (ev_tags req) -> 0 < a < 2 ^ 64 ->
  last_is (bs "bolt11") s (ev_tags rcpt) -> invoice n m s -> m <> Whole -> msat n m v -> v <= all_bitcoin -> n < 2 ^ 64 -> 
  a = v.
Proof.
  intros rcpt req server a n m s v A B H FA RA LB IV M V AB N64. destruct (verify_ok _ _ _ A B H) as (_ & _ & _ & _ & _ & _ & p & P & AM).
  rewrite (asked_dec _ _ FA (proj2 RA)) in AM. pose proof (C61_multiplier_partial n m s v IV M V AB N64) as E.
  destruct P as [(F & _)|(s' & L' & EP)]; [exfalso; apply (none_last _ _ s F LB)|].
  assert (s' = s) by (apply (last_fun _ _ _ _ L' LB)). subst s'. rewrite E in EP. apply (AM (proj1 RA) v EP).
  destruct m; cbn [msat] in V; destruct IV as (P & _); try congruence; lia.
Qed.
(** C99: genuine receipts are accepted. *)
Theorem C99_accepted_partial : forall rcpt req server desc e a n m s, (forall k, mem k = true) -> sized rcpt -> length (ev_id req) = 32%nat ->
  ev_kind rcpt = 9735 -> ev_kind req = 9734 -> lower_hex server (ev_pubkey rcpt) -> genuine rcpt ->
  (forall x, has_value (bs "description") x (ev_tags rcpt) <-> x = desc) -> event_from_json parse lim desc = Ok e -> ev_id e = ev_id req ->
  first_is (bs "amount") (dec_N a) (ev_tags req) -> a < 2 ^ 64 ->
  last_is (bs "bolt11") s (ev_tags rcpt) -> invoice n m s -> m <> Whole -> msat n m a -> a <= all_bitcoin -> n < 2 ^ 64 ->
  snd (verify rcpt req server) = Ok tt.
Proof.
  intros rcpt req server desc e a n m s MM A B K1 K2 LH G D RE EI FA RA LB IV M V AB N64.
  apply verify_complete; try assumption.
  - intros x HX. apply D in HX. subst x. eauto.
  - destruct (last_or (bs "description") (ev_tags rcpt)) as [F|(x & L)].
    + exfalso. destruct (proj2 (D desc) eq_refl) as (r & I). rewrite Forall_forall in F. apply (F _ I). exists desc, r. reflexivity.
    + assert (x = desc) by (apply D, last_has, L). subst x. eauto.
  - exists (invoice_amount s). split; [right; eauto|]. rewrite (asked_dec _ _ FA RA). intros _ p EP _.
    rewrite (C61_multiplier_partial n m s a IV M V AB N64) in EP. congruence.
Qed.
(** A request that names no amount is satisfied by whatever was paid. *)
Theorem C99_unasked : forall rcpt req server desc e, (forall k, mem k = true) -> sized rcpt -> length (ev_id req) = 32%nat ->
  ev_kind rcpt = 9735 -> ev_kind req = 9734 -> lower_hex server (ev_pubkey rcpt) -> genuine rcpt ->
  (forall x, has_value (bs "description") x (ev_tags rcpt) <-> x = desc) -> event_from_json parse lim desc = Ok e -> ev_id e = ev_id req ->
  Forall (fun t => ~ named (bs "amount") t) (ev_tags req) ->
  snd (verify rcpt req server) = Ok tt.
Proof.
  intros rcpt req server desc e MM A B K1 K2 LH G D RE EI F. apply verify_complete; try assumption.
  - intros x HX. apply D in HX. subst x. eauto.
  - destruct (last_or (bs "description") (ev_tags rcpt)) as [F'|(x & L)].
    + exfalso. destruct (proj2 (D desc) eq_refl) as (r & I). rewrite Forall_forall in F'. apply (F' _ I). exists desc, r. reflexivity.
    + assert (x = desc) by (apply D, last_has, L). subst x. eauto.
  - assert (Z : request_amount (ev_tags req) = 0).
    { clear - F. induction F as [|t ts NT F IH]; [reflexivity|]. cbn [request_amount]. destruct t as [|name [|value r]]; [exact IH..|].
      destruct (beq name (bs "amount")) eqn:BE; [|exact IH]. exfalso. apply beq_eq in BE. subst name. apply NT. exists value, r. reflexivity. }
    rewrite Z. destruct (last_or (bs "bolt11") (ev_tags rcpt)) as [F'|(x & L)]; [exists None; split; [left; auto|lia]|]. exists (invoice_amount x). split; [right; eauto|lia].
Qed.
(** C60 fails: a receipt that names no invoice passes whatever was asked. *)
Theorem C60_unpaid_refuted : forall rcpt req server desc e, (forall k, mem k = true) -> sized rcpt -> length (ev_id req) = 32%nat ->
  ev_kind rcpt = 9735 -> ev_kind req = 9734 -> lower_hex server (ev_pubkey rcpt) -> genuine rcpt ->
  (forall x, has_value (bs "description") x (ev_tags rcpt) <-> x = desc) -> event_from_json parse lim desc = Ok e -> ev_id e = ev_id req ->
  Forall (fun t => ~ named (bs "bolt11") t) (ev_tags rcpt) ->
  snd (verify rcpt req server) = Ok tt.
Proof.
  intros rcpt req server desc e MM A B K1 K2 LH G D RE EI F. apply verify_complete; try assumption.
  - intros x HX. apply D in HX. subst x. eauto.
  - destruct (last_or (bs "description") (ev_tags rcpt)) as [F'|(x & L)].
    + exfalso. destruct (proj2 (D desc) eq_refl) as (r & I). rewrite Forall_forall in F'. apply (F' _ I). exists desc, r. reflexivity.
    + assert (x = desc) by (apply D, last_has, L). subst x. eauto.
  - exists None. split; [left; auto|]. discriminate.
Qed.
End Receipts.

(** An example: a request for 2000 satoshi and its receipt. *)
Definition ex_key : list N := repeat 7 32.
Definition ex_sha (_ : list N) : list N := repeat 3 32.
Definition ex_sver (pk d s : list N) : bool := beq s (repeat 5 64).
Definition ex_invoice : list N := bs "lnbc20u1p3unwfusp5t9r3yymhpfqculx78u".
Definition ex_req : event := mkEvent (repeat 1 32) (repeat 2 32) 1700000000 9734 [[bs "relays"; bs "wss://r.example"]; [bs "amount"; bs "2000000"]] (Some (bs "nice")) (repeat 4 64).
Definition ex_rcpt (tags : list (list (list N))) : event := mkEvent (repeat 3 32) ex_key 1700000060 9735 tags (Some []) (repeat 5 64).
Definition ex_parse (emb : event) (s : list N) : option json := if beq s (bs "the request") then Some (event_to_tree emb) else None.
Definition ex_verify emb tags := snd (zap_verify None (ex_parse emb) (fun _ => true) (serialize_with dec_Z) ex_sha ex_sver (fun _ => true) true (ex_rcpt tags) ex_req (hex_encode ex_key)).
Definition ex_tags : list (list (list N)) := [[bs "p"; bs "x"]; [bs "bolt11"; ex_invoice]; [bs "description"; bs "the request"]].
Lemma ex_sha_len : forall x, length (ex_sha x) = 32%nat.
Proof. reflexivity. Qed.
Lemma ex_req_len : length (ev_id ex_req) = 32%nat.
Proof. reflexivity. Qed.
Lemma ex_sized tags : sized (ex_rcpt tags).
Proof. split; [reflexivity|]. split; [reflexivity|]. apply Forall_repeat. reflexivity. Qed.
Example C60_meets : ex_verify ex_req ex_tags = Ok tt /\ sized (ex_rcpt ex_tags) /\ first_is (bs "amount") (dec_N 2000000) (ev_tags ex_req) /\
  last_is (bs "bolt11") ex_invoice ex_tags /\ invoice 20 Micro ex_invoice /\ msat 20 Micro 2000000.
Proof.
  split; [vm_compute; reflexivity|]. split; [apply ex_sized|]. split.
  { exists [[bs "relays"; bs "wss://r.example"]], [], []. split; [reflexivity|]. repeat constructor. intros (v & r & E). discriminate. }
  split; [exists [[bs "p"; bs "x"]], [], [[bs "description"; bs "the request"]]; split; [reflexivity|]; repeat constructor; intros (v & r & E); discriminate|].
  split; [|reflexivity]. split; [reflexivity|]. eexists. split; [|reflexivity].
  apply Forall_forall. intros c I. cbn in I. unfold data_char. repeat destruct I as [<-|I]; try contradiction; vm_compute; repeat (first [left; reflexivity|right]).
Qed.
(** Also with a wrong amount it is refused. *)
Example C60_wrong : ex_verify ex_req [[bs "bolt11"; bs "lnbc10u1pxyz"]; [bs "description"; bs "the request"]] = Err EInvalidEvent.
Proof. vm_compute. reflexivity. Qed.
Definition sound_zap : Prop := forall lim parse mem num sha256 sver pkp ppk rcpt req server a,
  (forall x, length (sha256 x) = 32%nat) -> sized rcpt -> length (ev_id req) = 32%nat ->
  snd (zap_verify lim parse mem (serialize_with num) sha256 sver pkp ppk rcpt req server) = Ok tt ->
  first_is (bs "amount") (dec_N a) (ev_tags req) -> 0 < a < 2 ^ 64 ->
  exists s n m, last_is (bs "bolt11") s (ev_tags rcpt) /\ invoice n m s /\ msat n m a.
Theorem C60_refuted : ~ sound_zap.
Proof.
  intros H. assert (V : ex_verify ex_req [[bs "description"; bs "the request"]] = Ok tt) by (vm_compute; reflexivity).
  destruct (H _ _ _ _ _ _ _ _ _ _ _ 2000000 ex_sha_len (ex_sized _) ex_req_len V) as (s & n & m & L & _).
  - exists [[bs "relays"; bs "wss://r.example"]], [], []. split; [reflexivity|]. repeat constructor. intros (v & r & E). discriminate.
  - split; reflexivity.
  - destruct L as (x & r & b & E & _). destruct x as [|? [|]]; discriminate.
Qed.
(** C60 fails: the receipt may embed another request that merely claims the id. *)
Definition sound_request : Prop := forall lim parse mem num sha256 sver pkp ppk rcpt req server,
  (forall x, length (sha256 x) = 32%nat) -> sized rcpt -> length (ev_id req) = 32%nat ->
  snd (zap_verify lim parse mem (serialize_with num) sha256 sver pkp ppk rcpt req server) = Ok tt ->
  forall v e, last_is (bs "description") v (ev_tags rcpt) -> event_from_json parse lim v = Ok e ->
  ev_pubkey e = ev_pubkey req /\ ev_content e = ev_content req /\ ev_tags e = ev_tags req.
Theorem C60_embedded_refuted : ~ sound_request.
Proof.
  intros H. set (other := mkEvent (repeat 1 32) (repeat 9 32) 1600000000 9734 [[bs "amount"; bs "1"]] (Some (bs "pay Mallory")) (repeat 0 64)).
  assert (V : ex_verify other ex_tags = Ok tt) by (vm_compute; reflexivity).
  assert (R : event_from_json (ex_parse other) None (bs "the request") = Ok other) by (vm_compute; reflexivity).
  destruct (H _ _ _ _ _ _ _ _ _ _ _ ex_sha_len (ex_sized _) ex_req_len V (bs "the request") other) as (X & _); [|exact R|].
  - exists [[bs "p"; bs "x"]; [bs "bolt11"; ex_invoice]], [], []. split; [reflexivity|constructor].
  - assert (Y : hd 0 (ev_pubkey other) = hd 0 (ev_pubkey ex_req)) by (rewrite X; reflexivity). vm_compute in Y. discriminate.
Qed.
(** C99 fails for an invoice over whole bitcoin. *)
Definition whole_req : event := mkEvent (repeat 1 32) (repeat 2 32) 1700000000 9734 [[bs "amount"; bs "500000000000"]] (Some []) (repeat 4 64).
Theorem C99_refuted : ~ (forall lim parse mem num sha256 sver pkp ppk rcpt req server desc e a n m s,
  (forall x, length (sha256 x) = 32%nat) -> (forall k, mem k = true) -> sized rcpt -> length (ev_id req) = 32%nat ->
  ev_kind rcpt = 9735 -> ev_kind req = 9734 -> lower_hex server (ev_pubkey rcpt) -> genuine num sha256 sver pkp ppk rcpt ->
  (forall x, has_value (bs "description") x (ev_tags rcpt) <-> x = desc) -> event_from_json parse lim desc = Ok e -> e = req ->
  first_is (bs "amount") (dec_N a) (ev_tags req) -> last_is (bs "bolt11") s (ev_tags rcpt) -> invoice n m s -> msat n m a -> a <= all_bitcoin ->
  snd (zap_verify lim parse mem (serialize_with num) sha256 sver pkp ppk rcpt req server) = Ok tt).
Proof.
  intros H. set (tags := [[bs "bolt11"; bs "lnbc51pvjluez"]; [bs "description"; bs "the request"]]).
  assert (X : snd (zap_verify None (ex_parse whole_req) (fun _ => true) (serialize_with dec_Z) ex_sha ex_sver (fun _ => true) true (ex_rcpt tags) whole_req (hex_encode ex_key)) = Ok tt).
  { apply (H None (ex_parse whole_req) (fun _ => true) dec_Z ex_sha ex_sver (fun _ => true) true (ex_rcpt tags) whole_req (hex_encode ex_key) (bs "the request") whole_req 500000000000 5 Whole (bs "lnbc51pvjluez")).
    - reflexivity.
    - reflexivity.
    - apply ex_sized.
    - reflexivity.
    - reflexivity.
    - reflexivity.
    - apply lower_hex_encode. apply Forall_repeat. reflexivity.
    - split; [reflexivity|]. split; [reflexivity|vm_compute; reflexivity].
    - intros x. split; [|intros ->; exists []; right; left; reflexivity]. intros (r & [E|[E|[]]]); [discriminate|]. congruence.
    - vm_compute. reflexivity.
    - reflexivity.
    - exists [], [], []. split; [reflexivity|constructor].
    - exists [], [], [[bs "description"; bs "the request"]]. split; [reflexivity|]. repeat constructor. intros (v & r & E). discriminate.
    - split; [reflexivity|]. exists (bs "pvjluez"). split; [|reflexivity]. apply Forall_forall. intros c I. cbn in I. unfold data_char.
      repeat destruct I as [<-|I]; try contradiction; vm_compute; repeat (first [left; reflexivity|right]).
    - reflexivity.
    - vm_compute. discriminate. }
  vm_compute in X. discriminate.
Qed.

(** ** C96: zap requests *)
Theorem C96_request_partial : forall lim now amount recipient lnurl content relays e, (length relays <= 15)%nat ->
  zap_create lim now amount recipient lnurl content relays = Ok e -> bytes_ok recipient ->
  relays <> [] /\ ev_kind e = 9734 /\ ev_created e = now /\ ev_id e = repeat 0 32 /\ ev_pubkey e = repeat 0 32 /\ ev_sig e = repeat 0 64 /\ (forall c, content = Some c -> match ev_content e with Some x => x | None => [] end = c) /\
  exists h, lower_hex h recipient /\
  ev_tags e = (bs "relays" :: relays) :: [bs "amount"; dec_N amount] ::
    match lnurl with Some l => [[bs "lnurl"; l]] | None => [] end ++ [[bs "p"; h]].
Proof.
  intros lim now amount recipient lnurl content relays e L H B. unfold zap_create in H.
  destruct relays as [|r0 rs] eqn:ER; [discriminate|]. rewrite <- ER in *. assert (NE : relays <> []) by (rewrite ER; discriminate).
  assert (Z : (length relays =? 0)%nat = false) by (rewrite ER; reflexivity). rewrite Z in H. clear ER Z r0 rs. cbv zeta in H.
  apply bind_ok in H. destruct H as (e1 & H1 & H). apply bind_ok in H. destruct H as (e2 & H2 & H). apply bind_ok in H. destruct H as (e3 & H3 & H).
  apply add_tag_ok in H1, H2, H. rewrite firstn_all2 in H1 by exact L. split; [exact NE|].
  assert (T3 : e3 = match lnurl with Some l => push e2 [bs "lnurl"; l] | None => e2 end).
  { destruct lnurl; [apply add_tag_ok in H3; exact H3|congruence]. }
  subst e e3 e2 e1. clear H3. split; [destruct lnurl; reflexivity|]. do 4 (split; [destruct lnurl; reflexivity|]).
  split; [intros c ->; destruct lnurl; destruct c; reflexivity|].
  exists (hex_encode recipient). split; [apply lower_hex_encode, B|]. destruct lnurl; reflexivity.
Qed.
Example C96_meets : exists e, zap_create None 1700000000 21000 ex_key (Some (bs "lnurl1xyz")) (Some (bs "thanks")) [bs "wss://a"; bs "wss://b"] = Ok e /\ length (ev_tags e) = 4%nat.
Proof. eexists. split; [vm_compute; reflexivity|reflexivity]. Qed.
(** Relays after the fifteenth are dropped in silence. *)
Theorem C96_refuted : ~ (forall lim now amount recipient lnurl content relays e,
  zap_create lim now amount recipient lnurl content relays = Ok e -> forall r, In r relays -> exists t, In t (ev_tags e) /\ hd [] t = bs "relays" /\ In r t).
Proof.
  intros H. destruct (zap_create None 0 1 ex_key None None (repeat (bs "wss://a") 15 ++ [bs "wss://b"])) as [e| |] eqn:E; [|vm_compute in E; discriminate..].
  assert (G : exists t, In t (ev_tags e) /\ hd [] t = bs "relays" /\ In (bs "wss://b") t) by (eapply H; [exact E|apply in_or_app; right; left; reflexivity]).
  vm_compute in E. injection E as <-. destruct G as (t & I & HD & R). cbn [ev_tags] in I. destruct I as [<-|[<-|[<-|[]]]].
  - cbn [In] in R. repeat destruct R as [R|R]; try discriminate. contradiction.
  - discriminate.
  - discriminate.
Qed.
(** C96: what is read back when the receipt is checked is the amount asked. *)
Theorem C96_amount : forall lim now amount recipient lnurl content relays e, amount < 2 ^ 64 ->
  zap_create lim now amount recipient lnurl content relays = Ok e -> request_amount (ev_tags e) = amount.
Proof.
  intros lim now amount recipient lnurl content relays e B H. apply asked_dec; [|exact B]. unfold zap_create in H.
  destruct (length relays =? 0)%nat; [discriminate|]. cbv zeta in H.
  apply bind_ok in H. destruct H as (e1 & H1 & H). apply bind_ok in H. destruct H as (e2 & H2 & H). apply bind_ok in H. destruct H as (e3 & H3 & H).
  apply add_tag_ok in H1, H2, H. assert (T3 : e3 = match lnurl with Some l => push e2 [bs "lnurl"; l] | None => e2 end).
  { destruct lnurl; [apply add_tag_ok in H3; exact H3|congruence]. }
  subst e e3 e2 e1. clear H3. destruct lnurl; exists [bs "relays" :: firstn 15 relays], []; eexists;
  (split; [reflexivity|]; repeat constructor; intros (v & r & E); discriminate).
Qed.

(** ** C98: memory *)
Definition held {A : Set} (s : slot A) : list nat := match s with SBlock b _ => [b] | _ => [] end.
(** Live blocks are exactly those the outputs point to. *)
Definition accounted (st : receipt) : Prop :=
  (forall b, In b (rc_live st) <-> In b (held (rc_bolt st) ++ held (rc_req st))) /\ NoDup (held (rc_bolt st) ++ held (rc_req st)).
Section Memory.
Variable lim : option ev_limits.
Variable parse : list N -> option json.
Variable mem : nat -> bool.
Definition ready (st : receipt) (ts : list tag) : Prop :=
  accounted st /\ Forall (fun b => (b < rc_next st)%nat) (held (rc_bolt st) ++ held (rc_req st)) /\
  rc_bolt st <> SGarbage /\
  (held (rc_bolt st) <> [] -> Forall (fun t => ~ named (bs "bolt11") t) ts) /\
  (held (rc_req st) <> [] -> Forall (fun t => ~ named (bs "description") t) ts).
Lemma once_cons name t ts : once name (t :: ts) -> once name ts /\ (named name t -> Forall (fun u => ~ named name u) ts).
Proof.
  intros H. split; [|intros X; apply (H [] t ts eq_refl X)]. intros a u b -> X. apply (H (t :: a) u b eq_refl X).
Qed.
Definition roomy (w : want) : Prop := forall size, w_pre w = Some size -> (65 <= size)%nat.
Lemma tags_memory w : w_bolt w = true -> w_req w = true -> roomy w -> (forall v, event_from_json parse lim v <> Undef) ->
  forall ts st st' r, once (bs "bolt11") ts -> once (bs "description") ts -> ready st ts ->
  receipt_tags lim parse mem w st ts = (st', r) -> r <> Undef /\ accounted st' /\ rc_bolt st' <> SGarbage.
Proof.
  intros WB WR RO NU. induction ts as [|t ts IH]; intros st st' r OB OD ((AC & ND) & LT & NG & RB & RD) H.
  - cbn [receipt_tags] in H. assert (r = Ok tt) by congruence. assert (st' = st) by congruence. subst. split; [discriminate|]. split; [split; assumption|exact NG].
  - cbn [receipt_tags] in H. destruct (once_cons _ _ _ OB) as (OB' & TB). destruct (once_cons _ _ _ OD) as (OD' & TD).
    assert (KEEP : accounted st -> ready st ts).
    { intros _. split; [split; assumption|]. split; [exact LT|]. split; [exact NG|]. split; intros X; [specialize (RB X); inversion RB; assumption|specialize (RD X); inversion RD; assumption]. }
    assert (SAME : receipt_tag lim parse mem w st t = (st, Ok tt) -> r <> Undef /\ accounted st' /\ rc_bolt st' <> SGarbage).
    { intros E. rewrite E in H. apply (IH st st' r OB' OD'); [apply KEEP; split; assumption|exact H]. }
    destruct (tag_cases t) as [X|[X|[X|(X1 & X2 & X3)]]]; [| | |apply SAME, tag_other; assumption].
    + specialize (TB X). assert (EB : held (rc_bolt st) = []).
      { destruct (held (rc_bolt st)) eqn:E; [reflexivity|]. exfalso. assert (F : Forall (fun t => ~ named (bs "bolt11") t) (t :: ts)) by (apply RB; discriminate). inversion F; contradiction. }
      destruct X as (v & q & ->). cbn [receipt_tag] in H. rewrite beq_refl, WB in H. cbn [andb] in H. rewrite EB in *. cbn [app] in *. destruct (mem (rc_next st)).
      * apply (IH _ _ _ OB' OD') in H; [exact H|]. split; [split|].
        -- cbn [rc_live rc_bolt rc_req held app In]. intros b. rewrite AC. tauto.
        -- cbn [rc_bolt rc_req held app]. constructor; [|exact ND]. intros I. rewrite Forall_forall in LT. specialize (LT _ I). lia.
        -- cbn [rc_bolt rc_req held app rc_next]. split; [constructor; [lia|eapply Forall_impl; [|exact LT]; cbv beta; intros; lia]|].
           split; [discriminate|]. split; [intros _; exact TB|]. intros Y. specialize (RD Y). inversion RD; assumption.
      * assert (E : st' = mkReceipt SNull (rc_pre st) (rc_req st) (rc_live st) (S (rc_next st)) /\ r = Err EMemory) by (split; congruence). destruct E as (-> & ->).
        split; [discriminate|]. split; [split; [exact AC|exact ND]|discriminate].
    + destruct X as (v & q & ->). unfold receipt_tag in H. change (beq (bs "preimage") (bs "bolt11")) with false in H. change (beq (bs "preimage") (bs "description")) with false in H.
      rewrite beq_refl in H. cbn [andb] in H. destruct (w_pre w) as [size|] eqn:WP; [|apply (IH st st' r OB' OD'); [apply KEEP; split; assumption|exact H]].
      destruct (Nat.leb_spec (length v) 64) as [LV|]; [|apply (IH st st' r OB' OD'); [apply KEEP; split; assumption|exact H]].
      specialize (RO size WP). destruct (Nat.ltb_spec size (length v + 1)) as [LS|]; [lia|].
      apply (IH _ _ _ OB' OD') in H; [exact H|]. apply KEEP. split; assumption.
    + specialize (TD X). assert (ER : held (rc_req st) = []).
      { destruct (held (rc_req st)) eqn:E; [reflexivity|]. exfalso. assert (F : Forall (fun t => ~ named (bs "description") t) (t :: ts)) by (apply RD; discriminate). inversion F; contradiction. }
      rewrite ER in *. rewrite app_nil_r in *.
      destruct X as (v & q & ->). unfold receipt_tag in H. change (beq (bs "description") (bs "bolt11")) with false in H. change (beq (bs "description") (bs "preimage")) with false in H.
      rewrite beq_refl, WR in H. cbn [andb] in H. pose proof (NU v) as NV.
      destruct (if mem (rc_next st) then event_from_json parse lim v else Err EMemory) as [e|x|] eqn:R.
      * apply (IH _ _ _ OB' OD') in H; [exact H|]. split; [split|].
        -- cbn [rc_live rc_bolt rc_req held In]. intros b. rewrite in_app_iff, AC. cbn [In]. tauto.
        -- cbn [rc_bolt rc_req held]. destruct (held (rc_bolt st)) as [|y [|z l]] eqn:EH; [repeat constructor; intros []| |destruct (rc_bolt st); discriminate].
           cbn [app]. constructor; [|repeat constructor; intros []]. intros [Y|[]]. inversion LT; subst. lia.
        -- cbn [rc_bolt rc_req held rc_next]. split; [apply Forall_app; split; [eapply Forall_impl; [|exact LT]; cbv beta; intros; lia|repeat constructor; lia]|].
           split; [exact NG|]. split; [intros Y; specialize (RB Y); inversion RB; assumption|]. intros _. exact TD.
      * rewrite WB in H. destruct (rc_bolt st) as [| |b s] eqn:EB; [| congruence |].
        -- assert (E : st' = mkReceipt SNull (rc_pre st) SGarbage (rc_live st) (S (rc_next st)) /\ r = Err x) by (split; congruence). destruct E as (-> & ->).
           split; [discriminate|]. split; [split; [exact AC|constructor]|discriminate].
        -- assert (E : st' = mkReceipt SNull (rc_pre st) SGarbage (remove Nat.eq_dec b (rc_live st)) (S (rc_next st)) /\ r = Err x) by (split; congruence). destruct E as (-> & ->).
           split; [discriminate|]. split; [split; [|constructor]|discriminate]. cbn [rc_live rc_bolt rc_req held app In]. intros k. split; [|intros []].
           intros I. apply in_remove in I. destruct I as (I & NE). apply AC in I. cbn in I. destruct I as [I|[]]; congruence.
      * exfalso. destruct (mem (rc_next st)); [congruence|discriminate].
Qed.
(** C98: with NULL-initialised outputs, 65 bytes for the preimage and no
    repeated tag, nothing is lost or left dangling in [*bolt11], and no
    undefined behaviour occurs, whatever allocations fail. *)
Theorem C98_parse_partial : forall w e st r, w_bolt w = true -> w_req w = true -> roomy w ->
  (forall v, event_from_json parse lim v <> Undef) -> once (bs "bolt11") (ev_tags e) -> once (bs "description") (ev_tags e) ->
  parse_receipt lim parse mem w receipt0 e = (st, r) -> r <> Undef /\ accounted st.
Proof.
  intros w e st r WB WR RO NU OB OD H. unfold parse_receipt in H.
  destruct (negb (ev_kind e =? ZAP_RECEIPT_KIND)).
  { assert (E : st = receipt0 /\ r = Err EInvalidParam) by (split; congruence). destruct E as (-> & ->). split; [discriminate|]. split; [reflexivity|constructor]. }
  destruct (receipt_tags lim parse mem w receipt0 (ev_tags e)) as [st1 r1] eqn:R.
  assert (RY : ready receipt0 (ev_tags e)).
  { split; [split; [reflexivity|constructor]|]. split; [constructor|]. split; [discriminate|]. split; intros X; exfalso; apply X; reflexivity. }
  destruct (tags_memory w WB WR RO NU _ _ _ _ OB OD RY R) as (A & B & C).
  destruct r1 as [[]|x|]; [| |congruence].
  - destruct (w_amount w && w_bolt w).
    + destruct (rc_bolt st1) eqn:EB; [|congruence|]; (assert (st = st1) by congruence; subst st; split; [congruence|exact B]).
    + assert (st = st1) by congruence. subst st. split; [congruence|exact B].
  - assert (st = st1) by congruence. subst st. split; [congruence|exact B].
Qed.
(** C98: verification keeps nothing when there is memory. *)
Theorem C98_verify_partial : forall ser sha256 sver pkp ppk rcpt req server, (forall k, mem k = true) ->
  (forall v, event_from_json parse lim v <> Undef) -> once (bs "bolt11") (ev_tags rcpt) -> once (bs "description") (ev_tags rcpt) ->
  length (ev_id req) = 32%nat ->
  fst (zap_verify lim parse mem ser sha256 sver pkp ppk rcpt req server) = [].
Proof.
  intros ser sha256 sver pkp ppk rcpt req server M NU OB OD LR. unfold zap_verify.
  destruct (_ || _); [reflexivity|]. destruct (negb (length server =? 64)%nat); [reflexivity|].
  destruct (constant_time_memcmp _ server 64) as [[d k]| |]; [|reflexivity..]. destruct (negb (d =? 0)); [reflexivity|].
  destruct (parse_receipt lim parse mem all_wanted receipt0 rcpt) as [st r] eqn:P.
  destruct (C98_parse_partial all_wanted rcpt st r eq_refl eq_refl ltac:(intros ? ?; discriminate) NU OB OD P) as (A & (B & _)).
  assert (EMPTY : forall l : list nat, (forall b, ~ In b l) -> l = []) by (intros [|b l] X; [reflexivity|exfalso; apply (X b); left; reflexivity]).
  destruct r as [amount|x|]; [| |congruence].
  - destruct (rc_req st) as [| |b emb] eqn:ER.
    + cbn [fst]. apply EMPTY. intros b I. unfold drop in I. destruct (rc_bolt st); try (apply B in I; exact I).
      apply in_remove in I. destruct I as (I & NE). apply B in I. cbn in I. destruct I as [I|[]]. congruence.
    + cbn [fst]. apply EMPTY. intros b I. unfold drop in I. destruct (rc_bolt st); try (apply B in I; exact I).
      apply in_remove in I. destruct I as (I & NE). apply B in I. cbn in I. destruct I as [I|[]]. congruence.
    + assert (L32 : length (ev_id emb) = 32%nat).
      { unfold parse_receipt in P. destruct (negb (ev_kind rcpt =? ZAP_RECEIPT_KIND)); [congruence|].
        destruct (receipt_tags lim parse mem all_wanted receipt0 (ev_tags rcpt)) as [st1 [[]|x|]] eqn:R; [|congruence..].
        assert (st1 = st) by (destruct (w_amount all_wanted && w_bolt all_wanted); [destruct (rc_bolt st1)|]; congruence). subst st1.
        destruct (tags_ok lim parse mem all_wanted eq_refl eq_refl eq_refl _ _ _ R) as (_ & _ & _ & T4 & T5).
        destruct (last_or (bs "description") (ev_tags rcpt)) as [F|(v & L)]; [rewrite (T5 F) in ER; discriminate|].
        destruct (T4 v L) as (b' & e & RE & ER'). apply (reads_id lim parse v). congruence. }
      assert (FREED : drop (rc_bolt st) (drop (SBlock b emb) (rc_live st)) = []).
      { apply EMPTY. intros k0 I. unfold drop in I. destruct (rc_bolt st) as [| |b' s].
        - apply in_remove in I. destruct I as (I & NE). apply B in I. cbn in I. destruct I as [I|[]]. congruence.
        - apply in_remove in I. destruct I as (I & NE). apply B in I. cbn in I. destruct I as [I|[]]. congruence.
        - apply in_remove in I. destruct I as (I & NE). apply in_remove in I. destruct I as (I & NE2). apply B in I. cbn in I. destruct I as [I|[I|[]]]; congruence. }
      rewrite FREED. destruct (cmp_eq (ev_id req) (ev_id emb) 32 LR L32) as (d' & E & _). rewrite E.
      destruct (negb (d' =? 0)); [reflexivity|]. cbv zeta. destruct (_ && _ && _); reflexivity.
  - cbn [fst]. apply EMPTY. intros b I. apply B in I. unfold parse_receipt in P. destruct (negb (ev_kind rcpt =? ZAP_RECEIPT_KIND)).
    { assert (st = receipt0) by congruence. subst st. exact I. }
    assert (KEY : forall ts s0 s1 y, receipt_tags lim parse mem all_wanted s0 ts = (s1, Err y) -> held (rc_bolt s1) = [] /\ held (rc_req s1) = []).
    { induction ts as [|t ts IHt]; intros s0 s1 y H; [discriminate|]. cbn [receipt_tags] in H.
      destruct (receipt_tag lim parse mem all_wanted s0 t) as [s2 [[]|z|]] eqn:T; [apply (IHt _ _ _ H)| |discriminate].
      assert (s2 = s1) by congruence. subst s2. clear H. destruct t as [|name [|v q]]; [discriminate..|]. cbn [receipt_tag all_wanted w_bolt w_pre w_req] in T.
      rewrite M in T. destruct (beq name (bs "bolt11") && true); [discriminate|]. rewrite andb_false_r in T.
      destruct (beq name (bs "description") && true); [|discriminate]. destruct (event_from_json parse lim v) as [e|u|]; [discriminate| |discriminate].
      destruct (rc_bolt s0); [|discriminate|]; (split; [assert (rc_bolt s1 = SNull) by (injection T as <- _; reflexivity)|assert (rc_req s1 = SGarbage) by (injection T as <- _; reflexivity)]);
        match goal with E : _ = _ |- _ => rewrite E; reflexivity end. }
    destruct (receipt_tags lim parse mem all_wanted receipt0 (ev_tags rcpt)) as [st1 [[]|y|]] eqn:R.
    + exfalso. destruct (w_amount all_wanted && w_bolt all_wanted); [destruct (rc_bolt st1)|]; congruence.
    + assert (st1 = st) by congruence. subst st1. destruct (KEY _ _ _ _ R) as (K1 & K2). rewrite K1, K2 in I. exact I.
    + congruence.
Qed.
End Memory.
Example C98_meets : once (bs "bolt11") ex_tags /\ once (bs "description") ex_tags /\
  exists a, fst (zap_verify None (ex_parse ex_req) (fun _ => true) (serialize_with dec_Z) ex_sha ex_sver (fun _ => true) true (ex_rcpt ex_tags) ex_req (hex_encode ex_key)) = a /\ a = [].
Proof.
  split; [|split; [|eexists; split; vm_compute; reflexivity]].
  - intros a t b E (v & r & ->). unfold ex_tags in E. destruct a as [|a0 [|a1 [|a2 a3]]]; cbn [app] in E; [discriminate| |discriminate|destruct a3; discriminate].
    assert (b = [[bs "description"; bs "the request"]]) by congruence. subst b. repeat constructor. intros (v' & r' & X). discriminate.
  - intros a t b E (v & r & ->). unfold ex_tags in E. destruct a as [|a0 [|a1 [|a2 a3]]]; cbn [app] in E; [discriminate|discriminate| |destruct a3; discriminate].
    assert (b = []) by (pose proof (f_equal (skipn 3) E) as X; symmetry in X; exact X). subst b. constructor.
Qed.
(** C98 fails for repeated tags, for lack of memory, for outputs that were not
    initialised and for a preimage buffer of the documented 64 bytes. *)
Definition ex_live mem tags := fst (zap_verify None (ex_parse ex_req) mem (serialize_with dec_Z) ex_sha ex_sver (fun _ => true) true (ex_rcpt tags) ex_req (hex_encode ex_key)).
Theorem C98_repeated_refuted : ~ (forall tags, ex_live (fun _ => true) tags = []).
Proof. intros H. specialize (H ([bs "bolt11"; ex_invoice] :: ex_tags)). vm_compute in H. discriminate. Qed.
Theorem C98_memory_refuted : ~ (forall mem tags, once (bs "bolt11") tags -> once (bs "description") tags -> ex_live mem tags = []).
Proof.
  intros H. specialize (H (fun n => Nat.eqb n 0) [[bs "description"; bs "the request"]; [bs "bolt11"; ex_invoice]]).
  assert (X : ex_live (fun n => Nat.eqb n 0) [[bs "description"; bs "the request"]; [bs "bolt11"; ex_invoice]] = []).
  { apply H.
    - intros a t b E N. destruct a as [|a0 [|a1 a2]]; cbn [app] in E; [|assert (b = []) by (pose proof (f_equal (skipn 2) E) as X; symmetry in X; exact X); subst b; constructor|destruct a2; discriminate].
      destruct N as (v & r & ->). discriminate.
    - intros a t b E N. destruct a as [|a0 [|a1 a2]]; cbn [app] in E; [|assert (b = []) by (pose proof (f_equal (skipn 2) E) as X; symmetry in X; exact X); subst b; constructor|destruct a2; discriminate].
      assert (b = [[bs "bolt11"; ex_invoice]]) by congruence. subst b. repeat constructor. intros (v' & r' & X). discriminate. }
  vm_compute in X. discriminate.
Qed.
Theorem C98_uninitialised_refuted : ~ (forall e st, rc_live st = [] -> snd (parse_receipt None (ex_parse ex_req) (fun _ => true) (mkWant true true None true) st e) <> Undef).
Proof. intros H. apply (H (ex_rcpt []) (mkReceipt SGarbage None SGarbage [] 0)); [reflexivity|]. vm_compute. reflexivity. Qed.
Theorem C98_preimage_refuted : ~ (forall e, snd (parse_receipt None (ex_parse ex_req) (fun _ => true) (mkWant true true (Some 64%nat) true) receipt0 e) <> Undef).
Proof. intros H. apply (H (ex_rcpt [[bs "preimage"; repeat 97 64]])). vm_compute. reflexivity. Qed.

(** The same receipt by the theorem. *)
Example C99_meets : ex_verify ex_req ex_tags = Ok tt.
Proof.
  destruct C60_meets as (_ & A & FA & LB & IV & V). unfold ex_verify.
  apply (C99_accepted_partial None (ex_parse ex_req) (fun _ => true) dec_Z ex_sha ex_sver (fun _ => true) true ex_sha_len
    (ex_rcpt ex_tags) ex_req (hex_encode ex_key) (bs "the request") ex_req 2000000 20 Micro ex_invoice);
    try assumption; try reflexivity.
  - apply lower_hex_encode. apply Forall_repeat. reflexivity.
  - split; [reflexivity|]. split; [reflexivity|vm_compute; reflexivity].
  - intros x. split; [|intros ->; exists []; right; right; left; reflexivity]. intros (r & [E|[E|[E|[]]]]); [discriminate E|discriminate E|congruence].
  - discriminate.
  - vm_compute. discriminate.
Qed.

Print Assumptions C60_signed_partial.
Print Assumptions C60_amount_partial.
Print Assumptions C60_unpaid_refuted.
Print Assumptions C60_refuted.
Print Assumptions C60_embedded_refuted.
Print Assumptions C61_multiplier_partial.
Print Assumptions C61_reads.
Print Assumptions C61_huge_refuted.
Print Assumptions C97_codes.
Print Assumptions C99_unasked.
Print Assumptions C61_whole_refuted.
Print Assumptions C61_refuted.
Print Assumptions C61_open.
Print Assumptions C61_open_refuted.
Print Assumptions C62_exact_refuted.
Print Assumptions C62_refuted.
Print Assumptions C62_early_partial.
Print Assumptions C96_request_partial.
Print Assumptions C96_refuted.
Print Assumptions C96_amount.
Print Assumptions C97_exact.
Print Assumptions C97_refuted.
Print Assumptions C97_checksum_refuted.
Print Assumptions C97_short_partial.
Print Assumptions C98_parse_partial.
Print Assumptions C98_verify_partial.
Print Assumptions C98_repeated_refuted.
Print Assumptions C98_memory_refuted.
Print Assumptions C98_uninitialised_refuted.
Print Assumptions C98_preimage_refuted.
Print Assumptions C99_accepted_partial.
Print Assumptions C99_refuted.
