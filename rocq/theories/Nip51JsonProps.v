(** Theorems about the private part of lists as JSON: C133. *)
From Verif Require Import Base BaseFacts Hex HexSpec HexProofs GiftWrap Json JsonSpec JsonLib JsonLibProofs RelaySendProps Event Nip51 Nip51Spec Nip51Props Nip51JsonSpec.
Open Scope N_scope.

(** ** One string *)
Lemma nibble_val c : hex_nibble c = hexval c.
Proof.
  unfold hex_nibble, hexval. destruct ((48 <=? c) && (c <=? 57)); [reflexivity|]. destruct (N.leb_spec 97 c); destruct (N.leb_spec c 102); cbn [andb]; [f_equal; lia|..];
    (destruct (N.leb_spec 65 c); destruct (N.leb_spec c 70); cbn [andb]; [f_equal; lia|..]; reflexivity).
Qed.
Lemma hex4_read h u tail : unit16 h u -> parse_hex4 (h ++ tail) = Some (u, tail) /\ u < 65536.
Proof.
  intros U. destruct (hex4_is _ _ U) as (a & b & c & d & -> & E & L). split; [|exact L]. cbn [app parse_hex4]. rewrite !nibble_val. unfold hex4 in E.
  destruct (hexval a), (hexval b), (hexval c), (hexval d); try discriminate. congruence.
Qed.
Lemma lor_low k n a : k = N.shiftl (k / 2 ^ n) n -> a < 2 ^ n -> N.lor k a = k + a.
Proof.
  intros K L. assert (Z0 : N.land k a = 0).
  { apply N.bits_inj_0. intros i. rewrite N.land_spec. destruct (N.ltb_spec i n) as [I|I].
    - rewrite K. rewrite N.shiftl_spec_low by exact I. reflexivity.
    - destruct (N.eq_dec a 0) as [->|NZ]; [rewrite N.bits_0; apply andb_false_r|]. rewrite (N.bits_above_log2 a i); [apply andb_false_r|]. apply N.log2_lt_pow2 in L; lia. }
  rewrite <- (N.lxor_lor _ _ Z0). symmetry. apply N.add_nocarry_lxor, Z0.
Qed.
Lemma encoded max d u p t : utf8_of u p -> u < 1114112 -> N.of_nat (length d + length p) <= max -> encode_utf8 max d u t = Ok (d ++ p, t).
Proof.
  intros P UL R. unfold encode_utf8. rewrite !N.shiftr_div_pow2. change 63 with (N.ones 6). rewrite !N.land_ones. change (2 ^ 6) with 64. change (2 ^ 12) with 4096. change (2 ^ 18) with 262144. change (2 ^ 0) with 1. rewrite !N.div_1_r.
  pose proof (utf8_is _ _ P) as E. unfold utf8 in E. destruct (N.leb_spec u 127) as [A|A].
  - destruct (N.ltb_spec u 128); [|lia]. subst p. cbn [length] in R. destruct (N.ltb_spec (N.of_nat (length d)) max); [|lia]. rewrite puts_ok by (cbn [length]; lia). reflexivity.
  - destruct (N.ltb_spec u 128); [lia|]. pose proof (N.mod_lt u 64). pose proof (N.mod_lt (u / 64) 64). pose proof (N.mod_lt (u / 4096) 64).
    destruct (N.leb_spec u 2047) as [B|B].
    + destruct (N.ltb_spec u 2048); [|lia]. subst p. cbn [length] in R. destruct (N.leb_spec (N.of_nat (length d) + 2) max); [|lia].
      assert (u / 64 < 32) by (apply N.div_lt_upper_bound; lia). rewrite (lor_low 192 5), (lor_low 128 6) by (try reflexivity; assumption || (change (2 ^ 6) with 64; lia)). rewrite puts_ok by (cbn [length]; lia). reflexivity.
    + destruct (N.ltb_spec u 2048); [lia|]. destruct (N.leb_spec u 65535) as [C|C].
      * destruct (N.ltb_spec u 65536); [|lia]. subst p. cbn [length] in R. destruct (N.leb_spec (N.of_nat (length d) + 3) max); [|lia].
        assert (u / 4096 < 16) by (apply N.div_lt_upper_bound; lia). rewrite (lor_low 224 4), !(lor_low 128 6) by (try reflexivity; assumption || (change (2 ^ 6) with 64; lia)). rewrite puts_ok by (cbn [length]; lia). reflexivity.
      * destruct (N.ltb_spec u 65536); [lia|]. subst p. cbn [length] in R. destruct (N.leb_spec u 1114111); [|lia]. destruct (N.leb_spec (N.of_nat (length d) + 4) max); [|lia].
        assert (u / 262144 < 8) by (apply N.div_lt_upper_bound; lia). rewrite (lor_low 240 3), !(lor_low 128 6) by (try reflexivity; assumption || (change (2 ^ 6) with 64; lia)). rewrite puts_ok by (cbn [length]; lia). reflexivity.
Qed.
Lemma utf8_nonempty u p : utf8_of u p -> p <> [].
Proof. intros [(L & ->)|[(a & b & -> & B & L & ->)|[(a & b & c & -> & B & C & L & ->)|(a & b & c & d & -> & B & C & D & L & ->)]]]; discriminate. Qed.
Lemma not_in_app (c : N) a b : ~ In c (a ++ b) -> ~ In c b. Proof. intros H I. apply H, in_or_app. right. exact I. Qed.
Lemma string_read v t : str_text v t -> ~ In 8 v -> ~ In 12 v -> forall fuel max d tr rest, N.of_nat (length d + length v) <= max -> (length t < fuel)%nat ->
  read_string fuel max d tr (t ++ 34 :: rest) = Ok (d ++ v, tr, 34 :: rest).
Proof.
  induction 1 as [|c v t L N1 N2 _ IH|x y v t X _ IH|h u p v t U POS NS P _ IH|h u g w p v t U W RU RW P _ IH]; intros B8 B12 fuel max d tr rest R F; (destruct fuel as [|fuel]; [lia|]).
  - rewrite app_nil_r. reflexivity.
  - cbn [length app] in *. cbn [read_string cur adv bind]. destruct (N.eqb_spec c 0); [lia|]. destruct (N.eqb_spec c 34); [contradiction|]. destruct (N.eqb_spec c 92); [contradiction|]. cbn [orb andb].
    destruct (N.leb_spec max (N.of_nat (length d))); [lia|]. rewrite put_ok by lia. cbn [bind]. rewrite IH; [rewrite <- app_assoc; reflexivity|intros I; apply B8; right; exact I|intros I; apply B12; right; exact I|rewrite app_length; cbn [length]; lia|lia].
  - cbn [length app] in *. cbn [read_string cur adv bind]. change (92 =? 0) with false. change (92 =? 34) with false. change (92 =? 92) with true. cbn [orb andb]. destruct (N.leb_spec max (N.of_nat (length d))); [lia|].
    assert (K : x =? 0 = false /\ x =? 117 = false /\ (if x =? 110 then 10 else if x =? 114 then 13 else if x =? 116 then 9 else x) = y).
    { cbn [In escapes] in X. repeat (destruct X as [X|X]; [apply pair_equal_spec in X as (<- & <-); try (exfalso; (apply B8; left; reflexivity) || (apply B12; left; reflexivity)); repeat split|]). destruct X. }
    destruct K as (K0 & K1 & K2). rewrite K0. cbn [negb]. rewrite K1, K2. rewrite put_ok by lia. cbn [bind]. rewrite IH; [rewrite <- app_assoc; reflexivity|intros I; apply B8; right; exact I|intros I; apply B12; right; exact I|rewrite app_length; cbn [length]; lia|lia].
  - rewrite app_length in R. pose proof (utf8_nonempty _ _ P) as NE. assert (1 <= length p)%nat by (destruct p; [contradiction|cbn; lia]).
    change ((92 :: 117 :: h ++ t) ++ 34 :: rest) with (92 :: 117 :: ((h ++ t) ++ 34 :: rest)). rewrite <- app_assoc. cbn [length] in F. rewrite app_length in F. cbn [read_string cur adv bind]. change (92 =? 0) with false. change (92 =? 34) with false. change (92 =? 92) with true. change (117 =? 0) with false. change (117 =? 117) with true. cbn [orb andb negb]. destruct (N.leb_spec max (N.of_nat (length d))); [lia|].
    destruct (hex4_read _ _ (t ++ 34 :: rest) U) as (E & L). unfold unicode_escape. rewrite E.
    assert (N1 : (55296 <=? u) && (u <=? 56319) = false) by (destruct (N.leb_spec 55296 u); destruct (N.leb_spec u 56319); cbn; lia || reflexivity). assert (N2 : (56320 <=? u) && (u <=? 57343) = false) by (destruct (N.leb_spec 56320 u); destruct (N.leb_spec u 57343); cbn; lia || reflexivity).
    rewrite N1, N2, (encoded max d u p tr P) by lia. cbn [bind fst snd]. rewrite IH; [rewrite <- app_assoc; reflexivity|eapply not_in_app, B8|eapply not_in_app, B12|rewrite app_length; lia|lia].
  - rewrite app_length in R. pose proof (utf8_nonempty _ _ P) as NE. assert (1 <= length p)%nat by (destruct p; [contradiction|cbn; lia]).
    change ((92 :: 117 :: h ++ 92 :: 117 :: g ++ t) ++ 34 :: rest) with (92 :: 117 :: ((h ++ 92 :: 117 :: g ++ t) ++ 34 :: rest)). rewrite <- app_assoc. cbn [length] in F. rewrite app_length in F. cbn [length] in F. rewrite app_length in F. cbn [read_string cur adv bind]. change (92 =? 0) with false. change (92 =? 34) with false. change (92 =? 92) with true. change (117 =? 0) with false. change (117 =? 117) with true. cbn [orb andb negb]. destruct (N.leb_spec max (N.of_nat (length d))); [lia|].
    destruct (hex4_read _ _ ((92 :: 117 :: g ++ t) ++ 34 :: rest) U) as (E & L). unfold unicode_escape. rewrite E.
    assert (N1 : (55296 <=? u) && (u <=? 56319) = true) by (destruct (N.leb_spec 55296 u); destruct (N.leb_spec u 56319); cbn; lia || reflexivity). rewrite N1.
    cbn [app cur skipn]. change ((92 =? 92) && (117 =? 117)) with true. cbv iota. destruct (hex4_read _ _ (t ++ 34 :: rest) W) as (E' & L'). rewrite <- app_assoc, E'.
    assert (N2 : (56320 <=? w) && (w <=? 57343) = true) by (destruct (N.leb_spec 56320 w); destruct (N.leb_spec w 57343); cbn; lia || reflexivity). rewrite N2. cbv zeta.
    rewrite N.shiftl_mul_pow2. change (2 ^ 10) with 1024. rewrite (encoded max d _ p tr P) by lia. cbn [bind fst snd]. rewrite IH; [rewrite <- app_assoc; reflexivity|eapply not_in_app, B8|eapply not_in_app, B12|rewrite app_length; lia|lia].
Qed.
Lemma utf8_nul u p : utf8_of u p -> 0 < u -> ~ In 0 p.
Proof. intros [(L & ->)|[(a & b & -> & B & L & ->)|[(a & b & c & -> & B & C & L & ->)|(a & b & c & d & -> & B & C & D & L & ->)]]] POS; cbn [In]; lia. Qed.
Lemma value_nul v t : str_text v t -> ~ In 0 v.
Proof.
  induction 1 as [|c v t L N1 N2 _ IH|x y v t X _ IH|h u p v t U POS NS P _ IH|h u g w p v t U W RU RW P _ IH].
  - intros [].
  - intros [J|J]; [lia|exact (IH J)].
  - intros [J|J]; [|exact (IH J)]. subst y. cbn [In escapes] in X. repeat (destruct X as [X|X]; [congruence|]). exact X.
  - intros J. apply in_app_or in J as [J|J]; [exact (utf8_nul _ _ P POS J)|exact (IH J)].
  - intros J. apply in_app_or in J as [J|J]; [refine (utf8_nul _ _ P _ J); lia|exact (IH J)].
Qed.
Lemma hex_not_quote h u : unit16 h u -> ~ In 34 h /\ ~ In 0 h.
Proof.
  intros (a & b & c & d & p & q & r & t & -> & A & B & C & D & _). inversion A; inversion B; inversion C; inversion D; subst; cbn [In]; split; lia.
Qed.
Lemma no_quote_text v t : str_text v t -> ~ In 34 v -> ~ In 34 t /\ ~ In 0 t.
Proof.
  induction 1 as [|c v t L N1 N2 _ IH|x y v t X _ IH|h u p v t U POS NS P _ IH|h u g w p v t U W RU RW P _ IH]; intros NQ.
  - split; intros [].
  - destruct IH as (I1 & I2); [intros J; apply NQ; right; exact J|]. split; (intros [J|J]; [lia|auto]).
  - destruct IH as (I1 & I2); [intros J; apply NQ; right; exact J|]. cbn [In escapes] in X.
    destruct X as [X|X]; [apply pair_equal_spec in X as (<- & <-); exfalso; apply NQ; left; reflexivity|].
    repeat (destruct X as [X|X]; [apply pair_equal_spec in X as (<- & <-); cbn [In]; split; intuition lia|]). destruct X.
  - destruct IH as (I1 & I2); [eapply not_in_app, NQ|]. destruct (hex_not_quote _ _ U) as (H1 & H2). cbn [In]. rewrite !in_app_iff. intuition lia.
  - destruct IH as (I1 & I2); [eapply not_in_app, NQ|]. destruct (hex_not_quote _ _ U) as (H1 & H2). destruct (hex_not_quote _ _ W) as (H3 & H4). cbn [In]. rewrite !in_app_iff. cbn [In]. rewrite !in_app_iff. intuition lia.
Qed.
Lemma to_quote_stops t rest : ~ In 34 t -> ~ In 0 t -> to_quote (t ++ 34 :: rest) = 34 :: rest.
Proof.
  induction t as [|c t IH]; intros A B; [reflexivity|]. cbn [app to_quote]. cbn [In] in A, B. destruct (N.eqb_spec c 0); [exfalso; apply B; left; assumption|]. destruct (N.eqb_spec c 34); [exfalso; apply A; left; assumption|]. cbn [orb]. apply IH; intuition.
Qed.
Lemma until_nul_same v : ~ In 0 v -> until_nul v = v.
Proof. induction v as [|c v IH]; intros J; [reflexivity|]. cbn [until_nul]. destruct (N.eqb_spec c 0); [exfalso; apply J; left; assumption|]. f_equal. apply IH. intros I. apply J. right. exact I. Qed.

(** ** One tag *)
(** What the reader passes over between values *)
Definition gap (g : list N) : Prop := Forall (fun c => In c [32; 9; 10; 13; 44]) g.
Lemma ws_gap w : ws w -> gap w. Proof. apply Forall_impl. cbn [In]. tauto. Qed.
Lemma gap_app a b : gap a -> gap b -> gap (a ++ b). Proof. intros A B. apply Forall_app. split; assumption. Qed.
Lemma gap_44 g : gap g -> gap (44 :: g). Proof. intros G. constructor; [cbn; tauto|exact G]. Qed.
Lemma skip_gap g s : gap g -> skip_ws (g ++ s) = skip_ws s.
Proof.
  induction 1 as [|c g C _ IH]; [reflexivity|]. cbn [app skip_ws]. cbn [In] in C.
  repeat (destruct C as [<-|C]; [exact IH|]). destruct C.
Qed.
Lemma cur_gap g c s : gap g -> c <> 0 -> c <> 93 -> cur (g ++ c :: s) =? 0 = false /\ cur (g ++ c :: s) =? 93 = false.
Proof.
  intros [|x r C _] A B; cbn [app cur]; [split; apply N.eqb_neq; assumption|]. cbn [In] in C. repeat (destruct C as [<-|C]; [split; reflexivity|]). destruct C.
Qed.
Definition put_field (field : nat) (b : bufs) (v : list N) : bufs := if (field <? 4)%nat then set_field field b v else b.
Fixpoint put_fields (field : nat) (b : bufs) (vs : list (list N)) : bufs :=
  match vs with [] => b | v :: r => put_fields (S field) (put_field field b v) r end.
Definition field_fine (field : nat) (v : list N) : Prop :=
  match room field with Some m => N.of_nat (length v) <= m /\ ~ In 8 v /\ ~ In 12 v | None => ~ In 34 v end.
Fixpoint fields_fine (field : nat) (vs : list (list N)) : Prop :=
  match vs with [] => True | v :: r => field_fine field v /\ fields_fine (S field) r end.
Lemma one_field fuel field b g v t rest : str_text v t -> field_fine field v -> gap g ->
  read_fields (S fuel) field b (g ++ 34 :: t ++ 34 :: rest) = read_fields fuel (S field) (put_field field b v) rest.
Proof.
  intros ST FF G. cbn [read_fields]. destruct (cur_gap g 34 (t ++ 34 :: rest) G) as (C0 & C1); [discriminate|discriminate|]. rewrite C0, C1. cbn [orb]. rewrite (skip_gap _ _ G). cbn [skip_ws]. change ((34 =? 32) || (34 =? 10) || (34 =? 13) || (34 =? 9) || (34 =? 44)) with false. cbv iota. cbn [cur adv bind].
  change (34 =? 93) with false. change (34 =? 34) with true. cbn [negb]. unfold field_fine in FF. unfold put_field.
  destruct field as [|[|[|[|field]]]]; cbn [room nth_error field_max] in *.
  5:{ replace (nth_error [] field) with (@None N) in FF by (destruct field; reflexivity). destruct (no_quote_text _ _ ST FF) as (A & B). rewrite (to_quote_stops _ _ A B). reflexivity. }
  all: destruct FF as (L & N8 & N12); rewrite (string_read _ _ ST N8 N12) by (cbn [length]; rewrite ?app_length; cbn [length]; lia); cbn [bind app];
    match goal with |- context [?m <? ?x] => destruct (N.ltb_spec m x); [lia|] end; rewrite (until_nul_same _ (value_nul _ _ ST)); reflexivity.
Qed.
Lemma elem_strings l s : elems l s -> forall vs, l = map JStr vs -> forall fuel field b g rest, (length vs < fuel)%nat -> fields_fine field vs -> gap g ->
  read_fields fuel field b (g ++ s ++ 93 :: rest) = Ok (put_fields field b vs, 93 :: rest).
Proof.
  intros H. induction H as [j w1 s w2 W1 T W2|j l w1 s w2 r W1 T W2 E IH]; intros vs EQ fuel field b g rest F FF G; (destruct vs as [|v vs]; [discriminate|]); cbn [map] in EQ.
  - destruct vs; [|discriminate]. assert (j = JStr v) by congruence. subst j. inversion T as [| | | |v1 s1 ST| | | |]; subst. cbn [length] in F. destruct fuel as [|[|fuel]]; [lia|lia|]. flat. rewrite app_assoc.
    destruct FF as (FF & _). rewrite (one_field _ _ _ _ _ _ _ ST) by (first [assumption|apply gap_app; [assumption|apply ws_gap; assumption]]). cbn [put_fields].
    cbn [read_fields]. destruct w2 as [|c w2]; [reflexivity|]. pose proof (ws_gap _ W2) as W2'. destruct (N.eqb_spec (cur ((c :: w2) ++ 93 :: rest)) 0) as [Z|_]; [exfalso; inversion W2'; subst; cbn [app cur] in Z; subst; cbn [In] in *; intuition discriminate|].
    destruct (N.eqb_spec (cur ((c :: w2) ++ 93 :: rest)) 93) as [Z|_]; [exfalso; inversion W2'; subst; cbn [app cur] in Z; subst; cbn [In] in *; intuition discriminate|]. cbn [orb]. rewrite (skip_gap _ _ W2'). reflexivity.
  - assert (j = JStr v) by congruence. assert (l = map JStr vs) by congruence. subst j. inversion T as [| | | |v1 s1 ST| | | |]; subst. cbn [length] in F. destruct fuel as [|fuel]; [lia|]. flat. rewrite app_assoc.
    destruct FF as (FF & FS). rewrite (one_field _ _ _ _ _ _ _ ST) by (first [assumption|apply gap_app; [assumption|apply ws_gap; assumption]]). cbn [put_fields].
    match goal with |- read_fields _ _ _ (w2 ++ 44 :: ?z) = _ => change (w2 ++ 44 :: z) with (w2 ++ [44] ++ z) end. rewrite app_assoc. apply IH; [reflexivity|lia|exact FS|]. apply gap_app; [apply ws_gap, W2|apply gap_44; constructor].
Qed.
Lemma fine_fields t : short t -> tame t -> fields_fine 0 t.
Proof.
  intros SH TA. assert (G : forall vs n, (forall k v, nth_error vs k = Some v -> nth_error t (n + k) = Some v) -> fields_fine n vs).
  { induction vs as [|v vs IH]; intros n E; [constructor|]. split.
    - specialize (E 0%nat v eq_refl). rewrite Nat.add_0_r in E. specialize (TA _ _ E). unfold field_fine. destruct (room n) as [m|] eqn:R.
      + split; [exact (SH _ _ _ E R)|]. destruct (Nat.ltb_spec n 4); [exact TA|]. exfalso. unfold room in R. assert (nth_error [63; 1023; 511; 255] n = None) by (apply nth_error_None; cbn; lia). congruence.
      + destruct (Nat.ltb_spec n 4); [|exact TA]. exfalso. unfold room in R. apply nth_error_None in R. cbn in R. lia.
    - apply IH. intros k x X. rewrite Nat.add_succ_comm. apply (E (S k)), X. }
  apply (G t 0%nat). auto.
Qed.
Lemma strings_longer l s : elems l s -> forall vs, l = map JStr vs -> (length vs < length s)%nat.
Proof.
  intros H. induction H as [j w1 s w2 W1 T W2|j l w1 s w2 r W1 T W2 E IH]; intros vs EQ; (destruct vs as [|v vs]; [discriminate|]); cbn [map] in EQ.
  - destruct vs; [|discriminate]. assert (j = JStr v) by congruence. subst j. inversion T; subst. repeat (rewrite app_length; cbn [length]). lia.
  - assert (j = JStr v) by congruence. subst j. inversion T; subst. specialize (IH vs ltac:(congruence)). repeat (rewrite app_length; cbn [length]). lia.
Qed.
Lemma tag_read t s : text (JArr (map JStr t)) s -> short t -> tame t -> exists s0, s = 91 :: s0 /\
  forall fuel rest, (length s0 <= fuel)%nat -> exists b, read_fields (S fuel) 0 no_bufs (s0 ++ rest) = Ok (b, 93 :: rest) /\ b = put_fields 0 no_bufs t.
Proof.
  intros T SH TA. inversion T as [| | | | |w W E|l s0 E Q| |]; subst.
  - destruct t; [|discriminate]. eexists. split; [reflexivity|]. intros fuel rest F. exists no_bufs. split; [|reflexivity]. rewrite <- app_assoc. cbn [app read_fields].
    destruct w as [|c w]; [reflexivity|]. pose proof (ws_gap _ W) as W'. destruct (N.eqb_spec (cur ((c :: w) ++ 93 :: rest)) 0) as [Z|_]; [exfalso; inversion W'; subst; cbn [app cur] in Z; subst; cbn [In] in *; intuition discriminate|].
    destruct (N.eqb_spec (cur ((c :: w) ++ 93 :: rest)) 93) as [Z|_]; [exfalso; inversion W'; subst; cbn [app cur] in Z; subst; cbn [In] in *; intuition discriminate|]. cbn [orb]. rewrite (skip_gap _ _ W'). reflexivity.
  - eexists. split; [reflexivity|]. intros fuel rest F. eexists. split; [|reflexivity]. rewrite <- app_assoc. cbn [app]. pose proof (strings_longer _ _ E t eq_refl). rewrite app_length in F. cbn [length] in F.
    apply (elem_strings _ _ E t eq_refl _ _ _ []); [lia|apply fine_fields; assumption|constructor].
Qed.
Definition item_of (t : list (list N)) : list item :=
  match t with
  | n :: v :: r => if nonempty n && nonempty v then [mkItem n v (given (nth_error r 0)) (given (nth_error r 1)) true] else []
  | _ => []
  end.
Lemma put_later vs : forall n b, (4 <= n)%nat -> put_fields n b vs = b.
Proof. induction vs as [|v vs IH]; intros n b L; [reflexivity|]. cbn [put_fields]. unfold put_field. destruct (Nat.ltb_spec n 4); [lia|]. apply IH. lia. Qed.
Lemma opt_given v : opt_of (match v with Some x => x | None => [] end) = given v.
Proof. destruct v as [[|c v]|]; reflexivity. Qed.
Lemma tag_item t b : b = put_fields 0 no_bufs t ->
  (if nonempty (b_tag b) && nonempty (b_value b) then [mkItem (b_tag b) (b_value b) (opt_of (b_relay b)) (opt_of (b_pet b)) true] else []) = item_of t.
Proof.
  intros ->. destruct t as [|n [|v r]]; [reflexivity|cbn; rewrite andb_false_r; reflexivity|]. cbn [item_of].
  assert (F : forall k w b, put_field k b w = (match k with 0 | 1 | 2 | 3 => set_field k b w | _ => b end)%nat) by (intros [|[|[|[|k]]]] w b; reflexivity).
  destruct r as [|a [|p r]]; cbn [put_fields]; rewrite ?put_later by lia; rewrite !F; cbn [set_field b_tag b_value b_relay b_pet no_bufs nth_error];
    (destruct (nonempty n && nonempty v); [|reflexivity]); rewrite <- ?(opt_given (Some a)), <- ?(opt_given (Some p)); reflexivity.
Qed.

(** ** The whole array *)
Lemma elem_tags l s : elems l s -> forall tags, l = map (fun t => JArr (map JStr t)) tags -> forall fuel acc g rest, (length s < fuel)%nat -> Forall short tags -> Forall tame tags -> gap g ->
  N.of_nat (length acc + length (flat_map item_of tags)) <= 4096 ->
  read_items fuel acc (g ++ s ++ 93 :: rest) = Ok (acc ++ flat_map item_of tags).
Proof.
  assert (STEP : forall t s0 fuel acc g rest, text (JArr (map JStr t)) s0 -> short t -> tame t -> gap g -> N.of_nat (length acc + length (item_of t)) <= 4096 ->
    read_items (S fuel) acc (g ++ s0 ++ rest) = read_items fuel (acc ++ item_of t) rest).
  { intros t s0 fuel acc g rest T SH TA G CAP. destruct (tag_read _ _ T SH TA) as (s1 & -> & RD). cbn [read_items app]. destruct (cur_gap g 91 (s1 ++ rest) G) as (C0 & C1); [discriminate|discriminate|].
    rewrite C0, (skip_gap _ _ G). cbn [skip_ws]. change ((91 =? 32) || (91 =? 10) || (91 =? 13) || (91 =? 9) || (91 =? 44)) with false. cbv iota. cbn [cur adv bind]. change (91 =? 93) with false. change (91 =? 91) with true. cbn [negb].
    destruct (RD (S (length (s1 ++ rest))) rest) as (b & E & B); [rewrite app_length; lia|]. rewrite E. cbn [bind cur]. change (93 =? 93) with true. cbv iota. cbn [skipn]. rewrite <- (tag_item t b B) in *. destruct (nonempty (b_tag b) && nonempty (b_value b)).
    - unfold push_item. cbn [length] in CAP. pose proof max_items. destruct (Nat.leb_spec MAX_ITEM_COUNT (length acc)); [lia|]. reflexivity.
    - rewrite app_nil_r. reflexivity. }
  intros H. induction H as [j w1 s w2 W1 T W2|j l w1 s w2 r W1 T W2 E IH]; intros tags EQ fuel acc g rest F SH TA G CAP; (destruct tags as [|t tags]; [discriminate|]); cbn [map] in EQ; (destruct fuel as [|fuel]; [lia|]).
  - destruct tags; [|discriminate]. assert (j = JArr (map JStr t)) by congruence. subst j. inversion SH; inversion TA; subst. cbn [flat_map] in *. rewrite app_nil_r in *. rewrite <- !app_assoc. rewrite (app_assoc g w1). rewrite (STEP t) by (first [assumption|apply gap_app; [assumption|apply ws_gap; assumption]]).
    destruct (text_start _ _ T) as (c0 & r0 & Q & _). repeat (rewrite app_length in F; cbn [length] in F). rewrite Q in F. cbn [length] in F. destruct fuel as [|fuel]; [lia|]. cbn [read_items]. destruct w2 as [|c w2]; [reflexivity|]. pose proof (ws_gap _ W2) as W2'.
    destruct (N.eqb_spec (cur ((c :: w2) ++ 93 :: rest)) 0) as [Z|_]; [exfalso; inversion W2'; subst; cbn [app cur] in Z; subst; cbn [In] in *; intuition discriminate|]. rewrite (skip_gap _ _ W2'). reflexivity.
  - assert (j = JArr (map JStr t)) by congruence. assert (l = map (fun t => JArr (map JStr t)) tags) by congruence. subst j. inversion SH; inversion TA; subst. cbn [flat_map] in *. rewrite app_length in CAP. flat. rewrite (app_assoc g w1). rewrite (STEP t) by (first [assumption|lia|apply gap_app; [assumption|apply ws_gap; assumption]]).
    match goal with |- read_items _ _ (w2 ++ 44 :: ?z) = _ => change (w2 ++ 44 :: z) with (w2 ++ [44] ++ z) end. rewrite app_assoc. rewrite (IH tags eq_refl); [rewrite <- app_assoc; reflexivity| |assumption|assumption|apply gap_app; [apply ws_gap, W2|apply gap_44; constructor]|rewrite app_length; lia].
    repeat (rewrite app_length in F; cbn [length] in F). lia.
Qed.
Lemma stand_items tags xs : stand_for tags xs -> xs = flat_map item_of tags.
Proof.
  induction 1 as [|t ts x xs S _ IH]; [reflexivity|]. cbn [flat_map]. rewrite <- IH. f_equal. inversion S as [n v r A B|t' L|n v r A]; subst; cbn [item_of].
  - rewrite (proj2 (nonempty_iff n)), (proj2 (nonempty_iff v)) by assumption. reflexivity.
  - destruct t as [|a [|b r]]; [reflexivity|reflexivity|cbn in L; lia].
  - destruct A as [-> | ->]; cbn [nonempty andb]; [reflexivity|]. rewrite andb_false_r. reflexivity.
Qed.
Lemma private_read tags xs s l : json_text (tags_tree tags) s -> Forall short tags -> Forall tame tags -> stand_for tags xs -> N.of_nat (length l + length xs) <= 4096 ->
  parse_private_content s l = Ok (l ++ xs).
Proof.
  intros (w1 & t & w2 & W1 & T & W2 & ->) SH TA SF CAP. apply stand_items in SF. subst xs. unfold parse_private_content.
  assert (TB : forall s, to_bracket (w1 ++ 91 :: s) = 91 :: s).
  { intros s. clear - W1. induction W1 as [|c w C _ IH]; [reflexivity|]. cbn [app to_bracket]. cbn [In] in C. repeat (destruct C as [<-|C]; [exact IH|]). destruct C. }
  unfold tags_tree in T. inversion T as [| | | | |w W E|l0 s0 E Q| |]; subst.
  - destruct tags; [|discriminate]. destruct (Nat.ltb_spec (length (w1 ++ (91 :: w ++ [93]) ++ w2)) 2) as [L|_]; [rewrite app_nil_r; reflexivity|]. cbn [app]. rewrite <- app_assoc. rewrite TB. cbn [cur adv bind]. change (91 =? 0) with false. cbv iota. cbn [read_items app flat_map]. rewrite app_nil_r.
    destruct w as [|c w]; [reflexivity|]. pose proof (ws_gap _ W) as W'. match goal with |- context [cur ?x =? 0] => destruct (N.eqb_spec (cur x) 0) as [Z|_]; [reflexivity|] end. rewrite (skip_gap _ _ W'). reflexivity.
  - destruct (Nat.ltb_spec (length (w1 ++ (91 :: s0 ++ [93]) ++ w2)) 2) as [L|_]; [repeat (rewrite app_length in L; cbn [length] in L); lia|]. cbn [app]. rewrite <- app_assoc. rewrite TB. cbn [cur adv bind]. change (91 =? 0) with false. cbv iota.
    apply (elem_tags _ _ E tags eq_refl _ _ []); try assumption; [|constructor]. repeat (rewrite app_length; cbn [length]). lia.
Qed.

(** * C133 *)
Lemma text_no_nul t s : json_text t s -> ~ In 0 s.
Proof.
  intros (w1 & x & w2 & W1 & T & W2 & ->). apply nested_nul, plain_nested; [apply ws_plain, W1|]. apply (proj1 text_nested _ _ T). rewrite <- (app_nil_r w2). apply plain_nested; [apply ws_plain, W2|constructor].
Qed.
(** Whatever client wrote it and however it laid out and escaped the text: the owner
    gets what everyone gets, followed by the private items in order. *)
Theorem C133_read_partial : forall decrypt e sk pk c l s tags xs, ev_content e = Some c -> c <> [] -> decrypt sk pk c = Ok s ->
  json_text (tags_tree tags) s -> Forall short tags -> Forall tame tags -> stand_for tags xs ->
  from_event decrypt e None = Ok l -> N.of_nat (length (nl_items l) + length xs) <= 4096 ->
  from_event decrypt e (Some (sk, pk)) = Ok (mkList (nl_kind l) (nl_d l) (nl_title l) (nl_desc l) (nl_image l) (nl_items l ++ xs)).
Proof.
  intros decrypt e sk pk c l s tags xs EC NE D J SH TA SF PUB CAP. unfold from_event in *. destruct (read_tags _ (ev_tags e)) as [l0| |]; try discriminate. cbn [bind] in *. rewrite EC in *.
  assert (l0 = l) by (destruct c; congruence). subst l0. destruct c as [|c0 c]; [contradiction|]. rewrite D. cbn [bind]. rewrite (until_nul_same _ (text_no_nul _ _ J)), (private_read _ _ _ _ J SH TA SF CAP). reflexivity.
Qed.

(** ** What is written *)
Lemma list_escaped s : cstr_ok s -> str_text s (json_escape s).
Proof.
  induction 1 as [|c s C _ IH]; [constructor|]. unfold json_escape in *. cbn [flat_map]. set (t := flat_map Nip51.escape_char s) in *. unfold char_ok in C. unfold Nip51.escape_char.
  destruct (N.eqb_spec c 34); [subst; apply StrEscape; [cbn; tauto|exact IH]|]. destruct (N.eqb_spec c 92); [subst; apply StrEscape; [cbn; tauto|exact IH]|]. destruct (N.eqb_spec c 10); [subst; apply StrEscape; [cbn; tauto|exact IH]|].
  destruct (N.eqb_spec c 13); [subst; apply StrEscape; [cbn; tauto|exact IH]|]. destruct (N.eqb_spec c 9); [subst; apply StrEscape; [cbn; tauto|exact IH]|].
  destruct (N.ltb_spec c 32) as [L|L].
  - change ([92; 117; 48; 48; hexdigit (c / 16); hexdigit (c mod 16)] ++ t) with (92 :: 117 :: ([48; 48; hexdigit (c / 16); hexdigit (c mod 16)] ++ t)). change (c :: s) with ([c] ++ s).
    assert (D : c / 16 < 2) by (apply N.div_lt_upper_bound; lia). assert (E : c mod 16 < 16) by (apply N.mod_lt; lia). pose proof (N.div_mod c 16 ltac:(lia)) as DM. set (q := c / 16) in *. set (m := c mod 16) in *. clearbody q m.
    apply (StrUnit _ c); [exists 48, 48, (hexdigit q), (hexdigit m), 0, 0, q, m; split; [reflexivity|]; split; [apply (HexNum 0); lia|]; split; [apply (HexNum 0); lia|]; split; [apply hexdigit_lower; lia|]; split; [apply hexdigit_lower; lia|lia]|lia|lia|left; split; [lia|reflexivity]|exact IH].
  - apply StrChar; assumption.
Qed.
Lemma more_strings v t l r : str_text v t -> elems l r -> elems (JStr v :: l) (34 :: t ++ 34 :: 44 :: r).
Proof. intros A B. replace (34 :: t ++ 34 :: 44 :: r) with ([] ++ (34 :: t ++ [34]) ++ [] ++ 44 :: r) by (flat; reflexivity). apply ElMore; [apply ws_nil|apply TxStr, A|apply ws_nil|exact B]. Qed.
Lemma one_string v t : str_text v t -> elems [JStr v] (34 :: t ++ [34]).
Proof. intros A. replace (34 :: t ++ [34]) with ([] ++ (34 :: t ++ [34]) ++ []) by (flat; rewrite ?app_nil_r; reflexivity). apply ElOne; [apply ws_nil|apply TxStr, A|apply ws_nil]. Qed.
Lemma item_written x : strings_ok x -> text (JArr (map JStr (tag_of_item x))) (item_text x).
Proof.
  intros (A & B & C & D). unfold item_text, tag_of_item. apply list_escaped in A, B.
  destruct (it_relay x) as [r|]; [specialize (C r eq_refl); apply list_escaped in C|]; (destruct (it_pet x) as [p|]; [specialize (D p eq_refl); apply list_escaped in D|]); cbn [map].
  - replace (bs "[" ++ _) with (91 :: (34 :: json_escape (it_tag x) ++ 34 :: 44 :: 34 :: json_escape (it_value x) ++ 34 :: 44 :: 34 :: json_escape r ++ 34 :: 44 :: 34 :: json_escape p ++ [34]) ++ [93]) by (change (bs "[") with [91]; change (bs ",") with [44]; change (bs "]") with [93]; flat; reflexivity).
    apply TxArr. do 3 (apply more_strings; [assumption|]). apply one_string. assumption.
  - replace (bs "[" ++ _) with (91 :: (34 :: json_escape (it_tag x) ++ 34 :: 44 :: 34 :: json_escape (it_value x) ++ 34 :: 44 :: 34 :: json_escape r ++ [34]) ++ [93]) by (change (bs "[") with [91]; change (bs ",") with [44]; change (bs "]") with [93]; flat; reflexivity).
    apply TxArr. do 2 (apply more_strings; [assumption|]). apply one_string. assumption.
  - replace (bs "[" ++ _) with (91 :: (34 :: json_escape (it_tag x) ++ 34 :: 44 :: 34 :: json_escape (it_value x) ++ 34 :: 44 :: 34 :: [] ++ 34 :: 44 :: 34 :: json_escape p ++ [34]) ++ [93]) by (change (bs "[") with [91]; change (bs ",") with [44]; change (bs "]") with [93]; flat; reflexivity).
    apply TxArr. do 2 (apply more_strings; [assumption|]). apply more_strings; [constructor|]. apply one_string. assumption.
  - replace (bs "[" ++ _) with (91 :: (34 :: json_escape (it_tag x) ++ 34 :: 44 :: 34 :: json_escape (it_value x) ++ [34]) ++ [93]) by (change (bs "[") with [91]; change (bs ",") with [44]; change (bs "]") with [93]; flat; reflexivity).
    apply TxArr. apply more_strings; [assumption|]. apply one_string. assumption.
Qed.
Lemma items_written its : Forall (fun x => it_private x = true) its -> its <> [] -> Forall strings_ok its -> elems (map (fun t => JArr (map JStr t)) (map tag_of_item its)) (items_text true its).
Proof.
  intros P NE OK. assert (G : forall f, items_text f its = (if f then [] else bs ",") ++ items_text true its) by (intros f; destruct its as [|x its]; [contradiction|]; cbn [items_text]; inversion P as [|? ? PX _]; rewrite PX; destruct f; reflexivity). clear G.
  induction its as [|x its IH]; [contradiction|]. inversion P as [|? ? PX P']; inversion OK as [|? ? OX OK']; subst. cbn [items_text map]. rewrite PX. cbn [app]. destruct its as [|y its].
  - cbn [map items_text]. change (item_text x ++ []) with ([] ++ item_text x ++ []). apply ElOne; [apply ws_nil|apply item_written, OX|apply ws_nil].
  - replace (item_text x ++ items_text false (y :: its)) with ([] ++ item_text x ++ [] ++ 44 :: items_text true (y :: its)).
    + apply ElMore; [apply ws_nil|apply item_written, OX|apply ws_nil|]. apply IH; [assumption|discriminate|assumption].
    + inversion P' as [|? ? PY _]; subst. cbn [items_text app]. rewrite PY. reflexivity.
Qed.
(** What the library encrypts is JSON that any client reads as the private items. *)
Theorem C133_written : forall lim encrypt l sk pk nonce now e, to_event lim encrypt l (Some (sk, pk)) nonce now = Ok e ->
  (exists x, In x (nl_items l) /\ it_private x = true) -> Forall strings_ok (nl_items l) ->
  exists t c, json_text (tags_tree (map tag_of_item (filter it_private (nl_items l)))) t /\ encrypt sk pk nonce t = Ok c /\ ev_content e = Some c.
Proof.
  intros lim encrypt l sk pk nonce now e E (x & IX & PX) OK. destruct (to_event_spec _ _ _ _ _ _ _ E) as (_ & _ & [(Z & _)|(sk' & pk' & t & c & K & NZ & B & EN & EC)]).
  { exfalso. unfold count_private in Z. apply length_zero_iff_nil in Z. assert (X : In x (filter it_private (nl_items l))) by (apply filter_In; auto). rewrite Z in X. exact X. }
  exists t, c. assert (sk' = sk) by congruence. assert (pk' = pk) by congruence. subst. split; [|auto].
  unfold build_private_content in B. destruct (count_private (nl_items l) =? 0)%nat eqn:CP; [apply Nat.eqb_eq in CP; contradiction|]. destruct (buffer_size (nl_items l) 2) as [n|]; [|discriminate]. destruct (n <? _); [discriminate|]. assert (T : t = bs "[" ++ items_text true (nl_items l) ++ bs "]") by congruence. subst t.
  apply text_alone. unfold tags_tree. rewrite items_text_private. change (bs "[" ++ ?a ++ bs "]") with (91 :: a ++ [93]). apply TxArr, items_written.
  - apply Forall_forall. intros y Y. apply filter_In in Y. tauto.
  - intros Q. assert (X : In x (filter it_private (nl_items l))) by (apply filter_In; auto). rewrite Q in X. exact X.
  - apply Forall_forall. intros y Y. apply filter_In in Y as (Y & _). rewrite Forall_forall in OK. auto.
Qed.

(** ** What is not read back *)
Lemma tags_print tags : Forall (Forall cstr_ok) tags -> json_text (tags_tree tags) (jprint (tags_tree tags)).
Proof.
  intros F. apply text_alone, print_text. unfold tags_tree. apply WArr. apply Forall_map. eapply Forall_impl; [|exact F]. intros t T. cbv beta. apply WArr. apply Forall_map. eapply Forall_impl; [|exact T]. intros v V. apply WStr, V.
Qed.
Definition sealed (tags : list (list (list N))) : event := mkEvent (repeat 0 32) (repeat 0 32) 0 10000 [] (Some (jprint (tags_tree tags))) (repeat 0 64).
(** A backspace (and a form feed) written the short way becomes a letter. *)
Theorem C133_refuted : ~ (forall decrypt e sk pk c l s tags xs, ev_content e = Some c -> c <> [] -> decrypt sk pk c = Ok s ->
  json_text (tags_tree tags) s -> Forall short tags -> Forall (fun t => length t <= 4)%nat tags -> stand_for tags xs ->
  from_event decrypt e None = Ok l -> N.of_nat (length (nl_items l) + length xs) <= 4096 ->
  from_event decrypt e (Some (sk, pk)) = Ok (mkList (nl_kind l) (nl_d l) (nl_title l) (nl_desc l) (nl_image l) (nl_items l ++ xs))).
Proof.
  intros H. set (tags := [[bs "word"; [97; 8; 99]]]).
  specialize (H (fun _ _ c => Ok c) (sealed tags) [] [] (jprint (tags_tree tags)) (mkList 10000 None None None None []) (jprint (tags_tree tags)) tags [mkItem (bs "word") [97; 8; 99] None None true]).
  assert (X : from_event (fun _ _ c => Ok c) (sealed tags) (Some ([], [])) = Ok (mkList 10000 None None None None [mkItem (bs "word") [97; 98; 99] None None true])) by (vm_compute; reflexivity).
  rewrite X in H. discriminate H; clear H X.
  - reflexivity.
  - discriminate.
  - reflexivity.
  - apply tags_print. constructor; [|constructor]. constructor; [apply cstr_dec; reflexivity|constructor; [apply cstr_dec; reflexivity|constructor]].
  - constructor; [|constructor]. intros [|[|n]] v m E R; [| |destruct n; discriminate E]; (assert (V := E); cbn [nth_error tags] in V; cbn [room nth_error] in R; assert (M := R); revert V M; clear; intros [= <-] [= <-]; discriminate).
  - constructor; [cbn; lia|constructor].
  - change [mkItem (bs "word") [97; 8; 99] None None true] with ([mkItem (bs "word") [97; 8; 99] (given (nth_error [] 0)) (given (nth_error [] 1)) true] ++ []). constructor; [apply StandsItem; discriminate|constructor].
  - vm_compute. reflexivity.
  - cbn. discriminate.
Qed.
(** A quote in the fifth string of a tag makes the whole list unreadable. *)
Theorem C133_extra_refuted : ~ (forall decrypt e sk pk c l s tags xs, ev_content e = Some c -> c <> [] -> decrypt sk pk c = Ok s ->
  json_text (tags_tree tags) s -> Forall short tags -> Forall (Forall (fun v => ~ In 8 v /\ ~ In 12 v)) tags -> stand_for tags xs ->
  from_event decrypt e None = Ok l -> N.of_nat (length (nl_items l) + length xs) <= 4096 ->
  from_event decrypt e (Some (sk, pk)) = Ok (mkList (nl_kind l) (nl_d l) (nl_title l) (nl_desc l) (nl_image l) (nl_items l ++ xs))).
Proof.
  intros H. set (tags := [[bs "t"; bs "x"; []; []; bs "a""b"]]).
  specialize (H (fun _ _ c => Ok c) (sealed tags) [] [] (jprint (tags_tree tags)) (mkList 10000 None None None None []) (jprint (tags_tree tags)) tags [mkItem (bs "t") (bs "x") None None true]).
  assert (X : from_event (fun _ _ c => Ok c) (sealed tags) (Some ([], [])) = Err EJsonParse) by (vm_compute; reflexivity).
  rewrite X in H. discriminate H; clear H X.
  - reflexivity.
  - discriminate.
  - reflexivity.
  - apply tags_print. constructor; [|constructor]. repeat (apply Forall_cons; [apply cstr_dec; reflexivity|]). constructor.
  - constructor; [|constructor]. intros n v m E R. unfold room in R. assert (L : (n < 4)%nat) by (apply (proj1 (nth_error_Some [63; 1023; 511; 255] n)); congruence).
    destruct n as [|[|[|[|n]]]]; [..|lia]; cbn [nth_error tags] in E, R; (assert (EE := E); assert (RR := R); revert EE RR; clear; intros [= <-] [= <-]; discriminate).
  - constructor; [|constructor]. repeat (apply Forall_cons; [cbn; lia|]). constructor.
  - change [mkItem (bs "t") (bs "x") None None true] with ([mkItem (bs "t") (bs "x") (given (nth_error [[]; []; bs "a""b"] 0)) (given (nth_error [[]; []; bs "a""b"] 1)) true] ++ []). constructor; [apply StandsItem; discriminate|constructor].
  - vm_compute. reflexivity.
  - cbn. discriminate.
Qed.
(** So does one string that is too long for its field. *)
Theorem C133_long_refuted : ~ (forall decrypt e sk pk c l s tags xs, ev_content e = Some c -> c <> [] -> decrypt sk pk c = Ok s ->
  json_text (tags_tree tags) s -> Forall tame tags -> Forall (fun t => length t <= 4)%nat tags -> stand_for tags xs ->
  from_event decrypt e None = Ok l -> N.of_nat (length (nl_items l) + length xs) <= 4096 ->
  from_event decrypt e (Some (sk, pk)) = Ok (mkList (nl_kind l) (nl_d l) (nl_title l) (nl_desc l) (nl_image l) (nl_items l ++ xs))).
Proof.
  intros H. set (long := repeat 97 256). set (tags := [[bs "p"; bs "x"; []; long]]).
  specialize (H (fun _ _ c => Ok c) (sealed tags) [] [] (jprint (tags_tree tags)) (mkList 10000 None None None None []) (jprint (tags_tree tags)) tags [mkItem (bs "p") (bs "x") None (Some long) true]).
  assert (X : from_event (fun _ _ c => Ok c) (sealed tags) (Some ([], [])) = Err EJsonParse) by (vm_compute; reflexivity).
  rewrite X in H. discriminate H; clear H X.
  - reflexivity.
  - discriminate.
  - reflexivity.
  - apply tags_print. constructor; [|constructor]. repeat (apply Forall_cons; [apply cstr_dec; reflexivity|]). constructor.
  - constructor; [|constructor]. assert (NI : forall k, k <> 97 -> ~ In k long) by (intros k K I; apply repeat_spec in I; congruence).
    intros n v E. destruct n as [|[|[|[|n]]]]; cbn [nth_error tags] in E; [..|destruct n; discriminate]; cbn [Nat.ltb Nat.leb]; (assert (EE : Some v = Some v) by reflexivity); (match type of E with Some ?a = _ => assert (v = a) by congruence; subst v end); try (cbn; lia); split; apply NI; discriminate.
  - constructor; [cbn; lia|constructor].
  - change [mkItem (bs "p") (bs "x") None (Some long) true] with ([mkItem (bs "p") (bs "x") (given (nth_error [[]; long] 0)) (given (nth_error [[]; long] 1)) true] ++ []). constructor; [apply StandsItem; discriminate|constructor].
  - vm_compute. reflexivity.
  - cbn. discriminate.
Qed.
(** Another client's text: spaces, an escaped slash, an escaped letter outside ASCII and
    a pair of surrogates, a tag without value. *)
Example C133_meets :
  let tags := [[bs "p"; bs "ab"; bs "wss://r"; 195 :: 169 :: 240 :: 159 :: 152 :: [128]]; [bs "x"]; [bs "t"; bs "cat"]] in
  let s := bs " [ [""p"" , ""\u0061b"",""wss:\/\/r"" ,""\u00e9\uD83D\ude00""], [ ""x""],[""t"",""cat"" ] ]" in
  json_text (tags_tree tags) s /\ Forall short tags /\ Forall tame tags /\
  stand_for tags [mkItem (bs "p") (bs "ab") (Some (bs "wss://r")) (Some (195 :: 169 :: 240 :: 159 :: 152 :: [128])) true; mkItem (bs "t") (bs "cat") None None true].
Proof.
  cbv zeta. set (tags := [_; _; _]).
  assert (ch : forall c v t, (32 <=? c) && negb (c =? 34) && negb (c =? 92) = true -> str_text v t -> str_text (c :: v) (c :: t)).
  { intros c v t C T. rewrite !andb_true_iff, !negb_true_iff, !N.eqb_neq, N.leb_le in C. apply StrChar; tauto. }
  assert (sp : ws [32]) by (constructor; [cbn; tauto|constructor]).
  split; [|split; [|split]].
  - exists [32], (bs "[ [""p"" , ""\u0061b"",""wss:\/\/r"" ,""\u00e9\uD83D\ude00""], [ ""x""],[""t"",""cat"" ] ]"), []. split; [exact sp|]. split; [|split; [constructor|vm_compute; reflexivity]].
    refine (TxArr _ (bs " [""p"" , ""\u0061b"",""wss:\/\/r"" ,""\u00e9\uD83D\ude00""], [ ""x""],[""t"",""cat"" ] ") _). cbn [map tags].
    refine (ElMore _ _ [32] (bs "[""p"" , ""\u0061b"",""wss:\/\/r"" ,""\u00e9\uD83D\ude00""]") [] (bs " [ ""x""],[""t"",""cat"" ] ") sp _ ws_nil _).
    + refine (TxArr _ (bs """p"" , ""\u0061b"",""wss:\/\/r"" ,""\u00e9\uD83D\ude00""") _).
      refine (ElMore _ _ [] (bs """p""") [32] (bs " ""\u0061b"",""wss:\/\/r"" ,""\u00e9\uD83D\ude00""") ws_nil _ sp _); [refine (TxStr _ (bs "p") _); apply ch; [reflexivity|constructor]|].
      refine (ElMore _ _ [32] (bs """\u0061b""") [] (bs """wss:\/\/r"" ,""\u00e9\uD83D\ude00""") sp _ ws_nil _).
      { refine (TxStr _ (bs "\u0061b") _). refine (StrUnit (bs "0061") 97 [97] (bs "b") (bs "b") _ _ _ _ _); [|lia|lia|left; split; [lia|reflexivity]|apply ch; [reflexivity|constructor]].
        exists 48, 48, 54, 49, 0, 0, 6, 1. split; [reflexivity|]. split; [apply (HexNum 0); lia|]. split; [apply (HexNum 0); lia|]. split; [apply (HexNum 6); lia|]. split; [apply (HexNum 1); lia|lia]. }
      refine (ElMore _ _ [] (bs """wss:\/\/r""") [32] (bs """\u00e9\uD83D\ude00""") ws_nil _ sp _).
      { refine (TxStr _ (bs "wss:\/\/r") _). do 4 (apply ch; [reflexivity|]). do 2 (apply StrEscape; [cbn; tauto|]). apply ch; [reflexivity|constructor]. }
      refine (ElOne _ [] (bs """\u00e9\uD83D\ude00""") [] ws_nil _ ws_nil). refine (TxStr _ (bs "\u00e9\uD83D\ude00") _).
      refine (StrUnit (bs "00e9") 233 [195; 169] (240 :: 159 :: 152 :: [128]) (bs "\uD83D\ude00") _ _ _ _ _); [|lia|lia|right; left; exists 3, 41; repeat split; lia|].
      { exists 48, 48, 101, 57, 0, 0, 14, 9. split; [reflexivity|]. split; [apply (HexNum 0); lia|]. split; [apply (HexNum 0); lia|]. split; [apply (HexLow 14); lia|]. split; [apply (HexNum 9); lia|lia]. }
      refine (StrPair (bs "D83D") 55357 (bs "de00") 56832 (240 :: 159 :: 152 :: [128]) [] [] _ _ _ _ _ _); [| |lia|lia|right; right; right; exists 0, 31, 24, 0; repeat split; lia|constructor].
      * exists 68, 56, 51, 68, 13, 8, 3, 13. split; [reflexivity|]. split; [apply (HexUp 13); lia|]. split; [apply (HexNum 8); lia|]. split; [apply (HexNum 3); lia|]. split; [apply (HexUp 13); lia|lia].
      * exists 100, 101, 48, 48, 13, 14, 0, 0. split; [reflexivity|]. split; [apply (HexLow 13); lia|]. split; [apply (HexLow 14); lia|]. split; [apply (HexNum 0); lia|]. split; [apply (HexNum 0); lia|lia].
    + refine (ElMore _ _ [32] (bs "[ ""x""]") [] (bs "[""t"",""cat"" ] ") sp _ ws_nil _).
      * refine (TxArr _ (bs " ""x""") _). refine (ElOne _ [32] (bs """x""") [] sp _ ws_nil). refine (TxStr _ (bs "x") _). apply ch; [reflexivity|constructor].
      * refine (ElOne _ [] (bs "[""t"",""cat"" ]") [32] ws_nil _ sp). refine (TxArr _ (bs """t"",""cat"" ") _).
        refine (ElMore _ _ [] (bs """t""") [] (bs """cat"" ") ws_nil _ ws_nil _); [refine (TxStr _ (bs "t") _); apply ch; [reflexivity|constructor]|].
        refine (ElOne _ [] (bs """cat""") [32] ws_nil _ sp). refine (TxStr _ (bs "cat") _). do 3 (apply ch; [reflexivity|]). constructor.
  - assert (G : forall t, forallb (fun v => (length v <=? 63)%nat) t = true -> short t).
    { intros t T n v m E R. rewrite forallb_forall in T. apply nth_error_In in E. apply T, Nat.leb_le in E. unfold room in R. destruct n as [|[|[|[|n]]]]; cbn [nth_error] in R; [..|destruct n; discriminate]; (assert (M : m <> 0 /\ 63 <= m) by (split; [|]; injection R as <-; lia)); lia. }
    repeat (apply Forall_cons; [apply G; reflexivity|]). constructor.
  - assert (G : forall t, forallb (fun v => forallb (fun c => 40 <=? c) v) t = true -> tame t).
    { intros t T n v E. rewrite forallb_forall in T. apply nth_error_In in E. apply T in E. rewrite forallb_forall in E. destruct (n <? 4)%nat; [split|]; intros I; apply E in I; discriminate. }
    repeat (apply Forall_cons; [apply G; reflexivity|]). constructor.
  - refine (StandCons _ _ [_] [_] _ _); [apply (StandsItem (bs "p") (bs "ab") [bs "wss://r"; [195; 169; 240; 159; 152; 128]]); discriminate|]. refine (StandCons _ _ [] [_] _ _); [apply StandsShort; cbn; lia|]. refine (StandCons _ _ [_] [] _ _); [apply (StandsItem (bs "t") (bs "cat") []); discriminate|constructor].
Qed.
Print Assumptions C133_read_partial.
Print Assumptions C133_written.
Print Assumptions C133_refuted.
Print Assumptions C133_extra_refuted.
Print Assumptions C133_long_refuted.
