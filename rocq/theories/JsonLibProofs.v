(** What the reader makes of what the writer wrote. *)
From Verif Require Import Base BaseFacts Dec Json Hex HexProofs Event EventProofs JsonSpec JsonLib.
Open Scope N_scope.

Lemma json_induct (P : json -> Prop) : P JNull -> (forall b, P (JBool b)) -> (forall n, P (JNum n)) -> (forall s, P (JStr s)) ->
  (forall l, Forall P l -> P (JArr l)) -> (forall l, Forall (fun p => P (snd p)) l -> P (JObj l)) -> forall j, P j.
Proof.
  intros H1 H2 H3 H4 H5 H6. fix F 1. intros [| | | |l|l]; [exact H1|apply H2|apply H3|apply H4|apply H5|apply H6].
  - induction l as [|x l IH]; constructor; [apply F|exact IH].
  - induction l as [|(k, v) l IH]; constructor; [apply F|exact IH].
Qed.
(** ** Strings *)
Lemma hexval_is c v : hexdigit_is c v -> hexval c = Some v /\ v <= 15.
Proof.
  unfold hexval. intros [x L|x L|x L].
  - destruct (N.leb_spec 48 (48 + x)); [|lia]. destruct (N.leb_spec (48 + x) 57); [|lia]. cbn [andb]. split; [f_equal; lia|lia].
  - destruct (N.leb_spec (87 + x) 57); [lia|]. rewrite andb_false_r. destruct (N.leb_spec 97 (87 + x)); [|lia]. destruct (N.leb_spec (87 + x) 102); [|lia]. cbn [andb]. split; [f_equal; lia|lia].
  - destruct (N.leb_spec (55 + x) 57); [lia|]. rewrite andb_false_r. destruct (N.leb_spec 97 (55 + x)); [lia|]. cbn [andb]. destruct (N.leb_spec 65 (55 + x)); [|lia]. destruct (N.leb_spec (55 + x) 70); [|lia]. cbn [andb]. split; [f_equal; lia|lia].
Qed.
Lemma hex4_is h u : unit16 h u -> exists a b c d, h = [a; b; c; d] /\ hex4 a b c d = Some u /\ u < 65536.
Proof.
  intros (a & b & c & d & p & q & r & t & -> & A & B & C & D & ->). exists a, b, c, d. split; [reflexivity|]. apply hexval_is in A as (A & LA), B as (B & LB), C as (C & LC), D as (D & LD).
  unfold hex4. rewrite A, B, C, D. split; [f_equal; lia|lia].
Qed.
Lemma utf8_is u p : utf8_of u p -> utf8 u = p.
Proof.
  unfold utf8. intros [(L & ->)|[(a & b & -> & B & L & ->)|[(a & b & c & -> & B & C & L & ->)|(a & b & c & d & -> & B & C & D & L & ->)]]].
  - destruct (N.ltb_spec u 128); [reflexivity|lia].
  - set (u := a * 64 + b) in *. destruct (N.ltb_spec u 128); [lia|]. destruct (N.ltb_spec u 2048); [|lia].
    assert (E1 : u / 64 = a) by (symmetry; apply (N.div_unique u 64 a b); [exact B|unfold u; lia]). assert (E2 : u mod 64 = b) by (symmetry; apply (N.mod_unique u 64 a b); [exact B|unfold u; lia]). rewrite E1, E2. reflexivity.
  - set (u := (a * 64 + b) * 64 + c) in *. destruct (N.ltb_spec u 128); [lia|]. destruct (N.ltb_spec u 2048); [lia|]. destruct (N.ltb_spec u 65536); [|lia].
    assert (E1 : u / 64 = a * 64 + b) by (symmetry; apply (N.div_unique u 64 (a * 64 + b) c); [exact C|unfold u; lia]). assert (E2 : u mod 64 = c) by (symmetry; apply (N.mod_unique u 64 (a * 64 + b) c); [exact C|unfold u; lia]).
    assert (E3 : u / 4096 = a) by (symmetry; apply (N.div_unique u 4096 a (b * 64 + c)); [lia|unfold u; lia]). rewrite E1, E2, E3.
    assert (E4 : (a * 64 + b) mod 64 = b) by (symmetry; apply (N.mod_unique _ 64 a b); [exact B|lia]). rewrite E4. reflexivity.
  - set (u := ((a * 64 + b) * 64 + c) * 64 + d) in *. destruct (N.ltb_spec u 128); [lia|]. destruct (N.ltb_spec u 2048); [lia|]. destruct (N.ltb_spec u 65536); [lia|].
    assert (E1 : u / 64 = (a * 64 + b) * 64 + c) by (symmetry; apply (N.div_unique u 64 ((a * 64 + b) * 64 + c) d); [exact D|unfold u; lia]). assert (E2 : u mod 64 = d) by (symmetry; apply (N.mod_unique u 64 ((a * 64 + b) * 64 + c) d); [exact D|unfold u; lia]).
    assert (E3 : u / 4096 = a * 64 + b) by (symmetry; apply (N.div_unique u 4096 (a * 64 + b) (c * 64 + d)); [lia|unfold u; lia]). assert (E5 : u / 262144 = a) by (symmetry; apply (N.div_unique u 262144 a ((b * 64 + c) * 64 + d)); [lia|unfold u; lia]). rewrite E1, E2, E3, E5.
    assert (E4 : (a * 64 + b) mod 64 = b) by (symmetry; apply (N.mod_unique _ 64 a b); [exact B|lia]). assert (E6 : ((a * 64 + b) * 64 + c) mod 64 = c) by (symmetry; apply (N.mod_unique _ 64 (a * 64 + b) c); [exact C|lia]). rewrite E4, E6. reflexivity.
Qed.
Lemma jstr_text v t : str_text v t -> forall r, jstr (t ++ 34 :: r) = Some (v, r).
Proof.
  induction 1 as [|c v t L N1 N2 _ IH|x y v t X _ IH|h u p v t U POS NS P _ IH|h u g w p v t U W RU RW P _ IH]; intros r.
  - reflexivity.
  - cbn [app jstr]. destruct (N.eqb_spec c 34); [contradiction|]. destruct (N.ltb_spec c 32); [lia|]. destruct (N.eqb_spec c 92); [contradiction|]. rewrite IH. reflexivity.
  - cbn [In escapes] in X. repeat (destruct X as [X|X]; [apply pair_equal_spec in X as (<- & <-); cbn [app jstr]; vm_compute (_ =? _); vm_compute (_ <? _); cbv iota; rewrite IH; reflexivity|]). destruct X.
  - destruct (hex4_is _ _ U) as (a & b & c & d & -> & E & L). cbn [app jstr]. change (92 =? 34) with false. change (92 <? 32) with false. change (92 =? 92) with true. change (117 =? 117) with true. cbv iota. rewrite E.
    destruct (N.leb_spec 55296 u); destruct (N.leb_spec u 57343); cbn [andb]; [lia|..]; (destruct (N.eqb_spec u 0); [lia|]; rewrite IH, (utf8_is _ _ P); reflexivity).
  - destruct (hex4_is _ _ U) as (a & b & c & d & -> & E & L). destruct (hex4_is _ _ W) as (a' & b' & c' & d' & -> & E' & L'). cbn [app jstr]. change (92 =? 34) with false. change (92 <? 32) with false. change (92 =? 92) with true. change (117 =? 117) with true. cbv iota. rewrite E.
    destruct (N.leb_spec 55296 u); [|lia]. destruct (N.leb_spec u 57343); [|lia]. cbn [andb]. rewrite E'. destruct (N.leb_spec u 56319); [|lia]. destruct (N.leb_spec 56320 w); [|lia]. destruct (N.leb_spec w 57343); [|lia]. cbn [andb]. rewrite IH, (utf8_is _ _ P). reflexivity.
Qed.
(** The escapes the C code writes are such texts. *)
Lemma hexdigit_lower v : v < 16 -> hexdigit_is (hexdigit v) v.
Proof.
  intros L. unfold hexdigit. destruct (N.ltb_spec v 10); [apply HexNum; lia|]. replace (97 + (v - 10)) with (87 + v) by lia. apply HexLow. lia.
Qed.
Lemma escaped_text s : cstr_ok s -> str_text s (escape_json s).
Proof.
  induction 1 as [|c s C _ IH]; [constructor|]. unfold escape_json in *. cbn [flat_map]. set (t := flat_map escape_char s) in *. unfold char_ok in C. unfold escape_char.
  destruct (N.eqb_spec c 34); [subst; apply StrEscape; [cbn; tauto|exact IH]|]. destruct (N.eqb_spec c 92); [subst; apply StrEscape; [cbn; tauto|exact IH]|]. destruct (N.eqb_spec c 10); [subst; apply StrEscape; [cbn; tauto|exact IH]|].
  destruct (N.eqb_spec c 13); [subst; apply StrEscape; [cbn; tauto|exact IH]|]. destruct (N.eqb_spec c 9); [subst; apply StrEscape; [cbn; tauto|exact IH]|]. destruct (N.eqb_spec c 8); [subst; apply StrEscape; [cbn; tauto|exact IH]|]. destruct (N.eqb_spec c 12); [subst; apply StrEscape; [cbn; tauto|exact IH]|].
  destruct (N.ltb_spec c 32) as [L|L].
  - change ((([92; 117; 48; 48] ++ hex_byte c) ++ t)) with (92 :: 117 :: ([48; 48; hexdigit (c / 16); hexdigit (c mod 16)] ++ t)). change (c :: s) with ([c] ++ s).
    assert (D : c / 16 < 2) by (apply N.div_lt_upper_bound; lia). assert (E : c mod 16 < 16) by (apply N.mod_lt; lia). pose proof (N.div_mod c 16 ltac:(lia)) as DM. set (q := c / 16) in *. set (m := c mod 16) in *. clearbody q m.
    apply (StrUnit _ c); [exists 48, 48, (hexdigit q), (hexdigit m), 0, 0, q, m; split; [reflexivity|]; split; [apply (HexNum 0); lia|]; split; [apply (HexNum 0); lia|]; split; [apply hexdigit_lower; lia|]; split; [apply hexdigit_lower; lia|lia]|lia|lia|left; split; [lia|reflexivity]|exact IH].
  - apply StrChar; assumption.
Qed.
(** ** Numbers *)
Definition ends (s : list N) : Prop := match s with [] => True | c :: _ => is_digit c = false /\ c <> 46 /\ c <> 101 /\ c <> 69 end.
Lemma span_all d r : Forall (fun c => is_digit c = true) d -> match r with [] => True | c :: _ => is_digit c = false end -> span_digits (d ++ r) = (d, r).
Proof.
  intros F E. induction F as [|c d C F IH]; cbn [app span_digits]; [destruct r as [|c r]; cbn [span_digits]; [reflexivity|rewrite E; reflexivity]|]. rewrite C, IH. reflexivity.
Qed.
Lemma no_leading_zero f n : n < 10 ^ N.of_nat f -> (length (dec_digits f n) <= 1)%nat \/ hd 0 (dec_digits f n) <> 48.
Proof.
  revert n. induction f as [|f IH]; intros n L; [left; cbn; lia|]. cbn [dec_digits]. destruct (N.ltb_spec n 10) as [S|S]; [left; cbn; lia|]. right.
  assert (Q : n / 10 < 10 ^ N.of_nat f) by (apply N.div_lt_upper_bound; [lia|rewrite Nat2N.inj_succ, N.pow_succ_r' in L; lia]). assert (P : 1 <= n / 10) by (apply N.div_le_lower_bound; lia). set (q := n / 10) in *. clearbody q.
  pose proof (dec_digits_ok f q Q) as (U & _ & _). destruct (IH q Q) as [SH|HD].
  - destruct (dec_digits f q) as [|c [|? ?]]; [|cbn [app hd]|cbn in SH; lia].
    + exfalso. unfold undec, undec_from in U. cbn in U. lia.
    + intros ->. unfold undec, undec_from in U. cbn in U. lia.
  - destruct (dec_digits f q) as [|c d]; [exfalso; unfold undec, undec_from in U; cbn in U; lia|]. exact HD.
Qed.
Lemma jdigits_dec n r : ends r -> jdigits (dec_N n ++ r) = Some (n, r).
Proof.
  intros E. unfold jdigits. rewrite span_all; [|apply dec_is_digits|destruct r; [exact I|apply E]]. pose proof (dec_nonempty n) as D. pose proof (undec_dec n) as U. pose proof (no_leading_zero (S (N.size_nat n)) n (dec_fuel n)) as Z0. fold (dec_N n) in Z0. destruct (dec_N n) as [|c d]; [congruence|].
  replace ((1 <? length (c :: d))%nat && (hd 0 (c :: d) =? 48)) with false; [|symmetry; apply andb_false_iff; destruct Z0 as [Z0|Z0]; [left; apply Nat.ltb_ge; exact Z0|right; apply N.eqb_neq; exact Z0]]. rewrite U.
  destruct r as [|x r]; [reflexivity|]. destruct E as (_ & E1 & E2 & E3). apply N.eqb_neq in E1, E2, E3. rewrite E1, E2, E3. reflexivity.
Qed.
Lemma digit_head n : exists c d, dec_N n = c :: d /\ 48 <= c <= 57.
Proof.
  pose proof (dec_nonempty n) as D. pose proof (dec_is_digits n) as F. destruct (dec_N n) as [|c d]; [congruence|]. exists c, d. split; [reflexivity|]. inversion_clear F as [|? ? C _]. unfold is_digit in C. apply andb_true_iff in C as (A & B). apply N.leb_le in A, B. lia.
Qed.
Lemma jnumber_dec z r : ends r -> jnumber (dec_Z z ++ r) = Some (jint z, r).
Proof.
  intros E. unfold dec_Z. assert (P : forall n, jnumber (dec_N n ++ r) = Some (jint (Z.of_N n), r)).
  { intros n. destruct (digit_head n) as (c & d & Q & G). pose proof (jdigits_dec n r E) as J. unfold jnumber. rewrite Q in *. cbn [app] in *. destruct (N.eqb_spec c 45); [lia|]. rewrite J. reflexivity. }
  destruct z as [|p|p]; [apply P|rewrite P; cbn; reflexivity|]. cbn [app jnumber]. change (45 =? 45) with true. cbv iota. rewrite (jdigits_dec _ _ E). reflexivity.
Qed.
(** ** Values *)
Lemma blank c : In c [32; 9; 10; 13] -> ((c =? 32) || (c =? 9) || (c =? 10) || (c =? 13) = true) /\ ends [c].
Proof. cbn [In]. intros [<-|[<-|[<-|[<-|[]]]]]; (split; [reflexivity|repeat split; discriminate]). Qed.
Lemma jws_app w s : ws w -> jws (w ++ s) = jws s.
Proof. induction 1 as [|c w C _ IH]; [reflexivity|]. cbn [app jws]. destruct (blank c C) as (-> & _). exact IH. Qed.
Lemma jws_idem s : jws (jws s) = jws s.
Proof. induction s as [|c s IH]; [reflexivity|]. cbn [jws]. destruct (_ || _) eqn:B; [exact IH|]. cbn [jws]. rewrite B. reflexivity. Qed.
Lemma ends_ws w r : ws w -> ends r -> ends (w ++ r).
Proof. intros [|c w' C _] E; [exact E|]. cbn [app]. apply blank in C as (_ & C). exact C. Qed.
Lemma ends_44 r : ends (44 :: r). Proof. repeat split; discriminate. Qed.
Lemma ends_93 r : ends (93 :: r). Proof. repeat split; discriminate. Qed.
Lemma ends_125 r : ends (125 :: r). Proof. repeat split; discriminate. Qed.
Definition start_ok (c : N) : Prop := c <> 32 /\ c <> 9 /\ c <> 10 /\ c <> 13 /\ c <> 93 /\ c <> 125.
Lemma jws_start c r : start_ok c -> jws (c :: r) = c :: r.
Proof. intros (A & B & C & D & _). cbn [jws]. apply N.eqb_neq in A, B, C, D. rewrite A, B, C, D. reflexivity. Qed.
Lemma text_start t s : text t s -> exists c r, s = c :: r /\ start_ok c.
Proof.
  intros [ | | |z _|v q _|w _|l q _|w _|l q _]; try (eexists; eexists; split; [reflexivity|]; repeat split; discriminate).
  unfold dec_Z. assert (P : forall n, exists c r, dec_N n = c :: r /\ start_ok c) by (intros n; destruct (digit_head n) as (c & d & Q & G); exists c, d; split; [exact Q|repeat split; lia]).
  destruct z; [apply P|apply P|]. eexists; eexists; split; [reflexivity|]; repeat split; discriminate.
Qed.
Lemma jval_blank k w s : ws w -> jval k (w ++ s) = jval k s.
Proof. intros W. destruct k as [|k]; [reflexivity|]. cbn [jval]. rewrite (jws_app w s W). reflexivity. Qed.
Lemma jval_jws k s : jval k (jws s) = jval k s.
Proof. destruct k as [|k]; [reflexivity|]. cbn [jval]. rewrite jws_idem. reflexivity. Qed.
Lemma jelems_jws k s : jelems k (jws s) = jelems k s.
Proof. destruct k as [|k]; [reflexivity|]. cbn [jelems]. rewrite jval_jws. reflexivity. Qed.
Lemma jmembers_jws k s : jmembers k (jws s) = jmembers k s.
Proof. destruct k as [|k]; [reflexivity|]. cbn [jmembers]. rewrite jws_idem. reflexivity. Qed.
Lemma lit_not c r : 48 <= c <= 57 \/ c = 45 -> (c =? 34) = false /\ (c =? 91) = false /\ (c =? 123) = false /\ prefixb (bs "true") (c :: r) = false /\ prefixb (bs "false") (c :: r) = false /\ prefixb (bs "null") (c :: r) = false.
Proof.
  intros G. change (bs "true") with [116; 114; 117; 101]. change (bs "false") with [102; 97; 108; 115; 101]. change (bs "null") with [110; 117; 108; 108]. cbn [prefixb].
  do 3 (split; [apply N.eqb_neq; lia|]). split; [destruct (N.eqb_spec 116 c); [lia|reflexivity]|]. split; [destruct (N.eqb_spec 102 c); [lia|reflexivity]|destruct (N.eqb_spec 110 c); [lia|reflexivity]].
Qed.
Theorem text_read :
  (forall j s, text j s -> forall k r, (2 * length s <= k)%nat -> ends r -> jval (S k) (s ++ r) = Some (j, r)) /\
  (forall l s, elems l s -> forall k r, (2 * length s + 1 <= k)%nat -> jelems (S k) (s ++ 93 :: r) = Some (l, r)) /\
  (forall l s, members l s -> forall k r, (2 * length s + 1 <= k)%nat -> jmembers (S k) (s ++ 125 :: r) = Some (l, r)).
Proof.
  apply (text_mutual
    (fun j s _ => forall k r, (2 * length s <= k)%nat -> ends r -> jval (S k) (s ++ r) = Some (j, r))
    (fun l s _ => forall k r, (2 * length s + 1 <= k)%nat -> jelems (S k) (s ++ 93 :: r) = Some (l, r))
    (fun l s _ => forall k r, (2 * length s + 1 <= k)%nat -> jmembers (S k) (s ++ 125 :: r) = Some (l, r))).
  - intros k r _ _. reflexivity.
  - intros k r _ _. reflexivity.
  - intros k r _ _. reflexivity.
  - intros z _ k r _ E. pose proof (jnumber_dec z r E) as J.
    assert (HD : exists c d, dec_Z z = c :: d /\ (48 <= c <= 57 \/ c = 45)).
    { unfold dec_Z. destruct z; [destruct (digit_head (Z.to_N 0)) as (c & d & Q & G); eauto|destruct (digit_head (Z.to_N (Z.pos p))) as (c & d & Q & G); eauto|eauto]. }
    destruct HD as (c & d & Q & G). rewrite Q in *. cbn [app] in *. cbn [jval]. rewrite jws_start by (repeat split; lia). destruct (lit_not c (d ++ r) G) as (-> & -> & -> & -> & -> & ->). exact J.
  - intros v s ST k r _ _. cbn [app jval]. change (jws (34 :: ?r)) with (34 :: r). change (34 =? 34) with true. cbv iota. rewrite <- app_assoc. cbn [app]. rewrite (jstr_text _ _ ST). reflexivity.
  - intros w W k r _ _. cbn [app jval]. change (jws (91 :: ?r)) with (91 :: r). change (91 =? 34) with false. change (91 =? 91) with true. cbv iota. rewrite <- app_assoc. rewrite (jws_app w _ W). reflexivity.
  - intros l s EL IH k r L E. cbn [app jval]. change (jws (91 :: ?r)) with (91 :: r). change (91 =? 34) with false. change (91 =? 91) with true. cbv iota. rewrite <- app_assoc. cbn [app].
    cbn [length] in L. rewrite app_length in L. cbn [length] in L. destruct k as [|k]; [lia|]. pose proof (IH k r ltac:(lia)) as R. rewrite <- jelems_jws in R.
    assert (HD : exists c d, jws (s ++ 93 :: r) = c :: d /\ start_ok c).
    { inversion EL; subst; rewrite <- !app_assoc; rewrite jws_app by assumption; match goal with T : text _ _ |- _ => destruct (text_start _ _ T) as (c & d & -> & S) end; cbn [app]; rewrite (jws_start _ _ S); eauto. }
    destruct HD as (c & d & Q & S). rewrite Q in *. destruct (N.eqb_spec c 93) as [->|_]; [exfalso; unfold start_ok in S; tauto|]. rewrite R. reflexivity.
  - intros w W k r _ _. cbn [app jval]. change (jws (123 :: ?r)) with (123 :: r). change (123 =? 34) with false. change (123 =? 91) with false. change (123 =? 123) with true. cbv iota. rewrite <- app_assoc. rewrite (jws_app w _ W). reflexivity.
  - intros l s EL IH k r L E. cbn [app jval]. change (jws (123 :: ?r)) with (123 :: r). change (123 =? 34) with false. change (123 =? 91) with false. change (123 =? 123) with true. cbv iota. rewrite <- app_assoc. cbn [app].
    cbn [length] in L. rewrite app_length in L. cbn [length] in L. destruct k as [|k]; [lia|]. pose proof (IH k r ltac:(lia)) as R. rewrite <- jmembers_jws in R.
    assert (HD : exists d, jws (s ++ 125 :: r) = 34 :: d) by (inversion EL; subst; rewrite <- !app_assoc; rewrite jws_app by assumption; eexists; reflexivity).
    destruct HD as (d & Q). rewrite Q in *. change (34 =? 125) with false. cbv iota. rewrite R. reflexivity.
  - intros j w1 s w2 W1 T IH W2 k r L. rewrite !app_length in L. cbn [jelems]. rewrite <- !app_assoc. rewrite jval_blank by exact W1. destruct k as [|k]; [lia|]. rewrite IH; [|lia|apply ends_ws; [exact W2|apply ends_93]].
    rewrite (jws_app w2 _ W2). reflexivity.
  - intros j l w1 s w2 q W1 T IH W2 EL IHl k r L. rewrite !app_length in L. cbn [length] in L. cbn [jelems]. rewrite <- !app_assoc. rewrite jval_blank by exact W1. destruct k as [|k]; [lia|]. cbn [app]. rewrite IH; [|lia|apply ends_ws; [exact W2|apply ends_44]].
    rewrite (jws_app w2 _ W2). change (jws (44 :: ?r)) with (44 :: r). change (44 =? 44) with true. cbv iota. rewrite IHl by lia. reflexivity.
  - intros key j w0 q w1 w2 s w3 W0 Q W1 W2 T IH W3 k r L. repeat rewrite ?app_length in L; cbn [length] in L. repeat rewrite ?app_length in L; cbn [length] in L. repeat rewrite ?app_length in L; cbn [length] in L. repeat rewrite ?app_length in L.
    cbn [jmembers]. rewrite <- !app_assoc. rewrite (jws_app w0 _ W0). cbn [app]. change (jws (34 :: ?r)) with (34 :: r). change (34 =? 34) with true. cbv iota. rewrite <- !app_assoc. cbn [app]. rewrite (jstr_text _ _ Q). rewrite <- !app_assoc. cbn [app]. rewrite (jws_app w1 _ W1). change (jws (58 :: ?r)) with (58 :: r). change (58 =? 58) with true. cbv iota.
    rewrite <- !app_assoc. rewrite jval_blank by exact W2. destruct k as [|k]; [lia|]. rewrite IH; [|lia|apply ends_ws; [exact W3|apply ends_125]]. rewrite (jws_app w3 _ W3). reflexivity.
  - intros key j l w0 q w1 w2 s w3 t W0 Q W1 W2 T IH W3 ML IHl k r L. repeat rewrite ?app_length in L; cbn [length] in L. repeat rewrite ?app_length in L; cbn [length] in L. repeat rewrite ?app_length in L; cbn [length] in L. repeat rewrite ?app_length in L; cbn [length] in L.
    cbn [jmembers]. rewrite <- !app_assoc. rewrite (jws_app w0 _ W0). cbn [app]. change (jws (34 :: ?r)) with (34 :: r). change (34 =? 34) with true. cbv iota. rewrite <- !app_assoc. cbn [app]. rewrite (jstr_text _ _ Q). rewrite <- !app_assoc. cbn [app]. rewrite (jws_app w1 _ W1). change (jws (58 :: ?r)) with (58 :: r). change (58 =? 58) with true. cbv iota.
    rewrite <- !app_assoc. rewrite jval_blank by exact W2. destruct k as [|k]; [lia|]. cbn [app]. rewrite IH; [|lia|apply ends_ws; [exact W3|apply ends_44]]. rewrite (jws_app w3 _ W3). change (jws (44 :: ?r)) with (44 :: r). change (44 =? 44) with true. cbv iota. rewrite IHl by lia. reflexivity.
Qed.
(** ** The writers *)
Lemma ws_nil : ws []. Proof. constructor. Qed.
Lemma quote_text s : cstr_ok s -> quote s = 34 :: escape_json s ++ [34]. Proof. reflexivity. Qed.
Lemma writable_number z : (Z.abs z < 10 ^ 15)%Z -> text (JNum (JFin z 0)) (dec_Z (jtrunc z 0)).
Proof.
  intros R. replace (jtrunc z 0) with z by (unfold jtrunc; cbn [Z.leb Z.compare]; lia). pose proof (TxNum z ltac:(lia)) as T. unfold jint in T. rewrite round53_small in T by lia. exact T.
Qed.
Theorem print_text : forall t, writable t -> text t (jprint t).
Proof.
  apply (json_induct (fun t => writable t -> text t (jprint t))).
  - intros _. constructor.
  - intros [] _; constructor.
  - intros n W. inversion W; subst. apply writable_number. assumption.
  - intros s W. inversion W; subst. apply TxStr, escaped_text. assumption.
  - intros l IH W. inversion W as [| | | |? WL|]; subst. cbn [jprint]. cbn [app]. destruct l as [|x l]; [apply (TxArr0 []), ws_nil|]. apply TxArr.
    clear W. revert x IH WL. induction l as [|y l IHl]; intros x IH WL; inversion_clear IH as [|? ? X Y]; inversion_clear WL as [|? ? WX WY].
    + cbn [map join_comma]. pose proof (ElOne x [] (jprint x) [] ws_nil (X WX) ws_nil) as E. cbn [app] in E. rewrite app_nil_r in E. exact E.
    + change (join_comma (map jprint (x :: y :: l))) with (jprint x ++ [] ++ 44 :: join_comma (map jprint (y :: l))). apply (ElMore x (y :: l) [] (jprint x) [] _ ws_nil (X WX) ws_nil). apply IHl; assumption.
  - intros l IH W. inversion W as [| | | | |? WL]; subst. cbn [jprint app]. destruct l as [|x l]; [apply (TxObj0 []), ws_nil|]. apply TxObj. set (member := fun p : list N * json => _).
    clear W. revert x IH WL. induction l as [|y l IHl]; intros (k, x) IH WL; inversion_clear IH as [|? ? X Y]; inversion_clear WL as [|? ? (WK & WX) WY]; cbn [fst snd] in *.
    + cbn [map join_comma]. assert (E : member (k, x) = [] ++ 34 :: escape_json k ++ 34 :: [] ++ 58 :: [] ++ jprint x ++ []) by (unfold member, quote; rewrite app_nil_r, <- !app_assoc; reflexivity). rewrite E. apply MbOne; auto using ws_nil, escaped_text.
    + assert (E : join_comma (map member ((k, x) :: y :: l)) = [] ++ 34 :: escape_json k ++ 34 :: [] ++ 58 :: [] ++ jprint x ++ [] ++ 44 :: join_comma (map member (y :: l))).
      { change (join_comma (map member ((k, x) :: y :: l))) with (member (k, x) ++ [44] ++ join_comma (map member (y :: l))). unfold member at 1, quote. rewrite <- !app_assoc. reflexivity. }
      rewrite E. apply MbMore; auto using ws_nil, escaped_text.
Qed.
Lemma tabs_ws n : ws (repeat 9 n). Proof. induction n; constructor; [cbn; tauto|assumption]. Qed.
Ltac flat := repeat (first [rewrite <- app_assoc | progress cbn [app]]).
Theorem pretty_text : forall t, writable t -> forall d, text t (jpretty d t).
Proof.
  apply (json_induct (fun t => writable t -> forall d, text t (jpretty d t))).
  - intros W d. apply (print_text JNull W).
  - intros b W d. apply (print_text _ W).
  - intros n W d. apply (print_text _ W).
  - intros s W d. apply (print_text _ W).
  - intros l IH W d. inversion W as [| | | |? WL|]; subst. cbn [jpretty app]. destruct l as [|x l]; [apply (TxArr0 []), ws_nil|]. apply TxArr.
    assert (G : forall w, ws w -> elems (x :: l) (w ++ join_with [44; 32] (map (jpretty (S d)) (x :: l)))); [|apply (G [] ws_nil)].
    clear W. revert x IH WL. induction l as [|y l IHl]; intros x IH WL w WW; inversion_clear IH as [|? ? X Y]; inversion_clear WL as [|? ? WX WY].
    + cbn [map join_with]. pose proof (ElOne x w _ [] WW (X WX (S d)) ws_nil) as E. rewrite app_nil_r in E. exact E.
    + change (w ++ join_with [44; 32] (map (jpretty (S d)) (x :: y :: l))) with (w ++ jpretty (S d) x ++ [] ++ 44 :: ([32] ++ join_with [44; 32] (map (jpretty (S d)) (y :: l)))). apply ElMore; [exact WW|apply (X WX)|apply ws_nil|]. apply IHl; [exact Y|exact WY|]. apply Forall_cons; [cbn; tauto|constructor].
  - intros l IH W d. inversion W as [| | | | |? WL]; subst. destruct l as [|x l]; [apply (TxObj0 (10 :: repeat 9 d)); apply Forall_cons; [cbn; tauto|apply tabs_ws]|]. cbn [jpretty]. set (member := fun p : list N * json => _).
    assert (G : forall w, ws w -> members (x :: l) (w ++ join_with [44; 10] (map member (x :: l)) ++ 10 :: repeat 9 d)).
    { clear W. revert x IH WL. induction l as [|y l IHl]; intros (k, x) IH WL w WW; inversion_clear IH as [|? ? X Y]; inversion_clear WL as [|? ? (WK & WX) WY]; cbn [fst snd] in *.
      + cbn [map join_with]. assert (E : w ++ member (k, x) ++ 10 :: repeat 9 d = (w ++ repeat 9 (S d)) ++ 34 :: escape_json k ++ 34 :: [] ++ 58 :: [9] ++ jpretty (S d) x ++ 10 :: repeat 9 d) by (unfold member, quote; flat; reflexivity). rewrite E.
        apply MbOne; auto using ws_nil, escaped_text; [apply Forall_app; split; [exact WW|apply tabs_ws]|apply Forall_cons; [cbn; tauto|constructor]|apply Forall_cons; [cbn; tauto|apply tabs_ws]].
      + assert (E : w ++ join_with [44; 10] (map member ((k, x) :: y :: l)) ++ 10 :: repeat 9 d = (w ++ repeat 9 (S d)) ++ 34 :: escape_json k ++ 34 :: [] ++ 58 :: [9] ++ jpretty (S d) x ++ [] ++ 44 :: ([10] ++ join_with [44; 10] (map member (y :: l)) ++ 10 :: repeat 9 d)).
        { change (join_with [44; 10] (map member ((k, x) :: y :: l))) with (member (k, x) ++ [44; 10] ++ join_with [44; 10] (map member (y :: l))). unfold member at 1, quote. flat. reflexivity. }
        rewrite E. apply MbMore; auto using ws_nil, escaped_text; [apply Forall_app; split; [exact WW|apply tabs_ws]|apply Forall_cons; [cbn; tauto|constructor]|]. apply IHl; [exact Y|exact WY|apply Forall_cons; [cbn; tauto|constructor]]. }
    pose proof (TxObj _ _ (G [10] ltac:(apply Forall_cons; [cbn; tauto|constructor]))) as T. cbn [app] in T |- *. revert T. flat. exact (fun T => T).
Qed.
(** ** The reader with either writer is a library as asked for *)
Theorem jparse_text : forall t s, json_text t s -> jparse s = Some t.
Proof.
  intros t s (w1 & x & w2 & W1 & T & W2 & ->). unfold jparse. rewrite !app_length. replace (2 * (length w1 + (length x + length w2)) + 2)%nat with (S (2 * (length w1 + (length x + length w2)) + 1)) by lia.
  rewrite (jval_blank _ w1 _ W1). assert (E : ends w2) by (destruct W2 as [|c w2 C _]; [exact I|apply blank in C as (_ & C); exact C]). rewrite (proj1 text_read t x T _ w2) by (first [lia|exact E]). reflexivity.
Qed.
Lemma text_alone t s : text t s -> json_text t s.
Proof. intros T. exists [], s, []. rewrite app_nil_r. repeat split; auto using ws_nil. Qed.
Theorem compact_library : json_library jprint jparse.
Proof. constructor; [exact print_text|intros t s T _; exact (jparse_text t s T)]. Qed.
Theorem pretty_library : json_library (jpretty 0) jparse.
Proof. constructor; [intros t W; apply pretty_text, W|intros t s T _; exact (jparse_text t s T)]. Qed.
