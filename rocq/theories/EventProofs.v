(** Lemmas about event serialization. *)
From Verif Require Import Base BaseFacts Dec Json Hex HexSpec HexProofs Event EventSpec.
Open Scope N_scope.

(** *** Escaping is a prefix code *)
Definition unesc1 (l : list N) : option (N * list N) :=
  match l with
  | [] => None
  | c :: r =>
    if c =? 92 then
      match r with
      | [] => None
      | x :: r =>
        if x =? 110 then Some (10, r) else if x =? 114 then Some (13, r)
        else if x =? 116 then Some (9, r) else if x =? 98 then Some (8, r)
        else if x =? 102 then Some (12, r)
        else if x =? 117 then
          match r with
          | _ :: _ :: h :: l :: r =>
            match hex_nibble h, hex_nibble l with
            | Some a, Some b => Some (a * 16 + b, r)
            | _, _ => None
            end
          | _ => None
          end
        else Some (x, r)
      end
    else Some (c, r)
  end.

Lemma unesc1_escape c r : c < 256 -> unesc1 (escape_char c ++ r) = Some (c, r).
Proof.
  intros H. unfold escape_char.
  destruct (N.eqb_spec c 34) as [->|]; [reflexivity|].
  destruct (N.eqb_spec c 92) as [->|]; [reflexivity|].
  destruct (N.eqb_spec c 10) as [->|]; [reflexivity|].
  destruct (N.eqb_spec c 13) as [->|]; [reflexivity|].
  destruct (N.eqb_spec c 9) as [->|]; [reflexivity|].
  destruct (N.eqb_spec c 8) as [->|]; [reflexivity|].
  destruct (N.eqb_spec c 12) as [->|]; [reflexivity|].
  destruct (N.ltb_spec c 32).
  - assert (D1 : c / 16 < 16) by (apply N.div_lt_upper_bound; lia).
    assert (D2 : c mod 16 < 16) by (apply N.mod_lt; lia).
    apply hexdig_hexdigit, nibble_hexdig in D1. apply hexdig_hexdigit, nibble_hexdig in D2.
    unfold hex_byte. cbn [app unesc1]. change (92 =? 92) with true. cbv iota.
    change (117 =? 110) with false. change (117 =? 114) with false. change (117 =? 116) with false.
    change (117 =? 98) with false. change (117 =? 102) with false. change (117 =? 117) with true.
    cbv iota. rewrite D1, D2. f_equal. f_equal. rewrite N.mul_comm. symmetry. apply N.div_mod'.
  - cbn [app unesc1]. replace (c =? 92) with false by (symmetry; apply N.eqb_neq; assumption).
    reflexivity.
Qed.

Lemma escape_char_head c : exists x r, escape_char c = x :: r /\ x <> 34.
Proof.
  unfold escape_char.
  destruct (N.eqb_spec c 34) as [->|]; [exists 92, [34]; split; [reflexivity|lia]|].
  destruct (c =? 92); [eexists _, _; split; [reflexivity|lia]|].
  destruct (c =? 10); [eexists _, _; split; [reflexivity|lia]|].
  destruct (c =? 13); [eexists _, _; split; [reflexivity|lia]|].
  destruct (c =? 9); [eexists _, _; split; [reflexivity|lia]|].
  destruct (c =? 8); [eexists _, _; split; [reflexivity|lia]|].
  destruct (c =? 12); [eexists _, _; split; [reflexivity|lia]|].
  destruct (c <? 32); [eexists _, _; split; [reflexivity|lia]|].
  exists c, []. split; [reflexivity|assumption].
Qed.

Lemma escape_unique : forall s s' r r', bytes_ok s -> bytes_ok s' ->
  escape_json s ++ 34 :: r = escape_json s' ++ 34 :: r' -> s = s' /\ r = r'.
Proof.
  induction s as [|c s IH]; intros s' r r' B B' E.
  - destruct s' as [|c' s']; [injection E as ->; auto|].
    exfalso. cbn [escape_json flat_map app] in E. rewrite <- app_assoc in E.
    destruct (escape_char_head c') as (x & t & Hx & Hn). rewrite Hx in E.
    cbn [app] in E. injection E as E _. congruence.
  - inversion B as [|? ? Bc Bs]; subst. destruct s' as [|c' s'].
    + exfalso. cbn [escape_json flat_map app] in E. rewrite <- app_assoc in E.
      destruct (escape_char_head c) as (x & t & Hx & Hn). rewrite Hx in E.
      cbn [app] in E. injection E as E _. congruence.
    + inversion B' as [|? ? Bc' Bs']; subst.
      cbn [escape_json flat_map] in E. rewrite <- !app_assoc in E.
      assert (U : unesc1 (escape_char c ++ escape_json s ++ 34 :: r) =
                  unesc1 (escape_char c' ++ escape_json s' ++ 34 :: r')) by (f_equal; exact E).
      rewrite !unesc1_escape in U by assumption. injection U as -> U.
      destruct (IH s' r r' Bs Bs' U) as (-> & ->). auto.
Qed.

Lemma quote_unique s s' r r' : bytes_ok s -> bytes_ok s' ->
  quote s ++ r = quote s' ++ r' -> s = s' /\ r = r'.
Proof.
  intros B B' E. unfold quote in E. cbn [app] in E. injection E as E.
  rewrite <- !app_assoc in E. cbn [app] in E. eapply escape_unique; eassumption.
Qed.

(** *** Comma-joined lists of self-delimiting items *)
Lemma join_unique {A} (f : A -> list N) (P : A -> Prop) (hd : N) :
  hd <> 93 ->
  (forall a, exists t, f a = hd :: t) ->
  (forall a b x y, P a -> P b -> f a ++ x = f b ++ y -> a = b /\ x = y) ->
  forall l l' r r', Forall P l -> Forall P l' ->
  join_comma (map f l) ++ 93 :: r = join_comma (map f l') ++ 93 :: r' -> l = l' /\ r = r'.
Proof.
  intros Hhd Hf Hu.
  assert (J : forall x y l, join_comma (map f (x :: y :: l)) = f x ++ [44] ++ join_comma (map f (y :: l)))
    by reflexivity.
  induction l as [|a l IH]; intros l' r r' F F' E.
  - destruct l' as [|b l']; [injection E as ->; auto|]. exfalso.
    destruct (Hf b) as (t & Ht).
    destruct l' as [|b' l']; [|rewrite J in E]; cbn [map join_comma app] in E;
      rewrite ?Ht in E; cbn [app] in E; injection E as E _; congruence.
  - inversion F as [|? ? Pa Fl]; subst. destruct l' as [|b l'].
    + exfalso. destruct (Hf a) as (t & Ht).
      destruct l as [|a' l]; [|rewrite J in E]; cbn [map join_comma app] in E;
        rewrite ?Ht in E; cbn [app] in E; injection E as E _; congruence.
    + inversion F' as [|? ? Pb Fl']; subst.
      destruct l as [|a' l]; destruct l' as [|b' l'].
      * cbn [map join_comma] in E. apply Hu in E as (-> & E); [|assumption|assumption].
        injection E as ->. auto.
      * exfalso. rewrite J, <- !app_assoc in E. cbn [map join_comma] in E.
        apply Hu in E as (_ & E); [|assumption|assumption]. cbn [app] in E. discriminate.
      * exfalso. rewrite J, <- !app_assoc in E. cbn [map join_comma] in E.
        apply Hu in E as (_ & E); [|assumption|assumption]. cbn [app] in E. discriminate.
      * rewrite !J, <- !app_assoc in E.
        apply Hu in E as (-> & E); [|assumption|assumption]. cbn [app] in E. injection E as E.
        destruct (IH (b' :: l') r r' Fl Fl' E) as (-> & ->). auto.
Qed.

Definition tag_bytes (vs : list (list N)) : Prop := Forall bytes_ok vs.

Lemma ser_tag_unique vs vs' r r' : tag_bytes vs -> tag_bytes vs' ->
  ser_tag vs ++ r = ser_tag vs' ++ r' -> vs = vs' /\ r = r'.
Proof.
  intros B B' E. unfold ser_tag in E. cbn [app] in E. injection E as E.
  rewrite <- !app_assoc in E. cbn [app] in E.
  eapply (join_unique quote bytes_ok 34); try eassumption; try lia.
  - intros a. eexists. reflexivity.
  - intros. eapply quote_unique; eassumption.
Qed.

Lemma ser_tags_unique ts ts' r r' : Forall tag_bytes ts -> Forall tag_bytes ts' ->
  join_comma (map ser_tag ts) ++ 93 :: r = join_comma (map ser_tag ts') ++ 93 :: r' ->
  ts = ts' /\ r = r'.
Proof.
  apply (join_unique ser_tag tag_bytes 91); try lia.
  - intros a. eexists. reflexivity.
  - intros. eapply ser_tag_unique; eassumption.
Qed.

(** *** Numbers end at the comma *)
Lemma split_at_sep (P : N -> bool) sep : P sep = false ->
  forall s s' r r', Forall (fun c => P c = true) s -> Forall (fun c => P c = true) s' ->
  s ++ sep :: r = s' ++ sep :: r' -> s = s' /\ r = r'.
Proof.
  intros Hs. induction s as [|c s IH]; intros [|c' s'] r r' F F' E; cbn [app] in E.
  - injection E as ->. auto.
  - injection E as -> _. inversion F'; congruence.
  - injection E as -> _. inversion F; congruence.
  - injection E as -> E. inversion F; inversion F'; subst. destruct (IH s' r r') as (-> & ->); auto.
Qed.

Definition num_char (c : N) : bool := is_digit c || (c =? 45).

Lemma dec_Z_chars z : Forall (fun c => num_char c = true) (dec_Z z).
Proof.
  assert (D : forall n, Forall (fun c => num_char c = true) (dec_N n)).
  { intros n. eapply Forall_impl; [|apply dec_is_digits]. intros c H. cbv beta in H.
    unfold num_char. rewrite H. reflexivity. }
  destruct z; cbn [dec_Z]; try apply D. constructor; [reflexivity|apply D].
Qed.

(** *** The whole serialization *)
Lemma hex_encode_length l : length (hex_encode l) = (2 * length l)%nat.
Proof. induction l as [|b l IH]; [reflexivity|]. unfold hex_encode in *. cbn [flat_map]. rewrite app_length, IH. cbn [hex_byte length]. lia. Qed.

Lemma hex_encode_inj a b : bytes_ok a -> bytes_ok b -> hex_encode a = hex_encode b -> a = b.
Proof.
  intros A B E. apply hextext_encode in A, B. rewrite E in A. eapply hextext_fun; eassumption.
Qed.

Lemma cstr_bytes_ok s : cstr_ok s -> bytes_ok s.
Proof. apply Forall_impl. intros c H. unfold char_ok in H. unfold byte_ok. lia. Qed.

Lemma tags_bytes_ok ts : Forall (fun vs => vs <> [] /\ Forall cstr_ok vs) ts -> Forall tag_bytes ts.
Proof.
  apply Forall_impl. intros vs (_ & H). eapply Forall_impl; [|exact H]. apply cstr_bytes_ok.
Qed.

Lemma serialize_inj (num num' : Z -> list N) e e' :
  event_ok e -> event_ok e' ->
  Forall (fun c => num_char c = true) (num (ev_created e)) ->
  Forall (fun c => num_char c = true) (num' (ev_created e')) ->
  serialize_with num e = serialize_with num' e' ->
  ev_pubkey e = ev_pubkey e' /\ num (ev_created e) = num' (ev_created e') /\ ev_kind e = ev_kind e' /\
  ev_tags e = ev_tags e' /\ content_of e = content_of e'.
Proof.
  intros O O' N N' E. unfold serialize_with in E.
  destruct (eo_pk _ O) as (L & B). destruct (eo_pk _ O') as (L' & B').
  apply app_inv_head in E.
  apply app_inv_length in E as (E1 & E); [|rewrite !hex_encode_length; congruence].
  apply hex_encode_inj in E1; [|assumption|assumption].
  apply app_inv_head in E.
  cbn [app] in E. apply (split_at_sep num_char 44 eq_refl) in E as (E2 & E); [|exact N|exact N'].
  assert (D : forall n, Forall (fun c => is_digit c = true) (dec_N n)) by apply dec_is_digits.
  apply (split_at_sep is_digit 44 eq_refl) in E as (E3 & E); [|apply D|apply D].
  apply dec_inj in E3. injection E as E.
  apply ser_tags_unique in E as (E4 & E);
    [|apply tags_bytes_ok, eo_tags; assumption|apply tags_bytes_ok, eo_tags; assumption].
  injection E as E. rewrite <- !app_assoc in E. cbn [app] in E. apply escape_unique in E as (E5 & _);
    [auto 10|apply cstr_bytes_ok, eo_content; assumption|apply cstr_bytes_ok, eo_content; assumption].
Qed.

(** *** Buffer *)
Definition op_text (o : wop) : list N := match o with Put c => [c] | Fmt s => s end.
Definition ops_text (l : list wop) : list N := flat_map op_text l.

Lemma run_writes_fit : forall ops size pos out,
  pos + N.of_nat (length (ops_text ops)) < size ->
  run_writes size pos out ops = Ok (out ++ ops_text ops).
Proof.
  induction ops as [|[c|s] ops IH]; intros size pos out H; cbn [run_writes].
  - cbn. rewrite app_nil_r. reflexivity.
  - unfold ops_text in *. cbn [flat_map op_text app length] in *.
    replace (pos <? size) with true by (symmetry; apply N.ltb_lt; lia).
    rewrite IH by lia. rewrite <- app_assoc. reflexivity.
  - unfold ops_text in *. cbn [flat_map op_text] in *. rewrite app_length in H.
    replace (size <=? pos) with false by (symmetry; apply N.leb_gt; lia).
    replace (pos + N.of_nat (length s) <? size) with true by (symmetry; apply N.ltb_lt; lia).
    rewrite IH by lia. rewrite <- app_assoc. reflexivity.
Qed.

Lemma value_ops_text vs : forall first,
  ops_text (value_ops first vs) =
  (if first then [] else match vs with [] => [] | _ => [44] end) ++ join_comma (map quote vs).
Proof.
  induction vs as [|v vs IH]; intros first; [destruct first; reflexivity|].
  unfold ops_text in *. cbn [value_ops]. rewrite !flat_map_app, IH.
  destruct first, vs as [|w vs]; cbn [flat_map op_text app map join_comma]; rewrite ?app_nil_r; reflexivity.
Qed.

Lemma tag_ops_text ts : forall first,
  ops_text (tag_ops first ts) =
  (if first then [] else match ts with [] => [] | _ => [44] end) ++ join_comma (map ser_tag ts).
Proof.
  induction ts as [|t ts IH]; intros first; [destruct first; reflexivity|].
  unfold ops_text in *. cbn [tag_ops]. rewrite !flat_map_app, IH.
  pose proof (value_ops_text t true) as V. unfold ops_text in V. rewrite V.
  unfold ser_tag.
  destruct first, ts as [|u ts]; cbn [flat_map op_text app map join_comma];
    rewrite ?app_nil_r, <- ?app_assoc; reflexivity.
Qed.

Lemma serialize_ops_text e : ops_text (serialize_ops e) = serialize_own e.
Proof.
  unfold serialize_ops, serialize_own, serialize_with, ops_text.
  rewrite !flat_map_app. cbn [flat_map op_text].
  pose proof (tag_ops_text (ev_tags e) true) as T. unfold ops_text in T. rewrite T.
  rewrite !app_nil_r. cbn [app]. repeat (rewrite <- app_assoc; cbn [app]). reflexivity.
Qed.

Lemma escape_char_length c : (1 <= length (escape_char c) <= 6)%nat.
Proof.
  unfold escape_char.
  repeat match goal with |- context [if ?b then _ else _] => destruct b; [cbn [length app hex_byte]; lia|] end.
  cbn [length]; lia.
Qed.
Lemma escape_length s : (length (escape_json s) <= 6 * length s)%nat.
Proof.
  induction s as [|c s IH]; [cbn; lia|]. unfold escape_json in *. cbn [flat_map length].
  rewrite app_length. pose proof (escape_char_length c). lia.
Qed.
Lemma quote_length s : (length (quote s) <= 6 * length s + 2)%nat.
Proof.
  unfold quote. rewrite !app_length. pose proof (escape_length s). cbn [length]. lia.
Qed.

Definition budget (vs : list (list N)) : N :=
  fold_right (fun v a => N.of_nat (length v) * 6 + 4 + a) 0 vs.
Definition is_single (vs : list (list N)) : bool := match vs with [_] => true | _ => false end.

Lemma join_length_cons x l :
  length (join_comma (x :: l)) = (length x + fold_right (fun y a => S (length y) + a) 0 l)%nat.
Proof.
  revert x; induction l as [|y l IH]; intros x; [cbn; lia|].
  change (join_comma (x :: y :: l)) with (x ++ [44] ++ join_comma (y :: l)).
  rewrite !app_length, IH. cbn [length fold_right]. lia.
Qed.

Lemma ser_tag_budget vs : vs <> [] ->
  N.of_nat (length (ser_tag vs)) + 1 <= budget vs + (if is_single vs then 1 else 0).
Proof.
  destruct vs as [|v vs]; [congruence|]. intros _.
  unfold ser_tag. rewrite !app_length. cbn [map]. rewrite join_length_cons. cbn [length].
  assert (SB : N.of_nat (fold_right (fun y a => S (length y) + a)%nat 0%nat (map quote vs)) +
              N.of_nat (length vs) <= budget vs).
  { unfold budget. induction vs as [|w vs IH]; [cbn; lia|]. cbn [map fold_right length].
    pose proof (quote_length w). lia. }
  unfold budget in *. cbn [fold_right]. pose proof (quote_length v).
  destruct vs as [|w vs]; cbn [is_single length] in *; lia.
Qed.

Lemma tags_budget ts : Forall (fun vs => vs <> []) ts ->
  N.of_nat (length (join_comma (map ser_tag ts))) <=
  fold_right (fun vs a => budget vs + a) 0 ts + N.of_nat (length (filter is_single ts)).
Proof.
  intros F.
  assert (G : forall l, Forall (fun vs => vs <> []) l ->
     N.of_nat (fold_right (fun y a => S (length y) + a)%nat 0%nat (map ser_tag l)) <=
     fold_right (fun vs a => budget vs + a) 0 l + N.of_nat (length (filter is_single l))).
  { induction 1 as [|vs l H ? IH]; [cbn; lia|]. cbn [map fold_right filter].
    pose proof (ser_tag_budget vs H). destruct (is_single vs); cbn [length]; lia. }
  destruct ts as [|t ts]; [cbn; lia|].
  cbn [map]. rewrite join_length_cons. specialize (G (t :: ts) F).
  cbn [map fold_right] in *. lia.
Qed.

Lemma serialize_own_length e : event_ok e ->
  N.of_nat (length (serialize_own e)) + 409 <= json_size e + N.of_nat (single_value_tags e).
Proof.
  intros O. unfold serialize_own, serialize_with. rewrite !app_length, hex_encode_length.
  destruct (eo_pk _ O) as (-> & _).
  pose proof (dec_Z_length _ (eo_created _ O)) as D1.
  assert (D2 : (length (dec_N (ev_kind e)) <= 5)%nat).
  { apply dec_length; [lia|]. pose proof (eo_kind _ O). change (10 ^ N.of_nat 5) with 100000. lia. }
  assert (F : Forall (fun vs => vs <> []) (ev_tags e)).
  { eapply Forall_impl; [|apply (eo_tags _ O)]. intros vs (H & _). exact H. }
  pose proof (tags_budget _ F) as T.
  unfold quote. rewrite !app_length. cbn [length].
  unfold json_size, single_value_tags.
  change (filter (fun vs : list (list N) => match vs with [_] => true | _ => false end) (ev_tags e))
    with (filter is_single (ev_tags e)).
  change (fold_right (fun (vs : list (list N)) (a : N) =>
     fold_right (fun v a => N.of_nat (length v) * 6 + 4 + a) 0 vs + a) 0 (ev_tags e))
    with (fold_right (fun vs a => budget vs + a) 0 (ev_tags e)).
  lia.
Qed.

(** *** JSON *)
Lemma round53_small z : (Z.abs z < 2 ^ 53)%Z -> round53 z = z.
Proof. intros H. unfold round53. apply Z.ltb_lt in H. rewrite H. reflexivity. Qed.

Lemma round53_max z : (Z.abs z <= 2 ^ 53)%Z -> round53 z = z.
Proof.
  intros H. assert (C : (Z.abs z < 2 ^ 53 \/ z = 2 ^ 53 \/ z = - 2 ^ 53)%Z) by lia.
  destruct C as [C|[->| ->]]; [apply round53_small; exact C|reflexivity|reflexivity].
Qed.

Lemma hex_field_encode n b : length b = n -> bytes_ok b ->
  hex_field n (Some (JStr (hex_encode b))) = Ok b.
Proof.
  intros L B. unfold hex_field, hex_to_bytes. rewrite hex_encode_length, L.
  replace (2 * n =? n * 2)%nat with true by (symmetry; apply Nat.eqb_eq; lia).
  cbn [negb]. rewrite <- L, scan_bytes_hex by (apply hextext_encode; exact B). reflexivity.
Qed.

Lemma import_tags_map ts : Forall (fun vs => vs <> []) ts ->
  import_tags (map (fun vs => JArr (map JStr vs)) ts) = ts.
Proof.
  induction 1 as [|vs ts H F IH]; [reflexivity|]. cbn [map import_tags].
  destruct vs as [|v vs]; [congruence|]. cbn [map tag_values]. rewrite IH. do 2 f_equal.
  rewrite map_map. apply map_id.
Qed.
