(** Lemmas about the NIP-19 TLV model. *)
From Verif Require Import Base BaseFacts BitsFacts Bech32 Bech32Proofs Nip21 Nip21Spec.
Open Scope N_scope.

Ltac n2n := unfold blen in *.

(** ** Bech32 of a byte string *)

Lemma convert_bytes data :
  bytes_ok data -> (1 <= length data)%nat ->
  let c := convert_bits data (N.to_nat ((blen data * 8 + 4) / 5)) 8 5 true in
  Forall (fun v => v < 32) c /\
  (5 * length c < 8 * length data + 5)%nat /\ (8 * length data <= 5 * length c)%nat /\
  exists k, (k < 5)%nat /\ flat 5 c = flat 8 data ++ repeat false k.
Proof.
  intros B L. unfold blen.
  assert (O : (8 * length data <= 5 * N.to_nat ((N.of_nat (length data) * 8 + 4) / 5))%nat).
  { pose proof (N.div_mod (N.of_nat (length data) * 8 + 4) 5 ltac:(lia)).
    pose proof (N.mod_lt (N.of_nat (length data) * 8 + 4) 5 ltac:(lia)). lia. }
  destruct (convert_pad_spec 8 5 (N.to_nat ((N.of_nat (length data) * 8 + 4) / 5)) data)
    as (F & k & Hk & E); try lia; auto.
  change (N.of_nat 8) with 8 in *. change (N.of_nat 5) with 5 in *. cbv zeta.
  pose proof (f_equal (@length bool) E) as H.
  rewrite app_length, repeat_length, !flat_length in H.
  split; [exact F|]. split; [lia|]. split; [lia|]. exists k. auto.
Qed.

Lemma encode_bytes_ok data hrp size :
  bytes_ok data -> (1 <= length data)%nat -> (length hrp <= 41)%nat ->
  blen hrp + 1 + (blen data * 8 + 4) / 5 + 7 <= size ->
  exists ck, create_checksum hrp (convert_bits data (N.to_nat ((blen data * 8 + 4) / 5)) 8 5 true) = Some ck /\
  encode_bytes_to_bech32 data hrp size =
  Ok (hrp ++ 49 :: map charset_get (convert_bits data (N.to_nat ((blen data * 8 + 4) / 5)) 8 5 true ++ ck)).
Proof.
  intros B L H S. destruct (convert_bytes data B L) as (F & U & Lo & _).
  unfold encode_bytes_to_bech32. cbv zeta in *.
  set (c := convert_bits _ _ _ _ _) in *.
  destruct (create_checksum_some hrp c H) as (ck & C). exists ck. split; auto.
  destruct (create_checksum_digits _ _ _ C) as [Fc Lc].
  destruct (Nat.eqb_spec (length c) 0); [lia|].
  assert (blen c <= (blen data * 8 + 4) / 5).
  { unfold blen. apply N.div_le_lower_bound; lia. }
  destruct (N.ltb_spec size (blen hrp + 1 + blen c + 6 + 1)); [lia|].
  rewrite C.
  assert (E : hrp ++ [49] ++ map charset_get c ++ map charset_get ck =
              hrp ++ 49 :: map charset_get (c ++ ck)) by (rewrite map_app; reflexivity).
  rewrite E.
  match goal with |- context [?a <=? size] => destruct (N.leb_spec a size) as [|X] end; auto.
  revert X. unfold blen in *. rewrite app_length. cbn [length]. rewrite map_length, app_length. lia.
Qed.

(** The encoder never overruns the caller's buffer. *)
Lemma encode_bytes_safe data hrp size :
  (length hrp <= 41)%nat -> encode_bytes_to_bech32 data hrp size <> Undef.
Proof.
  intros H. unfold encode_bytes_to_bech32. set (c := convert_bits _ _ _ _ _).
  destruct (_ =? 0)%nat; [discriminate|].
  destruct (N.ltb_spec size (blen hrp + 1 + blen c + 6 + 1)); [discriminate|].
  destruct (create_checksum_some hrp c H) as (ck & C). rewrite C.
  destruct (create_checksum_digits _ _ _ C) as [Fc Lc].
  match goal with |- context [?a <=? size] => destruct (N.leb_spec a size) as [|X] end; [discriminate|].
  revert X. unfold blen in *. rewrite !app_length, !map_length. cbn [length]. lia.
Qed.

Lemma decode_bytes_ok data hrp ck out_size :
  bytes_ok data -> (1 <= length data)%nat -> blen data <= out_size -> bytes_ok hrp ->
  create_checksum hrp (convert_bits data (N.to_nat ((blen data * 8 + 4) / 5)) 8 5 true) = Some ck ->
  decode_bech32_to_bytes
    (hrp ++ 49 :: map charset_get (convert_bits data (N.to_nat ((blen data * 8 + 4) / 5)) 8 5 true ++ ck))
    hrp out_size = Ok data.
Proof.
  intros B L S Bh C. destruct (convert_bytes data B L) as (F & U & Lo & k & Hk & E).
  cbv zeta in *. set (c := convert_bits _ _ _ _ _) in *.
  destruct (create_checksum_digits _ _ _ C) as [Fc Lc].
  unfold decode_bech32_to_bytes.
  assert (LE : blen (hrp ++ 49 :: map charset_get (c ++ ck)) = blen hrp + 7 + blen c).
  { unfold blen. rewrite app_length. cbn [length]. rewrite map_length, app_length. lia. }
  rewrite LE.
  assert (blen c <= (out_size * 8 + 4) / 5).
  { unfold blen in *. apply N.div_le_lower_bound; lia. }
  destruct (N.ltb_spec (blen hrp + 7 + blen c) (blen hrp + 8)); [unfold blen in *; lia|].
  destruct (N.ltb_spec (blen hrp + 1 + ((out_size * 8 + 4) / 5 + 6)) (blen hrp + 7 + blen c)); [lia|].
  cbn [orb]. rewrite prefixb_app, app_nth2, Nat.sub_diag by lia. cbn [nth negb orb N.eqb Pos.eqb].
  replace (hrp ++ 49 :: map charset_get (c ++ ck))
    with ((hrp ++ [49]) ++ map charset_get (c ++ ck)) by (rewrite <- app_assoc; reflexivity).
  rewrite skipn_app_exact by (rewrite app_length; auto).
  assert (FF : Forall (fun v => v < 32) (c ++ ck)) by (apply Forall_app; auto).
  rewrite decode_chars_ok; auto.
  2: { rewrite map_length. lia. }
  cbn [bind].
  assert (X : exists e, hrp_expand hrp 84 = Some e).
  { unfold create_checksum in C. destruct (hrp_expand hrp 84); [eauto|discriminate]. }
  destruct X as (e & X).
  replace (verify_checksum hrp (c ++ ck)) with true by (symmetry; eapply verify_iff; eauto).
  cbn [negb]. rewrite app_length, Lc.
  destruct (Nat.ltb_spec (length c + 6) 7); [lia|].
  replace (length c + 6 - 6)%nat with (length c) by lia.
  rewrite firstn_app_exact by auto.
  replace (convert_bits c (N.to_nat out_size) 5 8 false) with data.
  2: { symmetry. apply (convert_nopad_ok 5 8 _ c data k); auto; try lia.
       unfold blen in S. lia. }
  destruct (Nat.eqb_spec (length data) 0); [lia|reflexivity].
Qed.

(** Decoding is memory-safe on every string. *)
Lemma decode_bytes_safe s hrp n : decode_bech32_to_bytes s hrp n <> Undef.
Proof.
  unfold decode_bech32_to_bytes. intros H.
  destruct (_ || _)%bool; [discriminate|]. destruct (_ || _)%bool; [discriminate|].
  apply bind_undef in H as [H|(d & D & H)].
  - apply decode_chars_undef in H. lia.
  - destruct (negb _); [discriminate|]. destruct (_ <? 7)%nat; [discriminate|].
    destruct (_ =? 0)%nat; discriminate.
Qed.

Lemma decode_bytes_bytes s hrp n d : decode_bech32_to_bytes s hrp n = Ok d ->
  bytes_ok d /\ (1 <= length d)%nat /\ blen d <= n.
Proof.
  unfold decode_bech32_to_bytes. intros H.
  destruct (_ || _)%bool; [discriminate|]. destruct (_ || _)%bool; [discriminate|].
  apply bind_ok in H as (x & D & H).
  destruct (negb _); [discriminate|]. destruct (_ <? 7)%nat; [discriminate|].
  destruct (Nat.eqb_spec (length (convert_bits (firstn (length x - 6) x) (N.to_nat n) 5 8 false)) 0);
    [discriminate|].
  injection H as H.
  destruct (convert_nopad_spec 5 8 (N.to_nat n) (firstn (length x - 6) x)) as (_ & Fo & Hl & _); try lia;
    change (N.of_nat 5) with 5 in *; change (N.of_nat 8) with 8 in *.
  - intros Z. rewrite Z in n0. simpl in n0. lia.
  - rewrite H in *. split; [exact Fo|]. unfold blen. lia.
Qed.

(** ** TLV reader *)

Fixpoint run (ss : nat) (wr wa : bool) (l : list item) (st : tlv_state) : option tlv_state :=
  match l with
  | [] => Some st
  | (t, v) :: r => match tlv_switch ss wr wa t v st with
                   | None => None
                   | Some st' => run ss wr wa r st'
                   end
  end.

Lemma slice_ok pre v post pos len :
  pos = length pre -> len = length v -> slice (pre ++ v ++ post) pos len = Ok v.
Proof.
  intros -> ->. unfold slice. rewrite !app_length.
  destruct (Nat.leb_spec (length pre + length v) (length pre + (length v + length post))); [|lia].
  rewrite skipn_app_exact, firstn_app_exact by auto. reflexivity.
Qed.

Lemma parse_loop_step ss wr wa pre t v post st fuel :
  (length v <= 255)%nat ->
  parse_loop (S fuel) ss wr wa (pre ++ item_bytes (t, v) ++ post) (length pre) st =
  match tlv_switch ss wr wa t v st with
  | None => Err EEncoding
  | Some st' => parse_loop fuel ss wr wa ((pre ++ item_bytes (t, v)) ++ post)
                           (length (pre ++ item_bytes (t, v))) st'
  end.
Proof.
  intros L. cbn [parse_loop]. unfold item_bytes. cbn [fst snd].
  assert (LD : length (pre ++ (t :: N.of_nat (length v) :: v) ++ post) =
               (length pre + 2 + length v + length post)%nat).
  { rewrite !app_length. cbn [length]. lia. }
  rewrite LD. destruct (Nat.leb_spec (length pre + 2) (length pre + 2 + length v + length post)); [|lia].
  replace (pre ++ (t :: N.of_nat (length v) :: v) ++ post)
    with (pre ++ [t] ++ (N.of_nat (length v) :: v ++ post)) at 1 by reflexivity.
  rewrite slice_ok by auto. cbn [bind].
  replace (pre ++ (t :: N.of_nat (length v) :: v) ++ post)
    with ((pre ++ [t]) ++ [N.of_nat (length v)] ++ (v ++ post)) at 1
    by (rewrite <- app_assoc; reflexivity).
  rewrite slice_ok; [|rewrite app_length; reflexivity|reflexivity]. cbn [bind nth].
  rewrite Nat2N.id.
  destruct (Nat.ltb_spec (length pre + 2 + length v + length post) (length pre + 2 + length v)); [lia|].
  replace (pre ++ (t :: N.of_nat (length v) :: v) ++ post)
    with ((pre ++ [t; N.of_nat (length v)]) ++ v ++ post) at 1
    by (rewrite <- app_assoc; reflexivity).
  rewrite slice_ok; [|rewrite app_length; reflexivity|reflexivity]. cbn [bind].
  destruct (tlv_switch ss wr wa t v st); auto.
  rewrite <- app_assoc. f_equal. rewrite app_length. cbn [length]. lia.
Qed.

Lemma parse_loop_items ss wr wa items : forall pre tail st fuel,
  Forall item_ok items -> (length tail <= 1)%nat ->
  (length (payload items ++ tail) < fuel)%nat ->
  parse_loop fuel ss wr wa (pre ++ payload items ++ tail) (length pre) st =
  match run ss wr wa items st with Some st' => Ok st' | None => Err EEncoding end.
Proof.
  induction items as [|[t v] items IH]; intros pre tail st fuel F T Hf.
  - destruct fuel as [|fuel]; [simpl in Hf; lia|]. cbn [payload flat_map app parse_loop run].
    rewrite app_length. destruct (Nat.leb_spec (length pre + 2) (length pre + length tail)); [lia|reflexivity].
  - inversion F as [|? ? (Ht & Hv & Hb) F']; subst. cbn [fst snd] in *.
    destruct fuel as [|fuel]; [lia|].
    change (payload ((t, v) :: items)) with (item_bytes (t, v) ++ payload items) in *.
    rewrite <- !app_assoc in *. rewrite parse_loop_step by auto. cbn [run].
    destruct (tlv_switch ss wr wa t v st) as [st'|]; auto.
    rewrite IH; auto.
    rewrite app_length in Hf. unfold item_bytes in Hf. cbn [length fst snd] in Hf. lia.
Qed.

Lemma parse_loop_truncated ss wr wa items : forall pre t l v st fuel,
  Forall item_ok items -> (length v < N.to_nat l)%nat ->
  (length (payload items ++ t :: l :: v) < fuel)%nat ->
  parse_loop fuel ss wr wa (pre ++ payload items ++ t :: l :: v) (length pre) st = Err EEncoding.
Proof.
  induction items as [|[t0 v0] items IH]; intros pre t l v st fuel F T Hf.
  - destruct fuel as [|fuel]; [simpl in Hf; lia|]. cbn [payload flat_map app parse_loop].
    assert (LD : length (pre ++ t :: l :: v) = (length pre + 2 + length v)%nat).
    { rewrite app_length. cbn [length]. lia. }
    rewrite LD. destruct (Nat.leb_spec (length pre + 2) (length pre + 2 + length v)); [|lia].
    change (pre ++ t :: l :: v) with (pre ++ [t] ++ (l :: v)).
    rewrite slice_ok by auto. cbn [bind].
    replace (pre ++ [t] ++ l :: v) with ((pre ++ [t]) ++ [l] ++ v) by (rewrite <- app_assoc; reflexivity).
    rewrite slice_ok; [|rewrite app_length; reflexivity|reflexivity]. cbn [bind nth].
    destruct (Nat.ltb_spec (length pre + 2 + length v) (length pre + 2 + N.to_nat l)); [reflexivity|lia].
  - inversion F as [|? ? (Ht & Hv & Hb) F']; subst. cbn [fst snd] in *.
    destruct fuel as [|fuel]; [lia|].
    change (payload ((t0, v0) :: items)) with (item_bytes (t0, v0) ++ payload items) in *.
    rewrite <- !app_assoc in *. rewrite parse_loop_step by auto.
    destruct (tlv_switch ss wr wa t0 v0 st) as [st'|]; auto.
    rewrite IH; auto.
    rewrite app_length in Hf. unfold item_bytes in Hf. cbn [length fst snd] in Hf. lia.
Qed.

(** Every byte string is a sequence of records, followed by at most one stray
    byte or by a truncated record. *)
Lemma payload_split n : forall d, (length d <= n)%nat -> bytes_ok d ->
  exists items, Forall item_ok items /\
   ((exists tail, (length tail <= 1)%nat /\ d = payload items ++ tail) \/
    (exists t l v, (length v < N.to_nat l)%nat /\ d = payload items ++ t :: l :: v)).
Proof.
  induction n as [|n IH]; intros d L B.
  - destruct d; [|simpl in L; lia]. exists []. split; auto. left. exists []. auto.
  - destruct d as [|t [|l r]].
    + exists []. split; auto. left. exists []. auto.
    + exists []. split; auto. left. exists [t]. auto.
    + inversion B as [|? ? Bt B']; subst. inversion B' as [|? ? Bl Br]; subst.
      destruct (Nat.lt_ge_cases (length r) (N.to_nat l)) as [X|X].
      * exists []. split; auto. right. exists t, l, r. auto.
      * rewrite <- (firstn_skipn (N.to_nat l) r) in Br. apply Forall_app in Br as [Br1 Br2].
        destruct (IH (skipn (N.to_nat l) r)) as (items & F & H); auto.
        { rewrite skipn_length. simpl in L. lia. }
        assert (Lf : length (firstn (N.to_nat l) r) = N.to_nat l) by (rewrite firstn_length; lia).
        assert (E : item_bytes (t, firstn (N.to_nat l) r) ++ skipn (N.to_nat l) r = t :: l :: r).
        { unfold item_bytes. cbn [fst snd app]. rewrite Lf, N2Nat.id. do 2 f_equal. apply firstn_skipn. }
        exists ((t, firstn (N.to_nat l) r) :: items). split.
        { constructor; auto. split; [exact Bt|]. cbn [fst snd]. split; auto. rewrite Lf.
          unfold byte_ok in Bl. lia. }
        change (payload ((t, firstn (N.to_nat l) r) :: items))
          with (item_bytes (t, firstn (N.to_nat l) r) ++ payload items).
        destruct H as [(tail & HT & H)|(t' & l' & v' & HT & H)].
        -- left. exists tail. split; auto. rewrite <- app_assoc, <- H. auto.
        -- right. exists t', l', v'. split; auto. rewrite <- app_assoc, <- H. auto.
Qed.

Lemma parse_tlv_items ss wr wa items tail :
  Forall item_ok items -> (length tail <= 1)%nat ->
  parse_tlv ss wr wa (payload items ++ tail) =
  match run ss wr wa items tlv_init with Some st' => Ok st' | None => Err EEncoding end.
Proof.
  intros F T. unfold parse_tlv.
  apply (parse_loop_items ss wr wa items [] tail tlv_init); auto.
Qed.

(** ** What [run] computes *)

Lemma prefixb_firstn p s : prefixb p s = true <-> firstn (length p) s = p.
Proof.
  rewrite prefixb_spec. split.
  - intros (r & ->). apply firstn_app_exact. auto.
  - intros H. exists (skipn (length p) s). rewrite <- H at 1. symmetry. apply firstn_skipn.
Qed.

Lemma relay_valid_iff u : is_valid_relay_url u = true <-> relay_ok u.
Proof.
  unfold is_valid_relay_url, relay_ok, blen.
  rewrite !andb_true_iff, !negb_true_iff, N.ltb_ge, N.leb_gt, orb_true_iff, !prefixb_firstn, forallb_forall.
  rewrite Forall_forall. cbn [length bs].
  split.
  - intros (((A & B) & C) & D). split; [lia|]. split; [exact C|].
    intros x Hx. apply D in Hx. apply andb_true_iff in Hx as [H1 H2].
    apply N.leb_le in H1, H2. lia.
  - intros (A & C & D). split; [split; [lia|exact C]|].
    intros x Hx. apply D in Hx. apply andb_true_iff. split; apply N.leb_le; lia.
Qed.

Lemma be32_value v : length v = 4%nat -> bytes_ok v -> be32 v = be_value v.
Proof.
  intros L B. destruct v as [|a [|b [|c [|d [|]]]]]; try discriminate L.
  inversion B as [|? ? Ba B1]; inversion B1 as [|? ? Bb B2]; inversion B2 as [|? ? Bc B3];
    inversion B3 as [|? ? Bd _]; subst. unfold byte_ok in *.
  unfold be32, be_value. cbn [fold_left]. rewrite N.mul_0_l, N.add_0_l.
  assert (S : forall x y k, y < 2 ^ k -> N.lor (N.shiftl x k) y = x * 2 ^ k + y).
  { intros x y k Hy. rewrite N.shiftl_mul_pow2.
    assert (N0 : N.land (x * 2 ^ k) y = 0).
    { apply N.bits_inj_0. intros n. rewrite N.land_spec.
      destruct (N.lt_ge_cases n k); [rewrite N.mul_pow2_bits_low by auto; reflexivity|].
      rewrite andb_comm. replace (N.testbit y n) with false; auto.
      symmetry. destruct (N.eq_dec y 0) as [->|]; [apply N.bits_0|].
      apply N.bits_above_log2, N.log2_lt_pow2; [lia|].
      eapply N.lt_le_trans; [exact Hy|]. apply N.pow_le_mono_r; lia. }
    rewrite N.add_nocarry_lxor by auto. rewrite N.lxor_lor by auto. reflexivity. }
  rewrite <- !N.lor_assoc.
  assert (Hd : d < 2 ^ 8) by exact Bd.
  rewrite (S c d 8) by auto.
  rewrite (S b (c * 2 ^ 8 + d) 16) by (change (2 ^ 8) with 256; change (2 ^ 16) with 65536; lia).
  rewrite (S a (b * 2 ^ 16 + (c * 2 ^ 8 + d)) 24)
    by (change (2 ^ 8) with 256; change (2 ^ 16) with 65536; change (2 ^ 24) with 16777216; lia).
  change (2 ^ 8) with 256; change (2 ^ 16) with 65536; change (2 ^ 24) with 16777216. lia.
Qed.

Lemma be32_bytes_value k : k < 2 ^ 32 -> be_value (be32_bytes k) = k.
Proof.
  intros H. unfold be_value, be32_bytes. cbn [fold_left].
  change 255 with (N.ones 8). rewrite !N.land_ones, !N.shiftr_div_pow2.
  change (2 ^ 32) with 4294967296 in H.
  change (2 ^ 24) with 16777216. change (2 ^ 16) with 65536. change (2 ^ 8) with 256.
  zify; Z.to_euclidean_division_equations; lia.
Qed.

Lemma be32_bytes_ok k : bytes_ok (be32_bytes k).
Proof.
  unfold be32_bytes. change 255 with (N.ones 8). rewrite !N.land_ones.
  repeat constructor; apply N.mod_lt; discriminate.
Qed.

(** Declarative reading of a record list, relative to a starting state. *)
Definition or_else {A} (o d : option A) : option A := match o with Some x => Some x | None => d end.

Lemma last_such_cons f v l :
  last_such f (v :: l) = or_else (last_such f l) (if f v then Some v else None).
Proof.
  unfold last_such. simpl. destruct (f v); simpl; destruct (rev (filter f l)); reflexivity.
Qed.

Lemma values_cons ty t v l :
  values ty ((t, v) :: l) = if t =? ty then v :: values ty l else values ty l.
Proof. unfold values. simpl. destruct (t =? ty); reflexivity. Qed.

Lemma run_spec ss wr wa items : Forall item_ok items -> forall st,
  run ss wr wa items st =
  if forallb (fun v => length v <=? ss)%nat (values 0 items) then
    Some {| special := match last_such (fun _ => true) (values 0 items) with
                       | Some v => v | None => special st end;
            relays := if wr then relays st ++
                        firstn (16 - length (relays st)) (filter is_valid_relay_url (values 1 items))
                      else relays st;
            author := if wa then or_else (last_such (fun v => length v =? 32)%nat (values 2 items)) (author st)
                      else author st;
            kind := if wa then or_else (option_map be_value
                      (last_such (fun v => length v =? 4)%nat (values 3 items))) (kind st)
                    else kind st |}
  else None.
Proof.
  induction 1 as [|[t v] items Hi F IH]; intros st.
  - simpl. destruct st as [sp rs au k]; simpl. rewrite firstn_nil, app_nil_r.
    destruct wr, wa; reflexivity.
  - cbn [run]. rewrite !values_cons. destruct Hi as (Ht & Hv & Hb). cbn [fst snd] in *.
    unfold tlv_switch.
    destruct t as [|p].
    { cbn [N.eqb forallb]. rewrite Nat.leb_antisym.
      destruct (ss <? length v)%nat; [reflexivity|]. cbn [negb andb]. rewrite IH.
      cbn [special relays author kind]. destruct (forallb _ _); [|reflexivity].
      rewrite last_such_cons. destruct (last_such (fun _ => true) (values 0 items)); reflexivity. }
    destruct (N.eqb_spec (N.pos p) 1) as [E|N1].
    { injection E as ->. cbn [N.eqb Pos.eqb].
      cbn [filter].
      destruct wr; cbn [andb].
      2:{ rewrite IH. reflexivity. }
      destruct (Nat.ltb_spec (length (relays st)) 16) as [X|X].
      - destruct (is_valid_relay_url v) eqn:V; rewrite IH; cbn [special relays author kind];
          destruct (forallb _ _); auto.
        rewrite app_length. cbn [length].
        replace (16 - length (relays st))%nat with (S (16 - (length (relays st) + 1)))%nat by lia.
        cbn [firstn]. rewrite <- app_assoc. reflexivity.
      - rewrite IH. destruct (forallb _ _); auto.
        replace (16 - length (relays st))%nat with 0%nat by lia. reflexivity. }
    destruct (N.eqb_spec (N.pos p) 2) as [E|N2].
    { injection E as ->. cbn [N.eqb Pos.eqb].
      destruct wa; cbn [andb]; [|rewrite IH; reflexivity].
      rewrite last_such_cons.
      destruct (length v =? 32)%nat eqn:V; rewrite IH; cbn [special relays author kind];
        destruct (forallb _ _); auto;
        destruct (last_such (fun v0 => length v0 =? 32)%nat (values 2 items)); reflexivity. }
    destruct (N.eqb_spec (N.pos p) 3) as [E|N3].
    { injection E as ->. cbn [N.eqb Pos.eqb].
      destruct wa; cbn [andb]; [|rewrite IH; reflexivity].
      rewrite last_such_cons.
      destruct (Nat.eqb_spec (length v) 4) as [V|V]; rewrite IH; cbn [special relays author kind];
        destruct (forallb _ _); auto;
        destruct (last_such (fun v0 => length v0 =? 4)%nat (values 3 items)); try reflexivity.
      cbn [option_map or_else]. rewrite be32_value by auto. reflexivity. }
    cbn [N.eqb].
    assert (E : match p with 1%positive => if wr && (length (relays st) <? 16)%nat then
           if is_valid_relay_url v
           then Some {| special := special st; relays := relays st ++ [v];
                        author := author st; kind := kind st |}
           else Some st
         else Some st | 2%positive => if wa && (length v =? 32)%nat
         then Some {| special := special st; relays := relays st;
                      author := Some v; kind := kind st |}
         else Some st | 3%positive => if wa && (length v =? 4)%nat
         then Some {| special := special st; relays := relays st;
                      author := author st; kind := Some (be32 v) |}
         else Some st | _ => Some st end = Some st).
    { destruct p as [[| |]|[| |]|]; try reflexivity; congruence. }
    rewrite E, IH. reflexivity.
Qed.

(** ** TLV writer *)

Lemma payload_app a b : payload (a ++ b) = payload a ++ payload b.
Proof. apply flat_map_app. Qed.

Lemma build_relays_fit size rs : forall out,
  Forall (fun r => (length r <= 255)%nat) rs ->
  blen out + N.of_nat (relays_size rs) <= size ->
  build_relays size out rs = out ++ payload (map (fun r => (1, r)) rs).
Proof.
  induction rs as [|r rs IH]; intros out F S; cbn [build_relays map payload flat_map].
  - rewrite app_nil_r. auto.
  - inversion F; subst. cbn [relays_size] in S. unfold blen in *.
    destruct (N.ltb_spec 255 (N.of_nat (length r))); [lia|].
    destruct (N.ltb_spec size (N.of_nat (length out) + 2 + N.of_nat (length r))); [lia|]. cbn [orb].
    rewrite IH; auto.
    + rewrite <- app_assoc. reflexivity.
    + rewrite app_length. unfold tlv_rec. cbn [length]. lia.
Qed.

Definition special_items (sp : list N) : list item := match sp with [] => [] | _ => [(0, sp)] end.
Definition opt_items {A} (ty : N) (f : A -> list N) (o : option A) : list item :=
  match o with Some a => [(ty, f a)] | None => [] end.

Lemma build_tlv_fit size sp rs au k :
  (length sp <= 255)%nat -> (length rs <= 16)%nat ->
  Forall (fun r => (length r <= 255)%nat) rs ->
  (match au with Some a => length a = 32%nat | None => True end) ->
  blen sp + 2 + N.of_nat (relays_size rs) + 34 + 6 <= size ->
  build_tlv size sp rs au k =
  payload (special_items sp ++ map (fun r => (1, r)) rs ++
           opt_items 2 (fun a => a) au ++ opt_items 3 be32_bytes k).
Proof.
  intros Ls Lr F Ha S. unfold build_tlv.
  assert (C : (0 <? blen sp) && ((255 <? blen sp) || (size <? 2 + blen sp)) = false).
  { unfold blen in *. destruct (N.ltb_spec 255 (N.of_nat (length sp))); [lia|].
    destruct (N.ltb_spec size (2 + N.of_nat (length sp))); [lia|]. apply andb_false_r. }
  rewrite C. rewrite firstn_all2 by lia.
  assert (E0 : (if 0 <? blen sp then tlv_rec 0 sp else []) = payload (special_items sp)).
  { unfold blen. destruct sp; [reflexivity|]. cbn [length]. cbn [special_items payload flat_map].
    rewrite app_nil_r. reflexivity. }
  rewrite E0.
  assert (L0 : blen (payload (special_items sp)) <= blen sp + 2).
  { unfold blen. destruct sp as [|x sp]; [simpl; lia|]. cbn [special_items payload flat_map].
    rewrite app_nil_r. unfold item_bytes. cbn [fst snd length]. lia. }
  rewrite build_relays_fit by (auto; lia).
  set (p0 := payload (special_items sp)) in *.
  assert (LR : blen (payload (map (fun r => (1, r)) rs)) = N.of_nat (relays_size rs)).
  { clear. unfold blen. induction rs as [|r rs IH]; auto. cbn [map payload flat_map relays_size].
    rewrite app_length. unfold payload in IH. unfold item_bytes at 1. cbn [fst snd length]. lia. }
  set (p1 := payload (map (fun r => (1, r)) rs)) in *.
  assert (LP : blen (p0 ++ p1) <= blen sp + 2 + N.of_nat (relays_size rs)).
  { unfold blen in *. rewrite app_length. lia. }
  rewrite !payload_app. fold p0 p1.
  destruct au as [a|].
  - destruct (N.ltb_spec size (blen (p0 ++ p1) + 2 + 32)); [lia|].
    assert (EA : payload (opt_items 2 (fun a => a) (Some a)) = 2 :: 32 :: a).
    { cbn [opt_items payload flat_map]. rewrite app_nil_r. unfold item_bytes. cbn [fst snd].
      rewrite Ha. reflexivity. }
    rewrite EA.
    destruct k as [k|].
    + destruct (N.ltb_spec size (blen ((p0 ++ p1) ++ 2 :: 32 :: a) + 2 + 4)) as [X|X].
      { unfold blen in *. rewrite app_length in X. cbn [length] in X. lia. }
      rewrite <- !app_assoc. reflexivity.
    + cbn [opt_items payload flat_map]. rewrite app_nil_r, <- app_assoc. reflexivity.
  - cbn [opt_items payload flat_map app].
    destruct k as [k|].
    + destruct (N.ltb_spec size (blen (p0 ++ p1) + 2 + 4)); [lia|].
      rewrite <- !app_assoc. reflexivity.
    + rewrite app_nil_r. reflexivity.
Qed.
