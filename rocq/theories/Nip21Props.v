(** Property theorems C06-C08 (NIP-19/NIP-21 entities). *)
From Verif Require Import Base BaseFacts Bech32 Bech32Spec Bech32Proofs Bech32Props Bech32Lemmas2 Nip21 Nip21Spec Nip21Proofs.
Open Scope N_scope.

(** Entities with in-range fields whose payload fits the 4096-byte buffer. *)
Definition relays_fit (rs : list (list N)) : Prop :=
  (length rs <= 16)%nat /\ Forall relay_ok rs /\ N.of_nat (relays_size rs) + 300 <= 4096.
Definition entity_ok (e : entity) : Prop :=
  match e with
  | Npub k | Nsec k | Note k => key_ok k
  | Nprofile pk rs => key_ok pk /\ relays_fit rs
  | Nevent id rs au k => key_ok id /\ relays_fit rs /\
      (match au with Some a => key_ok a | None => True end) /\
      (match k with Some v => v < 2 ^ 32 | None => True end)
  | Naddr ident pk k rs => cstr_ok ident /\ (length ident <= 255)%nat /\ key_ok pk /\
      k < 2 ^ 32 /\ relays_fit rs
  | Nrelay url => cstr_ok url /\ (1 <= length url <= 255)%nat
  end.

(** Fourteen relay hints always fit, whatever their lengths. *)
Lemma fourteen_relays_fit rs :
  (length rs <= 14)%nat -> Forall relay_ok rs -> relays_fit rs.
Proof.
  intros L F. split; [lia|]. split; auto.
  assert (forall l, Forall relay_ok l -> (relays_size l <= 257 * length l)%nat).
  { induction 1 as [|r l H ? IH]; cbn [relays_size length]; [lia|]. destruct H as (H & _). lia. }
  specialize (H rs F). lia.
Qed.

Lemma relay_ok_items rs : Forall relay_ok rs -> Forall item_ok (map (fun r => (1, r)) rs).
Proof.
  induction 1 as [|r rs (H & _ & B) F IH]; constructor; auto.
  split; [reflexivity|]. split; cbn [fst snd]; [lia|].
  eapply Forall_impl; [|exact B]. intros c Hc. cbv beta in Hc. unfold byte_ok. lia.
Qed.

Lemma values_app ty a b : values ty (a ++ b) = values ty a ++ values ty b.
Proof. unfold values. rewrite filter_app, map_app. auto. Qed.

Lemma values_relays ty rs : values ty (map (fun r => (1, r)) rs) = if 1 =? ty then rs else [].
Proof.
  induction rs as [|r rs IH]; simpl map; [destruct (1 =? ty); reflexivity|].
  rewrite values_cons, IH. destruct (1 =? ty); reflexivity.
Qed.

Lemma filter_relay_ok rs : Forall relay_ok rs -> filter is_valid_relay_url rs = rs.
Proof.
  induction 1; simpl; auto. apply relay_valid_iff in H. rewrite H. congruence.
Qed.

Lemma fit_lengths rs : Forall relay_ok rs -> Forall (fun r => (length r <= 255)%nat) rs.
Proof. apply Forall_impl. intros r (H & _). lia. Qed.

Definition entity_items (sp : list N) rs au k : list item :=
  special_items sp ++ map (fun r => (1, r)) rs ++
  opt_items 2 (fun a => a) au ++ opt_items 3 be32_bytes k.

Lemma entity_items_ok sp rs au k :
  bytes_ok sp -> (length sp <= 255)%nat -> Forall relay_ok rs ->
  (match au with Some a => key_ok a | None => True end) ->
  Forall item_ok (entity_items sp rs au k).
Proof.
  intros B L F A. unfold entity_items. repeat (apply Forall_app; split).
  - destruct sp; constructor; auto. split; [reflexivity|]. split; auto.
  - apply relay_ok_items; auto.
  - destruct au as [a|]; constructor; auto. destruct A as [La Ba].
    split; [reflexivity|]. split; cbn [fst snd]; auto. lia.
  - destruct k as [k|]; constructor; auto. split; [reflexivity|]. split; cbn [fst snd].
    + simpl. lia.
    + apply be32_bytes_ok.
Qed.

Lemma parse_entity ss wa sp rs au k :
  bytes_ok sp -> (length sp <= 255)%nat -> (length sp <= ss)%nat -> relays_fit rs ->
  (match au with Some a => key_ok a | None => True end) ->
  (match k with Some v => v < 2 ^ 32 | None => True end) ->
  parse_tlv ss true wa (payload (entity_items sp rs au k)) =
  Ok {| special := sp; relays := rs; author := if wa then au else None;
        kind := if wa then k else None |}.
Proof.
  intros B L S (Lr & F & _) A K.
  rewrite <- (app_nil_r (payload _)), parse_tlv_items; auto.
  2: { apply entity_items_ok; auto. }
  rewrite run_spec by (apply entity_items_ok; auto).
  unfold entity_items. rewrite !values_app, !values_relays.
  cbn [N.eqb Pos.eqb].
  assert (V0 : values 0 (special_items sp) = match sp with [] => [] | _ => [sp] end)
    by (destruct sp; reflexivity).
  assert (VN : forall t, 0 <? t = true -> values t (special_items sp) = []).
  { intros t Ht. destruct sp; [reflexivity|]. cbn [special_items]. rewrite values_cons.
    destruct t; [discriminate|]. reflexivity. }
  rewrite V0, !VN by reflexivity.
  assert (VA : forall t, values t (opt_items 2 (fun a : list N => a) au) =
               if 2 =? t then match au with Some a => [a] | None => [] end else []).
  { intros t. destruct au; simpl opt_items; [rewrite values_cons|]; destruct (2 =? t); reflexivity. }
  assert (VK : forall t, values t (opt_items 3 be32_bytes k) =
               if 3 =? t then match k with Some v => [be32_bytes v] | None => [] end else []).
  { intros t. destruct k; simpl opt_items; [rewrite values_cons|]; destruct (3 =? t); reflexivity. }
  rewrite !VA, !VK. cbn [N.eqb Pos.eqb app]. rewrite !app_nil_r.
  assert (S0 : forallb (fun v => length v <=? ss)%nat match sp with [] => [] | _ => [sp] end = true).
  { destruct sp; [reflexivity|]. cbn [forallb]. rewrite andb_true_r. apply Nat.leb_le. auto. }
  rewrite S0. unfold tlv_init. cbn [special relays author kind length app Nat.sub].
  rewrite filter_relay_ok, firstn_all2 by (auto; lia).
  f_equal. f_equal.
  - destruct sp; reflexivity.
  - destruct wa; [|reflexivity]. destruct au as [a|]; [|reflexivity]. destruct A as [La _].
    unfold last_such. cbn [filter]. rewrite La. reflexivity.
  - destruct wa; [|reflexivity]. destruct k as [v|]; [|reflexivity].
    unfold last_such. cbn [filter length Nat.eqb be32_bytes].
    change [N.land (N.shiftr v 24) 255; N.land (N.shiftr v 16) 255; N.land (N.shiftr v 8) 255; N.land v 255]
      with (be32_bytes v).
    cbn [rev app option_map or_else]. rewrite be32_bytes_value by auto. reflexivity.
Qed.

Lemma payload_size sp rs au k :
  (match au with Some a => key_ok a | None => True end) ->
  blen (payload (entity_items sp rs au k)) <= blen sp + 2 + N.of_nat (relays_size rs) + 34 + 6.
Proof.
  intros A. unfold entity_items. rewrite !payload_app. unfold blen. rewrite !app_length.
  assert (A0 : (length (payload (special_items sp)) <= length sp + 2)%nat).
  { destruct sp; [simpl; lia|]. cbn [special_items payload flat_map]. rewrite app_nil_r.
    unfold item_bytes. cbn [fst snd length]. lia. }
  assert (A1 : length (payload (map (fun r => (1, r)) rs)) = relays_size rs).
  { clear. induction rs as [|r rs IH]; auto. cbn [map payload flat_map relays_size].
    rewrite app_length. unfold payload in IH. unfold item_bytes at 1. cbn [fst snd length]. lia. }
  assert (A2 : (length (payload (opt_items 2 (fun a : list N => a) au)) <= 34)%nat).
  { destruct au as [a|]; [|simpl; lia]. destruct A as [La _]. cbn [opt_items payload flat_map].
    rewrite app_nil_r. unfold item_bytes. cbn [fst snd length]. lia. }
  assert (A3 : (length (payload (opt_items 3 be32_bytes k)) <= 6)%nat).
  { destruct k; simpl; lia. }
  lia.
Qed.

Lemma prefix_nostr s : prefixb (bs "nostr:") (bs "nostr:" ++ s) = true /\
  skipn 6 (bs "nostr:" ++ s) = s.
Proof. split; [apply prefixb_app|apply skipn_app_exact; reflexivity]. Qed.

Lemma tlv_entity_roundtrip hrp sp rs au k size :
  bytes_ok sp -> (length sp <= 255)%nat -> relays_fit rs ->
  (match au with Some a => key_ok a | None => True end) ->
  bytes_ok hrp -> (length hrp <= 41)%nat -> 6690 <= size ->
  (sp <> [] \/ au <> None) ->
  let t := build_tlv 4096 sp rs au k in
  t = payload (entity_items sp rs au k) /\
  (length t =? 0)%nat = false /\
  exists s, encode_bytes_to_bech32 t hrp size = Ok (hrp ++ 49 :: s) /\
            blen (hrp ++ 49 :: s) <= 6620 /\
            decode_bech32_to_bytes (hrp ++ 49 :: s) hrp 4096 = Ok t.
Proof.
  intros B L R A Bh Lh S NE t.
  assert (E : t = payload (entity_items sp rs au k)).
  { unfold t. destruct R as (R1 & R2 & R3). apply build_tlv_fit; auto.
    - apply fit_lengths; auto.
    - destruct au; auto. apply A.
    - unfold blen. lia. }
  assert (LT : blen t <= 4096).
  { rewrite E. pose proof (payload_size sp rs au k A). destruct R as (_ & _ & R3). unfold blen in *. lia. }
  assert (L1 : (1 <= length t)%nat).
  { rewrite E. unfold entity_items. rewrite !payload_app, !app_length.
    destruct NE as [NE|NE].
    - destruct sp; [congruence|]. simpl. lia.
    - destruct au; [|congruence]. simpl. lia. }
  assert (BT : bytes_ok t).
  { rewrite E. pose proof (entity_items_ok sp rs au k B L (proj1 (proj2 R)) A) as F.
    clear -F. induction F as [|[ty v] l (H1 & H2 & H3) F IH]; [constructor|].
    cbn [payload flat_map]. apply Forall_app. split; auto. unfold item_bytes. cbn [fst snd] in *.
    constructor; [exact H1|]. constructor; auto. unfold byte_ok. lia. }
  split; auto. split; [apply Nat.eqb_neq; lia|].
  assert (D5 : (blen t * 8 + 4) / 5 <= 6555) by (apply N.div_le_upper_bound; lia).
  destruct (encode_bytes_ok t hrp size BT L1 Lh) as (ck & C & EN).
  { unfold blen in *. lia. }
  eexists. split; [exact EN|]. split; [|apply decode_bytes_ok; auto].
  destruct (convert_bytes t BT L1) as (_ & U & _).
  destruct (create_checksum_digits _ _ _ C) as [_ Lc].
  unfold blen in *. rewrite app_length. cbn [length]. rewrite map_length, app_length. lia.
Qed.

Theorem C06_uri_roundtrip : forall e size,
  entity_ok e -> 6700 <= size ->
  exists s, uri_encode e size = Ok s /\ N.of_nat (length s) + 1 <= size /\ uri_parse s = Ok e.
Proof.
  intros e size OK S. unfold uri_encode.
  destruct (N.ltb_spec size 7); [lia|].
  destruct e as [k|k|k|pk rs|id rs au k|ident pk k rs|url]; cbn [entity_ok] in OK.
  - destruct (C01_pubkey_bech32_roundtrip k (bs "npub") (N.to_nat (size - 6)) OK) as (s & E & L & L90 & D).
    { repeat constructor. } { simpl; lia. } { simpl; lia. }
    rewrite E. cbn [rmap]. eexists. split; [reflexivity|]. rewrite app_length. simpl length.
    split; [lia|]. unfold uri_parse. destruct (prefix_nostr s) as [-> ->]. cbn [negb].
    assert (P : prefixb (bs "npub1") s = true).
    { unfold key_to_bech32 in E. destruct (_ || _)%bool; [discriminate|]. destruct (_ =? 0)%nat; [discriminate|].
      unfold encode_out in E. destruct (create_checksum _ _); [|discriminate]. cbv zeta in E.
      match goal with E : (if ?c then _ else _) = _ |- _ => destruct c end; [|discriminate].
      assert (s = bs "npub1" ++ skipn 5 s) as -> by (injection E as <-; reflexivity).
      apply prefixb_app. }
    rewrite P, D. reflexivity.
  - destruct (C01_privkey_bech32_roundtrip k (N.to_nat (size - 6)) OK) as (s & E & L & D); [lia|].
    rewrite E. cbn [rmap]. eexists. split; [reflexivity|]. rewrite app_length. simpl length.
    split; [lia|]. unfold uri_parse. destruct (prefix_nostr s) as [-> ->]. cbn [negb].
    pose proof (proj1 (C03_hrp_checked_partial s k) D) as P.
    assert (Q1 : prefixb (bs "npub1") s = false) by (rewrite <- (firstn_skipn 5 s), P; reflexivity).
    assert (Q2 : prefixb (bs "nsec1") s = true) by (rewrite <- (firstn_skipn 5 s), P; reflexivity).
    rewrite Q1, Q2, D. reflexivity.
  - destruct (C01_event_id_bech32_roundtrip k (N.to_nat (size - 6)) OK) as (s & E & L & D); [lia|].
    rewrite E. cbn [rmap]. eexists. split; [reflexivity|]. rewrite app_length. simpl length.
    split; [lia|]. unfold uri_parse. destruct (prefix_nostr s) as [-> ->]. cbn [negb].
    pose proof (proj2 (C03_hrp_checked_partial s k) D) as P.
    assert (Q1 : prefixb (bs "npub1") s = false) by (rewrite <- (firstn_skipn 5 s), P; reflexivity).
    assert (Q2 : prefixb (bs "nsec1") s = false) by (rewrite <- (firstn_skipn 5 s), P; reflexivity).
    assert (Q3 : prefixb (bs "note1") s = true) by (rewrite <- (firstn_skipn 5 s), P; reflexivity).
    rewrite Q1, Q2, Q3, D. reflexivity.
  - destruct OK as ([L B] & R).
    destruct (tlv_entity_roundtrip (bs "nprofile") pk rs None None (size - 6))
      as (E & NZ & s & EN & LS & D); auto; try lia; try (repeat constructor; fail); try (simpl; lia).
    { left. destruct pk; [discriminate|congruence]. }
    unfold nprofile_encode. cbv zeta. rewrite NZ, EN. cbn [rmap]. eexists. split; [reflexivity|].
    split; [unfold blen in LS; rewrite app_length; simpl length in *; lia|].
    unfold uri_parse. destruct (prefix_nostr (bs "nprofile" ++ 49 :: s)) as [-> ->]. cbn [negb].
    replace (prefixb (bs "npub1") (bs "nprofile" ++ 49 :: s)) with false by reflexivity.
    replace (prefixb (bs "nsec1") (bs "nprofile" ++ 49 :: s)) with false by reflexivity.
    replace (prefixb (bs "note1") (bs "nprofile" ++ 49 :: s)) with false by reflexivity.
    replace (prefixb (bs "nprofile1") (bs "nprofile" ++ 49 :: s)) with true by reflexivity.
    unfold nprofile_decode.
    rewrite D, E. cbn [bind]. rewrite parse_entity; auto; try lia. cbn [bind special relays].
    rewrite L. reflexivity.
  - destruct OK as ([L B] & R & A & K).
    destruct (tlv_entity_roundtrip (bs "nevent") id rs au k (size - 6))
      as (E & NZ & s & EN & LS & D); auto; try lia; try (repeat constructor; fail); try (simpl; lia).
    { left. destruct id; [discriminate|congruence]. }
    unfold nevent_encode. cbv zeta. rewrite NZ, EN. cbn [rmap]. eexists. split; [reflexivity|].
    split; [unfold blen in LS; rewrite app_length; simpl length in *; lia|].
    unfold uri_parse. destruct (prefix_nostr (bs "nevent" ++ 49 :: s)) as [-> ->]. cbn [negb].
    replace (prefixb (bs "npub1") (bs "nevent" ++ 49 :: s)) with false by reflexivity.
    replace (prefixb (bs "nsec1") (bs "nevent" ++ 49 :: s)) with false by reflexivity.
    replace (prefixb (bs "note1") (bs "nevent" ++ 49 :: s)) with false by reflexivity.
    replace (prefixb (bs "nprofile1") (bs "nevent" ++ 49 :: s)) with false by reflexivity.
    replace (prefixb (bs "nevent1") (bs "nevent" ++ 49 :: s)) with true by reflexivity.
    unfold nevent_decode.
    rewrite D, E. cbn [bind]. rewrite parse_entity; auto; try lia. cbn [bind special relays author kind].
    rewrite L. reflexivity.
  - destruct OK as (CI & LI & [L B] & K & R).
    destruct (tlv_entity_roundtrip (bs "naddr") ident rs (Some pk) (Some k) (size - 6))
      as (E & NZ & s & EN & LS & D); auto; try lia; try (repeat constructor; fail); try (simpl; lia).
    { apply cstr_bytes; auto. } { split; auto. } { right. discriminate. }
    unfold naddr_encode. cbv zeta. rewrite NZ, EN. cbn [rmap]. eexists. split; [reflexivity|].
    split; [unfold blen in LS; rewrite app_length; simpl length in *; lia|].
    unfold uri_parse. destruct (prefix_nostr (bs "naddr" ++ 49 :: s)) as [-> ->]. cbn [negb].
    replace (prefixb (bs "npub1") (bs "naddr" ++ 49 :: s)) with false by reflexivity.
    replace (prefixb (bs "nsec1") (bs "naddr" ++ 49 :: s)) with false by reflexivity.
    replace (prefixb (bs "note1") (bs "naddr" ++ 49 :: s)) with false by reflexivity.
    replace (prefixb (bs "nprofile1") (bs "naddr" ++ 49 :: s)) with false by reflexivity.
    replace (prefixb (bs "nevent1") (bs "naddr" ++ 49 :: s)) with false by reflexivity.
    replace (prefixb (bs "naddr1") (bs "naddr" ++ 49 :: s)) with true by reflexivity.
    unfold naddr_decode.
    rewrite D, E. cbn [bind]. rewrite parse_entity; auto; try lia.
    + cbn [bind special relays author kind].
      destruct (Nat.leb_spec 256 (length ident)); [lia|reflexivity].
    + apply cstr_bytes; auto.
    + split; auto.
  - destruct OK as (C & L).
    assert (BT : bytes_ok (tlv_rec 0 url)).
    { unfold tlv_rec, blen. constructor; [reflexivity|]. constructor; [unfold byte_ok; lia|].
      apply cstr_bytes; auto. }
    assert (LT : blen (tlv_rec 0 url) = 2 + blen url) by (unfold blen, tlv_rec; cbn [length]; lia).
    assert (D5 : (blen (tlv_rec 0 url) * 8 + 4) / 5 <= 420).
    { rewrite LT. unfold blen. apply N.div_le_upper_bound; lia. }
    destruct (encode_bytes_ok (tlv_rec 0 url) (bs "nrelay") (size - 6) BT) as (ck & CK & EN);
      [simpl; lia|simpl; lia|unfold blen at 1; simpl length; lia|].
    unfold nrelay_encode.
    destruct (N.eqb_spec (blen url) 0); [unfold blen in *; lia|].
    destruct (N.leb_spec 256 (blen url)); [unfold blen in *; lia|]. cbn [orb].
    rewrite EN. cbn [rmap]. eexists. split; [reflexivity|].
    destruct (convert_bytes (tlv_rec 0 url) BT) as (_ & U & _); [simpl; lia|].
    destruct (create_checksum_digits _ _ _ CK) as [_ Lc].
    split.
    { assert (LU : length (tlv_rec 0 url) = (2 + length url)%nat) by reflexivity.
      rewrite LU in U. rewrite !app_length. cbn [length]. rewrite map_length, app_length.
      change (length (bs "nostr:")) with 6%nat. change (length (bs "nrelay")) with 6%nat. cbv zeta in U. lia. }
    match goal with |- uri_parse (_ ++ ?x) = _ => destruct (prefix_nostr x) as [P1 P2] end.
    unfold uri_parse. rewrite P1, P2. cbn [negb].
    match goal with |- context [bs "nrelay" ++ 49 :: ?x] => set (y := x) in * end.
    replace (prefixb (bs "npub1") (bs "nrelay" ++ 49 :: y)) with false by reflexivity.
    replace (prefixb (bs "nsec1") (bs "nrelay" ++ 49 :: y)) with false by reflexivity.
    replace (prefixb (bs "note1") (bs "nrelay" ++ 49 :: y)) with false by reflexivity.
    replace (prefixb (bs "nprofile1") (bs "nrelay" ++ 49 :: y)) with false by reflexivity.
    replace (prefixb (bs "nevent1") (bs "nrelay" ++ 49 :: y)) with false by reflexivity.
    replace (prefixb (bs "naddr1") (bs "nrelay" ++ 49 :: y)) with false by reflexivity.
    replace (prefixb (bs "nrelay1") (bs "nrelay" ++ 49 :: y)) with true by reflexivity.
    unfold nrelay_decode.
    unfold y. rewrite decode_bytes_ok; auto; [|simpl; lia|unfold blen in *; lia|repeat constructor].
    cbn [bind].
    assert (E : tlv_rec 0 url = payload [(0, url)] ++ []).
    { cbn [payload flat_map]. rewrite !app_nil_r. reflexivity. }
    rewrite E. rewrite parse_tlv_items; auto.
    2: { constructor; [|constructor]. split; [reflexivity|]. cbn [fst snd]. split; [lia|]. apply cstr_bytes; auto. }
    cbn [run tlv_switch]. destruct (Nat.ltb_spec 256 (length url)); [lia|].
    cbn [bind special]. destruct (Nat.eqb_spec (length url) 0); [lia|].
    destruct (Nat.leb_spec 256 (length url)); [lia|reflexivity].
Qed.

(** Encoding any entity into any buffer is memory-safe. *)
Definition arrays_ok (e : entity) : Prop :=
  match e with
  | Npub k | Nsec k | Note k => bytes32 k
  | _ => True
  end.
Theorem C06_uri_encode_in_bounds : forall e size, arrays_ok e -> safe (uri_encode e size).
Proof.
  intros e size A. unfold safe, uri_encode. destruct (size <? 7); [discriminate|].
  assert (RM : forall (A B : Type) (f : A -> B) r, r <> Undef -> rmap f r <> Undef).
  { intros ? ? f [| |]; simpl; congruence. }
  apply RM. destruct e; cbn [arrays_ok] in A.
  - apply C01_encoders_in_bounds; auto.
  - apply (C01_encoders_in_bounds k []); auto.
  - apply (C01_encoders_in_bounds k []); auto.
  - unfold nprofile_encode. destruct (_ =? 0)%nat; [discriminate|]. apply encode_bytes_safe. simpl. lia.
  - unfold nevent_encode. destruct (_ =? 0)%nat; [discriminate|]. apply encode_bytes_safe. simpl. lia.
  - unfold naddr_encode. destruct (_ =? 0)%nat; [discriminate|]. apply encode_bytes_safe. simpl. lia.
  - unfold nrelay_encode. destruct (_ || _)%bool; [discriminate|]. apply encode_bytes_safe. simpl. lia.
Qed.

(** The record writer never produces more bytes than the buffer holds, and
    every record it emits is well formed in size (value length below 256). *)
Lemma build_relays_bound size rs : forall out, blen out <= size -> blen (build_relays size out rs) <= size.
Proof.
  induction rs as [|r rs IH]; intros out H; cbn [build_relays]; [exact H|].
  destruct ((255 <? blen r) || (size <? blen out + 2 + blen r)) eqn:E; [apply IH; exact H|].
  apply orb_false_iff in E as (_ & E). apply N.ltb_ge in E. apply IH.
  unfold blen, tlv_rec in *. rewrite app_length. cbn [length]. lia.
Qed.

Theorem C06_tlv_fits_buffer : forall size sp rs au k,
  (forall a, au = Some a -> length a = 32%nat) ->
  blen (build_tlv size sp rs au k) <= size.
Proof.
  intros size sp rs au k A. unfold build_tlv.
  destruct ((0 <? blen sp) && _) eqn:E; [unfold blen; cbn; lia|].
  assert (B : blen (if 0 <? blen sp then tlv_rec 0 sp else []) <= size).
  { destruct (N.ltb_spec 0 (blen sp)); [|unfold blen; cbn; lia].
    cbn [andb] in E. apply orb_false_iff in E as (_ & E). apply N.ltb_ge in E.
    unfold blen, tlv_rec in *. cbn [length]. lia. }
  apply (build_relays_bound size (firstn 16 rs)) in B.
  destruct au as [a|].
  - specialize (A a eq_refl).
    destruct (N.ltb_spec size (blen (build_relays size (if 0 <? blen sp then tlv_rec 0 sp else []) (firstn 16 rs)) + 2 + 32)) as [H|H];
      [unfold blen; cbn; lia|].
    destruct k as [k|].
    + match goal with |- context [if ?c then _ else _] => destruct c eqn:F end; [unfold blen; cbn; lia|].
      apply N.ltb_ge in F. unfold blen in *. rewrite !app_length in *. cbn [length] in *.
      unfold be32_bytes. cbn [length]. lia.
    + unfold blen in *. rewrite app_length. cbn [length]. lia.
  - destruct k as [k|]; [|exact B].
    match goal with |- context [if ?c then _ else _] => destruct c eqn:F end; [unfold blen; cbn; lia|].
    apply N.ltb_ge in F. unfold blen in *. rewrite app_length. unfold be32_bytes. cbn [length]. lia.
Qed.

Example C06_tlv_case : blen (build_tlv 80 sample_key [bs "wss://r"] (Some sample_key) None) = 77 /\
  blen (build_tlv 76 sample_key [bs "wss://r"] (Some sample_key) None) = 0.
Proof. vm_compute. auto. Qed.

Definition sample_entity : entity :=
  Nevent sample_key [bs "wss://relay.example.com"; bs "ws://r2.example"] (Some sample_key) (Some 30023).
Example C06_witness : entity_ok sample_entity.
Proof.
  cbn [entity_ok sample_entity]. pose proof sample_key_ok as K. split; [exact K|].
  split; [|split; [exact K|reflexivity]].
  apply fourteen_relays_fit; [simpl; lia|].
  constructor; [apply relay_valid_iff; vm_compute; reflexivity|].
  constructor; [apply relay_valid_iff; vm_compute; reflexivity|constructor].
Qed.

(** C07: what the TLV reader does on every byte string.  Either the string is
    a sequence of records followed by at most one stray byte, and the reader
    returns the declaratively described fields (or an error if a special value
    is too long for its buffer), or it ends in a truncated record and the
    reader reports an error. *)
Definition reading (want_relays want_ak : bool) (items : list item) : tlv_state :=
  {| special := match last_such (fun _ => true) (values 0 items) with Some v => v | None => [] end;
     relays := if want_relays then firstn 16 (filter is_valid_relay_url (values 1 items)) else [];
     author := if want_ak then last_such (fun v => length v =? 32)%nat (values 2 items) else None;
     kind := if want_ak then option_map be_value (last_such (fun v => length v =? 4)%nat (values 3 items))
             else None |}.

Theorem C07_tlv_reader_exact : forall ss wr wa data, bytes_ok data ->
  exists items, Forall item_ok items /\
    ((exists tail, (length tail <= 1)%nat /\ data = payload items ++ tail /\
        ((Forall (fun v => (length v <= ss)%nat) (values 0 items) /\
          parse_tlv ss wr wa data = Ok (reading wr wa items)) \/
         (Exists (fun v => (ss < length v)%nat) (values 0 items) /\
          parse_tlv ss wr wa data = Err EEncoding))) \/
     (exists t l v, (length v < N.to_nat l)%nat /\ data = payload items ++ t :: l :: v /\
        parse_tlv ss wr wa data = Err EEncoding)).
Proof.
  intros ss wr wa data B.
  destruct (payload_split (length data) data) as (items & F & H); auto.
  exists items. split; auto.
  destruct H as [(tail & T & ->)|(t & l & v & T & ->)].
  - left. exists tail. split; auto. split; auto.
    rewrite parse_tlv_items, run_spec by auto.
    destruct (forallb _ _) eqn:E.
    + left. split.
      * rewrite Forall_forall. rewrite forallb_forall in E. intros v Hv. apply Nat.leb_le. auto.
      * unfold reading, tlv_init. cbn [special relays author kind length app Nat.sub].
        f_equal. f_equal; destruct wr, wa; auto;
          match goal with |- or_else ?x None = _ => destruct x; reflexivity end.
    + right. split; auto. apply Exists_exists.
      rewrite <- not_true_iff_false, forallb_forall in E.
      assert (X : existsb (fun v => ss <? length v)%nat (values 0 items) = true).
      { apply not_false_is_true. intros X. apply E. intros v Hv. apply Nat.leb_le.
        destruct (Nat.le_gt_cases (length v) ss); auto. exfalso.
        assert (existsb (fun v => ss <? length v)%nat (values 0 items) = true); [|congruence].
        apply existsb_exists. exists v. split; auto. apply Nat.ltb_lt. auto. }
      apply existsb_exists in X as (v & Hv & X). exists v. split; auto. apply Nat.ltb_lt. auto.
  - right. exists t, l, v. split; auto. split; auto. unfold parse_tlv.
    apply (parse_loop_truncated ss wr wa items []); auto.
Qed.

(** In particular: total, in bounds, at most 16 relays, each acceptable, and
    the special value fits its buffer. *)
Theorem C07_tlv_reader_safe : forall ss wr wa data, bytes_ok data ->
  safe (parse_tlv ss wr wa data) /\
  forall st, parse_tlv ss wr wa data = Ok st ->
    (length (special st) <= ss)%nat /\ (length (relays st) <= 16)%nat /\
    Forall relay_ok (relays st) /\
    (forall a, author st = Some a -> length a = 32%nat).
Proof.
  intros ss wr wa data B.
  destruct (C07_tlv_reader_exact ss wr wa data B) as (items & F & H).
  destruct H as [(tail & T & E & [[S P]|[_ P]])|(t & l & v & T & E & P)]; rewrite P;
    (split; [discriminate|]); intros st Hst; try discriminate.
  injection Hst as <-. unfold reading. cbn [special relays author].
  assert (LI : forall f l v, last_such f l = Some v -> In v l /\ f v = true).
  { intros f l v. unfold last_such. destruct (rev (filter f l)) as [|x r] eqn:R; [discriminate|].
    intros H. injection H as ->. apply filter_In. rewrite <- (rev_involutive (filter f l)), R.
    apply in_rev. rewrite rev_involutive. left. auto. }
  split; [|split; [|split]].
  - destruct (last_such _ _) eqn:L; [|simpl; lia]. apply LI in L as [L _].
    rewrite Forall_forall in S. auto.
  - destruct wr; [|simpl; lia]. rewrite firstn_length. lia.
  - destruct wr; [|constructor]. apply Forall_forall. intros u Hu.
    assert (In u (filter is_valid_relay_url (values 1 items))).
    { rewrite <- (firstn_skipn 16 (filter _ _)). apply in_or_app. auto. }
    apply filter_In in H as [_ H]. apply relay_valid_iff. auto.
  - intros a. destruct wa; [|discriminate]. intros H. apply LI in H as [_ H].
    apply Nat.eqb_eq in H. auto.
Qed.

(** Decoding any URI text to a TLV entity is memory-safe. *)
Theorem C07_entity_decoders_safe : forall s,
  safe (nprofile_decode s) /\ safe (nevent_decode s) /\ safe (naddr_decode s) /\ safe (nrelay_decode s).
Proof.
  assert (G : forall s hrp n ss wr wa (k : tlv_state -> res entity),
             (forall st, k st <> Undef) ->
             (do data <- decode_bech32_to_bytes s hrp n; do st <- parse_tlv ss wr wa data; k st) <> Undef).
  { intros s hrp n ss wr wa k K H. apply bind_undef in H as [H|(d & D & H)].
    - revert H. apply decode_bytes_safe.
    - apply bind_undef in H as [H|(st & _ & H)].
      + revert H. apply C07_tlv_reader_safe. eapply decode_bytes_bytes; eauto.
      + revert H. apply K. }
  intros s. unfold safe, nprofile_decode, nevent_decode, naddr_decode, nrelay_decode.
  split; [|split; [|split]]; apply G; intros st.
  - destruct (_ =? 32)%nat; discriminate.
  - destruct (_ =? 32)%nat; discriminate.
  - destruct (author st); [|discriminate]. destruct (kind st); [|discriminate].
    destruct (256 <=? _)%nat; discriminate.
  - destruct (_ || _)%bool; discriminate.
Qed.

Example C07_witness : parse_tlv 4 true true ([7;1;9] ++ [0;2;5;6] ++ [3;4;0;0;1;2] ++ [0])
  = Ok {| special := [5;6]; relays := []; author := None; kind := Some 258 |}.
Proof. reflexivity. Qed.

(** C08 is false: a relay longer than 255 bytes is dropped and OK is returned;
    so is one that no longer fits. *)
Theorem C08_no_relay_lost_refuted :
  exists pk r s, key_ok pk /\ cstr_ok r /\
    nprofile_encode pk [r] 6700 = Ok s /\ nprofile_decode s = Ok (Nprofile pk []).
Proof.
  exists sample_key, (bs "wss://" ++ repeat 97 250). eexists.
  split; [exact sample_key_ok|]. split.
  - apply Forall_app. split; [repeat constructor|]. apply Forall_repeat. split; reflexivity.
  - split; vm_compute; reflexivity.
Qed.

(** What holds: if every hint has at most 255 characters, there are at most 16
    of them and the payload fits, the payload is exactly the records of the
    entity, including every relay, in order. *)
Theorem C08_no_relay_lost_partial : forall sp rs au k,
  (length sp <= 255)%nat -> (length rs <= 16)%nat ->
  Forall (fun r => (length r <= 255)%nat) rs ->
  (match au with Some a => length a = 32%nat | None => True end) ->
  N.of_nat (length sp) + N.of_nat (relays_size rs) + 42 <= 4096 ->
  exists items, build_tlv 4096 sp rs au k = payload items /\ values 1 items = rs.
Proof.
  intros sp rs au k L Lr F A S. exists (entity_items sp rs au k). split.
  - apply build_tlv_fit; auto. unfold blen. lia.
  - unfold entity_items. rewrite !values_app, values_relays. cbn [N.eqb Pos.eqb].
    destruct sp, au, k; cbn; rewrite ?app_nil_r; reflexivity.
Qed.

(** A case for C08: two relays beside an author and a kind. *)
Example C08_meets : exists items, build_tlv 4096 sample_key [bs "wss://relay.one"; bs "wss://relay.two"] (Some (repeat 9 32)) (Some 1) = payload items /\
  values 1 items = [bs "wss://relay.one"; bs "wss://relay.two"].
Proof.
  apply C08_no_relay_lost_partial; [cbn; lia|cbn; lia|repeat (constructor; [cbn; lia|]); constructor|reflexivity|vm_compute; discriminate].
Qed.

Print Assumptions C06_uri_roundtrip.
Print Assumptions C06_uri_encode_in_bounds.
Print Assumptions C06_tlv_fits_buffer.
Print Assumptions C07_tlv_reader_exact.
Print Assumptions C07_tlv_reader_safe.
Print Assumptions C07_entity_decoders_safe.
Print Assumptions C08_no_relay_lost_refuted.
Print Assumptions C08_no_relay_lost_partial.
