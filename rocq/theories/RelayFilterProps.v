(** Theorems about src/relay_filter.c: C50, C88, C89. *)
From Verif Require Import Base BaseFacts Hex HexSpec HexProofs Json Event EventProofs Nip18Spec
  RelayProto RelayProtoSpec RelayProtoProps RelayFilter RelayFilterSpec.
Open Scope N_scope.

(** ** C50 *)
Definition values_named (ts : list tag) (name : list N) : list (list N) :=
  flat_map (fun t => match t with n :: v :: _ => if beq n name then [v] else [] | _ => [] end) ts.
Lemma tag_values_first ts name : forall m, tag_values_max ts name m = firstn m (values_named ts name).
Proof.
  induction ts as [|t ts IH]; intros m; cbn [tag_values_max values_named flat_map]; [rewrite firstn_nil; reflexivity|].
  fold (values_named ts name). destruct m as [|m]; [reflexivity|].
  destruct t as [|n [|v r]]; cbn [app]; [apply IH|apply IH|]. destruct (beq n name); cbn [app]; [cbn [firstn]; f_equal; apply IH|apply IH].
Qed.
Lemma values_named_in ts name v : In v (values_named ts name) <-> exists r, In (name :: v :: r) ts.
Proof.
  unfold values_named. rewrite in_flat_map. split.
  - intros (t & I & V). destruct t as [|n [|w r]]; cbn in V; try contradiction. destruct (beq n name) eqn:B; [|contradiction].
    apply beq_eq in B. destruct V as [->|[]]. subst n. exists r. exact I.
  - intros (r & I). exists (name :: v :: r). split; [exact I|]. cbn. rewrite beq_refl. left. reflexivity.
Qed.
Lemma values_named_length e name : length (values_named (ev_tags e) name) = tags_named e name.
Proof.
  unfold tags_named, values_named. induction (ev_tags e) as [|t ts IH]; [reflexivity|]. cbn [flat_map filter]. rewrite app_length, IH.
  destruct t as [|n [|v r]]; [reflexivity|reflexivity|]. destruct (beq n name); reflexivity.
Qed.
Lemma any_value_iff wanted h : any_value wanted h = true <-> exists v, In v wanted /\ In v h.
Proof.
  unfold any_value. rewrite existsb_exists. split.
  - intros (w & I & H). apply existsb_exists in H as (x & IX & B). apply beq_eq in B. subst x. eauto.
  - intros (v & A & B). exists v. split; [exact A|]. apply existsb_exists. exists v. split; [exact B|apply beq_refl].
Qed.
Lemma starts_iff p b : length b = 32%nat -> bytes_ok b -> hex_starts_with (relay_bytes_to_hex b) 64 p = true <-> starts p b.
Proof.
  intros L B. unfold hex_starts_with, starts. destruct (C87_encode b B) as (E & LH). rewrite E in *.
  assert (LE : length (hex_encode b) = 64%nat) by (rewrite EventProofs.hex_encode_length, L; reflexivity). split.
  - destruct (64 <? length p)%nat; [discriminate|]. intros H. apply prefixb_spec in H as (r & H). exists (hex_encode b), r. auto.
  - intros (h & r & LW & ->). assert (X : p ++ r = hex_encode b) by (apply (lower_hex_fun _ b); assumption).
    rewrite <- X in *. rewrite app_length in LE. destruct (Nat.ltb_spec 64 (length p)); [lia|]. apply prefixb_app.
Qed.
Lemma guard {A} (l : list A) (b : bool) (P : Prop) : (b = true <-> P) ->
  negb (length l =? 0)%nat && negb b = false <-> (l = [] \/ P).
Proof.
  intros H. destruct l as [|x l]; cbn [length Nat.eqb negb andb].
  - split; [auto|reflexivity].
  - rewrite negb_false_iff, H. split; [auto|intros [X|X]; [discriminate|exact X]].
Qed.
Lemma if_false (b r : bool) : (if b then false else r) = true <-> b = false /\ r = true.
Proof. destruct b; split; [discriminate|intros (X & _); discriminate|auto|tauto]. Qed.

(** What the code decides, exactly: times only count when positive, and only the
    first 256 values of each tag name are looked at. *)
Definition looked_at (e : event) (name v : list N) : Prop := In v (firstn 256 (values_named (ev_tags e) name)).
Theorem C50_exact : forall f e, ids_ok e -> filter_matches f e = true <->
  (f_ids f = [] \/ exists p, In p (f_ids f) /\ starts p (ev_id e)) /\
  (f_authors f = [] \/ exists p, In p (f_authors f) /\ starts p (ev_pubkey e)) /\
  (f_kinds f = [] \/ In (Z.of_N (ev_kind e)) (f_kinds f)) /\
  ((f_since f <= 0)%Z \/ (f_since f <= ev_created e)%Z) /\
  ((f_until f <= 0)%Z \/ (ev_created e <= f_until f)%Z) /\
  (f_e f = [] \/ exists v, In v (f_e f) /\ looked_at e (bs "e") v) /\
  (f_p f = [] \/ exists v, In v (f_p f) /\ looked_at e (bs "p") v) /\
  (forall g, In g (f_generic f) -> exists v, In v (g_values g) /\ looked_at e [g_name g] v).
Proof.
  intros f e (LI & BI & LP & BP). unfold filter_matches. cbv zeta. rewrite !if_false.
  rewrite (guard (f_ids f) _ (exists p, In p (f_ids f) /\ starts p (ev_id e))).
  2:{ rewrite existsb_exists. split; intros (p & A & B); exists p; (split; [exact A|]); apply (starts_iff p _ LI BI); exact B. }
  rewrite (guard (f_authors f) _ (exists p, In p (f_authors f) /\ starts p (ev_pubkey e))).
  2:{ rewrite existsb_exists. split; intros (p & A & B); exists p; (split; [exact A|]); apply (starts_iff p _ LP BP); exact B. }
  rewrite (guard (f_kinds f) _ (In (Z.of_N (ev_kind e)) (f_kinds f))).
  2:{ rewrite existsb_exists. split; [intros (k & A & B); apply Z.eqb_eq in B; subst k; exact A|intros A; eexists; split; [exact A|apply Z.eqb_refl]]. }
  rewrite (guard (f_e f) _ (exists v, In v (f_e f) /\ looked_at e (bs "e") v)).
  2:{ rewrite any_value_iff, tag_values_first. reflexivity. }
  rewrite (guard (f_p f) _ (exists v, In v (f_p f) /\ looked_at e (bs "p") v)).
  2:{ rewrite any_value_iff, tag_values_first. reflexivity. }
  assert (G : forallb (fun g => any_value (g_values g) (tag_values_max (ev_tags e) [g_name g] max_filter_values)) (f_generic f) = true <->
    forall g, In g (f_generic f) -> exists v, In v (g_values g) /\ looked_at e [g_name g] v).
  { rewrite forallb_forall. split; intros H g I; specialize (H g I).
    - apply any_value_iff in H as (v & A & B). rewrite tag_values_first in B. eauto.
    - apply any_value_iff. destruct H as (v & A & B). exists v. split; [exact A|]. rewrite tag_values_first. exact B. }
  rewrite G.
  assert (S1 : (0 <? f_since f)%Z && (ev_created e <? f_since f)%Z = false <-> (f_since f <= 0)%Z \/ (f_since f <= ev_created e)%Z).
  { rewrite andb_false_iff, !Z.ltb_ge. reflexivity. }
  assert (S2 : (0 <? f_until f)%Z && (f_until f <? ev_created e)%Z = false <-> (f_until f <= 0)%Z \/ (ev_created e <= f_until f)%Z).
  { rewrite andb_false_iff, !Z.ltb_ge. reflexivity. }
  rewrite S1, S2. tauto.
Qed.
Lemma looked_has e name v : looked_at e name v -> has e name v.
Proof.
  unfold looked_at, has. intros H. apply values_named_in. rewrite <- (firstn_skipn 256 (values_named (ev_tags e) name)). apply in_or_app. left. exact H.
Qed.
Lemma has_looked e name v : (tags_named e name <= 256)%nat -> has e name v -> looked_at e name v.
Proof.
  unfold looked_at, has. intros L H. rewrite firstn_all2 by (rewrite values_named_length; exact L). apply values_named_in, H.
Qed.
(** A filter never matches an event it should not match (times not negative). *)
Theorem C50_sound_partial : forall f e, ids_ok e -> (0 <= f_since f)%Z -> (0 <= f_until f)%Z ->
  filter_matches f e = true -> selects f e.
Proof.
  intros f e OK LS LU H. apply (C50_exact f e OK) in H as (A & B & C & D & E & F & G & K).
  constructor; auto; try lia.
  - destruct F as [F|(v & F & L)]; [left; exact F|right]. exists v. split; [exact F|apply looked_has, L].
  - destruct G as [G|(v & G & L)]; [left; exact G|right]. exists v. split; [exact G|apply looked_has, L].
  - intros g I. destruct (K g I) as (v & X & L). exists v. split; [exact X|apply looked_has, L].
Qed.
(** And it matches exactly those, for events with at most 256 values per tag name. *)
Theorem C50_match_partial : forall f e, ids_ok e -> (0 <= f_since f)%Z -> (0 <= f_until f)%Z ->
  (forall name, (tags_named e name <= 256)%nat) -> filter_matches f e = true <-> selects f e.
Proof.
  intros f e OK LS LU FEW. split; [apply C50_sound_partial; assumption|].
  intros [A B C D E F G K]. apply (C50_exact f e OK). split; [exact A|]. split; [exact B|]. split; [exact C|].
  split; [lia|]. split; [lia|]. split; [|split].
  - destruct F as [F|(v & F & L)]; [left; exact F|right]. exists v. split; [exact F|apply has_looked; auto].
  - destruct G as [G|(v & G & L)]; [left; exact G|right]. exists v. split; [exact G|apply has_looked; auto].
  - intros g I. destruct (K g I) as (v & X & L). exists v. split; [exact X|apply has_looked; auto].
Qed.
Definition c50_statement : Prop := forall f e, ids_ok e -> filter_matches f e = true <-> selects f e.
Definition no_filter : rfilter := mkFilter [] [] [] [] [] [] 0 0 0 None.
Definition f_topic (v : list N) : rfilter := mkFilter [] [] [] [] [] [mkGtag 116 [v]] 0 0 0 None.
Definition crowded : event := mkEvent (repeat 1 32) (repeat 2 32) 100 1 (repeat [bs "t"; bs "a"] 256 ++ [[bs "t"; bs "b"]]) None (repeat 0 64).
Lemma crowded_ok : ids_ok crowded.
Proof. repeat split; try reflexivity; apply Forall_repeat; unfold byte_ok; lia. Qed.
(** The 257th value of a tag name is not seen; a negative until is ignored. *)
Theorem C50_refuted : ~ c50_statement /\
  exists f e, ids_ok e /\ (f_until f < 0)%Z /\ (forall name, (tags_named e name <= 256)%nat) /\ filter_matches f e = true /\ ~ selects f e.
Proof.
  split.
  - intros H. specialize (H (f_topic (bs "b")) crowded crowded_ok).
    assert (X : filter_matches (f_topic (bs "b")) crowded = true).
    { apply H. constructor; try (left; reflexivity). intros g [<-|[]]. exists (bs "b"). split; [left; reflexivity|].
      exists []. cbn [ev_tags crowded]. apply in_or_app. right. left. reflexivity. }
    vm_compute in X. discriminate.
  - exists (mkFilter [] [] [] [] [] [] 0 (-5) 0 None), (mkEvent (repeat 1 32) (repeat 2 32) 100 1 [] None (repeat 0 64)).
    split; [repeat split; try reflexivity; apply Forall_repeat; unfold byte_ok; lia|]. split; [cbn; lia|]. split; [intros name; cbn; lia|].
    split; [vm_compute; reflexivity|]. intros [_ _ _ _ U _ _ _]. cbn in U. lia.
Qed.
(** A list of filters matches when some filter does; a search is left to the
    caller's callback. *)
Theorem C50_list : forall fs e, (filters_match fs e = true <-> exists f, In f fs /\ filter_matches f e = true) /\
  forall cb, (filters_match_search cb fs e = true <-> exists f, In f fs /\ filter_matches f e = true /\
    (f_search f = None \/ f_search f = Some [] \/ exists q p, f_search f = Some q /\ cb = Some p /\ p q e = true)).
Proof.
  intros fs e. split; [apply existsb_exists|]. intros cb. unfold filters_match_search. rewrite existsb_exists.
  assert (ONE : forall f, filter_matches_search cb f e = true <-> filter_matches f e = true /\
    (f_search f = None \/ f_search f = Some [] \/ exists q p, f_search f = Some q /\ cb = Some p /\ p q e = true)).
  { intros f. unfold filter_matches_search. destruct (filter_matches f e); cbn [negb]; [|split; [discriminate|intros (X & _); discriminate]].
    destruct (f_search f) as [[|c r]|]; [tauto| |tauto]. destruct cb as [p|].
    - split; [intros H; split; [reflexivity|]; right; right; exists (c :: r), p; auto|].
      intros (_ & [X|[X|(q & p' & Q & P & R)]]); [discriminate|discriminate|]. congruence.
    - split; [discriminate|]. intros (_ & [X|[X|(q & p' & Q & P & R)]]); discriminate. }
  split.
  - intros (f & I & H). apply ONE in H. exists f. tauto.
  - intros (f & I & H). exists f. split; [exact I|]. apply ONE, H.
Qed.
Definition sample_ev : event := mkEvent (repeat 171 32) (repeat 18 32) 1000 30023 [[bs "t"; bs "nostr"]; [bs "e"; bs "x"]; [bs "p"]] (Some (bs "hi")) (repeat 0 64).
Example C50_meets : filter_matches (mkFilter [bs "ffff"; bs "abab"] [bs "1212"] [1; 30023]%Z [bs "y"; bs "x"] [] [mkGtag 116 [bs "nostr"]] 1000 1000 5 None) sample_ev = true /\
  filter_matches (mkFilter [] [] [] [] [bs "q"] [] 0 0 0 None) sample_ev = false /\
  filter_matches (mkFilter [] [] [] [] [] [] 1001 0 0 None) sample_ev = false.
Proof. repeat split; vm_compute; reflexivity. Qed.

(** ** C88 parsing *)
Ltac rsv := unfold reserved; repeat (first [left; reflexivity | right]).
Lemma same_letters_iff a : forall b, map tolower a = map tolower b <-> same_letters a b.
Proof.
  unfold same_letters. induction a as [|x a IH]; intros [|y b]; cbn [map].
  - split; [constructor|reflexivity].
  - split; [discriminate|]. intros H. inversion H.
  - split; [discriminate|]. intros H. inversion H.
  - assert (C : tolower x = tolower y <-> (x = y \/ (65 <= x <= 90 /\ y = x + 32) \/ (65 <= y <= 90 /\ x = y + 32))).
    { unfold tolower. destruct (N.leb_spec 65 x), (N.leb_spec x 90), (N.leb_spec 65 y), (N.leb_spec y 90); cbn [andb]; lia. }
    split.
    + intros H. constructor; [apply C; congruence|apply IH; congruence].
    + intros H. inversion H as [|? ? ? ? X Y]; subst. f_equal; [apply C, X|apply IH, Y].
Qed.
Lemma jfind_in n l v : jfind n l = Some v -> exists k, In (k, v) l /\ same_letters k n.
Proof.
  induction l as [|(k, w) l IH]; cbn [jfind]; [discriminate|].
  destruct (beq (map tolower k) (map tolower n)) eqn:B.
  - apply beq_eq, same_letters_iff in B. intros H. exists k. split; [left; congruence|exact B].
  - intros H. destruct (IH H) as (k' & I & SL). exists k'. split; [right; exact I|exact SL].
Qed.
Lemma jfind_none n l : jfind n l = None -> forall v, ~ In (n, v) l.
Proof.
  induction l as [|(k, w) l IH]; cbn [jfind]; [auto|].
  destruct (beq (map tolower k) (map tolower n)) eqn:B; [discriminate|]. apply beq_neq in B. intros H v [E|I].
  - apply B. congruence.
  - apply (IH H v I).
Qed.
Lemma keys_fun (l : list (list N * json)) : NoDup (map fst l) -> forall k v w, In (k, v) l -> In (k, w) l -> v = w.
Proof.
  induction l as [|(k0, v0) l IH]; intros ND k v w; [contradiction|]. cbn [map fst] in ND. inversion ND as [|? ? NI ND']; subst.
  intros [E1|I1] [E2|I2]; [congruence| | |apply (IH ND' k); assumption].
  - exfalso. apply NI. assert (k0 = k) by congruence. subst k0. apply (in_map fst) in I2. exact I2.
  - exfalso. apply NI. assert (k0 = k) by congruence. subst k0. apply (in_map fst) in I1. exact I1.
Qed.
Lemma jget_good l n : good_filter l -> In n reserved -> forall v, jget n (JObj l) = Some v <-> In (n, v) l.
Proof.
  intros G R v. cbn [jget]. split.
  - intros H. apply jfind_in in H as (k & I & SL). rewrite (gf_case l G k v n I R SL) in I. exact I.
  - intros I. destruct (jfind n l) as [w|] eqn:E.
    + apply jfind_in in E as (k & I' & SL). rewrite (gf_case l G k w n I' R SL) in I'. f_equal. apply (keys_fun l (gf_keys l G) n); assumption.
    + exfalso. apply (jfind_none n l E v I).
Qed.
Lemma jget_good_none l n : good_filter l -> In n reserved -> jget n (JObj l) = None -> forall v, ~ In (n, v) l.
Proof. intros G R H. apply (jfind_none n l H). Qed.
Lemma strings_of_map l : strings_of (map JStr l) = l.
Proof. unfold strings_of. induction l; [reflexivity|]. cbn [map flat_map app]. f_equal. assumption. Qed.
Lemma parse_strings_good v : string_list v -> exists l, v = JArr (map JStr l) /\ l <> [] /\ parse_string_array (Some v) = ROk l.
Proof.
  intros (l & -> & L). exists l. split; [reflexivity|]. split; [intros ->; cbn in L; lia|]. cbn [parse_string_array]. rewrite map_length.
  destruct (Nat.ltb_spec max_filter_values (length l)) as [X|X]; [unfold max_filter_values in X; lia|]. rewrite strings_of_map. reflexivity.
Qed.
Lemma field_strings l n : good_filter l -> In n reserved -> (forall v, In (n, v) l -> string_list v) ->
  exists ss, parse_string_array (jget n (JObj l)) = ROk ss /\
    ((exists v, In (n, v) l) -> ss <> []) /\ (ss <> [] -> In (n, JArr (map JStr ss)) l).
Proof.
  intros G R SL. destruct (jget n (JObj l)) as [v|] eqn:E.
  - apply (jget_good l n G R) in E. destruct (parse_strings_good v (SL v E)) as (ss & -> & NE & P). exists ss. split; [exact P|]. auto.
  - exists []. split; [reflexivity|]. split; [|congruence]. intros (v & I). exfalso. apply (jget_good_none l n G R E v I).
Qed.
Lemma num_int32 n z : num_is n z -> (- 2 ^ 31 <= z < 2 ^ 31)%Z -> j_int32 n = z.
Proof.
  intros (m & x & -> & X & ->) R. cbn [j_int32]. unfold jtrunc. rewrite (proj2 (Z.leb_le 0 x)) by exact X. cbv zeta.
  change (2 ^ 31)%Z with 2147483648%Z in R. set (w := (m * 2 ^ x)%Z) in *. clearbody w.
  destruct (Z.leb_spec 2147483647 w); [lia|]. destruct (Z.leb_spec w (-2147483648)); lia.
Qed.
Lemma num_int64 n z : num_is n z -> (- 2 ^ 63 <= z < 2 ^ 63)%Z -> j_int64 n = Ok z.
Proof.
  intros (m & x & -> & X & ->) R. cbn [j_int64]. unfold jtrunc. rewrite (proj2 (Z.leb_le 0 x)) by exact X. cbv zeta.
  set (w := (m * 2 ^ x)%Z) in *. clearbody w. rewrite (proj2 (Z.leb_le _ _)) by lia. rewrite (proj2 (Z.ltb_lt _ _)) by lia. reflexivity.
Qed.
Lemma num_is_fun n z w : num_is n z -> num_is n w -> z = w.
Proof. intros (m & x & -> & _ & ->) (m' & x' & E & _ & ->). congruence. Qed.
Lemma field_kinds l : good_filter l -> exists ks, parse_int_array (jget (bs "kinds") (JObj l)) = ROk ks /\
  ((exists v, In (bs "kinds", v) l) -> ks <> []) /\
  (ks <> [] -> exists ns, In (bs "kinds", JArr (map JNum ns)) l /\ forall z, In z ks <-> exists n, In n ns /\ num_is n z).
Proof.
  intros G. assert (R : In (bs "kinds") reserved) by rsv. destruct (jget (bs "kinds") (JObj l)) as [v|] eqn:E.
  - apply (jget_good l (bs "kinds") G R v) in E. destruct (gf_kinds l G v E) as (ns & -> & L & F). exists (ints_of (map JNum ns)).
    assert (IO : ints_of (map JNum ns) = map j_int32 ns).
    { unfold ints_of. clear. induction ns; [reflexivity|]. cbn [map flat_map app]. f_equal. assumption. }
    cbn [parse_int_array]. rewrite map_length. destruct (Nat.ltb_spec max_filter_values (length ns)) as [X|X]; [unfold max_filter_values in X; lia|].
    rewrite IO. split; [reflexivity|]. split; [destruct ns; [cbn in L; lia|discriminate]|]. intros _. exists ns. split; [exact E|].
    rewrite Forall_forall in F. intros z. rewrite in_map_iff. split.
    + intros (n & <- & I). exists n. split; [exact I|]. destruct (F n I) as (z & A & B). rewrite (num_int32 n z A B). exact A.
    + intros (n & I & A). exists n. split; [|exact I]. destruct (F n I) as (z' & A' & B). rewrite (num_is_fun n z z' A A'). apply num_int32; assumption.
  - exists []. split; [reflexivity|]. split; [|congruence]. intros (v & I). exfalso. apply (jget_good_none l _ G R E v I).
Qed.
Lemma field_time l n : good_filter l -> n = bs "since" \/ n = bs "until" ->
  exists z, parse_time (jget n (JObj l)) = ROk z /\ (0 <= z)%Z /\
    ((exists v, In (n, v) l) -> z <> 0%Z) /\ (z <> 0%Z -> exists m, In (n, JNum m) l /\ num_is m z).
Proof.
  intros G NN. assert (R : In n reserved) by (destruct NN as [-> | ->]; rsv). destruct (jget n (JObj l)) as [v|] eqn:E.
  - apply (jget_good l n G R) in E. destruct (gf_times l G n v E NN) as (m & z & -> & A & B). exists z. cbn [parse_time].
    rewrite (num_int64 m z A) by lia. split; [reflexivity|]. split; [lia|]. split; [lia|]. eauto.
  - exists 0%Z. split; [reflexivity|]. split; [lia|]. split; [|congruence]. intros (v & I). exfalso. apply (jget_good_none l n G R E v I).
Qed.
Lemma generic_key_iff k c : generic_key k = Some c <-> k = [35; c] /\ letter c /\ c <> 101 /\ c <> 112.
Proof.
  unfold generic_key, letter, is_alpha. split.
  - destruct k as [|h [|c' [|x k]]]; try discriminate.
    destruct (N.eqb_spec h 35), (N.eqb_spec c' 101), (N.eqb_spec c' 112); cbn [andb negb]; try discriminate. intros H.
    destruct ((65 <=? c') && (c' <=? 90) || (97 <=? c') && (c' <=? 122)) eqn:A; [|discriminate].
    assert (c' = c) by congruence. subst c'. rewrite orb_true_iff, !andb_true_iff, !N.leb_le in A. subst h. repeat split; auto.
  - intros (-> & L & N1 & N2). rewrite (proj2 (N.eqb_neq c 101) N1), (proj2 (N.eqb_neq c 112) N2). cbn [N.eqb Pos.eqb andb negb].
    assert (A : (65 <=? c) && (c <=? 90) || (97 <=? c) && (c <=? 122) = true) by (rewrite orb_true_iff, !andb_true_iff, !N.leb_le; exact L).
    rewrite A. reflexivity.
Qed.
Lemma generic_good l : (forall k v, In (k, v) l -> (exists c, k = [35; c] /\ letter c) -> string_list v) ->
  exists gs, parse_generic l = ROk gs /\
    forall c vs, In (mkGtag c vs) gs <-> letter c /\ c <> 101 /\ c <> 112 /\ In ([35; c], JArr (map JStr vs)) l.
Proof.
  induction l as [|(k, v) l IH]; intros G; cbn [parse_generic].
  - exists []. split; [reflexivity|]. intros c vs. cbn. tauto.
  - destruct IH as (gs & P & S0); [intros k' v' I; apply G; right; exact I|].
    destruct (generic_key k) as [c|] eqn:K.
    + pose proof (proj1 (generic_key_iff k c) K) as (-> & L & N1 & N2).
      destruct (parse_strings_good v) as (ss & -> & NE & PS); [apply (G [35; c]); [left; reflexivity|eauto]|].
      rewrite PS. cbn [rbind]. rewrite P. cbn [rbind]. exists (mkGtag c ss :: gs). split; [reflexivity|].
      intros c' vs. cbn [In]. rewrite S0. split.
      * intros [E|(A & B & C & D)]; [|tauto]. assert (c' = c /\ vs = ss) as (-> & ->) by (split; congruence). auto.
      * intros (A & B & C & [E|D]); [left|right; tauto]. assert (c = c') by congruence. subst c'.
        assert (M : map JStr ss = map JStr vs) by congruence. f_equal. apply (f_equal strings_of) in M. rewrite !strings_of_map in M. exact M.
    + rewrite P. exists gs. split; [reflexivity|]. intros c vs. rewrite S0. split; [cbn; tauto|].
      intros (A & B & C & [E|D]); [|tauto]. exfalso. assert (X : generic_key k = Some c) by (apply generic_key_iff; repeat split; auto; congruence). congruence.
Qed.

(** A well-formed filter object is accepted, and the parsed filter selects exactly
    what the object asks for; with C50 this is what matching decides. *)
Theorem C88_parse_partial : forall l, good_filter l -> exists f, filter_parse (Some (JObj l)) = ROk f /\
  (0 <= f_since f)%Z /\ (0 <= f_until f)%Z /\ forall e, selects f e <-> json_selects l e.
Proof.
  intros l G. cbn [filter_parse]. unfold filter_parse_tree.
  destruct (field_strings l (bs "ids") G) as (ids & P1 & A1 & B1); [rsv|intros v I; apply (gf_strings l G (bs "ids") v I); auto|].
  destruct (field_strings l (bs "authors") G) as (aus & P2 & A2 & B2); [rsv|intros v I; apply (gf_strings l G (bs "authors") v I); auto|].
  destruct (field_kinds l G) as (ks & P3 & A3 & B3).
  destruct (field_strings l (bs "#e") G) as (es & P4 & A4 & B4); [rsv|intros v I; apply (gf_strings l G (bs "#e") v I); right; right; exists 101; split; [reflexivity|unfold letter; lia]|].
  destruct (field_strings l (bs "#p") G) as (ps & P5 & A5 & B5); [rsv|intros v I; apply (gf_strings l G (bs "#p") v I); right; right; exists 112; split; [reflexivity|unfold letter; lia]|].
  destruct (generic_good l) as (gs & P6 & B6); [intros k v I C; apply (gf_strings l G k v I); auto|].
  destruct (field_time l (bs "since") G) as (si & P7 & L7 & A7 & B7); [auto|].
  destruct (field_time l (bs "until") G) as (un & P8 & L8 & A8 & B8); [auto|].
  assert (P9 : exists s, match jget (bs "search") (JObj l) with
                | Some (JStr s) => if max_search <? N.of_nat (length s) then RErr RInvalidJson else ROk (Some s)
                | _ => ROk None
                end = ROk s).
  { destruct (jget (bs "search") (JObj l)) as [v|] eqn:E; [|eauto]. apply (jget_good l (bs "search") G ltac:(rsv) v) in E.
    destruct (gf_search l G v E) as (s & -> & LE). unfold max_search. rewrite (proj2 (N.ltb_ge _ _)) by exact LE. eauto. }
  destruct P9 as (se & P9). cbn [members]. rewrite P1. cbn [rbind]. rewrite P2. cbn [rbind]. rewrite P3. cbn [rbind]. rewrite P4. cbn [rbind].
  rewrite P5. cbn [rbind]. rewrite P6. cbn [rbind]. rewrite P7. cbn [rbind]. rewrite P8. cbn [rbind]. cbv zeta. rewrite P9. cbn [rbind].
  eexists. split; [reflexivity|]. cbn [f_since f_until]. split; [exact L7|]. split; [exact L8|]. intros e. split.
  - intros [SI SA SK SS SU SE SP SG]. cbn [f_ids f_authors f_kinds f_since f_until f_e f_p f_generic] in *. intros k v I. unfold asks_of.
    split; [|split; [|split; [|split; [|split]]]].
    + intros ->. assert (NE : ids <> []) by (apply A1; eauto). destruct SI as [SI|(p & IP & ST)]; [contradiction|].
      assert (v = JArr (map JStr ids)) by (apply (keys_fun l (gf_keys l G) (bs "ids")); [exact I|apply B1, NE]). subst v.
      exists (map JStr ids), p. split; [reflexivity|]. split; [apply in_map, IP|exact ST].
    + intros ->. assert (NE : aus <> []) by (apply A2; eauto). destruct SA as [SA|(p & IP & ST)]; [contradiction|].
      assert (v = JArr (map JStr aus)) by (apply (keys_fun l (gf_keys l G) (bs "authors")); [exact I|apply B2, NE]). subst v.
      exists (map JStr aus), p. split; [reflexivity|]. split; [apply in_map, IP|exact ST].
    + intros ->. assert (NE : ks <> []) by (apply A3; eauto). destruct SK as [SK|SK]; [contradiction|].
      destruct (B3 NE) as (ns & IN & BN). assert (v = JArr (map JNum ns)) by (apply (keys_fun l (gf_keys l G) (bs "kinds")); assumption). subst v.
      apply BN in SK as (n & A & B). exists (map JNum ns), n. split; [reflexivity|]. split; [apply in_map, A|exact B].
    + intros ->. assert (NE : si <> 0%Z) by (apply A7; eauto). destruct SS as [SS|SS]; [contradiction|].
      destruct (B7 NE) as (m & IM & NM). assert (v = JNum m) by (apply (keys_fun l (gf_keys l G) (bs "since")); assumption). subst v. eauto.
    + intros ->. assert (NE : un <> 0%Z) by (apply A8; eauto). destruct SU as [SU|SU]; [contradiction|].
      destruct (B8 NE) as (m & IM & NM). assert (v = JNum m) by (apply (keys_fun l (gf_keys l G) (bs "until")); assumption). subst v. eauto.
    + intros c -> LC.
      assert (SL : string_list v) by (apply (gf_strings l G [35; c] v I); eauto).
      destruct (N.eq_dec c 101) as [->|N1]; [|destruct (N.eq_dec c 112) as [->|N2]].
      * assert (NE : es <> []) by (apply A4; exists v; exact I). destruct SE as [SE|(w & IW & HW)]; [contradiction|].
        assert (v = JArr (map JStr es)) by (apply (keys_fun l (gf_keys l G) (bs "#e")); [exact I|apply B4, NE]). subst v.
        exists (map JStr es), w. split; [reflexivity|]. split; [apply in_map, IW|exact HW].
      * assert (NE : ps <> []) by (apply A5; exists v; exact I). destruct SP as [SP|(w & IW & HW)]; [contradiction|].
        assert (v = JArr (map JStr ps)) by (apply (keys_fun l (gf_keys l G) (bs "#p")); [exact I|apply B5, NE]). subst v.
        exists (map JStr ps), w. split; [reflexivity|]. split; [apply in_map, IW|exact HW].
      * destruct SL as (vs & -> & _). destruct (SG (mkGtag c vs)) as (w & IW & HW); [apply B6; auto|]. cbn [g_values g_name] in IW, HW.
        exists (map JStr vs), w. split; [reflexivity|]. split; [apply in_map, IW|exact HW].
  - intros J. assert (EMP : forall (x : list (list N)), {x = []} + {x <> []}) by (intros [|]; [left; reflexivity|right; discriminate]).
    constructor; cbn [f_ids f_authors f_kinds f_since f_until f_e f_p f_generic].
    + destruct (EMP ids) as [X|NE]; [left; exact X|right]. destruct (J _ _ (B1 NE)) as (Q & _). destruct (Q eq_refl) as (l' & s & E & IS & ST).
      assert (l' = map JStr ids) by congruence. subst l'. apply in_map_iff in IS as (s' & ES & IS). assert (s' = s) by congruence. subst s'. eauto.
    + destruct (EMP aus) as [X|NE]; [left; exact X|right]. destruct (J _ _ (B2 NE)) as (_ & Q & _). destruct (Q eq_refl) as (l' & s & E & IS & ST).
      assert (l' = map JStr aus) by congruence. subst l'. apply in_map_iff in IS as (s' & ES & IS). assert (s' = s) by congruence. subst s'. eauto.
    + destruct ks as [|k0 ks0]; [left; reflexivity|right]. destruct B3 as (ns & IN & BN); [discriminate|].
      destruct (J _ _ IN) as (_ & _ & Q & _). destruct (Q eq_refl) as (l' & n & E & IS & ST).
      assert (l' = map JNum ns) by congruence. subst l'. apply in_map_iff in IS as (n' & ES & IS). assert (n' = n) by congruence. subst n'. apply BN. eauto.
    + destruct (Z.eq_dec si 0) as [X|NE]; [left; exact X|right]. destruct (B7 NE) as (m & IM & NM).
      destruct (J _ _ IM) as (_ & _ & _ & Q & _). destruct (Q eq_refl) as (n & z & E & NZ & LE). assert (n = m) by congruence. subst n.
      rewrite (num_is_fun m si z NM NZ). exact LE.
    + destruct (Z.eq_dec un 0) as [X|NE]; [left; exact X|right]. destruct (B8 NE) as (m & IM & NM).
      destruct (J _ _ IM) as (_ & _ & _ & _ & Q & _). destruct (Q eq_refl) as (n & z & E & NZ & LE). assert (n = m) by congruence. subst n.
      rewrite (num_is_fun m un z NM NZ). exact LE.
    + destruct (EMP es) as [X|NE]; [left; exact X|right]. destruct (J _ _ (B4 NE)) as (_ & _ & _ & _ & _ & Q).
      destruct (Q 101 eq_refl) as (l' & s & E & IS & ST); [unfold letter; lia|].
      assert (l' = map JStr es) by congruence. subst l'. apply in_map_iff in IS as (s' & ES & IS). assert (s' = s) by congruence. subst s'. eauto.
    + destruct (EMP ps) as [X|NE]; [left; exact X|right]. destruct (J _ _ (B5 NE)) as (_ & _ & _ & _ & _ & Q).
      destruct (Q 112 eq_refl) as (l' & s & E & IS & ST); [unfold letter; lia|].
      assert (l' = map JStr ps) by congruence. subst l'. apply in_map_iff in IS as (s' & ES & IS). assert (s' = s) by congruence. subst s'. eauto.
    + intros [c vs] IG. cbn [g_values g_name]. apply B6 in IG as (LC & N1 & N2 & IL).
      destruct (J _ _ IL) as (_ & _ & _ & _ & _ & Q). destruct (Q c eq_refl LC) as (l' & s & E & IS & ST).
      assert (l' = map JStr vs) by congruence. subst l'. apply in_map_iff in IS as (s' & ES & IS). assert (s' = s) by congruence. subst s'. eauto.
Qed.
(** Parsing and matching together. *)
Theorem C88_end_to_end_partial : forall l, good_filter l -> exists f, filter_parse (Some (JObj l)) = ROk f /\
  forall e, ids_ok e -> (forall name, (tags_named e name <= 256)%nat) -> filter_matches f e = true <-> json_selects l e.
Proof.
  intros l G. destruct (C88_parse_partial l G) as (f & P & LS & LU & SEL). exists f. split; [exact P|]. intros e OK FEW.
  rewrite (C50_match_partial f e OK LS LU FEW). apply SEL.
Qed.
Example C88_meets : good_filter [(bs "kinds", JArr [JNum (JFin 1 0)]); (bs "#t", JArr [JStr (bs "nostr")]); (bs "#e", JArr [JStr (bs "x")]); (bs "since", JNum (JFin 5 1))].
Proof.
  constructor.
  - cbn. repeat constructor; cbn; intuition discriminate.
  - intros k v n I R SL. apply same_letters_iff in SL. cbn in R. cbn in I.
    destruct I as [I|[I|[I|[I|[]]]]]; inversion I; subst k v; clear I; (repeat destruct R as [R|R]; try contradiction; subst n; vm_compute in SL; try discriminate; reflexivity).
  - intros k v I C. cbn in I. destruct I as [I|[I|[I|[I|[]]]]]; inversion I; subst k v; clear I.
    + exfalso. destruct C as [C|[C|(c & C & _)]]; discriminate.
    + exists [bs "nostr"]. split; [reflexivity|cbn; lia].
    + exists [bs "x"]. split; [reflexivity|cbn; lia].
    + exfalso. destruct C as [C|[C|(c & C & _)]]; discriminate.
  - intros v I. cbn in I. destruct I as [I|[I|[I|[I|[]]]]]; inversion I; subst v. exists [JFin 1 0]. split; [reflexivity|]. split; [cbn; lia|].
    constructor; [|constructor]. exists 1%Z. split; [exists 1%Z, 0%Z; repeat split; lia|lia].
  - intros k v I C. cbn in I. destruct I as [I|[I|[I|[I|[]]]]]; inversion I; subst k v; clear I; try (exfalso; destruct C; discriminate).
    exists (JFin 5 1), 10%Z. split; [reflexivity|]. split; [exists 5%Z, 1%Z; repeat split; lia|lia].
  - intros v I. cbn in I. destruct I as [I|[I|[I|[I|[]]]]]; inversion I.
Qed.
(** Malformed objects are misread: an accepted filter may ask for less than its
    text, or for more; and a far-away time is undefined. *)
Definition c88_statement : Prop := forall l f e, ids_ok e -> (forall name, (tags_named e name <= 256)%nat) ->
  filter_parse (Some (JObj l)) = ROk f -> filter_matches f e = true <-> json_selects l e.
Definition plain (ts : list tag) : event := mkEvent (repeat 1 32) (repeat 2 32) 100 1 ts None (repeat 0 64).
Lemma plain_ok ts : ids_ok (plain ts).
Proof. repeat split; try reflexivity; apply Forall_repeat; unfold byte_ok; lia. Qed.
Theorem C88_refuted : ~ c88_statement /\
  (* wider: the only author wanted is not a string *)
  (exists f, filter_parse (Some (JObj [(bs "authors", JArr [JNum (JFin 5 0)])])) = ROk f /\ forall e, filter_matches f e = true) /\
  (* wider: not an object at all *)
  (exists f, filter_parse (Some (JNum (JFin 7 0))) = ROk f /\ forall e, filter_matches f e = true) /\
  (* narrower: #E is also taken for #e *)
  (exists f e, filter_parse (Some (JObj [(bs "#E", JArr [JStr (bs "x")])])) = ROk f /\ has e (bs "E") (bs "x") /\ filter_matches f e = false) /\
  (* undefined *)
  filter_parse (Some (JObj [(bs "since", JNum (JFin 1 80))])) = RUndef.
Proof.
  split; [|split; [|split; [|split]]].
  - intros H. set (l := [(bs "authors", JArr [JNum (JFin 5 0)])]).
    specialize (H l no_filter (plain []) (plain_ok []) ltac:(intros name; cbn; lia) ltac:(vm_compute; reflexivity)).
    assert (X : filter_matches no_filter (plain []) = true) by (vm_compute; reflexivity). apply H in X.
    destruct (X (bs "authors") _ (or_introl eq_refl)) as (_ & Q & _). destruct (Q eq_refl) as (l' & s & E & IS & _).
    assert (l' = [JNum (JFin 5 0)]) by congruence. subst l'. destruct IS as [IS|[]]. discriminate.
  - exists no_filter. split; [vm_compute; reflexivity|]. intros e. reflexivity.
  - exists no_filter. split; [vm_compute; reflexivity|]. intros e. reflexivity.
  - exists (mkFilter [] [] [] [bs "x"] [] [mkGtag 69 [bs "x"]] 0 0 0 None), (plain [[bs "E"; bs "x"]]).
    split; [vm_compute; reflexivity|]. split; [exists []; left; reflexivity|]. vm_compute. reflexivity.
  - vm_compute. reflexivity.
Qed.
(** Every accepted filter is within the documented sizes. *)
Lemma parse_strings_bound j l : parse_string_array j = ROk l -> (length l <= 256)%nat.
Proof.
  unfold parse_string_array. destruct j as [[| | | |a|]|]; intros H; try (assert (l = []) by congruence; subst l; cbn; lia).
  destruct (Nat.ltb_spec max_filter_values (length a)) as [|L]; [discriminate|]. assert (l = strings_of a) by congruence. subst l.
  unfold max_filter_values in L. enough (length (strings_of a) <= length a)%nat by lia. clear. unfold strings_of.
  induction a as [|x a IH]; [cbn; lia|]. cbn [flat_map length]. rewrite app_length. destruct x; cbn [length]; lia.
Qed.
Lemma parse_ints_bound j l : parse_int_array j = ROk l -> (length l <= 256)%nat.
Proof.
  unfold parse_int_array. destruct j as [[| | | |a|]|]; intros H; try (assert (l = []) by congruence; subst l; cbn; lia).
  destruct (Nat.ltb_spec max_filter_values (length a)) as [|L]; [discriminate|]. assert (l = ints_of a) by congruence. subst l.
  unfold max_filter_values in L. enough (length (ints_of a) <= length a)%nat by lia. clear. unfold ints_of.
  induction a as [|x a IH]; [cbn; lia|]. cbn [flat_map length]. rewrite app_length. destruct x; cbn [length]; lia.
Qed.
Lemma rbind_ok {A B} (r : rres A) (f : A -> rres B) b : rbind r f = ROk b -> exists a, r = ROk a /\ f a = ROk b.
Proof. destruct r; cbn; [eauto|discriminate|discriminate]. Qed.
Lemma parse_generic_bound l : forall gs, parse_generic l = ROk gs -> Forall (fun g => (length (g_values g) <= 256)%nat /\ letter (g_name g)) gs.
Proof.
  induction l as [|(k, v) l IH]; intros gs; cbn [parse_generic].
  - intros H. assert (gs = []) by congruence. subst. constructor.
  - destruct (generic_key k) as [c|] eqn:K; [|apply IH]. intros H. apply rbind_ok in H as (vs & P & H). apply rbind_ok in H as (gs' & Q & H).
    assert (gs = mkGtag c vs :: gs') by congruence. subst gs. apply generic_key_iff in K as (_ & L & _).
    constructor; [|apply IH, Q]. cbn. split; [apply (parse_strings_bound _ _ P)|exact L].
Qed.
Theorem C88_bounds : forall j f, filter_parse j = ROk f ->
  (length (f_ids f) <= 256)%nat /\ (length (f_authors f) <= 256)%nat /\ (length (f_kinds f) <= 256)%nat /\
  (length (f_e f) <= 256)%nat /\ (length (f_p f) <= 256)%nat /\
  Forall (fun g => (length (g_values g) <= 256)%nat /\ letter (g_name g)) (f_generic f) /\
  match f_search f with Some s => N.of_nat (length s) <= 65536 | None => True end.
Proof.
  intros [j|] f; [|discriminate]. cbn [filter_parse]. unfold filter_parse_tree. intros H.
  apply rbind_ok in H as (a1 & P1 & H). apply rbind_ok in H as (a2 & P2 & H). apply rbind_ok in H as (a3 & P3 & H).
  apply rbind_ok in H as (a4 & P4 & H). apply rbind_ok in H as (a5 & P5 & H). apply rbind_ok in H as (a6 & P6 & H).
  apply rbind_ok in H as (a7 & P7 & H). apply rbind_ok in H as (a8 & P8 & H). cbv zeta in H. apply rbind_ok in H as (a9 & P9 & H).
  match type of H with ROk ?x = _ => assert (E : f = x) by congruence end. subst f. cbn [f_ids f_authors f_kinds f_e f_p f_generic f_search].
  split; [apply (parse_strings_bound _ _ P1)|]. split; [apply (parse_strings_bound _ _ P2)|]. split; [apply (parse_ints_bound _ _ P3)|].
  split; [apply (parse_strings_bound _ _ P4)|]. split; [apply (parse_strings_bound _ _ P5)|]. split; [apply (parse_generic_bound _ _ P6)|].
  destruct a9 as [s|]; [|exact Logic.I]. destruct (jget (bs "search") j) as [[| | |s'| |]|]; try discriminate.
  destruct (N.ltb_spec max_search (N.of_nat (length s'))) as [|L]; [discriminate|]. assert (s' = s) by congruence. subst s'. exact L.
Qed.

(** ** C89 validation and accessors *)
Theorem C89_validate : forall f, filter_validate f = ROk tt <->
  Forall hex_prefix (f_ids f) /\ Forall hex_prefix (f_authors f) /\ Forall hex_id (f_e f) /\ Forall hex_id (f_p f) /\
  match f_search f with Some s => N.of_nat (length s) <= 65536 | None => True end.
Proof.
  intros f. unfold filter_validate.
  rewrite <- (forallb_iff _ _ (f_ids f) hex_prefix_iff), <- (forallb_iff _ _ (f_authors f) hex_prefix_iff),
    <- (forallb_iff _ _ (f_e f) hex64_iff), <- (forallb_iff _ _ (f_p f) hex64_iff).
  destruct (forallb validate_hex_prefix (f_ids f)); cbn [negb]; [|split; [discriminate|intros (X & _); discriminate]].
  destruct (forallb validate_hex_prefix (f_authors f)); cbn [negb]; [|split; [discriminate|intros (_ & X & _); discriminate]].
  destruct (forallb validate_hex64 (f_e f)); cbn [negb]; [|split; [discriminate|intros (_ & _ & X & _); discriminate]].
  destruct (forallb validate_hex64 (f_p f)); cbn [negb]; [|split; [discriminate|intros (_ & _ & _ & X & _); discriminate]].
  destruct (f_search f) as [s|]; [|tauto]. destruct (N.ltb_spec max_search (N.of_nat (length s))) as [L|L]; unfold max_search in L.
  - split; [discriminate|]. intros (_ & _ & _ & _ & X). lia.
  - tauto.
Qed.
(** An id or author of a validated filter can match something: it is the start
    of some event's id. *)
Lemma low_hex_lower h : low_hex h -> Forall (fun c => ~ (65 <= c <= 70)) h.
Proof. intros L. eapply Forall_impl; [|exact L]. cbv beta. intros c I R. cbn in I. intuition (subst; lia). Qed.
Theorem C89_satisfiable : forall p, hex_prefix p -> exists b, length b = 32%nat /\ bytes_ok b /\ starts p b.
Proof.
  intros p (L & LO). destruct (hex_id_text (p ++ repeat 48 (64 - length p))) as (b & H & LB).
  { split; [rewrite app_length, repeat_length; lia|]. apply Forall_app. split; [exact LO|]. apply Forall_repeat. cbn. tauto. }
  exists b. split; [exact LB|]. split; [apply (hextext_bytes _ _ H)|]. exists (p ++ repeat 48 (64 - length p)), (repeat 48 (64 - length p)).
  split; [|reflexivity]. split; [exact H|]. apply low_hex_lower. apply Forall_app. split; [exact LO|]. apply Forall_repeat. cbn. tauto.
Qed.
(** The tag accessor answers with the wanted values of that letter. *)
Theorem C89_tag_values : forall f c, NoDup (map g_name (f_generic f)) -> (forall g, In g (f_generic f) -> g_name g <> 101 /\ g_name g <> 112) ->
  (forall g, In g (f_generic f) -> filter_tag_values f (g_name g) = g_values g) /\
  filter_tag_values f 101 = f_e f /\ filter_tag_values f 112 = f_p f /\
  (c <> 101 -> c <> 112 -> ~ In c (map g_name (f_generic f)) -> filter_tag_values f c = []) /\
  (filter_has_tags f = false <-> f_e f = [] /\ f_p f = [] /\ f_generic f = []).
Proof.
  intros f c ND NEP. split; [|split; [reflexivity|split; [reflexivity|split]]].
  - intros g I. destruct (NEP g I) as (N1 & N2). unfold filter_tag_values. rewrite (proj2 (N.eqb_neq _ _) N1), (proj2 (N.eqb_neq _ _) N2).
    revert ND I. clear. induction (f_generic f) as [|h gs IH]; intros ND I; [contradiction|]. cbn [generic_values map] in *. inversion ND as [|? ? NI ND']; subst.
    destruct (N.eqb_spec (g_name h) (g_name g)) as [E|E].
    + destruct I as [->|I]; [reflexivity|]. exfalso. apply NI. rewrite E. apply in_map, I.
    + destruct I as [->|I]; [congruence|]. apply IH; assumption.
  - intros N1 N2 NI. unfold filter_tag_values. rewrite (proj2 (N.eqb_neq _ _) N1), (proj2 (N.eqb_neq _ _) N2).
    revert NI. clear. induction (f_generic f) as [|h gs IH]; intros NI; [reflexivity|]. cbn [generic_values map In] in *.
    destruct (N.eqb_spec (g_name h) c) as [E|E]; [tauto|]. apply IH. tauto.
  - unfold filter_has_tags. destruct (f_e f), (f_p f), (f_generic f); cbn; split; try discriminate; try tauto; intros (A & B & C); discriminate.
Qed.
Example C89_meets : filter_validate (mkFilter [bs "ab"] [bs "0"] [] [] [] [mkGtag 116 [bs "x"]] 0 0 0 (Some (bs "q"))) = ROk tt /\
  filter_validate (mkFilter [bs "AB"] [] [] [] [] [] 0 0 0 None) = RErr RInvalidId.
Proof. split; vm_compute; reflexivity. Qed.

Print Assumptions C50_exact.
Print Assumptions C50_sound_partial.
Print Assumptions C50_match_partial.
Print Assumptions C50_refuted.
Print Assumptions C50_list.
Print Assumptions C88_parse_partial.
Print Assumptions C88_end_to_end_partial.
Print Assumptions C88_refuted.
Print Assumptions C88_bounds.
Print Assumptions C89_validate.
Print Assumptions C89_satisfiable.
Print Assumptions C89_tag_values.
