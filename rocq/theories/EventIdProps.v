(** Theorems about the text an id is computed from: C132. *)
From Verif Require Import Base BaseFacts Dec Json Hex HexProofs Event EventSpec EventProofs EventOomSpec Nip18Spec RelayProtoProps JsonSpec JsonLib JsonLibProofs EventIdSpec.
Open Scope N_scope.

Lemma stray_chars s : cstr_ok s -> no_stray s -> nip01_chars s (escape_json s).
Proof.
  intros C S. induction C as [|c s C _ IH]; [constructor|]. unfold escape_json in *. cbn [flat_map]. assert (IH' : nip01_chars s (flat_map escape_char s)) by (apply IH; intros x I; apply S; right; exact I). clear IH. set (t := flat_map escape_char s) in *.
  assert (SC := S c (or_introl eq_refl)). unfold escape_char.
  destruct (N.eqb_spec c 34); [subst; apply NcEscape; [cbn; tauto|exact IH']|]. destruct (N.eqb_spec c 92); [subst; apply NcEscape; [cbn; tauto|exact IH']|]. destruct (N.eqb_spec c 10); [subst; apply NcEscape; [cbn; tauto|exact IH']|].
  destruct (N.eqb_spec c 13); [subst; apply NcEscape; [cbn; tauto|exact IH']|]. destruct (N.eqb_spec c 9); [subst; apply NcEscape; [cbn; tauto|exact IH']|]. destruct (N.eqb_spec c 8); [subst; apply NcEscape; [cbn; tauto|exact IH']|]. destruct (N.eqb_spec c 12); [subst; apply NcEscape; [cbn; tauto|exact IH']|].
  assert (NI : ~ In c (map fst escaped_as)) by (cbn; intuition congruence). destruct (N.ltb_spec c 32); [destruct SC; [lia|contradiction]|]. cbn [app]. apply NcVerbatim; assumption.
Qed.
Lemma chars_unique s t t' : nip01_chars s t -> nip01_chars s t' -> t = t'.
Proof.
  intros A. revert t'. induction A as [|c x s t I _ IH|c s t I _ IH]; intros t' B; inversion B as [|c' x' s' q I' B'|c' s' q I' B']; subst.
  - reflexivity.
  - rewrite (IH q B'). assert (x' = x); [|congruence]. cbn [In escaped_as] in I, I'. repeat (destruct I as [I|I]; [apply pair_equal_spec in I as (<- & <-); repeat (destruct I' as [I'|I']; [apply pair_equal_spec in I' as (? & ?); congruence|]); destruct I'|]). destruct I.
  - exfalso. apply I'. apply (in_map fst) in I. exact I.
  - exfalso. apply I. apply (in_map fst) in I'. exact I'.
  - rewrite (IH q B'). reflexivity.
Qed.
Lemma joined {A} (one : A -> list N -> Prop) (f : A -> list N) l : (forall a, In a l -> one a (f a)) -> nip01_items one l (join_comma (map f l)).
Proof.
  induction l as [|a l IH]; intros P; [constructor|]. destruct l as [|b l]; [constructor; apply P; left; reflexivity|].
  change (join_comma (map f (a :: b :: l))) with (f a ++ 44 :: join_comma (map f (b :: l))). apply NiMore; [apply P; left; reflexivity|]. apply IH. intros x I. apply P. right. exact I.
Qed.
Lemma items_unique {A} (one : A -> list N -> Prop) : (forall a t t', one a t -> one a t' -> t = t') -> forall l t t', nip01_items one l t -> nip01_items one l t' -> t = t'.
Proof.
  intros U l t t' I. revert t'. induction I as [|a t O|a t b l r O I IH]; intros t' J; inversion J as [|? ? O'|? ? ? ? ? O' J']; subst; [reflexivity|apply (U _ _ _ O O')|]. rewrite (U _ _ _ O O'), (IH _ J'). reflexivity.
Qed.
Lemma string_unique s t t' : nip01_string s t -> nip01_string s t' -> t = t'.
Proof. intros (q & Q & ->) (q' & Q' & ->). rewrite (chars_unique _ _ _ Q Q'). reflexivity. Qed.
Lemma array_unique {A} (one : A -> list N -> Prop) : (forall a t t', one a t -> one a t' -> t = t') -> forall l t t', nip01_array one l t -> nip01_array one l t' -> t = t'.
Proof. intros U l t t' (q & Q & ->) (q' & Q' & ->). rewrite (items_unique one U _ _ _ Q Q'). reflexivity. Qed.
Lemma preimage_of num e : event_ok e -> no_stray_event e -> num (ev_created e) = dec_Z (ev_created e) -> nip01_preimage e (serialize_with num e).
Proof.
  intros O (SC & ST) EN. unfold serialize_with. rewrite EN. exists (hex_encode (ev_pubkey e)), (91 :: join_comma (map ser_tag (ev_tags e)) ++ [93]), (quote (content_of e)).
  split; [apply lower_hex_encode; apply (eo_pk _ O)|]. split.
  - eexists. split; [|reflexivity]. apply joined. intros vs I. unfold ser_tag. eexists. split; [|reflexivity]. apply joined. intros v IV. eexists. split; [|reflexivity].
    pose proof (proj1 (Forall_forall _ _) (eo_tags _ O) vs I) as (_ & CV). apply stray_chars; [apply (proj1 (Forall_forall _ _) CV v IV)|]. apply (proj1 (Forall_forall _ _) (proj1 (Forall_forall _ _) ST vs I) v IV).
  - split; [eexists; split; [apply stray_chars; [apply (eo_content _ O)|exact SC]|reflexivity]|].
    change [91; 48; 44; 34] with (bs "[0,"""). change [34; 44] with (bs ""","). cbn [app]. flat. reflexivity.
Qed.
(** The text hashed is NIP-01's, in the build without cJSON ... *)
Theorem C132_own_partial : forall sha256 e, event_ok e -> no_stray_event e -> forall t, nip01_preimage e t -> ev_id (compute_id serialize_own sha256 e) = sha256 t.
Proof.
  intros sha e O S t (pk & tags & content & HP & HT & HC & ->). destruct (preimage_of dec_Z e O S eq_refl) as (pk' & tags' & content' & HP' & HT' & HC' & E).
  cbn [compute_id ev_id]. unfold serialize_own. rewrite E. assert (EP : pk' = pk) by (apply (lower_hex_fun _ _ _ HP' HP)). rewrite EP, (array_unique _ (array_unique _ string_unique) _ _ _ HT' HT), (string_unique _ _ _ HC' HC). reflexivity.
Qed.
(** ... and in the build with cJSON, which writes numbers of up to 15 digits as they
    are. *)
Theorem C132_cjson_partial : forall fmt sha256 e, (forall z, (Z.abs z < 10 ^ 15)%Z -> fmt z = dec_Z z) -> event_ok e -> (Z.abs (ev_created e) < 10 ^ 15)%Z -> no_stray_event e ->
  forall t, nip01_preimage e t -> ev_id (compute_id (serialize_cjson fmt) sha256 e) = sha256 t.
Proof.
  intros fmt sha e F O L S t (pk & tags & content & HP & HT & HC & ->).
  destruct (preimage_of (fun z => fmt (round53 z)) e O S) as (pk' & tags' & content' & HP' & HT' & HC' & E); [rewrite round53_small by lia; apply F, L|].
  cbn [compute_id ev_id]. unfold serialize_cjson. rewrite E. assert (EP : pk' = pk) by (apply (lower_hex_fun _ _ _ HP' HP)). rewrite EP, (array_unique _ (array_unique _ string_unique) _ _ _ HT' HT), (string_unique _ _ _ HC' HC). reflexivity.
Qed.
Lemma elems_pairs ps : ps <> [] -> Forall (fun p => text (fst p) (snd p)) ps -> elems (map fst ps) (join_comma (map snd ps)).
Proof.
  intros NE F. induction F as [|(j, t) ps T F IH]; [congruence|]. cbn [fst snd] in T. destruct ps as [|p ps].
  - cbn [map join_comma fst snd]. pose proof (ElOne j [] t [] ws_nil T ws_nil) as E. cbn [app] in E. rewrite app_nil_r in E. exact E.
  - change (join_comma (map snd ((j, t) :: p :: ps))) with ([] ++ t ++ [] ++ 44 :: join_comma (map snd (p :: ps))). change (map fst ((j, t) :: p :: ps)) with (j :: map fst (p :: ps)). apply (ElMore j _ [] t [] _ ws_nil T ws_nil). apply IH. discriminate.
Qed.
Lemma array_of {A} (g : A -> json) (f : A -> list N) l : (forall a, In a l -> text (g a) (f a)) -> text (JArr (map g l)) (91 :: join_comma (map f l) ++ [93]).
Proof.
  intros P. destruct l as [|a l]; [apply (TxArr0 []), ws_nil|]. apply TxArr.
  pose proof (elems_pairs (map (fun x => (g x, f x)) (a :: l)) ltac:(discriminate)) as E. rewrite !map_map in E. cbn [fst snd] in E. apply E. apply Forall_forall. intros p I. apply in_map_iff in I as (x & <- & I). cbn [fst snd]. apply P, I.
Qed.
(** For every event, stray control characters or not, it is a JSON text for the
    array of the event's fields. *)
Theorem C132_json : forall e, event_ok e -> text (id_tree e) (serialize_own e).
Proof.
  intros e O. pose proof O as [OI OP OC OK OT OCT OS].
  assert (TG : text (JArr (map (fun vs => JArr (map JStr vs)) (ev_tags e))) (91 :: join_comma (map ser_tag (ev_tags e)) ++ [93])).
  { apply array_of. intros vs I. unfold ser_tag. apply (array_of JStr quote). intros v IV. apply TxStr, escaped_text. pose proof (proj1 (Forall_forall _ _) OT vs I) as (_ & CV). apply (proj1 (Forall_forall _ _) CV v IV). }
  assert (HX : str_text (hex_encode (ev_pubkey e)) (hex_encode (ev_pubkey e))).
  { clear -OP. destruct OP as (_ & B). unfold hex_encode. assert (P : forall v t, v < 16 -> str_text t t -> str_text (hexdigit v :: t) (hexdigit v :: t)) by (intros v t L T; unfold hexdigit; destruct (N.ltb_spec v 10); apply StrChar; (lia || exact T)).
    induction B as [|c b C _ IH]; [constructor|]. cbn [flat_map hex_byte app]. unfold byte_ok in C. apply P; [apply N.div_lt_upper_bound; lia|]. apply P; [apply N.mod_lt; lia|exact IH]. }
  pose proof (elems_pairs [(jint 0, dec_Z 0); (JStr (hex_encode (ev_pubkey e)), 34 :: hex_encode (ev_pubkey e) ++ [34]); (jint (ev_created e), dec_Z (ev_created e)); (jint (Z.of_N (ev_kind e)), dec_Z (Z.of_N (ev_kind e)));
    (JArr (map (fun vs => JArr (map JStr vs)) (ev_tags e)), 91 :: join_comma (map ser_tag (ev_tags e)) ++ [93]); (JStr (content_of e), quote (content_of e))] ltac:(discriminate)) as E.
  match type of E with ?A -> ?B => assert (EL : B) end.
  { apply E. clear E. repeat (apply Forall_cons; [cbn [fst snd]|]); [..|apply Forall_nil].
    - apply TxNum; lia.
    - apply TxStr, HX.
    - apply TxNum; lia.
    - apply TxNum; lia.
    - exact TG.
    - apply TxStr, escaped_text, OCT. }
  apply TxArr in EL. clear E. cbn [map fst snd join_comma] in EL. unfold id_tree, serialize_own, serialize_with, quote in *.
  assert (EK : dec_Z (Z.of_N (ev_kind e)) = dec_N (ev_kind e)) by (destruct (ev_kind e); reflexivity). rewrite EK in EL. change (dec_Z 0) with [48] in EL. revert EL. flat. exact (fun T => T).
Qed.
(** What stands in the text can be read back: no two readings. *)
Corollary C132_read : forall e print parse, event_ok e -> json_library print parse -> parse (serialize_own e) = Some (id_tree e).
Proof.
  intros e print parse O LIB. apply (lib_parse _ _ LIB); [apply text_alone, C132_json, O|]. unfold id_tree. cbn [depth fold_right]. assert (Z : fold_right (fun x m => N.max (depth x) m) 0 (map (fun vs => JArr (map JStr vs)) (ev_tags e)) <= 1).
  { induction (ev_tags e) as [|vs ts IH]; [cbn; lia|]. cbn [map fold_right]. assert (Y : depth (JArr (map JStr vs)) = 1); [|lia].
    cbn [depth]. assert (Z : fold_right (fun x m => N.max (depth x) m) 0 (map JStr vs) = 0); [|rewrite Z; reflexivity]. clear. induction vs as [|v vs IH]; [reflexivity|]. cbn [map fold_right depth]. rewrite IH. reflexivity. }
  unfold jint. cbn [depth]. lia.
Qed.
(** Stray control characters are written as \u escapes, which NIP-01 does not ask
    for: the id is another than other implementations compute. *)
Definition bell : event := mkEvent (repeat 1 32) (repeat 2 32) 1700000000 1 [] (Some [7]) (repeat 3 64).
Lemma bell_ok : event_ok bell.
Proof.
  constructor; cbn [bell ev_id ev_pubkey ev_created ev_kind ev_tags ev_sig content_of ev_content].
  - split; [reflexivity|]. apply Forall_forall. intros x I. apply repeat_spec in I. subst. unfold byte_ok. lia.
  - split; [reflexivity|]. apply Forall_forall. intros x I. apply repeat_spec in I. subst. unfold byte_ok. lia.
  - lia.
  - lia.
  - constructor.
  - repeat constructor; reflexivity.
  - split; [reflexivity|]. apply Forall_forall. intros x I. apply repeat_spec in I. subst. unfold byte_ok. lia.
Qed.
Theorem C132_refuted : ~ (forall sha256 e, event_ok e -> forall t, nip01_preimage e t -> ev_id (compute_id serialize_own sha256 e) = sha256 t).
Proof.
  intros H. assert (P : nip01_preimage bell (bs "[0,""" ++ hex_encode (repeat 2 32) ++ bs """,1700000000,1,[],""" ++ [7] ++ bs """]")).
  { exists (hex_encode (repeat 2 32)), (bs "[]"), (34 :: [7] ++ [34]). split; [apply lower_hex_encode, (eo_pk _ bell_ok)|]. split; [exists []; split; [constructor|reflexivity]|].
    split; [exists [7]; split; [apply NcVerbatim; [cbn; intuition discriminate|constructor]|reflexivity]|]. vm_compute. reflexivity. }
  specialize (H (fun t => t) bell bell_ok _ P). vm_compute in H. discriminate.
Qed.
Example C132_meets : exists e t, event_ok e /\ no_stray_event e /\ nip01_preimage e t /\ ev_tags e <> [] /\ serialize_own e = t.
Proof.
  exists (mkEvent (repeat 1 32) (repeat 2 32) 1700000000 1 [[bs "t"; bs "a""b"]] (Some (bs "line" ++ [10; 195; 169])) (repeat 3 64)). eexists.
  assert (O : event_ok (mkEvent (repeat 1 32) (repeat 2 32) 1700000000 1 [[bs "t"; bs "a""b"]] (Some (bs "line" ++ [10; 195; 169])) (repeat 3 64))).
  { constructor; cbn [ev_id ev_pubkey ev_created ev_kind ev_tags ev_sig content_of ev_content].
    - apply (eo_id _ bell_ok).
    - apply (eo_pk _ bell_ok).
    - lia.
    - lia.
    - repeat constructor; try discriminate; reflexivity.
    - repeat constructor; reflexivity.
    - apply (eo_sig _ bell_ok). }
  assert (S : no_stray_event (mkEvent (repeat 1 32) (repeat 2 32) 1700000000 1 [[bs "t"; bs "a""b"]] (Some (bs "line" ++ [10; 195; 169])) (repeat 3 64))).
  { split; [intros c I; cbn in I; repeat (destruct I as [<-|I]; [first [left; lia|right; cbn; tauto]|]); destruct I|].
    constructor; [|constructor]. constructor; [|constructor; [|constructor]]; intros c I; cbn in I; repeat (destruct I as [<-|I]; [first [left; lia|right; cbn; tauto]|]); destruct I. }
  split; [exact O|]. split; [exact S|]. split; [apply (preimage_of dec_Z _ O S eq_refl)|]. split; [discriminate|reflexivity].
Qed.
Print Assumptions C132_own_partial.
Print Assumptions C132_cjson_partial.
Print Assumptions C132_json.
Print Assumptions C132_read.
Print Assumptions C132_refuted.
