(** C144, C145: buffers and parts of events. *)
From Verif Require Import Base BaseFacts Heap Json Hex Event EventProofs EventProps RelayMemSpec RelayMemProps EventMemSpec EventMemProps Nip18Spec RelayProto RelayProtoSpec RelayProtoProps RelayFilter RelayMsg RelayMsgProps RelayAccess.
From Coq Require Import Permutation.
Open Scope N_scope.

Lemma c_string_ok s r : ~ In 0 s -> c_string (s ++ 0 :: r) = ROk s.
Proof.
  induction s as [|c s IH]; intros NZ; cbn [app c_string]; [reflexivity|]. destruct (N.eqb_spec c 0) as [->|NE]; [destruct NZ; left; reflexivity|].
  rewrite IH; [reflexivity|]. intros I. apply NZ. right. exact I.
Qed.
Lemma c_string_over s : ~ In 0 s -> c_string s = RUndef.
Proof.
  induction s as [|c s IH]; intros NZ; [reflexivity|]. cbn [c_string]. destruct (N.eqb_spec c 0) as [->|NE]; [destruct NZ; left; reflexivity|].
  rewrite IH; [reflexivity|]. intros I. apply NZ. right. exact I.
Qed.
Section Read.
Variable print : json -> list N.
Variable parse : list N -> option json.
Variable lim : option ev_limits.
Lemma text_of_given s more : s <> [] -> text_of (s ++ more) (length s) = ROk s.
Proof.
  intros NE. unfold text_of. destruct s as [|c s]; [congruence|]. set (w := c :: s) in *. cbn [length]. change (Datatypes.S (length s)) with (length w).
  destruct (Nat.ltb_spec (length (w ++ more)) (length w)) as [L|L]; [rewrite app_length in L; lia|]. rewrite firstn_app, firstn_all, Nat.sub_diag. cbn [firstn]. rewrite app_nil_r. reflexivity.
Qed.
(** A client message or a filter of positive length is read from that many bytes,
    whatever follows them, be it nothing. *)
Theorem C144_given : forall s more, s <> [] ->
  client_msg_parse print parse lim (s ++ more) (length s) = client_read print parse lim (parse s) /\
  filter_parse_buf parse (s ++ more) (length s) = filter_parse (parse s).
Proof. intros s more NE. unfold client_msg_parse, filter_parse_buf. rewrite (text_of_given s more NE). split; reflexivity. Qed.
(** An event with an id that is no 64 hex digits is told apart from broken JSON. *)
Theorem C144_bad_id : forall s more len j t, ~ In 0 s -> parse s = Some j -> jget (bs "id") j = Some (JStr t) -> hex_to_bytes t 32 = None ->
  event_parse parse lim (s ++ 0 :: more) len = RErr RInvalidId.
Proof.
  intros s more len j t NZ P J B. unfold event_parse. rewrite (c_string_ok s more NZ). cbn [rbind]. unfold event_from_json. rewrite P. unfold event_from_tree. rewrite J. cbn [hex_field]. rewrite B. reflexivity.
Qed.
(** An event is read up to the first zero byte, whatever the length; with a zero byte at
    the end of the text, all is well. *)
Theorem C144_event_partial : forall s more len, ~ In 0 s ->
  (forall e, event_parse parse lim (s ++ 0 :: more) len = ROk e <-> event_from_json parse lim s = Ok e) /\
  (event_parse parse lim (s ++ 0 :: more) len = RUndef <-> event_from_json parse lim s = Undef) /\
  (parse s = None -> event_parse parse lim (s ++ 0 :: more) len = RErr RInvalidJson) /\
  (event_parse parse lim (s ++ 0 :: more) len = RErr RInvalidId -> exists j, parse s = Some j /\
     exists k n t, In (k, n) [(bs "id", 32%nat); (bs "pubkey", 32%nat); (bs "sig", 64%nat)] /\ jget k j = Some (JStr t) /\ hex_to_bytes t n = None).
Proof.
  intros s more len NZ. unfold event_parse. rewrite (c_string_ok s more NZ). cbn [rbind]. unfold event_from_json. destruct (parse s) as [j|]; [|repeat split; try discriminate; congruence].
  split; [|split; [|split]].
  - intros e. destruct (event_from_tree lim j) as [e'|[]|]; split; intros E; try discriminate; congruence.
  - destruct (event_from_tree lim j) as [e'|[]|]; split; intros E; try discriminate; congruence.
  - discriminate.
  - intros E. exists j. split; [reflexivity|]. assert (EI : event_from_tree lim j = Err EInvalidEvent) by (destruct (event_from_tree lim j) as [e'|[]|]; try discriminate; reflexivity). clear E.
    assert (HF : forall n f, hex_field n f = Err EInvalidEvent -> exists t, f = Some (JStr t) /\ hex_to_bytes t n = None).
    { intros n f E. unfold hex_field in E. destruct f as [[| | |t| |]|]; try discriminate. destruct (hex_to_bytes t n) eqn:X; [discriminate|]. eauto. }
    unfold event_from_tree in EI. destruct (hex_field 32 (jget (bs "id") j)) as [i|r|] eqn:E1; cbn [bind] in EI; [| |discriminate].
    2:{ assert (r = EInvalidEvent) by congruence. subst r. destruct (HF _ _ E1) as (t & A & B). exists (bs "id"), 32%nat, t. cbn. auto. }
    destruct (hex_field 32 (jget (bs "pubkey") j)) as [p|r|] eqn:E2; cbn [bind] in EI; [| |discriminate].
    2:{ assert (r = EInvalidEvent) by congruence. subst r. destruct (HF _ _ E2) as (t & A & B). exists (bs "pubkey"), 32%nat, t. cbn. auto. }
    destruct (match jget (bs "created_at") j with Some (JNum n) => j_int64 n | _ => Ok 0%Z end) as [c|r|] eqn:E3; cbn [bind] in EI; [| |discriminate].
    2:{ exfalso. destruct (jget (bs "created_at") j) as [[| |n| | |]|]; try discriminate. unfold j_int64 in E3. destruct n; try discriminate. repeat match type of E3 with (if ?b then _ else _) = _ => destruct b; try discriminate end. }
    match type of EI with (do _ <- ?m; _) = _ => destruct m as [ct|r|] eqn:E4 end; cbn [bind] in EI; [| |discriminate].
    2:{ exfalso. destruct (jget (bs "content") j) as [[| | | | |]|]; try discriminate. destruct lim as [l|]; try discriminate. destruct (_ <? _); try discriminate. congruence. }
    match type of EI with (do _ <- ?m; _) = _ => destruct m as [tg|r|] eqn:E5 end; cbn [bind] in EI; [| |discriminate].
    2:{ exfalso. destruct (jget (bs "tags") j) as [[| | | | |]|]; try discriminate. destruct lim as [l'|]; try discriminate. destruct (_ <? _); try discriminate. congruence. }
    destruct (hex_field 64 (jget (bs "sig") j)) as [sg|r|] eqn:E6; cbn [bind] in EI; [discriminate| |discriminate].
    assert (r = EInvalidEvent) by congruence. subst r. destruct (HF _ _ E6) as (t & A & B). exists (bs "sig"), 64%nat, t. cbn. auto.
Qed.
End Read.
(** The length given with an event is not respected: a text without a zero byte is read
    beyond its end, and what follows the text decides the answer. *)
Definition two_texts (a b : json) (s : list N) : option json := if beq s (bs "a") then Some a else Some b.
Theorem C144_refuted :
  ~ (forall parse lim s, s <> [] -> event_parse parse lim s (length s) <> RUndef) /\
  ~ (forall parse lim s m m', s <> [] -> event_parse parse lim (s ++ 0 :: m) (length s) = event_parse parse lim (s ++ m') (length s)).
Proof.
  split.
  - intros H. apply (H (fun _ => None) None (bs "{}") ltac:(discriminate)). reflexivity.
  - intros H. specialize (H (two_texts JNull (JObj [(bs "kind", JNum (JFin 7 0))])) None (bs "a") [] (bs "b" ++ [0]) ltac:(discriminate)).
    assert (Q : forall e : event, ROk e = event_parse (two_texts JNull (JObj [(bs "kind", JNum (JFin 7 0))])) None (bs "a" ++ bs "b" ++ [0]) 1 -> ev_kind e = 7).
    { intros e E. vm_compute in E. match type of E with ROk ?a = ROk ?b => assert (X : a = b) by congruence end. rewrite X. reflexivity. }
    assert (P : exists e : event, event_parse (two_texts JNull (JObj [(bs "kind", JNum (JFin 7 0))])) None (bs "a" ++ [0]) 1 = ROk e /\ ev_kind e = 0) by (eexists; split; [vm_compute; reflexivity|reflexivity]).
    destruct P as (e & P & K). change (length (bs "a")) with 1%nat in H. rewrite P in H. apply Q in H. congruence.
Qed.
(** Of messages and filters, those of length zero are read beyond it. *)
Theorem C144_empty_refuted : ~ (forall print parse lim, client_msg_parse print parse lim [] 0 <> RUndef) /\
  ~ (forall print parse lim more m, client_msg_parse print parse lim more 0 <> ROk m).
Proof.
  split; [intros H; exact (H (fun _ => []) (fun _ => None) None eq_refl)|].
  intros H. exact (H (fun _ => []) (fun _ => Some (JArr [JStr (bs "CLOSE"); JStr (bs "s")])) None [120; 0] (CClose (bs "s")) eq_refl).
Qed.

(** ** C145 *)
Lemma digit_lower n : n < 16 -> (48 <= digit n <= 57 \/ 97 <= digit n <= 102).
Proof. intros L. unfold digit. destruct (N.ltb_spec n 10); lia. Qed.
Lemma sprint_ok : forall l out, (2 * length l < length out)%nat -> sprint_hex l out = Ok (flat_map (fun b => [digit (b / 16); digit (b mod 16)]) l ++ 0 :: skipn (2 * length l + 1) out).
Proof.
  induction l as [|b l IH]; intros out L; cbn [sprint_hex flat_map app length] in *.
  - destruct out as [|x r]; [cbn in L; lia|]. reflexivity.
  - destruct out as [|x [|y [|z r]]]; cbn [length] in L; try lia. rewrite IH by (cbn [length]; lia). cbn [bind].
    replace (2 * Datatypes.S (length l) + 1)%nat with (Datatypes.S (Datatypes.S (2 * length l + 1))) by lia. cbn [skipn]. f_equal. f_equal. f_equal.
    f_equal. f_equal. destruct (2 * length l + 1)%nat as [|k] eqn:K; [lia|]. reflexivity.
Qed.
Lemma sprint_short : forall l out, (length out <= 2 * length l)%nat -> sprint_hex l out = Undef.
Proof.
  induction l as [|b l IH]; intros out L; cbn [sprint_hex length] in *.
  - destruct out; [reflexivity|cbn in L; lia].
  - destruct out as [|x [|y [|z r]]]; try reflexivity. cbn [length] in L. rewrite IH by (cbn [length]; lia). reflexivity.
Qed.
Lemma digits_encode l : bytes_ok l -> flat_map (fun b => [digit (b / 16); digit (b mod 16)]) l = hex_encode l.
Proof. intros _. reflexivity. Qed.
(** The text of an id or key: 64 digits and a zero byte, nothing beyond; a buffer of fewer
    than 65 bytes is overrun. *)
Theorem C145_hex : forall e out, length (ev_id e) = 32%nat -> length (ev_pubkey e) = 32%nat -> bytes_ok (ev_id e) -> bytes_ok (ev_pubkey e) ->
  if (65 <=? length out)%nat
  then exists i p, get_id_hex e out = Ok (i ++ 0 :: skipn 65 out) /\ lower_hex i (ev_id e) /\ get_pubkey_hex e out = Ok (p ++ 0 :: skipn 65 out) /\ lower_hex p (ev_pubkey e)
  else get_id_hex e out = Undef /\ get_pubkey_hex e out = Undef.
Proof.
  intros e out LI LP BI BP. unfold get_id_hex, get_pubkey_hex. destruct (Nat.leb_spec 65 (length out)) as [L|L].
  - exists (hex_encode (ev_id e)), (hex_encode (ev_pubkey e)). rewrite !sprint_ok by lia. rewrite LI, LP, !digits_encode by assumption. change (2 * 32 + 1)%nat with 65%nat.
    split; [reflexivity|]. split; [apply lower_hex_encode, BI|]. split; [reflexivity|apply lower_hex_encode, BP].
  - split; apply sprint_short; lia.
Qed.
(** Tags by number: below the count, the tag with its name and values; from there on, nothing. *)
Theorem C145_tags : forall e i, 
  ((i < get_tag_count e)%nat <-> exists t, get_tag e i = Some t) /\
  (forall t, get_tag e i = Some t -> exists a b, ev_tags e = a ++ t :: b /\ length a = i /\ get_tag_at e i = (Some t, tag_get_value_count t) /\
     (t <> [] -> tag_get_name t = tag_get_value t 0) /\
     forall j, ((j < tag_get_value_count t)%nat <-> exists v, tag_get_value t j = Some v) /\ forall v, tag_get_value t j = Some v -> exists x y, t = x ++ v :: y /\ length x = j) /\
  (get_tag e i = None -> get_tag_at e i = (None, 0%nat)).
Proof.
  assert (AT : forall A (d : A) l i, (i < length l)%nat -> exists a b, l = a ++ nth i l d :: b /\ length a = i).
  { intros A d l i L. exists (firstn i l), (skipn (Datatypes.S i) l). split; [|apply firstn_length_le; lia].
    rewrite <- (firstn_skipn i l) at 1. f_equal. clear -L. revert i L. induction l as [|x l IH]; intros [|i] L; cbn [length] in L; try lia; [reflexivity|]. cbn [skipn nth]. apply IH. lia. }
  intros e i. unfold get_tag_count, get_tag, get_tag_at, tag_get_value_count. destruct (Nat.leb_spec (length (ev_tags e)) i) as [L|L].
  - split; [split; [lia|intros (t & T); discriminate]|]. split; [discriminate|reflexivity].
  - split; [split; [eauto|intros _; lia]|]. split; [|discriminate]. intros t T. assert (ET : nth i (ev_tags e) [] = t) by congruence. destruct (AT _ [] _ _ L) as (a & b & E & LA). rewrite ET in *. exists a, b.
    split; [exact E|]. split; [exact LA|]. split; [reflexivity|]. split; [destruct t; [congruence|reflexivity]|].
    intros j. unfold tag_get_value. destruct (Nat.leb_spec (length t) j) as [LJ|LJ].
    + split; [split; [lia|intros (v & V); discriminate]|discriminate].
    + split; [split; [eauto|intros _; exact LJ]|]. intros v V. assert (EV : nth j t [] = v) by congruence. destruct (AT _ [] _ _ LJ) as (x & y & F & LX). rewrite EV in F. exists x, y. auto.
Qed.
(** The rest agrees with the functions of C54, C55 and C86. *)
Theorem C145_same : forall e clock, (clock < 2 ^ 63)%Z ->
  (forall v, get_d_tag e = Some v <-> first_value (bs "d") (ev_tags e) v) /\ (is_deletion e = true <-> exists d, deletion_parse e = ROk d) /\
  (is_expired_now clock e = true <-> exists z, expires (ev_tags e) z /\ (0 < z)%Z /\ (z < clock)%Z).
Proof.
  intros e clock C. split; [intros v; apply (C86_lookup (ev_tags e) (bs "d"))|]. split; [|apply C54_exact_partial, C].
  rewrite C55_kind. unfold is_deletion. apply N.eqb_eq.
Qed.
(** Lists of strings are released with all their strings. *)
Theorem C145_free : forall arr items h rest, holds h (flat_map opt_list items ++ arr :: rest) ->
  exists h', free_strings (Some arr) items (length items) h = Ok (tt, h') /\ holds h' rest.
Proof.
  intros arr items h rest X. unfold free_strings.
  assert (U : (match length items with O => mret tt | _ => huse (Some arr) end) h = Ok (tt, h)).
  { destruct (length items); [reflexivity|]. apply (use_holds arr h _ X). apply in_or_app. right. left. reflexivity. }
  rewrite (mbind_ok _ _ _ _ _ U). rewrite Nat.ltb_irrefl, firstn_all.
  assert (FE : forall l h, holds h (flat_map opt_list l ++ arr :: rest) -> exists h', free_each l h = Ok (tt, h') /\ holds h' (arr :: rest)).
  { clear. induction l as [|p l IH]; intros h X; cbn [free_each flat_map] in *; [exists h; split; [reflexivity|exact X]|].
    rewrite <- app_assoc in X. destruct (free_opt_holds _ _ _ X) as (h1 & E1 & X1 & _). destruct (IH h1 X1) as (h2 & E2 & X2). exists h2. rewrite (mbind_ok _ _ _ _ _ E1). auto. }
  destruct (FE _ _ X) as (h1 & E1 & X1). rewrite (mbind_ok _ _ _ _ _ E1). destruct (free_holds _ _ _ X1) as (h2 & E2 & X2 & _). exists h2. auto.
Qed.
(** ** Witnesses *)
Definition seen : event := mkEvent (repeat 171 32) (repeat 1 32) 5 5 [[bs "d"; bs "x"]; [bs "e"]] None [].
Example C144_meets : client_msg_parse (fun _ => []) (fun _ => Some (JArr [JStr (bs "CLOSE"); JStr (bs "s")])) None (bs "text" ++ bs "more") 4 = ROk (CClose (bs "s")) /\
  (exists e, event_parse (two_texts JNull (JObj [(bs "kind", JNum (JFin 7 0))])) None (bs "b" ++ [0]) 1 = ROk e /\ ev_kind e = 7).
Proof. split; [reflexivity|]. eexists. split; [vm_compute; reflexivity|reflexivity]. Qed.
Example C145_meets : (exists t, get_tag seen 1 = Some t /\ tag_get_name t = Some (bs "e")) /\ get_tag seen 2 = None /\ get_d_tag seen = Some (bs "x") /\ is_deletion seen = true /\
  length (ev_id seen) = 32%nat /\ bytes_ok (ev_id seen) /\ (exists r, get_id_hex seen (repeat 7 70) = Ok r /\ firstn 4 r = bs "abab" /\ nth 65 r 0 = 7) /\
  (exists h', free_strings (Some 0%nat) [Some 1%nat; None; Some 2%nat] 3 (mkHeap 3 [0; 1; 2]%nat) = Ok (tt, h') /\ h_live h' = []).
Proof.
  split; [eexists; split; reflexivity|]. split; [reflexivity|]. split; [reflexivity|]. split; [reflexivity|]. split; [reflexivity|]. split; [apply Forall_forall; intros x I; apply repeat_spec in I; subst; unfold byte_ok; lia|].
  split; [eexists; split; [vm_compute; reflexivity|split; reflexivity]|]. eexists. split; [vm_compute; reflexivity|reflexivity].
Qed.
Print Assumptions C144_given.
Print Assumptions C144_event_partial.
Print Assumptions C144_refuted.
Print Assumptions C144_empty_refuted.
Print Assumptions C145_hex.
Print Assumptions C145_tags.
Print Assumptions C145_same.
Print Assumptions C145_free.
Print Assumptions C144_bad_id.
