(** Theorems about ids, signatures and export when memory runs out: C109 - C111. *)
From Verif Require Import Base BaseFacts Heap Json Hex HexProofs Event RelayMemSpec RelayMemProps EventMem EventMemSpec EventMemProps CjsonMem CjsonMemProofs EventOom EventOomSpec.
From Coq Require Import Permutation.
Open Scope nat_scope.

Section Oom.
Variable grant : nat -> bool.
Variable print : json -> list N.
Notation granted := (granted grant).
Notation built := (built grant).
Notation builds := (builds grant).
Lemma put_values_ok : forall vs h0 a l rest h, built h0 a (JArr l) rest h ->
  exists a' h', put_values grant a vs h = Ok (a', h') /\ built h0 a' (JArr (l ++ map JStr vs)) rest h'.
Proof.
  induction vs as [|v vs IH]; intros h0 a l rest h B; cbn [put_values map].
  - exists a, h. rewrite app_nil_r. auto.
  - destruct (array_add grant h0 a l rest h _ _ B (string_builds grant v)) as (x & h1 & E & B1). rewrite (mbind_ok _ _ _ _ _ E).
    destruct (IH h0 _ _ rest h1 B1) as (a' & h' & E' & B'). exists a', h'. split; [exact E'|]. rewrite <- app_assoc in B'. exact B'.
Qed.
Lemma tag_builds vs : builds (let! t := create grant (JArr []) in put_values grant t vs) (JArr (map JStr vs)).
Proof.
  intros h rest X. destruct (create_builds grant (JArr []) h rest X) as (o & h1 & E & B). rewrite (mbind_ok _ _ _ _ _ E). apply (put_values_ok vs h o [] rest h1 B).
Qed.
Lemma mbind_assoc {A B C} (m : M A) (f : A -> M B) (g : B -> M C) h : mbind (mbind m f) g h = mbind m (fun x => mbind (f x) g) h.
Proof. unfold mbind. destruct (m h) as [[]| |]; reflexivity. Qed.
Lemma put_tags_ok : forall ts h0 a l rest h, built h0 a (JArr l) rest h ->
  exists a' h', put_tags grant a ts h = Ok (a', h') /\ built h0 a' (JArr (l ++ map (fun vs => JArr (map JStr vs)) ts)) rest h'.
Proof.
  induction ts as [|vs ts IH]; intros h0 a l rest h B; cbn [put_tags map].
  - exists a, h. rewrite app_nil_r. auto.
  - rewrite <- mbind_assoc. destruct (array_add grant h0 a l rest h _ _ B (tag_builds vs)) as (x & h1 & E & B1). rewrite (mbind_ok _ _ _ _ _ E).
    destruct (IH h0 _ _ rest h1 B1) as (a' & h' & E' & B'). exists a', h'. split; [exact E'|]. rewrite <- app_assoc in B'. exact B'.
Qed.
Definition tags_tree (e : event) : json := JArr (map (fun vs => JArr (map JStr vs)) (ev_tags e)).
Lemma tags_build e : builds (let! t := create grant (JArr []) in put_tags grant t (ev_tags e)) (tags_tree e).
Proof.
  intros h rest X. destruct (create_builds grant (JArr []) h rest X) as (o & h1 & E & B). rewrite (mbind_ok _ _ _ _ _ E). apply (put_tags_ok _ h o [] rest h1 B).
Qed.
Definition text_blocks (r : option (nat * list N)) : list nat := match r with Some (b, _) => [b] | None => [] end.
Definition prints (m : M (option (nat * list N))) (j : json) : Prop := forall h rest, holds h rest ->
  exists r h' lost, m h = Ok (r, h') /\ h_next h <= h_next h' /\ holds h' (text_blocks r ++ lost ++ rest) /\
  (forall b s, r = Some (b, s) -> exists t, s = print t /\ thin j t) /\ (granted h h' -> lost = [] /\ exists b, r = Some (b, print j)).
Lemma serialize_ok e : prints (serialize_m grant print e) (id_tree e).
Proof.
  intros h rest X. unfold serialize_m. destruct (create_builds grant (JArr []) h rest X) as (s & h1 & E & B). rewrite (mbind_ok _ _ _ _ _ E).
  destruct (array_add grant h s [] rest h1 _ _ B (create_builds grant (jint 0))) as (x1 & h2 & E2 & B2). rewrite (mbind_ok _ _ _ _ _ E2).
  destruct (array_add grant h _ _ rest h2 _ _ B2 (string_builds grant (hex_encode (ev_pubkey e)))) as (x2 & h3 & E3 & B3). rewrite (mbind_ok _ _ _ _ _ E3).
  destruct (array_add grant h _ _ rest h3 _ _ B3 (create_builds grant (jint (ev_created e)))) as (x3 & h4 & E4 & B4). rewrite (mbind_ok _ _ _ _ _ E4).
  destruct (array_add grant h _ _ rest h4 _ _ B4 (create_builds grant (jint (Z.of_N (ev_kind e))))) as (x4 & h5 & E5 & B5). rewrite (mbind_ok _ _ _ _ _ E5).
  rewrite <- mbind_assoc. destruct (array_add grant h _ _ rest h5 _ _ B5 (tags_build e)) as (x5 & h6 & E6 & B6). rewrite (mbind_ok _ _ _ _ _ E6).
  destruct (array_add grant h _ _ rest h6 _ _ B6 (string_builds grant (content_of e))) as (x6 & h7 & E7 & B7). rewrite (mbind_ok _ _ _ _ _ E7).
  destruct (print_ok grant print _ _ _ _ _ B7) as (r & h' & lost & E8 & L8 & X8 & T8 & G8 & _). exists r, h', lost. split; [exact E8|]. split; [exact L8|]. split; [exact X8|]. split; [exact T8|exact G8].
Qed.

(** ** C109 *)
Variable sha256 : list N -> list N.
Notation ser := (fun e => print (id_tree e)).
(** Whatever fails, the behaviour is defined.  If nothing fails, the id is that
    of the event and no memory is lost.  Success always gives the id of some
    part of the event; failure leaves the event alone. *)
Theorem C109_id : forall e h rest, holds h rest ->
  exists e' x h' lost, compute_id_m (serialize_m grant print) sha256 e h = Ok ((e', x), h') /\ h_next h <= h_next h' /\ holds h' (lost ++ rest) /\
  (granted h h' -> x = None /\ e' = compute_id ser sha256 e /\ lost = []) /\
  (x = None -> exists t, thin (id_tree e) t /\ e' = set_id e (sha256 (print t))) /\
  (x <> None -> x = Some EMemory /\ e' = e).
Proof.
  intros e h rest X. unfold compute_id_m. destruct (serialize_ok e h rest X) as (r & h1 & lost & E & L & X1 & T & G). rewrite (mbind_ok _ _ _ _ _ E).
  destruct r as [[b s]|]; cbn [text_blocks app] in X1.
  - rewrite (mbind_ok _ _ _ _ _ (use_holds b h1 _ X1 ltac:(left; reflexivity))). destruct (free_holds _ _ _ X1) as (h2 & E2 & X2 & L2). rewrite (mbind_ok _ _ _ _ _ E2).
    eexists. exists None, h2, lost. split; [reflexivity|]. split; [lia|]. split; [exact X2|]. split; [|split; [|congruence]].
    + intros GG. destruct (G ltac:(apply (granted_less _ _ _ _ _ GG); lia)) as (-> & b' & Q). split; [reflexivity|]. split; [|reflexivity]. unfold compute_id, set_id. congruence.
    + intros _. destruct (T b s eq_refl) as (t & -> & TT). exists t. auto.
  - exists e, (Some EMemory), h1, lost. split; [reflexivity|]. split; [exact L|]. split; [exact X1|]. split; [|split; [discriminate|auto]].
    intros GG. destruct (G GG) as (_ & b & Q). discriminate Q.
Qed.
(** The build without cJSON: given that the first allocation succeeds and the text
    fits its buffer, the id is right or EMemory is reported; nothing is lost. *)
Lemma escape_values_ok : forall vs h l, holds h l -> exists b h', escape_values grant vs h = Ok (b, h') /\ h_next h <= h_next h' /\ holds h' l /\ (granted h h' -> b = true).
Proof.
  induction vs as [|v vs IH]; intros h l X; cbn [escape_values]; [exists true, h; auto|].
  destruct (ealloc_two grant h _ X) as [(q & h1 & E & X1 & L1)|(h1 & E & X1 & L1 & F)]; rewrite (mbind_ok _ _ _ _ _ E).
  - rewrite (mbind_ok _ _ _ _ _ (use_holds q h1 _ X1 ltac:(left; reflexivity))). destruct (free_holds _ _ _ X1) as (h2 & E2 & X2 & L2). rewrite (mbind_ok _ _ _ _ _ E2).
    destruct (IH h2 l X2) as (b & h' & E3 & L3 & X3 & G3). exists b, h'. split; [exact E3|]. split; [lia|]. split; [exact X3|]. intros G. apply G3. apply (granted_less _ _ _ _ _ G); lia.
  - exists false, h1. split; [reflexivity|]. split; [lia|]. split; [exact X1|]. intros G. destruct (not_granted grant h h h1 F ltac:(lia) ltac:(lia) G).
Qed.
Lemma escape_tags_ok : forall ts h l, holds h l -> exists b h', escape_tags grant ts h = Ok (b, h') /\ h_next h <= h_next h' /\ holds h' l /\ (granted h h' -> b = true).
Proof.
  induction ts as [|vs ts IH]; intros h l X; cbn [escape_tags]; [exists true, h; auto|].
  destruct (escape_values_ok vs h l X) as (b & h1 & E1 & L1 & X1 & G1). rewrite (mbind_ok _ _ _ _ _ E1). destruct b.
  - destruct (IH h1 l X1) as (b & h' & E3 & L3 & X3 & G3). exists b, h'. split; [exact E3|]. split; [lia|]. split; [exact X3|]. intros G. apply G3. apply (granted_less _ _ _ _ _ G); lia.
  - exists false, h1. split; [reflexivity|]. split; [lia|]. split; [exact X1|]. exact G1.
Qed.
Theorem C109_own_partial : forall e h rest s, holds h rest -> grant (h_next h) = true -> serialize_buffer e = Ok s ->
  exists e' x h', compute_id_m (serialize_own_m grant) sha256 e h = Ok ((e', x), h') /\ holds h' rest /\
  ((x = None /\ e' = set_id e (sha256 s)) \/ (x = Some EMemory /\ e' = e /\ ~ granted h h')).
Proof.
  intros e h rest s X G0 SB. unfold compute_id_m, serialize_own_m. destruct (ealloc_two grant h _ X) as [(c & h1 & E & X1 & L1)|(h1 & E & X1 & L1 & F)]; [|congruence].
  rewrite mbind_assoc, (mbind_ok _ _ _ _ _ E), mbind_assoc, (mbind_ok _ _ _ _ _ (use_holds c h1 _ X1 ltac:(left; reflexivity))), mbind_assoc.
  destruct (ealloc_two grant h1 _ X1) as [(b & h2 & E2 & X2 & L2)|(h2 & E2 & X2 & L2 & F)]; rewrite (mbind_ok _ _ _ _ _ E2).
  2:{ destruct (free_holds _ _ _ X2) as (h3 & E3 & X3 & L3). rewrite mbind_assoc, (mbind_ok _ _ _ _ _ E3). exists e, (Some EMemory), h3. split; [reflexivity|]. split; [exact X3|]. right. split; [reflexivity|]. split; [reflexivity|].
      apply (not_granted grant h h1 h3 F); lia. }
  rewrite mbind_assoc, (mbind_ok _ _ _ _ _ (use_holds b h2 _ X2 ltac:(left; reflexivity))), mbind_assoc.
  destruct (escape_tags_ok (ev_tags e) h2 _ X2) as (ok & h3 & E3 & L3 & X3 & G3). rewrite (mbind_ok _ _ _ _ _ E3). destruct ok.
  - rewrite mbind_assoc, (mbind_ok _ _ _ _ _ (use_holds c h3 _ X3 ltac:(right; left; reflexivity))), mbind_assoc.
    apply (holds_perm _ _ (c :: b :: rest)) in X3; [|apply perm_swap]. destruct (free_holds _ _ _ X3) as (h4 & E4 & X4 & L4). rewrite (mbind_ok _ _ _ _ _ E4), SB. cbn [mret].
    unfold mbind at 1, mret at 1. rewrite (mbind_ok _ _ _ _ _ (use_holds b h4 _ X4 ltac:(left; reflexivity))). destruct (free_holds _ _ _ X4) as (h5 & E5 & X5 & L5). rewrite (mbind_ok _ _ _ _ _ E5).
    eexists. exists None, h5. split; [reflexivity|]. split; [exact X5|]. left. auto.
  - destruct (free_holds _ _ _ X3) as (h4 & E4 & X4 & L4). rewrite mbind_assoc, (mbind_ok _ _ _ _ _ E4), mbind_assoc. destruct (free_holds _ _ _ X4) as (h5 & E5 & X5 & L5). rewrite (mbind_ok _ _ _ _ _ E5).
    exists e, (Some EMemory), h5. split; [reflexivity|]. split; [exact X5|]. right. split; [reflexivity|]. split; [reflexivity|]. intros G. discriminate (G3 ltac:(apply (granted_less _ _ _ _ _ G); lia)).
Qed.

(** ** C110 *)
Variable pubkey_of : list N -> option (list N).
Variable schnorr_sign : list N -> list N -> list N -> option (list N).
Variable schnorr_verify : list N -> list N -> list N -> bool.
Variable pubkey_parses : list N -> bool.
Hypothesis sha_len : forall x, length (sha256 x) = 32.
(** With memory, verification is the usual one; in any case an accepted event
    carries a good signature of its id, and the id of a part of the event. *)
Theorem C110_verify : forall parse e h rest, holds h rest -> length (ev_id e) = 32 ->
  exists x h' lost, verify_m (serialize_m grant print) sha256 schnorr_verify pubkey_parses parse e h = Ok (x, h') /\ holds h' (lost ++ rest) /\
  (granted h h' -> lost = [] /\ event_verify ser sha256 schnorr_verify pubkey_parses parse e = match x with None => Ok tt | Some r => Err r end) /\
  (x = None -> schnorr_verify (ev_pubkey e) (ev_id e) (ev_sig e) = true /\ exists t, thin (id_tree e) t /\ ev_id e = sha256 (print t)).
Proof.
  intros parse e h rest X L. unfold verify_m. destruct (C109_id e h rest X) as (e' & x & h' & lost & E & _ & X' & G & T & F). rewrite (mbind_ok _ _ _ _ _ E).
  destruct x as [r|].
  { exists (Some r), h', lost. split; [reflexivity|]. split; [exact X'|]. split; [|discriminate]. intros GG. destruct (G GG) as (Q & _). discriminate Q. }
  destruct (T eq_refl) as (t & TT & ->). cbn [set_id ev_id].
  destruct (memcmp_loop_spec 32 (ev_id e) (sha256 (print t)) 0 0) as (d & ED & D); [rewrite L; lia|rewrite sha_len; lia|].
  unfold constant_time_memcmp. rewrite ED. cbn [bind fst]. rewrite !firstn_all2 in D by (rewrite ?L, ?sha_len; lia).
  eexists. exists h', lost. split; [reflexivity|]. split; [exact X'|]. split.
  - intros GG. destruct (G GG) as (_ & Q & ->). split; [reflexivity|]. unfold event_verify. rewrite <- Q. cbn [set_id ev_id]. unfold constant_time_memcmp. rewrite ED. cbn [bind fst].
    destruct (negb _); [reflexivity|]. destruct (parse && _); [reflexivity|]. destruct (schnorr_verify _ _ _); reflexivity.
  - destruct (N.eqb_spec d 0) as [Z|Z]; cbn [negb]; [|discriminate]. destruct (parse && _); [discriminate|]. destruct (schnorr_verify _ _ _) eqn:V; [|discriminate]. intros _. split; [reflexivity|].
    exists t. split; [exact TT|]. apply D, Z.
Qed.
(** With memory, signing is the usual one; otherwise it may sign the id of a
    part of the event. *)
Theorem C110_sign : forall e sk rnd h rest, holds h rest ->
  exists e' x h' lost, sign_m (serialize_m grant print) sha256 pubkey_of schnorr_sign e sk rnd h = Ok ((e', x), h') /\ h_next h <= h_next h' /\ holds h' (lost ++ rest) /\
  (granted h h' -> lost = [] /\ event_sign ser sha256 pubkey_of schnorr_sign e sk rnd = (e', match x with None => Ok tt | Some r => Err r end)) /\
  (x = None -> exists pk t r s, pubkey_of sk = Some pk /\ rnd = Some r /\ thin (id_tree (set_pubkey e pk)) t /\ schnorr_sign sk r (sha256 (print t)) = Some s /\
     e' = set_sig (set_id (set_pubkey e pk) (sha256 (print t))) s).
Proof.
  intros e sk rnd h rest X. unfold sign_m, event_sign. destruct (pubkey_of sk) as [pk|].
  2:{ eexists. eexists. exists h, []. split; [reflexivity|]. split; [lia|]. split; [exact X|]. split; [auto|discriminate]. }
  destruct (C109_id (set_pubkey e pk) h rest X) as (e' & x & h' & lost & E & L & X' & G & T & F). rewrite (mbind_ok _ _ _ _ _ E). destruct x as [r|].
  { eexists. eexists. exists h', lost. split; [reflexivity|]. split; [exact L|]. split; [exact X'|]. split; [|discriminate]. intros GG. destruct (G GG) as (Q & _). discriminate Q. }
  destruct (T eq_refl) as (t & TT & ET). destruct rnd as [r|].
  2:{ eexists. eexists. exists h', lost. split; [reflexivity|]. split; [exact L|]. split; [exact X'|]. split; [|discriminate]. intros GG. destruct (G GG) as (_ & Q & ->). rewrite Q. auto. }
  destruct (schnorr_sign sk r (ev_id e')) as [s|] eqn:SS; eexists; eexists; exists h', lost; (split; [reflexivity|]); (split; [exact L|]); (split; [exact X'|]).
  - split; [intros GG; destruct (G GG) as (_ & Q & ->); rewrite <- Q, SS; auto|]. intros _. exists pk, t, r, s. rewrite ET in SS. cbn [set_id ev_id] in SS. rewrite ET. auto.
  - split; [intros GG; destruct (G GG) as (_ & Q & ->); rewrite <- Q, SS; auto|discriminate].
Qed.

(** ** C111 *)
(** Export: with memory the document of the event; without it possibly a part,
    or EMemory. *)
Theorem C111_export : forall e h rest, holds h rest ->
  exists r x h' lost, to_json_m grant print e h = Ok ((r, x), h') /\ holds h' (text_blocks r ++ lost ++ rest) /\ h_next h <= h_next h' /\
  (granted h h' -> x = None /\ lost = [] /\ exists b, r = Some (b, event_to_json print e)) /\
  (x = None -> exists b t, r = Some (b, print t) /\ thin (event_to_tree e) t) /\ (x <> None -> x = Some EMemory /\ r = None).
Proof.
  intros e h rest X. unfold to_json_m. destruct (create_builds grant (JObj []) h rest X) as (o & h1 & E & B). rewrite (mbind_ok _ _ _ _ _ E).
  destruct o as [n|].
  2:{ exists None, (Some EMemory), h1. destruct B as [LE _ (lost & X1 & G1)]. exists lost. split; [reflexivity|]. split; [exact X1|]. split; [exact LE|]. split; [|split; [discriminate|auto]]. intros G. destruct (G1 G) as (_ & n & Q & _). discriminate Q. }
  destruct (object_new grant h _ _ rest h1 (bs "id") _ _ B (string_builds grant (hex_encode (ev_id e)))) as (o1 & h2 & E2 & B2). rewrite (mbind_ok _ _ _ _ _ E2).
  destruct (object_new grant h _ _ rest h2 (bs "pubkey") _ _ B2 (string_builds grant (hex_encode (ev_pubkey e)))) as (o2 & h3 & E3 & B3). rewrite (mbind_ok _ _ _ _ _ E3).
  destruct (object_new grant h _ _ rest h3 (bs "created_at") _ _ B3 (create_builds grant (jint (ev_created e)))) as (o3 & h4 & E4 & B4). rewrite (mbind_ok _ _ _ _ _ E4).
  destruct (object_new grant h _ _ rest h4 (bs "kind") _ _ B4 (create_builds grant (jint (Z.of_N (ev_kind e))))) as (o4 & h5 & E5 & B5). rewrite (mbind_ok _ _ _ _ _ E5).
  rewrite <- mbind_assoc. destruct (object_add grant h _ _ rest h5 (bs "tags") _ _ B5 (tags_build e)) as (x5 & h6 & o5 & h7 & E6 & E7 & B7). rewrite (mbind_ok _ _ _ _ _ E6), (mbind_ok _ _ _ _ _ E7).
  destruct (object_new grant h _ _ rest h7 (bs "content") _ _ B7 (string_builds grant (content_of e))) as (o6 & h8 & E8 & B8). rewrite (mbind_ok _ _ _ _ _ E8).
  destruct (object_new grant h _ _ rest h8 (bs "sig") _ _ B8 (string_builds grant (hex_encode (ev_sig e)))) as (o7 & h9 & E9 & B9). rewrite (mbind_ok _ _ _ _ _ E9).
  destruct (print_ok grant print _ _ _ _ _ B9) as (r & h' & lost & EP & L8 & X8 & T8 & G8 & _).
  unfold mbind in EP |- *. destruct (print_node grant print o7 h9) as [[p hp]| |]; try discriminate EP. destruct (delete o7 hp) as [[u hq]| |]; try discriminate EP.
  unfold mret in *. assert (p = r /\ hq = h') as (-> & ->) by (split; congruence).
  eexists. eexists. exists h', lost. split; [reflexivity|]. split; [exact X8|]. split; [exact L8|]. split; [|split].
  - intros G. destruct (G8 G) as (-> & b & ->). split; [reflexivity|]. split; [reflexivity|]. exists b. reflexivity.
  - destruct r as [[b s]|]; [|discriminate]. intros _. destruct (T8 b s eq_refl) as (t & -> & TT). exists b, t. split; [reflexivity|exact TT].
  - destruct r as [[b s]|]; [congruence|]. auto.
Qed.
End Oom.

(** ** What is lost *)
(** For every event without tags there is one allocation whose failure makes
    nostr_event_compute_id report success with the id of the event without its
    content. *)
Theorem C109_content_dropped : forall print sha256 e, ev_tags e = [] ->
  exists h', compute_id_m (serialize_m (fun k => negb (k =? 7)) print) sha256 e (mkHeap 0 []) =
    Ok ((set_id e (sha256 (print (JArr [jint 0; JStr (hex_encode (ev_pubkey e)); jint (ev_created e); jint (Z.of_N (ev_kind e)); JArr []]))), None), h').
Proof.
  intros print sha256 e T. unfold compute_id_m, serialize_m. rewrite T.
  generalize (hex_encode (ev_pubkey e)) (jint (ev_created e)) (jint (Z.of_N (ev_kind e))) (content_of e). intros a b c d. eexists. vm_compute. reflexivity.
Qed.
Definition toy_count (j : json) : list N := match j with JArr l => [N.of_nat (length l)] | JObj l => [N.of_nat (length l)] | _ => [] end.
Definition bare : event := blank 0.
Theorem C109_refuted : ~ (forall grant print sha256 e h e' h', holds h [] ->
  compute_id_m (serialize_m grant print) sha256 e h = Ok ((e', None), h') -> ev_id e' = sha256 (print (id_tree e))).
Proof.
  intros G. destruct (C109_content_dropped toy_count (fun x => x) bare eq_refl) as (h' & E).
  assert (X : holds (mkHeap 0 []) []) by (split; [split; constructor|constructor]).
  specialize (G _ _ _ _ _ _ _ X E). discriminate G.
Qed.
(** Memory is lost too: without the array, the items have no owner. *)
Theorem C109_leak_refuted : ~ (forall grant print sha256 e h r h', holds h [] ->
  compute_id_m (serialize_m grant print) sha256 e h = Ok (r, h') -> h_live h' = []).
Proof.
  intros G. assert (X : holds (mkHeap 0 []) []) by (split; [split; constructor|constructor]).
  set (m := compute_id_m (serialize_m (fun k => negb (k =? 0)) toy_count) (fun x => x) bare (mkHeap 0 [])).
  let r := eval vm_compute in m in assert (E : m = r) by (vm_compute; reflexivity).
  specialize (G _ _ _ _ _ _ _ X E). discriminate G.
Qed.
(** Without cJSON, a failing first allocation is fatal for every event. *)
Theorem C109_own_refuted : forall grant sha256 e h, grant (h_next h) = false -> compute_id_m (serialize_own_m grant) sha256 e h = Undef.
Proof. intros grant sha256 e h F. unfold compute_id_m, serialize_own_m, mbind, ealloc. rewrite F. reflexivity. Qed.

(** Verification short of memory accepts forged events: add any one-value tag to
    a genuine event; if the allocation of that tag fails, the signature of the
    genuine event passes. *)
Theorem C110_forged : forall print sha256 schnorr_verify pubkey_parses parse e v,
  ev_tags e = [] -> event_verify (fun e => print (id_tree e)) sha256 schnorr_verify pubkey_parses parse e = Ok tt ->
  exists h', verify_m (serialize_m (fun k => negb (k =? 7)) print) sha256 schnorr_verify pubkey_parses parse (tagged e [v]) (mkHeap 0 []) = Ok (None, h').
Proof.
  intros print sha256 sv pp parse e v T V. unfold verify_m, compute_id_m, serialize_m.
  assert (R : exists h1, (let! s := serialize_m (fun k => negb (k =? 7)) print (tagged e [v]) in mret s) (mkHeap 0 []) = Ok (Some (12, print (id_tree e)), h1) /\ In 12 (h_live h1)).
  { unfold serialize_m, id_tree. change (content_of (tagged e [v])) with (content_of e). unfold tagged. cbn [ev_tags ev_pubkey ev_created ev_kind]. rewrite T. cbn [app map].
    generalize (hex_encode (ev_pubkey e)) (jint (ev_created e)) (jint (Z.of_N (ev_kind e))) (content_of e). intros a b c d. eexists. split; [vm_compute; reflexivity|]. cbn. auto. }
  destruct R as (h1 & E1 & I1). fold (serialize_m (fun k => negb (k =? 7)) print (tagged e [v])).
  assert (E : serialize_m (fun k => negb (k =? 7)) print (tagged e [v]) (mkHeap 0 []) = Ok (Some (12, print (id_tree e)), h1)).
  { unfold mbind at 1 in E1. destruct (serialize_m _ _ _ _) as [[s hs]| |]; try discriminate E1. exact E1. }
  rewrite mbind_assoc, (mbind_ok _ _ _ _ _ E), mbind_assoc, (mbind_ok _ _ _ _ _ (use_ok _ _ I1)).
  assert (FR : exists h2, hfree (Some 12) h1 = Ok (tt, h2)).
  { unfold hfree. replace (existsb (Nat.eqb 12) (h_live h1)) with true; [eexists; reflexivity|]. symmetry. apply existsb_exists. exists 12. split; [exact I1|reflexivity]. }
  destruct FR as (h2 & E2). rewrite mbind_assoc, (mbind_ok _ _ _ _ _ E2). unfold mbind, mret. cbn [set_id tagged ev_id ev_pubkey ev_sig].
  unfold event_verify in V. cbn [compute_id ev_id] in V.
  destruct (constant_time_memcmp (ev_id e) (sha256 (print (id_tree e))) 32) as [d| |]; cbn [bind] in V; try discriminate V.
  exists h2. destruct (negb (fst d =? 0)%N); [discriminate|]. destruct (parse && negb (pp (ev_pubkey e))); [discriminate|]. destruct (sv _ _ _); [reflexivity|discriminate].
Qed.
Definition toy_hash (x : list N) : list N := repeat (hd 0%N x) 32.
Theorem C110_refuted : ~ (forall grant print sha256 schnorr_verify pubkey_parses parse e h h', (forall x, length (sha256 x) = 32) -> holds h [] -> length (ev_id e) = 32 ->
  verify_m (serialize_m grant print) sha256 schnorr_verify pubkey_parses parse e h = Ok (None, h') ->
  event_verify (fun e => print (id_tree e)) sha256 schnorr_verify pubkey_parses parse e = Ok tt).
Proof.
  intros G. assert (X : holds (mkHeap 0 []) []) by (split; [split; constructor|constructor]).
  set (pr := fun j => match j with JArr [_; _; _; _; JArr l; _] => [N.of_nat (length l)] | _ => [] end).
  destruct (C110_forged pr toy_hash (fun _ _ _ => true) (fun _ => true) true bare (bs "x") eq_refl eq_refl) as (h' & E).
  specialize (G _ pr toy_hash (fun _ _ _ => true) (fun _ => true) true (tagged bare [bs "x"]) _ _ (fun x => repeat_length _ 32) X eq_refl E). vm_compute in G. discriminate G.
Qed.
(** Signing short of memory reports success for an event nobody accepts. *)
Theorem C110_sign_refuted : ~ (forall grant print sha256 pubkey_of schnorr_sign schnorr_verify pubkey_parses parse e sk r h e' h', (forall x, length (sha256 x) = 32) -> holds h [] ->
  (forall d s, schnorr_sign sk r d = Some s -> forall pk, pubkey_of sk = Some pk -> schnorr_verify pk d s = true /\ pubkey_parses pk = true) ->
  sign_m (serialize_m grant print) sha256 pubkey_of schnorr_sign e sk (Some r) h = Ok ((e', None), h') ->
  event_verify (fun e => print (id_tree e)) sha256 schnorr_verify pubkey_parses parse e' = Ok tt).
Proof.
  intros G. assert (X : holds (mkHeap 0 []) []) by (split; [split; constructor|constructor]).
  set (m := sign_m (serialize_m (fun k => negb (k =? 7)) toy_count) toy_hash (fun _ => Some []) (fun _ _ d => Some d) bare [] (Some []) (mkHeap 0 [])).
  let r := eval vm_compute in m in assert (E : m = r) by (vm_compute; reflexivity).
  specialize (G _ toy_count toy_hash (fun _ => Some []) (fun _ _ d => Some d) (fun _ d s => beq d s) (fun _ => true) true bare [] [] (mkHeap 0 []) _ _ (fun x => repeat_length _ 32) X
    (fun d s Q pk _ => conj (proj2 (beq_eq d s) ltac:(congruence)) eq_refl) E).
  vm_compute in G. discriminate G.
Qed.
(** Export short of memory can lose the signature. *)
Theorem C111_signature_dropped : forall print e, ev_tags e = [] ->
  exists h', to_json_m (fun k => negb (k =? 16)) print e (mkHeap 0 []) =
    Ok ((Some (17, print (JObj [(bs "id", JStr (hex_encode (ev_id e))); (bs "pubkey", JStr (hex_encode (ev_pubkey e))); (bs "created_at", jint (ev_created e)); (bs "kind", jint (Z.of_N (ev_kind e)));
      (bs "tags", JArr []); (bs "content", JStr (content_of e))])), None), h').
Proof.
  intros print e T. unfold to_json_m. rewrite T.
  generalize (hex_encode (ev_id e)) (hex_encode (ev_pubkey e)) (jint (ev_created e)) (jint (Z.of_N (ev_kind e))) (content_of e) (hex_encode (ev_sig e)). intros a b c d f g. eexists. vm_compute. reflexivity.
Qed.
Theorem C111_refuted : ~ (forall grant print e h b s h', holds h [] -> to_json_m grant print e h = Ok ((Some (b, s), None), h') -> s = event_to_json print e).
Proof.
  intros G. assert (X : holds (mkHeap 0 []) []) by (split; [split; constructor|constructor]).
  destruct (C111_signature_dropped toy_count bare eq_refl) as (h' & E). specialize (G _ _ _ _ _ _ _ X E). discriminate G.
Qed.
(** ... and the tags with their memory. *)
Theorem C111_leak_refuted : ~ (forall grant print e h b s h', holds h [] -> to_json_m grant print e h = Ok ((Some (b, s), None), h') -> h_live h' = [b]).
Proof.
  intros G. assert (X : holds (mkHeap 0 []) []) by (split; [split; constructor|constructor]).
  set (m := to_json_m (fun k => negb (k =? 12)) toy_count bare (mkHeap 0 [])).
  let r := eval vm_compute in m in assert (E : m = r) by (vm_compute; reflexivity).
  specialize (G _ _ _ _ _ _ _ X E). discriminate G.
Qed.

(** ** Witnesses *)
Definition note : event := mkEvent (repeat 6%N 32) (repeat 1%N 32) 5 1 [[bs "e"; bs "x"]] (Some (bs "hi")) (repeat 2%N 64).
Example C109_meets : exists h', compute_id_m (serialize_m (fun _ => true) toy_count) toy_hash note (mkHeap 3 [1]) = Ok ((note, None), h') /\ h_live h' = [1] /\ h_next h' = 18.
Proof. eexists. vm_compute. auto. Qed.
Example C109_own_meets : exists e' h', compute_id_m (serialize_own_m (fun k => negb (k =? 3))) toy_hash note (mkHeap 0 []) = Ok ((e', Some EMemory), h') /\ h_live h' = [] /\ serialize_buffer note <> Undef.
Proof. eexists. eexists. split; [vm_compute; reflexivity|]. split; [reflexivity|]. vm_compute. discriminate. Qed.
Example C110_meets : event_verify (fun e => toy_count (id_tree e)) toy_hash (fun _ d s => beq (firstn 32 s) (repeat 2%N 32)) (fun _ => true) true note = Ok tt /\
  exists h', verify_m (serialize_m (fun _ => true) toy_count) toy_hash (fun _ d s => beq (firstn 32 s) (repeat 2%N 32)) (fun _ => true) true note (mkHeap 0 []) = Ok (None, h') /\ h_live h' = [].
Proof. split; [vm_compute; reflexivity|]. eexists. vm_compute. auto. Qed.
Example C111_meets : exists b h', to_json_m (fun _ => true) toy_count note (mkHeap 0 []) = Ok ((Some (b, toy_count (event_to_tree note)), None), h') /\ h_live h' = [b].
Proof. eexists. eexists. vm_compute. auto. Qed.

Print Assumptions C109_id.
Print Assumptions C109_own_partial.
Print Assumptions C109_refuted.
Print Assumptions C109_leak_refuted.
Print Assumptions C109_own_refuted.
Print Assumptions C110_verify.
Print Assumptions C110_sign.
Print Assumptions C110_forged.
Print Assumptions C110_refuted.
Print Assumptions C110_sign_refuted.
Print Assumptions C111_export.
Print Assumptions C111_refuted.
Print Assumptions C111_leak_refuted.
