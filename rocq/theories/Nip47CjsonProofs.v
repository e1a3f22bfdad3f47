(** Building request parameters piece by piece. *)
From Verif Require Import Base BaseFacts Heap Json RelayMemSpec RelayMemProps EventMem EventMemSpec EventMemProps CjsonMem EventOomSpec CjsonMemProofs
  Strto Nip47 Nip47Spec Nip47Cjson Nip47CjsonSpec.
From Coq Require Import Permutation.
Open Scope nat_scope.

Section Grant.
Variable grant : nat -> bool.
Notation granted := (granted grant).
(** As [built], with nothing lost. *)
Record clean (h0 : heap) (o : option node) (j : json) (rest : list nat) (h : heap) : Prop := mkClean {
  cl_next : h_next h0 <= h_next h;
  cl_thin : forall n, o = Some n -> thin j (n_tree n);
  cl_holds : holds h (nb o ++ rest);
  cl_all : granted h0 h -> exists n, o = Some n /\ n_tree n = j }.
Definition makes (m : M (option node)) (j : json) : Prop :=
  forall h rest, holds h rest -> exists o h', m h = Ok (o, h') /\ clean h o j rest h'.
Lemma clean_built h0 o j rest h : clean h0 o j rest h -> built grant h0 o j rest h.
Proof. intros [A B C D]. constructor; [exact A|exact B|]. exists []. split; [exact C|]. intros G. split; [reflexivity|apply D, G]. Qed.
Lemma create_makes j : makes (create grant j) j.
Proof.
  intros h rest X. unfold create. destruct (ealloc_two grant h _ X) as [(q & h1 & E & X1 & L1)|(h1 & E & X1 & L1 & F)]; rewrite (mbind_ok _ _ _ _ _ E).
  - eexists. exists h1. split; [reflexivity|]. constructor; [lia|intros n Q; injection Q as <-; constructor|exact X1|]. intros _. eexists. split; reflexivity.
  - eexists. exists h1. split; [reflexivity|]. constructor; [lia|discriminate|exact X1|]. intros G. destruct (not_granted grant h h h1 F ltac:(lia) ltac:(lia) G).
Qed.
Lemma string_makes s : makes (create_string grant s) (JStr s).
Proof.
  intros h rest X. unfold create_string. destruct (ealloc_two grant h _ X) as [(q & h1 & E & X1 & L1)|(h1 & E & X1 & L1 & F)]; rewrite (mbind_ok _ _ _ _ _ E).
  2:{ eexists. exists h1. split; [reflexivity|]. constructor; [lia|discriminate|exact X1|]. intros G. destruct (not_granted grant h h h1 F ltac:(lia) ltac:(lia) G). }
  destruct (ealloc_two grant h1 _ X1) as [(c & h2 & E2 & X2 & L2)|(h2 & E2 & X2 & L2 & F)]; rewrite (mbind_ok _ _ _ _ _ E2).
  - eexists. exists h2. split; [reflexivity|]. constructor; [lia|intros n Q; injection Q as <-; constructor|revert X2; apply holds_perm; cnt|]. intros _. eexists. split; reflexivity.
  - destruct (free_holds _ _ _ X2) as (h3 & E3 & X3 & L3). rewrite (mbind_ok _ _ _ _ _ E3).
    eexists. exists h3. split; [reflexivity|]. constructor; [lia|discriminate|exact X3|]. intros G. destruct (not_granted grant h h1 h3 F ltac:(lia) ltac:(lia) G).
Qed.
Lemma member_new h0 n l rest h key m j : clean h0 (Some n) (JObj l) rest h -> makes m j ->
  exists n' h', add_new grant (Some n) key m h = Ok (Some n', h') /\ clean h0 (Some n') (JObj (l ++ [(key, j)])) rest h'.
Proof.
  intros [N0 T0 X0 G0] MB. destruct n as [to b]. destruct (thin_obj_inv _ _ (T0 _ eq_refl)) as (k & Z & TZ). cbn [n_tree] in Z. subst to.
  destruct (MB h _ X0) as (x & h1 & E & [N1 T1 X1 G1]). unfold add_new. rewrite (mbind_ok _ _ _ _ _ E).
  assert (KEEP : thin (JObj (l ++ [(key, j)])) (JObj k)).
  { apply thin_obj. rewrite <- (app_nil_r k). apply thinm_app; [exact TZ|]. repeat constructor. }
  destruct x as [n1|]; cbn [add_item].
  2:{ cbn. eexists. exists h1. split; [reflexivity|]. constructor; [lia|intros n Q; injection Q as <-; exact KEEP|exact X1|]. intros G. destruct (G1 ltac:(apply (granted_less grant _ _ _ _ G); lia)) as (n0 & Q0 & _). discriminate Q0. }
  unfold mbind at 1. destruct (ealloc_two grant h1 _ X1) as [(c & h2 & E2 & X2 & L2)|(h2 & E2 & X2 & L2 & F)]; rewrite (mbind_ok _ _ _ _ _ E2); cbn [mret].
  - eexists. exists h2. split; [reflexivity|]. constructor; [lia| |revert X2; apply holds_perm; cbn [nb]; cnt|].
    + intros n Q. injection Q as <-. cbn [n_tree]. apply thin_obj, thinm_app; [exact TZ|]. repeat constructor. apply T1. reflexivity.
    + intros G. destruct (G0 ltac:(apply (granted_less grant _ _ _ _ G); lia)) as (n0 & Q0 & V0). destruct (G1 ltac:(apply (granted_less grant _ _ _ _ G); lia)) as (n1' & Q1 & V1).
      eexists. split; [reflexivity|]. cbn [n_tree]. assert (n0 = mkNode (JObj k) b) by congruence. assert (n1' = n1) by congruence. subst n0 n1'. cbn [n_tree] in V0. congruence.
  - destruct (delete_ok _ _ _ X2) as (h3 & E3 & X3 & L3). rewrite (mbind_ok _ _ _ _ _ E3). eexists. exists h3. split; [reflexivity|]. constructor; [lia|intros n Q; injection Q as <-; exact KEEP|exact X3|].
    intros G. destruct (not_granted grant h0 h1 h3 F ltac:(lia) ltac:(lia) G).
Qed.
Lemma member_opt {A} h0 n l rest h key (x : option A) m f : clean h0 (Some n) (JObj l) rest h -> (forall a, makes (m a) (f a)) ->
  exists n' h', add_opt grant (Some n) key x m h = Ok (Some n', h') /\ clean h0 (Some n') (JObj (l ++ may key x f)) rest h'.
Proof.
  intros C MB. destruct x as [a|]; cbn [add_opt may]; [apply member_new; auto|]. exists n, h. rewrite app_nil_r. auto.
Qed.

Variable print : json -> list N.
Notation answered := (answered grant print).
Lemma finish_clean h0 o j rest h : clean h0 o j rest h -> exists r x h', finish grant print o h = Ok ((r, x), h') /\ answered h0 j [] rest r x h'.
Proof.
  intros [N0 T0 X0 G0]. unfold finish, print_node. destruct o as [n|].
  2:{ cbn. do 2 eexists. exists h. split; [reflexivity|]. constructor; [exact N0|exact X0| |discriminate|auto]. intros G. destruct (G0 G) as (n & Q & _). discriminate Q. }
  unfold mbind at 1 2. destruct (ealloc_two grant h _ X0) as [(q & h1 & E & X1 & L1)|(h1 & E & X1 & L1 & F)]; rewrite (mbind_ok _ _ _ _ _ E); cbn [mret].
  - apply (holds_perm _ _ (nb (Some n) ++ q :: rest)) in X1; [|cnt]. destruct (delete_ok _ _ _ X1) as (h2 & E2 & X2 & L2). rewrite (mbind_ok _ _ _ _ _ E2). cbn.
    do 2 eexists. exists h2. split; [reflexivity|]. constructor; [lia|exact X2| | |left; split; [reflexivity|discriminate]].
    + intros G. destruct (G0 ltac:(apply (granted_less grant _ _ _ _ G); lia)) as (n0 & Q0 & V0). split; [reflexivity|]. split; [reflexivity|]. exists q. assert (n0 = n) by congruence. subst n0. rewrite V0. reflexivity.
    + intros b s Q. exists (n_tree n). split; [congruence|]. apply T0. reflexivity.
  - destruct (delete_ok _ _ _ X1) as (h2 & E2 & X2 & L2). rewrite (mbind_ok _ _ _ _ _ E2). cbn. do 2 eexists. exists h2. split; [reflexivity|]. constructor; [lia|exact X2| |discriminate|auto].
    intros G. destruct (not_granted grant h0 h h2 F ltac:(lia) ltac:(lia) G).
Qed.
Lemma finish_built h0 o j rest h : built grant h0 o j rest h -> exists r x h' lost, finish grant print o h = Ok ((r, x), h') /\ answered h0 j lost rest r x h'.
Proof.
  intros B. destruct (print_ok grant print _ _ _ _ _ B) as (r & h' & lost & E & NX & X & T & G & _). unfold finish. rewrite (mbind_ok _ _ _ _ _ E). do 2 eexists. exists h', lost. split; [reflexivity|].
  constructor; [exact NX|destruct r as [[b s]|]; exact X| |exact T|].
  - intros A. destruct (G A) as (-> & b & ->). split; [reflexivity|]. split; [reflexivity|]. exists b. reflexivity.
  - destruct r as [[b s]|]; [left; split; [reflexivity|discriminate]|right; auto].
Qed.
Lemma object_fill fill j (P : list nat -> Prop) h rest : holds h rest -> P [] ->
  (forall n h1, clean h (Some n) (JObj []) rest h1 -> exists r x h' l, fill (Some n) h1 = Ok ((r, x), h') /\ answered h j l rest r x h' /\ P l) ->
  exists r x h' l, object_m grant fill h = Ok ((r, x), h') /\ answered h j l rest r x h' /\ P l.
Proof.
  intros X P0 F. unfold object_m. destruct (create_makes (JObj []) h rest X) as (o & h1 & E & C). rewrite (mbind_ok _ _ _ _ _ E). destruct o as [n|]; [exact (F n h1 C)|].
  do 2 eexists. exists h1, []. split; [reflexivity|]. split; [|exact P0]. destruct C as [N1 _ X1 G1]. constructor; [exact N1|exact X1| |discriminate|auto]. intros G. destruct (G1 G) as (n & Q & _). discriminate Q.
Qed.
Lemma finish_last h0 o j rest h (P : list nat -> Prop) : clean h0 o j rest h -> P [] ->
  exists r x h' l, finish grant print o h = Ok ((r, x), h') /\ answered h0 j l rest r x h' /\ P l.
Proof. intros C P0. destruct (finish_clean _ _ _ _ _ C) as (r & x & h' & E & A). exists r, x, h', []. auto. Qed.

(** ** The four methods without arrays *)
Definition nothing (l : list nat) : Prop := l = [].
Lemma pay_invoice_ok i a h rest : holds h rest -> exists r x h' l, pay_invoice_m grant print i a h = Ok ((r, x), h') /\ answered h (params_with jint (PayInvoice i a)) l rest r x h' /\ nothing l.
Proof.
  intros X. apply object_fill; [exact X|reflexivity|]. intros n h1 C.
  destruct (member_new _ _ _ _ _ (bs "invoice") _ _ C (string_makes i)) as (n1 & h2 & E & C1). rewrite (mbind_ok _ _ _ _ _ E).
  destruct (member_opt _ _ _ _ _ (bs "amount") a (num grant) (nat_number jint) C1 (fun a => create_makes _)) as (n2 & h3 & E2 & C2). rewrite (mbind_ok _ _ _ _ _ E2).
  apply finish_last; [exact C2|reflexivity].
Qed.
Lemma make_invoice_ok a d s e h rest : a <> 0%N -> holds h rest -> exists r x h' l, make_invoice_m grant print a d s e h = Ok ((r, x), h') /\ answered h (params_with jint (MakeInvoice a d s e)) l rest r x h' /\ nothing l.
Proof.
  intros NZ X. unfold make_invoice_m. rewrite (proj2 (N.eqb_neq _ _) NZ). apply object_fill; [exact X|reflexivity|]. intros n h1 C.
  destruct (member_new _ _ _ _ _ (bs "amount") _ _ C (create_makes (jint (Z.of_N a)))) as (n1 & h2 & E & C1). rewrite (mbind_ok _ _ _ _ _ E).
  destruct (member_opt _ _ _ _ _ (bs "description") d _ _ C1 string_makes) as (n2 & h3 & E2 & C2). rewrite (mbind_ok _ _ _ _ _ E2).
  destruct (member_opt _ _ _ _ _ (bs "description_hash") s _ _ C2 string_makes) as (n3 & h4 & E3 & C3). rewrite (mbind_ok _ _ _ _ _ E3).
  destruct (member_opt _ _ _ _ _ (bs "expiry") e (num grant) (nat_number jint) C3 (fun a => create_makes _)) as (n4 & h5 & E4 & C4). rewrite (mbind_ok _ _ _ _ _ E4).
  repeat rewrite <- app_assoc in C4. apply finish_last; [exact C4|reflexivity].
Qed.
Lemma list_ok f u m o p t h rest : holds h rest -> exists r x h' l, list_transactions_m grant print f u m o p t h = Ok ((r, x), h') /\ answered h (params_with jint (ListTransactions f u m o p t)) l rest r x h' /\ nothing l.
Proof.
  intros X. apply object_fill; [exact X|reflexivity|]. intros n h1 C.
  destruct (member_opt _ _ _ _ _ (bs "from") f (fun z => create grant (jint z)) jint C (fun a => create_makes _)) as (n1 & h2 & E1 & C1). rewrite (mbind_ok _ _ _ _ _ E1).
  destruct (member_opt _ _ _ _ _ (bs "until") u (fun z => create grant (jint z)) jint C1 (fun a => create_makes _)) as (n2 & h3 & E2 & C2). rewrite (mbind_ok _ _ _ _ _ E2).
  destruct (member_opt _ _ _ _ _ (bs "limit") m (num grant) (nat_number jint) C2 (fun a => create_makes _)) as (n3 & h4 & E3 & C3). rewrite (mbind_ok _ _ _ _ _ E3).
  destruct (member_opt _ _ _ _ _ (bs "offset") o (num grant) (nat_number jint) C3 (fun a => create_makes _)) as (n4 & h5 & E4 & C4). rewrite (mbind_ok _ _ _ _ _ E4).
  destruct (member_opt _ _ _ _ _ (bs "unpaid") p (fun b => create grant (JBool b)) JBool C4 (fun a => create_makes _)) as (n5 & h6 & E5 & C5). rewrite (mbind_ok _ _ _ _ _ E5).
  destruct (member_opt _ _ _ _ _ (bs "type") t _ _ C5 string_makes) as (n6 & h7 & E6 & C6). rewrite (mbind_ok _ _ _ _ _ E6).
  repeat rewrite <- app_assoc in C6. apply finish_last; [exact C6|reflexivity].
Qed.
Lemma lookup_ok s i h rest : s <> None \/ i <> None -> holds h rest -> exists r x h' l, lookup_invoice_m grant print s i h = Ok ((r, x), h') /\ answered h (params_with jint (LookupInvoice s i)) l rest r x h' /\ nothing l.
Proof.
  intros NE X.
  assert (W : lookup_invoice_m grant print s i = object_m grant (fun o => let! o := add_opt grant o (bs "payment_hash") s (create_string grant) in let! o := add_opt grant o (bs "invoice") i (create_string grant) in finish grant print o)).
  { unfold lookup_invoice_m. destruct s, i; try reflexivity. destruct NE; congruence. }
  rewrite W. apply object_fill; [exact X|reflexivity|]. intros n h1 C.
  destruct (member_opt _ _ _ _ _ (bs "payment_hash") s _ _ C string_makes) as (n1 & h2 & E1 & C1). rewrite (mbind_ok _ _ _ _ _ E1).
  destruct (member_opt _ _ _ _ _ (bs "invoice") i _ _ C1 string_makes) as (n2 & h3 & E2 & C2). rewrite (mbind_ok _ _ _ _ _ E2).
  apply finish_last; [exact C2|reflexivity].
Qed.

(** ** The two methods with arrays *)
(** Filling an array with [js]. *)
Definition fills (fill : option node -> M (option node * bool)) (js : list json) : Prop :=
  forall h0 a k rest h, clean h0 (Some a) (JArr k) rest h -> exists a' t h', fill (Some a) h = Ok ((Some a', t), h') /\ h_next h0 <= h_next h' /\
  if t then clean h0 (Some a') (JArr (k ++ js)) rest h' else ~ granted h0 h' /\ exists lost, holds h' (lost ++ rest).
Lemma element h0 a k rest h n j h1 : clean h0 (Some a) (JArr k) rest h -> clean h (Some n) j (nb (Some a) ++ rest) h1 ->
  exists a', add_to_array (Some a) (Some n) = Some a' /\ clean h0 (Some a') (JArr (k ++ [j])) rest h1.
Proof.
  intros [N0 T0 X0 G0] [N1 T1 X1 G1]. destruct a as [ta b]. destruct (thin_arr_inv _ _ (T0 _ eq_refl)) as (z & Z & TZ). cbn [n_tree] in Z. subst ta. cbn [add_to_array].
  eexists. split; [reflexivity|]. constructor; [lia| |revert X1; apply holds_perm; cbn [nb]; cnt|].
  - intros m Q. injection Q as <-. cbn [n_tree]. apply thin_arr, thins_app; [exact TZ|]. repeat constructor. apply T1. reflexivity.
  - intros G. destruct (G0 ltac:(apply (granted_less grant _ _ _ _ G); lia)) as (n0 & Q0 & V0). destruct (G1 ltac:(apply (granted_less grant _ _ _ _ G); lia)) as (n1 & Q1 & V1).
    eexists. split; [reflexivity|]. cbn [n_tree]. assert (n0 = mkNode (JArr z) b) by congruence. assert (n1 = n) by congruence. subst n0 n1. cbn [n_tree] in V0. congruence.
Qed.
Lemma tlv_fills l m : pairs l m -> fills (fun a => put_tlv grant a l) (map (fun p => tlv_tree jint (fst (strtoll (fst p)), snd p)) m).
Proof.
  induction 1 as [|x|t v l m _ IH]; intros h0 a k rest h C; cbn [put_tlv map].
  - exists a, true, h. rewrite app_nil_r. split; [reflexivity|]. split; [apply C|exact C].
  - exists a, true, h. rewrite app_nil_r. split; [reflexivity|]. split; [apply C|exact C].
  - pose proof C as [N0 T0 X0 G0]. destruct (create_makes (JObj []) h _ X0) as (x & h1 & E & C1). rewrite (mbind_ok _ _ _ _ _ E). destruct x as [n|].
    2:{ destruct C1 as [N1 _ X1 G1]. exists a, false, h1. split; [reflexivity|]. split; [lia|]. split; [|exists (nb (Some a)); exact X1].
        intros G. destruct (G1 ltac:(apply (granted_less grant _ _ _ _ G); lia)) as (n & Q & _). discriminate Q. }
    destruct (member_new _ _ _ _ _ (bs "type") _ _ C1 (create_makes (jint (fst (strtoll t))))) as (n1 & h2 & E2 & C2). rewrite (mbind_ok _ _ _ _ _ E2).
    destruct (member_new _ _ _ _ _ (bs "value") _ _ C2 (string_makes v)) as (n2 & h3 & E3 & C3). rewrite (mbind_ok _ _ _ _ _ E3).
    destruct (element _ _ _ _ _ _ _ _ C C3) as (a' & -> & C4). destruct (IH _ _ _ _ _ C4) as (a2 & b & h4 & E4 & N4 & R). exists a2, b, h4. split; [exact E4|]. split; [exact N4|].
    destruct b; [|exact R]. rewrite <- app_assoc in R. exact R.
Qed.
Lemma invoices_fill l : fills (fun a => put_invoices grant a l) (map (invoice_tree jint) l).
Proof.
  induction l as [|[[id i] m] l IH]; intros h0 a k rest h C; cbn [put_invoices map].
  - exists a, true, h. rewrite app_nil_r. split; [reflexivity|]. split; [apply C|exact C].
  - pose proof C as [N0 T0 X0 G0]. destruct (create_makes (JObj []) h _ X0) as (x & h1 & E & C1). rewrite (mbind_ok _ _ _ _ _ E). destruct x as [n|].
    2:{ destruct C1 as [N1 _ X1 G1]. exists a, false, h1. split; [reflexivity|]. split; [lia|]. split; [|exists (nb (Some a)); exact X1].
        intros G. destruct (G1 ltac:(apply (granted_less grant _ _ _ _ G); lia)) as (n & Q & _). discriminate Q. }
    destruct (member_opt _ _ _ _ _ (bs "id") id _ _ C1 string_makes) as (n1 & h2 & E2 & C2). rewrite (mbind_ok _ _ _ _ _ E2).
    destruct (member_new _ _ _ _ _ (bs "invoice") _ _ C2 (string_makes i)) as (n2 & h3 & E3 & C3). rewrite (mbind_ok _ _ _ _ _ E3).
    assert (S : exists n3 h4, (if (0 <? m)%N then add_new grant (Some n2) (bs "amount") (num grant m) else mret (Some n2)) h3 = Ok (Some n3, h4) /\
      clean h (Some n3) (invoice_tree jint (id, i, m)) (nb (Some a) ++ rest) h4).
    { unfold invoice_tree. destruct (N.eqb_spec m 0) as [->|NZ].
      - exists n2, h3. split; [reflexivity|]. rewrite app_nil_r. exact C3.
      - rewrite (proj2 (N.ltb_lt 0 m)) by lia. destruct (member_new _ _ _ _ _ (bs "amount") _ _ C3 (create_makes (jint (Z.of_N m)))) as (n3 & h4 & E4 & C4). exists n3, h4. split; [exact E4|].
        repeat rewrite <- app_assoc in C4. exact C4. }
    destruct S as (n3 & h4 & E4 & C4). rewrite (mbind_ok _ _ _ _ _ E4).
    destruct (element _ _ _ _ _ _ _ _ C C4) as (a' & -> & C5). destruct (IH _ _ _ _ _ C5) as (a2 & b & h5 & E5 & N5 & R). exists a2, b, h5. split; [exact E5|]. split; [exact N5|].
    destruct b; [|exact R]. rewrite <- app_assoc in R. exact R.
Qed.
Definition anything (l : list nat) : Prop := True.
Lemma with_array_ok h0 n l rest h key fill js : clean h0 (Some n) (JObj l) rest h -> fills fill js ->
  exists r x h' lost, with_array grant print (Some n) key fill h = Ok ((r, x), h') /\ answered h0 (JObj (l ++ [(key, JArr js)])) lost rest r x h' /\ anything lost.
Proof.
  intros C F. pose proof C as [N0 T0 X0 G0]. unfold with_array. destruct (create_makes (JArr []) h _ X0) as (a & h1 & E & C1). rewrite (mbind_ok _ _ _ _ _ E). destruct a as [a|].
  2:{ destruct C1 as [N1 _ X1 G1]. cbn [nb app] in X1. destruct (delete_ok (Some n) _ _ X1) as (h2 & E2 & X2 & L2). rewrite (mbind_ok _ _ _ _ _ E2). do 2 eexists. exists h2, []. split; [reflexivity|]. split; [|exact I].
      constructor; [lia|exact X2| |discriminate|auto]. intros G. destruct (G1 ltac:(apply (granted_less grant _ _ _ _ G); lia)) as (m & Q & _). discriminate Q. }
  destruct (F h a [] _ h1 C1) as (a' & t & h2 & E2 & N2 & R). rewrite (mbind_ok _ _ _ _ _ E2). destruct t.
  - destruct (add_item_ok grant h0 (Some n) l rest h key (Some a') (JArr ([] ++ js)) (clean_built _ _ _ _ _ C) h2 [] X0 (clean_built _ _ _ _ _ R)) as (o' & t & h3 & E3 & L3 & T3 & lost' & X3 & G3).
    unfold add_to_object. unfold mbind at 1. rewrite (mbind_ok _ _ _ _ _ E3). cbn [mret fst].
    assert (B : built grant h0 o' (JObj (l ++ [(key, JArr js)])) rest h3).
    { constructor; [lia|exact T3|]. exists ((if t then [] else nb (Some a')) ++ lost'). split; [revert X3; apply holds_perm; cnt|]. intros G. destruct (G3 G) as (-> & -> & Q). auto. }
    destruct (finish_built _ _ _ _ _ B) as (r & x & h4 & lost & E4 & A). exists r, x, h4, lost. split; [exact E4|]. split; [exact A|exact I].
  - destruct R as (NG & lost & XL). apply (holds_perm _ _ (nb (Some n) ++ lost ++ rest)) in XL; [|cnt]. destruct (delete_ok (Some n) _ _ XL) as (h3 & E3 & X3 & L3). rewrite (mbind_ok _ _ _ _ _ E3).
    do 2 eexists. exists h3, lost. split; [reflexivity|]. split; [|exact I]. constructor; [lia|exact X3| |discriminate|auto]. intros G. destruct NG. apply (granted_less grant _ _ _ _ G); lia.
Qed.
Definition keysend_asks (a : N) (pk : list N) (pre : option (list N)) (tlv : list (list N)) (m : list (list N * list N)) : asks :=
  PayKeysend a pk pre (match tlv with [] => None | _ => Some (map (fun p => (fst (strtoll (fst p)), snd p)) m) end).
Lemma keysend_ok a pk pre tlv m h rest : a <> 0%N -> pairs tlv m -> holds h rest -> exists r x h' l, pay_keysend_m grant print a pk pre tlv h = Ok ((r, x), h') /\
  answered h (params_with jint (keysend_asks a pk pre tlv m)) l rest r x h' /\ anything l.
Proof.
  intros NZ P X. unfold pay_keysend_m. rewrite (proj2 (N.eqb_neq _ _) NZ). apply object_fill; [exact X|exact I|]. intros n h1 C.
  destruct (member_new _ _ _ _ _ (bs "amount") _ _ C (create_makes (jint (Z.of_N a)))) as (n1 & h2 & E & C1). rewrite (mbind_ok _ _ _ _ _ E).
  destruct (member_new _ _ _ _ _ (bs "pubkey") _ _ C1 (string_makes pk)) as (n2 & h3 & E2 & C2). rewrite (mbind_ok _ _ _ _ _ E2).
  destruct (member_opt _ _ _ _ _ (bs "preimage") pre _ _ C2 string_makes) as (n3 & h4 & E3 & C3). rewrite (mbind_ok _ _ _ _ _ E3).
  unfold keysend_asks. destruct tlv as [|t tlv].
  - cbn [params_with may]. rewrite app_nil_r. apply finish_last; [exact C3|exact I].
  - cbn [params_with may]. rewrite app_assoc, map_map. apply with_array_ok; [exact C3|]. apply (tlv_fills _ _ P).
Qed.
Lemma multi_ok l h rest : l <> [] -> holds h rest -> exists r x h' lost, multi_pay_m grant print l h = Ok ((r, x), h') /\
  answered h (params_with jint (MultiPayInvoice l)) lost rest r x h' /\ anything lost.
Proof.
  intros NE X. unfold multi_pay_m. destruct l as [|y l]; [congruence|]. apply object_fill; [exact X|exact I|]. intros n h1 C.
  exact (with_array_ok _ _ _ _ _ (bs "invoices") _ _ C (invoices_fill (y :: l))).
Qed.
End Grant.
