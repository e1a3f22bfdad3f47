(** C124 (what the library says about its build), C125 (texts for error codes). *)
From Verif Require Import Base BaseFacts Features.
Open Scope N_scope.

(** ** Specification *)
(** The optional features, include/nostr_features.h.in:34-58, and their names. *)
Inductive feature : Set := Nip (n : N) | Relay | RelayProtocol | HdKeys | Json | Threading.
Definition optional_nips : list N := [4; 5; 10; 13; 17; 18; 25; 26; 44; 46; 47; 49; 51; 57; 59; 65].
Definition optional (f : feature) : Prop := match f with Nip n => In n optional_nips | _ => True end.
Definition on (b : build) (f : feature) : Prop :=
  match f with
  | Nip n => b_nip b n = true | Relay => b_relay b = true | RelayProtocol => b_relay_protocol b = true
  | HdKeys => b_hd_keys b = true | Json => b_json b = true | Threading => exists v, b_threading b = Some v /\ v <> 0
  end.
Definition two_digits (n : N) : list N := [48 + n / 10; 48 + n mod 10].
Definition name (f : feature) : list N :=
  match f with
  | Nip n => bs "nip" ++ two_digits n | Relay => bs "relay" | RelayProtocol => bs "relay-protocol"
  | HdKeys => bs "hd-keys" | Json => bs "json-enhanced" | Threading => bs "threading"
  end.
(** A name is an item of a comma-separated text. *)
Fixpoint items (s : list N) : list (list N) :=
  match s with
  | [] => [[]]
  | c :: r => if c =? 44 then [] :: items r else match items r with i :: is => (c :: i) :: is | [] => [[c]] end
  end.
Definition listed (s : list N) (f : feature) : Prop := In (name f) (items s).

(** ** The list of one thread *)
Lemma cstr_app a r : ~ In 0 a -> cstr (a ++ 0 :: r) = Some a.
Proof. induction a as [|c a IH]; intros N0; cbn [app cstr]; [reflexivity|]. destruct (N.eqb_spec c 0) as [->|]; [exfalso; apply N0; left; reflexivity|]. rewrite IH by (intros I; apply N0; right; exact I). reflexivity. Qed.
Lemma append_fits l t : (length t < l_left l)%nat -> (0 < length t)%nat -> (l_pos l + l_left l = length (l_bytes l))%nat ->
  let l' := append l t in l_pos l' = (l_pos l + length t)%nat /\ (l_pos l' + l_left l' = length (l_bytes l'))%nat /\ l_left l' = (l_left l - length t)%nat /\
  exists r, l_bytes l' = firstn (l_pos l) (l_bytes l) ++ t ++ 0 :: r.
Proof.
  intros L P E. unfold append. destruct (Nat.ltb_spec 0 (length t)); [|lia]. destruct (Nat.ltb_spec (length t) (l_left l)); [|lia]. cbn [andb l_pos l_left l_bytes].
  unfold snprintf_at. destruct (l_left l) as [|k] eqn:K; [lia|]. cbv zeta. rewrite (firstn_all2 t) by lia. rewrite !app_length. cbn [length].
  split; [reflexivity|]. split; [rewrite firstn_length, skipn_length; lia|]. split; [reflexivity|]. eexists. rewrite <- app_assoc. reflexivity.
Qed.
Lemma appends ts : forall l, (l_pos l + l_left l = length (l_bytes l))%nat -> Forall (fun t => t <> [] /\ ~ In 0 t) ts -> (length (concat ts) < l_left l)%nat ->
  (ts <> [] \/ exists r, l_bytes l = firstn (l_pos l) (l_bytes l) ++ 0 :: r) ->
  let l' := fold_left append ts l in exists r, l_bytes l' = firstn (l_pos l) (l_bytes l) ++ concat ts ++ 0 :: r.
Proof.
  induction ts as [|t ts IH]; intros l E F L T; cbn [fold_left concat].
  - destruct T as [T|(r & T)]; [congruence|]. exists r. exact T.
  - inversion F as [|? ? (F1 & F2) F3]; subst. cbn [concat] in L. rewrite app_length in L. assert (P : (0 < length t)%nat) by (destruct t; [congruence|cbn; lia]).
    destruct (append_fits l t ltac:(lia) P E) as (A1 & A2 & A3 & r & A4). assert (Q : firstn (l_pos (append l t)) (l_bytes (append l t)) = firstn (l_pos l) (l_bytes l) ++ t).
    { rewrite A1, A4, app_assoc, firstn_app_exact; [reflexivity|]. rewrite app_length, firstn_length. lia. }
    destruct (IH (append l t) A2 F3 ltac:(lia)) as (r' & R).
    + right. exists r. rewrite Q, A4, <- app_assoc. reflexivity.
    + exists r'. cbv zeta. rewrite R, Q, <- !app_assoc. reflexivity.
Qed.
Definition full (b : build) : list N := concat (pieces b).
Lemma pieces_ok b : Forall (fun t => t <> [] /\ ~ In 0 t) (pieces b).
Proof.
  assert (K : forall c t, (t <> [] /\ ~ In 0 t) -> Forall (fun t => t <> [] /\ ~ In 0 t) (if (c : bool) then [t] else [])) by (intros [] t T; repeat constructor; apply T).
  assert (B : forall s, forallb (fun c => negb (c =? 0)) (bs s) = true -> ~ In 0 (bs s)) by (intros s A I; rewrite forallb_forall in A; apply A in I; discriminate).
  unfold pieces. repeat (apply Forall_app; split); try (apply K; split; [discriminate|apply B; reflexivity]).
  - repeat constructor; try discriminate; apply B; reflexivity.
  - destruct (b_threading b); repeat constructor; try discriminate. apply B. reflexivity.
Qed.
Lemma full_short b : (length (full b) <= 200)%nat.
Proof.
  unfold full, pieces. rewrite !concat_app, !app_length.
  assert (K : forall (c : bool) (t : list N) k, (length t <= k)%nat -> (length (concat (if c then [t] else [])) <= k)%nat) by (intros [] t k L; cbn [concat]; rewrite ?app_nil_r; [exact L|cbn; lia]).
  repeat match goal with |- context [length (concat (if ?c then [bs ?t] else []))] => pose proof (K c (bs t) (length (bs t)) (le_n _)); set (length (concat (if c then [bs t] else []))) in * end.
  set (th := match b_threading b with Some _ => [bs ",threading"] | None => [] end). assert (TH : (length (concat th) <= 10)%nat) by (unfold th; destruct (b_threading b); cbn; lia).
  change (length (concat [bs "std,events,keys"; bs ",encoding"])) with 24%nat.
  repeat match goal with H : (_ <= length (bs ?t))%nat |- _ => let v := eval vm_compute in (length (bs t)) in change (length (bs t)) with v in H end. lia.
Qed.
Lemma list_full b : list_enabled b = Some (full b).
Proof.
  unfold list_enabled. destruct (appends (pieces b) blank) as (r & R).
  - reflexivity.
  - apply pieces_ok.
  - pose proof (full_short b). unfold full in H. cbn [blank l_left]. unfold SIZE. lia.
  - left. discriminate.
  - rewrite R. cbn [blank l_pos firstn app]. apply cstr_app. intros I. apply in_concat in I as (t & T & I). apply (proj1 (Forall_forall _ _) (pieces_ok b) t T). exact I.
Qed.

(** ** C124 *)
(** Each name with its switch *)
Definition table (b : build) : list (bool * list N) :=
  [(true, bs "encoding");
   (b_nip b 4, bs "nip04"); (b_nip b 5, bs "nip05"); (b_nip b 10, bs "nip10"); (b_nip b 13, bs "nip13"); (b_nip b 17, bs "nip17");
   (b_nip b 25, bs "nip25"); (b_nip b 44, bs "nip44"); (b_nip b 46, bs "nip46"); (b_nip b 47, bs "nip47"); (b_nip b 49, bs "nip49");
   (b_nip b 51, bs "nip51"); (b_nip b 57, bs "nip57"); (b_nip b 59, bs "nip59"); (b_nip b 65, bs "nip65");
   (b_relay b, bs "relay"); (b_relay_protocol b, bs "relay-protocol"); (b_hd_keys b, bs "hd-keys"); (b_json b, bs "json-enhanced");
   (match b_threading b with Some _ => true | None => false end, bs "threading")].
Definition all_names : list (list N) := map snd (table (mkBuild (fun _ => true) true true true true None)).
Lemma table_names b : map snd (table b) = all_names.
Proof. reflexivity. Qed.
Lemma all_nodup : NoDup all_names.
Proof.
  assert (K : forall l : list (list N), (fix nd l := match l with [] => true | x :: r => negb (if in_dec (list_eq_dec N.eq_dec) x r then true else false) && nd r end) l = true -> NoDup l).
  { induction l as [|x r IH]; intros H; [constructor|]. apply andb_true_iff in H as (H1 & H2). constructor; [|apply IH, H2]. destruct (in_dec _ x r); [discriminate|assumption]. }
  apply K. vm_compute. reflexivity.
Qed.
Definition names (b : build) : list (list N) := map snd (filter fst (table b)).
Lemma names_eq b : names b = map snd (filter fst (table b)).
Proof. reflexivity. Qed.
Lemma names_iff b c x : In (c, x) (table b) -> (In x (names b) <-> c = true).
Proof.
  intros I. unfold names. rewrite in_map_iff. split.
  - intros ([d y] & E & J). cbn [snd] in E. subst y. apply filter_In in J as (J & D). cbn [fst] in D. subst d.
    pose proof all_nodup as ND. rewrite <- (table_names b) in ND. revert ND I J. generalize (table b). induction l as [|[e y] l IH]; intros ND I J; [destruct I|].
    inversion ND as [|? ? N1 N2]; subst. destruct I as [I|I], J as [J|J]; try congruence; [| |apply IH; assumption].
    + exfalso. apply N1. apply in_map_iff. exists (true, x). split; [cbn; congruence|exact J].
    + exfalso. apply N1. apply in_map_iff. exists (c, x). split; [cbn; congruence|exact I].
  - intros ->. exists (true, x). split; [reflexivity|]. apply filter_In. split; [exact I|reflexivity].
Qed.
Lemma pieces_names b : pieces b = bs "std,events,keys" :: map (cons 44) (names b).
Proof.
  unfold pieces, names, table.
  assert (K : forall (c : bool) (t : list N) r, map (cons 44) (map snd (filter fst ((c, t) :: r))) = (if c then [44 :: t] else []) ++ map (cons 44) (map snd (filter fst r))) by (intros [] t r; reflexivity).
  rewrite !K. cbn [filter map app]. rewrite app_nil_r. destruct (b_threading b); reflexivity.
Qed.
Lemma items_name a : ~ In 44 a -> items a = [a].
Proof. induction a as [|c a IH]; intros N0; cbn [items]; [reflexivity|]. destruct (N.eqb_spec c 44) as [->|]; [exfalso; apply N0; left; reflexivity|]. rewrite IH by (intros I; apply N0; right; exact I). reflexivity. Qed.
Lemma items_app a r : items (a ++ 44 :: r) = items a ++ items r.
Proof.
  induction a as [|c a IH]; cbn [app items]; [change (44 =? 44) with true; reflexivity|]. rewrite IH. destruct (c =? 44); [reflexivity|].
  destruct (items a) as [|i is] eqn:E; [|reflexivity]. destruct a as [|d a]; cbn [items] in E; [discriminate|]. destruct (d =? 44); [discriminate|]. destruct (items a); discriminate.
Qed.
Lemma items_names l : Forall (fun t => ~ In 44 t) l -> forall a, items (a ++ concat (map (cons 44) l)) = items a ++ l.
Proof.
  induction 1 as [|t l T _ IH]; intros a; cbn [map concat]; [rewrite !app_nil_r; reflexivity|].
  cbn [app]. rewrite items_app, IH, (items_name t T). reflexivity.
Qed.
Lemma all_clean : forallb (fun t => forallb (fun c => negb (c =? 44)) t) all_names = true.
Proof. vm_compute. reflexivity. Qed.
Lemma clean_ok l : forallb (fun t => forallb (fun c => negb (c =? 44)) t) l = true -> forall t, In t l -> ~ In 44 t.
Proof. intros X t T I. rewrite forallb_forall in X. apply X in T. rewrite forallb_forall in T. apply T in I. discriminate. Qed.
Lemma filter_names (l : list (bool * list N)) t : In t (map snd (filter fst l)) -> In t (map snd l).
Proof. intros T. apply in_map_iff in T as (x & E & J). apply filter_In in J as (J & _). apply in_map_iff. exists x. auto. Qed.
Lemma names_ok b : Forall (fun t => ~ In 44 t) (names b).
Proof. apply Forall_forall. intros t T. apply (clean_ok (map snd (table b))); [rewrite table_names; apply all_clean|]. rewrite names_eq in T. apply filter_names, T. Qed.
Lemma listed_with a l f : Forall (fun t => ~ In 44 t) l -> listed (concat (a :: map (cons 44) l)) f <-> In (name f) (items a) \/ In (name f) l.
Proof. intros F. unfold listed. cbn [concat]. rewrite items_names by exact F. apply in_app_iff. Qed.
Lemma listed_names b f : listed (full b) f <-> In (name f) (items (bs "std,events,keys")) \/ In (name f) (names b).
Proof. unfold full. rewrite pieces_names. exact (listed_with _ _ f (names_ok b)). Qed.
Definition onb (b : build) (f : feature) : bool :=
  match f with
  | Nip n => b_nip b n | Relay => b_relay b | RelayProtocol => b_relay_protocol b | HdKeys => b_hd_keys b | Json => b_json b
  | Threading => match b_threading b with Some _ => true | None => false end
  end.
(** Of these features the library says, in both ways, exactly whether they are on. *)
Definition reported (f : feature) : Prop := optional f /\ f <> Nip 18 /\ f <> Nip 26 /\ f <> Threading.
Theorem C124_partial : forall b f, reported f -> exists s, list_enabled b = Some s /\ (length s < 512)%nat /\ (listed s f <-> on b f) /\
  match f with
  | Nip n => nip_supported b (Z.of_N n) = true <-> on b f
  | Relay => relay_available b = true <-> on b f | RelayProtocol => relay_protocol_available b = true <-> on b f
  | HdKeys => hd_keys_available b = true <-> on b f | Json => json_available b = true <-> on b f | Threading => True
  end.
Proof.
  intros b f (O & N18 & N26 & NT). exists (full b). split; [apply list_full|]. split; [pose proof (full_short b); lia|].
  assert (T : In (onb b f, name f) (table b)).
  { destruct f as [n| | | | |].
    1: { cbn [optional] in O. unfold optional_nips in O. cbn [In] in O. repeat (destruct O as [<-|O]; [first [congruence|unfold table; repeat (first [left; reflexivity|right])]|]). contradiction. }
    all: unfold table; repeat (first [left; reflexivity|right]). }
  assert (X : In (name f) (names b) <-> on b f) by (rewrite (names_iff b _ _ T); destruct f; [reflexivity..|congruence]).
  split.
  - rewrite listed_names, X. split; [|intros H; right; exact H].
    intros [I|H]; [|exact H]. exfalso. destruct f as [n| | | | |]; [|vm_compute in I; intuition discriminate..].
    cbn [optional] in O. unfold optional_nips in O. cbn [In] in O. repeat (destruct O as [<-|O]; [vm_compute in I; intuition discriminate|]). contradiction.
  - destruct f as [n| | | | |]; [|reflexivity..|exact Logic.I]. unfold nip_supported. rewrite existsb_exists. cbn [on]. split.
    + intros (k & _ & E). apply andb_true_iff in E as (E1 & E2). apply Z.eqb_eq, N2Z.inj in E1. congruence.
    + intros E. exists n. rewrite Z.eqb_refl, E. split; [|reflexivity]. cbn [optional] in O. unfold optional_nips in O. unfold switch_nips. cbn [In] in *. intuition congruence.
Qed.
(** Any number that is not an optional NIP is reported as not supported. *)
Theorem C124_others : forall b n, (forall k, In k optional_nips -> Z.of_N k <> n) -> nip_supported b n = false.
Proof.
  intros b n H. unfold nip_supported. apply not_true_is_false. rewrite existsb_exists. intros (k & K & E). apply andb_true_iff in E as (E & _). apply Z.eqb_eq in E.
  apply (H k); [|exact E]. unfold switch_nips in K. unfold optional_nips. cbn [In] in *. tauto.
Qed.
Definition everything : build := mkBuild (fun _ => true) true true true true (Some 1).
(** Reposts and delegation are never reported; threading is listed where it is off. *)
Theorem C124_refuted :
  ~ (forall b n, In n optional_nips -> nip_supported b (Z.of_N n) = true <-> on b (Nip n)) /\
  ~ (forall b f s, optional f -> list_enabled b = Some s -> (listed s f <-> on b f)).
Proof.
  split.
  - intros H. assert (X : nip_supported everything 26 = true) by (apply (H everything 26); [unfold optional_nips; cbn [In]; tauto|reflexivity]). discriminate.
  - intros H. pose (b := mkBuild (fun _ => false) false true false true (Some 0)). assert (X : on b Threading).
    { refine (proj1 (H b Threading (full b) Logic.I (list_full b)) _). apply (proj2 (listed_names b Threading)). right. apply (proj2 (names_iff b true (name Threading) ltac:(unfold table; repeat (first [left; reflexivity|right])))). reflexivity. }
    destruct X as (v & E & NZ). cbn [b b_threading] in E. congruence.
Qed.

(** *** Threads *)
Definition told (b : build) (s : shared) : Prop := forall i, s_at s i = Returned -> cstr (s_bytes s) = Some (full b).
(** If one call returned before the others began, every call is told the whole list. *)
Inductive later (b : build) (s0 : shared) : shared -> Prop :=
| L0 : later b s0 s0
| LS s i s' : later b s0 s -> fstep b s i s' -> later b s0 s'.
Theorem C124_threads_partial : forall b s0 s, s_init s0 = true -> cstr (s_bytes s0) = Some (full b) -> (forall i, s_at s0 i = Look \/ s_at s0 i = Returned) -> later b s0 s -> told b s.
Proof.
  intros b s0 s I C A L. assert (X : s_init s = true /\ s_bytes s = s_bytes s0 /\ forall i, s_at s i = Look \/ s_at s i = Returned).
  { induction L as [|s i s' L (I1 & I2 & I3) S]; [auto|]. destruct S as [P|t ts pos room P|pos room P|P]; destruct (I3 i) as [Q|Q]; try congruence. cbn [s_init s_bytes s_at]. rewrite I1.
    split; [reflexivity|]. split; [exact I2|]. intros j. unfold put. destruct (Nat.eqb j i); [right; reflexivity|apply I3]. }
  destruct X as (_ & X & _). intros i _. rewrite X. exact C.
Qed.
(** A first call by one thread, and the others after it *)
Lemma alone b ts : forall s pos room, s_at s 0 = Adding ts pos room -> s_init s = false -> (forall j, j <> O -> s_at s j = Look) -> forall s1, later b s1 s ->
  exists s', later b s1 s' /\ s_bytes s' = l_bytes (fold_left append ts (mkListing (s_bytes s) pos room)) /\ s_init s' = true /\ (forall i, s_at s' i = Look \/ s_at s' i = Returned).
Proof.
  induction ts as [|t ts IH]; intros s pos room A I O s1 L.
  - pose proof (LS b s1 _ 0 _ L (FAdded b s 0 pos room A)) as L1. set (s2 := mkShared (s_bytes s) (s_init s) (put s 0 Marking)) in *.
    assert (M : s_at s2 0 = Marking) by reflexivity. pose proof (LS b s1 _ 0 _ L1 (FMark b s2 0 M)) as L2. eexists. split; [exact L2|]. cbn [s_bytes s_init s_at s2 fold_left l_bytes]. split; [reflexivity|]. split; [reflexivity|].
    intros [|i]; unfold put; cbn [Nat.eqb]; [right; reflexivity|left]. cbn [s_at s2]. unfold put. cbn [Nat.eqb]. apply O. discriminate.
  - pose proof (LS b s1 _ 0 _ L (FAdd b s 0 t ts pos room A)) as L1. set (l := append (mkListing (s_bytes s) pos room) t) in *. cbv zeta in L1.
    destruct (IH (mkShared (l_bytes l) (s_init s) (put s 0 (Adding ts (l_pos l) (l_left l)))) (l_pos l) (l_left l) eq_refl I) with (s1 := s1) as (s' & R1 & R2 & R3); [|exact L1|].
    + intros j J. cbn [s_at]. unfold put. destruct (Nat.eqb_spec j 0); [congruence|auto].
    + exists s'. split; [exact R1|]. split; [|exact R3]. rewrite R2. cbn [s_bytes fold_left]. fold l. destruct l; reflexivity.
Qed.
Example C124_threads_meets : forall b, exists s0, later b fstart s0 /\ s_init s0 = true /\ cstr (s_bytes s0) = Some (full b) /\ (forall i, s_at s0 i = Look \/ s_at s0 i = Returned).
Proof.
  intros b. pose proof (LS b fstart _ 0 _ (L0 b fstart) (FLook b fstart 0 eq_refl)) as L. cbn [fstart s_init] in L.
  match type of L with later _ _ ?s => set (s1 := s) in L end.
  destruct (alone b (pieces b) s1 0 SIZE eq_refl eq_refl (fun j J => ltac:(unfold s1; cbn [s_at]; unfold put; destruct j; [congruence|reflexivity])) _ L) as (s' & R1 & R2 & R3 & R4).
  exists s'. split; [exact R1|]. split; [exact R3|]. split; [|exact R4]. rewrite R2. apply (list_full b).
Qed.
(** Two first calls: one returns, the other begins the list anew under it. *)
Lemma later_reach b s0 s : freach b s0 -> later b s0 s -> freach b s.
Proof. intros R. induction 1 as [|s i s' _ IH S]; [exact R|]. eapply FRS; eassumption. Qed.
Theorem C124_threads_refuted : ~ (forall b s, freach b s -> told b s).
Proof.
  intros H. set (b := mkBuild (fun _ => false) false false false false None).
  pose (s1 := mkShared (repeat 0 SIZE) false (put fstart 0 (Adding (pieces b) 0 SIZE))).
  pose (s2 := mkShared (repeat 0 SIZE) false (put s1 1 (Adding (pieces b) 0 SIZE))).
  assert (R1 : freach b s1) by (apply (FRS b fstart 0 s1 (FR0 b)), (FLook b fstart 0 eq_refl)).
  assert (R2 : freach b s2) by (apply (FRS b s1 1 s2 R1), (FLook b s1 1 eq_refl)).
  assert (P : pieces b = [bs "std,events,keys"; bs ",encoding"]) by reflexivity.
  assert (S : forall s i t ts pos room, freach b s -> s_at s i = Adding (t :: ts) pos room -> freach b (let l := append (mkListing (s_bytes s) pos room) t in mkShared (l_bytes l) (s_init s) (put s i (Adding ts (l_pos l) (l_left l))))) by (intros s i t ts pos room R A; eapply FRS; [exact R|apply FAdd, A]).
  pose proof (S s2 O _ _ _ _ R2 eq_refl) as R3. cbv zeta in R3.
  pose proof (S _ O _ _ _ _ R3 eq_refl) as R4. cbv zeta in R4.
  match type of R4 with freach _ ?s => pose proof (FRS b s 0 _ R4 (FAdded b s 0 _ _ eq_refl)) as R5 end.
  match type of R5 with freach _ ?s => pose proof (FRS b s 0 _ R5 (FMark b s 0 eq_refl)) as R6 end.
  pose proof (S _ 1%nat _ _ _ _ R6 eq_refl) as R7. cbv zeta in R7.
  specialize (H b _ R7 O eq_refl). vm_compute in H. discriminate.
Qed.

(** ** C125 *)
(** The codes the headers declare have texts of their own, but for two. *)
Theorem C125_partial : (forall a c, (0 <= a <= 11)%Z -> (0 <= c <= 12)%Z -> error_string a = error_string c -> a = c) /\
  (forall a c, (0 <= a <= 18)%Z -> (0 <= c <= 19)%Z -> relay_error_string a = relay_error_string c -> a = c).
Proof.
  split; intros a c A C.
  - assert (a = 0 \/ a = 1 \/ a = 2 \/ a = 3 \/ a = 4 \/ a = 5 \/ a = 6 \/ a = 7 \/ a = 8 \/ a = 9 \/ a = 10 \/ a = 11)%Z as X by lia.
    assert (c = 0 \/ c = 1 \/ c = 2 \/ c = 3 \/ c = 4 \/ c = 5 \/ c = 6 \/ c = 7 \/ c = 8 \/ c = 9 \/ c = 10 \/ c = 11 \/ c = 12)%Z as Y by lia.
    clear A C. repeat (destruct X as [X|X]; [subst a|]); [..|subst a]; (repeat (destruct Y as [Y|Y]; [subst c; first [reflexivity|discriminate]|]); subst c; first [reflexivity|discriminate]).
  - assert (a = 0 \/ a = 1 \/ a = 2 \/ a = 3 \/ a = 4 \/ a = 5 \/ a = 6 \/ a = 7 \/ a = 8 \/ a = 9 \/ a = 10 \/ a = 11 \/ a = 12 \/ a = 13 \/ a = 14 \/ a = 15 \/ a = 16 \/ a = 17 \/ a = 18)%Z as X by lia.
    assert (c = 0 \/ c = 1 \/ c = 2 \/ c = 3 \/ c = 4 \/ c = 5 \/ c = 6 \/ c = 7 \/ c = 8 \/ c = 9 \/ c = 10 \/ c = 11 \/ c = 12 \/ c = 13 \/ c = 14 \/ c = 15 \/ c = 16 \/ c = 17 \/ c = 18 \/ c = 19)%Z as Y by lia.
    clear A C. repeat (destruct X as [X|X]; [subst a|]); [..|subst a]; (repeat (destruct Y as [Y|Y]; [subst c; first [reflexivity|discriminate]|]); subst c; first [reflexivity|discriminate]).
Qed.
(** A feature that was not built in, a failure of the relay's storage: the same text as
    for a number that is no code at all. *)
Theorem C125_refuted : ~ (forall a c, (0 <= a <= 12)%Z -> error_string a = error_string c -> a = c) /\ ~ (forall a c, (0 <= a <= 19)%Z -> relay_error_string a = relay_error_string c -> a = c).
Proof.
  split; intros H.
  - specialize (H 12%Z 99%Z ltac:(lia) eq_refl). discriminate.
  - specialize (H 19%Z 99%Z ltac:(lia) eq_refl). discriminate.
Qed.
(** The text of a validation result: whole, with its length, or 0; never past the buffer. *)
Definition says (message field : list N) : list N :=
  bs "invalid: " ++ message ++ (if list_eq_dec N.eq_dec field [] then [] else bs " for field '" ++ field ++ bs "'").
Theorem C125_format : forall message field buf n buf', cstr_ok message -> cstr_ok field -> error_format message field buf = (n, buf') ->
  length buf' = length buf /\
  (((length (says message field) < length buf)%nat /\ n = length (says message field) /\ cstr buf' = Some (says message field) /\ skipn (S n) buf' = skipn (S n) buf) \/
   ((length buf <= length (says message field))%nat /\ n = O /\ (buf <> [] -> cstr buf' = Some (firstn (length buf - 1) (says message field))))).
Proof.
  intros message field buf n buf' M F. unfold error_format. destruct (length buf) as [|k] eqn:K.
  - intros E. assert (n = O) by congruence. assert (buf' = buf) by congruence. subst. split; [exact K|]. right. split; [lia|]. split; [reflexivity|]. intros X. destruct buf; [congruence|discriminate].
  - set (text := bs "invalid:" ++ bs " " ++ message ++ match field with [] => [] | _ => bs " for field '" ++ field ++ bs "'" end).
    assert (T : text = says message field) by (unfold text, says; destruct field, (list_eq_dec N.eq_dec _ []); try congruence; reflexivity). rewrite T. clear T text. cbv zeta.
    intros E. assert (En : n = if (0 <? length (says message field))%nat && (length (says message field) <? S k)%nat then length (says message field) else O) by congruence.
    assert (Eb : buf' = snprintf_at buf 0 (S k) (says message field)) by congruence. clear E. subst buf'. unfold snprintf_at. cbv zeta. cbn [firstn app Nat.add].
    assert (Z : ~ In 0 (says message field)).
    { assert (Q : forall l, cstr_ok l -> ~ In 0 l) by (intros l L I; apply (proj1 (Forall_forall _ _) L) in I; unfold char_ok in I; lia).
      unfold says. rewrite !in_app_iff. intros [I|[I|I]]; [vm_compute in I; intuition discriminate|apply (Q _ M I)|]. destruct (list_eq_dec N.eq_dec field []); [contradiction|]. rewrite !in_app_iff in I. destruct I as [I|[I|I]]; [vm_compute in I; intuition discriminate|apply (Q _ F I)|vm_compute in I; intuition discriminate]. }
    set (s := says message field) in *. assert (P : (0 < length s)%nat) by (unfold s, says; rewrite app_length; cbn; lia). destruct (Nat.ltb_spec 0 (length s)); [|lia]. cbn [andb] in En.
    rewrite !app_length, firstn_length. cbn [length]. rewrite skipn_length. split; [lia|].
    destruct (Nat.ltb_spec (length s) (S k)) as [L|L].
    + left. split; [exact L|]. split; [exact En|]. rewrite (firstn_all2 s) by lia. rewrite <- app_assoc. cbn [app]. split; [apply cstr_app, Z|]. rewrite Nat.min_r by lia. replace (length s + 1)%nat with (S n) by lia.
      replace (s ++ 0 :: skipn (S n) buf) with ((s ++ [0]) ++ skipn (S n) buf) by (rewrite <- app_assoc; reflexivity). apply skipn_app_exact. rewrite app_length. cbn [length]. lia.
    + right. split; [exact L|]. split; [exact En|]. intros _. rewrite <- app_assoc. cbn [app]. replace (S k - 1)%nat with k by lia. apply cstr_app. intros I. apply Z. rewrite <- (firstn_skipn k s). apply in_app_iff. left. exact I.
Qed.

(** ** Cases *)
Example C124_meets : reported (Nip 44) /\ reported Relay /\ on everything (Nip 44) /\ nip_supported everything 44 = true /\ nip_supported everything 18 = false.
Proof.
  assert (R : forall f, optional f -> f <> Nip 18 -> f <> Nip 26 -> f <> Threading -> reported f) by (intros f A B C D; exact (conj A (conj B (conj C D)))).
  split; [apply R; [unfold optional, optional_nips; cbn [In]; tauto|discriminate..]|]. split; [apply R; [exact Logic.I|discriminate..]|]. repeat split.
Qed.
Example C125_meets : error_format (bs "event has expired") (bs "expiration") (repeat 1 64) = (49%nat, bs "invalid: event has expired for field 'expiration'" ++ 0 :: repeat 1 14) /\
  error_format (bs "event has expired") [] (repeat 1 8) = (O, bs "invalid" ++ [0]).
Proof. split; vm_compute; reflexivity. Qed.

Print Assumptions C124_partial.
Print Assumptions C124_others.
Print Assumptions C124_refuted.
Print Assumptions C124_threads_partial.
Print Assumptions C124_threads_refuted.
Print Assumptions C125_partial.
Print Assumptions C125_refuted.
Print Assumptions C125_format.
