(** Property theorem C163: every configuration that is accepted gives a whole library. *)
From Coq Require Import String.
From Verif Require Import Base Build BuildSpec.
Open Scope N_scope.

Ltac pick := repeat first [left; reflexivity | right].
Lemma has f l : existsb (String.eqb f) l = true -> In f l.
Proof. intros H. apply existsb_exists in H. destruct H as (x & I & E). apply String.eqb_eq in E. subst x. exact I. Qed.
Ltac have_it S := left; exists S; split; [first [reflexivity | assumption] | apply has; reflexivity].
Lemma in_guard {A} (x : A) b l : In x (guard b l) -> b = true /\ In x l.
Proof. destruct b; [auto|intros []]. Qed.
Lemma in_if {A} (x : A) (b : bool) l1 l2 : In x (if b then l1 else l2) -> b = true /\ In x l1 \/ b = false /\ In x l2.
Proof. destruct b; auto. Qed.
Ltac strip := repeat match goal with
  | H : In _ (_ ++ _) |- _ => apply in_app_or in H; destruct H as [H|H]
  | H : In _ (guard _ _) |- _ => apply in_guard in H; destruct H as [? H]
  | H : In _ (if _ then _ else _) |- _ => apply in_if in H; destruct H as [[? H]|[? H]]
  | H : In _ [] |- _ => destruct H
  | H : In _ (_ :: _) |- _ => destruct H as [H|H]; [subst|]
  end.
(** The condition under which a set of features is whole. *)
Definition complete (c : cfg) : Prop :=
  (c_nip c 17 = true \/ c_nip c 47 = true \/ c_nip c 59 = true -> c_nip c 44 = true \/ c_nip c 4 = true) /\
  (c_nip c 18 = true \/ c_nip c 49 = true -> c_encoding c = true) /\
  (c_hd c = true -> have_secp c = true) /\
  (c_relay c = true -> have_cjson c = true).
(** What every accepted configuration satisfies. *)
Record accepted (c : cfg) : Prop := mkAccepted {
  a_noscrypt : forall n, In n noscrypt_nips -> c_nip c n = true -> have_noscrypt c = true /\ c_noscrypt c = true;
  a_json : c_json c = have_cjson c;
  a_lws : c_relay c = true -> have_lws c = true }.
Lemma configure_accepted o m c : configure o m = Some c -> accepted c.
Proof.
  unfold configure. cbv zeta. intros E.
  destruct (negb (o_noscrypt o && m_noscrypt m || o_secp o && m_secp m) && negb (m_win32 m)); [discriminate|].
  match type of E with (if existsb ?p _ && _ then _ else _) = _ => set (nip2 := p) in * end.
  destruct (existsb nip2 noscrypt_nips && negb (o_noscrypt o && m_noscrypt m)) eqn:N; [discriminate|].
  match type of E with (if ?b then _ else _) = _ => destruct b eqn:L; [discriminate|] end.
  match type of E with (if ?b then _ else _) = _ => destruct b; [discriminate|] end.
  injection E as <-. constructor; cbn [c_nip have_noscrypt c_noscrypt c_json have_cjson c_relay have_lws].
  - intros n I P. assert (X : existsb nip2 noscrypt_nips = true) by (apply existsb_exists; exists n; auto).
    rewrite X in N. cbn [andb] in N. apply negb_false_iff in N. split; [exact N|]. apply andb_true_iff in N. tauto.
  - destruct (m_cjson m || m_cjson_lib m); rewrite ?andb_true_r, ?andb_false_r; reflexivity.
  - intros R. rewrite R in L. cbn [andb] in L. apply negb_false_iff in L. rewrite R, L. reflexivity.
Qed.
Lemma missing s0 c f : f <> "nc_ctx"%string -> f <> "secp256k1_ctx"%string -> (forall s, s <> s0 -> ~ In f (defines c s)) -> ~ In f (linked c) ->
  there (compiled c) c f -> compiled c s0 = true.
Proof.
  intros _ _ ONE NL [(s & K & I)|I]; [|contradiction].
  assert (D : {s = s0} + {s <> s0}) by decide equality. destruct D as [->|NE]; [exact K|destruct (ONE s NE I)].
Qed.
Ltac absent_names := repeat match goal with
  | H : In _ (_ ++ _) |- _ => apply in_app_or in H; destruct H as [H|H]
  | H : In _ (guard ?b _) |- _ => destruct b; unfold guard in H
  | H : In _ [] |- _ => destruct H
  | H : In _ (_ :: _) |- _ => destruct H as [H|H]; [discriminate H|]
  end.
Theorem C163_whole_exact : forall o m c, configure o m = Some c -> (whole (compiled c) c <-> complete c).
Proof.
  intros o m c E. pose proof (configure_accepted o m c E) as A. split.
  - intros W. unfold complete. repeat split.
    + assert (P : forall s f, compiled c s = true -> In f (calls c s) -> f = "nostr_nip44_encrypt"%string -> c_nip c 44 || c_nip c 4 = true).
      { intros s f K I EF. apply (missing Nip44C c f); [subst f; discriminate|subst f; discriminate| | |exact (W s f K I)].
        - intros s' NE I'. subst f. destruct s'; cbn [defines] in I'; absent_names. congruence.
        - intros I'. subst f. unfold linked in I'. absent_names. }
      intros H. apply orb_true_iff. destruct H as [H|[H|H]]; [apply (P Nip17C "nostr_nip44_encrypt"%string)|apply (P Nip47C "nostr_nip44_encrypt"%string)|apply (P Nip59C "nostr_nip44_encrypt"%string)]; try exact H; try reflexivity;
        cbn [calls]; apply in_or_app; left; pick; reflexivity.
    + assert (P : forall s f, compiled c s = true -> In f (calls c s) -> f = "nostr_uri_parse"%string \/ f = "bech32_convert_bits"%string -> c_encoding c = true).
      { intros s f K I [EF|EF].
        - apply (missing Nip21C c f); [subst f; discriminate|subst f; discriminate| | |exact (W s f K I)].
          + intros s' NE I'. subst f. destruct s'; cbn [defines] in I'; absent_names. congruence.
          + intros I'. subst f. unfold linked in I'. absent_names.
        - apply (missing Bech32C c f); [subst f; discriminate|subst f; discriminate| | |exact (W s f K I)].
          + intros s' NE I'. subst f. destruct s'; cbn [defines] in I'; absent_names. congruence.
          + intros I'. subst f. unfold linked in I'. absent_names. }
      intros [H|H]; [apply (P Nip18C "nostr_uri_parse"%string)|apply (P Nip49C "bech32_convert_bits"%string)]; auto; cbn [calls]; pick; reflexivity.
    + intros H. assert (I : In "secp256k1_ctx"%string (calls c HdKeyC)) by (cbn [calls]; apply in_or_app; right; left; reflexivity).
      destruct (W HdKeyC _ H I) as [(s & K & D)|D].
      * destruct s; cbn [defines] in D; absent_names; reflexivity.
      * unfold linked in D. absent_names.
    + intros H. assert (I : In "cJSON_Parse"%string (calls c RelayC)) by (cbn [calls]; apply in_or_app; right; left; reflexivity).
      destruct (W RelayC _ H I) as [(s & K & D)|D].
      * destruct s; cbn [defines] in D; absent_names.
      * unfold linked in D. destruct (have_cjson c); [reflexivity|]. cbn [guard app] in D. absent_names.
  - intros (C1 & C2 & C3 & C4) s f K I.
    assert (NS : forall n, In n noscrypt_nips -> c_nip c n = true -> have_noscrypt c = true) by (intros n J P; exact (proj1 (a_noscrypt c A n J P))).
    assert (OS : forall n, In n noscrypt_nips -> c_nip c n = true -> c_noscrypt c = true) by (intros n J P; exact (proj2 (a_noscrypt c A n J P))).
    assert (CTX : have_noscrypt c = true -> there (compiled c) c "nc_ctx"%string).
    { intros H. left. exists KeyC. split; [reflexivity|]. cbn [defines]. apply in_or_app. right. apply in_or_app. left. rewrite H. left. reflexivity. }
    assert (CTS : have_secp c = true -> there (compiled c) c "secp256k1_ctx"%string).
    { intros H. left. exists KeyC. split; [reflexivity|]. cbn [defines]. apply in_or_app. right. apply in_or_app. right. rewrite H. left. reflexivity. }
    assert (CJ : have_cjson c = true -> there (compiled c) c "cJSON_Parse"%string).
    { intros H. right. unfold linked. rewrite H. left. reflexivity. }
    assert (CB : (c_nip c 44 = true \/ c_nip c 4 = true) -> compiled c Nip44C = true).
    { intros H. cbn [compiled]. apply orb_true_iff. exact H. }
    destruct s; cbn [compiled] in K; cbn [calls] in I.
    all: try (assert (KB := CB (C1 (or_introl K)))); try (assert (KB := CB (C1 (or_intror (or_introl K))))); try (assert (KB := CB (C1 (or_intror (or_intror K))))).
    all: try (assert (KE := C2 (or_introl K))); try (assert (KE := C2 (or_intror K))).
    all: strip.
    all: try match goal with |- there _ _ "nc_ctx"%string => apply CTX end.
    all: try match goal with |- there _ _ "secp256k1_ctx"%string => apply CTS end.
    all: try match goal with |- there _ _ "cJSON_Parse"%string => apply CJ end.
    all: try match goal with |- there _ _ "lws_create_context"%string => right; unfold linked; rewrite (a_lws c A K); apply in_or_app; right; left; reflexivity end.
    all: try assumption.
    all: try (apply C3; exact K); try (apply C4; exact K); try (rewrite <- (a_json c A); assumption).
    all: try match goal with K : c_nip _ ?n = true |- have_noscrypt _ = true => apply (NS n); [cbn; tauto|exact K] end.
    all: try match goal with K : c_nip _ ?n = true, X : c_noscrypt _ = false |- _ => rewrite (OS n) in X; [discriminate|cbn; tauto|exact K] end.
    all: try match goal with H : _ && _ = true |- have_secp _ = true => apply andb_true_iff in H; tauto end.
    all: try match goal with H : c_nip _ 44 = true |- _ => assert (KB := CB (or_introl H)) end.
    all: try match goal with H : c_nip _ 44 && _ = true |- _ => assert (KB := CB (or_introl (proj1 (proj1 (andb_true_iff _ _) H)))) end.
    all: try have_it EventC. all: try have_it KeyC. all: try have_it UtilsC. all: try have_it ConfigC.
    all: try have_it Bech32C. all: try have_it Nip21C. all: try have_it Nip44C. all: try have_it Nip47C.
    all: try have_it RelayProtocolC. all: try have_it RelayFilterC.
    all: apply orb_true_iff in K; destruct K as [K|K]; [apply (NS 44)|apply (NS 4)]; try exact K; cbn; tauto.
Qed.

(** The claim, and why it is false: private messages alone; every NIP with noscrypt alone
    (the "full build" of docs/FEATURE_FLAGS.md, which asks for noscrypt only); JSON asked
    for without cJSON. *)
Definition whole_claim : Prop := forall o m c, configure o m = Some c -> whole (compiled c) c.
Definition with_nips (l : list N) (o : options) : options :=
  mkOptions (fun n => o_nip o n || mem n l) (o_all o) (o_relay_protocol o) (o_relay o) (o_hd o) (o_json o) (o_threading o) (o_encoding o) (o_noscrypt o) (o_secp o) (o_mbedtls o).
Definition with_all (o : options) : options :=
  mkOptions (o_nip o) true (o_relay_protocol o) (o_relay o) (o_hd o) (o_json o) (o_threading o) (o_encoding o) (o_noscrypt o) (o_secp o) (o_mbedtls o).
Definition with_json (o : options) : options :=
  mkOptions (o_nip o) (o_all o) (o_relay_protocol o) (o_relay o) (o_hd o) (Some true) (o_threading o) (o_encoding o) (o_noscrypt o) (o_secp o) (o_mbedtls o).
Definition linux_all : machine := mkMachine false false true true true true true true true.
Definition linux_noscrypt : machine := mkMachine false false true true true true false false false.
Definition linux_secp : machine := mkMachine false false true true true false true true true.
Definition linux_bare : machine := mkMachine false false false false true true true true true.
Definition built_by (o : options) (m : machine) : cfg := match configure o m with Some c => c | None => esp_cfg end.
Theorem C163_refuted : ~ whole_claim.
Proof.
  intros H. specialize (H (with_nips [17] defaults) linux_all (built_by (with_nips [17] defaults) linux_all) eq_refl).
  apply (C163_whole_exact (with_nips [17] defaults) linux_all _ eq_refl) in H. destruct H as (H & _).
  destruct (H (or_introl eq_refl)) as [X|X]; discriminate X.
Qed.
Theorem C163_full_build_refuted : ~ (forall m c, configure (with_all defaults) m = Some c -> whole (compiled c) c).
Proof.
  intros H. specialize (H linux_noscrypt (built_by (with_all defaults) linux_noscrypt) eq_refl).
  apply (C163_whole_exact (with_all defaults) linux_noscrypt _ eq_refl) in H. destruct H as (_ & _ & H & _).
  specialize (H eq_refl). discriminate H.
Qed.
Theorem C163_json_refuted : ~ (forall m c, configure (with_json defaults) m = Some c -> whole (compiled c) c).
Proof.
  intros H. specialize (H linux_bare (built_by (with_json defaults) linux_bare) eq_refl).
  apply (C163_whole_exact (with_json defaults) linux_bare _ eq_refl) in H. destruct H as (_ & _ & _ & H).
  specialize (H eq_refl). discriminate H.
Qed.

(** What holds: the default options, on every machine; every NIP, if libsecp256k1 is there,
    too. *)
Lemma relay_json o m c : configure o m = Some c -> o_json o <> Some true -> c_relay c = true -> have_cjson c = true.
Proof.
  unfold configure. cbv zeta. intros E NJ.
  destruct (negb (o_noscrypt o && m_noscrypt m || o_secp o && m_secp m) && negb (m_win32 m)); [discriminate|].
  match type of E with (if ?b then _ else _) = _ => destruct b; [discriminate|] end.
  match type of E with (if ?b then _ else _) = _ => destruct b; [discriminate|] end.
  match type of E with (if ?b then _ else _) = _ => destruct b eqn:J; [discriminate|] end.
  injection E as <-. cbn [c_relay have_cjson]. intros R. rewrite R in *. cbn [andb] in J. rewrite orb_true_r. cbn [andb].
  destruct (m_cjson m) eqn:MJ; [reflexivity|]. cbn [orb] in *. destruct (m_cjson_lib m); [reflexivity|].
  cbn [negb] in J. rewrite andb_true_r in J. apply negb_false_iff in J. destruct (o_json o) as [v|]; [|discriminate J]. subst v. congruence.
Qed.
Theorem C163_default : forall m c, configure defaults m = Some c -> whole (compiled c) c.
Proof.
  intros m c E. apply (C163_whole_exact defaults m c E).
  assert (F : forall n, c_nip c n = true -> mem n default_nips = true).
  { intros n. unfold configure in E. cbv zeta in E.
    repeat match type of E with (if ?b then _ else _) = _ => destruct b; [discriminate|] end.
    injection E as <-. cbn [c_nip defaults o_nip o_all andb]. rewrite orb_false_r. intros H. apply andb_true_iff in H. tauto. }
  assert (G : c_encoding c = true /\ c_hd c = false).
  { unfold configure in E. cbv zeta in E.
    repeat match type of E with (if ?b then _ else _) = _ => destruct b; [discriminate|] end.
    injection E as <-. split; reflexivity. }
  destruct G as (G1 & G2). repeat split.
  - intros [H|[H|H]]; apply F in H; discriminate H.
  - intros _. exact G1.
  - intros H. congruence.
  - apply (relay_json defaults m c E). discriminate.
Qed.
Theorem C163_all_nips : forall o m c, o_all o = true -> o_encoding o = true -> o_json o <> Some true -> configure o m = Some c ->
  (whole (compiled c) c <-> have_secp c = true).
Proof.
  intros o m c OA OE NJ E. pose proof (relay_json o m c E NJ) as RJ. rewrite (C163_whole_exact o m c E).
  assert (B : c_encoding c = true /\ c_hd c = true /\ c_nip c 44 = true).
  { unfold configure in E. cbv zeta in E. rewrite OA, OE in E.
    set (backend := o_noscrypt o && m_noscrypt m || o_secp o && m_secp m) in *.
    destruct (negb backend && negb (m_win32 m)); [discriminate|].
    match type of E with (if ?b then _ else _) = _ => destruct b eqn:N; [discriminate|] end.
    repeat match type of E with (if ?b then _ else _) = _ => destruct b; [discriminate|] end.
    assert (BK : backend = true).
    { destruct backend eqn:K; [reflexivity|]. exfalso. subst backend. apply orb_false_iff in K. destruct K as (K & _). rewrite K in N.
      cbn [negb] in N. rewrite andb_true_r in N.
      assert (X : forall p, existsb p noscrypt_nips = false -> p 46 = false).
      { intros p H. unfold noscrypt_nips in H. cbn [existsb] in H. rewrite !orb_false_iff in H. tauto. }
      apply X in N. rewrite orb_true_r in N. discriminate N. }
    rewrite BK in E. injection E as <-. cbn [c_encoding c_hd c_nip]. rewrite !orb_true_r. repeat split. }
  destruct B as (B1 & B2 & B3). unfold complete. split.
  - intros (_ & _ & H & _). auto.
  - intros H. repeat split; auto.
Qed.

(** ** Each function once, and only with its feature *)
Definition names (s : source) : list string := defines (mkCfg (fun _ => true) true true true true true true true true true true true true true true) s.
Lemma defines_names c s f : In f (defines c s) -> In f (names s).
Proof.
  destruct s; cbn [names defines]; auto. intros I. unfold names. cbn [defines have_noscrypt have_secp].
  apply in_app_or in I. apply in_or_app. destruct I as [I|I]; [left; exact I|right].
  apply in_app_or in I. apply in_or_app. destruct I as [I|I]; [left|right]; apply in_guard in I; exact (proj2 I).
Qed.
Definition same (s1 s2 : source) : {s1 = s2} + {s1 <> s2}.
Proof. decide equality. Defined.
Lemma all_sources_all s : In s all_sources.
Proof. destruct s; cbn; tauto. Qed.
Lemma names_apart : forallb (fun s1 => forallb (fun s2 => (if same s1 s2 then true else false) ||
  forallb (fun f => negb (existsb (String.eqb f) (names s2))) (names s1)) all_sources) all_sources = true.
Proof. vm_compute. reflexivity. Qed.
Lemma names_once s1 s2 f : In f (names s1) -> In f (names s2) -> s1 = s2.
Proof.
  intros I1 I2. pose proof names_apart as A. rewrite forallb_forall in A. specialize (A s1 (all_sources_all s1)).
  rewrite forallb_forall in A. specialize (A s2 (all_sources_all s2)). destruct (same s1 s2) as [E|NE]; [exact E|].
  cbn [orb] in A. rewrite forallb_forall in A. specialize (A f I1). apply negb_true_iff in A.
  assert (X : existsb (String.eqb f) (names s2) = true) by (apply existsb_exists; exists f; split; [exact I2|apply String.eqb_refl]). congruence.
Qed.
Theorem C163_single : forall comp c, single comp c.
Proof. intros comp c s1 s2 f _ _ I1 I2. exact (names_once s1 s2 f (defines_names c s1 f I1) (defines_names c s2 f I2)). Qed.
(** Switched off means gone: whatever was configured, the functions of a file that is not
    compiled are nowhere, so a program that calls one does not link. *)
Theorem C163_off : forall c s f, compiled c s = false -> In f (defines c s) -> ~ there (compiled c) c f.
Proof.
  intros c s f K I [(s' & K' & I')|L].
  - assert (E : s' = s) by exact (names_once s' s f (defines_names c s' f I') (defines_names c s f I)). subst s'. congruence.
  - assert (NL : In f ["cJSON_Parse"; "lws_create_context"]%string).
    { unfold linked in L. apply in_app_or in L. destruct L as [L|L]; apply in_guard in L; destruct L as (_ & [L|[]]); subst f; cbn; tauto. }
    assert (X : forallb (fun g => forallb (fun s0 => negb (existsb (String.eqb g) (names s0))) all_sources) ["cJSON_Parse"; "lws_create_context"]%string = true) by (vm_compute; reflexivity).
    rewrite forallb_forall in X. specialize (X f NL). rewrite forallb_forall in X. specialize (X s (all_sources_all s)). apply negb_true_iff in X.
    assert (Y : existsb (String.eqb f) (names s) = true) by (apply existsb_exists; exists f; split; [exact (defines_names c s f I)|apply String.eqb_refl]). congruence.
Qed.
Theorem C163_off_refuted : ~ callable_when_off.
Proof.
  intros H. pose (c := built_by defaults linux_all).
  assert (I : In "nostr_nip17_send_dm"%string (defines c Nip17C)) by (apply has; reflexivity).
  exact (C163_off c Nip17C _ eq_refl I (H defaults linux_all c eq_refl Nip17C _ eq_refl I)).
Qed.

(** ** The component for ESP-IDF *)
Theorem C163_esp : whole esp_compiled esp_cfg.
Proof.
  assert (X : forallb (fun s => negb (esp_compiled s) || forallb (fun f => existsb (fun s' => esp_compiled s' && existsb (String.eqb f) (defines esp_cfg s')) all_sources ||
    existsb (String.eqb f) (linked esp_cfg)) (calls esp_cfg s)) all_sources = true) by (vm_compute; reflexivity).
  intros s f K I. rewrite forallb_forall in X. specialize (X s (all_sources_all s)). rewrite K in X. cbn [negb orb] in X.
  rewrite forallb_forall in X. specialize (X f I). apply orb_true_iff in X. destruct X as [X|X]; [left|right; exact (has _ _ X)].
  apply existsb_exists in X. destruct X as (s' & _ & X). apply andb_true_iff in X. destruct X as (K' & X). exists s'. split; [exact K'|exact (has _ _ X)].
Qed.

(** ** The backend *)
Theorem C163_backend_exact : forall o m c, m_win32 m = false -> configure o m = Some c ->
  (announced (backend_info c) = signs c <-> (o_noscrypt o = true -> m_noscrypt m = true)).
Proof.
  intros o m c NW E. unfold configure in E. cbv zeta in E. rewrite NW in E. cbn [negb orb] in E. rewrite andb_true_r in E.
  destruct (o_noscrypt o && m_noscrypt m || o_secp o && m_secp m) eqn:B; [cbn [negb] in E|discriminate].
  repeat match type of E with (if ?b then _ else _) = _ => destruct b; [discriminate|] end.
  injection E as <-. unfold backend_info, signs. cbn [c_noscrypt c_secp have_noscrypt have_secp have_schnorr].
  destruct (o_noscrypt o), (m_noscrypt m), (o_secp o), (m_secp m), (m_schnorr m), (m_secp_named m); cbn in *; try discriminate B; split; try reflexivity; try tauto; try discriminate.
  all: intros H; discriminate (H eq_refl).
Qed.
Theorem C163_backend_refuted : ~ (forall o m c, configure o m = Some c -> announced (backend_info c) = signs c).
Proof. intros H. specialize (H defaults linux_secp (built_by defaults linux_secp) eq_refl). discriminate H. Qed.

(** Configurations that are accepted: with every library the defaults, private messages
    with their encryption, and everything; with libsecp256k1 the defaults. *)
Example C163_meets :
  configure defaults linux_all <> None /\ configure defaults linux_secp <> None /\ configure (with_nips [17] defaults) linux_all <> None /\
  (exists c, configure (with_nips [17; 44; 59] defaults) linux_all = Some c /\ whole (compiled c) c /\ compiled c Nip17C = true /\ announced (backend_info c) = Noscrypt) /\
  (exists c, configure (with_all defaults) linux_all = Some c /\ whole (compiled c) c /\ compiled c HdKeyC = true).
Proof.
  repeat split; try discriminate.
  - exists (built_by (with_nips [17; 44; 59] defaults) linux_all). repeat split.
    apply (C163_whole_exact (with_nips [17; 44; 59] defaults) linux_all _ eq_refl). repeat split; intros; auto; try discriminate.
  - exists (built_by (with_all defaults) linux_all). repeat split.
    apply (C163_all_nips (with_all defaults) linux_all _); try reflexivity. discriminate.
Qed.
Print Assumptions C163_whole_exact.
Print Assumptions C163_refuted.
Print Assumptions C163_full_build_refuted.
Print Assumptions C163_json_refuted.
Print Assumptions C163_default.
Print Assumptions C163_all_nips.
Print Assumptions C163_single.
Print Assumptions C163_off.
Print Assumptions C163_off_refuted.
Print Assumptions C163_esp.
Print Assumptions C163_backend_exact.
Print Assumptions C163_backend_refuted.
Print Assumptions C163_meets.
