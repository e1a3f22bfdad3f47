(** Relays that got the same events hold the same events: C167. *)
From Verif Require Import Base BaseFacts Dec Json Hex Event EventSpec EventProps EventMemSpec EventOomSpec GiftWrapSpec Nip18Spec RelayProto RelayProtoSpec RelayProtoProps RelayFilterProps RelayMsg RelayMsgProps DeliverySpec JsonSpec JsonLib JsonLibProofs EventProofs StoreSpec StoreProps EventReadSpec EventReadProps GiftWrapProps RelaySendProps DeliveryProps ReplaceSpec.
From Coq Require Import Permutation.
Open Scope N_scope.

(** ** C167 *)
Lemma ephemeral_iff e : kind_is_ephemeral (Z.of_N (ev_kind e)) = true <-> nip01_class (Z.of_N (ev_kind e)) Ephemeral.
Proof. destruct (C53_classes (Z.of_N (ev_kind e))) as (_ & _ & _ & _ & H & _). exact H. Qed.
Lemma d_tag_is e d : d_is e d <-> d_tag e = d.
Proof.
  unfold d_is, d_tag. destruct (tag_value (ev_tags e) (bs "d")) as [v|] eqn:T.
  - split; [|intros <-; left; apply tag_value_some, T]. intros [F|(F & _)]; [apply tag_value_some in F|apply tag_value_none in F]; congruence.
  - split; [|intros <-; right; split; [apply tag_value_none, T|reflexivity]]. intros [F|(_ & ->)]; [apply tag_value_some in F; congruence|reflexivity].
Qed.
Lemma slot_iff a b : same_slot a b = true <-> versions a b.
Proof.
  unfold same_slot, versions. rewrite !andb_true_iff, orb_true_iff, andb_true_iff, N.eqb_eq, !beq_eq.
  destruct (C53_classes (Z.of_N (ev_kind a))) as (_ & _ & _ & R & _ & A & _). rewrite R, A.
  assert (D : (exists d, d_is a d /\ d_is b d) <-> d_tag a = d_tag b).
  { split; [intros (d & X & Y); apply d_tag_is in X; apply d_tag_is in Y; congruence|]. intros E. exists (d_tag a). split; apply d_tag_is; congruence. }
  rewrite D. tauto.
Qed.
Lemma versions_sym a b : versions a b -> versions b a.
Proof. intros (K & P & [R|(A & d & X & Y)]); (split; [congruence|]); (split; [congruence|]); rewrite <- K; [left; exact R|right; split; [exact A|exists d; auto]]. Qed.
Lemma versions_trans a b c : versions a b -> versions b c -> versions a c.
Proof.
  intros (K & P & D) (K' & P' & D'). split; [congruence|]. split; [congruence|]. destruct D as [R|(A & d & X & Y)]; [left; exact R|].
  destruct D' as [R|(_ & d' & X' & Y')]; [left; rewrite K; exact R|]. right. split; [exact A|]. exists d. split; [exact X|].
  apply d_tag_is in Y. apply d_tag_is in X'. apply d_tag_is in Y'. apply d_tag_is. congruence.
Qed.
Lemma versions_lasting a b : versions a b -> ~ nip01_class (Z.of_N (ev_kind a)) Ephemeral.
Proof. intros (_ & _ & [R|(A & _)]); cbn in *; lia. Qed.
Lemma same_versions a a' b : same_fields a a' -> versions a b -> versions a' b.
Proof. intros (P & _ & K & T & _) (V1 & V2 & V3). unfold versions, d_is in *. rewrite <- P, <- K, <- T. auto. Qed.
Lemma same_beats_l a a' b : same_fields a a' -> ev_id a = ev_id a' -> beats a b -> beats a' b.
Proof. intros (_ & C & _) I. unfold beats. rewrite C, I. auto. Qed.
Lemma same_beats_r a b b' : same_fields b b' -> ev_id b = ev_id b' -> beats a b -> beats a b'.
Proof. intros (_ & C & _) I. unfold beats. rewrite C, I. auto. Qed.
Lemma same_fields_sym a b : same_fields a b -> same_fields b a.
Proof. intros (A & B & C & D & E). repeat split; congruence. Qed.

(** The store after [l]. *)
Record kept_of (l st : list event) : Prop := {
  ko_sound : forall t, In t st -> to_keep l t;
  ko_whole : forall e, to_keep l e -> exists t, In t st /\ ev_id t = ev_id e;
  ko_apart : ForallOrdPairs (fun a b => ev_id a <> ev_id b /\ ~ versions a b) st }.

(** Among the versions of [e] in [l] there is one that is to be kept or [e] has
    none there that beats it. *)
Lemma best_version l : Forall id32 l -> forall e x, In x l -> versions x e -> exists m, In m l /\ versions m e /\ (m = x \/ beats m x) /\ forall y, In y l -> versions y m -> ~ beats y m.
Proof.
  intros F e x I V. set (p := fun y => same_slot y e). set (vs := filter p l).
  assert (XI : In x vs) by (apply filter_In; split; [exact I|apply slot_iff, V]).
  destruct vs as [|v r] eqn:EV; [destruct XI|].
  assert (FV : Forall id32 (v :: r)). { apply Forall_forall. intros y Y. rewrite <- EV in Y. apply filter_In in Y as (Y & _). rewrite Forall_forall in F. exact (F y Y). }
  destruct (survivor_best r v (Forall_inv FV) (Forall_inv_tail FV)) as (SI & SB). set (m := survivor compare_replaceable v r) in *. clearbody m.
  assert (MI : In m l /\ versions m e) by (rewrite <- EV in SI; apply filter_In in SI as (A & B); split; [exact A|apply slot_iff, B]). destruct MI as (MI & MV).
  rewrite Forall_forall in SB. 
  assert (NB : forall y, In y l -> versions y m -> ~ beats y m). { intros y Y YV. apply SB. rewrite <- EV. apply filter_In. split; [exact Y|]. apply slot_iff. eapply versions_trans; eassumption. }
  rewrite Forall_forall in FV, F.
  destruct (C52_meaning m x (F m MI) (F x I)) as (C1 & C2 & C3). destruct (C52_order m x x (F m MI) (F x I) (F x I)) as (_ & _ & TRI & _).
  destruct TRI as [T|[T|T]].
  - exists m. split; [exact MI|]. split; [exact MV|]. split; [right; apply C1, T|exact NB].
  - exists x. split; [exact I|]. split; [exact V|]. split; [left; reflexivity|]. intros y Y YV B. apply C3 in T as (TC & TI).
    apply (NB y Y). { eapply versions_trans; [exact YV|]. eapply versions_trans; [exact V|apply versions_sym, MV]. } unfold beats in *. rewrite TC, TI. exact B.
  - exfalso. exact (SB x XI (proj1 C2 T)).
Qed.
Lemma to_keep_more l e x : to_keep (l ++ [e]) x -> In x l -> to_keep l x.
Proof. intros (_ & E & B) I. split; [exact I|]. split; [exact E|]. intros y Y. apply B, in_or_app. left. exact Y. Qed.
Lemma ordpairs_filter {A} (R : A -> A -> Prop) p l : ForallOrdPairs R l -> ForallOrdPairs R (filter p l).
Proof.
  induction 1 as [|a l F O IH]; cbn [filter]; [constructor|]. destruct (p a); [|exact IH]. constructor; [|exact IH].
  apply Forall_forall. intros x X. apply filter_In in X as (X & _). rewrite Forall_forall in F. exact (F x X).
Qed.
Lemma keep_step l st e : Forall id32 (l ++ [e]) -> ids_name (l ++ [e]) -> kept_of l st -> kept_of (l ++ [e]) (keep_one st e).
Proof.
  intros F N [SO WH AP]. assert (IE : In e (l ++ [e])) by (apply in_or_app; right; left; reflexivity).
  assert (FL : Forall id32 l) by (apply Forall_app in F; tauto). pose proof F as F'. rewrite Forall_forall in F'.
  assert (SL : forall t, In t st -> In t (l ++ [e])) by (intros t T; apply in_or_app; left; exact (proj1 (SO t T))).
  unfold keep_one. destruct (kind_is_ephemeral (Z.of_N (ev_kind e))) eqn:EP.
  - apply ephemeral_iff in EP. split; [| |exact AP].
    + intros t T. destruct (SO t T) as (A & B & C). split; [exact (SL t T)|]. split; [exact B|]. intros x X V. apply in_app_or in X as [X|[<-|[]]]; [exact (C x X V)|].
      exfalso. apply (versions_lasting _ _ V), EP.
    + intros x K. pose proof K as (X & E & _). apply in_app_or in X as [X|[<-|[]]]; [|contradiction]. apply WH. eapply to_keep_more; eassumption.
  - assert (NE : ~ nip01_class (Z.of_N (ev_kind e)) Ephemeral) by (intros Q; apply ephemeral_iff in Q; congruence). clear EP.
    destruct (existsb (fun t => beq (ev_id t) (ev_id e)) st) eqn:DU.
    + apply existsb_exists in DU as (t0 & T0 & E0). apply beq_eq in E0. pose proof (N _ _ (SL t0 T0) IE E0) as SF. pose proof (SO t0 T0) as (L0 & _). split; [| |exact AP].
      * intros t T. destruct (SO t T) as (A & B & C). split; [exact (SL t T)|]. split; [exact B|]. intros x X V. apply in_app_or in X as [X|[<-|[]]]; [exact (C x X V)|].
        intros BT. apply (C t0 L0); [eapply same_versions; [apply same_fields_sym, SF|exact V]|eapply same_beats_l; [apply same_fields_sym, SF|congruence|exact BT]].
      * intros x K. pose proof K as (X & _). apply in_app_or in X as [X|[<-|[]]]; [apply WH; eapply to_keep_more; eassumption|]. exists t0. auto.
    + assert (FR : forall t, In t st -> ev_id t <> ev_id e).
      { intros t T Q. assert (existsb (fun t => beq (ev_id t) (ev_id e)) st = true) by (apply existsb_exists; exists t; split; [exact T|apply beq_eq, Q]). congruence. }
      destruct (existsb (fun t => same_slot t e && (0 <=? compare_replaceable t e)%Z) st) eqn:OL.
      * apply existsb_exists in OL as (t0 & T0 & E0). apply andb_true_iff in E0 as (V0 & C0). apply slot_iff in V0. apply Z.leb_le in C0. pose proof (SO t0 T0) as (L0 & _).
        assert (B0 : beats t0 e).
        { destruct (C52_meaning t0 e (F' _ (SL t0 T0)) (F' _ IE)) as (C1 & _ & C3). destruct (C52_order t0 e e (F' _ (SL t0 T0)) (F' _ IE) (F' _ IE)) as (_ & _ & TRI & _).
          destruct TRI as [T|[T|T]]; [apply C1, T|exfalso; apply C3 in T as (_ & T); exact (FR t0 T0 T)|lia]. }
        split; [| |exact AP].
        -- intros t T. destruct (SO t T) as (A & B & C). split; [exact (SL t T)|]. split; [exact B|]. intros x X V. apply in_app_or in X as [X|[<-|[]]]; [exact (C x X V)|].
           intros BT. apply (C t0 L0); [eapply versions_trans; eassumption|eapply beats_trans; eassumption].
        -- intros x K. pose proof K as (X & _ & KB). apply in_app_or in X as [X|[<-|[]]]; [apply WH; eapply to_keep_more; eassumption|]. exfalso. exact (KB t0 (SL t0 T0) V0 B0).
      * assert (LE : forall t, In t st -> versions t e -> beats e t).
        { intros t T V. destruct (C52_meaning t e (F' _ (SL t T)) (F' _ IE)) as (_ & C2 & _). apply C2. destruct (C52_order t e e (F' _ (SL t T)) (F' _ IE) (F' _ IE)) as (_ & _ & TRI & _).
          destruct (Z.leb_spec 0 (compare_replaceable t e)) as [G|G]; [|lia]. exfalso.
          assert (existsb (fun t => same_slot t e && (0 <=? compare_replaceable t e)%Z) st = true); [|congruence]. apply existsb_exists. exists t. split; [exact T|].
          apply andb_true_iff. split; [apply slot_iff, V|apply Z.leb_le, G]. }
        assert (TOP : forall x, In x l -> versions x e -> ~ beats x e).
        { intros x X V BT. destruct (best_version l FL e x X V) as (m & MI & MV & MX & MB).
          assert (KM : to_keep l m). { split; [exact MI|]. split; [exact (versions_lasting _ _ MV)|exact MB]. }
          destruct (WH m KM) as (t & T & TI). pose proof (N t m (SL t T) (in_or_app _ _ _ (or_introl MI)) TI) as SF.
          assert (TV : versions t e) by (eapply same_versions; [apply same_fields_sym, SF|exact MV]). pose proof (LE t T TV) as BE.
          assert (BM : beats m e) by (destruct MX as [->|MX]; [exact BT|eapply beats_trans; eassumption]).
          assert (beats e m) by (eapply same_beats_r; [exact SF|exact TI|exact BE]). apply (beats_irrefl e). eapply beats_trans; eassumption. }
        split.
        -- intros t [<-|T].
           ++ split; [exact IE|]. split; [exact NE|]. intros x X V. apply in_app_or in X as [X|[<-|[]]]; [exact (TOP x X V)|apply beats_irrefl].
           ++ apply filter_In in T as (T & NV). destruct (SO t T) as (A & B & C). split; [exact (SL t T)|]. split; [exact B|]. intros x X V. apply in_app_or in X as [X|[<-|[]]]; [exact (C x X V)|].
              exfalso. apply negb_true_iff in NV. apply versions_sym, slot_iff in V. congruence.
        -- intros x K. pose proof K as (X & _ & KB). apply in_app_or in X as [X|[<-|[]]]; [|exists e; split; [left; reflexivity|reflexivity]].
           destruct (WH x (to_keep_more _ _ _ K X)) as (t & T & TI). exists t. split; [|exact TI]. right. apply filter_In. split; [exact T|]. apply negb_true_iff.
           destruct (same_slot t e) eqn:SS; [|reflexivity]. exfalso. apply slot_iff in SS. pose proof (LE t T SS) as BE.
           pose proof (N t x (SL t T) (in_or_app _ _ _ (or_introl X)) TI) as SF. apply (KB e IE); [apply versions_sym; eapply same_versions; eassumption|]. eapply same_beats_r; eassumption.
        -- constructor; [|apply ordpairs_filter, AP]. apply Forall_forall. intros t T. apply filter_In in T as (T & NV). apply negb_true_iff in NV. split.
           ++ intros Q. exact (FR t T (eq_sym Q)).
           ++ intros V. apply versions_sym, slot_iff in V. congruence.
Qed.
Lemma keep_all_of l : Forall id32 l -> ids_name l -> kept_of l (keep_all l).
Proof.
  induction l as [|e l IH] using rev_ind; intros F N.
  - split; [intros t []|intros e ([] & _)|constructor].
  - unfold keep_all. rewrite fold_left_app. cbn [fold_left]. apply keep_step; [exact F|exact N|]. apply IH.
    + apply Forall_app in F. tauto.
    + intros x y X Y. apply N; apply in_or_app; left; assumption.
Qed.

(** What is kept: everything not ephemeral of which no later version came, once,
    and one version of everything at most. *)
Theorem C167_exact : forall l, Forall id32 l -> ids_name l ->
  (forall t, In t (keep_all l) -> to_keep l t) /\
  (forall e, to_keep l e -> exists t, In t (keep_all l) /\ ev_id t = ev_id e /\ same_fields t e) /\
  (forall n m a b, nth_error (keep_all l) n = Some a -> nth_error (keep_all l) m = Some b -> ev_id a = ev_id b \/ versions a b -> n = m).
Proof.
  intros l F N. destruct (keep_all_of l F N) as [SO WH AP]. split; [exact SO|]. split.
  - intros e K. destruct (WH e K) as (t & T & I). exists t. split; [exact T|]. split; [exact I|]. exact (N t e (proj1 (SO t T)) (proj1 K) I).
  - clear - AP. induction AP as [|x st FX AP IH]; intros n m a b A B D; [destruct n; discriminate A|]. rewrite Forall_forall in FX.
    destruct n as [|n], m as [|m]; cbn [nth_error] in A, B; [reflexivity| | |f_equal; exact (IH n m a b A B D)].
    + exfalso. assert (x = a) by congruence. subst x. destruct (FX b (nth_error_In _ _ B)) as (Q1 & Q2). tauto.
    + exfalso. assert (x = b) by congruence. subst x. destruct (FX a (nth_error_In _ _ A)) as (Q1 & Q2). destruct D as [D|D]; [congruence|]. apply Q2, versions_sym, D.
Qed.

(** Two relays that accepted the same events, in whatever order and however often,
    hold the same events. *)
Theorem C167_agree : forall l l', Forall id32 l -> Forall id32 l' -> ids_name (l ++ l') ->
  (forall e, In e l -> exists e', In e' l' /\ ev_id e' = ev_id e) -> (forall e, In e l' -> exists e', In e' l /\ ev_id e' = ev_id e) ->
  forall t, In t (keep_all l) -> exists t', In t' (keep_all l') /\ ev_id t' = ev_id t /\ same_fields t' t.
Proof.
  intros l l' F F' N S S' t T.
  assert (N1 : ids_name l) by (intros x y X Y; apply N; apply in_or_app; left; assumption). assert (N2 : ids_name l') by (intros x y X Y; apply N; apply in_or_app; right; assumption).
  destruct (C167_exact l F N1) as (SO & _). destruct (C167_exact l' F' N2) as (_ & WH' & _). destruct (SO t T) as (A & B & C).
  destruct (S t A) as (e' & E' & I'). pose proof (N e' t (in_or_app _ _ _ (or_intror E')) (in_or_app _ _ _ (or_introl A)) I') as SF.
  assert (K : to_keep l' e').
  { split; [exact E'|]. split; [pose proof SF as (_ & _ & K & _); rewrite K; exact B|]. intros x' X' V BT. destruct (S' x' X') as (x & X & XI).
    pose proof (N x x' (in_or_app _ _ _ (or_introl X)) (in_or_app _ _ _ (or_intror X')) XI) as SX.
    apply (C x X).
    - eapply same_versions; [apply same_fields_sym, SX|]. apply versions_sym. eapply same_versions; [exact SF|apply versions_sym, V].
    - eapply same_beats_l; [apply same_fields_sym, SX|congruence|]. eapply same_beats_r; [exact SF|exact I'|exact BT]. }
  destruct (WH' e' K) as (t' & T' & TI & TF). exists t'. split; [exact T'|]. split; [congruence|].
  destruct TF as (T1 & T2 & T3 & T4 & T5). destruct SF as (S1 & S2 & S3 & S4 & S5). repeat split; congruence.
Qed.

(** *** Events that arrive *)
Section Arrive.
Variable num : Z -> list N.
Variable sha256 : list N -> list N.
Variable pubkey_of : list N -> option (list N).
Variable sign : list N -> list N -> list N -> option (list N).
Variable verify : list N -> list N -> list N -> bool.
Variable pubkey_parses : list N -> bool.
Variable printr : json -> list N.
Variable parse : list N -> option json.
Hypothesis CO : crypto_ok sha256 pubkey_of sign verify pubkey_parses.
Hypothesis CL : c_library printr parse.
(** The creation time is printed with the characters of a number. *)
Hypothesis NC : forall z, Forall (fun c => num_char c = true) (num z).
Notation ser := (serialize_with num).
Notation Accepted lim parse_pk ahead l := (accepted (fun s => client_read printr parse lim (parse s)) (fun e now now2 => validate_full ser sha256 verify pubkey_parses parse_pk e ahead now now2) l).
Definition arrives (ahead : Z) (a : arrival) : Prop := clocks ahead a /\ cstr_ok (ar_text a).
Lemma read_ok lim s e : cstr_ok s -> client_read printr parse lim (parse s) = ROk (CEvent e) -> event_ok e.
Proof.
  intros S R. apply C100_exact in R as (js & P & T). apply (cl_parse _ _ CL _ _ S) in P. inversion T as [k more e' EI| | | |]; subst. apply c_arr in P. apply Forall_inv_tail, Forall_inv in P.
  exact (C21_well_formed_text _ _ _ _ _ CL (cl_print _ _ CL _ P) EI).
Qed.
Lemma accepted_ok lim parse_pk ahead l e : Forall (arrives ahead) l -> In e (Accepted lim parse_pk ahead l) -> event_ok e /\ signed ser sha256 verify e.
Proof.
  intros F I. apply in_flat_map in I as (a & A & I). rewrite Forall_forall in F. destruct (F a A) as (C & S).
  destruct (accept _ _ a) as [x|] eqn:E; [|destruct I]. destruct I as [->|[]]. apply (accept_iff num sha256 pubkey_of sign verify pubkey_parses parse_pk printr parse lim ahead CO a e C) in E as (R & _ & _ & SG & _).
  split; [exact (read_ok _ _ _ S R)|exact SG].
Qed.
(** Events that were accepted anywhere and have one id are one event, or SHA-256 has
    collided; in a build whose print of the creation time tells the times apart. *)
Theorem C167_ids : forall lim parse_pk ahead la lim' parse_pk' ahead' lb, Forall (arrives ahead) la -> Forall (arrives ahead') lb ->
  let l := Accepted lim parse_pk ahead la ++ Accepted lim' parse_pk' ahead' lb in
  (forall x y, In x l -> In y l -> num (ev_created x) = num (ev_created y) -> ev_created x = ev_created y) ->
  Forall id32 l /\ (ids_name l \/ exists a b, a <> b /\ sha256 a = sha256 b).
Proof.
  intros lim parse_pk ahead la lim' parse_pk' ahead' lb FA FB l NI.
  assert (OK : forall e, In e l -> event_ok e /\ signed ser sha256 verify e) by (intros e I; unfold l in I; apply in_app_or in I as [I|I]; [exact (accepted_ok _ _ _ _ _ FA I)|exact (accepted_ok _ _ _ _ _ FB I)]).
  split; [apply Forall_forall; intros e I; exact (proj1 (eo_id _ (proj1 (OK e I))))|].
  clearbody l. clear FA FB.
  assert (D : forall x, In x l -> (forall y, In y l -> ev_id x = ev_id y -> same_fields x y) \/ exists a b : list N, a <> b /\ sha256 a = sha256 b).
  2:{ assert (E : forall m, (forall x, In x m -> In x l) -> (forall x y, In x m -> In y l -> ev_id x = ev_id y -> same_fields x y) \/ exists a b : list N, a <> b /\ sha256 a = sha256 b).
      { induction m as [|x m IH]; intros IN; [left; intros x y []|]. destruct IH as [IH|IH]; [intros z Z; apply IN; right; exact Z| |right; exact IH]. destruct (D x (IN x (or_introl eq_refl))) as [DX|DX]; [|right; exact DX].
        left. intros z y [<-|Z] Y; [apply DX, Y|apply IH; assumption]. }
      destruct (E l (fun x X => X)) as [Q|Q]; [left; exact Q|right; exact Q]. }
  intros x X.
  assert (E : forall m, (forall y, In y m -> In y l) -> (forall y, In y m -> ev_id x = ev_id y -> same_fields x y) \/ exists a b : list N, a <> b /\ sha256 a = sha256 b).
  { induction m as [|y m IH]; intros IN; [left; intros y []|]. destruct IH as [IH|IH]; [intros z Z; apply IN; right; exact Z| |right; exact IH].
    pose proof (IN y (or_introl eq_refl)) as Y. destruct (OK x X) as (OX & SX & _). destruct (OK y Y) as (OY & SY & _).
    destruct (list_eq_dec N.eq_dec (ser x) (ser y)) as [S|S].
    - left. intros z [<-|Z]; [|apply IH, Z]. intros _. apply serialize_inj in S as (S1 & S2 & S3 & S4 & S5); [|exact OX|exact OY|apply NC|apply NC]. pose proof (NI x y X Y S2). repeat split; assumption.
    - destruct (list_eq_dec N.eq_dec (ev_id x) (ev_id y)) as [Q|Q]; [right; exists (ser x), (ser y); split; [exact S|congruence]|].
      left. intros z [<-|Z]; [contradiction|apply IH, Z]. }
  destruct (E l (fun y Y => Y)) as [Q|Q]; [left; exact Q|right; exact Q].
Qed.
(** Two relays, each with limits and clocks of its own, that accepted the same ids,
    hold the same events, whatever texts brought them, in whatever order and however
    often; or SHA-256 has collided. *)
Theorem C167_relays : forall lim parse_pk ahead la lim' parse_pk' ahead' lb, Forall (arrives ahead) la -> Forall (arrives ahead') lb ->
  let A := Accepted lim parse_pk ahead la in let B := Accepted lim' parse_pk' ahead' lb in
  (forall x y, In x (A ++ B) -> In y (A ++ B) -> num (ev_created x) = num (ev_created y) -> ev_created x = ev_created y) ->
  (forall i, In i (map ev_id A) <-> In i (map ev_id B)) ->
  (forall t, In t (keep_all A) -> exists t', In t' (keep_all B) /\ ev_id t' = ev_id t /\ same_fields t' t) \/ exists a b, a <> b /\ sha256 a = sha256 b.
Proof.
  intros lim parse_pk ahead la lim' parse_pk' ahead' lb FA FB A B NI SAME. destruct (C167_ids lim parse_pk ahead la lim' parse_pk' ahead' lb FA FB NI) as (F & [N|C]); [|right; exact C]. left.
  fold A B in F, N. clearbody A B. apply Forall_app in F as (F1 & F2). apply C167_agree; [exact F1|exact F2|exact N| |].
  - intros e I. apply (in_map ev_id), SAME, in_map_iff in I as (e' & E & I). eauto.
  - intros e I. apply (in_map ev_id), SAME, in_map_iff in I as (e' & E & I). eauto.
Qed.
End Arrive.

(** *** A concrete run: two versions of a profile, a note and a typing notice *)
Definition rp_old : event := st_signed toy_key 0 1600000000 [[bs "a"]].
Definition rp_new : event := st_signed toy_key 0 1600000005 [[bs "a"; bs "b"]].
Definition rp_notice : event := st_signed toy_key 20001 1600000003 [[bs "a"; bs "b"; bs "c"]].
Definition rp_accepted (l : list event) : list event :=
  accepted (fun s => client_read jprint jparse None (jparse s)) (fun e now now2 => validate_full serialize_own GiftWrapProps.toy_sha st_sver (fun _ => true) true e 900 now now2) (map st_at l).
Example C167_meets :
  Forall (arrives 900) (map st_at [rp_old; st_note; rp_notice; rp_new]) /\
  map ev_id (keep_all (rp_accepted [rp_old; st_note; rp_notice; rp_new])) = [ev_id rp_new; ev_id st_note] /\
  map ev_id (keep_all (rp_accepted [rp_new; rp_notice; rp_old; rp_new; st_note; rp_old])) = [ev_id st_note; ev_id rp_new].
Proof.
  split; [|split; vm_compute; reflexivity]. 
  repeat (apply Forall_cons; [split; [split; cbn; lia|apply cstr_dec; vm_compute; reflexivity]|]). apply Forall_nil.
Qed.
(** It matters that deletion requests are remembered: two relays that take away what
    a request lists when it comes (C165) accept the same texts in another order and
    hold different events. *)
Definition deletion_agrees : Prop := forall num sha256 pubkey_of sign verify pubkey_parses parse_pk printr parse limr ahead la lb e,
  crypto_ok sha256 pubkey_of sign verify pubkey_parses -> json_library printr parse -> Forall (clocks ahead) la -> Permutation la lb ->
  let After := store_after (fun s => client_read printr parse limr (parse s)) (fun e now now2 => validate_full (serialize_with num) sha256 verify pubkey_parses parse_pk e ahead now now2) in
  In e (After [] la) -> In e (After [] lb).
Theorem C167_deletion_refuted : ~ deletion_agrees.
Proof.
  intros H. specialize (H dec_Z GiftWrapProps.toy_sha toy_pub st_sign st_sver (fun _ => true) true jprint jparse None 900%Z [st_at st_request; st_at st_note] [st_at st_note; st_at st_request] (st_read st_note) st_crypto compact_library
    (st_clocks [st_request; st_note]) (perm_swap _ _ _)). cbv zeta in H.
  assert (A : In (st_read st_note) (st_after [] [st_at st_request; st_at st_note])) by (vm_compute; left; reflexivity).
  specialize (H A). vm_compute in H. destruct H as [H|[]]. discriminate H.
Qed.
Print Assumptions C167_exact.
Print Assumptions C167_agree.
Print Assumptions C167_ids.
Print Assumptions C167_relays.
Print Assumptions C167_meets.
Print Assumptions C167_deletion_refuted.
