(** Life of a relay object: C59. *)
From Verif Require Import Base BaseFacts RelayLife RelayLifeSpec.
From Coq Require Import Lia FinFun.

Lemma in_remove_iff x o l : In o (remove obj_dec x l) <-> In o l /\ o <> x.
Proof. split; [apply in_remove|intros [A B]; apply in_in_remove; assumption]. Qed.
Lemma is_live_in o w : In o (w_live w) -> is_live o w = true.
Proof. intros I. unfold is_live. destruct (in_dec _ _ _); [reflexivity|contradiction]. Qed.
Lemma use_in o w : In o (w_live w) -> use o w = Ok w.
Proof. intros I. unfold use. rewrite is_live_in by exact I. reflexivity. Qed.
Lemma free_in o w : In o (w_live w) -> free o w = Ok (mkWorld (remove obj_dec o (w_live w)) (w_next w) (w_relay w) (w_ctx w) (w_wsi w)).
Proof. intros I. unfold free. rewrite is_live_in by exact I. reflexivity. Qed.
Lemma upd_same {A} (f : nat -> A) i x : upd f i x i = x.
Proof. unfold upd. rewrite Nat.eqb_refl. reflexivity. Qed.
Lemma upd_other {A} (f : nat -> A) i x j : i <> j -> upd f i x j = f j.
Proof. intros D. unfold upd. apply Nat.eqb_neq in D. rewrite D. reflexivity. Qed.
Lemma free_all_ok : forall os w, NoDup os -> (forall o, In o os -> In o (w_live w)) ->
  exists l, free_all os w = Ok (mkWorld l (w_next w) (w_relay w) (w_ctx w) (w_wsi w)) /\
  forall o, In o l <-> In o (w_live w) /\ ~ In o os.
Proof.
  induction os as [|x os IH]; intros w ND A.
  - exists (w_live w). split; [destruct w; reflexivity|]. intros o. cbn [In]. tauto.
  - inversion ND as [|? ? X ND']; subst. cbn [free_all]. rewrite free_in by (apply A; left; reflexivity). cbn [bind].
    destruct (IH (mkWorld (remove obj_dec x (w_live w)) (w_next w) (w_relay w) (w_ctx w) (w_wsi w)) ND') as (l & E & L).
    { intros o O. cbn [w_live]. apply in_remove_iff. split; [apply A; right; exact O|intros ->; contradiction]. }
    cbn [w_live w_next w_relay w_ctx w_wsi] in *. exists l. split; [exact E|]. intros o. rewrite L, in_remove_iff. cbn [In].
    split; [intros [[P Q] R]; split; [exact P|intros [Z|Z]; [congruence|exact (R Z)]]|intros [P Q]; split; [split; [exact P|intros ->; apply Q; auto]|auto]].
Qed.

Lemma nodup_left {A} (a b : list A) : NoDup (a ++ b) -> NoDup a.
Proof.
  induction a as [|x a IH]; intros H; [constructor|]. cbn [app] in H. inversion H as [|? ? X Y]; subst.
  constructor; [intros Z; apply X; apply in_or_app; left; exact Z|exact (IH Y)].
Qed.
Definition blocks (x : ctxrec) : list nat := c_cells x ++ match c_buf x with Some k => [k] | None => [] end.
Definition owned (r : nat) (w : world) (link : option nat) : list obj :=
  ORelay r :: OUrl r ::
  match link with Some n => OCtx n :: OLws n :: OThread n :: map OCell (blocks (w_ctx w n)) | None => [] end.
(** What holds between the calls of a careful application *)
Definition inv (r : nat) (p : phase) (w : world) (link : option nat) : Prop :=
  (p = Open <-> link <> None) /\
  (forall o, In o (w_live w) <-> In o (owned r w link)) /\
  match link with
  | Some n => r_ws (w_relay w r) = Some n /\ c_context (w_ctx w n) = Some n /\ c_thread (w_ctx w n) = true /\
              NoDup (blocks (w_ctx w n)) /\ (n < w_next w)%nat /\ Forall (fun k => (k < w_next w)%nat) (blocks (w_ctx w n))
  | None => busy (r_state (w_relay w r)) = false /\ (p = Idle -> r_ws (w_relay w r) = None)
  end /\
  (forall n r', w_wsi w n = Some r' -> r' = r /\ link = Some n) /\
  (r < w_next w)%nat /\
  (r_state (w_relay w r) = RConnected -> forall n, link = Some n -> w_wsi w n = Some r).

Ltac fld := cbn [w_live w_next w_relay w_ctx w_wsi fresh alloc set_relay set_ctx set_wsi set_state set_ws r_state r_ws c_context c_thread c_reconnect c_cells c_buf fst snd].
Ltac fld_in H := cbn [w_live w_next w_relay w_ctx w_wsi fresh alloc set_relay set_ctx set_wsi set_state set_ws r_state r_ws c_context c_thread c_reconnect c_cells c_buf fst snd] in H.
Ltac liv L := repeat (rewrite in_remove_iff || (fld; cbn [In]) || rewrite L); unfold owned; cbn [In].

Lemma lws_destroy_quiet n e w : In (OLws n) (w_live w) -> w_wsi w n = None ->
  lws_destroy n e w = Ok (mkWorld (remove obj_dec (OLws n) (w_live w)) (w_next w) (w_relay w) (w_ctx w) (w_wsi w)).
Proof. intros I W. unfold lws_destroy. rewrite use_in by exact I. cbn [bind]. unfold closing. rewrite W. cbn [bind]. apply free_in. exact I. Qed.

Lemma disconnect_inv r w n p : inv r p w (Some n) ->
  exists w', disconnect false r w = Ok (w', Ok tt) /\ inv r Idle w' None.
Proof.
  intros (P & L & (WS & CX & TH & ND & LT & LC) & WI & RN & ST).
  unfold disconnect. rewrite use_in by (apply L; left; reflexivity). cbn [bind]. rewrite WS.
  rewrite use_in by (apply L; unfold owned; cbn [In]; auto). cbn [bind]. rewrite TH. cbn [andb negb].
  rewrite free_in by (fld; apply L; unfold owned; cbn [In]; auto 6). cbn [bind]. fld. rewrite CX.
  (* the library context *)
  assert (D : exists l rel wsi, lws_destroy n false
      (mkWorld (remove obj_dec (OThread n) (w_live w)) (w_next w) (w_relay w)
               (upd (w_ctx w) n (mkCtx None true false (c_cells (w_ctx w n)) (c_buf (w_ctx w n)))) (w_wsi w)) =
      Ok (mkWorld l (w_next w) rel (upd (w_ctx w) n (mkCtx None true false (c_cells (w_ctx w n)) (c_buf (w_ctx w n)))) wsi) /\
      (forall o, In o l <-> In o (w_live w) /\ o <> OThread n /\ o <> OLws n) /\
      (forall m, wsi m = None)).
  { unfold lws_destroy. rewrite use_in by (liv L; intuition congruence). cbn [bind]. unfold closing. fld.
    destruct (w_wsi w n) as [r'|] eqn:W.
    - destruct (WI _ _ W) as [-> _]. rewrite use_in by (liv L; intuition congruence). cbn [bind]. fld. rewrite WS.
      rewrite use_in by (liv L; intuition congruence). cbn [bind]. fld. rewrite upd_same. fld. cbn [andb bind].
      rewrite use_in by (liv L; intuition congruence). cbn [bind].
      rewrite free_in by (liv L; intuition congruence). fld.
      eexists _, _, _. split; [reflexivity|]. split.
      + intros o. rewrite !in_remove_iff. tauto.
      + intros m. destruct (Nat.eq_dec n m) as [<-|D]; [apply upd_same|rewrite upd_other by exact D].
        destruct (w_wsi w m) as [r'|] eqn:Wm; [|reflexivity]. destruct (WI _ _ Wm) as [_ Z]. congruence.
    - cbn [bind]. rewrite free_in by (liv L; intuition congruence). fld.
      eexists _, _, _. split; [reflexivity|]. split.
      + intros o. rewrite !in_remove_iff. tauto.
      + intros m. destruct (w_wsi w m) as [r'|] eqn:Wm; [|reflexivity]. destruct (WI _ _ Wm) as [_ Z]. congruence. }
  destruct D as (l & rel & wsi & -> & Ll & NW). cbn [bind]. fld. rewrite upd_same. fld.
  assert (CELL : forall k, In k (blocks (w_ctx w n)) -> In (OCell k) l).
  { intros k K. apply Ll. split; [|split; discriminate]. apply L. unfold owned. cbn [In]. do 5 right. apply in_map. exact K. }
  unfold blocks in *.
  match goal with |- context [free_all ?os ?w0] => destruct (free_all_ok os w0) as (l2 & E2 & L2) end.
  { apply Injective_map_NoDup; [intros a b Z; congruence|]. apply nodup_left in ND. exact ND. }
  { intros o O. apply in_map_iff in O. destruct O as (k & <- & K). fld. apply CELL. apply in_or_app. left. exact K. }
  rewrite E2. cbn [bind]. fld. fld_in L2. rewrite upd_same. fld.
  assert (B : exists l3, (match c_buf (w_ctx w n) with
     | Some k => free (OCell k) (mkWorld l2 (w_next w) rel (upd (w_ctx w) n (mkCtx None true false (c_cells (w_ctx w n)) (c_buf (w_ctx w n)))) wsi)
     | None => Ok (mkWorld l2 (w_next w) rel (upd (w_ctx w) n (mkCtx None true false (c_cells (w_ctx w n)) (c_buf (w_ctx w n)))) wsi) end) =
     Ok (mkWorld l3 (w_next w) rel (upd (w_ctx w) n (mkCtx None true false (c_cells (w_ctx w n)) (c_buf (w_ctx w n)))) wsi) /\
     forall o, In o l3 <-> In o (w_live w) /\ o <> OThread n /\ o <> OLws n /\ ~ In o (map OCell (blocks (w_ctx w n)))).
  { destruct (c_buf (w_ctx w n)) as [k|] eqn:Eb.
    - rewrite free_in.
      + eexists. split; [fld; reflexivity|]. intros o. fld. rewrite in_remove_iff, L2, Ll. unfold blocks. rewrite Eb, map_app, in_app_iff. cbn [map In]. intuition congruence.
      + fld. apply L2. split; [apply CELL; apply in_or_app; right; left; reflexivity|].
        intros Z. apply in_map_iff in Z. destruct Z as (k' & Ek & K'). injection Ek as ->.
        apply NoDup_remove_2 in ND. apply ND. rewrite app_nil_r. exact K'.
    - eexists. split; [reflexivity|]. intros o. rewrite L2, Ll. unfold blocks. rewrite Eb, app_nil_r. tauto. }
  destruct B as (l3 & E3 & L3). rewrite E3. cbn [bind].
  rewrite free_in.
  2:{ fld. apply L3. split; [apply L; unfold owned; cbn [In]; auto|]. repeat (split; [discriminate|]). intros Z. apply in_map_iff in Z. destruct Z as (? & ? & _). discriminate. }
  cbn [bind]. fld. eexists. split; [reflexivity|].
  split; [split; congruence|]. split.
  { intros o. fld. rewrite in_remove_iff, L3, L. unfold owned. cbn [In]. fold (blocks (w_ctx w n)).
    split; [intros ((Z & Z1 & Z2 & Z3) & Z4)|intros Z].
    - destruct Z as [Z|[Z|[Z|[Z|[Z|Z]]]]]; auto; congruence.
    - destruct Z as [<-|[<-|[]]]; (split; [|discriminate]); (split; [auto|]); repeat (split; [discriminate|]); intros Z; apply in_map_iff in Z; destruct Z as (? & ? & _); discriminate. }
  split; [fld; rewrite upd_same; split; reflexivity|]. split; [|split; [exact RN|discriminate]].
  intros m r' Z. fld_in Z. rewrite NW in Z. discriminate.
Qed.

Lemma owned_lt r w p link o : inv r p w link -> In o (w_live w) ->
  match o with OLws n | OCopy n | OCtx n | OThread n => (n < w_next w)%nat | OCell k => (k < w_next w)%nat | _ => True end.
Proof.
  intros (P & L & M & WI & RN & ST) I. apply L in I. unfold owned in I. cbn [In] in I.
  destruct I as [<-|[<-|I]]; [exact Logic.I|exact Logic.I|]. destruct link as [n|]; [|contradiction].
  destruct M as (_ & _ & _ & _ & LT & LC). cbn [In] in I. destruct I as [<-|[<-|[<-|I]]]; try exact LT.
  apply in_map_iff in I. destruct I as (k & <- & K). rewrite Forall_forall in LC. apply LC. exact K.
Qed.
Ltac triv := fld; cbn [In]; intuition congruence.
Lemma connect_inv r w p link o : inv r p w link -> o_dup o = true ->
  (p = Open -> r_state (w_relay w r) = RConnected \/ r_state (w_relay w r) = RConnecting) ->
  exists w' res link', connect r o w = Ok (w', res) /\ inv r (after p (Connect o) res) w' link'.
Proof.
  intros IN DUP BUSY. pose proof IN as (P & L & M & WI & RN & ST).
  unfold connect. rewrite use_in by (apply L; left; reflexivity). cbn [bind].
  destruct link as [n0|].
  { assert (B : busy (r_state (w_relay w r)) = true).
    { destruct (BUSY (proj2 P ltac:(discriminate))) as [-> | -> ]; reflexivity. }
    rewrite B. exists w, (Err EConnection), (Some n0). split; [reflexivity|].
    assert (PO : p = Open) by (apply P; discriminate). subst p. exact IN. }
  destruct M as [B ID]. rewrite B. destruct (o_context o); cbn [negb].
  2:{ exists w, (Err EConnection), None. split; [reflexivity|]. cbn [after].
      assert (p <> Open) by (intros Z; apply P in Z; congruence).
      assert (K : inv r Failed w None).
      { split; [split; congruence|]. split; [exact L|]. split; [split; [exact B|discriminate]|]. split; [exact WI|split; [exact RN|discriminate]]. }
      destruct p; [exact K|exact K|congruence]. }
  set (n := w_next w).
  assert (FR : forall o, In o (w_live w) -> o = ORelay r \/ o = OUrl r).
  { intros o' O. apply L in O. unfold owned in O. cbn [In] in O. intuition. }
  assert (HR : In (ORelay r) (w_live w)) by (apply L; left; reflexivity).
  assert (HU : In (OUrl r) (w_live w)) by (apply L; right; left; reflexivity).
  rewrite use_in by (fld; right; exact HU). cbn [bind]. rewrite DUP. cbn [negb].
  assert (NP : p <> Open) by (intros Z; apply P in Z; congruence).
  assert (AF : forall e, after p (Connect o) (Err e) = Failed) by (intros e; destruct p; [reflexivity|reflexivity|congruence]).
  (* all failures: the same objects as before *)
  assert (FAIL : forall l rel ctx wsi e, (forall x, In x l <-> In x (w_live w)) -> busy (r_state (rel r)) = false ->
            (forall m, wsi m = upd (w_wsi w) n None m) ->
            inv r (after p (Connect o) (Err e)) (mkWorld l (S n) rel ctx wsi) None).
  { intros l rel ctx wsi e EL EB EW. rewrite AF. split; [split; congruence|]. split; [intros x; fld; rewrite EL; apply L|].
    split; [split; [exact EB|discriminate]|]. split; [|split; [fld; unfold n; lia|discriminate]].
    intros m r' Z. fld_in Z. rewrite EW in Z. destruct (Nat.eq_dec n m) as [<-|D]; [rewrite upd_same in Z; discriminate|].
    rewrite upd_other in Z by exact D. apply WI in Z. exact Z. }
  assert (NW : forall x, In x (w_live w) -> x <> OCopy n /\ x <> OLws n /\ x <> OCtx n /\ x <> OThread n).
  { intros x X. destruct (FR x X) as [-> | -> ]; repeat split; discriminate. }
  destruct (o_scheme o); cbn [negb].
  2:{ rewrite free_in by triv. cbn [bind]. rewrite lws_destroy_quiet; [|fld; rewrite in_remove_iff; triv|fld; apply upd_same]. cbn [bind]. fld.
      eexists _, _, None. split; [reflexivity|]. apply FAIL; [|exact B|reflexivity].
      intros x. fld. rewrite !in_remove_iff. cbn [In]. specialize (NW x). intuition congruence. }
  destruct (o_calloc o); cbn [negb].
  2:{ rewrite free_in by triv. cbn [bind]. rewrite lws_destroy_quiet; [|fld; rewrite in_remove_iff; triv|fld; apply upd_same]. cbn [bind]. fld.
      eexists _, _, None. split; [reflexivity|]. apply FAIL; [|exact B|reflexivity].
      intros x. fld. rewrite !in_remove_iff. cbn [In]. specialize (NW x). intuition congruence. }
  destruct (o_mutex o); cbn [negb].
  2:{ rewrite free_in by triv. cbn [bind]. rewrite free_in by (fld; rewrite in_remove_iff; triv). cbn [bind].
      rewrite lws_destroy_quiet; [|fld; rewrite !in_remove_iff; triv|fld; apply upd_same]. cbn [bind]. fld.
      eexists _, _, None. split; [reflexivity|]. apply FAIL; [|rewrite upd_same; reflexivity|reflexivity].
      intros x. fld. rewrite !in_remove_iff. cbn [In]. specialize (NW x). intuition congruence. }
  destruct (o_wsi o); cbn [negb].
  2:{ rewrite free_in by triv. cbn [bind]. rewrite free_in by (fld; rewrite in_remove_iff; triv). cbn [bind].
      rewrite lws_destroy_quiet; [|fld; rewrite !in_remove_iff; triv|fld; apply upd_same]. cbn [bind]. fld.
      eexists _, _, None. split; [reflexivity|]. apply FAIL; [|rewrite upd_same; reflexivity|reflexivity].
      intros x. fld. rewrite !in_remove_iff. cbn [In]. specialize (NW x). intuition congruence. }
  rewrite free_in by triv. cbn [bind].
  destruct (o_thread o); cbn [negb].
  - eexists _, _, (Some n). split; [reflexivity|]. cbn [after]. split; [split; [discriminate|reflexivity]|].
    split.
    { intros x. unfold owned. fld. rewrite upd_same. unfold blocks. fld. cbn [app map In]. rewrite in_remove_iff. cbn [In].
      specialize (NW x). rewrite L in *. unfold owned in *. cbn [In] in *. intuition congruence. }
    fld. rewrite !upd_same. unfold blocks. fld. cbn [app].
    split; [split; [reflexivity|split; [reflexivity|split; [reflexivity|split; [constructor|split; [unfold n; lia|constructor]]]]]|].
    split; [|split; [unfold n; lia|discriminate]].
    intros m r' Z. destruct (Nat.eq_dec n m) as [<-|D]; [rewrite upd_same in Z; split; congruence|].
    rewrite !upd_other in Z by exact D. apply WI in Z. destruct Z as [_ Z]. discriminate.
  - unfold lws_destroy. rewrite use_in by (fld; rewrite in_remove_iff; triv). cbn [bind]. unfold closing. fld. rewrite upd_same.
    rewrite use_in by (fld; rewrite in_remove_iff; triv). cbn [bind]. fld. rewrite upd_same. fld. cbn [bind].
    rewrite use_in by (fld; rewrite in_remove_iff; triv). cbn [bind].
    rewrite free_in by (fld; rewrite in_remove_iff; triv). cbn [bind]. rewrite free_in by (fld; rewrite !in_remove_iff; triv). cbn [bind]. fld.
    eexists _, _, None. split; [reflexivity|]. apply FAIL; [|rewrite upd_same; reflexivity|].
    + intros x. fld. rewrite !in_remove_iff. cbn [In]. specialize (NW x). intuition congruence.
    + intros m. fld. destruct (Nat.eq_dec n m) as [<-|D]; [rewrite !upd_same; reflexivity|rewrite !upd_other by exact D; reflexivity].
Qed.
Lemma inv_state r p w n s : inv r p w (Some n) -> (s = RConnected -> w_wsi w n = Some r) -> inv r p (set_state r s w) (Some n).
Proof.
  intros (P & L & (WS & CX & TH & ND & LT & LC) & WI & RN & ST) SC. split; [exact P|]. split; [exact L|].
  split; [fld; rewrite upd_same; fld; repeat (split; [assumption|]); assumption|]. split; [assumption|]. split; [assumption|].
  fld. rewrite upd_same. fld. intros X m Em. injection Em as <-. exact (SC X).
Qed.
Lemma inv_wsi r p w n m : inv r p w (Some n) -> r_state (w_relay w r) <> RConnected -> inv r p (set_wsi m None w) (Some n).
Proof.
  intros (P & L & (WS & CX & TH & ND & LT & LC) & WI & RN & ST) SC. split; [exact P|]. split; [exact L|].
  split; [repeat (split; [assumption|]); assumption|]. split; [|split; [assumption|intros X; contradiction]].
  intros k r' Z. fld_in Z. destruct (Nat.eq_dec m k) as [<-|D]; [rewrite upd_same in Z; discriminate|].
  rewrite upd_other in Z by exact D. apply WI. exact Z.
Qed.
(** Replacing the blocks of the connection: [gone] are released, [k] is new *)
Lemma inv_cells r p w n l x ks : inv r p w (Some n) ->
  c_context x = Some n -> c_thread x = true -> blocks x = ks ->
  NoDup ks -> Forall (fun k => (k <= w_next w)%nat) ks ->
  (forall o, In o l <-> In o (ORelay r :: OUrl r :: OCtx n :: OLws n :: OThread n :: map OCell ks)) ->
  inv r p (mkWorld l (S (w_next w)) (w_relay w) (upd (w_ctx w) n x) (w_wsi w)) (Some n).
Proof.
  intros (P & L & (WS & CX & TH & ND & LT & LC) & WI & RN & ST) X1 X2 X3 X4 X5 X6. split; [exact P|].
  split. { intros o. fld. rewrite X6. unfold owned. fld. rewrite upd_same, X3. cbn [In]. tauto. }
  fld. rewrite upd_same, X3. split.
  { repeat (split; [assumption|]). split; [lia|]. eapply Forall_impl; [|exact X5]. cbv beta. intros; lia. }
  split; [exact WI|split; [lia|exact ST]].
Qed.
Lemma inv_cells' r p w n l x ks : inv r p w (Some n) ->
  c_context x = Some n -> c_thread x = true -> blocks x = ks ->
  NoDup ks -> Forall (fun k => (k < w_next w)%nat) ks ->
  (forall o, In o l <-> In o (ORelay r :: OUrl r :: OCtx n :: OLws n :: OThread n :: map OCell ks)) ->
  inv r p (mkWorld l (w_next w) (w_relay w) (upd (w_ctx w) n x) (w_wsi w)) (Some n).
Proof.
  intros (P & L & (WS & CX & TH & ND & LT & LC) & WI & RN & ST) X1 X2 X3 X4 X5 X6. split; [exact P|].
  split. { intros o. fld. rewrite X6. unfold owned. fld. rewrite upd_same, X3. cbn [In]. tauto. }
  fld. rewrite upd_same, X3. split.
  { repeat (split; [assumption|]). assumption. }
  split; [exact WI|split; [lia|exact ST]].
Qed.
Lemma nodup_snoc {A} (a : list A) x : NoDup a -> ~ In x a -> NoDup (a ++ [x]).
Proof.
  intros N X. apply NoDup_rev in N. rewrite <- (rev_involutive (a ++ [x])). apply NoDup_rev. rewrite rev_app_distr. cbn [rev app].
  constructor; [rewrite <- in_rev; exact X|exact N].
Qed.
Lemma service_inv r p w link n e : inv r p w link -> (forall el i, e = SClosed el i -> i = INone) ->
  exists w', service n e w = Ok w' /\ inv r p w' link.
Proof.
  intros IN NI. pose proof IN as (P & L & M & WI & RN & ST). unfold service.
  destruct (is_live (OThread n) w) eqn:T; cbn [negb]. 2:{ exists w. auto. }
  assert (LK : link = Some n).
  { unfold is_live in T. destruct (in_dec obj_dec (OThread n) (w_live w)) as [I|]; [|discriminate]. apply L in I. unfold owned in I. cbn [In] in I.
    destruct I as [I|[I|I]]; try discriminate. destruct link as [m|]; [|contradiction]. cbn [In] in I.
    destruct I as [I|[I|[I|I]]]; try discriminate; [congruence|]. apply in_map_iff in I. destruct I as (? & ? & _). discriminate. }
  subst link. destruct M as (WS & CX & TH & ND & LT & LC).
  assert (HC : In (OCtx n) (w_live w)) by (apply L; unfold owned; cbn [In]; auto).
  assert (HR : In (ORelay r) (w_live w)) by (apply L; unfold owned; cbn [In]; auto).
  rewrite use_in by exact HC. cbn [bind].
  destruct (w_wsi w n) as [r'|] eqn:W.
  2:{ exists w. destruct e; auto. }
  destruct (WI _ _ W) as [-> _].
  destruct e as [| |grow|el i].
  - exists w. auto.
  - rewrite use_in by exact HR. cbn [bind]. rewrite WS, use_in by exact HC. cbn [bind].
    eexists. split; [reflexivity|]. apply inv_state; [exact IN|intros _; exact W].
  - rewrite use_in by exact HR. cbn [bind]. rewrite WS, use_in by exact HC. cbn [bind].
    destruct grow; cbn [negb]. 2:{ exists w. auto. }
    assert (FRESH : ~ In (w_next w) (c_cells (w_ctx w n))).
    { intros K. rewrite Forall_forall in LC. unfold blocks in LC. specialize (LC _ (in_or_app _ _ _ (or_introl K))). lia. }
    assert (NC : NoDup (c_cells (w_ctx w n))) by (apply nodup_left in ND; exact ND).
    assert (LB : Forall (fun k => (k <= w_next w)%nat) (c_cells (w_ctx w n) ++ [w_next w])).
    { apply Forall_app in LC. destruct LC as [LC _]. apply Forall_app.
      split; [eapply Forall_impl; [|exact LC]; cbv beta; intros; lia|constructor; [lia|constructor]]. }
    destruct (c_buf (w_ctx w n)) as [k|] eqn:Eb.
    + rewrite free_in. 2:{ apply L. unfold owned, blocks. rewrite Eb, map_app. cbn [In map]. do 5 right. apply in_or_app. right. left. reflexivity. }
      cbn [bind]. fld. eexists. split; [reflexivity|]. fld.
      apply (inv_cells r p w n _ _ (c_cells (w_ctx w n) ++ [w_next w]) IN); [exact CX|exact TH|reflexivity| | | ].
      * apply nodup_snoc; assumption.
      * exact LB.
      * intros o. fld. rewrite map_app. cbn [In map]. rewrite in_app_iff, in_remove_iff, L. unfold owned, blocks. rewrite Eb, map_app. cbn [In map]. rewrite in_app_iff. cbn [In].
        assert (KN : In o (map OCell (c_cells (w_ctx w n))) -> o <> OCell k).
        { intros Z ->. apply in_map_iff in Z. destruct Z as (k' & Ek & K). injection Ek as ->.
          unfold blocks in ND. rewrite Eb in ND. apply NoDup_remove_2 in ND. apply ND. rewrite app_nil_r. exact K. }
        intuition congruence.
    + cbn [bind]. fld. eexists. split; [reflexivity|]. fld.
      apply (inv_cells r p w n _ _ (c_cells (w_ctx w n) ++ [w_next w]) IN); [exact CX|exact TH|reflexivity| | | ].
      * apply nodup_snoc; assumption.
      * exact LB.
      * intros o. fld. rewrite map_app. cbn [In map]. rewrite in_app_iff, L. unfold owned, blocks. rewrite Eb, map_app. cbn [In map]. rewrite in_app_iff. cbn [In].
        intuition congruence.
  - rewrite use_in by exact HR. cbn [bind]. rewrite WS, use_in by exact HC. cbn [bind].
    rewrite (NI el i eq_refl). cbn [bind]. rewrite use_in by exact HC. cbn [bind].
    destruct (c_reconnect _ && el).
    + rewrite use_in by exact HR. cbn [bind]. rewrite use_in by exact HR. cbn [bind].
      eexists. split; [reflexivity|]. apply inv_wsi; [apply inv_state; [apply inv_state; [exact IN|discriminate]|discriminate]|fld; rewrite upd_same; discriminate].
    + cbn [bind]. rewrite use_in by exact HR. cbn [bind].
      eexists. split; [reflexivity|]. apply inv_wsi; [apply inv_state; [exact IN|discriminate]|fld; rewrite upd_same; discriminate].
Qed.

Lemma step_inv r p w link x : inv r p w link -> allowed p (r_state (w_relay w r)) x ->
  exists w' res link', step r x w = Ok (w', res) /\ inv r (after p x res) w' link'.
Proof.
  intros IN AL. pose proof IN as (P & L & M & WI & RN & ST).
  assert (HR : In (ORelay r) (w_live w)) by (apply L; unfold owned; cbn [In]; auto).
  destruct x as [o| | | | |n e]; cbn [step allowed] in *.
  - destruct AL as [D B]. apply connect_inv with (link := link); assumption.
  - destruct link as [n|].
    + destruct (disconnect_inv r w n p IN) as (w' & E & K). exists w', (Ok tt), None. split; [exact E|exact K].
    + unfold disconnect. rewrite use_in by exact HR. cbn [bind].
      assert (PI : p = Idle) by (destruct p; [reflexivity|congruence|exfalso; apply (proj1 P); reflexivity]).
      destruct M as [_ ID]. rewrite (ID PI). exists w, (Err EInvalidParam), None. split; [reflexivity|exact IN].
  - unfold set_callback. rewrite use_in by exact HR. cbn [bind]. destruct link as [n|].
    + destruct M as (WS & _). rewrite WS, use_in by (apply L; unfold owned; cbn [In]; auto). cbn [bind].
      exists w, (Ok tt), (Some n). split; [reflexivity|exact IN].
    + assert (PI : p = Idle) by (destruct p; [reflexivity|congruence|exfalso; apply (proj1 P); reflexivity]).
      destruct M as [_ ID]. rewrite (ID PI). cbn [bind]. exists w, (Ok tt), None. split; [reflexivity|exact IN].
  - unfold add_sub. rewrite use_in by exact HR. cbn [bind]. destruct link as [n|].
    + destruct M as (WS & CX & TH & ND & LT & LC). rewrite WS.
      destruct (r_state (w_relay w r)); try (exists w, (Err EInvalidParam), (Some n); split; [reflexivity|exact IN]).
      rewrite use_in by (apply L; unfold owned; cbn [In]; auto). cbn [bind]. fld. eexists _, _, (Some n). split; [reflexivity|]. cbn [after].
      apply (inv_cells r p w n _ _ (w_next w :: blocks (w_ctx w n)) IN); [exact CX|exact TH|reflexivity| | | ].
      * constructor; [|exact ND]. intros K. rewrite Forall_forall in LC. specialize (LC _ K). lia.
      * constructor; [lia|]. eapply Forall_impl; [|exact LC]. cbv beta. intros; lia.
      * intros o. fld. cbn [In map]. rewrite L. unfold owned. cbn [In]. intuition congruence.
    + destruct M as [B _]. destruct (r_state (w_relay w r)) eqn:S; try discriminate;
        exists w, (Err EInvalidParam), None; (split; [reflexivity|exact IN]).
  - unfold drop_sub. rewrite use_in by exact HR. cbn [bind]. destruct link as [n|].
    + destruct M as (WS & CX & TH & ND & LT & LC). rewrite WS.
      destruct (r_state (w_relay w r)); try (exists w, (Err EInvalidParam), (Some n); split; [reflexivity|exact IN]).
      rewrite use_in by (apply L; unfold owned; cbn [In]; auto). cbn [bind]. fld.
      destruct (c_cells (w_ctx w n)) as [|k ks] eqn:Ec. { exists w, (Ok tt), (Some n). split; [reflexivity|exact IN]. }
      assert (BK : blocks (w_ctx w n) = k :: (ks ++ match c_buf (w_ctx w n) with Some b => [b] | None => [] end))
        by (unfold blocks; rewrite Ec; reflexivity).
      rewrite BK in ND, LC. inversion ND as [|? ? K1 K2]; subst. inversion LC as [|? ? K3 K4]; subst.
      rewrite free_in by (apply L; unfold owned; rewrite BK; cbn [In map]; auto 8). cbn [bind]. fld.
      eexists _, _, (Some n). split; [reflexivity|]. cbn [after].
      apply (inv_cells' r p w n _ _ (ks ++ match c_buf (w_ctx w n) with Some b => [b] | None => [] end) IN); [exact CX|exact TH|reflexivity|exact K2|exact K4|].
      intros o. fld. rewrite in_remove_iff, L. unfold owned. rewrite BK. cbn [In map].
      assert (KN : In o (map OCell (ks ++ match c_buf (w_ctx w n) with Some b => [b] | None => [] end)) -> o <> OCell k).
      { intros Z ->. apply in_map_iff in Z. destruct Z as (k' & Ek & K). injection Ek as ->. contradiction. }
      intuition congruence.
    + destruct M as [B _]. destruct (r_state (w_relay w r)) eqn:S; try discriminate;
        exists w, (Err EInvalidParam), None; (split; [reflexivity|exact IN]).
  - destruct (service_inv r p w link n e IN) as (w' & E & K).
    { intros el i ->. exact AL. }
    rewrite E. cbn [bind]. exists w', (Ok tt), link. split; [reflexivity|exact K].
Qed.
Lemma run_inv r : forall h p w link, inv r p w link -> careful r h p w ->
  exists w' rs p' link', run r h w = Ok (w', rs) /\ inv r p' w' link' /\
  (p' = Open -> r_state (w_relay w' r) = RConnected \/ r_state (w_relay w' r) = RConnecting).
Proof.
  induction h as [|x h IH]; intros p w link IN C.
  - exists w, [], p, link. auto.
  - cbn [careful] in C. destruct C as [AL C]. destruct (step_inv r p w link x IN AL) as (w' & res & link' & E & K).
    cbn [run]. rewrite E. cbn [bind fst snd]. destruct (IH _ _ _ K (C _ _ E)) as (w2 & rs & p2 & l2 & E2 & K2 & B).
    rewrite E2. cbn [bind fst snd]. exists w2, (res :: rs), p2, l2. auto.
Qed.
(** The world after creating a relay *)
Definition created : world := set_relay 0 (mkRelay RDisconnected None) (alloc (OUrl 0) (alloc (ORelay 0) (fresh world0))).
Lemma inv_created : inv 0 Idle created None.
Proof.
  split; [split; congruence|]. split; [intros o; unfold created, owned; fld; cbn [In]; intuition|].
    split; [split; reflexivity|]. split; [discriminate|]. unfold created. fld. unfold world0. fld. split; [lia|discriminate].
Qed.
(** C59: an application that does not touch the relay after a failed connect
    (except to connect again or destroy it), disconnects after a remote close
    before connecting or destroying, and leaves the object alone inside call-backs,
    uses no block after release, releases none twice and leaks none, in any order
    of calls and socket events. *)
Theorem C59_careful_partial : forall h later, careful 0 h Idle created ->
  exists w, life h later = Ok w /\ w_live w = [].
Proof.
  intros h later C. pose proof inv_created as I0. unfold life, create. cbn [negb w_next world0 bind fst snd]. fold world0. fold created.
  destruct (run_inv 0 h Idle created None I0 C) as (w & rs & p & link & E & K & B). cbn zeta.
  match goal with |- exists w, (do y <- run 0 h ?c; _) = _ /\ _ => change c with created end.
  rewrite E. cbn [bind fst].
  assert (D : exists w', destroy false 0 w = Ok w' /\ w_live w' = []).
  { pose proof K as (P & L & M & WI & RN & ST). unfold destroy.
    rewrite use_in by (apply L; unfold owned; cbn [In]; auto). cbn [bind].
    destruct link as [n|].
    - assert (BB : busy (r_state (w_relay w 0)) = true) by (destruct (B (proj2 P ltac:(discriminate))) as [-> | -> ]; reflexivity).
      rewrite BB. destruct (disconnect_inv 0 w n p K) as (w1 & E1 & (P1 & L1 & _)). rewrite E1. cbn [bind fst].
      rewrite free_in by (apply L1; unfold owned; cbn [In]; auto). cbn [bind].
      rewrite free_in by (fld; rewrite in_remove_iff, L1; unfold owned; cbn [In]; intuition congruence).
      eexists. split; [reflexivity|]. fld. destruct (remove _ _ _) as [|o l] eqn:R; [reflexivity|].
      assert (Z : In o (o :: l)) by (left; reflexivity). rewrite <- R, !in_remove_iff, L1 in Z. unfold owned in Z. cbn [In] in Z. intuition congruence.
    - destruct M as [BB _]. rewrite BB. cbn [bind].
      rewrite free_in by (apply L; unfold owned; cbn [In]; auto). cbn [bind].
      rewrite free_in by (fld; rewrite in_remove_iff, L; unfold owned; cbn [In]; intuition congruence).
      eexists. split; [reflexivity|]. fld. destruct (remove _ _ _) as [|o l] eqn:R; [reflexivity|].
      assert (Z : In o (o :: l)) by (left; reflexivity). rewrite <- R, !in_remove_iff, L in Z. unfold owned in Z. cbn [In] in Z. intuition congruence. }
  destruct D as (w' & D & LV). rewrite D. cbn [bind].
  assert (F : forall later, fold_left (fun a e => do w <- a; service (fst e) (snd e) w) later (Ok w') = Ok w').
  { clear later. induction later as [|[n e] later IH]; [reflexivity|]. cbn [fold_left fst snd bind].
    unfold service at 2. unfold is_live. rewrite LV. destruct (in_dec _ _ _) as [[]|]. cbn [negb]. exact IH. }
  rewrite F. exists w'. auto.
Qed.

(** *** A history that keeps the rules: a failed attempt, a connection closed by
    the relay, another one *)
Definition works : outcome := mkOutcome true true true true true true true.
Definition refused : outcome := mkOutcome true true true true true false true.
Definition good_life : list op :=
  [Connect refused; Connect works; Service 2 SEstablished; Subscribe; Service 2 (SReceive true); Subscribe; Unsubscribe;
   Service 2 (SReceive true); Service 2 (SClosed false INone); Disconnect; SetCallback; Connect works; Service 7 SEstablished; Subscribe].
Ltac careful_step := split; [cbn; intuition (congruence || discriminate)|let X := fresh in intros ? ? X; vm_compute in X; injection X as <- <-; cbv beta iota delta [after]].
Example C59_meets : careful 0 good_life Idle created /\
  (exists w, life good_life [(2%nat, STick); (7%nat, SClosed true INone)] = Ok w /\ w_live w = []) /\
  (exists w rs, run 0 good_life created = Ok (w, rs) /\ length (w_live w) = 6%nat /\
     rs = [Err EConnection; Ok tt; Ok tt; Ok tt; Ok tt; Ok tt; Ok tt; Ok tt; Ok tt; Ok tt; Ok tt; Ok tt; Ok tt; Ok tt]).
Proof.
  split; [|split].
  - unfold good_life. repeat careful_step. intros _. left. reflexivity.
  - eexists. split; vm_compute; reflexivity.
  - eexists _, _. split; [vm_compute; reflexivity|]. split; reflexivity.
Qed.

(** *** Refutations *)
(** A connect call refused by the socket library leaves a dangling handle, so that
    disconnecting touches released memory. *)
Theorem C59_refused_refuted : ~ (forall h, Forall (fun x => match x with Connect o => o_dup o = true | Disconnect => True | _ => False end) h ->
  life h [] <> Undef).
Proof. intros H. apply (H [Connect refused; Disconnect]); [repeat constructor|vm_compute; reflexivity]. Qed.
(** Creation: a failure leaves nothing behind, a success adds exactly the relay
    and its URL, idle and without a connection. *)
Theorem C59_create : forall a1 a2 w, ~ In (ORelay (w_next w)) (w_live w) ->
  exists w' o, create a1 a2 w = Ok (w', o) /\ w_ctx w' = w_ctx w /\ w_wsi w' = w_wsi w /\
  match o with
  | None => (a1 = false \/ a2 = false) /\ w_live w' = w_live w /\ w_relay w' = w_relay w
  | Some r => a1 = true /\ a2 = true /\ r = w_next w /\ w_live w' = OUrl r :: ORelay r :: w_live w /\ (w_next w < w_next w')%nat /\
      w_relay w' r = mkRelay RDisconnected None /\ forall q, q <> r -> w_relay w' q = w_relay w q
  end.
Proof.
  intros a1 a2 w NI. destruct a1; [|exists w, None; cbn; tauto]. unfold create. cbn [negb]. destruct a2; cbn [negb].
  - eexists. eexists. split; [reflexivity|]. cbn. split; [reflexivity|]. split; [reflexivity|]. split; [reflexivity|]. split; [reflexivity|].
    split; [reflexivity|]. split; [reflexivity|]. split; [lia|]. unfold upd. rewrite Nat.eqb_refl. split; [reflexivity|]. intros q NQ.
    destruct (Nat.eqb_spec (w_next w) q); [congruence|reflexivity].
  - unfold free, is_live. cbn [w_live alloc fresh]. destruct (in_dec obj_dec (ORelay (w_next w)) (ORelay (w_next w) :: w_live w)) as [_|K]; [|exfalso; apply K; left; reflexivity].
    cbn [bind]. eexists. eexists. split; [reflexivity|]. cbn [w_ctx w_wsi w_live w_relay alloc fresh]. split; [reflexivity|]. split; [reflexivity|].
    split; [right; reflexivity|]. split; [|reflexivity]. cbn [remove]. destruct (obj_dec (ORelay (w_next w)) (ORelay (w_next w))) as [_|K]; [|congruence].
    apply notin_remove, NI.
Qed.
Example C59_create_meets : exists w', create true false created = Ok (w', None) /\ w_live w' = [OUrl 0; ORelay 0].
Proof. eexists. split; vm_compute; reflexivity. Qed.
(** The same with setting a call-back. *)
Theorem C59_refused_callback_refuted : ~ (forall h, Forall (fun x => match x with Connect o => o_dup o = true | SetCallback => True | _ => False end) h ->
  life h [] <> Undef).
Proof. intros H. apply (H [Connect refused; SetCallback]); [repeat constructor|vm_compute; reflexivity]. Qed.
(** Running out of memory while copying the URL is undefined behaviour. *)
Theorem C59_memory_refuted : ~ (forall o, life [Connect o] [] <> Undef).
Proof. intros H. apply (H (mkOutcome true false true true true true true)). vm_compute. reflexivity. Qed.
(** Destroying a relay whose connection the other side has closed leaks the
    connection and its thread. *)
Theorem C59_closed_refuted : ~ (forall h w, Forall (fun x => match x with Connect o => o = works | Service _ (SClosed _ i) => i = INone | Service _ _ => True | _ => False end) h ->
  life h [] = Ok w -> w_live w = []).
Proof.
  intros H. destruct (life [Connect works; Service 1 SEstablished; Service 1 (SClosed false INone)] []) as [w| |] eqn:E;
    [|vm_compute in E; discriminate|vm_compute in E; discriminate].
  apply H in E as X; [|repeat constructor]. vm_compute in E. injection E as <-. vm_compute in X. discriminate.
Qed.
(** Connecting again after a remote close loses the first connection, even if the
    application disconnects afterwards. *)
Theorem C59_again_refuted : ~ (forall h w, life (h ++ [Disconnect]) [] = Ok w -> w_live w = []).
Proof.
  intros H. destruct (life ([Connect works; Service 1 SEstablished; Service 1 (SClosed false INone); Connect works] ++ [Disconnect]) []) as [w| |] eqn:E;
    [|vm_compute in E; discriminate|vm_compute in E; discriminate].
  apply H in E as X. vm_compute in E. injection E as <-. vm_compute in X. discriminate.
Qed.
(** Disconnecting, or destroying, from inside the state call-back touches released
    memory. *)
Theorem C59_inside_refuted : forall i, i <> INone -> ~ (forall r h w rs n e, run r h created = Ok (w, rs) -> service n (SClosed e i) w <> Undef).
Proof.
  intros i NI H. pose (h := [Connect works; Service 1 SEstablished]).
  destruct (run 0 h created) as [[w rs]| |] eqn:E; [|vm_compute in E; discriminate|vm_compute in E; discriminate].
  apply (H 0%nat h w rs 1%nat true E). vm_compute in E. injection E as <- <-. destruct i; [congruence| |]; vm_compute; reflexivity.
Qed.

(** C94 fails: after a remote close the relay says it is connecting, but there is
    no attempt; and a connect call is then refused. *)
Theorem C94_refuted : ~ (forall h w rs, careful 0 h Idle created -> run 0 h created = Ok (w, rs) ->
  r_state (w_relay w 0%nat) = RConnecting -> exists n, r_ws (w_relay w 0%nat) = Some n /\ w_wsi w n <> None).
Proof.
  intros H. pose (h := [Connect works; Service 1 SEstablished; Service 1 (SClosed true INone)]).
  destruct (run 0 h created) as [[w rs]| |] eqn:E; [|vm_compute in E; discriminate|vm_compute in E; discriminate].
  specialize (H h w rs).
  assert (C : careful 0 h Idle created).
  { unfold h. repeat careful_step. intros _. right. reflexivity. }
  specialize (H C E). vm_compute in E. injection E as <- <-. specialize (H eq_refl). destruct H as (n & A & B).
  vm_compute in A. injection A as <-. apply B. vm_compute. reflexivity.
Qed.
Example C94_meets : exists w rs, run 0 [Connect works; Service 1 SEstablished; Service 1 (SClosed true INone); Connect works; Service 1 STick] created = Ok (w, rs) /\
  rs = [Ok tt; Ok tt; Ok tt; Err EConnection; Ok tt] /\ r_state (w_relay w 0%nat) = RConnecting.
Proof. eexists _, _. split; [vm_compute; reflexivity|]. split; reflexivity. Qed.
(** A relay that says it is connected is: its socket is up and served. *)
Theorem C94_connected : forall h w rs, careful 0 h Idle created -> run 0 h created = Ok (w, rs) ->
  r_state (w_relay w 0%nat) = RConnected -> exists n, r_ws (w_relay w 0%nat) = Some n /\ w_wsi w n = Some 0%nat /\ is_live (OThread n) w = true.
Proof.
  intros h w rs C E S. destruct (run_inv 0 h Idle created None inv_created C) as (w' & rs' & p & link & E' & K & _).
  rewrite E in E'. injection E' as <- <-. destruct K as (P & L & M & WI & RN & ST).
  destruct link as [n|]. 2:{ destruct M as [B _]. rewrite S in B. discriminate. }
  exists n. destruct M as (WS & _). split; [exact WS|]. split; [exact (ST S n eq_refl)|].
  apply is_live_in. apply L. unfold owned. cbn [In]. auto 6.
Qed.

Print Assumptions C59_careful_partial.
Print Assumptions C59_create.
Print Assumptions C59_refused_refuted.
Print Assumptions C59_closed_refuted.
Print Assumptions C59_inside_refuted.
Print Assumptions C94_refuted.
Print Assumptions C94_connected.
