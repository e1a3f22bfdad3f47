(** C95: subscribing while messages arrive. *)
From Verif Require Import Base BaseFacts RelayRace.
From Coq Require Import Lia.

(** The application calls only while no message is being looked up *)
Fixpoint apart (ms : list move) (s : shared) : Prop :=
  match ms with
  | [] => True
  | m :: r => (match m with MApp _ => sh_cur s = None | _ => True end) /\
              forall s', move_step s m = Ok s' -> apart r s'
  end.
Definition sane (s : shared) : Prop :=
  match sh_cur s with Some (Some p, _) => In p (map fst (sh_list s)) | _ => True end.
Lemma node_in l p : In p (map fst l) -> exists i nx, node_at l p = Some (i, nx) /\ (forall n, nx = Some n -> In n (map fst l)).
Proof.
  induction l as [|[q i] r IH]; intros I; [contradiction|]. cbn [node_at map fst In] in *. destruct (Nat.eqb q p) eqn:E.
  - exists i, (match r with [] => None | (n, _) :: _ => Some n end). split; [reflexivity|].
    intros n X. destruct r as [|[m j] r]; [discriminate|]. injection X as ->. right. left. reflexivity.
  - apply Nat.eqb_neq in E. destruct I as [I|I]; [contradiction|]. destruct (IH I) as (i' & nx & A & B).
    exists i', nx. split; [exact A|]. intros n X. right. apply B. exact X.
Qed.
(** C95: if calls and look-ups do not overlap, every access is to a live node. *)
Theorem C95_apart_partial : forall ms s, sane s -> apart ms s -> exists s', moves s ms = Ok s' /\ sane s'.
Proof.
  induction ms as [|m ms IH]; intros s SN A.
  - exists s. auto.
  - cbn [apart moves] in *. destruct A as [A1 A2].
    assert (X : exists s1, move_step s m = Ok s1 /\ sane s1).
    { destruct m as [[id|id]|id|]; cbn [move_step].
      - eexists. split; [reflexivity|]. unfold sane. cbn [sh_cur]. rewrite A1. exact Logic.I.
      - eexists. split; [reflexivity|]. unfold sane. cbn [sh_cur]. rewrite A1. exact Logic.I.
      - eexists. split; [reflexivity|]. unfold sane. cbn [sh_cur sh_list]. destruct (sh_list s) as [|[p i] r]; cbn; auto.
      - unfold sane in SN. destruct (sh_cur s) as [[[p|] id]|] eqn:C.
        + destruct (node_in _ _ SN) as (i & nx & E & N). rewrite E. eexists. split; [reflexivity|]. unfold sane. cbn [sh_cur sh_list].
          destruct (beq i id); [exact Logic.I|]. destruct nx as [n|]; [apply N; reflexivity|exact Logic.I].
        + eexists. split; [reflexivity|]. exact Logic.I.
        + exists s. split; [reflexivity|]. unfold sane. rewrite C. exact Logic.I. }
    destruct X as (s1 & E & S1). rewrite E. cbn [bind]. apply IH; [exact S1|apply A2; exact E].
Qed.
Example C95_meets : apart [MApp (ASubscribe (bs "a")); MApp (ASubscribe (bs "b")); MStart (bs "a"); MLook; MLook; MApp (AUnsubscribe (bs "a"))] shared0 /\
  exists s, moves shared0 [MApp (ASubscribe (bs "a")); MApp (ASubscribe (bs "b")); MStart (bs "a"); MLook; MLook; MApp (AUnsubscribe (bs "a"))] = Ok s /\ length (sh_list s) = 1%nat.
Proof.
  split.
  - repeat (split; [try exact Logic.I; try reflexivity|let X := fresh in intros ? X; vm_compute in X; injection X as <-]). exact Logic.I.
  - eexists. split; vm_compute; reflexivity.
Qed.
(** C95 fails: unsubscribing while the service thread stands on the node. *)
Theorem C95_refuted : ~ (forall ms, moves shared0 ms <> Undef).
Proof. intros H. apply (H [MApp (ASubscribe (bs "a")); MStart (bs "b"); MApp (AUnsubscribe (bs "a")); MLook]). vm_compute. reflexivity. Qed.

Print Assumptions C95_apart_partial.
Print Assumptions C95_refuted.
