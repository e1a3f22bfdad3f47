(** C172: conversations hang together. *)
From Verif Require Import Base BaseFacts Hex Event EventProofs Nip10 Nip10Spec Nip10Props ThreadSpec.
Open Scope N_scope.

Lemma aside_root t : aside t -> ~ marked (bs "root") t.
Proof. intros A (N & M). destruct (A N) as (_ & M'). rewrite M in M'. discriminate. Qed.
Lemma aside_reply t : aside t -> ~ marked (bs "reply") t.
Proof. intros A (N & M). destruct (A N) as (_ & M'). rewrite M in M'. discriminate. Qed.
Lemma silent_root t : silent t -> ~ marked (bs "root") t.
Proof. intros A (N & _). exact (A N). Qed.
Lemma silent_reply t : silent t -> ~ marked (bs "reply") t.
Proof. intros A (N & _). exact (A N). Qed.
Lemma add_short max ts root rr rp ts' : add_reply_tags max ts (Some root) rr rp None None None = (ts', Ok tt) ->
  ts' = ts ++ [e_tag root rr (bs "root") rp].
Proof. unfold add_reply_tags, add_tag10. destruct (max <=? length ts)%nat; [discriminate|]. congruence. Qed.
Lemma add_long max ts root rr rp reply pr pp ts' : add_reply_tags max ts (Some root) rr rp (Some reply) pr pp = (ts', Ok tt) ->
  ts' = ts ++ [e_tag root rr (bs "root") rp; e_tag reply pr (bs "reply") pp].
Proof.
  unfold add_reply_tags, add_tag10. destruct (max <=? length ts)%nat; [discriminate|]. destruct (max <=? _)%nat; [discriminate|].
  intros H. assert (X : (ts ++ [e_tag root rr (bs "root") rp]) ++ [e_tag reply pr (bs "reply") pp] = ts') by congruence.
  rewrite <- X, <- app_assoc. reflexivity.
Qed.
Lemma e_tag_id id r m pk : tag_id (e_tag id r m pk) = id.
Proof. destruct pk; reflexivity. Qed.
Lemma cut64 id : (length id <= 64)%nat -> cut 64 id = id.
Proof. intros L. unfold cut. apply firstn_all2. exact L. Qed.
Lemma id_text_length e : length (ev_id e) = 32%nat -> length (id_text e) = 64%nat.
Proof. intros L. unfold id_text. rewrite hex_encode_length, L. reflexivity. Qed.

(** The tag an answer's root and parent are read from. *)
Lemma root_reads e id t ids rs : root_tag (ev_tags e) t -> tag_id t = id -> (length id <= 64)%nat -> 65 <= ids ->
  exists h, get_root_id e ids rs = Ok (id, h).
Proof.
  intros R E L LI. eexists. apply C43_root. split; [exact LI|]. exists t. split; [exact R|]. split; [|reflexivity].
  rewrite E, cut64 by exact L. reflexivity.
Qed.
Lemma reply_reads e id t ids rs : reply_tag (ev_tags e) t -> tag_id t = id -> (length id <= 64)%nat -> 65 <= ids ->
  exists h, get_reply_id e ids rs = Ok (id, h).
Proof.
  intros R E L LI. eexists. apply C43_reply. split; [exact LI|]. exists t. split; [exact R|]. split; [|reflexivity].
  rewrite E, cut64 by exact L. reflexivity.
Qed.

(** What [answers] gives, for any parent. *)
Lemma answer_reads max p c : length (ev_id p) = 32%nat -> answers silent max p c ->
  exists r, root_for p r /\ ((length r <= 64)%nat -> exists t, root_tag (ev_tags c) t /\ tag_id t = r) /\
    exists t, reply_tag (ev_tags c) t /\ tag_id t = id_text p.
Proof.
  intros L [before ts after rr rp I A E FB FA|before ts after r rr rp pr pp RF A E FB FA].
  - apply add_short in A. subst ts. exists (id_text p). split; [right; auto|]. split.
    + intros _. exists (e_tag (id_text p) rr (bs "root") rp). split; [|apply e_tag_id]. left. exists before, after.
      split; [rewrite E, <- app_assoc; reflexivity|]. split; [apply e_tag_marked|]. eapply Forall_impl; [|exact FB]. exact silent_root.
    + exists (e_tag (id_text p) rr (bs "root") rp). split; [|apply e_tag_id]. right. split.
      * rewrite E. apply Forall_app. split; [apply Forall_app; split|].
        { eapply Forall_impl; [|exact FB]. exact silent_reply. }
        { constructor; [|constructor]. intros (_ & X). destruct rp; discriminate X. }
        { eapply Forall_impl; [|exact FA]. exact silent_reply. }
      * exists before, after. split; [rewrite E, <- app_assoc; reflexivity|]. split; [apply (e_tag_marked _ _ _ _)|]. exact FA.
  - apply add_long in A. subst ts. exists r. split; [exact RF|]. split.
    + intros _. exists (e_tag r rr (bs "root") rp). split; [|apply e_tag_id]. left. exists before, (e_tag (id_text p) pr (bs "reply") pp :: after).
      split; [rewrite E, <- app_assoc; reflexivity|]. split; [apply e_tag_marked|]. eapply Forall_impl; [|exact FB]. exact aside_root.
    + exists (e_tag (id_text p) pr (bs "reply") pp). split; [|apply e_tag_id]. left. exists (before ++ [e_tag r rr (bs "root") rp]), after.
      split; [rewrite E, <- !app_assoc; reflexivity|]. split; [apply e_tag_marked|]. apply Forall_app. split.
      * eapply Forall_impl; [|exact FB]. exact aside_reply.
      * constructor; [|constructor]. intros (_ & X). destruct rp; discriminate X.
Qed.
Lemma thread_id other max root up e : thread other max root up e -> length (ev_id e) = 32%nat.
Proof. intros [L _|u p c _ L _]; exact L. Qed.
Lemma thread_root_id other max root up e : thread other max root up e -> length (ev_id root) = 32%nat.
Proof. induction 1; assumption. Qed.

(** Partial: in a conversation of any length whose opening event and short
    answers name no event besides, every event says where the conversation began and
    which event it answers, whatever buffers of sufficient size are given.  Missing:
    mentions in those two places. *)
Theorem C172_partial : forall max root up e, thread silent max root up e ->
  match up with
  | [] => is_reply e = Ok false
  | p :: _ => is_reply e = Ok true /\ forall ids rs, 65 <= ids ->
      (exists h, get_root_id e ids rs = Ok (id_text root, h)) /\ (exists h, get_reply_id e ids rs = Ok (id_text p, h))
  end.
Proof.
  induction 1 as [L F|up p c T IH L A]; [apply C78_none; exact F|].
  pose proof (thread_id _ _ _ _ _ T) as LP. pose proof (thread_root_id _ _ _ _ _ T) as LR.
  destruct (answer_reads max p c LP A) as (r & RF & RT & t & YT & YE).
  assert (ER : r = id_text root).
  { destruct up as [|q up].
    - inversion T; subst. destruct RF as [(X & _)|(_ & ->)]; [congruence|reflexivity].
    - destruct IH as (IR & IH). destruct RF as [(_ & h & G)|(X & _)]; [|congruence].
      destruct (IH 65 0 ltac:(discriminate)) as ((h' & G') & _). congruence. }
  subst r. destruct (RT ltac:(rewrite id_text_length by exact LR; lia)) as (t' & RT' & RE). split.
  - apply C78_exact_partial. exists t. split; [exact YT|]. rewrite YE. intros X. apply (f_equal (@length N)) in X.
    rewrite id_text_length in X by exact LP. discriminate X.
  - intros ids rs LI. split; [eapply root_reads|eapply reply_reads]; try eassumption; rewrite id_text_length by assumption; lia.
Qed.

(** Going from parent to parent through a store in which the events before [e]
    are found by their identifiers, a reader finds exactly them, in order, and stops at
    the opening event however far they are ready to go. *)
Theorem C172_climb : forall max root up e store n, thread silent max root up e ->
  incl up store -> Forall (fun x => bytes_ok (ev_id x)) store ->
  (forall x y, In x store -> In y store -> ev_id x = ev_id y -> x = y) ->
  climb store n e = firstn n up.
Proof.
  intros max root up e store n T. revert n. induction T as [L F|up p c T IH L A]; intros n I B U.
  - destruct n as [|n]; [reflexivity|]. cbn [climb firstn]. destruct (get_reply_id root 65 0) as [[i h]| |] eqn:G; [|reflexivity|reflexivity].
    exfalso. apply C43_reply in G. destruct G as (_ & t & [(a & b & E & (N & _) & _)|(_ & a & b & E & N & _)] & _);
      rewrite E in F; apply Forall_app in F; destruct F as (_ & F); inversion F; contradiction.
  - destruct n as [|n]; [reflexivity|]. cbn [climb firstn].
    destruct (C172_partial max root (p :: up) c (Answer _ _ _ _ _ _ T L A)) as (_ & R).
    destruct (R 65 0 ltac:(discriminate)) as (_ & h & G). rewrite G.
    assert (IP : In p store) by (apply I; left; reflexivity).
    destruct (find (fun x => beq (id_text x) (id_text p)) store) as [q|] eqn:FD.
    + apply find_some in FD. destruct FD as (IQ & EQ). apply beq_eq in EQ. rewrite Forall_forall in B.
      assert (X : q = p) by (apply U; [exact IQ|exact IP|]; exact (hex_encode_inj _ _ (B q IQ) (B p IP) EQ)).
      subst q. rewrite IH; [reflexivity| | |exact U].
      * intros x IX. apply I. right. exact IX.
      * apply Forall_forall. exact B.
    + exfalso. pose proof (find_none _ _ FD p IP) as X. cbv beta in X. rewrite beq_refl in X. discriminate X.
Qed.

(** With mentions anywhere it fails: after the short form of an answer, a mention
    is read as the parent. *)
Definition talk (n : N) (ts : list (list (list N))) : event := mkEvent (repeat n 32) (repeat 0 32) 0 1 ts None (repeat 0 64).
Definition mention (n : N) : list (list N) := [bs "e"; hex_encode (repeat n 32); []; bs "mention"].
Lemma mention_aside n : aside (mention n).
Proof. intros N. split; [exact N|reflexivity]. Qed.
Theorem C172_refuted : ~ (forall max root up p e, thread aside max root (p :: up) e -> exists h, get_reply_id e 65 0 = Ok (id_text p, h)).
Proof.
  intros H. pose (r := talk 1 []). pose (c := talk 2 [e_tag (id_text r) None (bs "root") None; mention 7]).
  destruct (H 10%nat r [] r c) as (h & X); [|vm_compute in X; discriminate X].
  apply Answer; [apply Start; [reflexivity|constructor]|reflexivity|].
  eapply (Short aside 10 r c [] _ [mention 7] None None); [reflexivity|reflexivity|reflexivity|constructor|].
  constructor; [apply mention_aside|constructor].
Qed.
(** And an opening event that mentions another is taken for an answer to it: those
    who answer write the mentioned event as the root. *)
Theorem C172_quote_refuted : ~ (forall max root p up e, thread aside max root (p :: up) e -> exists h, get_root_id e 65 0 = Ok (id_text root, h)).
Proof.
  intros H. pose (r := talk 1 [mention 7]).
  pose (c := talk 2 [e_tag (hex_encode (repeat 7 32)) None (bs "root") None; e_tag (id_text r) None (bs "reply") None]).
  destruct (H 10%nat r r [] c) as (h & X); [|vm_compute in X; discriminate X].
  apply Answer; [apply Start; [reflexivity|]|reflexivity|].
  - constructor; [apply mention_aside|constructor].
  - eapply (Long aside 10 r c [] _ [] (hex_encode (repeat 7 32)) None None None None); [|reflexivity|reflexivity|constructor|constructor].
    left. split; [reflexivity|]. eexists. reflexivity.
Qed.

(** Three events: the second in the short form, the third with a mention before and
    after. *)
Example C172_meets :
  let r := talk 1 [[bs "p"; bs "x"]] in let c := talk 2 [[bs "t"; bs "y"]; e_tag (id_text r) (Some (bs "wss://r")) (bs "root") None] in
  let d := talk 3 [mention 7; e_tag (id_text r) None (bs "root") None; e_tag (id_text c) None (bs "reply") (Some (bs "pk")); mention 8] in
  thread silent 10 r [c; r] d /\ climb [d; r; c] 5 d = [c; r].
Proof.
  intros r c d.
  assert (T : thread silent 10 r [c; r] d).
  { apply Answer; [apply Answer; [apply Start; [reflexivity|]|reflexivity|]|reflexivity|].
    - constructor; [|constructor]. intros (i & x & E). discriminate E.
    - eapply (Short silent 10 r c [[bs "t"; bs "y"]] _ [] (Some (bs "wss://r")) None); [reflexivity|reflexivity|reflexivity| |constructor].
      constructor; [|constructor]. intros (i & x & E). discriminate E.
    - eapply (Long silent 10 c d [mention 7] _ [mention 8] (id_text r) None None None (Some (bs "pk"))); [|reflexivity|reflexivity| |].
      + left. split; [reflexivity|]. eexists. reflexivity.
      + constructor; [apply mention_aside|constructor].
      + constructor; [apply mention_aside|constructor]. }
  split; [exact T|]. rewrite (C172_climb 10 r [c; r] d [d; r; c] 5 T); [reflexivity| | |].
  - intros x [<-|[<-|[]]]; [right; right; left|right; left]; reflexivity.
  - repeat (apply Forall_cons; [cbn [ev_id talk r c d]; apply Forall_forall; intros y IY; apply repeat_spec in IY; rewrite IY; reflexivity|]). constructor.
  - intros x y [<-|[<-|[<-|[]]]] [<-|[<-|[<-|[]]]] E; try reflexivity; discriminate E.
Qed.

Print Assumptions C172_partial.
Print Assumptions C172_climb.
Print Assumptions C172_refuted.
Print Assumptions C172_quote_refuted.
