(** Subscriptions and dispatch: C58, C91, C93. *)
From Verif Require Import Base BaseFacts Json Event RelayRecv RelayRecvSpec RelayRecvProps.
From Coq Require Import Lia.
Open Scope N_scope.

(** What a history says about subscriptions: a call that succeeded began one; an
    unsubscribe call or a CLOSED message ended one. *)
Definition begun (o : subop) : list act :=
  match o with
  | DoSubscribe id filters h json_ok f =>
    match snd (subscribe [] id filters h json_ok f) with Ok _ => [Subscribed id h] | _ => [] end
  | DoUnsubscribe id _ => [Ended id]
  end.
Definition ended (parse : list N -> option json) (text : list N) : list act :=
  match parse text with
  | Some (JArr (JStr ty :: JStr id :: _ :: _)) => if list_eq_dec N.eq_dec ty (bs "CLOSED") then [Ended id] else []
  | _ => []
  end.
Definition acts (parse : list N -> option json) (h : list item) : list act :=
  flat_map (fun i => match i with App o => begun o | Msg t => ended parse t end) h.
(** No subscribe call fails after its parameters and its first allocation were
    accepted *)
Definition settled (h : list item) : Prop := forall id fs hd ok f, In (App (DoSubscribe id fs hd ok f)) h ->
  a_id f = true /\ a_msg f = true /\ a_buf f = true /\ a_write f = true.

(** The handlers of an id, in list order *)
Definition at_id (l : list subscr) (id : list N) : list (option nat) :=
  map s_handler (filter (fun x => match s_id x with Some i => beq i id | None => false end) l).
Definition named (l : list subscr) : Prop := Forall (fun x => s_id x <> None) l.
Lemma listening_app : forall a b id now, listening (a ++ b) id now = listening b id (listening a id now).
Proof. induction a as [|[i h|i] a IH]; intros b id now; cbn [app listening]; auto. Qed.
Lemma find_sub_at l id : named l -> match find_sub l id with
  | Ok None => at_id l id = [] | Ok (Some x) => exists r, at_id l id = s_handler x :: r | _ => False end.
Proof.
  induction 1 as [|x l X _ IH]; [reflexivity|]. cbn [find_sub]. unfold at_id in *. cbn [filter map].
  destruct (s_id x) as [i|]; [|congruence]. destruct (beq i id) eqn:E; [|exact IH]. cbn [map]. eexists. reflexivity.
Qed.
Lemma remove_sub_at l id : named l -> exists l', remove_sub l id = Ok l' /\ named l' /\
  forall k, at_id l' k = if list_eq_dec N.eq_dec id k then tl (at_id l k) else at_id l k.
Proof.
  induction 1 as [|x l X NL IH].
  - exists []. split; [reflexivity|]. split; [constructor|]. intros k. destruct (list_eq_dec _ _ _); reflexivity.
  - cbn [remove_sub]. destruct (s_id x) as [i|] eqn:I; [|congruence]. destruct (beq i id) eqn:E.
    + apply beq_eq in E. subst i. exists l. split; [reflexivity|]. split; [exact NL|]. intros k. unfold at_id. cbn [filter]. rewrite I.
      destruct (list_eq_dec N.eq_dec id k) as [->|D].
      * rewrite beq_refl. reflexivity.
      * apply beq_neq in D. rewrite D. reflexivity.
    + destruct IH as (l' & E' & N' & A'). rewrite E'. cbn [bind]. exists (x :: l'). split; [reflexivity|].
      split; [constructor; [congruence|exact N']|]. intros k. unfold at_id in *. cbn [filter]. rewrite I. specialize (A' k).
      destruct (beq i k) eqn:Ek.
      * apply beq_eq in Ek. subst k. cbn [map]. destruct (list_eq_dec N.eq_dec id i) as [->|D]; [rewrite beq_refl in E; discriminate|].
        rewrite A'. reflexivity.
      * exact A'.
Qed.
Section Runs.
Variable parse : list N -> option json.
Variable reprint : json -> option json.
Variable lim : option ev_limits.
Lemma do_op_at l o : named l -> (forall id fs hd ok f, o = DoSubscribe id fs hd ok f ->
    a_id f = true /\ a_msg f = true /\ a_buf f = true /\ a_write f = true) ->
  Forall (fun x => forall i, s_id x = Some i -> valid_sub_id i = true) l ->
  exists l', do_op l o = Ok l' /\ named l' /\ Forall (fun x => forall i, s_id x = Some i -> valid_sub_id i = true) l' /\
  forall k, at_id l' k = listening (begun o) k (at_id l k).
Proof.
  intros NL ST VL. destruct o as [id fs hd ok f|id f].
  - specialize (ST id fs hd ok f eq_refl). destruct ST as (S1 & S2 & S3 & S4).
    unfold do_op, begun, subscribe. destruct (valid_sub_id id) eqn:V; cbn [negb fst snd].
    2:{ exists l. repeat (split; [auto|]). auto. }
    destruct (a_node f); cbn [negb fst snd]. 2:{ exists l. repeat (split; [auto|]). auto. }
    destruct ok; cbn [negb fst snd]. 2:{ exists l. repeat (split; [auto|]). auto. }
    rewrite S1, S2, S3, S4. cbn [negb fst snd]. eexists. split; [reflexivity|].
    split; [constructor; [discriminate|exact NL]|].
    split. { constructor; [|exact VL]. cbn [s_id]. intros i E. congruence. }
    intros k. unfold at_id. cbn [filter s_id listening]. destruct (list_eq_dec N.eq_dec id k) as [->|D].
    + rewrite beq_refl. reflexivity.
    + apply beq_neq in D. rewrite D. reflexivity.
  - unfold do_op, begun, unsubscribe. destruct (valid_sub_id id) eqn:V; cbn [negb].
    + destruct (remove_sub_at l id NL) as (l' & E & N' & A'). rewrite E. cbn [bind].
      exists l'. split; [destruct (a_msg f), (a_buf f), (a_write f); reflexivity|]. split; [exact N'|].
      split; [|exact A'].
      clear -E VL. revert l' E. induction VL as [|x l X VL IH]; intros l' E; cbn [remove_sub] in E; [injection E as <-; constructor|].
      destruct (s_id x) as [i|] eqn:Ix; [|discriminate]. destruct (beq i id); [injection E as <-; assumption|].
      destruct (remove_sub l id) as [r| |]; try discriminate. cbn [bind] in E. injection E as <-. constructor; [intros j Ej; apply X; congruence|auto].
    + cbn [bind fst]. exists l. split; [reflexivity|]. split; [exact NL|]. split; [exact VL|]. intros k. cbn [listening].
      destruct (list_eq_dec N.eq_dec id k) as [->|D]; [|reflexivity].
      (* an id that is not accepted is never in the list *)
      assert (Z : at_id l k = []); [|rewrite Z; reflexivity].
      clear -VL V. unfold at_id. induction VL as [|x l X _ IH]; [reflexivity|]. cbn [filter].
      destruct (s_id x) as [i|] eqn:Ix; [|exact IH]. destruct (beq i k) eqn:E; [|exact IH].
      apply beq_eq in E. subst i. rewrite (X k eq_refl) in V. discriminate.
Qed.
Lemma dispatch_at om l t l' o : named l -> Forall (fun x => forall i, s_id x = Some i -> valid_sub_id i = true) l ->
  dispatch parse reprint lim om l t = Ok (l', o) ->
  named l' /\ Forall (fun x => forall i, s_id x = Some i -> valid_sub_id i = true) l' /\
  forall k, at_id l' k = listening (ended parse t) k (at_id l k).
Proof.
  intros NL VL E. unfold dispatch in E. unfold ended.
  destruct (parse t) as [[| | | |[|a [|x more]]|]|]; try (injection E as <- <-; cbn [listening]; auto; fail).
  - destruct a; injection E as <- <-; cbn [listening]; auto.
  - destruct a as [| | |ty| |]; try (injection E as <- <-; cbn [listening]; auto; fail).
    destruct (beq ty (bs "EVENT") && (3 <=? 2 + length more)%nat) eqn:Ev.
    + assert (El : l' = l).
      { destruct x; try (injection E as <- <-; reflexivity). destruct more as [|ev more]; [injection E as <- <-; reflexivity|].
        pose proof (find_sub_at l s NL) as FS. destruct (find_sub l s) as [[y|]| |]; try contradiction; cbn [bind] in E; [|injection E as <- <-; reflexivity].
        destruct (reprint ev) as [u|]; [|injection E as <- <-; reflexivity].
        destruct (event_from_tree lim u); [|injection E as <- <-; reflexivity|discriminate]. injection E as <- <-. reflexivity. }
      subst l'. apply andb_true_iff in Ev. destruct Ev as [Ev _]. apply beq_eq in Ev. subst ty.
      split; [exact NL|]. split; [exact VL|]. intros k. destruct x; try reflexivity. destruct more; [reflexivity|].
      destruct (list_eq_dec _ _ _); [discriminate|reflexivity].
    + destruct (beq ty (bs "CLOSED") && (3 <=? 2 + length more)%nat) eqn:Cl.
      * apply andb_true_iff in Cl. destruct Cl as [Cl Lm]. apply beq_eq in Cl. subst ty. apply Nat.leb_le in Lm.
        destruct more as [|y more]; [cbn in Lm; lia|]. destruct (list_eq_dec N.eq_dec (bs "CLOSED") (bs "CLOSED")); [|congruence].
        destruct x; try (injection E as <- <-; cbn [listening]; auto; fail).
        destruct (remove_sub_at l s NL) as (l2 & E2 & N2 & A2). rewrite E2 in E. cbn [bind] in E. injection E as <- <-.
        split; [exact N2|]. split; [|exact A2].
        clear -E2 VL. revert l2 E2. induction VL as [|x l X VL IH]; intros l2 E; cbn [remove_sub] in E; [injection E as <-; constructor|].
        destruct (s_id x) as [i|] eqn:Ix; [|discriminate]. destruct (beq i s); [injection E as <-; assumption|].
        destruct (remove_sub l s) as [r| |]; try discriminate. cbn [bind] in E. injection E as <-. constructor; [intros j Ej; apply X; congruence|auto].
      * injection E as <- <-. split; [exact NL|]. split; [exact VL|]. intros k.
        destruct x; try reflexivity. destruct more as [|y more]; [reflexivity|].
        destruct (list_eq_dec N.eq_dec ty (bs "CLOSED")) as [->|]; [|reflexivity]. rewrite beq_refl in Cl. discriminate.
Qed.
Lemma history_at om : forall h l l' o, named l -> Forall (fun x => forall i, s_id x = Some i -> valid_sub_id i = true) l -> settled h ->
  history parse reprint lim om l h = Ok (l', o) ->
  named l' /\ forall k, at_id l' k = listening (acts parse h) k (at_id l k).
Proof.
  induction h as [|[op|t] h IH]; intros l l' o NL VL ST E.
  - cbn in E. injection E as <- <-. auto.
  - cbn [history] in E. destruct (do_op_at l op NL) as (l1 & E1 & N1 & V1 & A1).
    { intros id fs hd ok f ->. apply (ST id fs hd ok f). left. reflexivity. }
    { exact VL. }
    rewrite E1 in E. cbn [bind] in E. destruct (IH _ _ _ N1 V1 (fun a b c d e X => ST a b c d e (or_intror X)) E) as [N2 A2].
    split; [exact N2|]. intros k. rewrite A2, A1. cbn [acts flat_map]. fold (acts parse h). rewrite listening_app. reflexivity.
  - cbn [history] in E. destruct (dispatch parse reprint lim om l t) as [[l1 o1]| |] eqn:E1; try discriminate. cbn [bind fst snd] in E.
    destruct (dispatch_at _ _ _ _ _ NL VL E1) as (N1 & V1 & A1).
    destruct (history parse reprint lim om l1 h) as [[l2 o2]| |] eqn:E2; try discriminate. cbn [bind fst snd] in E. injection E as <- <-.
    destruct (IH _ _ _ N1 V1 (fun a b c d e X => ST a b c d e (or_intror X)) E2) as [N2 A2].
    split; [exact N2|]. intros k. rewrite A2, A1. cbn [acts flat_map]. fold (acts parse h). rewrite listening_app. reflexivity.
Qed.
(** C58: after any history, an event for an id goes to the most recent live
    subscription with that id, and nowhere else. *)
Theorem C58_dispatch_partial : forall on_message h l o, settled h ->
  history parse reprint lim on_message [] h = Ok (l, o) ->
  forall text id ev more, parse text = Some (JArr (JStr (bs "EVENT") :: JStr id :: ev :: more)) ->
  dispatch parse reprint lim on_message l text =
  match listening (acts parse h) id [] with
  | [] => Ok (l, [])
  | who :: _ =>
    match reprint ev with
    | None => Ok (l, [])
    | Some t =>
      match event_from_tree lim t with
      | Ok e => Ok (l, match who with Some k => [OEvent k e] | None => [] end)
      | Err _ => Ok (l, [])
      | Undef => Undef
      end
    end
  end.
Proof.
  intros om h l o ST E text id ev more P.
  destruct (history_at om h [] l o (Forall_nil _) (Forall_nil _) ST E) as [NL A]. specialize (A id).
  change (at_id [] id) with (@nil (option nat)) in A.
  unfold dispatch. rewrite P. rewrite beq_refl. cbn [length Nat.add Nat.leb andb].
  pose proof (find_sub_at l id NL) as FS. rewrite <- A.
  destruct (find_sub l id) as [[x|]| |]; try contradiction; cbn [bind].
  - destruct FS as [r ->]. reflexivity.
  - rewrite FS. reflexivity.
Qed.
(** C58: unsubscribing an id that has at most one live subscription stops
    delivery until it is subscribed again. *)
Theorem C58_unsubscribed_partial : forall on_message h1 h2 f id l o, settled (h1 ++ h2) ->
  (length (listening (acts parse h1) id []) <= 1)%nat ->
  (forall h, ~ In (Subscribed id h) (acts parse h2)) ->
  history parse reprint lim on_message [] (h1 ++ App (DoUnsubscribe id f) :: h2) = Ok (l, o) ->
  forall text ev more, parse text = Some (JArr (JStr (bs "EVENT") :: JStr id :: ev :: more)) ->
  dispatch parse reprint lim on_message l text = Ok (l, []).
Proof.
  intros om h1 h2 f id l o ST L1 NS E text ev more P.
  assert (ST' : settled (h1 ++ App (DoUnsubscribe id f) :: h2)).
  { intros i fs hd ok g X. apply (ST i fs hd ok g). apply in_app_or in X. apply in_or_app.
    destruct X as [X|[X|X]]; [left; exact X|discriminate|right; exact X]. }
  rewrite (C58_dispatch_partial om _ l o ST' E text id ev more P).
  assert (Z : listening (acts parse (h1 ++ App (DoUnsubscribe id f) :: h2)) id [] = []); [|rewrite Z; reflexivity].
  unfold acts. rewrite flat_map_app, listening_app. cbn [flat_map begun app listening].
  destruct (list_eq_dec N.eq_dec id id); [|congruence]. fold (acts parse h1). fold (acts parse h2).
  destruct (listening (acts parse h1) id []) as [|a [|b r]]; cbn [tl length] in *; [| |lia].
  all: revert NS; generalize (acts parse h2) as a2; clear; induction a2 as [|[i hd|i] a2 IH]; intros NS; cbn [listening]; [reflexivity| |].
  all: try (apply IH; intros h X; apply (NS h); right; exact X).
  all: try (destruct (list_eq_dec N.eq_dec i id) as [->|]; [|apply IH; intros h X; apply (NS h); right; exact X]).
  all: try (exfalso; apply (NS hd); left; reflexivity).
  all: cbn [tl]; apply IH; intros h X; apply (NS h); right; exact X.
Qed.
(** Anything else that is an array of two or more beginning with a string is
    reported to the message call-back once, and to no event handler. *)
Theorem C58_notices : forall on_message l text ty x more l' o,
  parse text = Some (JArr (JStr ty :: x :: more)) -> ty <> bs "EVENT" \/ more = [] ->
  dispatch parse reprint lim on_message l text = Ok (l', o) ->
  o = if on_message then [OMessage ty (JArr (JStr ty :: x :: more))] else [].
Proof.
  intros om l text ty x more l' o P C E. unfold dispatch in E. rewrite P in E.
  assert (B : beq ty (bs "EVENT") && (3 <=? 2 + length more)%nat = false).
  { destruct C as [C| ->]; [apply beq_neq in C; rewrite C; reflexivity|]. destruct (beq _ _); reflexivity. }
  rewrite B in E. destruct (beq ty (bs "CLOSED") && (3 <=? 2 + length more)%nat).
  - destruct x; try (injection E as <- <-; reflexivity). destruct (remove_sub l s); try discriminate. cbn [bind] in E. injection E as <- <-. reflexivity.
  - injection E as <- <-. reflexivity.
Qed.
End Runs.

(** *** A concrete history *)
Definition all_well : fate := mkFate true true true true true.
Definition ev_tree : json := JObj [(bs "kind", JNum (JFin 1 0))].
Definition tiny_parse (t : list N) : option json :=
  if beq t (bs "E") then Some (JArr [JStr (bs "EVENT"); JStr (bs "s"); ev_tree])
  else if beq t (bs "C") then Some (JArr [JStr (bs "CLOSED"); JStr (bs "s"); JStr (bs "bye")])
  else if beq t (bs "N") then Some (JArr [JStr (bs "NOTICE"); JStr (bs "hi")])
  else if beq t (bs "{}") then Some (JObj []) else None.
Definition sub_s (h : nat) (f : fate) : item := App (DoSubscribe (bs "s") (bs "{}") (Some h) true f).
Example C58_meets :
  let h := [sub_s 1 all_well; App (DoSubscribe (bs "t") (bs "{}") (Some 9%nat) true all_well); Msg (bs "E"); sub_s 2 all_well;
            Msg (bs "E"); Msg (bs "N"); Msg (bs "C"); Msg (bs "E"); App (DoUnsubscribe (bs "s") all_well); Msg (bs "E")] in
  settled h /\ listening (acts tiny_parse h) (bs "s") [] = [] /\
  exists e, option_map snd (match history tiny_parse Some None true [] h with Ok x => Some x | _ => None end) =
    Some [OEvent 1 e; OEvent 2 e; OMessage (bs "NOTICE") (JArr [JStr (bs "NOTICE"); JStr (bs "hi")]);
          OMessage (bs "CLOSED") (JArr [JStr (bs "CLOSED"); JStr (bs "s"); JStr (bs "bye")]); OEvent 1 e].
Proof.
  cbn zeta. split; [|split].
  - intros id fs hd ok f X. repeat (destruct X as [X|X]; [try discriminate X; injection X as <- <- <- <- <-; repeat split|]). destruct X.
  - vm_compute. reflexivity.
  - eexists. vm_compute. reflexivity.
Qed.
(** *** Refutations *)
(** Subscribing twice to an id and unsubscribing it once leaves the older
    subscription receiving, though the relay was told CLOSE. *)
Theorem C58_twice_refuted : ~ (forall parse reprint lim om h f id l o, settled h ->
  history parse reprint lim om [] (h ++ [App (DoUnsubscribe id f)]) = Ok (l, o) ->
  forall text ev more l' o', parse text = Some (JArr (JStr (bs "EVENT") :: JStr id :: ev :: more)) ->
  dispatch parse reprint lim om l text = Ok (l', o') -> o' = []).
Proof.
  intros H.
  destruct (history tiny_parse Some None true [] ([sub_s 1 all_well; sub_s 2 all_well] ++ [App (DoUnsubscribe (bs "s") all_well)])) as [[l o]| |] eqn:E;
    [|vm_compute in E; discriminate|vm_compute in E; discriminate].
  destruct (dispatch tiny_parse Some None true l (bs "E")) as [[l' o']| |] eqn:D.
  - specialize (H tiny_parse Some None true [sub_s 1 all_well; sub_s 2 all_well] all_well (bs "s") l o).
    assert (ST : settled [sub_s 1 all_well; sub_s 2 all_well]).
    { intros id fs hd ok f X. repeat (destruct X as [X|X]; [injection X as <- <- <- <- <-; repeat split|]). destruct X. }
    specialize (H ST E (bs "E") ev_tree [] l' o' eq_refl D). subst o'.
    vm_compute in E. injection E as <- <-. vm_compute in D. discriminate.
  - vm_compute in E. injection E as <- <-. vm_compute in D. discriminate.
  - vm_compute in E. injection E as <- <-. vm_compute in D. discriminate.
Qed.
(** A subscribe call that reported failure may still deliver events. *)
Theorem C58_failed_refuted : ~ (forall parse reprint lim om id fs h ok f l' sent e, subscribe [] id fs h ok f = (l', sent, Err e) ->
  forall text l2 o, dispatch parse reprint lim om l' text = Ok (l2, o) -> forall k ev, ~ In (OEvent k ev) o).
Proof.
  intros H.
  destruct (subscribe [] (bs "s") (bs "{}") (Some 1%nat) true (mkFate true true true true false)) as [[l' sent] r] eqn:E.
  vm_compute in E. injection E as <- <- <-.
  destruct (dispatch tiny_parse Some None true [mkSub (Some (bs "s")) (Some 1%nat)] (bs "E")) as [[l2 o]| |] eqn:D;
    [|vm_compute in D; discriminate|vm_compute in D; discriminate].
  pose proof (H tiny_parse Some None true (bs "s") (bs "{}") (Some 1%nat) true (mkFate true true true true false) _ _ _ eq_refl
                (bs "E") l2 o D) as H2.
  vm_compute in D. injection D as <- <-. eapply H2. left. reflexivity.
Qed.
(** When copying the id fails the call succeeds, and the next event is undefined
    behaviour (comparing with a NULL string). *)
Theorem C58_null_refuted : ~ (forall parse reprint lim om id fs h ok f l' sent u, subscribe [] id fs h ok f = (l', sent, Ok u) ->
  (forall text, parse text = Some (JArr [JStr (bs "EVENT"); JStr id; ev_tree]) -> dispatch parse reprint lim om l' text <> Undef)).
Proof.
  intros H.
  apply (H tiny_parse Some None true (bs "s") (bs "{}") (Some 1%nat) true (mkFate true false true true true) _ _ _ eq_refl (bs "E") eq_refl).
  vm_compute. reflexivity.
Qed.

(** C91 fails: whatever an application regards as acceptable - a valid signature,
    a match with the filter it subscribed with - events failing it are delivered. *)
Theorem C91_unchecked_refuted : forall (acceptable : event -> bool) lim t e0,
  event_from_tree lim t = Ok e0 -> acceptable e0 = false ->
  ~ (forall parse reprint om l text l' o k e, dispatch parse reprint lim om l text = Ok (l', o) -> In (OEvent k e) o -> acceptable e = true).
Proof.
  intros acc lim t e0 E A H.
  pose (parse := fun _ : list N => Some (JArr [JStr (bs "EVENT"); JStr (bs "s"); t])).
  assert (D : dispatch parse Some lim false [mkSub (Some (bs "s")) (Some 1%nat)] [] =
              Ok ([mkSub (Some (bs "s")) (Some 1%nat)], [OEvent 1 e0])).
  { unfold dispatch, parse. rewrite beq_refl. cbn [length Nat.add Nat.leb andb find_sub s_id]. rewrite beq_refl. cbn [bind]. rewrite E. reflexivity. }
  rewrite (H _ _ _ _ _ _ _ _ _ D (or_introl eq_refl)) in A. discriminate.
Qed.
(** Even an empty object is delivered, as an event with all fields zero. *)
Example C91_meets : exists e, event_from_tree None (JObj []) = Ok e /\ ev_id e = repeat 0 32 /\ ev_sig e = repeat 0 64.
Proof. eexists. split; [vm_compute; reflexivity|]. split; reflexivity. Qed.

(** ** C93: what subscribing sends *)
(** The request carries the id and the filters verbatim, inside one REQ array;
    the id cannot break out of its string. *)
Theorem C93_request : forall l id filters h ok f l' sent, subscribe l id filters h ok f = (l', Some sent, Ok tt) ->
  sent = bs "[""REQ"",""" ++ id ++ bs """," ++ filters ++ bs "]" /\ quoted id /\ (1 <= length id <= 256)%nat /\ ok = true.
Proof.
  intros l id fs h ok f l' sent E. unfold subscribe in E. destruct (valid_sub_id id) eqn:V; [|discriminate].
  destruct (a_node f); [|discriminate]. destruct ok; [|discriminate]. cbn [negb] in E.
  destruct (a_msg f), (a_buf f), (a_write f); try discriminate. cbn [negb] in E. injection E as _ <-.
  split; [reflexivity|]. unfold valid_sub_id in V. apply andb_true_iff in V. destruct V as [V1 V2].
  apply andb_true_iff in V1. destruct V1 as [V0 V1]. apply negb_true_iff, Nat.eqb_neq in V0. apply Nat.leb_le in V1.
  split; [|split; [lia|reflexivity]].
  clear -V2. induction id as [|c id IH]; [constructor|]. cbn [forallb] in V2. apply andb_true_iff in V2. destruct V2 as [C V2].
  apply andb_true_iff in C. destruct C as [C C3]. apply andb_true_iff in C. destruct C as [C1 C2].
  apply negb_true_iff, N.eqb_neq in C1, C2. apply negb_true_iff, N.ltb_ge in C3.
  apply quoted_char; auto. lia.
Qed.
Theorem C93_close : forall l id f l' sent, unsubscribe l id f = Ok (l', Some sent, Ok tt) ->
  sent = bs "[""CLOSE"",""" ++ id ++ bs """]" /\ quoted id.
Proof.
  intros l id f l' sent E. unfold unsubscribe in E. destruct (valid_sub_id id) eqn:V; [|discriminate]. cbn [negb] in E.
  destruct (remove_sub l id) as [r| |]; try discriminate. cbn [bind] in E.
  destruct (a_msg f), (a_buf f), (a_write f); try discriminate. cbn [negb] in E. injection E as _ <-.
  split; [reflexivity|]. unfold valid_sub_id in V. apply andb_true_iff in V. destruct V as [_ V2].
  induction id as [|c id IH]; [constructor|]. cbn [forallb] in V2. apply andb_true_iff in V2. destruct V2 as [C V2].
  apply andb_true_iff in C. destruct C as [C C3]. apply andb_true_iff in C. destruct C as [C1 C2].
  apply negb_true_iff, N.eqb_neq in C1, C2. apply negb_true_iff, N.ltb_ge in C3.
  apply quoted_char; auto. lia.
Qed.
(** With filters that are one JSON value, brackets and strings of the request are
    well nested. *)
Theorem C93_wellformed : forall l id filters h ok f l' sent, subscribe l id filters h ok f = (l', Some sent, Ok tt) ->
  nested filters -> array_text sent.
Proof.
  intros l id fs h ok f l' sent E F. apply C93_request in E. destruct E as (-> & Q & _).
  exists (bs """REQ"",""" ++ id ++ bs """," ++ fs). split; [cbn [bs app]; rewrite <- !app_assoc; reflexivity|].
  change (nested (34 :: bs "REQ" ++ 34 :: 44 :: 34 :: id ++ 34 :: 44 :: fs)).
  apply nested_string; [repeat (apply quoted_char; [discriminate..|]); constructor|].
  apply nested_char; [repeat split; discriminate|]. apply nested_string; [exact Q|].
  apply nested_char; [repeat split; discriminate|]. exact F.
Qed.
(** But the filters are only checked by a parser that stops after the first
    value, so text that ends the array early is accepted, and sent. *)
Theorem C93_trailing_refuted : ~ (forall (parse : list N -> option json) l id filters h f l' sent,
  (forall s, parse (bs "{}" ++ s) = Some (JObj [])) ->
  subscribe l id filters h (match parse filters with Some _ => true | None => false end) f = (l', Some sent, Ok tt) -> array_text sent).
Proof.
  intros H.
  pose (parse := fun t => if prefixb (bs "{}") t then Some (JObj []) else None).
  assert (P : forall s, parse (bs "{}" ++ s) = Some (JObj [])) by (intros s; unfold parse; rewrite prefixb_app; reflexivity).
  specialize (H parse [] (bs "s") (bs "{}]]") None all_well _ _ P eq_refl).
  apply (end_array _ []) in H. vm_compute in H. discriminate.
Qed.

(** A case: a subscription and its end. *)
Example C93_meets : exists l sent, subscribe [] (bs "feed") (bs "{}") (Some 1%nat) true all_well = (l, Some sent, Ok tt) /\
  sent = bs "[""REQ"",""feed"",{}]" /\ array_text sent /\
  exists l', unsubscribe l (bs "feed") all_well = Ok (l', Some (bs "[""CLOSE"",""feed""]"), Ok tt).
Proof.
  eexists. eexists.
  split; [vm_compute; reflexivity|]. split; [vm_compute; reflexivity|]. split.
  - eapply (C93_wellformed [] (bs "feed") (bs "{}") (Some 1%nat) true all_well); [vm_compute; reflexivity|]. apply (nested_object [] []); constructor.
  - eexists. vm_compute. reflexivity.
Qed.

Print Assumptions C58_dispatch_partial.
Print Assumptions C58_unsubscribed_partial.
Print Assumptions C58_notices.
Print Assumptions C58_twice_refuted.
Print Assumptions C91_unchecked_refuted.
Print Assumptions C93_wellformed.
Print Assumptions C93_trailing_refuted.
