(** C122, C123: what secrets a call leaves in memory. *)
From Coq Require Import String List Bool.
Import ListNotations.
From Verif Require Import Wipe.
Open Scope string_scope.
Open Scope list_scope.

(** A call that starts with secrets of kind [k] at most in the caller's [ins] ends
    with them at most there, in the caller's [outs] if it succeeds, and in [lo] after
    success, [le] after an error. *)
Definition leaves (k : kind) (ins outs lo le : list place) (p : prog) : Prop :=
  forall m ok m', (forall x, m x k = true -> In x ins) -> run p m (Some ok) m' ->
  forall x, m' x k = true -> In x ins \/ (ok = true /\ (In x outs \/ In x lo)) \/ (ok = false /\ In x le).
Definition leaves_nothing (k : kind) (ins outs : list place) (p : prog) : Prop := leaves k ins outs [] [] p.

(** ** An analysis that is sound for the executions *)
Definition has (x : place) (l : list place) : bool := existsb (String.eqb x) l.
Definition add (x : place) (l : list place) : list place := if has x l then l else x :: l.
Definition del (x : place) (l : list place) : list place := filter (fun y => negb (String.eqb y x)) l.
Definition sub (a b : list place) : bool := forallb (fun x => has x b) a.
Definition union (a b : list place) : list place := fold_right add b a.
Definition join (a b : option (list place)) : option (list place) :=
  match a, b with None, c | c, None => c | Some x, Some y => Some (union x y) end.
(** What may hold the secret at the end, after success, after failure. *)
Record ends : Set := mkEnds { at_end : option (list place); at_ok : option (list place); at_err : option (list place) }.
Definition joins (a b : ends) : ends := mkEnds (join (at_end a) (at_end b)) (join (at_ok a) (at_ok b)) (join (at_err a) (at_err b)).
Fixpoint flow (k : kind) (p : prog) (A : list place) : option ends :=
  match p with
  | Skip => Some (mkEnds (Some A) None None)
  | Put j x => Some (mkEnds (Some (if kind_eqb k j then add x A else A)) None None)
  | Copy x y => Some (mkEnds (Some (if has x A then add y A else A)) None None)
  | Wipe x => Some (mkEnds (Some (del x A)) None None)
  | Seq p q =>
    match flow k p A with
    | None => None
    | Some a =>
      match at_end a with
      | None => Some a
      | Some B => match flow k q B with None => None | Some b => Some (joins (mkEnds None (at_ok a) (at_err a)) b) end
      end
    end
  | Or p q => match flow k p A, flow k q A with Some a, Some b => Some (joins a b) | _, _ => None end
  | Star p =>
    let grow := fix grow n B := match n with O => B | S n' => match flow k p B with Some (mkEnds (Some C) _ _) => grow n' (union C B) | _ => B end end in
    let B := grow 3 A in
    match flow k p B with
    | None => None
    | Some a => if sub A B && match at_end a with None => true | Some C => sub C B end then Some (mkEnds (Some B) (at_ok a) (at_err a)) else None
    end
  | Ret b => Some (if b then mkEnds None (Some A) None else mkEnds None None (Some A))
  | Call p q =>
    match flow k p A with
    | None => None
    | Some a =>
      match at_err a with
      | None => Some (mkEnds (at_ok a) None None)
      | Some B => match flow k q B with None => None | Some b => Some (joins (mkEnds (at_ok a) None None) b) end
      end
    end
  end.
Definition within (o : option (list place)) (l : list place) : bool := match o with None => true | Some a => sub a l end.
Definition check (k : kind) (ins outs lo le : list place) (p : prog) : bool :=
  match flow k p ins with None => false | Some a => within (at_ok a) (ins ++ outs ++ lo) && within (at_err a) (ins ++ le) end.

Definition inside (k : kind) (m : mem) (A : list place) : Prop := forall x, m x k = true -> In x A.
Lemma has_iff x l : has x l = true <-> In x l.
Proof. unfold has. rewrite existsb_exists. split; [intros (y & I & E); apply String.eqb_eq in E; subst y; exact I|intros I; exists x; split; [exact I|apply String.eqb_refl]]. Qed.
Lemma add_iff x y l : In y (add x l) <-> y = x \/ In y l.
Proof. unfold add. destruct (has x l) eqn:E; [apply has_iff in E|]; cbn; intuition congruence. Qed.
Lemma del_iff x y l : In y (del x l) <-> y <> x /\ In y l.
Proof. unfold del. rewrite filter_In, negb_true_iff, String.eqb_neq. tauto. Qed.
Lemma sub_in a b : sub a b = true -> forall x, In x a -> In x b.
Proof. unfold sub. rewrite forallb_forall. intros H x I. apply has_iff, H, I. Qed.
Lemma union_iff a b x : In x (union a b) <-> In x a \/ In x b.
Proof. unfold union. induction a as [|y a IH]; cbn [fold_right In]; [tauto|]. rewrite add_iff, IH. intuition congruence. Qed.
(** [covers k o m]: the analysis allows for an execution that ends there with [m]. *)
Definition covers (k : kind) (o : option (list place)) (m : mem) : Prop := exists A, o = Some A /\ inside k m A.
Lemma covers_l k a b m : covers k a m -> covers k (join a b) m.
Proof. intros (A & -> & I). destruct b as [b|]; [|exists A; auto]. exists (union A b). split; [reflexivity|]. intros x X. apply union_iff. auto. Qed.
Lemma covers_r k a b m : covers k b m -> covers k (join a b) m.
Proof. intros (B & -> & I). destruct a as [a|]; [|exists B; auto]. exists (union a B). split; [reflexivity|]. intros x X. apply union_iff. auto. Qed.
Definition at_ (a : ends) (o : option bool) : option (list place) := match o with None => at_end a | Some true => at_ok a | Some false => at_err a end.
Lemma joins_at a b o : at_ (joins a b) o = join (at_ a o) (at_ b o).
Proof. destruct o as [[]|]; reflexivity. Qed.
Lemma kind_eqb_sym a b : kind_eqb a b = kind_eqb b a.
Proof. destruct a, b; reflexivity. Qed.

Lemma flow_sound k p : forall A a, flow k p A = Some a -> forall m o m', inside k m A -> run p m o m' -> covers k (at_ a o) m'.
Proof.
  induction p as [|j x|x y|x|p IHp q IHq|p IHp q IHq|p IHp|b|p IHp q IHq]; intros A a F m o m' I R; cbn [flow] in F.
  - inversion R; subst. assert (a = mkEnds (Some A) None None) by congruence. subst a. exists A. auto.
  - inversion R; subst. assert (E : a = mkEnds (Some (if kind_eqb k j then add x A else A)) None None) by congruence. subst a. eexists. split; [reflexivity|]. intros y. unfold set. destruct (String.eqb_spec y x) as [->|].
    + rewrite orb_true_iff. intros [E|E]; [rewrite E; apply add_iff; auto|]. destruct (kind_eqb k j); [apply add_iff; auto|apply I, E].
    + intros E. destruct (kind_eqb k j); [apply add_iff; right|]; apply I, E.
  - inversion R; subst. assert (E : a = mkEnds (Some (if has x A then add y A else A)) None None) by congruence. subst a. eexists. split; [reflexivity|]. intros z. unfold set. destruct (String.eqb_spec z y) as [->|N].
    + rewrite orb_true_iff. intros [E|E]; [apply I, has_iff in E; rewrite E; apply add_iff; auto|]. destruct (has x A); [apply add_iff; auto|apply I, E].
    + intros E. destruct (has x A); [apply add_iff; right|]; apply I, E.
  - inversion R; subst. assert (E : a = mkEnds (Some (del x A)) None None) by congruence. subst a. eexists. split; [reflexivity|]. intros z. unfold set. destruct (String.eqb_spec z x) as [->|N]; [discriminate|]. intros E. apply del_iff. split; [exact N|apply I, E].
  - destruct (flow k p A) as [c|] eqn:P; [|discriminate]. inversion R as [| | | |? ? ? ? ? ? R1 R2|? ? ? ? ? R1| | | | | | | |]; subst.
    + destruct (IHp _ _ P _ _ _ I R1) as (B & E & IB). cbn [at_] in E. rewrite E in F. destruct (flow k q B) as [d|] eqn:Q; [|discriminate]. assert (a = joins (mkEnds None (at_ok c) (at_err c)) d) by congruence. subst a.
      rewrite joins_at. apply covers_r. apply (IHq _ _ Q _ _ _ IB R2).
    + pose proof (IHp _ _ P _ _ _ I R1) as C. destruct (at_end c) as [B|] eqn:E.
      * destruct (flow k q B) as [d|] eqn:Q; [|discriminate]. assert (a = joins (mkEnds None (at_ok c) (at_err c)) d) by congruence. subst a. rewrite joins_at. apply covers_l. destruct b; exact C.
      * assert (a = c) by congruence. subst a. exact C.
  - destruct (flow k p A) as [c|] eqn:P; [|discriminate]. destruct (flow k q A) as [d|] eqn:Q; [|discriminate]. assert (a = joins c d) by congruence. subst a. rewrite joins_at.
    inversion R as [| | | | | |? ? ? ? ? R1|? ? ? ? ? R1| | | | | |]; subst; [apply covers_l, (IHp _ _ P _ _ _ I R1)|apply covers_r, (IHq _ _ Q _ _ _ I R1)].
  - match type of F with context [match flow k p ?b with _ => _ end] => set (B := b) in F end. destruct (flow k p B) as [c|] eqn:P; [|discriminate].
    destruct (sub A B && match at_end c with None => true | Some C => sub C B end) eqn:S; [|discriminate]. apply andb_true_iff in S as (S1 & S2). assert (a = mkEnds (Some B) (at_ok c) (at_err c)) by congruence. subst a. clear F.
    assert (IB : inside k m B) by (intros x X; apply (sub_in _ _ S1), I, X). clearbody B. clear I S1 A. remember (Star p) as s eqn:ES. revert IB. induction R; try discriminate; intros IB; injection ES as ->.
    + exists B. auto.
    + apply IHR2; [reflexivity|]. destruct (IHp _ _ P _ _ _ IB R1) as (C & E & IC). cbn [at_] in E. rewrite E in S2. intros x X. apply (sub_in _ _ S2), IC, X.
    + pose proof (IHp _ _ P _ _ _ IB R) as C. destruct b; exact C.
  - inversion R; subst. destruct b; (assert (E : a = _) by (symmetry; injection F as F; exact F); subst a; exists A; auto).
  - destruct (flow k p A) as [c|] eqn:P; [|discriminate]. inversion R as [| | | | | | | | | | | |? ? ? ? R1|? ? ? ? ? ? R1 R2]; subst.
    + pose proof (IHp _ _ P _ _ _ I R1) as C. cbn [at_] in C. destruct (at_err c) as [B|].
      * destruct (flow k q B) as [d|]; [|discriminate]. assert (a = joins (mkEnds (at_ok c) None None) d) by congruence. subst a. apply covers_l with (b := at_end d), C.
      * assert (a = mkEnds (at_ok c) None None) by congruence. subst a. exact C.
    + destruct (IHp _ _ P _ _ _ I R1) as (B & E & IB). cbn [at_] in E. rewrite E in F. destruct (flow k q B) as [d|] eqn:Q; [|discriminate]. assert (a = joins (mkEnds (at_ok c) None None) d) by congruence. subst a.
      rewrite joins_at. apply covers_r, (IHq _ _ Q _ _ _ IB R2).
Qed.
Lemma check_sound k ins outs lo le p : check k ins outs lo le p = true -> leaves k ins outs lo le p.
Proof.
  unfold check, leaves. intros C m ok m' I R x X. destruct (flow k p ins) as [a|] eqn:F; [|discriminate]. apply andb_true_iff in C as (C1 & C2). destruct (flow_sound k p ins a F m (Some ok) m' I R) as (B & E & IB). apply IB in X.
  destruct ok; cbn [at_] in E; [rewrite E in C1; apply (sub_in _ _ C1), in_app_iff in X; destruct X as [X|X]; [auto|apply in_app_iff in X; tauto]|rewrite E in C2; apply (sub_in _ _ C2), in_app_iff in X; tauto].
Qed.

(** ** C122 *)
(** Generating, importing, checking and destroying keys, shared secrets. *)
Theorem C122_keys : leaves_nothing Key [] ["privkey"] (p_generate "privkey") /\ leaves_nothing Key ["privkey"] ["shared"] (p_ecdh "privkey" "shared") /\
  leaves_nothing Key ["privkey"] ["keypair"] (p_from_key "privkey" "keypair") /\ leaves_nothing Key ["keypair"] [] (p_validate "keypair").
Proof. repeat apply conj; apply check_sound; vm_compute; reflexivity. Qed.
(** Signing. *)
Theorem C122_sign : leaves_nothing Key ["privkey"] [] (p_sign "privkey") /\ leaves_nothing Noise [] [] (p_sign "privkey") /\ leaves_nothing Key ["privkey"] [] (p_delegate "privkey").
Proof. repeat apply conj; apply check_sound; vm_compute; reflexivity. Qed.
(** Encrypting and decrypting messages. *)
Theorem C122_messages : leaves_nothing Key ["privkey"] [] (p_encrypt "privkey" "text") /\ leaves_nothing Key ["privkey"] [] (p_decrypt "privkey" "text") /\
  leaves_nothing Key ["privkey"] [] (p_encrypt4 "privkey") /\ leaves_nothing Key ["privkey"] [] (p_decrypt4 "privkey" "text").
Proof. repeat apply conj; apply check_sound; vm_compute; reflexivity. Qed.
(** Encrypting a private key with a password, and back. *)
Theorem C122_ncryptsec : leaves_nothing Key ["privkey"] [] (p_encrypt49 "privkey") /\ leaves_nothing Key [] ["privkey"] (p_decrypt49 "privkey").
Proof. repeat apply conj; apply check_sound; vm_compute; reflexivity. Qed.
(** Seals, gift wraps, direct messages, remote signing, reading wallet answers. *)
Theorem C122_wraps : leaves_nothing Key ["privkey"] [] (p_wrap "privkey" "event") /\ leaves_nothing Key ["privkey"] [] (p_unwrap "privkey" "event") /\
  leaves_nothing Key ["privkey"] [] (p_seal_event "privkey" "event" "json") /\ leaves_nothing Key [] [] p_gift /\ leaves_nothing Key ["privkey"] [] (p_send_dm "privkey" "content") /\
  leaves_nothing Key ["privkey"] [] (p_parse_request "privkey" "request") /\ leaves_nothing Key ["privkey"] [] (p_create_response "privkey" "response") /\ leaves_nothing Key ["privkey"] [] (p_parse_answer "privkey" "outs").
Proof. repeat apply conj; apply check_sound; vm_compute; reflexivity. Qed.
(** Closing an object of the caller. *)
Theorem C122_close : forall m ok m', run (p_destroy "keypair") m (Some ok) m' \/ run (p_disconnect "keypair") m (Some ok) m' -> forall k, m' "keypair" k = false.
Proof.
  unfold p_destroy, p_disconnect. intros m ok m' [R|R] k; inversion R as [| | | |? ? ? ? ? ? R1 R2| ? ? ? ? ? R1| | | | | | | |]; subst; try (inversion R1; fail); inversion R1; subst; inversion R2; subst; reflexivity.
Qed.
(** The others leave secrets at most in these places: after success, after an error. *)
Theorem C122_partial :
  leaves Key [] ["keypair"] [] ["keypair"] (p_from_hex "keypair") /\
  leaves Noise [] [] [] ["deleg.random32"] (p_delegate "privkey") /\
  leaves Key ["conn"] [] ["request.nc_secret"] ["request.nc_secret"] (p_request "conn" "params") /\
  leaves Key ["uri"] ["conn"] ["connect.params"] ["connect.params"] (p_connect "uri" "conn") /\
  leaves Key ["seed"] ["master"] [] ["seed.nc_seckey"] (p_from_seed "seed" "master") /\
  leaves Key ["parent"] ["child"] [] ["child"] (p_derive "parent" "child") /\
  leaves Key ["master"] ["derived"] [] ["path.next"] (p_derive_path "master" "derived") /\
  leaves Key [] ["mnemonic"] [] ["mnemonic"] (p_mnemonic "mnemonic") /\
  leaves Key ["words"] [] ["words.indices"] ["words.indices"] (p_mnemonic_validate "words") /\
  leaves Key ["words"; "pass"] ["seed"] ["words.indices"] ["words.indices"] (p_to_seed "words" "pass" "seed") /\
  leaves Key ["words"; "pass"] ["seed"] ["words.indices"] ["words.indices"; "toseed.mnemonic"; "toseed.passphrase"] (p_to_seed_utf8 "words" "pass" "seed") /\
  leaves Key ["words"; "pass"] ["keypair"] ["words.indices"] ["words.indices"; "seed.nc_seckey"; "path.next"] (p_to_kp "words" "pass" "keypair") /\
  leaves Key ["privkey"] ["nsec"] ["tonsec.data"] ["tonsec.data"] (p_to_nsec "privkey" "nsec") /\
  leaves Key ["nsec"] ["privkey"] ["fromnsec.data"; "fromnsec.decoded"] ["fromnsec.data"; "fromnsec.decoded"] (p_from_nsec "nsec" "privkey").
Proof. repeat apply conj; apply check_sound; vm_compute; reflexivity. Qed.

(** *** Executions *)
(** [path p cs m]: the execution that takes the choices [cs] ([true]: the left
    branch, another round); the choices left over are returned. *)
Fixpoint path (n : nat) (p : prog) (cs : list bool) (m : mem) : option (option bool * list bool * mem) :=
  match n with
  | O => None
  | S n =>
    match p with
    | Skip => Some (None, cs, m)
    | Put k x => Some (None, cs, set m x (fun j => kind_eqb j k || m x j))
    | Copy x y => Some (None, cs, set m y (fun j => m x j || m y j))
    | Wipe x => Some (None, cs, set m x (fun _ => false))
    | Seq p q => match path n p cs m with Some (None, ds, m1) => path n q ds m1 | r => r end
    | Or p q => match cs with c :: ds => path n (if c then p else q) ds m | [] => None end
    | Star q => match cs with true :: ds => match path n q ds m with Some (None, es, m1) => path n (Star q) es m1 | r => r end | false :: ds => Some (None, ds, m) | [] => None end
    | Ret b => Some (Some b, cs, m)
    | Call p q => match path n p cs m with Some (Some true, ds, m1) => Some (None, ds, m1) | Some (Some false, ds, m1) => path n q ds m1 | _ => None end
    end
  end.
Lemma path_run n : forall p cs m o ds m', path n p cs m = Some (o, ds, m') -> run p m o m'.
Proof.
  induction n as [|n IH]; [discriminate|]. intros [|j x|x y|x|p q|p q|p|b|p q] cs m o ds m'; cbn [path]; intros E.
  1-4: assert (o = None) by congruence; subst o; assert (Q : m' = _) by (injection E as _ E; symmetry; exact E); rewrite Q; constructor.
  - destruct (path n p cs m) as [(([b|], es), m1)|] eqn:P; [|apply (RSeq p q m m1); eauto|discriminate]. assert (o = Some b /\ m1 = m') as (-> & ->) by (split; congruence). apply RSeqRet. eauto.
  - destruct cs as [|[] cs]; [discriminate| |]; [apply ROrL|apply ROrR]; eauto.
  - destruct cs as [|[] cs]; [discriminate| |].
    + destruct (path n p cs m) as [(([b|], es), m1)|] eqn:P; [|apply (RStarS p m m1); eauto|discriminate]. assert (o = Some b /\ m1 = m') as (-> & ->) by (split; congruence). apply RStarRet. eauto.
    + assert (o = None /\ m' = m) as (-> & ->) by (split; congruence). constructor.
  - assert (o = Some b /\ m' = m) as (-> & ->) by (split; congruence). constructor.
  - destruct (path n p cs m) as [(([[]|], es), m1)|] eqn:P; try discriminate; [|apply (RCallErr p q m m1); eauto]. assert (o = None /\ m' = m1) as (-> & ->) by (split; congruence). apply RCallOk. eauto.
Qed.
(** Memory in which exactly the caller's places hold the secret. *)
Definition start (k : kind) (ins : list place) : mem := fun x j => kind_eqb j k && has x ins.
(** [spill k ins outs p cs x]: these choices leave the secret in [x]. *)
Definition spill (k : kind) (ins outs : list place) (p : prog) (cs : list bool) (x : place) : bool :=
  match path 200 p cs (start k ins) with
  | Some (Some ok, [], m) => m x k && negb (has x ins) && negb (ok && has x outs)
  | _ => false
  end.
Lemma spill_refutes k ins outs p cs x : spill k ins outs p cs x = true -> ~ leaves_nothing k ins outs p.
Proof.
  unfold spill. destruct (path 200 p cs (start k ins)) as [(([ok|], [|]), m)|] eqn:P; try discriminate. apply path_run in P. intros S L. apply andb_true_iff in S as (S & S3). apply andb_true_iff in S as (S1 & S2).
  apply negb_true_iff in S2, S3. assert (I : forall y, start k ins y k = true -> In y ins) by (intros y Y; apply andb_true_iff in Y as (_ & Y); apply has_iff, Y).
  destruct (L (start k ins) ok m I P x S1) as [A|[(-> & [A|[]])|(_ & [])]]; apply has_iff in A; cbn [andb] in S3; congruence.
Qed.
(** A wallet request leaves the wallet secret on the stack, with success. *)
Theorem C122_request_refuted : ~ leaves_nothing Key ["conn"] [] (p_request "conn" "params").
Proof. apply (spill_refutes _ _ _ _ ([false; false; false; true] ++ [false; false; false; false; false; false; false; false; false; true] ++ [false] ++ [false; false; false; false; false]) "request.nc_secret"). vm_compute. reflexivity. Qed.
(** Reading a wallet link leaves its secret in freed memory. *)
Theorem C122_connect_refuted : ~ leaves_nothing Key ["uri"] ["conn"] (p_connect "uri" "conn").
Proof. apply (spill_refutes _ _ _ _ [false; true; false; false; false; false] "connect.params"). vm_compute. reflexivity. Qed.
(** Checking a mnemonic leaves its words, as numbers, on the stack, and so does
    everything that starts from one. *)
Theorem C122_mnemonic_refuted : ~ leaves_nothing Key ["words"] [] (p_mnemonic_validate "words") /\ ~ leaves_nothing Key ["words"; "pass"] ["seed"] (p_to_seed "words" "pass" "seed") /\
  ~ leaves_nothing Key ["words"; "pass"] ["seed"] (p_to_seed_utf8 "words" "pass" "seed").
Proof.
  split; [|split].
  - apply (spill_refutes _ _ _ _ [false; true; false; false; false; false; false] "words.indices"). vm_compute. reflexivity.
  - apply (spill_refutes _ _ _ _ ([false] ++ [false; true; false; false; false; false; false] ++ [false; false; true]) "words.indices"). vm_compute. reflexivity.
  - apply (spill_refutes _ _ _ _ ([false] ++ [false; true; false; false; false; false; false] ++ [false; true; true]) "toseed.mnemonic"). vm_compute. reflexivity.
Qed.
(** Too small a buffer for a mnemonic holds its beginning. *)
Theorem C122_mnemonic_buffer_refuted : ~ leaves_nothing Key [] ["mnemonic"] (p_mnemonic "mnemonic").
Proof. apply (spill_refutes _ _ _ _ [false; false; true; false; true; true] "mnemonic"). vm_compute. reflexivity. Qed.
(** Failing derivations leave the master key, or the child key. *)
Theorem C122_derive_refuted : ~ leaves_nothing Key ["seed"] ["master"] (p_from_seed "seed" "master") /\ ~ leaves_nothing Key ["parent"] ["child"] (p_derive "parent" "child") /\ ~ leaves_nothing Key ["master"] ["derived"] (p_derive_path "master" "derived").
Proof.
  split; [|split].
  - apply (spill_refutes _ _ _ _ [false; false; true] "seed.nc_seckey"). vm_compute. reflexivity.
  - apply (spill_refutes _ _ _ _ [false; true; false; false; true] "child"). vm_compute. reflexivity.
  - apply (spill_refutes _ _ _ _ ([false; false; false; true; false] ++ [false; true; false; false; true]) "path.next"). vm_compute. reflexivity.
Qed.
(** Writing or reading an nsec leaves the private key on the stack. *)
Theorem C122_nsec_refuted : ~ leaves_nothing Key ["privkey"] ["nsec"] (p_to_nsec "privkey" "nsec") /\ ~ leaves_nothing Key ["nsec"] ["privkey"] (p_from_nsec "nsec" "privkey").
Proof.
  split.
  - apply (spill_refutes _ _ _ _ [false; false; false] "tonsec.data"). vm_compute. reflexivity.
  - apply (spill_refutes _ _ _ _ [false; true; false; false; false; false] "fromnsec.decoded"). vm_compute. reflexivity.
Qed.
(** A malformed private key leaves its beginning in the key pair; a signature that
    fails leaves its random bytes. *)
Theorem C122_failure_refuted : ~ leaves_nothing Key [] ["keypair"] (p_from_hex "keypair") /\ ~ leaves_nothing Noise [] [] (p_delegate "privkey").
Proof.
  split.
  - apply (spill_refutes _ _ _ _ [false; true; false; true; true] "keypair"). vm_compute. reflexivity.
  - apply (spill_refutes _ _ _ _ [false; false; false; true] "deleg.random32"). vm_compute. reflexivity.
Qed.

(** ** C123 *)
Theorem C123_nip04 : leaves_nothing Text ["text"] [] (p_encrypt4 "privkey") /\ leaves_nothing Text [] ["text"] (p_decrypt4 "privkey" "text") /\ leaves_nothing Text [] [] p_gift.
Proof. repeat apply conj; apply check_sound; vm_compute; reflexivity. Qed.
Theorem C123_partial :
  leaves Text ["text"] [] ["enc.padded"] ["enc.padded"] (p_encrypt "privkey" "text") /\
  leaves Text [] ["text"] ["dec.decrypted"; "dec.unpadded"] ["dec.decrypted"; "dec.unpadded"] (p_decrypt "privkey" "text") /\
  leaves Text ["event"] [] ["wrap.event_json"; "enc.padded"] ["wrap.event_json"; "enc.padded"] (p_wrap "privkey" "event") /\
  leaves Text [] ["event"] ["dec.decrypted"; "dec.unpadded"] ["dec.decrypted"; "dec.unpadded"] (p_unwrap "privkey" "event") /\
  leaves Text ["event"] [] ["json"; "enc.padded"] ["json"; "enc.padded"] (p_seal_event "privkey" "event" "json") /\
  leaves Text ["content"] [] ["dm.rumor"; "seal.json"; "enc.padded"] ["dm.rumor"; "seal.json"; "enc.padded"] (p_send_dm "privkey" "content") /\
  leaves Text [] ["request"] ["dec.decrypted"; "dec.unpadded"; "n46.decrypted"; "n46.root"] ["dec.decrypted"; "dec.unpadded"; "n46.decrypted"; "n46.root"] (p_parse_request "privkey" "request") /\
  leaves Text ["response"] [] ["n46.content_obj"; "n46.content_str"; "enc.padded"] ["n46.content_obj"; "n46.content_str"; "enc.padded"] (p_create_response "privkey" "response") /\
  leaves Text [] ["outs"] ["dec.decrypted"; "dec.unpadded"; "n47.decrypted"; "n47.root"] ["dec.decrypted"; "dec.unpadded"; "n47.decrypted"; "n47.root"] (p_parse_answer "privkey" "outs") /\
  leaves Text ["params"] [] ["request.payload"; "enc.padded"] ["request.payload"; "enc.padded"] (p_request "conn" "params").
Proof. repeat apply conj; apply check_sound; vm_compute; reflexivity. Qed.
(** Encrypting leaves the padded message in freed memory, decrypting the message. *)
Theorem C123_refuted : ~ leaves_nothing Text ["text"] [] (p_encrypt "privkey" "text") /\ ~ leaves_nothing Text [] ["text"] (p_decrypt "privkey" "text") /\ ~ leaves_nothing Text [] ["event"] (p_unwrap "privkey" "event").
Proof.
  split; [|split].
  - apply (spill_refutes _ _ _ _ [false; false; false; false; false; false; false; false; false; true] "enc.padded"). vm_compute. reflexivity.
  - apply (spill_refutes _ _ _ _ [false; false; false; false; false; false; false; false] "dec.unpadded"). vm_compute. reflexivity.
  - apply (spill_refutes _ _ _ _ ([false] ++ [false; false; false; false; false; false; false; false] ++ [false; false; false] ++ [false; false; false; false; false; false; false; false] ++ [true]) "dec.decrypted"). vm_compute. reflexivity.
Qed.

(** ** Cases: executions that end with success and use the secret on the way *)
Definition succeeds (k : kind) (ins : list place) (p : prog) (cs : list bool) : bool := match path 200 p cs (start k ins) with Some (Some true, [], _) => true | _ => false end.
Example C122_meets : succeeds Key ["privkey"] (p_sign "privkey") [false; false; false; false; false] = true /\ succeeds Key [] (p_generate "privkey") [false; false; false; false] = true /\
  succeeds Key [] (p_decrypt49 "privkey") [false; false; false; false; true] = true /\ succeeds Key ["words"; "pass"] (p_to_kp "words" "pass" "keypair")
    ([false] ++ [false] ++ [false; true; false; false; false; false; false] ++ [false; false; true] ++ [false; false; false] ++ [false; false; false; true; false] ++ [false; true; false; false; false] ++ [false] ++ [false]) = true.
Proof. repeat apply conj; vm_compute; reflexivity. Qed.
Example C123_meets : succeeds Text ["text"] (p_encrypt "privkey" "text") [false; false; false; false; false; false; false; false; false; true] = true /\
  succeeds Text [] (p_decrypt4 "privkey" "text") [false; false; false; false; false; false; false; false] = true.
Proof. split; vm_compute; reflexivity. Qed.

Print Assumptions C122_keys.
Print Assumptions C122_sign.
Print Assumptions C122_messages.
Print Assumptions C122_ncryptsec.
Print Assumptions C122_wraps.
Print Assumptions C122_close.
Print Assumptions C122_partial.
Print Assumptions C122_request_refuted.
Print Assumptions C122_connect_refuted.
Print Assumptions C122_mnemonic_refuted.
Print Assumptions C122_mnemonic_buffer_refuted.
Print Assumptions C122_derive_refuted.
Print Assumptions C122_nsec_refuted.
Print Assumptions C122_failure_refuted.
Print Assumptions C123_nip04.
Print Assumptions C123_partial.
Print Assumptions C123_refuted.
