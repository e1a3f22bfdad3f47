(** C137: two people derive the same secret. *)
From Verif Require Import Base BaseFacts KeyPair Ecdh EcdhSpec.
Open Scope N_scope.

Section Agreement.
Variable c : curve.
Hypothesis K : curve_ok c.
Notation G := (base c).

Lemma public_proper sk : usable c sk -> proper c (mul c (number sk) G).
Proof. intros U. apply (c_mul c K); [exact U|apply (c_base c K)]. Qed.
(** The point read from a public key is the owner's point or its opposite. *)
Lemma stands_public sk pk : public c sk pk -> exists p, stands c pk p /\
  (p = mul c (number sk) G /\ isodd c (mul c (number sk) G) = false \/ p = opp c (mul c (number sk) G) /\ isodd c (mul c (number sk) G) = true).
Proof.
  intros (U & ->). pose proof (public_proper sk U) as P. destruct (isodd c (mul c (number sk) G)) eqn:O.
  - exists (opp c (mul c (number sk) G)). split; [|right; auto]. split; [apply (c_opp c K), P|]. split; [apply (c_xopp c K), P|]. rewrite (c_odd c K) by exact P. rewrite O. reflexivity.
  - exists (mul c (number sk) G). split; [|left; auto]. split; [exact P|]. auto.
Qed.
Lemma stands_one pk p q : stands c pk p -> stands c pk q -> p = q.
Proof.
  intros (P1 & X1 & O1) (P2 & X2 & O2). destruct (c_same c K p q P1 P2) as [E|E]; [congruence|exact E|]. subst p. rewrite (c_odd c K) in O1 by exact P2. rewrite O2 in O1. discriminate.
Qed.
Lemma product a b pb p : usable c a -> public c b pb -> stands c pb p ->
  mul c (number a) p = if isodd c (mul c (number b) G) then opp c (mul c (number a * number b) G) else mul c (number a * number b) G.
Proof.
  intros Ua Pb S. destruct (stands_public b pb Pb) as (q & Sq & Q). rewrite (stands_one pb p q S Sq). pose proof (c_base c K) as BG. pose proof (public_proper b (proj1 Pb)) as BP.
  destruct Q as [(-> & ->)|(-> & ->)]; [apply (c_mulmul c K), BG|]. rewrite (c_mulopp c K) by exact BP. rewrite (c_mulmul c K) by exact BG. reflexivity.
Qed.
Lemma product_proper a b : usable c a -> usable c b -> proper c (mul c (number a * number b) G).
Proof. intros Ua Ub. rewrite <- (c_mulmul c K) by apply (c_base c K). apply (c_mul c K); [exact Ua|]. apply public_proper, Ub. Qed.

(** With noscrypt both sides get the first coordinate of the common point. *)
Theorem C137_agree : forall shared a b pa pb, noscrypt_ok c shared -> public c a pa -> public c b pb ->
  exists s, key_ecdh shared None a pb = Ok s /\ key_ecdh shared None b pa = Ok s /\ s = xof c (mul c (number a * number b) G) /\ length s = 32%nat.
Proof.
  intros shared a b pa pb L Pa Pb. exists (xof c (mul c (number a * number b) G)).
  assert (A : forall a b pb, usable c a -> public c b pb -> key_ecdh shared None a pb = Ok (xof c (mul c (number a * number b) G))).
  { intros x y py Ux Py. destruct (stands_public y py Py) as (p & S & _). unfold key_ecdh. rewrite (nc_gives c shared L x py p Ux S), (product x y py p Ux Py S).
    pose proof (product_proper x y Ux (proj1 Py)) as PP.
    assert (X : xof c (if isodd c (mul c (number y) G) then opp c (mul c (number x * number y) G) else mul c (number x * number y) G) = xof c (mul c (number x * number y) G)) by (destruct (isodd c _); [apply (c_xopp c K), PP|reflexivity]).
    rewrite X, firstn_all2 by (rewrite (c_len c K) by exact PP; lia). reflexivity. }
  split; [apply A; [apply Pa|exact Pb]|]. split; [rewrite (A b a pa (proj1 Pb) Pa), N.mul_comm; reflexivity|]. split; [reflexivity|]. apply (c_len c K), product_proper; [apply Pa|apply Pb].
Qed.
(** Keys that cannot be used are refused, and the reason a start fails is passed on. *)
Theorem C137_refused : forall shared sha parse ecdh create e a pb, noscrypt_ok c shared -> secp_ok c sha parse ecdh create ->
  (~ usable c a \/ (forall p, ~ stands c pb p) -> key_ecdh shared None a pb = Err EInvalidKey /\ key_ecdh_secp (point c) parse ecdh None a pb = Err EInvalidKey) /\
  key_ecdh shared (Some e) a pb = Err e /\ key_ecdh_secp (point c) parse ecdh (Some e) a pb = Err e.
Proof.
  intros shared sha parse ecdh create e a pb L S. split; [|split; reflexivity]. intros D. unfold key_ecdh, key_ecdh_secp. split.
  - destruct D as [D|D]; [rewrite (nc_key c shared L a pb D)|rewrite (nc_point c shared L a pb D)]; reflexivity.
  - destruct (parse (2 :: pb)) as [p|] eqn:P; [|reflexivity]. apply (sp_parse c sha parse ecdh create S) in P. destruct D as [D|D]; [rewrite (sp_key c sha parse ecdh create S p a D); reflexivity|destruct (D p P)].
Qed.
(** With libsecp256k1 each side gets a hash of the common point or of its opposite,
    depending on the other side's key. *)
Lemma secp_gives sha parse ecdh create a b pb : secp_ok c sha parse ecdh create -> usable c a -> public c b pb ->
  key_ecdh_secp (point c) parse ecdh None a pb = Ok (sha ((if xorb (isodd c (mul c (number b) G)) (isodd c (mul c (number a * number b) G)) then 3 else 2) :: xof c (mul c (number a * number b) G))).
Proof.
  intros S Ua Pb. destruct (stands_public b pb Pb) as (p & T & _). unfold key_ecdh_secp. rewrite (proj2 (sp_parse c sha parse ecdh create S pb p) T), (sp_ecdh c sha parse ecdh create S p a (proj1 T) Ua).
  unfold compressed. rewrite (product a b pb p Ua Pb T). pose proof (product_proper a b Ua (proj1 Pb)) as PP. destruct (isodd c (mul c (number b) G)); [rewrite (c_odd c K), (c_xopp c K) by exact PP; destruct (isodd c _); reflexivity|]. destruct (isodd c (mul c (number a * number b) G)); reflexivity.
Qed.
Lemma secp_public sha parse ecdh create a pa : secp_ok c sha parse ecdh create -> public c a pa -> public_secp (point c) create (xof c) a = Some pa.
Proof. intros S (U & ->). unfold public_secp. rewrite (sp_create c sha parse ecdh create S a U). reflexivity. Qed.
(** They agree if the points of both have the same parity. *)
Theorem C137_secp_partial : forall sha parse ecdh create a b pa pb, secp_ok c sha parse ecdh create -> usable c a -> usable c b ->
  public_secp (point c) create (xof c) a = Some pa -> public_secp (point c) create (xof c) b = Some pb ->
  isodd c (mul c (number a) G) = isodd c (mul c (number b) G) ->
  exists s, key_ecdh_secp (point c) parse ecdh None a pb = Ok s /\ key_ecdh_secp (point c) parse ecdh None b pa = Ok s.
Proof.
  intros sha parse ecdh create a b pa pb S Ua Ub Ea Eb P.
  assert (Pa : public c a pa) by (split; [exact Ua|]; rewrite (secp_public sha parse ecdh create a _ S (conj Ua eq_refl)) in Ea; congruence).
  assert (Pb : public c b pb) by (split; [exact Ub|]; rewrite (secp_public sha parse ecdh create b _ S (conj Ub eq_refl)) in Eb; congruence).
  eexists. split; [apply (secp_gives sha parse ecdh create a b pb S Ua Pb)|]. rewrite (secp_gives sha parse ecdh create b a pa S Ub Pa), (N.mul_comm (number b)), P. reflexivity.
Qed.
(** Otherwise they do not, unless SHA-256 collides: whoever has a key of each parity
    can talk to only half of the others. *)
Theorem C137_secp_differs : forall sha parse ecdh create a b pa pb, secp_ok c sha parse ecdh create -> usable c a -> usable c b ->
  public_secp (point c) create (xof c) a = Some pa -> public_secp (point c) create (xof c) b = Some pb ->
  isodd c (mul c (number a) G) <> isodd c (mul c (number b) G) -> (forall x, sha (2 :: x) <> sha (3 :: x)) ->
  exists s s', key_ecdh_secp (point c) parse ecdh None a pb = Ok s /\ key_ecdh_secp (point c) parse ecdh None b pa = Ok s' /\ s <> s'.
Proof.
  intros sha parse ecdh create a b pa pb S Ua Ub Ea Eb P NC.
  assert (Pa : public c a pa) by (split; [exact Ua|]; rewrite (secp_public sha parse ecdh create a _ S (conj Ua eq_refl)) in Ea; congruence).
  assert (Pb : public c b pb) by (split; [exact Ub|]; rewrite (secp_public sha parse ecdh create b _ S (conj Ub eq_refl)) in Eb; congruence).
  do 2 eexists. split; [apply (secp_gives sha parse ecdh create a b pb S Ua Pb)|]. split; [apply (secp_gives sha parse ecdh create b a pa S Ub Pa)|].
  rewrite (N.mul_comm (number b)). destruct (isodd c (mul c (number a) G)), (isodd c (mul c (number b) G)); try (destruct (P eq_refl)); destruct (isodd c (mul c (number a * number b) G)); cbn [xorb]; (apply NC || apply not_eq_sym, NC).
Qed.
End Agreement.

(** ** A curve of thirteen points *)
Definition c13 : curve := mkCurve N (fun p => 0 < p < 13) 1 13 (fun a p => a * p mod 13) (fun p => (13 - p) mod 13) (fun p => repeat (N.min p (13 - p)) 32) N.odd.
Lemma small (P : N -> Prop) : P 1 -> P 2 -> P 3 -> P 4 -> P 5 -> P 6 -> P 7 -> P 8 -> P 9 -> P 10 -> P 11 -> P 12 -> forall p, 0 < p < 13 -> P p.
Proof.
  intros. assert (D : p = 1 \/ p = 2 \/ p = 3 \/ p = 4 \/ p = 5 \/ p = 6 \/ p = 7 \/ p = 8 \/ p = 9 \/ p = 10 \/ p = 11 \/ p = 12) by lia.
  repeat (destruct D as [->|D]; [assumption|]). subst. assumption.
Qed.
Lemma c13_ok : curve_ok c13.
Proof.
  split; cbn [c13 proper base order mul opp xof isodd].
  - lia.
  - intros a p A P. revert p P. revert a A. refine (small _ _ _ _ _ _ _ _ _ _ _ _ _); refine (small _ _ _ _ _ _ _ _ _ _ _ _ _); vm_compute; auto.
  - intros p P. rewrite N.mod_small; lia.
  - intros a b p P. rewrite N.mul_mod_idemp_r by discriminate. f_equal. lia.
  - intros a p P. rewrite (N.mod_small (13 - p)) by lia. revert p P. refine (small _ _ _ _ _ _ _ _ _ _ _ _ _); zify; Z.to_euclidean_division_equations; lia.
  - intros p P. rewrite N.mod_small by lia. f_equal. lia.
  - intros p q P Q E. rewrite N.mod_small by lia. assert (X : N.min p (13 - p) = N.min q (13 - q)) by (pose proof (f_equal (hd 0) E) as Y; exact Y). lia.
  - refine (small _ _ _ _ _ _ _ _ _ _ _ _ _); reflexivity.
  - intros p _. apply repeat_length.
Qed.
Definition usableb (sk : list N) : bool := (0 <? number sk) && (number sk <? 13).
Lemma usableb_spec sk : usableb sk = true <-> usable c13 sk.
Proof. unfold usableb, usable. cbn [order c13]. rewrite andb_true_iff, N.ltb_lt, N.ltb_lt. tauto. Qed.
Definition lift13 (pk : list N) : option N := find (fun p => beq (xof c13 p) pk && negb (N.odd p)) [1; 2; 3; 4; 5; 6; 7; 8; 9; 10; 11; 12].
Lemma lift13_spec pk p : lift13 pk = Some p <-> stands c13 pk p.
Proof.
  assert (F : forall q, lift13 pk = Some q -> stands c13 pk q).
  { intros q E. apply find_some in E as (I & E). apply andb_true_iff in E as (E & O). apply negb_true_iff in O. apply beq_eq in E. split; [|auto]. cbn [proper c13]. cbn [In] in I. lia. }
  split; [apply F|]. intros (P & X & O). destruct (lift13 pk) as [q|] eqn:E; [f_equal; apply (stands_one c13 c13_ok pk); [apply F; reflexivity|split; auto]|].
  assert (I : In p [1; 2; 3; 4; 5; 6; 7; 8; 9; 10; 11; 12]) by (cbn [proper c13] in P; cbn [In]; lia). pose proof (find_none _ _ E p I) as B. cbn beta in B. rewrite X in B. cbn [isodd c13] in O. rewrite O, (proj2 (beq_eq pk pk) eq_refl) in B. discriminate.
Qed.
Definition sha13 (x : list N) : list N := firstn 32 x.
Definition parse13 (x : list N) : option N := match x with t :: pk => if t =? 2 then lift13 pk else None | [] => None end.
Definition ecdh13 (p : N) (sk : list N) : option (list N) := if usableb sk then Some (sha13 (compressed c13 (mul c13 (number sk) p))) else None.
Definition create13 (sk : list N) : option N := if usableb sk then Some (mul c13 (number sk) (base c13)) else None.
Definition shared13 (sk pk : list N) : option (list N) := if usableb sk then match lift13 pk with Some p => Some (xof c13 (mul c13 (number sk) p)) | None => None end else None.
Lemma secp13 : secp_ok c13 sha13 parse13 ecdh13 create13.
Proof.
  split; [intros pk p; apply lift13_spec|intros p sk _ U|intros p sk U|intros sk U]; unfold ecdh13, create13; try (rewrite (proj2 (usableb_spec sk) U); reflexivity).
  destruct (usableb sk) eqn:E; [apply usableb_spec in E; contradiction|reflexivity].
Qed.
Lemma noscrypt13 : noscrypt_ok c13 shared13.
Proof.
  split; unfold shared13.
  - intros sk pk p U S. rewrite (proj2 (usableb_spec sk) U), (proj2 (lift13_spec pk p) S). reflexivity.
  - intros sk pk U. destruct (usableb sk) eqn:E; [apply usableb_spec in E; contradiction|reflexivity].
  - intros sk pk A. destruct (usableb sk); [|reflexivity]. destruct (lift13 pk) as [p|] eqn:E; [apply lift13_spec in E; destruct (A p E)|reflexivity].
Qed.
Definition key (n : N) : list N := repeat 0 31 ++ [n].
(** *** What does not hold *)
Theorem C137_refuted : ~ (forall c sha parse ecdh create a b pa pb, curve_ok c -> secp_ok c sha parse ecdh create ->
  public_secp (point c) create (xof c) a = Some pa -> public_secp (point c) create (xof c) b = Some pb ->
  key_ecdh_secp (point c) parse ecdh None a pb = key_ecdh_secp (point c) parse ecdh None b pa).
Proof. intros C. specialize (C c13 sha13 parse13 ecdh13 create13 (key 1) (key 2) _ _ c13_ok secp13 eq_refl eq_refl). vm_compute in C. discriminate C. Qed.
(** The header promises the first coordinate only; so two builds of the library do not
    understand each other. *)
Theorem C137_builds_refuted : ~ (forall c sha parse ecdh create shared a b pb, curve_ok c -> secp_ok c sha parse ecdh create -> noscrypt_ok c shared ->
  usable c a -> public c b pb -> key_ecdh_secp (point c) parse ecdh None a pb = key_ecdh shared None a pb).
Proof.
  intros C. assert (U : usable c13 (key 4) /\ usable c13 (key 2)) by (split; vm_compute; auto).
  specialize (C c13 sha13 parse13 ecdh13 create13 shared13 (key 4) (key 2) _ c13_ok secp13 noscrypt13 (proj1 U) (conj (proj2 U) eq_refl)).
  vm_compute in C. discriminate C.
Qed.
(** ** Cases *)
Example C137_meets : public c13 (key 4) (repeat 4 32) /\ public c13 (key 9) (repeat 4 32) /\ public c13 (key 5) (repeat 5 32) /\
  key_ecdh shared13 None (key 4) (repeat 5 32) = Ok (repeat 6 32) /\ key_ecdh shared13 None (key 5) (repeat 4 32) = Ok (repeat 6 32) /\
  isodd c13 (mul c13 4 1) <> isodd c13 (mul c13 9 1) /\ (forall x, sha13 (2 :: x) <> sha13 (3 :: x)).
Proof. repeat split; try (vm_compute; reflexivity); [vm_compute; discriminate|discriminate]. Qed.

Print Assumptions C137_agree.
Print Assumptions C137_refused.
Print Assumptions C137_secp_partial.
Print Assumptions C137_secp_differs.
Print Assumptions C137_refuted.
Print Assumptions C137_builds_refuted.
