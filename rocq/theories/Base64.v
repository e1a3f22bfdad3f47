(** RFC 4648 base64 (standard alphabet, padded).  src/nip44.c:130-248 calls
    OpenSSL's or mbedTLS's codec; the model takes the codec as a parameter and
    this file provides one that satisfies the contract, so that the theorems'
    hypotheses are met by the real encoding. *)
From Verif Require Import Base.
Open Scope N_scope.

Definition b64_char (v : N) : N :=
  if v <? 26 then 65 + v
  else if v <? 52 then 71 + v
  else if v <? 62 then v - 4
  else if v =? 62 then 43 else 47.

Definition b64_val (c : N) : option N :=
  if (65 <=? c) && (c <=? 90) then Some (c - 65)
  else if (97 <=? c) && (c <=? 122) then Some (c - 71)
  else if (48 <=? c) && (c <=? 57) then Some (c + 4)
  else if c =? 43 then Some 62
  else if c =? 47 then Some 63
  else None.

Fixpoint b64_encode (l : list N) : list N :=
  match l with
  | [] => []
  | [a] => [b64_char (a / 4); b64_char (a mod 4 * 16); 61; 61]
  | [a; b] => [b64_char (a / 4); b64_char (a mod 4 * 16 + b / 16); b64_char (b mod 16 * 4); 61]
  | a :: b :: c :: r =>
    b64_char (a / 4) :: b64_char (a mod 4 * 16 + b / 16) ::
    b64_char (b mod 16 * 4 + c / 64) :: b64_char (c mod 64) :: b64_encode r
  end.

Fixpoint b64_decode (s : list N) : option (list N) :=
  match s with
  | [] => Some []
  | w :: x :: y :: z :: r =>
    match b64_val w, b64_val x with
    | Some a, Some b =>
      if z =? 61 then
        match r with
        | [] =>
          if y =? 61 then if b mod 16 =? 0 then Some [a * 4 + b / 16] else None
          else match b64_val y with
               | Some c => if c mod 4 =? 0 then Some [a * 4 + b / 16; b mod 16 * 16 + c / 4] else None
               | None => None
               end
        | _ => None
        end
      else
        match b64_val y, b64_val z, b64_decode r with
        | Some c, Some d, Some t =>
          Some (a * 4 + b / 16 :: b mod 16 * 16 + c / 4 :: c mod 4 * 64 + d :: t)
        | _, _, _ => None
        end
    | _, _ => None
    end
  | _ => None
  end.

Lemma b64_char_cases v : v < 64 ->
  (v < 26 /\ b64_char v = 65 + v) \/ (26 <= v < 52 /\ b64_char v = 71 + v) \/
  (52 <= v < 62 /\ b64_char v = v - 4) \/ (v = 62 /\ b64_char v = 43) \/
  (v = 63 /\ b64_char v = 47).
Proof.
  intros H. unfold b64_char.
  destruct (N.ltb_spec v 26); [left; auto|].
  destruct (N.ltb_spec v 52); [right; left; auto|].
  destruct (N.ltb_spec v 62); [right; right; left; auto|].
  destruct (N.eqb_spec v 62); [do 3 right; left; auto|].
  do 4 right. split; auto. lia.
Qed.

Lemma b64_val_char v : v < 64 -> b64_val (b64_char v) = Some v.
Proof.
  intros H. unfold b64_val.
  destruct (b64_char_cases v H) as [(? & ->)|[(? & ->)|[(? & ->)|[(-> & ->)|(-> & ->)]]]];
    try reflexivity.
  - replace ((65 <=? 65 + v) && (65 + v <=? 90)) with true
      by (symmetry; apply andb_true_iff; split; apply N.leb_le; lia).
    f_equal; lia.
  - replace ((65 <=? 71 + v) && (71 + v <=? 90)) with false
      by (symmetry; apply andb_false_iff; right; apply N.leb_gt; lia).
    replace ((97 <=? 71 + v) && (71 + v <=? 122)) with true
      by (symmetry; apply andb_true_iff; split; apply N.leb_le; lia).
    f_equal; lia.
  - replace ((65 <=? v - 4) && (v - 4 <=? 90)) with false
      by (symmetry; apply andb_false_iff; left; apply N.leb_gt; lia).
    replace ((97 <=? v - 4) && (v - 4 <=? 122)) with false
      by (symmetry; apply andb_false_iff; left; apply N.leb_gt; lia).
    replace ((48 <=? v - 4) && (v - 4 <=? 57)) with true
      by (symmetry; apply andb_true_iff; split; apply N.leb_le; lia).
    f_equal; lia.
Qed.

Lemma b64_char_ne v : v < 64 -> b64_char v <> 61 /\ b64_char v <> 35 /\ 0 < b64_char v < 256.
Proof.
  intros H. destruct (b64_char_cases v H) as [(? & ->)|[(? & ->)|[(? & ->)|[(-> & ->)|(-> & ->)]]]]; lia.
Qed.

Ltac dv := zify; Z.to_euclidean_division_equations; lia.

Lemma b64_roundtrip l : bytes_ok l -> b64_decode (b64_encode l) = Some l.
Proof.
  remember (length l) as n eqn:E. assert (Hn : (length l <= n)%nat) by lia. clear E.
  revert l Hn. induction n as [|n IH]; intros l Hn Hb.
  { destruct l; [reflexivity|simpl in Hn; lia]. }
  destruct l as [|a [|b [|c r]]].
  - reflexivity.
  - inversion Hb as [|? ? Ha ?]; subst. unfold byte_ok in Ha.
    cbn [b64_encode b64_decode]. change (61 =? 61) with true. cbv iota beta.
    rewrite !b64_val_char by dv. cbv iota beta.
    replace (a mod 4 * 16 mod 16) with 0 by dv. change (0 =? 0) with true. cbv iota.
    f_equal. f_equal. dv.
  - inversion Hb as [|? ? Ha H1]; subst. inversion H1 as [|? ? Hb' ?]; subst. unfold byte_ok in *.
    cbn [b64_encode b64_decode].
    rewrite !b64_val_char by dv. cbv iota beta.
    change (61 =? 61) with true. cbv iota.
    destruct (b64_char_ne (b mod 16 * 4) ltac:(dv)) as (Hne & _).
    apply N.eqb_neq in Hne. rewrite Hne.
    replace (b mod 16 * 4 mod 4) with 0 by dv. change (0 =? 0) with true. cbv iota.
    f_equal. f_equal; [dv|]. f_equal. dv.
  - inversion Hb as [|? ? Ha H1]; subst. inversion H1 as [|? ? Hb' H2]; subst.
    inversion H2 as [|? ? Hc H3]; subst. unfold byte_ok in *.
    cbn [b64_encode b64_decode].
    rewrite !b64_val_char by dv. cbv iota beta.
    destruct (b64_char_ne (c mod 64) ltac:(dv)) as (Hne & _).
    apply N.eqb_neq in Hne. rewrite Hne.
    rewrite IH; [|simpl in Hn; lia|exact H3].
    f_equal. f_equal; [dv|]. f_equal; [dv|]. f_equal. dv.
Qed.

(** Base64 text never starts with a hash sign and holds no NUL. *)
Lemma b64_encode_head l : bytes_ok l -> forall c r, b64_encode l = c :: r -> c <> 35.
Proof.
  intros Hb c r E. destruct l as [|a [|b [|d t]]]; cbn [b64_encode] in E; [discriminate| | |];
    inversion Hb as [|? ? Ha ?]; subst; unfold byte_ok in Ha;
    injection E as <- _; apply b64_char_ne; dv.
Qed.
