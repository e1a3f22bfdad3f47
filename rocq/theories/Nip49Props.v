(** Property theorems C22, C23, C64 (NIP-49). *)
From Verif Require Import Base BaseFacts Bech32 Nip21 Nip49 Nip49Spec Nip49Proofs.
Open Scope N_scope.

Lemma payload_fields log_n salt nonce sec ct mac :
  length salt = 16%nat -> length nonce = 24%nat -> length ct = 32%nat -> length mac = 16%nat ->
  let p := payload log_n salt nonce sec ct mac in
  length p = 91%nat /\ nth 0 p 0 = 2 /\ nth 1 p 0 = log_n /\ firstn 16 (skipn 2 p) = salt /\
  firstn 24 (skipn 18 p) = nonce /\ nth 42 p 0 = sec /\ firstn 32 (skipn 43 p) = ct /\
  firstn 16 (skipn 75 p) = mac.
Proof.
  intros Ls Ln Lc Lm. unfold payload. cbv zeta.
  split; [rewrite !app_length; cbn [length]; lia|].
  split; [reflexivity|]. split; [reflexivity|].
  split; [cbn [app skipn]; apply firstn_app_exact; auto|].
  assert (E1 : [2; log_n] ++ salt ++ nonce ++ [sec] ++ ct ++ mac =
               ([2; log_n] ++ salt) ++ nonce ++ [sec] ++ ct ++ mac) by (rewrite <- app_assoc; reflexivity).
  assert (E2 : [2; log_n] ++ salt ++ nonce ++ [sec] ++ ct ++ mac =
               ([2; log_n] ++ salt ++ nonce) ++ [sec] ++ ct ++ mac) by (rewrite <- !app_assoc; reflexivity).
  assert (E3 : [2; log_n] ++ salt ++ nonce ++ [sec] ++ ct ++ mac =
               ([2; log_n] ++ salt ++ nonce ++ [sec]) ++ ct ++ mac) by (rewrite <- !app_assoc; reflexivity).
  assert (E4 : [2; log_n] ++ salt ++ nonce ++ [sec] ++ ct ++ mac =
               ([2; log_n] ++ salt ++ nonce ++ [sec] ++ ct) ++ mac) by (rewrite <- !app_assoc; reflexivity).
  split; [rewrite E1, skipn_app_exact by (rewrite app_length; cbn [length]; lia); apply firstn_app_exact; auto|].
  split; [rewrite E2, app_nth2 by (rewrite !app_length; cbn [length]; lia);
          rewrite !app_length; cbn [length]; rewrite Ls, Ln; reflexivity|].
  split; [rewrite E3, skipn_app_exact by (rewrite !app_length; cbn [length]; lia); apply firstn_app_exact; auto|].
  rewrite E4, skipn_app_exact by (rewrite !app_length; cbn [length]; lia).
  apply firstn_all2. lia.
Qed.

Lemma payload_bytes log_n salt nonce sec ct mac : log_n < 256 -> sec < 256 ->
  bytes_ok salt -> bytes_ok nonce -> bytes_ok ct -> bytes_ok mac ->
  bytes_ok (payload log_n salt nonce sec ct mac).
Proof.
  intros. unfold payload, bytes_ok in *.
  repeat (apply Forall_app; split); auto; repeat constructor; unfold byte_ok; lia.
Qed.

(** ** C22 *)
Theorem C22_roundtrip : forall scrypt seal open key password log_n size salt nonce s out,
  aead_contract seal open -> length key = 32%nat ->
  length salt = 16%nat -> length nonce = 24%nat -> bytes_ok salt -> bytes_ok nonce ->
  ncryptsec_encrypt scrypt seal key password log_n size (Some salt) (Some nonce) = Ok s ->
  ncryptsec_decrypt scrypt open s password out = (Ok tt, key) /\ length s = 162%nat /\
  exists ct mac, length ct = 32%nat /\ length mac = 16%nat /\
    decode_ncryptsec s = Ok ([2; log_n] ++ salt ++ nonce ++ [2] ++ ct ++ mac).
Proof.
  intros scrypt seal open key password log_n size salt nonce s out A Lk Ls Ln Bs Bn E.
  unfold ncryptsec_encrypt in E.
  destruct (((length password =? 0)%nat || (log_n <? 16) || (22 <? log_n)) || (size <? 163)%nat) eqn:G; [discriminate|].
  apply orb_false_iff in G as (G & G4). apply orb_false_iff in G as (G & G3). apply orb_false_iff in G as (G1 & G2).
  apply Nat.ltb_ge in G4.
  destruct (scrypt password salt log_n) as [k|] eqn:SC; [|discriminate].
  destruct (xseal seal k nonce [2] key) as [(ct, mac)|] eqn:SE; [|discriminate].
  destruct (A _ _ _ _ _ _ SE) as (Lc & Lm & Bc & Bm & OP). rewrite Lk in Lc.
  assert (log_n < 256) by (apply N.ltb_ge in G3; lia).
  pose proof (payload_fields log_n salt nonce 2 ct mac Ls Ln Lc Lm) as P. cbv zeta in P.
  pose proof (payload_bytes log_n salt nonce 2 ct mac H ltac:(lia) Bs Bn Bc Bm) as PB.
  set (p := payload log_n salt nonce 2 ct mac) in *.
  destruct P as (P0 & P1 & P2 & P3 & P4 & P5 & P6 & P7).
  destruct (encode_ncryptsec_ok p size PB P0 G4) as (s' & E' & LS & D).
  rewrite E in E'. assert (s' = s) by congruence. subst s'. clear E'.
  split; [|split; [exact LS|exists ct, mac; auto]].
  unfold ncryptsec_decrypt. rewrite G1, D, P1. cbn [negb N.eqb Pos.eqb]. rewrite P2, G2, G3. cbn [orb].
  rewrite P5. change (2 <? 2) with false. cbv iota. rewrite P3, SC, P4, P6, P7.
  unfold xopen, xseal in *. rewrite OP. reflexivity.
Qed.

(** The parameter range accepted is exactly the documented one. *)
Theorem C22_encrypt_succeeds : forall scrypt seal open key password log_n size salt nonce,
  aead_contract seal open -> length key = 32%nat -> bytes_ok key ->
  length salt = 16%nat -> length nonce = 24%nat -> bytes_ok salt -> bytes_ok nonce ->
  (forall p s n, scrypt p s n <> None) -> (forall k n a p, bytes_ok p -> seal k n a p <> None) ->
  ((exists s, ncryptsec_encrypt scrypt seal key password log_n size (Some salt) (Some nonce) = Ok s) <->
   password <> [] /\ 16 <= log_n <= 22 /\ (163 <= size)%nat).
Proof.
  intros scrypt seal open key password log_n size salt nonce A Lk Bk Ls Ln Bs Bn SC SE.
  unfold ncryptsec_encrypt.
  destruct (((length password =? 0)%nat || (log_n <? 16) || (22 <? log_n)) || (size <? 163)%nat) eqn:G.
  - split; [intros (s & E); discriminate|]. intros (H1 & H2 & H3). exfalso.
    apply orb_true_iff in G as [G|G]; [apply orb_true_iff in G as [G|G]; [apply orb_true_iff in G as [G|G]|]|].
    + apply Nat.eqb_eq in G. destruct password; [congruence|discriminate].
    + apply N.ltb_lt in G. lia.
    + apply N.ltb_lt in G. lia.
    + apply Nat.ltb_lt in G. lia.
  - apply orb_false_iff in G as (G & G4). apply orb_false_iff in G as (G & G3). apply orb_false_iff in G as (G1 & G2).
    apply Nat.eqb_neq in G1. apply N.ltb_ge in G2, G3. apply Nat.ltb_ge in G4.
    split; intros _.
    + split; [intros ->; apply G1; reflexivity|]. lia.
    + destruct (scrypt password salt log_n) as [k|] eqn:S; [|exfalso; eapply SC; exact S].
      destruct (xseal seal k nonce [2] key) as [(ct, mac)|] eqn:X; [|exfalso; eapply SE; [exact Bk|exact X]].
      destruct (A _ _ _ _ _ _ X) as (Lc & Lm & Bc & Bm & _). rewrite Lk in Lc.
      destruct (encode_ncryptsec_ok (payload log_n salt nonce 2 ct mac) size) as (s & E & _); eauto.
      * apply payload_bytes; auto; lia.
      * apply payload_fields; auto.
Qed.

(** Any NIP-49 string with one of the three security bytes decrypts. *)
Theorem C22_foreign_string : forall scrypt seal open key password log_n sec salt nonce k ct mac size s out,
  aead_contract seal open -> length key = 32%nat ->
  length salt = 16%nat -> length nonce = 24%nat -> bytes_ok salt -> bytes_ok nonce ->
  password <> [] -> 16 <= log_n <= 22 -> sec <= 2 ->
  scrypt password salt log_n = Some k ->
  xseal seal k nonce [sec] key = Some (ct, mac) ->
  encode_ncryptsec ([2; log_n] ++ salt ++ nonce ++ [sec] ++ ct ++ mac) size = Ok s -> (163 <= size)%nat ->
  ncryptsec_decrypt scrypt open s password out = (Ok tt, key).
Proof.
  intros scrypt seal open key password log_n sec salt nonce k ct mac size s out
         A Lk Ls Ln Bs Bn PW LOG SEC SC SE E SZ.
  destruct (A _ _ _ _ _ _ SE) as (Lc & Lm & Bc & Bm & OP). rewrite Lk in Lc.
  pose proof (payload_fields log_n salt nonce sec ct mac Ls Ln Lc Lm) as P. cbv zeta in P.
  pose proof (payload_bytes log_n salt nonce sec ct mac ltac:(lia) ltac:(lia) Bs Bn Bc Bm) as PB.
  fold (payload log_n salt nonce sec ct mac) in E.
  set (p := payload log_n salt nonce sec ct mac) in *.
  destruct P as (P0 & P1 & P2 & P3 & P4 & P5 & P6 & P7).
  destruct (encode_ncryptsec_ok p size PB P0 SZ) as (s' & E' & LS & D).
  assert (s' = s) by congruence. subst s'. clear E'.
  unfold ncryptsec_decrypt.
  replace (length password =? 0)%nat with false by (destruct password; [congruence|reflexivity]).
  rewrite D, P1. cbn [negb N.eqb Pos.eqb]. rewrite P2.
  replace (log_n <? 16) with false by (symmetry; apply N.ltb_ge; lia).
  replace (22 <? log_n) with false by (symmetry; apply N.ltb_ge; lia). cbn [orb].
  rewrite P5. replace (2 <? sec) with false by (symmetry; apply N.ltb_ge; lia).
  rewrite P3, SC, P4, P6, P7. unfold xopen, xseal in *. rewrite OP. reflexivity.
Qed.

(** A toy cipher satisfying the contract. *)
Definition toy_tag (a : list N) : list N := map (fun b => b mod 256) (firstn 16 (a ++ repeat 0 16)).
Definition toy_seal (k n a p : list N) : option (list N * list N) :=
  if forallb (fun b => b <? 256) p then Some (p, toy_tag a) else None.
Definition toy_open (k n a c t : list N) : option (list N) * bool := (Some c, beq t (toy_tag a)).
Lemma toy_aead : aead_contract toy_seal toy_open.
Proof.
  intros k n a p c t E. unfold toy_seal in E. destruct (forallb (fun b => b <? 256) p) eqn:B; [|discriminate E].
  assert (c = p /\ t = toy_tag a) as (-> & ->) by (split; congruence). split; [reflexivity|].
  split; [unfold toy_tag; rewrite map_length, firstn_length, app_length, repeat_length; lia|].
  split; [apply Forall_forall; intros x I; rewrite forallb_forall in B; apply N.ltb_lt; exact (B x I)|].
  split; [apply Forall_forall; intros x I; apply in_map_iff in I as (y & <- & _); apply N.mod_lt; discriminate|].
  unfold toy_open. rewrite beq_refl. reflexivity.
Qed.
(** The theorems apply to it. *)
Example C22_meets : let key := map N.of_nat (seq 1 32) in exists s,
  ncryptsec_encrypt (fun p _ _ => Some p) toy_seal key (bs "pw") 16 163 (Some (repeat 5 16)) (Some (repeat 6 24)) = Ok s /\
  ncryptsec_decrypt (fun p _ _ => Some p) toy_open s (bs "pw") (repeat 0 32) = (Ok tt, key).
Proof.
  intros key. assert (BK : bytes_ok key) by (apply Forall_forall; intros x I; apply in_map_iff in I as (y & <- & I); apply in_seq in I; unfold byte_ok; lia).
  assert (Z : forall b n, b < 256 -> bytes_ok (repeat b n)) by (intros b n L; apply Forall_forall; intros x I; apply repeat_spec in I; subst x; exact L).
  destruct (proj2 (C22_encrypt_succeeds (fun p _ _ => Some p) toy_seal toy_open key (bs "pw") 16 163 (repeat 5 16) (repeat 6 24) toy_aead eq_refl BK eq_refl eq_refl
    (Z 5 16%nat eq_refl) (Z 6 24%nat eq_refl) ltac:(discriminate)
    (fun k n a p B => ltac:(unfold toy_seal; replace (forallb (fun b => b <? 256) p) with true; [discriminate|symmetry; apply forallb_forall; intros x I; apply N.ltb_lt; exact (proj1 (Forall_forall _ _) B x I)]))))
    as (s & E); [split; [discriminate|split; lia]|].
  exists s. split; [exact E|]. exact (proj1 (C22_roundtrip (fun p _ _ => Some p) toy_seal toy_open key (bs "pw") 16 163 (repeat 5 16) (repeat 6 24) s (repeat 0 32) toy_aead eq_refl eq_refl eq_refl (Z 5 16%nat eq_refl) (Z 6 24%nat eq_refl) E)).
Qed.
Example C22_case :
  let key := map N.of_nat (seq 1 32) in
  match ncryptsec_encrypt (fun p _ _ => Some p) toy_seal key (bs "pw") 16 163
          (Some (repeat 5 16)) (Some (repeat 6 24)) with
  | Ok s => ncryptsec_decrypt (fun p _ _ => Some p) toy_open s (bs "pw") (repeat 0 32) = (Ok tt, key) /\
            prefixb (bs "ncryptsec1q") s = true
  | _ => False
  end.
Proof. vm_compute. auto. Qed.

(** ** C23 *)
Theorem C23_fail_closed : forall scrypt open s password out r key,
  ncryptsec_decrypt scrypt open s password out = (r, key) -> r <> Ok tt ->
  (key = out \/ key = repeat 0 32) /\ r <> Undef.
Proof.
  intros scrypt open s password out r key H NO. unfold ncryptsec_decrypt in H.
  destruct (length password =? 0)%nat; [injection H as <- <-; split; [auto|discriminate]|].
  destruct (decode_ncryptsec s) as [p|e|] eqn:D;
    [|injection H as <- <-; split; [auto|discriminate]|exfalso; eapply decode_ncryptsec_safe; exact D].
  repeat match type of H with
  | context [if ?c then _ else _] => destruct c; [injection H as <- <-; split; [auto|discriminate]|]
  end.
  destruct (scrypt _ _ _); [|injection H as <- <-; split; [auto|discriminate]].
  destruct (xopen _ _ _ _ _ _ _) as ([], pt); injection H as <- <-; [congruence|].
  split; [auto|discriminate].
Qed.

(** A wrong authentication tag always zeroes the key. *)
Theorem C23_wrong_password : forall scrypt open s password out key,
  ncryptsec_decrypt scrypt open s password out = (Err EInvalidSignature, key) -> key = repeat 0 32.
Proof.
  intros scrypt open s password out key H. unfold ncryptsec_decrypt in H.
  destruct (length password =? 0)%nat; [discriminate|].
  destruct (decode_ncryptsec s) as [p|e|] eqn:D; [| |discriminate].
  2:{ assert (E : e = EInvalidSignature) by congruence. subst e. exfalso. revert D. clear.
      unfold decode_ncryptsec. destruct (negb _); [discriminate|]. destruct (_ || _)%bool; [discriminate|].
      destruct (_ <? _)%nat; [discriminate|].
      assert (DC : forall cap l i, decode_chars cap i l <> Err EInvalidSignature).
      { intros cap l. induction l as [|c l IH]; intros i; cbn [decode_chars]; [discriminate|].
        destruct (charset_decode c); [|discriminate]. destruct (_ <? _)%nat; [|discriminate].
        destruct (decode_chars cap (S i) l) eqn:E; cbn [bind]; try discriminate.
        intros K. injection K as ->. eapply IH. exact E. }
      destruct (decode_chars 160 0 (skipn 10 s)) eqn:E; cbn [bind]; [|intros K; injection K as ->; eapply DC; exact E|discriminate].
      destruct (negb _); [discriminate|]. destruct (_ =? _)%nat; discriminate. }
  repeat match type of H with
  | context [if ?c then _ else _] => destruct c; [discriminate|]
  end.
  destruct (scrypt _ _ _); [|discriminate].
  destruct (xopen _ _ _ _ _ _ _) as ([], pt); [discriminate|]. congruence.
Qed.

(** Validation agrees with decryption up to the cryptographic step: if it
    fails, decryption returns the same code without looking at the password;
    if it succeeds, decryption is decided by scrypt and the cipher alone. *)
Theorem C23_validate_exact : forall s,
  (forall e, ncryptsec_validate s = Err e ->
     forall scrypt open password out, password <> [] ->
     ncryptsec_decrypt scrypt open s password out = (Err e, out)) /\
  (ncryptsec_validate s = Ok tt ->
     exists salt nonce log_n aad ct mac,
       length salt = 16%nat /\ length nonce = 24%nat /\ 16 <= log_n <= 22 /\ length ct = 32%nat /\ length mac = 16%nat /\
       forall scrypt open password out, password <> [] ->
       ncryptsec_decrypt scrypt open s password out =
       match scrypt password salt log_n with
       | None => (Err EEncoding, out)
       | Some k => match xopen open k nonce aad ct mac out with
                   | (true, pt) => (Ok tt, pt)
                   | (false, _) => (Err EInvalidSignature, repeat 0 32)
                   end
       end) /\
  ncryptsec_validate s <> Undef.
Proof.
  intros s. unfold ncryptsec_validate.
  destruct (decode_ncryptsec s) as [p|e|] eqn:D; [| |exfalso; eapply decode_ncryptsec_safe; exact D].
  2:{ split; [|split; discriminate]. intros e' E scrypt open pw out NE. unfold ncryptsec_decrypt.
      destruct (length pw =? 0)%nat eqn:L; [apply Nat.eqb_eq in L; destruct pw; [congruence|discriminate]|].
      rewrite D. congruence. }
  destruct (decode_ncryptsec_inv _ _ D) as (LP & _).
  assert (NZ : forall pw : list N, pw <> [] -> (length pw =? 0)%nat = false).
  { intros [|c pw] H; [congruence|reflexivity]. }
  destruct (negb (nth 0 p 0 =? 2)) eqn:V.
  { split; [|split; discriminate]. intros e E scrypt open pw out NE. unfold ncryptsec_decrypt.
    rewrite (NZ pw NE), D, V. congruence. }
  destruct ((nth 1 p 0 <? 16) || (22 <? nth 1 p 0)) eqn:LN.
  { split; [|split; discriminate]. intros e E scrypt open pw out NE. unfold ncryptsec_decrypt.
    rewrite (NZ pw NE), D, V. cbv zeta. rewrite LN. congruence. }
  change (2 + 16 + 24)%nat with 42%nat.
  destruct (2 <? nth 42 p 0) eqn:SB.
  { split; [|split; discriminate]. intros e E scrypt open pw out NE. unfold ncryptsec_decrypt.
    rewrite (NZ pw NE), D, V. cbv zeta. rewrite LN, SB. congruence. }
  split; [discriminate|]. split; [|discriminate]. intros _.
  exists (firstn 16 (skipn 2 p)), (firstn 24 (skipn 18 p)), (nth 1 p 0), [nth 42 p 0],
         (firstn 32 (skipn 43 p)), (firstn 16 (skipn 75 p)).
  rewrite !firstn_length, !skipn_length, LP.
  apply orb_false_iff in LN as (LN1 & LN2).
  split; [reflexivity|]. split; [reflexivity|]. split; [apply N.ltb_ge in LN1, LN2; lia|].
  split; [reflexivity|]. split; [reflexivity|].
  intros scrypt open pw out NE. unfold ncryptsec_decrypt. rewrite (NZ pw NE), D, V. cbv zeta.
  rewrite LN1, LN2, SB. reflexivity.
Qed.

Example C23_case :
  match encode_ncryptsec (payload 16 (repeat 1 16) (repeat 2 24) 2 (repeat 3 32) (repeat 4 16)) 200,
        encode_ncryptsec (payload 23 (repeat 1 16) (repeat 2 24) 2 (repeat 3 32) (repeat 4 16)) 200 with
  | Ok s, Ok s' => ncryptsec_validate s = Ok tt /\ ncryptsec_validate s' = Err EInvalidParam /\
      ncryptsec_decrypt (fun _ _ _ => Some []) toy_open s (bs "x") (repeat 7 32) = (Err EInvalidSignature, repeat 0 32)
  | _, _ => False
  end.
Proof. vm_compute. auto. Qed.

(** ** C64 *)
Theorem C64_hchacha_correct : forall key nonce,
  length key = 32%nat -> length nonce = 16%nat -> bytes_ok key -> bytes_ok nonce ->
  hchacha20 key nonce = spec_hchacha key nonce.
Proof.
  intros key nonce Lk Ln Bk Bn.
  assert (W : forall l i, bytes_ok l -> (4 * i + 4 <= length l)%nat -> load32_le (skipn (i * 4) l) = word_at l i).
  { intros l i B L. rewrite load32_word.
    - unfold word_at. replace (4 * i)%nat with (i * 4)%nat by lia. reflexivity.
    - unfold bytes_ok in *. rewrite <- (firstn_skipn (i * 4) l) in B. apply Forall_app in B. apply B.
    - rewrite skipn_length. lia. }
  unfold hchacha20, spec_hchacha.
  set (m := (row_at (bs "expand 32-byte k") 0, row_at key 0, row_at key 1, row_at nonce 0)).
  match goal with |- context [rounds 10 ?s] => replace s with (flat_m m) end.
  2:{ unfold m, row_at, flat_m. cbn [seq map]. rewrite !W by (assumption || lia). reflexivity. }
  rewrite rounds_spec. destruct (Nat.iter 10 two_rounds m) as (((r0, r1), r2), r3).
  destruct r0 as (((a0, a1), a2), a3). destruct r1 as (((b0, b1), b2), b3).
  destruct r2 as (((c0, c1), c2), c3). destruct r3 as (((d0, d1), d2), d3).
  unfold flat_m, row_bytes. cbn [seq flat_map nth Nat.add]. rewrite !store32_bytes, !app_nil_r. reflexivity.
Qed.

(** The extended-nonce construction as used by the library. *)
Theorem C64_xchacha_construction : forall seal key nonce aad pt,
  length key = 32%nat -> length nonce = 24%nat -> bytes_ok key -> bytes_ok nonce ->
  xseal seal key nonce aad pt =
  seal (spec_hchacha key (firstn 16 nonce)) (repeat 0 4 ++ skipn 16 nonce) aad pt.
Proof.
  intros seal key nonce aad pt Lk Ln Bk Bn. unfold xseal, nonce12.
  assert (H : hchacha20 key nonce = hchacha20 key (firstn 16 nonce)).
  { destruct nonce as [|n0 [|n1 [|n2 [|n3 [|n4 [|n5 [|n6 [|n7 [|n8 [|n9 [|n10 [|n11 [|n12 [|n13 [|n14 [|n15 r]]]]]]]]]]]]]]]];
      try discriminate Ln. reflexivity. }
  rewrite H, C64_hchacha_correct; auto.
  - f_equal. cbn [repeat app]. rewrite firstn_all2; [reflexivity|]. rewrite skipn_length. lia.
  - rewrite firstn_length. lia.
  - unfold bytes_ok in *. rewrite <- (firstn_skipn 16 nonce) in Bn. apply Forall_app in Bn. apply Bn.
Qed.

(** The published test vector. *)
Example C64_case :
  hchacha20 (map N.of_nat (seq 0 32)) [0;0;0;9;0;0;0;0x4a;0;0;0;0;0x31;0x41;0x59;0x27] =
  [0x82;0x41;0x3b;0x42;0x27;0xb2;0x7b;0xfe;0xd3;0x0e;0x42;0x50;0x8a;0x87;0x7d;0x73;
   0xa0;0xf9;0xe4;0xd5;0x8a;0x74;0xa8;0x53;0xc1;0x2e;0xc4;0x13;0x26;0xd3;0xec;0xdc].
Proof. vm_compute. reflexivity. Qed.

Print Assumptions C22_roundtrip.
Print Assumptions C22_encrypt_succeeds.
Print Assumptions C22_foreign_string.
Print Assumptions C23_fail_closed.
Print Assumptions C23_wrong_password.
Print Assumptions C23_validate_exact.
Print Assumptions C64_hchacha_correct.
Print Assumptions C64_xchacha_construction.
