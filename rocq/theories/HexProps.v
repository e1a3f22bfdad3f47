(** Property theorems C13 (hex), C14 (key hex), C15 (constant-time compare). *)
From Verif Require Import Base BaseFacts Hex HexSpec HexProofs.
Open Scope N_scope.

(** C13 *)
Theorem C13_hex_roundtrip : forall bytes out_len,
  bytes_ok bytes -> (length bytes <= out_len)%nat ->
  hex_decode (hex_encode bytes) out_len = (bytes, Some (length bytes)).
Proof.
  intros l n B L. pose proof (hextext_encode l B) as H. unfold hex_decode.
  rewrite (hextext_length _ _ H), (hex_loop_ok _ _ H).
  rewrite (Nat.mul_comm 2), Nat.mod_mul, Nat.div_mul by lia. simpl Nat.eqb. cbn [negb orb].
  destruct (Nat.ltb_spec n (length l)); [lia|reflexivity].
Qed.

(** Success exactly on hexadecimal text whose bytes fit, with those bytes. *)
Theorem C13_hex_decode_exact : forall s out_len bytes n,
  hex_decode s out_len = (bytes, Some n) <->
  hextext s bytes /\ n = length bytes /\ (length bytes <= out_len)%nat.
Proof.
  intros s m bytes n. unfold hex_decode. split.
  - destruct (Nat.eqb_spec (length s mod 2) 0) as [E|]; [|discriminate]. cbn [negb orb].
    destruct (Nat.ltb_spec m (length s / 2)); [discriminate|].
    destruct (hex_decode_loop s) as [o ok] eqn:D. destruct ok; [|discriminate].
    intros X. injection X as -> <-. pose proof (hex_loop_inv s bytes E D) as T.
    split; auto.
    assert (length s / 2 = length bytes)%nat
      by (rewrite (hextext_length _ _ T), (Nat.mul_comm 2), Nat.div_mul; lia).
    split; [exact H0|lia].
  - intros (T & -> & L). rewrite (hextext_length _ _ T), (hex_loop_ok _ _ T).
    rewrite (Nat.mul_comm 2), Nat.mod_mul, Nat.div_mul by lia. simpl Nat.eqb. cbn [negb orb].
    destruct (Nat.ltb_spec m (length bytes)); [lia|reflexivity].
Qed.

Theorem C13_hex_text_shape : forall s, (exists l, hextext s l) <->
  (length s mod 2 = 0)%nat /\ all_hex s.
Proof.
  intros s. split.
  - intros (l & H). split; [|eapply hextext_all_hex; eauto].
    rewrite (hextext_length _ _ H), Nat.mul_comm. apply Nat.mod_mul. lia.
  - intros [M H]. apply all_hex_hextext; auto.
Qed.

(** Whatever the input, at most [out_len] bytes are stored. *)
Theorem C13_hex_decode_in_bounds : forall s out_len,
  (length (fst (hex_decode s out_len)) <= out_len)%nat.
Proof.
  intros s m. unfold hex_decode. destruct (negb _); [simpl; lia|]. cbn [orb].
  destruct (Nat.ltb_spec m (length s / 2)); [simpl; lia|].
  pose proof (hex_loop_len s). destruct (hex_decode_loop s). simpl in *. lia.
Qed.

Example C13_witness : hex_decode (bs "00fFA5") 3 = ([0; 255; 165], Some 3%nat).
Proof. reflexivity. Qed.

(** C14 *)
Theorem C14_key_hex_roundtrip : forall key size,
  bytes_ok key -> length key = 32%nat -> (65 <= size)%nat ->
  exists s, key_to_hex key size = Ok s /\ length s = 64%nat /\ key_from_hex s = Ok key.
Proof.
  intros key size B L S. unfold key_to_hex. destruct (Nat.ltb_spec size 65); [lia|].
  eexists. split; [reflexivity|]. pose proof (hextext_encode key B) as HT.
  split; [rewrite (hextext_length _ _ HT); lia|]. apply key_from_hex_ok; auto.
Qed.

(** The strictness claim is false: blanks, signs and stray letters are
    accepted. *)
Theorem C14_key_from_hex_strict_refuted :
  exists s k, length s = 64%nat /\ ~ all_hex s /\ key_from_hex s = Ok k.
Proof.
  exists (bs "-1 a+21g" ++ concat (repeat (bs "0z") 28)). eexists.
  split; [reflexivity|]. split; [|vm_compute; reflexivity].
  intros H. inversion H as [|? ? (d & D) _]. apply nibble_hexdig in D. discriminate D.
Qed.

(** The other half holds: 64 hex digits give exactly those bytes, and any
    accepted string has 64 characters and yields 32 bytes. *)
Theorem C14_key_from_hex_partial : forall s,
  (length s = 64%nat -> all_hex s -> exists k, hextext s k /\ key_from_hex s = Ok k) /\
  (forall k, key_from_hex s = Ok k -> length s = 64%nat /\ length k = 32%nat).
Proof.
  intros s. split.
  - intros L H. destruct (all_hex_hextext s) as (k & K); auto; [rewrite L; reflexivity|].
    exists k. split; auto. apply key_from_hex_ok; auto.
    pose proof (hextext_length _ _ K). lia.
  - intros k H. unfold key_from_hex in H.
    destruct (Nat.eqb_spec (length s) 64) as [E|]; [|discriminate]. cbn [negb] in H.
    destruct (scan_bytes 32 s) eqn:X; [|discriminate]. injection H as <-.
    split; auto. eapply scan_bytes_length; eauto.
Qed.

Example C14_witness : key_from_hex (concat (repeat (bs "aF") 32)) = Ok (repeat 175 32).
Proof. vm_compute. reflexivity. Qed.

(** C15 *)
Theorem C15_memcmp_decides_equality : forall a b n,
  (n <= length a)%nat -> (n <= length b)%nat ->
  exists d, constant_time_memcmp a b n = Ok (d, n) /\
            (d = 0 <-> firstn n a = firstn n b).
Proof.
  intros a b n La Lb. destruct (memcmp_loop_spec n a b 0 0 La Lb) as (d & E & H).
  exists d. split; auto. rewrite H. tauto.
Qed.

Example C15_witness : constant_time_memcmp [1;2;3] [1;2;4] 3 = Ok (7, 3%nat).
Proof. reflexivity. Qed.

Print Assumptions C13_hex_roundtrip.
Print Assumptions C13_hex_decode_exact.
Print Assumptions C13_hex_text_shape.
Print Assumptions C13_hex_decode_in_bounds.
Print Assumptions C14_key_hex_roundtrip.
Print Assumptions C14_key_from_hex_strict_refuted.
Print Assumptions C14_key_from_hex_partial.
Print Assumptions C15_memcmp_decides_equality.
