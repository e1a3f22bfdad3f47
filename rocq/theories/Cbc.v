(** AES-256-CBC with the padding of PKCS #7 over a block cipher: what the EVP calls
    of src/nip44.c:534-556 and 641-661 compute together (OpenSSL, not in /repo). *)
From Verif Require Import Base.
Open Scope N_scope.

Fixpoint xors (a b : list N) : list N := match a, b with x :: a, y :: b => N.lxor x y :: xors a b | _, _ => [] end.
Definition pkcs_pad (m : list N) : list N := let k := (16 - length m mod 16)%nat in m ++ repeat (N.of_nat k) k.
(** EVP_DecryptFinal_ex refuses a last byte of 0 or above 16, and a wrong one before it. *)
Definition pkcs_unpad (p : list N) : option (list N) :=
  let k := N.to_nat (last p 0) in
  let n := (length p - k)%nat in
  if ((k =? 0) || (16 <? k) || (length p <? k))%nat then None
  else if beq (skipn n p) (repeat (N.of_nat k) k) then Some (firstn n p) else None.
Section Cbc.
(** The block cipher and its inverse, given the key *)
Variable E D : list N -> list N -> list N.
Fixpoint cbc_enc_blocks (n : nat) (key prev p : list N) : list N :=
  match n with
  | O => []
  | S n => let c := E key (xors prev (firstn 16 p)) in c ++ cbc_enc_blocks n key c (skipn 16 p)
  end.
Fixpoint cbc_dec_blocks (n : nat) (key prev c : list N) : list N :=
  match n with
  | O => []
  | S n => xors prev (D key (firstn 16 c)) ++ cbc_dec_blocks n key (firstn 16 c) (skipn 16 c)
  end.
(** src/nip44.c:534-556 EVP_EncryptInit_ex, EVP_EncryptUpdate, EVP_EncryptFinal_ex *)
Definition cbc_enc (key iv m : list N) : option (list N) :=
  if ((length key =? 32) && (length iv =? 16))%nat then let p := pkcs_pad m in Some (cbc_enc_blocks (length p / 16) key iv p) else None.
(** src/nip44.c:641-661 EVP_DecryptInit_ex, EVP_DecryptUpdate, EVP_DecryptFinal_ex *)
Definition cbc_dec (key iv c : list N) : option (list N) :=
  if ((length key =? 32) && (length iv =? 16) && negb (length c =? 0) && (length c mod 16 =? 0))%nat then pkcs_unpad (cbc_dec_blocks (length c / 16) key iv c) else None.
End Cbc.
