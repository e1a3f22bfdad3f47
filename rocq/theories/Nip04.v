(** Model of what NIP-04 encryption computes: src/nip44.c:502-695 (the build with
    OpenSSL).  What it does with memory is in Nip44.v ([nip04_encrypt],
    [nip04_decrypt]). *)
From Verif Require Import Base.
Open Scope N_scope.

(** strlen, and what a caller sees of a text with a NUL in it *)
Fixpoint upto_nul (s : list N) : list N := match s with [] => [] | c :: r => if c =? 0 then [] else c :: upto_nul r end.
(** strstr: what comes before and after the first match *)
Fixpoint split_on (needle s : list N) : option (list N * list N) :=
  if prefixb needle s then Some ([], skipn (length needle) s)
  else match s with
       | [] => None
       | c :: r => match split_on needle r with None => None | Some (a, b) => Some (c :: a, b) end
       end.
(** size_t passed as int *)
Definition as_int (n : N) : Z := let z := (Z.of_N n mod 2 ^ 32)%Z in if (z <? 2 ^ 31)%Z then z else (z - 2 ^ 32)%Z.

Section Nip04.
(** nostr_key_ecdh; AES-256-CBC with padding (the EVP calls together); base64 *)
Variable ecdh : list N -> list N -> res (list N).
Variable aes_enc aes_dec : list N -> list N -> list N -> option (list N).
Variable b64enc : list N -> list N.
Variable b64dec : list N -> option (list N).

(** src/nip44.c:502-585 nostr_nip04_encrypt; [iv]: what RAND_bytes gives.  The length
    goes to EVP_EncryptUpdate as an int, where a negative one is an error; the sum of
    the two lengths it gives back is an int too.  Allocations succeed here. *)
Definition nip04_text (sk pk : list N) (iv : option (list N)) (plaintext : list N) : res (list N) :=
  match ecdh sk pk with
  | Ok key =>
    match iv with
    | None => Err EMemory
    | Some iv =>
      let pt := upto_nul plaintext in
      let inl := as_int (N.of_nat (length pt)) in
      if (inl <? 0)%Z then Err EInvalidParam
      else if (2 ^ 31 - 16 <=? inl)%Z then Undef
      else match aes_enc key iv (firstn (Z.to_nat inl) pt) with
           | None => Err EInvalidParam
           | Some c => Ok (b64enc c ++ bs "?iv=" ++ b64enc iv)
           end
    end
  | _ => Err EInvalidKey
  end.

(** src/nip44.c:587-693 nostr_nip04_decrypt.  A base64 text that OpenSSL refuses with
    -1 is taken on to the key agreement and refused after it; here it is refused at
    once.  The texts are taken to be shorter than 2^31. *)
Definition nip04_plain (sk pk text : list N) : res (list N) :=
  match split_on (bs "?iv=") (upto_nul text) with
  | None => Err EInvalidParam
  | Some (content, ivtext) =>
    match b64dec content with
    | None | Some [] => Err EInvalidParam
    | Some data =>
      match b64dec ivtext with
      | None => Err EInvalidParam
      | Some iv =>
        if negb (length iv =? 16)%nat then Err EInvalidParam
        else match ecdh sk pk with
             | Ok key => match aes_dec key iv data with None => Err EInvalidParam | Some m => Ok (upto_nul m) end
             | _ => Err EInvalidKey
             end
      end
    end
  end.
End Nip04.
