(** NIP-04 as published, and what its parts promise. *)
From Verif Require Import Base.
Open Scope N_scope.

Record aes_ok (enc dec : list N -> list N -> list N -> option (list N)) : Prop := mkAes {
  aes_back : forall key iv m, length key = 32%nat -> length iv = 16%nat -> bytes_ok iv -> bytes_ok m -> exists c, enc key iv m = Some c /\ c <> [] /\ bytes_ok c /\ dec key iv c = Some m;
  aes_iv : forall key iv m c, enc key iv m = Some c -> length key = 32%nat /\ length iv = 16%nat }.
(** base64, and that its texts have no question mark and no NUL *)
Record base64_ok (enc : list N -> list N) (dec : list N -> option (list N)) : Prop := mkB64 {
  b_back : forall x, bytes_ok x -> dec (enc x) = Some x;
  b_plain : forall x, bytes_ok x -> Forall (fun c => c <> 63 /\ c <> 0) (enc x) }.
(** "the content must be equal to the base64-encoded, aes-256-cbc encrypted string ...
    appended by the base64-encoded initialization vector as if it was a querystring
    parameter named iv" *)
Definition published (enc : list N -> list N -> list N -> option (list N)) (b64 : list N -> list N) (key iv m text : list N) : Prop :=
  exists c, enc key iv m = Some c /\ text = b64 c ++ bs "?iv=" ++ b64 iv.
