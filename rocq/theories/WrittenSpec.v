(** Who encrypted a text: the calls made, and a MAC that nobody else can make. *)
From Verif Require Import Base Nip44 Nip44Spec.
Open Scope N_scope.

(** A call of nostr_nip44_encrypt: the two keys, the random bytes and the message *)
Record call : Set := mkCall { c_sk : list N; c_pk : list N; c_nonce : list N; c_text : list N }.
Definition call_ok (k : call) : Prop := length (c_nonce k) = 32%nat /\ bytes_ok (c_text k).
(** Of the MACs that are around, those that verify for the two keys were made in one of
    the calls, with the same shared secret, over what was encrypted there. *)
Definition only_in (around : list N -> Prop) (nce : list N -> list N -> list N -> list N -> option (list N * list N)) (ncv : list N -> list N -> list N -> list N -> list N -> bool)
  (mt : list N -> list N -> list N -> list N -> Prop) (l : limits) (sk pk : list N) (log : list call) : Prop :=
  Forall call_ok log /\ forall n d mac, around mac -> ncv sk pk n d mac = true ->
  exists k p ct hk, In k log /\ mt (c_sk k) (c_pk k) sk pk /\ pad_plaintext l (c_text k) = Ok p /\ nce (c_sk k) (c_pk k) (c_nonce k) p = Some (ct, hk) /\ d = c_nonce k ++ ct.
(** What is in the last 32 bytes of the decoded text *)
Definition mac_around (around : list N -> Prop) (dec : list N -> option (list N)) (t : list N) : Prop := forall a m, dec t = Some (a ++ m) -> length m = 32%nat -> around m.
