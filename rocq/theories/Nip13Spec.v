(** Specification vocabulary for proof of work (C24, C25, C26, C65, C66). *)
From Verif Require Import Base Dec Event.
Open Scope N_scope.

(** The id read as a big-endian integer. *)
Definition be_value (l : list N) : N := fold_left (fun a b => a * 256 + b) l 0.
(** NIP-13: at least [d] leading zero bits. *)
Definition has_work (id : list N) (d : nat) : Prop := (d <= 256)%nat /\ be_value id < 2 ^ N.of_nat (256 - d).

Definition named_nonce (vs : list (list N)) : Prop := exists r, vs = bs "nonce" :: r.

(** [ts'] is [ts] with the first nonce tag (a new one at the end if there was
    none) now saying nonce [n] and target [t]; every other tag is untouched. *)
Definition nonce_set (ts ts' : list (list (list N))) (n : N) (t : Z) : Prop :=
  exists pre post rest,
    ts' = pre ++ [bs "nonce" :: dec_N n :: dec_Z t :: rest] ++ post /\
    Forall (fun vs => ~ named_nonce vs) pre /\
    ((ts = pre /\ rest = [] /\ post = []) \/
     (exists old, ts = pre ++ [old] ++ post /\ named_nonce old /\ rest = skipn 3 old)).

(** The tags the miner can handle: the first nonce tag, if any, has a second
    value. *)
Definition nonce_ok (ts : list (list (list N))) : Prop :=
  forall pre old post, ts = pre ++ [old] ++ post -> Forall (fun vs => ~ named_nonce vs) pre ->
  named_nonce old -> (2 <= length old)%nat.

(** Same author, kind and content. *)
Definition same_body (e e' : event) : Prop :=
  ev_pubkey e' = ev_pubkey e /\ ev_kind e' = ev_kind e /\ ev_content e' = ev_content e.

(** [e'] is a valid proof of work made from [e]. *)
Definition mined (ser : event -> list N) (sha : list N -> list N) (e e' : event) (t : Z) : Prop :=
  same_body e e' /\ ev_id e' = sha (ser e') /\ has_work (ev_id e') (Z.to_nat t) /\
  exists n, nonce_set (ev_tags e) (ev_tags e') n t.

(** SHA-256 yields 32 bytes. *)
Definition digest32 (sha : list N -> list N) : Prop := forall x, length (sha x) = 32%nat /\ bytes_ok (sha x).
