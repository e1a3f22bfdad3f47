(** What a key was used for: the two calls of the library that sign, and a
    signature scheme in which nobody else makes signatures of that key. *)
From Verif Require Import Base Event EventSpec Nip26Spec.
Open Scope N_scope.

(** nostr_event_sign on an event, nostr_delegation_create for a delegatee (src/event.c:593-692,
    src/nip26.c:184-279): these are all the uses of a signing function in src/. *)
Inductive use : Set := UEvent (e : event) | UDelegation (delegatee conditions : list N).
Definition use_ok (u : use) : Prop :=
  match u with
  | UEvent e => event_ok e
  | UDelegation pk c => length pk = 32%nat /\ bytes_ok pk
  end.
Section Uses.
Variable ser : event -> list N.
Variable sha256 : list N -> list N.
Variable pubkey_of : list N -> option (list N).
Variable sign : list N -> list N -> list N -> option (list N).
Variable verify : list N -> list N -> list N -> bool.
(** [signs sk u d]: the call signs the digest [d] *)
Definition signs (sk : list N) (u : use) (d : list N) : Prop :=
  match u with
  | UEvent e => exists rnd e', event_sign ser sha256 pubkey_of sign e sk rnd = (e', Ok tt) /\ ev_id e' = d
  | UDelegation pk c => exists t, delegated_text t pk c /\ d = sha256 t
  end.
(** Of the signatures that are around (those that somebody has made), those of the key
    are on digests that its holder signed. *)
Definition only_by (around : list N -> Prop) (sk pk : list N) (log : list use) : Prop :=
  pubkey_of sk = Some pk /\ Forall use_ok log /\ forall d s, around s -> verify pk d s = true -> exists u, In u log /\ signs sk u d.
End Uses.
Definition collides (sha256 : list N -> list N) : Prop := exists a b, a <> b /\ sha256 a = sha256 b.
(** [e] says what was signed. *)
Definition says (e0 e : event) : Prop :=
  ev_created e = ev_created e0 /\ ev_kind e = ev_kind e0 /\ ev_tags e = ev_tags e0 /\ content_of e = content_of e0.
(** The first delegation tag of [e] names [delegator] and the conditions [c]. *)
Definition first_delegation (e : event) (delegator c : list N) : Prop :=
  exists before dh th extra after, ev_tags e = before ++ (bs "delegation" :: dh :: c :: th :: extra) :: after /\
    Forall (fun x : list (list N) => ~ exists a b d r, x = bs "delegation" :: a :: b :: d :: r) before /\ HexSpec.hextext dh delegator.
