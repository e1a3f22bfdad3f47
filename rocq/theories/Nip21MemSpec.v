(** What a nostr: URI and an encoded entity hold, for Nip21MemProps.v. *)
From Verif Require Import Base Heap Nip21.
Open Scope nat_scope.

(** The relays an entity lists: each is a string of its own in memory. *)
Definition relay_list (e : entity) : list (list N) :=
  match e with
  | Nprofile _ rs | Nevent _ rs _ _ | Naddr _ _ _ rs => rs
  | _ => []
  end.
(** Entities written from their fields alone. *)
Definition plain (e : entity) : Prop := match e with Npub _ | Nsec _ | Note _ => True | _ => False end.
(** The answer is the one a call with enough memory gives. *)
Definition answers {A} (r : res A) (o : A + err) : Prop := match o with inl a => r = Ok a | inr x => r = Err x end.
(** The next [n] allocations succeed. *)
Definition enough (grant : nat -> bool) (h : heap) (n : nat) : Prop := forall k, h_next h <= k < h_next h + n -> grant k = true.
