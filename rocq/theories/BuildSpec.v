(** Specification for C163: what it means for a configured library to be whole, to answer
    for what was left out, and to name the backend it uses. *)
From Coq Require Import String.
From Verif Require Import Base Build.
Open Scope N_scope.

(** Everything that is called is there. *)
Definition there (compiled : source -> bool) (c : cfg) (f : string) : Prop :=
  (exists s, compiled s = true /\ In f (defines c s)) \/ In f (linked c).
Definition whole (compiled : source -> bool) (c : cfg) : Prop :=
  forall s f, compiled s = true -> In f (calls c s) -> there compiled c f.
(** Nothing is there twice. *)
Definition single (compiled : source -> bool) (c : cfg) : Prop :=
  forall s1 s2 f, compiled s1 = true -> compiled s2 = true -> In f (defines c s1) -> In f (defines c s2) -> s1 = s2.

(** docs/FEATURE_FLAGS.md: "Disabled functions return NOSTR_ERR_NOT_SUPPORTED"; a program
    that calls them must at least find them. *)
Definition callable_when_off : Prop := forall o m c, configure o m = Some c ->
  forall s f, compiled c s = false -> In f (defines c s) -> there (compiled c) c f.

(** The backend a text announces. *)
Definition announced (t : string) : signer :=
  if String.prefix "noscrypt" t then Noscrypt else if String.prefix "secp256k1" t then Secp256k1 else Nobody.
