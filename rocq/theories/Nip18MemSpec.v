(** What a run short of memory may leave out, for Nip18MemProps.v. *)
From Verif Require Import Base Nip18Spec.

(** [sub a b]: [a] is [b] with some elements missing. *)
Inductive sub {A} : list A -> list A -> Prop :=
| sub_nil : sub [] []
| sub_keep x a b : sub a b -> sub (x :: a) (x :: b)
| sub_drop x a b : sub a b -> sub a (x :: b).
(** All references of a text can be looked at without leaving a buffer (C81). *)
Definition readable (parse : list N -> res Nip21.entity) (s : list N) : Prop :=
  forall a b uri, s = a ++ b -> at_ref b uri -> parse uri <> Undef.
