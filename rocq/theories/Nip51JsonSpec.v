(** The private part of a NIP-51 list, as NIP-51 has it: a JSON array of tags, each an
    array of strings. *)
From Verif Require Import Base Json JsonSpec Nip51 Nip51Spec.
Open Scope N_scope.

Definition tags_tree (tags : list (list (list N))) : json := JArr (map (fun t => JArr (map JStr t)) tags).
(** What a tag stands for: name and value, then a relay and a name if they are not
    empty.  A tag without name or value stands for nothing. *)
Definition given (v : option (list N)) : option (list N) := match v with Some [] => None | _ => v end.
Inductive stands_for : list (list N) -> list item -> Prop :=
| StandsItem n v r : n <> [] -> v <> [] -> stands_for (n :: v :: r) [mkItem n v (given (nth_error r 0)) (given (nth_error r 1)) true]
| StandsShort t : (length t < 2)%nat -> stands_for t []
| StandsEmpty n v r : n = [] \/ v = [] -> stands_for (n :: v :: r) [].
Inductive stand_for : list (list (list N)) -> list item -> Prop :=
| StandNil : stand_for [] []
| StandCons t ts x xs : stands_for t x -> stand_for ts xs -> stand_for (t :: ts) (x ++ xs).
(** The n-th string of a tag is short enough for its field. *)
Definition room (n : nat) : option N := nth_error [63; 1023; 511; 255] n.
Definition short (t : list (list N)) : Prop := forall n v m, nth_error t n = Some v -> room n = Some m -> N.of_nat (length v) <= m.
(** No backspace or form feed among the first four strings, no quote in those after. *)
Definition tame (t : list (list N)) : Prop := forall n v, nth_error t n = Some v -> if (n <? 4)%nat then ~ In 8 v /\ ~ In 12 v else ~ In 34 v.
(** The tag of a private item *)
Definition tag_of_item (x : item) : list (list N) :=
  match it_relay x, it_pet x with
  | None, None => [it_tag x; it_value x]
  | Some r, None => [it_tag x; it_value x; r]
  | Some r, Some p => [it_tag x; it_value x; r; p]
  | None, Some p => [it_tag x; it_value x; []; p]
  end.
