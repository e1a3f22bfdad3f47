(** C strings in JSON documents: what a reader that takes C strings and hands out C
    strings gives, whatever the text. *)
From Verif Require Import Base Json.
Open Scope N_scope.

Fixpoint c_tree (j : json) : Prop :=
  match j with
  | JStr s => cstr_ok s
  | JArr l => (fix all (l : list json) : Prop := match l with [] => True | x :: r => c_tree x /\ all r end) l
  | JObj l => (fix all (l : list (list N * json)) : Prop := match l with [] => True | (k, x) :: r => cstr_ok k /\ c_tree x /\ all r end) l
  | _ => True
  end.
(** C strings in, C strings out (cJSON_Parse and cJSON_Print work on char pointers). *)
Record c_library (print : json -> list N) (parse : list N -> option json) : Prop := {
  cl_parse : forall s t, cstr_ok s -> parse s = Some t -> c_tree t;
  cl_print : forall t, c_tree t -> cstr_ok (print t) }.
