(** What receiving relay messages should do, independently of the model. *)
From Verif Require Import Base.
Open Scope N_scope.

(** ** Text of a JSON array as far as brackets and strings go *)
Definition plain (c : N) : Prop := c <> 34 /\ c <> 91 /\ c <> 93 /\ c <> 123 /\ c <> 125 /\ c <> 0.
(** The inside of a string literal *)
Inductive quoted : list N -> Prop :=
  | quoted_nil : quoted []
  | quoted_char c s : c <> 34 -> c <> 92 -> c <> 0 -> quoted s -> quoted (c :: s)
  | quoted_escape c s : c <> 0 -> quoted s -> quoted (92 :: c :: s).
(** A run of characters, strings, arrays and objects *)
Inductive nested : list N -> Prop :=
  | nested_nil : nested []
  | nested_char c s : plain c -> nested s -> nested (c :: s)
  | nested_string q s : quoted q -> nested s -> nested (34 :: q ++ 34 :: s)
  | nested_array a s : nested a -> nested s -> nested (91 :: a ++ 93 :: s)
  | nested_object a s : nested a -> nested s -> nested (123 :: a ++ 125 :: s).
Definition array_text (s : list N) : Prop := exists a, s = 91 :: a ++ [93] /\ nested a.
Definition space (s : list N) : Prop := Forall (fun c => c = 10 \/ c = 13 \/ c = 32) s.
(** A stream carrying messages, each followed by optional white space *)
Inductive carries : list N -> list (list N) -> Prop :=
  | carries_nil w : space w -> carries w []
  | carries_next w m s ms : space w -> array_text m -> carries s ms -> carries (w ++ m ++ s) (m :: ms).

(** ** Subscriptions: who is listening to an id, most recent first *)
Inductive act : Set := Subscribed (id : list N) (h : option nat) | Ended (id : list N).
Fixpoint listening (acts : list act) (id : list N) (now : list (option nat)) : list (option nat) :=
  match acts with
  | [] => now
  | Subscribed i h :: r => listening r id (if list_eq_dec N.eq_dec i id then h :: now else now)
  | Ended i :: r => listening r id (if list_eq_dec N.eq_dec i id then tl now else now)
  end.
