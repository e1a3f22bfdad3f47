(** Specification for NIP-05: identifiers, and JSON documents as token
    sequences and trees. *)
From Verif Require Import Base.
Open Scope N_scope.

(** ** Identifiers *)
Definition letter_or_digit (c : N) : Prop := 97 <= c <= 122 \/ 65 <= c <= 90 \/ 48 <= c <= 57.
Definition local_char (c : N) : Prop := letter_or_digit c \/ In c (bs "-_.").
Definition domain_char (c : N) : Prop := letter_or_digit c \/ c = 45.
(** Labels joined with dots. *)
Fixpoint dotted (ls : list (list N)) : list N :=
  match ls with [] => [] | [l] => l | l :: r => l ++ 46 :: dotted r end.
Definition domain_name (d : list N) : Prop :=
  exists ls, d = dotted ls /\ (2 <= length ls)%nat /\ Forall (fun l => l <> [] /\ Forall domain_char l) ls /\ (length d <= 256)%nat.
(** [lowered c l]: [l] is [c] in lower case. *)
Definition lowered (c l : N) : Prop := (65 <= c <= 90 /\ l = c + 32) \/ (~ 65 <= c <= 90 /\ l = c).
Definition in_lower (s t : list N) : Prop := Forall2 lowered s t.
Definition hex_char (c : N) : Prop := 48 <= c <= 57 \/ 97 <= c <= 102 \/ 65 <= c <= 70.

(** ** JSON text *)
Inductive tok : Set := TStr (raw : list N) | TPun (c : N) | TAtom (a : list N).
Definition ws (c : N) : Prop := c = 32 \/ c = 9 \/ c = 10 \/ c = 13.
Definition punct (c : N) : Prop := In c (bs "{}[]:,").
Inductive rawstring : list N -> Prop :=
| RSnil : rawstring []
| RSchar c r : c <> 34 -> c <> 92 -> rawstring r -> rawstring (c :: r)
| RSesc c r : rawstring r -> rawstring (92 :: c :: r).
Definition atom_char (c : N) : Prop := ~ ws c /\ ~ punct c /\ c <> 34 /\ c <> 92.
(** A text as a sequence of strings, punctuation and other tokens (numbers,
    true, ...), with white space anywhere between. *)
Inductive lexes : list N -> list tok -> Prop :=
| LexEnd : lexes [] []
| LexWs c s ts : ws c -> lexes s ts -> lexes (c :: s) ts
| LexPun c s ts : punct c -> lexes s ts -> lexes (c :: s) (TPun c :: ts)
| LexStr raw s ts : rawstring raw -> lexes s ts -> lexes (34 :: raw ++ 34 :: s) (TStr raw :: ts)
| LexAtom a s ts : a <> [] -> Forall atom_char a -> lexes s ts -> lexes (a ++ s) (TAtom a :: ts).

(** JSON trees; strings are kept as written. *)
Inductive doc : Set :=
| DStr (raw : list N) | DAtom (a : list N) | DArr (l : list doc) | DObj (l : list (list N * doc)).
Fixpoint commaed (l : list (list tok)) : list tok :=
  match l with [] => [] | [x] => x | x :: r => x ++ TPun 44 :: commaed r end.
Fixpoint toks (d : doc) : list tok :=
  match d with
  | DStr r => [TStr r]
  | DAtom a => [TAtom a]
  | DArr l => TPun 91 :: commaed (map toks l) ++ [TPun 93]
  | DObj l => TPun 123 :: commaed (map (fun kv => TStr (fst kv) :: TPun 58 :: toks (snd kv)) l) ++ [TPun 125]
  end.
(** The document [d] written out as [text]. *)
Definition document (text : list N) (d : doc) : Prop := lexes text (toks d).
(** First member with a key. *)
Inductive member (k : list N) (v : doc) : list (list N * doc) -> Prop :=
| MHere r : member k v ((k, v) :: r)
| MThere k' v' r : k' <> k -> member k v r -> member k v ((k', v') :: r).
