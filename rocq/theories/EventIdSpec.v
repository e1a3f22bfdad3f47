(** NIP-01: the text whose hash is an event's id.

    "[0, <pubkey, lower-case hex>, <created_at>, <kind>, <tags>, <content>]", UTF-8,
    no white space, and in strings only seven characters escaped, all others verbatim. *)
From Verif Require Import Base Dec Event Nip18Spec.
Open Scope N_scope.

(** Line feed, double quote, backslash, carriage return, tab, backspace, form feed *)
Definition escaped_as : list (N * N) := [(10, 110); (34, 34); (92, 92); (13, 114); (9, 116); (8, 98); (12, 102)].
Inductive nip01_chars : list N -> list N -> Prop :=
| NcNil : nip01_chars [] []
| NcEscape c x s t : In (c, x) escaped_as -> nip01_chars s t -> nip01_chars (c :: s) (92 :: x :: t)
| NcVerbatim c s t : ~ In c (map fst escaped_as) -> nip01_chars s t -> nip01_chars (c :: s) (c :: t).
Definition nip01_string (s t : list N) : Prop := exists q, nip01_chars s q /\ t = 34 :: q ++ [34].
(** An array of things, each with its text *)
Inductive nip01_items {A : Type} (one : A -> list N -> Prop) : list A -> list N -> Prop :=
| NiNone : nip01_items one [] []
| NiOne a t : one a t -> nip01_items one [a] t
| NiMore a t b l r : one a t -> nip01_items one (b :: l) r -> nip01_items one (a :: b :: l) (t ++ 44 :: r).
Definition nip01_array {A} (one : A -> list N -> Prop) (l : list A) (t : list N) : Prop := exists q, nip01_items one l q /\ t = 91 :: q ++ [93].
Definition nip01_preimage (e : event) (t : list N) : Prop :=
  exists pk tags content, lower_hex pk (ev_pubkey e) /\ nip01_array (nip01_array nip01_string) (ev_tags e) tags /\ nip01_string (content_of e) content /\
    t = bs "[0,""" ++ pk ++ bs """," ++ dec_Z (ev_created e) ++ bs "," ++ dec_N (ev_kind e) ++ bs "," ++ tags ++ bs "," ++ content ++ bs "]".
(** No control characters but those NIP-01 escapes *)
Definition no_stray (s : list N) : Prop := forall c, In c s -> 32 <= c \/ In c (map fst escaped_as).
Definition no_stray_event (e : event) : Prop := no_stray (content_of e) /\ Forall (Forall no_stray) (ev_tags e).
