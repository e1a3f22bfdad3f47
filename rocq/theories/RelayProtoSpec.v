(** Relay-side rules of NIP-01, NIP-09 and NIP-40, over events and texts. *)
From Verif Require Import Base Dec HexSpec Nip26Spec Nip18Spec Event.
Open Scope N_scope.

(** Lower-case hexadecimal text. *)
Definition low_hex (s : list N) : Prop := Forall (fun c => In c (bs "0123456789abcdef")) s.
Definition hex_id (s : list N) : Prop := length s = 64%nat /\ low_hex s.
Definition hex_prefix (s : list N) : Prop := (1 <= length s <= 64)%nat /\ low_hex s.
Definition sub_id (s : list N) : Prop := (1 <= length s <= 64)%nat /\ Forall (fun c => 32 <= c <= 126) s.
(** kind ":" author ":" anything. *)
Definition address (s : list N) : Prop :=
  exists k pk d, s = k ++ bs ":" ++ pk ++ bs ":" ++ d /\ k <> [] /\ Forall (fun c => In c (bs "0123456789")) k /\ hex_id pk.

(** The value of the first tag of that name that has one. *)
Definition first_value (name : list N) (ts : list tag) (v : list N) : Prop :=
  exists a r b, ts = a ++ (name :: v :: r) :: b /\ Forall (fun t => forall x y, t <> name :: x :: y) a.
Definition no_value (name : list N) (ts : list tag) : Prop := Forall (fun t => forall x y, t <> name :: x :: y) ts.

(** NIP-01 storage classes. *)
Inductive class : Set := Regular | Replaceable | Ephemeral | Addressable.
Definition nip01_class (k : Z) (c : class) : Prop :=
  match c with
  | Replaceable => (k = 0 \/ k = 3 \/ 10000 <= k < 20000)%Z
  | Ephemeral => (20000 <= k < 30000)%Z
  | Addressable => (30000 <= k < 40000)%Z
  | Regular => (k = 1 \/ k = 2 \/ 4 <= k < 45 \/ 1000 <= k < 10000)%Z
  end.

(** Lexicographic order of byte strings. *)
Inductive lex_lt : list N -> list N -> Prop :=
| LexHead x y a b : x < y -> lex_lt (x :: a) (y :: b)
| LexTail x a b : lex_lt a b -> lex_lt (x :: a) (x :: b).
(** [beats a b]: [a] is newer, or as new with the lower id. *)
Definition beats (a b : event) : Prop :=
  (ev_created b < ev_created a)%Z \/ (ev_created a = ev_created b /\ lex_lt (ev_id a) (ev_id b)).
(** What a store that keeps one version ends up with. *)
Fixpoint survivor (cmp : event -> event -> Z) (kept : event) (arriving : list event) : event :=
  match arriving with
  | [] => kept
  | e :: r => survivor cmp (if (0 <? cmp e kept)%Z then e else kept) r
  end.

(** The expiration NIP-40 asks for: the first expiration tag's number. *)
Definition expires (ts : list tag) (z : Z) : Prop :=
  exists s neg v, first_value (bs "expiration") ts s /\ loose_number s neg v /\ z = signed neg v.

(** What a deletion request lists. *)
Definition lists (name : list N) (e : event) (v : list N) : Prop := exists r, In (name :: v :: r) (ev_tags e).
(** The address of an event: kind, author and the first d tag. *)
Definition has_address (e : event) (s : list N) : Prop :=
  exists h d, lower_hex h (ev_pubkey e) /\ s = dec_N (ev_kind e) ++ bs ":" ++ h ++ bs ":" ++ d /\
    (first_value (bs "d") (ev_tags e) d \/ (no_value (bs "d") (ev_tags e) /\ d = [])).
