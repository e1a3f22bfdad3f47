(** Lists, independent of arrays and text. *)
From Verif Require Import Base HexSpec Nip51 Nip18Spec.

(** What a call asks for: to append an item (if its arguments are in order) or to
    remove the item at a position. *)
Inductive asks : op -> item -> Prop :=
| AsksPubkey pk r p v : hex64 pk -> asks (OPubkey pk r p v) (mkItem (bs "p") pk r p v)
| AsksEvent id r v : hex64 id -> asks (OEvent id r v) (mkItem (bs "e") id r None v)
| AsksHashtag h v : h <> [] -> asks (OHashtag h v) (mkItem (bs "t") h None None v)
| AsksWord h v : h <> [] -> asks (OWord h v) (mkItem (bs "word") h None None v)
| AsksRelay h v : h <> [] -> asks (ORelay h v) (mkItem (bs "relay") h None None v)
| AsksReference h r v : h <> [] -> asks (OReference h r v) (mkItem (bs "a") h r None v)
| AsksGroup g u n v : g <> [] -> u <> [] -> asks (OGroup g u n v) (mkItem (bs "group") g (Some u) n v)
| AsksEmoji s u v : s <> [] -> u <> [] -> asks (OEmoji s u v) (mkItem (bs "emoji") s (Some u) None v).
(** [edits o (grow, dup) l l' r]: on the list [l] the call gives [l'] and answers
    [r]; the flags say whether allocations succeed. *)
Inductive edits : op -> bool * bool -> list item -> list item -> res unit -> Prop :=
| EdAdd o g l x : asks o x -> (N.of_nat (length l) < 4096)%N -> edits o (g, true) l (l ++ [x]) (Ok tt)
| EdFull o m l x : asks o x -> N.of_nat (length l) = 4096%N -> edits o m l l (Err EMemory)
| EdMemory o m l x : asks o x -> m <> (true, true) -> edits o m l l (Err EMemory)
| EdBad o m l : (forall i, o <> ORemove i) -> (forall x, ~ asks o x) -> edits o m l l (Err EInvalidParam)
| EdRemove m a x b : edits (ORemove (length a)) m (a ++ x :: b) (a ++ b) (Ok tt)
| EdNone m l i : (length l <= i)%nat -> edits (ORemove i) m l l (Err EInvalidParam).
Inductive history : list item -> list (op * (bool * bool)) -> list item -> list (res unit) -> Prop :=
| HistEnd l : history l [] l []
| HistCall l o m l1 r os l2 rs : edits o m l l1 r -> history l1 os l2 rs -> history l ((o, m) :: os) l2 (r :: rs).

(** Private items that fit the reader's fields. *)
Definition fits (x : item) : Prop :=
  it_tag x <> [] /\ it_value x <> [] /\
  (N.of_nat (length (it_tag x)) < 64)%N /\ (N.of_nat (length (it_value x)) < 1024)%N /\
  (forall r, it_relay x = Some r -> (N.of_nat (length r) < 512)%N) /\ (forall p, it_pet x = Some p -> (N.of_nat (length p) < 256)%N).
Definition strings_ok (x : item) : Prop :=
  cstr_ok (it_tag x) /\ cstr_ok (it_value x) /\ (forall r, it_relay x = Some r -> cstr_ok r) /\ (forall p, it_pet x = Some p -> cstr_ok p).
(** An empty hint or name is as good as none. *)
Definition no_empty (s : option (list N)) : option (list N) := match s with Some [] => None | _ => s end.
Definition tidy (x : item) : item := mkItem (it_tag x) (it_value x) (no_empty (it_relay x)) (no_empty (it_pet x)) (it_private x).
