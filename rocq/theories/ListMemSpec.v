(** Ownership of lists: the blocks a list holds and what it says. *)
From Verif Require Import Base Heap Event Nip51 RelayMemSpec EventMem EventMemSpec ListMem.
From Coq Require Import Permutation.
Open Scope nat_scope.

(** All blocks of a list: itself, the array, the strings of the items in use, and its
    four texts. *)
Definition cb (c : option cell) : list nat := opt_list (option_map fst c).
Definition iblocks (x : citem) : list nat := cb (ci_tag x) ++ cb (ci_value x) ++ cb (ci_relay x) ++ cb (ci_pet x).
Definition in_use (c : clist) : list citem := firstn (cl_count c) (cl_slots c).
Definition lowned (c : clist) : list nat :=
  cl_self c :: cl_array c :: flat_map iblocks (in_use c) ++ cb (cl_d c) ++ cb (cl_title c) ++ cb (cl_desc c) ++ cb (cl_image c).
Definition lowned_opt (v : option clist) : list nat := match v with Some c => lowned c | None => [] end.
(** What it says. *)
Definition whole (c : option cell) : list N := match c with Some (_, t) => t | None => [] end.
Definition ivalue (x : citem) : item := mkItem (whole (ci_tag x)) (whole (ci_value x)) (text (ci_relay x)) (text (ci_pet x)) (ci_private x).
Definition lvalue (c : clist) : nlist := mkList (cl_kind c) (text (cl_d c)) (text (cl_title c)) (text (cl_desc c)) (text (cl_image c)) (map ivalue (in_use c)).
(** In good order: items in use have a type and a value, the other slots are zero. *)
Definition complete (x : citem) : Prop := ci_tag x <> None /\ ci_value x <> None.
Record list_sound (c : clist) : Prop := mkLSound {
  ls_count : cl_count c <= length (cl_slots c);
  ls_used : Forall complete (in_use c);
  ls_rest : Forall (eq zero_item) (skipn (cl_count c) (cl_slots c));
  ls_cap : 1 <= length (cl_slots c) /\ (N.of_nat (length (cl_slots c)) <= 4096)%N }.
Definition lsound_opt (v : option clist) : Prop := match v with Some c => list_sound c | None => True end.
(** The list with other items, or another text. *)
Definition with_items (l : nlist) (its : list item) : nlist := mkList (nl_kind l) (nl_d l) (nl_title l) (nl_desc l) (nl_image l) its.
Definition with_text (l : nlist) (f : field) (t : option (list N)) : nlist :=
  match f with
  | FD => mkList (nl_kind l) t (nl_title l) (nl_desc l) (nl_image l) (nl_items l)
  | FTitle => mkList (nl_kind l) (nl_d l) t (nl_desc l) (nl_image l) (nl_items l)
  | FDesc => mkList (nl_kind l) (nl_d l) (nl_title l) t (nl_image l) (nl_items l)
  | FImage => mkList (nl_kind l) (nl_d l) (nl_title l) (nl_desc l) t (nl_items l)
  end.
(** Texts handed to the list lie outside its own blocks. *)
Definition lforeign (rest : list nat) (o : lop) : Prop :=
  match o with LSet _ (Some (Some b, _)) => In b rest | LEdit _ srcs => incl srcs rest | _ => True end.
(** Room the tags of an event need. *)
Definition tags_space (ts : list (list (list N))) : N := fold_right (fun t n => space t + n)%N 0%N ts.
