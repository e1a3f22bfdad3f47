(** Building trees with cJSON when memory may run out.  cJSON is an external
    library; this is its documented allocation behaviour: every Create function
    returns NULL when it cannot allocate, adding NULL (or adding to NULL) is
    refused, adding to an object copies the key, and a refused item stays with
    the caller. *)
From Verif Require Import Base Heap Json EventMem.
Open Scope N_scope.

(** A tree and the blocks it is made of. *)
Record node : Set := mkNode { n_tree : json; n_blocks : list nat }.
Section Grant.
Variable grant : nat -> bool.
(** cJSON_CreateNumber, _CreateBool, _CreateArray, _CreateObject: one block *)
Definition create (j : json) : M (option node) :=
  let! p := ealloc grant in
  match p with None => mret None | Some b => mret (Some (mkNode j [b])) end.
(** cJSON_CreateString: the item and a copy of the text *)
Definition create_string (s : list N) : M (option node) :=
  let! p := ealloc grant in
  match p with
  | None => mret None
  | Some b =>
    let! q := ealloc grant in
    match q with
    | None => let! _ := hfree (Some b) in mret None
    | Some c => mret (Some (mkNode (JStr s) [b; c]))
    end
  end.
Fixpoint free_all (l : list nat) : M unit :=
  match l with [] => mret tt | b :: r => let! _ := hfree (Some b) in free_all r end.
(** cJSON_Delete *)
Definition delete (x : option node) : M unit :=
  match x with None => mret tt | Some n => free_all (n_blocks n) end.
(** cJSON_AddItemToArray, its result ignored: the array afterwards *)
Definition add_to_array (a x : option node) : option node :=
  match a, x with
  | Some (mkNode (JArr l) b), Some n => Some (mkNode (JArr (l ++ [n_tree n])) (b ++ n_blocks n))
  | _, _ => a
  end.
(** cJSON_AddItemToObject: the object afterwards, and whether the item was taken *)
Definition add_item (o : option node) (key : list N) (x : option node) : M (option node * bool) :=
  match o, x with
  | Some (mkNode (JObj l) b), Some n =>
    let! p := ealloc grant in
    match p with
    | None => mret (o, false)
    | Some k => mret (Some (mkNode (JObj (l ++ [(key, n_tree n)])) (k :: b ++ n_blocks n)), true)
    end
  | _, _ => mret (o, false)
  end.
Definition add_to_object (o : option node) (key : list N) (x : option node) : M (option node) :=
  let! r := add_item o key x in mret (fst r).
(** cJSON_AddStringToObject, _AddNumberToObject, _AddBoolToObject: create, add,
    delete what was not taken *)
Definition add_new (o : option node) (key : list N) (make : M (option node)) : M (option node) :=
  let! x := make in
  let! r := add_item o key x in
  match r with
  | (o, true) => mret o
  | (o, false) => let! _ := delete x in mret o
  end.
Variable print : json -> list N.
(** cJSON_Print, cJSON_PrintUnformatted: the text's block; the attempts to
    allocate of one printing count as one *)
Definition print_node (x : option node) : M (option (nat * list N)) :=
  match x with
  | None => mret None
  | Some n => let! p := ealloc grant in match p with None => mret None | Some b => mret (Some (b, print (n_tree n))) end
  end.
End Grant.
