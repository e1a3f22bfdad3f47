(** Two threads on the list of subscriptions: src/relay.c:615-632 (service thread)
    and 455-459, 522-532 (application thread).  The queue mutex is only held
    around lws_write (477-479, 550-552), so the steps of the two interleave. *)
From Verif Require Import Base.

(** The list, as addresses with ids; the [next] field of a node is the address
    after it.  An address not in the list is released. *)
Definition nodes : Set := list (nat * list N).
Fixpoint node_at (l : nodes) (p : nat) : option (list N * option nat) :=
  match l with
  | [] => None
  | (q, i) :: r => if Nat.eqb q p then Some (i, match r with [] => None | (n, _) :: _ => Some n end) else node_at r p
  end.
Definition head_of (l : nodes) : option nat := match l with [] => None | (p, _) :: _ => Some p end.
(** Application calls, each taken as one step *)
Inductive acall : Set := ASubscribe (id : list N) | AUnsubscribe (id : list N).
Fixpoint unlink (l : nodes) (id : list N) : nodes :=
  match l with [] => [] | (p, i) :: r => if beq i id then r else (p, i) :: unlink r id end.
(** The service thread: looking for an id with a cursor *)
Record shared : Set := mkShared { sh_list : nodes; sh_next : nat; sh_cur : option (option nat * list N) }.
Inductive move : Set :=
  | MApp (a : acall)
  | MStart (id : list N)        (* an EVENT for [id] arrives: sub = ctx->subscriptions *)
  | MLook.                      (* strcmp(sub->id, ...), then stop or sub = sub->next *)
Definition move_step (s : shared) (m : move) : res shared :=
  match m with
  | MApp (ASubscribe id) => Ok (mkShared ((sh_next s, id) :: sh_list s) (S (sh_next s)) (sh_cur s))
  | MApp (AUnsubscribe id) => Ok (mkShared (unlink (sh_list s) id) (sh_next s) (sh_cur s))
  | MStart id => Ok (mkShared (sh_list s) (sh_next s) (Some (head_of (sh_list s), id)))
  | MLook =>
    match sh_cur s with
    | None => Ok s
    | Some (None, _) => Ok (mkShared (sh_list s) (sh_next s) None)
    | Some (Some p, id) =>
      match node_at (sh_list s) p with
      | None => Undef
      | Some (i, nx) => Ok (mkShared (sh_list s) (sh_next s) (if beq i id then None else Some (nx, id)))
      end
    end
  end.
Fixpoint moves (s : shared) (ms : list move) : res shared :=
  match ms with [] => Ok s | m :: r => do s' <- move_step s m; moves s' r end.
Definition shared0 : shared := mkShared [] 0 None.
