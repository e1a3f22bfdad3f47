(** A small heap monad: allocation, release and use of buffers identified by
    number.  Releasing or using a buffer that is not live is undefined. *)
From Verif Require Import Base.

Record heap : Set := mkHeap { h_next : nat; h_live : list nat }.
Definition hempty : heap := mkHeap 0 [].

Definition M (A : Type) : Type := heap -> res (A * heap).
Definition mret {A} (a : A) : M A := fun h => Ok (a, h).
Definition mbind {A B} (m : M A) (f : A -> M B) : M B :=
  fun h => match m h with
           | Ok (a, h') => f a h'
           | Err e => Err e
           | Undef => Undef
           end.
Notation "'let!' x := e 'in' k" := (mbind e (fun x => k))
  (at level 200, x pattern, e at level 100, k at level 200).

(** malloc/calloc/strdup; [ok = false] is a failed allocation (NULL). *)
Definition hmalloc (ok : bool) : M (option nat) :=
  fun h => if ok then Ok (Some (h_next h), mkHeap (S (h_next h)) (h_next h :: h_live h))
           else Ok (None, h).

Fixpoint remove1 (p : nat) (l : list nat) : list nat :=
  match l with
  | [] => []
  | q :: r => if Nat.eqb p q then r else q :: remove1 p r
  end.

(** free(p); NULL is ignored. *)
Definition hfree (p : option nat) : M unit :=
  fun h => match p with
           | None => Ok (tt, h)
           | Some i => if existsb (Nat.eqb i) (h_live h)
                       then Ok (tt, mkHeap (h_next h) (remove1 i (h_live h)))
                       else Undef
           end.

(** Any read or write through p (dereferencing NULL is undefined too). *)
Definition huse (p : option nat) : M unit :=
  fun h => match p with
           | None => Undef
           | Some i => if existsb (Nat.eqb i) (h_live h) then Ok (tt, h) else Undef
           end.

(** A bounds condition of the C code: violated means undefined. *)
Definition hassert (b : bool) : M unit := fun h => if b then Ok (tt, h) else Undef.
