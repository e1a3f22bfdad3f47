(** Independent specification of NIP-19 TLV payloads. *)
From Verif Require Import Base.
Open Scope N_scope.

(** A TLV record: type and value; its bytes. *)
Definition item := (N * list N)%type.
Definition item_bytes (i : item) : list N := fst i :: N.of_nat (length (snd i)) :: snd i.
Definition payload (l : list item) : list N := flat_map item_bytes l.
Definition item_ok (i : item) : Prop :=
  fst i < 256 /\ (length (snd i) <= 255)%nat /\ bytes_ok (snd i).

(** Values of the records of a type, in order. *)
Definition values (ty : N) (l : list item) : list (list N) :=
  map snd (filter (fun i => fst i =? ty) l).

(** Last element satisfying a test. *)
Definition last_such (f : list N -> bool) (l : list (list N)) : option (list N) :=
  match rev (filter f l) with v :: _ => Some v | [] => None end.

(** A relay hint a reader keeps: ws:// or wss:// followed by printable ASCII,
    6 to 255 characters. *)
Definition relay_ok (u : list N) : Prop :=
  (6 <= length u <= 255)%nat /\
  (firstn 6 u = bs "wss://" \/ firstn 5 u = bs "ws://") /\
  Forall (fun c => 33 <= c <= 126) u.

(** Big-endian 32-bit value. *)
Definition be_value (v : list N) : N := fold_left (fun a b => a * 256 + b) v 0.

Definition key_ok (k : list N) : Prop := length k = 32%nat /\ bytes_ok k.

(** Total size of the payload of an entity. *)
Fixpoint relays_size (rs : list (list N)) : nat :=
  match rs with [] => 0 | r :: t => 2 + length r + relays_size t end.
