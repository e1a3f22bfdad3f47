(** What an identity's relays hold in memory, for Nip05MemProps.v. *)
From Verif Require Import Base Heap RelayMemSpec EventMem EventMemSpec Nip05Mem.
Open Scope nat_scope.

(** The blocks behind the caller's variables. *)
Definition hint_blocks (r : hints) : list nat := opt_list (hi_array r) ++ hi_strings r.
(** No strings without an array, and one string for each relay. *)
Definition hints_for (r : hints) (rs : list (list N)) : Prop := (hi_array r = None -> hi_strings r = []) /\ length (hi_strings r) = length rs.
(** A web client that answers as [f] says: it leaves other memory alone, and its
    response is a block the library may release. *)
Definition serves (f : list N -> option err * option (list N) * N) (fetch : list N -> M (option err * option (nat * list N) * N)) : Prop :=
  forall url h l, holds h l -> exists p h', fetch url h = Ok ((fst (fst (f url)), p, snd (f url)), h') /\ option_map snd p = snd (fst (f url)) /\
    holds h' (opt_list (option_map fst p) ++ l) /\ h_next h <= h_next h'.
(** The same as a function, for Nip05.v. *)
Definition answer (f : list N -> option err * option (list N) * N) (url : list N) : res (option (list N) * N) :=
  match f url with (Some x, _, _) => Err x | (None, b, n) => Ok (b, n) end.
