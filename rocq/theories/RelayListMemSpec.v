(** Ownership of relay lists: the blocks a list holds and what it says. *)
From Verif Require Import Base Heap Event Nip65 Nip65Spec RelayMemSpec EventMem EventMemSpec ListMem ListMemSpec RelayListMem.
From Coq Require Import Permutation.
Open Scope nat_scope.

Definition ublock (x : rentry) : list nat := cb (re_url x).
Definition rused (c : crelays) : list rentry := firstn (cr_count c) (cr_slots c).
Definition rowned (c : crelays) : list nat := cr_self c :: cr_array c :: flat_map ublock (rused c).
Definition rowned_opt (v : option crelays) : list nat := match v with Some c => rowned c | None => [] end.
Definition evalue (x : rentry) : entry := mkEntry (whole (re_url x)) (re_read x) (re_write x).
Definition rvalue (c : crelays) : list entry := map evalue (rused c).
(** In good order: entries in use have an address, the other slots are zero. *)
Record relays_sound (c : crelays) : Prop := mkRSound {
  rs_count : cr_count c <= length (cr_slots c);
  rs_used : Forall (fun x => re_url x <> None) (rused c);
  rs_rest : Forall (eq zero_entry) (skipn (cr_count c) (cr_slots c));
  rs_cap : 1 <= length (cr_slots c) /\ (N.of_nat (length (cr_slots c)) <= 256)%N }.
Definition rsound_opt (v : option crelays) : Prop := match v with Some c => relays_sound c | None => True end.
(** The blocks of an array of addresses. *)
Definition ublocks (p : option (nat * list cell)) : list nat := match p with Some (a, l) => a :: map fst l | None => [] end.
Definition rforeign (rest : list nat) (o : rop) : Prop := match o with RAdd (Some b, _) _ _ => In b rest | _ => True end.
