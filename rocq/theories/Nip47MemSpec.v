(** Ownership of wallet connections and of the lists read from info events. *)
From Verif Require Import Base Heap Event Nip47 Nip47Spec Nip47Mem RelayMemSpec.
Open Scope nat_scope.

(** The blocks of a connection. *)
Definition conn_blocks (c : cconn) : list nat :=
  cc_self c :: opt_list (cc_array c) ++ map fst (cc_relays c) ++ opt_list (option_map fst (cc_lud16 c)).
(** Relays come with an array. *)
Definition conn_sound (c : cconn) : Prop := cc_array c = None -> cc_relays c = [].
(** What it says. *)
Definition conn_says (c : cconn) (v : nwc) : Prop :=
  map snd (cc_relays c) = nw_relays v /\ cc_secret c = Some (nw_secret v) /\ cc_service c = nw_service v /\ option_map snd (cc_lud16 c) = nw_lud16 v.
(** The address gives at most one Lightning address. *)
Definition one_lud16 (uri : list N) : Prop :=
  forall pk ps luds, uri_shape uri pk ps -> listed (bs "lud16") ps luds -> length luds <= 1.

(** The blocks of a list; one in good order, that says [ws]. *)
Definition list_blocks (v : wlist) : list nat := opt_list (wl_array v) ++ map fst (wl_items v).
Definition lists (v : wlist) (ws : list (list N)) : Prop :=
  map snd (wl_items v) = ws /\ wl_count v = N.of_nat (length ws) /\ (wl_array v = None -> ws = []).
(** How callers release a list (tests/test_nip47.c:187-190): each entry up to the count,
    then the array.  Entries that were not written are anything. *)
Fixpoint release_items (a : option nat) (n : nat) (items : list (nat * list N)) : M unit :=
  match n with
  | O => mret tt
  | S n =>
    let! _ := huse a in
    match items with [] => fun _ => Undef | (p, _) :: r => let! _ := hfree (Some p) in release_items a n r end
  end.
Definition release_list (v : wlist) : M unit :=
  let! _ := release_items (wl_array v) (N.to_nat (wl_count v)) (wl_items v) in hfree (wl_array v).
