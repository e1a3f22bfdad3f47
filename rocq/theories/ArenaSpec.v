(** Specification vocabulary for C18: histories of add-tag calls. *)
From Verif Require Import Base Arena.
Open Scope N_scope.

(** The allocator: a block is somewhere in the address space, not at NULL, and
    realloc keeps the old contents (the model appends the new part). *)
Definition block_ok (b : block) : Prop := 1 <= b_addr b /\ b_addr b + b_len b < 2 ^ 64.
Definition realloc_ok (e : env) (oldcap : N) : Prop :=
  forall cap addr junk, oldcap <= cap -> e_realloc e cap = Some (addr, junk) ->
  1 <= addr /\ addr + cap < 2 ^ 64 /\ N.of_nat (length junk) = cap - oldcap.

(** An allocator that behaves at every old capacity. *)
Definition call : Type := (N -> N -> option (N * list N)) * option N * bool * list (option (list N)).
Definition call_env (c : call) (cap : N) : env :=
  let '(re, mt, tr, _) := c in mkEnv mt (re cap) tr.
Definition call_values (c : call) : list (option (list N)) := snd c.
Definition call_ok (c : call) : Prop :=
  (forall oldcap, realloc_ok (call_env c oldcap) oldcap) /\
  Forall (fun v => match v with Some s => cstr_ok s | None => True end) (call_values c).

(** Running a history: final store, and the values of the accepted calls. *)
Fixpoint run (st : tagstore) (cs : list call) : res (tagstore * list (list (option (list N)))) :=
  match cs with
  | [] => Ok (st, [])
  | c :: r =>
    do x <- add_tag (call_env c (b_len (s_mem st))) st (call_values c);
    do y <- run (fst x) r;
    Ok (fst y, match snd x with Ok _ => call_values c :: snd y | _ => snd y end)
  end.
