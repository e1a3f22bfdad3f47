(** Ownership of delegations, and answers when memory may be short. *)
From Verif Require Import Base Heap Nip26 Nip26Mem EventMemSpec RelayMemSpec.

(** The blocks of a delegation. *)
Definition del_owned (d : cdel) : list nat := opt_list (cd_text d) ++ opt_list (cd_kinds d).
(** Its kinds are where it says they are. *)
Definition del_sound (d : cdel) : Prop := cd_kinds d = None <-> k_kinds (d_parsed (cd_val d)) = [].
(** The answer [x] is what a computation without shortage says. *)
Definition says {A} (x : option err) (r : res A) : Prop :=
  match r with Ok _ => x = None | Err e => x = Some e | Undef => False end.
