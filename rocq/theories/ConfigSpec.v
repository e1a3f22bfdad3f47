(** Specification vocabulary for the configuration (C29, C30, C69). *)
From Verif Require Import Base Dec Config.
Open Scope Z_scope.

(** CONFIG.md: the documented ranges, field by field, except that CONFIG.md lets the
    response timeout reach 300000 (see C136_refuted). *)
Definition ranges : list (Z * Z) :=
  [(1, 65535); (1, 65535); (1, 10000); (60, 86400); (1, 1000); (1024, 1048576); (1, 1000); (1, 1000);
   (1000, 300000); (1000, 60000); (4, 44); (0, 1); (0, 1)].
Definition in_ranges (c : config) : Prop :=
  length c = 13%nat /\
  (forall k, (k < 13)%nat -> fst (nth k ranges (0, 0)) <= nth k c 0 <= snd (nth k ranges (0, 0))) /\
  nth 0 c 0 <= nth 1 c 0 /\ (nth 10 c 0 = 4 \/ nth 10 c 0 = 44).

(** What the C types allow: ten uint32_t, three int; and nostr_init never
    reports an invalid parameter (it takes none). *)
Definition typed (c : config) : Prop :=
  length c = 13%nat /\ (forall k, (k < 10)%nat -> 0 <= nth k c 0 < 2 ^ 32) /\
  (forall k, (10 <= k < 13)%nat -> - 2 ^ 31 <= nth k c 0 < 2 ^ 31).
Definition typed_op (o : op) : Prop :=
  match o with
  | OInit (Some c) _ lib => typed c /\ lib <> Err EInvalidParam
  | OInit None _ lib => lib <> Err EInvalidParam
  | OUpdate (Some c) => typed c
  | _ => True
  end.
Definition typed_history (h : list entry) : Prop := Forall (fun e => typed_op (fst (fst e))) h.

(** The configuration a caller expects after a history (newest first): the
    one given to the latest call that returned NOSTR_OK. *)
Fixpoint last_ok (h : list entry) : option config :=
  match h with
  | [] => None
  | (o, r, _) :: t =>
    match o, r with
    | OInit (Some c) _ _, Ok _ | OUpdate (Some c), Ok _ => Some c
    | OInit None env _, Ok _ => Some (load_env env defaults)
    | _, _ => last_ok t
    end
  end.
(** The one really in force: the first initialisation that is not refused as
    invalid counts, later ones do not. *)
Fixpoint in_force (h : list entry) : option config :=
  match h with
  | [] => None
  | (o, r, _) :: t =>
    match in_force t, o, r with
    | Some _, OUpdate (Some c), Ok _ => Some c
    | Some c, _, _ => Some c
    | None, OInit _ _ _, Err EInvalidParam => None
    | None, OInit (Some c) _ _, _ => Some c
    | None, OInit None env _, _ => Some (load_env env defaults)
    | None, _, _ => None
    end
  end.
