(** Specification vocabulary for wallet-connect sessions (C31-C35), in terms of
    calls and their answers. *)
From Verif Require Import Base Dec Session.
Open Scope Z_scope.

(** The session an id string addresses: its first 64 characters. *)
Definition key (id : list N) : list N := firstn 64 id.

(** The configuration in force after a history (newest first). *)
Fixpoint config_of (h : list entry) : option limits :=
  match h with
  | [] => None
  | (OConfig c, _) :: _ => c
  | _ :: t => config_of t
  end.
Definition sessions_of (c : option limits) : nat := match c with Some c => l_sessions c | None => 100 end.
Definition timeout_of (c : option limits) : Z := match c with Some c => l_timeout c | None => 3600 end.
Definition perms_of (c : option limits) : nat := match c with Some c => l_perms c | None => 32 end.

(** The maximum configured when the table was set up. *)
Fixpoint table_size (h : list entry) : option nat :=
  match h with
  | [] => None
  | (o, _) :: t =>
    match table_size t, o with
    | Some n, _ => Some n
    | None, OInit true | None, OCreate true _ _ _ _ => Some (sessions_of (config_of t))
    | None, _ => None
    end
  end.

(** Ids handed out. *)
Fixpoint created (h : list entry) : list (list N) :=
  match h with
  | [] => []
  | (OCreate _ _ _ _ _, AId (Ok id)) :: t => id :: created t
  | _ :: t => created t
  end.

(** Well-typed calls: 64-bit amounts and limits, 32-bit intervals, 32 random
    bytes. *)
Definition typed_op (o : op) : Prop :=
  match o with
  | OCreate _ _ _ _ (Some r) => length r = 32%nat /\ bytes_ok r
  | OAdd _ _ limit interval _ _ _ => 0 <= limit < 2 ^ 64 /\ 0 <= interval < 2 ^ 32
  | OCheck _ _ amount _ => 0 <= amount < 2 ^ 64
  | OExtend _ secs => 0 <= secs < 2 ^ 32
  | _ => True
  end.
Definition typed (h : list entry) : Prop := Forall (fun e => typed_op (fst e)) h.

(** Permissions added to a session, oldest first: name, limit, interval. *)
Fixpoint granted (h : list entry) (id : list N) : list (list N * Z * Z) :=
  match h with
  | [] => []
  | (OAdd id' name limit interval _ _ _, AUnit (Ok _)) :: t =>
    if beq (key id') id then granted t id ++ [(name, limit, interval)] else granted t id
  | _ :: t => granted t id
  end.

(** Amounts authorised against permission [k] of a session in the accounting
    window ending at [w], in unbounded arithmetic. *)
Fixpoint authorised (h : list entry) (id : list N) (k : nat) (w : Z) : Z :=
  match h with
  | [] => 0
  | (OCheck id' _ amount _, ACharge (Ok (k', w'))) :: t =>
    (if beq (key id') id && (k' =? k)%nat && (w' =? w) then amount else 0) + authorised t id k w
  | _ :: t => authorised t id k w
  end.

(** When a session expires, as far as its holder can tell; None if it was
    never created or was destroyed. *)
Fixpoint expiry (h : list entry) (id : list N) : option Z :=
  match h with
  | [] => None
  | (OCreate _ _ _ now2 _, AId (Ok id')) :: t =>
    if beq id' id then Some (now2 + timeout_of (config_of t)) else expiry t id
  | (OExtend id' secs, AUnit (Ok _)) :: t =>
    if beq (key id') id then option_map (fun e => e + secs) (expiry t id) else expiry t id
  | (ODestroy id', AUnit (Ok _)) :: t => if beq (key id') id then None else expiry t id
  | _ :: t => expiry t id
  end.

(** Creations that succeeded with the rate limiter's clock reading [s]. *)
Fixpoint created_at (h : list entry) (s : Z) : Z :=
  match h with
  | [] => 0
  | (OCreate _ _ now _ _, AId (Ok _)) :: t => (if now =? s then 1 else 0) + created_at t s
  | _ :: t => created_at t s
  end.
(** The clock never runs backwards across creations. *)
Fixpoint latest (h : list entry) : option Z :=
  match h with
  | [] => None
  | (OCreate _ _ now _ _, _) :: _ => Some now
  | _ :: t => latest t
  end.
Fixpoint clock_ok (h : list entry) : Prop :=
  match h with
  | [] => True
  | (OCreate _ _ now _ _, _) :: t => match latest t with Some l => l <= now | None => True end /\ clock_ok t
  | _ :: t => clock_ok t
  end.
Definition in_second (h : list entry) (s : Z) : Prop := 0 < created_at h s.

(** Draws are distinct. *)
Definition fresh (h : list entry) : Prop := NoDup (created h).

(** No addition of an amount to a limit passes 2^64. *)
Definition amounts_of (h : list entry) : list Z := flat_map (fun e => match fst e with OCheck _ _ a _ => [a] | _ => [] end) h.
Definition limits_of (h : list entry) : list Z := flat_map (fun e => match fst e with OAdd _ _ l _ _ _ _ => [l] | _ => [] end) h.
Definition no_wrap (h : list entry) : Prop := forall a l, In a (amounts_of h) -> In l (limits_of h) -> a + l < 2 ^ 64.

(** The permission limit was never raised. *)
Fixpoint perms_lowered (h : list entry) : Prop :=
  match h with
  | [] => True
  | (OConfig c, _) :: t => (perms_of c <= perms_of (config_of t))%nat /\ perms_lowered t
  | _ :: t => perms_lowered t
  end.

(** The sessions that exist, with their contents. *)
Definition lookup (w : world) (id : list N) : option session :=
  match g_table w with
  | Some t => find (fun x => x_active x && beq (x_id x) id) t
  | None => None
  end.
Definition active_ids (w : world) : list (list N) :=
  match g_table w with
  | Some t => map x_id (filter x_active t)
  | None => []
  end.

(** The connection a session was created with. *)
Fixpoint conn_of (h : list entry) (id : list N) : option nat :=
  match h with
  | [] => None
  | (OCreate _ (Ok c) _ _ _, AId (Ok id')) :: t => if beq id' id then Some c else conn_of t id
  | _ :: t => conn_of t id
  end.

(** The clock never runs backwards across the calls that account for time. *)
Definition now_of (o : op) : option Z :=
  match o with OAdd _ _ _ _ now _ _ | OCheck _ _ _ now => Some now | _ => None end.
Fixpoint last_time (h : list entry) : option Z :=
  match h with
  | [] => None
  | (o, _) :: t => match now_of o with Some n => Some n | None => last_time t end
  end.
Fixpoint times_ok (h : list entry) : Prop :=
  match h with
  | [] => True
  | (o, _) :: t => match now_of o, last_time t with Some n, Some l => l <= n | _, _ => True end /\ times_ok t
  end.
