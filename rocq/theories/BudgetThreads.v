(** Spending limits of wallet-connect sessions under threads: the locks of
    src/nip47_session.c together with the permissions they protect.  Every call
    on an id looks its slot up under sessions_lock, takes the slot's lock and drops
    sessions_lock (lines 194-204, 241-251, 329-339, 354-364).  The work on the
    slot is split where another thread could get in if the lock did not keep it
    out: a check finds and renews the permission, compares, and only then adds
    the amount.  Ids are drawn afresh; names are never NULL; refusals of create
    (rate limit, full table, no randomness) and of add (array full, no memory) may
    happen at any time. *)
From Verif Require Import Base Session.
Open Scope Z_scope.

(** src/nip47_session.c:17-27, the fields used here *)
Record cell : Set := mkCell { c_id : option nat; c_perms : list perm; c_expires : Z; c_active : bool; c_lock : option nat }.
Inductive job : Set :=
| JCheck (id : nat) (method : list N) (amount : Z)
| JAdd (id : nat) (name : list N) (limit interval : Z)
| JExtend (id : nat) (secs : Z)
| JDestroy (id : nat).
Definition job_id (j : job) : nat := match j with JCheck i _ _ | JAdd i _ _ _ | JExtend i _ | JDestroy i => i end.
(** uint64_t amounts and limits, uint32_t intervals *)
Definition job_ok (j : job) : Prop :=
  match j with
  | JCheck _ _ a => 0 <= a < 2 ^ 64
  | JAdd _ _ l i => 0 <= l < 2 ^ 64 /\ 0 <= i < 2 ^ 32
  | _ => True
  end.
Inductive phase : Set :=
| BIdle
| BWantS (j : job) | BHasS (j : job)
| BWantX (j : job) (k : nat)                          (* holds sessions_lock *)
| BHasX (j : job) (k : nat)                           (* holds both *)
| BBody (j : job) (k : nat)                           (* holds the slot *)
| BTest (id : nat) (method : list N) (amount now : Z) (k n : nat)
| BCharge (id : nat) (method : list N) (amount now : Z) (k n : nat) (used : Z)   (* [used]: the value read *)
| BMid (id k : nat)                                   (* destroy: [active] cleared *)
| BWantCreate (id : nat) | BCreate (id : nat)
| BWantClean (id k : nat) | BClean (id k : nat)
| BWantFill (id k : nat) | BFill (id k : nat).

(** What callers were told, newest first: a permission granted; an amount
    authorised or refused for want of funds, with the permission it concerns, the
    time read and the end of the accounting window. *)
Inductive event : Set :=
| EGrant (id : nat) (name : list N) (limit interval : Z)
| ECharge (id n : nat) (method : list N) (amount now window : Z)
| EDeny (id n : nat) (method : list N) (amount now window : Z).
Record sys : Set := mkSys {
  m_s : option nat; m_cells : list cell; m_threads : list phase; m_now : Z; m_log : list event; m_made : list nat }.

Definition go (m : sys) i p := mkSys (m_s m) (m_cells m) (update (m_threads m) i p) (m_now m) (m_log m) (m_made m).
Definition with_s (m : sys) s := mkSys s (m_cells m) (m_threads m) (m_now m) (m_log m) (m_made m).
Definition with_cell (m : sys) k c := mkSys (m_s m) (update (m_cells m) k c) (m_threads m) (m_now m) (m_log m) (m_made m).
Definition at_time (m : sys) t := mkSys (m_s m) (m_cells m) (m_threads m) t (m_log m) (m_made m).
Definition tell (m : sys) e := mkSys (m_s m) (m_cells m) (m_threads m) (m_now m) (e :: m_log m) (m_made m).
Definition name_id (m : sys) id := mkSys (m_s m) (m_cells m) (m_threads m) (m_now m) (m_log m) (id :: m_made m).

Definition locked (c : cell) l := mkCell (c_id c) (c_perms c) (c_expires c) (c_active c) l.
Definition perms_set (c : cell) ps l := mkCell (c_id c) ps (c_expires c) (c_active c) l.
(** src/nip47_session.c:42 *)
Definition hit (id : nat) (c : cell) : bool := c_active c && match c_id c with Some i => (i =? id)%nat | None => false end.
(** src/nip47_session.c:261-267 *)
Fixpoint pick (method : list N) (ps : list perm) : option nat :=
  match ps with
  | [] => None
  | p :: r =>
    if match p_name p with Some n => beq n method || beq n (bs "*") | None => false end then Some O
    else option_map S (pick method r)
  end.
(** src/nip47_session.c:274-277 *)
Definition renew (now : Z) (p : perm) : perm :=
  if p_reset p <? now then mkPerm (p_name p) (p_limit p) (now + p_interval p) (p_interval p) 0 else p.
(** src/nip47_session.c:279 *)
Definition over (p : perm) (amount : Z) : bool := (0 <? p_limit p) && (p_limit p <? u64 (p_used p + amount)).
(** src/nip47_session.c:284 *)
Definition charge (p : perm) (used amount : Z) : perm := mkPerm (p_name p) (p_limit p) (p_reset p) (p_interval p) (u64 (used + amount)).
(** Ids in the course of being created. *)
Definition creating (p : phase) : option nat :=
  match p with BWantCreate n | BCreate n | BWantClean n _ | BClean n _ | BWantFill n _ | BFill n _ => Some n | _ => None end.

Inductive tstep (m : sys) (i : nat) : sys -> Prop :=
(* lines 194-204, 241-251, 329-339, 354-364 *)
| TStart j : nth_error (m_threads m) i = Some BIdle -> job_ok j -> tstep m i (go m i (BWantS j))
| TLockS j : nth_error (m_threads m) i = Some (BWantS j) -> m_s m = None -> tstep m i (with_s (go m i (BHasS j)) (Some i))
| TFind j k c : nth_error (m_threads m) i = Some (BHasS j) -> nth_error (m_cells m) k = Some c -> hit (job_id j) c = true ->
    tstep m i (go m i (BWantX j k))
| TMiss j : nth_error (m_threads m) i = Some (BHasS j) -> Forall (fun c => hit (job_id j) c = false) (m_cells m) ->
    tstep m i (with_s (go m i BIdle) None)
| TLockX j k c : nth_error (m_threads m) i = Some (BWantX j k) -> nth_error (m_cells m) k = Some c -> c_lock c = None ->
    tstep m i (with_cell (go m i (BHasX j k)) k (locked c (Some i)))
| TDropS j k : nth_error (m_threads m) i = Some (BHasX j k) -> tstep m i (with_s (go m i (BBody j k)) None)
(* check: lines 253-287 *)
| TExpired id me a k c now : nth_error (m_threads m) i = Some (BBody (JCheck id me a) k) -> nth_error (m_cells m) k = Some c ->
    m_now m <= now -> c_expires c < now -> tstep m i (at_time (with_cell (go m i BIdle) k (locked c None)) now)
| TNone id me a k c now : nth_error (m_threads m) i = Some (BBody (JCheck id me a) k) -> nth_error (m_cells m) k = Some c ->
    m_now m <= now -> now <= c_expires c -> pick me (c_perms c) = None -> tstep m i (at_time (with_cell (go m i BIdle) k (locked c None)) now)
| TLook id me a k c now n p : nth_error (m_threads m) i = Some (BBody (JCheck id me a) k) -> nth_error (m_cells m) k = Some c ->
    m_now m <= now -> now <= c_expires c -> pick me (c_perms c) = Some n -> nth_error (c_perms c) n = Some p ->
    tstep m i (at_time (with_cell (go m i (BTest id me a now k n)) k (perms_set c (update (c_perms c) n (renew now p)) (c_lock c))) now)
| TOver id me a now k n c p : nth_error (m_threads m) i = Some (BTest id me a now k n) -> nth_error (m_cells m) k = Some c ->
    nth_error (c_perms c) n = Some p -> over p a = true ->
    tstep m i (tell (with_cell (go m i BIdle) k (locked c None)) (EDeny id n me a now (p_reset p)))
| TWithin id me a now k n c p : nth_error (m_threads m) i = Some (BTest id me a now k n) -> nth_error (m_cells m) k = Some c ->
    nth_error (c_perms c) n = Some p -> over p a = false -> tstep m i (go m i (BCharge id me a now k n (p_used p)))
| TCharge id me a now k n u c p : nth_error (m_threads m) i = Some (BCharge id me a now k n u) -> nth_error (m_cells m) k = Some c ->
    nth_error (c_perms c) n = Some p ->
    tstep m i (tell (with_cell (go m i BIdle) k (perms_set c (update (c_perms c) n (charge p u a)) None)) (ECharge id n me a now (p_reset p)))
(* add: lines 206-231 *)
| TAdd id name limit interval k c now : nth_error (m_threads m) i = Some (BBody (JAdd id name limit interval) k) ->
    nth_error (m_cells m) k = Some c -> m_now m <= now ->
    tstep m i (tell (at_time (with_cell (go m i BIdle) k
      (perms_set c (c_perms c ++ [mkPerm (Some name) limit (now + interval) interval 0]) None)) now) (EGrant id name limit interval))
| TAddFail id name limit interval k c : nth_error (m_threads m) i = Some (BBody (JAdd id name limit interval) k) ->
    nth_error (m_cells m) k = Some c -> tstep m i (with_cell (go m i BIdle) k (locked c None))
(* extend: lines 337-340 *)
| TExtend id secs k c : nth_error (m_threads m) i = Some (BBody (JExtend id secs) k) -> nth_error (m_cells m) k = Some c ->
    tstep m i (with_cell (go m i BIdle) k (mkCell (c_id c) (c_perms c) (c_expires c + secs) (c_active c) None))
(* destroy: lines 361-374 *)
| TDestroy id k c : nth_error (m_threads m) i = Some (BBody (JDestroy id) k) -> nth_error (m_cells m) k = Some c ->
    tstep m i (with_cell (go m i (BMid id k)) k (mkCell (c_id c) (c_perms c) (c_expires c) false (c_lock c)))
| TRelease id k c : nth_error (m_threads m) i = Some (BMid id k) -> nth_error (m_cells m) k = Some c ->
    tstep m i (with_cell (go m i BIdle) k (perms_set c [] None))
(* create: lines 130-184, cleanup_expired_sessions: lines 67-83 *)
| TCreate id : nth_error (m_threads m) i = Some BIdle -> ~ In id (m_made m) ->
    (forall j p, nth_error (m_threads m) j = Some p -> creating p <> Some id) -> tstep m i (go m i (BWantCreate id))
| TCreateS id : nth_error (m_threads m) i = Some (BWantCreate id) -> m_s m = None -> tstep m i (with_s (go m i (BCreate id)) (Some i))
| TClean id k c now : nth_error (m_threads m) i = Some (BCreate id) -> nth_error (m_cells m) k = Some c -> c_active c = true ->
    m_now m <= now -> c_expires c < now -> tstep m i (at_time (go m i (BWantClean id k)) now)
| TCleanX id k c : nth_error (m_threads m) i = Some (BWantClean id k) -> nth_error (m_cells m) k = Some c -> c_lock c = None ->
    tstep m i (with_cell (go m i (BClean id k)) k (locked c (Some i)))
| TCleaned id k c : nth_error (m_threads m) i = Some (BClean id k) -> nth_error (m_cells m) k = Some c ->
    tstep m i (with_cell (go m i (BCreate id)) k (mkCell (c_id c) [] (c_expires c) false None))
| TRefuse id : nth_error (m_threads m) i = Some (BCreate id) -> tstep m i (with_s (go m i BIdle) None)
| TSlot id k c : nth_error (m_threads m) i = Some (BCreate id) -> nth_error (m_cells m) k = Some c -> c_active c = false ->
    tstep m i (go m i (BWantFill id k))
| TFillX id k c : nth_error (m_threads m) i = Some (BWantFill id k) -> nth_error (m_cells m) k = Some c -> c_lock c = None ->
    tstep m i (with_cell (go m i (BFill id k)) k (locked c (Some i)))
| TFill id k c e : nth_error (m_threads m) i = Some (BFill id k) -> nth_error (m_cells m) k = Some c ->
    tstep m i (name_id (with_s (with_cell (go m i BIdle) k (mkCell (Some id) [] e true None)) None) id).

Definition start (threads slots : nat) (t : Z) : sys := mkSys None (repeat (mkCell None [] 0 false None) slots) (repeat BIdle threads) t [] [].
Inductive reach (threads slots : nat) (t : Z) : sys -> Prop :=
| Reach0 : reach threads slots t (start threads slots t)
| ReachS m i m' : reach threads slots t m -> tstep m i m' -> reach threads slots t m'.

(** ** Specification vocabulary, in terms of what callers were told. *)
(** Permissions granted to a session, oldest first: name, limit, interval. *)
Fixpoint grants (l : list event) (id : nat) : list (list N * Z * Z) :=
  match l with
  | [] => []
  | EGrant i name limit interval :: t => if (i =? id)%nat then grants t id ++ [(name, limit, interval)] else grants t id
  | _ :: t => grants t id
  end.
(** Amounts authorised against permission [n] in the window ending at [w]. *)
Fixpoint spent (l : list event) (id n : nat) (w : Z) : Z :=
  match l with
  | [] => 0
  | ECharge i k _ a _ w' :: t => (if (i =? id)%nat && (k =? n)%nat && (w' =? w) then a else 0) + spent t id n w
  | _ :: t => spent t id n w
  end.
(** Amounts authorised against permission [n] at times from [t0] to [t1]. *)
Fixpoint spent_between (l : list event) (id n : nat) (t0 t1 : Z) : Z :=
  match l with
  | [] => 0
  | ECharge i k _ a now _ :: t => (if (i =? id)%nat && (k =? n)%nat && (t0 <=? now) && (now <=? t1) then a else 0) + spent_between t id n t0 t1
  | _ :: t => spent_between t id n t0 t1
  end.
(** No authorised amount passes 2^64 when added to a limit. *)
Definition no_wrap (l : list event) : Prop :=
  forall id n me a now w id' name limit interval, In (ECharge id n me a now w) l -> In (EGrant id' name limit interval) l -> a + limit < 2 ^ 64.
