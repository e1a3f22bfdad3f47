(** Model of the library's start: src/key.c:31-118, 211-280, and of the calls that
    start it on demand.  The build with noscrypt; its context is one static object
    that NCInitContext makes usable and NCDestroyContext unusable. *)
From Verif Require Import Base.

(** [i_ptr]: nc_ctx is not NULL; [i_ready]: the context is usable; [i_flag]:
    ctx_initialized. *)
Record lib : Set := mkLib { i_ptr : bool; i_ready : bool; i_flag : bool }.
Definition cold : lib := mkLib false false false.
(** What the libraries answer during one call of nostr_init. *)
Record luck : Set := mkLuck { k_context : bool; k_random : bool; k_init : bool }.

(** src/key.c:211-259 nostr_init *)
Definition init (k : luck) (w : lib) : lib * option err :=
  if i_flag w then (w, None)
  else if negb (k_context k) then (mkLib false (i_ready w) false, Some EMemory)
  else if negb (k_random k) then (mkLib true (i_ready w) false, Some EMemory)
  else if negb (k_init k) then (mkLib true false false, Some EMemory)
  else (mkLib true true true, None).
(** src/key.c:261-280 nostr_cleanup *)
Definition cleanup (w : lib) : lib := mkLib false (if i_ptr w then false else i_ready w) false.

(** How a call makes sure of the context before it uses it:
    - [ByFlag]: src/key.c:289-294, 447-452, 540-545, 627-632 (generating and checking
      keys, ECDH);
    - [ByPtr]: src/event.c:600-605, 701-706, src/nip44.c:268-273, 385-390 (signing,
      verifying, encrypting, decrypting);
    - [Always]: src/nip26.c:196-198, 291-293 (delegation);
    - [Never]: src/nip47.c:437-438 (wallet requests). *)
Inductive guard : Set := ByFlag | ByPtr | Always | Never.
Inductive used : Set := Ran (usable : bool) | Refused (e : err).
Definition run_on (w : lib) : used := Ran (i_ptr w && i_ready w).
Definition must_start (g : guard) (w : lib) : bool :=
  match g with ByFlag => negb (i_flag w) | ByPtr => negb (i_ptr w) | Always => true | Never => false end.
Definition call (g : guard) (k : luck) (w : lib) : lib * used :=
  if must_start g w then match init k w with (w', Some e) => (w', Refused e) | (w', None) => (w', run_on w') end
  else (w, run_on w).

Inductive op : Set := OInit (k : luck) | OCleanup | OCall (g : guard) (k : luck).
Definition step (o : op) (w : lib) : lib * option used :=
  match o with
  | OInit k => (fst (init k w), None)
  | OCleanup => (cleanup w, None)
  | OCall g k => let '(w', u) := call g k w in (w', Some u)
  end.
(** State and the outcome of every call, oldest first. *)
Fixpoint run (l : list op) (w : lib) : lib * list (guard * used) :=
  match l with
  | [] => (w, [])
  | o :: r =>
    let '(w1, u) := step o w in
    let '(w2, us) := run r w1 in
    (w2, match o, u with OCall g _, Some x => (g, x) :: us | _, _ => us end)
  end.

(** ** Any number of threads *)
(** Where a thread is.  [Some g]: inside a call that uses the context afterwards;
    [None]: the caller asked for nostr_init. *)
Inductive pc : Set :=
| Idle
| Check (g : guard)                      (* reads ctx_initialized or nc_ctx *)
| Lock (c : option guard)                (* key.c:213 *)
| Test (c : option guard)                (* 215-218 *)
| Point (c : option guard)               (* 221-225 *)
| Draw (c : option guard)                (* 227-231, before the generator's lock *)
| Drawing (c : option guard)             (* the generator's lock is held *)
| Start (c : option guard)               (* 233-236 *)
| Mark (c : option guard)                (* 256 *)
| Leave (c : option guard) (ok : bool)   (* unlock *)
| Use (g : guard)                        (* the context is used *)
| CLock | CDestroy | CPoint | CFlag | CLeave   (* key.c:263-279 *)
| Rand | RandIn.                         (* nostr_random_bytes by itself *)

Record world : Set := mkW { w_lib : lib; w_ctx : option nat; w_rng : option nat; w_at : nat -> pc; w_uses : list (guard * bool); w_twice : bool }.
Definition put (w : world) (i : nat) (p : pc) : world :=
  mkW (w_lib w) (w_ctx w) (w_rng w) (fun j => if Nat.eqb j i then p else w_at w j) (w_uses w) (w_twice w).
Definition with_lib (w : world) (l : lib) : world := mkW l (w_ctx w) (w_rng w) (w_at w) (w_uses w) (w_twice w).
Definition with_ctx (w : world) (o : option nat) : world := mkW (w_lib w) o (w_rng w) (w_at w) (w_uses w) (w_twice w).
Definition with_rng (w : world) (o : option nat) : world := mkW (w_lib w) (w_ctx w) o (w_at w) (w_uses w) (w_twice w).
Definition saw (w : world) (g : guard) : world := mkW (w_lib w) (w_ctx w) (w_rng w) (w_at w) ((g, i_ptr (w_lib w) && i_ready (w_lib w)) :: w_uses w) (w_twice w).
(** NCInitContext: what the context held before is lost if it was usable *)
Definition made (w : world) : world := mkW (mkLib (i_ptr (w_lib w)) true (i_flag (w_lib w))) (w_ctx w) (w_rng w) (w_at w) (w_uses w) (w_twice w || i_ready (w_lib w)).
Definition set_ptr (b : bool) (l : lib) : lib := mkLib b (i_ready l) (i_flag l).
Definition set_flag (b : bool) (l : lib) : lib := mkLib (i_ptr l) (i_ready l) b.
Definition unready (l : lib) : lib := mkLib (i_ptr l) false (i_flag l).

Section Threads.
(** May nostr_cleanup be called; may the libraries fail; does the generator use its own lock (the mbedTLS
    build, src/key.c:77-96, 162-196) *)
Variables may_clean may_fail rng_locks : bool.
Inductive tstep (w : world) (i : nat) : world -> Prop :=
| SCall g : w_at w i = Idle -> tstep w i (put w i (Check g))
| SInit : w_at w i = Idle -> tstep w i (put w i (Lock None))
| SClean : w_at w i = Idle -> may_clean = true -> tstep w i (put w i CLock)
| SRand : w_at w i = Idle -> tstep w i (put w i Rand)
| SCheck g : w_at w i = Check g -> tstep w i (put w i (if must_start g (w_lib w) then Lock (Some g) else Use g))
| SLock c : w_at w i = Lock c -> w_ctx w = None -> tstep w i (with_ctx (put w i (Test c)) (Some i))
| STest c : w_at w i = Test c -> tstep w i (put w i (if i_flag (w_lib w) then Leave c true else Point c))
| SPoint c : w_at w i = Point c -> tstep w i (with_lib (put w i (Draw c)) (set_ptr true (w_lib w)))
| SNoPoint c : w_at w i = Point c -> may_fail = true -> tstep w i (with_lib (put w i (Leave c false)) (set_ptr false (w_lib w)))
| SDraw c : w_at w i = Draw c -> (rng_locks = true -> w_rng w = None) -> tstep w i (with_rng (put w i (Drawing c)) (if rng_locks then Some i else w_rng w))
| SDrawn c (ok : bool) : w_at w i = Drawing c -> (ok = false -> may_fail = true) -> tstep w i (with_rng (put w i (if ok then Start c else Leave c false)) (if rng_locks then None else w_rng w))
| SStart c : w_at w i = Start c -> tstep w i (made (put w i (Mark c)))
| SNoStart c : w_at w i = Start c -> may_fail = true -> tstep w i (with_lib (put w i (Leave c false)) (unready (w_lib w)))
| SMark c : w_at w i = Mark c -> tstep w i (with_lib (put w i (Leave c true)) (set_flag true (w_lib w)))
| SLeave c ok : w_at w i = Leave c ok -> tstep w i (with_ctx (put w i (match c with Some g => if ok then Use g else Idle | None => Idle end)) None)
| SUse g : w_at w i = Use g -> tstep w i (saw (put w i Idle) g)
| SCLock : w_at w i = CLock -> w_ctx w = None -> tstep w i (with_ctx (put w i CDestroy) (Some i))
| SCDestroy : w_at w i = CDestroy -> tstep w i (with_lib (put w i CPoint) (if i_ptr (w_lib w) then unready (w_lib w) else w_lib w))
| SCPoint : w_at w i = CPoint -> tstep w i (with_lib (put w i CFlag) (set_ptr false (w_lib w)))
| SCFlag : w_at w i = CFlag -> tstep w i (with_lib (put w i CLeave) (set_flag false (w_lib w)))
| SCLeave : w_at w i = CLeave -> tstep w i (with_ctx (put w i Idle) None)
| SRandIn : w_at w i = Rand -> (rng_locks = true -> w_rng w = None) -> tstep w i (with_rng (put w i RandIn) (if rng_locks then Some i else w_rng w))
| SRandOut : w_at w i = RandIn -> tstep w i (with_rng (put w i Idle) (if rng_locks then None else w_rng w)).
Inductive reach (w0 : world) : world -> Prop :=
| Reach0 : reach w0 w0
| ReachS w i w' : reach w0 w -> tstep w i w' -> reach w0 w'.
End Threads.
(** A program that starts, with the library in state [l]. *)
Definition boot (l : lib) : world := mkW l None None (fun _ => Idle) [] false.
