(** Model of src/nip47_session.c (wallet-connect sessions), one call at a time. *)
From Verif Require Import Base Dec Hex.
Open Scope Z_scope.

(** src/nip47_session.c:9-15 permission_t; [p_name] None when strdup failed *)
Record perm : Set := mkPerm { p_name : option (list N); p_limit : Z; p_reset : Z; p_interval : Z; p_used : Z }.
(** src/nip47_session.c:17-27 nwc_session_t: [x_perms] is the allocated array
    (capacity and the first permission_count entries), None for NULL; [x_conn]
    identifies the connection object *)
Record session : Set := mkSession {
  x_id : list N; x_conn : option nat; x_perms : option (nat * list perm);
  x_expires : Z; x_active : bool }.
Definition empty_session : session := mkSession [] None None 0 false.
Definition perm_list (x : session) : list perm := match x_perms x with Some (_, l) => l | None => [] end.

(** the fields of the current configuration used here; None before
    initialisation *)
Record limits : Set := mkLimits { l_sessions : nat; l_timeout : Z; l_perms : nat }.

(** src/nip47_session.c:29-37, the globals; [g_table] is None while the array
    is NULL *)
Record world : Set := mkWorld {
  g_table : option (list session); g_max : nat; g_init : bool;
  g_window : Z; g_count : Z; g_config : option limits }.
Definition w0 : world := mkWorld None 0 false 0 0 None.

Definition with_table (w : world) (t : list session) : world :=
  mkWorld (Some t) (g_max w) (g_init w) (g_window w) (g_count w) (g_config w).
Definition with_rate (w : world) (start count : Z) : world :=
  mkWorld (g_table w) (g_max w) (g_init w) start count (g_config w).

Fixpoint update {A} (l : list A) (k : nat) (x : A) : list A :=
  match l, k with
  | [], _ => []
  | _ :: r, O => x :: r
  | y :: r, S k' => y :: update r k' x
  end.

(** src/nip47_session.c:39-47 find_session: slot of the first active session
    whose 64 characters equal the first 64 bytes of the caller's string *)
Fixpoint find_from (key : list N) (i : nat) (t : list session) : option nat :=
  match t with
  | [] => None
  | x :: r => if x_active x && beq (x_id x) key then Some i else find_from key (S i) r
  end.
Definition find_session (w : world) (id : list N) : res (option nat) :=
  match g_table w with
  | None => if (g_max w =? 0)%nat then Ok None else Undef
  | Some t =>
    if (length id + 1 <? 64)%nat && existsb x_active t then Undef   (* reads past the string *)
    else Ok (find_from (firstn 64 (id ++ [0%N])) 0 t)
  end.

(** src/nip47_session.c:63-84 cleanup_expired_sessions *)
Definition cleanup (now : Z) (t : list session) : list session :=
  map (fun x => if x_active x && (x_expires x <? now) then mkSession (x_id x) None None (x_expires x) false else x) t.

(** src/nip47_session.c:86-113 nostr_nip47_session_init; [alloc]: whether
    calloc succeeds *)
Definition session_init (w : world) (alloc : bool) : world * res unit :=
  if g_init w then (w, Ok tt)
  else
    let n := match g_config w with Some c => l_sessions c | None => 100%nat end in
    if alloc then (mkWorld (Some (repeat empty_session n)) n true (g_window w) (g_count w) (g_config w), Ok tt)
    else (mkWorld None n false (g_window w) (g_count w) (g_config w), Err EMemory).

Fixpoint free_slot (i : nat) (t : list session) : option nat :=
  match t with
  | [] => None
  | x :: r => if x_active x then free_slot (S i) r else Some i
  end.

(** src/nip47_session.c:115-185 nostr_nip47_session_create: [uri] is the
    outcome of parsing the connection URI (the new connection), [now] the clock
    at the rate limiter and the cleanup, [now2] at lines 168; [rnd] the 32 random
    bytes.  The result is the new id. *)
Definition session_create (w : world) (alloc : bool) (uri : res nat) (now now2 : Z) (rnd : option (list N)) : world * res (list N) :=
  let w := if g_init w then w else fst (session_init w alloc) in
  match uri with
  | Err e => (w, Err e)
  | Undef => (w, Undef)
  | Ok conn =>
    let '(start, count) := if 1 <=? now - g_window w then (now, 0) else (g_window w, g_count w) in
    let w := with_rate w start count in
    if 10 <=? count then (w, Err EInvalidParam)
    else
      let w := with_rate w start (count + 1) in
      match g_table w with
      | None => (w, if (g_max w =? 0)%nat then Err EMemory else Undef)
      | Some t =>
        let t := cleanup now t in
        match free_slot 0 t with
        | None => (with_table w t, Err EMemory)
        | Some k =>
          match rnd with
          | None => (with_table w t, Err EMemory)
          | Some r =>
            let timeout := match g_config w with Some c => l_timeout c | None => 3600 end in
            let old := nth k t empty_session in
            let id := hex_encode r in
            (* line 172: permission_count = 0; the array pointer is kept *)
            let perms := match x_perms old with Some (cap, _) => Some (cap, []) | None => None end in
            (with_table w (update t k (mkSession id (Some conn) perms (now2 + timeout) true)), Ok id)
          end
        end
      end
  end.

(** Run [f] on the session found for [id]. *)
Definition on_session {A} (w : world) (id : list N) (f : session -> session * res A) : world * res A :=
  match find_session w id, g_table w with
  | Ok (Some k), Some t => let '(x, r) := f (nth k t empty_session) in (with_table w (update t k x), r)
  | Undef, _ => (w, Undef)
  | _, _ => (w, Err EInvalidParam)
  end.

Definition with_perms (x : session) (p : option (nat * list perm)) : session :=
  mkSession (x_id x) (x_conn x) p (x_expires x) (x_active x).

(** src/nip47_session.c:187-232 nostr_nip47_session_add_permission *)
Definition add_permission (w : world) (id name : list N) (limit interval now : Z) (alloc dup : bool) : world * res unit :=
  on_session w id (fun x =>
    let maxp := match g_config w with Some c => l_perms c | None => 32%nat end in
    let n := length (perm_list x) in
    if (maxp <=? n)%nat then (x, Err EMemory)
    else
      let arr := match x_perms x with
                 | Some a => Some a
                 | None => if alloc then Some (maxp, []) else None
                 end in
      match arr with
      | None => (x, Err EMemory)
      | Some (cap, l) =>
        if (cap <=? n)%nat then (x, Undef)      (* stores past the array *)
        else (with_perms x (Some (cap, l ++ [mkPerm (if dup then Some name else None) limit (now + interval) interval 0])), Ok tt)
      end).

(** src/nip47_session.c:260-267: index of the first permission for the method *)
Fixpoint find_perm (method : list N) (i : nat) (l : list perm) : res (option nat) :=
  match l with
  | [] => Ok None
  | p :: r =>
    match p_name p with
    | None => Undef
    | Some n => if beq n method || beq n (bs "*") then Ok (Some i) else find_perm method (S i) r
    end
  end.

Definition u64 (z : Z) : Z := z mod 2 ^ 64.

(** src/nip47_session.c:234-288 nostr_nip47_session_check_permission.  Besides
    the code, the permission the amount was charged to and the end of its
    accounting window. *)
Definition check_permission (w : world) (id method : list N) (amount now : Z) : world * res (nat * Z) :=
  on_session w id (fun x =>
    if x_expires x <? now then (x, Err EInvalidParam)
    else match find_perm method 0 (perm_list x), x_perms x with
         | Undef, _ => (x, Undef)
         | Ok (Some k), Some (cap, l) =>
           let p := nth k l (mkPerm None 0 0 0 0) in
           let p := if p_reset p <? now then mkPerm (p_name p) (p_limit p) (now + p_interval p) (p_interval p) 0 else p in
           if (0 <? p_limit p) && (p_limit p <? u64 (p_used p + amount)) then
             (with_perms x (Some (cap, update l k p)), Err EInvalidParam)
           else
             (with_perms x (Some (cap, update l k (mkPerm (p_name p) (p_limit p) (p_reset p) (p_interval p) (u64 (p_used p + amount))))),
              Ok (k, p_reset p))
         | _, _ => (x, Err EInvalidParam)
         end).

(** src/nip47_session.c:290-318 nostr_nip47_session_get_connection *)
Definition get_connection (w : world) (id : list N) (now : Z) : world * res (option nat) :=
  on_session w id (fun x => if x_expires x <? now then (x, Err EInvalidParam) else (x, Ok (x_conn x))).

(** src/nip47_session.c:320-341 nostr_nip47_session_extend (time_t arithmetic
    unbounded) *)
Definition session_extend (w : world) (id : list N) (secs : Z) : world * res unit :=
  on_session w id (fun x => (mkSession (x_id x) (x_conn x) (x_perms x) (x_expires x + secs) (x_active x), Ok tt)).

(** src/nip47_session.c:343-375 nostr_nip47_session_destroy *)
Definition session_destroy (w : world) (id : list N) : world * res unit :=
  on_session w id (fun x => (mkSession (x_id x) None None (x_expires x) false, Ok tt)).

(** ** Histories *)
Inductive op : Set :=
| OInit (alloc : bool)
| OCreate (alloc : bool) (uri : res nat) (now now2 : Z) (rnd : option (list N))
| OAdd (id name : list N) (limit interval now : Z) (alloc dup : bool)
| OCheck (id method : list N) (amount now : Z)
| OConn (id : list N) (now : Z)
| OExtend (id : list N) (secs : Z)
| ODestroy (id : list N)
| OConfig (c : option limits).

(** What a call returns. *)
Inductive answer : Set :=
| AUnit (r : res unit)
| AId (r : res (list N))
| ACharge (r : res (nat * Z))
| AConn (r : res (option nat)).

Definition lift {A} (f : A -> answer) (p : world * A) : world * answer := (fst p, f (snd p)).
Definition call (w : world) (o : op) : world * answer :=
  match o with
  | OInit alloc => lift AUnit (session_init w alloc)
  | OCreate alloc uri now now2 rnd => lift AId (session_create w alloc uri now now2 rnd)
  | OAdd id name limit interval now alloc dup => lift AUnit (add_permission w id name limit interval now alloc dup)
  | OCheck id method amount now => lift ACharge (check_permission w id method amount now)
  | OConn id now => lift AConn (get_connection w id now)
  | OExtend id secs => lift AUnit (session_extend w id secs)
  | ODestroy id => lift AUnit (session_destroy w id)
  | OConfig c => (mkWorld (g_table w) (g_max w) (g_init w) (g_window w) (g_count w) c, AUnit (Ok tt))
  end.

Definition undefined (a : answer) : Prop :=
  match a with AUnit Undef | AId Undef | ACharge Undef | AConn Undef => True | _ => False end.

(** A run: calls with their answers, newest first; undefined behaviour ends it. *)
Definition entry : Set := (op * answer)%type.
Inductive run : list entry -> world -> Prop :=
| Run0 : run [] w0
| RunS h w o w' a : run h w -> call w o = (w', a) -> ~ undefined a -> run ((o, a) :: h) w'.
