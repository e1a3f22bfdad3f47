(** Model of src/config.c. *)
From Verif Require Import Base Dec Strto.
Open Scope Z_scope.

(** include/nostr.h:85-99 nostr_config: its thirteen fields in order (ten
    uint32_t, three int). *)
Definition config := list Z.
Definition fld (c : config) (k : nat) : Z := nth k c 0.

(** src/config.c:56-74 nostr_config_get_defaults *)
Definition defaults : config := [1; 65535; 100; 3600; 32; 65536; 100; 50; 30000; 10000; 44; 0; 0].

Definition environment := list N -> option (list N).   (* getenv *)

(** src/config.c:76-85 parse_uint32_env *)
Definition parse_uint32_env (env : environment) (name : list N) (default : Z) : Z :=
  match env name with
  | None => default
  | Some text =>
    let '(v, rest) := strtoul text in
    if negb (length rest =? 0)%nat || (4294967295 <? v)%N then default else Z.of_N v
  end.
(** src/config.c:87-96 parse_int_env *)
Definition parse_int_env (env : environment) (name : list N) (default : Z) : Z :=
  match env name with
  | None => default
  | Some text =>
    let '(v, rest) := strtoll text in
    if negb (length rest =? 0)%nat || (2147483647 <? v) || (v <? -2147483648) then default else v
  end.

(** src/config.c:98-116 nostr_config_load_env *)
Definition load_env (env : environment) (c : config) : config :=
  let u k name := parse_uint32_env env (bs name) (fld c k) in
  let i k name := parse_int_env env (bs name) (fld c k) in
  [u 0%nat "NOSTR_NIP44_MIN_SIZE"; u 1%nat "NOSTR_NIP44_MAX_SIZE"; u 2%nat "NOSTR_MAX_SESSIONS";
   u 3%nat "NOSTR_SESSION_TIMEOUT"; u 4%nat "NOSTR_MAX_PERMISSIONS"; u 5%nat "NOSTR_MAX_CONTENT_SIZE";
   u 6%nat "NOSTR_MAX_TAGS"; u 7%nat "NOSTR_MAX_TAG_VALUES"; u 8%nat "NOSTR_RELAY_CONNECT_TIMEOUT";
   u 9%nat "NOSTR_RELAY_RESPONSE_TIMEOUT"; i 10%nat "NOSTR_ENCRYPTION_DEFAULT";
   i 11%nat "NOSTR_SECURE_MEMORY_LOCK"; i 12%nat "NOSTR_DEBUG"]%string.

(** src/config.c:118-175 nostr_config_validate: true when accepted *)
Definition validate (c : config) : bool :=
  if (fld c 0 <? 1) || (65535 <? fld c 0) then false
  else if (fld c 1 <? fld c 0) || (65535 <? fld c 1) then false
  else if (fld c 2 =? 0) || (10000 <? fld c 2) then false
  else if (fld c 3 <? 60) || (86400 <? fld c 3) then false
  else if (fld c 4 =? 0) || (1000 <? fld c 4) then false
  else if (fld c 5 <? 1024) || (1048576 <? fld c 5) then false
  else if (fld c 6 =? 0) || (1000 <? fld c 6) then false
  else if (fld c 7 =? 0) || (1000 <? fld c 7) then false
  else if (fld c 8 <? 1000) || (300000 <? fld c 8) then false
  else if (fld c 9 <? 1000) || (60000 <? fld c 9) then false
  else if negb (fld c 10 =? 4) && negb (fld c 10 =? 44) then false
  else if (fld c 11 <? 0) || (1 <? fld c 11) then false
  else if (fld c 12 <? 0) || (1 <? fld c 12) then false
  else true.

(** What a change callback does: the configuration calls it makes, in order.
    Only whether a call takes the lock matters. *)
Inductive cb_call : Set :=
| CbGet                       (* nostr_config_get_current *)
| CbUpdate (c : config)       (* nostr_config_update, non-NULL *)
| CbInit                      (* nostr_init_with_config *)
| CbSet                       (* nostr_config_set_callback *)
| CbValidate (c : config)     (* nostr_config_validate: no lock *)
| CbDefaults.                 (* nostr_config_get_defaults: no lock *)
Definition takes_lock (c : cb_call) : bool :=
  match c with CbValidate _ | CbDefaults => false | _ => true end.

(** src/config.c:14-17: the globals *)
Record state : Set := mkState { s_config : config; s_init : bool; s_cb : option (list cb_call) }.
Definition s0 : state := mkState (repeat 0 13) false None.

Inductive op : Type :=
| OGet
| OInit (c : option config) (env : environment) (lib : res unit)   (* lib: what nostr_init returns *)
| OSet (cb : option (list cb_call))
| OUpdate (c : option config).

Inductive outcome : Type :=
| Done (s : state) (r : res unit) (read : option config)
| Blocked.                    (* waits forever for a mutex its own thread holds *)

(** A callback runs with config_lock held; the mutex is not recursive
    (src/config.c:31, PTHREAD_MUTEX_INITIALIZER). *)
Fixpoint callback_returns (cb : list cb_call) : bool :=
  match cb with
  | [] => true
  | c :: r => if takes_lock c then false else callback_returns r
  end.

Definition call (s : state) (o : op) : outcome :=
  match o with
  (* src/config.c:177-191 nostr_config_get_current *)
  | OGet => Done s (Ok tt) (if s_init s then Some (s_config s) else None)
  (* src/config.c:193-231 nostr_init_with_config *)
  | OInit c env lib =>
    if s_init s then Done s (Ok tt) None
    else match c with
         | Some c => if validate c then Done (mkState c true (s_cb s)) lib None
                     else Done s (Err EInvalidParam) None
         | None => let c := load_env env defaults in
                   if validate c then Done (mkState c true (s_cb s)) lib None
                   else Done (mkState c false (s_cb s)) (Err EInvalidParam) None
         end
  (* src/config.c:233-239 nostr_config_set_callback *)
  | OSet cb => Done (mkState (s_config s) (s_init s) cb) (Ok tt) None
  (* src/config.c:241-266 nostr_config_update *)
  | OUpdate None => Done s (Err EInvalidParam) None
  | OUpdate (Some c) =>
    if negb (s_init s) then Done s (Err ENotFound) None
    else if validate c then
      match s_cb s with
      | Some cb => if callback_returns cb then Done (mkState c true (s_cb s)) (Ok tt) None else Blocked
      | None => Done (mkState c true (s_cb s)) (Ok tt) None
      end
    else Done s (Err EInvalidParam) None
  end.

(** A history: each call with what it returned, newest first. *)
Definition entry : Type := (op * res unit * option config)%type.
Inductive run : list entry -> state -> Prop :=
| Run0 : run [] s0
| RunS h s o s' r rd : run h s -> call s o = Done s' r rd -> run ((o, r, rd) :: h) s'.
