(** Model of the life of a relay object: src/relay.c:161-378, 491-506 and the
    state changes of 560-734.  Blocks are identified; using a block that is not
    live is undefined.  The socket library is represented by what its calls
    return and by the call-backs it makes. *)
From Verif Require Import Base.

(** Blocks.  [OLws] is the library's context, [OThread] the service thread,
    [OCell] a subscription or the receive buffer. *)
Inductive obj : Set := ORelay (r : nat) | OUrl (r : nat) | OLws (n : nat) | OCopy (n : nat) | OCtx (n : nat) | OThread (n : nat) | OCell (k : nat).
Definition obj_dec (a b : obj) : {a = b} + {a <> b}.
Proof. repeat decide equality. Defined.
Inductive rstate : Set := RDisconnected | RConnecting | RConnected | RError.
(** include/nostr.h:198-206, src/relay.c:60-87 *)
Record relayrec : Set := mkRelay { r_state : rstate; r_ws : option nat }.
Record ctxrec : Set := mkCtx { c_context : option nat; c_thread : bool; c_reconnect : bool; c_cells : list nat; c_buf : option nat }.
Record world : Set := mkWorld {
  w_live : list obj; w_next : nat;
  w_relay : nat -> relayrec; w_ctx : nat -> ctxrec;
  w_wsi : nat -> option nat   (* the socket of a library context and its opaque user data *)
}.
Definition upd {A} (f : nat -> A) (i : nat) (x : A) : nat -> A := fun j => if Nat.eqb i j then x else f j.
Definition is_live (o : obj) (w : world) : bool := if in_dec obj_dec o (w_live w) then true else false.
Definition use (o : obj) (w : world) : res world := if is_live o w then Ok w else Undef.
Definition alloc (o : obj) (w : world) : world := mkWorld (o :: w_live w) (w_next w) (w_relay w) (w_ctx w) (w_wsi w).
Definition free (o : obj) (w : world) : res world :=
  if is_live o w then Ok (mkWorld (remove obj_dec o (w_live w)) (w_next w) (w_relay w) (w_ctx w) (w_wsi w)) else Undef.
Fixpoint free_all (os : list obj) (w : world) : res world :=
  match os with [] => Ok w | o :: r => do w' <- free o w; free_all r w' end.
Definition fresh (w : world) : world := mkWorld (w_live w) (S (w_next w)) (w_relay w) (w_ctx w) (w_wsi w).
Definition set_relay (r : nat) (x : relayrec) (w : world) : world := mkWorld (w_live w) (w_next w) (upd (w_relay w) r x) (w_ctx w) (w_wsi w).
Definition set_ctx (n : nat) (x : ctxrec) (w : world) : world := mkWorld (w_live w) (w_next w) (w_relay w) (upd (w_ctx w) n x) (w_wsi w).
Definition set_wsi (n : nat) (x : option nat) (w : world) : world := mkWorld (w_live w) (w_next w) (w_relay w) (w_ctx w) (upd (w_wsi w) n x).
Definition set_state (r : nat) (s : rstate) (w : world) : world := set_relay r (mkRelay s (r_ws (w_relay w r))) w.
Definition set_ws (r : nat) (x : option nat) (w : world) : world := set_relay r (mkRelay (r_state (w_relay w r)) x) w.
Definition busy (s : rstate) : bool := match s with RConnected | RConnecting => true | _ => false end.

(** src/relay.c:161-184 nostr_relay_create; [None] on failure *)
Definition create (a1 a2 : bool) (w : world) : res (world * option nat) :=
  if negb a1 then Ok (w, None)
  else
    let r := w_next w in
    let w := alloc (ORelay r) (fresh w) in
    if negb a2 then do w <- free (ORelay r) w; Ok (w, None)
    else Ok (set_relay r (mkRelay RDisconnected None) (alloc (OUrl r) w), Some r).

(** What the library and the allocator do during a connect call *)
Record outcome : Set := mkOutcome { o_context : bool; o_dup : bool; o_scheme : bool; o_calloc : bool; o_mutex : bool; o_wsi : bool; o_thread : bool }.

(** Destroying a library context closes its socket: src/relay.c:560-563, 708-727
    for the closing call-back (reason CLOSED or CONNECTION_ERROR), and once more
    560-563 for the last one.  [elapsed]: the reconnect interval has passed. *)
Definition closing (n : nat) (elapsed : bool) (w : world) : res world :=
  match w_wsi w n with
  | None => Ok w
  | Some r =>
    do w <- use (ORelay r) w;
    do w <- match r_ws (w_relay w r) with
            | None => Ok w
            | Some c =>
              do w <- use (OCtx c) w;
              let w := set_state r RDisconnected w in
              Ok (if c_reconnect (w_ctx w c) && elapsed then set_state r RConnecting w else w)
            end;
    do w <- use (ORelay r) w;
    Ok (set_wsi n None w)
  end.
Definition lws_destroy (n : nat) (elapsed : bool) (w : world) : res world :=
  do w <- use (OLws n) w;
  do w <- closing n elapsed w;
  free (OLws n) w.

(** src/relay.c:197-327 nostr_relay_connect *)
Definition connect (r : nat) (o : outcome) (w : world) : res (world * res unit) :=
  do w <- use (ORelay r) w;
  if busy (r_state (w_relay w r)) then Ok (w, Err EConnection)
  else if negb (o_context o) then Ok (w, Err EConnection)
  else
    let n := w_next w in
    let w := alloc (OLws n) (set_wsi n None (fresh w)) in
    do w <- use (OUrl r) w;
    if negb (o_dup o) then Undef                           (* strncmp on NULL *)
    else
      let w := alloc (OCopy n) w in
      if negb (o_scheme o) then do w <- free (OCopy n) w; do w <- lws_destroy n false w; Ok (w, Err EInvalidParam)
      else if negb (o_calloc o) then do w <- free (OCopy n) w; do w <- lws_destroy n false w; Ok (w, Err EMemory)
      else
        let w := set_ctx n (mkCtx (Some n) false true [] None) (alloc (OCtx n) w) in
        if negb (o_mutex o) then
          do w <- free (OCopy n) w; do w <- free (OCtx n) w; do w <- lws_destroy n false w;
          Ok (set_state r RError w, Err EMemory)
        else
          let w := set_relay r (mkRelay RConnecting (Some n)) w in
          if negb (o_wsi o) then
            do w <- free (OCopy n) w; do w <- free (OCtx n) w; do w <- lws_destroy n false w;
            Ok (set_state r RError w, Err EConnection)
          else
            let w := set_wsi n (Some r) w in
            do w <- free (OCopy n) w;
            if negb (o_thread o) then
              let w := set_ws r None w in
              do w <- lws_destroy n false w;
              do w <- free (OCtx n) w;
              Ok (set_state r RError w, Err EMemory)
            else
              let w := alloc (OThread n) w in
              Ok (set_ctx n (mkCtx (Some n) true true [] None) w, Ok tt).

(** src/relay.c:329-378 nostr_relay_disconnect; [self]: called on the service
    thread, which then cannot be joined.  [elapsed] plays no role because
    reconnecting is switched off first. *)
Definition disconnect (self : bool) (r : nat) (w : world) : res (world * res unit) :=
  do w <- use (ORelay r) w;
  match r_ws (w_relay w r) with
  | None => Ok (w, Err EInvalidParam)
  | Some c =>
    do w <- use (OCtx c) w;
    let x := w_ctx w c in
    let w := set_ctx c (mkCtx None (c_thread x) false (c_cells x) (c_buf x)) w in
    do w <- (if c_thread x && negb self then free (OThread c) w else Ok w);
    do w <- match c_context x with Some n => lws_destroy n false w | None => Ok w end;
    do w <- free_all (map OCell (c_cells (w_ctx w c))) w;
    do w <- match c_buf (w_ctx w c) with Some k => free (OCell k) w | None => Ok w end;
    do w <- free (OCtx c) w;
    Ok (set_relay r (mkRelay RDisconnected None) w, Ok tt)
  end.
(** src/relay.c:186-195 nostr_relay_destroy *)
Definition destroy (self : bool) (r : nat) (w : world) : res world :=
  do w <- use (ORelay r) w;
  do w <- (if busy (r_state (w_relay w r)) then do x <- disconnect self r w; Ok (fst x) else Ok w);
  do w <- free (OUrl r) w;
  free (ORelay r) w.
(** src/relay.c:491-506 nostr_relay_set_message_callback *)
Definition set_callback (r : nat) (w : world) : res world :=
  do w <- use (ORelay r) w;
  match r_ws (w_relay w r) with Some c => use (OCtx c) w | None => Ok w end.
(** A call that adds a block to the connection: nostr_subscribe
    (src/relay.c:426-459) *)
Definition add_sub (r : nat) (w : world) : res (world * res unit) :=
  do w <- use (ORelay r) w;
  match r_state (w_relay w r), r_ws (w_relay w r) with
  | RConnected, Some c =>
    do w <- use (OCtx c) w;
    let k := w_next w in
    let w := alloc (OCell k) (fresh w) in
    let x := w_ctx w c in
    Ok (set_ctx c (mkCtx (c_context x) (c_thread x) (c_reconnect x) (k :: c_cells x) (c_buf x)) w, Ok tt)
  | RConnected, None => Ok (w, Err EConnection)
  | _, _ => Ok (w, Err EInvalidParam)
  end.
(** ... and one that releases its most recent one: nostr_relay_unsubscribe
    (src/relay.c:508-532) *)
Definition drop_sub (r : nat) (w : world) : res (world * res unit) :=
  do w <- use (ORelay r) w;
  match r_state (w_relay w r), r_ws (w_relay w r) with
  | RConnected, Some c =>
    do w <- use (OCtx c) w;
    let x := w_ctx w c in
    match c_cells x with
    | [] => Ok (w, Ok tt)
    | k :: ks => do w <- free (OCell k) w; Ok (set_ctx c (mkCtx (c_context x) (c_thread x) (c_reconnect x) ks (c_buf x)) w, Ok tt)
    end
  | RConnected, None => Ok (w, Err EConnection)
  | _, _ => Ok (w, Err EInvalidParam)
  end.

(** What the application does inside the state call-back *)
Inductive inner : Set := INone | IDisconnect | IDestroy.
(** Service thread [n]: src/relay.c:93-106 and the call-backs.  A thread that has
    ended, or a socket that is closed, does nothing. *)
Inductive svc : Set := STick | SEstablished | SReceive (grow : bool) | SClosed (elapsed : bool) (i : inner).
Definition service (n : nat) (e : svc) (w : world) : res world :=
  if negb (is_live (OThread n) w) then Ok w
  else
    do w <- use (OCtx n) w;                                  (* ctx->service_running *)
    match e, w_wsi w n with
    | STick, _ | _, None => Ok w
    | SEstablished, Some r =>
      do w <- use (ORelay r) w;
      match r_ws (w_relay w r) with
      | None => Ok w
      | Some c => do w <- use (OCtx c) w; Ok (set_state r RConnected w)
      end
    | SReceive grow, Some r =>                               (* 575-588: the buffer may move *)
      do w <- use (ORelay r) w;
      match r_ws (w_relay w r) with
      | None => Ok w
      | Some c =>
        do w <- use (OCtx c) w;
        if negb grow then Ok w
        else
          do w <- match c_buf (w_ctx w c) with Some k => free (OCell k) w | None => Ok w end;
          let k := w_next w in
          let w := alloc (OCell k) (fresh w) in
          let x := w_ctx w c in
          Ok (set_ctx c (mkCtx (c_context x) (c_thread x) (c_reconnect x) (c_cells x) (Some k)) w)
      end
    | SClosed elapsed i, Some r =>
      do w <- use (ORelay r) w;
      do w <- match r_ws (w_relay w r) with
              | None => Ok w
              | Some c =>
                do w <- use (OCtx c) w;
                let w := set_state r RDisconnected w in
                do w <- match i with
                        | INone => Ok w
                        | IDisconnect => do x <- disconnect true r w; Ok (fst x)
                        | IDestroy => destroy true r w
                        end;
                do w <- use (OCtx c) w;                      (* ctx->reconnect_enabled *)
                if c_reconnect (w_ctx w c) && elapsed then
                  do w <- use (ORelay r) w; Ok (set_state r RConnecting w)
                else Ok w
              end;
      do w <- use (ORelay r) w;                              (* the socket's last call-back *)
      Ok (set_wsi n None w)
    end.

(** ** Histories for one relay *)
Inductive op : Set :=
  | Connect (o : outcome) | Disconnect | SetCallback | Subscribe | Unsubscribe | Service (n : nat) (e : svc).
Definition step (r : nat) (x : op) (w : world) : res (world * res unit) :=
  match x with
  | Connect o => connect r o w
  | Disconnect => disconnect false r w
  | SetCallback => do w <- set_callback r w; Ok (w, Ok tt)
  | Subscribe => add_sub r w
  | Unsubscribe => drop_sub r w
  | Service n e => do w <- service n e w; Ok (w, Ok tt)
  end.
Fixpoint run (r : nat) (h : list op) (w : world) : res (world * list (res unit)) :=
  match h with
  | [] => Ok (w, [])
  | x :: h' => do y <- step r x w; do z <- run r h' (fst y); Ok (fst z, snd y :: snd z)
  end.
Definition world0 : world := mkWorld [] 0 (fun _ => mkRelay RDisconnected None) (fun _ => mkCtx None false false [] None) (fun _ => None).
(** create, use, destroy *)
Definition life (h : list op) (later : list (nat * svc)) : res world :=
  do x <- create true true world0;
  match snd x with
  | None => Ok (fst x)
  | Some r =>
    do y <- run r h (fst x);
    do w <- destroy false r (fst y);
    fold_left (fun a e => do w <- a; service (fst e) (snd e) w) later (Ok w)
  end.
