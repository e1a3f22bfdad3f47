(** What a caller holds after nostr_config_get_current: src/config.c:177-191. *)
From Verif Require Import Base Dec Config.
Open Scope Z_scope.

(** Threads, and the configuration a call is given: the caller's own structure,
    or a pointer nostr_config_get_current returned in some thread. *)
Definition thread := N.
Inductive argument : Set :=
| Own (c : config)
| Held (t : thread).

(** One call made by a thread. *)
Inductive hop : Type :=
| HGet                               (* nostr_config_get_current *)
| HLib (reads : nat)                 (* another library call, which reads the configuration so many times *)
| HInit (c : option config) (env : environment) (lib : res unit)
| HSet (cb : option (list cb_call))
| HUpdate (a : argument).

(** src/config.c:186: `static __thread nostr_config config_copy`, one for each
    thread, all zero at first. *)
Record hstate : Type := mkH { h_glob : state; h_copy : thread -> config }.
Definition hs0 : hstate := mkH s0 (fun _ => repeat 0 13).

(** src/config.c:187: config_copy = g_config, in the calling thread *)
Definition copy_in (s : hstate) (t : thread) : hstate :=
  if s_init (h_glob s)
  then mkH (h_glob s) (fun u => if (u =? t)%N then s_config (h_glob s) else h_copy s u)
  else s.
(** The calls that read the configuration on their own account, each through
    nostr_config_get_current (src/event.c:140, 510, 527; src/nip44.c:68, 105;
    src/nip47_session.c:91, 173, 205): adding a tag, reading an event from
    JSON, NIP-44 padding and unpadding, opening sessions and adding
    permissions. *)
Fixpoint copies (n : nat) (s : hstate) (t : thread) : hstate :=
  match n with O => s | S k => copies k (copy_in s t) t end.

(** What a pointer shows, when it is looked at. *)
Definition shows (s : hstate) (t : thread) : config := h_copy s t.
Definition given (s : hstate) (a : argument) : config :=
  match a with Own c => c | Held t => shows s t end.

(** src/config.c:177-191, 193-231, 233-239, 241-266. Each call holds
    config_lock throughout, so calls take effect one after another (C69). The
    result is None when the call never returns. nostr_config_get_current
    returns the address of the calling thread's copy, or NULL. *)
Definition hcall (s : hstate) (t : thread) (o : hop) : option (hstate * res unit * option thread) :=
  match o with
  | HGet => Some (copy_in s t, Ok tt, if s_init (h_glob s) then Some t else None)
  | HLib n => Some (copies n s t, Ok tt, None)
  | HInit c env lib =>
    match call (h_glob s) (OInit c env lib) with
    | Done g r _ => Some (mkH g (h_copy s), r, None) | Blocked => None end
  | HSet cb =>
    match call (h_glob s) (OSet cb) with
    | Done g r _ => Some (mkH g (h_copy s), r, None) | Blocked => None end
  | HUpdate a =>
    match call (h_glob s) (OUpdate (Some (given s a))) with
    | Done g r _ => Some (mkH g (h_copy s), r, None) | Blocked => None end
  end.

(** Calls made one after another. *)
Inductive hruns : hstate -> list (thread * hop) -> hstate -> Prop :=
| HRuns0 s : hruns s [] s
| HRunsS s t o s1 r p h s2 : hcall s t o = Some (s1, r, p) -> hruns s1 h s2 -> hruns s ((t, o) :: h) s2.
