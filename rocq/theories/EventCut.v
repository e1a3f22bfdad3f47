(** Ids, signatures and verification of the build without cJSON, where the text
    that is hashed goes through a buffer of a computed size (Event.v). *)
From Verif Require Import Base Event.
Open Scope N_scope.

Section Own.
Variable sha256 : list N -> list N.
Variable pubkey_of : list N -> option (list N).
Variable schnorr_sign : list N -> list N -> list N -> option (list N).
Variable schnorr_verify : list N -> list N -> list N -> bool.
Variable pubkey_parses : list N -> bool.

(** src/event.c:366-383 nostr_event_compute_id *)
Definition own_id (e : event) : res (list N) := do t <- serialize_buffer e; Ok (sha256 t).
(** src/event.c:593-692 nostr_event_sign *)
Definition own_sign (e : event) (sk : list N) (rnd : option (list N)) : event * res unit :=
  match pubkey_of sk with
  | None => (e, Err EInvalidKey)
  | Some pk =>
    match serialize_buffer (set_pubkey e pk) with
    | Ok t => event_sign (fun _ => t) sha256 pubkey_of schnorr_sign e sk rnd
    | Err x => (e, Err x)
    | Undef => (e, Undef)
    end
  end.
(** src/event.c:694-762 nostr_event_verify *)
Definition own_verify (parse : bool) (e : event) : res unit :=
  do t <- serialize_buffer e; event_verify (fun _ => t) sha256 schnorr_verify pubkey_parses parse e.
End Own.
