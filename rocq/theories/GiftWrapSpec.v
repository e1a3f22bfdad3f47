(** What gift wrapping promises, independent of how it is built. *)
From Verif Require Import Base Json Event Nip44.
Open Scope N_scope.

(** [t] is the JSON text of an event. *)
Definition json_event (parse : list N -> option json) (lim : option ev_limits) (t : list N) (e : event) : Prop :=
  exists j, parse t = Some j /\ event_from_tree lim j = Ok e.
(** [e] carries, readable with [sk] and the other side's [pk], the event [i]:
    its content decrypts to a text whose part before any NUL is [i]'s JSON. *)
Definition carries decrypt parse lim (sk pk : list N) (e i : event) : Prop :=
  exists c t a b, ev_content e = Some c /\ decrypt sk pk c = Ok t /\ t = a ++ b /\ ~ In 0 a /\
    (b = [] \/ hd_error b = Some 0) /\ json_event parse lim a i.
(** [e]'s author signed it. *)
Definition signed (ser : event -> list N) (sha256 : list N -> list N) (verify : list N -> list N -> list N -> bool) (e : event) : Prop :=
  ev_id e = sha256 (ser e) /\ verify (ev_pubkey e) (ev_id e) (ev_sig e) = true.
(** A gift wrap holding a seal that holds [i], the seal being signed by [author]. *)
Definition authentic ser sha256 verify decrypt parse lim (sk : list N) (wrap : event) (author : list N) (i : event) : Prop :=
  ev_kind wrap = 1059 /\ exists seal, carries decrypt parse lim sk (ev_pubkey wrap) wrap seal /\
    ev_kind seal = 13 /\ ev_pubkey seal = author /\ signed ser sha256 verify seal /\ carries decrypt parse lim sk author seal i.
(** The two days before [now]. *)
Definition within_two_days (now t : Z) : Prop := (now - 2 * 24 * 60 * 60 < t <= now)%Z.
(** What is asked of the signature scheme and the hash. *)
Record crypto_ok (sha256 : list N -> list N) (pubkey_of : list N -> option (list N))
  (sign : list N -> list N -> list N -> option (list N)) (verify : list N -> list N -> list N -> bool)
  (pubkey_parses : list N -> bool) : Prop := {
  co_sha : forall x, length (sha256 x) = 32%nat /\ bytes_ok (sha256 x);
  co_pub : forall sk pk, pubkey_of sk = Some pk -> length pk = 32%nat /\ bytes_ok pk /\ pubkey_parses pk = true;
  co_sign : forall sk pk r d s, pubkey_of sk = Some pk -> sign sk r d = Some s ->
    length s = 64%nat /\ bytes_ok s /\ verify pk d s = true }.
(** The JSON library reads back what it printed for [e], as a C string. *)
Definition json_faithful (print : json -> list N) (parse : list N -> option json) (e : event) : Prop :=
  parse (print (event_to_tree e)) = Some (event_to_tree e) /\ cstr_ok (print (event_to_tree e)).
