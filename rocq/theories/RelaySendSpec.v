(** What reaches the other side of a connection. *)
From Verif Require Import Base Json Event EventSpec JsonSpec RelayMsg RelayMsgSpec RelayRecv RelayRecvSpec.
Open Scope N_scope.

(** The event the other side holds *)
Definition same_event (a b : event) : Prop := same_fields a b /\ ev_id a = ev_id b /\ ev_sig a = ev_sig b.
(** Events and messages that JSON carries unharmed: C strings, times and counts of
    up to 15 digits, texts that fit their fields *)
Definition carried_event (e : event) : Prop := event_ok e /\ (Z.abs (ev_created e) < 10 ^ 15)%Z.
Definition carried (x : tells) : Prop :=
  short x /\
  match x with
  | TellEvent id e => cstr_ok id /\ carried_event e
  | TellOk id _ t => cstr_ok id /\ cstr_ok t
  | TellEose id => cstr_ok id
  | TellClosed id t => cstr_ok id /\ cstr_ok t
  | TellNotice t => cstr_ok t
  | TellAuth c => cstr_ok c
  | TellCount id n _ => cstr_ok id /\ (0 <= n < 10 ^ 15)%Z
  end.
Definition type_of (x : tells) : list N :=
  match x with
  | TellEvent _ _ => bs "EVENT" | TellOk _ _ _ => bs "OK" | TellEose _ => bs "EOSE" | TellClosed _ _ => bs "CLOSED"
  | TellNotice _ => bs "NOTICE" | TellAuth _ => bs "AUTH" | TellCount _ _ _ => bs "COUNT"
  end.
(** Texts in a stream, with blanks and line ends between them *)
Inductive spread : list (list N) -> list N -> Prop :=
| SpNil w : space w -> spread [] w
| SpMore w t ts s : space w -> spread ts s -> spread (t :: ts) (w ++ t ++ s).
(** Who listens: for every id the handlers of the live subscriptions, newest
    first.  [heard who all xs outs]: told [xs], the application hears [outs]; events
    go to the newest subscription of their id, everything else to the message
    call-back if there is one ([all]), and CLOSED ends a subscription. *)
Inductive heard (all : bool) : (list N -> list (option nat)) -> list tells -> list output -> Prop :=
| HdNil who : heard all who [] []
| HdEvent who id e k r xs e' o : who id = Some k :: r -> same_event e' e -> heard all who xs o ->
    heard all who (TellEvent id e :: xs) (OEvent k e' :: o)
| HdUnheard who id e xs o : (who id = [] \/ exists r, who id = None :: r) -> heard all who xs o -> heard all who (TellEvent id e :: xs) o
| HdClosed who who' id t xs j o : (forall i, who' i = if list_eq_dec N.eq_dec i id then tl (who i) else who i) -> told (TellClosed id t) j ->
    heard all who' xs o -> heard all who (TellClosed id t :: xs) ((if all then [OMessage (bs "CLOSED") j] else []) ++ o)
| HdOther who x xs j o : (forall id e, x <> TellEvent id e) -> (forall id t, x <> TellClosed id t) -> told x j ->
    heard all who xs o -> heard all who (x :: xs) ((if all then [OMessage (type_of x) j] else []) ++ o).
