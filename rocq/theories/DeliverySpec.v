(** A small network: people publish through one relay to a subscriber.  The clients
    are models of the library; the relay is an application that uses the library to
    read, match and write, and forwards what matches. *)
From Verif Require Import Base Json Event RelayProto RelayFilter RelayMsg RelayMsgSpec RelaySendSpec.
Open Scope N_scope.

(** What the relay forwards to the subscription [id] with filters [fs], given the texts
    it receives from publishers and how it reads them. *)
Inductive forwards (read : list N -> rres cmsg) (id : list N) (fs : list rfilter) : list (list N) -> list tells -> Prop :=
| FwNone : forwards read id fs [] []
| FwSend s e r xs : read s = ROk (CEvent e) -> filters_match fs e = true -> forwards read id fs r xs -> forwards read id fs (s :: r) (TellEvent id e :: xs)
| FwKeep s e r xs : read s = ROk (CEvent e) -> filters_match fs e = false -> forwards read id fs r xs -> forwards read id fs (s :: r) xs.
(** The events of a list that satisfy [P], in their order. *)
Inductive picked (P : event -> Prop) : list event -> list event -> Prop :=
| PkNil : picked P [] []
| PkTake e l l' : P e -> picked P l l' -> picked P (e :: l) (e :: l')
| PkSkip e l l' : ~ P e -> picked P l l' -> picked P (e :: l) l'.
