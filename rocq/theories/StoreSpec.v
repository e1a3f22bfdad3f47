(** A relay that keeps events: an application that uses the library to read what
    clients send, to check it, and to decide what a deletion request removes. *)
From Verif Require Import Base Dec Json Event EventSpec HexSpec Nip18Spec RelayProto RelayProtoSpec RelayMsg.
Open Scope N_scope.

(** A text received, and the clock when it is looked at. *)
Record arrival : Set := mkArrival { ar_text : list N; ar_now : Z; ar_now2 : Z }.
Section Store.
Variable read : list N -> rres cmsg.
Variable check : event -> Z -> Z -> rres unit.
Definition accept (a : arrival) : option event :=
  match read (ar_text a) with
  | ROk (CEvent e) => match check e (ar_now a) (ar_now2 a) with ROk _ => Some e | _ => None end
  | _ => None
  end.
Definition removed_by (e t : event) : bool :=
  match deletion_parse e with ROk d => deletion_authorized d t || deletion_authorized_address d t | _ => false end.
Definition store_one (store : list event) (a : arrival) : list event :=
  match accept a with Some e => e :: filter (fun t => negb (removed_by e t)) store | None => store end.
Definition store_after (store : list event) (l : list arrival) : list event := fold_left store_one l store.
End Store.

(** [asks_removal x e]: [x] is a deletion request of the author of [e] that lists its
    id, or its address if it is addressable. *)
Definition asks_removal (x e : event) : Prop :=
  ev_kind x = 5 /\ ev_pubkey x = ev_pubkey e /\
  ((exists h, lower_hex h (ev_id e) /\ lists (bs "e") x h) \/
   (nip01_class (Z.of_N (ev_kind e)) Addressable /\ exists s, has_address e s /\ (length s < 256)%nat /\ lists (bs "a") x s)).
(** What NIP-09 asks: deletion requests are not deleted themselves, and a request
    that lists an address leaves versions made after it. *)
Definition nip09_removal (x e : event) : Prop :=
  ev_kind x = 5 /\ ev_pubkey x = ev_pubkey e /\ ev_kind e <> 5 /\
  ((exists h, lower_hex h (ev_id e) /\ lists (bs "e") x h) \/
   ((nip01_class (Z.of_N (ev_kind e)) Addressable \/ nip01_class (Z.of_N (ev_kind e)) Replaceable) /\ (ev_created e <= ev_created x)%Z /\
    exists s, has_address e s /\ lists (bs "a") x s)).
