(** NIP-10 threads, stated over an event's tags. *)
From Verif Require Import Base.
Open Scope N_scope.

(** A tag naming another event: ["e", id, relay?, marker?, ...]. *)
Definition names_event (t : list (list N)) : Prop := exists id r, t = bs "e" :: id :: r.
Definition tag_id (t : list (list N)) : list N := nth 1 t [].
Definition tag_relay (t : list (list N)) : list N := nth 2 t [].
Definition marked (m : list N) (t : list (list N)) : Prop := names_event t /\ nth 3 t [] = m.
(** First and last element with a property. *)
Definition first_with {A} (P : A -> Prop) (l : list A) (x : A) : Prop :=
  exists a b, l = a ++ x :: b /\ P x /\ Forall (fun y => ~ P y) a.
Definition last_with {A} (P : A -> Prop) (l : list A) (x : A) : Prop :=
  exists a b, l = a ++ x :: b /\ P x /\ Forall (fun y => ~ P y) b.
(** The root: marked, else the first; the parent: marked, else the last. *)
Definition root_tag (ts : list (list (list N))) (t : list (list N)) : Prop :=
  first_with (marked (bs "root")) ts t \/ (Forall (fun y => ~ marked (bs "root") y) ts /\ first_with names_event ts t).
Definition reply_tag (ts : list (list (list N))) (t : list (list N)) : Prop :=
  first_with (marked (bs "reply")) ts t \/ (Forall (fun y => ~ marked (bs "reply") y) ts /\ last_with names_event ts t).
(** Cut to at most [n] bytes. *)
Definition cut (n : N) (s : list N) : list N := firstn (N.to_nat n) s.
