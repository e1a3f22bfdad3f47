(** What becomes of a caller's event variable, and what a message made short of memory
    may look like. *)
From Verif Require Import Base Heap Json Event EventMem EventMemSpec EventOomSpec.
Open Scope nat_scope.

(** The call has either filled the variable with an event in good order that owns its
    blocks and says [P], or reported an error and kept nothing; [rest] is what else is live. *)
Definition delivers (P : event -> Prop) (p : option cevent) (x : option err) (h' : heap) (rest : list nat) : Prop :=
  (x = None /\ exists c, p = Some c /\ event_sound c /\ holds h' (owned c ++ rest) /\ P (ce_val c)) \/ (x <> None /\ holds h' rest).
(** It has reported what [v] says. *)
Definition agrees (v : res event) (p : option cevent) (x : option err) : Prop :=
  match v with Ok e => x = None /\ exists c, p = Some c /\ ce_val c = e | Err r => x = Some r | Undef => False end.
(** After an error the variable holds what it held, or nothing. *)
Definition untouched (old p : option cevent) (x : option err) : Prop := x <> None -> p = old \/ p = None.
(** [e] has id and signature over part of itself, by the owner of [sk]. *)
Definition part_signed (print : json -> list N) (sha256 : list N -> list N) (pubkey_of : list N -> option (list N)) (sign : list N -> list N -> list N -> option (list N))
  (sk : list N) (aux : option (list N)) (e : event) : Prop :=
  exists t r, pubkey_of sk = Some (ev_pubkey e) /\ aux = Some r /\ thin (id_tree e) t /\ ev_id e = sha256 (print t) /\ sign sk r (ev_id e) = Some (ev_sig e).
(** The content of [e] is the encryption of part of the JSON of [src]. *)
Definition part_of (print : json -> list N) (encrypt : list N -> res (list N)) (src e : event) : Prop :=
  exists j t, thin (event_to_tree src) j /\ encrypt (print j) = Ok t /\ ev_content e = Some t.
(** The variable holds no address of an event already released. *)
Definition usable (p : option cevent) (h' : heap) : Prop := forall c, p = Some c -> In (ce_self c) (h_live h').
