(** What a relay's announced limits ask of the messages it takes. *)
From Verif Require Import Base Json Event RelayFilter RelayMsg Nip11Spec Nip46Spec.
Open Scope Z_scope.

(** [u]: the "limitation" object of a document. *)
Definition at_most (u : json) (k : list N) (z : Z) : Prop := forall n, gives u k (number n) -> z <= n.
(** ... of requests *)
Definition request_obeys (u : json) (m : cmsg) : Prop :=
  at_most u (bs "max_filters") (Z.of_nat (length (msg_filters m))) /\
  forall id, msg_sub_id m = Some id -> at_most u (bs "max_subid_length") (Z.of_nat (length id)).
(** ... of what requests ask for *)
Definition limit_obeys (u : json) (m : cmsg) : Prop := forall f, In f (msg_filters m) -> at_most u (bs "max_limit") (f_limit f).
(** ... of events *)
Definition content_obeys (u : json) (m : cmsg) : Prop := forall e, msg_get_event m = Some e -> at_most u (bs "max_content_length") (Z.of_nat (length (content_of e))).
Definition tags_obey (u : json) (m : cmsg) : Prop := forall e, msg_get_event m = Some e -> at_most u (bs "max_event_tags") (Z.of_nat (length (ev_tags e))).
