(** Independent specification for C16-C21. *)
From Verif Require Import Base Event Json HexSpec.
Open Scope N_scope.

(** A well-formed event: the value ranges of the C struct's fields. *)
Record event_ok (e : event) : Prop := {
  eo_id : length (ev_id e) = 32%nat /\ bytes_ok (ev_id e);
  eo_pk : length (ev_pubkey e) = 32%nat /\ bytes_ok (ev_pubkey e);
  eo_created : (- 2 ^ 63 <= ev_created e < 2 ^ 63)%Z;
  eo_kind : ev_kind e < 65536;
  eo_tags : Forall (fun vs => vs <> [] /\ Forall cstr_ok vs) (ev_tags e);
  eo_content : cstr_ok (content_of e);
  eo_sig : length (ev_sig e) = 64%nat /\ bytes_ok (ev_sig e) }.

(** Same signed fields. *)
Definition same_fields (a b : event) : Prop :=
  ev_pubkey a = ev_pubkey b /\ ev_created a = ev_created b /\ ev_kind a = ev_kind b /\
  ev_tags a = ev_tags b /\ content_of a = content_of b.

(** Number of tags that consist of a single value. *)
Definition single_value_tags (e : event) : nat :=
  length (filter (fun vs : list (list N) => match vs with [_] => true | _ => false end) (ev_tags e)).

(** What C21 asks of an imported object. *)
Definition json_is_hex (n : nat) (j : option json) : Prop :=
  exists s, j = Some (JStr s) /\ length s = (2 * n)%nat /\ all_hex s.
Definition json_kind (j : option json) (k : N) : Prop :=
  j = Some (JNum (JFin (Z.of_N k) 0)) /\ k < 65536.
