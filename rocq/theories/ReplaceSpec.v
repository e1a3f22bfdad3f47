(** A relay that keeps one version of what can be replaced: an application that
    uses the library to tell the kinds apart, to find the identifier of an
    addressable event and to compare versions. *)
From Verif Require Import Base Event EventSpec RelayProto RelayProtoSpec StoreSpec.
Open Scope N_scope.

(** nostr_event_get_d_tag, NULL taken for the empty text as in
    src/relay_protocol.c:657-660 *)
Definition d_tag (e : event) : list N := match tag_value (ev_tags e) (bs "d") with Some v => v | None => [] end.
Definition same_slot (a b : event) : bool :=
  (ev_kind a =? ev_kind b) && beq (ev_pubkey a) (ev_pubkey b) &&
  (kind_is_replaceable (Z.of_N (ev_kind a)) || (kind_is_addressable (Z.of_N (ev_kind a)) && beq (d_tag a) (d_tag b))).
Definition keep_one (store : list event) (e : event) : list event :=
  if kind_is_ephemeral (Z.of_N (ev_kind e)) then store
  else if existsb (fun t => beq (ev_id t) (ev_id e)) store then store
  else if existsb (fun t => same_slot t e && (0 <=? compare_replaceable t e)%Z) store then store
  else e :: filter (fun t => negb (same_slot t e)) store.
Definition keep_all (l : list event) : list event := fold_left keep_one l [].
(** The events accepted of what arrived. *)
Definition accepted (read : list N -> rres RelayMsg.cmsg) (check : event -> Z -> Z -> rres unit) (l : list arrival) : list event :=
  flat_map (fun a => match accept read check a with Some e => [e] | None => [] end) l.

(** ** What NIP-01 asks *)
Definition d_is (e : event) (d : list N) : Prop := first_value (bs "d") (ev_tags e) d \/ (no_value (bs "d") (ev_tags e) /\ d = []).
(** [a] and [b] are versions of one thing *)
Definition versions (a b : event) : Prop :=
  ev_kind a = ev_kind b /\ ev_pubkey a = ev_pubkey b /\
  (nip01_class (Z.of_N (ev_kind a)) Replaceable \/ (nip01_class (Z.of_N (ev_kind a)) Addressable /\ exists d, d_is a d /\ d_is b d)).
(** [e], one of [l], is to be kept: not ephemeral and no later version in [l] *)
Definition to_keep (l : list event) (e : event) : Prop :=
  In e l /\ ~ nip01_class (Z.of_N (ev_kind e)) Ephemeral /\ forall x, In x l -> versions x e -> ~ beats x e.
(** Ids name events: what has one id says the same. *)
Definition ids_name (l : list event) : Prop := forall x y, In x l -> In y l -> ev_id x = ev_id y -> same_fields x y.
