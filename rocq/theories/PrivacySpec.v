(** What those who only see an event pass by can tell of it: C162. *)
From Verif Require Import Base Json Event.
Open Scope N_scope.

(** Everything on the outside of two events agrees: key, time, kind, tags, size. *)
Definition same_face (a b : event) : Prop :=
  ev_pubkey a = ev_pubkey b /\ ev_created a = ev_created b /\ ev_kind a = ev_kind b /\ ev_tags a = ev_tags b /\
  length (content_of a) = length (content_of b).
(** Sizes are told apart in steps: 32 bytes up to 511, then an eighth of the
    largest power of two that is not larger. *)
Definition step (n : N) : N := if n <? 512 then 32 else 2 ^ N.log2 n / 8.
Definition size_class (n : N) : N := if n <=? 32 then 32 else step n * ((n - 1) / step n + 1).
(** Nobody's signature *)
Definition unsigned (e : event) : Prop := ev_sig e = repeat 0 64.
(** A time with ten digits: from 2001 to 2286 *)
Definition ten_digits (t : Z) : Prop := (10 ^ 9 <= t < 10 ^ 10)%Z.
(** Characters a JSON string shows as they are *)
Definition plain (s : list N) : Prop := Forall (fun c => 32 <= c < 127 /\ c <> 34 /\ c <> 92) s.
(** The base64 codec writes four such characters for three bytes. *)
Definition b64_sized (enc : list N -> list N) : Prop :=
  forall l, bytes_ok l -> plain (enc l) /\ length (enc l) = (4 * ((length l + 2) / 3))%nat.
(** Key, id and signature of the usual sizes *)
Definition event_sized (e : event) : Prop :=
  length (ev_id e) = 32%nat /\ bytes_ok (ev_id e) /\ length (ev_pubkey e) = 32%nat /\ bytes_ok (ev_pubkey e) /\ length (ev_sig e) = 64%nat /\ bytes_ok (ev_sig e).
(** The JSON library's layout does not depend on what the strings say. *)
Definition even_layout (print : json -> list N) : Prop := forall a b,
  event_sized a -> event_sized b -> ev_tags a = [] -> ev_tags b = [] -> ev_kind a = ev_kind b -> ten_digits (ev_created a) -> ten_digits (ev_created b) ->
  plain (content_of a) -> plain (content_of b) -> length (content_of a) = length (content_of b) ->
  length (print (event_to_tree a)) = length (print (event_to_tree b)).
