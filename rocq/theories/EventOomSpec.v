(** What a run short of memory may leave of a document, and which texts and
    trees an event stands for. *)
From Verif Require Import Base Heap Json Hex Event.
Open Scope nat_scope.

(** [thin a b]: [b] is [a] with some elements or members missing. *)
Inductive thin : json -> json -> Prop :=
| thin_refl j : thin j j
| thin_arr l l' : thins l l' -> thin (JArr l) (JArr l')
| thin_obj l l' : thinm l l' -> thin (JObj l) (JObj l')
with thins : list json -> list json -> Prop :=
| thins_nil : thins [] []
| thins_keep a b l l' : thin a b -> thins l l' -> thins (a :: l) (b :: l')
| thins_drop a l l' : thins l l' -> thins (a :: l) l'
with thinm : list (list N * json) -> list (list N * json) -> Prop :=
| thinm_nil : thinm [] []
| thinm_keep k a b l l' : thin a b -> thinm l l' -> thinm ((k, a) :: l) ((k, b) :: l')
| thinm_drop m l l' : thinm l l' -> thinm (m :: l) l'.

(** NIP-01: [0, pubkey, created_at, kind, tags, content]. *)
Definition id_tree (e : event) : json :=
  JArr [jint 0; JStr (hex_encode (ev_pubkey e)); jint (ev_created e); jint (Z.of_N (ev_kind e));
        JArr (map (fun vs => JArr (map JStr vs)) (ev_tags e)); JStr (content_of e)].
(** No allocation between these two moments failed. *)
Definition granted (grant : nat -> bool) (h h' : heap) : Prop := forall k, h_next h <= k < h_next h' -> grant k = true.
