(** A private message as NIP-17 and NIP-59 describe it, made by any program. *)
From Verif Require Import Base Json Event Hex GiftWrapSpec Nip44TextSpec.
Open Scope N_scope.

(** The author encrypts the text of the unsigned message to the recipient, signs
    the seal that holds it, and encrypts the seal's text under a key used once. *)
Record sent (P : prims) ser sha256 verify parse lim (author author_key once once_key recipient n1 n2 t1 t2 : list N)
  (wrap seal message : event) : Prop := mkSent {
  f_kind : ev_kind wrap = 1059;
  f_once : ev_pubkey wrap = once_key;
  f_outer : exists c, ev_content wrap = Some c /\ nip44_text P once recipient n2 t2 c;
  f_seal : json_event parse lim t2 seal;
  f_sealkind : ev_kind seal = 13;
  f_author : ev_pubkey seal = author_key;
  f_signed : signed ser sha256 verify seal;
  f_inner : exists c, ev_content seal = Some c /\ nip44_text P author recipient n1 t1 c;
  f_message : json_event parse lim t1 message;
  f_by : ev_pubkey message = author_key }.

(** The JSON of an event without a signature. *)
Definition unsigned_json (e : event) : json :=
  JObj [ (bs "id", JStr (hex_encode (ev_id e))); (bs "pubkey", JStr (hex_encode (ev_pubkey e)));
         (bs "created_at", JNum (JFin (ev_created e) 0)); (bs "kind", JNum (JFin (Z.of_N (ev_kind e)) 0));
         (bs "tags", JArr (map (fun vs => JArr (map JStr vs)) (ev_tags e)));
         (bs "content", JStr (content_of e)) ].
