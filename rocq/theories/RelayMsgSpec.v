(** NIP-01 messages between clients and relays, over JSON. *)
From Verif Require Import Base Json Event EventSpec Nip18Spec RelayProtoSpec RelayFilter RelayFilterSpec RelayMem RelayMemSpec RelayMsg.
Open Scope N_scope.

(** A filter object a relay must honour. *)
Definition request_filter (j : json) : Prop :=
  exists l, j = JObj l /\ good_filter l /\
    (forall k ss, In (k, JArr (map JStr ss)) l -> k = bs "ids" \/ k = bs "authors" -> Forall hex_prefix ss) /\
    (forall k ss, In (k, JArr (map JStr ss)) l -> k = bs "#e" \/ k = bs "#p" -> Forall hex_id ss).
(** What a list of filter objects selects. *)
Definition wanted (js : list json) (e : event) : Prop := exists l, In (JObj l) js /\ json_selects l e.

(** What the parser takes, given how single events and filters are read. *)
Inductive taken (event_is : json -> event -> Prop) (filter_is : json -> rfilter -> Prop) : list json -> cmsg -> Prop :=
| TkEvent j more e : event_is j e -> taken _ _ (JStr (bs "EVENT") :: j :: more) (CEvent e)
| TkAuth j more e : event_is j e -> taken _ _ (JStr (bs "AUTH") :: j :: more) (CAuth e)
| TkClose id more : sub_id id -> taken _ _ (JStr (bs "CLOSE") :: JStr id :: more) (CClose id)
| TkReq id js fs : sub_id id -> (length js <= 10)%nat -> Forall2 filter_is js fs -> taken _ _ (JStr (bs "REQ") :: JStr id :: js) (CReq id fs)
| TkCount id js fs : sub_id id -> (length js <= 10)%nat -> Forall2 filter_is js fs -> taken _ _ (JStr (bs "COUNT") :: JStr id :: js) (CCount id fs).
(** The five names. *)
Definition known (ty : list N) : Prop := In ty [bs "EVENT"; bs "REQ"; bs "CLOSE"; bs "AUTH"; bs "COUNT"].
(** The shape NIP-01 gives: no more and no fewer elements, objects where
    objects belong. *)
Definition nip01_shape (js : list json) : Prop :=
  match js with
  | [JStr ty; JObj _] => ty = bs "EVENT" \/ ty = bs "AUTH"
  | [JStr ty; JStr _] => ty = bs "CLOSE"
  | JStr ty :: JStr _ :: fs => (ty = bs "REQ" \/ ty = bs "COUNT") /\ Forall (fun f => exists l, f = JObj l) fs /\ fs <> []
  | _ => False
  end.

(** The JSON object of an event. *)
Definition event_object (o : json) (e : event) : Prop :=
  exists l hi hp hs mc mk, o = JObj l /\ NoDup (map fst l) /\
    In (bs "id", JStr hi) l /\ lower_hex hi (ev_id e) /\ In (bs "pubkey", JStr hp) l /\ lower_hex hp (ev_pubkey e) /\
    In (bs "sig", JStr hs) l /\ lower_hex hs (ev_sig e) /\ In (bs "created_at", JNum mc) l /\ num_is mc (ev_created e) /\
    In (bs "kind", JNum mk) l /\ num_is mk (Z.of_N (ev_kind e)) /\ In (bs "content", JStr (content_of e)) l /\
    In (bs "tags", JArr (map (fun vs => JArr (map JStr vs)) (ev_tags e))) l.
(** What a relay tells a client. *)
Inductive tells : Set :=
| TellEvent (id : list N) (e : event) | TellOk (id : list N) (b : bool) (t : list N) | TellEose (id : list N) | TellClosed (id t : list N)
| TellNotice (t : list N) | TellAuth (c : list N) | TellCount (id : list N) (n : Z) (a : bool).
(** ... in JSON *)
Definition told (x : tells) (j : json) : Prop :=
  match x with
  | TellEvent id e => exists o, j = JArr [JStr (bs "EVENT"); JStr id; o] /\ event_object o e
  | TellOk id b t => j = JArr [JStr (bs "OK"); JStr id; JBool b; JStr t]
  | TellEose id => j = JArr [JStr (bs "EOSE"); JStr id]
  | TellClosed id t => j = JArr [JStr (bs "CLOSED"); JStr id; JStr t]
  | TellNotice t => j = JArr [JStr (bs "NOTICE"); JStr t]
  | TellAuth c => j = JArr [JStr (bs "AUTH"); JStr c]
  | TellCount id n a => exists l m, j = JArr [JStr (bs "COUNT"); JStr id; JObj l] /\ In (bs "count", JNum m) l /\ num_is m n /\
      (a = true <-> In (bs "approximate", JBool true) l) /\ (forall k v, In (k, v) l -> k = bs "count" \/ k = bs "approximate")
  end.
(** A text and what a field of [n] characters keeps of it. *)
Definition cut_at (n : nat) (s s' : list N) : Prop :=
  exists r, s = s' ++ r /\ (length s' <= n)%nat /\ ((length s <= n)%nat -> r = []) /\ (r <> [] -> length s' = n).
Definition shortened (x y : tells) : Prop :=
  match x, y with
  | TellEvent id e, TellEvent id' e' => cut_at 64 id id' /\ e' = e
  | TellOk id b t, TellOk id' b' t' => cut_at 64 id id' /\ b' = b /\ cut_at 255 t t'
  | TellEose id, TellEose id' => cut_at 64 id id'
  | TellClosed id t, TellClosed id' t' => cut_at 64 id id' /\ cut_at 255 t t'
  | TellNotice t, TellNotice t' => cut_at 255 t t'
  | TellAuth c, TellAuth c' => cut_at 127 c c'
  | TellCount id n a, TellCount id' n' a' => cut_at 64 id id' /\ n' = n /\ a' = a
  | _, _ => False
  end.
(** Events with sound fields; counts a double can hold. *)
Definition sayable (x : tells) : Prop :=
  match x with
  | TellEvent _ e => event_ok e /\ (Z.abs (ev_created e) <= 2 ^ 53)%Z
  | TellCount _ n _ => (0 <= n <= 2 ^ 53)%Z
  | _ => True
  end.
Definition short (x : tells) : Prop :=
  match x with
  | TellEvent id _ => (length id <= 64)%nat
  | TellOk id _ t => (length id <= 64)%nat /\ (length t <= 255)%nat
  | TellEose id => (length id <= 64)%nat
  | TellClosed id t => (length id <= 64)%nat /\ (length t <= 255)%nat
  | TellNotice t => (length t <= 255)%nat
  | TellAuth c => (length c <= 127)%nat
  | TellCount id _ _ => (length id <= 64)%nat
  end.
(** Text in an alphabet of two-byte UTF-8 characters. *)
Definition two_byte_text (t : list N) : Prop := exists l, t = flat_map (fun p => [192 + fst p; 128 + snd p]) l /\ Forall (fun p => 2 <= fst p < 32 /\ snd p < 64) l.

(** ** Memory *)
Definition msg_blocks (m : mmsg) : list nat :=
  match m with
  | MmEvent p => opt_list p
  | MmAuth p => opt_list p
  | MmReq b fs => flat_map blocks fs ++ opt_list b
  | MmCount b fs => flat_map blocks fs ++ opt_list b
  | MmClose => []
  | MmUnknown => []
  end.
Definition holds_filters (b : option nat) (fs : list cfilter) (fl : list rfilter) : Prop :=
  map value fs = fl /\ Forall filter_sound fs /\ (b = None -> fs = []).
Definition holds (m : mmsg) (c : cmsg) : Prop :=
  match m, c with
  | MmEvent (Some _), CEvent _ => True
  | MmAuth (Some _), CAuth _ => True
  | MmClose, CClose _ => True
  | MmReq b fs, CReq _ fl => holds_filters b fs fl
  | MmCount b fs, CCount _ fl => holds_filters b fs fl
  | _, _ => False
  end.
