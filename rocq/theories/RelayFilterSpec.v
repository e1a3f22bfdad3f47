(** NIP-01 filters: what they select, over plain records and over JSON. *)
From Verif Require Import Base HexSpec Nip18Spec Json Event RelayFilter RelayProtoSpec.
Open Scope N_scope.

Definition has (e : event) (name v : list N) : Prop := exists r, In (name :: v :: r) (ev_tags e).
Definition starts (p bytes : list N) : Prop := exists h r, lower_hex h bytes /\ h = p ++ r.
(** Every field that is present must hold; 0 is an absent time. *)
Record selects (f : rfilter) (e : event) : Prop := mkSelects {
  s_ids : f_ids f = [] \/ exists p, In p (f_ids f) /\ starts p (ev_id e);
  s_authors : f_authors f = [] \/ exists p, In p (f_authors f) /\ starts p (ev_pubkey e);
  s_kinds : f_kinds f = [] \/ In (Z.of_N (ev_kind e)) (f_kinds f);
  s_since : f_since f = 0%Z \/ (f_since f <= ev_created e)%Z;
  s_until : f_until f = 0%Z \/ (ev_created e <= f_until f)%Z;
  s_e : f_e f = [] \/ exists v, In v (f_e f) /\ has e (bs "e") v;
  s_p : f_p f = [] \/ exists v, In v (f_p f) /\ has e (bs "p") v;
  s_generic : forall g, In g (f_generic f) -> exists v, In v (g_values g) /\ has e [g_name g] v }.

(** How many tags of one name have a value. *)
Definition tags_named (e : event) (name : list N) : nat :=
  length (filter (fun t : tag => match t with n :: _ :: _ => beq n name | _ => false end) (ev_tags e)).
(** Bytes of the C struct. *)
Definition ids_ok (e : event) : Prop :=
  length (ev_id e) = 32%nat /\ bytes_ok (ev_id e) /\ length (ev_pubkey e) = 32%nat /\ bytes_ok (ev_pubkey e).

(** ** JSON filters *)
Definition num_is (n : jnum) (z : Z) : Prop := exists m x, n = JFin m x /\ (0 <= x)%Z /\ z = (m * 2 ^ x)%Z.
Definition letter (c : N) : Prop := 65 <= c <= 90 \/ 97 <= c <= 122.
(** What one member of a filter object asks of an event. *)
Definition asks_of (e : event) (k : list N) (v : json) : Prop :=
  (k = bs "ids" -> exists l s, v = JArr l /\ In (JStr s) l /\ starts s (ev_id e)) /\
  (k = bs "authors" -> exists l s, v = JArr l /\ In (JStr s) l /\ starts s (ev_pubkey e)) /\
  (k = bs "kinds" -> exists l n, v = JArr l /\ In (JNum n) l /\ num_is n (Z.of_N (ev_kind e))) /\
  (k = bs "since" -> exists n z, v = JNum n /\ num_is n z /\ (z <= ev_created e)%Z) /\
  (k = bs "until" -> exists n z, v = JNum n /\ num_is n z /\ (ev_created e <= z)%Z) /\
  (forall c, k = [35; c] -> letter c -> exists l s, v = JArr l /\ In (JStr s) l /\ has e [c] s).
Definition json_selects (l : list (list N * json)) (e : event) : Prop := forall k v, In (k, v) l -> asks_of e k v.

(** Well-formed filter objects. *)
Definition string_list (v : json) : Prop :=
  exists l, v = JArr (map JStr l) /\ (1 <= length l <= 256)%nat.
Definition kind_list (v : json) : Prop :=
  exists l, v = JArr (map JNum l) /\ (1 <= length l <= 256)%nat /\
    Forall (fun n => exists z, num_is n z /\ (- 2 ^ 31 <= z < 2 ^ 31)%Z) l.
Definition instant (v : json) : Prop := exists n z, v = JNum n /\ num_is n z /\ (0 < z < 2 ^ 63)%Z.
Definition reserved : list (list N) :=
  [bs "ids"; bs "authors"; bs "kinds"; bs "#e"; bs "#p"; bs "since"; bs "until"; bs "limit"; bs "search"].
(** Upper-case letters folded. *)
Definition same_letters (a b : list N) : Prop :=
  Forall2 (fun x y => x = y \/ (65 <= x <= 90 /\ y = x + 32) \/ (65 <= y <= 90 /\ x = y + 32)) a b.
Record good_filter (l : list (list N * json)) : Prop := mkGood {
  gf_keys : NoDup (map fst l);
  gf_case : forall k v n, In (k, v) l -> In n reserved -> same_letters k n -> k = n;
  gf_strings : forall k v, In (k, v) l -> k = bs "ids" \/ k = bs "authors" \/ (exists c, k = [35; c] /\ letter c) -> string_list v;
  gf_kinds : forall v, In (bs "kinds", v) l -> kind_list v;
  gf_times : forall k v, In (k, v) l -> k = bs "since" \/ k = bs "until" -> instant v;
  gf_search : forall v, In (bs "search", v) l -> exists s, v = JStr s /\ N.of_nat (length s) <= 65536 }.
