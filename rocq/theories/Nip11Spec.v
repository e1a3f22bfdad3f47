(** NIP-11: what a relay information document says. *)
From Verif Require Import Base Heap Json RelayProto Nip46Spec EventOomSpec Nip11 Nip11Mem.
Open Scope N_scope.

(** The elements of a C array. *)
Definition lists {A} (a : carray A) (l : list A) : Prop := (a_count a = 0%nat /\ l = []) \/ (exists m, a_ptr a = Some (l ++ m) /\ a_count a = length l).
(** ... NULL standing for none. *)
Definition lists_opt {A} (a : carray A) (l : list A) : Prop := (a_ptr a = None /\ l = []) \/ (a_ptr a <> None /\ lists a l).
Definition in_order {A} (a : carray A) : Prop := exists l, lists a l.
Definition in_order_opt {A} (a : carray A) : Prop := exists l, lists_opt a l.
Definition number (z : Z) : json := JNum (JFin z 0).
(** Members of an object: a text or a number or nothing. *)
Definition says_text (t : json) (k : list N) (s : option (list N)) : Prop := forall v, gives t k v <-> exists x, s = Some x /\ v = JStr x.
Definition says_positive (t : json) (k : list N) (z : Z) : Prop := forall v, gives t k v <-> (0 < z)%Z /\ v = number z.
(** ... a list if there is something to list. *)
Definition says_list {A} (t : json) (k : list N) (l : list A) (is : A -> json -> Prop) : Prop :=
  match l with
  | [] => forall v, ~ gives t k v
  | _ => exists js, gives t k (JArr js) /\ Forall2 is l js
  end.
Definition says_texts (t : json) (k : list N) (l : list (option (list N))) : Prop :=
  match l with
  | [] => forall v, ~ gives t k v
  | _ => gives t k (JArr (flat_map (fun s => match s with Some s => [JStr s] | None => [] end) l))
  end.
Definition is_number (z : Z) (j : json) : Prop := j = number z.
Record says_limits (t : json) (l : limitation) : Prop := mkSaysLimits {
  sl_message : says_positive t (bs "max_message_length") (l_message l);
  sl_subs : says_positive t (bs "max_subscriptions") (l_subs l);
  sl_filters : says_positive t (bs "max_filters") (l_filters l);
  sl_limit : says_positive t (bs "max_limit") (l_limit l);
  sl_subid : says_positive t (bs "max_subid_length") (l_subid l);
  sl_tags : says_positive t (bs "max_event_tags") (l_tags l);
  sl_content : says_positive t (bs "max_content_length") (l_content l);
  sl_pow : says_positive t (bs "min_pow_difficulty") (l_pow l);
  sl_auth : gives t (bs "auth_required") (JBool (l_auth l));
  sl_payment : gives t (bs "payment_required") (JBool (l_payment l));
  sl_writes : gives t (bs "restricted_writes") (JBool (l_writes l));
  sl_lower : says_positive t (bs "created_at_lower_limit") (l_lower l);
  sl_upper : says_positive t (bs "created_at_upper_limit") (l_upper l);
  sl_default : says_positive t (bs "default_limit") (l_default l) }.
Definition is_retention (r : retention) (j : json) : Prop :=
  (exists l, lists (r_kinds r) l /\ says_list j (bs "kinds") l is_number) /\
  (forall v, gives j (bs "time") v <-> r_time r <> 0%Z /\ v = number (r_time r)) /\ says_positive j (bs "count") (r_count r).
Definition is_admission (f : fee) (j : json) : Prop := gives j (bs "amount") (number (Z.of_N (f_amount f))) /\ says_text j (bs "unit") (f_unit f).
Definition is_subscription (f : fee) (j : json) : Prop := is_admission f j /\ says_positive j (bs "period") (f_period f).
Definition is_publication (f : fee) (j : json) : Prop := is_admission f j /\ exists l, lists_opt (f_kinds f) l /\ says_list j (bs "kinds") l is_number.
Definition says_fees (i : info) (t : json) : Prop :=
  (exists l, lists_opt (i_admission i) l /\ says_list t (bs "admission") l is_admission) /\
  (exists l, lists_opt (i_subscription i) l /\ says_list t (bs "subscription") l is_subscription) /\
  (exists l, lists_opt (i_publication i) l /\ says_list t (bs "publication") l is_publication).
Definition charges (i : info) : Prop := a_count (i_admission i) <> 0%nat \/ a_count (i_subscription i) <> 0%nat \/ a_count (i_publication i) <> 0%nat.
(** The whole document. *)
Record announces (i : info) (t : json) : Prop := mkAnnounces {
  an_name : says_text t (bs "name") (i_name i); an_description : says_text t (bs "description") (i_description i);
  an_banner : says_text t (bs "banner") (i_banner i); an_icon : says_text t (bs "icon") (i_icon i);
  an_pubkey : says_text t (bs "pubkey") (i_pubkey i); an_self : says_text t (bs "self") (i_self i);
  an_contact : says_text t (bs "contact") (i_contact i);
  an_nips : exists l, lists (i_nips i) l /\ gives t (bs "supported_nips") (JArr (map number l));
  an_software : says_text t (bs "software") (i_software i); an_version : says_text t (bs "version") (i_version i);
  an_privacy : says_text t (bs "privacy_policy") (i_privacy i); an_terms : says_text t (bs "terms_of_service") (i_terms i);
  an_limits : exists u, gives t (bs "limitation") u /\ says_limits u (i_lim i);
  an_retention : exists l, lists_opt (i_retention i) l /\ says_list t (bs "retention") l is_retention;
  an_countries : exists l, lists_opt (i_countries i) l /\ says_texts t (bs "relay_countries") l;
  an_langs : exists l, lists_opt (i_langs i) l /\ says_texts t (bs "language_tags") l;
  an_tags : exists l, lists_opt (i_tags i) l /\ says_texts t (bs "tags") l;
  an_posting : says_text t (bs "posting_policy") (i_posting i); an_payments : says_text t (bs "payments_url") (i_payments i);
  an_fees : (charges i -> exists u, gives t (bs "fees") u /\ says_fees i u) /\ (~ charges i -> forall v, ~ gives t (bs "fees") v) }.
(** A struct a caller may pass: arrays as long as their counts say. *)
Definition fee_ok (f : fee) : Prop := in_order_opt (f_kinds f).
Record info_ok (i : info) : Prop := mkInfoOk {
  io_nips : in_order (i_nips i);
  io_retention : exists l, lists_opt (i_retention i) l /\ Forall (fun r => in_order (r_kinds r)) l;
  io_countries : in_order_opt (i_countries i); io_langs : in_order_opt (i_langs i); io_tags : in_order_opt (i_tags i);
  io_admission : in_order_opt (i_admission i); io_subscription : in_order_opt (i_subscription i);
  io_publication : exists l, lists_opt (i_publication i) l /\ Forall fee_ok l }.
(** Numbers a double holds exactly. *)
Definition small (z : Z) : Prop := (Z.abs z <= 2 ^ 53)%Z.
Definition small_limits (l : limitation) : Prop :=
  Forall small [l_message l; l_subs l; l_filters l; l_limit l; l_subid l; l_tags l; l_content l; l_pow l; l_lower l; l_upper l; l_default l].
Definition small_fee (f : fee) : Prop := small (Z.of_N (f_amount f)) /\ small (f_period f) /\ forall l, lists_opt (f_kinds f) l -> Forall small l.
Record small_info (i : info) : Prop := mkSmall {
  sm_nips : forall l, lists (i_nips i) l -> Forall small l; sm_limits : small_limits (i_lim i);
  sm_retention : forall l, lists_opt (i_retention i) l -> Forall (fun r => small (r_time r) /\ small (r_count r) /\ forall k, lists (r_kinds r) k -> Forall small k) l;
  sm_admission : forall l, lists_opt (i_admission i) l -> Forall small_fee l;
  sm_subscription : forall l, lists_opt (i_subscription i) l -> Forall small_fee l;
  sm_publication : forall l, lists_opt (i_publication i) l -> Forall small_fee l }.

(** ** The buffer *)
(** What the caller sees when a text was delivered. *)
Record delivered (s : list N) (buf : list N) (size : N) (st : option rerr) (buf' : list N) (len : option N) : Prop := mkDelivered {
  de_len : len = Some (N.of_nat (length s));
  de_fits : N.of_nat (length s) < size -> st = None /\ exists old rest, buf = old ++ rest /\ length old = (length s + 1)%nat /\ buf' = s ++ 0 :: rest;
  de_not : size <= N.of_nat (length s) -> st = Some RBufferTooSmall /\ buf' = buf }.

(** ** The list of NIPs *)
Definition nips_after (l : list Z) (o : nip_op) (x : option rerr) : list Z :=
  match o, x with
  | OSet (Some n), None => n
  | OSet _, _ => []
  | OAdd z, None => l ++ [z]
  | OAdd _, Some _ => l
  | OFree, _ => []
  end.
Fixpoint nips_run (l : list Z) (os : list nip_op) (xs : list (option rerr)) : list Z :=
  match os, xs with
  | o :: os, x :: xs => nips_run (nips_after l o x) os xs
  | _, _ => l
  end.
(** The blocks of a filled-in information ... *)
Definition some (o : option nat) : list nat := match o with Some b => [b] | None => [] end.
Definition info_blocks (m : minfo) : list nat :=
  some (m_nips m) ++ some (m_countries m) ++ some (m_langs m) ++ some (m_tags m) ++
  some (m_retention m) ++ flat_map some (m_ret m) ++
  some (m_admission m) ++ flat_map (fun f => some (fst f)) (m_adm m) ++
  some (m_subscription m) ++ flat_map (fun f => some (fst f)) (m_sub m) ++
  some (m_publication m) ++ flat_map (fun f => some (fst f) ++ some (snd f)) (m_pub m).
(** ... and the lists of kinds of admission and subscription fees. *)
Definition fee_kinds (m : minfo) : list nat := flat_map (fun f => some (snd f)) (m_adm m) ++ flat_map (fun f => some (snd f)) (m_sub m).
(** An array that is not there has no entries. *)
Definition arrays_there (m : minfo) : Prop :=
  (m_retention m = None -> m_ret m = []) /\ (m_admission m = None -> m_adm m = []) /\ (m_subscription m = None -> m_sub m = []) /\ (m_publication m = None -> m_pub m = []).
