(** Model of src/relay_nip11.c: the relay information document. *)
From Verif Require Import Base Heap Json RelayProto EventMem CjsonMem.
Open Scope N_scope.

(** A C array: pointer (and what lies there), and the count beside it. *)
Record carray (A : Type) : Type := mkArr { a_ptr : option (list A); a_count : nat }.
Arguments mkArr {A}. Arguments a_ptr {A}. Arguments a_count {A}.
Definition no_array {A} : carray A := mkArr None 0.
(** the elements a loop up to the count reads; [None]: outside the array *)
Definition elements {A} (a : carray A) : option (list A) :=
  match a_count a, a_ptr a with
  | 0%nat, _ => Some []
  | n, Some l => if (n <=? length l)%nat then Some (firstn n l) else None
  | _, None => None
  end.
(** include/nostr_relay_protocol.h:702-717 *)
Record limitation : Set := mkLim {
  l_message : Z; l_subs : Z; l_filters : Z; l_limit : Z; l_subid : Z; l_tags : Z; l_content : Z; l_pow : Z;
  l_auth : bool; l_payment : bool; l_writes : bool; l_lower : Z; l_upper : Z; l_default : Z }.
(** 719-724, 726-732 *)
Record retention : Set := mkRet { r_kinds : carray Z; r_time : Z; r_count : Z }.
Record fee : Set := mkFee { f_amount : N; f_unit : option (list N); f_period : Z; f_kinds : carray Z }.
(** 734-769 *)
Record info : Set := mkInfo {
  i_name : option (list N); i_description : option (list N); i_banner : option (list N); i_icon : option (list N); i_pubkey : option (list N);
  i_self : option (list N); i_contact : option (list N); i_nips : carray Z; i_software : option (list N); i_version : option (list N);
  i_privacy : option (list N); i_terms : option (list N); i_lim : limitation; i_retention : carray retention;
  i_countries : carray (option (list N)); i_langs : carray (option (list N)); i_tags : carray (option (list N));
  i_posting : option (list N); i_payments : option (list N); i_admission : carray fee; i_subscription : carray fee; i_publication : carray fee }.

(** src/relay_nip11.c:14-33 nostr_relay_limitation_init *)
Definition limitation_init : limitation := mkLim 131072 20 10 5000 64 2000 65536 0 false false false 0 0 500.
(** src/relay_nip11.c:35-41 nostr_relay_info_init *)
Definition info_init : info :=
  mkInfo None None None None None None None no_array None None None None limitation_init no_array no_array no_array no_array None None no_array no_array no_array.

Section Info.
Variable grant : nat -> bool.
Notation obj := (option node) (only parsing).
(** if (s) cJSON_AddStringToObject *)
Definition put_text (o : obj) (key : list N) (s : option (list N)) : M obj :=
  match s with Some s => add_new grant o key (create_string grant s) | None => mret o end.
Definition put_number (o : obj) (key : list N) (z : Z) : M obj := add_new grant o key (create grant (jint z)).
(** if (z > 0) cJSON_AddNumberToObject *)
Definition put_positive (o : obj) (key : list N) (z : Z) : M obj := if (0 <? z)%Z then put_number o key z else mret o.
Definition put_bool (o : obj) (key : list N) (b : bool) : M obj := add_new grant o key (create grant (JBool b)).
(** src/relay_nip11.c:151-186, 266-301 *)
Definition put_limits (o : obj) (l : limitation) : M obj :=
  let! o := put_positive o (bs "max_message_length") (l_message l) in
  let! o := put_positive o (bs "max_subscriptions") (l_subs l) in
  let! o := put_positive o (bs "max_filters") (l_filters l) in
  let! o := put_positive o (bs "max_limit") (l_limit l) in
  let! o := put_positive o (bs "max_subid_length") (l_subid l) in
  let! o := put_positive o (bs "max_event_tags") (l_tags l) in
  let! o := put_positive o (bs "max_content_length") (l_content l) in
  let! o := put_positive o (bs "min_pow_difficulty") (l_pow l) in
  let! o := put_bool o (bs "auth_required") (l_auth l) in
  let! o := put_bool o (bs "payment_required") (l_payment l) in
  let! o := put_bool o (bs "restricted_writes") (l_writes l) in
  let! o := put_positive o (bs "created_at_lower_limit") (l_lower l) in
  let! o := put_positive o (bs "created_at_upper_limit") (l_upper l) in
  put_positive o (bs "default_limit") (l_default l).
(** loops adding to an array *)
Fixpoint put_items {A} (make : A -> M obj) (a : obj) (l : list A) : M obj :=
  match l with
  | [] => mret a
  | x :: r => let! i := make x in put_items make (add_to_array a i) r
  end.
Definition array_of {A} (make : A -> M obj) (a : carray A) : M obj :=
  let! r := create grant (JArr []) in
  match elements a with Some l => put_items make r l | None => fun _ => Undef end.
Definition make_number (z : Z) : M obj := create grant (jint z).
(** cJSON_CreateString(NULL) gives NULL *)
Definition make_text (s : option (list N)) : M obj :=
  match s with
  | Some s => create_string grant s
  | None => let! p := ealloc grant in match p with None => mret None | Some b => let! _ := hfree (Some b) in mret None end
  end.
(** src/relay_nip11.c:307-321, one entry *)
Definition make_retention (r : retention) : M obj :=
  let! o := create grant (JObj []) in
  let! o := (if (0 <? a_count (r_kinds r))%nat then
               let! k := array_of make_number (r_kinds r) in add_to_object grant o (bs "kinds") k
             else mret o) in
  let! o := (if (r_time r =? 0)%Z then mret o else put_number o (bs "time") (r_time r)) in
  put_positive o (bs "count") (r_count r).
(** src/relay_nip11.c:363-390, one admission or subscription fee *)
Definition make_admission (f : fee) : M obj :=
  let! o := create grant (JObj []) in
  let! o := put_number o (bs "amount") (Z.of_N (f_amount f)) in
  put_text o (bs "unit") (f_unit f).
Definition make_subscription (f : fee) : M obj :=
  let! o := make_admission f in
  put_positive o (bs "period") (f_period f).
Definition has {A} (a : carray A) : bool := (0 <? a_count a)%nat && match a_ptr a with Some _ => true | None => false end.
(** src/relay_nip11.c:395-407, one publication fee *)
Definition make_publication (f : fee) : M obj :=
  let! o := create grant (JObj []) in
  let! o := (if has (f_kinds f) then let! k := array_of make_number (f_kinds f) in add_to_object grant o (bs "kinds") k else mret o) in
  let! o := put_number o (bs "amount") (Z.of_N (f_amount f)) in
  put_text o (bs "unit") (f_unit f).
(** if (count > 0 && pointer) add the array *)
Definition put_array {A} (make : A -> M obj) (o : obj) (key : list N) (a : carray A) : M obj :=
  if has a then let! r := array_of make a in add_to_object grant o key r else mret o.
(** src/relay_nip11.c:357-413 *)
Definition make_fees (i : info) : M obj :=
  let! o := create grant (JObj []) in
  let! o := put_array make_admission o (bs "admission") (i_admission i) in
  let! o := put_array make_subscription o (bs "subscription") (i_subscription i) in
  put_array make_publication o (bs "publication") (i_publication i).
Definition has_fees (i : info) : bool := (0 <? a_count (i_admission i))%nat || (0 <? a_count (i_subscription i))%nat || (0 <? a_count (i_publication i))%nat.
(** src/relay_nip11.c:265-301 *)
Definition make_limits (l : limitation) : M obj := let! o := create grant (JObj []) in put_limits o l.
(** src/relay_nip11.c:302-413, the rest of the document *)
Definition put_rest (o : obj) (i : info) : M obj :=
  let! o := put_array make_retention o (bs "retention") (i_retention i) in
  let! o := put_array make_text o (bs "relay_countries") (i_countries i) in
  let! o := put_array make_text o (bs "language_tags") (i_langs i) in
  let! o := put_array make_text o (bs "tags") (i_tags i) in
  let! o := put_text o (bs "posting_policy") (i_posting i) in
  let! o := put_text o (bs "payments_url") (i_payments i) in
  if has_fees i then let! f := make_fees i in add_to_object grant o (bs "fees") f else mret o.
Variable print : json -> list N.
(** src/relay_nip11.c:188-206, 415-433: print, release, copy.  The status, the
    caller's buffer, and *out_len ([None]: not written). *)
Definition deliver (o : obj) (buf : list N) (size : N) : M (option rerr * list N * option N) :=
  let! s := print_node grant print o in
  let! _ := delete o in
  match s with
  | None => mret (Some RMemory, buf, None)
  | Some (b, s) =>
    let len := N.of_nat (length s) in
    if size <=? len then let! _ := hfree (Some b) in mret (Some RBufferTooSmall, buf, Some len)
    else if (length buf <? length s + 1)%nat then fun _ => Undef
    else let! _ := hfree (Some b) in mret (None, s ++ [0] ++ skipn (length s + 1) buf, Some len)
  end.
(** src/relay_nip11.c:139-206 nostr_relay_limitation_serialize *)
Definition limitation_serialize (l : limitation) (buf : list N) (size : N) : M (option rerr * list N * option N) :=
  if size =? 0 then mret (Some RInvalidJson, buf, None)
  else
    let! o := create grant (JObj []) in
    match o with
    | None => mret (Some RMemory, buf, None)
    | Some _ => let! o := put_limits o l in deliver o buf size
    end.
(** src/relay_nip11.c:208-433 nostr_relay_info_serialize *)
Definition info_serialize (i : info) (buf : list N) (size : N) : M (option rerr * list N * option N) :=
  if size =? 0 then mret (Some RInvalidJson, buf, None)
  else
    let! o := create grant (JObj []) in
    match o with
    | None => mret (Some RMemory, buf, None)
    | Some _ =>
      let! o := put_text o (bs "name") (i_name i) in
      let! o := put_text o (bs "description") (i_description i) in
      let! o := put_text o (bs "banner") (i_banner i) in
      let! o := put_text o (bs "icon") (i_icon i) in
      let! o := put_text o (bs "pubkey") (i_pubkey i) in
      let! o := put_text o (bs "self") (i_self i) in
      let! o := put_text o (bs "contact") (i_contact i) in
      let! n := create grant (JArr []) in
      match n with
      | None => let! _ := delete o in mret (Some RMemory, buf, None)
      | Some _ =>
        match elements (i_nips i) with
        | None => fun _ => Undef
        | Some l =>
          let! n := put_items make_number n l in
          let! o := add_to_object grant o (bs "supported_nips") n in
          let! o := put_text o (bs "software") (i_software i) in
          let! o := put_text o (bs "version") (i_version i) in
          let! o := put_text o (bs "privacy_policy") (i_privacy i) in
          let! o := put_text o (bs "terms_of_service") (i_terms i) in
          let! m := make_limits (i_lim i) in
          let! o := add_to_object grant o (bs "limitation") m in
          let! o := put_rest o i in
          deliver o buf size
        end
      end
    end.
End Info.
