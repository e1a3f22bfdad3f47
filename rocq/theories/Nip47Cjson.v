(** Model of the wallet-connect requests of src/nip47.c and src/nip47_commands.c in
    builds with the cJSON library, when memory may run out: the parameters of each
    method, the text that is encrypted, and the request event. *)
From Verif Require Import Base Heap Dec Strto Hex Json Event EventMem CjsonMem Nip47.
Open Scope N_scope.

Section Params.
Variable grant : nat -> bool.
Variable print : json -> list N.
Definition num (n : N) : M (option node) := create grant (jint (Z.of_N n)).
(** if (x) cJSON_Add...ToObject(o, key, x), its result ignored *)
Definition add_opt {A} (o : option node) (key : list N) (x : option A) (make : A -> M (option node)) : M (option node) :=
  match x with None => mret o | Some a => add_new grant o key (make a) end.
(** *params_json = cJSON_PrintUnformatted(params); cJSON_Delete(params) *)
Definition finish (o : option node) : M (option (nat * list N) * option err) :=
  let! r := (let! r := print_node grant print o in let! _ := delete o in mret r) in
  mret (r, match r with Some _ => None | None => Some EMemory end).
(** cJSON_CreateObject, then [fill] *)
Definition object_m (fill : option node -> M (option (nat * list N) * option err)) : M (option (nat * list N) * option err) :=
  let! o := create grant (JObj []) in
  match o with None => mret (None, Some EMemory) | Some n => fill (Some n) end.

(** src/nip47.c:658-681 nostr_nip47_create_pay_invoice_params *)
Definition pay_invoice_m (invoice : list N) (amount : option N) : M (option (nat * list N) * option err) :=
  object_m (fun o =>
    let! o := add_new grant o (bs "invoice") (create_string grant invoice) in
    let! o := add_opt o (bs "amount") amount num in
    finish o).
(** src/nip47.c:703-715 nostr_nip47_create_get_balance_params,
    src/nip47_commands.c:337-349 nostr_nip47_create_get_info_params: strdup *)
Definition empty_params_m : M (option (nat * list N) * option err) :=
  let! p := ealloc grant in
  match p with None => mret (None, Some EMemory) | Some b => mret (Some (b, bs "{}"), None) end.
(** src/nip47.c:717-751 nostr_nip47_create_make_invoice_params *)
Definition make_invoice_m (amount : N) (desc hash : option (list N)) (expiry : option N) : M (option (nat * list N) * option err) :=
  if amount =? 0 then mret (None, Some EInvalidParam)
  else object_m (fun o =>
    let! o := add_new grant o (bs "amount") (num amount) in
    let! o := add_opt o (bs "description") desc (create_string grant) in
    let! o := add_opt o (bs "description_hash") hash (create_string grant) in
    let! o := add_opt o (bs "expiry") expiry num in
    finish o).
(** src/nip47_commands.c:11-54 nostr_nip47_create_list_transactions_params *)
Definition list_transactions_m (from until : option Z) (limit offset : option N) (unpaid : option bool) (type : option (list N)) :
    M (option (nat * list N) * option err) :=
  object_m (fun o =>
    let! o := add_opt o (bs "from") from (fun z => create grant (jint z)) in
    let! o := add_opt o (bs "until") until (fun z => create grant (jint z)) in
    let! o := add_opt o (bs "limit") limit num in
    let! o := add_opt o (bs "offset") offset num in
    let! o := add_opt o (bs "unpaid") unpaid (fun b => create grant (JBool b)) in
    let! o := add_opt o (bs "type") type (create_string grant) in
    finish o).
(** src/nip47_commands.c:106-132 nostr_nip47_create_lookup_invoice_params *)
Definition lookup_invoice_m (hash invoice : option (list N)) : M (option (nat * list N) * option err) :=
  match hash, invoice with
  | None, None => mret (None, Some EInvalidParam)
  | _, _ => object_m (fun o =>
      let! o := add_opt o (bs "payment_hash") hash (create_string grant) in
      let! o := add_opt o (bs "invoice") invoice (create_string grant) in
      finish o)
  end.
(** src/nip47_commands.c:185-199: one object for each pair, strtol for the type; the
    array, and whether all objects could be made *)
Fixpoint put_tlv (a : option node) (l : list (list N)) : M (option node * bool) :=
  match l with
  | t :: v :: r =>
    let! x := create grant (JObj []) in
    match x with
    | None => mret (a, false)
    | Some n =>
      let! x := add_new grant (Some n) (bs "type") (create grant (jint (fst (strtoll t)))) in
      let! x := add_new grant x (bs "value") (create_string grant v) in
      put_tlv (add_to_array a x) r
    end
  | _ => mret (a, true)
  end.
(** src/nip47_commands.c:178-202, 265-291: an array of objects, put into [o] under
    [key]; when an object cannot be made, [o] is released and the array is not *)
Definition with_array (o : option node) (key : list N) (fill : option node -> M (option node * bool)) : M (option (nat * list N) * option err) :=
  let! a := create grant (JArr []) in
  match a with
  | None => let! _ := delete o in mret (None, Some EMemory)
  | Some n =>
    let! r := fill (Some n) in
    match r with
    | (_, false) => let! _ := delete o in mret (None, Some EMemory)
    | (a, true) => let! o := add_to_object grant o key a in finish o
    end
  end.
(** src/nip47_commands.c:157-210 nostr_nip47_create_pay_keysend_params; no TLV
    records is the empty list *)
Definition pay_keysend_m (amount : N) (pubkey : list N) (preimage : option (list N)) (tlv : list (list N)) : M (option (nat * list N) * option err) :=
  if amount =? 0 then mret (None, Some EInvalidParam)
  else object_m (fun o =>
    let! o := add_new grant o (bs "amount") (num amount) in
    let! o := add_new grant o (bs "pubkey") (create_string grant pubkey) in
    let! o := add_opt o (bs "preimage") preimage (create_string grant) in
    match tlv with
    | [] => finish o
    | _ => with_array o (bs "tlv_records") (fun a => put_tlv a tlv)
    end).
(** src/nip47_commands.c:271-289: one object for each invoice: id, invoice, amount (0: none) *)
Fixpoint put_invoices (a : option node) (l : list (option (list N) * list N * N)) : M (option node * bool) :=
  match l with
  | [] => mret (a, true)
  | (id, invoice, amount) :: r =>
    let! x := create grant (JObj []) in
    match x with
    | None => mret (a, false)
    | Some n =>
      let! x := add_opt (Some n) (bs "id") id (create_string grant) in
      let! x := add_new grant x (bs "invoice") (create_string grant invoice) in
      let! x := if 0 <? amount then add_new grant x (bs "amount") (num amount) else mret x in
      put_invoices (add_to_array a x) r
    end
  end.
(** src/nip47_commands.c:249-298 nostr_nip47_create_multi_pay_invoice_params *)
Definition multi_pay_m (l : list (option (list N) * list N * N)) : M (option (nat * list N) * option err) :=
  match l with
  | [] => mret (None, Some EInvalidParam)
  | _ => object_m (fun o => with_array o (bs "invoices") (fun a => put_invoices a l))
  end.
End Params.

Section Request.
(** cJSON_Parse, which does not look at what follows the value *)
Variable parse : list N -> option json.
(** src/nip47.c:498-520: the text that is encrypted *)
Definition payload (method params : list N) : res (list N) :=
  match parse params with
  | None => Err EInvalidParam
  | Some _ => build (N.to_nat 8192) [bs "{""method"":""" ++ fst (json_escape 256 method) ++ bs """,""params"":" ++ params ++ bs "}"]
  end.
(** [derive]: the public key of a secret; [encrypt secret peer text]: NIP-44 *)
Variable derive : list N -> option (list N).
Variable encrypt : list N -> list N -> list N -> res (list N).
(** src/nip47.c:415-535 nostr_nip47_create_request_event, up to computing the id and
    signing; tags are never refused here (two tags of two strings) *)
Definition request (conn : nwc) (method params : list N) (nip44 : bool) (now : Z) : res event :=
  match derive (nw_secret conn) with
  | None => Err EInvalidKey
  | Some pk =>
    do p <- payload method params;
    if nip44 then
      do c <- encrypt (nw_secret conn) (nw_service conn) p;
      Ok (mkEvent (repeat 0 32) pk now 23194 [[bs "p"; hex_encode (nw_service conn)]; [bs "encryption"; bs "nip44_v2"]] (Some c) (repeat 0 64))
    else Err ENotSupported
  end.
End Request.
