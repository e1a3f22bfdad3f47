(** Model of src/nip46.c when memory may run out.  What the functions compute is in
    Nip46.v; here is what they do with memory and what becomes of their results.
    The library's own allocations while encrypting, decrypting, parsing or printing
    one text count as one. *)
From Verif Require Import Base Heap Hex Json Event EventMem CjsonMem EventOom GiftWrap Nip46.
Open Scope N_scope.

Section Nip46Mem.
Variable grant : nat -> bool.
Variable print : json -> list N.
Variable parse : list N -> option json.
Variable encrypt : list N -> list N -> option (list N) -> list N -> res (list N).
Variable decrypt : list N -> list N -> list N -> res (list N).
Variable sha256 : list N -> list N.
Variable pubkey_of : list N -> option (list N).
Variable schnorr_sign : list N -> list N -> list N -> option (list N).
Variable lim : option ev_limits.

(** cJSON_Parse *)
Definition parse_m (s : list N) : M (option node) :=
  match parse s with None => mret None | Some j => create grant j end.
(** a text the library hands out, or an error *)
Definition text_m (r : res (list N)) : M (option (nat * list N) * option err) :=
  match r with
  | Ok t => let! p := ealloc grant in match p with None => mret (None, Some EMemory) | Some b => mret (Some (b, t), None) end
  | Err x => mret (None, Some x)
  | Undef => fun _ => Undef
  end.

(** nostr_nip46_request_t: what it says, and the block its params point to.  After a
    failing call everything is zero except that sender_pubkey may be set. *)
Record crequest : Set := mkCq { cq_val : request; cq_block : option nat }.
Definition no_request : crequest := mkCq (mkRequest [] [] None (repeat 0 32)) None.
Definition request_of (pk : list N) : crequest := mkCq (mkRequest [] [] None pk) None.
(** src/nip46.c:54-61 *)
Definition params_m (j : json) : M (option (nat * list N)) :=
  match jget (bs "params") j with
  | None => mret None
  | Some p => print_node grant print (Some (mkNode p []))
  end.
(** src/nip46.c:12-71 *)
Definition parse_request_m (e : event) (sk : list N) : M (crequest * option err) :=
  if negb (ev_kind e =? NIP46_KIND) then mret (no_request, Some EInvalidEvent)
  else match ev_content e with
  | None => mret (request_of (ev_pubkey e), Some EInvalidParam)
  | Some c =>
    let! d := text_m (decrypt sk (ev_pubkey e) c) in
    match d with
    | (Some (b, t), _) =>
      let! _ := huse (Some b) in
      let! root := parse_m (until_nul t) in
      let! _ := hfree (Some b) in
      match root with
      | None => mret (request_of (ev_pubkey e), Some EJsonParse)
      | Some n =>
        let! p := params_m (n_tree n) in
        let! _ := delete root in
        let q v := mkRequest (text_field 64 (bs "id") (n_tree n)) (text_field 31 (bs "method") (n_tree n)) v (ev_pubkey e) in
        mret (match p with Some (b, s) => mkCq (q (Some s)) (Some b) | None => mkCq (q None) None end, None)
      end
    | (None, Some x) => mret (request_of (ev_pubkey e), Some x)
    | (None, None) => fun _ => Undef
    end
  end.
(** src/nip46.c:154-160 nostr_nip46_request_free *)
Definition request_free (q : crequest) : M crequest :=
  match cq_block q with
  | None => mret q
  | Some b =>
    let! _ := hfree (Some b) in
    mret (mkCq (mkRequest (rq_id (cq_val q)) (rq_method (cq_val q)) None (rq_sender (cq_val q))) None)
  end.

(** src/nip46.c:89-98 *)
Definition put_result (r : response) (o : option node) : M (option node) :=
  match rs_error r, rs_result r with
  | Some x, _ => add_new grant o (bs "error") (create_string grant x)
  | None, Some t =>
    let! x := parse_m t in
    match x with
    | Some _ => add_to_object grant o (bs "result") x
    | None => add_new grant o (bs "result") (create_string grant t)
    end
  | None, None => mret o
  end.
(** src/nip46.c:82-104: the text to encrypt *)
Definition response_text (r : response) : M (option (nat * list N)) :=
  let! o := create grant (JObj []) in
  match o with
  | None => mret None
  | Some _ =>
    let! o := add_new grant o (bs "id") (create_string grant (rs_id r)) in
    let! o := put_result r o in
    let! s := print_node grant print o in
    let! _ := delete o in
    mret s
  end.
Definition with_kind (c : cevent) (k : N) : cevent :=
  let e := ce_val c in with_val c (mkEvent (ev_id e) (ev_pubkey e) (ev_created e) k (ev_tags e) (ev_content e) (ev_sig e)).
(** src/nip46.c:134-147: release the event and clear the caller's variable *)
Definition abandon (c : cevent) (x : err) : M (option cevent * option err) :=
  let! _ := event_destroy (Some c) in mret (None, Some x).
(** src/nip46.c:129-149 *)
Definition finish_response (c : cevent) (sk pk : list N) (aux : option (list N)) : M (option cevent * option err) :=
  let! t := EventMem.add_tag grant lim c [bs "p"; hex_encode pk] in
  let c := fst t in
  let! x := compute_id_m (serialize_m grant print) sha256 (ce_val c) in
  match x with
  | (_, Some r) => abandon c r
  | (e, None) =>
    let! y := sign_m (serialize_m grant print) sha256 pubkey_of schnorr_sign e sk aux in
    match y with
    | (_, Some r) => abandon c r
    | (e, None) => let! _ := huse (Some (ce_self c)) in mret (Some (with_val c e), None)
    end
  end.
(** src/nip46.c:73-152; first component: what is left in the caller's variable, which
    held [old] (after a failing nostr_event_create it may point to a released event) *)
Definition create_response_m (old : option cevent) (r : response) (sk pk : list N) (nonce aux : option (list N)) (now : Z) : M (option cevent * option err) :=
  let! s := response_text r in
  match s with
  | None => mret (old, Some EMemory)
  | Some (b, s) =>
    let! _ := huse (Some b) in
    let! c := text_m (encrypt sk pk nonce s) in
    let! _ := hfree (Some b) in
    match c with
    | (Some (q, t), _) =>
      let! v := event_create grant now in
      match v with
      | (p, Some x) => let! _ := hfree (Some q) in mret (p, Some x)
      | (Some c, None) =>
        let! v := set_content grant (with_kind c NIP46_KIND) q t in
        let! _ := hfree (Some q) in
        match v with
        | (c, Some x) => abandon c x
        | (c, None) => finish_response c sk pk aux
        end
      | (None, None) => fun _ => Undef
      end
    | (None, Some x) => mret (old, Some x)
    | (None, None) => fun _ => Undef
    end
  end.
(** nostr_nip46_response_t: the blocks of result and error *)
Record cresponse : Set := mkCr { cr_result : option nat; cr_error : option nat }.
(** src/nip46.c:162-170 nostr_nip46_response_free *)
Definition response_free (r : cresponse) : M cresponse :=
  let! _ := hfree (cr_result r) in
  let! _ := hfree (cr_error r) in
  mret (mkCr None None).
End Nip46Mem.
