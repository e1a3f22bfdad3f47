(** Model of src/nip46.c (remote signing: requests and responses), over the
    models of event.c and nip44.c.  Both optional features compiled in,
    allocation succeeds here (EventMem.v has the memory), every random draw is a
    parameter ([None]: the generator fails), and so is the clock. *)
From Verif Require Import Base Hex Json Event Nip44 GiftWrap.
Open Scope N_scope.

(** include/nostr.h nostr_nip46_request_t: char id[65], char method[32] *)
Record request : Set := mkRequest { rq_id : list N; rq_method : list N; rq_params : option (list N); rq_sender : list N }.
(** include/nostr.h nostr_nip46_response_t *)
Record response : Set := mkResponse { rs_id : list N; rs_result : option (list N); rs_error : option (list N) }.
Definition NIP46_KIND : N := 24133.

Section Nip46.
Variable ser : event -> list N.
Variable sha256 : list N -> list N.
Variable pubkey_of : list N -> option (list N).
Variable schnorr_sign : list N -> list N -> list N -> option (list N).
Variable encrypt : list N -> list N -> option (list N) -> list N -> res (list N).
Variable decrypt : list N -> list N -> list N -> res (list N).
Variable print : json -> list N.
Variable parse : list N -> option json.
Variable lim : option ev_limits.

(** src/nip46.c:43-51: strncpy of a string member into a zeroed field of [n]+1 *)
Definition text_field (n : nat) (key : list N) (j : json) : list N :=
  match jget key j with Some (JStr s) => firstn n s | _ => [] end.
(** src/nip46.c:12-71 nostr_nip46_parse_request (a missing content is refused
    by nostr_nip44_decrypt, src/nip44.c:381-383) *)
Definition parse_request (e : event) (sk : list N) : res request :=
  if negb (ev_kind e =? NIP46_KIND) then Err EInvalidEvent
  else match ev_content e with
  | None => Err EInvalidParam
  | Some c =>
    do t <- decrypt sk (ev_pubkey e) c;
    match parse (until_nul t) with
    | None => Err EJsonParse
    | Some j =>
      Ok (mkRequest (text_field 64 (bs "id") j) (text_field 31 (bs "method") j)
            (match jget (bs "params") j with Some p => Some (print p) | None => None end) (ev_pubkey e))
    end
  end.

(** src/nip46.c:82-98, the tree that is printed *)
Definition response_tree (r : response) : json :=
  JObj ((bs "id", JStr (rs_id r)) ::
    match rs_error r, rs_result r with
    | Some e, _ => [(bs "error", JStr e)]
    | None, Some t => [(bs "result", match parse t with Some j => j | None => JStr t end)]
    | None, None => []
    end).
(** src/nip46.c:73-152 nostr_nip46_create_response; the result of adding the
    tag is not looked at (132) *)
Definition create_response (r : response) (sk pk : list N) (nonce aux : option (list N)) (now : Z) : res event :=
  do c <- encrypt sk pk nonce (print (response_tree r));
  let e := mkEvent (repeat 0 32) (repeat 0 32) now NIP46_KIND [] (Some c) (repeat 0 64) in
  do e <- match add_tag lim e [bs "p"; hex_encode pk] with Ok e' => Ok e' | Err _ => Ok e | Undef => Undef end;
  match event_sign ser sha256 pubkey_of schnorr_sign (compute_id ser sha256 e) sk aux with
  | (e, Ok _) => Ok e
  | (_, Err x) => Err x
  | (_, Undef) => Undef
  end.
End Nip46.
