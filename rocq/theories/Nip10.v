(** Model of src/nip10.c (threads: root, reply and mention tags).  Tag values
    are strings; allocation succeeds. *)
From Verif Require Import Base Event.
Open Scope N_scope.

(** src/nip10.c:15-26 copy_bounded into a field of [size] bytes: the string,
    written with its NUL *)
Definition copy_bounded (size : N) (src : list N) (max_len : nat) : res (list N) :=
  let s := firstn max_len src in
  if size <? N.of_nat (length s) + 1 then Undef else Ok s.
(** src/nip10.c:8-13 e_tag_info *)
Record e_tag_info : Set := mkETag { et_id : list N; et_relay : list N; et_marker : list N; et_pubkey : list N }.
(** src/nip10.c:28-49 parse_e_tag *)
Definition parse_e_tag (t : list (list N)) : res (option e_tag_info) :=
  match t with
  | n :: v :: r =>
    if negb (beq n (bs "e")) then Ok None
    else
      do id <- copy_bounded 65 v 64;
      do relay <- match r with x :: _ => copy_bounded 256 x 255 | [] => Ok [] end;
      do marker <- match r with _ :: x :: _ => copy_bounded 16 x 15 | _ => Ok [] end;
      do pubkey <- match r with _ :: _ :: x :: _ => copy_bounded 65 x 64 | _ => Ok [] end;
      Ok (Some (mkETag id relay marker pubkey))
  | _ => Ok None
  end.
(** src/nip10.c:51-92 collect_e_tags, the array (ENotFound: empty) *)
Fixpoint collect_e_tags (ts : list (list (list N))) : res (list e_tag_info) :=
  match ts with
  | [] => Ok []
  | t :: r =>
    do i <- parse_e_tag t;
    do l <- collect_e_tags r;
    Ok (match i with Some x => x :: l | None => l end)
  end.
(** src/nip10.c:94-103 copy_id_and_relay: strncpy of at most size - 1 bytes, then
    a NUL in the last place; an absent hint is left empty *)
Definition copy_id_and_relay (i : e_tag_info) (id_size relay_size : N) : list N * list N :=
  (firstn (N.to_nat (id_size - 1)) (et_id i),
   if relay_size =? 0 then [] else firstn (N.to_nat (relay_size - 1)) (et_relay i)).
(** src/nip10.c:105-145 find_e_tag_by_marker; [relay_size] 0: no hint wanted *)
Definition find_e_tag_by_marker (ts : list (list (list N))) (marker : list N) (last : bool) (id_size relay_size : N)
    : res (list N * list N) :=
  if id_size <? 65 then Err EInvalidParam
  else
    do l <- collect_e_tags ts;
    match l with
    | [] => Err ENotFound
    | first :: _ =>
      match find (fun i => beq (et_marker i) marker) l with
      | Some i => Ok (copy_id_and_relay i id_size relay_size)
      | None =>
        if negb last then Ok (copy_id_and_relay first id_size relay_size)
        else match nth_error l (length l - 1) with
             | Some i => Ok (copy_id_and_relay i id_size relay_size)
             | None => Err ENotFound
             end
      end
    end.
(** src/nip10.c:147-157 *)
Definition get_root_id (e : event) := find_e_tag_by_marker (ev_tags e) (bs "root") false.
Definition get_reply_id (e : event) := find_e_tag_by_marker (ev_tags e) (bs "reply") true.

(** nostr_event_add_tag seen as a list operation (Arena.v refines it); [max] is
    the configured tag limit *)
Definition add_tag10 (max : nat) (ts : list (list (list N))) (t : list (list N)) : res (list (list (list N))) :=
  if (max <=? length ts)%nat then Err EInvalidParam else Ok (ts ++ [t]).
(** src/nip10.c:159-173 add_e_tag *)
Definition e_tag (id : list N) (relay : option (list N)) (marker : list N) (pubkey : option (list N)) : list (list N) :=
  [bs "e"; id; match relay with Some r => r | None => [] end; marker] ++ match pubkey with Some p => [p] | None => [] end.
(** src/nip10.c:175-197 nostr_event_add_reply_tags: the tags afterwards, and the
    result *)
Definition add_reply_tags (max : nat) (ts : list (list (list N))) (root : option (list N)) (root_relay root_pubkey : option (list N))
    (reply : option (list N)) (reply_relay reply_pubkey : option (list N)) : list (list (list N)) * res unit :=
  match root, reply with
  | None, None => (ts, Err EInvalidParam)
  | _, _ =>
    match match root with Some id => add_tag10 max ts (e_tag id root_relay (bs "root") root_pubkey) | None => Ok ts end with
    | Ok ts1 =>
      match reply with
      | None => (ts1, Ok tt)
      | Some id => match add_tag10 max ts1 (e_tag id reply_relay (bs "reply") reply_pubkey) with
                   | Ok ts2 => (ts2, Ok tt) | Err e => (ts1, Err e) | Undef => (ts1, Undef) end
      end
    | Err e => (ts, Err e)
    | Undef => (ts, Undef)
    end
  end.
(** src/nip10.c:199-207 nostr_event_add_mention_tag *)
Definition add_mention_tag (max : nat) (ts : list (list (list N))) (pubkey : list N) (hint : option (list N)) : res (list (list (list N))) :=
  add_tag10 max ts ([bs "p"; pubkey] ++ match hint with Some h => [h] | None => [] end).
(** src/nip10.c:209-222 nostr_event_is_reply *)
Definition is_reply (e : event) : res bool :=
  match get_reply_id e 65 0 with
  | Ok (c :: _, _) => Ok true
  | Ok ([], _) => Ok false
  | Err _ => Ok false
  | Undef => Undef
  end.
