(** Model of the rest of src/relay_protocol.c: reading from a buffer of given length
    (also src/relay_filter.c and src/relay_message.c), and the functions that read parts of
    an event or release what was handed out.  NULL arguments are not modelled; events
    have lists of strings for tags. *)
From Verif Require Import Base Heap Json Event RelayProto RelayFilter RelayMsg.
Open Scope N_scope.

(** ** Buffers: the bytes that may be read, from the given address on *)
(** the text up to the first zero byte; none within the buffer: read beyond it *)
Fixpoint c_string (buf : list N) : rres (list N) :=
  match buf with
  | [] => RUndef
  | c :: r => if c =? 0 then ROk [] else rdo s <- c_string r; ROk (c :: s)
  end.
(** src/relay_filter.c:106, src/relay_message.c:91: [len] bytes, or up to a zero byte if [len] is 0 *)
Definition text_of (buf : list N) (len : nat) : rres (list N) :=
  match len with
  | O => c_string buf
  | _ => if (length buf <? len)%nat then RUndef else ROk (firstn len buf)
  end.
Section Read.
Variable print : json -> list N.
Variable parse : list N -> option json.
Variable lim : option ev_limits.
(** src/relay_message.c:82-91 nostr_client_msg_parse, its reading of the text *)
Definition client_msg_parse (buf : list N) (len : nat) : rres cmsg :=
  rdo s <- text_of buf len; client_read print parse lim (parse s).
(** src/relay_filter.c:98-106 nostr_filter_parse, its reading of the text *)
Definition filter_parse_buf (buf : list N) (len : nat) : rres rfilter :=
  rdo s <- text_of buf len; filter_parse (parse s).
(** src/relay_protocol.c:289-311 nostr_event_parse: the length is not used *)
Definition event_parse (buf : list N) (len : nat) : rres event :=
  rdo s <- c_string buf;
  match event_from_json parse lim s with
  | Ok e => ROk e
  | Err EJsonParse => RErr RInvalidJson
  | Err EMemory => RErr RMemory
  | Err EInvalidEvent => RErr RInvalidId
  | Err _ => RErr RInvalidJson
  | Undef => RUndef
  end.
End Read.

(** ** Parts of an event *)
(** the loop of src/relay_protocol.c:758-761, 767-770, from one position of [out] on: each
    sprintf writes two digits and a zero byte; src/relay_protocol.c:755-771
    nostr_event_get_id_hex, nostr_event_get_pubkey_hex *)
Definition digit (n : N) : N := if n <? 10 then 48 + n else 87 + n.
Fixpoint sprint_hex (l : list N) (out : list N) : res (list N) :=
  match l with
  | [] => match out with [] => Undef | _ :: r => Ok (0 :: r) end
  | b :: l =>
    match out with
    | _ :: _ :: _ :: r => do r <- sprint_hex l (0 :: r); Ok (digit (b / 16) :: digit (b mod 16) :: r)
    | _ => Undef
    end
  end.
Definition get_id_hex (e : event) (out : list N) : res (list N) := sprint_hex (ev_id e) out.
Definition get_pubkey_hex (e : event) (out : list N) : res (list N) := sprint_hex (ev_pubkey e) out.
(** src/relay_protocol.c:773-777 nostr_event_get_tag_count *)
Definition get_tag_count (e : event) : nat := length (ev_tags e).
(** src/relay_protocol.c:779-785 nostr_event_get_tag *)
Definition get_tag (e : event) (i : nat) : option (list (list N)) :=
  if (length (ev_tags e) <=? i)%nat then None else Some (nth i (ev_tags e) []).
(** src/relay_protocol.c:245-256 nostr_event_get_tag_at *)
Definition get_tag_at (e : event) (i : nat) : option (list (list N)) * nat :=
  if (length (ev_tags e) <=? i)%nat then (None, 0%nat) else (Some (nth i (ev_tags e) []), length (nth i (ev_tags e) [])).
(** src/relay_protocol.c:787-793 nostr_tag_get_name *)
Definition tag_get_name (t : list (list N)) : option (list N) := match t with [] => None | n :: _ => Some n end.
(** src/relay_protocol.c:795-799 nostr_tag_get_value_count *)
Definition tag_get_value_count (t : list (list N)) : nat := length t.
(** src/relay_protocol.c:801-807 nostr_tag_get_value *)
Definition tag_get_value (t : list (list N)) (i : nat) : option (list N) :=
  if (length t <=? i)%nat then None else Some (nth i t []).
(** src/relay_protocol.c:207-210 nostr_event_get_d_tag *)
Definition get_d_tag (e : event) : option (list N) := tag_value (ev_tags e) (bs "d").
(** src/relay_protocol.c:825-829 nostr_event_is_deletion *)
Definition is_deletion (e : event) : bool := ev_kind e =? 5.
(** src/relay_protocol.c:152-155 nostr_timestamp_now, 282-285 nostr_event_is_expired_now;
    [clock] is what time(NULL) answers *)
Definition is_expired_now (clock : Z) (e : event) : bool := is_expired e clock.

(** ** src/relay_protocol.c:994-1002 nostr_free_strings; 989-992 nostr_free is [hfree] *)
Fixpoint free_each (l : list (option nat)) : M unit :=
  match l with [] => mret tt | p :: r => let! _ := hfree p in free_each r end.
(** [items]: the strings in the array, of which the first [count] are released *)
Definition free_strings (arr : option nat) (items : list (option nat)) (count : nat) : M unit :=
  match arr with
  | None => mret tt
  | Some _ =>
    let! _ := match count with O => mret tt | _ => huse arr end in
    if (length items <? count)%nat then fun _ => Undef
    else let! _ := free_each (firstn count items) in hfree arr
  end.
