(** Model of src/relay_message.c: messages from clients, messages to clients. *)
From Verif Require Import Base Heap Json Event RelayProto RelayFilter RelayMem RelayMemSpec.
Open Scope N_scope.

(** include/nostr_relay_protocol.h:147-175 nostr_client_msg_t *)
Inductive cmsg : Set :=
| CEvent (e : event) | CReq (id : list N) (fs : list rfilter) | CClose (id : list N) | CAuth (e : event) | CCount (id : list N) (fs : list rfilter).
(** NOSTR_DEFAULT_MAX_FILTERS *)
Definition max_filters : nat := 10.

Section Msg.
(** cJSON_PrintUnformatted and cJSON_Parse / cJSON_ParseWithLength *)
Variable print : json -> list N.
Variable parse : list N -> option json.
Variable lim : option ev_limits.

(** src/relay_message.c:36-77, the loop *)
Fixpoint read_filters (l : list json) : rres (list rfilter) :=
  match l with
  | [] => ROk []
  | j :: r =>
    rdo f <- filter_parse (parse (print j));
    rdo _ <- filter_validate f;
    rdo fs <- read_filters r;
    ROk (f :: fs)
  end.
(** src/relay_message.c:16-80 parse_filters on the elements from index 2 on *)
Definition parse_filters (l : list json) : rres (list rfilter) :=
  if (max_filters <? length l)%nat then RErr RTooManyFilters else read_filters l.
(** src/relay_message.c:118-130, 192-204 *)
Definition read_event (j : json) : rres event :=
  match event_from_json parse lim (print j) with Ok e => ROk e | Err _ => RErr RInvalidJson | Undef => RUndef end.
(** src/relay_message.c:140-152, 169-181, 214-226; strncpy into 65 bytes *)
Definition read_sub_id (j : json) : rres (list N) :=
  match j with
  | JStr s => if validate_subscription_id s then ROk (firstn 64 s) else RErr RInvalidSubId
  | _ => RErr RInvalidSubId
  end.
(** src/relay_message.c:82-244 nostr_client_msg_parse (cJSON build) on the parsed
    text; allocation succeeding *)
Definition client_read (j : option json) : rres cmsg :=
  match j with
  | Some (JArr (JStr ty :: args)) =>
    if beq ty (bs "EVENT") then
      match args with [] => RErr RMissingField | a :: _ => rdo e <- read_event a; ROk (CEvent e) end
    else if beq ty (bs "REQ") then
      match args with
      | [] => RErr RMissingField
      | a :: fs => rdo id <- read_sub_id a; rdo fl <- parse_filters fs; ROk (CReq id fl)
      end
    else if beq ty (bs "CLOSE") then
      match args with [] => RErr RMissingField | a :: _ => rdo id <- read_sub_id a; ROk (CClose id) end
    else if beq ty (bs "AUTH") then
      match args with [] => RErr RMissingField | a :: _ => rdo e <- read_event a; ROk (CAuth e) end
    else if beq ty (bs "COUNT") then
      match args with
      | [] => RErr RMissingField
      | a :: fs => rdo id <- read_sub_id a; rdo fl <- parse_filters fs; ROk (CCount id fl)
      end
    else RErr RUnknownMessageType
  | _ => RErr RInvalidJson
  end.

(** ** Messages to clients *)
(** include/nostr_relay_protocol.h:177-233 nostr_relay_msg_t; a type outside the
    enumeration is [MOther] *)
Inductive rmsg : Set :=
| MEvent (id : list N) (e : option event) | MOk (id : list N) (success : bool) (text : list N) | MEose (id : list N)
| MClosed (id text : list N) | MNotice (text : list N) | MAuth (challenge : list N) | MCount (id : list N) (n : Z) (approximate : bool) | MOther.
(** strncpy(dst, s, n); dst[n] = 0 into a zeroed struct; NULL leaves it empty *)
Definition cut (n : nat) (s : option (list N)) : list N := match s with Some s => firstn n s | None => [] end.
(** src/relay_message.c:297-384 *)
Definition msg_event (id : option (list N)) (e : option event) : rmsg := MEvent (cut 64 id) e.
Definition msg_ok (id : option (list N)) (success : bool) (text : option (list N)) : rmsg := MOk (cut 64 id) success (cut 255 text).
Definition msg_eose (id : option (list N)) : rmsg := MEose (cut 64 id).
Definition msg_closed (id text : option (list N)) : rmsg := MClosed (cut 64 id) (cut 255 text).
Definition msg_notice (text : option (list N)) : rmsg := MNotice (cut 255 text).
Definition msg_auth (challenge : option (list N)) : rmsg := MAuth (cut 127 challenge).
Definition msg_count (id : option (list N)) (n : Z) (approximate : bool) : rmsg := MCount (cut 64 id) (if (n <? 0)%Z then 0%Z else n) approximate.
(** src/relay_message.c:394-470, the tree *)
Definition relay_tree (m : rmsg) : rres json :=
  match m with
  | MEvent id e =>
    match e with
    | None => RErr RMissingField
    | Some e => match parse (event_to_json print e) with Some j => ROk (JArr [JStr (bs "EVENT"); JStr id; j]) | None => RErr RMemory end
    end
  | MOk id b t => ROk (JArr [JStr (bs "OK"); JStr id; JBool b; JStr t])
  | MEose id => ROk (JArr [JStr (bs "EOSE"); JStr id])
  | MClosed id t => ROk (JArr [JStr (bs "CLOSED"); JStr id; JStr t])
  | MNotice t => ROk (JArr [JStr (bs "NOTICE"); JStr t])
  | MAuth c => ROk (JArr [JStr (bs "AUTH"); JStr c])
  | MCount id n a => ROk (JArr [JStr (bs "COUNT"); JStr id; JObj ((bs "count", jint n) :: (if a then [(bs "approximate", JBool true)] else []))])
  | MOther => RErr RUnknownMessageType
  end.
(** src/relay_message.c:388-491 nostr_relay_msg_serialize: the status, the
    caller's buffer and *out_len ([None]: not written).  [size] is what the
    caller says; writing past the buffer is undefined. *)
Definition serialize_msg (m : rmsg) (buf : list N) (size : N) : rres unit * list N * option N :=
  if size =? 0 then (RErr RInvalidJson, buf, None)
  else
    match relay_tree m with
    | RErr e => (RErr e, buf, None)
    | RUndef => (RUndef, buf, None)
    | ROk t =>
      let s := print t in
      let len := N.of_nat (length s) in
      if size <=? len then (RErr RBufferTooSmall, buf, Some len)
      else if (length buf <? length s + 1)%nat then (RUndef, buf, None)
      else (ROk tt, s ++ [0] ++ skipn (length s + 1) buf, Some len)
    end.

(** ** Memory.  A message as it lies in memory; the event is one block.  The
    union holds nothing reachable when the type is UNKNOWN. *)
Inductive mmsg : Set :=
| MmEvent (p : option nat) | MmReq (b : option nat) (fs : list cfilter) | MmClose | MmAuth (p : option nat) | MmCount (b : option nat) (fs : list cfilter) | MmUnknown.
(** memset(msg, 0, ...): type 0 is EVENT *)
Definition mm_zero : mmsg := MmEvent None.
Variable grant : nat -> bool.
Fixpoint free_filters (l : list cfilter) : M unit :=
  match l with [] => mret tt | f :: r => let! _ := filter_free f in free_filters r end.
(** 41-45, 53-57, 66-70: release everything *)
Definition drop_filters (b : nat) (done : list cfilter) (e : rerr) : M (option nat * list cfilter * option rerr) :=
  let! _ := free_filters done in
  let! _ := hfree (Some b) in
  mret (None, [], Some e).
(** src/relay_message.c:36-77; [cap] is the size of the array *)
Fixpoint fill_filters (cap b : nat) (l : list json) (done : list cfilter) : M (option nat * list cfilter * option rerr) :=
  match l with
  | [] => mret (Some b, done, None)
  | j :: r =>
    let! _ := hassert (length done <? cap)%nat in
    let! p := halloc grant in
    match p with
    | None => drop_filters b done RMemory
    | Some s =>
      let! x := filter_read grant (parse (print j)) in
      let! _ := hfree (Some s) in
      match x with
      | (_, Some e) => drop_filters b done e
      | (f, None) =>
        match filter_validate (value f) with
        | RErr e => let! _ := filter_free f in drop_filters b done e
        | _ => fill_filters cap b r (done ++ [f])
        end
      end
    end
  end.
(** src/relay_message.c:16-80 parse_filters: *out_filters, the filters and the
    status *)
Definition parse_filters_m (l : list json) : M (option nat * list cfilter * option rerr) :=
  if (max_filters <? length l)%nat then mret (None, [], Some RTooManyFilters)
  else
    match l with
    | [] => mret (None, [], None)
    | _ =>
      let! p := halloc grant in
      match p with
      | None => mret (None, [], Some RMemory)
      | Some b => fill_filters (length l) b l []
      end
    end.
(** src/relay_message.c:118-130, 192-204: print, read, release the text *)
Definition read_event_m (j : json) : M (option nat * option rerr) :=
  let! p := halloc grant in
  match p with
  | None => mret (None, Some RMemory)
  | Some s =>
    let! _ := huse (Some s) in
    match parse (print j) with
    | None => let! _ := hfree (Some s) in mret (None, Some RInvalidJson)
    | Some t =>
      let! q := halloc grant in
      match q with
      | None => let! _ := hfree (Some s) in mret (None, Some RInvalidJson)
      | Some ev =>
        match event_from_tree lim t with
        | Undef => fun _ => Undef
        | Err _ => let! _ := hfree (Some ev) in let! _ := hfree (Some s) in mret (None, Some RInvalidJson)
        | Ok _ => let! _ := hfree (Some s) in mret (Some ev, None)
        end
      end
    end
  end.
(** src/relay_message.c:82-244 nostr_client_msg_parse in memory *)
Definition client_parse_m (j : option json) : M (mmsg * option rerr) :=
  let fail e := mret (MmUnknown, Some e) in
  match j with
  | Some (JArr (JStr ty :: args)) =>
    match args with
    | [] => fail (if beq ty (bs "EVENT") || beq ty (bs "REQ") || beq ty (bs "CLOSE") || beq ty (bs "AUTH") || beq ty (bs "COUNT")
                  then RMissingField else RUnknownMessageType)
    | a :: fs =>
      let with_event k :=
        let! x := read_event_m a in
        match x with (p, None) => mret (k p, None) | (_, Some e) => fail e end in
      let with_filters k :=
        match read_sub_id a with
        | ROk _ =>
          let! x := parse_filters_m fs in
          match x with (b, l, None) => mret (k b l, None) | (_, _, Some e) => fail e end
        | _ => fail RInvalidSubId
        end in
      if beq ty (bs "EVENT") then with_event MmEvent
      else if beq ty (bs "REQ") then with_filters MmReq
      else if beq ty (bs "CLOSE") then match read_sub_id a with ROk _ => mret (MmClose, None) | _ => fail RInvalidSubId end
      else if beq ty (bs "AUTH") then with_event MmAuth
      else if beq ty (bs "COUNT") then with_filters MmCount
      else fail RUnknownMessageType
    end
  | _ => fail RInvalidJson
  end.
(** src/relay_message.c:258-295 nostr_client_msg_free *)
Definition client_free_m (m : mmsg) : M mmsg :=
  let filters b l :=
    match b with
    | None => mret tt
    | Some b => let! _ := free_filters l in hfree (Some b)
    end in
  let! _ := match m with
            | MmEvent p => hfree p
            | MmReq b l => filters b l
            | MmAuth p => hfree p
            | MmCount b l => filters b l
            | MmClose => mret tt
            | MmUnknown => mret tt
            end in
  mret mm_zero.
End Msg.

(** ** Accessors: src/relay_message.c:506-560 *)
Inductive ctype : Set := TEvent | TReq | TClose | TAuth | TCount.
Definition msg_type (m : cmsg) : ctype :=
  match m with CEvent _ => TEvent | CReq _ _ => TReq | CClose _ => TClose | CAuth _ => TAuth | CCount _ _ => TCount end.
Definition msg_get_event (m : cmsg) : option event := match m with CEvent e => Some e | CAuth e => Some e | _ => None end.
Definition msg_sub_id (m : cmsg) : option (list N) := match m with CReq i _ => Some i | CClose i => Some i | CCount i _ => Some i | _ => None end.
Definition msg_filters (m : cmsg) : list rfilter := match m with CReq _ fs => fs | CCount _ fs => fs | _ => [] end.
