(** Model of the receiving side of src/relay.c: buffering, splitting into
    messages, dispatch to subscriptions. *)
From Verif Require Import Base Json Event.
Open Scope N_scope.

(** ** The end of a JSON array: src/relay.c:26-51 find_json_array_end on the text
    before the terminating NUL; the number of bytes up to and including the
    closing bracket *)
Fixpoint scan_array (s : list N) (depth : Z) (in_string : bool) : option nat :=
  match s with
  | [] => None
  | c :: r =>
    if in_string then
      if c =? 92 then
        match r with
        | [] => None
        | _ :: r' => option_map (fun n => S (S n)) (scan_array r' depth true)
        end
      else option_map S (scan_array r depth (negb (c =? 34)))
    else if c =? 34 then option_map S (scan_array r depth true)
    else if (c =? 91) || (c =? 123) then option_map S (scan_array r (depth + 1)%Z false)
    else if (c =? 93) || (c =? 125) then
      if (depth - 1 =? 0)%Z then Some 1%nat else option_map S (scan_array r (depth - 1)%Z false)
    else option_map S (scan_array r depth false)
  end.
Definition find_json_array_end (s : list N) : option nat :=
  match s with c :: _ => if c =? 91 then scan_array s 0 false else None | [] => None end.

(** ** Memory: the receive buffer has [length rb_mem] bytes ([] is NULL) *)
Record rbuf : Set := mkRbuf { rb_mem : list N; rb_pos : nat }.
(** The C string at an address, if it ends inside the buffer *)
Fixpoint take_nul (l : list N) : option (list N) :=
  match l with
  | [] => None
  | c :: r => if c =? 0 then Some [] else option_map (cons c) (take_nul r)
  end.
Definition text_at (mem : list N) (i : nat) : option (list N) := take_nul (skipn i mem).
Fixpoint skip_ws (s : list N) : list N :=
  match s with c :: r => if (c =? 10) || (c =? 13) || (c =? 32) then skip_ws r else s | [] => [] end.

(** src/relay.c:599-695, the loop; the text of each message (which is cut off by
    a NUL written at [end] and restored) and the final start *)
Fixpoint recv_loop (fuel : nat) (mem : list N) (start : nat) : res (list (list N) * nat) :=
  match text_at mem start with
  | None => Undef
  | Some t =>
    match fuel with
    | O => Ok ([], start)
    | S fuel' =>
      match find_json_array_end t with
      | None => Ok ([], start)
      | Some n =>
        let fin := (start + n)%nat in
        if (length mem <=? fin)%nat then Undef
        else
          match text_at mem fin with
          | None => Undef
          | Some t' =>
            do x <- recv_loop fuel' mem (fin + (length t' - length (skip_ws t')));
            Ok (firstn n t :: fst x, snd x)
          end
      end
    end
  end.
(** Copying into the buffer: out of bounds is undefined *)
Definition put_at (mem : list N) (i : nat) (s : list N) : res (list N) :=
  if (length mem <? i + length s)%nat then Undef else Ok (firstn i mem ++ s ++ skipn (i + length s) mem).
Definition max_buffer_size : N := 10485760.
(** src/relay.c:577-588: make room; [None]: the chunk is dropped (with
    [rb_pos] = 0 when it is too large).  [grow]: realloc succeeds; [junk]: the
    contents of new memory *)
Definition make_room (grow : bool) (junk : nat -> N) (b : rbuf) (len : nat) : rbuf * bool :=
  if (length (rb_mem b) <=? rb_pos b + len)%nat then
    let new_size := (rb_pos b + len + 1024)%nat in
    if max_buffer_size <? N.of_nat new_size then (mkRbuf (rb_mem b) 0, false)
    else if negb grow then (b, false)
    else (mkRbuf (rb_mem b ++ map junk (seq 0 (new_size - length (rb_mem b)))) (rb_pos b), true)
  else (b, true).
(** src/relay.c:575-706 LWS_CALLBACK_CLIENT_RECEIVE: the messages found, in order *)
Definition receive (grow : bool) (junk : nat -> N) (b : rbuf) (chunk : list N) : res (rbuf * list (list N)) :=
  match chunk with
  | [] => Ok (b, [])
  | _ =>
    let '(b1, ok) := make_room grow junk b (length chunk) in
    if negb ok then Ok (b1, [])
    else
      do m1 <- put_at (rb_mem b1) (rb_pos b1) chunk;
      let pos := (rb_pos b1 + length chunk)%nat in
      do mem <- put_at m1 pos [0];
      match text_at mem 0 with
      | None => Undef
      | Some t =>
        do x <- recv_loop (length mem) mem (length t - length (skip_ws t));
        match text_at mem (snd x) with
        | None => Undef
        | Some rest =>
          match rest with
          | [] => do mem' <- put_at mem 0 [0]; Ok (mkRbuf mem' 0, fst x)
          | _ => do mem' <- put_at mem 0 (rest ++ [0]); Ok (mkRbuf mem' (length rest), fst x)
          end
        end
      end
  end.
(** A connection's whole history of chunks *)
Fixpoint receive_all (b : rbuf) (cs : list (list N * (bool * (nat -> N)))) : res (rbuf * list (list N)) :=
  match cs with
  | [] => Ok (b, [])
  | (c, (g, j)) :: r =>
    do x <- receive g j b c;
    do y <- receive_all (fst x) r;
    Ok (fst y, snd x ++ snd y)
  end.
(** calloc'd context, src/relay.c:251-267 *)
Definition rbuf0 : rbuf := mkRbuf [] 0.

(** ** Subscriptions *)
(** src/relay.c:53-58; the handler stands for callback and user_data, [None] is a
    NULL callback; an id is NULL when strdup failed *)
Record subscr : Set := mkSub { s_id : option (list N); s_handler : option nat }.
(** src/relay.c:15-24 validate_subscription_id *)
Definition valid_sub_id (id : list N) : bool :=
  negb (length id =? 0)%nat && (length id <=? 256)%nat && forallb (fun c => negb (c =? 34) && negb (c =? 92) && negb (c <? 32)) id.
(** The first entry with an id; comparing with a NULL id is undefined *)
Fixpoint find_sub (l : list subscr) (id : list N) : res (option subscr) :=
  match l with
  | [] => Ok None
  | x :: r => match s_id x with None => Undef | Some i => if beq i id then Ok (Some x) else find_sub r id end
  end.
(** src/relay.c:522-532 and 653-663: unlink the first entry with an id *)
Fixpoint remove_sub (l : list subscr) (id : list N) : res (list subscr) :=
  match l with
  | [] => Ok []
  | x :: r =>
    match s_id x with
    | None => Undef
    | Some i => if beq i id then Ok r else do r' <- remove_sub r id; Ok (x :: r')
    end
  end.
(** What an allocation or the socket did during a call *)
Record fate : Set := mkFate { a_node : bool; a_id : bool; a_msg : bool; a_buf : bool; a_write : bool }.
(** src/relay.c:426-485 nostr_subscribe on a connected relay; [json_ok]: the
    filters parse.  New list, what is sent, status *)
Definition subscribe (l : list subscr) (id filters : list N) (h : option nat) (json_ok : bool) (f : fate)
  : list subscr * option (list N) * res unit :=
  if negb (valid_sub_id id) then (l, None, Err EInvalidParam)
  else if negb (a_node f) then (l, None, Err EMemory)
  else if negb json_ok then (l, None, Err EInvalidParam)
  else
    let l' := mkSub (if a_id f then Some id else None) h :: l in
    if negb (a_msg f) then (l', None, Err EMemory)
    else if negb (a_buf f) then (l', None, Err EMemory)
    else
      let msg := bs "[""REQ"",""" ++ id ++ bs """," ++ filters ++ bs "]" in
      if a_write f then (l', Some msg, Ok tt) else (l', None, Err EConnection).
(** src/relay.c:508-558 nostr_relay_unsubscribe *)
Definition unsubscribe (l : list subscr) (id : list N) (f : fate) : res (list subscr * option (list N) * res unit) :=
  if negb (valid_sub_id id) then Ok (l, None, Err EInvalidParam)
  else
    do l' <- remove_sub l id;
    if negb (a_msg f) then Ok (l', None, Err EMemory)
    else if negb (a_buf f) then Ok (l', None, Err EMemory)
    else
      let msg := bs "[""CLOSE"",""" ++ id ++ bs """]" in
      if a_write f then Ok (l', Some msg, Ok tt) else Ok (l', None, Err EConnection).

(** ** Dispatch: src/relay.c:603-690 *)
Inductive output : Set := OEvent (handler : nat) (e : event) | OMessage (type : list N) (j : json).
Section Dispatch.
Variable parse : list N -> option json.           (* cJSON_Parse *)
Variable reprint : json -> option json.           (* cJSON_Print and nostr_event_from_json's parser *)
Variable lim : option ev_limits.
(** One message: the list of subscriptions afterwards and the call-back made;
    [on_message]: a message callback is set.  An event whose number is out of
    range is undefined (Event.v). *)
Definition dispatch (on_message : bool) (l : list subscr) (text : list N) : res (list subscr * list output) :=
  match parse text with
  | Some (JArr (JStr ty :: x :: more)) =>
    let n := (2 + length more)%nat in
    let told := if on_message then [OMessage ty (JArr (JStr ty :: x :: more))] else [] in
    if beq ty (bs "EVENT") && (3 <=? n)%nat then
      match x, more with
      | JStr id, ev :: _ =>
        do s <- find_sub l id;
        match s with
        | None => Ok (l, [])
        | Some s =>
          match reprint ev with
          | None => Ok (l, [])
          | Some t =>
            match event_from_tree lim t with
            | Undef => Undef
            | Err _ => Ok (l, [])
            | Ok e => Ok (l, match s_handler s with Some h => [OEvent h e] | None => [] end)
            end
          end
        end
      | _, _ => Ok (l, [])
      end
    else if beq ty (bs "CLOSED") && (3 <=? n)%nat then
      match x with
      | JStr id => do l' <- remove_sub l id; Ok (l', told)
      | _ => Ok (l, told)
      end
    else Ok (l, told)
  | _ => Ok (l, [])
  end.
(** Calls made by the application *)
Inductive subop : Set :=
  | DoSubscribe (id filters : list N) (h : option nat) (json_ok : bool) (f : fate)
  | DoUnsubscribe (id : list N) (f : fate).
Definition do_op (l : list subscr) (o : subop) : res (list subscr) :=
  match o with
  | DoSubscribe id filters h json_ok f => Ok (fst (fst (subscribe l id filters h json_ok f)))
  | DoUnsubscribe id f => do x <- unsubscribe l id f; Ok (fst (fst x))
  end.
Fixpoint do_ops (l : list subscr) (os : list subop) : res (list subscr) :=
  match os with [] => Ok l | o :: r => do l' <- do_op l o; do_ops l' r end.
(** The messages of a connection; [react]: the calls a call-back makes before it
    returns (nothing else in the loop uses the list after a call-back) *)
Variable react : output -> list subop.
Fixpoint dispatch_all (on_message : bool) (l : list subscr) (texts : list (list N)) : res (list subscr * list output) :=
  match texts with
  | [] => Ok (l, [])
  | t :: r =>
    do x <- dispatch on_message l t;
    do l' <- do_ops (fst x) (flat_map react (snd x));
    do y <- dispatch_all on_message l' r;
    Ok (fst y, snd x ++ snd y)
  end.
(** Application calls and messages in the order in which they take effect *)
Inductive item : Set := App (o : subop) | Msg (text : list N).
Fixpoint history (on_message : bool) (l : list subscr) (h : list item) : res (list subscr * list output) :=
  match h with
  | [] => Ok (l, [])
  | App o :: r => do l' <- do_op l o; history on_message l' r
  | Msg t :: r =>
    do x <- dispatch on_message l t;
    do y <- history on_message (fst x) r;
    Ok (fst y, snd x ++ snd y)
  end.
(** A connection: the chunks that arrive, src/relay.c:575-706 *)
Fixpoint serve (on_message : bool) (b : rbuf) (l : list subscr) (cs : list (list N * (bool * (nat -> N))))
  : res (rbuf * list subscr * list output) :=
  match cs with
  | [] => Ok (b, l, [])
  | (c, (g, j)) :: r =>
    do x <- receive g j b c;
    do y <- dispatch_all on_message l (snd x);
    do z <- serve on_message (fst x) (fst y) r;
    Ok (fst z, snd y ++ snd z)
  end.
End Dispatch.
