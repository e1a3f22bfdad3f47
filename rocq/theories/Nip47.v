(** Model of src/nip47.c and src/nip47_commands.c (wallet connect: URIs,
    requests, events).  Builds without the JSON library; allocation succeeds. *)
From Verif Require Import Base Dec Hex Event.
Open Scope N_scope.

(** ** Escaping *)
(** src/nip47.c:34-60, what one character becomes *)
Definition esc (c : N) : list N :=
  if (c =? 34) || (c =? 92) then [92; c]
  else if c =? 10 then [92; 110]
  else if c =? 13 then [92; 114]
  else if c =? 9 then [92; 116]
  else if c <? 32 then [92; 117; 48; 48; hexdigit (c / 16); hexdigit (c mod 16)]
  else [c].
(** src/nip47.c:33-61: the text written so far has length [pos]; [top] is one
    more than the highest index written (snprintf also writes a NUL) *)
Fixpoint json_escape_loop (size : nat) (src : list N) (out : list N) (top : nat) : list N * nat :=
  match src with
  | [] => (out, top)
  | c :: r =>
    if (length out <? size - 1)%nat then
      let e := esc c in
      if (1 <? length e)%nat && (size - 1 <? length out + length e)%nat then (out, top)
      else json_escape_loop size r (out ++ e)
             (Nat.max top (length out + length e + (if (length e =? 6)%nat then 1 else 0)))
    else (out, top)
  end.
(** src/nip47.c:29-65 nip47_json_escape: the text before the NUL, and one more
    than the highest index written *)
Definition json_escape (size : nat) (src : list N) : list N * nat :=
  if (size =? 0)%nat then ([], 0%nat)
  else let '(out, top) := json_escape_loop size src [] 0 in (out, Nat.max top (length out + 1)).

(** ** The connection URI *)
Record nwc : Set := mkNwc { nw_relays : list (list N); nw_secret : list N; nw_service : list N; nw_lud16 : option (list N) }.

(** strtol(two characters, &end, 16) with end behind both; white space or a
    sign may take the first place *)
Definition strtol16_2 (a b : N) : option N :=
  match hex_nibble b with
  | None => None
  | Some d =>
    match hex_nibble a with
    | Some h => Some (h * 16 + d)
    | None => if isspace a || (a =? 43) then Some d
              else if a =? 45 then Some ((256 - d) mod 256)
              else None
    end
  end.
(** src/nip47.c:117-123 *)
Fixpoint hex_pairs (s : list N) : option (list N) :=
  match s with
  | [] => Some []
  | a :: b :: r =>
    match strtol16_2 a b with
    | None => None
    | Some v => match hex_pairs r with Some l => Some (v :: l) | None => None end
    end
  | _ => None
  end.
(** src/nip47.c:113-126 hex_decode *)
Definition hex_decode47 (s : list N) (out_len : nat) : option (list N) :=
  if negb (length s =? out_len * 2)%nat then None else hex_pairs s.

(** src/nip47.c:137-149: the bytes stored *)
Fixpoint url_decode_loop (fuel : nat) (s : list N) : list N :=
  match fuel, s with
  | S f, c :: r =>
    match r with
    | a :: b :: t =>
      if c =? 37 then
        match strtol16_2 a b with
        | Some v => v :: url_decode_loop f t
        | None => c :: url_decode_loop f r
        end
      else c :: url_decode_loop f r
    | _ => c :: url_decode_loop f r
    end
  | _, _ => []
  end.
(** a C string ends at its first NUL *)
Fixpoint cut_nul (s : list N) : list N :=
  match s with c :: r => if c =? 0 then [] else c :: cut_nul r | [] => [] end.
(** src/nip47.c:128-153 url_decode, as the string seen by readers *)
Definition url_decode (s : list N) : list N := cut_nul (url_decode_loop (length s) s).

(** strtok_r: the non-empty pieces between delimiters *)
Fixpoint tokens_from (d : N) (s cur : list N) : list (list N) :=
  match s with
  | [] => match cur with [] => [] | _ => [cur] end
  | c :: r =>
    if c =? d then match cur with [] => tokens_from d r [] | _ => cur :: tokens_from d r [] end
    else tokens_from d r (cur ++ [c])
  end.
Definition tokens (d : N) (s : list N) : list (list N) := tokens_from d s [].
(** strchr: the text before and after the first [d] *)
Fixpoint split_at (d : N) (s : list N) : option (list N * list N) :=
  match s with
  | [] => None
  | c :: r => if c =? d then Some ([], r)
              else match split_at d r with Some (a, b) => Some (c :: a, b) | None => None end
  end.

(** src/nip47.c:199-253: relays so far, secret, lud16; [lost] counts blocks
    whose only pointer was overwritten *)
Record uri_state : Set := mkUri { u_relays : list (list N); u_secret : option (list N); u_lud16 : option (list N); u_lost : nat }.
Definition uri_param (st : uri_state) (p : list N) : res uri_state :=
  match split_at 61 p with
  | None => Ok st
  | Some (k, v) =>
    if beq k (bs "relay") then
      Ok (mkUri (u_relays st ++ [url_decode v]) (u_secret st) (u_lud16 st) (u_lost st))
    else if beq k (bs "secret") then
      if negb (length v =? 64)%nat then Err EInvalidParam
      else match hex_decode47 v 32 with
           | None => Err EInvalidParam
           | Some s => Ok (mkUri (u_relays st) (Some s) (u_lud16 st) (u_lost st))
           end
    else if beq k (bs "lud16") then
      Ok (mkUri (u_relays st) (u_secret st) (Some (url_decode v))
            (u_lost st + match u_lud16 st with Some _ => 1 | None => 0 end))
    else Ok st
  end.
Fixpoint uri_params (st : uri_state) (ps : list (list N)) : res uri_state :=
  match ps with
  | [] => Ok st
  | p :: r => do st' <- uri_param st p; uri_params st' r
  end.
(** src/nip47.c:155-264 nostr_nip47_parse_connection_uri; with the number of
    lost blocks *)
Definition parse_uri_full (uri : list N) : res (nwc * nat) :=
  if negb (prefixb (bs "nostr+walletconnect://") uri) then Err EInvalidParam
  else
    match split_at 63 (skipn 22 uri) with
    | None => Err EInvalidParam
    | Some (pk, query) =>
      if negb (length pk =? 64)%nat then Err EInvalidParam
      else match hex_decode47 pk 32 with
           | None => Err EInvalidParam
           | Some service =>
             do st <- uri_params (mkUri [] None None 0) (tokens 38 query);
             match u_secret st, u_relays st with
             | Some s, r :: rs => Ok (mkNwc (r :: rs) s service (u_lud16 st), u_lost st)
             | _, _ => Err EInvalidParam
             end
           end
    end.
Definition parse_uri (uri : list N) : res nwc := do r <- parse_uri_full uri; Ok (fst r).

(** ** Request texts: consecutive pos += snprintf(buffer + pos, size - pos, ...) *)
(** The text before the NUL, and pos.  Beyond the buffer the size wraps and
    snprintf writes outside. *)
Definition bput (size : nat) (st : res (list N * nat)) (text : list N) : res (list N * nat) :=
  do s <- st;
  let '(buf, pos) := s in
  if (size <? pos)%nat then Undef
  else Ok (if (pos <? size)%nat then buf ++ firstn (size - 1 - pos) text else buf, (pos + length text)%nat).
Definition build (size : nat) (parts : list (list N)) : res (list N) :=
  do s <- fold_left (bput size) parts (Ok ([], 0%nat)); Ok (fst s).

Definition opt_part {A} (o : option A) (f : A -> list N) : list (list N) :=
  match o with Some a => [f a] | None => [] end.

(** src/nip47.c:658-701 nostr_nip47_create_pay_invoice_params *)
Definition pay_invoice_params (invoice : list N) (amount : option N) : res (list N) :=
  let e := fst (json_escape (N.to_nat 4096) invoice) in
  build (N.to_nat 4096)
    [bs "{""invoice"":""" ++ e ++ bs """" ++
     match amount with Some a => bs ",""amount"":" ++ dec_N a | None => [] end ++ bs "}"].
(** src/nip47.c:717-784 nostr_nip47_create_make_invoice_params *)
Definition make_invoice_params (amount : N) (desc hash : option (list N)) (expiry : option N) : res (list N) :=
  if amount =? 0 then Err EInvalidParam
  else build (N.to_nat 4096)
    ([bs "{""amount"":" ++ dec_N amount] ++
     opt_part desc (fun d => bs ",""description"":""" ++ fst (json_escape (N.to_nat 2048) d) ++ bs """") ++
     opt_part hash (fun h => bs ",""description_hash"":""" ++ fst (json_escape (N.to_nat 2048) h) ++ bs """") ++
     opt_part expiry (fun x => bs ",""expiry"":" ++ dec_N x) ++
     [bs "}"]).

(** src/nip47_commands.c:60-93: fields with a comma between them *)
Fixpoint commas (first : bool) (fs : list (list N)) : list (list N) :=
  match fs with
  | [] => []
  | f :: r => ((if first then [] else bs ",") ++ f) :: commas false r
  end.
(** src/nip47_commands.c:11-104 nostr_nip47_create_list_transactions_params *)
Definition list_transactions_params (from until : option Z) (limit offset : option N) (unpaid : option bool)
    (type : option (list N)) : res (list N) :=
  build (N.to_nat 4096)
    ([bs "{"] ++
     commas true (opt_part from (fun z => bs """from"":" ++ dec_Z z) ++
                  opt_part until (fun z => bs """until"":" ++ dec_Z z) ++
                  opt_part limit (fun n => bs """limit"":" ++ dec_N n) ++
                  opt_part offset (fun n => bs """offset"":" ++ dec_N n) ++
                  opt_part unpaid (fun b : bool => bs """unpaid"":" ++ if b then bs "true" else bs "false") ++
                  opt_part type (fun t => bs """type"":""" ++ t ++ bs """")) ++
     [bs "}"]).
(** src/nip47_commands.c:106-155 nostr_nip47_create_lookup_invoice_params *)
Definition lookup_invoice_params (hash invoice : option (list N)) : res (list N) :=
  match hash, invoice with
  | None, None => Err EInvalidParam
  | _, _ =>
    build (N.to_nat 4096)
      ([bs "{"] ++ opt_part hash (fun h => bs """payment_hash"":""" ++ h ++ bs """") ++
       opt_part invoice (fun i => (match hash with Some _ => bs "," | None => [] end) ++ bs """invoice"":""" ++ i ++ bs """") ++
       [bs "}"])
  end.
(** src/nip47_commands.c:224-233: type and value alternate; an odd last one is
    left out *)
Fixpoint tlv_parts (first : bool) (l : list (list N)) : list (list N) :=
  match l with
  | t :: v :: r =>
    (if first then [] else [bs ","]) ++ [bs "{""type"":" ++ t ++ bs ",""value"":""" ++ v ++ bs """}"] ++ tlv_parts false r
  | _ => []
  end.
(** src/nip47_commands.c:157-247 nostr_nip47_create_pay_keysend_params *)
Definition pay_keysend_params (amount : N) (pubkey : list N) (preimage : option (list N)) (tlv : list (list N)) : res (list N) :=
  if amount =? 0 then Err EInvalidParam
  else build (N.to_nat 8192)
    ([bs "{""amount"":" ++ dec_N amount ++ bs ",""pubkey"":""" ++ pubkey ++ bs """"] ++
     opt_part preimage (fun p => bs ",""preimage"":""" ++ p ++ bs """") ++
     match tlv with [] => [] | _ => [bs ",""tlv_records"":["] ++ tlv_parts true tlv ++ [bs "]"] end ++
     [bs "}"]).
(** src/nip47_commands.c:303-324, one invoice: id, invoice, amount (0: none) *)
Definition multi_part (first : bool) (x : option (list N) * list N * N) : list (list N) :=
  let '(id, invoice, amount) := x in
  (if first then [] else [bs ","]) ++ [bs "{"] ++
  opt_part id (fun i => bs """id"":""" ++ i ++ bs """,") ++
  [bs """invoice"":""" ++ invoice ++ bs """"] ++
  (if 0 <? amount then [bs ",""amount"":" ++ dec_N amount] else []) ++ [bs "}"].
Fixpoint multi_parts (first : bool) (l : list (option (list N) * list N * N)) : list (list N) :=
  match l with [] => [] | x :: r => multi_part first x ++ multi_parts false r end.
(** src/nip47_commands.c:249-335 nostr_nip47_create_multi_pay_invoice_params *)
Definition multi_pay_params (l : list (option (list N) * list N * N)) : res (list N) :=
  match l with
  | [] => Err EInvalidParam
  | _ => build (N.to_nat 16384) ([bs "{""invoices"":["] ++ multi_parts true l ++ [bs "]}"])
  end.

(** src/nip47.c:498-520: the text that is encrypted into a request event *)
Definition request_payload (method params : list N) : res (list N) :=
  match params with
  | c :: _ =>
    if negb (c =? 123) && negb (c =? 91) then Err EInvalidParam
    else build (N.to_nat 8192)
      [bs "{""method"":""" ++ fst (json_escape 256 method) ++ bs """,""params"":" ++ params ++ bs "}"]
  | [] => Err EInvalidParam
  end.

(** ** Events *)
(** src/nip47.c:275-312 and the same loops at 322-355, 371-404: the array has
    one entry per space plus one; the loop stops when it is full *)
Definition count_spaces (s : list N) : nat := length (filter (fun c => c =? 32) s).
Definition word_list (s : list N) : list (list N) := firstn (count_spaces s + 1) (tokens 32 s).
Fixpoint first_tag_value (name : list N) (ts : list (list (list N))) : option (list N) :=
  match ts with
  | [] => None
  | (n :: v :: _) :: r => if beq n name then Some v else first_tag_value name r
  | _ :: r => first_tag_value name r
  end.
(** src/nip47.c:266-413 nostr_nip47_parse_info_event, all outputs requested *)
Definition parse_info_event (e : event) : res (list (list N) * list (list N) * list (list N)) :=
  if negb (ev_kind e =? 13194) then Err EInvalidParam
  else match ev_content e with
       | None => Undef  (* strdup(NULL) *)
       | Some c =>
         let words o := match o with Some v => word_list v | None => [] end in
         Ok (word_list c, words (first_tag_value (bs "notifications") (ev_tags e)),
             words (first_tag_value (bs "encryption") (ev_tags e)))
       end.

(** src/nip47.c:564-578: whose key is combined with the client's *)
Fixpoint response_peer (ts : list (list (list N))) (author : list N) : list N :=
  match ts with
  | [] => author
  | (n :: v :: _) :: r =>
    if beq n (bs "p") then
      match hex_decode47 v 32 with Some k => k | None => response_peer r author end
    else response_peer r author
  | _ :: r => response_peer r author
  end.
(** strstr(s, sub) != NULL *)
Fixpoint contains (sub s : list N) : bool :=
  prefixb sub s || match s with [] => false | _ :: r => contains sub r end.
(** src/nip47.c:556-606 nostr_nip47_parse_response_event up to the decrypted
    text.  [decrypt secret peer content] is NIP-44 decryption (Nip44.v). *)
Definition parse_response (decrypt : list N -> list N -> option (list N) -> res (list N)) (e : event) (secret : list N) : res (list N) :=
  if negb (ev_kind e =? 23195) then Err EInvalidParam
  else
    match first_tag_value (bs "encryption") (ev_tags e) with
    | Some v => if contains (bs "nip44") v then decrypt secret (response_peer (ev_tags e) (ev_pubkey e)) (ev_content e)
                else Err ENotSupported
    | None => Err ENotSupported
    end.
(** src/nip47.c:786-813 nostr_nip47_parse_notification_event, likewise *)
Definition parse_notification (decrypt : list N -> list N -> option (list N) -> res (list N)) (e : event) (secret : list N) : res (list N) :=
  if negb (ev_kind e =? 23197) && negb (ev_kind e =? 23196) then Err EInvalidParam
  else if ev_kind e =? 23197 then decrypt secret (ev_pubkey e) (ev_content e)
  else Err ENotSupported.
