(** Model of src/zap.c (NIP-57).  Text is a list of bytes without NUL. *)
From Verif Require Import Base Hex Dec Strto Json Event GiftWrap Nip18.
Open Scope N_scope.

Definition ZAP_REQUEST_KIND : N := 9734.   (* src/zap.c:10 *)
Definition ZAP_RECEIPT_KIND : N := 9735.   (* src/zap.c:11 *)

(** ** LNURL *)
(** src/zap.c:26-31: the place of the last separator, 0 if none *)
Fixpoint last_one (i sep : nat) (s : list N) : nat :=
  match s with [] => sep | c :: r => last_one (S i) (if c =? 49 then i else sep) r end.
(** src/zap.c:19-43 decode_bech32 with an [hrp] buffer of [size] bytes; nothing
    is written to [data].  [None]: it returns 0. *)
Definition decode_bech32 (size : nat) (s : list N) : res (option (list N)) :=
  if (length s <? 8)%nat || (90 <? length s)%nat then Ok None
  else
    let sep := last_one 0 0 s in
    if (sep <? 1)%nat || (length s <? sep + 7)%nat then Ok None
    else if (size <=? sep)%nat then Undef
    else Ok (Some (firstn sep s)).
(** src/zap.c:112-135 nostr_zap_validate_lnurl; [nostr_pubkey] and
    [allows_nostr] are never written *)
Definition validate_lnurl (s : list N) : res unit :=
  if negb (prefixb (bs "lnurl") s) then Err EInvalidParam
  else
    do o <- decode_bech32 32 s;
    match o with
    | None => Err EEncoding
    | Some hrp => if beq hrp (bs "lnurl") then Ok tt else Err EInvalidParam
    end.

(** ** Zap requests *)
Section Request.
Variable lim : option ev_limits.
(** src/zap.c:45-110 nostr_zap_create_request.  [content] is [None] for NULL.
    Allocation failures and the release of the event on error are left out. *)
Definition zap_create (now : Z) (amount : N) (recipient : list N) (lnurl content : option (list N)) (relays : list (list N)) : res event :=
  if (length relays =? 0)%nat then Err EInvalidParam
  else
    let e := mkEvent (repeat 0 32) (repeat 0 32) now ZAP_REQUEST_KIND []
               (match content with Some (c :: r) => Some (c :: r) | _ => None end) (repeat 0 64) in
    do e <- add_tag lim e (bs "relays" :: firstn 15 relays);
    do e <- add_tag lim e [bs "amount"; dec_N amount];
    do e <- match lnurl with Some l => add_tag lim e [bs "lnurl"; l] | None => Ok e end;
    add_tag lim e [bs "p"; hex_encode recipient].
End Request.

(** ** Zap receipts *)
Definition tolower (c : N) : N := if (65 <=? c) && (c <=? 90) then c + 32 else c.
Definition wrap64 (n : N) : N := n mod 18446744073709551616.
(** src/zap.c:175-199: the amount in the text of an invoice, [None] when
    [*amount] is left alone *)
Definition invoice_amount (s : list N) : option N :=
  match strstr (bs "lnbc") s with
  | None => None
  | Some p =>
    let start := skipn 4 p in
    let '(amt, rest) := strtoul start in
    if (length rest <? length start)%nat then
      let m := tolower (match rest with c :: _ => c | [] => 0 end) in
      Some (if m =? 109 then wrap64 (amt * 100000000)
            else if m =? 117 then wrap64 (amt * 100000)
            else if m =? 110 then wrap64 (amt * 100)
            else if m =? 112 then amt / 10
            else wrap64 (amt * 100000000000))
    else None
  end.

(** The caller's pointers.  [SGarbage]: an uninitialised variable. *)
Inductive slot (A : Set) : Set := SNull | SGarbage | SBlock (b : nat) (x : A).
Arguments SNull {A}. Arguments SGarbage {A}. Arguments SBlock {A} _ _.
(** What the caller asks for: which pointers are not NULL, and the size of the
    [preimage] buffer *)
Record want : Set := mkWant { w_amount : bool; w_bolt : bool; w_pre : option nat; w_req : bool }.
(** Outputs and live blocks.  A parsed event counts as one block. *)
Record receipt : Set := mkReceipt {
  rc_bolt : slot (list N); rc_pre : option (list N); rc_req : slot event; rc_live : list nat; rc_next : nat }.

Section Parse.
Variable lim : option ev_limits.
Variable parse : list N -> option json.
Variable mem : nat -> bool.          (* does the n-th allocation succeed *)

(** src/zap.c:143-172, one turn of the loop.  After a failed
    nostr_event_from_json [*zap_request] is dangling. *)
Definition receipt_tag (w : want) (st : receipt) (t : list (list N)) : receipt * res unit :=
  let n := rc_next st in
  match t with
  | name :: value :: _ =>
    if beq name (bs "bolt11") && w_bolt w then
      if mem n then (mkReceipt (SBlock n value) (rc_pre st) (rc_req st) (n :: rc_live st) (S n), Ok tt)
      else (mkReceipt SNull (rc_pre st) (rc_req st) (rc_live st) (S n), Err EMemory)
    else if beq name (bs "preimage") && match w_pre w with Some _ => true | None => false end then
      if (length value <=? 64)%nat then
        match w_pre w with
        | Some size => if (size <? length value + 1)%nat then (st, Undef)
                       else (mkReceipt (rc_bolt st) (Some value) (rc_req st) (rc_live st) n, Ok tt)
        | None => (st, Ok tt)
        end
      else (st, Ok tt)
    else if beq name (bs "description") && w_req w then
      match (if mem n then event_from_json parse lim value else Err EMemory) with
      | Ok e => (mkReceipt (rc_bolt st) (rc_pre st) (SBlock n e) (n :: rc_live st) (S n), Ok tt)
      | Err x =>
        if w_bolt w then
          match rc_bolt st with
          | SBlock b _ => (mkReceipt SNull (rc_pre st) SGarbage (remove Nat.eq_dec b (rc_live st)) (S n), Err x)
          | SNull => (mkReceipt SNull (rc_pre st) SGarbage (rc_live st) (S n), Err x)
          | SGarbage => (st, Undef)
          end
        else (mkReceipt (rc_bolt st) (rc_pre st) SGarbage (rc_live st) (S n), Err x)
      | Undef => (st, Undef)
      end
    else (st, Ok tt)
  | _ => (st, Ok tt)
  end.
Fixpoint receipt_tags (w : want) (st : receipt) (ts : list (list (list N))) : receipt * res unit :=
  match ts with
  | [] => (st, Ok tt)
  | t :: r => match receipt_tag w st t with (st', Ok _) => receipt_tags w st' r | o => o end
  end.
(** src/zap.c:137-203 nostr_zap_parse_receipt: outputs, and the value stored in
    [*amount] if any *)
Definition parse_receipt (w : want) (st : receipt) (e : event) : receipt * res (option N) :=
  if negb (ev_kind e =? ZAP_RECEIPT_KIND) then (st, Err EInvalidParam)
  else
    match receipt_tags w st (ev_tags e) with
    | (st', Ok _) =>
      if w_amount w && w_bolt w then
        match rc_bolt st' with
        | SBlock _ s => (st', Ok (invoice_amount s))
        | SNull => (st', Ok None)
        | SGarbage => (st', Undef)
        end
      else (st', Ok None)
    | (st', Err x) => (st', Err x)
    | (st', Undef) => (st', Undef)
    end.

Section Verify.
Variable ser : event -> list N.
Variable sha256 : list N -> list N.
Variable schnorr_verify : list N -> list N -> list N -> bool.
Variable pubkey_parses : list N -> bool.
Variable parse_pk : bool.

(** src/zap.c:246-252 *)
Fixpoint request_amount (ts : list (list (list N))) : N :=
  match ts with
  | [] => 0
  | (name :: value :: _) :: r => if beq name (bs "amount") then fst (strtoul value) else request_amount r
  | _ :: r => request_amount r
  end.
Definition drop {A : Set} (s : slot A) (live : list nat) : list nat :=
  match s with SBlock b _ => remove Nat.eq_dec b live | _ => live end.
Definition all_wanted : want := mkWant true true None true.
Definition receipt0 : receipt := mkReceipt SNull None SNull [] 0.
(** src/zap.c:205-269 nostr_zap_verify: the blocks still live, and the result *)
Definition zap_verify (rcpt req : event) (server : list N) : list nat * res unit :=
  if negb (ev_kind rcpt =? ZAP_RECEIPT_KIND) || negb (ev_kind req =? ZAP_REQUEST_KIND) then ([], Err EInvalidEvent)
  else if negb (length server =? 64)%nat then ([], Err EInvalidSignature)
  else
    match constant_time_memcmp (hex_encode (ev_pubkey rcpt)) server 64 with
    | Ok (d, _) =>
      if negb (d =? 0) then ([], Err EInvalidSignature)
      else
        match parse_receipt all_wanted receipt0 rcpt with
        | (st, Ok amount) =>
          match rc_req st with
          | SBlock b emb =>
            let freed := drop (rc_bolt st) (drop (rc_req st) (rc_live st)) in
            match constant_time_memcmp (ev_id req) (ev_id emb) 32 with
            | Ok (d, _) =>
              if negb (d =? 0) then (freed, Err EInvalidEvent)
              else
                let asked := request_amount (ev_tags req) in
                let paid := match amount with Some a => a | None => 0 end in
                if (0 <? asked) && (0 <? paid) && negb (asked =? paid) then (freed, Err EInvalidEvent)
                else (freed, event_verify ser sha256 schnorr_verify pubkey_parses parse_pk rcpt)
            | Err x => (rc_live st, Err x)
            | Undef => (rc_live st, Undef)
            end
          | _ => (drop (rc_bolt st) (rc_live st), Err EInvalidEvent)
          end
        | (st, Err x) => (rc_live st, Err x)
        | (st, Undef) => (rc_live st, Undef)
        end
    | Err x => ([], Err x)
    | Undef => ([], Undef)
    end.
End Verify.
End Parse.
