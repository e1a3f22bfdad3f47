(** Model of src/nip65.c (relay lists). *)
From Verif Require Import Base Event GiftWrap.
Open Scope N_scope.

(** include/nostr.h:1343-1353 *)
Record entry : Set := mkEntry { en_url : list N; en_read : bool; en_write : bool }.
(** The array: a zeroed slot is [None] *)
Record rlist : Set := mkRl { rl_slots : list (option entry); rl_count : nat }.
(** src/nip65.c:9-12 *)
Definition KIND_RELAY_LIST : N := 10002.
Definition MAX_RELAY_COUNT : nat := N.to_nat 256.
(** src/nip65.c:20-42 nostr_relay_list_create *)
Definition rl_create : rlist := mkRl (repeat None 8) 0.
(** src/nip65.c:57-87 is_valid_relay_url *)
Definition is_valid_relay_url (url : list N) : bool :=
  let len := N.of_nat (length url) in
  if (len =? 0) || (2048 <? len) then false
  else
    match (if prefixb (bs "wss://") url then Some 6%nat else if prefixb (bs "ws://") url then Some 5%nat else None) with
    | None => false
    | Some n =>
      match nth_error url n with
      | None => false
      | Some c => negb ((c =? 47) || (c =? 58) || (c =? 63) || (c =? 35) || (c =? 64) || (c =? 32))
      end
    end.
(** src/nip65.c:103-107: strcmp with a NULL url is undefined *)
Fixpoint has_url (n : nat) (sl : list (option entry)) (url : list N) : res bool :=
  match n, sl with
  | O, _ => Ok false
  | S n', Some e :: r => if beq (en_url e) url then Ok true else has_url n' r url
  | S _, _ => Undef
  end.
(** src/nip65.c:109-131; [grow]: realloc succeeds *)
Definition rl_grow (grow : bool) (l : rlist) : res rlist :=
  let cap := length (rl_slots l) in
  if (cap <=? rl_count l)%nat then
    let nc := if (MAX_RELAY_COUNT <? cap * 2)%nat then MAX_RELAY_COUNT else (cap * 2)%nat in
    if (nc <=? rl_count l)%nat then Err EMemory
    else if negb grow then Err EMemory
    else Ok (mkRl (rl_slots l ++ repeat None (nc - cap)) (rl_count l))
  else Ok l.
Definition rl_set (sl : list (option entry)) (i : nat) (e : option entry) : res (list (option entry)) :=
  if (i <? length sl)%nat then Ok (firstn i sl ++ e :: skipn (S i) sl) else Undef.
(** src/nip65.c:89-141 nostr_relay_list_add; [dup]: strdup succeeds *)
Definition rl_add (grow dup : bool) (l : rlist) (url : list N) (rd wr : bool) : res (rlist * res unit) :=
  if negb rd && negb wr then Ok (l, Err EInvalidParam)
  else if negb (is_valid_relay_url url) then Ok (l, Err EInvalidParam)
  else if (MAX_RELAY_COUNT <=? rl_count l)%nat then Ok (l, Err EInvalidParam)
  else
    do known <- has_url (rl_count l) (rl_slots l) url;
    if known : bool then Ok (l, Err EInvalidParam)
    else
      match rl_grow grow l with
      | Undef => Undef
      | Err e => Ok (l, Err e)
      | Ok l1 =>
        do sl <- rl_set (rl_slots l1) (rl_count l1) (if dup then Some (mkEntry url rd wr) else None);
        Ok (if dup then (mkRl sl (S (rl_count l1)), Ok tt) else (mkRl sl (rl_count l1), Err EMemory))
      end.
(** src/nip65.c:241-247 nostr_relay_list_get *)
Definition rl_get (l : rlist) (i : nat) : res (option entry) :=
  if (rl_count l <=? i)%nat then Ok None
  else match nth_error (rl_slots l) i with Some (Some e) => Ok (Some e) | _ => Undef end.
(** The entries in use; a zeroed one among them has a NULL url *)
Fixpoint used (n : nat) (sl : list (option entry)) : res (list entry) :=
  match n, sl with
  | O, _ => Ok []
  | S n', Some e :: r => do t <- used n' r; Ok (e :: t)
  | S _, _ => Undef
  end.
Definition rl_entries (l : rlist) : res (list entry) := used (rl_count l) (rl_slots l).

(** src/nip65.c:164-175 the tag of an entry *)
Definition entry_tag (e : entry) : list (list N) :=
  if negb (en_read e) || negb (en_write e) then [bs "r"; en_url e; if en_read e then bs "read" else bs "write"] else [bs "r"; en_url e].
Fixpoint add_tags (lim : option ev_limits) (e : event) (l : list entry) : res event :=
  match l with
  | [] => Ok e
  | x :: r => do e' <- add_tag lim e (entry_tag x); add_tags lim e' r
  end.
(** src/nip65.c:143-181 nostr_relay_list_to_event *)
Definition rl_to_event (lim : option ev_limits) (now : Z) (l : rlist) : res event :=
  do es <- rl_entries l;
  add_tags lim (mkEvent (repeat 0 32) (repeat 0 32) now KIND_RELAY_LIST [] (Some []) (repeat 0 64)) es.
(** src/nip65.c:198-228, the loop; [mem i]: allocations at the i-th tag succeed *)
Fixpoint rl_read (mem : nat -> bool * bool) (i : nat) (l : rlist) (ts : list (list (list N))) : res rlist :=
  match ts with
  | [] => Ok l
  | t :: r =>
    match t with
    | n :: url :: more =>
      if beq n (bs "r") then
        let wr := match more with m :: _ => negb (beq m (bs "read")) | [] => true end in
        let rd := match more with m :: _ => if beq m (bs "read") then true else negb (beq m (bs "write")) | [] => true end in
        do x <- rl_add (fst (mem i)) (snd (mem i)) l url rd wr;
        match snd x with
        | Err EMemory => Err EMemory
        | _ => rl_read mem (S i) (fst x) r
        end
      else rl_read mem (S i) l r
    | _ => rl_read mem (S i) l r
    end
  end.
(** src/nip65.c:183-231 nostr_relay_list_from_event *)
Definition rl_from_event (mem : nat -> bool * bool) (e : event) : res rlist :=
  if negb (ev_kind e =? KIND_RELAY_LIST) then Err EInvalidEvent
  else rl_read mem 0 rl_create (ev_tags e).

(** src/nip65.c:275-292: copying the matching urls; [dups]: outcomes of strdup.
    The result: the copies, and how many are still allocated. *)
Fixpoint copy_urls (dups : list bool) (done : list (list N)) (l : list (list N)) : res (list (list N)) * nat :=
  match l with
  | [] => (Ok done, length done)
  | u :: r =>
    match dups with
    | false :: _ => (Err EMemory, (length done - length done)%nat)
    | _ => copy_urls (tl dups) (done ++ [u]) r
    end
  end.
(** src/nip65.c:249-294 get_relays_by_flag; [alloc]: calloc succeeds.  The numbers:
    allocated strings and arrays. *)
Definition rl_by_flag (alloc : bool) (dups : list bool) (l : rlist) (for_read : bool) : res (res (list (list N)) * (nat * nat)) :=
  do es <- rl_entries l;
  let us := map en_url (filter (fun e => if for_read then en_read e else en_write e) es) in
  match us with
  | [] => Ok (Ok [], (0, 0))%nat
  | _ =>
    if negb alloc then Ok (Err EMemory, (0, 0))%nat
    else match copy_urls dups [] us with
         | (Ok r, n) => Ok (Ok r, (n, 1))%nat
         | (e, n) => Ok (e, (n, 0))%nat
         end
  end.
(** Calls on a list *)
Fixpoint rl_run (l : rlist) (cs : list (list N * bool * bool * (bool * bool))) : res (rlist * list (res unit)) :=
  match cs with
  | [] => Ok (l, [])
  | (url, rd, wr, (g, d)) :: r =>
    do x <- rl_add g d l url rd wr;
    do y <- rl_run (fst x) r;
    Ok (fst y, snd x :: snd y)
  end.
