(** Model of src/nip26.c (delegation). *)
From Verif Require Import Base Dec Strto Hex Event.
Open Scope N_scope.

(** include/nostr.h nostr_delegation_conditions *)
Record conds : Set := mkConds { k_kinds : list N; k_after : option Z; k_before : option Z }.
Definition no_conds : conds := mkConds [] None None.

Fixpoint skip_amp (s : list N) : list N :=
  match s with
  | c :: r => if c =? 38 then skip_amp r else s
  | [] => []
  end.
(** strncmp(p, prefix, n) == 0: the text after the prefix *)
Fixpoint after_prefix (p s : list N) : option (list N) :=
  match p, s with
  | [], _ => Some s
  | a :: p', b :: s' => if a =? b then after_prefix p' s' else None
  | _ :: _, [] => None
  end.

(** strtoul / strtoll with errno: None when out of range or without digits *)
Definition strtoul_checked (s : list N) : option (N * list N) :=
  match scan_int s with
  | None => None
  | Some (neg, v, t) => if 18446744073709551615 <? v then None else Some (strtoul s)
  end.
Definition strtoll_checked (s : list N) : option (Z * list N) :=
  match scan_int s with
  | None => None
  | Some (neg, v, t) =>
    let z := if neg then (- Z.of_N v)%Z else Z.of_N v in
    if (z <? - 2 ^ 63)%Z || (2 ^ 63 - 1 <? z)%Z then None else Some (strtoll s)
  end.

(** src/nip26.c:90-146, one condition; allocation assumed to succeed *)
Definition one_condition (s : list N) (c : conds) : option (conds * list N) :=
  match after_prefix (bs "kind=") s with
  | Some p =>
    match strtoul_checked p with
    | Some (v, r) =>
      if (65535 <? v) || (256 <=? length (k_kinds c))%nat then None
      else Some (mkConds (k_kinds c ++ [v]) (k_after c) (k_before c), r)
    | None => None
    end
  | None =>
    match after_prefix (bs "created_at>") s with
    | Some p =>
      match strtoll_checked p with
      | Some (v, r) => Some (mkConds (k_kinds c) (Some v) (k_before c), r)
      | None => None
      end
    | None =>
      match after_prefix (bs "created_at<") s with
      | Some p =>
        match strtoll_checked p with
        | Some (v, r) => Some (mkConds (k_kinds c) (k_after c) (Some v), r)
        | None => None
        end
      | None => None
      end
    end
  end.

(** src/nip26.c:78-147, the loop; [n] iterations remain of NIP26_MAX_CONDITIONS *)
Fixpoint conditions_loop (n : nat) (s : list N) (c : conds) (parsed : nat) : option (conds * nat) :=
  match s with
  | [] => Some (c, parsed)
  | _ =>
    match n with
    | O => None
    | S n' =>
      match skip_amp s with
      | [] => Some (c, parsed)
      | p => match one_condition p c with
             | Some (c', r) => conditions_loop n' r c' (S parsed)
             | None => None
             end
      end
    end
  end.
(** src/nip26.c:64-155 parse_delegation_conditions *)
Definition parse_conditions (s : list N) : option conds :=
  match s with
  | [] => None
  | _ => match conditions_loop 100 s no_conds 0 with
         | Some (c, S _) => Some c
         | _ => None
         end
  end.

(** src/nip26.c:319-328 kind_allowed, 330-349 nostr_delegation_check_conditions *)
Definition kind_allowed (c : conds) (kind : N) : bool :=
  match k_kinds c with [] => true | l => existsb (N.eqb kind) l end.
Definition check_conditions (c : conds) (kind : N) (created : Z) : res unit :=
  if negb (kind_allowed c kind) then Err EInvalidEvent
  else if match k_after c with Some a => (created <=? a)%Z | None => false end then Err EInvalidEvent
  else if match k_before c with Some b => (b <=? created)%Z | None => false end then Err EInvalidEvent
  else Ok tt.

(** src/nip26.c:157-182 the text that is hashed, in its malloc'ed buffer of
    17 + 64 + 1 + length + 1 bytes (snprintf truncates) *)
Definition delegation_string (delegatee conditions : list N) : list N :=
  firstn (17 + 64 + 1 + length conditions + 1 - 1)
    (bs "nostr:delegation:" ++ hex_encode delegatee ++ [58] ++ conditions).

Record delegation : Set := mkDel { d_delegator : list N; d_conditions : list N; d_parsed : conds; d_token : list N }.

(** src/nip26.c:42-51 is_valid_hex *)
Definition is_valid_hex (s : list N) (n : nat) : bool :=
  (length s =? n)%nat && forallb (fun c => match hex_nibble c with Some _ => true | None => false end) s.

(** nostr_hex_decode(...) == n *)
Definition returned (r : option nat) (n : nat) : bool := match r with Some m => (m =? n)%nat | None => false end.

Section Crypto.
Variable sha256 : list N -> list N.
Variable pubkey_of : list N -> option (list N).
Variable sign : list N -> list N -> list N -> option (list N).      (* key, digest, 32 random bytes *)
Variable verify : list N -> list N -> list N -> bool.               (* public key, digest, signature *)
Variable key_parses : list N -> bool.                               (* libsecp256k1 builds only; noscrypt parses within [verify] *)

(** src/nip26.c:157-182 build_delegation_hash *)
Definition delegation_hash (delegatee conditions : list N) : res (list N) :=
  if 4096 <? N.of_nat (length conditions) then Err EInvalidParam
  else Ok (sha256 (delegation_string delegatee conditions)).

(** src/nip26.c:184-279 nostr_delegation_create; [rnd] None when the random
    source fails *)
Definition delegation_create (privkey delegatee conditions : list N) (rnd : option (list N)) : res delegation :=
  do hash <- delegation_hash delegatee conditions;
  match pubkey_of privkey with
  | None => Err EInvalidKey
  | Some pub =>
    match rnd with
    | None => Err EMemory
    | Some r =>
      match sign privkey hash r with
      | None => Err EInvalidSignature
      | Some token =>
        match parse_conditions conditions with
        | None => Err EInvalidParam
        | Some c => Ok (mkDel pub conditions c token)
        end
      end
    end
  end.

(** src/nip26.c:281-317 nostr_delegation_verify *)
Definition delegation_verify (d : delegation) (delegatee : list N) : res unit :=
  do hash <- delegation_hash delegatee (d_conditions d);
  if negb (key_parses (d_delegator d)) then Err EInvalidKey
  else if verify (d_delegator d) hash (d_token d) then Ok tt else Err EInvalidSignature.

(** src/nip26.c:351-371 nostr_event_add_delegation: the tag handed to
    nostr_event_add_tag (modelled in Arena.v) *)
Definition delegation_tag (d : delegation) : list (list N) :=
  [bs "delegation"; hex_encode (d_delegator d); d_conditions d; hex_encode (d_token d)].
Definition add_delegation (e : event) (d : delegation) : event :=
  mkEvent (ev_id e) (ev_pubkey e) (ev_created e) (ev_kind e) (ev_tags e ++ [delegation_tag d]) (ev_content e) (ev_sig e).

(** src/nip26.c:373-424 nostr_event_get_delegation *)
Fixpoint get_delegation_tags (ts : list (list (list N))) : res delegation :=
  match ts with
  | [] => Err ENotFound
  | (name :: dh :: c :: th :: _) :: r =>
    if beq name (bs "delegation") then
      if (N.of_nat (length c) =? 0) || (4096 <? N.of_nat (length c)) then Err EInvalidEvent
      else if negb (is_valid_hex dh 64) || negb (is_valid_hex th 128) then Err EInvalidEvent
      else match hex_decode dh 32, hex_decode th 64 with
           | (pk, n1), (token, n2) =>
             if negb (returned n1 32) || negb (returned n2 64) then Err EInvalidEvent
             else match parse_conditions c with
                  | Some k => Ok (mkDel pk c k token)
                  | None => Err EInvalidEvent
                  end
           end
    else get_delegation_tags r
  | _ :: r => get_delegation_tags r
  end.
Definition get_delegation (e : event) : res delegation := get_delegation_tags (ev_tags e).

(** src/nip26.c:426-445 nostr_event_verify_delegation *)
Definition event_verify_delegation (e : event) : res unit :=
  do d <- get_delegation e;
  do _ <- delegation_verify d (ev_pubkey e);
  check_conditions (d_parsed d) (ev_kind e) (ev_created e).
End Crypto.
