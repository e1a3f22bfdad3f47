(** Model of src/nip26.c when memory may run out.  What the functions compute is in
    Nip26.v; here is what they do with memory and what becomes of their results. *)
From Verif Require Import Base Heap Strto Hex Event EventMem Nip26.
Open Scope N_scope.

(** nostr_delegation as it lies in memory: what it says, the blocks its conditions and
    its kinds point to. *)
Record cdel : Set := mkCd { cd_val : delegation; cd_text : option nat; cd_kinds : option nat }.
Definition zero_del : delegation := mkDel (repeat 0 32) [] no_conds (repeat 0 64).
Definition no_del : cdel := mkCd zero_del None None.
(** key and token written, nothing allocated *)
Definition bare (pk token : list N) : cdel := mkCd (mkDel pk [] no_conds token) None None.

Section Nip26Mem.
Variable grant : nat -> bool.
Variable sha256 : list N -> list N.
Variable pubkey_of : list N -> option (list N).
Variable sign : list N -> list N -> list N -> option (list N).
Variable verify : list N -> list N -> list N -> bool.
Variable key_parses : list N -> bool.

(** src/nip26.c:90-146, one condition; [k] is the block of the kinds.  None: cleanup_conditions
    (57-62) was called. *)
Definition one_condition_m (s : list N) (c : conds) (k : option nat) : M (option (conds * list N * option nat)) :=
  match one_condition s c with
  | None => let! _ := hfree k in mret None
  | Some (c', r) =>
    match after_prefix (bs "kind=") s with
    | None => mret (Some (c', r, k))
    | Some _ =>
      let! p := erealloc grant k in
      match p with
      | None => let! _ := hfree k in mret None
      | Some q => let! _ := huse (Some q) in mret (Some (c', r, Some q))
      end
    end
  end.
(** src/nip26.c:78-147 *)
Fixpoint conditions_loop_m (n : nat) (s : list N) (c : conds) (parsed : nat) (k : option nat) : M (option (conds * nat * option nat)) :=
  match s with
  | [] => mret (Some (c, parsed, k))
  | _ =>
    match n with
    | O => let! _ := hfree k in mret None
    | S n' =>
      match skip_amp s with
      | [] => mret (Some (c, parsed, k))
      | p =>
        let! r := one_condition_m p c k in
        match r with
        | Some (c', r, k') => conditions_loop_m n' r c' (S parsed) k'
        | None => mret None
        end
      end
    end
  end.
(** src/nip26.c:64-155 parse_delegation_conditions *)
Definition parse_conditions_m (s : list N) : M (option (conds * option nat)) :=
  match s with
  | [] => mret None
  | _ =>
    let! r := conditions_loop_m 100 s no_conds 0 None in
    match r with
    | Some (c, S _, k) => mret (Some (c, k))
    | Some (_, O, k) => let! _ := hfree k in mret None
    | None => mret None
    end
  end.
(** src/nip26.c:157-182 build_delegation_hash *)
Definition delegation_hash_m (delegatee conditions : list N) : M (res (list N)) :=
  if 4096 <? N.of_nat (length conditions) then mret (Err EInvalidParam)
  else
    let! p := ealloc grant in
    match p with
    | None => mret (Err EMemory)
    | Some _ =>
      let! _ := huse p in
      let! _ := hfree p in
      mret (Ok (sha256 (delegation_string delegatee conditions)))
    end.
(** src/nip26.c:184-279 nostr_delegation_create: the caller's delegation and the error.
    When no signature comes about the key may be set already. *)
Definition create_m (privkey delegatee conditions : list N) (rnd : option (list N)) : M (cdel * option err) :=
  let! h := delegation_hash_m delegatee conditions in
  match h with
  | Err x => mret (no_del, Some x)
  | Undef => fun _ => Undef
  | Ok hash =>
    match pubkey_of privkey with
    | None => mret (no_del, Some EInvalidKey)
    | Some pub =>
      match rnd with
      | None => mret (bare pub (repeat 0 64), Some EMemory)
      | Some r =>
        match sign privkey hash r with
        | None => mret (bare pub (repeat 0 64), Some EInvalidSignature)
        | Some token =>
          let! t := ealloc grant in
          match t with
          | None => mret (no_del, Some EMemory)
          | Some t =>
            let! c := parse_conditions_m conditions in
            match c with
            | None => let! _ := hfree (Some t) in mret (no_del, Some EInvalidParam)
            | Some (c, k) => mret (mkCd (mkDel pub conditions c token) (Some t) k, None)
            end
          end
        end
      end
    end
  end.
(** src/nip26.c:281-317 nostr_delegation_verify *)
Definition verify_m (d : cdel) (delegatee : list N) : M (option err) :=
  match cd_text d with
  | None => mret (Some EInvalidParam)
  | Some t =>
    let! _ := huse (Some t) in
    let! h := delegation_hash_m delegatee (d_conditions (cd_val d)) in
    match h with
    | Err x => mret (Some x)
    | Undef => fun _ => Undef
    | Ok hash =>
      if negb (key_parses (d_delegator (cd_val d))) then mret (Some EInvalidKey)
      else mret (if verify (d_delegator (cd_val d)) hash (d_token (cd_val d)) then None else Some EInvalidSignature)
    end
  end.
(** src/nip26.c:319-349 nostr_delegation_check_conditions; the kinds are read only if
    there are some *)
Definition check_m (d : cdel) (kind : N) (created : Z) : M (option err) :=
  let! _ := match k_kinds (d_parsed (cd_val d)) with [] => mret tt | _ => huse (cd_kinds d) end in
  match check_conditions (d_parsed (cd_val d)) kind created with
  | Ok _ => mret None
  | Err x => mret (Some x)
  | Undef => fun _ => Undef
  end.
(** src/nip26.c:373-424 nostr_event_get_delegation; failing after the decoding leaves
    key and token behind *)
Fixpoint get_tags_m (ts : list (list (list N))) : M (cdel * option err) :=
  match ts with
  | [] => mret (no_del, Some ENotFound)
  | (name :: dh :: c :: th :: _) :: r =>
    if beq name (bs "delegation") then
      if (N.of_nat (length c) =? 0) || (4096 <? N.of_nat (length c)) then mret (no_del, Some EInvalidEvent)
      else if negb (is_valid_hex dh 64) || negb (is_valid_hex th 128) then mret (no_del, Some EInvalidEvent)
      else match hex_decode dh 32, hex_decode th 64 with
           | (pk, n1), (token, n2) =>
             if negb (returned n1 32) || negb (returned n2 64) then mret (bare pk token, Some EInvalidEvent)
             else
               let! t := ealloc grant in
               match t with
               | None => mret (bare pk token, Some EMemory)
               | Some t =>
                 let! k := parse_conditions_m c in
                 match k with
                 | Some (v, k) => mret (mkCd (mkDel pk c v token) (Some t) k, None)
                 | None => let! _ := hfree (Some t) in mret (bare pk token, Some EInvalidEvent)
                 end
               end
           end
    else get_tags_m r
  | _ :: r => get_tags_m r
  end.
(** src/nip26.c:447-456 nostr_delegation_free *)
Definition free_m (d : cdel) : M cdel :=
  let! _ := hfree (cd_text d) in
  let! _ := hfree (cd_kinds d) in
  mret no_del.
(** src/nip26.c:426-445 nostr_event_verify_delegation *)
Definition verify_event_m (e : event) : M (option err) :=
  let! g := get_tags_m (ev_tags e) in
  match g with
  | (_, Some x) => mret (Some x)
  | (d, None) =>
    let! v := verify_m d (ev_pubkey e) in
    let! r := match v with Some x => mret (Some x) | None => check_m d (ev_kind e) (ev_created e) end in
    let! _ := free_m d in
    mret r
  end.
(** src/nip26.c:351-371 nostr_event_add_delegation *)
Definition add_delegation_m (lim : option ev_limits) (c : cevent) (d : cdel) : M (cevent * option err) :=
  match cd_text d with
  | None => mret (c, Some EInvalidParam)
  | Some t => let! _ := huse (Some t) in EventMem.add_tag grant lim c (delegation_tag (cd_val d))
  end.
End Nip26Mem.
