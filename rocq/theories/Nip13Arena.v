(** The nonce tag update of src/nip13.c:73-198 on the tag storage of Arena.v. *)
From Verif Require Import Base Dec Arena.
Open Scope N_scope.

(** src/nip13.c:84-87 the doubling loop, without an overflow check: fuel
    exhaustion (the C loop may not end) is [Undef] *)
Fixpoint grow_unchecked (fuel : nat) (cap required : N) : res N :=
  match fuel with
  | O => Undef
  | S f => if cap <? required then grow_unchecked f (w64 (cap * 2)) required else Ok cap
  end.

(** src/nip13.c:74-110 arena_ensure_capacity; None is -1 *)
Definition ensure_capacity (re : N -> option (N * list N)) (st : tagstore) (needed : N) : res (option tagstore) :=
  let m := s_mem st in
  let required := w64 (s_used st + needed) in
  if required <=? b_len m then Ok (Some st)
  else
    do cap <- grow_unchecked 70 (b_len m) required;
    match re cap with
    | None => Ok None
    | Some (addr, junk) =>
      let m' := mkBlock addr (b_bytes m ++ junk) in
      if addr =? b_addr m then Ok (Some (mkStore m' (s_used st) (s_tags st)))
      else
        let off := w64 (addr + 18446744073709551616 - b_addr m) in
        do x <- rebase_tags m' off (s_tags st);
        Ok (Some (mkStore (fst x) (s_used st) (snd x)))
    end.

(** src/nip13.c:113-129 arena_strdup *)
Definition arena_strdup (re : N -> option (N * list N)) (st : tagstore) (s : list N) : res (option (N * tagstore)) :=
  let len := N.of_nat (length s) + 1 in
  do r <- ensure_capacity re st len;
  match r with
  | None => Ok None
  | Some st =>
    let p := b_addr (s_mem st) + s_used st in
    do b <- store (s_mem st) p (s ++ [0]);
    Ok (Some (p, mkStore b (s_used st + len) (s_tags st)))
  end.

(** src/nip13.c:56-71 find_nonce_tag_index on the storage *)
Fixpoint find_nonce_ref (b : block) (i : nat) (ts : list tagref) : res (option (nat * tagref)) :=
  match ts with
  | [] => Ok None
  | t :: r =>
    if (t_count t =? 0)%nat then find_nonce_ref b (S i) r
    else
      do p <- load_ptr b (t_values t);
      if p =? 0 then find_nonce_ref b (S i) r
      else
        do s <- read_cstr b p;
        if beq s (bs "nonce") then Ok (Some (i, t)) else find_nonce_ref b (S i) r
  end.

Definition set_tag (ts : list tagref) (i : nat) (t : tagref) : list tagref :=
  firstn i ts ++ t :: skipn (S i) ts.

(** src/nip13.c:131-198 nostr_nip13_add_nonce_tag; [re] is realloc, which may
    move the block at every call *)
Definition add_nonce (e : env) (re1 re2 re3 : N -> option (N * list N)) (st : tagstore) (nonce : N) (target : Z)
  : res (tagstore * res unit) :=
  do f <- find_nonce_ref (s_mem st) 0 (s_tags st);
  match f with
  | None => add_tag e st ([Some (bs "nonce"); Some (dec_N nonce)] ++
                          (if (0 <? target)%Z then [Some (dec_Z target)] else []))
  | Some (i, _) =>
    do d <- arena_strdup re1 st (dec_N nonce);
    match d with
    | None => Ok (st, Err EMemory)
    | Some (p, st) =>
      let t := nth i (s_tags st) (mkTag 0 0) in
      do b <- store_ptr (s_mem st) (t_values t + 8) p;
      let st := mkStore b (s_used st) (s_tags st) in
      if (0 <? target)%Z then
        do r <- (if (t_count t <? 3)%nat then
                   do c <- ensure_capacity re2 st 24;
                   match c with
                   | None => Ok None
                   | Some st =>
                     let t := nth i (s_tags st) (mkTag 0 0) in
                     let nv := b_addr (s_mem st) + s_used st in
                     do p0 <- load_ptr (s_mem st) (t_values t);
                     do p1 <- load_ptr (s_mem st) (t_values t + 8);
                     do b <- store_ptr (s_mem st) nv p0;
                     do b <- store_ptr b (nv + 8) p1;
                     do b <- store_ptr b (nv + 16) 0;
                     Ok (Some (mkStore b (s_used st + 24) (set_tag (s_tags st) i (mkTag nv 3))))
                   end
                 else Ok (Some st));
        match r with
        | None => Ok (st, Err EMemory)
        | Some st =>
          do d <- arena_strdup re3 st (dec_Z target);
          match d with
          | None => Ok (st, Err EMemory)
          | Some (p, st) =>
            let t := nth i (s_tags st) (mkTag 0 0) in
            do b <- store_ptr (s_mem st) (t_values t + 16) p;
            Ok (mkStore b (s_used st) (s_tags st), Ok tt)
          end
        end
      else Ok (mkStore (s_mem st) (s_used st) (set_tag (s_tags st) i (mkTag (t_values t) 2)), Ok tt)
    end
  end.
