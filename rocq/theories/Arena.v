(** Model of the tag storage of an event: src/event.c:45-225, a growing block
    of memory holding, for each tag, an array of pointers followed by the
    strings they point to.  Addresses are 64-bit; alignment is not part of
    this model (see [values_aligned] for the one statement about it). *)
From Verif Require Import Base.
Open Scope N_scope.

Definition SIZE_MAX : N := 18446744073709551615.
Definition w64 (x : N) : N := x mod 18446744073709551616.

(** A heap block: its address and its bytes. *)
Record block : Set := mkBlock { b_addr : N; b_bytes : list N }.
Definition b_len (b : block) : N := N.of_nat (length (b_bytes b)).

Definition in_block (b : block) (a n : N) : bool := (b_addr b <=? a) && (a + n <=? b_addr b + b_len b).
Definition loadn (b : block) (a : N) (n : nat) : res (list N) :=
  if in_block b a (N.of_nat n) then Ok (firstn n (skipn (N.to_nat (a - b_addr b)) (b_bytes b))) else Undef.
Definition store (b : block) (a : N) (l : list N) : res block :=
  if in_block b a (N.of_nat (length l)) then
    let i := N.to_nat (a - b_addr b) in
    Ok (mkBlock (b_addr b) (firstn i (b_bytes b) ++ l ++ skipn (i + length l) (b_bytes b)))
  else Undef.

(** 64-bit little-endian pointers in memory *)
Fixpoint le_bytes (n : nat) (x : N) : list N :=
  match n with O => [] | S n' => x mod 256 :: le_bytes n' (x / 256) end.
Fixpoint le_value (l : list N) : N :=
  match l with [] => 0 | b :: r => b + 256 * le_value r end.
Definition load_ptr (b : block) (a : N) : res N := do l <- loadn b a 8; Ok (le_value l).
Definition store_ptr (b : block) (a p : N) : res block := store b a (le_bytes 8 p).

(** include/nostr.h nostr_tag {values, count}; the part of nostr_event used here *)
Record tagref : Set := mkTag { t_values : N; t_count : nat }.
Record tagstore : Set := mkStore { s_mem : block; s_used : N; s_tags : list tagref }.

(** src/event.c:45-65, 87-105: tag_arena_create with 1024 bytes at an address
    and with contents chosen by malloc *)
Definition create (mem : block) : tagstore := mkStore mem 0 [].

(** src/event.c:76-85 tag_arena_alloc *)
Definition arena_alloc (st : tagstore) (size : N) : option (N * tagstore) :=
  if (b_len (s_mem st) <? s_used st) || (b_len (s_mem st) - s_used st <? size) then None
  else Some (b_addr (s_mem st) + s_used st, mkStore (s_mem st) (s_used st + size) (s_tags st)).

(** src/event.c:150-159, total length of the strings with their NULs *)
Fixpoint strings_size (acc : N) (vs : list (option (list N))) : res N :=
  match vs with
  | [] => Ok acc
  | None :: _ => Err EInvalidParam
  | Some v :: r =>
    let slen := N.of_nat (length v) + 1 in
    if SIZE_MAX - slen <? acc then Err EInvalidParam else strings_size (acc + slen) r
  end.

(** src/event.c:169-173, the doubling loop; 65 rounds are enough (fuel
    exhaustion is [Undef]) *)
Fixpoint grow (fuel : nat) (cap required : N) : res N :=
  match fuel with
  | O => Undef
  | S f => if cap <? required then
             let doubled := w64 (cap * 2) in
             if doubled <=? cap then Err EMemory else grow f doubled required
           else Ok cap
  end.

(** src/event.c:181-191, pointers moved by the distance between the blocks *)
Fixpoint rebase_values (b : block) (a off : N) (n : nat) : res block :=
  match n with
  | O => Ok b
  | S n' =>
    do p <- load_ptr b a;
    do b' <- (if p =? 0 then Ok b else store_ptr b a (w64 (p + off)));
    rebase_values b' (a + 8) off n'
  end.
Fixpoint rebase_tags (b : block) (off : N) (ts : list tagref) : res (block * list tagref) :=
  match ts with
  | [] => Ok (b, [])
  | t :: r =>
    let a := w64 (t_values t + off) in
    do b' <- rebase_values b a off (t_count t);
    do x <- rebase_tags b' off r;
    Ok (fst x, mkTag a (t_count t) :: snd x)
  end.

(** src/event.c:216-221, copying the strings and storing their addresses *)
Fixpoint write_values (b : block) (slot storage : N) (vs : list (list N)) : res block :=
  match vs with
  | [] => Ok b
  | v :: r =>
    do b1 <- store b storage (v ++ [0]);
    do b2 <- store_ptr b1 slot storage;
    write_values b2 (slot + 8) (storage + N.of_nat (length v) + 1) r
  end.

(** The environment of one call: configured tag limit (None without
    configuration), realloc of the arena (address of the new block and the
    contents of its new part, or failure), success of the tags realloc. *)
Record env : Type := mkEnv {
  e_max_tags : option N;
  e_realloc : N -> option (N * list N);
  e_tags_realloc : bool }.

Definition all_some (vs : list (option (list N))) : list (list N) :=
  flat_map (fun v => match v with Some s => [s] | None => [] end) vs.

(** src/event.c:166-195 growing the arena *)
Definition ensure (e : env) (st : tagstore) (total : N) : res tagstore :=
  let m := s_mem st in
  let required := w64 (s_used st + total) in
  if b_len m <? required then
    do cap <- grow 65 (b_len m) required;
    match e_realloc e cap with
    | None => Err EMemory
    | Some (addr, junk) =>
      let m' := mkBlock addr (b_bytes m ++ junk) in
      if addr =? b_addr m then Ok (mkStore m' (s_used st) (s_tags st))
      else
        let off := w64 (addr + 18446744073709551616 - b_addr m) in
        do x <- rebase_tags m' off (s_tags st);
        Ok (mkStore (fst x) (s_used st) (snd x))
    end
  else Ok st.

(** src/event.c:197-224, after the arena is large enough; the store and the
    returned code *)
Definition place (e : env) (st : tagstore) (vs : list (list N)) (values_size strings : N)
  : res (tagstore * res unit) :=
  if negb (e_tags_realloc e) then Ok (st, Err EMemory) else
  match arena_alloc st values_size with
  | None => Ok (st, Err EMemory)
  | Some (slot, st1) =>
    match arena_alloc st1 strings with
    | None => Ok (st1, Err EMemory)
    | Some (storage, st2) =>
      do b <- write_values (s_mem st2) slot storage vs;
      Ok (mkStore b (s_used st2) (s_tags st2 ++ [mkTag slot (length vs)]), Ok tt)
    end
  end.

(** src/event.c:134-225 nostr_event_add_tag (non-NULL event and values): the
    new store and the returned code, or [Undef]. *)
Definition add_tag (e : env) (st : tagstore) (vs : list (option (list N))) : res (tagstore * res unit) :=
  let count := N.of_nat (length vs) in
  if count =? 0 then Ok (st, Err EInvalidParam) else
  if match e_max_tags e with Some m => m <=? N.of_nat (length (s_tags st)) | None => false end
  then Ok (st, Err EInvalidParam) else
  if SIZE_MAX / 8 <? count then Ok (st, Err EInvalidParam) else
  let values_size := 8 * count in
  match strings_size 0 vs with
  | Undef => Undef
  | Err x => Ok (st, Err x)
  | Ok strings =>
    if SIZE_MAX - strings <? values_size then Ok (st, Err EInvalidParam) else
    match ensure e st (values_size + strings) with
    | Undef => Undef
    | Err x => Ok (st, Err x)
    | Ok st' => place e st' (all_some vs) values_size strings
    end
  end.

(** Reading the tags back, as every consumer does: values[j] is a C string. *)
Fixpoint read_cstr_from (l : list N) : res (list N) :=
  match l with
  | [] => Undef
  | c :: r => if c =? 0 then Ok [] else do s <- read_cstr_from r; Ok (c :: s)
  end.
Definition read_cstr (b : block) (a : N) : res (list N) :=
  if in_block b a 0 then read_cstr_from (skipn (N.to_nat (a - b_addr b)) (b_bytes b)) else Undef.
Fixpoint read_values (b : block) (a : N) (n : nat) : res (list (list N)) :=
  match n with
  | O => Ok []
  | S n' =>
    do p <- load_ptr b a;
    do s <- read_cstr b p;
    do r <- read_values b (a + 8) n';
    Ok (s :: r)
  end.
Fixpoint read_tags (b : block) (ts : list tagref) : res (list (list (list N))) :=
  match ts with
  | [] => Ok []
  | t :: r =>
    do vs <- read_values b (t_values t) (t_count t);
    do rs <- read_tags b r;
    Ok (vs :: rs)
  end.
Definition tags_of (st : tagstore) : res (list (list (list N))) := read_tags (s_mem st) (s_tags st).

(** Are all pointer arrays 8-byte aligned? *)
Definition values_aligned (st : tagstore) : bool :=
  forallb (fun t => t_values t mod 8 =? 0) (s_tags st).
