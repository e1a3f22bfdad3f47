(** Model of nostr_event_add_tag (src/event.c:134-225) for callers that pass
    values the event itself holds, such as the result of
    nostr_event_get_tag_value (src/relay_protocol.c:191-205), which is a
    pointer into the event's tag storage.  Arena.v has the same function for
    values kept elsewhere. *)
From Verif Require Import Base Arena.
Open Scope N_scope.

(** A value of the new tag: text kept by the caller, or an address inside the
    event's storage. *)
Inductive src : Set := Text (s : list N) | Held (a : N).

(** What strlen and memcpy read at the address, given the storage as it is. *)
Definition read_src (b : block) (s : src) : res (list N) :=
  match s with Text t => Ok t | Held a => read_cstr b a end.

(** src/event.c:150-159, the lengths are taken before the storage grows *)
Fixpoint read_srcs (b : block) (l : list src) : res (list (list N)) :=
  match l with
  | [] => Ok []
  | s :: r => do v <- read_src b s; do vs <- read_srcs b r; Ok (v :: vs)
  end.

(** src/event.c:216-221, each value is read again while the copies are being
    written.  [moved]: realloc (177) returned another block, the one that the
    caller's addresses point into has been freed.  An address into a block
    that realloc extended in place is taken to be usable, which is more than
    the C standard promises. *)
Fixpoint write_srcs (moved : bool) (b : block) (slot storage : N) (l : list src) : res block :=
  match l with
  | [] => Ok b
  | s :: r =>
    do v <- match s with
            | Text t => Ok t
            | Held a => if moved then Undef else read_cstr b a
            end;
    do b1 <- store b storage (v ++ [0]);
    do b2 <- store_ptr b1 slot storage;
    write_srcs moved b2 (slot + 8) (storage + N.of_nat (length v) + 1) r
  end.

(** src/event.c:197-224 *)
Definition place_src (e : env) (st : tagstore) (moved : bool) (l : list src) (values_size strings : N)
  : res (tagstore * res unit) :=
  if negb (e_tags_realloc e) then Ok (st, Err EMemory) else
  match arena_alloc st values_size with
  | None => Ok (st, Err EMemory)
  | Some (slot, st1) =>
    match arena_alloc st1 strings with
    | None => Ok (st1, Err EMemory)
    | Some (storage, st2) =>
      do b <- write_srcs moved (s_mem st2) slot storage l;
      Ok (mkStore b (s_used st2) (s_tags st2 ++ [mkTag slot (length l)]), Ok tt)
    end
  end.

(** src/event.c:134-225 nostr_event_add_tag *)
Definition add_tag_src (e : env) (st : tagstore) (l : list src) : res (tagstore * res unit) :=
  let count := N.of_nat (length l) in
  if count =? 0 then Ok (st, Err EInvalidParam) else
  if match e_max_tags e with Some m => m <=? N.of_nat (length (s_tags st)) | None => false end
  then Ok (st, Err EInvalidParam) else
  if SIZE_MAX / 8 <? count then Ok (st, Err EInvalidParam) else
  let values_size := 8 * count in
  do texts <- read_srcs (s_mem st) l;
  match strings_size 0 (map Some texts) with
  | Undef => Undef
  | Err x => Ok (st, Err x)
  | Ok strings =>
    if SIZE_MAX - strings <? values_size then Ok (st, Err EInvalidParam) else
    match ensure e st (values_size + strings) with
    | Undef => Undef
    | Err x => Ok (st, Err x)
    | Ok st' => place_src e st' (negb (b_addr (s_mem st') =? b_addr (s_mem st))) l values_size strings
    end
  end.

(** src/relay_protocol.c:191-205 nostr_event_get_tag_value on the storage: the
    address kept in values[1] of the first tag with the given name and at least
    two values *)
Fixpoint find_value (b : block) (ts : list tagref) (name : list N) : res (option N) :=
  match ts with
  | [] => Ok None
  | t :: r =>
    if (t_count t <? 2)%nat then find_value b r name else
    do p <- load_ptr b (t_values t);
    do n <- read_cstr b p;
    if beq n name then do a <- load_ptr b (t_values t + 8); Ok (Some a) else find_value b r name
  end.
Definition get_tag_value (st : tagstore) (name : list N) : res (option N) := find_value (s_mem st) (s_tags st) name.
