(** Memory of src/relay_filter.c and of deletion requests in
    src/relay_protocol.c: allocation, release and copying of filters. *)
From Verif Require Import Base Heap Hex Json Event RelayProto RelayFilter.
Open Scope nat_scope.

(** A char ** with its count: the array block (None is NULL) and, for each counted
    element, its block and text. *)
Record sarr : Set := mkSarr { sa_block : option nat; sa_cells : list (nat * list N) }.
Definition null_sarr : sarr := mkSarr None [].
(** nostr_filter_t as it lies in memory *)
Record cfilter : Set := mkC {
  c_ids : sarr; c_authors : sarr; c_kinds : option nat * list Z; c_e : sarr; c_p : sarr;
  c_gblock : option nat; c_generic : list (N * sarr); c_since : Z; c_until : Z; c_limit : Z; c_search : option (nat * list N) }.
(** memset(filter, 0, ...) *)
Definition zero_filter : cfilter := mkC null_sarr null_sarr (None, []) null_sarr null_sarr None [] 0 0 0 None.

Section Mem.
(** Which allocations succeed: the n-th block exists or not.  After a failure
    every function below only releases memory, so that the number of a failed
    attempt is not used again within a call. *)
Variable grant : nat -> bool.
Definition halloc : M (option nat) := fun h => hmalloc (grant (h_next h)) h.

Fixpoint free_cells (l : list (nat * list N)) : M unit :=
  match l with [] => mret tt | (b, _) :: r => let! _ := hfree (Some b) in free_cells r end.
Definition free_sarr (a : sarr) : M unit :=
  match sa_block a with
  | None => mret tt
  | Some b => let! _ := free_cells (sa_cells a) in hfree (Some b)
  end.
Fixpoint free_generic (l : list (N * sarr)) : M unit :=
  match l with [] => mret tt | (_, a) :: r => let! _ := free_sarr a in free_generic r end.
(** src/relay_filter.c:219-268 nostr_filter_free; afterwards the struct is zeroed *)
Definition filter_free (f : cfilter) : M cfilter :=
  let! _ := free_sarr (c_ids f) in
  let! _ := free_sarr (c_authors f) in
  let! _ := hfree (fst (c_kinds f)) in
  let! _ := free_sarr (c_e f) in
  let! _ := free_sarr (c_p f) in
  let! _ := match c_gblock f with
            | None => mret tt
            | Some b => let! _ := free_generic (c_generic f) in hfree (Some b)
            end in
  let! _ := hfree (option_map fst (c_search f)) in
  mret zero_filter.

(** ** Cloning: src/relay_filter.c:601-630 clone_string_array *)
Fixpoint clone_cells (block : nat) (src done : list (nat * list N)) : M (sarr + rerr) :=
  match src with
  | [] => mret (inl (mkSarr (Some block) done))
  | (b, s) :: r =>
    let! _ := huse (Some b) in
    let! p := halloc in
    match p with
    | None =>
      let! _ := free_cells done in
      let! _ := hfree (Some block) in
      mret (inr RMemory)
    | Some q => clone_cells block r (done ++ [(q, s)])
    end
  end.
Definition clone_sarr (src : sarr) : M (sarr + rerr) :=
  match sa_cells src with
  | [] => mret (inl null_sarr)
  | _ =>
    match sa_block src with
    | None => mret (inr RInvalidJson)
    | Some b =>
      let! _ := huse (Some b) in
      let! p := halloc in
      match p with
      | None => mret (inr RMemory)
      | Some q => clone_cells q (sa_cells src) []
      end
    end
  end.
(** src/relay_filter.c:679-690, the loop over generic tags; on failure the
    count is the number copied so far *)
Fixpoint clone_generic (src done : list (N * sarr)) : M (list (N * sarr) * option rerr) :=
  match src with
  | [] => mret (done, None)
  | (n, a) :: r =>
    let! c := clone_sarr a in
    match c with
    | inr e => mret (done, Some e)
    | inl a' => clone_generic r (done ++ [(n, a')])
    end
  end.
Definition missing (a : sarr) : bool :=
  match sa_block a with None => negb (length (sa_cells a) =? 0)%nat | Some _ => false end.
(** goto cleanup *)
Definition give_up (f : cfilter) (e : rerr) : M (cfilter * option rerr) :=
  let! z := filter_free f in mret (z, Some e).
(** src/relay_filter.c:632-710 nostr_filter_clone: *dst and the status *)
Definition filter_clone (s : cfilter) : M (cfilter * option rerr) :=
  if missing (c_ids s) || missing (c_authors s)
     || match fst (c_kinds s) with None => negb (length (snd (c_kinds s)) =? 0)%nat | Some _ => false end
     || (max_filter_values <? length (snd (c_kinds s)))%nat
     || missing (c_e s) || missing (c_p s)
     || match c_gblock s with None => negb (length (c_generic s) =? 0)%nat | Some _ => false end
  then mret (zero_filter, Some RInvalidJson)
  else
    let! ids := clone_sarr (c_ids s) in
    match ids with inr e => give_up zero_filter e | inl ids =>
    let! au := clone_sarr (c_authors s) in
    match au with inr e => give_up (mkC ids null_sarr (None, []) null_sarr null_sarr None [] 0 0 0 None) e | inl au =>
    let! ks := match snd (c_kinds s) with
               | [] => mret (inl (None, []))
               | _ =>
                 let! p := halloc in
                 match p with
                 | None => mret (inr RMemory)
                 | Some q => let! _ := huse (fst (c_kinds s)) in mret (inl (Some q, snd (c_kinds s)))
                 end
               end in
    match ks with inr e => give_up (mkC ids au (None, []) null_sarr null_sarr None [] 0 0 0 None) e | inl ks =>
    let! es := clone_sarr (c_e s) in
    match es with inr e => give_up (mkC ids au ks null_sarr null_sarr None [] 0 0 0 None) e | inl es =>
    let! ps := clone_sarr (c_p s) in
    match ps with inr e => give_up (mkC ids au ks es null_sarr None [] 0 0 0 None) e | inl ps =>
    let! gs := match c_generic s with
               | [] => mret (inl (None, []))
               | _ =>
                 let! p := halloc in
                 match p with
                 | None => mret (inr (None, [], RMemory))
                 | Some q =>
                   let! _ := huse (c_gblock s) in
                   let! x := clone_generic (c_generic s) [] in
                   match x with
                   | (l, None) => mret (inl (Some q, l))
                   | (l, Some e) => mret (inr (Some q, l, e))
                   end
                 end
               end in
    match gs with
    | inr (gb, l, e) => give_up (mkC ids au ks es ps gb l 0 0 0 None) e
    | inl (gb, l) =>
    match c_search s with
    | None => mret (mkC ids au ks es ps gb l (c_since s) (c_until s) (c_limit s) None, None)
    | Some (b, t) =>
      let! _ := huse (Some b) in
      let! p := halloc in
      match p with
      | None => give_up (mkC ids au ks es ps gb l (c_since s) (c_until s) (c_limit s) None) RMemory
      | Some q => mret (mkC ids au ks es ps gb l (c_since s) (c_until s) (c_limit s) (Some (q, t)), None)
      end
    end end end end end end end.

(** ** Parsing: src/relay_filter.c:18-61 parse_string_array; [cap] is the size of
    the array, counted before *)
Fixpoint read_cells (block cap : nat) (items : list json) (done : list (nat * list N)) : M (sarr + rerr) :=
  match items with
  | [] => mret (inl (mkSarr (Some block) done))
  | JStr s :: r =>
    let! _ := hassert (length done <? cap) in
    let! p := halloc in
    match p with
    | None =>
      let! _ := free_cells done in
      let! _ := hfree (Some block) in
      mret (inr RMemory)
    | Some q => read_cells block cap r (done ++ [(q, s)])
    end
  | _ :: r => read_cells block cap r done
  end.
Definition read_sarr (j : option json) : M (sarr + rerr) :=
  match j with
  | Some (JArr []) => mret (inl null_sarr)
  | Some (JArr l) =>
    if max_filter_values <? length l then mret (inr RInvalidJson)
    else
      let! p := halloc in
      match p with
      | None => mret (inr RMemory)
      | Some q => read_cells q (length l) l []
      end
  | _ => mret (inl null_sarr)
  end.
(** src/relay_filter.c:63-96 parse_int_array *)
Definition read_kinds (j : option json) : M ((option nat * list Z) + rerr) :=
  match j with
  | Some (JArr []) => mret (inl (None, []))
  | Some (JArr l) =>
    if max_filter_values <? length l then mret (inr RInvalidJson)
    else
      let! p := halloc in
      match p with
      | None => mret (inr RMemory)
      | Some q => let! _ := hassert (length (ints_of l) <=? length l) in mret (inl (Some q, ints_of l))
      end
  | _ => mret (inl (None, []))
  end.
(** src/relay_filter.c:129-139, the counting pass *)
Fixpoint count_generic (l : list (list N * json)) : nat :=
  match l with
  | [] => 0
  | (k, _) :: r => match generic_key k with Some _ => S (count_generic r) | None => count_generic r end
  end.
(** 148-165, the filling pass *)
Fixpoint read_generic (cap : nat) (l : list (list N * json)) (done : list (N * sarr)) : M (list (N * sarr) * option rerr) :=
  match l with
  | [] => mret (done, None)
  | (k, v) :: r =>
    match generic_key k with
    | None => read_generic cap r done
    | Some c =>
      let! _ := hassert (length done <? cap) in
      let! a := read_sarr (Some v) in
      match a with
      | inr e => mret (done, Some e)
      | inl a => read_generic cap r (done ++ [(c, a)])
      end
    end
  end.
Definition read_time (j : option json) : M Z :=
  fun h => match parse_time j with ROk z => Ok (z, h) | _ => Undef end.
(** src/relay_filter.c:98-205 nostr_filter_parse; the memory of the parsed tree is
    not modelled *)
Definition filter_read (j : option json) : M (cfilter * option rerr) :=
  match j with
  | None => mret (zero_filter, Some RInvalidJson)
  | Some j =>
    let! ids := read_sarr (jget (bs "ids") j) in
    match ids with inr e => give_up zero_filter e | inl ids =>
    let! au := read_sarr (jget (bs "authors") j) in
    match au with inr e => give_up (mkC ids null_sarr (None, []) null_sarr null_sarr None [] 0 0 0 None) e | inl au =>
    let! ks := read_kinds (jget (bs "kinds") j) in
    match ks with inr e => give_up (mkC ids au (None, []) null_sarr null_sarr None [] 0 0 0 None) e | inl ks =>
    let! es := read_sarr (jget (bs "#e") j) in
    match es with inr e => give_up (mkC ids au ks null_sarr null_sarr None [] 0 0 0 None) e | inl es =>
    let! ps := read_sarr (jget (bs "#p") j) in
    match ps with inr e => give_up (mkC ids au ks es null_sarr None [] 0 0 0 None) e | inl ps =>
    let! gs := match count_generic (members j) with
               | 0 => mret (inl (None, []))
               | n =>
                 let! p := halloc in
                 match p with
                 | None => mret (inr (None, [], RMemory))
                 | Some q =>
                   let! x := read_generic n (members j) [] in
                   match x with
                   | (l, None) => mret (inl (Some q, l))
                   | (l, Some e) => mret (inr (Some q, l, e))
                   end
                 end
               end in
    match gs with
    | inr (gb, l, e) => give_up (mkC ids au ks es ps gb l 0 0 0 None) e
    | inl (gb, l) =>
    let! since := read_time (jget (bs "since") j) in
    let! until := read_time (jget (bs "until") j) in
    let limit := match jget (bs "limit") j with Some (JNum n) => j_int32 n | _ => 0%Z end in
    match jget (bs "search") j with
    | Some (JStr t) =>
      if (max_search <? N.of_nat (length t))%N
      then give_up (mkC ids au ks es ps gb l since until limit None) RInvalidJson
      else
        let! p := halloc in
        match p with
        | None => give_up (mkC ids au ks es ps gb l since until limit None) RMemory
        | Some q => mret (mkC ids au ks es ps gb l since until limit (Some (q, t)), None)
        end
    | _ => mret (mkC ids au ks es ps gb l since until limit None, None)
    end end end end end end end
  end.

(** ** Deletion requests in memory *)
Record cdeletion : Set := mkCD { cd_pubkey : list N; cd_reason : option (nat * list N); cd_ids : sarr; cd_addresses : sarr }.
(** src/relay_protocol.c:511-532 nostr_deletion_free *)
Definition deletion_free (d : cdeletion) : M unit :=
  let! _ := free_sarr (cd_ids d) in
  let! _ := free_sarr (cd_addresses d) in
  hfree (option_map fst (cd_reason d)).
(** 562-571, the counting loop *)
Fixpoint count_refs (ts : list (list (list N))) : nat * nat :=
  match ts with
  | [] => (0, 0)
  | t :: r =>
    let '(e, a) := count_refs r in
    match t with
    | n :: _ :: _ => if beq n (bs "e") then (S e, a) else if beq n (bs "a") then (e, S a) else (e, a)
    | _ => (e, a)
    end
  end.
Definition alloc_array (n : nat) : M (sarr + rerr) :=
  match n with
  | 0 => mret (inl null_sarr)
  | _ => let! p := halloc in match p with None => mret (inr RMemory) | Some q => mret (inl (mkSarr (Some q) [])) end
  end.
(** One store of a copied string; NULL or full arrays are out of bounds *)
Definition push_cell (cap : nat) (a : sarr) (s : list N) : M (sarr + rerr) :=
  let! _ := hassert (length (sa_cells a) <? cap) in
  let! _ := huse (sa_block a) in
  let! p := halloc in
  match p with
  | None => mret (inr RMemory)
  | Some q => mret (inl (mkSarr (sa_block a) (sa_cells a ++ [(q, s)])))
  end.
(** 588-609, the filling loop *)
Fixpoint fill_refs (ecap acap : nat) (ts : list (list (list N))) (d : cdeletion) : M (cdeletion * option rerr) :=
  match ts with
  | [] => mret (d, None)
  | t :: r =>
    match t with
    | n :: v :: _ =>
      if beq n (bs "e") then
        if validate_hex64 v then
          let! x := push_cell ecap (cd_ids d) v in
          match x with
          | inr e => mret (d, Some e)
          | inl a => fill_refs ecap acap r (mkCD (cd_pubkey d) (cd_reason d) a (cd_addresses d))
          end
        else fill_refs ecap acap r d
      else if beq n (bs "a") then
        if validate_address v then
          let! x := push_cell acap (cd_addresses d) v in
          match x with
          | inr e => mret (d, Some e)
          | inl a => fill_refs ecap acap r (mkCD (cd_pubkey d) (cd_reason d) (cd_ids d) a)
          end
        else fill_refs ecap acap r d
      else fill_refs ecap acap r d
    | _ => fill_refs ecap acap r d
    end
  end.
Definition deletion_fail (d : cdeletion) (e : rerr) : M (option cdeletion * option rerr) :=
  let! _ := deletion_free d in mret (None, Some e).
(** src/relay_protocol.c:534-613 nostr_deletion_parse; [None]: *request zeroed *)
Definition deletion_read (e : event) : M (option cdeletion * option rerr) :=
  if negb (ev_kind e =? 5)%N then mret (None, Some RInvalidKind)
  else
    let pk := hex_encode (ev_pubkey e) in
    let! reason := match ev_content e with
                   | Some (c :: r) => let! p := halloc in
                                      mret (match p with None => inr RMemory | Some q => inl (Some (q, c :: r)) end)
                   | _ => mret (inl None)
                   end in
    match reason with
    | inr x => deletion_fail (mkCD pk None null_sarr null_sarr) x
    | inl reason =>
    let '(ecap, acap) := count_refs (ev_tags e) in
    let! es := alloc_array ecap in
    match es with inr x => deletion_fail (mkCD pk reason null_sarr null_sarr) x | inl es =>
    let! xs := alloc_array acap in
    match xs with inr x => deletion_fail (mkCD pk reason es null_sarr) x | inl xs =>
    let! r := fill_refs ecap acap (ev_tags e) (mkCD pk reason es xs) in
    match r with
    | (d, None) => mret (Some d, None)
    | (d, Some x) => deletion_fail d x
    end end end end.
End Mem.
