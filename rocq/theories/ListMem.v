(** Memory of src/nip51.c: which blocks a list owns, and how creating, changing,
    reading, publishing and releasing one allocates and releases them.  realloc takes a
    new block and releases the old one. *)
From Verif Require Import Base Heap Json Event GiftWrap Nip18 Nip51 EventMem.
Open Scope N_scope.

(** A string made by strdup: its block and its text. *)
Definition cell : Set := nat * list N.
Definition text (c : option cell) : option (list N) := option_map snd c.
(** include/nostr.h nostr_list_item and nostr_list as they lie in memory; the slots are
    those of the array block [cl_array], a zeroed one is [zero_item]. *)
Record citem : Set := mkCi { ci_tag : option cell; ci_value : option cell; ci_relay : option cell; ci_pet : option cell; ci_private : bool }.
Definition zero_item : citem := mkCi None None None None false.
Record clist : Set := mkCl { cl_self : nat; cl_kind : N; cl_array : nat; cl_slots : list citem; cl_count : nat;
  cl_d : option cell; cl_title : option cell; cl_desc : option cell; cl_image : option cell }.
Definition with_array (c : clist) (p : nat) (sl : list citem) : clist := mkCl (cl_self c) (cl_kind c) p sl (cl_count c) (cl_d c) (cl_title c) (cl_desc c) (cl_image c).
Definition with_slots (c : clist) (sl : list citem) (n : nat) : clist := mkCl (cl_self c) (cl_kind c) (cl_array c) sl n (cl_d c) (cl_title c) (cl_desc c) (cl_image c).
Inductive field : Set := FD | FTitle | FDesc | FImage.
Definition get_field (c : clist) (f : field) : option cell := match f with FD => cl_d c | FTitle => cl_title c | FDesc => cl_desc c | FImage => cl_image c end.
Definition with_field (c : clist) (f : field) (x : option cell) : clist :=
  match f with
  | FD => mkCl (cl_self c) (cl_kind c) (cl_array c) (cl_slots c) (cl_count c) x (cl_title c) (cl_desc c) (cl_image c)
  | FTitle => mkCl (cl_self c) (cl_kind c) (cl_array c) (cl_slots c) (cl_count c) (cl_d c) x (cl_desc c) (cl_image c)
  | FDesc => mkCl (cl_self c) (cl_kind c) (cl_array c) (cl_slots c) (cl_count c) (cl_d c) (cl_title c) x (cl_image c)
  | FImage => mkCl (cl_self c) (cl_kind c) (cl_array c) (cl_slots c) (cl_count c) (cl_d c) (cl_title c) (cl_desc c) x
  end.

(** free(p) of a string *)
Definition free_cell (c : option cell) : M unit := hfree (option_map fst c).
(** src/nip51.c:112-121 free_item *)
Definition free_citem (x : citem) : M unit :=
  let! _ := free_cell (ci_tag x) in
  let! _ := free_cell (ci_value x) in
  let! _ := free_cell (ci_relay x) in
  free_cell (ci_pet x).
(** An argument of a call: the heap block it lies in, if any, and its text. *)
Definition arg : Set := option nat * list N.
Definition read_arg (a : arg) : M unit := match fst a with None => mret tt | Some b => huse (Some b) end.
(** src/nip51.c:148-163 nostr_list_free, the loop *)
Fixpoint free_slots (a n : nat) (sl : list citem) : M unit :=
  match n, sl with
  | O, _ => mret tt
  | S n', x :: r =>
    let! _ := huse (Some a) in
    let! _ := free_citem x in
    free_slots a n' r
  | S _, [] => fun _ => Undef
  end.
Definition list_free (p : option clist) : M unit :=
  match p with
  | None => mret tt
  | Some c =>
    let! _ := huse (Some (cl_self c)) in
    let! _ := free_slots (cl_array c) (cl_count c) (cl_slots c) in
    let! _ := hfree (Some (cl_array c)) in
    let! _ := free_cell (cl_d c) in
    let! _ := free_cell (cl_title c) in
    let! _ := free_cell (cl_desc c) in
    let! _ := free_cell (cl_image c) in
    hfree (Some (cl_self c))
  end.
(** A store into the array *)
Definition store (sl : list citem) (i : nat) (x : citem) : M (list citem) :=
  fun h => if (i <? length sl)%nat then Ok (firstn i sl ++ x :: skipn (S i) sl, h) else Undef.
(** src/nip51.c:347-364 nostr_list_remove *)
Definition mem_remove (c : clist) (i : nat) : M (clist * option err) :=
  let! _ := huse (Some (cl_self c)) in
  if (cl_count c <=? i)%nat then mret (c, Some EInvalidParam)
  else
    match nth_error (cl_slots c) i with
    | None => fun _ => Undef
    | Some x =>
      let! _ := huse (Some (cl_array c)) in
      let! _ := free_citem x in
      let sl := if (i <? cl_count c - 1)%nat
                then firstn i (cl_slots c) ++ firstn (cl_count c - i - 1) (skipn (i + 1) (cl_slots c)) ++ skipn (cl_count c - 1) (cl_slots c)
                else cl_slots c in
      let! sl := store sl (cl_count c - 1) zero_item in
      mret (with_slots c sl (cl_count c - 1), None)
    end.
(** src/nip51.c:262-329: what the calls that add pass on *)
Definition request (o : Nip51.op) : option item :=
  match o with
  | OPubkey pk relay pet p => if is_valid_hex64 pk then Some (mkItem (bs "p") pk relay pet p) else None
  | OEvent id relay p => if is_valid_hex64 id then Some (mkItem (bs "e") id relay None p) else None
  | OHashtag h p => if nonempty h then Some (mkItem (bs "t") h None None p) else None
  | OWord w p => if nonempty w then Some (mkItem (bs "word") w None None p) else None
  | ORelay u p => if nonempty u then Some (mkItem (bs "relay") u None None p) else None
  | OReference r relay p => if nonempty r then Some (mkItem (bs "a") r relay None p) else None
  | OGroup g u name p => if nonempty g && nonempty u then Some (mkItem (bs "group") g (Some u) name p) else None
  | OEmoji s u p => if nonempty s && nonempty u then Some (mkItem (bs "emoji") s (Some u) None p) else None
  | ORemove _ => None
  end.

Section Mem.
Variable grant : nat -> bool.
(** strdup; a NULL argument is not duplicated *)
Definition dup (t : option (list N)) : M (option cell) :=
  match t with
  | None => mret None
  | Some t => let! p := ealloc grant in mret (option_map (fun b => (b, t)) p)
  end.
(** src/nip51.c:123-146 nostr_list_create *)
Definition list_create (kind : N) : M (option clist * option err) :=
  let! s := ealloc grant in
  match s with
  | None => mret (None, Some EMemory)
  | Some s =>
    let! a := ealloc grant in
    match a with
    | None => let! _ := hfree (Some s) in mret (None, Some EMemory)
    | Some a => let! _ := huse (Some s) in mret (Some (mkCl s kind a (repeat zero_item INITIAL_CAPACITY) 0 None None None None), None)
    end
  end.
(** src/nip51.c:165-200 set_string_field and its callers *)
Definition set_field (c : clist) (f : field) (v : option arg) : M (clist * option err) :=
  let! _ := huse (Some (cl_self c)) in
  let! _ := free_cell (get_field c f) in
  match v with
  | None => mret (with_field c f None, None)
  | Some a =>
    let! _ := read_arg a in
    let! x := dup (Some (snd a)) in
    mret (with_field c f x, match x with Some _ => None | None => Some EMemory end)
  end.
(** src/nip51.c:202-229 ensure_capacity; the sizes do not wrap *)
Definition reserve (c : clist) : M (clist * option err) :=
  let! _ := huse (Some (cl_self c)) in
  let cap := length (cl_slots c) in
  if (cap <=? cl_count c)%nat then
    let nc := Nat.min (cap * 2) MAX_ITEM_COUNT in
    if (nc <=? cl_count c)%nat then mret (c, Some EMemory)
    else
      let! p := erealloc grant (Some (cl_array c)) in
      match p with
      | None => mret (c, Some EMemory)
      | Some p => mret (with_array c p (cl_slots c ++ repeat zero_item (nc - cap)), None)
      end
  else mret (c, None).
Definition missing (want : option (list N)) (got : option cell) : bool := match want, got with Some _, None => true | _, _ => false end.
(** src/nip51.c:231-260 add_item; [srcs]: the heap blocks the arguments lie in *)
Fixpoint read_all (srcs : list nat) : M unit :=
  match srcs with [] => mret tt | b :: r => let! _ := huse (Some b) in read_all r end.
Definition mem_add (c : clist) (x : item) (srcs : list nat) : M (clist * option err) :=
  let! (c, e) := reserve c in
  match e with
  | Some e => mret (c, Some e)
  | None =>
    let! _ := huse (Some (cl_array c)) in
    let! _ := read_all srcs in
    let! t := dup (Some (it_tag x)) in
    let! v := dup (Some (it_value x)) in
    let! r := dup (it_relay x) in
    let! p := dup (it_pet x) in
    let i := mkCi t v r p (it_private x) in
    if missing (Some (it_tag x)) t || missing (Some (it_value x)) v || missing (it_relay x) r || missing (it_pet x) p then
      let! _ := free_citem i in
      let! sl := store (cl_slots c) (cl_count c) zero_item in
      mret (with_slots c sl (cl_count c), Some EMemory)
    else
      let! sl := store (cl_slots c) (cl_count c) i in
      mret (with_slots c sl (S (cl_count c)), None)
  end.
(** src/nip51.c:262-364 *)
Definition edit (c : clist) (o : Nip51.op) (srcs : list nat) : M (clist * option err) :=
  match o with
  | ORemove i => mem_remove c i
  | _ => match request o with Some x => mem_add c x srcs | None => mret (c, Some EInvalidParam) end
  end.

(** ** Reading a list from an event *)
(** src/nip51.c:764-799, one tag; the event's blocks are the caller's *)
Definition mem_read_tag (c : clist) (t : list (list N)) : M (clist * option err) :=
  match t with
  | n :: v :: r =>
    if beq n (bs "d") then set_field c FD (Some (None, v))
    else if beq n (bs "title") then set_field c FTitle (Some (None, v))
    else if beq n (bs "description") then set_field c FDesc (Some (None, v))
    else if beq n (bs "image") then set_field c FImage (Some (None, v))
    else mem_add c (mkItem n v (nth_error r 0) (nth_error r 1) false) []
  | _ => mret (c, None)
  end.
Fixpoint mem_read_tags (c : clist) (ts : list (list (list N))) : M (clist * option err) :=
  match ts with
  | [] => mret (c, None)
  | t :: r =>
    let! x := mem_read_tag c t in
    match x with
    | (c, None) => mem_read_tags c r
    | (c, Some e) => mret (c, Some e)
    end
  end.
Definition lift {A} (r : res A) (k : A -> M (clist * option err)) (c : clist) : M (clist * option err) :=
  match r with Ok a => k a | Err e => mret (c, Some e) | Undef => fun _ => Undef end.
(** src/nip51.c:625-747, the loop over the items; as read_items in Nip51.v *)
Fixpoint mem_read_items (fuel : nat) (c : clist) (s : list N) : M (clist * option err) :=
  match fuel with
  | O => fun _ => Undef
  | S fuel' =>
    if cur s =? 0 then mret (c, None)
    else
      let s1 := skip_ws s in
      if cur s1 =? 93 then mret (c, None)
      else if negb (cur s1 =? 91) then mret (c, Some EJsonParse)
      else
        lift (adv s1) (fun s2 =>
        lift (read_fields (S (S (length s2))) 0 no_bufs s2) (fun x =>
        let '(b, s3) := x in
        let s4 := if cur s3 =? 93 then skipn 1 s3 else s3 in
        if nonempty (b_tag b) && nonempty (b_value b) then
          let! y := mem_add c (mkItem (b_tag b) (b_value b) (opt_of (b_relay b)) (opt_of (b_pet b)) true) [] in
          match y with
          | (c, None) => mem_read_items fuel' c s4
          | (c, Some e) => mret (c, Some e)
          end
        else mem_read_items fuel' c s4) c) c
  end.
(** src/nip51.c:610-750 parse_private_content *)
Definition mem_parse_private (c : clist) (s : list N) : M (clist * option err) :=
  if (length s <? 2)%nat then mret (c, None)
  else
    let p := to_bracket s in
    if cur p =? 0 then mret (c, Some EJsonParse)
    else lift (adv p) (fun p' => mem_read_items (S (S (length p'))) c p') c.
Definition abandon (c : clist) (e : err) : M (option clist * option err) :=
  let! _ := list_free (Some c) in mret (None, Some e).
Variable decrypt : list N -> list N -> list N -> res (list N).
(** src/nip51.c:752-836 nostr_list_from_event.  Decryption (its own memory is in
    Nip44.v) hands out one block. *)
Definition mem_from_event (e : event) (keys : option (list N * list N)) : M (option clist * option err) :=
  let! x := list_create (ev_kind e) in
  match x with
  | (Some c, None) =>
    let! y := mem_read_tags c (ev_tags e) in
    match y with
    | (c, Some x) => abandon c x
    | (c, None) =>
      match ev_content e, keys with
      | Some (b :: r), Some (sk, pk) =>
        match decrypt sk pk (b :: r) with
        | Undef => fun _ => Undef
        | Err x => abandon c x
        | Ok t =>
          let! p := ealloc grant in
          match p with
          | None => abandon c EMemory
          | Some p =>
            let! _ := huse (Some p) in
            let! z := mem_parse_private c (until_nul t) in
            let! _ := hfree (Some p) in
            match z with
            | (c, Some x) => abandon c x
            | (c, None) => mret (Some c, None)
            end
          end
        end
      | _, _ => mret (Some c, None)
      end
    end
  | _ => mret x
  end.

(** ** Publishing *)
Variable encrypt : list N -> list N -> option (list N) -> list N -> res (list N).
Variable lim : option ev_limits.
(** Reading a string: undefined if it is NULL or released *)
Definition read_cell (c : option cell) : M (list N) :=
  match c with None => fun _ => Undef | Some (b, t) => let! _ := huse (Some b) in mret t end.
Definition read_opt (c : option cell) : M (option (list N)) :=
  match c with None => mret None | Some _ => let! t := read_cell c in mret (Some t) end.
(** src/nip51.c:508-525, 366-462: the entries in use, as texts *)
Fixpoint load (a n : nat) (sl : list citem) : M (list item) :=
  match n, sl with
  | O, _ => mret []
  | S n', x :: r =>
    let! _ := huse (Some a) in
    let! t := read_cell (ci_tag x) in
    let! v := read_cell (ci_value x) in
    let! re := read_opt (ci_relay x) in
    let! p := read_opt (ci_pet x) in
    let! l := load a n' r in
    mret (mkItem t v re p (ci_private x) :: l)
  | S _, [] => fun _ => Undef
  end.
(** nostr_event_add_tag, one after the other, until one fails *)
Fixpoint mem_add_tags (c : cevent) (ts : list (list (list N))) : M (cevent * option err) :=
  match ts with
  | [] => mret (c, None)
  | t :: r =>
    let! x := EventMem.add_tag grant lim c t in
    match x with
    | (c, None) => mem_add_tags c r
    | (c, Some e) => mret (c, Some e)
    end
  end.
(** src/nip51.c:483-526: the tags, in order *)
Definition tags_of (kind : N) (d title desc image : option (list N)) (its : list item) : list (list (list N)) :=
  (if is_parameterized kind then
     [[bs "d"; match d with Some d => d | None => [] end]] ++
     (match title with Some t => [[bs "title"; t]] | None => [] end) ++
     (match desc with Some t => [[bs "description"; t]] | None => [] end) ++
     (match image with Some t => [[bs "image"; t]] | None => [] end)
   else []) ++ map item_tag (filter (fun x => negb (it_private x)) its).
(** src/nip51.c:566-569 *)
Definition discard (ev : cevent) (x : err) : M (option cevent * option err) :=
  let! _ := event_destroy (Some ev) in mret (None, Some x).
Definition keep (r : cevent * option err) : M (option cevent * option err) :=
  match r with (ev, None) => mret (Some ev, None) | (ev, Some x) => discard ev x end.
(** src/nip51.c:464-570 nostr_list_to_event.  The private text and the ciphertext are
    one block each; [lit]: a block standing for the literal text of length 0. *)
Definition mem_to_event (c : clist) (keys : option (list N * list N)) (nonce : option (list N)) (now : Z) (lit : nat) : M (option cevent * option err) :=
  let! _ := huse (Some (cl_self c)) in
  let! its := load (cl_array c) (cl_count c) (cl_slots c) in
    let has_private := (0 <? count_private its)%nat in
    match has_private, keys with
    | true, None => mret (None, Some EInvalidParam)
    | _, _ =>
      let! x := event_create grant now in
      match x with
      | (Some ev, None) =>
        let e := ce_val ev in
        let ev := with_val ev (mkEvent (ev_id e) (ev_pubkey e) now (cl_kind c) (ev_tags e) (ev_content e) (ev_sig e)) in
        let! d := read_opt (cl_d c) in
        let! title := read_opt (cl_title c) in
        let! desc := read_opt (cl_desc c) in
        let! image := read_opt (cl_image c) in
        let! y := mem_add_tags ev (tags_of (cl_kind c) d title desc image its) in
        match y with
        | (ev, Some x) => discard ev x
        | (ev, None) =>
          match has_private, keys with
          | true, Some (sk, pk) =>
            match build_private_content its with
            | Undef => fun _ => Undef
            | Err x => discard ev x
            | Ok t =>
              let! j := ealloc grant in
              match j with
              | None => discard ev EMemory
              | Some j =>
                let! _ := huse (Some j) in
                match encrypt sk pk nonce t with
                | Undef => fun _ => Undef
                | Err x => let! _ := hfree (Some j) in discard ev x
                | Ok ct =>
                  let! q := ealloc grant in
                  let! _ := hfree (Some j) in
                  match q with
                  | None => discard ev EMemory
                  | Some q =>
                    let! z := EventMem.set_content grant ev q ct in
                    let! _ := hfree (Some q) in
                    keep z
                  end
                end
              end
            end
          | _, _ => let! z := EventMem.set_content grant ev lit [] in keep z
          end
        end
      | _ => mret x
      end
    end.

(** ** A program with one list *)
Inductive lop : Set := LNew (kind : N) | LRead (e : event) (keys : option (list N * list N)) | LSet (f : field) (v : option arg) | LEdit (o : Nip51.op) (srcs : list nat) | LFree.
Definition lstep (v : option clist) (o : lop) : M (option clist) :=
  match o, v with
  | LNew k, None => let! x := list_create k in mret (fst x)
  | LRead e keys, None => let! x := mem_from_event e keys in mret (fst x)
  | LSet f a, Some c => let! x := set_field c f a in mret (Some (fst x))
  | LEdit o srcs, Some c => let! x := edit c o srcs in mret (Some (fst x))
  | LFree, _ => let! _ := list_free v in mret None
  | _, _ => mret v
  end.
Fixpoint lrun (v : option clist) (os : list lop) : M (option clist) :=
  match os with
  | [] => mret v
  | o :: r => let! v := lstep v o in lrun v r
  end.
End Mem.
