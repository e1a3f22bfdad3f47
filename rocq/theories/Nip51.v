(** Model of src/nip51.c (lists of bookmarks, mutes, ...). *)
From Verif Require Import Base Hex Nip44 Event GiftWrap Nip18.
Open Scope N_scope.

(** include/nostr.h nostr_list_item; tag_type and value are never NULL in an item
    that is counted *)
Record item : Set := mkItem { it_tag : list N; it_value : list N; it_relay : option (list N); it_pet : option (list N); it_private : bool }.

(** * The array of items.  A slot is zeroed or holds an item; an item's strings
    are one allocation, numbered. *)
Record larr : Set := mkArr { a_slots : list (option (nat * item)); a_count : nat; a_live : list nat; a_next : nat }.
(** src/nip51.c:11-12 *)
Definition INITIAL_CAPACITY : nat := 8.
Definition MAX_ITEM_COUNT : nat := N.to_nat 4096.
(** src/nip51.c:123-146 nostr_list_create, the array *)
Definition arr_create : larr := mkArr (repeat None INITIAL_CAPACITY) 0 [] 0.
(** src/nip51.c:112-121 free_item: releasing what is not live is undefined *)
Definition free_item (live : list nat) (s : option (nat * item)) : res (list nat) :=
  match s with
  | None => Ok live
  | Some (k, _) => if existsb (Nat.eqb k) live then Ok (filter (fun j => negb (Nat.eqb k j)) live) else Undef
  end.
(** src/nip51.c:202-229 ensure_capacity; [grow]: realloc succeeds *)
Definition ensure_capacity (grow : bool) (a : larr) : res larr :=
  let cap := length (a_slots a) in
  if (cap <=? a_count a)%nat then
    let nc := Nat.min (cap * 2) MAX_ITEM_COUNT in
    if (nc <=? a_count a)%nat then Err EMemory
    else if negb grow then Err EMemory
    else Ok (mkArr (a_slots a ++ repeat None (nc - cap)) (a_count a) (a_live a) (a_next a))
  else Ok a.
(** A store into the array *)
Definition set_slot (l : list (option (nat * item))) (i : nat) (s : option (nat * item)) : res (list (option (nat * item))) :=
  if (i <? length l)%nat then Ok (firstn i l ++ s :: skipn (S i) l) else Undef.
(** src/nip51.c:231-260 add_item; [dup]: the strdup calls succeed (a failure frees
    the others) *)
Definition add_item (grow dup : bool) (a : larr) (x : item) : res (larr * res unit) :=
  match ensure_capacity grow a with
  | Undef => Undef
  | Err e => Ok (a, Err e)
  | Ok a1 =>
    if dup then
      do sl <- set_slot (a_slots a1) (a_count a1) (Some (a_next a1, x));
      Ok (mkArr sl (S (a_count a1)) (a_next a1 :: a_live a1) (S (a_next a1)), Ok tt)
    else
      do sl <- set_slot (a_slots a1) (a_count a1) None;
      Ok (mkArr sl (a_count a1) (a_live a1) (a_next a1), Err EMemory)
  end.
(** src/nip51.c:347-364 nostr_list_remove *)
Definition list_remove (a : larr) (i : nat) : res (larr * res unit) :=
  if (a_count a <=? i)%nat then Ok (a, Err EInvalidParam)
  else
    match nth_error (a_slots a) i with
    | None => Undef
    | Some s =>
      do live <- free_item (a_live a) s;
      let sl := if (i <? a_count a - 1)%nat
                then firstn i (a_slots a) ++ firstn (a_count a - i - 1) (skipn (i + 1) (a_slots a)) ++ skipn (a_count a - 1) (a_slots a)
                else a_slots a in
      do sl' <- set_slot sl (a_count a - 1) None;
      Ok (mkArr sl' (a_count a - 1) live (a_next a), Ok tt)
    end.
(** src/nip51.c:339-345 nostr_list_get *)
Definition list_get (a : larr) (i : nat) : res (option item) :=
  if (a_count a <=? i)%nat then Ok None
  else match nth_error (a_slots a) i with
       | Some (Some (_, x)) => Ok (Some x)
       | _ => Undef
       end.
(** src/nip51.c:148-163 nostr_list_free: what stays allocated *)
Fixpoint free_items (n : nat) (sl : list (option (nat * item))) (live : list nat) : res (list nat) :=
  match n, sl with
  | O, _ => Ok live
  | S n', s :: r => do live' <- free_item live s; free_items n' r live'
  | S _, [] => Undef
  end.
Definition list_free (a : larr) : res (list nat) := free_items (a_count a) (a_slots a) (a_live a).

(** src/nip51.c:72-83 is_valid_hex64 *)
Definition is_valid_hex64 (s : list N) : bool := is_valid_hex_string s 64.
Definition nonempty (s : list N) : bool := match s with [] => false | _ => true end.
(** The editing calls; [None] arguments are NULL *)
Inductive op : Set :=
| OPubkey (pk : list N) (relay pet : option (list N)) (priv : bool)
| OEvent (id : list N) (relay : option (list N)) (priv : bool)
| OHashtag (h : list N) (priv : bool)
| OWord (w : list N) (priv : bool)
| ORelay (u : list N) (priv : bool)
| OReference (r : list N) (relay : option (list N)) (priv : bool)
| OGroup (g u : list N) (name : option (list N)) (priv : bool)
| OEmoji (s u : list N) (priv : bool)
| ORemove (i : nat).
Definition add_if (ok : bool) (grow dup : bool) (a : larr) (x : item) : res (larr * res unit) :=
  if ok then add_item grow dup a x else Ok (a, Err EInvalidParam).
(** src/nip51.c:262-329, 347-364 *)
Definition do_op (grow dup : bool) (a : larr) (o : op) : res (larr * res unit) :=
  match o with
  | OPubkey pk relay pet p => add_if (is_valid_hex64 pk) grow dup a (mkItem (bs "p") pk relay pet p)
  | OEvent id relay p => add_if (is_valid_hex64 id) grow dup a (mkItem (bs "e") id relay None p)
  | OHashtag h p => add_if (nonempty h) grow dup a (mkItem (bs "t") h None None p)
  | OWord w p => add_if (nonempty w) grow dup a (mkItem (bs "word") w None None p)
  | ORelay u p => add_if (nonempty u) grow dup a (mkItem (bs "relay") u None None p)
  | OReference r relay p => add_if (nonempty r) grow dup a (mkItem (bs "a") r relay None p)
  | OGroup g u name p => add_if (nonempty g && nonempty u) grow dup a (mkItem (bs "group") g (Some u) name p)
  | OEmoji s u p => add_if (nonempty s && nonempty u) grow dup a (mkItem (bs "emoji") s (Some u) None p)
  | ORemove i => list_remove a i
  end.
(** A history: each call with the fortune of its allocations *)
Fixpoint run (a : larr) (os : list (op * (bool * bool))) : res (larr * list (res unit)) :=
  match os with
  | [] => Ok (a, [])
  | (o, (grow, dup)) :: r =>
    do x <- do_op grow dup a o;
    do y <- run (fst x) r;
    Ok (fst y, snd x :: snd y)
  end.

(** * Private items as text *)
(** src/nip51.c:14-29 json_escaped_len *)
Fixpoint json_escaped_len (s : list N) : N :=
  match s with
  | [] => 0
  | c :: r => (if (c =? 34) || (c =? 92) || (c =? 10) || (c =? 13) || (c =? 9) then 2 else if c <? 32 then 6 else 1) + json_escaped_len r
  end.
(** src/nip51.c:31-57 json_escape_to, one character *)
Definition escape_char (c : N) : list N :=
  if c =? 34 then [92; 34]
  else if c =? 92 then [92; 92]
  else if c =? 10 then [92; 110]
  else if c =? 13 then [92; 114]
  else if c =? 9 then [92; 116]
  else if c <? 32 then [92; 117; 48; 48; hexdigit (c / 16); hexdigit (c mod 16)]
  else [c].
Definition json_escape (s : list N) : list N := flat_map escape_char s.
(** src/nip51.c:426-456 the text of an item *)
Definition item_text (x : item) : list N :=
  bs "[" ++ [34] ++ json_escape (it_tag x) ++ [34] ++ bs "," ++ [34] ++ json_escape (it_value x) ++ [34] ++
  (match it_relay x with Some r => bs "," ++ [34] ++ json_escape r ++ [34] | None => [] end) ++
  (match it_pet x with
   | Some p => (match it_relay x with None => bs "," ++ [34; 34] | Some _ => [] end) ++ bs "," ++ [34] ++ json_escape p ++ [34]
   | None => []
   end) ++ bs "]".
(** src/nip51.c:415-457 *)
Fixpoint items_text (first : bool) (l : list item) : list N :=
  match l with
  | [] => []
  | x :: r => if it_private x then (if first then [] else bs ",") ++ item_text x ++ items_text false r else items_text first r
  end.
(** src/nip51.c:390-400 *)
Definition item_size (x : item) : N :=
  json_escaped_len (it_tag x) + json_escaped_len (it_value x) + 16 +
  (match it_relay x with Some r => json_escaped_len r + 4 | None => 0 end) +
  (match it_pet x with Some p => json_escaped_len p + 4 + match it_relay x with None => 3 | Some _ => 0 end | None => 0 end).
Fixpoint buffer_size (l : list item) (acc : N) : option N :=
  match l with
  | [] => Some acc
  | x :: r => if it_private x then (if 2 ^ 64 - 1 - item_size x <? acc then None else buffer_size r (acc + item_size x)) else buffer_size r acc
  end.
(** src/nip51.c:366-375 count_private_items *)
Definition count_private (l : list item) : nat := length (filter it_private l).
(** src/nip51.c:377-462 build_private_content; writing past the buffer is
    undefined.  The sizes of the strings of one item fit size_t. *)
Definition build_private_content (l : list item) : res (list N) :=
  if (count_private l =? 0)%nat then Ok []
  else
    match buffer_size l 2 with
    | None => Err EMemory
    | Some n =>
      let t := bs "[" ++ items_text true l ++ bs "]" in
      if n <? N.of_nat (length t) + 1 then Undef else Ok t
    end.

(** * Reading it.  A position is the rest of the string; at the end the NUL is
    seen, and moving beyond it is undefined. *)
Definition cur (s : list N) : N := match s with c :: _ => c | [] => 0 end.
Definition adv (s : list N) : res (list N) := match s with _ :: r => Ok r | [] => Undef end.
(** src/nip51.c:90-96 skip_json_whitespace *)
Fixpoint skip_ws (s : list N) : list N :=
  match s with
  | c :: r => if (c =? 32) || (c =? 10) || (c =? 13) || (c =? 9) || (c =? 44) then skip_ws r else s
  | [] => []
  end.
(** src/nip51.c:64-70, 98-110 parse_hex4 *)
Definition parse_hex4 (s : list N) : option (N * list N) :=
  match s with
  | a :: b :: c :: d :: r =>
    match hex_nibble a, hex_nibble b, hex_nibble c, hex_nibble d with
    | Some a, Some b, Some c, Some d => Some (((a * 16 + b) * 16 + c) * 16 + d, r)
    | _, _, _, _ => None
    end
  | _ => None
  end.
(** dest[len++] = c in an array of [max] + 1 bytes *)
Definition put (max : N) (dest : list N) (c : N) : res (list N) :=
  if max <? N.of_nat (length dest) then Undef else Ok (dest ++ [c]).
Fixpoint puts (max : N) (dest : list N) (cs : list N) : res (list N) :=
  match cs with
  | [] => Ok dest
  | c :: r => do d <- put max dest c; puts max d r
  end.
(** if (len < max_len) dest[len++] = c *)
Definition put_q (max : N) (dest : list N) : res (list N) :=
  if N.of_nat (length dest) <? max then put max dest 63 else Ok dest.
(** src/nip51.c:572-608 encode_utf8: the buffer and *truncated *)
Definition encode_utf8 (max : N) (dest : list N) (cp : N) (truncated : bool) : res (list N * bool) :=
  let len := N.of_nat (length dest) in
  let six i := N.land (N.shiftr cp i) 63 in
  let go (room : bool) (cs : list N) := if room then do d <- puts max dest cs; Ok (d, truncated) else Ok (dest, true) in
  if cp <=? 0x7F then go (len <? max) [cp]
  else if cp <=? 0x7FF then go (len + 2 <=? max) [N.lor 0xC0 (N.shiftr cp 6); N.lor 0x80 (six 0)]
  else if cp <=? 0xFFFF then go (len + 3 <=? max) [N.lor 0xE0 (N.shiftr cp 12); N.lor 0x80 (six 6); N.lor 0x80 (six 0)]
  else if cp <=? 0x10FFFF then go (len + 4 <=? max) [N.lor 0xF0 (N.shiftr cp 18); N.lor 0x80 (six 12); N.lor 0x80 (six 6); N.lor 0x80 (six 0)]
  else do d <- put_q max dest; Ok (d, truncated).
(** src/nip51.c:671-674 *)
Fixpoint skip_string (fuel : nat) (s : list N) : res (list N) :=
  match fuel with
  | O => Undef
  | S fuel' =>
    if (cur s =? 0) || (cur s =? 34) then Ok s
    else
      do r <- adv s;
      if (cur s =? 92) && negb (cur r =? 0) then do r' <- adv r; skip_string fuel' r'
      else skip_string fuel' r
  end.
(** src/nip51.c:685-713, after the u: the buffer, *truncated and the position *)
Definition unicode_escape (max : N) (dest : list N) (truncated : bool) (s : list N) : res (list N * bool * list N) :=
  match parse_hex4 s with
  | None => do d <- put_q max dest; Ok (d, truncated, s)
  | Some (hi, s1) =>
    if (0xD800 <=? hi) && (hi <=? 0xDBFF) then
      if (cur s1 =? 92) && (cur (skipn 1 s1) =? 117) then
        let s2 := skipn 2 s1 in
        match parse_hex4 s2 with
        | Some (lo, s3) =>
          if (0xDC00 <=? lo) && (lo <=? 0xDFFF) then
            do x <- encode_utf8 max dest (0x10000 + N.shiftl (hi - 0xD800) 10 + (lo - 0xDC00)) truncated;
            Ok (fst x, snd x, s3)
          else do d <- put_q max dest; Ok (d, truncated, s3)
        | None => do d <- put_q max dest; Ok (d, truncated, s2)
        end
      else do d <- put_q max dest; Ok (d, truncated, s1)
    else if (0xDC00 <=? hi) && (hi <=? 0xDFFF) then do d <- put_q max dest; Ok (d, truncated, s1)
    else do x <- encode_utf8 max dest hi truncated; Ok (fst x, snd x, s1)
  end.
(** src/nip51.c:668-722, the loop over a string: the buffer, *truncated and the
    position *)
Fixpoint read_string (fuel : nat) (max : N) (dest : list N) (truncated : bool) (s : list N) : res (list N * bool * list N) :=
  match fuel with
  | O => Undef
  | S fuel' =>
    if (cur s =? 0) || (cur s =? 34) then Ok (dest, truncated, s)
    else if max <=? N.of_nat (length dest) then do r <- skip_string (S (length s)) s; Ok (dest, true, r)
    else
      do r <- adv s;
      if (cur s =? 92) && negb (cur r =? 0) then
        let c := cur r in
        do r' <- adv r;
        if c =? 117 then
          do x <- unicode_escape max dest truncated r';
          let '(d, t, s') := x in read_string fuel' max d t s'
        else
          do d <- put max dest (if c =? 110 then 10 else if c =? 114 then 13 else if c =? 116 then 9 else c);
          read_string fuel' max d truncated r'
      else
        do d <- put max dest (cur s);
        read_string fuel' max d truncated r
  end.
(** src/nip51.c:635-638: the four buffers of an item *)
Record bufs : Set := mkBufs { b_tag : list N; b_value : list N; b_relay : list N; b_pet : list N }.
Definition no_bufs : bufs := mkBufs [] [] [] [].
(** src/nip51.c:654-658 *)
Definition field_max (field : nat) : option N :=
  match field with O => Some 63 | 1%nat => Some 1023 | 2%nat => Some 511 | 3%nat => Some 255 | _ => None end.
Definition set_field (field : nat) (b : bufs) (v : list N) : bufs :=
  match field with
  | O => mkBufs v (b_value b) (b_relay b) (b_pet b)
  | 1%nat => mkBufs (b_tag b) v (b_relay b) (b_pet b)
  | 2%nat => mkBufs (b_tag b) (b_value b) v (b_pet b)
  | _ => mkBufs (b_tag b) (b_value b) (b_relay b) v
  end.
(** src/nip51.c:660 *)
Fixpoint to_quote (s : list N) : list N :=
  match s with
  | c :: r => if (c =? 0) || (c =? 34) then s else to_quote r
  | [] => []
  end.
Definition skip_quote (s : list N) : list N := if cur s =? 34 then skipn 1 s else s.
(** src/nip51.c:641-733, the loop over the fields *)
Fixpoint read_fields (fuel : nat) (field : nat) (b : bufs) (s : list N) : res (bufs * list N) :=
  match fuel with
  | O => Undef
  | S fuel' =>
    if (cur s =? 0) || (cur s =? 93) then Ok (b, s)
    else
      let s1 := skip_ws s in
      if cur s1 =? 93 then Ok (b, s1)
      else if negb (cur s1 =? 34) then Err EJsonParse
      else
        do s2 <- adv s1;
        match field_max field with
        | None => read_fields fuel' (S field) b (skip_quote (to_quote s2))
        | Some max =>
          do x <- read_string (S (length s2)) max [] false s2;
          let '(d, truncated, s3) := x in
          if max <? N.of_nat (length d) then Undef
          else if truncated then Err EJsonParse
          else read_fields fuel' (S field) (set_field field b (until_nul d)) (skip_quote s3)
        end
  end.
(** add_item as a list operation when allocation succeeds (C47) *)
Definition push_item (l : list item) (x : item) : res (list item) :=
  if (MAX_ITEM_COUNT <=? length l)%nat then Err EMemory else Ok (l ++ [x]).
Definition opt_of (s : list N) : option (list N) := if nonempty s then Some s else None.
(** src/nip51.c:625-747, the loop over the items *)
Fixpoint read_items (fuel : nat) (l : list item) (s : list N) : res (list item) :=
  match fuel with
  | O => Undef
  | S fuel' =>
    if cur s =? 0 then Ok l
    else
      let s1 := skip_ws s in
      if cur s1 =? 93 then Ok l
      else if negb (cur s1 =? 91) then Err EJsonParse
      else
        do s2 <- adv s1;
        do x <- read_fields (S (S (length s2))) 0 no_bufs s2;
        let '(b, s3) := x in
        let s4 := if cur s3 =? 93 then skipn 1 s3 else s3 in
        if nonempty (b_tag b) && nonempty (b_value b) then
          do l' <- push_item l (mkItem (b_tag b) (b_value b) (opt_of (b_relay b)) (opt_of (b_pet b)) true);
          read_items fuel' l' s4
        else read_items fuel' l s4
  end.
(** src/nip51.c:616-619 *)
Fixpoint to_bracket (s : list N) : list N :=
  match s with
  | c :: r => if (c =? 0) || (c =? 91) then s else to_bracket r
  | [] => []
  end.
(** src/nip51.c:610-750 parse_private_content *)
Definition parse_private_content (s : list N) (l : list item) : res (list item) :=
  if (length s <? 2)%nat then Ok l
  else
    let p := to_bracket s in
    if cur p =? 0 then Err EJsonParse
    else do p' <- adv p; read_items (S (S (length p'))) l p'.

(** * Events *)
Record nlist : Set := mkList { nl_kind : N; nl_d : option (list N); nl_title : option (list N); nl_desc : option (list N); nl_image : option (list N);
  nl_items : list item }.
(** src/nip51.c:59-62 *)
Definition is_parameterized (k : N) : bool := (30000 <=? k) && (k <? 40000).
Section Events.
Variable lim : option ev_limits.
Variable encrypt : list N -> list N -> option (list N) -> list N -> res (list N).
Variable decrypt : list N -> list N -> list N -> res (list N).

Definition opt_tag (e : event) (name : list N) (v : option (list N)) : res event :=
  match v with Some x => add_tag lim e [name; x] | None => Ok e end.
(** src/nip51.c:512-523 *)
Definition item_tag (x : item) : list (list N) :=
  [it_tag x; it_value x] ++ (match it_relay x with Some r => [r] | None => [] end) ++
  match it_pet x with Some p => (match it_relay x with None => [[]] | Some _ => [] end) ++ [p] | None => [] end.
(** src/nip51.c:508-525 *)
Fixpoint add_public (e : event) (l : list item) : res event :=
  match l with
  | [] => Ok e
  | x :: r => if it_private x then add_public e r else do e' <- add_tag lim e (item_tag x); add_public e' r
  end.
Definition set_content (e : event) (c : list N) : event :=
  mkEvent (ev_id e) (ev_pubkey e) (ev_created e) (ev_kind e) (ev_tags e) (Some c) (ev_sig e).
(** src/nip51.c:464-570 nostr_list_to_event; [keys]: secret and public key *)
Definition to_event (l : nlist) (keys : option (list N * list N)) (nonce : option (list N)) (now : Z) : res event :=
  let has_private := (0 <? count_private (nl_items l))%nat in
  match has_private, keys with
  | true, None => Err EInvalidParam
  | _, _ =>
    let e0 := mkEvent (repeat 0 32) (repeat 0 32) now (nl_kind l) [] None (repeat 0 64) in
    do e1 <- (if is_parameterized (nl_kind l) then
                do x1 <- add_tag lim e0 [bs "d"; match nl_d l with Some d => d | None => [] end];
                do x2 <- opt_tag x1 (bs "title") (nl_title l);
                do x3 <- opt_tag x2 (bs "description") (nl_desc l);
                opt_tag x3 (bs "image") (nl_image l)
              else Ok e0);
    do e2 <- add_public e1 (nl_items l);
    match has_private, keys with
    | true, Some (sk, pk) =>
      do t <- build_private_content (nl_items l);
      do c <- encrypt sk pk nonce t;
      Ok (set_content e2 c)
    | _, _ => Ok (set_content e2 [])
    end
  end.
(** src/nip51.c:764-799, one tag *)
Definition read_tag (l : nlist) (t : list (list N)) : res nlist :=
  match t with
  | n :: v :: r =>
    if beq n (bs "d") then Ok (mkList (nl_kind l) (Some v) (nl_title l) (nl_desc l) (nl_image l) (nl_items l))
    else if beq n (bs "title") then Ok (mkList (nl_kind l) (nl_d l) (Some v) (nl_desc l) (nl_image l) (nl_items l))
    else if beq n (bs "description") then Ok (mkList (nl_kind l) (nl_d l) (nl_title l) (Some v) (nl_image l) (nl_items l))
    else if beq n (bs "image") then Ok (mkList (nl_kind l) (nl_d l) (nl_title l) (nl_desc l) (Some v) (nl_items l))
    else
      do its <- push_item (nl_items l) (mkItem n v (nth_error r 0) (nth_error r 1) false);
      Ok (mkList (nl_kind l) (nl_d l) (nl_title l) (nl_desc l) (nl_image l) its)
  | _ => Ok l
  end.
Fixpoint read_tags (l : nlist) (ts : list (list (list N))) : res nlist :=
  match ts with
  | [] => Ok l
  | t :: r => do l' <- read_tag l t; read_tags l' r
  end.
(** src/nip51.c:752-836 nostr_list_from_event *)
Definition from_event (e : event) (keys : option (list N * list N)) : res nlist :=
  do l <- read_tags (mkList (ev_kind e) None None None None []) (ev_tags e);
  match ev_content e, keys with
  | Some (c :: r), Some (sk, pk) =>
    do t <- decrypt sk pk (c :: r);
    do its <- parse_private_content (until_nul t) (nl_items l);
    Ok (mkList (nl_kind l) (nl_d l) (nl_title l) (nl_desc l) (nl_image l) its)
  | _, _ => Ok l
  end.
End Events.
