(** Model of src/relay_filter.c: parsing, validating, matching, reading. *)
From Verif Require Import Base Hex Json Event RelayProto.
Open Scope N_scope.

(** include/nostr_relay_protocol.h:107-137 nostr_generic_tag_filter_t and
    nostr_filter_t; arrays as lists (memory is modelled in RelayMem.v) *)
Record gtag : Set := mkGtag { g_name : N; g_values : list (list N) }.
Record rfilter : Set := mkFilter {
  f_ids : list (list N); f_authors : list (list N); f_kinds : list Z; f_e : list (list N); f_p : list (list N);
  f_generic : list gtag; f_since : Z; f_until : Z; f_limit : Z; f_search : option (list N) }.

(** NOSTR_MAX_TAG_FILTER_VALUES, NOSTR_DEFAULT_MAX_CONTENT_LENGTH *)
Definition max_filter_values : nat := 256.
Definition max_search : N := 65536.

(** ** Parsing (cJSON build) *)
Definition strings_of (l : list json) : list (list N) := flat_map (fun j => match j with JStr s => [s] | _ => [] end) l.
Definition ints_of (l : list json) : list Z := flat_map (fun j => match j with JNum n => [j_int32 n] | _ => [] end) l.
(** src/relay_filter.c:18-61 parse_string_array *)
Definition parse_string_array (j : option json) : rres (list (list N)) :=
  match j with
  | Some (JArr l) => if (max_filter_values <? length l)%nat then RErr RInvalidJson else ROk (strings_of l)
  | _ => ROk []
  end.
(** src/relay_filter.c:63-96 parse_int_array *)
Definition parse_int_array (j : option json) : rres (list Z) :=
  match j with
  | Some (JArr l) => if (max_filter_values <? length l)%nat then RErr RInvalidJson else ROk (ints_of l)
  | _ => ROk []
  end.
(** src/relay_filter.c:129-139: keys of generic tag filters *)
Definition is_alpha (c : N) : bool := ((65 <=? c) && (c <=? 90)) || ((97 <=? c) && (c <=? 122)).
Definition generic_key (k : list N) : option N :=
  match k with
  | [h; c] => if (h =? 35) && negb (c =? 101) && negb (c =? 112) && is_alpha c then Some c else None
  | _ => None
  end.
Definition members (j : json) : list (list N * json) := match j with JObj l => l | _ => [] end.
(** src/relay_filter.c:142-167, the second pass *)
Fixpoint parse_generic (l : list (list N * json)) : rres (list gtag) :=
  match l with
  | [] => ROk []
  | (k, v) :: r =>
    match generic_key k with
    | Some c => rdo vs <- parse_string_array (Some v); rdo gs <- parse_generic r; ROk (mkGtag c vs :: gs)
    | None => parse_generic r
    end
  end.
Definition parse_time (j : option json) : rres Z :=
  match j with
  | Some (JNum n) => match j_int64 n with Ok z => ROk z | _ => RUndef end
  | _ => ROk 0%Z
  end.
(** src/relay_filter.c:98-205 nostr_filter_parse on the parsed tree ([None]: the
    text is not JSON), allocation succeeding *)
Definition filter_parse_tree (j : json) : rres rfilter :=
  rdo ids <- parse_string_array (jget (bs "ids") j);
  rdo authors <- parse_string_array (jget (bs "authors") j);
  rdo kinds <- parse_int_array (jget (bs "kinds") j);
  rdo es <- parse_string_array (jget (bs "#e") j);
  rdo ps <- parse_string_array (jget (bs "#p") j);
  rdo gs <- parse_generic (members j);
  rdo since <- parse_time (jget (bs "since") j);
  rdo until <- parse_time (jget (bs "until") j);
  let limit := match jget (bs "limit") j with Some (JNum n) => j_int32 n | _ => 0%Z end in
  rdo search <- match jget (bs "search") j with
                | Some (JStr s) => if max_search <? N.of_nat (length s) then RErr RInvalidJson else ROk (Some s)
                | _ => ROk None
                end;
  ROk (mkFilter ids authors kinds es ps gs since until limit search).
Definition filter_parse (j : option json) : rres rfilter :=
  match j with None => RErr RInvalidJson | Some t => filter_parse_tree t end.

(** ** Validation: src/relay_filter.c:270-337 nostr_filter_validate *)
Definition filter_validate (f : rfilter) : rres unit :=
  if negb (forallb validate_hex_prefix (f_ids f)) then RErr RInvalidId
  else if negb (forallb validate_hex_prefix (f_authors f)) then RErr RInvalidPubkey
  else if negb (forallb validate_hex64 (f_e f)) then RErr RInvalidId
  else if negb (forallb validate_hex64 (f_p f)) then RErr RInvalidPubkey
  else match f_search f with
       | Some s => if max_search <? N.of_nat (length s) then RErr RInvalidContent else ROk tt
       | None => ROk tt
       end.

(** ** Matching *)
(** src/relay_filter.c:339-344 hex_starts_with *)
Definition hex_starts_with (hex : list N) (hex_len : nat) (prefix : list N) : bool :=
  if (hex_len <? length prefix)%nat then false else prefixb prefix hex.
(** the nested loops of 385-393, 402-410, 420-427 *)
Definition any_value (wanted have : list (list N)) : bool :=
  existsb (fun w => existsb (fun h => beq h w) have) wanted.
(** src/relay_filter.c:346-446 nostr_filter_matches *)
Definition filter_matches (f : rfilter) (e : event) : bool :=
  let id := relay_bytes_to_hex (ev_id e) in
  let pk := relay_bytes_to_hex (ev_pubkey e) in
  if negb (length (f_ids f) =? 0)%nat && negb (existsb (hex_starts_with id 64) (f_ids f)) then false
  else if negb (length (f_authors f) =? 0)%nat && negb (existsb (hex_starts_with pk 64) (f_authors f)) then false
  else if negb (length (f_kinds f) =? 0)%nat && negb (existsb (fun k => (k =? Z.of_N (ev_kind e))%Z) (f_kinds f)) then false
  else if (0 <? f_since f)%Z && (ev_created e <? f_since f)%Z then false
  else if (0 <? f_until f)%Z && (f_until f <? ev_created e)%Z then false
  else if negb (length (f_e f) =? 0)%nat && negb (any_value (f_e f) (tag_values_max (ev_tags e) (bs "e") max_filter_values)) then false
  else if negb (length (f_p f) =? 0)%nat && negb (any_value (f_p f) (tag_values_max (ev_tags e) (bs "p") max_filter_values)) then false
  else forallb (fun g => any_value (g_values g) (tag_values_max (ev_tags e) [g_name g] max_filter_values)) (f_generic f).
(** src/relay_filter.c:448-458 nostr_filter_matches_with_search; [cb] is the
    caller's callback, if any *)
Definition filter_matches_search (cb : option (list N -> event -> bool)) (f : rfilter) (e : event) : bool :=
  if negb (filter_matches f e) then false
  else match f_search f with
       | Some (c :: r) => match cb with Some p => p (c :: r) e | None => false end
       | _ => true
       end.
(** src/relay_filter.c:460-483 *)
Definition filters_match (fs : list rfilter) (e : event) : bool := existsb (fun f => filter_matches f e) fs.
Definition filters_match_search cb (fs : list rfilter) (e : event) : bool := existsb (fun f => filter_matches_search cb f e) fs.

(** ** Accessors: src/relay_filter.c:485-539 *)
Fixpoint generic_values (gs : list gtag) (c : N) : list (list N) :=
  match gs with
  | [] => []
  | g :: r => if g_name g =? c then g_values g else generic_values r c
  end.
Definition filter_tag_values (f : rfilter) (c : N) : list (list N) :=
  if c =? 101 then f_e f else if c =? 112 then f_p f else generic_values (f_generic f) c.
Definition filter_has_tags (f : rfilter) : bool :=
  negb (length (f_e f) =? 0)%nat || negb (length (f_p f) =? 0)%nat || negb (length (f_generic f) =? 0)%nat.
