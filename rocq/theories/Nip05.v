(** Model of src/nip05.c (NIP-05 identifiers).  Allocation succeeds. *)
From Verif Require Import Base Json.
Open Scope N_scope.

(** src/nip05.c:22-24 is_hex_char *)
Definition is_hex_char (c : N) : bool :=
  ((48 <=? c) && (c <=? 57)) || ((97 <=? c) && (c <=? 102)) || ((65 <=? c) && (c <=? 70)).
Definition is_alnum (c : N) : bool :=
  ((97 <=? c) && (c <=? 122)) || ((65 <=? c) && (c <=? 90)) || ((48 <=? c) && (c <=? 57)).
(** src/nip05.c:26-36 is_valid_local_part *)
Definition is_valid_local_part (s : list N) : bool :=
  if (length s =? 0)%nat || (64 <? length s)%nat then false
  else forallb (fun c => is_alnum c || (c =? 45) || (c =? 95) || (c =? 46)) s.
(** src/nip05.c:41-51: [prev] is the character before, has_dot so far *)
Fixpoint domain_loop (prev : option N) (has_dot : bool) (s : list N) : bool :=
  match s with
  | [] => has_dot
  | c :: r =>
    if c =? 46 then
      if match prev with Some q => q =? 46 | None => false end then false else domain_loop (Some c) true r
    else if is_alnum c || (c =? 45) then domain_loop (Some c) has_dot r
    else false
  end.
(** src/nip05.c:38-53 is_valid_domain *)
Definition is_valid_domain (s : list N) : bool :=
  if (length s =? 0)%nat || (256 <? length s)%nat then false
  else if (nth 0 s 0 =? 46) || (nth (length s - 1) s 0 =? 46) then false
  else domain_loop None false s.
(** strchr: the text before and after the first [d] *)
Fixpoint split_char (d : N) (s : list N) : option (list N * list N) :=
  match s with
  | [] => None
  | c :: r => if c =? d then Some ([], r)
              else match split_char d r with Some (a, b) => Some (c :: a, b) | None => None end
  end.
(** src/nip05.c:102-127 nostr_nip05_parse *)
Definition nip05_parse (identifier : list N) (name_size domain_size : N) : res (list N * list N) :=
  if (name_size <? 2) || (domain_size <? 4) then Err EInvalidParam
  else
    match split_char 64 identifier with
    | None => Err EInvalidParam
    | Some (name, domain) =>
      if negb (is_valid_local_part name) then Err EInvalidParam
      else if negb (is_valid_domain domain) then Err EInvalidParam
      else if (name_size <=? N.of_nat (length name)) || (domain_size <=? N.of_nat (length domain)) then Err EInvalidParam
      else Ok (map tolower name, map tolower domain)
    end.
(** src/nip05.c:138-165 nostr_nip05_build_url: consecutive copies into a buffer
    of [url_size] bytes, the last one the NUL *)
Definition nip05_build_url (name domain : list N) (url_size : N) : res (list N) :=
  if (64 <? N.of_nat (length name)) || (256 <? N.of_nat (length domain)) then Err EInvalidParam
  else
    let required := 38 + N.of_nat (length name) + N.of_nat (length domain) in
    if url_size <? required then Err EInvalidParam
    else
      let text := firstn 8 (bs "https://") ++ domain ++ firstn 29 (bs "/.well-known/nostr.json?name=") ++ name in
      if url_size <? N.of_nat (length text) + 1 then Undef else Ok text.

(** ** The well-known document *)
(** src/nip05.c:55-59 skip_ws_and_colon *)
Fixpoint skip_ws_and_colon (s : list N) : list N :=
  match s with
  | c :: r => if (c =? 32) || (c =? 58) || (c =? 10) || (c =? 9) || (c =? 13) then skip_ws_and_colon r else s
  | [] => []
  end.
(** src/nip05.c:61-71 is_escaped_quote; [before] is the text before the quote,
    last character first *)
Fixpoint backslashes (before : list N) : nat :=
  match before with c :: r => if c =? 92 then S (backslashes r) else 0%nat | [] => 0%nat end.
Definition is_escaped_quote (before : list N) : bool := Nat.odd (backslashes before).
(** src/nip05.c:73-88 json_strstr: the text from the match on *)
Fixpoint json_strstr_loop (needle before : list N) (in_string : bool) (s : list N) : option (list N) :=
  match s with
  | [] => None
  | c :: r =>
    if negb in_string && prefixb needle s then Some s
    else json_strstr_loop needle (c :: before)
           (if (c =? 34) && negb (is_escaped_quote before) then negb in_string else in_string) r
  end.
Definition json_strstr (json needle : list N) : option (list N) := json_strstr_loop needle [] false json.
(** src/nip05.c:90-95 contains_unicode_escape *)
Fixpoint contains_unicode_escape (s : list N) : bool :=
  match s with
  | a :: r => match r with b :: _ => ((a =? 92) && (b =? 117)) || contains_unicode_escape r | [] => false end
  | [] => false
  end.
(** src/nip05.c:97-100 is_valid_relay_url *)
Definition is_valid_relay_url (url : list N) : bool :=
  if (length url <? 6)%nat || contains_unicode_escape url then false
  else prefixb (bs "wss://") url || prefixb (bs "ws://") url.

(** *p == c, then p + 1 *)
Definition after (c : N) (s : list N) : option (list N) :=
  match s with x :: r => if x =? c then Some r else None | [] => None end.
(** src/nip05.c:174-207: the key, lower-cased *)
Definition find_pubkey (json name : list N) : res (list N) :=
  if 1048576 <? N.of_nat (length json) then Err EInvalidParam
  else if (length name =? 0)%nat || (64 <? length name)%nat then Err EInvalidParam
  else if existsb (fun c => (c =? 34) || (c =? 92)) name then Err EInvalidParam
  else
    match json_strstr json (bs """names""") with
    | None => Err ENotFound
    | Some p =>
      let names_pos := skip_ws_and_colon (skipn 7 p) in
      match after 123 names_pos with
      | Some _ =>
        let search := 34 :: name ++ [34] in
        match json_strstr names_pos search with
        | None => Err ENotFound
        | Some q =>
          match after 34 (skip_ws_and_colon (skipn (length search) q)) with
          | Some v =>
            match split_char 34 v with
            | Some (k, _) => if (length k =? 64)%nat && forallb is_hex_char k then Ok (map tolower k) else Err EInvalidKey
            | None => Err EInvalidKey
            end
          | None => Err EJsonParse
          end
        end
      | None => Err EJsonParse
      end
    end.

(** src/nip05.c:227-236: strings completed before the first ] *)
Fixpoint count_strings (before : list N) (in_string : bool) (s : list N) : nat :=
  match s with
  | [] => 0%nat
  | c :: r =>
    if c =? 93 then 0%nat
    else if (c =? 34) && negb (is_escaped_quote before)
    then ((if in_string then 1 else 0) + count_strings (c :: before) (negb in_string) r)%nat
    else count_strings (c :: before) in_string r
  end.
(** src/nip05.c:247 *)
Fixpoint to_quote (before s : list N) : list N * list N :=
  match s with
  | c :: r => if (c =? 34) || (c =? 93) then (before, s) else to_quote (c :: before) r
  | [] => (before, [])
  end.
(** src/nip05.c:251-253: the string, the text before its end, the text from its end *)
Fixpoint to_string_end (before acc s : list N) : list N * list N * list N :=
  match s with
  | c :: r => if (c =? 34) && negb (is_escaped_quote before) then (acc, before, s)
              else to_string_end (c :: before) (acc ++ [c]) r
  | [] => (acc, before, [])
  end.
(** src/nip05.c:244-269; [n] is count - idx *)
Fixpoint collect_relays (fuel : nat) (n : nat) (before s : list N) : list (list N) :=
  match fuel, n with
  | S f, S n' =>
    match s with
    | [] => []
    | c :: _ =>
      if c =? 93 then []
      else
        let '(b1, s1) := to_quote before s in
        match after 34 s1 with
        | Some r1 =>
          let '(u, b2, s2) := to_string_end (34 :: b1) [] r1 in
          match after 34 s2 with
          | Some r2 =>
            if is_valid_relay_url u then u :: collect_relays f n' (34 :: b2) r2
            else collect_relays f n (34 :: b2) r2
          | None => []
          end
        | None => []
        end
    end
  | _, _ => []
  end.
(** src/nip05.c:209-275, after the key has been found *)
Definition find_relays (json key : list N) : res (list (list N)) :=
  match json_strstr json (bs """relays""") with
  | None => Ok []
  | Some p =>
    let relays_pos := skip_ws_and_colon (skipn 8 p) in
    match after 123 relays_pos with
    | Some _ =>
      let search := 34 :: key ++ [34] in
      match json_strstr relays_pos search with
      | None => Ok []
      | Some q =>
        match after 91 (skip_ws_and_colon (skipn (length search) q)) with
        | Some l =>
          let count := count_strings [] false l in
          if (count =? 0)%nat then Ok []
          else if (100 <? count)%nat then Err EInvalidParam
          else Ok (collect_relays (S (length l)) count [] l)
        | None => Ok []
        end
      end
    | None => Ok []
    end
  end.
(** src/nip05.c:167-275 nostr_nip05_parse_response *)
Definition nip05_parse_response (json name : list N) (pubkey_size : N) (want_relays : bool) : res (list N * list (list N)) :=
  if pubkey_size <? 65 then Err EInvalidParam
  else
    do k <- find_pubkey json name;
    if want_relays then do r <- find_relays json k; Ok (k, r) else Ok (k, []).

(** strlen of a buffer: undefined without a NUL inside *)
Fixpoint c_string (buf : list N) : res (list N) :=
  match buf with
  | [] => Undef
  | c :: r => if c =? 0 then Ok [] else do s <- c_string r; Ok (c :: s)
  end.
(** src/nip05.c:285-348 nostr_nip05_verify.  [fetch url] is the caller's
    callback: an error, or the buffer and the length it reports. *)
Definition nip05_verify (identifier expected : list N) (fetch : list N -> res (option (list N) * N)) (want_relays : bool)
    : res (list (list N)) :=
  do nd <- nip05_parse identifier 65 257;
  do url <- nip05_build_url (fst nd) (snd nd) 512;
  do rl <- fetch url;
  match rl with
  | (None, _) => Err ENotFound
  | (Some buf, len) =>
    if len =? 0 then Err ENotFound
    else if 1048576 <? len then Err EInvalidParam
    else
      do doc <- c_string buf;
      do kr <- nip05_parse_response doc (fst nd) 65 want_relays;
      if negb (length expected =? 64)%nat then Err EInvalidKey
      else if beq (fst kr) (map tolower expected) then Ok (snd kr) else Err EInvalidKey
  end.
