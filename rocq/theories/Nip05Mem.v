(** Model of src/nip05.c when memory may run out: the relays of an identity and
    the response of the caller's web client.  What is read from the response is
    in Nip05.v. *)
From Verif Require Import Base Heap Json Nip05 EventMem Nip21Mem.
Open Scope N_scope.

(** A caller's variables for relays: the array, and the strings it names (as many
    as the count says). *)
Record hints : Set := mkHints { hi_array : option nat; hi_strings : list nat }.
Definition no_hints : hints := mkHints None [].
(** src/nip05.c:277-283 nostr_nip05_free_relays *)
Definition free_relays_m (r : hints) : M unit :=
  match hi_array r with
  | None => mret tt
  | Some a =>
    let! _ := huse (Some a) in
    let! _ := free_all (hi_strings r) in
    hfree (Some a)
  end.

Section Mem.
Variable grant : nat -> bool.

(** src/nip05.c:244-269; [a] is the array, [bl] the strings copied so far, [n] is
    count - idx.  None: no memory, and all of it was released (262). *)
Fixpoint collect_m (a : nat) (fuel : nat) (n : nat) (before s : list N) (bl : list nat) : M (option (list nat * list (list N))) :=
  match fuel, n with
  | S f, S n' =>
    match s with
    | [] => mret (Some (bl, []))
    | c :: _ =>
      if c =? 93 then mret (Some (bl, []))
      else
        let '(b1, s1) := to_quote before s in
        match after 34 s1 with
        | Some r1 =>
          let '(u, b2, s2) := to_string_end (34 :: b1) [] r1 in
          match after 34 s2 with
          | Some r2 =>
            if is_valid_relay_url u then
              let! p := ealloc grant in
              let! _ := huse (Some a) in
              match p with
              | None => let! _ := free_relays_m (mkHints (Some a) bl) in mret None
              | Some b =>
                let! _ := huse (Some b) in
                let! r := collect_m a f n' (34 :: b2) r2 (bl ++ [b]) in
                mret (option_map (fun r => (fst r, u :: snd r)) r)
              end
            else collect_m a f n (34 :: b2) r2 bl
          | None => mret (Some (bl, []))
          end
        | None => mret (Some (bl, []))
        end
    end
  | _, _ => mret (Some (bl, []))
  end.
(** src/nip05.c:209-275, after the key has been found *)
Definition find_relays_m (json key : list N) : M (hints * ans (list (list N))) :=
  match json_strstr json (bs """relays""") with
  | None => mret (no_hints, inl [])
  | Some p =>
    let relays_pos := skip_ws_and_colon (skipn 8 p) in
    match after 123 relays_pos with
    | Some _ =>
      let search := 34 :: key ++ [34] in
      match json_strstr relays_pos search with
      | None => mret (no_hints, inl [])
      | Some q =>
        match after 91 (skip_ws_and_colon (skipn (length search) q)) with
        | Some l =>
          let count := count_strings [] false l in
          if (count =? 0)%nat then mret (no_hints, inl [])
          else if (100 <? count)%nat then mret (no_hints, inr EInvalidParam)
          else
            let! p := ealloc grant in
            match p with
            | None => mret (no_hints, inr EMemory)
            | Some a =>
              let! r := collect_m a (S (length l)) count [] l [] in
              match r with
              | None => mret (no_hints, inr EMemory)
              | Some (bl, rs) => mret (mkHints (Some a) bl, inl rs)
              end
            end
        | None => mret (no_hints, inl [])
        end
      end
    | None => mret (no_hints, inl [])
    end
  end.
(** src/nip05.c:167-275 nostr_nip05_parse_response; relays and their count go
    together: [want_relays] when neither pointer is NULL.  The caller's variables
    are cleared first. *)
Definition parse_response_m (json name : list N) (pubkey_size : N) (want_relays : bool) : M (hints * ans (list N * list (list N))) :=
  if pubkey_size <? 65 then mret (no_hints, inr EInvalidParam)
  else
    let! k := lift (find_pubkey json name) in
    match k with
    | inr x => mret (no_hints, inr x)
    | inl k =>
      if want_relays then
        let! r := find_relays_m json k in
        mret (fst r, match snd r with inl rs => inl (k, rs) | inr x => inr x end)
      else mret (no_hints, inl (k, []))
    end.

(** The caller's web client: an error or none, and what it has stored: a response
    with its block, or NULL, and its length. *)
Variable fetch : list N -> M (option err * option (nat * list N) * N).
Definition block_of (p : option (nat * list N)) : option nat := option_map fst p.
(** src/nip05.c:285-348 nostr_nip05_verify *)
Definition verify_id_m (identifier expected : list N) (want_relays : bool) : M (hints * ans (list (list N))) :=
  let! nd := lift (nip05_parse identifier 65 257) in
  match nd with
  | inr x => mret (no_hints, inr x)
  | inl nd =>
    let! url := lift (nip05_build_url (fst nd) (snd nd) 512) in
    match url with
    | inr x => mret (no_hints, inr x)
    | inl url =>
      let! r := fetch url in
      match r with
      | (Some x, p, _) => let! _ := hfree (block_of p) in mret (no_hints, inr x)
      | (None, None, _) => mret (no_hints, inr ENotFound)
      | (None, Some (b, buf), len) =>
        if len =? 0 then let! _ := hfree (Some b) in mret (no_hints, inr ENotFound)
        else if 1048576 <? len then let! _ := hfree (Some b) in mret (no_hints, inr EInvalidParam)
        else
          let! _ := huse (Some b) in
          let! doc := lift (c_string buf) in
          match doc with
          | inr _ => fun _ => Undef
          | inl doc =>
            let! r := parse_response_m doc (fst nd) 65 want_relays in
            let! _ := hfree (Some b) in
            match r with
            | (_, inr x) => mret (no_hints, inr x)
            | (hs, inl (k, rs)) =>
              if negb (length expected =? 64)%nat then let! _ := free_relays_m hs in mret (no_hints, inr EInvalidKey)
              else if beq k (map tolower expected) then mret (hs, inl rs)
              else let! _ := free_relays_m hs in mret (no_hints, inr EInvalidKey)
            end
          end
      end
    end
  end.
End Mem.
