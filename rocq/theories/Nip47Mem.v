(** Model of the memory of wallet connections and of the lists read from info events
    (src/nip47.c), when any allocation may fail.  What is read is in Nip47.v.  Sizes of
    arrays do not wrap. *)
From Verif Require Import Base Heap Event EventMem Nip47.
Open Scope N_scope.

(** struct nwc_connection as it lies in memory (src/nip47.c:67-73): its block, the array
    of relays with its capacity (kept by the parser, not in the struct), the relays up to
    the count, the rest. *)
Record cconn : Set := mkCc {
  cc_self : nat; cc_array : option nat; cc_cap : nat; cc_relays : list (nat * list N);
  cc_secret : option (list N); cc_service : list N; cc_lud16 : option (nat * list N) }.
Definition cc_set_array (c : cconn) (a : option nat) (cap : nat) : cconn :=
  mkCc (cc_self c) a cap (cc_relays c) (cc_secret c) (cc_service c) (cc_lud16 c).
Definition cc_add_relay (c : cconn) (r : nat * list N) : cconn :=
  mkCc (cc_self c) (cc_array c) (cc_cap c) (cc_relays c ++ [r]) (cc_secret c) (cc_service c) (cc_lud16 c).
Definition cc_set_secret (c : cconn) (s : list N) : cconn :=
  mkCc (cc_self c) (cc_array c) (cc_cap c) (cc_relays c) (Some s) (cc_service c) (cc_lud16 c).
Definition cc_set_lud16 (c : cconn) (l : nat * list N) : cconn :=
  mkCc (cc_self c) (cc_array c) (cc_cap c) (cc_relays c) (cc_secret c) (cc_service c) (Some l).
Definition ptr {A} (o : option (nat * A)) : option nat := option_map fst o.

(** src/nip47.c:98-103: the relays and their array *)
Fixpoint free_relays (a : nat) (l : list (nat * list N)) : M unit :=
  match l with
  | [] => mret tt
  | (p, _) :: r => let! _ := huse (Some a) in let! _ := hfree (Some p) in free_relays a r
  end.
(** src/nip47.c:94-111 free_connection, 846-850 nostr_nip47_free_connection *)
Definition free_connection (c : cconn) : M unit :=
  let! _ := huse (Some (cc_self c)) in
  let! _ := match cc_array c with
            | Some a => let! _ := free_relays a (cc_relays c) in hfree (Some a)
            | None => mret tt
            end in
  let! _ := hfree (ptr (cc_lud16 c)) in
  hfree (Some (cc_self c)).

Section Nip47Mem.
Variable grant : nat -> bool.
(** src/nip47.c:128-153 url_decode *)
Definition url_decode_m (s : list N) : M (option (nat * list N)) :=
  let! p := ealloc grant in
  match p with None => mret None | Some q => let! _ := huse (Some q) in mret (Some (q, url_decode s)) end.
(** src/nip47.c:210-222: room for one more *)
Definition relay_room (c : cconn) : M (cconn * bool) :=
  if (cc_cap c <=? length (cc_relays c))%nat then
    let! q := erealloc grant (cc_array c) in
    match q with None => mret (c, false) | Some b => mret (cc_set_array c (Some b) (2 * cc_cap c), true) end
  else mret (c, true).
(** src/nip47.c:203-253, one piece of the query; None: no error.  The connection comes
    back also with an error, for its release. *)
Definition uri_param_m (params : nat) (c : cconn) (p : list N) : M (cconn * option err) :=
  let! _ := huse (Some params) in
  match split_at 61 p with
  | None => mret (c, None)
  | Some (k, v) =>
    if beq k (bs "relay") then
      let! r := relay_room c in
      match r with
      | (c, false) => mret (c, Some EMemory)
      | (c, true) =>
        let! d := url_decode_m v in
        let! _ := hassert (length (cc_relays c) <? cc_cap c)%nat in
        let! _ := huse (cc_array c) in
        match d with
        | None => mret (c, Some EMemory)
        | Some d => mret (cc_add_relay c d, None)
        end
      end
    else if beq k (bs "secret") then
      if negb (length v =? 64)%nat then mret (c, Some EInvalidParam)
      else match hex_decode47 v 32 with
           | None => mret (c, Some EInvalidParam)
           | Some s => mret (cc_set_secret c s, None)
           end
    else if beq k (bs "lud16") then
      let! d := url_decode_m v in
      match d with
      | None => mret (mkCc (cc_self c) (cc_array c) (cc_cap c) (cc_relays c) (cc_secret c) (cc_service c) None, Some EMemory)
      | Some d => mret (cc_set_lud16 c d, None)
      end
    else mret (c, None)
  end.
Fixpoint uri_params_m (params : nat) (c : cconn) (ps : list (list N)) : M (cconn * option err) :=
  match ps with
  | [] => mret (c, None)
  | p :: r =>
    let! x := uri_param_m params c p in
    match x with (c, None) => uri_params_m params c r | (c, Some e) => mret (c, Some e) end
  end.
(** src/nip47.c:155-264 nostr_nip47_parse_connection_uri; inl: the caller's variable is not
    written *)
Definition parse_uri_m (uri : list N) : M (err + cconn) :=
  if negb (prefixb (bs "nostr+walletconnect://") uri) then mret (inl EInvalidParam)
  else
    match split_at 63 (skipn 22 uri) with
    | None => mret (inl EInvalidParam)
    | Some (pk, query) =>
      if negb (length pk =? 64)%nat then mret (inl EInvalidParam)
      else
        let! s := ealloc grant in
        match s with
        | None => mret (inl EMemory)
        | Some s =>
          let c := mkCc s None 0 [] None (repeat 0 32) None in
          match hex_decode47 pk 32 with
          | None => let! _ := free_connection c in mret (inl EInvalidParam)
          | Some service =>
            let c := mkCc s None 0 [] None service None in
            let! q := ealloc grant in
            match q with
            | None => let! _ := free_connection c in mret (inl EMemory)
            | Some params =>
              let! a := ealloc grant in
              match a with
              | None => let! _ := hfree (Some params) in let! _ := free_connection c in mret (inl EMemory)
              | Some a =>
                let! r := uri_params_m params (cc_set_array c (Some a) 4) (tokens 38 query) in
                let! _ := hfree (Some params) in
                match r with
                | (c, Some e) => let! _ := free_connection c in mret (inl e)
                | (c, None) =>
                  match cc_secret c, cc_relays c with
                  | Some _, _ :: _ => mret (inr c)
                  | _, _ => let! _ := free_connection c in mret (inl EInvalidParam)
                  end
                end
              end
            end
          end
        end
    end.

(** ** Info events *)
(** A caller's variable for a list, with its count: what the pointer says and, where the
    array is live, its entries. *)
Record wlist : Set := mkWl { wl_array : option nat; wl_count : N; wl_items : list (nat * list N) }.
Fixpoint free_words (a : nat) (l : list (nat * list N)) : M unit :=
  match l with
  | [] => mret tt
  | (p, _) :: r => let! _ := huse (Some a) in let! _ := hfree (Some p) in free_words a r
  end.
(** src/nip47.c:292-307, and the same at 341-356, 390-405; [room] entries are left, [done] are
    copied.  false: a copy failed, all were released. *)
Fixpoint copy_words (a str : nat) (room : nat) (ws : list (list N)) (done : list (nat * list N)) : M (list (nat * list N) * bool) :=
  match ws, room with
  | w :: r, S room =>
    let! _ := huse (Some str) in
    let! p := ealloc grant in
    let! _ := huse (Some a) in
    match p with
    | None =>
      let! _ := free_words a done in
      let! _ := hfree (Some a) in
      let! _ := hfree (Some str) in
      mret (done, false)
    | Some p => copy_words a str room r (done ++ [(p, w)])
    end
  | _, _ => mret (done, true)
  end.
(** src/nip47.c:275-311; 322-359; 371-408: what becomes of the caller's variable, and
    whether memory sufficed *)
Definition split_words_m (v : wlist) (s : list N) : M (wlist * bool) :=
  let! t := ealloc grant in
  match t with
  | None => mret (v, false)
  | Some str =>
    let n := (count_spaces s + 1)%nat in
    let! a := ealloc grant in
    match a with
    | None => let! _ := hfree (Some str) in mret (mkWl None (N.of_nat n) [], false)
    | Some a =>
      let! r := copy_words a str n (tokens 32 s) [] in
      match r with
      | (l, false) => mret (mkWl (Some a) (N.of_nat n) [], false)
      | (l, true) => let! _ := hfree (Some str) in mret (mkWl (Some a) (N.of_nat (length l)) l, true)
      end
    end
  end.
Definition empty_list : wlist := mkWl None 0 [].
(** src/nip47.c:314-362, 364-411: the list of the first tag of that name *)
Definition tag_words_m (wanted : bool) (v : wlist) (name : list N) (ts : list (list (list N))) : M (wlist * bool) :=
  if negb wanted then mret (v, true)
  else match first_tag_value name ts with
       | None => mret (empty_list, true)
       | Some s => split_words_m empty_list s
       end.
(** src/nip47.c:266-413 nostr_nip47_parse_info_event; [w1 w2 w3]: which lists are asked for;
    [v1 v2 v3]: the caller's variables before *)
Definition parse_info_m (w1 w2 w3 : bool) (v1 v2 v3 : wlist) (e : event) : M (wlist * wlist * wlist * option err) :=
  if negb (ev_kind e =? 13194) then mret (v1, v2, v3, Some EInvalidParam)
  else
    let! x := match w1, ev_content e with
              | true, None => fun _ => Undef  (* strdup(NULL) *)
              | true, Some s => split_words_m v1 s
              | false, _ => mret (v1, true)
              end in
    match x with
    | (v1, false) => mret (v1, v2, v3, Some EMemory)
    | (v1, true) =>
      let! y := tag_words_m w2 v2 (bs "notifications") (ev_tags e) in
      match y with
      | (v2, false) => mret (v1, v2, v3, Some EMemory)
      | (v2, true) =>
        let! z := tag_words_m w3 v3 (bs "encryption") (ev_tags e) in
        match z with
        | (v3, false) => mret (v1, v2, v3, Some EMemory)
        | (v3, true) => mret (v1, v2, v3, None)
        end
      end
    end.
End Nip47Mem.
