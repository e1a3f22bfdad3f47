(** Model of src/event.c when memory may run out: serializing for the id, the id,
    signing, verifying, and export. *)
From Verif Require Import Base Heap Json Hex Dec Event EventMem CjsonMem.
Open Scope N_scope.

Section Oom.
Variable grant : nat -> bool.
Variable print : json -> list N.
(** src/event.c:303-306, 417-420: the strings of a tag, into its array *)
Fixpoint put_values (a : option node) (vs : list (list N)) : M (option node) :=
  match vs with
  | [] => mret a
  | v :: r =>
    let! x := create_string grant v in
    put_values (add_to_array a x) r
  end.
(** src/event.c:300-309, 414-422: the tags *)
Fixpoint put_tags (a : option node) (ts : list (list (list N))) : M (option node) :=
  match ts with
  | [] => mret a
  | vs :: r =>
    let! t := create grant (JArr []) in
    let! t := put_values t vs in
    put_tags (add_to_array a t) r
  end.
(** src/event.c:283-320 serialize_for_id with cJSON *)
Definition serialize_m (e : event) : M (option (nat * list N)) :=
  let! s := create grant (JArr []) in
  let! x := create grant (jint 0) in
  let s := add_to_array s x in
  let! x := create_string grant (hex_encode (ev_pubkey e)) in
  let s := add_to_array s x in
  let! x := create grant (jint (ev_created e)) in
  let s := add_to_array s x in
  let! x := create grant (jint (Z.of_N (ev_kind e))) in
  let s := add_to_array s x in
  let! t := create grant (JArr []) in
  let! t := put_tags t (ev_tags e) in
  let s := add_to_array s t in
  let! x := create_string grant (content_of e) in
  let s := add_to_array s x in
  let! r := print_node grant print s in
  let! _ := delete s in
  mret r.
(** src/event.c:228-280 escape_json_string, the allocation *)
Fixpoint escape_values (vs : list (list N)) : M bool :=
  match vs with
  | [] => mret true
  | _ :: r =>
    let! p := ealloc grant in
    match p with
    | None => mret false
    | Some b => let! _ := huse (Some b) in let! _ := hfree (Some b) in escape_values r
    end
  end.
Fixpoint escape_tags (ts : list (list (list N))) : M bool :=
  match ts with
  | [] => mret true
  | vs :: r => let! ok := escape_values vs in if ok then escape_tags r else mret false
  end.
(** src/event.c:321-362 serialize_for_id without cJSON; overruns of the buffer
    (Event.v) are accounted for at the end *)
Definition serialize_own_m (e : event) : M (option (nat * list N)) :=
  let! c := ealloc grant in
  let! _ := huse c in
  let! p := ealloc grant in
  match p with
  | None => let! _ := hfree c in mret None
  | Some b =>
    let! _ := huse (Some b) in
    let! ok := escape_tags (ev_tags e) in
    if ok then
      let! _ := huse c in
      let! _ := hfree c in
      match serialize_buffer e with Ok s => mret (Some (b, s)) | Err _ => mret None | Undef => fun _ => Undef end
    else
      let! _ := hfree (Some b) in
      let! _ := hfree c in
      mret None
  end.
(** src/event.c:385-440 nostr_event_to_json *)
Definition to_json_m (e : event) : M (option (nat * list N) * option err) :=
  let! o := create grant (JObj []) in
  match o with
  | None => mret (None, Some EMemory)
  | Some _ =>
    let! o := add_new grant o (bs "id") (create_string grant (hex_encode (ev_id e))) in
    let! o := add_new grant o (bs "pubkey") (create_string grant (hex_encode (ev_pubkey e))) in
    let! o := add_new grant o (bs "created_at") (create grant (jint (ev_created e))) in
    let! o := add_new grant o (bs "kind") (create grant (jint (Z.of_N (ev_kind e)))) in
    let! t := create grant (JArr []) in
    let! t := put_tags t (ev_tags e) in
    let! o := add_to_object grant o (bs "tags") t in
    let! o := add_new grant o (bs "content") (create_string grant (content_of e)) in
    let! o := add_new grant o (bs "sig") (create_string grant (hex_encode (ev_sig e))) in
    let! r := print_node grant print o in
    let! _ := delete o in
    mret (r, match r with Some _ => None | None => Some EMemory end)
  end.

(** ** With the cryptography *)
Variable serialize : event -> M (option (nat * list N)).
Variable sha256 : list N -> list N.
Variable pubkey_of : list N -> option (list N).
Variable schnorr_sign : list N -> list N -> list N -> option (list N).
Variable schnorr_verify : list N -> list N -> list N -> bool.
Variable pubkey_parses : list N -> bool.
Definition set_id (e : event) (i : list N) : event :=
  mkEvent i (ev_pubkey e) (ev_created e) (ev_kind e) (ev_tags e) (ev_content e) (ev_sig e).
(** src/event.c:366-383 nostr_event_compute_id *)
Definition compute_id_m (e : event) : M (event * option err) :=
  let! s := serialize e in
  match s with
  | None => mret (e, Some EMemory)
  | Some (b, t) =>
    let! _ := huse (Some b) in
    let! _ := hfree (Some b) in
    mret (set_id e (sha256 t), None)
  end.
(** src/event.c:593-692 nostr_event_sign *)
Definition sign_m (e : event) (sk : list N) (rnd : option (list N)) : M (event * option err) :=
  match pubkey_of sk with
  | None => mret (e, Some EInvalidKey)
  | Some pk =>
    let! x := compute_id_m (set_pubkey e pk) in
    match x with
    | (e, Some r) => mret (e, Some r)
    | (e, None) =>
      match rnd with
      | None => mret (e, Some EMemory)
      | Some r =>
        match schnorr_sign sk r (ev_id e) with
        | None => mret (e, Some EInvalidSignature)
        | Some s => mret (set_sig e s, None)
        end
      end
    end
  end.
(** src/event.c:694-762 nostr_event_verify *)
Definition verify_m (parse : bool) (e : event) : M (option err) :=
  let! x := compute_id_m e in
  match x with
  | (_, Some r) => mret (Some r)
  | (tmp, None) =>
    match constant_time_memcmp (ev_id e) (ev_id tmp) 32 with
    | Ok d =>
      mret (if negb (fst d =? 0) then Some EInvalidEvent
            else if parse && negb (pubkey_parses (ev_pubkey e)) then Some EInvalidKey
            else if schnorr_verify (ev_pubkey e) (ev_id e) (ev_sig e) then None
            else Some EInvalidSignature)
    | Err r => mret (Some r)
    | Undef => fun _ => Undef
    end
  end.
End Oom.
