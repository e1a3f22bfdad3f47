(** Model of src/nip17.c and src/nip59.c when memory may run out.  What the functions
    compute is in GiftWrap.v; here is what they do with memory and what becomes of the
    caller's variables.  The library's own allocations while encrypting, decrypting or
    parsing one text count as one. *)
From Verif Require Import Base Heap Hex Json Event EventMem CjsonMem EventOom GiftWrap Nip46Mem.
Open Scope N_scope.

(** The function may look at every part of the event. *)
Definition use_opt (p : option nat) : M unit := match p with None => mret tt | Some _ => huse p end.
Definition read_event (c : cevent) : M unit :=
  let! _ := huse (Some (ce_self c)) in
  let! _ := use_opt (ce_content c) in
  let! _ := use_opt (ce_tags c) in
  huse (Some (ce_mem c)).
(** kind, pubkey and created_at are assigned *)
Definition fill (c : cevent) (kind : N) (pk : list N) (created : Z) : cevent :=
  let e := ce_val c in with_val c (mkEvent (ev_id e) pk created kind (ev_tags e) (ev_content e) (ev_sig e)).
(** extra tags come in pairs; an odd one is left out, src/nip59.c:507-508 *)
Fixpoint pair_tags (l : list (list N)) : list (list (list N)) :=
  match l with a :: b :: r => [a; b] :: pair_tags r | _ => [] end.

Section GiftWrapMem.
Variable grant : nat -> bool.
Variable print : json -> list N.
Variable parse : list N -> option json.
Variable encrypt : list N -> list N -> option (list N) -> list N -> res (list N).
Variable decrypt : list N -> list N -> list N -> res (list N).
Variable sha256 : list N -> list N.
Variable pubkey_of : list N -> option (list N).
Variable schnorr_sign : list N -> list N -> list N -> option (list N).
Variable schnorr_verify : list N -> list N -> list N -> bool.
Variable pubkey_parses : list N -> bool.
Variable parse_pk : bool.
Variable seckey_valid : list N -> bool.
Variable lim : option ev_limits.
Notation made := (M (option cevent * option err)).

(** ** Parts *)
(** the event as JSON, src/nip17.c:103-106, 216-220; src/nip59.c:56-59, 146-151 *)
Definition json_m (src : cevent) : M (option (nat * list N) * option err) :=
  let! _ := read_event src in to_json_m grant print (ce_val src).
(** encryption of a text, which is released, src/nip17.c:108-109, 222-223;
    src/nip59.c:111-112, 154-155, 346-347, 460-461 *)
Definition enc_m (b : nat) (r : res (list N)) : M (option (nat * list N) * option err) :=
  let! _ := huse (Some b) in
  let! c := text_m grant r in
  let! _ := hfree (Some b) in
  mret c.
(** the encrypted text becomes the content and is released, src/nip17.c:172-173, 247-248;
    src/nip59.c:118-119, 174-175, 405-406, 479-480 *)
Definition move_content (c : cevent) (q : nat) (t : list N) : M (cevent * option err) :=
  let! v := set_content grant c q t in
  let! _ := hfree (Some q) in
  mret v.
(** id and signature, src/nip17.c:180-194, 273-289; src/nip59.c:126-136, 201-217, 414-428, 522-538 *)
Definition finish_m (c : cevent) (sk : list N) (aux : option (list N)) : made :=
  let! x := compute_id_m (serialize_m grant print) sha256 (ce_val c) in
  match x with
  | (_, Some r) => abandon c r
  | (e, None) =>
    let! y := sign_m (serialize_m grant print) sha256 pubkey_of schnorr_sign e sk aux in
    match y with
    | (_, Some r) => abandon c r
    | (e, None) => let! _ := huse (Some (ce_self c)) in mret (Some (with_val c e), None)
    end
  end.
(** release the event and the encrypted text, src/nip17.c:123-126, 137-139, 239-242 *)
Definition drop (c : cevent) (q : nat) (x : err) : made :=
  let! _ := event_destroy (Some c) in
  let! _ := hfree (Some q) in
  mret (None, Some x).
Fixpoint tags_m (c : cevent) (ts : list (list (list N))) : M (cevent * option err) :=
  match ts with
  | [] => mret (c, None)
  | vs :: r =>
    let! v := EventMem.add_tag grant lim c vs in
    match v with
    | (c, Some x) => mret (c, Some x)
    | (c, None) => tags_m c r
    end
  end.

(** ** Sending.  First component of a result: what is left in the caller's variable,
    which held [old]. *)
(** src/nip17.c:55-90 nostr_nip17_create_rumor, src/nip59.c:287-326 nostr_nip59_create_rumor;
    the text lies in a block of the caller *)
Definition create_rumor_m (kind : N) (pk : list N) (content : option (nat * list N)) (created now : Z) : made :=
  let! v := event_create grant now in
  match v with
  | (p, Some x) => mret (p, Some x)
  | (None, None) => fun _ => Undef
  | (Some c, None) =>
    let c := fill c kind pk (if (created =? 0)%Z then now else created) in
    let! v := match content with Some (b, t) => set_content grant c b t | None => mret (c, None) end in
    match v with
    | (c, Some x) => abandon c x
    | (c, None) =>
      let! x := compute_id_m (serialize_m grant print) sha256 (ce_val c) in
      match x with
      | (_, Some r) => abandon c r
      | (e, None) => let! _ := huse (Some (ce_self c)) in mret (Some (with_val c (set_sig e (repeat 0 64))), None)
      end
    end
  end.

Section Stamp.
Variable stamp : option N -> Z -> res Z.
(** src/nip17.c:114-194, src/nip59.c:353-428 *)
Definition seal_from (q : nat) (t : list N) (sk : list N) (d : seal_draws) : made :=
  let! v := event_create grant (sd_now d) in
  match v with
  | (p, Some x) => let! _ := hfree (Some q) in mret (p, Some x)
  | (None, None) => fun _ => Undef
  | (Some c, None) =>
    match stamp (sd_time d) (sd_now d) with
    | Ok created =>
      match pubkey_of sk with
      | None => drop c q EInvalidKey
      | Some own =>
        let! v := move_content (fill c KIND_SEAL own created) q t in
        match v with
        | (c, Some x) => abandon c x
        | (c, None) => finish_m c sk (sd_aux d)
        end
      end
    | Err x => drop c q x
    | Undef => fun _ => Undef
    end
  end.
(** src/nip17.c:92-195 nostr_nip17_create_seal, src/nip59.c:328-429 nostr_nip59_create_seal *)
Definition create_seal_m (old : option cevent) (rumor : cevent) (sk pk : list N) (d : seal_draws) : made :=
  let! s := json_m rumor in
  match s with
  | (Some (b, s), None) =>
    let! c := enc_m b (encrypt sk pk (sd_nonce d) s) in
    match c with
    | (Some (q, t), _) => seal_from q t sk d
    | (None, Some x) => mret (old, Some x)
    | (None, None) => fun _ => Undef
    end
  | (_, Some x) => mret (old, Some x)
  | (None, None) => fun _ => Undef
  end.
(** src/nip17.c:229-289, src/nip59.c:163-217, 468-538 *)
Definition wrap_from (q : nat) (t : list N) (k : list N * list N) (pk : list N) (extra : list (list N)) (d : wrap_draws) : made :=
  let! v := event_create grant (wd_now d) in
  match v with
  | (p, Some x) => let! _ := hfree (Some q) in mret (p, Some x)
  | (None, None) => fun _ => Undef
  | (Some c, None) =>
    match stamp (wd_time d) (wd_now d) with
    | Ok created =>
      let! v := move_content (fill c KIND_GIFT_WRAP (snd k) created) q t in
      match v with
      | (c, Some x) => abandon c x
      | (c, None) =>
        let! v := tags_m c ([bs "p"; hex_encode pk] :: pair_tags extra) in
        match v with
        | (c, Some x) => abandon c x
        | (c, None) => finish_m c (fst k) (wd_aux d)
        end
      end
    | Err x => drop c q x
    | Undef => fun _ => Undef
    end
  end.
(** src/nip17.c:197-290 nostr_nip17_create_gift_wrap, src/nip59.c:431-539 nostr_nip59_create_gift_wrap *)
Definition create_gift_wrap_m (old : option cevent) (seal : cevent) (pk : list N) (extra : list (list N)) (d : wrap_draws) : made :=
  match key_generate pubkey_of seckey_valid (wd_key d) with
  | Ok k =>
    let! s := json_m seal in
    match s with
    | (Some (b, s), None) =>
      let! c := enc_m b (encrypt (fst k) pk (wd_nonce d) s) in
      match c with
      | (Some (q, t), _) => wrap_from q t k pk extra d
      | (None, Some x) => mret (old, Some x)
      | (None, None) => fun _ => Undef
      end
    | (_, Some x) => mret (old, Some x)
    | (None, None) => fun _ => Undef
    end
  | Err x => mret (old, Some x)
  | Undef => fun _ => Undef
  end.
End Stamp.

Definition dm_tags (pk : list N) (subject reply_to : option (list N)) : list (list (list N)) :=
  [bs "p"; hex_encode pk] :: (match subject with Some s => [[bs "subject"; s]] | None => [] end)
    ++ match reply_to with Some i => [[bs "e"; hex_encode i]] | None => [] end.
(** src/nip17.c:292-392 nostr_nip17_send_dm; the text of the message lies in the caller's block [src] *)
Definition send_dm_m (old : option cevent) (src : nat) (content sk pk : list N) (subject reply_to : option (list N)) (created now : Z) (sd : seal_draws) (wd : wrap_draws) : made :=
  match pubkey_of sk with
  | None => mret (old, Some EInvalidKey)
  | Some own =>
    let! v := create_rumor_m KIND_DM own (Some (src, content)) created now in
    match v with
    | (_, Some x) => mret (old, Some x)
    | (None, None) => fun _ => Undef
    | (Some rumor, None) =>
      let! v := tags_m rumor (dm_tags pk subject reply_to) in
      match v with
      | (rumor, Some x) => let! _ := event_destroy (Some rumor) in mret (old, Some x)
      | (rumor, None) =>
        let! v := create_seal_m random_timestamp None rumor sk pk sd in
        let! _ := event_destroy (Some rumor) in
        match v with
        | (_, Some x) => mret (old, Some x)
        | (None, None) => fun _ => Undef
        | (Some seal, None) =>
          let! v := create_gift_wrap_m random_timestamp old seal pk [] wd in
          let! _ := event_destroy (Some seal) in
          mret v
        end
      end
    end
  end.
(** src/nip59.c:61-136: the seal, made from the JSON text in block [b] *)
Definition inner_seal (b : nat) (s : list N) (sk pk : list N) (d : seal_draws) : made :=
  let! v := event_create grant (sd_now d) in
  match v with
  | (p, Some x) => let! _ := hfree (Some b) in mret (p, Some x)
  | (None, None) => fun _ => Undef
  | (Some c, None) =>
    match randomize_timestamp (sd_time d) (sd_now d) with
    | Ok created =>
      match pubkey_of sk with
      | None => drop c b EInvalidKey
      | Some own =>
        let c := fill c KIND_SEAL own created in
        let! v := enc_m b (encrypt sk pk (sd_nonce d) s) in
        match v with
        | (None, Some x) => abandon c x
        | (None, None) => fun _ => Undef
        | (Some (q, t), _) =>
          let! v := move_content c q t in
          match v with
          | (c, Some x) => abandon c x
          | (c, None) => finish_m c sk (sd_aux d)
          end
        end
      end
    | _ => fun _ => Undef
    end
  end.
(** src/nip59.c:37-218 nostr_nip59_wrap_event *)
Definition wrap_event_m (old : option cevent) (e : cevent) (sk pk : list N) (sd : seal_draws) (wd : wrap_draws) : made :=
  let! s := json_m e in
  match s with
  | (Some (b, s), None) =>
    let! v := inner_seal b s sk pk sd in
    match v with
    | (_, Some x) => mret (old, Some x)
    | (None, None) => fun _ => Undef
    | (Some seal, None) =>
      match key_generate pubkey_of seckey_valid (wd_key wd) with
      | Ok k =>
        let! s := json_m seal in
        match s with
        | (Some (b, s), None) =>
          let! c := enc_m b (encrypt (fst k) pk (wd_nonce wd) s) in
          let! _ := event_destroy (Some seal) in
          match c with
          | (Some (q, t), _) => wrap_from randomize_timestamp q t k pk [] wd
          | (None, Some x) => mret (old, Some x)
          | (None, None) => fun _ => Undef
          end
        | (_, Some x) => let! _ := event_destroy (Some seal) in mret (old, Some x)
        | (None, None) => fun _ => Undef
        end
      | Err x => let! _ := event_destroy (Some seal) in mret (old, Some x)
      | Undef => fun _ => Undef
      end
    end
  | (_, Some x) => mret (old, Some x)
  | (None, None) => fun _ => Undef
  end.

(** ** Receiving *)
(** decryption of an event's content, src/nip17.c:412, 443; src/nip59.c:239, 271 *)
Definition open_m (src : cevent) (sk : list N) : M (option (nat * list N) * option err) :=
  let! _ := huse (Some (ce_self src)) in
  let! _ := use_opt (ce_content src) in
  text_m grant (match ev_content (ce_val src) with None => Err EInvalidParam | Some c => decrypt sk (ev_pubkey (ce_val src)) c end).
(** the decrypted text is read as an event, wiped and released, src/nip17.c:418-420, 450-452;
    src/nip59.c:246-248, 279-281 *)
Definition import_m (old : option cevent) (b : nat) (t : list N) : made :=
  let! _ := huse (Some b) in
  let! v := from_json grant lim parse old (until_nul t) in
  let! _ := huse (Some b) in
  let! _ := hfree (Some b) in
  mret v.
(** the seal, checked: src/nip17.c:408-434, src/nip59.c:234-263 *)
Definition open_seal_m (wrap : cevent) (sk : list N) : made :=
  let! _ := huse (Some (ce_self wrap)) in
  if negb (ev_kind (ce_val wrap) =? KIND_GIFT_WRAP) then mret (None, Some EInvalidEvent)
  else
    let! d := open_m wrap sk in
    match d with
    | (None, Some x) => mret (None, Some x)
    | (None, None) => fun _ => Undef
    | (Some (b, t), _) =>
      let! v := import_m None b t in
      match v with
      | (_, Some x) => mret (None, Some x)
      | (None, None) => fun _ => Undef
      | (Some seal, None) =>
        if negb (ev_kind (ce_val seal) =? KIND_SEAL) then abandon seal EInvalidEvent
        else
          let! x := verify_m (serialize_m grant print) sha256 schnorr_verify pubkey_parses parse_pk (ce_val seal) in
          match x with
          | Some r => abandon seal r
          | None => mret (Some seal, None)
          end
      end
    end.
(** src/nip17.c:394-464 nostr_nip17_unwrap_dm: the caller's event variable, what is
    written to the sender's key, and the error *)
Definition unwrap_dm_m (old : option cevent) (wrap : cevent) (sk : list N) : M (option cevent * option (list N) * option err) :=
  let! s := open_seal_m wrap sk in
  match s with
  | (_, Some x) => mret (old, None, Some x)
  | (None, None) => fun _ => Undef
  | (Some seal, None) =>
    let spk := ev_pubkey (ce_val seal) in
    let! d := open_m seal sk in
    let! _ := event_destroy (Some seal) in
    match d with
    | (None, Some x) => mret (old, Some spk, Some x)
    | (None, None) => fun _ => Undef
    | (Some (b, t), _) =>
      let! v := import_m old b t in
      match v with
      | (p, Some x) => mret (p, Some spk, Some x)
      | (None, None) => fun _ => Undef
      | (Some rumor, None) =>
        let! _ := huse (Some (ce_self rumor)) in
        if beq (ev_pubkey (ce_val rumor)) spk then mret (Some rumor, Some spk, None)
        else let! _ := event_destroy (Some rumor) in mret (None, Some spk, Some EInvalidEvent)
      end
    end
  end.
(** src/nip59.c:220-285 nostr_nip59_unwrap_event *)
Definition unwrap_event_m (old : option cevent) (wrap : cevent) (sk : list N) : M (option cevent * option (list N) * option err) :=
  let! s := open_seal_m wrap sk in
  match s with
  | (_, Some x) => mret (old, None, Some x)
  | (None, None) => fun _ => Undef
  | (Some seal, None) =>
    let spk := ev_pubkey (ce_val seal) in
    let! d := open_m seal sk in
    match d with
    | (None, Some x) => let! _ := event_destroy (Some seal) in mret (old, Some spk, Some x)
    | (None, None) => fun _ => Undef
    | (Some (b, t), _) =>
      let! v := import_m old b t in
      let! _ := event_destroy (Some seal) in
      mret (fst v, Some spk, snd v)
    end
  end.
End GiftWrapMem.
