(** Model of src/nip17.c and src/nip59.c (gift-wrapped messages), over the
    models of event.c and nip44.c.  Allocation succeeds; every random draw is a
    parameter ([None]: the generator fails), so is every reading of the clock. *)
From Verif Require Import Base Hex Json Event Nip44.
Open Scope N_scope.

(** A plaintext buffer read as a C string *)
Fixpoint until_nul (s : list N) : list N :=
  match s with
  | [] => []
  | c :: r => if c =? 0 then [] else c :: until_nul r
  end.

Definition KIND_SEAL : N := 13.
Definition KIND_DM : N := 14.
Definition KIND_GIFT_WRAP : N := 1059.
Definition TWO_DAYS : N := 172800.

Section Wrap.
Variable ser : event -> list N.
Variable sha256 : list N -> list N.
Variable pubkey_of : list N -> option (list N).
Variable schnorr_sign : list N -> list N -> list N -> option (list N).
Variable schnorr_verify : list N -> list N -> list N -> bool.
Variable pubkey_parses : list N -> bool.
Variable parse_pk : bool.
Variable seckey_valid : list N -> bool.
Variable nc_encrypt : list N -> list N -> list N -> list N -> option (list N * list N).
Variable nc_mac : list N -> list N -> list N.
Variable nc_verify : list N -> list N -> list N -> list N -> list N -> bool.
Variable nc_decrypt : list N -> list N -> list N -> list N -> option (list N).
Variable b64enc : list N -> list N.
Variable b64dec : list N -> option (list N).
Variable print : json -> list N.
Variable parse : list N -> option json.
(** The current configuration *)
Variable lim44 : limits.
Variable lim : option ev_limits.

(** src/event.c:134-145 the tag limit of nostr_event_add_tag (storage: Arena.v) *)
Definition add_tag (e : event) (t : list (list N)) : res event :=
  if match lim with Some l => max_tags l <=? N.of_nat (length (ev_tags e)) | None => false end then Err EInvalidParam
  else Ok (mkEvent (ev_id e) (ev_pubkey e) (ev_created e) (ev_kind e) (ev_tags e ++ [t]) (ev_content e) (ev_sig e)).

(** src/key.c:283-356 nostr_key_generate: at most 128 attempts *)
Fixpoint key_attempts (n : nat) (draws : list (option (list N))) : res (list N) :=
  match n with
  | O => Err EInvalidKey
  | S n' =>
    match draws with
    | Some k :: r => if seckey_valid k then Ok k else key_attempts n' r
    | _ => Err EMemory
    end
  end.
Definition key_generate (draws : list (option (list N))) : res (list N * list N) :=
  do sk <- key_attempts 128 draws;
  match pubkey_of sk with Some pk => Ok (sk, pk) | None => Err EInvalidKey end.

(** src/nip17.c:38-53 random_timestamp_past_two_days; [d] is the 32-bit draw *)
Definition random_timestamp (d : option N) (now : Z) : res Z :=
  match d with
  | None => Err EMemory
  | Some r => Ok (now - Z.of_N (r mod TWO_DAYS))%Z
  end.
(** src/nip59.c:25-35 randomize_timestamp *)
Definition randomize_timestamp (d : option N) (now : Z) : res Z :=
  match d with
  | None => Ok now
  | Some r => Ok (now - Z.of_N (r mod TWO_DAYS))%Z
  end.

(** Draws made while sealing and wrapping *)
Record seal_draws : Set := mkSealDraws { sd_nonce : option (list N); sd_time : option N; sd_now : Z; sd_aux : option (list N) }.
Record wrap_draws : Set := mkWrapDraws { wd_key : list (option (list N)); wd_nonce : option (list N); wd_time : option N; wd_now : Z; wd_aux : option (list N) }.

(** src/nip17.c:55-90 nostr_nip17_create_rumor; [now] is used for created_at = 0.
    src/nip59.c:287-326 nostr_nip59_create_rumor is the case created_at = 0
    (there the content may be NULL). *)
Definition create_rumor (kind : N) (pk : list N) (content : option (list N)) (created now : Z) : event :=
  compute_id ser sha256
    (mkEvent (repeat 0 32) pk (if (created =? 0)%Z then now else created) kind [] content (repeat 0 64)).

Definition encrypt := nip44_encrypt nc_encrypt nc_mac b64enc lim44.
Definition decrypt := nip44_decrypt nc_verify nc_decrypt b64dec lim44.

Section Seal.
Variable stamp : option N -> Z -> res Z.
(** src/nip17.c:92-195 nostr_nip17_create_seal and src/nip59.c:328-429
    nostr_nip59_create_seal, which differ in the timestamp function only *)
Definition create_seal (rumor : event) (sk pk : list N) (d : seal_draws) : res event :=
  do text <- encrypt sk pk (sd_nonce d) (event_to_json print rumor);
  do created <- stamp (sd_time d) (sd_now d);
  match pubkey_of sk with
  | None => Err EInvalidKey
  | Some own =>
    let seal := compute_id ser sha256 (mkEvent (repeat 0 32) own created KIND_SEAL [] (Some text) (repeat 0 64)) in
    match event_sign ser sha256 pubkey_of schnorr_sign seal sk (sd_aux d) with
    | (seal, Ok _) => Ok seal
    | (_, Err e) => Err e
    | (_, Undef) => Undef
    end
  end.
Fixpoint add_pairs (e : event) (l : list (list N)) : res event :=
  match l with
  | a :: b :: r => do e' <- add_tag e [a; b]; add_pairs e' r
  | _ => Ok e
  end.
(** src/nip17.c:197-290 nostr_nip17_create_gift_wrap and src/nip59.c:431-539
    nostr_nip59_create_gift_wrap (the latter with extra tags) *)
Definition create_gift_wrap (seal : event) (pk : list N) (extra : list (list N)) (d : wrap_draws) : res event :=
  do k <- key_generate (wd_key d);
  do text <- encrypt (fst k) pk (wd_nonce d) (event_to_json print seal);
  do created <- stamp (wd_time d) (wd_now d);
  do w <- add_tag (mkEvent (repeat 0 32) (snd k) created KIND_GIFT_WRAP [] (Some text) (repeat 0 64)) [bs "p"; hex_encode pk];
  do w <- add_pairs w extra;
  match event_sign ser sha256 pubkey_of schnorr_sign (compute_id ser sha256 w) (fst k) (wd_aux d) with
  | (w, Ok _) => Ok w
  | (_, Err e) => Err e
  | (_, Undef) => Undef
  end.
End Seal.

(** src/nip17.c:292-392 nostr_nip17_send_dm *)
Definition dm_rumor (content pk_own pk : list N) (subject reply_to : option (list N)) (created now : Z) : res event :=
  do r <- add_tag (create_rumor KIND_DM pk_own (Some content) created now) [bs "p"; hex_encode pk];
  do r <- match subject with Some s => add_tag r [bs "subject"; s] | None => Ok r end;
  match reply_to with Some i => add_tag r [bs "e"; hex_encode i] | None => Ok r end.
Definition send_dm (content sk pk : list N) (subject reply_to : option (list N)) (created now : Z) (sd : seal_draws) (wd : wrap_draws) : res event :=
  match pubkey_of sk with
  | None => Err EInvalidKey
  | Some own =>
    do rumor <- dm_rumor content own pk subject reply_to created now;
    do seal <- create_seal random_timestamp rumor sk pk sd;
    create_gift_wrap random_timestamp seal pk [] wd
  end.
(** src/nip59.c:37-218 nostr_nip59_wrap_event, which derives the author's key (72-108)
    before it encrypts *)
Definition wrap_event (e : event) (sk pk : list N) (sd : seal_draws) (wd : wrap_draws) : res event :=
  match pubkey_of sk with
  | None => Err EInvalidKey
  | Some _ =>
    do seal <- create_seal randomize_timestamp e sk pk sd;
    create_gift_wrap randomize_timestamp seal pk [] wd
  end.

(** The common part of both unwrap functions, src/nip17.c:404-455 and
    src/nip59.c:230-281: what is left in the sender's key, and the inner event *)
Definition open_content (sk pk : list N) (e : event) : res event :=
  match ev_content e with
  | None => Err EInvalidParam
  | Some c => do t <- decrypt sk pk c; event_from_json parse lim (until_nul t)
  end.
Definition open_wrap (wrap : event) (sk : list N) : option (list N) * res event :=
  if negb (ev_kind wrap =? KIND_GIFT_WRAP) then (None, Err EInvalidEvent)
  else
    match open_content sk (ev_pubkey wrap) wrap with
    | Ok seal =>
      if negb (ev_kind seal =? KIND_SEAL) then (None, Err EInvalidEvent)
      else
        match event_verify ser sha256 schnorr_verify pubkey_parses parse_pk seal with
        | Ok _ => (Some (ev_pubkey seal), open_content sk (ev_pubkey seal) seal)
        | Err e => (None, Err e)
        | Undef => (None, Undef)
        end
    | Err e => (None, Err e)
    | Undef => (None, Undef)
    end.
(** src/nip59.c:220-285 nostr_nip59_unwrap_event *)
Definition unwrap_event (wrap : event) (sk : list N) : option (list N) * res event := open_wrap wrap sk.
(** src/nip17.c:394-464 nostr_nip17_unwrap_dm *)
Definition unwrap_dm (wrap : event) (sk : list N) : option (list N) * res event :=
  match open_wrap wrap sk with
  | (Some spk, Ok rumor) => if beq (ev_pubkey rumor) spk then (Some spk, Ok rumor) else (Some spk, Err EInvalidEvent)
  | o => o
  end.
End Wrap.
