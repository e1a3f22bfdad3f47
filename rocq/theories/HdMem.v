(** Model of src/hd_key.c when memory may run out: the copies of paths and words
    and the salt.  What is computed is in HdKey.v. *)
From Verif Require Import Base Heap HdKey KeyPair EventMem Nip21Mem.
Open Scope N_scope.

(** wiping a block and releasing it; wiping nothing releases nothing *)
Definition wipe_free (p : option nat) : M unit :=
  match p with None => mret tt | Some b => let! _ := huse (Some b) in hfree (Some b) end.

Section Mem.
Variable grant : nat -> bool.

Section Path.
Variable key : Type.
Variable derive : key -> N -> res key.
(** src/hd_key.c:208-279 nostr_hd_key_derive_path; strtok_r writes to the copy *)
Definition derive_path_m (master : key) (path : list N) : M (ans key) :=
  match path with
  | c :: r =>
    if negb (c =? 109) then mret (inr EInvalidParam)
    else match r with
         | [] => mret (inl master)
         | s :: r =>
           if s =? 47 then
             let! p := ealloc grant in
             match p with
             | None => mret (inr EMemory)
             | Some b =>
               let! _ := huse (Some b) in
               let! k := lift (derive_tokens key derive master (tokens 47 r)) in
               let! _ := wipe_free (Some b) in
               mret k
             end
           else mret (inr EInvalidParam)
         end
  | [] => mret (inr EInvalidParam)
  end.
End Path.

Variable wl : list (list N).
Variable sha256 : list N -> list N.
(** src/hd_key.c:379-458 nostr_mnemonic_validate *)
Definition mnemonic_validate_m (s : list N) : M (ans unit) :=
  if (length s =? 0)%nat then mret (inr EInvalidParam)
  else
    let! p := ealloc grant in
    match p with
    | None => mret (inr EMemory)
    | Some b =>
      let! _ := huse (Some b) in
      let! idx := lift (word_indices wl 24 (tokens 32 s)) in
      let! _ := wipe_free (Some b) in
      match idx with
      | inr x => mret (inr x)
      | inl idx => lift (check_indices sha256 idx)
      end
    end.

(** utf8proc's NFKD (None: the text is no UTF-8), or None in the build without it *)
Variable nfkd : option (list N -> option (list N)).
(** src/hd_key.c:461-466 nfkd_normalize: a new block *)
Definition nfkd_m (f : list N -> option (list N)) (s : list N) : M (option (nat * list N)) :=
  let! p := ealloc grant in
  match p with
  | None => mret None
  | Some b => match f s with
              | Some t => mret (Some (b, t))
              | None => let! _ := hfree (Some b) in mret None
              end
  end.
Variable pbkdf2 : list N -> list N -> option (list N).
(** src/hd_key.c:507-533, 542-561: the salt and the seed; [bm], [bp]: blocks of the
    normalised texts *)
Definition salted (bm bp : option nat) (m p : list N) : M (ans (list N)) :=
  let! s := ealloc grant in
  match s with
  | None =>
    let! _ := hfree bm in
    let! _ := hfree bp in
    mret (inr EMemory)
  | Some b =>
    let! _ := huse (Some b) in
    let r := pbkdf2 m (bs "mnemonic" ++ p) in
    let! _ := wipe_free (Some b) in
    let! _ := wipe_free bm in
    let! _ := wipe_free bp in
    mret match r with Some seed => inl seed | None => inr EMemory end
  end.
(** src/hd_key.c:468-475 is_ascii_string *)
Definition ascii (s : list N) : bool := forallb (fun c => c <=? 127) s.
(** src/hd_key.c:478-562 nostr_mnemonic_to_seed *)
Definition mnemonic_to_seed_m (s : list N) (pass : option (list N)) : M (ans (list N)) :=
  let! v := mnemonic_validate_m s in
  match v with
  | inr x => mret (inr x)
  | inl _ =>
    match nfkd with
    | Some f =>
      let! m := nfkd_m f s in
      match m with
      | None => mret (inr EMemory)
      | Some (bm, m) =>
        match pass with
        | None => salted (Some bm) None m []
        | Some p =>
          let! p := nfkd_m f p in
          match p with
          | None => let! _ := hfree (Some bm) in mret (inr EMemory)
          | Some (bp, p) => salted (Some bm) (Some bp) m p
          end
        end
      end
    | None =>
      if negb (ascii s) || negb (match pass with Some p => ascii p | None => true end) then mret (inr EInvalidParam)
      else salted None None s (match pass with Some p => p | None => [] end)
    end
  end.

Variable hmac512 : list N -> list N -> option (list N).
Variable pub_compressed : list N -> option (list N).
Variable tweak_add : list N -> list N -> option (list N).
Variable pub_xonly : list N -> option (list N).
Definition seed_key (seed : list N) : res hd_key :=
  let '(r, k) := hd_from_seed hmac512 pub_xonly seed hd_zero in do _ <- r; Ok k.
Definition child_key (k : hd_key) (i : N) : res hd_key :=
  let '(r, c) := hd_derive hmac512 pub_compressed tweak_add pub_xonly k i in do _ <- r; Ok c.
(** src/hd_key.c:281-294 nostr_hd_key_to_keypair *)
Definition hd_to_keypair (k : hd_key) : keypair := mkKP (h_priv k) (h_pub k) true.
(** src/hd_key.c:564-598 nostr_mnemonic_to_keypair; [kp]: the caller's pair before
    the call *)
Definition mnemonic_to_keypair_m (s : list N) (pass : option (list N)) (account : N) (kp : keypair) : M (keypair * option err) :=
  let! seed := mnemonic_to_seed_m s pass in
  match seed with
  | inr x => mret (kp, Some x)
  | inl seed =>
    let! master := lift (seed_key seed) in
    match master with
    | inr x => mret (kp, Some x)
    | inl master =>
      let! k := derive_path_m hd_key child_key master (account_path account) in
      match k with
      | inr x => mret (kp, Some x)
      | inl k => mret (hd_to_keypair k, None)
      end
    end
  end.
End Mem.
