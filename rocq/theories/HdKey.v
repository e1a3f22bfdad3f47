(** Model of src/hd_key.c (NIP-06: HD keys and mnemonics). *)
From Verif Require Import Base Dec Strto Bip39Words.
Open Scope N_scope.

(** strtok_r over a text with a one-character delimiter set: the maximal runs
    of other characters. *)
Fixpoint tok_go (d : N) (cur : list N) (s : list N) : list (list N) :=
  match s with
  | [] => match cur with [] => [] | _ => [cur] end
  | c :: r => if c =? d then match cur with [] => tok_go d [] r | _ => cur :: tok_go d [] r end
              else tok_go d (cur ++ [c]) r
  end.
Definition tokens (d : N) (s : list N) : list (list N) := tok_go d [] s.

(** ** Child derivation *)
Record hd_key : Set := mkHd { h_priv : list N; h_pub : list N; h_chain : list N }.
Definition hd_zero : hd_key := mkHd (repeat 0 32) (repeat 0 32) (repeat 0 32).

Section Crypto.
(** OpenSSL's HMAC-SHA512, key and data (None on failure); compressed public key of a
    secret; addition of a tweak to a secret; x-only public key of a secret. *)
Variable hmac512 : list N -> list N -> option (list N).
Variable pub_compressed : list N -> option (list N).
Variable tweak_add : list N -> list N -> option (list N).
Variable pub_xonly : list N -> option (list N).

(** htonl *)
Definition be32 (i : N) : list N :=
  [N.land (N.shiftr i 24) 255; N.land (N.shiftr i 16) 255; N.land (N.shiftr i 8) 255; N.land i 255].

(** src/hd_key.c:37-99 nostr_hd_key_from_seed (non-NULL arguments): the code
    and the caller's key afterwards *)
Definition hd_from_seed (seed : list N) (out : hd_key) : res unit * hd_key :=
  if (length seed <? 16)%nat || (64 <? length seed)%nat then (Err EInvalidParam, out)
  else match hmac512 (bs "Bitcoin seed") seed with
       | None => (Err EMemory, hd_zero)
       | Some h =>
         let k := firstn 32 h in
         match pub_xonly k with
         | None => (Err EInvalidKey, hd_zero)
         | Some p => (Ok tt, mkHd k p (skipn 32 h))
         end
       end.

(** src/hd_key.c:101-206 nostr_hd_key_derive: the code and the child *)
Definition hd_derive (parent : hd_key) (index : N) : res unit * hd_key :=
  let data :=
    if N.testbit index 31 then Some ([0] ++ h_priv parent ++ be32 index)
    else match pub_compressed (h_priv parent) with
         | Some c => Some (c ++ be32 index)
         | None => None
         end in
  match data with
  | None => (Err EInvalidKey, hd_zero)
  | Some data =>
    match hmac512 (h_chain parent) data with
    | None => (Err EMemory, hd_zero)
    | Some h =>
      let chain := skipn 32 h in
      match tweak_add (h_priv parent) (firstn 32 h) with
      | None => (Err EInvalidKey, mkHd (repeat 0 32) (repeat 0 32) chain)
      | Some k =>
        match pub_xonly k with
        | None => (Err EInvalidKey, mkHd k (repeat 0 32) chain)
        | Some p => (Ok tt, mkHd k p chain)
        end
      end
    end
  end.
End Crypto.

(** ** Paths, over any child derivation *)
Section Path.
Variable key : Type.
Variable derive : key -> N -> res key.

(** src/hd_key.c:236-255: one token.  strtoul's 64-bit result is stored in a
    uint32_t before the range check. *)
Definition token_index (t : list N) : option N :=
  let last := nth (length t - 1) t 0 in
  let hardened := (last =? 39) || (last =? 104) in
  let t := if hardened then firstn (length t - 1) t else t in
  let '(v, rest) := strtoul t in
  let index := to_u32 v in
  if negb (length rest =? 0)%nat || (2147483648 <=? index) then None
  else Some (if hardened then N.lor index 2147483648 else index).

(** src/hd_key.c:233-271, the loop over the tokens *)
Fixpoint derive_tokens (cur : key) (ts : list (list N)) : res key :=
  match ts with
  | [] => Ok cur
  | t :: r =>
    match token_index t with
    | None => Err EInvalidParam
    | Some i => do next <- derive cur i; derive_tokens next r
    end
  end.

(** src/hd_key.c:208-279 nostr_hd_key_derive_path (strdup assumed to succeed);
    the derived key is written only on success *)
Definition derive_path (master : key) (path : list N) : res key :=
  match path with
  | c :: r =>
    if negb (c =? 109) then Err EInvalidParam
    else match r with
         | [] => Ok master
         | s :: r => if s =? 47 then derive_tokens master (tokens 47 r) else Err EInvalidParam
         end
  | [] => Err EInvalidParam
  end.
End Path.

(** ** Mnemonics *)

(** strcmp, on unsigned characters *)
Fixpoint strcmp (a b : list N) : comparison :=
  match a, b with
  | [], [] => Eq
  | [], _ :: _ => Lt
  | _ :: _, [] => Gt
  | x :: a', y :: b' => match x ?= y with Eq => strcmp a' b' | c => c end
  end.

Section Words.
Variable wl : list (list N).            (* bip39_wordlist *)
Variable sha256 : list N -> list N.

(** src/hd_key.c:301-312, the loop of the binary search *)
Fixpoint word_search (fuel : nat) (word : list N) (left right : Z) : res Z :=
  match fuel with
  | O => Undef
  | S f =>
    if (left <=? right)%Z then
      let mid := (left + (right - left) / 2)%Z in
      match strcmp word (nth (Z.to_nat mid) wl []) with
      | Eq => Ok mid
      | Lt => word_search f word left (mid - 1)
      | Gt => word_search f word (mid + 1) right
      end
    else Ok (-1)%Z
  end.
(** src/hd_key.c:296-313 bip39_word_index *)
Definition word_index (word : list N) : res Z :=
  word_search 13 word 0 (Z.of_nat (length wl) - 1).

(** src/hd_key.c:346-354, the 11 bits of word [i] *)
Definition word_at (combined : list N) (i : nat) : N :=
  let bit_offset := (i * 11)%nat in
  let o := (bit_offset / 8)%nat in
  let s := (bit_offset mod 8)%nat in
  let w := N.lor (N.lor (N.shiftl (nth o combined 0) 16) (N.shiftl (nth (o + 1) combined 0) 8))
                 (nth (o + 2) combined 0) in
  N.land (N.shiftr w (N.of_nat (24 - 11 - s))) 2047.

(** src/hd_key.c:345-371, words [i ..] appended to the text written so far *)
Fixpoint write_words (combined : list N) (size : nat) (n i : nat) (text : list N) : res (list N) :=
  match n with
  | O => Ok text
  | S n' =>
    let word := nth (N.to_nat (word_at combined i)) wl [] in
    let sep := if (0 <? i)%nat then [32] else [] in
    if (size <=? length text + length word + length sep)%nat then Err EInvalidParam
    else write_words combined size n' (S i) (text ++ sep ++ word)
  end.

(** src/hd_key.c:315-377 nostr_mnemonic_generate (non-NULL buffer); [rnd] is
    the RNG draw of the size it is given *)
Definition mnemonic_generate (count : Z) (size : nat) (rnd : nat -> option (list N)) : res (list N) :=
  if (size =? 0)%nat then Err EInvalidParam
  else
    let gen (bytes words : nat) :=
      match rnd bytes with
      | None => Err EMemory
      | Some ent =>
        let combined := ent ++ [nth 0 (sha256 ent) 0] ++ repeat 0 (33 - bytes) in
        write_words combined size words 0 []
      end in
    if (count =? 12)%Z then gen 16%nat 12%nat
    else if (count =? 24)%Z then gen 32%nat 24%nat
    else Err EInvalidParam.

(** src/hd_key.c:394-411, the words one by one *)
Fixpoint word_indices (n : nat) (ws : list (list N)) : res (list N) :=
  match ws with
  | [] => Ok []
  | w :: r =>
    match n with
    | O => Err EInvalidParam
    | S n' =>
      do i <- word_index w;
      if (i <? 0)%Z then Err EInvalidParam
      else do l <- word_indices n' r; Ok (Z.to_N i :: l)
    end
  end.

(** src/hd_key.c:431-441: bit [b] of index [i] or-ed into the entropy array *)
Definition or_bit (e : list N) (idx : list N) (p : nat) : res (list N) :=
  let byte := (p / 8)%nat in
  let bit := (7 - p mod 8)%nat in
  if N.testbit (nth (p / 11) idx 0) (N.of_nat (10 - p mod 11)) then
    if (byte <? length e)%nat then
      Ok (firstn byte e ++ [N.lor (nth byte e 0) (N.shiftl 1 (N.of_nat bit))] ++ skipn (S byte) e)
    else Undef
  else Ok e.
Fixpoint or_bits (e : list N) (idx : list N) (ps : list nat) : res (list N) :=
  match ps with
  | [] => Ok e
  | p :: r => do e <- or_bit e idx p; or_bits e idx r
  end.

(** src/hd_key.c:416-458, from the indices to the verdict *)
Definition check_indices (idx : list N) : res unit :=
  let go (bytes cs : nat) :=
    do e <- or_bits (repeat 0 33) idx (seq 0 (length idx * 11));
    let h0 := nth 0 (sha256 (firstn bytes e)) 0 in
    let mask := N.shiftl 1 (N.of_nat cs) - 1 in
    let expected := N.land (N.shiftr h0 (N.of_nat (8 - cs))) mask in
    let actual := N.shiftr (nth bytes e 0) (N.of_nat (8 - cs)) in
    if expected =? actual then Ok tt else Err EInvalidParam in
  if (length idx =? 12)%nat then go 16%nat 4%nat
  else if (length idx =? 24)%nat then go 32%nat 8%nat
  else Err EInvalidParam.

(** src/hd_key.c:379-458 nostr_mnemonic_validate (strdup assumed to succeed) *)
Definition mnemonic_validate (s : list N) : res unit :=
  if (length s =? 0)%nat then Err EInvalidParam
  else do idx <- word_indices 24 (tokens 32 s); check_indices idx.

(** src/hd_key.c:478-562 nostr_mnemonic_to_seed: [norm] is NFKD normalisation
    (or the check for ASCII in the build without utf8proc) *)
Variable norm : list N -> res (list N).
Variable pbkdf2 : list N -> list N -> option (list N).   (* password, salt; 2048 rounds *)
Definition mnemonic_to_seed (s : list N) (pass : option (list N)) : res (list N) :=
  do _ <- mnemonic_validate s;
  do m <- norm s;
  do p <- (match pass with None => Ok [] | Some p => norm p end);
  match pbkdf2 m (bs "mnemonic" ++ p) with
  | Some seed => Ok seed
  | None => Err EMemory
  end.

(** src/hd_key.c:564-598 nostr_mnemonic_to_keypair, up to the derived key *)
Variable key : Type.
Variable from_seed : list N -> res key.
Variable derive : key -> N -> res key.
Definition account_path (account : N) : list N :=
  bs "m/44'/1237'/" ++ dec_N account ++ bs "'/0/0".
Definition mnemonic_to_key (s : list N) (pass : option (list N)) (account : N) : res key :=
  do seed <- mnemonic_to_seed s pass;
  do master <- from_seed seed;
  derive_path key derive master (account_path account).
End Words.
