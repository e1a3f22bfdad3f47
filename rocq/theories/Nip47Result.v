(** Model of the wallet's answers: src/nip47_commands.c:337-523 and the end of
    the response and notification readers, src/nip47.c:608-656, 816-843. *)
From Verif Require Import Base Heap Json Strto GiftWrap EventMem.
Open Scope N_scope.

(** What a call did to one of the caller's variables: nothing, or stored a value
    ([None]: the null pointer). *)
Inductive cell (A : Type) : Type := Kept | Stored (v : option A).
Arguments Kept {A}. Arguments Stored {A} v.
(** A string and its block. *)
Definition text : Set := nat * list N.

(** (uint64_t)valuedouble, (uint32_t)valuedouble: undefined when the value does
    not fit *)
Definition j_unsigned (bits : Z) (n : jnum) : res N :=
  match n with
  | JFin m e => let t := jtrunc m e in if (0 <=? t)%Z && (t <? 2 ^ bits)%Z then Ok (Z.to_N t) else Undef
  | _ => Undef
  end.

Section Results.
Variable grant : nat -> bool.
Variable parse : list N -> option json.
Variable print : json -> list N.
(** strdup *)
Definition dup (s : list N) : M (option text) :=
  let! p := ealloc grant in mret (option_map (fun b => (b, until_nul s)) p).
(** cJSON_Parse: the tree counts as one block *)
Definition parse_tree (t : list N) : M (option (nat * json)) :=
  let! p := ealloc grant in
  match p with
  | None => mret None
  | Some b => match parse t with Some j => mret (Some (b, j)) | None => let! _ := hfree (Some b) in mret None end
  end.
(** if (wanted) { item = get(root, key); if (item && is_string(item)) *out = strdup(...) } *)
Definition read_text (want : bool) (j : json) (key : list N) : M (cell text) :=
  if want then match jget key j with Some (JStr s) => let! r := dup s in mret (Stored r) | _ => mret Kept end else mret Kept.
Definition read_unsigned (want : bool) (bits : Z) (j : json) (key : list N) : M (cell N) :=
  if want then
    match jget key j with
    | Some (JNum n) => match j_unsigned bits n with Ok v => mret (Stored (Some v)) | _ => fun _ => Undef end
    | _ => mret Kept
    end
  else mret Kept.
(** ... *out = cJSON_PrintUnformatted(item) *)
Definition read_tree (want : bool) (j : json) (key : list N) : M (cell text) :=
  if want then
    match jget key j with
    | Some v => let! p := ealloc grant in mret (Stored (option_map (fun b => (b, print v)) p))
    | None => mret Kept
    end
  else mret Kept.

(** src/nip47_commands.c:351-384 nostr_nip47_parse_balance_response *)
Definition parse_balance (t : list N) : M (cell N * option err) :=
  let! r := parse_tree t in
  match r with
  | None => mret (Kept, Some EInvalidParam)
  | Some (b, j) =>
    match jget (bs "balance") j with
    | Some (JNum n) =>
      match j_unsigned 64 n with
      | Ok v => let! _ := hfree (Some b) in mret (Stored (Some v), None)
      | _ => fun _ => Undef
      end
    | _ => let! _ := hfree (Some b) in mret (Kept, Some EInvalidParam)
    end
  end.
(** src/nip47_commands.c:386-442 nostr_nip47_parse_pay_invoice_response; the flags
    say which outputs the caller gave *)
Definition parse_payment (t : list N) (want_preimage want_fees : bool) : M (cell text * cell N * option err) :=
  let! r := parse_tree t in
  match r with
  | None => mret (Kept, Kept, Some EInvalidParam)
  | Some (b, j) =>
    let! p := read_text want_preimage j (bs "preimage") in
    let! f := read_unsigned want_fees 64 j (bs "fees_paid") in
    let! _ := hfree (Some b) in
    mret (p, f, None)
  end.
(** src/nip47_commands.c:497-505: the entries of the new array; [Kept] ones are
    whatever malloc gave *)
Fixpoint read_methods (l : list json) : M (list (cell text)) :=
  match l with
  | [] => mret []
  | x :: r =>
    let! c := match x with JStr s => let! d := dup s in mret (Stored d) | _ => mret Kept end in
    let! cs := read_methods r in
    mret (c :: cs)
  end.
(** The array and its entries; *method_count beside it. *)
Record methods : Set := mkMethods { me_array : cell (nat * list (cell text)); me_count : cell N }.
Record winfo : Set := mkWinfo { w_alias : cell text; w_color : cell text; w_pubkey : cell text; w_network : cell text; w_height : cell N; w_methods : methods }.
Definition no_info : winfo := mkWinfo Kept Kept Kept Kept Kept (mkMethods Kept Kept).
(** src/nip47_commands.c:444-523 nostr_nip47_parse_info_response, all outputs
    requested.  An empty array is taken to be allocated. *)
Definition parse_info (t : list N) : M (winfo * option err) :=
  let! r := parse_tree t in
  match r with
  | None => mret (no_info, Some EInvalidParam)
  | Some (b, j) =>
    let! al := read_text true j (bs "alias") in
    let! co := read_text true j (bs "color") in
    let! pk := read_text true j (bs "pubkey") in
    let! ne := read_text true j (bs "network") in
    let! he := read_unsigned true 32 j (bs "block_height") in
    let! me := match jget (bs "methods") j with
               | Some (JArr l) =>
                 let! p := ealloc grant in
                 match p with
                 | None => mret (mkMethods (Stored None) (Stored (Some (N.of_nat (length l)))))
                 | Some a => let! cs := read_methods l in mret (mkMethods (Stored (Some (a, cs))) (Stored (Some (N.of_nat (length l)))))
                 end
               | _ => mret (mkMethods Kept Kept)
               end in
    let! _ := hfree (Some b) in
    mret (mkWinfo al co pk ne he me, None)
  end.
(** src/nip47.c:608-656, all outputs requested: the decrypted text and its block;
    type, result, error code, error message *)
Definition read_response (d : text) : M (cell text * cell text * cell text * cell text * option err) :=
  let! r := parse_tree (until_nul (snd d)) in
  match r with
  | None => let! _ := hfree (Some (fst d)) in mret (Kept, Kept, Kept, Kept, Some EInvalidParam)
  | Some (b, j) =>
    let! ty := read_text true j (bs "result_type") in
    let! rs := read_tree true j (bs "result") in
    let! em := match jget (bs "error") j with
               | Some e => let! c := read_text true e (bs "code") in let! m := read_text true e (bs "message") in mret (c, m)
               | None => mret (Kept, Kept)
               end in
    let! _ := hfree (Some b) in
    let! _ := hfree (Some (fst d)) in
    mret (ty, rs, fst em, snd em, None)
  end.
(** src/nip47.c:816-843, likewise *)
Definition read_notification (d : text) : M (cell text * cell text * option err) :=
  let! r := parse_tree (until_nul (snd d)) in
  match r with
  | None => let! _ := hfree (Some (fst d)) in mret (Kept, Kept, Some EInvalidParam)
  | Some (b, j) =>
    let! ty := read_text true j (bs "notification_type") in
    let! no := read_tree true j (bs "notification") in
    let! _ := hfree (Some b) in
    let! _ := hfree (Some (fst d)) in
    mret (ty, no, None)
  end.
End Results.

(** ** The build without cJSON *)
(** strstr, and the text after what was found *)
Fixpoint after (sub s : list N) : option (list N) :=
  if beq (firstn (length sub) s) sub then Some (skipn (length sub) s)
  else match s with [] => None | _ :: r => after sub r end.
(** src/nip47_commands.c:373-381 *)
Definition parse_balance_own (t : list N) : cell N * option err :=
  match after (bs """balance"":") t with
  | None => (Kept, Some EInvalidParam)
  | Some r => (Stored (Some (fst (strtoul r))), None)
  end.
(** strchr *)
Fixpoint until (c : N) (s : list N) : option (list N) :=
  match s with [] => None | x :: r => if x =? c then Some [] else option_map (cons x) (until c r) end.
(** src/nip47_commands.c:414-439; memory is granted *)
Definition parse_payment_own (t : list N) : cell (list N) * cell N :=
  (match after (bs """preimage"":""") t with
   | Some r => match until 34 r with Some p => Stored (Some p) | None => Kept end
   | None => Kept
   end,
   match after (bs """fees_paid"":") t with Some r => Stored (Some (fst (strtoul r))) | None => Kept end).
