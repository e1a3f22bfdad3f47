(** Reposts (NIP-18), reactions (NIP-25) and quotes, over tags and texts. *)
From Verif Require Import Base Dec HexSpec Nip26Spec Nip21.
Open Scope N_scope.

Definition tag : Type := list (list N).
(** 64 hexadecimal digits. *)
Definition hex64 (s : list N) : Prop := length s = 64%nat /\ all_hex s.
(** What the last tag that says something says; [d] if none does. *)
Definition latest {B} (says : tag -> B -> Prop) (d : B) (ts : list tag) (x : B) : Prop :=
  (exists a t b, ts = a ++ t :: b /\ says t x /\ Forall (fun u => forall y, ~ says u y) b) \/
  (Forall (fun u => forall y, ~ says u y) ts /\ x = d).
(** A tag [n, v, ...] says [v]. *)
Definition says_value (n : list N) (t : tag) (x : option (list N)) : Prop := exists v r, t = n :: v :: r /\ x = Some v.
(** A tag ["e", id, relay, ...] says [relay]. *)
Definition says_relay (t : tag) (x : option (list N)) : Prop := exists id v r, t = bs "e" :: id :: v :: r /\ x = Some v.
(** A numeral as strtoul reads it: white space, sign, digits, and nothing else;
    a minus sign counts down from 2^64. *)
Definition numeral (s : list N) (k : N) : Prop :=
  exists neg v, loose_number s neg v /\ v < 2 ^ 64 /\ Z.of_N k = (signed neg v mod 2 ^ 64)%Z.
Definition says_kind (t : tag) (k : N) : Prop := exists v r, t = bs "k" :: v :: r /\ numeral v k /\ k <= 65535.
Definition says_clamped_kind (t : tag) (k : N) : Prop := exists v r n, t = bs "k" :: v :: r /\ numeral v n /\ k = N.min n 65535.
(** A string cut to a buffer of [size] bytes; no buffer, no string. *)
Definition shown (size : N) (s : option (list N)) (x : option (list N)) : Prop :=
  (size = 0 /\ x = None) \/
  (0 < size /\ x = Some (match s with Some v => firstn (N.to_nat (size - 1)) v | None => [] end)).

(** The tags of a repost: e with a relay, p, k unless a note is reposted, a for
    an addressable event. *)
Definition repost_tags (id pubkey relay : list N) (kind : N) (d : option (list N)) : list tag :=
  [bs "e"; id; relay] :: [bs "p"; pubkey] ::
  (if kind =? 1 then [] else [[bs "k"; dec_N kind]]) ++
  match d with Some x => [[bs "a"; dec_N kind ++ bs ":" ++ pubkey ++ bs ":" ++ x]] | None => [] end.

(** References in a text: nostr: and a note1, nevent1 or naddr1 word, taken as
    long as possible.  [at_ref s uri]: the text [s] starts with one. *)
Definition word_char (c : N) : Prop := (97 <= c <= 122) \/ (48 <= c <= 57).
Definition at_ref (s uri : list N) : Prop :=
  exists body post, s = bs "nostr:" ++ body ++ post /\ uri = bs "nostr:" ++ body /\ Forall word_char body /\
    match post with c :: _ => ~ word_char c | [] => True end /\
    exists h r, body = h ++ r /\ (h = bs "note1" \/ h = bs "nevent1" \/ h = bs "naddr1").
(** The q tag for what a reference names: the id or address, a relay if one is
    given, the author if one is given. *)
Definition lower_hex (h b : list N) : Prop := hextext h b /\ Forall (fun c => ~ (65 <= c <= 70)) h.
Definition first_or_empty (l : list (list N)) : list N := match l with x :: _ => x | [] => [] end.
Definition cstring_of (i s : list N) : Prop := exists b, i = s ++ b /\ ~ In 0 s /\ (b = [] \/ hd_error b = Some 0).
Definition quotes (p : entity) (t : tag) : Prop :=
  match p with
  | Note id => exists h, lower_hex h id /\ t = [bs "q"; h; []; []]
  | Nevent id rs au _ => exists h a, lower_hex h id /\ match au with Some k => lower_hex a k | None => a = [] end /\
      t = [bs "q"; h; first_or_empty rs; a]
  | Naddr i pk k rs => exists h s, lower_hex h pk /\ cstring_of i s /\
      t = [bs "q"; dec_N k ++ bs ":" ++ h ++ bs ":" ++ s; first_or_empty rs; []]
  | _ => False
  end.
(** [refs parse s ts]: [ts] are the q tags of the references in [s], from left to
    right, that [parse] reads. *)
Inductive refs (parse : list N -> res entity) : list N -> list tag -> Prop :=
| RefsEnd : refs parse [] []
| RefsHit c s ts uri p t : at_ref (c :: s) uri -> parse uri = Ok p -> quotes p t -> refs parse s ts -> refs parse (c :: s) (t :: ts)
| RefsMiss c s ts : (forall uri p, at_ref (c :: s) uri -> parse uri <> Ok p) -> refs parse s ts -> refs parse (c :: s) ts.
