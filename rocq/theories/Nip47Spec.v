(** Specification for the wallet-connect functions. *)
From Verif Require Import Base Dec HexSpec.
Open Scope N_scope.

(** ** JSON strings (RFC 8259), the text between the quotes and its value;
    \u escapes only for the ASCII range *)
Definition short_escape (c v : N) : Prop :=
  In (c, v) [(34, 34); (92, 92); (47, 47); (98, 8); (102, 12); (110, 10); (114, 13); (116, 9)].
Inductive jstring : list N -> list N -> Prop :=
| JSnil : jstring [] []
| JSplain c t v : 32 <= c -> c <> 34 -> c <> 92 -> jstring t v -> jstring (c :: t) (c :: v)
| JSshort c x t v : short_escape c x -> jstring t v -> jstring (92 :: c :: t) (x :: v)
| JSu a b c d x y t v : a = 48 -> b = 48 -> hexdig c x -> hexdig d y -> x < 8 -> jstring t v ->
    jstring (92 :: 117 :: a :: b :: c :: d :: t) (x * 16 + y :: v).

(** ** URIs *)
Fixpoint joined (d : N) (l : list (list N)) : list N :=
  match l with [] => [] | [a] => a | a :: r => a ++ d :: joined d r end.
(** A wallet-connect URI with the given key text and query pieces. *)
Definition uri_shape (uri pk : list N) (ps : list (list N)) : Prop :=
  uri = bs "nostr+walletconnect://" ++ pk ++ bs "?" ++ joined 38 ps /\ length pk = 64%nat /\ ~ In 63 pk /\
  Forall (fun p => ~ In 38 p) ps /\ ps <> [].
(** The values given for a key, in order. *)
Inductive listed (key : list N) : list (list N) -> list (list N) -> Prop :=
| LNil : listed key [] []
| LYes v ps vs : listed key ps vs -> listed key ((key ++ 61 :: v) :: ps) (v :: vs)
| LNo p ps vs : (forall v, p <> key ++ 61 :: v) -> listed key ps vs -> listed key (p :: ps) vs.

(** Hexadecimal text as strtol reads it in pairs: the first character of a pair
    may be white space or a sign. *)
Inductive loosepair : N -> N -> N -> Prop :=
| LPhex a b x y : hexdig a x -> hexdig b y -> loosepair a b (x * 16 + y)
| LPpad a b y : a = 32 \/ 9 <= a <= 13 \/ a = 43 -> hexdig b y -> loosepair a b y
| LPneg b y : hexdig b y -> loosepair 45 b ((256 - y) mod 256).
Inductive loosehex : list N -> list N -> Prop :=
| LHnil : loosehex [] []
| LHcons a b v s l : loosepair a b v -> loosehex s l -> loosehex (a :: b :: s) (v :: l).

(** Percent-decoding: strictly (RFC 3986), and as the library does it. *)
Inductive pct : list N -> list N -> Prop :=
| PNil : pct [] []
| PChar c s d : c <> 37 -> pct s d -> pct (c :: s) (c :: d)
| PByte a b x y s d : hexdig a x -> hexdig b y -> pct s d -> pct (37 :: a :: b :: s) (x * 16 + y :: d).
Inductive unpct : list N -> list N -> Prop :=
| UNil : unpct [] []
| UByte a b v s d : loosepair a b v -> unpct s d -> unpct (37 :: a :: b :: s) (v :: d)
| UChar c s d : (forall a b v t, c = 37 -> s = a :: b :: t -> ~ loosepair a b v) -> unpct s d -> unpct (c :: s) (c :: d).
(** The C string held in a buffer: up to the first NUL. *)
Definition cstring (d s : list N) : Prop := (d = s /\ ~ In 0 s) \/ exists r, d = s ++ 0 :: r /\ ~ In 0 s.
Definition last_of {A} (l : list A) : option A := nth_error l (length l - 1).

(** ** Words *)
(** [words s ws]: [ws] are the maximal runs of characters other than spaces. *)
Inductive words : list N -> list (list N) -> Prop :=
| WNil : words [] []
| WSpace s ws : words s ws -> words (32 :: s) ws
| WLast w : w <> [] -> ~ In 32 w -> words w [w]
| WWord w s ws : w <> [] -> ~ In 32 w -> words s ws -> words (w ++ 32 :: s) (w :: ws).

(** A relay or lud16 value and the string the caller gets. *)
Definition decoded (v r : list N) : Prop := exists d, unpct v d /\ cstring d r.

(** ** Request texts *)
Definition jfield (name value : list N) : list N := bs """" ++ name ++ bs """:" ++ value.
Definition jquoted (t : list N) : list N := bs """" ++ t ++ bs """".
Definition jobject (fields : list (list N)) : list N := bs "{" ++ joined 44 fields ++ bs "}".
Definition jarray (items : list (list N)) : list N := bs "[" ++ joined 44 items ++ bs "]".
Definition opt {A B} (o : option A) (f : A -> B) : list B := match o with Some a => [f a] | None => [] end.

(** What becomes of a text whose last [k] characters are written last, into a
    buffer of [size] bytes: the writes stay inside as long as everything before
    the last piece does not exceed the buffer; what does not fit is cut. *)
Definition written (size : N) (text : list N) (k : N) : res (list N) :=
  if size <? N.of_nat (length text) - k then Undef else Ok (firstn (N.to_nat size - 1) text).

(** The texts meant for each request. *)
Definition text_pay_invoice (t : list N) (amount : option N) : list N :=
  jobject ([jfield (bs "invoice") (jquoted t)] ++ opt amount (fun a => jfield (bs "amount") (dec_N a))).
Definition text_make_invoice (amount : N) (d h : option (list N)) (expiry : option N) : list N :=
  jobject ([jfield (bs "amount") (dec_N amount)] ++ opt d (fun t => jfield (bs "description") (jquoted t)) ++
           opt h (fun t => jfield (bs "description_hash") (jquoted t)) ++ opt expiry (fun x => jfield (bs "expiry") (dec_N x))).
Definition text_list_transactions (from until : option Z) (limit offset : option N) (unpaid : option bool) (t : option (list N)) : list N :=
  jobject (opt from (fun z => jfield (bs "from") (dec_Z z)) ++ opt until (fun z => jfield (bs "until") (dec_Z z)) ++
           opt limit (fun n => jfield (bs "limit") (dec_N n)) ++ opt offset (fun n => jfield (bs "offset") (dec_N n)) ++
           opt unpaid (fun b : bool => jfield (bs "unpaid") (if b then bs "true" else bs "false")) ++
           opt t (fun t => jfield (bs "type") (jquoted t))).
Definition text_lookup_invoice (h i : option (list N)) : list N :=
  jobject (opt h (fun t => jfield (bs "payment_hash") (jquoted t)) ++ opt i (fun t => jfield (bs "invoice") (jquoted t))).
Definition text_pay_keysend (amount : N) (pk : list N) (pre : option (list N)) (tlv : option (list (list N * list N))) : list N :=
  jobject ([jfield (bs "amount") (dec_N amount); jfield (bs "pubkey") (jquoted pk)] ++
           opt pre (fun p => jfield (bs "preimage") (jquoted p)) ++
           opt tlv (fun l => jfield (bs "tlv_records") (jarray (map (fun x => jobject [jfield (bs "type") (fst x); jfield (bs "value") (jquoted (snd x))]) l)))).
Definition text_multi_pay (l : list (option (list N) * list N * N)) : list N :=
  jobject [jfield (bs "invoices") (jarray (map (fun x => let '(id, inv, a) := x in
    jobject (opt id (fun i => jfield (bs "id") (jquoted i)) ++ [jfield (bs "invoice") (jquoted inv)] ++
             (if 0 <? a then [jfield (bs "amount") (dec_N a)] else []))) l))].
Definition text_request (m params : list N) : list N :=
  jobject [jfield (bs "method") (jquoted m); jfield (bs "params") params].
(** Consecutive pairs of a list; an odd last one is left out. *)
Inductive pairs {A} : list A -> list (A * A) -> Prop :=
| Pairs0 : pairs [] []
| Pairs1 a : pairs [a] []
| PairsS a b l m : pairs l m -> pairs (a :: b :: l) ((a, b) :: m).
