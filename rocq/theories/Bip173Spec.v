(** Independent specification of bech32 texts (BIP-173) and of the NIP-19
    records they carry. *)
From Verif Require Import Base Nip21Spec.
(* the type of references, as the API has it *)
From Verif Require Import Nip21.
Open Scope N_scope.

(** ** The field with 32 elements: polynomials over GF(2) of degree below 5,
    with a^5 = a^3 + 1. *)
Definition times_a (x : N) : N := if 2 * x <? 32 then 2 * x else N.lxor (2 * x) 41.
Definition fmul (x y : N) : N :=
  let p (i : N) (v : N) := if N.testbit y i then v else 0 in
  let x1 := times_a x in let x2 := times_a x1 in let x3 := times_a x2 in let x4 := times_a x3 in
  N.lxor (p 0 x) (N.lxor (p 1 x1) (N.lxor (p 2 x2) (N.lxor (p 3 x3) (p 4 x4)))).

Fixpoint add_coefs (a b : list N) : list N :=
  match a, b with x :: a', y :: b' => N.lxor x y :: add_coefs a' b' | _, _ => [] end.

(** The generator x^6 + 29x^5 + 22x^4 + 20x^3 + 21x^2 + 29x + 18, without its
    leading coefficient. *)
Definition generator : list N := [29; 22; 20; 21; 29; 18].

(** Remainder of r*x + v: the coefficient that leaves the six places is taken
    away with a multiple of the generator. *)
Definition divide_step (r : list N) (v : N) : list N :=
  match r with
  | c :: t => add_coefs (t ++ [v]) (map (fmul c) generator)
  | [] => []
  end.
(** Remainder, on division by the generator, of the polynomial whose
    coefficients are 1 followed by [vs]. *)
Definition remainder (vs : list N) : list N := fold_left divide_step vs [0; 0; 0; 0; 0; 1].

(** The prefix goes into the checksum: high bits, a zero, low bits. *)
Definition expanded (hrp : list N) : list N :=
  map (fun c => c / 32) hrp ++ [0] ++ map (fun c => c mod 32) hrp.
Definition codeword (hrp digits : list N) : Prop :=
  remainder (expanded hrp ++ digits) = [0; 0; 0; 0; 0; 1].

(** ** Bytes as 5-bit digits: the same number, with fewer than five zero bits
    added at the end. *)
Definition number (base : N) (l : list N) : N := fold_left (fun a d => a * base + d) l 0.
Definition regrouped (p d : list N) : Prop :=
  Forall (fun v => v < 32) d /\
  exists k, (k < 5)%nat /\ (5 * length d = 8 * length p + k)%nat /\
            number 32 d = number 256 p * 2 ^ N.of_nat k.

Definition letter (v : N) : N := nth (N.to_nat v) (bs "qpzry9x8gf2tvdw0s3jn54khce6mua7l") 0.

(** [s] is the (lower-case) bech32 text of the bytes [p] under [hrp]. *)
Definition bech32_text (hrp p s : list N) : Prop :=
  exists d ck, regrouped p d /\ Forall (fun v => v < 32) ck /\ length ck = 6%nat /\
    codeword hrp (d ++ ck) /\ s = hrp ++ bs "1" ++ map letter (d ++ ck).

Definition ascii_text (l : list N) : Prop := Forall (fun c => c < 128) l.

(** ** References *)

(** [kept] are the values a reader keeps, in order. *)
Inductive picks (P : list N -> Prop) : list (list N) -> list (list N) -> Prop :=
| PicksNil : picks P [] []
| PicksKeep v l l' : P v -> picks P l l' -> picks P (v :: l) (v :: l')
| PicksDrop v l l' : ~ P v -> picks P l l' -> picks P (v :: l) l'.

(** The last value with property [P], if there is one. *)
Definition final (P : list N -> Prop) (l : list (list N)) (o : option (list N)) : Prop :=
  exists kept, picks P l kept /\
    match o with Some v => exists before, kept = before ++ [v] | None => kept = [] end.

Definition hints (items : list item) (rs : list (list N)) : Prop :=
  exists kept, picks relay_ok (values 1 items) kept /\ rs = firstn 16 kept.
Definition of_length (n : nat) (v : list N) : Prop := length v = n.
Definition any_value (v : list N) : Prop := True.
Definition author_is (items : list item) (a : option (list N)) : Prop :=
  final (of_length 32) (values 2 items) a.
Definition kind_is (items : list item) (k : option N) : Prop :=
  exists o, final (of_length 4) (values 3 items) o /\ k = option_map be_value o.
Definition main_is (items : list item) (v : list N) : Prop :=
  final any_value (values 0 items) (Some v).

(** What the records of a payload say; a value the reference is about must fit
    its place. *)
Definition denotes (items : list item) (e : entity) : Prop :=
  match e with
  | Npub _ | Nsec _ | Note _ => False
  | Nprofile pk rs =>
      Forall (fun v => (length v <= 32)%nat) (values 0 items) /\
      main_is items pk /\ length pk = 32%nat /\ hints items rs
  | Nevent id rs au k =>
      Forall (fun v => (length v <= 32)%nat) (values 0 items) /\
      main_is items id /\ length id = 32%nat /\ hints items rs /\
      author_is items au /\ kind_is items k
  | Naddr ident pk k rs =>
      (main_is items ident \/ (values 0 items = [] /\ ident = [])) /\
      hints items rs /\ author_is items (Some pk) /\ kind_is items (Some k)
  | Nrelay url => main_is items url /\ url <> []
  end.

(** The records NIP-19 asks a reference to be written with. *)
Definition big_endian4 (k : N) : list N :=
  [k / 2 ^ 24; k / 2 ^ 16 mod 256; k / 2 ^ 8 mod 256; k mod 256].
Definition opt {A} (o : option A) (f : A -> item) : list item :=
  match o with Some a => [f a] | None => [] end.
Definition records (e : entity) : list item :=
  match e with
  | Npub k | Nsec k | Note k => [(0, k)]
  | Nprofile pk rs => (0, pk) :: map (pair 1) rs
  | Nevent id rs au k =>
      (0, id) :: map (pair 1) rs ++ opt au (pair 2) ++ opt k (fun k => (3, big_endian4 k))
  | Naddr ident pk k rs => (0, ident) :: map (pair 1) rs ++ [(2, pk); (3, big_endian4 k)]
  | Nrelay url => [(0, url)]
  end.
(** The bytes a reference stands for: bare keys and ids have no records. *)
Definition written_bytes (e : entity) : list N :=
  match e with Npub k | Nsec k | Note k => k | _ => payload (records e) end.
Definition prefix_of (e : entity) : list N :=
  match e with
  | Npub _ => bs "npub" | Nsec _ => bs "nsec" | Note _ => bs "note"
  | Nprofile _ _ => bs "nprofile" | Nevent _ _ _ _ => bs "nevent"
  | Naddr _ _ _ _ => bs "naddr" | Nrelay _ => bs "nrelay"
  end.
