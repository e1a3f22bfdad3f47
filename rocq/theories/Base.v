(** Shared vocabulary of the model: bytes, C strings, result type. *)
From Coq Require Export String Ascii.
From Coq Require Export List NArith ZArith Lia Bool Arith.
Export ListNotations.
Open Scope list_scope.

(** include/nostr.h, enum nostr_error_t (NOSTR_OK is the [Ok] outcome below). *)
Inductive err : Set :=
| EInvalidKey | EInvalidEvent | EInvalidSignature | EMemory | EJsonParse
| EEncoding | EConnection | EProtocol | ENotFound | ETimeout | EInvalidParam
| ENotSupported.

(** Outcome of a C call: NOSTR_OK with outputs, an error code, or undefined
    behaviour (out-of-bounds access, use after free, ...). *)
Inductive res (A : Type) : Type :=
| Ok (a : A)
| Err (e : err)
| Undef.
Arguments Ok {A} a.
Arguments Err {A} e.
Arguments Undef {A}.

Definition bind {A B} (r : res A) (f : A -> res B) : res B :=
  match r with
  | Ok a => f a
  | Err e => Err e
  | Undef => Undef
  end.

Notation "'do' x <- e ; k" := (bind e (fun x => k))
  (at level 200, x pattern, e at level 100, k at level 200).

(** C character constants and string literals as byte lists. *)
Definition ch (c : ascii) : N := N_of_ascii c.
Fixpoint bs (s : string) : list N :=
  match s with
  | EmptyString => []
  | String c r => N_of_ascii c :: bs r
  end.

(** A byte value; a C string (no embedded NUL). *)
Definition byte_ok (b : N) : Prop := (b < 256)%N.
Definition char_ok (b : N) : Prop := (0 < b < 256)%N.
Definition bytes_ok (l : list N) : Prop := Forall byte_ok l.
Definition cstr_ok (l : list N) : Prop := Forall char_ok l.

(** Equality of byte strings (memcmp / strcmp = 0). *)
Fixpoint beq (a b : list N) : bool :=
  match a, b with
  | [], [] => true
  | x :: a', y :: b' => N.eqb x y && beq a' b'
  | _, _ => false
  end.

(** strncmp(s, p, strlen p) == 0 : [p] is a prefix of [s]. *)
Fixpoint prefixb (p s : list N) : bool :=
  match p, s with
  | [], _ => true
  | x :: p', y :: s' => N.eqb x y && prefixb p' s'
  | _, _ => false
  end.

(** Plain [char] is signed on the modelled platform (x86-64, gcc). *)
Definition schar (c : N) : Z :=
  if (c <? 128)%N then Z.of_N c else (Z.of_N c - 256)%Z.
