(** Independent vocabulary for the zap properties. *)
From Verif Require Import Base Dec.
Open Scope N_scope.
Definition tag := list (list N).

(** Values of tags: a tag with the name and at least one value. *)
Definition named (name : list N) (t : tag) : Prop := exists v r, t = name :: v :: r.
Definition has_value (name v : list N) (ts : list tag) : Prop := exists r, In (name :: v :: r) ts.
Definition first_is (name v : list N) (ts : list tag) : Prop :=
  exists a r b, ts = a ++ (name :: v :: r) :: b /\ Forall (fun t => ~ named name t) a.
Definition last_is (name v : list N) (ts : list tag) : Prop :=
  exists a r b, ts = a ++ (name :: v :: r) :: b /\ Forall (fun t => ~ named name t) b.
Definition once (name : list N) (ts : list tag) : Prop :=
  forall a t b, ts = a ++ t :: b -> named name t -> Forall (fun u => ~ named name u) b.

(** BOLT 11, human-readable part for the main network: lnbc, amount, multiplier,
    then the separator 1 and the data part.  Amounts are in bitcoin, one being
    10^11 millisatoshi; a pico amount must be a multiple of 10. *)
Inductive multiplier : Set := Whole | Milli | Micro | Nano | Pico.
Definition letter (m : multiplier) : list N :=
  match m with Whole => [] | Milli => bs "m" | Micro => bs "u" | Nano => bs "n" | Pico => bs "p" end.
Definition msat (n : N) (m : multiplier) (v : N) : Prop :=
  match m with
  | Whole => v = n * 10 ^ 11
  | Milli => v = n * 10 ^ 8
  | Micro => v = n * 10 ^ 5
  | Nano => v = n * 10 ^ 2
  | Pico => n = v * 10
  end.
Definition data_char (c : N) : Prop := In c (bs "qpzry9x8gf2tvdw0s3jn54khce6mua7l").
Definition invoice (n : N) (m : multiplier) (s : list N) : Prop :=
  0 < n /\ exists data, Forall data_char data /\ s = bs "lnbc" ++ dec_N n ++ letter m ++ bs "1" ++ data.
Definition open_invoice (s : list N) : Prop :=
  exists data, Forall data_char data /\ s = bs "lnbc1" ++ data.
(** All bitcoin there will ever be, in millisatoshi *)
Definition all_bitcoin : N := 21 * 10 ^ 17.
(** The text after the digits stands for the multiplier [m], in either case. *)
Definition stands_for (m : multiplier) (rest : list N) : Prop :=
  match m with
  | Whole => match rest with c :: _ => ~ In c (bs "munpMUNP") | [] => True end
  | _ => exists c r, rest = c :: r /\ (letter m = [c] \/ 65 <= c <= 90 /\ letter m = [c + 32])
  end.
(** The amount in a variable of 64 bits, pico amounts rounded down. *)
Definition amount64 (n : N) (m : multiplier) (v : N) : Prop :=
  match m with Pico => v * 10 <= n < v * 10 + 10 | _ => exists w, msat n m w /\ v = w mod 2 ^ 64 end.
