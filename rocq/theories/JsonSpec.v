(** The texts RFC 8259 gives for a JSON tree (numbers: integers without fraction or
    exponent; no NUL in strings). *)
From Verif Require Import Base Dec Json.
Open Scope N_scope.

Definition ws (w : list N) : Prop := Forall (fun c => In c [32; 9; 10; 13]) w.
Inductive hexdigit_is : N -> N -> Prop :=
| HexNum v : v <= 9 -> hexdigit_is (48 + v) v
| HexLow v : 10 <= v <= 15 -> hexdigit_is (87 + v) v
| HexUp v : 10 <= v <= 15 -> hexdigit_is (55 + v) v.
Definition unit16 (s : list N) (u : N) : Prop :=
  exists a b c d p q r t, s = [a; b; c; d] /\ hexdigit_is a p /\ hexdigit_is b q /\ hexdigit_is c r /\ hexdigit_is d t /\ u = p * 4096 + q * 256 + r * 16 + t.
(** UTF-8 of a code point *)
Definition utf8_of (u : N) (s : list N) : Prop :=
  (u < 128 /\ s = [u]) \/
  (exists a b, u = a * 64 + b /\ b < 64 /\ 128 <= u < 2048 /\ s = [192 + a; 128 + b]) \/
  (exists a b c, u = (a * 64 + b) * 64 + c /\ b < 64 /\ c < 64 /\ 2048 <= u < 65536 /\ s = [224 + a; 128 + b; 128 + c]) \/
  (exists a b c d, u = ((a * 64 + b) * 64 + c) * 64 + d /\ b < 64 /\ c < 64 /\ d < 64 /\ 65536 <= u /\ s = [240 + a; 128 + b; 128 + c; 128 + d]).
Definition escapes : list (N * N) := [(34, 34); (92, 92); (47, 47); (98, 8); (102, 12); (110, 10); (114, 13); (116, 9)].
(** A string and what stands between its quotes *)
Inductive str_text : list N -> list N -> Prop :=
| StrNil : str_text [] []
| StrChar c v t : 32 <= c -> c <> 34 -> c <> 92 -> str_text v t -> str_text (c :: v) (c :: t)
| StrEscape x y v t : In (x, y) escapes -> str_text v t -> str_text (y :: v) (92 :: x :: t)
| StrUnit h u p v t : unit16 h u -> 0 < u -> u < 55296 \/ 57343 < u -> utf8_of u p -> str_text v t -> str_text (p ++ v) (92 :: 117 :: h ++ t)
| StrPair h u g w p v t : unit16 h u -> unit16 g w -> 55296 <= u <= 56319 -> 56320 <= w <= 57343 -> utf8_of (65536 + (u - 55296) * 1024 + (w - 56320)) p -> str_text v t ->
    str_text (p ++ v) (92 :: 117 :: h ++ 92 :: 117 :: g ++ t).
Inductive text : json -> list N -> Prop :=
| TxNull : text JNull (bs "null")
| TxTrue : text (JBool true) (bs "true")
| TxFalse : text (JBool false) (bs "false")
| TxNum z : (Z.abs z < 10 ^ 60)%Z -> text (jint z) (dec_Z z)
| TxStr v s : str_text v s -> text (JStr v) (34 :: s ++ [34])
| TxArr0 w : ws w -> text (JArr []) (91 :: w ++ [93])
| TxArr l s : elems l s -> text (JArr l) (91 :: s ++ [93])
| TxObj0 w : ws w -> text (JObj []) (123 :: w ++ [125])
| TxObj l s : members l s -> text (JObj l) (123 :: s ++ [125])
with elems : list json -> list N -> Prop :=
| ElOne j w1 s w2 : ws w1 -> text j s -> ws w2 -> elems [j] (w1 ++ s ++ w2)
| ElMore j l w1 s w2 r : ws w1 -> text j s -> ws w2 -> elems l r -> elems (j :: l) (w1 ++ s ++ w2 ++ 44 :: r)
with members : list (list N * json) -> list N -> Prop :=
| MbOne k j w0 q w1 w2 s w3 : ws w0 -> str_text k q -> ws w1 -> ws w2 -> text j s -> ws w3 -> members [(k, j)] (w0 ++ 34 :: q ++ 34 :: w1 ++ 58 :: w2 ++ s ++ w3)
| MbMore k j l w0 q w1 w2 s w3 r : ws w0 -> str_text k q -> ws w1 -> ws w2 -> text j s -> ws w3 -> members l r ->
    members ((k, j) :: l) (w0 ++ 34 :: q ++ 34 :: w1 ++ 58 :: w2 ++ s ++ w3 ++ 44 :: r).
Scheme text_ind2 := Induction for text Sort Prop
  with elems_ind2 := Induction for elems Sort Prop
  with members_ind2 := Induction for members Sort Prop.
Combined Scheme text_mutual from text_ind2, elems_ind2, members_ind2.
(** A JSON text: a value between blanks. *)
Definition json_text (j : json) (s : list N) : Prop := exists w1 t w2, ws w1 /\ text j t /\ ws w2 /\ s = w1 ++ t ++ w2.
(** How deep arrays and objects nest *)
Fixpoint depth (j : json) : N :=
  match j with
  | JArr l => 1 + fold_right (fun x m => N.max (depth x) m) 0 l
  | JObj l => 1 + fold_right (fun p m => N.max (depth (snd p)) m) 0 l
  | _ => 0
  end.
(** Trees whose strings are C strings and whose numbers are integers of up to 15 digits:
    longer ones cJSON writes with an exponent *)
Inductive writable : json -> Prop :=
| WNull : writable JNull
| WBool b : writable (JBool b)
| WNum z : (Z.abs z < 10 ^ 15)%Z -> writable (JNum (JFin z 0))
| WStr s : cstr_ok s -> writable (JStr s)
| WArr l : Forall writable l -> writable (JArr l)
| WObj l : Forall (fun p => cstr_ok (fst p) /\ writable (snd p)) l -> writable (JObj l).
(** What is asked of a JSON library: it writes such trees as RFC 8259 has them and reads
    every such text that nests at most 1000 deep (cJSON's limit). *)
Record json_library (print : json -> list N) (parse : list N -> option json) : Prop := mkLib {
  lib_print : forall t, writable t -> text t (print t);
  lib_parse : forall t s, json_text t s -> depth t <= 1000 -> parse s = Some t }.
