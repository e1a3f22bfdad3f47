(** JSON trees as produced by the cJSON library (an external dependency).  A
    number is a double: an integer mantissa and a binary exponent, or an
    infinity (cJSON uses strtod, so 1e999 gives one). *)
From Verif Require Import Base.
Open Scope N_scope.

Inductive jnum : Set := JFin (m e : Z) | JPInf | JNInf.
Inductive json : Set :=
| JNull | JBool (b : bool) | JNum (n : jnum) | JStr (s : list N)
| JArr (l : list json) | JObj (l : list (list N * json)).

(** cJSON_GetObjectItem: first member whose key matches, ignoring ASCII case *)
Definition tolower (c : N) : N := if (65 <=? c) && (c <=? 90) then c + 32 else c.
Fixpoint jfind (key : list N) (l : list (list N * json)) : option json :=
  match l with
  | [] => None
  | (k, v) :: r => if beq (map tolower k) (map tolower key) then Some v else jfind key r
  end.
Definition jget (key : list N) (j : json) : option json :=
  match j with JObj l => jfind key l | _ => None end.

(** The double nearest to an integer (round half to even). *)
Definition round53 (z : Z) : Z :=
  let a := Z.abs z in
  if (a <? 2 ^ 53)%Z then z
  else
    let s := (Z.log2 a - 52)%Z in
    let q := (a / 2 ^ s)%Z in
    let r := (a mod 2 ^ s)%Z in
    let half := (2 ^ (s - 1))%Z in
    let q := if (r <? half)%Z then q else if (half <? r)%Z then (q + 1)%Z
             else if Z.even q then q else (q + 1)%Z in
    (Z.sgn z * (q * 2 ^ s))%Z.
Definition jint (z : Z) : json := JNum (JFin (round53 z) 0).

(** truncation towards zero of a finite double *)
Definition jtrunc (m e : Z) : Z :=
  if (0 <=? e)%Z then (m * 2 ^ e)%Z else Z.quot m (2 ^ (- e)).
(** (int64_t)valuedouble: undefined when the value does not fit *)
Definition j_int64 (n : jnum) : res Z :=
  match n with
  | JFin m e => let t := jtrunc m e in
                if (- 2 ^ 63 <=? t)%Z && (t <? 2 ^ 63)%Z then Ok t else Undef
  | _ => Undef
  end.
(** cJSON's valueint: saturating conversion to int *)
Definition j_int32 (n : jnum) : Z :=
  match n with
  | JFin m e => let t := jtrunc m e in
                if (2147483647 <=? t)%Z then 2147483647%Z
                else if (t <=? -2147483648)%Z then (-2147483648)%Z else t
  | JPInf => 2147483647%Z
  | JNInf => (-2147483648)%Z
  end.
