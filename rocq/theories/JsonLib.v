(** A JSON reader and writer after RFC 8259.  The repository's JSON library (cJSON) is
    external and not modelled; elsewhere it is a parameter with a contract.  This
    reader and writer meet the contract, so theorems about texts on the wire can be
    stated without parameters.  Numbers with a fraction or an exponent are not read.
    As in cJSON_Parse, what follows the value is not looked at. *)
From Verif Require Import Base Dec Json Event.
Open Scope N_scope.

(** ** Reading *)
Fixpoint jws (s : list N) : list N :=
  match s with c :: r => if (c =? 32) || (c =? 9) || (c =? 10) || (c =? 13) then jws r else s | [] => [] end.
Definition hexval (c : N) : option N :=
  if (48 <=? c) && (c <=? 57) then Some (c - 48)
  else if (97 <=? c) && (c <=? 102) then Some (c - 87)
  else if (65 <=? c) && (c <=? 70) then Some (c - 55)
  else None.
Definition hex4 (a b c d : N) : option N :=
  match hexval a, hexval b, hexval c, hexval d with
  | Some a, Some b, Some c, Some d => Some (((a * 16 + b) * 16 + c) * 16 + d)
  | _, _, _, _ => None
  end.
Definition utf8 (u : N) : list N :=
  if u <? 128 then [u]
  else if u <? 2048 then [192 + u / 64; 128 + u mod 64]
  else if u <? 65536 then [224 + u / 4096; 128 + u / 64 mod 64; 128 + u mod 64]
  else [240 + u / 262144; 128 + u / 4096 mod 64; 128 + u / 64 mod 64; 128 + u mod 64].
Definition unescape (c : N) : option N :=
  if c =? 34 then Some 34 else if c =? 92 then Some 92 else if c =? 47 then Some 47
  else if c =? 98 then Some 8 else if c =? 102 then Some 12 else if c =? 110 then Some 10
  else if c =? 114 then Some 13 else if c =? 116 then Some 9 else None.
Definition more (p : list N) (x : option (list N * list N)) : option (list N * list N) :=
  match x with Some (t, r) => Some (p ++ t, r) | None => None end.
(** After the opening quote: the text and what follows the closing quote *)
Fixpoint jstr (s : list N) : option (list N * list N) :=
  match s with
  | [] => None
  | c :: r =>
    if c =? 34 then Some ([], r)
    else if c <? 32 then None
    else if c =? 92 then
      match r with
      | [] => None
      | x :: r1 =>
        if x =? 117 then
          match r1 with
          | a :: b :: c :: d :: r2 =>
            match hex4 a b c d with
            | None => None
            | Some u =>
              if (55296 <=? u) && (u <=? 57343) then
                match r2 with
                | 92 :: 117 :: a' :: b' :: c' :: d' :: r3 =>
                  match hex4 a' b' c' d' with
                  | None => None
                  | Some v => if (u <=? 56319) && (56320 <=? v) && (v <=? 57343) then more (utf8 (65536 + (u - 55296) * 1024 + (v - 56320))) (jstr r3) else None
                  end
                | _ => None
                end
              else if u =? 0 then None
              else more (utf8 u) (jstr r2)
            end
          | _ => None
          end
        else match unescape x with Some y => more [y] (jstr r1) | None => None end
      end
    else more [c] (jstr r)
  end.
(** An integer, without superfluous zeros *)
Definition jdigits (s : list N) : option (N * list N) :=
  match span_digits s with
  | ([], _) => None
  | (d, r) => if (1 <? length d)%nat && (hd 0 d =? 48) then None else match r with c :: _ => if (c =? 46) || (c =? 101) || (c =? 69) then None else Some (undec d, r) | [] => Some (undec d, []) end
  end.
Definition jnumber (s : list N) : option (json * list N) :=
  match s with
  | c :: r => if c =? 45 then match jdigits r with Some (n, r') => Some (jint (- Z.of_N n), r') | None => None end
              else match jdigits s with Some (n, r') => Some (jint (Z.of_N n), r') | None => None end
  | [] => None
  end.
Fixpoint jval (fuel : nat) (s : list N) : option (json * list N) :=
  match fuel with
  | O => None
  | S k =>
    match jws s with
    | [] => None
    | c :: r =>
      if c =? 34 then match jstr r with Some (t, r') => Some (JStr t, r') | None => None end
      else if c =? 91 then
        match jws r with
        | d :: r' => if d =? 93 then Some (JArr [], r') else match jelems k (d :: r') with Some (l, r2) => Some (JArr l, r2) | None => None end
        | [] => None
        end
      else if c =? 123 then
        match jws r with
        | d :: r' => if d =? 125 then Some (JObj [], r') else match jmembers k (d :: r') with Some (l, r2) => Some (JObj l, r2) | None => None end
        | [] => None
        end
      else if prefixb (bs "true") (c :: r) then Some (JBool true, skipn 4 (c :: r))
      else if prefixb (bs "false") (c :: r) then Some (JBool false, skipn 5 (c :: r))
      else if prefixb (bs "null") (c :: r) then Some (JNull, skipn 4 (c :: r))
      else jnumber (c :: r)
    end
  end
with jelems (fuel : nat) (s : list N) : option (list json * list N) :=
  match fuel with
  | O => None
  | S k =>
    match jval k s with
    | None => None
    | Some (v, r) =>
      match jws r with
      | c :: r' => if c =? 44 then match jelems k r' with Some (l, r2) => Some (v :: l, r2) | None => None end
                   else if c =? 93 then Some ([v], r') else None
      | [] => None
      end
    end
  end
with jmembers (fuel : nat) (s : list N) : option (list (list N * json) * list N) :=
  match fuel with
  | O => None
  | S k =>
    match jws s with
    | q :: r0 =>
      if q =? 34 then
        match jstr r0 with
        | None => None
        | Some (key, r1) =>
          match jws r1 with
          | x :: r2 =>
            if x =? 58 then
              match jval k r2 with
              | None => None
              | Some (v, r) =>
                match jws r with
                | c :: r' => if c =? 44 then match jmembers k r' with Some (l, r3) => Some ((key, v) :: l, r3) | None => None end
                             else if c =? 125 then Some ([(key, v)], r') else None
                | [] => None
                end
              end
            else None
          | [] => None
          end
        end
      else None
    | [] => None
    end
  end.
Definition jparse (s : list N) : option json := match jval (2 * length s + 2) s with Some (t, _) => Some t | None => None end.

(** ** Writing, without blanks *)
Definition jshow (n : jnum) : list N :=
  match n with
  | JFin m e => dec_Z (jtrunc m e)
  | _ => bs "null"
  end.
Fixpoint jprint (j : json) : list N :=
  match j with
  | JNull => bs "null"
  | JBool true => bs "true"
  | JBool false => bs "false"
  | JNum n => jshow n
  | JStr s => quote s
  | JArr l => [91] ++ join_comma (map jprint l) ++ [93]
  | JObj l => [123] ++ join_comma (map (fun p => let '(k, v) := p in quote k ++ [58] ++ jprint v) l) ++ [125]
  end.
(** The layout of cJSON_Print: members on lines of their own *)
Fixpoint join_with (sep : list N) (l : list (list N)) : list N :=
  match l with [] => [] | [x] => x | x :: r => x ++ sep ++ join_with sep r end.
Fixpoint jpretty (depth : nat) (j : json) : list N :=
  match j with
  | JArr l => [91] ++ join_with [44; 32] (map (jpretty (S depth)) l) ++ [93]
  | JObj [] => [123; 10] ++ repeat 9 depth ++ [125]
  | JObj l => [123; 10] ++ join_with [44; 10] (map (fun p => let '(k, v) := p in repeat 9 (S depth) ++ quote k ++ [58; 9] ++ jpretty (S depth) v) l) ++ [10] ++ repeat 9 depth ++ [125]
  | _ => jprint j
  end.
