(** Specification of delegation conditions (NIP-26), independent of the parser. *)
From Verif Require Import Base Dec HexSpec.
Open Scope Z_scope.

Inductive clause : Set := CKind (k : N) | CAfter (t : Z) | CBefore (t : Z).
Definition clause_text (c : clause) : list N :=
  match c with
  | CKind k => bs "kind=" ++ dec_N k
  | CAfter t => bs "created_at>" ++ dec_Z t
  | CBefore t => bs "created_at<" ++ dec_Z t
  end.
(** clauses separated by single ampersands *)
Fixpoint conditions_text (l : list clause) : list N :=
  match l with
  | [] => []
  | [c] => clause_text c
  | c :: r => clause_text c ++ [38%N] ++ conditions_text r
  end.
Definition clause_ok (c : clause) : Prop :=
  match c with CKind k => (k < 65536)%N | CAfter t | CBefore t => - 2 ^ 63 <= t < 2 ^ 63 end.

Definition kinds_listed (l : list clause) : list N := flat_map (fun c => match c with CKind k => [k] | _ => [] end) l.
Definition afters (l : list clause) : list Z := flat_map (fun c => match c with CAfter t => [t] | _ => [] end) l.
Definition befores (l : list clause) : list Z := flat_map (fun c => match c with CBefore t => [t] | _ => [] end) l.
(** One of the listed kinds, if any are listed, and inside every bound. *)
Definition allowed (l : list clause) (kind : N) (created : Z) : Prop :=
  (kinds_listed l = [] \/ In kind (kinds_listed l)) /\
  Forall (fun t => t < created) (afters l) /\ Forall (fun t => created < t) (befores l).

(** The texts the parser takes: any number of ampersands before a clause
    (also none), numbers as strtol reads them: white space, a sign, digits. *)
Definition loose_number (s : list N) (neg : bool) (v : N) : Prop :=
  exists ws sign ds, s = ws ++ sign ++ ds /\ Forall (fun c => c = 32%N \/ (9 <= c <= 13)%N) ws /\
    ((sign = [] \/ sign = [43%N]) /\ neg = false \/ sign = [45%N] /\ neg = true) /\
    ds <> [] /\ Forall (fun c => is_digit c = true) ds /\ v = undec ds.
Definition signed (neg : bool) (v : N) : Z := if neg then - Z.of_N v else Z.of_N v.
Definition loose_clause (s : list N) (c : clause) : Prop :=
  match c with
  | CKind k => exists num neg v, s = bs "kind=" ++ num /\ loose_number num neg v /\ (v < 2 ^ 64)%N /\
      Z.of_N k = signed neg v mod 2 ^ 64
  | CAfter t => exists num neg v, s = bs "created_at>" ++ num /\ loose_number num neg v /\ t = signed neg v
  | CBefore t => exists num neg v, s = bs "created_at<" ++ num /\ loose_number num neg v /\ t = signed neg v
  end.
(** [loose s l n]: [s] reads as the clauses [l] in [n] pieces; ampersands after
    the last clause are a piece of their own. *)
Inductive loose : list N -> list clause -> nat -> Prop :=
| LooseEnd : loose [] [] 0
| LooseAmps amps : amps <> [] -> Forall (fun c => c = 38%N) amps -> loose amps [] 1
| LooseClause amps s c r l n : Forall (fun c => c = 38%N) amps -> loose_clause s c -> clause_ok c ->
    match r with x :: _ => is_digit x = false | [] => True end ->
    loose r l n -> loose (amps ++ s ++ r) (c :: l) (S n).

(** The last of the listed bounds. *)
Definition last_opt {A} (l : list A) : option A := nth_error l (length l - 1).

(** The text a delegator signs: the delegatee's key in lower-case hexadecimal
    and the conditions. *)
Definition delegated_text (t pk conditions : list N) : Prop :=
  exists h, hextext h pk /\ Forall (fun c => ~ (65 <= c <= 70)%N) h /\
    t = bs "nostr:delegation:" ++ h ++ bs ":" ++ conditions.
(** What is used of the signature scheme: sizes, signatures verify, and a
    signature is good for one digest only. *)
Record signatures (pubkey_of : list N -> option (list N)) (sign : list N -> list N -> list N -> option (list N))
  (verify : list N -> list N -> list N -> bool) : Prop := mkSigs {
  sg_pub : forall sk pk, pubkey_of sk = Some pk -> length pk = 32%nat /\ bytes_ok pk;
  sg_len : forall sk h r t, sign sk h r = Some t -> length t = 64%nat /\ bytes_ok t;
  sg_ok : forall sk pk h r t, pubkey_of sk = Some pk -> sign sk h r = Some t -> verify pk h t = true;
  sg_one : forall pk h h' t, verify pk h t = true -> verify pk h' t = true -> h = h' }.
(** A tag that the reader takes for a delegation. *)
Definition delegation_like (tag : list (list N)) : Prop :=
  exists d c t r, tag = bs "delegation" :: d :: c :: t :: r.
