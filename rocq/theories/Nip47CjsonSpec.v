(** The requests of NIP-47: methods and their parameters. *)
From Verif Require Import Base Heap Json EventMemSpec EventOomSpec.
Open Scope N_scope.

Inductive asks : Set :=
| PayInvoice (invoice : list N) (amount : option N)
| GetBalance
| GetInfo
| MakeInvoice (amount : N) (description description_hash : option (list N)) (expiry : option N)
| ListTransactions (from until : option Z) (limit offset : option N) (unpaid : option bool) (type : option (list N))
| LookupInvoice (payment_hash invoice : option (list N))
| PayKeysend (amount : N) (pubkey : list N) (preimage : option (list N)) (tlv : option (list (Z * list N)))
| MultiPayInvoice (invoices : list (option (list N) * list N * N)).
Definition may {A} (key : list N) (x : option A) (f : A -> json) : list (list N * json) :=
  match x with Some a => [(key, f a)] | None => [] end.
(** The parameters, given how numbers are written *)
Section Number.
Variable number : Z -> json.
Definition nat_number (n : N) : json := number (Z.of_N n).
Definition tlv_tree (x : Z * list N) : json := JObj [(bs "type", number (fst x)); (bs "value", JStr (snd x))].
Definition invoice_tree (x : option (list N) * list N * N) : json :=
  let '(id, invoice, amount) := x in
  JObj (may (bs "id") id JStr ++ [(bs "invoice", JStr invoice)] ++ if amount =? 0 then [] else [(bs "amount", nat_number amount)]).
Definition params_with (r : asks) : json :=
  match r with
  | PayInvoice i a => JObj ([(bs "invoice", JStr i)] ++ may (bs "amount") a nat_number)
  | GetBalance | GetInfo => JObj []
  | MakeInvoice a d h x => JObj ([(bs "amount", nat_number a)] ++ may (bs "description") d JStr ++ may (bs "description_hash") h JStr ++ may (bs "expiry") x nat_number)
  | ListTransactions f u l o p t =>
    JObj (may (bs "from") f number ++ may (bs "until") u number ++ may (bs "limit") l nat_number ++ may (bs "offset") o nat_number ++
          may (bs "unpaid") p JBool ++ may (bs "type") t JStr)
  | LookupInvoice h i => JObj (may (bs "payment_hash") h JStr ++ may (bs "invoice") i JStr)
  | PayKeysend a pk pre tlv =>
    JObj ([(bs "amount", nat_number a); (bs "pubkey", JStr pk)] ++ may (bs "preimage") pre JStr ++
          may (bs "tlv_records") tlv (fun l => JArr (map tlv_tree l)))
  | MultiPayInvoice l => JObj [(bs "invoices", JArr (map invoice_tree l))]
  end.
End Number.
(** Numbers as they are *)
Definition params_of : asks -> json := params_with (fun z => JNum (JFin z 0)).
(** The object a wallet is to find *)
Definition request_of (method : list N) (params : json) : json := JObj [(bs "method", JStr method); (bs "params", params)].
(** What may be asked: amounts are not 0, something is looked up or paid *)
Definition proper (r : asks) : Prop :=
  match r with
  | MakeInvoice a _ _ _ | PayKeysend a _ _ _ => a <> 0
  | LookupInvoice h i => h <> None \/ i <> None
  | MultiPayInvoice l => l <> []
  | _ => True
  end.
(** C strings and numbers of at most 15 digits *)
Definition if_given {A} (P : A -> Prop) (x : option A) : Prop := forall a, x = Some a -> P a.
Definition small (z : Z) : Prop := (Z.abs z < 10 ^ 15)%Z.
Definition few (n : N) : Prop := n < 10 ^ 15.
Definition sendable (r : asks) : Prop :=
  match r with
  | PayInvoice i a => cstr_ok i /\ if_given few a
  | GetBalance | GetInfo => True
  | MakeInvoice a d h x => few a /\ if_given cstr_ok d /\ if_given cstr_ok h /\ if_given few x
  | ListTransactions f u l o _ t => if_given small f /\ if_given small u /\ if_given few l /\ if_given few o /\ if_given cstr_ok t
  | LookupInvoice h i => if_given cstr_ok h /\ if_given cstr_ok i
  | PayKeysend a pk pre tlv => few a /\ cstr_ok pk /\ if_given cstr_ok pre /\ if_given (Forall (fun x => small (fst x) /\ cstr_ok (snd x))) tlv
  | MultiPayInvoice l => Forall (fun x => if_given cstr_ok (fst (fst x)) /\ cstr_ok (snd (fst x)) /\ few (snd x)) l
  end.

(** ** Memory *)
(** What a builder of [j] answers at [h] when called at [h0]: a text, or that memory ran
    out.  [lost] is memory nobody can release any more, [rest] belongs to others. *)
Definition text_block (r : option (nat * list N)) : list nat := match r with Some (b, _) => [b] | None => [] end.
Record answered (grant : nat -> bool) (print : json -> list N) (h0 : heap) (j : json) (lost rest : list nat) (r : option (nat * list N)) (x : option err) (h : heap) : Prop := mkAnswered {
  an_next : (h_next h0 <= h_next h)%nat;
  an_holds : holds h (text_block r ++ lost ++ rest);
  an_all : granted grant h0 h -> lost = [] /\ x = None /\ exists b, r = Some (b, print j);
  an_thin : forall b s, r = Some (b, s) -> exists t, s = print t /\ thin j t;
  an_status : (x = None /\ r <> None) \/ (x = Some EMemory /\ r = None) }.
