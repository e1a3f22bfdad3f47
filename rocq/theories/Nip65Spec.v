(** Relay lists, independent of arrays. *)
From Verif Require Import Base Nip65.

(** A relay address: ws:// or wss://, then something that is not a delimiter, at
    most 2048 bytes in all *)
Definition relay_url (u : list N) : Prop :=
  (N.of_nat (length u) <= 2048)%N /\ exists scheme c rest, (scheme = bs "ws://" \/ scheme = bs "wss://") /\ u = scheme ++ c :: rest /\
    ~ In c (bs "/:?#@ ").
Definition entry_ok (e : entry) : Prop := relay_url (en_url e) /\ (en_read e = true \/ en_write e = true).
(** The invariant a user relies on *)
Definition relays_ok (l : list entry) : Prop :=
  Forall entry_ok l /\ NoDup (map en_url l) /\ (N.of_nat (length l) <= 256)%N.
(** What an addition may do to a list *)
Inductive adds (l : list entry) (e : entry) (m : bool * bool) : list entry -> res unit -> Prop :=
| AddNew : entry_ok e -> ~ In (en_url e) (map en_url l) -> (N.of_nat (length l) < 256)%N -> snd m = true -> adds l e m (l ++ [e]) (Ok tt)
| AddRefused : ~ entry_ok e \/ In (en_url e) (map en_url l) \/ N.of_nat (length l) = 256%N -> adds l e m l (Err EInvalidParam)
| AddMemory : entry_ok e -> m <> (true, true) -> adds l e m l (Err EMemory).
Inductive added : list entry -> list (list N * bool * bool * (bool * bool)) -> list entry -> list (res unit) -> Prop :=
| AddedEnd l : added l [] l []
| AddedCall l u rd wr m l1 r cs l2 rs : adds l (mkEntry u rd wr) m l1 r -> added l1 cs l2 rs -> added l ((u, rd, wr, m) :: cs) l2 (r :: rs).

(** The relay a tag names, if it is an r tag *)
Inductive names : list (list N) -> entry -> Prop :=
| NamesBoth u : names [bs "r"; u] (mkEntry u true true)
| NamesRead u more : names (bs "r" :: u :: bs "read" :: more) (mkEntry u true false)
| NamesWrite u more : names (bs "r" :: u :: bs "write" :: more) (mkEntry u false true)
| NamesOther u m more : m <> bs "read" -> m <> bs "write" -> names (bs "r" :: u :: m :: more) (mkEntry u true true).
(** The relays named by tags with valid addresses, in order *)
Inductive named : list (list (list N)) -> list entry -> Prop :=
| NamedEnd : named [] []
| NamedTag t e ts es : names t e -> relay_url (en_url e) -> named ts es -> named (t :: ts) (e :: es)
| NamedBad t e ts es : names t e -> ~ relay_url (en_url e) -> named ts es -> named (t :: ts) es
| NamedNot t ts es : (forall e, ~ names t e) -> named ts es -> named (t :: ts) es.
(** The first mention of each address *)
Inductive firsts (seen : list (list N)) : list entry -> list entry -> Prop :=
| FirstsEnd : firsts seen [] []
| FirstsNew e es out : ~ In (en_url e) seen -> firsts (seen ++ [en_url e]) es out -> firsts seen (e :: es) (e :: out)
| FirstsOld e es out : In (en_url e) seen -> firsts seen es out -> firsts seen (e :: es) out.
