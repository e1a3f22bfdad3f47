(** NIP-46 messages, over JSON. *)
From Verif Require Import Base Json Event Nip18Spec RelayFilterSpec.
Open Scope N_scope.

(** The value an object gives to a name: its first member so called, letters
    compared without case. *)
Definition gives (j : json) (k : list N) (v : json) : Prop :=
  exists l1 k' l2, j = JObj (l1 ++ (k', v) :: l2) /\ same_letters k' k /\ forall k'' v', In (k'', v') l1 -> ~ same_letters k'' k.
(** What a response reports. *)
Inductive outcome : Set := Done (result : list N) | Failed (error : list N).
(** A response as NIP-46 has it: id, result and error are strings. *)
Definition reports (j : json) (id : list N) (o : outcome) : Prop :=
  gives j (bs "id") (JStr id) /\
  match o with
  | Done s => gives j (bs "result") (JStr s) /\ forall v, ~ gives j (bs "error") v
  | Failed s => gives j (bs "error") (JStr s) /\ forall v, ~ gives j (bs "result") v
  end.
(** [t], read as a C string, is [s]. *)
Definition c_text (t s : list N) : Prop := exists b, t = s ++ b /\ ~ In 0 s /\ (b = [] \/ hd_error b = Some 0).
(** The content of [e], read with [sk] and the other side's [pk], is the JSON [j]. *)
Definition opens (decrypt : list N -> list N -> list N -> res (list N)) (parse : list N -> option json) (sk pk : list N) (e : event) (j : json) : Prop :=
  exists c t s, ev_content e = Some c /\ decrypt sk pk c = Ok t /\ c_text t s /\ parse s = Some j.
(** A text and what a field of [n] characters keeps of it. *)
Definition kept (n : nat) (s s' : list N) : Prop := exists r, s = s' ++ r /\ (length s' <= n)%nat /\ (r <> [] -> length s' = n).
(** What is read for a text member. *)
Definition text_of (n : nat) (j : json) (k : list N) (s' : list N) : Prop :=
  (exists s, gives j k (JStr s) /\ kept n s s') \/ ((forall s, ~ gives j k (JStr s)) /\ s' = []).
(** The one thing asked of the JSON reader about numbers: a text that begins
    with a digit begins with a number (what follows is left unread). *)
Definition reads_numbers (parse : list N -> option json) : Prop :=
  forall d r, 48 <= d <= 57 -> exists n, parse (d :: r) = Some (JNum n).
