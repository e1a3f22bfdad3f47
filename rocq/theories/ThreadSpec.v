(** A conversation: an opening event and answers to answers, each written with the
    library's own calls the way NIP-10 asks for. *)
From Verif Require Import Base Hex Event Nip10 Nip10Spec.
Open Scope N_scope.

(** An event's identifier as text. *)
Definition id_text (e : event) : list N := hex_encode (ev_id e).
(** Other tags: naming no event, or naming one only to mention it. *)
Definition silent (t : list (list N)) : Prop := ~ names_event t.
Definition aside (t : list (list N)) : Prop := names_event t -> marked (bs "mention") t.

Section Thread.
(** The other tags allowed in an opening event and in answers of the short form. *)
Variable other : list (list N) -> Prop.
Variable max : nat.

(** The root to write in an answer to [p]: the one read from [p] if [p] is an
    answer itself, else [p]. *)
Definition root_for (p : event) (r : list N) : Prop :=
  (is_reply p = Ok true /\ exists h, get_root_id p 65 0 = Ok (r, h)) \/ (is_reply p = Ok false /\ r = id_text p).
(** [c] answers [p]: with the root alone if [p] opens the conversation, or with
    the root and the parent. *)
Inductive answers (p c : event) : Prop :=
| Short before ts after rr rp : is_reply p = Ok false ->
    add_reply_tags max before (Some (id_text p)) rr rp None None None = (ts, Ok tt) -> ev_tags c = ts ++ after ->
    Forall other before -> Forall other after -> answers p c
| Long before ts after r rr rp pr pp : root_for p r ->
    add_reply_tags max before (Some r) rr rp (Some (id_text p)) pr pp = (ts, Ok tt) -> ev_tags c = ts ++ after ->
    Forall aside before -> Forall aside after -> answers p c.
(** [up]: what came before [e], nearest first; it ends with [root]. *)
Inductive thread (root : event) : list event -> event -> Prop :=
| Start : length (ev_id root) = 32%nat -> Forall other (ev_tags root) -> thread root [] root
| Answer up p c : thread root up p -> length (ev_id c) = 32%nat -> answers p c -> thread root (p :: up) c.
End Thread.

(** What a reader finds by going from parent to parent in [store], at most [n] times. *)
Fixpoint climb (store : list event) (n : nat) (e : event) : list event :=
  match n with
  | O => []
  | S n => match get_reply_id e 65 0 with
           | Ok (i, _) => match find (fun x => beq (id_text x) i) store with
                          | Some p => p :: climb store n p
                          | None => []
                          end
           | _ => []
           end
  end.
