(** Ownership of events: the blocks an event holds. *)
From Verif Require Import Base Heap Event EventMem RelayMemSpec Json Nip46Spec.
From Coq Require Import Permutation.
Open Scope nat_scope.

(** All blocks of an event. *)
Definition owned (c : cevent) : list nat := ce_self c :: ce_arena c :: ce_mem c :: opt_list (ce_tags c) ++ opt_list (ce_content c).
Definition owned_opt (v : option cevent) : list nat := match v with Some c => owned c | None => [] end.
(** A C heap with exactly these live blocks. *)
Definition holds (h : heap) (l : list nat) : Prop := heap_ok h /\ Permutation (h_live h) l.
(** An event in good order: content and tags are where it says they are, and
    the arena is within its capacity. *)
Record event_sound (c : cevent) : Prop := mkESound {
  es_content : ce_content c = None <-> ev_content (ce_val c) = None;
  es_tags : ce_tags c = None -> ev_tags (ce_val c) = [];
  es_cap : (1024 <= ce_cap c < 2 ^ 64)%N; es_used : (ce_used c <= ce_cap c)%N }.
(** What the event says after one more tag, or with other content. *)
Definition tagged (e : event) (vs : list (list N)) : event :=
  mkEvent (ev_id e) (ev_pubkey e) (ev_created e) (ev_kind e) (ev_tags e ++ [vs]) (ev_content e) (ev_sig e).
Definition saying (e : event) (t : option (list N)) : event :=
  mkEvent (ev_id e) (ev_pubkey e) (ev_created e) (ev_kind e) (ev_tags e) t (ev_sig e).
(** The texts a program copies from lie outside the library's blocks. *)
Definition foreign (rest : list nat) (o : op) : Prop := match o with Content src _ => In src rest | _ => True end.
(** Room for a tag: pointers of eight bytes, strings with their terminators. *)
Definition space (vs : list (list N)) : N := (8 * N.of_nat (length vs) + fold_right (fun v n => N.of_nat (length v) + 1 + n) 0 vs)%N.
(** ... and for a JSON array of tags; a text whose tags would need more than a
    quarter of the address space. *)
Definition json_space (l : list json) : N :=
  fold_right (fun t n => n + match t with JArr vs => fold_right (fun v k => 8 + match v with JStr s => N.of_nat (length s) + 1 | _ => 1 end + k) 0 vs | _ => 0 end)%N 0%N l.
Definition huge (parse : list N -> option json) (text : list N) : Prop :=
  exists j l, parse text = Some j /\ gives j (bs "tags") (JArr l) /\ (2 ^ 62 < json_space l)%N.
(** An allocation between these two moments failed. *)
Definition failed (grant : nat -> bool) (h h' : heap) : Prop := exists k, h_next h <= k < h_next h' /\ grant k = false.
