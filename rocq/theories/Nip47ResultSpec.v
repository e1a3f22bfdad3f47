(** NIP-47: what a wallet's answer says, and what became of the caller's variables. *)
From Verif Require Import Base Heap Json GiftWrap Nip46Spec EventOomSpec Nip47Result.
Open Scope N_scope.

(** The value of a JSON number, when it is an integer. *)
Definition worth (n : jnum) (z : Z) : Prop := exists m x, n = JFin m x /\ ((0 <= x)%Z -> z = (m * 2 ^ x)%Z) /\ ((x < 0)%Z -> m = (z * 2 ^ (- x))%Z).
(** A text variable after reading member [k] of [j]: the text if there is one, or
    NULL without memory; untouched if there is none. *)
Definition read_as (j : json) (k : list N) (memory : Prop) (c : cell text) : Prop :=
  (exists s u, gives j k (JStr s) /\ c_text s u /\ ((exists b, c = Stored (Some (b, u))) \/ (c = Stored None /\ ~ memory))) \/
  ((forall s, ~ gives j k (JStr s)) /\ c = Kept).
(** A number variable. *)
Definition read_number (j : json) (k : list N) (c : cell N) : Prop :=
  (exists n z, gives j k (JNum n) /\ worth n (Z.of_N z) /\ c = Stored (Some z)) \/ ((forall n, ~ gives j k (JNum n)) /\ c = Kept).
(** A tree variable. *)
Definition read_json (print : json -> list N) (j : json) (k : list N) (memory : Prop) (c : cell text) : Prop :=
  (exists v, gives j k v /\ ((exists b, c = Stored (Some (b, print v))) \/ (c = Stored None /\ ~ memory))) \/ ((forall v, ~ gives j k v) /\ c = Kept).
(** A number a member has, if any, fits. *)
Definition fits (j : json) (k : list N) (bits : Z) : Prop := forall n, gives j k (JNum n) -> exists z, worth n (Z.of_N z) /\ (Z.of_N z < 2 ^ bits)%Z.
(** The entry of a method list. *)
Definition method_as (memory : Prop) (x : json) (c : cell text) : Prop :=
  match x with
  | JStr s => exists u, c_text s u /\ ((exists b, c = Stored (Some (b, u))) \/ (c = Stored None /\ ~ memory))
  | _ => c = Kept
  end.
Definition methods_as (j : json) (memory : Prop) (m : methods) : Prop :=
  (exists l, gives j (bs "methods") (JArr l) /\ me_count m = Stored (Some (N.of_nat (length l))) /\
     ((exists a cs, me_array m = Stored (Some (a, cs)) /\ Forall2 (method_as memory) l cs) \/ (me_array m = Stored None /\ ~ memory))) \/
  ((forall l, ~ gives j (bs "methods") (JArr l)) /\ me_array m = Kept /\ me_count m = Kept).
(** The blocks a variable now has. *)
Definition text_block (c : cell text) : list nat := match c with Stored (Some (b, _)) => [b] | _ => [] end.
Definition methods_blocks (m : methods) : list nat := match me_array m with Stored (Some (a, cs)) => a :: flat_map text_block cs | _ => [] end.
Definition winfo_blocks (w : winfo) : list nat :=
  text_block (w_alias w) ++ text_block (w_color w) ++ text_block (w_pubkey w) ++ text_block (w_network w) ++ methods_blocks (w_methods w).
(** A variable the caller may use: it was written. *)
Definition defined {A} (c : cell A) : Prop := c <> Kept.
(** The first place where [p] occurs in [t] is after [pre], and [r] follows. *)
Definition first_at (p t pre r : list N) : Prop := t = pre ++ p ++ r /\ forall a b, t = a ++ p ++ b -> (length pre <= length a)%nat.
