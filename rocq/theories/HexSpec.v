(** Independent description of hexadecimal text. *)
From Verif Require Import Base.

(** [hexdig c d]: character [c] is a hexadecimal digit of value [d]. *)
Definition hexdig (c d : N) : Prop :=
  nth_error (bs "0123456789abcdef") (N.to_nat d) = Some c \/
  nth_error (bs "0123456789ABCDEF") (N.to_nat d) = Some c.

(** [hextext s l]: [s] is a hexadecimal spelling of the bytes [l]. *)
Inductive hextext : list N -> list N -> Prop :=
| hextext_nil : hextext [] []
| hextext_cons : forall c1 c2 d1 d2 s l,
    hexdig c1 d1 -> hexdig c2 d2 -> hextext s l ->
    hextext (c1 :: c2 :: s) ((d1 * 16 + d2)%N :: l).

Definition all_hex (s : list N) : Prop := Forall (fun c => exists d, hexdig c d) s.
