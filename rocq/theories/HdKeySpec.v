(** Specification vocabulary for NIP-06 (C27, C28, C67, C68). *)
From Verif Require Import Base BitsFacts.
Open Scope N_scope.

(** BIP-39: the entropy bits followed by the first ENT/32 bits of its hash
    (ENT the entropy's size in bits, that is its bytes / 4), cut in groups of
    11, each naming a word. *)
Definition spells (wl : list (list N)) (sha : list N -> list N) (ws : list (list N)) (ent : list N) : Prop :=
  exists idx, Forall (fun i => i < 2048) idx /\ ws = map (fun i => nth (N.to_nat i) wl []) idx /\
    flat 11 idx = flat 8 ent ++ firstn (length ent / 4) (flat 8 (sha ent)).

(** Texts of space-separated words. *)
Inductive separated (d : N) : list N -> list (list N) -> Prop :=
| SepNil : separated d [] []
| SepDelim s ws : separated d s ws -> separated d (d :: s) ws
| SepLast w : w <> [] -> ~ In d w -> separated d w [w]
| SepWord w s ws : w <> [] -> ~ In d w -> separated d s ws -> separated d (w ++ d :: s) (w :: ws).

Fixpoint join (d : N) (ws : list (list N)) : list N :=
  match ws with
  | [] => []
  | [w] => w
  | w :: r => w ++ [d] ++ join d r
  end.

(** The standard word list: in strictly increasing order, 2048 non-empty words
    of lower-case letters. *)
Definition lower_word (w : list N) : Prop := w <> [] /\ Forall (fun c => 97 <= c <= 122) w /\ (length w <= 8)%nat.
Definition wordlist_ok (wl : list (list N)) : Prop :=
  length wl = 2048%nat /\ NoDup wl /\ Forall lower_word wl.

(** A well-formed path component: digits, then possibly ' or h. *)
Inductive component : list N -> N -> Prop :=
| CNormal ds v : ds <> [] -> Forall (fun c => 48 <= c <= 57) ds ->
    v = fold_left (fun a c => a * 10 + (c - 48)) ds 0 -> v < 2147483648 -> component ds v
| CHard ds v c : ds <> [] -> Forall (fun c => 48 <= c <= 57) ds -> (c = 39 \/ c = 104) ->
    v = fold_left (fun a c => a * 10 + (c - 48)) ds 0 -> v < 2147483648 ->
    component (ds ++ [c]) (v + 2147483648).
Inductive components : list (list N) -> list N -> Prop :=
| CsNil : components [] []
| CsCons t i ts is_ : component t i -> components ts is_ -> components (t :: ts) (i :: is_).
(** The paths of BIP-32: m, m/c, m/c/c, ... *)
Inductive well_formed : list N -> list N -> Prop :=
| WfMaster : well_formed [109] []
| WfPath ts is_ : ts <> [] -> components ts is_ -> well_formed (109 :: 47 :: join 47 ts) is_.

(** Left-to-right derivation *)
Fixpoint derive_all {K : Type} (derive : K -> N -> res K) (k : K) (is_ : list N) : res K :=
  match is_ with
  | [] => Ok k
  | i :: r => match derive k i with Ok k' => derive_all derive k' r | Err e => Err e | Undef => Undef end
  end.

(** BIP-32: big-endian integers and CKDpriv *)
Definition parse256 (l : list N) : N := fold_left (fun a b => a * 256 + b) l 0.
Definition ser (bytes : nat) (v : N) : list N := map (fun k => (v / 256 ^ N.of_nat k) mod 256) (rev (seq 0 bytes)).

Section Bip32.
Variable H : list N -> list N -> list N.   (* HMAC-SHA512, key and data *)
Variable point : N -> list N.              (* serP(point(k)) *)
Variable n : N.                            (* the group order *)
(** CKDpriv((k, c), i) *)
Definition ckd_priv (kc : N * list N) (i : N) : option (N * list N) :=
  let (k, c) := kc in
  let I := if i <? 2 ^ 31 then H c (point k ++ ser 4 i) else H c (0 :: ser 32 k ++ ser 4 i) in
  let ki := (parse256 (firstn 32 I) + k) mod n in
  if (n <=? parse256 (firstn 32 I)) || (ki =? 0) then None else Some (ki, skipn 32 I).
Fixpoint ckd_path (kc : N * list N) (is_ : list N) : option (N * list N) :=
  match is_ with
  | [] => Some kc
  | i :: r => match ckd_priv kc i with Some kc' => ckd_path kc' r | None => None end
  end.
(** Master key generation *)
Definition master (seed : list N) : option (N * list N) :=
  let I := H (bs "Bitcoin seed") seed in
  let k := parse256 (firstn 32 I) in
  if (k =? 0) || (n <=? k) then None else Some (k, skipn 32 I).
End Bip32.
