(** Ownership of filters and deletion requests: which blocks they hold and what
    they mean. *)
From Verif Require Import Base Heap Event RelayProto RelayFilter RelayMem.
From Coq Require Import Permutation.
Open Scope nat_scope.

Definition opt_list {A} (o : option A) : list A := match o with Some x => [x] | None => [] end.
Definition texts (a : sarr) : list (list N) := map snd (sa_cells a).
Definition arr_blocks (a : sarr) : list nat := map fst (sa_cells a) ++ opt_list (sa_block a).
(** A count without an array does not occur. *)
Definition arr_sound (a : sarr) : Prop := sa_block a = None -> sa_cells a = [].
(** The filter a struct stands for. *)
Definition value (c : cfilter) : rfilter :=
  mkFilter (texts (c_ids c)) (texts (c_authors c)) (snd (c_kinds c)) (texts (c_e c)) (texts (c_p c))
    (map (fun g => mkGtag (fst g) (texts (snd g))) (c_generic c)) (c_since c) (c_until c) (c_limit c) (option_map snd (c_search c)).
(** All blocks it owns. *)
Definition gen_blocks (l : list (N * sarr)) : list nat := flat_map (fun g => arr_blocks (snd g)) l.
Definition blocks (c : cfilter) : list nat :=
  arr_blocks (c_ids c) ++ arr_blocks (c_authors c) ++ opt_list (fst (c_kinds c)) ++ arr_blocks (c_e c) ++ arr_blocks (c_p c) ++
  gen_blocks (c_generic c) ++ opt_list (c_gblock c) ++ opt_list (option_map fst (c_search c)).
Record filter_sound (c : cfilter) : Prop := mkSound {
  so_ids : arr_sound (c_ids c); so_authors : arr_sound (c_authors c); so_e : arr_sound (c_e c); so_p : arr_sound (c_p c);
  so_kinds : fst (c_kinds c) = None -> snd (c_kinds c) = [];
  so_generic : Forall (fun g => arr_sound (snd g)) (c_generic c);
  so_gblock : c_gblock c = None -> c_generic c = [] }.
(** Deletion requests. *)
Definition del_value (d : cdeletion) : deletion :=
  mkDeletion (cd_pubkey d) (option_map snd (cd_reason d)) (texts (cd_ids d)) (texts (cd_addresses d)).
Definition del_blocks (d : cdeletion) : list nat :=
  arr_blocks (cd_ids d) ++ arr_blocks (cd_addresses d) ++ opt_list (option_map fst (cd_reason d)).

(** Heaps of a C program: live blocks are distinct and were handed out. *)
Definition heap_ok (h : heap) : Prop := NoDup (h_live h) /\ Forall (fun b => b < h_next h) (h_live h).
(** [h'] is [h] with exactly the blocks [bs] added, all of them new. *)
Record got (h : heap) (bs : list nat) (h' : heap) : Prop := mkGot {
  g_ok : heap_ok h'; g_next : h_next h <= h_next h';
  g_live : Permutation (h_live h') (bs ++ h_live h);
  g_new : Forall (fun b => h_next h <= b < h_next h') bs }.
(** Some allocation failed on the way. *)
Definition failed (grant : nat -> bool) (h h' : heap) : Prop := exists k, h_next h <= k <= h_next h' /\ grant k = false.
