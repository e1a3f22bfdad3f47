(** Property theorems C174: an HD tree may be walked in steps. *)
From Verif Require Import Base BaseFacts BitsFacts Dec Bip39Words HdKey HdKeySpec HdKeyProofs HdKeyProps.
Open Scope N_scope.

(** The path [b] after the path [a]: m/x after m/y is m/y/x. *)
Inductive after_path : list N -> list N -> list N -> Prop :=
| AfterTop b : after_path [109] b b
| AfterStay a : after_path a [109] a
| AfterPath a b : after_path (109 :: 47 :: a) (109 :: 47 :: b) (109 :: 47 :: a ++ 47 :: b).
(** [f] and then [g], stopping at the first failure *)
Definition and_then {A B : Type} (x : res A) (g : A -> res B) : res B :=
  match x with Ok a => g a | Err e => Err e | Undef => Undef end.

Lemma tok_go_app d a b : forall cur, tok_go d cur (a ++ d :: b) = tok_go d cur a ++ tok_go d [] b.
Proof.
  induction a as [|c a IH]; intros cur.
  - cbn [app tok_go]. rewrite N.eqb_refl. destruct cur; reflexivity.
  - cbn [app tok_go]. destruct (c =? d); [destruct cur|]; rewrite IH; reflexivity.
Qed.

Section Walk.
Variable K : Type.
Variable derive : K -> N -> res K.

Lemma derive_tokens_app a b : forall k,
  derive_tokens K derive k (a ++ b) = and_then (derive_tokens K derive k a) (fun k' => derive_tokens K derive k' b).
Proof.
  induction a as [|t a IH]; intros k; [reflexivity|]. cbn [app derive_tokens].
  destruct (token_index t) as [i|]; [|reflexivity]. destruct (derive k i) as [k'| |]; cbn [bind]; [apply IH|reflexivity..].
Qed.

(** Whatever the two texts are, also those that are refused: one call along the
    joined path gives the key or the error of the two calls. *)
Theorem C174_steps : forall k a b c, after_path a b c ->
  derive_path K derive k c = and_then (derive_path K derive k a) (fun k' => derive_path K derive k' b).
Proof.
  intros k a b c A. destruct A as [b|a|a b].
  - reflexivity.
  - destruct (derive_path K derive k a); reflexivity.
  - unfold derive_path. cbn [N.eqb Pos.eqb negb]. unfold tokens. rewrite tok_go_app. apply derive_tokens_app.
Qed.
(** One call of the path function is one call of the child function, however the
    index is spelled. *)
Theorem C174_child : forall k i, i < 2 ^ 31 ->
  derive_path K derive k (bs "m/" ++ dec_N i) = derive k i /\
  derive_path K derive k (bs "m/" ++ dec_N i ++ bs "'") = derive k (i + 2 ^ 31) /\
  derive_path K derive k (bs "m/" ++ dec_N i ++ bs "h") = derive k (i + 2 ^ 31).
Proof.
  intros k i I.
  assert (ONE : forall t j, component t j -> derive_path K derive k (bs "m/" ++ t) = derive k j).
  { intros t j C. rewrite (C28_well_formed K derive k (bs "m/" ++ t) [j]).
    - cbn [derive_all]. destruct (derive k j); reflexivity.
    - change (bs "m/" ++ t) with (109 :: 47 :: join 47 [t]). apply WfPath; [discriminate|]. apply CsCons; [exact C|apply CsNil]. }
  pose proof (dec_nonempty i) as NE. pose proof (eq_sym (undec_dec i)) as V.
  assert (DG : Forall (fun c => 48 <= c <= 57) (dec_N i)) by (eapply Forall_impl; [|apply dec_is_digits]; intros c; apply digit_range).
  split; [apply ONE, CNormal; auto|]. split; apply ONE, CHard; auto.
Qed.
(** Paths that say the same indices lead to the same key. *)
Theorem C174_spelling : forall k p q is_, well_formed p is_ -> well_formed q is_ -> derive_path K derive k p = derive_path K derive k q.
Proof. intros k p q is_ P Q. rewrite (C28_well_formed K derive k p is_ P), (C28_well_formed K derive k q is_ Q). reflexivity. Qed.
(** The key of an account, from the words in one call and from the account's
    branch in another: a caller may keep the branch m/44'/1237' only. *)
Theorem C174_account : forall sha norm pbkdf2 from_seed s pass account,
  mnemonic_to_key bip39_wordlist sha norm pbkdf2 K from_seed derive s pass account =
  and_then (and_then (and_then (mnemonic_to_seed bip39_wordlist sha norm pbkdf2 s pass) from_seed)
    (fun m => derive_path K derive m (bs "m/44'/1237'")))
    (fun b => derive_path K derive b (bs "m/" ++ dec_N account ++ bs "'/0/0")).
Proof.
  intros sha norm pbkdf2 from_seed s pass account. unfold mnemonic_to_key.
  destruct (mnemonic_to_seed bip39_wordlist sha norm pbkdf2 s pass) as [seed| |]; [|reflexivity..]. cbn [bind and_then].
  destruct (from_seed seed) as [m| |]; [|reflexivity..]. cbn [bind and_then].
  apply C174_steps. unfold account_path. change (bs "m/44'/1237'/" ++ dec_N account ++ bs "'/0/0") with (109 :: 47 :: bs "44'/1237'" ++ 47 :: (dec_N account ++ bs "'/0/0")). apply AfterPath.
Qed.
End Walk.

(** A case: the branch of the accounts and the third account's second key, over
    keys that remember how they were made. *)
Definition kept_way (k : list N) (i : N) : res (list N) := if i =? 13 then Err EInvalidKey else Ok (k ++ [i]).
Example C174_meets : derive_path (list N) kept_way [] (bs "m/44'/1237'/2'/0/1") = Ok [2147483692; 2147484885; 2147483650; 0; 1] /\
  derive_path (list N) kept_way [] (bs "m/44'/1237'") = Ok [2147483692; 2147484885] /\
  derive_path (list N) kept_way [2147483692; 2147484885] (bs "m/2h/0/01") = Ok [2147483692; 2147484885; 2147483650; 0; 1] /\
  derive_path (list N) kept_way [] (bs "m/44'/13") = Err EInvalidKey /\
  after_path (bs "m/44'/1237'") (bs "m/2h/0/01") (bs "m/44'/1237'/2h/0/01").
Proof.
  split; [vm_compute; reflexivity|]. split; [vm_compute; reflexivity|]. split; [vm_compute; reflexivity|]. split; [vm_compute; reflexivity|].
  exact (AfterPath (bs "44'/1237'") (bs "2h/0/01")).
Qed.

Print Assumptions C174_steps.
Print Assumptions C174_child.
Print Assumptions C174_spelling.
Print Assumptions C174_account.

(** Phrases of the other BIP-39 sizes (15, 18 or 21 words) are refused, though
    their checksums match. *)
Theorem C27_other_sizes_refused : forall sha s ws ent, digest32b sha ->
  separated 32 s ws -> spells bip39_wordlist sha ws ent -> In (length ent) [20; 24; 28]%nat ->
  mnemonic_validate bip39_wordlist sha s <> Ok tt.
Proof.
  intros sha s ws ent D S SP L V.
  apply C27_validate_exact in V as (ws' & ent' & S' & SP' & L' & _); [|exact D].
  apply separated_tokens in S, S'. assert (EW : ws' = ws) by congruence. rewrite EW in SP'. clear EW S S' ws'.
  assert (W : forall e, spells bip39_wordlist sha ws e -> (length e <= 128)%nat ->
              (11 * length ws = 8 * length e + length e / 4)%nat).
  { intros e (idx & _ & E & F) B. apply (f_equal (@length bool)) in F.
    rewrite app_length, firstn_length, !flat_length, (proj1 (D e)) in F. rewrite E, map_length.
    assert (H0 : (length e / 4 <= 128 / 4)%nat) by (apply Nat.div_le_mono; lia). change (128 / 4)%nat with 32%nat in H0.
    set (q := (length e / 4)%nat) in *. clearbody q. lia. }
  pose proof (W _ SP) as W1. pose proof (W _ SP') as W2.
  destruct L as [L|[L|[L|[]]]], L' as [L'|L']; rewrite <- L in W1; rewrite L' in W2; cbn in W1, W2; lia.
Qed.

Definition fifteen : list (list N) := map (fun i => nth (N.to_nat i) bip39_wordlist []) (repeat 0 14 ++ [6]).
Example C27_other_sizes_meets :
  separated 32 (join 32 fifteen) fifteen /\
  spells bip39_wordlist sha_zero fifteen (repeat 0 20).
Proof.
  split.
  - apply separated_join. unfold fifteen. rewrite Forall_map. apply Forall_forall. intros i I.
    apply (lower_no_space bip39_wordlist C27_wordlist). destruct C27_wordlist as (L & _ & F).
    rewrite Forall_forall in F. apply F, nth_In. rewrite L.
    apply in_app_or in I as [I|[<-|[]]]; [apply repeat_spec in I; subst i|]; apply Nat.ltb_lt; reflexivity.
  - exists (repeat 0 14 ++ [6]). split; [repeat constructor|]. split; [reflexivity|]. vm_compute. reflexivity.
Qed.
Print Assumptions C27_other_sizes_refused.
