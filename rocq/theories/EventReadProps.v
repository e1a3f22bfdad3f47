(** An event read from any text is well formed (C21), so what is proved of well
    formed events holds of all that is received. *)
From Verif Require Import Base BaseFacts Dec Json Hex Event EventSpec EventProofs EventProps EventImportProps StoreProps RelaySendProps JsonSpec JsonLib JsonLibProofs EventReadSpec.
Open Scope N_scope.

Lemma c_arr l : c_tree (JArr l) <-> Forall c_tree l.
Proof.
  cbn [c_tree]. induction l as [|x l IH]; [split; constructor|]. rewrite IH. split; [intros (A & B); constructor; assumption|]. intros F. inversion F. auto.
Qed.
Lemma c_obj l : c_tree (JObj l) <-> Forall (fun p => cstr_ok (fst p) /\ c_tree (snd p)) l.
Proof.
  cbn [c_tree]. induction l as [|(k, x) l IH]; [split; constructor|]. rewrite IH. split; [intros (A & B & C); constructor; [split|]; assumption|]. intros F. inversion F as [|? ? (A & B) C]. auto.
Qed.

(** *** The reader of JsonLib.v *)
Lemma cstr_tail c r : cstr_ok (c :: r) -> cstr_ok r.
Proof. intros H. inversion H. assumption. Qed.
Lemma jws_cstr s : cstr_ok s -> cstr_ok (jws s).
Proof. induction s as [|c r IH]; intros H; cbn [jws]; [exact H|]. destruct (_ || _)%bool; [apply IH, (cstr_tail _ _ H)|exact H]. Qed.
Lemma hexval_lt c v : hexval c = Some v -> v < 16.
Proof.
  unfold hexval. destruct (N.leb_spec 48 c); destruct (N.leb_spec c 57); cbn [andb]; [intros Q; assert (c - 48 = v) by congruence; lia| | |];
  (destruct (N.leb_spec 97 c); destruct (N.leb_spec c 102); cbn [andb]; [intros Q; assert (c - 87 = v) by congruence; lia| | |]);
  (destruct (N.leb_spec 65 c); destruct (N.leb_spec c 70); cbn [andb]; [intros Q; assert (c - 55 = v) by congruence; lia|discriminate|discriminate|discriminate]).
Qed.
Lemma hex4_lt a b c d u : hex4 a b c d = Some u -> u < 65536.
Proof.
  unfold hex4. destruct (hexval a) as [x|] eqn:A; [|discriminate]. destruct (hexval b) as [y|] eqn:B; [|discriminate]. destruct (hexval c) as [z|] eqn:C; [|discriminate]. destruct (hexval d) as [w|] eqn:D; [|discriminate].
  apply hexval_lt in A. apply hexval_lt in B. apply hexval_lt in C. apply hexval_lt in D. intros H. assert (((x * 16 + y) * 16 + z) * 16 + w = u) by congruence. lia.
Qed.
Lemma plus_char k x b : x < b -> 0 < k -> k + b <= 256 -> char_ok (k + x).
Proof. unfold char_ok. lia. Qed.
Lemma utf8_cstr u : 0 < u -> u < 1114112 -> cstr_ok (utf8 u).
Proof.
  intros P L. unfold utf8. destruct (N.ltb_spec u 128); [apply Forall_cons; [unfold char_ok; lia|apply Forall_nil]|].
  assert (M : forall x, char_ok (128 + x mod 64)) by (intros x; apply (plus_char _ _ 64); [apply N.mod_lt; discriminate|reflexivity|discriminate]).
  destruct (N.ltb_spec u 2048); [|destruct (N.ltb_spec u 65536)]; (apply Forall_cons; [|repeat (apply Forall_cons; [apply M|]); apply Forall_nil]).
  - apply (plus_char _ _ 32); [apply N.div_lt_upper_bound; lia|reflexivity|discriminate].
  - apply (plus_char _ _ 16); [apply N.div_lt_upper_bound; lia|reflexivity|discriminate].
  - apply (plus_char _ _ 5); [apply N.div_lt_upper_bound; lia|reflexivity|discriminate].
Qed.
Lemma unescape_char x y : unescape x = Some y -> char_ok y.
Proof. unfold unescape, char_ok. repeat (destruct (_ =? _); [intros H; match type of H with Some ?v = _ => assert (v = y) by congruence end; lia|]). discriminate. Qed.
Lemma more_inv p x t r : more p x = Some (t, r) -> exists t', x = Some (t', r) /\ t = p ++ t'.
Proof. unfold more. destruct x as [(a, b)|]; [|discriminate]. intros H. exists a. split; congruence. Qed.
Lemma jstr_cstr : forall n s t r, (length s <= n)%nat -> cstr_ok s -> jstr s = Some (t, r) -> cstr_ok t /\ cstr_ok r.
Proof.
  induction n as [|n IH]; intros s t r L H E; (destruct s as [|c s]; [discriminate E|]); [cbn in L; lia|]. cbn [length] in L. pose proof (cstr_tail _ _ H) as T. assert (CC : char_ok c) by (inversion H; assumption).
  assert (STEP : forall p s', cstr_ok p -> (length s' <= length s)%nat -> cstr_ok s' -> more p (jstr s') = Some (t, r) -> cstr_ok t /\ cstr_ok r).
  { intros p s' P L' S M. apply more_inv in M as (t' & M & ->). destruct (IH s' t' r ltac:(lia) S M) as (A & B). split; [apply Forall_app; split; assumption|exact B]. }
  cbn [jstr] in E. destruct (c =? 34); [assert (t = [] /\ r = s) as (-> & ->) by (split; congruence); split; [constructor|exact T]|].
  destruct (c <? 32); [discriminate|]. destruct (c =? 92).
  2:{ apply (STEP [c] s); [apply Forall_cons; [exact CC|apply Forall_nil]|lia|exact T|exact E]. }
  destruct s as [|x r1]; [discriminate|]. pose proof (cstr_tail _ _ T) as T1. destruct (x =? 117).
  2:{ destruct (unescape x) as [y|] eqn:U; [|discriminate]. apply (STEP [y] r1); [apply Forall_cons; [exact (unescape_char _ _ U)|apply Forall_nil]|cbn; lia|exact T1|exact E]. }
  destruct r1 as [|a [|b [|d [|f r2]]]]; try discriminate. destruct (hex4 a b d f) as [u|] eqn:U; [|discriminate]. apply hex4_lt in U. do 4 apply cstr_tail in T1.
  destruct (N.leb_spec 55296 u) as [U1|U1]; destruct (N.leb_spec u 57343) as [U2|U2]; cbn [andb] in E.
  - assert (G : exists s', s' = r2) by eauto. destruct G as (r2' & G).
    assert (Q : match r2 with
                | 92 :: 117 :: a' :: b' :: c' :: d' :: r3 =>
                  match hex4 a' b' c' d' with
                  | None => None
                  | Some v => if (u <=? 56319) && (56320 <=? v) && (v <=? 57343) then more (utf8 (65536 + (u - 55296) * 1024 + (v - 56320))) (jstr r3) else None
                  end
                | _ => None
                end = Some (t, r) -> exists a' b' c' d' r3 v, r2 = 92 :: 117 :: a' :: b' :: c' :: d' :: r3 /\ hex4 a' b' c' d' = Some v /\
                  ((u <=? 56319) && (56320 <=? v) && (v <=? 57343))%bool = true /\ more (utf8 (65536 + (u - 55296) * 1024 + (v - 56320))) (jstr r3) = Some (t, r)).
    { clear. intros E. 
      repeat match type of E with
      | match ?x with _ => _ end = _ => is_var x; destruct x; try discriminate E
      end.
      match type of E with match ?h with _ => _ end = _ => destruct h as [v|] eqn:V; [|discriminate E] end.
      match type of E with (if ?c then _ else _) = _ => destruct c eqn:C; [|discriminate E] end. eauto 12. }
    apply Q in E as (a' & b' & c' & d' & r3 & v & -> & V & C & E). clear Q G. do 6 apply cstr_tail in T1. apply andb_true_iff in C as (C & C3). apply andb_true_iff in C as (C1 & C2). apply N.leb_le in C1, C2, C3.
    apply (STEP _ r3 (utf8_cstr (65536 + (u - 55296) * 1024 + (v - 56320)) ltac:(lia) ltac:(lia))); [cbn; lia|exact T1|exact E].
  - destruct (N.eqb_spec u 0); [discriminate|]. apply (STEP (utf8 u) r2); [apply utf8_cstr; lia|cbn; lia|exact T1|exact E].
  - destruct (N.eqb_spec u 0); [discriminate|]. apply (STEP (utf8 u) r2); [apply utf8_cstr; lia|cbn; lia|exact T1|exact E].
  - lia.
Qed.
Lemma span_digits_cstr s d r : cstr_ok s -> span_digits s = (d, r) -> cstr_ok r.
Proof.
  revert d r. induction s as [|c s IH]; intros d r H E; cbn [span_digits] in E; [assert (r = []) by congruence; subst; constructor|].
  destruct (is_digit c); [|assert (r = c :: s) by congruence; subst; exact H]. destruct (span_digits s) as (d', r') eqn:D. assert (r = r') by congruence. subst. exact (IH _ _ (cstr_tail _ _ H) eq_refl).
Qed.
Lemma jdigits_cstr s n r : cstr_ok s -> jdigits s = Some (n, r) -> cstr_ok r.
Proof.
  intros H E. unfold jdigits in E. destruct (span_digits s) as (d, r') eqn:D. pose proof (span_digits_cstr _ _ _ H D) as R. destruct d; [discriminate|]. destruct (_ && _)%bool; [discriminate|].
  destruct r' as [|c r']; [assert (r = []) by congruence; subst; constructor|]. destruct (_ || _)%bool; [discriminate|]. assert (r = c :: r') by congruence. subst. exact R.
Qed.
Lemma skipn_cstr n s : cstr_ok s -> cstr_ok (skipn n s).
Proof. revert s. induction n as [|n IH]; intros s H; [exact H|]. destruct s; [exact H|]. apply IH, (cstr_tail _ _ H). Qed.
Lemma jval_cstr : forall fuel,
  (forall s t r, cstr_ok s -> jval fuel s = Some (t, r) -> c_tree t /\ cstr_ok r) /\
  (forall s l r, cstr_ok s -> jelems fuel s = Some (l, r) -> Forall c_tree l /\ cstr_ok r) /\
  (forall s l r, cstr_ok s -> jmembers fuel s = Some (l, r) -> Forall (fun p => cstr_ok (fst p) /\ c_tree (snd p)) l /\ cstr_ok r).
Proof.
  induction fuel as [|k (IV & IE & IM)]; [repeat split; discriminate|]. split; [|split].
  - intros s t r H E. cbn [jval] in E. apply jws_cstr in H. destruct (jws s) as [|c q]; [discriminate|]. pose proof (cstr_tail _ _ H) as T.
    destruct (c =? 34).
    { destruct (jstr q) as [(x, r')|] eqn:J; [|discriminate]. assert (t = JStr x /\ r = r') as (-> & ->) by (split; congruence). exact (jstr_cstr _ _ _ _ (le_n _) T J). }
    destruct (c =? 91).
    { apply jws_cstr in T. destruct (jws q) as [|d r']; [discriminate|]. destruct (d =? 93).
      - assert (t = JArr [] /\ r = r') as (-> & ->) by (split; congruence). split; [exact I|exact (cstr_tail _ _ T)].
      - destruct (jelems k (d :: r')) as [(l, r2)|] eqn:J; [|discriminate]. assert (t = JArr l /\ r = r2) as (-> & ->) by (split; congruence). rewrite c_arr. exact (IE _ _ _ T J). }
    destruct (c =? 123).
    { apply jws_cstr in T. destruct (jws q) as [|d r']; [discriminate|]. destruct (d =? 125).
      - assert (t = JObj [] /\ r = r') as (-> & ->) by (split; congruence). split; [exact I|exact (cstr_tail _ _ T)].
      - destruct (jmembers k (d :: r')) as [(l, r2)|] eqn:J; [|discriminate]. assert (t = JObj l /\ r = r2) as (-> & ->) by (split; congruence). rewrite c_obj. exact (IM _ _ _ T J). }
    destruct (prefixb (bs "true") (c :: q)); [assert (t = JBool true /\ r = skipn 4 (c :: q)) as (-> & ->) by (split; congruence); split; [exact I|apply skipn_cstr, H]|].
    destruct (prefixb (bs "false") (c :: q)); [assert (t = JBool false /\ r = skipn 5 (c :: q)) as (-> & ->) by (split; congruence); split; [exact I|apply skipn_cstr, H]|].
    destruct (prefixb (bs "null") (c :: q)); [assert (t = JNull /\ r = skipn 4 (c :: q)) as (-> & ->) by (split; congruence); split; [exact I|apply skipn_cstr, H]|].
    unfold jnumber in E. destruct (c =? 45).
    + destruct (jdigits q) as [(n, r')|] eqn:J; [|discriminate]. assert (t = jint (- Z.of_N n) /\ r = r') as (-> & ->) by (split; congruence). split; [exact I|exact (jdigits_cstr _ _ _ T J)].
    + destruct (jdigits (c :: q)) as [(n, r')|] eqn:J; [|discriminate]. assert (t = jint (Z.of_N n) /\ r = r') as (-> & ->) by (split; congruence). split; [exact I|exact (jdigits_cstr _ _ _ H J)].
  - intros s l r H E. cbn [jelems] in E. destruct (jval k s) as [(v, r1)|] eqn:J; [|discriminate]. destruct (IV _ _ _ H J) as (V & R). apply jws_cstr in R. destruct (jws r1) as [|c r']; [discriminate|]. apply cstr_tail in R.
    destruct (c =? 44).
    + destruct (jelems k r') as [(m, r2)|] eqn:M; [|discriminate]. assert (l = v :: m /\ r = r2) as (-> & ->) by (split; congruence). destruct (IE _ _ _ R M) as (A & B). split; [apply Forall_cons; assumption|exact B].
    + destruct (c =? 93); [|discriminate]. assert (l = [v] /\ r = r') as (-> & ->) by (split; congruence). split; [apply Forall_cons; [exact V|apply Forall_nil]|exact R].
  - intros s l r H E. cbn [jmembers] in E. apply jws_cstr in H. destruct (jws s) as [|q r0]; [discriminate|]. apply cstr_tail in H. destruct (q =? 34); [|discriminate].
    destruct (jstr r0) as [(key, r1)|] eqn:K; [|discriminate]. destruct (jstr_cstr _ _ _ _ (le_n _) H K) as (KC & R1). apply jws_cstr in R1. destruct (jws r1) as [|x r2]; [discriminate|]. apply cstr_tail in R1. destruct (x =? 58); [|discriminate].
    destruct (jval k r2) as [(v, r3)|] eqn:J; [|discriminate]. destruct (IV _ _ _ R1 J) as (V & R). apply jws_cstr in R. destruct (jws r3) as [|c r']; [discriminate|]. apply cstr_tail in R.
    destruct (c =? 44).
    + destruct (jmembers k r') as [(m, r4)|] eqn:M; [|discriminate]. assert (l = (key, v) :: m /\ r = r4) as (-> & ->) by (split; congruence). destruct (IM _ _ _ R M) as (A & B). split; [apply Forall_cons; [split; assumption|exact A]|exact B].
    + destruct (c =? 125); [|discriminate]. assert (l = [(key, v)] /\ r = r') as (-> & ->) by (split; congruence). split; [apply Forall_cons; [split; assumption|apply Forall_nil]|exact R].
Qed.
Lemma escape_cstr s : cstr_ok s -> cstr_ok (escape_json s).
Proof.
  intros H. unfold escape_json. induction H as [|c s C H IH]; [constructor|]. cbn [flat_map]. apply Forall_app. split; [|exact IH]. unfold escape_char, char_ok in *.
  repeat (destruct (c =? _); [repeat (apply Forall_cons; [lia|]); apply Forall_nil|]). destruct (N.ltb_spec c 32) as [L|L]; [|apply Forall_cons; [lia|apply Forall_nil]].
  do 4 (apply Forall_cons; [lia|]).
  assert (Q : forallb (fun c => forallb (fun x => (0 <? x) && (x <? 256))%bool (hex_byte c)) (map N.of_nat (seq 0 32)) = true) by (vm_compute; reflexivity).
  rewrite forallb_forall in Q. specialize (Q c). rewrite forallb_forall in Q. apply Forall_forall. intros x X.
  assert (I : In c (map N.of_nat (seq 0 32))) by (apply in_map_iff; exists (N.to_nat c); split; [lia|]; apply in_seq; lia).
  apply (Q I) in X. apply andb_true_iff in X as (X1 & X2). apply N.ltb_lt in X1, X2. lia.
Qed.
Lemma quote_cstr s : cstr_ok s -> cstr_ok (quote s).
Proof. intros H. unfold quote. apply Forall_app. split; [apply cstr_dec; reflexivity|]. apply Forall_app. split; [apply escape_cstr, H|apply cstr_dec; reflexivity]. Qed.
Lemma join_cstr l : Forall cstr_ok l -> cstr_ok (join_comma l).
Proof.
  induction l as [|x [|y l] IH]; intros H; cbn [join_comma]; [constructor|inversion H; assumption|]. inversion H as [|? ? A B]. apply Forall_app. split; [exact A|]. cbn [app]. apply Forall_cons; [unfold char_ok; lia|]. exact (IH B).
Qed.
Lemma jprint_cstr : forall t, c_tree t -> cstr_ok (jprint t).
Proof.
  apply (json_induct (fun t => c_tree t -> cstr_ok (jprint t))).
  - intros _. apply cstr_dec. reflexivity.
  - intros [] _; apply cstr_dec; reflexivity.
  - intros n _. cbn [jprint]. unfold jshow. destruct n; try (apply cstr_dec; reflexivity). eapply Forall_impl; [|apply dec_Z_chars]. intros a A. unfold num_char, char_ok in *. 
    unfold is_digit in A. destruct (N.leb_spec 48 a); destruct (N.leb_spec a 57); cbn [andb orb] in A; try (apply N.eqb_eq in A); lia.
  - intros s H. apply quote_cstr, H.
  - intros l IH H. apply c_arr in H. cbn [jprint]. apply Forall_app. split; [apply cstr_dec; reflexivity|]. apply Forall_app. split; [|apply cstr_dec; reflexivity]. apply join_cstr.
    apply Forall_forall. intros x X. apply in_map_iff in X as (y & <- & Y). rewrite Forall_forall in IH, H. exact (IH y Y (H y Y)).
  - intros l IH H. apply c_obj in H. cbn [jprint]. apply Forall_app. split; [apply cstr_dec; reflexivity|]. apply Forall_app. split; [|apply cstr_dec; reflexivity]. apply join_cstr.
    apply Forall_forall. intros x X. apply in_map_iff in X as ((k, v) & <- & Y). rewrite Forall_forall in IH, H. destruct (H _ Y) as (K & V). cbn [fst snd] in K, V.
    apply Forall_app. split; [apply quote_cstr, K|]. cbn [app]. apply Forall_cons; [unfold char_ok; lia|exact (IH _ Y V)].
Qed.
(** The contract can be met. *)
Lemma own_c_library : c_library jprint jparse.
Proof.
  split; [|exact jprint_cstr]. intros s t H E. unfold jparse in E. destruct (jval _ s) as [(x, r)|] eqn:J; [|discriminate]. assert (x = t) by congruence. subst x. exact (proj1 (proj1 (jval_cstr _) _ _ _ H J)).
Qed.

(** *** What is imported *)
Lemma jget_c k j x : c_tree j -> jget k j = Some x -> c_tree x.
Proof.
  intros C G. unfold jget in G. destruct j as [| | | | |l]; try discriminate. apply c_obj in C. 
  induction l as [|(k', v) l IH]; [discriminate G|]. inversion C as [|? ? (A & B) D]. subst. cbn in G.
  match type of G with (if ?b then _ else _) = _ => destruct b end; [assert (v = x) by congruence; subst; exact B|exact (IH D G)].
Qed.
Lemma tags_read_c l0 ts0 : tags_read l0 ts0 -> Forall c_tree l0 -> Forall (fun vs => vs <> [] /\ Forall cstr_ok vs) ts0.
Proof.
  induction 1 as [|v l vs r ts F T IH|j r ts N T IH]; intros C; [constructor| |inversion C; auto]. inversion C as [|? ? A B]. subst. apply Forall_cons; [|exact (IH B)]. split; [inversion F; discriminate|].
  apply c_arr in A. clear - F A. revert A. induction F as [|x y m m2 V F IH]; intros A; [constructor|]. inversion A as [|? ? A1 A2]. apply Forall_cons; [|exact (IH A2)]. destruct V; [exact A1|constructor].
Qed.
(** Whatever the document, if its strings are C strings: an event read from it has
    the lengths and ranges of the fields of a well-formed event. *)
Theorem C21_well_formed : forall lim j e, c_tree j -> event_from_tree lim j = Ok e -> event_ok e.
Proof.
  intros lim j e C H. destruct (C21_holds _ _ _ H) as (_ & HC & HT). unfold event_from_tree in H.
  apply bind_ok in H as (id & Hid & H). apply bind_ok in H as (pk & Hpk & H). apply bind_ok in H as (cr & Hcr & H). apply bind_ok in H as (ct & _ & H). apply bind_ok in H as (tg & _ & H). apply bind_ok in H as (sg & Hsg & H).
  match type of H with Ok ?x = _ => assert (HE : e = x) by congruence end. clear H.
  assert (HX : forall n f b, hex_field n f = Ok b -> length b = n /\ bytes_ok b).
  { intros n f b Q. unfold hex_field, hex_to_bytes in Q. assert (Z : length (repeat 0 n) = n /\ bytes_ok (repeat 0 n)) by (split; [apply repeat_length|apply Forall_repeat; reflexivity]).
    destruct f as [[| | |s| |]|]; try (assert (b = repeat 0 n) by congruence; subst b; exact Z).
    destruct (Nat.eqb_spec (length s) (n * 2)) as [L|]; cbn [negb] in Q; [|discriminate]. destruct (scan_bytes n s) as [x|] eqn:S; [|discriminate]. assert (b = x) by congruence. subst b. 
    split; [apply (HexProofs.scan_bytes_length _ _ _ S)|apply (scan_bytes_ok _ _ _ S)]. }
  split.
  - rewrite HE. exact (HX _ _ _ Hid).
  - rewrite HE. exact (HX _ _ _ Hpk).
  - rewrite HE. cbn [ev_created]. destruct (jget (bs "created_at") j) as [[| |n| | |]|]; try (assert (cr = 0%Z) by congruence; lia).
    unfold j_int64 in Hcr. destruct n as [m x| |]; try discriminate. destruct (Z.leb_spec (- 2 ^ 63) (jtrunc m x)); destruct (Z.ltb_spec (jtrunc m x) (2 ^ 63)); cbn [andb] in Hcr; try discriminate. assert (jtrunc m x = cr) by congruence. lia.
  - rewrite HE. cbn [ev_kind]. destruct (jget (bs "kind") j) as [[| |n| | |]|]; try reflexivity. pose proof (Z.mod_pos_bound (j_int32 n) 65536 eq_refl). lia.
  - destruct (jget (bs "tags") j) as [[| | | |l|]|] eqn:G; try (rewrite HT; constructor). apply (tags_read_c l); [exact HT|]. apply c_arr. exact (jget_c _ _ _ C G).
  - unfold content_of. destruct (jget (bs "content") j) as [[| | |s| |]|] eqn:G; rewrite HC; try (constructor). exact (jget_c _ _ _ C G).
  - rewrite HE. exact (HX _ _ _ Hsg).
Qed.
(** and so an event read from any C string by a library that hands out C strings *)
Theorem C21_well_formed_text : forall print parse lim s e, c_library print parse -> cstr_ok s -> event_from_json parse lim s = Ok e -> event_ok e.
Proof.
  intros print parse lim s e CL S H. unfold event_from_json in H. destruct (parse s) as [t|] eqn:P; [|discriminate]. exact (C21_well_formed _ _ _ (cl_parse _ _ CL _ _ S P) H).
Qed.
Example C21_well_formed_meets : exists e, event_from_json jparse None (bs "{""id"":7,""kind"":70000,""tags"":[[],[1,""a""]],""content"":null}") = Ok e /\
  cstr_ok (bs "{""id"":7,""kind"":70000,""tags"":[[],[1,""a""]],""content"":null}") /\ ev_kind e = 4464 /\ ev_tags e = [[[]; bs "a"]] /\ c_library jprint jparse.
Proof.
  eexists. split; [vm_compute; reflexivity|]. split; [apply cstr_dec; reflexivity|]. split; [reflexivity|]. split; [reflexivity|]. exact own_c_library.
Qed.
Print Assumptions C21_well_formed.
Print Assumptions C21_well_formed_text.
Print Assumptions C21_well_formed_meets.
