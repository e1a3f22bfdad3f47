(** Lemmas about the wallet-connect functions. *)
From Verif Require Import Base BaseFacts Dec Hex HexSpec HexProofs Event Nip47 Nip47Spec.
Open Scope N_scope.

(** ** JSON strings *)
Lemma jstring_app a b x y : jstring a x -> jstring b y -> jstring (a ++ b) (x ++ y).
Proof. intros H G. induction H; cbn [app]; [exact G|apply JSplain; auto|apply JSshort; auto|apply JSu; auto]. Qed.
Lemma esc_jstring c : jstring (esc c) [c].
Proof.
  unfold esc. destruct (N.eqb_spec c 34) as [->|N1]; [apply JSshort; [cbn; auto 10|constructor]|].
  destruct (N.eqb_spec c 92) as [->|N2]; [apply JSshort; [cbn; auto 10|constructor]|]. cbn [orb].
  destruct (N.eqb_spec c 10) as [->|N3]; [apply JSshort; [cbn; auto 10|constructor]|].
  destruct (N.eqb_spec c 13) as [->|N4]; [apply JSshort; [cbn; auto 10|constructor]|].
  destruct (N.eqb_spec c 9) as [->|N5]; [apply JSshort; [cbn; auto 10|constructor]|].
  destruct (N.ltb_spec c 32) as [L|L]; [|constructor; auto; constructor].
  assert (E : c = c / 16 * 16 + c mod 16) by (pose proof (N.div_mod c 16 ltac:(lia)); lia).
  assert (C16 : c / 16 < 2) by (apply N.div_lt_upper_bound; lia).
  rewrite E at 3. apply JSu; [reflexivity|reflexivity|apply hexdig_hexdigit; lia|apply hexdig_hexdigit, N.mod_lt; lia|lia|constructor].
Qed.
Lemma escaped_jstring s : jstring (flat_map esc s) s.
Proof.
  induction s as [|c s IH]; [constructor|]. cbn [flat_map]. change (c :: s) with ([c] ++ s).
  apply jstring_app; [apply esc_jstring|exact IH].
Qed.

Lemma short_escape_fun c x y : short_escape c x -> short_escape c y -> x = y.
Proof. unfold short_escape. cbn [In]. intros H G.
  repeat (destruct H as [H|H]; [|]); try contradiction;
  repeat (destruct G as [G|G]; [|]); try contradiction; congruence. Qed.
Lemma short_escape_not_u c x : short_escape c x -> c <> 117.
Proof. unfold short_escape. cbn [In]. intros H. repeat (destruct H as [H|H]; [congruence|]). contradiction. Qed.
Lemma hexdig_fun c x y : hexdig c x -> hexdig c y -> x = y.
Proof. intros H G. apply nibble_hexdig in H, G. congruence. Qed.
Lemma jstring_fun t v : jstring t v -> forall v', jstring t v' -> v = v'.
Proof.
  induction 1 as [|c t v C1 C2 C3 J IH|c x t v SE J IH|a b c d x y t v A B HC HD X J IH]; intros v' G.
  - inversion G. reflexivity.
  - inversion G; subst; try congruence. f_equal. auto.
  - inversion G as [|? ? ? ? ? Q|c' x' t' v0 SE'|]; subst; [congruence| |exfalso; exact (short_escape_not_u _ _ SE eq_refl)].
    f_equal; [exact (short_escape_fun _ _ _ SE SE')|auto].
  - subst. inversion G as [|? ? ? ? ? Q|c' x' t' v0 SE'|a' b' c' d' x' y' t' v0 A' B' HC' HD' X' J'']; subst;
      [congruence|exfalso; exact (short_escape_not_u _ _ SE' eq_refl)|].
    rewrite (hexdig_fun _ _ _ HC HC'), (hexdig_fun _ _ _ HD HD'). f_equal. auto.
Qed.

Lemma hexdig_ge c x : hexdig c x -> 48 <= c /\ c <> 92.
Proof. intros H. apply nibble_hexdig in H. unfold hex_nibble in H.
  destruct ((48 <=? c) && (c <=? 57)) eqn:E1; [apply andb_true_iff in E1; rewrite !N.leb_le in E1; lia|].
  destruct ((97 <=? c) && (c <=? 102)) eqn:E2; [apply andb_true_iff in E2; rewrite !N.leb_le in E2; lia|].
  destruct ((65 <=? c) && (c <=? 70)) eqn:E3; [apply andb_true_iff in E3; rewrite !N.leb_le in E3; lia|discriminate]. Qed.
(** The closing quote is found at the same place. *)
Lemma jstring_delim t v : jstring t v -> forall t' v' r r', jstring t' v' -> t ++ 34 :: r = t' ++ 34 :: r' -> t = t' /\ r = r'.
Proof.
  induction 1 as [|c t v C1 C2 C3 J IH|c x t v SE J IH|a b c d x y t v A B HC HD X J IH]; intros t' v' r r' G E.
  - inversion G; subst; cbn [app] in E; try congruence. split; congruence.
  - inversion G as [|c' t0 v0 D1 D2 D3 J'| |]; subst; cbn [app] in E; try congruence.
    assert (c = c') by congruence. subst c'. assert (E' : t ++ 34 :: r = t0 ++ 34 :: r') by congruence.
    destruct (IH _ _ _ _ J' E') as (-> & ->). auto.
  - inversion G as [|c' t0 v0 D1 D2 D3 J'|c' x' t0 v0 SE' J'|a' b' c' d' x' y' t0 v0 A' B' HC' HD' X' J']; subst; cbn [app] in E; try congruence.
    + assert (c = c') by congruence. subst c'. assert (E' : t ++ 34 :: r = t0 ++ 34 :: r') by congruence.
      destruct (IH _ _ _ _ J' E') as (-> & ->). auto.
    + exfalso. assert (c = 117) by congruence. exact (short_escape_not_u _ _ SE H).
  - inversion G as [|c' t0 v0 D1 D2 D3 J'|c' x' t0 v0 SE' J'|a' b' c' d' x' y' t0 v0 A' B' HC' HD' X' J']; subst; cbn [app] in E; try congruence.
    + exfalso. assert (c' = 117) by congruence. exact (short_escape_not_u _ _ SE' H).
    + assert (c = c') by congruence. assert (d = d') by congruence. subst c' d'. assert (E' : t ++ 34 :: r = t0 ++ 34 :: r') by congruence.
      destruct (IH _ _ _ _ J' E') as (-> & ->). auto.
Qed.

Lemma esc_length c : (length (esc c) = 1 \/ length (esc c) = 2 \/ length (esc c) = 6)%nat.
Proof. unfold esc. repeat destruct (_ =? _); cbn [orb length]; auto; destruct (c <? 32); cbn [length]; auto. Qed.

Lemma json_escape_loop_spec size : forall src out top, (0 < size)%nat -> (length out <= size - 1)%nat -> (top <= size)%nat ->
  exists n, fst (json_escape_loop size src out top) = out ++ flat_map esc (firstn n src) /\
    (length (fst (json_escape_loop size src out top)) <= size - 1)%nat /\
    (snd (json_escape_loop size src out top) <= size)%nat /\
    ((length out + length (flat_map esc src) <= size - 1)%nat -> firstn n src = src).
Proof.
  induction src as [|c src IH]; intros out top S O T; cbn [json_escape_loop].
  - exists 0%nat. cbn [fst snd firstn flat_map]. rewrite app_nil_r. repeat split; auto.
  - destruct (Nat.ltb_spec (length out) (size - 1)) as [LT|GE].
    2:{ exists 0%nat. cbn [fst snd firstn flat_map]. rewrite app_nil_r. repeat split; auto.
        rewrite app_length. pose proof (esc_length c). intros L. lia. }
    cbv zeta. destruct ((1 <? length (esc c))%nat && (size - 1 <? length out + length (esc c))%nat) eqn:D.
    + apply andb_true_iff in D. destruct D as (D1 & D2). apply Nat.ltb_lt in D1, D2.
      exists 0%nat. cbn [fst snd firstn flat_map]. rewrite app_nil_r. repeat split; auto.
      rewrite app_length. intros L. lia.
    + assert (FIT : (length out + length (esc c) <= size - 1)%nat).
      { apply andb_false_iff in D. destruct D as [D|D]; [apply Nat.ltb_ge in D|apply Nat.ltb_ge in D; exact D].
        pose proof (esc_length c). lia. }
      destruct (IH (out ++ esc c) (Nat.max top (length out + length (esc c) + (if (length (esc c) =? 6)%nat then 1 else 0)))) as (n & I1 & I2 & I3 & I4);
        [exact S|rewrite app_length; exact FIT|destruct (Nat.eqb_spec (length (esc c)) 6); lia|].
      exists (Datatypes.S n). rewrite I1. cbn [firstn flat_map]. rewrite <- app_assoc. repeat split; auto.
      * rewrite I1, <- app_assoc in I2. exact I2.
      * intros L. f_equal. apply I4. rewrite !app_length in *. lia.
Qed.
Lemma json_escape_spec size src : (0 < size)%nat ->
  exists n, fst (json_escape size src) = flat_map esc (firstn n src) /\
    (length (fst (json_escape size src)) < size)%nat /\ (snd (json_escape size src) <= size)%nat /\
    ((length (flat_map esc src) < size)%nat -> firstn n src = src).
Proof.
  intros S. unfold json_escape. rewrite (proj2 (Nat.eqb_neq size 0)) by lia.
  destruct (json_escape_loop_spec size src [] 0 S) as (n & I1 & I2 & I3 & I4); [cbn; lia|lia|].
  destruct (json_escape_loop size src [] 0) as [out top]. cbn [fst snd app] in *. exists n.
  repeat split; auto; [lia|lia|]. intros L. apply I4. cbn [length]. lia.
Qed.
Lemma json_escape_fits size src : (length (flat_map esc src) < size)%nat -> fst (json_escape size src) = flat_map esc src.
Proof.
  intros L. destruct (json_escape_spec size src ltac:(lia)) as (n & E & _ & _ & F). rewrite E, (F L). reflexivity.
Qed.

(** ** Buffers *)
Lemma fold_bput_undef size parts : fold_left (bput size) parts Undef = Undef.
Proof. induction parts; [reflexivity|]. cbn [fold_left]. exact IHparts. Qed.
Lemma fold_bput size : forall parts full, (0 < size)%nat -> parts <> [] ->
  fold_left (bput size) parts (Ok (firstn (size - 1) full, length full)) =
  if (size <? length full + length (concat (removelast parts)))%nat then Undef
  else Ok (firstn (size - 1) (full ++ concat parts), length (full ++ concat parts)).
Proof.
  induction parts as [|p parts IH]; intros full S NE; [congruence|].
  cbn [fold_left]. unfold bput at 2. cbn [bind].
  destruct (Nat.ltb_spec size (length full)) as [OV|OK].
  - rewrite fold_bput_undef. rewrite (proj2 (Nat.ltb_lt _ _)) by lia. reflexivity.
  - assert (B : (if (length full <? size)%nat then firstn (size - 1) full ++ firstn (size - 1 - length full) p else firstn (size - 1) full)
               = firstn (size - 1) (full ++ p)).
    { rewrite firstn_app. destruct (Nat.ltb_spec (length full) size) as [L|G]; [reflexivity|].
      replace (size - 1 - length full)%nat with 0%nat by lia. cbn [firstn]. rewrite app_nil_r. reflexivity. }
    rewrite B, <- app_length. destruct parts as [|q parts].
    + cbn [fold_left removelast concat length]. rewrite (proj2 (Nat.ltb_ge _ _)) by lia. rewrite app_nil_r. reflexivity.
    + rewrite (IH (full ++ p) S) by discriminate.
      change (removelast (p :: q :: parts)) with (p :: removelast (q :: parts)). cbn [concat].
      rewrite !app_length, <- !app_assoc, !Nat.add_assoc. reflexivity.
Qed.
Lemma build_spec size parts : (0 < size)%nat -> parts <> [] ->
  build size parts = if (size <? length (concat (removelast parts)))%nat then Undef
                     else Ok (firstn (size - 1) (concat parts)).
Proof.
  intros S NE. unfold build. pose proof (fold_bput size parts [] S NE) as F.
  rewrite firstn_nil in F. cbn [length Nat.add app] in F. rewrite F. destruct (size <? _)%nat; reflexivity.
Qed.
Lemma removelast_snoc {A} (l : list A) x : removelast (l ++ [x]) = l.
Proof. rewrite removelast_app by discriminate. cbn. apply app_nil_r. Qed.

(** ** Splitting *)
Lemma split_at_iff d s a b : split_at d s = Some (a, b) <-> s = a ++ d :: b /\ ~ In d a.
Proof.
  revert a. induction s as [|c s IH]; intros a; cbn [split_at].
  - split; [discriminate|]. intros (E & _). destruct a; discriminate.
  - destruct (N.eqb_spec c d) as [->|NE].
    + split; [intros [= <- <-]; auto|]. intros (E & N). destruct a as [|x a]; [cbn [app] in E; congruence|].
      exfalso. apply N. left. cbn [app] in E. congruence.
    + destruct (split_at d s) as [[a' b']|] eqn:E.
      * split.
        -- intros [= <- <-]. destruct (proj1 (IH a') eq_refl) as (-> & N). split; [reflexivity|]. intros [X|X]; auto.
        -- intros (Q & N). destruct a as [|x a]; [cbn [app] in Q; congruence|]. cbn [app] in Q.
           assert (x = c) by congruence. subst x. assert (Q' : s = a ++ d :: b) by congruence.
           assert (X : split_at d s = Some (a, b) \/ True) by auto. clear X.
           specialize (IH a). assert (Y : Some (a', b') = Some (a, b)).
           { apply IH. split; [exact Q'|]. intros X. apply N. right. exact X. }
           congruence.
      * split; [discriminate|]. intros (Q & N). destruct a as [|x a]; [cbn [app] in Q; congruence|]. cbn [app] in Q.
        specialize (IH a). assert (Y : None = Some (a, b)).
        { apply IH. split; [congruence|]. intros X. apply N. right. exact X. }
        discriminate.
Qed.
Lemma split_at_none d s : split_at d s = None <-> ~ In d s.
Proof.
  induction s as [|c s IH]; cbn [split_at In]; [tauto|].
  destruct (N.eqb_spec c d) as [->|NE]; [split; [discriminate|tauto]|].
  destruct (split_at d s) as [[a b]|] eqn:E; split.
  - discriminate.
  - intros H. exfalso. apply split_at_iff in E. destruct E as (-> & _). apply H. right. apply in_or_app. right. left. reflexivity.
  - intros _ [H|H]; [auto|]. exact (proj1 IH eq_refl H).
  - auto.
Qed.

Definition nonempty (p : list N) : bool := match p with [] => false | _ => true end.
Lemma tokens_from_piece d : forall p r cur, ~ In d p -> tokens_from d (p ++ r) cur = tokens_from d r (cur ++ p).
Proof.
  induction p as [|c p IH]; intros r cur N; cbn [app tokens_from]; [rewrite app_nil_r; reflexivity|].
  rewrite (proj2 (N.eqb_neq c d)) by (intros ->; apply N; left; reflexivity).
  rewrite IH by (intros X; apply N; right; exact X). rewrite <- app_assoc. reflexivity.
Qed.
Lemma tokens_joined d : forall ps, Forall (fun p => ~ In d p) ps -> tokens d (joined d ps) = filter nonempty ps.
Proof.
  unfold tokens. induction ps as [|p ps IH]; intros F; [reflexivity|]. inversion F as [|? ? N F']; subst.
  destruct ps as [|q ps].
  - cbn [joined filter]. rewrite <- (app_nil_r p) at 1. rewrite tokens_from_piece by exact N. cbn [app tokens_from].
    destruct p; reflexivity.
  - change (joined d (p :: q :: ps)) with (p ++ d :: joined d (q :: ps)). rewrite tokens_from_piece by exact N. cbn [app tokens_from].
    rewrite N.eqb_refl. change (filter nonempty (p :: q :: ps)) with (if nonempty p then p :: filter nonempty (q :: ps) else filter nonempty (q :: ps)).
    rewrite <- (IH F'). destruct p; reflexivity.
Qed.
Lemma pieces_exist d q : exists ps, q = joined d ps /\ Forall (fun p => ~ In d p) ps /\ ps <> [].
Proof.
  induction q as [|c q (ps & E & F & NE)]; [exists [[]]; repeat split; [constructor; [intros []|constructor]|discriminate]|].
  destruct ps as [|p ps]; [congruence|]. inversion F as [|? ? N F']; subst.
  destruct (N.eq_dec c d) as [->|ND].
  - exists ([] :: p :: ps). repeat split; [constructor; [intros []|exact F]|discriminate].
  - exists ((c :: p) :: ps). repeat split; [|constructor; [|exact F']|discriminate].
    + destruct ps; reflexivity.
    + intros [X|X]; auto.
Qed.

(** ** Hexadecimal pairs *)
Lemma loosepair_iff a b v : loosepair a b v <-> strtol16_2 a b = Some v.
Proof.
  unfold strtol16_2. split.
  - intros H. inversion H as [? ? x y HA HB|? ? y PAD HB|? y HB]; subst.
    + apply nibble_hexdig in HA, HB. rewrite HA, HB. reflexivity.
    + assert (NA : hex_nibble a = None).
      { destruct (hex_nibble a) as [z|] eqn:E; [|reflexivity]. apply nibble_hexdig, hexdig_ge in E. lia. }
      apply nibble_hexdig in HB. rewrite HB, NA. unfold isspace.
      assert (S : (a =? 32) || (9 <=? a) && (a <=? 13) || (a =? 43) = true).
      { destruct PAD as [-> |[P| -> ]]; [reflexivity| |reflexivity].
        rewrite (proj2 (N.leb_le 9 a)), (proj2 (N.leb_le a 13)) by lia. cbn [andb]. rewrite orb_true_r. reflexivity. }
      rewrite S. reflexivity.
    + apply nibble_hexdig in HB. rewrite HB. reflexivity.
  - destruct (hex_nibble b) as [d|] eqn:HB; [|discriminate]. apply nibble_hexdig in HB.
    destruct (hex_nibble a) as [h|] eqn:HA.
    + apply nibble_hexdig in HA. intros E. assert (h * 16 + d = v) by congruence. subst v. constructor; auto.
    + destruct (isspace a || (a =? 43)) eqn:P.
      * intros E. assert (d = v) by congruence. subst v. apply LPpad; [|exact HB].
        unfold isspace in P. rewrite !orb_true_iff, andb_true_iff, !N.eqb_eq, !N.leb_le in P. tauto.
      * destruct (N.eqb_spec a 45) as [->|]; [|discriminate]. intros E.
        assert ((256 - d) mod 256 = v) by congruence. subst v. apply LPneg. exact HB.
Qed.
Lemma list_pair_ind (P : list N -> Prop) : P [] -> (forall a, P [a]) -> (forall a b s, P s -> P (a :: b :: s)) -> forall s, P s.
Proof.
  intros H0 H1 H2. assert (G : forall s, P s /\ forall a, P (a :: s)).
  { induction s as [|c s (I1 & I2)]; auto. }
  intros s. apply G.
Qed.
Lemma loosehex_iff s : forall l, loosehex s l <-> hex_pairs s = Some l.
Proof.
  induction s as [|a|a b s IH] using list_pair_ind; intros l; cbn [hex_pairs].
  - split; [inversion 1; reflexivity|intros [= <-]; constructor].
  - split; [inversion 1|discriminate].
  - split.
    + inversion 1 as [|? ? v ? l' HP HR]; subst. apply loosepair_iff in HP. rewrite HP.
      apply IH in HR. rewrite HR. reflexivity.
    + destruct (strtol16_2 a b) as [v|] eqn:E; [|discriminate]. destruct (hex_pairs s) as [l'|] eqn:R; [|discriminate].
      intros Q. assert (l = v :: l') by congruence. subst l. constructor; [apply loosepair_iff, E|apply IH; reflexivity].
Qed.
Lemma loosehex_length s l : loosehex s l -> length s = (2 * length l)%nat.
Proof. induction 1; cbn [length]; lia. Qed.
Lemma hextext_loosehex s l : hextext s l -> loosehex s l.
Proof. induction 1; constructor; auto. constructor; auto. Qed.
Lemma loosehex_strict s l : loosehex s l -> all_hex s -> hextext s l.
Proof.
  induction 1 as [|a b v s l HP HR IH]; intros F; [constructor|].
  inversion F as [|? ? (x & HX) F1]; subst. inversion F1 as [|? ? (y & HY) F2]; subst.
  assert (v = x * 16 + y).
  { apply loosepair_iff in HP. unfold strtol16_2 in HP. apply nibble_hexdig in HX, HY. rewrite HX, HY in HP. congruence. }
  subst v. constructor; auto.
Qed.
Lemma hex_decode47_iff s n l : hex_decode47 s n = Some l <-> loosehex s l /\ length l = n.
Proof.
  unfold hex_decode47. destruct (Nat.eqb_spec (length s) (n * 2)) as [E|NE]; cbn [negb].
  - rewrite <- loosehex_iff. split; [intros H; split; [exact H|]|tauto]. apply loosehex_length in H. lia.
  - split; [discriminate|]. intros (H & <-). apply loosehex_length in H. lia.
Qed.

(** ** Percent decoding *)
Lemma url_decode_loop_spec : forall f s, (length s <= f)%nat -> unpct s (url_decode_loop f s).
Proof.
  induction f as [|f IH]; intros s L; [destruct s; [constructor|cbn [length] in L; lia]|].
  destruct s as [|c r]; [constructor|]. cbn [length] in L. cbn [url_decode_loop].
  destruct r as [|a [|b t]].
  - constructor; [intros a b v t _ Q; discriminate|apply IH; cbn [length]; lia].
  - constructor; [intros x b v t _ Q; discriminate|apply IH; cbn [length] in *; lia].
  - cbn [length] in L. destruct (N.eqb_spec c 37) as [->|NC].
    + destruct (strtol16_2 a b) as [v|] eqn:E.
      * constructor; [apply loosepair_iff, E|apply IH; lia].
      * constructor; [|apply IH; cbn [length]; lia].
        intros a' b' v' t' _ Q LP. assert (a' = a /\ b' = b) as (-> & ->) by (split; congruence).
        apply loosepair_iff in LP. congruence.
    + constructor; [intros a' b' v' t' Q; congruence|apply IH; cbn [length]; lia].
Qed.
Lemma unpct_fun s d : unpct s d -> forall d', unpct s d' -> d = d'.
Proof.
  induction 1 as [|a b v s d LP U IH|c s d N U IH]; intros d' G.
  - inversion G. reflexivity.
  - inversion G as [|? ? v' ? d0 LP' U'|? ? d0 N' U']; subst.
    + apply loosepair_iff in LP, LP'. f_equal; [congruence|auto].
    + exfalso. exact (N' a b v s eq_refl eq_refl LP).
  - inversion G as [|a b v' ? d0 LP' U'|? ? d0 N' U']; subst.
    + exfalso. exact (N a b v' _ eq_refl eq_refl LP').
    + f_equal. auto.
Qed.
Lemma pct_unpct s d : pct s d -> unpct s d.
Proof.
  induction 1 as [|c s d NC P IH|a b x y s d HA HB P IH]; [constructor| |].
  - constructor; [intros a b v t Q; congruence|exact IH].
  - constructor; [constructor; auto|exact IH].
Qed.
Lemma cut_nul_spec d : cstring d (cut_nul d).
Proof.
  induction d as [|c d IH]; [left; split; [reflexivity|intros []]|]. cbn [cut_nul].
  destruct (N.eqb_spec c 0) as [->|NC]; [right; exists d; split; [reflexivity|intros []]|].
  destruct IH as [(E & N)|(r & E & N)].
  - left. split; [congruence|]. intros [X|X]; auto.
  - right. exists r. split; [cbn [app]; congruence|]. intros [X|X]; auto.
Qed.
Lemma cut_nul_id d : ~ In 0 d -> cut_nul d = d.
Proof.
  induction d as [|c d IH]; [reflexivity|]. intros N. cbn [cut_nul].
  rewrite (proj2 (N.eqb_neq c 0)) by (intros ->; apply N; left; reflexivity). f_equal. apply IH. intros X. apply N. right. exact X.
Qed.
Lemma cstring_fun d s : cstring d s -> s = cut_nul d.
Proof.
  intros [(-> & N)|(r & -> & N)]; [symmetry; apply cut_nul_id, N|].
  induction s as [|c s IH]; [reflexivity|]. cbn [app cut_nul].
  rewrite (proj2 (N.eqb_neq c 0)) by (intros ->; apply N; left; reflexivity). f_equal. apply IH. intros X. apply N. right. exact X.
Qed.
Lemma url_decode_iff v r : r = url_decode v <-> exists d, unpct v d /\ cstring d r.
Proof.
  unfold url_decode. split.
  - intros ->. exists (url_decode_loop (length v) v). split; [apply url_decode_loop_spec; lia|apply cut_nul_spec].
  - intros (d & U & C). rewrite (cstring_fun _ _ C). f_equal.
    eapply unpct_fun; [exact U|apply url_decode_loop_spec; lia].
Qed.

(** ** Parameters *)
Definition vals (key : list N) (ps : list (list N)) : list (list N) :=
  flat_map (fun p => match split_at 61 p with Some (k, v) => if beq k key then [v] else [] | None => [] end) ps.
Lemma vals_listed key ps : ~ In 61 key -> listed key ps (vals key ps).
Proof.
  intros NK. induction ps as [|p ps IH]; [constructor|]. unfold vals in *. cbn [flat_map].
  destruct (split_at 61 p) as [[k v]|] eqn:E.
  - apply split_at_iff in E. destruct E as (-> & NK'). destruct (beq k key) eqn:B.
    + apply beq_eq in B. subst k. cbn [app]. constructor. exact IH.
    + cbn [app]. constructor; [|exact IH]. intros v' Q.
      assert (SA : split_at 61 (k ++ 61 :: v) = Some (key, v')) by (apply split_at_iff; auto).
      assert (SB : split_at 61 (k ++ 61 :: v) = Some (k, v)) by (apply split_at_iff; auto).
      assert (k = key) by congruence. subst k. rewrite beq_refl in B. discriminate.
  - cbn [app]. constructor; [|exact IH]. intros v ->. apply split_at_none in E. apply E. apply in_or_app. right. left. reflexivity.
Qed.
Lemma listed_fun key ps vs : listed key ps vs -> forall vs', listed key ps vs' -> vs = vs'.
Proof.
  induction 1 as [|v ps vs L IH|p ps vs N L IH]; intros vs' G.
  - inversion G. reflexivity.
  - inversion G as [|v' ps' vs0 L' E1|p' ps' vs0 N' L' E1]; subst.
    + match goal with H : key ++ _ = key ++ _ |- _ => apply app_inv_head in H; injection H as <- end. f_equal. auto.
    + exfalso. exact (N' v eq_refl).
  - inversion G as [|v' ps' vs0 L' E1|p' ps' vs0 N' L' E1]; subst.
    + exfalso. exact (N v' eq_refl).
    + auto.
Qed.

Definition or_last {A} (o : option A) (l : list A) : option A := match last_of l with Some x => Some x | None => o end.
Lemma or_last_cons {A} o (x : A) l : or_last o (x :: l) = or_last (Some x) l.
Proof.
  unfold or_last, last_of. destruct l as [|y l]; [reflexivity|]. cbn [length].
  replace (Datatypes.S (Datatypes.S (length l)) - 1)%nat with (Datatypes.S (length l)) by lia.
  replace (Datatypes.S (length l) - 1)%nat with (length l) by lia. cbn [nth_error].
  destruct (nth_error (y :: l) (length l)) eqn:E; [reflexivity|].
  apply nth_error_None in E. cbn [length] in E. lia.
Qed.

Lemma uri_params_skip_empty : forall ps st, uri_params st (filter nonempty ps) = uri_params st ps.
Proof.
  induction ps as [|p ps IH]; intros st; [reflexivity|]. destruct p as [|c p].
  - cbn [filter nonempty uri_params uri_param split_at bind]. apply IH.
  - cbn [filter nonempty uri_params]. destruct (uri_param st (c :: p)); cbn [bind]; auto.
Qed.

Definition lost_after (l0 : option (list N)) (n : nat) : nat := match l0 with Some _ => n | None => n - 1 end.
Lemma uri_params_iff : forall ps st st',
  uri_params st ps = Ok st' <->
  exists sks, Forall2 (fun v sk => loosehex v sk /\ length sk = 32%nat) (vals (bs "secret") ps) sks /\
    st' = mkUri (u_relays st ++ map url_decode (vals (bs "relay") ps)) (or_last (u_secret st) sks)
            (or_last (u_lud16 st) (map url_decode (vals (bs "lud16") ps)))
            (u_lost st + lost_after (u_lud16 st) (length (vals (bs "lud16") ps))).
Proof.
  induction ps as [|p ps IH]; intros st st'.
  - cbn [uri_params vals flat_map map]. split.
    + intros E. exists []. split; [constructor|]. rewrite app_nil_r. unfold or_last. cbn.
      destruct st as [r s l n]. cbn [u_relays u_secret u_lud16 u_lost] in *. unfold lost_after. destruct l; cbn [length]; rewrite Nat.add_0_r; congruence.
    + intros (sks & F & ->). inversion F; subst. rewrite app_nil_r. unfold or_last. cbn.
      destruct st as [r s l n]. cbn [u_relays u_secret u_lud16 u_lost]. unfold lost_after. destruct l; cbn [length]; rewrite Nat.add_0_r; reflexivity.
  - cbn [uri_params]. unfold vals in *. cbn [flat_map]. unfold uri_param.
    destruct (split_at 61 p) as [[k v]|] eqn:SP; [|cbn [bind app]; apply IH].
    destruct (beq k (bs "relay")) eqn:B1.
    { apply beq_eq in B1. subst k. change (beq (bs "relay") (bs "secret")) with false. change (beq (bs "relay") (bs "lud16")) with false.
      cbn [bind app map]. rewrite IH. cbn [u_relays u_secret u_lud16 u_lost].
      split; intros (sks & F & E); exists sks; (split; [exact F|]); rewrite E, <- app_assoc; reflexivity. }
    destruct (beq k (bs "secret")) eqn:B2.
    { apply beq_eq in B2. subst k. change (beq (bs "secret") (bs "lud16")) with false. cbn [app].
      destruct (hex_decode47 v 32) as [sk|] eqn:HD.
      - pose proof (proj1 (hex_decode47_iff _ _ _) HD) as (LH & LEN).
        assert (length v = 64%nat) by (apply loosehex_length in LH; lia). rewrite (proj2 (Nat.eqb_eq _ _)) by assumption.
        cbn [negb bind]. rewrite IH. cbn [u_relays u_secret u_lud16 u_lost]. split.
        + intros (sks & F & ->). exists (sk :: sks). split; [constructor; auto|]. rewrite or_last_cons. reflexivity.
        + intros (sks & F & ->). inversion F as [|? sk' ? sks' (LH' & LEN') F']; subst.
          assert (sk' = sk) by (apply loosehex_iff in LH, LH'; congruence). subst sk'.
          exists sks'. split; [exact F'|]. rewrite or_last_cons. reflexivity.
      - assert (BAD : forall sks, ~ Forall2 (fun v0 sk => loosehex v0 sk /\ length sk = 32%nat)
           (v :: flat_map (fun p0 => match split_at 61 p0 with Some (k, v0) => if beq k (bs "secret") then [v0] else [] | None => [] end) ps) sks).
        { intros sks F. inversion F as [|? sk' ? sks' P F']; subst. apply hex_decode47_iff in P. congruence. }
        split.
        + destruct (negb (length v =? 64)%nat); discriminate.
        + intros (sks & F & _). exfalso. exact (BAD sks F). }
    destruct (beq k (bs "lud16")) eqn:B3.
    { apply beq_eq in B3. subst k. cbn [bind app map length]. rewrite IH. cbn [u_relays u_secret u_lud16 u_lost].
      assert (LO : forall n, (u_lost st + match u_lud16 st with Some _ => 1 | None => 0 end + lost_after (Some (url_decode v)) n)%nat =
                        (u_lost st + lost_after (u_lud16 st) (Datatypes.S n))%nat)
        by (intros n; unfold lost_after; destruct (u_lud16 st); lia).
      split; intros (sks & F & E); exists sks; (split; [exact F|]); rewrite E, or_last_cons, LO; reflexivity. }
    cbn [bind app]. apply IH.
Qed.

(** ** Words *)
Lemma words_app w s ws : words s ws -> w <> [] -> ~ In 32 w -> words (w ++ 32 :: s) (w :: ws).
Proof. intros; constructor; auto. Qed.
Lemma tokens_words_from s : forall cur, ~ In 32 cur ->
  words (cur ++ s) (tokens_from 32 s cur).
Proof.
  induction s as [|c s IH]; intros cur N; cbn [tokens_from].
  - rewrite app_nil_r. destruct cur; constructor; auto. discriminate.
  - destruct (N.eqb_spec c 32) as [->|NC].
    + destruct cur as [|x cur]; [cbn [app]; constructor; apply (IH []); intros []|].
      constructor; [discriminate|exact N|]. apply (IH []). intros [].
    + change (c :: s) with ([c] ++ s). rewrite app_assoc. apply IH. intros X. apply in_app_or in X. destruct X as [X|[X|[]]]; auto.
Qed.
Lemma tokens_words s : words s (tokens 32 s).
Proof. apply (tokens_words_from s []). intros []. Qed.
Lemma words_count s ws : words s ws -> (length ws <= count_spaces s + 1)%nat.
Proof.
  unfold count_spaces. induction 1 as [|s ws W IH|w NE N|w s ws NE N W IH]; cbn [length filter].
  - lia.
  - change (32 =? 32) with true. cbn [length]. lia.
  - lia.
  - rewrite filter_app, app_length. cbn [filter]. change (32 =? 32) with true. cbn [length]. lia.
Qed.
Lemma word_list_words s : words s (word_list s).
Proof.
  unfold word_list. rewrite firstn_all2; [apply tokens_words|]. apply (words_count s), tokens_words.
Qed.
