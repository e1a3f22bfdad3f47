(** Memory of bech32 entities and nostr: URIs: C148. *)
From Verif Require Import Base BaseFacts Heap Bech32 Bech32Proofs Nip21 Nip21Props EventMem RelayMemSpec RelayMemProps EventMemSpec EventMemProps EventOomSpec Nip21Mem Nip21MemSpec.
From Coq Require Import Permutation.
Open Scope nat_scope.

Lemma failed_not_granted grant h h' : failed grant h h' -> ~ granted grant h h'.
Proof. intros (k & L & F) G. rewrite (G k L) in F. discriminate. Qed.

Ltac fin := repeat (split; [first [reflexivity | eassumption | lia]|]); intuition (auto; lia).
Section Grant.
Variable grant : nat -> bool.
(** [m] does what [r] says, unless an allocation fails, and keeps nothing. *)
Definition follows {A} (m : M (ans A)) (r : res A) : Prop := forall h l, holds h l -> r <> Undef ->
  exists o h', m h = Ok (o, h') /\ holds h' l /\ h_next h <= h_next h' /\ match o with inl a => r = Ok a | inr x => r = Err x \/ failed grant h h' end.
Lemma follows_val {A} (a : A) : follows (mret (inl a)) (Ok a).
Proof. intros h l X _. exists (inl a), h. fin. Qed.
Lemma follows_err {A} x : follows (mret (inr x)) (@Err A x).
Proof. intros h l X _. exists (inr x), h. fin. Qed.
Lemma verify_ok hrp data h l : holds h l ->
  exists b h', verify_m grant hrp data h = Ok (b, h') /\ holds h' l /\ h_next h <= h_next h' /\ (b = verify_checksum hrp data \/ b = false /\ failed grant h h').
Proof.
  intros X. unfold verify_m, verify_checksum. destruct (hrp_expand hrp 84) as [e|]; [|exists false, h; fin].
  destruct (ealloc_cases grant h l X) as [(q & h1 & E & X1 & L1)|(h1 & E & X1 & L1 & F)]; rewrite (mbind_ok _ _ _ _ _ E).
  - rewrite (mbind_ok _ _ _ _ _ (use_holds q h1 _ X1 (or_introl eq_refl))). destruct (free_holds _ _ _ X1) as (h2 & E2 & X2 & L2). rewrite (mbind_ok _ _ _ _ _ E2).
    eexists. exists h2. split; [reflexivity|]. split; [exact X2|]. split; [lia|left; reflexivity].
  - exists false, h1. fin.
Qed.
Lemma create_ok hrp data h l : holds h l ->
  exists o h', create_m grant hrp data h = Ok (o, h') /\ holds h' l /\ h_next h <= h_next h' <= S (h_next h) /\ (o = create_checksum hrp data \/ o = None /\ failed grant h h').
Proof.
  intros X. unfold create_m, create_checksum. destruct (hrp_expand hrp 84) as [e|]; [|exists None, h; fin].
  destruct (ealloc_cases grant h l X) as [(q & h1 & E & X1 & L1)|(h1 & E & X1 & L1 & F)]; rewrite (mbind_ok _ _ _ _ _ E);
    (assert (h_next h1 = S (h_next h)) by (revert E; unfold ealloc; destruct (grant (h_next h)); intros E; injection E; intros; subst; reflexivity || discriminate)).
  - rewrite (mbind_ok _ _ _ _ _ (use_holds q h1 _ X1 (or_introl eq_refl))). destruct (free_holds _ _ _ X1) as (h2 & E2 & X2 & L2). rewrite (mbind_ok _ _ _ _ _ E2).
    eexists. exists h2. split; [reflexivity|]. split; [exact X2|]. split; [lia|left; reflexivity].
  - exists None, h1. split; [reflexivity|]. split; [exact X1|]. split; [lia|auto].
Qed.
Lemma encode_out_follows prefix data size : follows (encode_out_m grant prefix data size) (encode_out prefix data size).
Proof.
  intros h l X D. unfold encode_out_m, encode_out in *. destruct (create_ok prefix data h l X) as (o & h1 & E & X1 & L1 & R). rewrite (mbind_ok _ _ _ _ _ E).
  destruct R as [->|(-> & F)].
  - destruct (create_checksum prefix data) as [ck|]; [|exists (inr EEncoding), h1; fin]. cbv zeta in *. destruct (_ <=? size) eqn:LE in *; [|congruence].
    eexists. exists h1. split; [reflexivity|]. split; [exact X1|]. split; [lia|reflexivity].
  - exists (inr EEncoding), h1. fin.
Qed.
Lemma key_to_follows key prefix size : follows (key_to_bech32_m grant key prefix size) (key_to_bech32 key prefix size).
Proof.
  unfold key_to_bech32_m, key_to_bech32. destruct (_ || _); [apply follows_err|]. cbv zeta. destruct (_ =? 0); [apply follows_err|apply encode_out_follows].
Qed.
Lemma privkey_to_follows key size : follows (fixed_to_bech32_m grant (bs "nsec") key size) (privkey_to_bech32 key size).
Proof. unfold fixed_to_bech32_m, privkey_to_bech32. destruct (size <? 64); [apply follows_err|]. cbv zeta. destruct (_ =? 0); [apply follows_err|apply encode_out_follows]. Qed.
Lemma id_to_follows key size : follows (fixed_to_bech32_m grant (bs "note") key size) (event_id_to_bech32 key size).
Proof. unfold fixed_to_bech32_m, event_id_to_bech32. destruct (size <? 64); [apply follows_err|]. cbv zeta. destruct (_ =? 0); [apply follows_err|apply encode_out_follows]. Qed.
Lemma tail_follows hrp data : follows (decode_tail_m grant hrp data) (decode_tail hrp data).
Proof.
  intros h l X D. unfold decode_tail_m, decode_tail in *. destruct (verify_ok hrp data h l X) as (b & h1 & E & X1 & L1 & R). rewrite (mbind_ok _ _ _ _ _ E).
  destruct R as [->|(-> & F)]; [|exists (inr EEncoding), h1; fin].
  destruct (verify_checksum hrp data); [|exists (inr EEncoding), h1; fin].
  destruct (Nat.ltb_spec (length data) 6) as [LT|GE]; [congruence|]. assert (LE : (6 <=? length data) = true) by (apply Nat.leb_le, GE).
  cbv zeta in *. set (dec := convert_bits _ _ _ _ _) in *. clearbody dec. unfold mbind at 1, hassert. rewrite LE. destruct (length dec =? 32).
  - exists (inl dec), h1. fin.
  - exists (inr EEncoding), h1. fin.
Qed.
Lemma chars_follows cap s k r : (forall d, follows (k d) (r d)) -> follows (chars_m cap s k) (do d <- decode_chars cap 0 s; r d).
Proof.
  intros K h l X D. unfold chars_m. destruct (decode_chars cap 0 s) as [d|x|]; cbn [lift bind] in *; [|exists (inr x), h; fin|congruence]. exact (K d h l X D).
Qed.
Lemma key_from_follows s : follows (key_from_bech32_m grant s) (key_from_bech32 s).
Proof.
  unfold key_from_bech32_m, key_from_bech32. cbv zeta. destruct (_ || _); [apply follows_err|]. destruct (last_sep 0 s None) as [sep|]; [|apply follows_err].
  destruct (_ || _); [apply follows_err|]. apply chars_follows. intros d. apply tail_follows.
Qed.
Lemma fixed_from_follows hrp s : follows (fixed_from_bech32_m grant hrp s) (fixed_from_bech32 hrp s).
Proof.
  unfold fixed_from_bech32_m, fixed_from_bech32. destruct (negb _); [apply follows_err|]. cbv zeta. destruct (_ || _); [apply follows_err|]. apply chars_follows. intros d. apply tail_follows.
Qed.
Lemma decode_bytes_follows s hrp n : follows (decode_bytes_m grant s hrp n) (decode_bech32_to_bytes s hrp n).
Proof.
  unfold decode_bytes_m, decode_bech32_to_bytes. cbv zeta. destruct (_ || _); [apply follows_err|]. destruct (_ || _); [apply follows_err|].
  intros h l X D. destruct (ealloc_cases grant h l X) as [(b & h1 & E & X1 & L1)|(h1 & E & X1 & L1 & F)]; rewrite (mbind_ok _ _ _ _ _ E).
  2:{ exists (inr EMemory), h1. fin. }
  rewrite (mbind_ok _ _ _ _ _ (use_holds b h1 _ X1 (or_introl eq_refl))). set (chars := skipn _ s) in *. clearbody chars.
  destruct (decode_chars (length chars) 0 chars) as [data|x|]; cbn [lift bind] in *; [| |congruence].
  2:{ unfold mbind at 1, mret at 1. destruct (free_holds _ _ _ X1) as (h2 & E2 & X2 & L2). rewrite (mbind_ok _ _ _ _ _ E2). exists (inr x), h2. fin. }
  unfold mbind at 1, mret at 1. destruct (verify_ok hrp data h1 _ X1) as (ok & h2 & E2 & X2 & L2 & R). rewrite (mbind_ok _ _ _ _ _ E2).
  assert (OUT : forall (r : res (list N)) (o : ans (list N)) k, (forall h3, k h3 = @mret (ans (list N)) o h3) -> match o with inl a => r = Ok a | inr x => r = Err x \/ failed grant h h2 end ->
    exists o' h', (let! _ := hfree (Some b) in k) h2 = Ok (o', h') /\ holds h' l /\ h_next h <= h_next h' /\ match o' with inl a => r = Ok a | inr x => r = Err x \/ failed grant h h' end).
  { intros r o k K R'. destruct (free_holds _ _ _ X2) as (h3 & E3 & X3 & L3). rewrite (mbind_ok _ _ _ _ _ E3), K. exists o, h3. split; [reflexivity|]. split; [exact X3|]. split; [lia|].
    destruct o; [exact R'|]. destruct R' as [R'|(k0 & A & B)]; [left; exact R'|right]. exists k0. split; [lia|exact B]. }
  destruct R as [->|(-> & F)].
  2:{ cbn [negb]. apply (OUT _ (inr EEncoding)); [reflexivity|]. right. destruct F as (k0 & A & B). exists k0. split; [lia|exact B]. }
  destruct (verify_checksum hrp data); cbn [negb] in *; [|apply (OUT _ (inr EEncoding)); auto].
  destruct (length data <? 7); [apply (OUT _ (inr EEncoding)); auto|].
  rewrite (mbind_ok _ _ _ _ _ (use_holds b h2 _ X2 (or_introl eq_refl))). set (out := convert_bits _ _ _ _ _) in *. clearbody out.
  destruct (length out =? 0); [apply (OUT _ (inr EEncoding)); auto|apply (OUT _ (inl out)); auto].
Qed.

(** ** Fields *)
Lemma free_all_ok bl : forall h l, holds h (bl ++ l) -> exists h', free_all bl h = Ok (tt, h') /\ holds h' l /\ h_next h' = h_next h.
Proof.
  induction bl as [|b bl IH]; intros h l X; cbn [free_all app] in *; [exists h; auto|].
  destruct (free_holds _ _ _ X) as (h1 & E1 & X1 & L1). rewrite (mbind_ok _ _ _ _ _ E1). destruct (IH h1 l X1) as (h2 & E2 & X2 & L2). exists h2. split; [exact E2|]. split; [exact X2|lia].
Qed.
Lemma snoc_holds bl b h l : holds h (b :: bl ++ l) -> holds h ((bl ++ [b]) ++ l).
Proof. apply holds_perm. rewrite <- app_assoc. cbn [app]. apply Permutation_middle. Qed.
Lemma switch_ok ss wr wa ty v st bl h l : holds h (bl ++ l) -> length bl = length (relays st) ->
  exists o h', tlv_switch_m grant ss wr wa ty v st bl h = Ok (o, h') /\ h_next h <= h_next h' /\
  match o with
  | Some (st', bl') => tlv_switch ss wr wa ty v st = Some st' /\ holds h' (bl' ++ l) /\ length bl' = length (relays st')
  | None => holds h' (bl ++ l) /\ (tlv_switch ss wr wa ty v st = None \/ failed grant h h')
  end.
Proof.
  intros X LE.
  assert (PURE : (forall st', tlv_switch ss wr wa ty v st = Some st' -> relays st' = relays st) ->
    exists o h', @mret (option (tlv_state * list nat)) (option_map (fun st => (st, bl)) (tlv_switch ss wr wa ty v st)) h = Ok (o, h') /\ h_next h <= h_next h' /\
    match o with
    | Some (st', bl') => tlv_switch ss wr wa ty v st = Some st' /\ holds h' (bl' ++ l) /\ length bl' = length (relays st')
    | None => holds h' (bl ++ l) /\ (tlv_switch ss wr wa ty v st = None \/ failed grant h h')
    end).
  { intros S1. eexists. exists h. split; [reflexivity|]. split; [lia|]. destruct (tlv_switch ss wr wa ty v st) as [st'|]; cbn [option_map]; [|auto]. rewrite (S1 st' eq_refl). auto. }
  unfold tlv_switch_m. destruct ty as [|p]; [|destruct p as [p|p|]].
  - apply PURE. cbn [tlv_switch]. intros st' Q. destruct (_ <? _) in Q; [discriminate|]. injection Q; intros; subst; reflexivity.
  - apply PURE. intros st' Q. unfold tlv_switch in Q. destruct p; [injection Q; intros; subst; reflexivity..|]. destruct (_ && _) in Q; injection Q; intros; subst; reflexivity.
  - apply PURE. intros st' Q. unfold tlv_switch in Q. destruct p; [injection Q; intros; subst; reflexivity..|]. destruct (_ && _) in Q; injection Q; intros; subst; reflexivity.
  - cbn [tlv_switch]. destruct (_ && _); [|exists (Some (st, bl)), h; fin]. destruct (is_valid_relay_url v); [|exists (Some (st, bl)), h; fin].
    destruct (ealloc_cases grant h _ X) as [(b & h1 & E & X1 & L1)|(h1 & E & X1 & L1 & F)]; rewrite (mbind_ok _ _ _ _ _ E).
    + rewrite (mbind_ok _ _ _ _ _ (use_holds b h1 _ X1 (or_introl eq_refl))). eexists. exists h1. split; [reflexivity|]. split; [exact L1|]. split; [reflexivity|]. split; [apply snoc_holds, X1|].
      cbn [relays]. rewrite !app_length, LE. reflexivity.
    + exists None, h1. fin.
Qed.
(** What a decoder leaves: the blocks of the relays, or nothing. *)
Definition reads {A} (rs : A -> list (list N)) (m : M (list nat * ans A)) (r : res A) : Prop := forall h l, holds h l -> r <> Undef ->
  exists bl o h', m h = Ok ((bl, o), h') /\ holds h' (bl ++ l) /\ h_next h <= h_next h' /\
  match o with inl a => r = Ok a /\ length bl = length (rs a) | inr x => bl = [] /\ (r = Err x \/ failed grant h h') end.
Lemma loop_ok ss wr wa data : forall fuel pos st bl h l, holds h (bl ++ l) -> length bl = length (relays st) -> parse_loop fuel ss wr wa data pos st <> Undef ->
  exists bl' o h', parse_loop_m grant fuel ss wr wa data pos st bl h = Ok ((bl', o), h') /\ holds h' (bl' ++ l) /\ h_next h <= h_next h' /\
  match o with inl a => parse_loop fuel ss wr wa data pos st = Ok a /\ length bl' = length (relays a) | inr x => bl' = [] /\ (parse_loop fuel ss wr wa data pos st = Err x \/ failed grant h h') end.
Proof.
  induction fuel as [|fuel IH]; intros pos st bl h l X LE D; cbn [parse_loop parse_loop_m] in *; [congruence|].
  destruct (pos + 2 <=? length data) in *; [|exists bl, (inl st), h; fin].
  assert (SL : forall p n x, slice data p n <> Err x) by (intros p n x; unfold slice; destruct (_ <=? _); discriminate).
  destruct (slice data pos 1) as [t|x|] eqn:S1 in *; [|destruct (SL _ _ _ S1)|destruct (D eq_refl)]. cbn [lift bind] in *. unfold mbind at 1, mret at 1.
  destruct (slice data (pos + 1) 1) as [n|x|] eqn:S2 in *; [|destruct (SL _ _ _ S2)|destruct (D eq_refl)]. cbn [lift bind] in *. unfold mbind at 1, mret at 1. cbv zeta in *.
  set (len := N.to_nat (nth 0 n 0%N)) in *. clearbody len.
  assert (STOP : forall h1 (r : res tlv_state), holds h1 (bl ++ l) -> h_next h <= h_next h1 -> r = Err EEncoding \/ failed grant h h1 ->
    exists bl' o h', (let! _ := free_all bl in @mret (list nat * ans tlv_state) ([], inr EEncoding)) h1 = Ok ((bl', o), h') /\ holds h' (bl' ++ l) /\ h_next h <= h_next h' /\
    match o with inl a => r = Ok a /\ length bl' = length (relays a) | inr x => bl' = [] /\ (r = Err x \/ failed grant h h') end).
  { intros h1 r X1 L1 R. destruct (free_all_ok bl h1 l X1) as (h2 & E2 & X2 & L2). rewrite (mbind_ok _ _ _ _ _ E2). exists [], (inr EEncoding), h2. split; [reflexivity|]. split; [exact X2|]. split; [lia|]. split; [reflexivity|].
    destruct R as [R|(k & A & B)]; [left; exact R|right]. exists k. split; [lia|exact B]. }
  destruct (length data <? pos + 2 + len) in *; [apply STOP; auto|].
  destruct (slice data (pos + 2) len) as [v|x|] eqn:S3 in *; [|destruct (SL _ _ _ S3)|destruct (D eq_refl)]. cbn [lift bind] in *. unfold mbind at 1, mret at 1.
  destruct (switch_ok ss wr wa (nth 0 t 0%N) v st bl h l X LE) as (o & h1 & E & L1 & R). rewrite (mbind_ok _ _ _ _ _ E). destruct o as [(st' & bl')|].
  - destruct R as (R & X1 & LE1). rewrite R in *. destruct (IH (pos + 2 + len) st' bl' h1 l X1 LE1 D) as (bl2 & o & h2 & E2 & X2 & L2 & R2). exists bl2, o, h2. split; [exact E2|]. split; [exact X2|]. split; [lia|].
    destruct o; [exact R2|]. destruct R2 as (R2 & [R3|(k & A & B)]); (split; [exact R2|]); [left; exact R3|right]. exists k. split; [lia|exact B].
  - destruct R as (X1 & [R|F]); [rewrite R|]; apply STOP; auto.
Qed.
Lemma tlv_reads ss wr wa data : reads relays (parse_tlv_m grant ss wr wa data) (parse_tlv ss wr wa data).
Proof. intros h l X D. exact (loop_ok ss wr wa data (S (length data)) 0 tlv_init [] h l X eq_refl D). Qed.
Definition made_of (ok : tlv_state -> option entity) (st : tlv_state) : res entity := match ok st with Some e => Ok e | None => Err EEncoding end.
Lemma decode_reads s hrp n ss wr wa ok : (forall data st, parse_tlv ss wr wa data = Ok st -> forall e, ok st = Some e -> length (relays st) = length (relay_list e)) ->
  reads relay_list (decode_m grant s hrp n ss wr wa ok) (do data <- decode_bech32_to_bytes s hrp n; do st <- parse_tlv ss wr wa data; made_of ok st).
Proof.
  intros RL h l X D. unfold decode_m. destruct (decode_bytes_follows s hrp n h l X) as (o & h1 & E & X1 & L1 & R); [intros Q; rewrite Q in D; apply D; reflexivity|].
  rewrite (mbind_ok _ _ _ _ _ E). destruct o as [data|x].
  2:{ exists [], (inr x), h1. split; [reflexivity|]. split; [exact X1|]. split; [exact L1|]. split; [reflexivity|]. destruct R as [R|R]; [rewrite R; left; reflexivity|right; exact R]. }
  rewrite R in *. cbn [bind] in *. destruct (tlv_reads ss wr wa data h1 l X1) as (bl & o & h2 & E2 & X2 & L2 & R2); [intros Q; rewrite Q in D; apply D; reflexivity|].
  assert (STOP : forall x (r : res entity), r = Err x \/ failed grant h h2 -> exists bl' o h', (let! _ := free_all bl in @mret (list nat * ans entity) ([], inr x)) h2 = Ok ((bl', o), h') /\ holds h' (bl' ++ l) /\ h_next h <= h_next h' /\
    match o with inl a => r = Ok a /\ length bl' = length (relay_list a) | inr x => bl' = [] /\ (r = Err x \/ failed grant h h') end).
  { intros x r R'. destruct (free_all_ok bl h2 l X2) as (h3 & E3 & X3 & L3). rewrite (mbind_ok _ _ _ _ _ E3). exists [], (inr x), h3. split; [reflexivity|]. split; [exact X3|]. split; [lia|]. split; [reflexivity|].
    destruct R' as [R'|(k & A & B)]; [left; exact R'|right]. exists k. split; [lia|exact B]. }
  rewrite (mbind_ok _ _ _ _ _ E2). destruct o as [st|x].
  - destruct R2 as (R2 & LB). rewrite R2 in *. cbn [bind]. unfold made_of. destruct (ok st) as [e|] eqn:OK; [|apply STOP; auto].
    exists bl, (inl e), h2. split; [reflexivity|]. split; [exact X2|]. split; [lia|]. split; [reflexivity|]. rewrite LB. exact (RL data st R2 e OK).
  - destruct R2 as (-> & R2). apply STOP. destruct R2 as [R2|(k & A & B)]; [left; rewrite R2; reflexivity|right]. exists k. split; [lia|exact B].
Qed.

Lemma loop_no_relays ss wa data : forall fuel pos st st', parse_loop fuel ss false wa data pos st = Ok st' -> relays st = [] -> relays st' = [].
Proof.
  induction fuel as [|fuel IH]; intros pos st st' E R; cbn [parse_loop] in E; [discriminate|]. destruct (_ <=? _) in E; [|congruence].
  apply bind_ok in E as (t & _ & E). apply bind_ok in E as (n & _ & E). cbv zeta in E. destruct (_ <? _) in E; [discriminate|]. apply bind_ok in E as (v & _ & E).
  destruct (tlv_switch _ _ _ _ _ _) as [st1|] eqn:SW in E; [|discriminate]. apply (IH _ _ _ E). unfold tlv_switch in SW. cbn [andb] in SW.
  repeat match type of SW with context [match ?x with _ => _ end] => destruct x; try discriminate end; injection SW; intros; subst; exact R.
Qed.
Lemma nprofile_reads s : reads relay_list (nprofile_decode_m grant s) (nprofile_decode s).
Proof.
  intros h l X D. pose proof (decode_reads s (bs "nprofile") 4096 32 true false (fun st => if length (special st) =? 32 then Some (Nprofile (special st) (relays st)) else None)) as R.
  assert (E : forall d, (do st <- parse_tlv 32 true false d; made_of (fun st => if length (special st) =? 32 then Some (Nprofile (special st) (relays st)) else None) st) =
    (do st <- parse_tlv 32 true false d; if length (special st) =? 32 then Ok (Nprofile (special st) (relays st)) else Err EEncoding)).
  { intros d. destruct (parse_tlv 32 true false d); [|reflexivity..]. cbn [bind]. unfold made_of. destruct (_ =? 32); reflexivity. }
  assert (E2 : nprofile_decode s = do data <- decode_bech32_to_bytes s (bs "nprofile") 4096; do st <- parse_tlv 32 true false data; made_of (fun st => if length (special st) =? 32 then Some (Nprofile (special st) (relays st)) else None) st).
  { unfold nprofile_decode. destruct (decode_bech32_to_bytes _ _ _); [cbn [bind]; rewrite E|..]; reflexivity. }
  rewrite E2 in *. apply R; auto. intros data st _ e OK. destruct (_ =? 32) in OK; [|discriminate]. injection OK; intros; subst; reflexivity.
Qed.
Lemma nevent_reads s : reads relay_list (nevent_decode_m grant s) (nevent_decode s).
Proof.
  intros h l X D. set (ok := fun st => if length (special st) =? 32 then Some (Nevent (special st) (relays st) (author st) (kind st)) else None).
  assert (E2 : nevent_decode s = do data <- decode_bech32_to_bytes s (bs "nevent") 4096; do st <- parse_tlv 32 true true data; made_of ok st).
  { unfold nevent_decode. destruct (decode_bech32_to_bytes _ _ _) as [d| |]; [cbn [bind]|reflexivity..]. destruct (parse_tlv 32 true true d); [|reflexivity..]. cbn [bind]. unfold made_of, ok. destruct (_ =? 32); reflexivity. }
  rewrite E2 in *. apply decode_reads; auto. intros data st _ e OK. unfold ok in OK. destruct (_ =? 32) in OK; [|discriminate]. injection OK; intros; subst; reflexivity.
Qed.
Lemma naddr_reads s : reads relay_list (naddr_decode_m grant s) (naddr_decode s).
Proof.
  intros h l X D. set (ok := fun st => match author st, kind st with Some a, Some k => if 256 <=? length (special st) then None else Some (Naddr (special st) a k (relays st)) | _, _ => None end).
  assert (E2 : naddr_decode s = do data <- decode_bech32_to_bytes s (bs "naddr") 4096; do st <- parse_tlv 256 true true data; made_of ok st).
  { unfold naddr_decode. destruct (decode_bech32_to_bytes _ _ _) as [d| |]; [cbn [bind]|reflexivity..]. destruct (parse_tlv 256 true true d) as [st| |]; [|reflexivity..]. cbn [bind]. unfold made_of, ok. destruct (author st), (kind st); try reflexivity. destruct (256 <=? _); reflexivity. }
  rewrite E2 in *. apply decode_reads; auto. intros data st _ e OK. unfold ok in OK. destruct (author st), (kind st); try discriminate. destruct (256 <=? _) in OK; [discriminate|]. injection OK; intros; subst; reflexivity.
Qed.
Lemma nrelay_reads s : reads relay_list (nrelay_decode_m grant s) (nrelay_decode s).
Proof.
  intros h l X D. set (ok := fun st => if (length (special st) =? 0) || (256 <=? length (special st)) then None else Some (Nrelay (special st))).
  assert (E2 : nrelay_decode s = do data <- decode_bech32_to_bytes s (bs "nrelay") 512; do st <- parse_tlv 256 false false data; made_of ok st).
  { unfold nrelay_decode. destruct (decode_bech32_to_bytes _ _ _) as [d| |]; [cbn [bind]|reflexivity..]. destruct (parse_tlv 256 false false d); [|reflexivity..]. cbn [bind]. unfold made_of, ok. destruct (_ || _); reflexivity. }
  rewrite E2 in *. apply decode_reads; auto. intros data st P e OK. unfold ok in OK. destruct (_ || _) in OK; [discriminate|]. rewrite (loop_no_relays _ _ _ _ _ _ _ P eq_refl). injection OK; intros; subst; reflexivity.
Qed.

(** ** C148 *)
(** Each decoder, whatever allocation fails: no misuse; on success one block per
    relay, on error nothing, and the error is that of the text or an allocation
    failed. *)
Theorem C148_decode : forall dm d, In (dm, d) [(nprofile_decode_m grant, nprofile_decode); (nevent_decode_m grant, nevent_decode); (naddr_decode_m grant, naddr_decode); (nrelay_decode_m grant, nrelay_decode)] ->
  forall s h l, holds h l -> exists bl o h', dm s h = Ok ((bl, o), h') /\ holds h' (bl ++ l) /\ h_next h <= h_next h' /\
  match o with inl e => d s = Ok e /\ length bl = length (relay_list e) | inr x => bl = [] /\ (d s = Err x \/ failed grant h h') end.
Proof.
  intros dm d I s h l X. destruct (C07_entity_decoders_safe s) as (S1 & S2 & S3 & S4).
  destruct I as [I|[I|[I|[I|[]]]]]; injection I; intros; subst; [apply nprofile_reads|apply nevent_reads|apply naddr_reads|apply nrelay_reads]; assumption.
Qed.
(** Keys and event ids keep nothing at all. *)
Theorem C148_keys : forall s h l, holds h l ->
  (key_from_bech32 s <> Undef -> exists o h', key_from_bech32_m grant s h = Ok (o, h') /\ holds h' l /\ match o with inl k => key_from_bech32 s = Ok k | inr x => key_from_bech32 s = Err x \/ failed grant h h' end) /\
  (privkey_from_bech32 s <> Undef -> exists o h', fixed_from_bech32_m grant (bs "nsec") s h = Ok (o, h') /\ holds h' l /\ match o with inl k => privkey_from_bech32 s = Ok k | inr x => privkey_from_bech32 s = Err x \/ failed grant h h' end) /\
  (event_id_from_bech32 s <> Undef -> exists o h', fixed_from_bech32_m grant (bs "note") s h = Ok (o, h') /\ holds h' l /\ match o with inl k => event_id_from_bech32 s = Ok k | inr x => event_id_from_bech32 s = Err x \/ failed grant h h' end).
Proof.
  intros s h l X. repeat split; intros D.
  - destruct (key_from_follows s h l X D) as (o & h' & E & X' & _ & R). eauto.
  - destruct (fixed_from_follows (bs "nsec") s h l X D) as (o & h' & E & X' & _ & R). exists o, h'. auto.
  - destruct (fixed_from_follows (bs "note") s h l X D) as (o & h' & E & X' & _ & R). exists o, h'. auto.
Qed.
Theorem C148_parse : forall uri h l, holds h l -> uri_parse uri <> Undef ->
  exists u o h', uri_parse_m grant uri h = Ok ((u, o), h') /\ holds h' (cu_blocks u ++ l) /\ h_next h <= h_next h' /\
  (cu_relays u = false -> cu_blocks u = []) /\
  match o with inl e => uri_parse uri = Ok e /\ length (cu_blocks u) = length (relay_list e) | inr x => cu_blocks u = [] /\ (uri_parse uri = Err x \/ failed grant h h') end.
Proof.
  intros uri h l X D. unfold uri_parse_m, uri_parse in *. cbv zeta in *.
  assert (BAD : exists u o h', @mret (curi * ans entity) (mkCu false [], inr EEncoding) h = Ok ((u, o), h') /\ holds h' (cu_blocks u ++ l) /\ h_next h <= h_next h' /\ (cu_relays u = false -> cu_blocks u = []) /\
    match o with inl e => @Err entity EEncoding = Ok e /\ length (cu_blocks u) = length (relay_list e) | inr x => cu_blocks u = [] /\ (@Err entity EEncoding = Err x \/ failed grant h h') end).
  { eexists. eexists. exists h. split; [reflexivity|]. split; [exact X|]. split; [lia|]. split; [reflexivity|]. split; [reflexivity|left; reflexivity]. }
  assert (PL : forall (f : list N -> entity) m r, (forall k, relay_list (f k) = []) -> follows m r -> rmap f r <> Undef ->
    exists u o h', no_relays f m h = Ok ((u, o), h') /\ holds h' (cu_blocks u ++ l) /\ h_next h <= h_next h' /\ (cu_relays u = false -> cu_blocks u = []) /\
    match o with inl e => rmap f r = Ok e /\ length (cu_blocks u) = length (relay_list e) | inr x => cu_blocks u = [] /\ (rmap f r = Err x \/ failed grant h h') end).
  { intros f m r RL FO D'. destruct (FO h l X) as (o & h1 & E & X1 & L1 & R); [intros Q; apply D'; rewrite Q; reflexivity|]. unfold no_relays. rewrite (mbind_ok _ _ _ _ _ E).
    eexists. eexists. exists h1. split; [reflexivity|]. split; [exact X1|]. split; [exact L1|]. split; [reflexivity|]. destruct o as [k|x].
    - rewrite R. cbn [rmap cu_blocks]. rewrite RL. auto.
    - split; [reflexivity|]. destruct R as [R|R]; [left; rewrite R; reflexivity|right; exact R]. }
  assert (RD : forall m (r : res entity), reads relay_list m r -> r <> Undef ->
    exists u o h', with_relays m h = Ok ((u, o), h') /\ holds h' (cu_blocks u ++ l) /\ h_next h <= h_next h' /\ (cu_relays u = false -> cu_blocks u = []) /\
    match o with inl e => r = Ok e /\ length (cu_blocks u) = length (relay_list e) | inr x => cu_blocks u = [] /\ (r = Err x \/ failed grant h h') end).
  { intros m r RR D'. destruct (RR h l X D') as (bl & o & h1 & E & X1 & L1 & R). unfold with_relays. rewrite (mbind_ok _ _ _ _ _ E). eexists. eexists. exists h1. split; [reflexivity|]. cbn [fst snd cu_blocks cu_relays].
    split; [exact X1|]. split; [exact L1|]. split; [discriminate|exact R]. }
  destruct (negb _); [exact BAD|].
  destruct (prefixb (bs "npub1") _); [apply PL; [reflexivity|apply key_from_follows|exact D]|].
  destruct (prefixb (bs "nsec1") _); [apply PL; [reflexivity|apply fixed_from_follows|exact D]|].
  destruct (prefixb (bs "note1") _); [apply PL; [reflexivity|apply fixed_from_follows|exact D]|].
  destruct (prefixb (bs "nprofile1") _); [apply RD; [apply nprofile_reads|exact D]|].
  destruct (prefixb (bs "nevent1") _); [apply RD; [apply nevent_reads|exact D]|].
  destruct (prefixb (bs "naddr1") _); [apply RD; [apply naddr_reads|exact D]|].
  destruct (prefixb (bs "nrelay1") _); [|exact BAD].
  destruct (nrelay_reads (skipn 6 uri) h l X D) as (bl & o & h1 & E & X1 & L1 & R). rewrite (mbind_ok _ _ _ _ _ E). eexists. eexists. exists h1. split; [reflexivity|]. cbn [fst snd cu_blocks cu_relays].
  split; [exact X1|]. split; [exact L1|]. split; [|exact R]. intros _. destruct o as [e|x]; [|apply R]. destruct R as (R & LB).
  assert (NR : relay_list e = []).
  { unfold nrelay_decode in R. apply bind_ok in R as (d & _ & R). apply bind_ok in R as (st & _ & R). destruct (_ || _) in R; [discriminate|]. injection R; intros; subst; reflexivity. }
  rewrite NR in LB. destruct bl; [reflexivity|discriminate].
Qed.
(** With enough memory the answer is that of Nip21.v. *)
Corollary C148_enough : forall uri h l u o h', holds h l -> uri_parse uri <> Undef -> uri_parse_m grant uri h = Ok ((u, o), h') -> granted grant h h' -> answers (uri_parse uri) o.
Proof.
  intros uri h l u o h' X D E G. destruct (C148_parse uri h l X D) as (u1 & o1 & h1 & E1 & _ & _ & _ & R). rewrite E in E1. assert (o1 = o /\ h1 = h') as (-> & ->) by (split; congruence).
  unfold answers. destruct o as [e|x]; [apply R|]. destruct R as (_ & [R|F]); [exact R|]. destruct (failed_not_granted _ _ _ F G).
Qed.
(** Releasing gives everything back, and may be done again. *)
Theorem C148_free : forall u h l, (cu_relays u = false -> cu_blocks u = []) -> holds h (cu_blocks u ++ l) ->
  exists u' h', uri_free_m u h = Ok (u', h') /\ holds h' l /\ uri_free_m u' h' = Ok (u', h').
Proof.
  intros u h l NR X. unfold uri_free_m. destruct (cu_relays u) eqn:CR.
  - destruct (free_all_ok _ _ _ X) as (h1 & E1 & X1 & _). rewrite (mbind_ok _ _ _ _ _ E1). eexists. exists h1. split; [reflexivity|]. split; [exact X1|]. reflexivity.
  - rewrite (NR eq_refl) in X. eexists. exists h. split; [reflexivity|]. split; [exact X|]. reflexivity.
Qed.
Corollary C148_life : forall uri h l, holds h l -> uri_parse uri <> Undef ->
  exists u o h' u' h'', uri_parse_m grant uri h = Ok ((u, o), h') /\ uri_free_m u h' = Ok (u', h'') /\ holds h'' l.
Proof.
  intros uri h l X D. destruct (C148_parse uri h l X D) as (u & o & h1 & E & X1 & _ & NR & _). destruct (C148_free u h1 l NR X1) as (u' & h2 & E2 & X2 & _). exists u, o, h1, u', h2. auto.
Qed.

(** Writing. *)
Lemma use_all_ok bl h l : holds h l -> incl bl l -> use_all bl h = Ok (tt, h).
Proof.
  intros X. induction bl as [|b bl IH]; intros I; cbn [use_all]; [reflexivity|]. rewrite (mbind_ok _ _ _ _ _ (use_holds b h l X (I b (or_introl eq_refl)))). apply IH. intros z Z. apply I. right. exact Z.
Qed.
Lemma uses u h l : holds h l -> incl (cu_blocks u) l -> (if cu_relays u then use_all (firstn 16 (cu_blocks u)) else mret tt) h = Ok (tt, h).
Proof.
  intros X I. destruct (cu_relays u); [|reflexivity]. apply (use_all_ok _ h l X). intros z Z. apply I. rewrite <- (firstn_skipn 16 (cu_blocks u)). apply in_or_app. left. exact Z.
Qed.
(** Keys and ids: nothing is kept and the text is right, or the error is that of
    the call or an allocation failed. *)
Theorem C148_encode_partial : forall u e size h l, plain e -> holds h l -> incl (cu_blocks u) l -> uri_encode e size <> Undef ->
  exists o h', uri_encode_m grant u e size h = Ok (o, h') /\ holds h' l /\ match o with inl s => uri_encode e size = Ok s | inr x => uri_encode e size = Err x \/ failed grant h h' end.
Proof.
  intros u e size h l P X I D. unfold uri_encode_m, uri_encode in *. destruct (size <? 7)%N; [exists (inr EInvalidParam), h; auto|]. cbv zeta in *. rewrite (mbind_ok _ _ _ _ _ (uses u h l X I)).
  assert (K : forall m r, follows m r -> rmap (fun s => bs "nostr:" ++ s) r <> Undef ->
    exists o h', (let! r := m in mret match r with inl s => inl (bs "nostr:" ++ s) | inr x => inr x end) h = Ok (o, h') /\ holds h' l /\
    match o with inl s => rmap (fun s => bs "nostr:" ++ s) r = Ok s | inr x => rmap (fun s => bs "nostr:" ++ s) r = Err x \/ failed grant h h' end).
  { intros m r FO D'. destruct (FO h l X) as (o & h1 & E & X1 & L1 & R); [intros Q; apply D'; rewrite Q; reflexivity|]. rewrite (mbind_ok _ _ _ _ _ E). eexists. exists h1. split; [reflexivity|]. split; [exact X1|].
    destruct o as [s|x]; [rewrite R; reflexivity|]. destruct R as [R|R]; [left; rewrite R; reflexivity|right; exact R]. }
  destruct e; try destruct P; apply K; auto; [apply key_to_follows|apply privkey_to_follows|apply id_to_follows].
Qed.
Lemma encode_bytes_enough data hrp n h l : holds h l -> enough grant h 2 -> encode_bytes_to_bech32 data hrp n <> Undef ->
  exists o h', encode_bytes_m grant data hrp n h = Ok (o, h') /\ holds h' l /\ answers (encode_bytes_to_bech32 data hrp n) o.
Proof.
  intros X G D. unfold encode_bytes_m, encode_bytes_to_bech32 in *. cbv zeta in *. set (conv := convert_bits _ _ _ _ _) in *. clearbody conv.
  destruct (ealloc_cases grant h l X) as [(b & h1 & E & X1 & L1)|(h1 & E & X1 & L1 & (k & A & B))]; rewrite (mbind_ok _ _ _ _ _ E);
    (assert (N1 : h_next h1 = S (h_next h)) by (revert E; unfold ealloc; destruct (grant (h_next h)); intros E; injection E; intros; subst; reflexivity || discriminate)).
  2:{ rewrite (G k) in B by lia. discriminate. }
  rewrite (mbind_ok _ _ _ _ _ (use_holds b h1 _ X1 (or_introl eq_refl))).
  assert (OUT : forall (r : res (list N)) (o : ans (list N)) h2, holds h2 (b :: l) -> answers r o ->
    exists o' h', (let! _ := hfree (Some b) in mret o) h2 = Ok (o', h') /\ holds h' l /\ answers r o').
  { intros r o h2 X2 R. destruct (free_holds _ _ _ X2) as (h3 & E3 & X3 & L3). rewrite (mbind_ok _ _ _ _ _ E3). exists o, h3. auto. }
  destruct (length conv =? 0); [apply (OUT _ (inr EEncoding)); auto; reflexivity|]. destruct (n <? _)%N in *; [apply (OUT _ (inr EInvalidParam)); auto; reflexivity|].
  destruct (create_ok hrp conv h1 _ X1) as (o & h2 & E2 & X2 & L2 & R). rewrite (mbind_ok _ _ _ _ _ E2).
  destruct R as [->|(_ & (k & A & B))]; [|rewrite (G k) in B by lia; discriminate]. destruct (create_checksum hrp conv) as [ck|]; [|congruence].
  destruct (_ <=? n)%N in *; [|congruence]. unfold mbind at 1, hassert. rewrite (mbind_ok _ _ _ _ _ (use_holds b h2 _ X2 (or_introl eq_refl))). apply OUT; [exact X2|reflexivity].
Qed.
(** With memory for the two buffers every entity is written as Nip21.v says. *)
Theorem C148_encode_enough : forall u e size h l, holds h l -> incl (cu_blocks u) l -> enough grant h 2 -> uri_encode e size <> Undef ->
  exists o h', uri_encode_m grant u e size h = Ok (o, h') /\ holds h' l /\ answers (uri_encode e size) o.
Proof.
  intros u e size h l X I G D.
  assert (PL : plain e -> exists o h', uri_encode_m grant u e size h = Ok (o, h') /\ holds h' l /\ answers (uri_encode e size) o).
  { intros P. unfold uri_encode_m, uri_encode in *. destruct (size <? 7)%N; [exists (inr EInvalidParam), h; split; [reflexivity|]; split; [exact X|reflexivity]|]. cbv zeta in *. rewrite (mbind_ok _ _ _ _ _ (uses u h l X I)).
    assert (EO : forall p d n, encode_out p d n <> Undef -> exists o h', encode_out_m grant p d n h = Ok (o, h') /\ holds h' l /\ answers (encode_out p d n) o).
    { intros p d n D'. unfold encode_out_m, encode_out in *. destruct (create_ok p d h l X) as (o & h1 & E & X1 & L1 & R). rewrite (mbind_ok _ _ _ _ _ E).
      destruct R as [->|(_ & (k & A & B))]; [|rewrite (G k) in B by lia; discriminate]. destruct (create_checksum p d) as [ck|]; [|exists (inr EEncoding), h1; auto; split; [reflexivity|]; split; [exact X1|reflexivity]].
      cbv zeta in *. destruct (_ <=? n) in *; [|congruence]. eexists. exists h1. split; [reflexivity|]. split; [exact X1|reflexivity]. }
    assert (K : forall m r, (r <> Undef -> exists o h', m h = Ok (o, h') /\ holds h' l /\ answers r o) -> rmap (fun s => bs "nostr:" ++ s) r <> Undef ->
      exists o h', (let! r := m in mret match r with inl s => inl (bs "nostr:" ++ s) | inr x => inr x end) h = Ok (o, h') /\ holds h' l /\ answers (rmap (fun s => bs "nostr:" ++ s) r) o).
    { intros m r FO D'. destruct FO as (o & h1 & E & X1 & R); [intros Q; apply D'; rewrite Q; reflexivity|]. rewrite (mbind_ok _ _ _ _ _ E). eexists. exists h1. split; [reflexivity|]. split; [exact X1|].
      unfold answers in *. destruct o; rewrite R; reflexivity. }
    assert (RE : forall x, exists o h', @mret (ans (list N)) (inr x) h = Ok (o, h') /\ holds h' l /\ answers (@Err (list N) x) o).
    { intros x. exists (inr x), h. split; [reflexivity|]. split; [exact X|reflexivity]. }
    destruct e; try destruct P; apply K; auto; clear K D.
    - unfold key_to_bech32_m, key_to_bech32. destruct (_ || _); [intros _; apply RE|]. cbv zeta. destruct (_ =? 0); [intros _; apply RE|apply EO].
    - unfold fixed_to_bech32_m, privkey_to_bech32. destruct (_ <? 64); [intros _; apply RE|]. cbv zeta. destruct (_ =? 0); [intros _; apply RE|apply EO].
    - unfold fixed_to_bech32_m, event_id_to_bech32. destruct (_ <? 64); [intros _; apply RE|]. cbv zeta. destruct (_ =? 0); [intros _; apply RE|apply EO]. }
  destruct e; try (apply PL; exact Logic.I); clear PL; unfold uri_encode_m, uri_encode in *; (destruct (size <? 7)%N; [exists (inr EInvalidParam), h; split; [reflexivity|]; split; [exact X|reflexivity]|]);
    cbv zeta in *; rewrite (mbind_ok _ _ _ _ _ (uses u h l X I));
    (assert (K : forall m r, (r <> Undef -> exists o h', m h = Ok (o, h') /\ holds h' l /\ answers r o) -> rmap (fun s => bs "nostr:" ++ s) r <> Undef ->
      exists o h', (let! r := m in mret match r with inl s => inl (bs "nostr:" ++ s) | inr x => inr x end) h = Ok (o, h') /\ holds h' l /\ answers (rmap (fun s => bs "nostr:" ++ s) r) o) by
     (intros m r FO D'; destruct FO as (o & h1 & E & X1 & R); [intros Q; apply D'; rewrite Q; reflexivity|]; rewrite (mbind_ok _ _ _ _ _ E); eexists; exists h1; split; [reflexivity|]; split; [exact X1|];
      unfold answers in *; destruct o; rewrite R; reflexivity)); apply K; auto; clear K D; intros D;
    [unfold nprofile_encode, tlv_m in *|unfold nevent_encode, tlv_m in *|unfold naddr_encode, tlv_m in *|unfold nrelay_encode in *]; cbv zeta in *;
    match goal with |- context [if ?b then _ else _] => destruct b end; try (eexists; exists h; split; [reflexivity|]; split; [exact X|reflexivity]); apply encode_bytes_enough; assumption.
Qed.
End Grant.
(** Without it the others read a checksum that was never computed. *)
Theorem C148_encode_refuted : ~ (forall grant u e size h l, holds h l -> incl (cu_blocks u) l -> uri_encode e size <> Undef -> uri_encode_m grant u e size h <> Undef).
Proof.
  intros G. apply (G (fun k => k =? 0) (mkCu false []) (Nrelay (bs "wss://r.example")) 200%N (mkHeap 0 []) []).
  - split; [split; constructor|constructor].
  - intros z [].
  - vm_compute. discriminate.
  - vm_compute. reflexivity.
Qed.
(** A shortage is not reported as such: a good URI is called badly encoded. *)
Definition text_of (e : entity) : list N := match uri_encode e 1000 with Ok s => s | _ => [] end.
Definition profile : entity := Nprofile (repeat 7%N 32) [bs "wss://a.example"; bs "ws://b.example"].
Theorem C148_memory_refuted : ~ (forall grant uri e h l u x h', holds h l -> uri_parse uri = Ok e -> uri_parse_m grant uri h = Ok ((u, inr x), h') -> x = EMemory).
Proof.
  intros G. assert (Q : EEncoding = EMemory); [|discriminate Q].
  apply (G (fun k => k <? 3) (text_of profile) profile (mkHeap 0 []) [] (mkCu true []) EEncoding (mkHeap 4 [])).
  - split; [split; constructor|constructor].
  - vm_compute. reflexivity.
  - vm_compute. reflexivity.
Qed.
(** A profile with two relays: read with memory for all of it, or not. *)
Example C148_meets :
  holds (mkHeap 0 []) [] /\ uri_parse (text_of profile) = Ok profile /\ relay_list profile <> [] /\
  (exists h', uri_parse_m (fun _ => true) (text_of profile) (mkHeap 0 []) = Ok ((mkCu true [2; 3], inl profile), h') /\ h_live h' = [3; 2] /\ granted (fun _ => true) (mkHeap 0 []) h') /\
  uri_parse_m (fun k => k <? 3) (text_of profile) (mkHeap 0 []) = Ok ((mkCu true [], inr EEncoding), mkHeap 4 []) /\
  uri_parse_m (fun k => negb (k =? 0)) (text_of profile) (mkHeap 0 []) = Ok ((mkCu true [], inr EMemory), mkHeap 1 []) /\
  uri_encode_m (fun _ => true) (mkCu true [2; 3]) profile 1000 (mkHeap 4 [3; 2]) = Ok (inl (text_of profile), mkHeap 6 [3; 2]) /\
  plain (Npub (repeat 7%N 32)) /\ enough (fun _ => true) (mkHeap 0 []) 2 /\
  uri_encode_m (fun _ => false) (mkCu false []) (Npub (repeat 7%N 32)) 1000 (mkHeap 0 []) = Ok (inr EEncoding, mkHeap 1 []).
Proof.
  split; [split; [split; constructor|constructor]|]. split; [vm_compute; reflexivity|]. split; [discriminate|]. split; [eexists; split; [vm_compute; reflexivity|]; split; [reflexivity|intros k _; reflexivity]|].
  split; [vm_compute; reflexivity|]. split; [vm_compute; reflexivity|]. split; [vm_compute; reflexivity|]. split; [exact Logic.I|]. split; [intros k _; reflexivity|vm_compute; reflexivity].
Qed.
Print Assumptions C148_decode.
Print Assumptions C148_keys.
Print Assumptions C148_parse.
Print Assumptions C148_enough.
Print Assumptions C148_free.
Print Assumptions C148_life.
Print Assumptions C148_encode_partial.
Print Assumptions C148_encode_enough.
Print Assumptions C148_encode_refuted.
Print Assumptions C148_memory_refuted.
