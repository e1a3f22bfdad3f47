(** What both sides of a key agreement rely on: a curve, and libraries that compute on
    it.  Nothing here mentions the model. *)
From Verif Require Import Base.
Open Scope N_scope.

(** [proper]: on the curve and not the neutral element. *)
Record curve : Type := mkCurve {
  point : Type; proper : point -> Prop; base : point; order : N;
  mul : N -> point -> point; opp : point -> point; xof : point -> list N; isodd : point -> bool }.
Record curve_ok (c : curve) : Prop := mkCurveOk {
  c_base : proper c (base c);
  c_mul : forall a p, 0 < a < order c -> proper c p -> proper c (mul c a p);
  c_opp : forall p, proper c p -> proper c (opp c p);
  c_mulmul : forall a b p, proper c p -> mul c a (mul c b p) = mul c (a * b) p;
  c_mulopp : forall a p, proper c p -> mul c a (opp c p) = opp c (mul c a p);
  c_xopp : forall p, proper c p -> xof c (opp c p) = xof c p;
  c_same : forall p q, proper c p -> proper c q -> xof c p = xof c q -> p = q \/ p = opp c q;
  c_odd : forall p, proper c p -> isodd c (opp c p) = negb (isodd c p);
  c_len : forall p, proper c p -> length (xof c p) = 32%nat }.
(** The number a private key stands for, most significant byte first. *)
Definition number (sk : list N) : N := fold_left (fun v b => v * 256 + b) sk 0.
Definition usable (c : curve) (sk : list N) : Prop := 0 < number sk < order c.
(** The public key on the wire: the first coordinate. *)
Definition public (c : curve) (sk pk : list N) : Prop := usable c sk /\ pk = xof c (mul c (number sk) (base c)).
(** The point a public key on the wire stands for: the even one. *)
Definition stands (c : curve) (pk : list N) (p : point c) : Prop := proper c p /\ xof c p = pk /\ isodd c p = false.
(** noscrypt: the first coordinate of the product. *)
Record noscrypt_ok (c : curve) (shared : list N -> list N -> option (list N)) : Prop := mkNcOk {
  nc_gives : forall sk pk p, usable c sk -> stands c pk p -> shared sk pk = Some (xof c (mul c (number sk) p));
  nc_key : forall sk pk, ~ usable c sk -> shared sk pk = None;
  nc_point : forall sk pk, (forall p, ~ stands c pk p) -> shared sk pk = None }.
(** libsecp256k1: SHA-256 of the compressed product. *)
Definition compressed (c : curve) (p : point c) : list N := (if isodd c p then 3 else 2) :: xof c p.
Record secp_ok (c : curve) (sha : list N -> list N) (parse : list N -> option (point c)) (ecdh : point c -> list N -> option (list N)) (create : list N -> option (point c)) : Prop := mkSecpOk {
  sp_parse : forall pk p, parse (2 :: pk) = Some p <-> stands c pk p;
  sp_ecdh : forall p sk, proper c p -> usable c sk -> ecdh p sk = Some (sha (compressed c (mul c (number sk) p)));
  sp_key : forall p sk, ~ usable c sk -> ecdh p sk = None;
  sp_create : forall sk, usable c sk -> create sk = Some (mul c (number sk) (base c)) }.
