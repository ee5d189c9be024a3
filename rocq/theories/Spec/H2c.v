(** RFC 9380: the bls12-381 suites (8.8.1, 8.8.2), sgn0 (4.1) and the
    conditions on the constants of the simplified SWU map (6.6.2). *)
From Coq Require Import ZArith NArith List Bool.
From Verif Require Import Base.Field Base.Zp Base.Ext Spec.Weierstrass.
Import ListNotations.
Local Open Scope fld_scope.

Definition is_sq {K : FieldOps} (x : K) : Prop := exists y : K, y * y = x.
(** x^3 + A x + B *)
Definition rhs {K : FieldOps} (A B x : K) : K := x * x * x + A * x + B.
(** the conditions of 6.6.2 that the map needs *)
Record swu_conditions {K : FieldOps} (A B Z : K) : Prop := {
  sc_A : A <> 0;
  sc_Z : ~ is_sq Z;
  sc_exc : is_sq (rhs A B (B * finv (Z * A)))
}.
(** a sign: opposite non-zero elements have different signs *)
Definition is_sign {K : FieldOps} (sgn0 : K -> bool) : Prop := forall y : K, y <> 0 -> sgn0 (- y) = negb (sgn0 y).

(** 6.6.2: the point for u. x1 has a special value when the denominator vanishes;
    x is x1 when g(x1) is a square and Z u^2 x1 otherwise; y is the square root with the sign of u *)
Definition rfc_x1 {K : FieldOps} (A B Z u x1 : K) : Prop :=
  let d := Z * Z * (u * u * u * u) + Z * (u * u) in
  (d = 0 -> x1 = B * finv (Z * A)) /\ (d <> 0 -> x1 = (- B * finv A) * (1 + finv d)).
Record rfc_swu {K : FieldOps} (A B Z : K) (sgn0 : K -> bool) (u x y : K) : Prop := {
  rs_x : exists x1, rfc_x1 A B Z u x1 /\ (is_sq (rhs A B x1) -> x = x1) /\ (~ is_sq (rhs A B x1) -> x = Z * (u * u) * x1);
  rs_on : on_curve K A B (Aff x y);
  rs_sgn : y <> 0 -> sgn0 y = sgn0 u
}.
(** 4.3, appendix E: x' = x_num/x_den, y' = y y_num/y_den, coefficients from the constant term up, monic denominators *)
Definition poly {K : FieldOps} (ks : list K) (x : K) : K := fold_right (fun k a => k + x * a) 0 ks.
Record rfc_iso {K : FieldOps} (kxn kxd kyn kyd : list K) (x y X Y : K) : Prop := {
  ri_dx : poly (kxd ++ [1]) x <> 0;
  ri_dy : poly (kyd ++ [1]) x <> 0;
  ri_X : X * poly (kxd ++ [1]) x = poly kxn x;
  ri_Y : Y * poly (kyd ++ [1]) x = y * poly kyn x
}.

(** 4.1: sgn0 for a prime field and for a quadratic extension *)
Definition rfc_sgn0_1 (p : Z) (x : Zp p) : bool := Z.odd (zval x).
Definition rfc_sgn0_2 (p : Z) (x : quad (Zp p)) : bool :=
  rfc_sgn0_1 p (q0 x) || ((zval (q0 x) =? 0)%Z && rfc_sgn0_1 p (q1 x)).

(** 8.8.1: A', B', Z of the G1 suites *)
Definition rfc_g1_A : Z := 0x144698a3b8e9433d693a02c96d4982b0ea985383ee66a8d8e8981aefd881ac98936f8da0e0f97f5cf428082d584c1d.
Definition rfc_g1_B : Z := 0x12e2908d11688030018b12e8753eee3b2016c1f0f24f4070a0b9c14fcef35ef55a23215a316ceaa5d1cc48e98e172be0.
Definition rfc_g1_Z : Z := 11.
(** 8.8.2: A' = 240 I, B' = 1012 (1 + I), Z = -(2 + I) *)
Definition rfc_g2_A : Z * Z := (0, 240)%Z.
Definition rfc_g2_B : Z * Z := (1012, 1012)%Z.
Definition rfc_g2_Z : Z * Z := (-2, -1)%Z.
