(** The finite doubles among the real numbers. *)
From Coq Require Import ZArith Reals Floats.SpecFloat.
Local Open Scope R_scope.

(** the finite IEEE 754 binary64 numbers, and the real number each stands for *)
Definition finite_double (v : spec_float) : Prop :=
  match v with
  | S754_zero _ => True
  | S754_finite _ m e => SpecFloat.bounded 53 1024 m e = true
  | _ => False
  end.
Definition real (v : spec_float) : R :=
  match v with
  | S754_finite s m e => (if s then - IZR (Z.pos m) else IZR (Z.pos m)) * powerRZ 2 e
  | _ => 0
  end.
(** the sign of a double *)
Definition negative (v : spec_float) : bool := match v with S754_zero s | S754_infinity s | S754_finite s _ _ => s | S754_nan => false end.

(** the largest double at most t, and the smallest one at least t *)
Definition double_below (t : R) (r : spec_float) : Prop :=
  finite_double r /\ real r <= t /\ forall v, finite_double v -> real v <= t -> real v <= real r.
Definition double_above (t : R) (r : spec_float) : Prop :=
  finite_double r /\ t <= real r /\ forall v, finite_double v -> t <= real v -> real r <= real v.
