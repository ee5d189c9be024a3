(** The chord-and-tangent law on y^2 = x^3 + a x + b, as in textbooks. *)
From Verif Require Import Base.Field.
Local Open Scope fld_scope.

Section Spec.
  Variable K : FieldOps.
  Variables a b : K.
  Inductive point := Inf | Aff (x y : K).
  Definition on_curve (P : point) : Prop :=
    match P with Inf => True | Aff x y => y * y = x * x * x + a * x + b end.
  Definition ec_neg (P : point) : point :=
    match P with Inf => Inf | Aff x y => Aff x (- y) end.
  (** third intersection of the line of slope l, reflected *)
  Definition ec_line (l x1 y1 x2 : K) : point :=
    let x3 := l * l - x1 - x2 in Aff x3 (l * (x1 - x3) - y1).
  Definition ec_add (P Q : point) : point :=
    match P, Q with
    | Inf, _ => Q
    | _, Inf => P
    | Aff x1 y1, Aff x2 y2 =>
        if x1 =? x2 then
          if y1 =? - y2 then Inf
          else ec_line (fdiv (3 * (x1 * x1) + a) (2 * y1)) x1 y1 x2
        else ec_line (fdiv (y2 - y1) (x2 - x1)) x1 y1 x2
    end.
  (** n-fold sum *)
  Fixpoint ec_mul (n : nat) (P : point) : point :=
    match n with O => Inf | S m => ec_add P (ec_mul m P) end.
  (** coordinates (X, Y), (X : Y : Z) representing a point *)
  Definition rep_affine (zx zy : K) (X Y : K) (P : point) : Prop :=
    match P with Inf => X = zx /\ Y = zy | Aff x y => X = x /\ Y = y end.
  Definition rep_jacobian (X Y Z : K) (P : point) : Prop :=
    match P with
    | Inf => Z = 0
    | Aff x y => Z <> 0 /\ X = x * (Z * Z) /\ Y = y * (Z * Z * Z)
    end.
  Definition rep_projective (X Y Z : K) (P : point) : Prop :=
    match P with
    | Inf => X = 0 /\ Z = 0
    | Aff x y => Z <> 0 /\ X = x * Z /\ Y = y * Z
    end.
  (** 4 a^3 + 27 b^2 *)
  Definition nonsingular : Prop := 2 * 2 * (a * a * a) + 3 * 3 * 3 * (b * b) <> 0.
End Spec.
Arguments Inf {K}.
Arguments Aff {K} x y.
Arguments ec_neg {K} P.
Arguments ec_line {K} l x1 y1 x2.
Arguments rep_affine {K}.
Arguments rep_jacobian {K}.
Arguments rep_projective {K}.
