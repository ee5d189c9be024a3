(** The twisted Edwards curve a x^2 + y^2 = 1 + d x^2 y^2. *)
From Verif Require Import Base.Field.
Local Open Scope fld_scope.

Section Spec.
  Variable K : FieldOps.
  Variables a d : K.
  Definition on_te (P : K * K) : Prop :=
    let '(x, y) := P in a * (x * x) + y * y = 1 + d * (x * x) * (y * y).
  Definition te_add (P Q : K * K) : K * K :=
    let '(x1, y1) := P in let '(x2, y2) := Q in
    (fdiv (x1 * y2 + y1 * x2) (1 + d * x1 * x2 * y1 * y2),
     fdiv (y1 * y2 - a * x1 * x2) (1 - d * x1 * x2 * y1 * y2)).
  Definition te_neg (P : K * K) : K * K := let '(x, y) := P in (- x, y).
  Definition te_zero : K * K := (0, 1).
  Fixpoint te_mul (n : nat) (P : K * K) : K * K :=
    match n with O => te_zero | S m => te_add P (te_mul m P) end.
  (** a is a non-zero square and d is not a square *)
  Definition complete : Prop :=
    (exists s, s <> 0 /\ s * s = a) /\ forall r, r * r <> d.
End Spec.
Arguments te_neg {K} P.
Arguments te_zero {K}.

(** coordinates standing for a point *)
Section Rep.
  Variable K : FieldOps.
  (** affine: (x, y), or the marker (zx, zy) for the identity *)
  Definition rep_te_affine (zx zy X Y : K) (P : K * K) : Prop :=
    X = fst P /\ Y = snd P \/ X = zx /\ Y = zy /\ P = te_zero.
  (** extended (X, Y, T, Z): x = X/Z, y = Y/Z, xy = T/Z *)
  Definition rep_extended (X Y T Z : K) (P : K * K) : Prop :=
    Z <> 0 /\ X = fst P * Z /\ Y = snd P * Z /\ T = fst P * snd P * Z.
  (** inverted (X, Y, Z): x = Z/X, y = Z/Y, all non-zero; Y = Z = 0 is the identity *)
  Definition rep_inverted (X Y Z : K) (P : K * K) : Prop :=
    (Y = 0 /\ Z = 0 /\ P = te_zero)
    \/ (X <> 0 /\ Y <> 0 /\ Z <> 0 /\ Z = fst P * X /\ Z = snd P * Y).
  (** the identity, or both coordinates non-zero *)
  Definition regular (P : K * K) : Prop := P = te_zero \/ (fst P <> 0 /\ snd P <> 0).
End Rep.
Arguments regular {K}.
Arguments rep_te_affine {K}.
Arguments rep_extended {K}.
Arguments rep_inverted {K}.
