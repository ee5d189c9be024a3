(** The twisted Edwards curve a x^2 + y^2 = 1 + d x^2 y^2 in short Weierstrass form.  With
    u = (1 + y) / (1 - y) and v = u / x one has 4 v^2 = (a - d) (u^3 + u) + 2 (a + d) u^2
    (Bernstein et al., Twisted Edwards curves, Theorem 3.2); completing the cube and scaling
    by 36 and 216 removes the denominators. *)
From Coq Require Import ZArith Bool.
From Verif Require Import Base.Field Spec.Weierstrass.
Local Open Scope fld_scope.

Section Spec.
  Variable K : FieldOps.
  Variables a d : K.
  Definition te_wa : K := - (fofZ 27 * (a * a + fofZ 14 * (a * d) + d * d)).
  Definition te_wb : K := fofZ 54 * ((a + d) * (fofZ 34 * (a * d) - a * a - d * d)).
  Definition te_weier (P : K * K) : point K :=
    let '(x, y) := P in
    if (x =? 0) && (y =? 1) then Inf
    else
      let u := fdiv (1 + y) (1 - y) in
      Aff (3 * (3 * ((a - d) * u) + 2 * (a + d))) (fofZ 54 * ((a - d) * fdiv u x)).
End Spec.
