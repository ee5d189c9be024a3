(** The chord-and-tangent law on B y^2 = x^3 + A x^2 + x. *)
From Verif Require Import Base.Field Spec.Weierstrass.
Local Open Scope fld_scope.

Section Spec.
  Variable K : FieldOps.
  Variables A B : K.
  Definition on_mont (P : point K) : Prop :=
    match P with Inf => True | Aff x y => B * (y * y) = x * x * x + A * (x * x) + x end.
  (** third intersection of the line of slope l, reflected *)
  Definition mont_line (l x1 y1 x2 : K) : point K :=
    let x3 := B * (l * l) - A - x1 - x2 in Aff x3 (l * (x1 - x3) - y1).
  Definition mont_add (P Q : point K) : point K :=
    match P, Q with
    | Inf, _ => Q
    | _, Inf => P
    | Aff x1 y1, Aff x2 y2 =>
        if x1 =? x2 then
          if y1 =? - y2 then Inf
          else mont_line (fdiv (3 * (x1 * x1) + 2 * A * x1 + 1) (2 * B * y1)) x1 y1 x2
        else mont_line (fdiv (y2 - y1) (x2 - x1)) x1 y1 x2
    end.
  Fixpoint mont_mul (n : nat) (P : point K) : point K :=
    match n with O => Inf | S m => mont_add P (mont_mul m P) end.
  (** B (A^2 - 4) *)
  Definition mont_nonsingular : Prop := B * (A * A - 2 * 2) <> 0.
End Spec.
