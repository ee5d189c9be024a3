(** A/curves/detail/scalar_mul.hpp, over any point class. *)
From Coq Require Import NArith Bool.
From Verif Require Import Model.Power.

Section ScalarMul.
  Variable T : Type.
  (** zero() and the default constructor, operator+=, double_inplace,
      mixed_add, Z.is_one() *)
  Variables (zero dflt : T) (add_assign : T -> T -> T) (dbl : T -> T)
            (madd : T -> T -> T) (z_is_one : T -> bool).

  (** 42-73, classes with mixed_add *)
  Definition scalar_mul_mixed (base : T) (scalar : N) : T :=
    if N.eqb scalar 0 then zero
    else
      let use_mixed_add := z_is_one base in
      fst (for_down (nbits scalar)
        (fun i st =>
           let '(result, found_one) := st in
           let result := if found_one : bool then dbl result else result in
           if N.testbit scalar (N.of_nat i)
           then (if use_mixed_add then madd result base else add_assign result base, true)
           else (result, found_one))
        (dflt, false)).
  (** 75-99, the others *)
  Definition scalar_mul (base : T) (scalar : N) : T :=
    if N.eqb scalar 0 then zero
    else
      fst (for_down (nbits scalar)
        (fun i st =>
           let '(result, found_one) := st in
           let result := if found_one : bool then dbl result else result in
           if N.testbit scalar (N.of_nat i)
           then (add_assign result base, true)
           else (result, found_one))
        (dflt, false)).
  (** operator*= 101-134 *)
  Definition mul_assign_mixed (point : T) (scalar : N) : T :=
    if N.eqb scalar 0 then zero
    else
      let use_mixed_add := z_is_one point in
      let base := point in
      fst (for_down (nbits scalar)
        (fun i st =>
           let '(point, found_one) := st in
           let point := if found_one : bool then dbl point else point in
           if N.testbit scalar (N.of_nat i)
           then (if found_one then (if use_mixed_add then madd point base else add_assign point base) else point, true)
           else (point, found_one))
        (point, false)).
  (** operator*= 137-165 *)
  Definition mul_assign (point : T) (scalar : N) : T :=
    if N.eqb scalar 0 then zero
    else
      let base := point in
      fst (for_down (nbits scalar)
        (fun i st =>
           let '(point, found_one) := st in
           let point := if found_one : bool then dbl point else point in
           if N.testbit scalar (N.of_nat i)
           then (if found_one then add_assign point base else point, true)
           else (point, found_one))
        (point, false)).
End ScalarMul.
