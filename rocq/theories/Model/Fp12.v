(** A/fields/detail/element/fp12_2over3over2.hpp: class element_fp12_2over3over2.
    [F2] the quadratic extension class with its [squared] [F2sqr]; [xi6] is the
    non_residue of the underlying element_fp6_3over2, [xi12] that of this class
    (both are F2 elements). *)
From Coq Require Import ZArith NArith List Bool.
From Verif Require Import Base.Field Base.Ext Model.Power Model.Fp2 Model.Fp6_3over2.
Local Open Scope fld_scope.

Section Fp12.
  Variable F2 : FieldOps.
  Variable F2sqr : F2 -> F2.
  Variable xi6 xi12 : F2.
  Let F := Fp6 F2 F2sqr xi6.
  Implicit Types x y : quad F.

  (** fp12_2over3over2.hpp:502-507, 516-518 zero *)
  Definition fp12_zero : quad F := mkq 0 0.
  (** fp12_2over3over2.hpp:509-514, 521-523 one *)
  Definition fp12_one : quad F := mkq 1 0.
  (** fp12_2over3over2.hpp:84-86 *)
  Definition fp12_eqb x y : bool := (q0 x =? q0 y) && (q1 x =? q1 y).
  (** 99-101 *)
  Definition fp12_add x y : quad F := mkq (q0 x + q0 y) (q1 x + q1 y).
  (** 103-105 *)
  Definition fp12_doubled x : quad F := mkq (fp6_doubled F2 (q0 x)) (fp6_doubled F2 (q1 x)).
  (** 107-109 *)
  Definition fp12_sub x y : quad F := mkq (q0 x - q0 y) (q1 x - q1 y).
  (** 125-127 *)
  Definition fp12_neg x : quad F := fp12_sub fp12_zero x.
  (** 372-374 mul_by_non_residue *)
  Definition fp12_mbnr (A : F) : F := mkc (xi12 * c2 A) (c0 A) (c1 A).
  (** 129-135 operator* *)
  Definition fp12_mul x y : quad F :=
    let A0B0 : F := q0 x * q0 y in let A1B1 : F := q1 x * q1 y in
    mkq (A0B0 + fp12_mbnr A1B1)
        ((q0 x + q1 x) * (q0 y + q1 y) - A0B0 - A1B1).
  (** 137-143 operator*= *)
  Definition fp12_mul_assign x y : quad F :=
    let A0B0 : F := q0 x * q0 y in let A1B1 : F := q1 x * q1 y in
    let d1 := (q0 x + q1 x) * (q0 y + q1 y) - A0B0 - A1B1 in
    let x := mkq (q0 x) d1 in
    let d0 := A0B0 + fp12_mbnr A1B1 in
    mkq d0 (q1 x).
  (** 150-153 squared *)
  Definition fp12_sqr x : quad F := fp12_mul x x.
  (** 155-158 pow *)
  Definition fp12_pow x (e : N) := power fp12_one fp12_mul fp12_sqr x e.
  (** 160-175 inversed *)
  Definition fp12_inv x : quad F :=
    let A0 := q0 x in let A1 := q1 x in
    let t0 : F := fp6_sqr F2 xi6 A0 in
    let t1 : F := fp6_sqr F2 xi6 A1 in
    let t2 : F := t0 - fp12_mbnr t1 in
    let t3 : F := finv t2 in
    mkq (A0 * t3) (- (A1 * t3)).
  (** 189-191 unitary_inversed *)
  Definition fp12_unitary_inversed x : quad F := mkq (q0 x) (- q1 x).
  (** 193-260 cyclotomic_squared *)
  Definition fp12_cyclotomic_squared x : quad F :=
    let z0 := c0 (q0 x) in let z4 := c1 (q0 x) in let z3 := c2 (q0 x) in
    let z2 := c0 (q1 x) in let z1 := c1 (q1 x) in let z5 := c2 (q1 x) in
    let tmp := z0 * z1 in
    let t0 := (z0 + z1) * (z0 + xi6 * z1) - tmp - xi6 * tmp in
    let t1 := tmp + tmp in
    let tmp := z2 * z3 in
    let t2 := (z2 + z3) * (z2 + xi6 * z3) - tmp - xi6 * tmp in
    let t3 := tmp + tmp in
    let tmp := z4 * z5 in
    let t4 := (z4 + z5) * (z4 + xi6 * z5) - tmp - xi6 * tmp in
    let t5 := tmp + tmp in
    let z0 := t0 - z0 in let z0 := z0 + z0 in let z0 := z0 + t0 in
    let z1 := t1 + z1 in let z1 := z1 + z1 in let z1 := z1 + t1 in
    let tmp := xi6 * t5 in
    let z2 := tmp + z2 in let z2 := z2 + z2 in let z2 := z2 + tmp in
    let z3 := t4 - z3 in let z3 := z3 + z3 in let z3 := z3 + t4 in
    let z4 := t2 - z4 in let z4 := z4 + z4 in let z4 := z4 + t2 in
    let z5 := t3 + z5 in let z5 := z5 + z5 in let z5 := z5 + t3 in
    mkq (mkc z0 z4 z3) (mkc z2 z1 z5).
  (** 262-283 cyclotomic_exp: binary, same shape as [power] *)
  Definition fp12_cyclotomic_exp x (e : N) : quad F :=
    if N.eqb e 0 then fp12_one
    else snd (for_down (nbits e)
           (fun i '(found_one, res) =>
              let res := if found_one : bool then fp12_cyclotomic_squared res else res in
              if N.testbit e (N.of_nat i) then (true, fp12_mul res x)
              else (found_one, res))
           (false, fp12_one)).
  (** 285-323 mul_by_045 *)
  Definition fp12_mul_by_045 x (ell_0 ell_VW ell_VV : F2) : quad F :=
    let z0 := c0 (q0 x) in let z1 := c1 (q0 x) in let z2 := c2 (q0 x) in
    let z3 := c0 (q1 x) in let z4 := c1 (q1 x) in let z5 := c2 (q1 x) in
    let x0 := ell_VW in let x4 := ell_0 in let x5 := ell_VV in
    let tmp1 := xi12 * x4 in
    let tmp2 := xi12 * x5 in
    let t0 := x0 * z0 + tmp1 * z4 + tmp2 * z3 in
    let t1 := x0 * z1 + tmp1 * z5 + tmp2 * z4 in
    let t2 := x0 * z2 + x4 * z3 + tmp2 * z5 in
    let t3 := x0 * z3 + tmp1 * z2 + tmp2 * z1 in
    let t4 := x0 * z4 + x4 * z0 + tmp2 * z2 in
    let t5 := x0 * z5 + x4 * z1 + x5 * z0 in
    mkq (mkc t0 t1 t2) (mkc t3 t4 t5).
  (** 325-335 mul_by_024 *)
  Definition fp12_mul_by_024 x (ell_0 ell_VW ell_VV : F2) : quad F :=
    let a : quad F := mkq (mkc ell_0 0 ell_VV) (mkc 0 ell_VW 0) in
    fp12_mul x a.
  (** 409-421 operator* with an Fp6 element: lhs * rhs.data[i] *)
  Definition fp12_smul6 (a : F) x : quad F := mkq (a * q0 x) (a * q1 x).
  (** 393-407 operator* with an Fp2 element *)
  Definition fp12_smul2 (a : F2) x : quad F := mkq (fp6_smul F2 a (q0 x)) (fp6_smul F2 a (q1 x)).

  (** the class (fp12_2over3over2.hpp:42) as a field class, made of the functions above *)
  Definition Fp12 : FieldOps := {|
    car := quad F; f0 := fp12_zero; f1 := fp12_one;
    fadd := fp12_add; fmul := fp12_mul; fsub := fp12_sub; fopp := fp12_neg;
    finv := fp12_inv; feqb := fp12_eqb |}.
End Fp12.

Section Fp12_concrete.
  Variable K : FieldOps.
  Variable nr2 : K.
  Let F2 := Fp2 K nr2.
  (** 177-187 Frobenius_map: the coefficient is an Fp2 element
      (non_residue_type) multiplied with an Fp6 element (241-247 of
      fp6_3over2.hpp) *)
  Definition fp12_frob (fc2 fc61 fc62 fc12 : list K) (x : quad (cub F2)) (pwr : N)
    : quad (cub F2) :=
    let k := N.to_nat (pwr mod 12) in
    let coeff : F2 := mkq (nth (k * 2) fc12 0) (nth (k * 2 + 1) fc12 0) in
    mkq (fp6_frob K nr2 fc2 fc61 fc62 (q0 x) pwr)
        (fp6_smul F2 coeff (fp6_frob K nr2 fc2 fc61 fc62 (q1 x) pwr)).
  (** 377-391 operator* with a prime field element *)
  Definition fp12_smulK (a : K) (x : quad (cub F2)) : quad (cub F2) :=
    mkq (fp6_smulK K nr2 a (q0 x)) (fp6_smulK K nr2 a (q1 x)).
End Fp12_concrete.
