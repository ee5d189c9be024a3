(** A/fields/detail/element/fp4.hpp: class element_fp4.
    [K] prime field, [nr2] the non_residue of the underlying element_fp2,
    [nr4] the non_residue of the element_fp4 policy (also a prime field element:
    it is only used inside mul_by_non_residue). *)
From Coq Require Import ZArith NArith List Bool.
From Verif Require Import Base.Field Base.Ext Model.Power Model.Fp2.
Local Open Scope fld_scope.

Section Fp4.
  Variable K : FieldOps.
  Variable nr2 nr4 : K.
  Let F := Fp2 K nr2.
  Implicit Types x y : quad F.

  (** fp4.hpp:254-259, 268-270 zero *)
  Definition fp4_zero : quad F := mkq 0 0.
  (** fp4.hpp:261-266, 273-275 one *)
  Definition fp4_one : quad F := mkq 1 0.
  (** fp4.hpp:81-83 operator== *)
  Definition fp4_eqb x y : bool := (q0 x =? q0 y) && (q1 x =? q1 y).
  (** fp4.hpp:96-98 *)
  Definition fp4_add x y : quad F := mkq (q0 x + q0 y) (q1 x + q1 y).
  (** fp4.hpp:100-102 *)
  Definition fp4_doubled x : quad F := mkq (fp2_doubled K (q0 x)) (fp2_doubled K (q1 x)).
  (** fp4.hpp:104-106 *)
  Definition fp4_sub x y : quad F := mkq (q0 x - q0 y) (q1 x - q1 y).
  (** fp4.hpp:122-124 *)
  Definition fp4_neg x : quad F := fp4_sub fp4_zero x.
  (** fp4.hpp:229-231 mul_by_non_residue *)
  Definition fp4_mbnr (A : F) : F := mkq (nr4 * q1 A) (q0 A).
  (** fp4.hpp:126-131 operator* *)
  Definition fp4_mul x y : quad F :=
    let A0B0 : F := q0 x * q0 y in let A1B1 : F := q1 x * q1 y in
    mkq (A0B0 + fp4_mbnr A1B1)
        ((q0 x + q1 x) * (q0 y + q1 y) - A0B0 - A1B1).
  (** fp4.hpp:133-140 operator*= : data[1] is assigned before data[0]; both
      right-hand sides read the old data[0], data[1] *)
  Definition fp4_mul_assign x y : quad F :=
    let A0B0 : F := q0 x * q0 y in let A1B1 : F := q1 x * q1 y in
    let d1 := (q0 x + q1 x) * (q0 y + q1 y) - A0B0 - A1B1 in
    let x := mkq (q0 x) d1 in
    let d0 := A0B0 + fp4_mbnr A1B1 in
    mkq d0 (q1 x).
  (** fp4.hpp:147-149 squared *)
  Definition fp4_sqr x : quad F := fp4_mul x x.
  (** fp4.hpp:156-171 inversed *)
  Definition fp4_inv x : quad F :=
    let A0 := q0 x in let A1 := q1 x in
    let t0 : F := fp2_sqr K nr2 A0 in
    let t1 : F := fp2_sqr K nr2 A1 in
    let t2 : F := t0 - fp4_mbnr t1 in
    let t3 : F := finv t2 in
    let e0 := A0 * t3 in
    let e1 := - (A1 * t3) in
    mkq e0 e1.
  (** fp4.hpp:151-154 pow *)
  Definition fp4_pow x (e : N) := power fp4_one fp4_mul fp4_sqr x e.
  (** fp4.hpp:173-182 Frobenius_map; [fc2] is the table of the fp2 policy,
      [fc4] that of the fp4 policy; the coefficient is a prime field element *)
  Definition fp4_frob (fc2 fc4 : list K) x (pwr : N) : quad F :=
    mkq (fp2_frob K fc2 (q0 x) pwr)
        (fp2_smul K (nth (N.to_nat (pwr mod 4)) fc4 0) (fp2_frob K fc2 (q1 x) pwr)).
  (** fp4.hpp:184-186 unitary_inversed *)
  Definition fp4_unitary_inversed x : quad F := mkq (q0 x) (- q1 x).
  (** fp4.hpp:188-198 cyclotomic_squared *)
  Definition fp4_cyclotomic_squared x : quad F :=
    let A : F := fp2_sqr K nr2 (q1 x) in
    let B : F := q0 x + q1 x in
    let C : F := (fp2_sqr K nr2 B : F) - A in
    let D : F := fp4_mbnr A in
    let E : F := C - D in
    let G : F := D + D + 1 in
    let H : F := E - 1 in
    mkq G H.
  (** fp4.hpp:200-227 cyclotomic_exp; [NAF] = find_wnaf(1, exponent) *)
  Definition fp4_cyclotomic_exp x (NAF : list Z) : quad F :=
    let this_inverse := fp4_unitary_inversed x in
    snd (for_down (length NAF)
      (fun i '(found_nonzero, res) =>
         let res := if found_nonzero : bool then fp4_cyclotomic_squared res else res in
         let d := nth i NAF 0%Z in
         if Z.eqb d 0 then (found_nonzero, res)
         else (true, if Z.ltb 0 d then fp4_mul res x else fp4_mul res this_inverse))
      (false, fp4_one)).
  (** fp4.hpp:233-245 mul_by_023; the assertion on other.data[0].data[1]
      is the [None] case *)
  Definition fp4_mul_by_023 x (other : quad F) : option (quad F) :=
    let A := q0 other in let B := q1 other in let a := q0 x in let b := q1 x in
    if q1 A =? 0 then
      let aA : F := mkq (q0 a * q0 A) (q1 a * q0 A) in
      let bB : F := b * B in
      let beta_bB := fp4_mbnr bB in
      Some (mkq (aA + beta_bB) ((a + b) * (A + B) - aA - bB))
    else None.

  (** the class (fp4.hpp:41) as a field class, made of the functions above *)
  Definition Fp4 : FieldOps := {|
    car := quad F; f0 := fp4_zero; f1 := fp4_one;
    fadd := fp4_add; fmul := fp4_mul; fsub := fp4_sub; fopp := fp4_neg;
    finv := fp4_inv; feqb := fp4_eqb |}.
End Fp4.
