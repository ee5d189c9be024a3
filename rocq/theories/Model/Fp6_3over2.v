(** A/fields/detail/element/fp6_3over2.hpp: class element_fp6_3over2.
    [F] is the underlying element_fp2 class (an arbitrary field class here; the
    operations that look inside it take [K]/[nr2] explicitly below). *)
From Coq Require Import ZArith NArith List Bool.
From Verif Require Import Base.Field Base.Ext Model.Power Model.Fp2.
Local Open Scope fld_scope.

Section Fp6_3over2.
  Variable F : FieldOps.
  (** the underlying class' [squared] *)
  Variable Fsqr : F -> F.
  Variable xi : F.
  Implicit Types x y : cub F.

  (** fp6_3over2.hpp:263-269, 277-281 zero *)
  Definition fp6_zero : cub F := mkc 0 0 0.
  (** fp6_3over2.hpp:271-276, 282-286 one *)
  Definition fp6_one : cub F := mkc 1 0 0.
  (** fp6_3over2.hpp:83-85 *)
  Definition fp6_eqb x y : bool := (c0 x =? c0 y) && (c1 x =? c1 y) && (c2 x =? c2 y).
  (** 99-101 *)
  Definition fp6_add x y := mkc (c0 x + c0 y) (c1 x + c1 y) (c2 x + c2 y).
  (** 103-105; underlying doubled = componentwise doubling *)
  Definition fp6_doubled x := mkc (fdbl (c0 x)) (fdbl (c1 x)) (fdbl (c2 x)).
  (** 107-109 *)
  Definition fp6_sub x y := mkc (c0 x - c0 y) (c1 x - c1 y) (c2 x - c2 y).
  (** 127-129 *)
  Definition fp6_neg x := fp6_sub fp6_zero x.
  (** 220-222 mul_by_non_residue *)
  Definition fp6_mbnr (A : F) : F := xi * A.
  (** 131-139 operator* *)
  Definition fp6_mul x y :=
    let A0B0 := c0 x * c0 y in let A1B1 := c1 x * c1 y in let A2B2 := c2 x * c2 y in
    mkc (A0B0 + fp6_mbnr ((c1 x + c2 x) * (c1 y + c2 y) - A1B1 - A2B2))
        ((c0 x + c1 x) * (c0 y + c1 y) - A0B0 - A1B1 + fp6_mbnr A2B2)
        ((c0 x + c2 x) * (c0 y + c2 y) - A0B0 + A1B1 - A2B2).
  (** 141-153 operator*= *)
  Definition fp6_mul_assign x y :=
    let A0B0 := c0 x * c0 y in let A1B1 := c1 x * c1 y in let A2B2 := c2 x * c2 y in
    let r0 := A0B0 + xi * ((c1 x + c2 x) * (c1 y + c2 y) - A1B1 - A2B2) in
    let r1 := (c0 x + c1 x) * (c0 y + c1 y) - A0B0 - A1B1 + xi * A2B2 in
    let r2 := (c0 x + c2 x) * (c0 y + c2 y) - A0B0 + A1B1 - A2B2 in
    mkc r0 r1 r2.
  (** 172-174 squared *)
  Definition fp6_sqr x := fp6_mul x x.
  (** 176-179 pow *)
  Definition fp6_pow x (e : N) := power fp6_one fp6_mul fp6_sqr x e.
  (** 181-200 inversed *)
  Definition fp6_inv x :=
    let A0 := c0 x in let A1 := c1 x in let A2 := c2 x in
    let t0 := Fsqr A0 in let t1 := Fsqr A1 in let t2 := Fsqr A2 in
    let t3 := A0 * A1 in let t4 := A0 * A2 in let t5 := A1 * A2 in
    let d0 := t0 - fp6_mbnr t5 in
    let d1 := fp6_mbnr t2 - t3 in
    let d2 := t1 - t4 in
    let t6 := finv (A0 * d0 + fp6_mbnr (A2 * d1 + A1 * d2)) in
    mkc (t6 * d0) (t6 * d1) (t6 * d2).
  (** 241-255 operator* with an underlying element *)
  Definition fp6_smul (a : F) x := mkc (a * c0 x) (a * c1 x) (a * c2 x).

  (** the class (fp6_3over2.hpp:39) as a field class, made of the functions above *)
  Definition Fp6 : FieldOps := {|
    car := cub F; f0 := fp6_zero; f1 := fp6_one;
    fadd := fp6_add; fmul := fp6_mul; fsub := fp6_sub; fopp := fp6_neg;
    finv := fp6_inv; feqb := fp6_eqb |}.
End Fp6_3over2.

Section Fp6_concrete.
  Variable K : FieldOps.
  Variable nr2 : K.
  Let F := Fp2 K nr2.
  Implicit Types x : cub F.
  (** 160-162 mul_Fp_b *)
  Definition fp6_mul_Fp_b x (b : K) : cub F := mkc (c0 x) (fp2_mul_Fp_0 K (c1 x) b) (c2 x).
  (** 164-166 mul_Fp_c *)
  Definition fp6_mul_Fp_c x (b : K) : cub F := mkc (c0 x) (c1 x) (fp2_mul_Fp_0 K (c2 x) b).
  (** 168-170 mulFp6_24_Fp_01; B is a pointer to two elements *)
  Definition fp6_mulFp6_24_Fp_01 x (b0 b1 : K) : cub F :=
    mkc (c0 x) (fp2_mul_Fp_0 K (c1 x) b1) (fp2_mul_Fp_0 K (c2 x) b0).
  (** 202-218 Frobenius_map; the tables hold pairs of prime field elements,
      entry k is (t[2k], t[2k+1]) *)
  Definition fp6_frob (fc2 fc61 fc62 : list K) x (pwr : N) : cub F :=
    let k := N.to_nat (pwr mod 6) in
    let coeff (t : list K) : F := mkq (nth (k * 2) t 0) (nth (k * 2 + 1) t 0) in
    mkc (fp2_frob K fc2 (c0 x) pwr)
        (coeff fc61 * (fp2_frob K fc2 (c1 x) pwr : F))
        (coeff fc62 * (fp2_frob K fc2 (c2 x) pwr : F)).
  (** 225-239 operator* with a prime field element *)
  Definition fp6_smulK (a : K) x : cub F :=
    mkc (fp2_smul K a (c0 x)) (fp2_smul K a (c1 x)) (fp2_smul K a (c2 x)).
End Fp6_concrete.
