(** A/fields/detail/element/fp2.hpp: class element_fp2.
    [K] is the underlying prime field class, [nr] the policy's non_residue. *)
From Coq Require Import NArith List Bool.
From Verif Require Import Base.Field Base.Ext Model.Power.
Local Open Scope fld_scope.

Section Fp2.
  Variable K : FieldOps.
  Variable nr : K.
  Implicit Types x y : quad K.

  (** fp2.hpp:312-340 zero_instance, one_instance *)
  Definition fp2_zero : quad K := mkq 0 0.
  (** fp2.hpp:312-340 one_instance *)
  Definition fp2_one : quad K := mkq 1 0.

  (** fp2.hpp:88-90 operator== *)
  Definition fp2_eqb x y : bool := (q0 x =? q0 y) && (q1 x =? q1 y).
  (** fp2.hpp:92-94 operator!= *)
  Definition fp2_neqb x y : bool := negb (q0 x =? q0 y) || negb (q1 x =? q1 y).
  (** fp2.hpp:103-105 operator+ (and 118-123 operator+=) *)
  Definition fp2_add x y := mkq (q0 x + q0 y) (q1 x + q1 y).
  (** fp2.hpp:107-109 operator- (and 111-116 operator-=) *)
  Definition fp2_sub x y := mkq (q0 x - q0 y) (q1 x - q1 y).
  (** fp2.hpp:125-127 unary operator-: zero() - *this *)
  Definition fp2_neg x := fp2_sub fp2_zero x.
  (** fp2.hpp:129-136 operator* *)
  Definition fp2_mul x y :=
    let A0 := q0 x in let A1 := q1 x in let B0 := q0 y in let B1 := q1 y in
    let A0B0 := q0 x * q0 y in
    let A1B1 := q1 x * q1 y in
    mkq (A0B0 + nr * A1B1) ((A0 + A1) * (B0 + B1) - A0B0 - A1B1).
  (** fp2.hpp:138-142 operator*= : *this = *this * B *)
  Definition fp2_mul_assign x y := fp2_mul x y.
  (** fp2.hpp:194-196 doubled (fp.hpp:191-193 doubled: data + data) *)
  Definition fp2_doubled x := mkq (fdbl (q0 x)) (fdbl (q1 x)).
  (** fp2.hpp:236-246 squared *)
  Definition fp2_sqr x :=
    let A := q0 x in let B := q1 x in
    let AB := A * B in
    mkq ((A + B) * (A + nr * B) - AB - nr * AB) (AB + AB).
  (** fp2.hpp:258-273 inversed *)
  Definition fp2_inv x :=
    let A0 := q0 x in let A1 := q1 x in
    let t0 := fsqr A0 in
    let t1 := fsqr A1 in
    let t2 := t0 - nr * t1 in
    let t3 := finv t2 in
    let c0 := A0 * t3 in
    let c1 := - (A1 * t3) in
    mkq c0 c1.
  (** fp2.hpp:253-256 pow *)
  Definition fp2_pow x (e : N) := power fp2_one fp2_mul fp2_sqr x e.
  (** fp2.hpp:151-154 mul_xi *)
  Definition fp2_mul_xi x :=
    mkq (fdbl (fdbl (fdbl (q0 x))) + q0 x - q1 x)
        (fdbl (fdbl (fdbl (q1 x))) + q1 x + q0 x).
  (** fp2.hpp:162-164 mul_x *)
  Definition fp2_mul_x x := mkq (- q1 x) (q0 x).
  (** fp2.hpp:167-169 mul_Fp_0 *)
  Definition fp2_mul_Fp_0 x (b : K) := mkq (q0 x * b) (q1 x * b).
  (** fp2.hpp:178-180 mul_Fp_1 *)
  Definition fp2_mul_Fp_1 x (b : K) := mkq (- (q1 x * b)) (q0 x * b).
  (** fp2.hpp:285-289 operator*(underlying, fp2); 291-295 swaps the operands *)
  Definition fp2_smul (a : K) x := mkq (a * q0 x) (a * q1 x).
  (** fp2.hpp:291-295 *)
  Definition fp2_smul_r x (a : K) := fp2_smul a x.
  (** fp2.hpp:275-282 Frobenius_map; [fc1] is the table Frobenius_coeffs_c1,
      read at index pwr % 2 *)
  Definition fp2_frob (fc1 : list K) x (pwr : N) :=
    mkq (q0 x) (nth (N.to_nat (pwr mod 2)) fc1 0 * q1 x).

  (** The class as a field class. *)
  (** the class (fp2.hpp:41) as a field class, made of the functions above *)
  Definition Fp2 : FieldOps := {|
    car := quad K; f0 := fp2_zero; f1 := fp2_one;
    fadd := fp2_add; fmul := fp2_mul; fsub := fp2_sub; fopp := fp2_neg;
    finv := fp2_inv; feqb := fp2_eqb |}.
End Fp2.
