(** A/fields/detail/element/fp6_2over3.hpp: class element_fp6_2over3.
    [nr3] non_residue of the underlying element_fp3, [nr6] of this class. *)
From Coq Require Import ZArith NArith List Bool.
From Verif Require Import Base.Field Base.Ext Model.Power Model.Fp3.
Local Open Scope fld_scope.

Section Fp6_2over3.
  Variable K : FieldOps.
  Variable nr3 nr6 : K.
  Let F := Fp3 K nr3.
  Implicit Types x y : quad F.

  (** fp6_2over3.hpp:319-324, 331-335 zero *)
  Definition fp6t_zero : quad F := mkq 0 0.
  (** fp6_2over3.hpp:326-330, 336-340 one *)
  Definition fp6t_one : quad F := mkq 1 0.
  (** fp6_2over3.hpp:81-83 *)
  Definition fp6t_eqb x y : bool := (q0 x =? q0 y) && (q1 x =? q1 y).
  (** 96-98 *)
  Definition fp6t_add x y : quad F := mkq (q0 x + q0 y) (q1 x + q1 y).
  (** 100-102 *)
  Definition fp6t_doubled x : quad F := mkq (fp3_doubled K (q0 x)) (fp3_doubled K (q1 x)).
  (** 104-106 *)
  Definition fp6t_sub x y : quad F := mkq (q0 x - q0 y) (q1 x - q1 y).
  (** 122-124 *)
  Definition fp6t_neg x : quad F := fp6t_sub fp6t_zero x.
  (** 277-279 mul_by_non_residue *)
  Definition fp6t_mbnr (A : F) : F := mkc (nr6 * c2 A) (c0 A) (c1 A).
  (** 126-131 operator* *)
  Definition fp6t_mul x y : quad F :=
    let A0B0 : F := q0 x * q0 y in let A1B1 : F := q1 x * q1 y in
    mkq (A0B0 + fp6t_mbnr A1B1)
        ((q0 x + q1 x) * (q0 y + q1 y) - A0B0 - A1B1).
  (** 133-139 operator*= *)
  Definition fp6t_mul_assign x y : quad F :=
    let A0B0 : F := q0 x * q0 y in let A1B1 : F := q1 x * q1 y in
    let d1 := (q0 x + q1 x) * (q0 y + q1 y) - A0B0 - A1B1 in
    let x := mkq (q0 x) d1 in
    let d0 := A0B0 + fp6t_mbnr A1B1 in
    mkq d0 (q1 x).
  (** 146-156 squared *)
  Definition fp6t_sqr x : quad F :=
    let B := q1 x in let A := q0 x in
    let AB : F := A * B in
    mkq ((A + B) * (A + fp6t_mbnr B) - AB - fp6t_mbnr AB) (AB + AB).
  (** 163-178 inversed *)
  Definition fp6t_inv x : quad F :=
    let A0 := q0 x in let A1 := q1 x in
    let t0 : F := fp3_sqr K nr3 A0 in
    let t1 : F := fp3_sqr K nr3 A1 in
    let t2 : F := t0 - fp6t_mbnr t1 in
    let t3 : F := finv t2 in
    mkq (A0 * t3) (- (A1 * t3)).
  (** 158-161 pow *)
  Definition fp6t_pow x (e : N) := power fp6t_one fp6t_mul fp6t_sqr x e.
  (** 180-189 Frobenius_map *)
  Definition fp6t_frob (fc31 fc32 fc6 : list K) x (pwr : N) : quad F :=
    mkq (fp3_frob K fc31 fc32 (q0 x) pwr)
        (fp3_smul K (nth (N.to_nat (pwr mod 6)) fc6 0) (fp3_frob K fc31 fc32 (q1 x) pwr)).
  (** 191-193 unitary_inversed *)
  Definition fp6t_unitary_inversed x : quad F := mkq (q0 x) (- q1 x).
  (** 199-205 the lambda fp2_squared *)
  Definition fp6t_fp2_squared (A B : K) : K * K :=
    let AB := A * B in
    ((A + B) * (A + nr6 * B) - AB - nr6 * AB, AB + AB).
  (** 195-245 cyclotomic_squared *)
  Definition fp6t_cyclotomic_squared x : quad F :=
    let d0 := q0 x in let d1 := q1 x in
    let asq := fp6t_fp2_squared (c0 d0) (c1 d1) in
    let bsq := fp6t_fp2_squared (c0 d1) (c2 d0) in
    let csq := fp6t_fp2_squared (c1 d0) (c2 d1) in
    let A_a := fst asq - c0 d0 in
    let A_a := A_a + A_a + fst asq in
    let A_b := snd asq + c1 d1 in
    let A_b := A_b + A_b + snd asq in
    let B_tmp := nr6 * snd csq in
    let B_a := B_tmp + c0 d1 in
    let B_a := B_a + B_a + B_tmp in
    let B_b := fst csq - c2 d0 in
    let B_b := B_b + B_b + fst csq in
    let C_a := fst bsq - c1 d0 in
    let C_a := C_a + C_a + fst bsq in
    let C_b := snd bsq + c2 d1 in
    let C_b := C_b + C_b + snd bsq in
    mkq (mkc A_a C_a B_b) (mkc B_a A_b C_b).
  (** 247-275 cyclotomic_exp; [NAF] = find_wnaf(1, exponent) *)
  Definition fp6t_cyclotomic_exp x (NAF : list Z) : quad F :=
    let this_inverse := fp6t_unitary_inversed x in
    snd (for_down (length NAF)
      (fun i '(found_nonzero, res) =>
         let res := if found_nonzero : bool then fp6t_cyclotomic_squared res else res in
         let d := nth i NAF 0%Z in
         if Z.eqb d 0 then (found_nonzero, res)
         else (true, if Z.ltb 0 d then fp6t_mul res x else fp6t_mul res this_inverse))
      (false, fp6t_one)).
  (** 281-294 mul_by_2345 (no assertion: other.data[0].data[0..1] are ignored) *)
  Definition fp6t_mul_by_2345 x (other : quad F) : quad F :=
    let B := q1 other in let A := q0 other in let b := q1 x in let a := q0 x in
    let aA : F := mkc (c1 a * c2 A * nr6) (c2 a * c2 A * nr6) (c0 a * c2 A) in
    let bB : F := b * B in
    let beta_bB := fp6t_mbnr bB in
    mkq (aA + beta_bB) ((a + b) * (A + B) - aA - bB).
  (** 297-311 operator* with a prime field element *)
  Definition fp6t_smul (a : K) x : quad F := mkq (fp3_smul K a (q0 x)) (fp3_smul K a (q1 x)).

  (** the class (fp6_2over3.hpp:41) as a field class, made of the functions above *)
  Definition Fp6t : FieldOps := {|
    car := quad F; f0 := fp6t_zero; f1 := fp6t_one;
    fadd := fp6t_add; fmul := fp6t_mul; fsub := fp6t_sub; fopp := fp6t_neg;
    finv := fp6t_inv; feqb := fp6t_eqb |}.
End Fp6_2over3.
