(** element_edwards_g2<183> (A/curves/detail/edwards/element_g2.hpp:56-422), the class of
    edwards<183>::g2_type (A/curves/edwards.hpp:62-63, detail/edwards/g2.hpp:47-59).
    Objects (X, Y, Z) over Fp3, as [inverted].  [a], [d] are policy_type::a, policy_type::d
    (detail/edwards/basic_policy.hpp), elements of the prime field. *)
From Coq Require Import NArith Bool.
From Verif Require Import Base.Field Base.Ext Model.Fp3 Model.Edwards Model.ScalarMul.
Local Open Scope fld_scope.

Section G2.
  Variable F : FieldOps.
  (** g2_field_type_value::non_residue *)
  Variable nr : F.
  Variables a d : F.
  Local Notation K := (Fp3 F nr).
  (** 401-403 *)
  Definition eg2_twist : K := mkc (0 : F) 1 0.
  (** 409-410 *)
  Definition eg2_twist_a : K := fp3_smul F a eg2_twist.
  (** 409-410 *)
  Definition eg2_twist_d : K := fp3_smul F d eg2_twist.
  (** 342-346, 412; a is taken to be 1 in the last two components *)
  Definition eg2_mul_by_a (e : K) : K := mkc ((a * nr) * c2 e) (c0 e) (c1 e).
  (** 348-353, 415-417 *)
  Definition eg2_mul_by_d (e : K) : K := mkc ((d * nr) * c2 e) (d * c0 e) (d * c1 e).
  (** 127-138: policy_type::a, policy_type::d, not the twisted coefficients *)
  Definition eg2_is_well_formed (P : inverted K) : bool :=
    if inv_is_zero P then true
    else
      let X2 := iX P * iX P in
      let Y2 := iY P * iY P in
      let Z2 := iZ P * iZ P in
      (fp3_smul F a Z2 : K) * Y2 + Z2 * X2 =? X2 * Y2 + (fp3_smul F d Z2 : K) * Z2.
  (** 268-286 *)
  Definition eg2_dbl (P : inverted K) : inverted K :=
    if negb (inv_is_zero P) then
      let A := iX P * iX P in
      let B := iY P * iY P in
      let U := eg2_mul_by_a B in
      let C := A + U in
      let D := A - U in
      let E := (iX P + iY P) * (iX P + iY P) - A - B in
      let dZZ := eg2_mul_by_d (iZ P * iZ P) in
      mkI (C * D) (E * (C - dZZ - dZZ)) (D * E)
    else P.
  (** 293-319 *)
  Definition eg2_mixed_add (P Q : inverted K) : inverted K :=
    if inv_is_zero Q then P
    else if inv_is_zero P then Q
    else
      let A := iZ P in
      let B := eg2_mul_by_d (A * A) in
      let C := iX P * iX Q in
      let D := iY P * iY Q in
      let E := C * D in
      let H := C - eg2_mul_by_a D in
      let I := (iX P + iY P) * (iX Q + iY Q) - C - D in
      mkI ((E + B) * H) ((E - B) * I) (A * H * I).
  (** 322-337 *)
  Definition eg2_add_inner (P Q : inverted K) : inverted K :=
    let A := iZ P * iZ Q in
    let B := eg2_mul_by_d (A * A) in
    let C := iX P * iX Q in
    let D := iY P * iY Q in
    let E := C * D in
    let H := C - eg2_mul_by_a D in
    let I := (iX P + iY P) * (iX Q + iY Q) - C - D in
    mkI ((E + B) * H) ((E - B) * I) (A * H * I).
  (** 203-221; operator== 142-164 and is_zero 173-175 are inv_eqb and inv_is_zero *)
  Definition eg2_add (P Q : inverted K) : inverted K :=
    if inv_is_zero P then Q
    else if inv_is_zero Q then P
    else if inv_eqb P Q then eg2_dbl P
    else eg2_add_inner P Q.
  (** 223-235 *)
  Definition eg2_add_assign (P Q : inverted K) : inverted K :=
    if inv_is_zero P then Q
    else if inv_is_zero Q then P
    else if inv_eqb P Q then eg2_dbl P
    else eg2_add_inner P Q.
  (** 241-247 *)
  Definition eg2_sub (P Q : inverted K) : inverted K := eg2_add P (inv_neg Q).
  (** 241-247 *)
  Definition eg2_sub_assign (P Q : inverted K) : inverted K := eg2_add_assign P (inv_neg Q).
  (** 106-109 with g2_zero_fill = (zx, 0, 0) *)
  Definition eg2_zero (zx : F) : inverted K := mkI (mkc zx 0 0 : K) 0 0.
  (** 180-182 *)
  Definition eg2_is_special (P : inverted K) : bool := inv_is_zero P || (iZ P =? 1).
  (** 360-380 *)
  Definition eg2_to_affine (P : inverted K) : inverted K :=
    if inv_is_zero P then mkI 0 1 1
    else
      let tX := iY P * iZ P in
      let tY := iX P * iZ P in
      let tZ := iX P * iY P in
      let tZ_inv := finv tZ in
      mkI (tX * tZ_inv) (tY * tZ_inv) 1.
  (** 386-399 *)
  Definition eg2_to_projective (P : inverted K) : inverted K :=
    if iZ P =? 0 then P
    else let Z_inv := finv (iZ P) in mkI (iX P * Z_inv) (iY P * Z_inv) 1.
End G2.
Arguments eg2_is_special {F nr} P.
