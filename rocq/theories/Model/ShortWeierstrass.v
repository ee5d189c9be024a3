(** A/curves/detail/forms/short_weierstrass: the point classes.
    squared(), doubled() and the integer factors 2 and 3u are written as
    products and sums; pow(3u) as [fpow _ 3] (C01, C02 relate them to the code).
    In-place functions return the new state. *)
From Coq Require Import NArith Bool.
From Verif Require Import Base.Field.
Local Open Scope fld_scope.

Section SW.
  Variable K : FieldOps.
  (** params_type::a, b, zero_fill *)
  Variables a b zx zy : K.

  (** ** element_g1_affine.hpp *)
  Record affine := mkA { aX : K; aY : K }.
  (** 78-79, 99-101 *)
  Definition aff_zero := mkA zx zy.
  (** 142-144 *)
  Definition aff_is_zero (P : affine) : bool := (aX P =? zx) && (aY P =? zy).
  (** 112-132 *)
  Definition aff_eqb (P Q : affine) : bool :=
    if aff_is_zero P then aff_is_zero Q
    else if aff_is_zero Q then false
    else if negb (aX P =? aX Q) then false
    else if negb (aY P =? aY Q) then false else true.
  (** 238-249; Y2squared (242) is computed and not used *)
  Definition aff_double (P : affine) : affine :=
    if aff_is_zero P then P
    else
      let X := aX P in let Y := aY P in
      let Xsquared3pa := 3 * (X * X) + a in
      let Y2i := finv (fdbl Y) in
      let Y' := (fdbl X + X) * Xsquared3pa * Y2i - fpow Xsquared3pa 3 * fpow Y2i 3 - Y in
      let X' := Xsquared3pa * Xsquared3pa * Y2i * Y2i - X - X in
      mkA X' Y'.
  (** 263-276 (private) *)
  Definition aff_add_inner (P Q : affine) : affine :=
    let X := aX P in let Y := aY P in
    let Y2mY1 := aY Q - Y in
    let X2mX1 := aX Q - X in
    if X2mX1 =? 0 then mkA zx zy
    else
      let X2mX1i := finv X2mX1 in
      let Y' := (2 * X + aX Q) * Y2mY1 * X2mX1i - fpow Y2mY1 3 * fpow X2mX1i 3 - Y in
      let X' := Y2mY1 * Y2mY1 * X2mX1i * X2mX1i - X - aX Q in
      mkA X' Y'.
  (** operator+ 185-203 *)
  Definition aff_add (P Q : affine) : affine :=
    if aff_is_zero P then Q
    else if aff_is_zero Q then P
    else if aff_eqb P Q then aff_double P
    else aff_add_inner P Q.
  (** operator+= 205-217 *)
  Definition aff_add_assign (P Q : affine) : affine :=
    if aff_is_zero P then Q
    else if aff_is_zero Q then P
    else if aff_eqb P Q then aff_double P
    else aff_add_inner P Q.
  (** 220-222 *)
  Definition aff_neg (P : affine) : affine := mkA (aX P) (- aY P).
  (** 224-226, 228-230 *)
  Definition aff_sub (P Q : affine) : affine := aff_add P (aff_neg Q).
  (** 224-226, 228-230 *)
  Definition aff_sub_assign (P Q : affine) : affine := aff_add_assign P (aff_neg Q).

  (** ** Three-coordinate classes *)
  (** the members X, Y, Z of the classes in {jacobian,jacobian_with_a4_0,jacobian_with_a4_minus_3}/element_g1.hpp:58 and projective/element_g1.hpp:57 *)
  Record triple := mkT { tX : K; tY : K; tZ : K }.
  (** jacobian/element_g1.hpp:87-90, 103-105; projective/element_g1.hpp:85-88, 108-110 *)
  Definition trip_zero := mkT zx zy 0.
  (** affine to_projective, element_g1_affine.hpp:153-165 *)
  Definition aff_to_projective (P : affine) : triple :=
    if aff_is_zero P then trip_zero else mkT (aX P) (aY P) 1.
  (** unary minus: jacobian/element_g1.hpp:287-289, jacobian_with_a4_0 and
      jacobian_with_a4_minus_3 identical; projective/element_g1.hpp:255-257 *)
  Definition trip_neg (P : triple) : triple := mkT (tX P) (- tY P) (tZ P).

  (** ** Jacobian: jacobian/element_g1.hpp, jacobian_with_a4_0/element_g1.hpp and
      jacobian_with_a4_minus_3/element_g1.hpp.  The three files have the same text
      except where noted; unqualified lines are those of jacobian/element_g1.hpp,
      the others are shifted by 4 to 8 lines. *)
  (** 159-161 *)
  Definition jac_is_zero (P : triple) : bool := tZ P =? 0.
  (** 117-150 *)
  Definition jac_eqb (P Q : triple) : bool :=
    if jac_is_zero P then jac_is_zero Q
    else if jac_is_zero Q then false
    else
      let Z1_squared := tZ P * tZ P in
      let Z2_squared := tZ Q * tZ Q in
      if negb (tX P * Z2_squared =? tX Q * Z1_squared) then false
      else
        let Z1_cubed := tZ P * Z1_squared in
        let Z2_cubed := tZ Q * Z2_squared in
        if negb (tY P * Z2_cubed =? tY Q * Z1_cubed) then false else true.
  (** jacobian 167-191 *)
  Definition jac_is_well_formed (P : triple) : bool :=
    if jac_is_zero P then true
    else
      let X2 := tX P * tX P in let Y2 := tY P * tY P in let Z2 := tZ P * tZ P in
      let X3 := tX P * X2 in let Z3 := tZ P * Z2 in
      let Z4 := Z2 * Z2 in let Z6 := Z3 * Z3 in
      Y2 =? X3 + a * tX P * Z4 + b * Z6.
  (** jacobian_with_a4_0 174-197 *)
  Definition jac0_is_well_formed (P : triple) : bool :=
    if jac_is_zero P then true
    else
      let X2 := tX P * tX P in let Y2 := tY P * tY P in let Z2 := tZ P * tZ P in
      let X3 := tX P * X2 in let Z3 := tZ P * Z2 in
      let Z6 := Z3 * Z3 in
      Y2 =? X3 + b * Z6.
  (** jacobian_with_a4_minus_3 174-199 *)
  Definition jac3_is_well_formed (P : triple) : bool :=
    if jac_is_zero P then true
    else
      let X2 := tX P * tX P in let Y2 := tY P * tY P in let Z2 := tZ P * tZ P in
      let X3 := tX P * X2 in let Z3 := tZ P * Z2 in
      let Z4 := Z2 * Z2 in let Z6 := Z3 * Z3 in
      let XXX := fdbl (tX P) + tX P in
      Y2 =? X3 - XXX * Z4 + b * Z6.
  (** to_affine: jacobian 200-212, jacobian_with_a4_0 206-217 *)
  Definition jac_to_affine (P : triple) : affine :=
    if jac_is_zero P then aff_zero
    else let Zi := finv (tZ P) in mkA (tX P * Zi * Zi) (tY P * Zi * Zi * Zi).
  (** to_affine: jacobian_with_a4_minus_3 208-220 (one factor Zi less) *)
  Definition jac3_to_affine (P : triple) : affine :=
    if jac_is_zero P then aff_zero
    else let Zi := finv (tZ P) in mkA (tX P * Zi * Zi) (tY P * Zi * Zi).
  (** to_projective: jacobian 219-232 *)
  Definition jac_to_projective (P : triple) : triple :=
    if jac_is_zero P then trip_zero
    else let Zi := finv (tZ P) in mkT (tX P * Zi) (tY P * Zi * Zi) (tZ P).
  (** jacobian_with_a4_0: Y * Z.squared().inversed() *)
  (** jacobian_with_a4_0/element_g1.hpp:224-236 *)
  Definition jac0_to_projective (P : triple) : triple :=
    if jac_is_zero P then trip_zero
    else mkT (tX P * finv (tZ P)) (tY P * finv (tZ P * tZ P)) (tZ P).

  (** jacobian/add_2007_bl.hpp:49-66 (same in the two variants) *)
  Definition jac_add_2007_bl (P Q : triple) : triple :=
    let Z1Z1 := tZ P * tZ P in
    let Z2Z2 := tZ Q * tZ Q in
    let U1 := tX P * Z2Z2 in
    let U2 := tX Q * Z1Z1 in
    let S1 := tY P * tZ Q * Z2Z2 in
    let S2 := tY Q * tZ P * Z1Z1 in
    let H := U2 - U1 in
    let S2_minus_S1 := S2 - S1 in
    let I := (H + H) * (H + H) in
    let J := H * I in
    let r := S2_minus_S1 + S2_minus_S1 in
    let V := U1 * I in
    let S1_J := S1 * J in
    let X3 := r * r - J - (V + V) in
    let Y3 := r * (V - X3) - (S1_J + S1_J) in
    let Z3 := ((tZ P + tZ Q) * (tZ P + tZ Q) - Z1Z1 - Z2Z2) * H in
    mkT X3 Y3 Z3.
  (** jacobian/dbl_2007_bl.hpp:47-68 *)
  Definition jac_dbl (P : triple) : triple :=
    if jac_is_zero P then P
    else
      let XX := tX P * tX P in
      let YY := tY P * tY P in
      let YYYY := YY * YY in
      let ZZ := tZ P * tZ P in
      let S := (tX P + YY) * (tX P + YY) - XX - YYYY in
      let S := S + S in
      let M := XX + XX + XX + a * (ZZ * ZZ) in
      let T := M * M - S - S in
      mkT T (M * (S - T) - fdbl (fdbl (fdbl YYYY))) ((tY P + tZ P) * (tY P + tZ P) - YY - ZZ).
  (** jacobian_with_a4_0/dbl_2009_l.hpp:47-63 *)
  Definition jac0_dbl (P : triple) : triple :=
    if jac_is_zero P then P
    else
      let A := tX P * tX P in
      let B := tY P * tY P in
      let C := B * B in
      let D := (tX P + B) * (tX P + B) - A - C in
      let D := D + D in
      let E := A + A + A in
      let F := E * E in
      let Y1Z1 := tY P * tZ P in
      let X3 := F - (D + D) in
      let eightC := fdbl (fdbl (fdbl C)) in
      mkT X3 (E * (D - X3) - eightC) (Y1Z1 + Y1Z1).
  (** jacobian_with_a4_minus_3/dbl_2007_bl.hpp:47-60 *)
  Definition jac3_dbl (P : triple) : triple :=
    if jac_is_zero P then P
    else
      let XX := tX P * tX P in
      let YY := tY P * tY P in
      let YYYY := YY * YY in
      let ZZ := tZ P * tZ P in
      let S := fdbl ((tX P + YY) * (tX P + YY) - XX - YYYY) in
      let M := fdbl XX + XX - fdbl (ZZ * ZZ) - ZZ * ZZ in
      let T := M * M - fdbl S in
      mkT T (M * (S - T) - fdbl (fdbl (fdbl YYYY))) ((tY P + tZ P) * (tY P + tZ P) - YY - ZZ).
  (** jacobian/madd_2007_bl.hpp:52-63 (same in the two variants) *)
  Definition jac_madd_2007_bl (P Q : triple) : triple :=
    let Z1Z1 := tZ P * tZ P in
    let U2 := tX Q * Z1Z1 in
    let S2 := tY Q * tZ P * Z1Z1 in
    let H := U2 - tX P in
    let HH := H * H in
    let I := fdbl (fdbl HH) in
    let J := H * I in
    let r := fdbl (S2 - tY P) in
    let V := tX P * I in
    let X3 := r * r - J - fdbl V in
    let Y3 := r * (V - X3) - fdbl (tY P * J) in
    let Z3 := (tZ P + H) * (tZ P + H) - Z1Z1 - HH in
    mkT X3 Y3 Z3.

  (** The class bodies; [dbl] is the family's common_doubling_processor *)
  Section Family.
    Variable dbl : triple -> triple.
    (** operator+ 253-271 *)
    Definition jac_add (P Q : triple) : triple :=
      if jac_is_zero P then Q
      else if jac_is_zero Q then P
      else if jac_eqb P Q then dbl P
      else jac_add_2007_bl P Q.
    (** operator+= 273-285 *)
    Definition jac_add_assign (P Q : triple) : triple :=
      if jac_is_zero P then Q
      else if jac_is_zero Q then P
      else if jac_eqb P Q then dbl P
      else jac_add_2007_bl P Q.
    (** 291-297 *)
    Definition jac_sub (P Q : triple) : triple := jac_add P (trip_neg Q).
    (** 291-297 *)
    Definition jac_sub_assign (P Q : triple) : triple := jac_add_assign P (trip_neg Q).
    (** double_inplace 303-305 *)
    Definition jac_double (P : triple) : triple := dbl P.
  End Family.
  (** mixed_add 312-325: no equality test *)
  Definition jac_mixed_add (P Q : triple) : triple :=
    if jac_is_zero P then Q
    else if jac_is_zero Q then P
    else jac_madd_2007_bl P Q.

  (** ** Projective: projective/element_g1.hpp and
      projective_with_a4_minus_3/element_g1.hpp (same text except is_well_formed) *)
  (** 153-155 *)
  Definition proj_is_zero (P : triple) : bool := (tX P =? 0) && (tZ P =? 0).
  (** 122-144 *)
  Definition proj_eqb (P Q : triple) : bool :=
    if proj_is_zero P then proj_is_zero Q
    else if proj_is_zero Q then false
    else if negb (tX P * tZ Q =? tX Q * tZ P) then false
    else if negb (tY P * tZ Q =? tY Q * tZ P) then false else true.
  (** 161-181 *)
  Definition proj_is_well_formed (P : triple) : bool :=
    if proj_is_zero P then true
    else
      let X2 := tX P * tX P in let Y2 := tY P * tY P in let Z2 := tZ P * tZ P in
      tZ P * (Y2 - b * Z2) =? tX P * (X2 + a * Z2).
  (** projective_with_a4_minus_3/element_g1.hpp:155-176 *)
  Definition proj3_is_well_formed (P : triple) : bool :=
    if proj_is_zero P then true
    else
      let X2 := tX P * tX P in let Y2 := tY P * tY P in let Z2 := tZ P * tZ P in
      tZ P * (Y2 - b * Z2) =? tX P * (X2 - Z2).
  (** 190-200 *)
  Definition proj_to_affine (P : triple) : affine :=
    if proj_is_zero P then aff_zero
    else mkA (tX P * finv (tZ P)) (tY P * finv (tZ P)).
  (** projective/add_1998_cmo_2.hpp:49-62 *)
  Definition proj_add_1998_cmo_2 (P Q : triple) : triple :=
    let Y1Z2 := tY P * tZ Q in
    let X1Z2 := tX P * tZ Q in
    let Z1Z2 := tZ P * tZ Q in
    let u := tY Q * tZ P - Y1Z2 in
    let uu := u * u in
    let v := tX Q * tZ P - X1Z2 in
    let vv := v * v in
    let vvv := v * vv in
    let R := vv * X1Z2 in
    let A := uu * Z1Z2 - (vvv + R + R) in
    mkT (v * A) (u * (R - A) - vvv * Y1Z2) (vvv * Z1Z2).
  (** projective/dbl_2007_bl.hpp:47-66, projective_with_a4_minus_3/dbl_2007_bl.hpp:48-67 *)
  Definition proj_dbl (P : triple) : triple :=
    if proj_is_zero P then P
    else
      let XX := tX P * tX P in
      let ZZ := tZ P * tZ P in
      let w := a * ZZ + (XX + XX + XX) in
      let Y1Z1 := tY P * tZ P in
      let s := Y1Z1 + Y1Z1 in
      let ss := s * s in
      let sss := s * ss in
      let R := tY P * s in
      let RR := R * R in
      let B := (tX P + R) * (tX P + R) - XX - RR in
      let h := w * w - fdbl B in
      mkT (h * s) (w * (B - h) - fdbl RR) sss.
  (** operator+ 221-239, operator+= 241-253 *)
  Definition proj_add (P Q : triple) : triple :=
    if proj_is_zero P then Q
    else if proj_is_zero Q then P
    else if proj_eqb P Q then proj_dbl P
    else proj_add_1998_cmo_2 P Q.
  (** operator+ 221-239, operator+= 241-253 *)
  Definition proj_add_assign (P Q : triple) : triple :=
    if proj_is_zero P then Q
    else if proj_is_zero Q then P
    else if proj_eqb P Q then proj_dbl P
    else proj_add_1998_cmo_2 P Q.
  (** 259-265 *)
  Definition proj_sub (P Q : triple) : triple := proj_add P (trip_neg Q).
  (** 259-265 *)
  Definition proj_sub_assign (P Q : triple) : triple := proj_add_assign P (trip_neg Q).
  (** 280-323 *)
  Definition proj_mixed_add (P Q : triple) : triple :=
    if proj_is_zero P then Q
    else if proj_is_zero Q then P
    else
      let X1Z2 := tX P in
      let X2Z1 := tZ P * tX Q in
      let Y1Z2 := tY P in
      let Y2Z1 := tZ P * tY Q in
      if (X1Z2 =? X2Z1) && (Y1Z2 =? Y2Z1) then proj_dbl P
      else
        let u := Y2Z1 - tY P in
        let uu := u * u in
        let v := X2Z1 - tX P in
        let vv := v * v in
        let vvv := v * vv in
        let R := vv * tX P in
        let A := uu * tZ P - vvv - R - R in
        mkT (v * A) (u * (R - A) - vvv * tY P) (vvv * tZ P).
End SW.
Arguments mkA {K} aX aY.
Arguments aX {K}. Arguments aY {K}.
Arguments mkT {K} tX tY tZ.
Arguments tX {K}. Arguments tY {K}. Arguments tZ {K}.
