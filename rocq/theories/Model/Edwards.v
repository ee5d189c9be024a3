(** A/curves/detail/forms/{twisted_edwards,edwards}: the point classes.
    squared() and the factors 2u are written as products; in-place functions
    return the new state. *)
From Coq Require Import NArith Bool.
From Verif Require Import Base.Field.
Local Open Scope fld_scope.

Section TE.
  Variable K : FieldOps.
  (** params_type::a, d, zero_fill *)
  Variables a d zx zy : K.

  (** ** twisted_edwards/element_g1_affine.hpp *)
  Record te_affine := mkE { eX : K; eY : K }.
  (** 78-79, 99-101 *)
  Definition tea_zero := mkE zx zy.
  (** 140-146 *)
  Definition tea_is_zero (P : te_affine) : bool :=
    (eX P =? zx) && (eY P =? zy) || (eX P =? 0) && (eY P =? 1).
  (** 111-131 *)
  Definition tea_eqb (P Q : te_affine) : bool :=
    if tea_is_zero P then tea_is_zero Q
    else if tea_is_zero Q then false
    else if negb (eX P =? eX Q) then false
    else if negb (eY P =? eY Q) then false else true.
  (** 154-165 *)
  Definition tea_is_well_formed (P : te_affine) : bool :=
    if tea_is_zero P then true
    else
      let XX := eX P * eX P in
      let YY := eY P * eY P in
      a * XX + YY =? 1 + d * XX * YY.
  (** private add, 309-318 *)
  Definition tea_add_inner (P Q : te_affine) : te_affine :=
    let XX := eX P * eX Q in
    let YY := eY P * eY Q in
    let XY := eX P * eY Q in
    let YX := eY P * eX Q in
    let lambda := d * XX * YY in
    mkE ((XY + YX) * finv (1 + lambda)) ((YY - a * XX) * finv (1 - lambda)).
  (** 297-301 *)
  Definition tea_double (P : te_affine) : te_affine :=
    if negb (tea_is_zero P) then tea_add_inner P P else P.
  (** operator+ 245-263, operator+= 265-277 *)
  Definition tea_add (P Q : te_affine) : te_affine :=
    if tea_is_zero P then Q
    else if tea_is_zero Q then P
    else if tea_eqb P Q then tea_double P
    else tea_add_inner P Q.
  (** operator+ 245-263, operator+= 265-277 *)
  Definition tea_add_assign (P Q : te_affine) : te_affine :=
    if tea_is_zero P then Q
    else if tea_is_zero Q then P
    else if tea_eqb P Q then tea_double P
    else tea_add_inner P Q.
  (** 279-281 *)
  Definition tea_neg (P : te_affine) : te_affine := mkE (- eX P) (eY P).
  (** 283-285, 287-289 *)
  Definition tea_sub (P Q : te_affine) : te_affine := tea_add P (tea_neg Q).
  (** 283-285, 287-289 *)
  Definition tea_sub_assign (P Q : te_affine) : te_affine := tea_add_assign P (tea_neg Q).

  (** ** twisted_edwards/extended_with_a_minus_1/element_g1.hpp *)
  Record extended := mkX { xX : K; xY : K; xT : K; xZ : K }.
  (** 90-94, 114-116 *)
  Definition ext_zero := mkX 0 1 0 1.
  (** 166-168 *)
  Definition ext_is_zero (P : extended) : bool := (xX P =? 0) && (xT P =? 0) && (xY P =? xZ P).
  (** 130-157 *)
  Definition ext_eqb (P Q : extended) : bool :=
    if ext_is_zero P then ext_is_zero Q
    else if ext_is_zero Q then false
    else if negb (xX P * xZ Q =? xX Q * xZ P) then false
    else if negb (xY P * xZ Q =? xY Q * xZ P) then false
    else if negb (xT P * xZ Q =? xT Q * xZ P) then false else true.
  (** 177-192 *)
  Definition ext_is_well_formed (P : extended) : bool :=
    if ext_is_zero P then true
    else if negb (xX P * xY P =? xT P * xZ P) then false
    else
      let X2 := xX P * xX P in let Y2 := xY P * xY P in
      let T2 := xT P * xT P in let Z2 := xZ P * xZ P in
      a * X2 + Y2 =? Z2 + d * T2.
  (** 201-212 *)
  Definition ext_to_affine (P : extended) : te_affine :=
    if ext_is_zero P then tea_zero
    else let Zi := finv (xZ P) in mkE (xX P * Zi) (xY P * Zi).
  (** element_g1_affine.hpp:207-216 *)
  Definition tea_to_extended (P : te_affine) : extended := mkX (eX P) (eY P) (eX P * eY P) 1.
  (** add_2008_hwcd_3.hpp:47-60 *)
  Definition ext_add_2008_hwcd_3 (P Q : extended) : extended :=
    let A := (xY P - xX P) * (xY Q - xX Q) in
    let B := (xY P + xX P) * (xY Q + xX Q) in
    let C := xT P * 2 * d * xT Q in
    let D := xZ P * 2 * xZ Q in
    let E := B - A in
    let F := D - C in
    let G := D + C in
    let H := B + A in
    mkX (E * F) (G * H) (E * H) (F * G).
  (** dbl_2008_hwcd.hpp:48-62; double_inplace element_g1.hpp:284-286 *)
  Definition ext_dbl (P : extended) : extended :=
    if negb (ext_is_zero P) then
      let A := xX P * xX P in
      let B := xY P * xY P in
      let C := 2 * (xZ P * xZ P) in
      let D := a * A in
      let E := (xX P + xY P) * (xX P + xY P) - A - B in
      let G := D + B in
      let F := G - C in
      let H := D - B in
      mkX (E * F) (G * H) (E * H) (F * G)
    else P.
  (** madd_2008_hwcd_2.hpp:50-62 *)
  Definition ext_madd_2008_hwcd_2 (P Q : extended) : extended :=
    let A := xX P * xX Q in
    let B := xY P * xY Q in
    let C := xZ P * xT Q in
    let D := xT P in
    let E := D + C in
    let F := (xX P - xY P) * (xX Q + xY Q) + B - A in
    let G := B + a * A in
    let H := D - C in
    mkX (E * F) (G * H) (E * H) (F * G).
  (** operator+ 234-252, operator+= 254-266 *)
  Definition ext_add (P Q : extended) : extended :=
    if ext_is_zero P then Q
    else if ext_is_zero Q then P
    else if ext_eqb P Q then ext_dbl P
    else ext_add_2008_hwcd_3 P Q.
  (** operator+ 234-252, operator+= 254-266 *)
  Definition ext_add_assign (P Q : extended) : extended :=
    if ext_is_zero P then Q
    else if ext_is_zero Q then P
    else if ext_eqb P Q then ext_dbl P
    else ext_add_2008_hwcd_3 P Q.
  (** 268-270 *)
  Definition ext_neg (P : extended) : extended := mkX (- xX P) (xY P) (- xT P) (xZ P).
  (** 272-274, 276-278 *)
  Definition ext_sub (P Q : extended) : extended := ext_add P (ext_neg Q).
  (** 272-274, 276-278 *)
  Definition ext_sub_assign (P Q : extended) : extended := ext_add_assign P (ext_neg Q).
  (** 293-306 *)
  Definition ext_mixed_add (P Q : extended) : extended :=
    if ext_is_zero P then Q
    else if ext_is_zero Q then P
    else ext_madd_2008_hwcd_2 P Q.

  (** ** twisted_edwards/inverted/element_g1.hpp *)
  Record inverted := mkI { iX : K; iY : K; iZ : K }.
  (** 86-89, 117-119 *)
  Definition inv_zero := mkI zy zx 0.
  (** 102-104 *)
  Definition inv_of_affine (x y : K) : inverted := mkI (finv x) (finv y) 1.
  (** 163-165 *)
  Definition inv_is_zero (P : inverted) : bool := (iY P =? 0) && (iZ P =? 0).
  (** 132-154 *)
  Definition inv_eqb (P Q : inverted) : bool :=
    if inv_is_zero P then inv_is_zero Q
    else if inv_is_zero Q then false
    else if negb (iX P * iZ Q =? iX Q * iZ P) then false
    else if negb (iY P * iZ Q =? iY Q * iZ P) then false else true.
  (** 176-187 *)
  Definition inv_is_well_formed (P : inverted) : bool :=
    if inv_is_zero P then true
    else
      let X2 := iX P * iX P in let Y2 := iY P * iY P in let Z2 := iZ P * iZ P in
      a * Z2 * Y2 + Z2 * X2 =? X2 * Y2 + d * Z2 * Z2.
  (** 196-207 *)
  Definition inv_to_affine (P : inverted) : te_affine :=
    if inv_is_zero P then tea_zero
    else mkE (iZ P * finv (iX P)) (iZ P * finv (iY P)).
  (** element_g1_affine.hpp:191-200 *)
  Definition tea_to_inverted (P : te_affine) : inverted := mkI (finv (eX P)) (finv (eY P)) 1.
  (** add_2008_bbjlp.hpp:49-60 *)
  Definition inv_add_2008_bbjlp (P Q : inverted) : inverted :=
    let A := iZ P * iZ Q in
    let B := d * (A * A) in
    let C := iX P * iX Q in
    let D := iY P * iY Q in
    let E := C * D in
    let H := C - a * D in
    let I := (iX P + iY P) * (iX Q + iY Q) - C - D in
    mkI ((E + B) * H) ((E - B) * I) (A * H * I).
  (** dbl_2008_bbjlp.hpp:48-60; double_inplace element_g1.hpp:278-280 *)
  Definition inv_dbl (P : inverted) : inverted :=
    if negb (inv_is_zero P) then
      let A := iX P * iX P in
      let B := iY P * iY P in
      let U := a * B in
      let C := A + U in
      let D := A - U in
      let E := (iX P + iY P) * (iX P + iY P) - A - B in
      let d2 := d + d in
      mkI (C * D) (E * (C - d2 * (iZ P * iZ P))) (D * E)
    else P.
  (** madd_2008_bbjlp.hpp:49-61; the assertion Z2 = 1 (49) is not modelled *)
  Definition inv_madd_2008_bbjlp (P Q : inverted) : inverted :=
    let B := d * (iZ P * iZ P) in
    let C := iX P * iX Q in
    let D := iY P * iY Q in
    let E := C * D in
    let H := C - a * D in
    let I := (iX P + iY P) * (iX Q + iY Q) - C - D in
    mkI ((E + B) * H) ((E - B) * I) (iZ P * H * I).
  (** operator+ 228-246, operator+= 248-260 *)
  Definition inv_add (P Q : inverted) : inverted :=
    if inv_is_zero P then Q
    else if inv_is_zero Q then P
    else if inv_eqb P Q then inv_dbl P
    else inv_add_2008_bbjlp P Q.
  (** operator+ 228-246, operator+= 248-260 *)
  Definition inv_add_assign (P Q : inverted) : inverted :=
    if inv_is_zero P then Q
    else if inv_is_zero Q then P
    else if inv_eqb P Q then inv_dbl P
    else inv_add_2008_bbjlp P Q.
  (** 262-264 *)
  Definition inv_neg (P : inverted) : inverted := mkI (- iX P) (iY P) (iZ P).
  (** 266-268, 270-272 *)
  Definition inv_sub (P Q : inverted) : inverted := inv_add P (inv_neg Q).
  (** 266-268, 270-272 *)
  Definition inv_sub_assign (P Q : inverted) : inverted := inv_add_assign P (inv_neg Q).
  (** 287-300 *)
  Definition inv_mixed_add (P Q : inverted) : inverted :=
    if inv_is_zero P then Q
    else if inv_is_zero Q then P
    else inv_madd_2008_bbjlp P Q.

  (** ** edwards/inverted/element_g1.hpp: same is_zero (155-157), operator== (124-146),
      unary minus (251-253), is_well_formed (163-174) as above *)
  (** params_type::c *)
  Variable c : K.
  (** add_2007_bl.hpp:49-59 *)
  Definition edw_add_2007_bl (P Q : inverted) : inverted :=
    let A := iZ P * iZ Q in
    let B := d * (A * A) in
    let C := iX P * iX Q in
    let D := iY P * iY Q in
    let E := C * D in
    let H := C - D in
    let I := (iX P + iY P) * (iX Q + iY Q) - C - D in
    mkI (c * (E + B) * H) (c * (E - B) * I) (A * H * I).
  (** dbl_2007_bl.hpp:48-60 *)
  Definition edw_dbl (P : inverted) : inverted :=
    if negb (inv_is_zero P) then
      let A := iX P * iX P in
      let B := iY P * iY P in
      let C := A + B in
      let D := A - B in
      let E := (iX P + iY P) * (iX P + iY P) - C in
      let dZZ := c * c * d * (iZ P * iZ P) in
      mkI (C * D) (E * (C - dZZ - dZZ)) (c * D * E)
    else P.
  (** madd_2007_bl.hpp:50-62; the assertion Z2 = 1 (50) is not modelled *)
  Definition edw_madd_2007_bl (P Q : inverted) : inverted :=
    let A := iZ P in
    let B := d * (A * A) in
    let C := iX P * iX Q in
    let D := iY P * iY Q in
    let E := C * D in
    let H := C - D in
    let I := (iX P + iY P) * (iX Q + iY Q) - C - D in
    mkI (c * (E + B) * H) (c * (E - B) * I) (A * H * I).
  (** operator+ 217-235, operator+= 237-249 *)
  Definition edw_add (P Q : inverted) : inverted :=
    if inv_is_zero P then Q
    else if inv_is_zero Q then P
    else if inv_eqb P Q then edw_dbl P
    else edw_add_2007_bl P Q.
  (** operator+ 217-235, operator+= 237-249 *)
  Definition edw_add_assign (P Q : inverted) : inverted :=
    if inv_is_zero P then Q
    else if inv_is_zero Q then P
    else if inv_eqb P Q then edw_dbl P
    else edw_add_2007_bl P Q.
  (** 276-285: the state is left alone when it is the identity *)
  Definition edw_mixed_add (P Q : inverted) : inverted :=
    if inv_is_zero P then P
    else if inv_is_zero Q then P
    else edw_madd_2007_bl P Q.
End TE.
Arguments mkE {K} eX eY.
Arguments eX {K}. Arguments eY {K}.
Arguments mkX {K} xX xY xT xZ.
Arguments xX {K}. Arguments xY {K}. Arguments xT {K}. Arguments xZ {K}.
Arguments mkI {K} iX iY iZ.
Arguments iX {K}. Arguments iY {K}. Arguments iZ {K}.
Arguments ext_zero {K}.
Arguments ext_is_zero {K} P. Arguments ext_eqb {K} P Q. Arguments ext_neg {K} P.
Arguments inv_is_zero {K} P. Arguments inv_eqb {K} P Q. Arguments inv_neg {K} P.
Arguments tea_neg {K} P. Arguments tea_to_extended {K} P. Arguments tea_to_inverted {K} P.
