(** A/curves/detail/forms/montgomery/element_g1_affine.hpp and the conversions
    between the Montgomery and twisted Edwards classes.  squared() is written
    as a product; in-place functions return the new state. *)
From Coq Require Import NArith Bool.
From Verif Require Import Base.Field Model.Edwards.
Local Open Scope fld_scope.

Section Mont.
  Variable K : FieldOps.
  (** params_type::A, B *)
  Variables A B : K.
  (** the coordinates the default constructor leaves *)
  Variables jx jy : K.
  (** the members of the class: the flag of infinity, X and Y; A/curves/detail/forms/montgomery/element_g1_affine.hpp:63, 72-73 *)
  Record mont := mkM { mInf : bool; mX : K; mY : K }.
  (** 81, 100-102 *)
  Definition mont_zero := mkM true jx jy.
  (** 87-88 *)
  Definition mont_of (x y : K) := mkM false x y.
  (** 144-146 *)
  Definition mont_is_zero (P : mont) : bool := mInf P.
  (** 113-133 *)
  Definition mont_eqb (P Q : mont) : bool :=
    if mont_is_zero P then mont_is_zero Q
    else if mont_is_zero Q then false
    else if negb (mX P =? mX Q) then false
    else if negb (mY P =? mY Q) then false else true.
  (** 153-163 *)
  Definition mont_is_well_formed (P : mont) : bool :=
    if mont_is_zero P then true
    else
      let XX := mX P * mX P in
      let YY := mY P * mY P in
      B * YY =? XX * mX P + A * XX + mX P.
  (** operator= 195-204 *)
  Definition mont_assign (this other : mont) : mont :=
    if negb (mont_is_zero other) then mkM (mInf other) (mX other) (mY other)
    else mkM (mInf other) (mX this) (mY this).
  (** 275-298 *)
  Definition mont_double (P : mont) : mont :=
    let P := if 2 * B * mY P =? 0 then mkM true (mX P) (mY P) else P in
    if negb (mont_is_zero P) then
      let temp1i := finv (2 * B * mY P) in
      let temp2 := 3 * (mX P * mX P) + 2 * A * mX P + 1 in
      let temp1i_sqr := temp1i * temp1i in
      let temp2_sqr := temp2 * temp2 in
      let X2 := B * temp2_sqr * temp1i_sqr - A - mX P - mX P in
      let Y2 := (3 * mX P + A) * temp2 * temp1i
                - B * temp2 * temp2_sqr * (temp1i * temp1i_sqr) - mY P in
      mkM (mInf P) X2 Y2
    else P.
  (** private add, 312-333 *)
  Definition mont_add_inner (P Q : mont) : mont :=
    if mX P =? mX Q then
      if mY P =? - mY Q then mkM true (mX P) (mY P)
      else mont_double P
    else
      let temp1 := mY Q - mY P in
      let temp2i := finv (mX Q - mX P) in
      let temp1_sqr := temp1 * temp1 in
      let temp2i_sqr := temp2i * temp2i in
      let Y' := (2 * mX P + mX Q + A) * temp1 * temp2i
                - B * temp1 * temp1_sqr * (temp2i * temp2i_sqr) - mY P in
      let X' := B * temp1_sqr * temp2i_sqr - A - mX P - mX Q in
      mkM (mInf P) X' Y'.
  (** operator+ 214-232 *)
  Definition mont_plus (P Q : mont) : mont :=
    if mont_is_zero P then Q
    else if mont_is_zero Q then P
    else if mont_eqb P Q then mont_double P
    else mont_add_inner P Q.
  (** operator+= 234-246 *)
  Definition mont_add_assign (P Q : mont) : mont :=
    if mont_is_zero P then mont_assign P Q
    else if mont_is_zero Q then P
    else if mont_eqb P Q then mont_double P
    else mont_add_inner P Q.
  (** 253-255 *)
  Definition mont_neg (P : mont) : mont := mont_of (mX P) (- mY P).
  (** 257-259, 261-263 *)
  Definition mont_sub (P Q : mont) : mont := mont_plus P (mont_neg Q).
  (** 257-259, 261-263 *)
  Definition mont_sub_assign (P Q : mont) : mont := mont_add_assign P (mont_neg Q).

  (** the twisted Edwards side: params_type::a, d, zero_fill and field sqrt() *)
  Variables a d zx zy : K.
  Variable sqrt : K -> K.
  (** twisted_edwards/element_g1_affine.hpp:377-383, montgomery/element_g1_affine.hpp:392-398 *)
  Definition conv_s_inv : K :=
    let B_ := fofN 4 * finv (a - d) in
    if negb (B =? B_) then sqrt (B_ * finv B) else 1.
  (** to_montgomery, twisted_edwards/element_g1_affine.hpp:358-389;
      the assertion (370-375) is [conv_params] in the statements *)
  Definition to_montgomery (P : te_affine K) : mont :=
    if tea_is_zero K zx zy P then mont_zero
    else mont_of ((1 + eY P) * finv (1 - eY P))
                 (conv_s_inv * ((1 + eY P) * finv (eX P * (1 - eY P)))).
  (** to_twisted_edwards, montgomery/element_g1_affine.hpp:373-403 *)
  Definition to_twisted_edwards (P : mont) : te_affine K :=
    if mont_is_zero P then tea_zero K zx zy
    else mkE (conv_s_inv * mX P * finv (mY P)) ((mX P - 1) * finv (mX P + 1)).
End Mont.
Arguments mkM {K} mInf mX mY.
Arguments mInf {K}. Arguments mX {K}. Arguments mY {K}.
Arguments mont_is_zero {K} P. Arguments mont_eqb {K} P Q. Arguments mont_neg {K} P.
Arguments mont_of {K} x y. Arguments mont_zero {K} jx jy.
