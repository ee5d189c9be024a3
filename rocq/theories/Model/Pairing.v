(** The ate pairings: A/pairing/forms/short_weierstrass/{jacobian_with_a4_0,projective}/,
    A/pairing/{mnt4/298,mnt6/298,edwards/183}/ and A/algorithms/pair.hpp.

    std::vector operator[] past the end is undefined behaviour; here it is [None].
    Not modelled: pairing/detail/alt_bn128/functions.hpp (included nowhere), the affine_ate_*
    and tate_* classes and the pairing of bls12<377> and alt_bn128<254>, whose sources
    name members that do not exist (see DESIGN.md). *)
From Coq Require Import ZArith NArith List Bool.
From Verif Require Import Base.Field Base.Zp Base.Ext Model.Power Model.Fp2 Model.Fp3 Model.Fp4 Model.Fp6_2over3 Model.Fp12
  Model.ShortWeierstrass Model.Edwards Model.EdwardsG2 Model.FieldParams Model.Shipped Model.CurveParams Model.Generators
  Model.Wnaf Model.FinalExp.
Import ListNotations.
Local Open Scope fld_scope.

(** The loop shared by every process(): [for (long i = top - 1; i >= 0; --i)] with
    [if (!found_one) { found_one |= bit; continue; }]. *)
(** the loops of bls12/381/ate_precompute_g2.hpp, mnt4/298, mnt6/298 and edwards/183 cited at each use below *)
Definition bit_loop {S : Type} (top : nat) (loop_count : N) (body : bool -> S -> S) (st : S) : S :=
  snd (for_down top
    (fun i '(found_one, st) =>
       let bit := N.testbit loop_count (N.of_nat i) in
       if found_one : bool then (found_one, body bit st) else (found_one || bit, st))
    (false, st)).

(** ** jacobian_with_a4_0 *)
Section A40.
  (** g1 field, g2 field, gt field *)
  Variables K F GT : FieldOps.
  (** product of a prime field element and a g2 field element *)
  Variable smul : K -> F -> F.
  (** gt members squared() and mul_by_045() *)
  Variable squared : GT -> GT.
  Variable mul_by_045 : GT -> F -> F -> F -> GT.
  (** params_type::twist, twist_coeff_b; ate_loop_count, ate_is_loop_count_neg, integral_type_max_bits *)
  Variables twist twist_coeff_b : F.
  Variable loop_count : N.
  Variable loop_neg : bool.
  Variable max_bits : nat.
  (** zero_fill of the two groups *)
  Variables zx1 zy1 : K.
  Variables zx2 zy2 : F.

  (** detail/forms/short_weierstrass/jacobian_with_a4_0/types.hpp *)
  Record a40_g1_prec := mkP1 { PX : K; PY : K }.
  (** detail/forms/short_weierstrass/jacobian_with_a4_0/types.hpp:59-69 *)
  Record ell_coeffs := mkEll { ell_0 : F; ell_VW : F; ell_VV : F }.
  (** detail/forms/short_weierstrass/jacobian_with_a4_0/types.hpp:71-81 *)
  Record a40_g2_prec := mkP2 { QX : F; QY : F; coeffs : list ell_coeffs }.

  (** ate_precompute_g1.hpp:46-60 *)
  Definition a40_precompute_g1 (P : triple K) : a40_g1_prec :=
    let Pcopy := jac_to_affine K zx1 zy1 P in
    let Pcopy := if jac_is_zero K P then mkA (0 : K) (0 : K) else Pcopy in
    mkP1 (aX Pcopy) (aY Pcopy).
  (** ate_precompute_g2.hpp:52-77; [0x03u * x] is a product with a prime field element *)
  Definition a40_doubling_step (two_inv : K) (current : triple F) : triple F * ell_coeffs :=
    let X := tX current in let Y := tY current in let Z := tZ current in
    let A := smul two_inv (X * Y) in
    let B := Y * Y in
    let C := Z * Z in
    let D := smul (fofZ 3) C in
    let E := twist_coeff_b * D in
    let F' := smul (fofZ 3) E in
    let G := smul two_inv (B + F') in
    let H := (Y + Z) * (Y + Z) - (B + C) in
    let I := E - B in
    let J := X * X in
    let E_squared := E * E in
    (mkT (A * (B - F')) (G * G - smul (fofZ 3) E_squared) (B * H),
     mkEll I (- twist * H) (smul (fofZ 3) J)).
  (** 79-100 *)
  Definition a40_mixed_addition_step (base : affine F) (current : triple F) : triple F * ell_coeffs :=
    let X1 := tX current in let Y1 := tY current in let Z1 := tZ current in
    let x2 := aX base in let y2 := aY base in
    let D := X1 - x2 * Z1 in
    let E := Y1 - y2 * Z1 in
    let F' := D * D in
    let G := E * E in
    let H := D * F' in
    let I := X1 * F' in
    let J := H + Z1 * G - (I + I) in
    (mkT (D * J) (E * (I - J) - (H * Y1)) (Z1 * H),
     mkEll (E * x2 - D * y2) (twist * D) (- E)).
  (** 126-141, on the pair (R, result.coeffs) *)
  Definition a40_g2_loop (Qcopy : affine F) (two_inv : K) (st : triple F * list ell_coeffs) : triple F * list ell_coeffs :=
    bit_loop (S max_bits) loop_count
      (fun bit '(R, cs) =>
         let '(R, c) := a40_doubling_step two_inv R in
         let cs := cs ++ [c] in
         if bit : bool then
           let '(R, c) := a40_mixed_addition_step Qcopy R in (R, cs ++ [c])
         else (R, cs))
      st.
  (** 105-144 *)
  Definition a40_precompute_g2 (Q : triple F) : a40_g2_prec :=
    let Qcopy := jac_to_affine F zx2 zy2 Q in
    let two_inv := finv (fofZ 2 : K) in
    let R := mkT (aX Qcopy) (aY Qcopy) (1 : F) in
    mkP2 (aX Qcopy) (aY Qcopy) (snd (a40_g2_loop Qcopy two_inv (R, []))).

  (** ate_miller_loop.hpp:76, 80: the product with one line *)
  Definition a40_line (P : a40_g1_prec) (c : ell_coeffs) (f : GT) : GT :=
    mul_by_045 f (ell_0 c) (smul (PY P) (ell_VW c)) (smul (PX P) (ell_VV c)).
  (** ate_miller_loop.hpp:49-89 on the pair (f, idx) *)
  Definition a40_miller_state (P : a40_g1_prec) (Q : a40_g2_prec) : option (GT * nat) :=
    bit_loop (S max_bits) loop_count
      (fun bit st =>
         match st with
         | None => None
         | Some (f, idx) =>
             match nth_error (coeffs Q) idx with
             | None => None
             | Some c =>
                 let idx := S idx in
                 let f := squared f in
                 let f := a40_line P c f in
                 if bit : bool then
                   match nth_error (coeffs Q) idx with
                   | None => None
                   | Some c => Some (a40_line P c f, S idx)
                   end
                 else Some (f, idx)
             end
         end)
      (Some (1, O)).
  (** ate_miller_loop.hpp:49-89 on the pair (f, idx) *)
  Definition a40_miller_loop (P : a40_g1_prec) (Q : a40_g2_prec) : option GT :=
    match a40_miller_state P Q with
    | None => None
    | Some (f, _) => Some (if loop_neg then finv f else f)
    end.
  (** ate_double_miller_loop.hpp:49-98 *)
  Definition a40_double_miller_state (P1 : a40_g1_prec) (Q1 : a40_g2_prec) (P2 : a40_g1_prec) (Q2 : a40_g2_prec)
      : option (GT * nat) :=
    bit_loop (S max_bits) loop_count
      (fun bit st =>
         match st with
         | None => None
         | Some (f, idx) =>
             match nth_error (coeffs Q1) idx, nth_error (coeffs Q2) idx with
             | Some c1, Some c2 =>
                 let idx := S idx in
                 let f := squared f in
                 let f := a40_line P1 c1 f in
                 let f := a40_line P2 c2 f in
                 if bit : bool then
                   match nth_error (coeffs Q1) idx, nth_error (coeffs Q2) idx with
                   | Some c1, Some c2 =>
                       let idx := S idx in
                       let f := a40_line P1 c1 f in
                       let f := a40_line P2 c2 f in
                       Some (f, idx)
                   | _, _ => None
                   end
                 else Some (f, idx)
             | _, _ => None
             end
         end)
      (Some (1, O)).
  (** ate_double_miller_loop.hpp:49-98 *)
  Definition a40_double_miller_loop (P1 : a40_g1_prec) (Q1 : a40_g2_prec) (P2 : a40_g1_prec) (Q2 : a40_g2_prec) : option GT :=
    match a40_double_miller_state P1 Q1 P2 Q2 with
    | None => None
    | Some (f, _) => Some (if loop_neg then finv f else f)
    end.
End A40.
Arguments mkP1 {K}. Arguments PX {K}. Arguments PY {K}.
Arguments mkEll {F}. Arguments ell_0 {F}. Arguments ell_VW {F}. Arguments ell_VV {F}.
Arguments mkP2 {F}. Arguments QX {F}. Arguments QY {F}. Arguments coeffs {F}.

(** ** projective (mnt4, mnt6) *)
Section Proj.
  Variables K F GT : FieldOps.
  Variable smul : K -> F -> F.
  (** g2_field_type_value(x, 0[, 0]) and gt_type::value_type(a, b) *)
  Variable of_base : K -> F.
  Variable mkgt : F -> F -> GT.
  Variable squared : GT -> GT.
  Variables twist twist_coeff_a : F.
  Variable loop_count : N.
  Variable loop_neg : bool.
  Variable max_bits : nat.
  Variables zx1 zy1 : K.
  Variables zx2 zy2 : F.

  (** detail/forms/short_weierstrass/projective/types.hpp:72-83 *)
  Record pr_g1_prec := mkR1 { rPX : K; rPY : K; rPX_twist : F; rPY_twist : F }.
  (** detail/forms/short_weierstrass/projective/types.hpp:87-98 *)
  Record dbl_coeffs := mkDbl { c_H : F; c_4C : F; c_J : F; c_L : F }.
  (** detail/forms/short_weierstrass/projective/types.hpp:100-108 *)
  Record add_coeffs := mkAdd { c_L1 : F; c_RZ : F }.
  (** detail/forms/short_weierstrass/projective/types.hpp:110-128 *)
  Record pr_g2_prec := mkR2 { rQX : F; rQY : F; rQY2 : F; rQX_over_twist : F; rQY_over_twist : F;
                              dbls : list dbl_coeffs; adds : list add_coeffs }.
  (** projective/ate_precompute_g2.hpp:52-57 *)
  Record ext_proj := mkXP { pX : F; pY : F; pZ : F; pT : F }.

  (** projective/ate_precompute_g1.hpp:47-63 *)
  Definition pr_precompute_g1 (P : triple K) : pr_g1_prec :=
    let Pcopy := proj_to_affine K zx1 zy1 P in
    let Pcopy := if proj_is_zero K P then mkA (0 : K) (0 : K) else Pcopy in
    mkR1 (aX Pcopy) (aY Pcopy) (smul (aX Pcopy) twist) (smul (aY Pcopy) twist).
  (** projective/ate_precompute_g2.hpp:59-83 *)
  Definition pr_doubling_step (current : ext_proj) : ext_proj * dbl_coeffs :=
    let X := pX current in let Y := pY current in let Z := pZ current in let T := pT current in
    let A := T * T in
    let B := X * X in
    let C := Y * Y in
    let D := C * C in
    let E := (X + C) * (X + C) - B - D in
    let F' := (B + B + B) + twist_coeff_a * A in
    let G := F' * F' in
    let X3 := - fdbl (fdbl E) + G in
    let Y3 := smul (- fofZ 8) D + F' * (E + E - X3) in
    let Z3 := (Y + Z) * (Y + Z) - C - Z * Z in
    let T3 := Z3 * Z3 in
    (mkXP X3 Y3 Z3 T3,
     mkDbl ((Z3 + T) * (Z3 + T) - T3 - A) (C + C + C + C)
           ((F' + T) * (F' + T) - G - A) ((F' + X) * (F' + X) - G - B)).
  (** 85-111 *)
  Definition pr_mixed_addition_step (base_X base_Y base_Y_squared : F) (current : ext_proj) : ext_proj * add_coeffs :=
    let X1 := pX current in let Y1 := pY current in let Z1 := pZ current in let T1 := pT current in
    let x2 := base_X in let y2 := base_Y in let y2_squared := base_Y_squared in
    let B := x2 * T1 in
    let D := ((y2 + Z1) * (y2 + Z1) - y2_squared - T1) * T1 in
    let H := B - X1 in
    let I := H * H in
    let E := I + I + I + I in
    let J := H * E in
    let V := X1 * E in
    let L1 := D - (Y1 + Y1) in
    let X3 := L1 * L1 - J - (V + V) in
    let Y3 := L1 * (V - X3) - (Y1 + Y1) * J in
    let Z3 := (Z1 + H) * (Z1 + H) - T1 - I in
    let T3 := Z3 * Z3 in
    (mkXP X3 Y3 Z3 T3, mkAdd L1 Z3).
  (** 137-153, on (R, result.dbl_coeffs, result.add_coeffs) *)
  Definition pr_g2_loop (qx qy qy2 : F) (st : ext_proj * list dbl_coeffs * list add_coeffs)
      : ext_proj * list dbl_coeffs * list add_coeffs :=
    bit_loop max_bits loop_count
      (fun bit '(R, ds, az) =>
         let '(R, dc) := pr_doubling_step R in
         let ds := ds ++ [dc] in
         if bit : bool then
           let '(R, ac) := pr_mixed_addition_step qx qy qy2 R in (R, ds, az ++ [ac])
         else (R, ds, az))
      st.
  (** 116-169 *)
  Definition pr_precompute_g2 (Q : triple F) : pr_g2_prec :=
    let Qcopy := proj_to_affine F zx2 zy2 Q in
    let twist_inv := finv twist in
    let qx := aX Qcopy in
    let qy := aY Qcopy in
    let qy2 := aY Qcopy * aY Qcopy in
    let '(R, ds, az) := pr_g2_loop qx qy qy2 (mkXP qx qy 1 1, [], []) in
    let az :=
      if loop_neg then
        let RZ_inv := finv (pZ R) in
        let RZ2_inv := RZ_inv * RZ_inv in
        let RZ3_inv := RZ2_inv * RZ_inv in
        let minus_R_affine_X := pX R * RZ2_inv in
        let minus_R_affine_Y := - pY R * RZ3_inv in
        let minus_R_affine_Y2 := minus_R_affine_Y * minus_R_affine_Y in
        let '(_, ac) := pr_mixed_addition_step minus_R_affine_X minus_R_affine_Y minus_R_affine_Y2 R in
        az ++ [ac]
      else az in
    mkR2 qx qy qy2 (qx * twist_inv) (qy * twist_inv) ds az.

  (** mnt4/298/ate_miller_loop.hpp:63-65, mnt6/298/ate_miller_loop.hpp:72-74 *)
  Definition pr_L1_coeff (P : pr_g1_prec) (Q : pr_g2_prec) : F := of_base (rPX P) - rQX_over_twist Q.
  (** mnt4 87-88; the mnt6 loop (96-98) adds the three terms in another order *)
  Definition pr_g_RR (P : pr_g1_prec) (dc : dbl_coeffs) : GT :=
    mkgt (- c_4C dc - c_J dc * rPX_twist P + c_L dc) (c_H dc * rPY_twist P).
  (** mnt4 87-88; the mnt6 loop (96-98) adds the three terms in another order *)
  Definition pr_g_RR' (P : pr_g1_prec) (dc : dbl_coeffs) : GT :=
    mkgt (c_L dc - c_4C dc - c_J dc * rPX_twist P) (c_H dc * rPY_twist P).
  (** mnt4 93-94 and 101-102, mnt6 103-105 and 112-114 *)
  Definition pr_g_RQ (P : pr_g1_prec) (Q : pr_g2_prec) (ac : add_coeffs) : GT :=
    mkgt (c_RZ ac * rPY_twist P) (- (rQY_over_twist Q * c_RZ ac + pr_L1_coeff P Q * c_L1 ac)).
  Variable g_RR : pr_g1_prec -> dbl_coeffs -> GT.
  (** mnt4/298/ate_miller_loop.hpp:67-97, mnt6/298/ate_miller_loop.hpp:76-108 on (f, dbl_idx, add_idx) *)
  Definition pr_miller_state (P : pr_g1_prec) (Q : pr_g2_prec) : option (GT * nat * nat) :=
    bit_loop max_bits loop_count
      (fun bit st =>
         match st with
         | None => None
         | Some (f, dbl_idx, add_idx) =>
             match nth_error (dbls Q) dbl_idx with
             | None => None
             | Some dc =>
                 let dbl_idx := S dbl_idx in
                 let f := squared f * g_RR P dc in
                 if bit : bool then
                   match nth_error (adds Q) add_idx with
                   | None => None
                   | Some ac => Some (f * pr_g_RQ P Q ac, dbl_idx, S add_idx)
                   end
                 else Some (f, dbl_idx, add_idx)
             end
         end)
      (Some (1, O, O)).
  (** mnt4 99-106, mnt6 110-118; the returned index is the final add_idx *)
  Definition pr_miller_end (P : pr_g1_prec) (Q : pr_g2_prec) : option (GT * nat * nat) :=
    match pr_miller_state P Q with
    | None => None
    | Some (f, dbl_idx, add_idx) =>
        if loop_neg then
          match nth_error (adds Q) add_idx with
          | None => None
          | Some ac => Some (finv (f * pr_g_RQ P Q ac), dbl_idx, S add_idx)
          end
        else Some (f, dbl_idx, add_idx)
    end.
  (** mnt4 99-106, mnt6 110-118; the returned index is the final add_idx *)
  Definition pr_miller_loop (P : pr_g1_prec) (Q : pr_g2_prec) : option GT := option_map (fun '(f, _, _) => f) (pr_miller_end P Q).
  (** mnt4/298/ate_double_miller_loop.hpp:60-132, mnt6/298/ate_double_miller_loop.hpp:60-134 (the same text) *)
  Definition pr_double_miller_state (P1 : pr_g1_prec) (Q1 : pr_g2_prec) (P2 : pr_g1_prec) (Q2 : pr_g2_prec)
      : option (GT * nat * nat) :=
    bit_loop max_bits loop_count
      (fun bit st =>
         match st with
         | None => None
         | Some (f, dbl_idx, add_idx) =>
             match nth_error (dbls Q1) dbl_idx, nth_error (dbls Q2) dbl_idx with
             | Some dc1, Some dc2 =>
                 let dbl_idx := S dbl_idx in
                 let f := squared f * pr_g_RR P1 dc1 * pr_g_RR P2 dc2 in
                 if bit : bool then
                   match nth_error (adds Q1) add_idx, nth_error (adds Q2) add_idx with
                   | Some ac1, Some ac2 =>
                       Some (f * pr_g_RQ P1 Q1 ac1 * pr_g_RQ P2 Q2 ac2, dbl_idx, S add_idx)
                   | _, _ => None
                   end
                 else Some (f, dbl_idx, add_idx)
             | _, _ => None
             end
         end)
      (Some (1, O, O)).
  (** mnt4/298/ate_double_miller_loop.hpp:60-132, mnt6/298/ate_double_miller_loop.hpp:60-134 (the same text) *)
  Definition pr_double_miller_loop (P1 : pr_g1_prec) (Q1 : pr_g2_prec) (P2 : pr_g1_prec) (Q2 : pr_g2_prec) : option GT :=
    match pr_double_miller_state P1 Q1 P2 Q2 with
    | None => None
    | Some (f, _, add_idx) =>
        if loop_neg then
          match nth_error (adds Q1) add_idx, nth_error (adds Q2) add_idx with
          | Some ac1, Some ac2 => Some (finv (f * pr_g_RQ P1 Q1 ac1 * pr_g_RQ P2 Q2 ac2))
          | _, _ => None
          end
        else Some f
    end.
End Proj.
Arguments mkR1 {K F}. Arguments rPX {K F}. Arguments rPY {K F}. Arguments rPX_twist {K F}. Arguments rPY_twist {K F}.
Arguments mkDbl {F}. Arguments c_H {F}. Arguments c_4C {F}. Arguments c_J {F}. Arguments c_L {F}.
Arguments mkAdd {F}. Arguments c_L1 {F}. Arguments c_RZ {F}.
Arguments mkR2 {F}. Arguments rQX {F}. Arguments rQY {F}. Arguments rQY2 {F}. Arguments rQX_over_twist {F}.
Arguments rQY_over_twist {F}. Arguments dbls {F}. Arguments adds {F}.
Arguments mkXP {F}. Arguments pX {F}. Arguments pY {F}. Arguments pZ {F}. Arguments pT {F}.

(** ** edwards<183> *)
Section Ed.
  Variables K F GT : FieldOps.
  Variable smul : K -> F -> F.
  Variable mkgt : F -> F -> GT.
  Variable squared : GT -> GT.
  (** g2_type::value_type::mul_by_a *)
  Variable mul_by_a : F -> F.
  Variable loop_count : N.
  Variable max_bits : nat.

  (** detail/edwards/183/types.hpp *)
  Record ed_g1_prec := mkE1 { P_XY : K; P_XZ : K; P_ZZplusYZ : K }.
  (** detail/edwards/183/types.hpp:52-62, 64-73 *)
  Record conic := mkConic { c_ZZ : F; c_XY : F; c_XZ : F }.
  (** edwards/183/ate_precompute_g1.hpp:52-63, after P.to_affine() *)
  Definition ed_precompute_g1 (Pcopy : te_affine K) : ed_g1_prec :=
    mkE1 (Edwards.eX Pcopy * Edwards.eY Pcopy) (Edwards.eX Pcopy) (1 + Edwards.eY Pcopy).
  (** edwards/183/ate_precompute_g2.hpp:64-96 *)
  Definition ed_doubling_step (current : ext_proj F) : ext_proj F * conic :=
    let X := pX current in let Y := pY current in let Z := pZ current in let T := pT current in
    let A := X * X in
    let B := Y * Y in
    let C := Z * Z in
    let D := (X + Y) * (X + Y) in
    let E := (Y + Z) * (Y + Z) in
    let F' := D - (A + B) in
    let G := E - (B + C) in
    let H := mul_by_a A in
    let I := H + B in
    let J := C - I in
    let K' := J + C in
    let czz := Y * (T - X) in
    let cxy := C - mul_by_a A - B in
    let cxz := mul_by_a (X * T) - B in
    (mkXP (F' * K') (I * (B - H)) (I * K') (F' * (B - H)),
     mkConic (czz + czz) (cxy + cxy + G) (cxz + cxz)).
  (** 98-129 (not called) *)
  Definition ed_full_addition_step (base current : ext_proj F) : ext_proj F * conic :=
    let X1 := pX current in let Y1 := pY current in let Z1 := pZ current in let T1 := pT current in
    let X2 := pX base in let Y2 := pY base in let Z2 := pZ base in let T2 := pT base in
    let A := X1 * X2 in
    let B := Y1 * Y2 in
    let C := Z1 * T2 in
    let D := T1 * Z2 in
    let E := D + C in
    let F' := (X1 - Y1) * (X2 + Y2) + B - A in
    let G := B + mul_by_a A in
    let H := D - C in
    let I := T1 * T2 in
    (mkXP (E * F') (G * H) (F' * G) (E * H),
     mkConic (mul_by_a ((T1 - X1) * (T2 + X2) - I + A)) (X1 * Z2 - X2 * Z1 + F') ((Y1 - T1) * (Y2 + T2) - B + I - H)).
  (** 131-160 *)
  Definition ed_mixed_addition_step (base current : ext_proj F) : ext_proj F * conic :=
    let X1 := pX current in let Y1 := pY current in let Z1 := pZ current in let T1 := pT current in
    let X2 := pX base in let Y2 := pY base in let T2 := pT base in
    let A := X1 * X2 in
    let B := Y1 * Y2 in
    let C := Z1 * T2 in
    let E := T1 + C in
    let F' := (X1 - Y1) * (X2 + Y2) + B - A in
    let G := B + mul_by_a A in
    let H := T1 - C in
    let I := T1 * T2 in
    (mkXP (E * F') (G * H) (F' * G) (E * H),
     mkConic (mul_by_a ((T1 - X1) * (T2 + X2) - I + A)) (X1 - X2 * Z1 + F') ((Y1 - T1) * (Y2 + T2) - B + I - H)).
  (** 165-198; [Qcopy] is Q.to_affine(), an object of the same class with members X, Y, Z *)
  Definition ed_g2_loop (Q_ext : ext_proj F) (st : ext_proj F * list conic) : ext_proj F * list conic :=
    bit_loop max_bits loop_count
      (fun bit '(R, cs) =>
         let '(R, cc) := ed_doubling_step R in
         let cs := cs ++ [cc] in
         if bit : bool then
           let '(R, cc) := ed_mixed_addition_step Q_ext R in (R, cs ++ [cc])
         else (R, cs))
      st.
  (** 165-198; [Qcopy] is Q.to_affine(), an object of the same class with members X, Y, Z *)
  Definition ed_precompute_g2 (Qcopy : inverted F) : list conic :=
    let Q_ext := mkXP (iX Qcopy) (iY Qcopy) (iZ Qcopy) (iX Qcopy * iY Qcopy) in
    snd (ed_g2_loop Q_ext (Q_ext, [])).
  (** edwards/183/ate_miller_loop.hpp:76-77, 81-82 *)
  Definition ed_g_RR (P : ed_g1_prec) (cc : conic) : GT :=
    mkgt (smul (P_XY P) (c_XY cc) + smul (P_XZ P) (c_XZ cc)) (smul (P_ZZplusYZ P) (c_ZZ cc)).
  (** edwards/183/ate_miller_loop.hpp:76-77, 81-82 *)
  Definition ed_g_RQ (P : ed_g1_prec) (cc : conic) : GT :=
    mkgt (smul (P_ZZplusYZ P) (c_ZZ cc)) (smul (P_XY P) (c_XY cc) + smul (P_XZ P) (c_XZ cc)).
  (** edwards/183/ate_miller_loop.hpp:53-88 on (f, idx) *)
  Definition ed_miller_state (P : ed_g1_prec) (Q : list conic) : option (GT * nat) :=
    bit_loop max_bits loop_count
      (fun bit st =>
         match st with
         | None => None
         | Some (f, idx) =>
             match nth_error Q idx with
             | None => None
             | Some cc =>
                 let idx := S idx in
                 let f := squared f * ed_g_RR P cc in
                 if bit : bool then
                   match nth_error Q idx with
                   | None => None
                   | Some cc => Some (f * ed_g_RQ P cc, S idx)
                   end
                 else Some (f, idx)
             end
         end)
      (Some (1, O)).
  (** edwards/183/ate_miller_loop.hpp:53-88 on (f, idx) *)
  Definition ed_miller_loop (P : ed_g1_prec) (Q : list conic) : option GT := option_map fst (ed_miller_state P Q).
  (** edwards/183/ate_double_miller_loop.hpp:53-101 *)
  Definition ed_double_miller_loop (P1 : ed_g1_prec) (Q1 : list conic) (P2 : ed_g1_prec) (Q2 : list conic) : option GT :=
    option_map fst (bit_loop max_bits loop_count
      (fun bit st =>
         match st with
         | None => None
         | Some (f, idx) =>
             match nth_error Q1 idx, nth_error Q2 idx with
             | Some cc1, Some cc2 =>
                 let idx := S idx in
                 let f := squared f * ed_g_RR P1 cc1 * ed_g_RR P2 cc2 in
                 if bit : bool then
                   match nth_error Q1 idx, nth_error Q2 idx with
                   | Some cc1, Some cc2 => Some (f * ed_g_RQ P1 cc1 * ed_g_RQ P2 cc2, S idx)
                   | _, _ => None
                   end
                 else Some (f, idx)
             | _, _ => None
             end
         end)
      (Some (1, O))).
End Ed.
Arguments mkE1 {K}. Arguments P_XY {K}. Arguments P_XZ {K}. Arguments P_ZZplusYZ {K}.
Arguments mkConic {F}. Arguments c_ZZ {F}. Arguments c_XY {F}. Arguments c_XZ {F}.

(** ** The shipped instances.  [std] is the build option STANDARD_EC_INF_POINTS: zero_fill is
    (0, 1) when it is set and (0, 0) otherwise; the mnt6 groups use (0, 1) in either case
    (curves/detail/{bls12/381,mnt4/298,mnt6/298}/short_weierstrass_params.hpp). *)
Definition zero_fill_y (K : FieldOps) (std : bool) : K := if std then 1 else 0.

(** A/pairing/bls12.hpp, A/pairing/detail/bls12/381/params.hpp; pair and pair_reduced are
    A/algorithms/pair.hpp:80-88 and 91-101 *)
Definition bls12_381_max_bits : nat := 381.
(** operator squared() of the target field class, Fp12.v, Fp4.v, Fp6_2over3.v; used at detail/forms/short_weierstrass/jacobian_with_a4_0/ate_miller_loop.hpp:49-89 *)
Definition bls12_381_squared : t12_Fp12 bls12_381_tower -> t12_Fp12 bls12_381_tower :=
  fp12_sqr (t12_Fp2 bls12_381_tower) (fp2_sqr (Zp (t12_p bls12_381_tower)) (tozp _ (t12_nr2 bls12_381_tower)))
    (lit2 _ (t12_xi6 bls12_381_tower)) (lit2 _ (t12_xi12 bls12_381_tower)).
(** fp12_2over3over2.hpp:286 mul_by_045 (Fp12.v); used at detail/forms/short_weierstrass/jacobian_with_a4_0/ate_miller_loop.hpp:49-89 *)
Definition bls12_381_mul_by_045 : t12_Fp12 bls12_381_tower -> t12_Fp2 bls12_381_tower -> t12_Fp2 bls12_381_tower ->
    t12_Fp2 bls12_381_tower -> t12_Fp12 bls12_381_tower :=
  fp12_mul_by_045 (t12_Fp2 bls12_381_tower) (fp2_sqr (Zp (t12_p bls12_381_tower)) (tozp _ (t12_nr2 bls12_381_tower)))
    (lit2 _ (t12_xi6 bls12_381_tower)) (lit2 _ (t12_xi12 bls12_381_tower)).
(** detail/bls12/381/params.hpp:61-65 *)
Definition bls12_381_twist : t12_Fp2 bls12_381_tower := lit2 (t12_p bls12_381_tower) bls12_381_g2_twist.
(** operator* of the twist field with a base field element, Fp2.v and Fp3.v; used at detail/forms/short_weierstrass/jacobian_with_a4_0/ate_miller_loop.hpp:49-89 *)
Definition bls12_381_smul : Zp (t12_p bls12_381_tower) -> t12_Fp2 bls12_381_tower -> t12_Fp2 bls12_381_tower :=
  fp2_smul (Zp (t12_p bls12_381_tower)).
(** A/algorithms/pair.hpp:57-62, A/pairing/bls12.hpp:50 *)
Definition bls12_381_precompute_g1 (std : bool) : triple (Zp (t12_p bls12_381_tower)) -> a40_g1_prec (Zp (t12_p bls12_381_tower)) :=
  a40_precompute_g1 (Zp (t12_p bls12_381_tower)) 0 (zero_fill_y _ std).
(** A/algorithms/pair.hpp:64-69, A/pairing/bls12.hpp:51 *)
Definition bls12_381_precompute_g2 (std : bool) : triple (t12_Fp2 bls12_381_tower) -> a40_g2_prec (t12_Fp2 bls12_381_tower) :=
  a40_precompute_g2 (Zp (t12_p bls12_381_tower)) (t12_Fp2 bls12_381_tower) bls12_381_smul bls12_381_twist bls12_381_g2_b
    bls12_381_ate_loop_count bls12_381_max_bits 0 (zero_fill_y _ std).
(** A/algorithms/pair.hpp:120-126, A/pairing/bls12.hpp:52 *)
Definition bls12_381_miller_loop : a40_g1_prec (Zp (t12_p bls12_381_tower)) -> a40_g2_prec (t12_Fp2 bls12_381_tower) ->
    option (t12_Fp12 bls12_381_tower) :=
  a40_miller_loop _ _ _ bls12_381_smul bls12_381_squared bls12_381_mul_by_045 bls12_381_ate_loop_count
    bls12_381_ate_is_loop_count_neg bls12_381_max_bits.
(** A/algorithms/pair.hpp:103-111, A/pairing/bls12.hpp:53 *)
Definition bls12_381_double_miller_loop : a40_g1_prec (Zp (t12_p bls12_381_tower)) -> a40_g2_prec (t12_Fp2 bls12_381_tower) ->
    a40_g1_prec (Zp (t12_p bls12_381_tower)) -> a40_g2_prec (t12_Fp2 bls12_381_tower) -> option (t12_Fp12 bls12_381_tower) :=
  a40_double_miller_loop _ _ _ bls12_381_smul bls12_381_squared bls12_381_mul_by_045 bls12_381_ate_loop_count
    bls12_381_ate_is_loop_count_neg bls12_381_max_bits.
(** A/algorithms/pair.hpp:80-88 *)
Definition bls12_381_pair (std : bool) (P : triple (Zp (t12_p bls12_381_tower))) (Q : triple (t12_Fp2 bls12_381_tower))
    : option (t12_Fp12 bls12_381_tower) :=
  bls12_381_miller_loop (bls12_381_precompute_g1 std P) (bls12_381_precompute_g2 std Q).
(** A/algorithms/pair.hpp:91-101 *)
Definition bls12_381_pair_reduced (std : bool) (P : triple (Zp (t12_p bls12_381_tower))) (Q : triple (t12_Fp2 bls12_381_tower))
    : option (t12_Fp12 bls12_381_tower) :=
  option_map bls12_381_final_exponentiation (bls12_381_pair std P Q).

(** A/pairing/mnt4.hpp, detail/mnt4/298/params.hpp; twist = (0, 1) *)
Definition mnt_max_bits : nat := 298.
(** operator squared() of the target field class, Fp12.v, Fp4.v, Fp6_2over3.v; used at detail/mnt4/298/ate_miller_loop.hpp:60-106 *)
Definition mnt4_squared : t4_Fp4 mnt4_tower -> t4_Fp4 mnt4_tower :=
  fp4_sqr (Zp (t4_p mnt4_tower)) (tozp _ (t4_nr2 mnt4_tower)) (tozp _ (t4_nr4 mnt4_tower)).
(** detail/mnt4/298/params.hpp:64-71 *)
Definition mnt4_twist : t4_Fp2 mnt4_tower := mkq (0 : Zp (t4_p mnt4_tower)) 1.
(** operator* of the twist field with a base field element, Fp2.v and Fp3.v; used at detail/mnt4/298/ate_miller_loop.hpp:60-106 *)
Definition mnt4_smul : Zp (t4_p mnt4_tower) -> t4_Fp2 mnt4_tower -> t4_Fp2 mnt4_tower := fp2_smul (Zp (t4_p mnt4_tower)).
(** constructor of the twist field class from a base field element; used at detail/mnt4/298/ate_miller_loop.hpp:60-106 *)
Definition mnt4_of_base (x : Zp (t4_p mnt4_tower)) : t4_Fp2 mnt4_tower := mkq x 0.
(** constructor of the target field class from two components; used at detail/mnt4/298/ate_miller_loop.hpp:60-106 *)
Definition mnt4_gt (x y : t4_Fp2 mnt4_tower) : t4_Fp4 mnt4_tower := mkq x y.
(** A/algorithms/pair.hpp:57-62, A/pairing/mnt4.hpp:50 *)
Definition mnt4_precompute_g1 (std : bool) : triple (Zp (t4_p mnt4_tower)) -> pr_g1_prec (Zp (t4_p mnt4_tower)) (t4_Fp2 mnt4_tower) :=
  pr_precompute_g1 _ _ mnt4_smul mnt4_twist 0 (zero_fill_y _ std).
(** A/algorithms/pair.hpp:64-69, A/pairing/mnt4.hpp:51 *)
Definition mnt4_precompute_g2 (std : bool) : triple (t4_Fp2 mnt4_tower) -> pr_g2_prec (t4_Fp2 mnt4_tower) :=
  pr_precompute_g2 _ _ mnt4_smul mnt4_twist mnt4_g2_a mnt4_ate_loop_count mnt4_ate_is_loop_count_neg mnt_max_bits
    0 (zero_fill_y _ std).
(** A/algorithms/pair.hpp:120-126, A/pairing/mnt4.hpp:52 *)
Definition mnt4_miller_loop : pr_g1_prec (Zp (t4_p mnt4_tower)) (t4_Fp2 mnt4_tower) -> pr_g2_prec (t4_Fp2 mnt4_tower) ->
    option (t4_Fp4 mnt4_tower) :=
  pr_miller_loop _ _ _ mnt4_of_base mnt4_gt mnt4_squared mnt4_ate_loop_count mnt4_ate_is_loop_count_neg mnt_max_bits
    (pr_g_RR _ _ _ mnt4_gt).
(** A/algorithms/pair.hpp:103-111, A/pairing/mnt4.hpp:53 *)
Definition mnt4_double_miller_loop : pr_g1_prec (Zp (t4_p mnt4_tower)) (t4_Fp2 mnt4_tower) -> pr_g2_prec (t4_Fp2 mnt4_tower) ->
    pr_g1_prec (Zp (t4_p mnt4_tower)) (t4_Fp2 mnt4_tower) -> pr_g2_prec (t4_Fp2 mnt4_tower) -> option (t4_Fp4 mnt4_tower) :=
  pr_double_miller_loop _ _ _ mnt4_of_base mnt4_gt mnt4_squared mnt4_ate_loop_count mnt4_ate_is_loop_count_neg mnt_max_bits.
(** A/algorithms/pair.hpp:80-88 *)
Definition mnt4_pair (std : bool) (P : triple (Zp (t4_p mnt4_tower))) (Q : triple (t4_Fp2 mnt4_tower)) : option (t4_Fp4 mnt4_tower) :=
  mnt4_miller_loop (mnt4_precompute_g1 std P) (mnt4_precompute_g2 std Q).
(** A/algorithms/pair.hpp:91-101 *)
Definition mnt4_pair_reduced (find_wnaf : nat -> N -> list Z) (std : bool) (P : triple (Zp (t4_p mnt4_tower)))
    (Q : triple (t4_Fp2 mnt4_tower)) : option (t4_Fp4 mnt4_tower) :=
  option_map (mnt4_298_final_exponentiation find_wnaf) (mnt4_pair std P Q).

(** A/pairing/mnt6.hpp, detail/mnt6/298/params.hpp; twist = (0, 1, 0) *)
Definition mnt6_squared : t6_Fp6 mnt6_tower -> t6_Fp6 mnt6_tower :=
  fp6t_sqr (Zp (t6_p mnt6_tower)) (tozp _ (t6_nr3 mnt6_tower)) (tozp _ (t6_nr6 mnt6_tower)).
(** detail/mnt6/298/params.hpp:64-72 *)
Definition mnt6_twist : t6_Fp3 mnt6_tower := mkc (0 : Zp (t6_p mnt6_tower)) 1 0.
(** operator* of the twist field with a base field element, Fp2.v and Fp3.v; used at detail/mnt6/298/ate_miller_loop.hpp:60-118 *)
Definition mnt6_smul : Zp (t6_p mnt6_tower) -> t6_Fp3 mnt6_tower -> t6_Fp3 mnt6_tower := fp3_smul (Zp (t6_p mnt6_tower)).
(** constructor of the twist field class from a base field element; used at detail/mnt6/298/ate_miller_loop.hpp:60-118 *)
Definition mnt6_of_base (x : Zp (t6_p mnt6_tower)) : t6_Fp3 mnt6_tower := mkc x 0 0.
(** constructor of the target field class from two components; used at detail/mnt6/298/ate_miller_loop.hpp:60-118 *)
Definition mnt6_gt (x y : t6_Fp3 mnt6_tower) : t6_Fp6 mnt6_tower := mkq x y.
(** A/algorithms/pair.hpp:57-62, A/pairing/mnt6.hpp:50 *)
Definition mnt6_precompute_g1 : triple (Zp (t6_p mnt6_tower)) -> pr_g1_prec (Zp (t6_p mnt6_tower)) (t6_Fp3 mnt6_tower) :=
  pr_precompute_g1 _ _ mnt6_smul mnt6_twist 0 1.
(** A/algorithms/pair.hpp:64-69, A/pairing/mnt6.hpp:51 *)
Definition mnt6_precompute_g2 : triple (t6_Fp3 mnt6_tower) -> pr_g2_prec (t6_Fp3 mnt6_tower) :=
  pr_precompute_g2 _ _ mnt6_smul mnt6_twist mnt6_g2_a mnt6_ate_loop_count mnt6_ate_is_loop_count_neg mnt_max_bits 0 1.
(** A/algorithms/pair.hpp:120-126, A/pairing/mnt6.hpp:52 *)
Definition mnt6_miller_loop : pr_g1_prec (Zp (t6_p mnt6_tower)) (t6_Fp3 mnt6_tower) -> pr_g2_prec (t6_Fp3 mnt6_tower) ->
    option (t6_Fp6 mnt6_tower) :=
  pr_miller_loop _ _ _ mnt6_of_base mnt6_gt mnt6_squared mnt6_ate_loop_count mnt6_ate_is_loop_count_neg mnt_max_bits
    (pr_g_RR' _ _ _ mnt6_gt).
(** A/algorithms/pair.hpp:103-111, A/pairing/mnt6.hpp:53 *)
Definition mnt6_double_miller_loop : pr_g1_prec (Zp (t6_p mnt6_tower)) (t6_Fp3 mnt6_tower) -> pr_g2_prec (t6_Fp3 mnt6_tower) ->
    pr_g1_prec (Zp (t6_p mnt6_tower)) (t6_Fp3 mnt6_tower) -> pr_g2_prec (t6_Fp3 mnt6_tower) -> option (t6_Fp6 mnt6_tower) :=
  pr_double_miller_loop _ _ _ mnt6_of_base mnt6_gt mnt6_squared mnt6_ate_loop_count mnt6_ate_is_loop_count_neg mnt_max_bits.
(** A/algorithms/pair.hpp:80-88 *)
Definition mnt6_pair (P : triple (Zp (t6_p mnt6_tower))) (Q : triple (t6_Fp3 mnt6_tower)) : option (t6_Fp6 mnt6_tower) :=
  mnt6_miller_loop (mnt6_precompute_g1 P) (mnt6_precompute_g2 Q).
(** A/algorithms/pair.hpp:91-101 *)
Definition mnt6_pair_reduced (find_wnaf : nat -> N -> list Z) (P : triple (Zp (t6_p mnt6_tower)))
    (Q : triple (t6_Fp3 mnt6_tower)) : option (t6_Fp6 mnt6_tower) :=
  option_map (mnt6_298_final_exponentiation find_wnaf) (mnt6_pair P Q).

(** A/pairing/edwards.hpp, detail/edwards/183/params.hpp *)
Definition edwards_max_bits : nat := 183.
(** operator squared() of the target field class, Fp12.v, Fp4.v, Fp6_2over3.v; used at detail/edwards/183/ate_miller_loop.hpp:53-88 *)
Definition edwards_squared : t6_Fp6 edwards_tower -> t6_Fp6 edwards_tower :=
  fp6t_sqr (Zp (t6_p edwards_tower)) (tozp _ (t6_nr3 edwards_tower)) (tozp _ (t6_nr6 edwards_tower)).
(** operator* of the twist field with a base field element, Fp2.v and Fp3.v; used at detail/edwards/183/ate_miller_loop.hpp:53-88 *)
Definition edwards_smul : Zp (t6_p edwards_tower) -> t6_Fp3 edwards_tower -> t6_Fp3 edwards_tower := fp3_smul (Zp (t6_p edwards_tower)).
(** constructor of the target field class from two components; used at detail/edwards/183/ate_miller_loop.hpp:53-88 *)
Definition edwards_gt (x y : t6_Fp3 edwards_tower) : t6_Fp6 edwards_tower := mkq x y.
(** the coefficient product of detail/edwards/183/ate_miller_loop.hpp:53-88 *)
Definition edwards_mul_by_a : t6_Fp3 edwards_tower -> t6_Fp3 edwards_tower :=
  eg2_mul_by_a (Zp (t6_p edwards_tower)) (tozp _ (t6_nr3 edwards_tower)) (tozp _ edwards_183_a).
(** ate_precompute_g1.hpp:50-63 and ate_precompute_g2.hpp:162-200 from the points as stored (g1 and
    g2 are in inverted coordinates); zero_fill of g1, edwards/183/edwards_params.hpp:61-67, depends on [std].
    The loop count is positive and the code has no branch for a negative one. *)
Definition edwards_precompute_g1 (std : bool) (P : inverted (Zp (t6_p edwards_tower))) : ed_g1_prec (Zp (t6_p edwards_tower)) :=
  ed_precompute_g1 _ (inv_to_affine (Zp (t6_p edwards_tower)) 0 (zero_fill_y _ std) P).
(** A/algorithms/pair.hpp:64-69, A/pairing/edwards.hpp:48 *)
Definition edwards_precompute_g2 (Q : inverted (t6_Fp3 edwards_tower)) : list (conic (t6_Fp3 edwards_tower)) :=
  ed_precompute_g2 _ edwards_mul_by_a edwards_ate_loop_count edwards_max_bits
    (eg2_to_affine (Zp (t6_p edwards_tower)) (tozp _ (t6_nr3 edwards_tower)) Q).
(** A/algorithms/pair.hpp:120-126, A/pairing/edwards.hpp:49 *)
Definition edwards_miller_loop : ed_g1_prec (Zp (t6_p edwards_tower)) -> list (conic (t6_Fp3 edwards_tower)) -> option (t6_Fp6 edwards_tower) :=
  ed_miller_loop _ _ _ edwards_smul edwards_gt edwards_squared edwards_ate_loop_count edwards_max_bits.
(** A/algorithms/pair.hpp:103-111, A/pairing/edwards.hpp:50 *)
Definition edwards_double_miller_loop : ed_g1_prec (Zp (t6_p edwards_tower)) -> list (conic (t6_Fp3 edwards_tower)) ->
    ed_g1_prec (Zp (t6_p edwards_tower)) -> list (conic (t6_Fp3 edwards_tower)) -> option (t6_Fp6 edwards_tower) :=
  ed_double_miller_loop _ _ _ edwards_smul edwards_gt edwards_squared edwards_ate_loop_count edwards_max_bits.
(** A/algorithms/pair.hpp:80-88 *)
Definition edwards_pair (std : bool) (P : inverted (Zp (t6_p edwards_tower))) (Q : inverted (t6_Fp3 edwards_tower)) : option (t6_Fp6 edwards_tower) :=
  edwards_miller_loop (edwards_precompute_g1 std P) (edwards_precompute_g2 Q).
(** A/algorithms/pair.hpp:91-101 *)
Definition edwards_pair_reduced (find_wnaf : nat -> N -> list Z) (std : bool) (P : inverted (Zp (t6_p edwards_tower)))
    (Q : inverted (t6_Fp3 edwards_tower)) : option (t6_Fp6 edwards_tower) :=
  option_map (edwards_183_final_exponentiation find_wnaf) (edwards_pair std P Q).
