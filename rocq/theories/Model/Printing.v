(** operator<< of the field and curve classes and of the precomputed pairing inputs
    (A = include/nil/crypto3/algebra).  A stream is the string written to it.  The modular number
    at the bottom ([os << elem.data]) is printed by the multiprecision library: the decimal digits
    of its residue, with the default flags of the stream. *)
From Coq Require Import ZArith NArith List String Ascii.
From Verif Require Import Base.Field Base.Zp Base.Ext Model.ShortWeierstrass Model.Edwards Model.Montgomery Model.Pairing.
Import ListNotations.
Local Open Scope string_scope.

(** decimal digits, most significant first *)
(** external: os << number, called at A/fields/detail/element/fp.hpp:262-265 *)
Fixpoint digits (fuel : nat) (n : N) (acc : string) : string :=
  match fuel with
  | O => acc
  | S fuel => let acc := String (ascii_of_N (48 + n mod 10)) acc in
              if N.eqb (n / 10) 0 then acc else digits fuel (n / 10) acc
  end.
(** external: os << number, called at A/fields/detail/element/fp.hpp:262-265 *)
Definition dec (n : N) : string := digits (S (N.size_nat n)) n "".

(** A/fields/detail/element/fp.hpp:262-265 *)
Definition show_fp {p : Z} (x : zp p) : string := dec (Z.to_N (zval x)).
(** fp2.hpp:336-339, fp4.hpp:277-280, fp6_2over3.hpp:342-345, fp12_2over3over2.hpp:525-528 *)
Definition show_quad {A : Type} (show : A -> string) (x : quad A) : string :=
  "[" ++ show (q0 x) ++ "," ++ show (q1 x) ++ "]".
(** fp3.hpp:291-294, fp6_3over2.hpp:288-291 *)
Definition show_cub {A : Type} (show : A -> string) (x : cub A) : string :=
  "[" ++ show (c0 x) ++ "," ++ show (c1 x) ++ "," ++ show (c2 x) ++ "]".

Section Curves.
  Variable K : FieldOps.
  Variable show : K -> string.
  (** A/curves/detail/forms/short_weierstrass/element_g1_affine.hpp:251-255 *)
  Definition show_affine (P : affine K) : string := "{""X"":" ++ show (aX P) ++ ",""Y"":" ++ show (aY P) ++ "}".
  (** twisted_edwards/element_g1_affine.hpp:391-395 *)
  Definition show_te_affine (P : te_affine K) : string := "{""X"":" ++ show (eX P) ++ ",""Y"":" ++ show (eY P) ++ "}".
  (** montgomery/element_g1_affine.hpp:405-409 *)
  Definition show_mont (P : mont K) : string := "{""X"":" ++ show (mX P) ++ ",""Y"":" ++ show (mY P) ++ "}".
  (** short_weierstrass/{projective:325-329, projective_with_a4_minus_3:307-311, jacobian:327-331}/element_g1.hpp;
      for projective the template at 333-337 loses overload resolution against this friend *)
  Definition show_triple (P : triple K) : string :=
    "{""X"":" ++ show (tX P) ++ ",""Y"":" ++ show (tY P) ++ ",""Z"":" ++ show (tZ P) ++ "}".
  (** short_weierstrass/{jacobian_with_a4_0:331-335, jacobian_with_a4_minus_3:335-339}/element_g1.hpp *)
  Definition show_jacobian_a4 (P : triple K) : string :=
    "{""X"":" ++ show (tX P) ++ ",Y"":" ++ show (tY P) ++ ",Z"":" ++ show (tZ P) ++ "}".
  (** edwards/inverted/element_g1.hpp:287-291, twisted_edwards/inverted/element_g1.hpp:302-306 *)
  Definition show_inverted (P : inverted K) : string :=
    "{""X"":" ++ show (iX P) ++ ",""Y"":" ++ show (iY P) ++ ",""Z"":" ++ show (iZ P) ++ "}".
  (** twisted_edwards/extended_with_a_minus_1/element_g1.hpp:308-313 *)
  Definition show_extended (P : extended K) : string :=
    "{""X"":" ++ show (xX P) ++ ",""Y"":" ++ show (xY P) ++ ",""T"":" ++ show (xT P) ++ ",""Z"":" ++ show (xZ P) ++ "}".
End Curves.

(** std::endl *)
(** as used in jacobian_with_a4_0/types.hpp:86-109 *)
Definition endl : string := String "010" "".
Section Precomputed.
  Variables K F : FieldOps.
  Variables (show : K -> string) (showF : F -> string).
  (** A/pairing/detail/forms/short_weierstrass/jacobian_with_a4_0/types.hpp:86-92 *)
  Definition show_a40_g1 (p : a40_g1_prec K) : string :=
    "{" ++ endl ++ """PX"":" ++ show (PX p) ++ "," ++ endl ++ """PY"":" ++ show (PY p) ++ "}".
  (** the loops at jacobian_with_a4_0/types.hpp:100-105 and projective/types.hpp:151-156, 158-163:
      inside the loop d != end always holds, so every item is followed by a comma *)
  Fixpoint show_items {A : Type} (show_item : A -> string) (l : list A) : string :=
    match l with [] => "" | d :: l => show_item d ++ "," ++ endl ++ show_items show_item l end.
  (** jacobian_with_a4_0/types.hpp:100-105 *)
  Definition show_ell (d : ell_coeffs F) : string :=
    "[" ++ showF (ell_0 d) ++ "," ++ showF (ell_VW d) ++ "," ++ showF (ell_VV d) ++ "]".
  (** 94-109 *)
  Definition show_a40_g2 (p : a40_g2_prec F) : string :=
    "{" ++ endl ++ """QX"":" ++ showF (QX p) ++ "," ++ endl ++ """QY"":" ++ showF (QY p) ++ "," ++ endl ++
    """coeffs"":[" ++ endl ++ show_items show_ell (coeffs p) ++ "]" ++ endl ++ "}".
  (** projective/types.hpp:132-140 *)
  Definition show_pr_g1 (p : pr_g1_prec K F) : string :=
    "{" ++ endl ++ """PX"":" ++ show (rPX p) ++ "," ++ endl ++ """PY"":" ++ show (rPY p) ++ "," ++ endl ++
    """PX_twist"":" ++ showF (rPX_twist p) ++ "," ++ endl ++ """PY_twist"":" ++ showF (rPY_twist p) ++ "}".
  (** projective/types.hpp:151-156 *)
  Definition show_dbl (d : dbl_coeffs F) : string :=
    "[" ++ showF (c_H d) ++ "," ++ showF (c_4C d) ++ "," ++ showF (c_J d) ++ "," ++ showF (c_L d) ++ "]".
  (** projective/types.hpp:158-163 *)
  Definition show_add (d : add_coeffs F) : string := "[" ++ showF (c_L1 d) ++ "," ++ showF (c_RZ d) ++ "]".
  (** 142-167 *)
  Definition show_pr_g2 (p : pr_g2_prec F) : string :=
    "{" ++ endl ++ """QX"":" ++ showF (rQX p) ++ "," ++ endl ++ """QY"":" ++ showF (rQY p) ++ "," ++ endl ++
    """QY2"":" ++ showF (rQY2 p) ++ "," ++ endl ++ """QX_over_twist"":" ++ showF (rQX_over_twist p) ++ "," ++ endl ++
    """QY_over_twist"":" ++ showF (rQY_over_twist p) ++ "," ++ endl ++
    """dbl_coeffs"":[" ++ endl ++ show_items show_dbl (dbls p) ++ "]," ++ endl ++
    """add_coeffs"":[" ++ endl ++ show_items show_add (adds p) ++ "]" ++ endl ++ "}".
End Precomputed.
