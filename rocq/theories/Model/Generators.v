(** Coefficients and generators of the second groups (over Fp2 and Fp3), as the
    g2_params of A/curves/detail compute them from the constants of Model/CurveParams.v,
    and the edwards generators. *)
From Coq Require Import ZArith NArith List.
From Verif Require Import Base.Field Base.Zp Base.Ext Model.FieldParams Model.Fp2 Model.Fp3 Model.Shipped Model.CurveParams.
Import ListNotations.
Local Open Scope fld_scope.

(** fp2.hpp:61-70, one element per pair of literals *)
Definition lits2 (p : Z) (l : list Z) : quad (Zp p) * quad (Zp p) := (lit2 p l, lit2 p (skipn 2 l)).
(** fp3.hpp:59-75, one element per triple of literals *)
Definition lits3 (p : Z) (l : list Z) : cub (Zp p) * cub (Zp p) := (lit3 p l, lit3 p (skipn 3 l)).

(** alt_bn128/254/short_weierstrass_params.hpp:84-88, bls12/377:87-92: g1_b * twist.inversed() *)
Definition g2_b_inv (t : tower12) (b : Z) (twist : list Z) : t12_Fp2 t :=
  fp2_smul (Zp (t12_p t)) (tozp _ b) (@finv (t12_Fp2 t) (lit2 _ twist)).
(** bls12/381:84-89: g1_b * twist *)
Definition g2_b_mul (t : tower12) (b : Z) (twist : list Z) : t12_Fp2 t :=
  fp2_smul (Zp (t12_p t)) (tozp _ b) (lit2 _ twist).
(** alt_bn128/254/short_weierstrass_params.hpp:84-88 *)
Definition alt_bn128_g2_b := g2_b_inv alt_bn128_tower alt_bn128_254_b alt_bn128_254_g2_twist.
(** bls12/381/short_weierstrass_params.hpp:84-89 *)
Definition bls12_381_g2_b := g2_b_mul bls12_381_tower bls12_381_b bls12_381_g2_twist.
(** bls12/377/short_weierstrass_params.hpp:87-92 *)
Definition bls12_377_g2_b := g2_b_inv bls12_377_tower bls12_377_b bls12_377_g2_twist.

(** mnt4/298/short_weierstrass_params.hpp:88-98 *)
Definition mnt4_g2_a : t4_Fp2 mnt4_tower :=
  mkq (fmul (tozp _ mnt4_298_a : Zp (t4_p mnt4_tower)) (tozp _ mnt4_fp2_non_residue)) (0 : Zp (t4_p mnt4_tower)).
(** mnt4/298/short_weierstrass_params.hpp:88-98 *)
Definition mnt4_g2_b : t4_Fp2 mnt4_tower :=
  mkq (0 : Zp (t4_p mnt4_tower)) (fmul (tozp _ mnt4_298_b : Zp (t4_p mnt4_tower)) (tozp _ mnt4_fp2_non_residue)).
(** mnt6/298/short_weierstrass_params.hpp:85-97 *)
Definition mnt6_g2_a : t6_Fp3 mnt6_tower :=
  mkc (0 : Zp (t6_p mnt6_tower)) (0 : Zp (t6_p mnt6_tower)) (tozp _ mnt6_298_a : Zp (t6_p mnt6_tower)).
(** mnt6/298/short_weierstrass_params.hpp:85-97 *)
Definition mnt6_g2_b : t6_Fp3 mnt6_tower :=
  mkc (fmul (tozp _ mnt6_298_b : Zp (t6_p mnt6_tower)) (tozp _ mnt6_fp3_non_residue)) (0 : Zp (t6_p mnt6_tower)) (0 : Zp (t6_p mnt6_tower)).

(** edwards/183/edwards_params.hpp:70-78: one_fill = (Z/X, Z/Y) of inverted_one_fill *)
Definition inverted_one (K : FieldOps) (X Y Z : K) : K * K := (Z * finv X, Z * finv Y).
(** edwards/183/edwards_params.hpp:70-78: one_fill = (Z/X, Z/Y) of inverted_one_fill *)
Definition edwards_g1_one : Zp edwards_base_field_183_modulus * Zp edwards_base_field_183_modulus :=
  inverted_one (Zp _) (tozp _ (nth 0 edwards_183_g1_inverted_one 0%Z)) (tozp _ (nth 1 edwards_183_g1_inverted_one 0%Z))
    (tozp _ (nth 2 edwards_183_g1_inverted_one 0%Z)).
(** 93-100, 112-126: the coefficients c = g1_c * twist and d = g1_d * twist *)
Definition edwards_g2_a : t6_Fp3 edwards_tower :=
  fp3_smul (Zp (t6_p edwards_tower)) (tozp _ edwards_183_a) (lit3 _ edwards_183_g2_twist).
(** 93-100, 112-126: the coefficients c = g1_c * twist and d = g1_d * twist *)
Definition edwards_g2_d : t6_Fp3 edwards_tower :=
  fp3_smul (Zp (t6_p edwards_tower)) (tozp _ edwards_183_d) (lit3 _ edwards_183_g2_twist).
(** 93-100, 112-126: the coefficients c = g1_c * twist and d = g1_d * twist *)
Definition edwards_g2_one : t6_Fp3 edwards_tower * t6_Fp3 edwards_tower :=
  inverted_one (t6_Fp3 edwards_tower) (lit3 _ edwards_183_g2_inverted_one) (lit3 _ (skipn 3 edwards_183_g2_inverted_one))
    (lit3 _ (skipn 6 edwards_183_g2_inverted_one)).
