(** The shipped instances: prime fields and extension towers built from the
    constants of Model/FieldParams.v, as the type aliases in
    A/fields/{fp2,fp3,fp4,fp6_2over3,fp6_3over2,fp12_2over3over2}.hpp and
    A/fields/detail/extension_params/ do.  Integer literals become field
    elements by the element_fp constructors (fp.hpp:62-72: reduction mod p). *)
From Coq Require Import ZArith NArith List.
From Verif Require Import Base.Field Base.Zp Base.Ext Model.FieldParams
  Model.Fp2 Model.Fp3 Model.Fp4 Model.Fp6_2over3 Model.Fp6_3over2 Model.Fp12.
Import ListNotations.

(** fp.hpp:71-79 *)
Definition lits (p : Z) (l : list Z) : list (Zp p) := map (tozp p) l.
(** fp2.hpp:61-70 *)
Definition lit2 (p : Z) (l : list Z) : quad (Zp p) := mkq (tozp p (nth 0 l 0%Z)) (tozp p (nth 1 l 0%Z)).
(** fp3.hpp:59-75 *)
Definition lit3 (p : Z) (l : list Z) : cub (Zp p) :=
  mkc (tozp p (nth 0 l 0%Z)) (tozp p (nth 1 l 0%Z)) (tozp p (nth 2 l 0%Z)).

(** fp2 -> fp6_3over2 -> fp12_2over3over2 towers.  [xi6] is the non_residue of
    the fp6 parameters, [xi12] the one of the fp12 parameters. *)
(** the constants of A/fields/detail/extension_params/<curve>/fp2.hpp, fp6_3over2.hpp, fp12_2over3over2.hpp cited in FieldParams.v *)
Record tower12 := mkTower12 {
  t12_p : Z; t12_nr2 : Z; t12_xi6 : list Z; t12_xi12 : list Z;
  t12_fc2 : list Z; t12_fc61 : list Z; t12_fc62 : list Z; t12_fc12 : list Z }.
(** A/fields/detail/element/fp2.hpp:41 at the tower *)
Definition t12_Fp2 (t : tower12) : FieldOps := Fp2 (Zp (t12_p t)) (tozp _ (t12_nr2 t)).
(** A/fields/detail/element/fp6_3over2.hpp:39 at the tower *)
Definition t12_Fp6 (t : tower12) : FieldOps :=
  Fp6 (Fp2 (Zp (t12_p t)) (tozp _ (t12_nr2 t))) (fp2_sqr (Zp (t12_p t)) (tozp _ (t12_nr2 t)))
      (lit2 (t12_p t) (t12_xi6 t)).
(** A/fields/detail/element/fp12_2over3over2.hpp:42 at the tower *)
Definition t12_Fp12 (t : tower12) : FieldOps :=
  Fp12 (Fp2 (Zp (t12_p t)) (tozp _ (t12_nr2 t))) (fp2_sqr (Zp (t12_p t)) (tozp _ (t12_nr2 t)))
      (lit2 (t12_p t) (t12_xi6 t)) (lit2 (t12_p t) (t12_xi12 t)).
(** A/fields/detail/element/fp2.hpp:275-282 at the tower *)
Definition t12_frob2 (t : tower12) (x : t12_Fp2 t) (k : N) : t12_Fp2 t :=
  fp2_frob (Zp (t12_p t)) (lits _ (t12_fc2 t)) x k.
(** A/fields/detail/element/fp6_3over2.hpp:203-218 at the tower *)
Definition t12_frob6 (t : tower12) (x : t12_Fp6 t) (k : N) : t12_Fp6 t :=
  fp6_frob (Zp (t12_p t)) (tozp _ (t12_nr2 t)) (lits _ (t12_fc2 t)) (lits _ (t12_fc61 t)) (lits _ (t12_fc62 t)) x k.
(** A/fields/detail/element/fp12_2over3over2.hpp:178-187 at the tower *)
Definition t12_frob12 (t : tower12) (x : t12_Fp12 t) (k : N) : t12_Fp12 t :=
  fp12_frob (Zp (t12_p t)) (tozp _ (t12_nr2 t)) (lits _ (t12_fc2 t)) (lits _ (t12_fc61 t)) (lits _ (t12_fc62 t))
    (lits _ (t12_fc12 t)) x k.

(** A/fields/bls12, A/fields/detail/extension_params/bls12 *)
(** A/fields/detail/extension_params/bls12/{fp2,fp6_3over2,fp12_2over3over2}.hpp, the 381 specialisations *)
Definition bls12_381_tower : tower12 := mkTower12 bls12_base_field_381_modulus
  bls12_381_fp2_non_residue bls12_381_fp6_3over2_non_residue bls12_381_fp12_2over3over2_non_residue
  bls12_381_fp2_Frobenius_coeffs_c1 bls12_381_fp6_3over2_Frobenius_coeffs_c1
  bls12_381_fp6_3over2_Frobenius_coeffs_c2 bls12_381_fp12_2over3over2_Frobenius_coeffs_c1.
(** A/fields/detail/extension_params/bls12/{fp2,fp6_3over2,fp12_2over3over2}.hpp, the 377 specialisations *)
Definition bls12_377_tower : tower12 := mkTower12 bls12_base_field_377_modulus
  bls12_377_fp2_non_residue bls12_377_fp6_3over2_non_residue bls12_377_fp12_2over3over2_non_residue
  bls12_377_fp2_Frobenius_coeffs_c1 bls12_377_fp6_3over2_Frobenius_coeffs_c1
  bls12_377_fp6_3over2_Frobenius_coeffs_c2 bls12_377_fp12_2over3over2_Frobenius_coeffs_c1.
(** A/fields/alt_bn128, A/fields/detail/extension_params/alt_bn128 *)
(** A/fields/detail/extension_params/alt_bn128/{fp2,fp6_3over2,fp12_2over3over2}.hpp *)
Definition alt_bn128_tower : tower12 := mkTower12 alt_bn128_base_field_254_modulus
  alt_bn128_fp2_non_residue alt_bn128_fp6_3over2_non_residue alt_bn128_fp12_2over3over2_non_residue
  alt_bn128_fp2_Frobenius_coeffs_c1 alt_bn128_fp6_3over2_Frobenius_coeffs_c1
  alt_bn128_fp6_3over2_Frobenius_coeffs_c2 alt_bn128_fp12_2over3over2_Frobenius_coeffs_c1.
(** A/fields/bn128, A/fields/detail/extension_params/bn128 *)
(** A/fields/detail/extension_params/bn128/{fp2,fp6_3over2,fp12_2over3over2}.hpp *)
Definition bn128_tower : tower12 := mkTower12 bn128_base_field_254_modulus
  bn128_fp2_non_residue bn128_fp6_3over2_non_residue bn128_fp12_2over3over2_non_residue
  bn128_fp2_Frobenius_coeffs_c1 bn128_fp6_3over2_Frobenius_coeffs_c1
  bn128_fp6_3over2_Frobenius_coeffs_c2 bn128_fp12_2over3over2_Frobenius_coeffs_c1.

(** fp2 -> fp4 *)
(** the constants of A/fields/detail/extension_params/mnt4/fp2.hpp, fp4.hpp cited in FieldParams.v *)
Record tower4 := mkTower4 { t4_p : Z; t4_nr2 : Z; t4_nr4 : Z; t4_fc2 : list Z; t4_fc4 : list Z }.
(** A/fields/detail/element/fp2.hpp:41 at the tower *)
Definition t4_Fp2 (t : tower4) : FieldOps := Fp2 (Zp (t4_p t)) (tozp _ (t4_nr2 t)).
(** A/fields/detail/element/fp4.hpp:41 at the tower *)
Definition t4_Fp4 (t : tower4) : FieldOps := Fp4 (Zp (t4_p t)) (tozp _ (t4_nr2 t)) (tozp _ (t4_nr4 t)).
(** A/fields/detail/element/fp2.hpp:275-282 at the tower *)
Definition t4_frob2 (t : tower4) (x : t4_Fp2 t) (k : N) : t4_Fp2 t :=
  fp2_frob (Zp (t4_p t)) (lits _ (t4_fc2 t)) x k.
(** A/fields/detail/element/fp4.hpp:174-182 at the tower *)
Definition t4_frob4 (t : tower4) (x : t4_Fp4 t) (k : N) : t4_Fp4 t :=
  fp4_frob (Zp (t4_p t)) (tozp _ (t4_nr2 t)) (lits _ (t4_fc2 t)) (lits _ (t4_fc4 t)) x k.
(** A/fields/detail/extension_params/mnt4/{fp2,fp4}.hpp *)
Definition mnt4_tower : tower4 := mkTower4 mnt4_base_field_298_modulus
  mnt4_fp2_non_residue mnt4_fp4_non_residue mnt4_fp2_Frobenius_coeffs_c1 mnt4_fp4_Frobenius_coeffs_c1.

(** fp3 -> fp6_2over3 *)
(** the constants of A/fields/detail/extension_params/{mnt6,edwards}/fp3.hpp, fp6_2over3.hpp cited in FieldParams.v *)
Record tower6 := mkTower6 { t6_p : Z; t6_nr3 : Z; t6_nr6 : Z;
  t6_fc31 : list Z; t6_fc32 : list Z; t6_fc6 : list Z }.
(** A/fields/detail/element/fp3.hpp:39 at the tower *)
Definition t6_Fp3 (t : tower6) : FieldOps := Fp3 (Zp (t6_p t)) (tozp _ (t6_nr3 t)).
(** A/fields/detail/element/fp6_2over3.hpp:41 at the tower *)
Definition t6_Fp6 (t : tower6) : FieldOps := Fp6t (Zp (t6_p t)) (tozp _ (t6_nr3 t)) (tozp _ (t6_nr6 t)).
(** A/fields/detail/element/fp3.hpp:234-245 at the tower *)
Definition t6_frob3 (t : tower6) (x : t6_Fp3 t) (k : N) : t6_Fp3 t :=
  fp3_frob (Zp (t6_p t)) (lits _ (t6_fc31 t)) (lits _ (t6_fc32 t)) x k.
(** A/fields/detail/element/fp6_2over3.hpp:181-189 at the tower *)
Definition t6_frob6 (t : tower6) (x : t6_Fp6 t) (k : N) : t6_Fp6 t :=
  fp6t_frob (Zp (t6_p t)) (tozp _ (t6_nr3 t)) (lits _ (t6_fc31 t)) (lits _ (t6_fc32 t)) (lits _ (t6_fc6 t)) x k.
(** A/fields/detail/extension_params/mnt6/{fp3,fp6_2over3}.hpp *)
Definition mnt6_tower : tower6 := mkTower6 mnt6_base_field_298_modulus
  mnt6_fp3_non_residue mnt6_fp6_2over3_non_residue mnt6_fp3_Frobenius_coeffs_c1 mnt6_fp3_Frobenius_coeffs_c2
  mnt6_fp6_2over3_Frobenius_coeffs_c1.
(** A/fields/detail/extension_params/edwards/{fp3,fp6_2over3}.hpp *)
Definition edwards_tower : tower6 := mkTower6 edwards_base_field_183_modulus
  edwards_fp3_non_residue edwards_fp6_2over3_non_residue edwards_fp3_Frobenius_coeffs_c1 edwards_fp3_Frobenius_coeffs_c2
  edwards_fp6_2over3_Frobenius_coeffs_c1.

(** The cyclotomic operations of the shipped classes:
    fp12_2over3over2.hpp:189-283, fp6_2over3.hpp and fp4.hpp (see Model/Fp12.v,
    Model/Fp6_2over3.v, Model/Fp4.v).  [find_wnaf] is the recoding called by
    fp4.hpp and fp6_2over3.hpp. *)
Definition t12_uinv (t : tower12) (x : t12_Fp12 t) : t12_Fp12 t :=
  fp12_unitary_inversed (Fp2 (Zp (t12_p t)) (tozp _ (t12_nr2 t))) (fp2_sqr (Zp (t12_p t)) (tozp _ (t12_nr2 t)))
    (lit2 (t12_p t) (t12_xi6 t)) x.
(** A/fields/detail/element/fp12_2over3over2.hpp:193-260 *)
Definition t12_csq (t : tower12) (x : t12_Fp12 t) : t12_Fp12 t :=
  fp12_cyclotomic_squared (Fp2 (Zp (t12_p t)) (tozp _ (t12_nr2 t))) (fp2_sqr (Zp (t12_p t)) (tozp _ (t12_nr2 t)))
    (lit2 (t12_p t) (t12_xi6 t)) x.
(** A/fields/detail/element/fp12_2over3over2.hpp:263-283 *)
Definition t12_cexp (t : tower12) (x : t12_Fp12 t) (e : N) : t12_Fp12 t :=
  fp12_cyclotomic_exp (Fp2 (Zp (t12_p t)) (tozp _ (t12_nr2 t))) (fp2_sqr (Zp (t12_p t)) (tozp _ (t12_nr2 t)))
    (lit2 (t12_p t) (t12_xi6 t)) (lit2 (t12_p t) (t12_xi12 t)) x e.
(** A/fields/detail/element/fp6_2over3.hpp:191-193 *)
Definition t6_uinv (t : tower6) (x : t6_Fp6 t) : t6_Fp6 t := fp6t_unitary_inversed (Zp (t6_p t)) (tozp _ (t6_nr3 t)) x.
(** A/fields/detail/element/fp6_2over3.hpp:195-245 *)
Definition t6_csq (t : tower6) (x : t6_Fp6 t) : t6_Fp6 t :=
  fp6t_cyclotomic_squared (Zp (t6_p t)) (tozp _ (t6_nr3 t)) (tozp _ (t6_nr6 t)) x.
(** A/fields/detail/element/fp6_2over3.hpp:247-275 *)
Definition t6_cexp (t : tower6) (find_wnaf : nat -> N -> list Z) (x : t6_Fp6 t) (e : N) : t6_Fp6 t :=
  fp6t_cyclotomic_exp (Zp (t6_p t)) (tozp _ (t6_nr3 t)) (tozp _ (t6_nr6 t)) x (find_wnaf 1%nat e).
(** A/fields/detail/element/fp4.hpp:184-186 *)
Definition t4_uinv (t : tower4) (x : t4_Fp4 t) : t4_Fp4 t := fp4_unitary_inversed (Zp (t4_p t)) (tozp _ (t4_nr2 t)) x.
(** A/fields/detail/element/fp4.hpp:188-198 *)
Definition t4_csq (t : tower4) (x : t4_Fp4 t) : t4_Fp4 t :=
  fp4_cyclotomic_squared (Zp (t4_p t)) (tozp _ (t4_nr2 t)) (tozp _ (t4_nr4 t)) x.
(** A/fields/detail/element/fp4.hpp:200-225 *)
Definition t4_cexp (t : tower4) (find_wnaf : nat -> N -> list Z) (x : t4_Fp4 t) (e : N) : t4_Fp4 t :=
  fp4_cyclotomic_exp (Zp (t4_p t)) (tozp _ (t4_nr2 t)) (tozp _ (t4_nr4 t)) x (find_wnaf 1%nat e).
