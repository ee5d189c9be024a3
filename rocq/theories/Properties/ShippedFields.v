(** C09, C10: the shipped towers. *)
From Coq Require Import ZArith NArith List Bool Lia Znumtheory.
From Verif Require Import Base.Field Base.Zp Base.Ext Model.FieldParams Model.Shipped Model.Fp3 Model.Fp6_2over3
  Model.Fp2 Model.Power Proof.FiniteField Proof.Shipped Proof.ShippedTowers.
Import ListNotations.
Local Open Scope fld_scope.

(** ** C09.  [finv] of each class is the model of its inversed(). *)
Definition is_field (F : FieldOps) : Prop :=
  FieldLaws F /\ (1 : F) <> 0
  /\ (forall x : F, x <> 0 -> x * finv x = 1)
  /\ (forall x y : F, x * y = 0 -> x = 0 \/ y = 0).
Lemma FinField_is_field F p n : FinField F p n -> is_field F.
Proof.
  intros H. assert (L := FF_field _ _ _ H). split; [exact L|]. split; [exact (f1_neq_0 _ L)|]. split.
  - exact (finv_r _ L).
  - intros x y. apply (fmul_integral _ L).
Qed.
Theorem C09_bls12_381 :
  is_field (t12_Fp2 bls12_381_tower) /\ is_field (t12_Fp6 bls12_381_tower) /\ is_field (t12_Fp12 bls12_381_tower).
Proof.
  destruct (t12_fields _ bls381_p_prime bls381_field_check) as (A & B & C).
  eauto 6 using FinField_is_field.
Qed.
Theorem C09_bls12_377 :
  is_field (t12_Fp2 bls12_377_tower) /\ is_field (t12_Fp6 bls12_377_tower) /\ is_field (t12_Fp12 bls12_377_tower).
Proof.
  destruct (t12_fields _ bls377_p_prime bls377_field_check) as (A & B & C).
  eauto 6 using FinField_is_field.
Qed.
Theorem C09_alt_bn128 :
  is_field (t12_Fp2 alt_bn128_tower) /\ is_field (t12_Fp6 alt_bn128_tower) /\ is_field (t12_Fp12 alt_bn128_tower).
Proof.
  destruct (t12_fields _ alt_bn_p_prime alt_bn_field_check) as (A & B & C).
  eauto 6 using FinField_is_field.
Qed.
Theorem C09_bn128 :
  is_field (t12_Fp2 bn128_tower) /\ is_field (t12_Fp6 bn128_tower) /\ is_field (t12_Fp12 bn128_tower).
Proof.
  destruct (t12_fields _ bn_p_prime bn_field_check) as (A & B & C).
  eauto 6 using FinField_is_field.
Qed.
Theorem C09_mnt4 : is_field (t4_Fp2 mnt4_tower) /\ is_field (t4_Fp4 mnt4_tower).
Proof.
  destruct (t4_fields _ mnt4_p_prime mnt4_field_check) as (A & B). eauto 6 using FinField_is_field.
Qed.
Theorem C09_mnt6 : is_field (t6_Fp3 mnt6_tower) /\ is_field (t6_Fp6 mnt6_tower).
Proof.
  destruct (t6_fields _ mnt6_p_prime mnt6_field_check) as (A & B). eauto 6 using FinField_is_field.
Qed.
Theorem C09_edwards : is_field (t6_Fp3 edwards_tower) /\ is_field (t6_Fp6 edwards_tower).
Proof.
  destruct (t6_fields _ edwards_p_prime edwards_field_check) as (A & B). eauto 6 using FinField_is_field.
Qed.
(** the order of the multiplicative groups *)
Theorem C09_group_orders :
  (forall x : t12_Fp12 bls12_381_tower, x <> 0 -> fpow x (Z.to_N bls12_base_field_381_modulus ^ 12 - 1) = 1) /\
  (forall x : t12_Fp12 bls12_377_tower, x <> 0 -> fpow x (Z.to_N bls12_base_field_377_modulus ^ 12 - 1) = 1) /\
  (forall x : t12_Fp12 alt_bn128_tower, x <> 0 -> fpow x (Z.to_N alt_bn128_base_field_254_modulus ^ 12 - 1) = 1) /\
  (forall x : t4_Fp4 mnt4_tower, x <> 0 -> fpow x (Z.to_N mnt4_base_field_298_modulus ^ 4 - 1) = 1) /\
  (forall x : t6_Fp6 mnt6_tower, x <> 0 -> fpow x (Z.to_N mnt6_base_field_298_modulus ^ 6 - 1) = 1) /\
  (forall x : t6_Fp6 edwards_tower, x <> 0 -> fpow x (Z.to_N edwards_base_field_183_modulus ^ 6 - 1) = 1).
Proof.
  repeat split; intros x Hx.
  - apply (FF_fermat _ _ 12); [apply (t12_fields _ bls381_p_prime bls381_field_check)|exact Hx].
  - apply (FF_fermat _ _ 12); [apply (t12_fields _ bls377_p_prime bls377_field_check)|exact Hx].
  - apply (FF_fermat _ _ 12); [apply (t12_fields _ alt_bn_p_prime alt_bn_field_check)|exact Hx].
  - apply (FF_fermat _ _ 4); [apply (t4_fields _ mnt4_p_prime mnt4_field_check)|exact Hx].
  - apply (FF_fermat _ _ 6); [apply (t6_fields _ mnt6_p_prime mnt6_field_check)|exact Hx].
  - apply (FF_fermat _ _ 6); [apply (t6_fields _ edwards_p_prime edwards_field_check)|exact Hx].
Qed.
Example C09_example :
  let x : t4_Fp4 mnt4_tower := mkq (mkq (tozp _ 3) (tozp _ 1)) (mkq (tozp _ 4) (tozp _ 1)) in
  zval (q0 (q0 (x * finv x))) = 1%Z /\ zval (q1 (q1 (x * finv x))) = 0%Z.
Proof. vm_compute. split; reflexivity. Qed.

(** ** C10 *)
Theorem C10_bls12_381 :
  (forall (x : t12_Fp2 bls12_381_tower) k, t12_frob2 _ x k = fpow x (Z.to_N bls12_base_field_381_modulus ^ k)) /\
  (forall (x : t12_Fp6 bls12_381_tower) k, t12_frob6 _ x k = fpow x (Z.to_N bls12_base_field_381_modulus ^ k)) /\
  (forall (x : t12_Fp12 bls12_381_tower) k, t12_frob12 _ x k = fpow x (Z.to_N bls12_base_field_381_modulus ^ k)).
Proof. exact (t12_frobs _ bls381_p_prime bls381_field_check bls381_frob_check). Qed.
Theorem C10_bls12_377 :
  (forall (x : t12_Fp2 bls12_377_tower) k, t12_frob2 _ x k = fpow x (Z.to_N bls12_base_field_377_modulus ^ k)) /\
  (forall (x : t12_Fp6 bls12_377_tower) k, t12_frob6 _ x k = fpow x (Z.to_N bls12_base_field_377_modulus ^ k)) /\
  (forall (x : t12_Fp12 bls12_377_tower) k, t12_frob12 _ x k = fpow x (Z.to_N bls12_base_field_377_modulus ^ k)).
Proof. exact (t12_frobs _ bls377_p_prime bls377_field_check bls377_frob_check). Qed.
Theorem C10_alt_bn128 :
  (forall (x : t12_Fp2 alt_bn128_tower) k, t12_frob2 _ x k = fpow x (Z.to_N alt_bn128_base_field_254_modulus ^ k)) /\
  (forall (x : t12_Fp6 alt_bn128_tower) k, t12_frob6 _ x k = fpow x (Z.to_N alt_bn128_base_field_254_modulus ^ k)) /\
  (forall (x : t12_Fp12 alt_bn128_tower) k, t12_frob12 _ x k = fpow x (Z.to_N alt_bn128_base_field_254_modulus ^ k)).
Proof. exact (t12_frobs _ alt_bn_p_prime alt_bn_field_check alt_bn_frob_check). Qed.
Theorem C10_mnt4 :
  (forall (x : t4_Fp2 mnt4_tower) k, t4_frob2 _ x k = fpow x (Z.to_N mnt4_base_field_298_modulus ^ k)) /\
  (forall (x : t4_Fp4 mnt4_tower) k, t4_frob4 _ x k = fpow x (Z.to_N mnt4_base_field_298_modulus ^ k)).
Proof. exact (t4_frobs _ mnt4_p_prime mnt4_field_check mnt4_frob_check). Qed.
Theorem C10_edwards :
  (forall (x : t6_Fp3 edwards_tower) k, t6_frob3 _ x k = fpow x (Z.to_N edwards_base_field_183_modulus ^ k)) /\
  (forall (x : t6_Fp6 edwards_tower) k, t6_frob6 _ x k = fpow x (Z.to_N edwards_base_field_183_modulus ^ k)).
Proof.
  split; [exact (t3_frobs _ edwards_p_prime edwards_field_check edwards_frob3_check)
         |exact (t6_frobs _ edwards_p_prime edwards_field_check edwards_frob6_check)].
Qed.
Theorem C10_mnt6_fp3 (x : t6_Fp3 mnt6_tower) k : t6_frob3 _ x k = fpow x (Z.to_N mnt6_base_field_298_modulus ^ k).
Proof. exact (t3_frobs _ mnt6_p_prime mnt6_field_check mnt6_frob3_check x k). Qed.
(** mnt6 fp6_2over3: every k except those congruent to 5 mod 6 ... *)
Theorem C10_mnt6_fp6_partial (x : t6_Fp6 mnt6_tower) k : (k mod 6 <> 5)%N ->
  t6_frob6 _ x k = fpow x (Z.to_N mnt6_base_field_298_modulus ^ k).
Proof. intros Hk. rewrite (mnt6_agree x k Hk). apply mnt6_fixed_frob. Qed.
(** ... for which the shipped table is wrong (Frobenius_coeffs_c1[5] repeats [4]) *)
Theorem C10_mnt6_fp6_refuted : exists x : t6_Fp6 mnt6_tower,
  t6_frob6 _ x 5 <> fpow x (Z.to_N mnt6_base_field_298_modulus ^ 5).
Proof.
  exists (mkq (mkc (tozp _ 0) (tozp _ 0) (tozp _ 0)) (mkc (tozp _ 1) (tozp _ 0) (tozp _ 0)) : t6_Fp6 mnt6_tower).
  intros H.
  rewrite <- (mnt6_fixed_frob (mkq (mkc (tozp _ 0) (tozp _ 0) (tozp _ 0)) (mkc (tozp _ 1) (tozp _ 0) (tozp _ 0)))) in H.
  apply (f_equal (fun z => zval (c0 (q1 z)))) in H. vm_compute in H. discriminate H.
Qed.
(** bn128: all Frobenius coefficients are shipped as zero. *)
Theorem C10_bn128_refuted : exists x : t12_Fp2 bn128_tower,
  t12_frob2 _ x 0 <> fpow x (Z.to_N bn128_base_field_254_modulus ^ 0).
Proof.
  exists (mkq (tozp _ 0) (tozp _ 1) : t12_Fp2 bn128_tower). intros H.
  apply (f_equal (fun z => zval (q1 z))) in H. vm_compute in H. discriminate H.
Qed.
Example C10_example :
  let x : t4_Fp2 mnt4_tower := mkq (tozp _ 3) (tozp _ 1) in
  zval (q1 (t4_frob2 mnt4_tower x 1)) = (mnt4_base_field_298_modulus - 1)%Z.
Proof. vm_compute. reflexivity. Qed.
