(** C11, C12: the cyclotomic subgroup.  The subgroup is stated by its order:
    x^(p^2+1) = 1 in Fp4, x^(p^2-p+1) = 1 in Fp6_2over3, x^(p^4-p^2+1) = 1 in Fp12. *)
From Coq Require Import ZArith NArith List Bool Lia Znumtheory.
From Verif Require Import Base.Field Base.Zp Base.Ext Spec.Digits Model.FieldParams Model.Shipped Model.Wnaf
  Proof.FiniteField Proof.Shipped Proof.ShippedTowers Proof.CycClasses Proof.Wnaf.
Import ListNotations.
Local Open Scope fld_scope.

Definition cyclotomic4 (p : Z) (F : FieldOps) (x : F) : Prop := fpow x (Z.to_N p ^ 2 + 1) = 1.
Definition cyclotomic6 (p : Z) (F : FieldOps) (x : F) : Prop := fpow x (Z.to_N p ^ 2 - Z.to_N p + 1) = 1.
Definition cyclotomic12 (p : Z) (F : FieldOps) (x : F) : Prop :=
  fpow x (Z.to_N p ^ 4 - Z.to_N p ^ 2 + 1) = 1.

(** ** C11 *)
Theorem C11_bls12_381 (x : t12_Fp12 bls12_381_tower) : cyclotomic12 bls12_base_field_381_modulus _ x ->
  x * t12_uinv _ x = 1 /\ t12_csq _ x = x * x.
Proof. intros H. destruct (t12_cyc _ bls381_p_prime bls381_field_check bls381_cyc_check x H) as (A & B & _). auto. Qed.
Print Assumptions C11_bls12_381.
Theorem C11_bls12_377 (x : t12_Fp12 bls12_377_tower) : cyclotomic12 bls12_base_field_377_modulus _ x ->
  x * t12_uinv _ x = 1 /\ t12_csq _ x = x * x.
Proof. intros H. destruct (t12_cyc _ bls377_p_prime bls377_field_check bls377_cyc_check x H) as (A & B & _). auto. Qed.
Print Assumptions C11_bls12_377.
Theorem C11_alt_bn128 (x : t12_Fp12 alt_bn128_tower) : cyclotomic12 alt_bn128_base_field_254_modulus _ x ->
  x * t12_uinv _ x = 1 /\ t12_csq _ x = x * x.
Proof. intros H. destruct (t12_cyc _ alt_bn_p_prime alt_bn_field_check alt_bn_cyc_check x H) as (A & B & _). auto. Qed.
Print Assumptions C11_alt_bn128.
Theorem C11_bn128 (x : t12_Fp12 bn128_tower) : cyclotomic12 bn128_base_field_254_modulus _ x ->
  x * t12_uinv _ x = 1 /\ t12_csq _ x = x * x.
Proof. intros H. destruct (t12_cyc _ bn_p_prime bn_field_check bn_cyc_check x H) as (A & B & _). auto. Qed.
Print Assumptions C11_bn128.
Theorem C11_mnt4 (x : t4_Fp4 mnt4_tower) : cyclotomic4 mnt4_base_field_298_modulus _ x ->
  x * t4_uinv _ x = 1 /\ t4_csq _ x = x * x.
Proof. intros H. destruct (t4_cyc _ mnt4_p_prime mnt4_field_check mnt4_cyc_check x H) as (A & B & _). auto. Qed.
Print Assumptions C11_mnt4.
Theorem C11_mnt6 (x : t6_Fp6 mnt6_tower) : cyclotomic6 mnt6_base_field_298_modulus _ x ->
  x * t6_uinv _ x = 1 /\ t6_csq _ x = x * x.
Proof. intros H. destruct (t6_cyc _ mnt6_p_prime mnt6_field_check mnt6_cyc_check x H) as (A & B & _). auto. Qed.
Print Assumptions C11_mnt6.
Theorem C11_edwards (x : t6_Fp6 edwards_tower) : cyclotomic6 edwards_base_field_183_modulus _ x ->
  x * t6_uinv _ x = 1 /\ t6_csq _ x = x * x.
Proof. intros H. destruct (t6_cyc _ edwards_p_prime edwards_field_check edwards_cyc_check x H) as (A & B & _). auto. Qed.
Print Assumptions C11_edwards.
(** outside the subgroup the shortcut differs from squaring *)
Theorem C11_outside_subgroup_refuted : exists x : t6_Fp6 edwards_tower, t6_csq _ x <> x * x.
Proof.
  exists (mkq (mkc (tozp _ 2) (tozp _ 0) (tozp _ 0)) (mkc (tozp _ 0) (tozp _ 0) (tozp _ 0)) : t6_Fp6 edwards_tower).
  intros H. apply (f_equal (fun z => zval (c0 (q0 z)))) in H. vm_compute in H. discriminate H.
Qed.
Print Assumptions C11_outside_subgroup_refuted.
(** members: every (p^12-1)/(p^4-p^2+1)-th power *)
Example C11_example (y : t12_Fp12 bls12_381_tower) : y <> 0 ->
  let p := Z.to_N bls12_base_field_381_modulus in
  cyclotomic12 bls12_base_field_381_modulus _ (fpow y ((p ^ 6 - 1) * (p ^ 2 + 1))).
Proof.
  intros Hy p. destruct (t12_fields _ bls381_p_prime bls381_field_check) as (_ & _ & C).
  assert (L := FF_field _ _ _ C). assert (R := FieldLaws_Ring _ L).
  unfold cyclotomic12. fold p. rewrite <- (fpow_mul _ R).
  assert (E : ((p ^ 6 - 1) * (p ^ 2 + 1) * (p ^ 4 - p ^ 2 + 1) = p ^ 12 - 1)%N) by (vm_compute; reflexivity).
  rewrite E. apply (FF_fermat _ _ _ C), Hy.
Qed.
Example C11_example_mnt4 : cyclotomic4 mnt4_base_field_298_modulus (t4_Fp4 mnt4_tower) (- (1)).
Proof.
  destruct (t4_fields _ mnt4_p_prime mnt4_field_check) as (_ & C).
  assert (R := FieldLaws_Ring _ (FF_field _ _ _ C)). unfold cyclotomic4.
  assert (E : (Z.to_N mnt4_base_field_298_modulus ^ 2 + 1 = 2 * ((Z.to_N mnt4_base_field_298_modulus ^ 2 + 1) / 2))%N)
    by (vm_compute; reflexivity).
  rewrite E, (fpow_mul _ R), (fpow_2 _ R).
  replace (- (1) * - (1) : t4_Fp4 mnt4_tower) with (1 : t4_Fp4 mnt4_tower); [apply (fpow_one _ R)|].
  vm_compute. reflexivity.
Qed.
Example C11_members_bls12_377 (y : t12_Fp12 bls12_377_tower) : y <> 0 ->
  let p := Z.to_N bls12_base_field_377_modulus in cyclotomic12 bls12_base_field_377_modulus _ (fpow y ((p ^ 6 - 1) * (p ^ 2 + 1))).
Proof.
  intros Hy p. destruct (t12_fields _ bls377_p_prime bls377_field_check) as (_ & _ & C). assert (R := FieldLaws_Ring _ (FF_field _ _ _ C)).
  unfold cyclotomic12. fold p. rewrite <- (fpow_mul _ R).
  assert (E : ((p ^ 6 - 1) * (p ^ 2 + 1) * (p ^ 4 - p ^ 2 + 1) = p ^ 12 - 1)%N) by (vm_compute; reflexivity).
  rewrite E. apply (FF_fermat _ _ _ C), Hy.
Qed.
Example C11_members_alt_bn128 (y : t12_Fp12 alt_bn128_tower) : y <> 0 ->
  let p := Z.to_N alt_bn128_base_field_254_modulus in cyclotomic12 alt_bn128_base_field_254_modulus _ (fpow y ((p ^ 6 - 1) * (p ^ 2 + 1))).
Proof.
  intros Hy p. destruct (t12_fields _ alt_bn_p_prime alt_bn_field_check) as (_ & _ & C). assert (R := FieldLaws_Ring _ (FF_field _ _ _ C)).
  unfold cyclotomic12. fold p. rewrite <- (fpow_mul _ R).
  assert (E : ((p ^ 6 - 1) * (p ^ 2 + 1) * (p ^ 4 - p ^ 2 + 1) = p ^ 12 - 1)%N) by (vm_compute; reflexivity).
  rewrite E. apply (FF_fermat _ _ _ C), Hy.
Qed.
Example C11_members_bn128 (y : t12_Fp12 bn128_tower) : y <> 0 ->
  let p := Z.to_N bn128_base_field_254_modulus in cyclotomic12 bn128_base_field_254_modulus _ (fpow y ((p ^ 6 - 1) * (p ^ 2 + 1))).
Proof.
  intros Hy p. destruct (t12_fields _ bn_p_prime bn_field_check) as (_ & _ & C). assert (R := FieldLaws_Ring _ (FF_field _ _ _ C)).
  unfold cyclotomic12. fold p. rewrite <- (fpow_mul _ R).
  assert (E : ((p ^ 6 - 1) * (p ^ 2 + 1) * (p ^ 4 - p ^ 2 + 1) = p ^ 12 - 1)%N) by (vm_compute; reflexivity).
  rewrite E. apply (FF_fermat _ _ _ C), Hy.
Qed.
Example C11_members_mnt4 (y : t4_Fp4 mnt4_tower) : y <> 0 ->
  cyclotomic4 mnt4_base_field_298_modulus _ (fpow y (Z.to_N mnt4_base_field_298_modulus ^ 2 - 1)).
Proof.
  intros Hy. destruct (t4_fields _ mnt4_p_prime mnt4_field_check) as (_ & C). assert (R := FieldLaws_Ring _ (FF_field _ _ _ C)).
  unfold cyclotomic4. set (p := Z.to_N mnt4_base_field_298_modulus). rewrite <- (fpow_mul _ R).
  assert (E : ((p ^ 2 - 1) * (p ^ 2 + 1) = p ^ 4 - 1)%N) by (vm_compute; reflexivity).
  rewrite E. apply (FF_fermat _ _ _ C), Hy.
Qed.
Example C11_members_mnt6 (y : t6_Fp6 mnt6_tower) : y <> 0 ->
  let p := Z.to_N mnt6_base_field_298_modulus in cyclotomic6 mnt6_base_field_298_modulus _ (fpow y ((p ^ 3 - 1) * (p + 1))).
Proof.
  intros Hy p. destruct (t6_fields _ mnt6_p_prime mnt6_field_check) as (_ & C). assert (R := FieldLaws_Ring _ (FF_field _ _ _ C)).
  unfold cyclotomic6. fold p. rewrite <- (fpow_mul _ R).
  assert (E : ((p ^ 3 - 1) * (p + 1) * (p ^ 2 - p + 1) = p ^ 6 - 1)%N) by (vm_compute; reflexivity).
  rewrite E. apply (FF_fermat _ _ _ C), Hy.
Qed.
Example C11_members_edwards (y : t6_Fp6 edwards_tower) : y <> 0 ->
  let p := Z.to_N edwards_base_field_183_modulus in cyclotomic6 edwards_base_field_183_modulus _ (fpow y ((p ^ 3 - 1) * (p + 1))).
Proof.
  intros Hy p. destruct (t6_fields _ edwards_p_prime edwards_field_check) as (_ & C). assert (R := FieldLaws_Ring _ (FF_field _ _ _ C)).
  unfold cyclotomic6. fold p. rewrite <- (fpow_mul _ R).
  assert (E : ((p ^ 3 - 1) * (p + 1) * (p ^ 2 - p + 1) = p ^ 6 - 1)%N) by (vm_compute; reflexivity).
  rewrite E. apply (FF_fermat _ _ _ C), Hy.
Qed.

(** ** C12 *)
Theorem C12_bls12_381 (x : t12_Fp12 bls12_381_tower) e : cyclotomic12 bls12_base_field_381_modulus _ x ->
  t12_cexp _ x e = fpow x e.
Proof. intros H. apply (t12_cyc _ bls381_p_prime bls381_field_check bls381_cyc_check x H). Qed.
Print Assumptions C12_bls12_381.
Theorem C12_bls12_377 (x : t12_Fp12 bls12_377_tower) e : cyclotomic12 bls12_base_field_377_modulus _ x ->
  t12_cexp _ x e = fpow x e.
Proof. intros H. apply (t12_cyc _ bls377_p_prime bls377_field_check bls377_cyc_check x H). Qed.
Print Assumptions C12_bls12_377.
Theorem C12_alt_bn128 (x : t12_Fp12 alt_bn128_tower) e : cyclotomic12 alt_bn128_base_field_254_modulus _ x ->
  t12_cexp _ x e = fpow x e.
Proof. intros H. apply (t12_cyc _ alt_bn_p_prime alt_bn_field_check alt_bn_cyc_check x H). Qed.
Print Assumptions C12_alt_bn128.
Theorem C12_bn128 (x : t12_Fp12 bn128_tower) e : cyclotomic12 bn128_base_field_254_modulus _ x ->
  t12_cexp _ x e = fpow x e.
Proof. intros H. apply (t12_cyc _ bn_p_prime bn_field_check bn_cyc_check x H). Qed.
Print Assumptions C12_bn128.
(** the signed-digit versions, for any recoding meeting the contract of find_wnaf *)
Theorem C12_mnt4 find_wnaf (x : t4_Fp4 mnt4_tower) e : wnaf_contract find_wnaf ->
  cyclotomic4 mnt4_base_field_298_modulus _ x -> t4_cexp _ find_wnaf x e = fpow x e.
Proof. intros W H. apply (t4_cyc _ mnt4_p_prime mnt4_field_check mnt4_cyc_check x H), W. Qed.
Print Assumptions C12_mnt4.
Theorem C12_mnt6 find_wnaf (x : t6_Fp6 mnt6_tower) e : wnaf_contract find_wnaf ->
  cyclotomic6 mnt6_base_field_298_modulus _ x -> t6_cexp _ find_wnaf x e = fpow x e.
Proof. intros W H. apply (t6_cyc _ mnt6_p_prime mnt6_field_check mnt6_cyc_check x H), W. Qed.
Print Assumptions C12_mnt6.
Theorem C12_edwards find_wnaf (x : t6_Fp6 edwards_tower) e : wnaf_contract find_wnaf ->
  cyclotomic6 edwards_base_field_183_modulus _ x -> t6_cexp _ find_wnaf x e = fpow x e.
Proof. intros W H. apply (t6_cyc _ edwards_p_prime edwards_field_check edwards_cyc_check x H), W. Qed.
Print Assumptions C12_edwards.
Example C12_example : wnaf_contract find_wnaf_ref /\ find_wnaf_ref 1 7 = [-1; 0; 0; 1]%Z
  /\ (t4_cexp mnt4_tower find_wnaf_ref (- (1)) 7 =? - (1)) = true.
Proof. split; [exact find_wnaf_ref_ok|]. split; vm_compute; reflexivity. Qed.
