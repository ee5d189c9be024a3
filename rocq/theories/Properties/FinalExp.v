(** C45, C46: the final exponentiations, for every non-zero f. *)
From Coq Require Import ZArith NArith List Bool Lia Znumtheory.
From Verif Require Import Base.Field Base.Zp Base.Ext Spec.Digits Model.FieldParams Model.Shipped Model.Wnaf Model.FinalExp
  Proof.FiniteField Proof.Shipped Proof.ShippedTowers Proof.CycClasses Proof.FinalExp Proof.Wnaf.
Import ListNotations.
Local Open Scope fld_scope.

(** ** C45 *)
(** bls12-381: the exponent is three times (p^12 - 1) / r *)
Theorem C45_bls12_381 (f : t12_Fp12 bls12_381_tower) : f <> 0 ->
  let p := Z.to_N bls12_base_field_381_modulus in let r := Z.to_N bls12_scalar_field_381_modulus in
  bls12_381_final_exponentiation f = fpow f (3 * ((p ^ 12 - 1) / r)).
Proof.
  intros Hf p r.
  apply (final12_exact _ bls381_p_prime bls381_field_check bls381_cyc_check bls381_frob_check
    bls12_381_final_exponent_z bls12_381_final_exponent_is_z_neg r 3); [vm_compute; reflexivity|exact Hf| | |]; vm_compute; reflexivity.
Qed.
Print Assumptions C45_bls12_381.
(** that exponent is exact, and three is a unit modulo r, so the order-r component is kept *)
Theorem C45_bls12_381_exponent :
  let p := Z.to_N bls12_base_field_381_modulus in let r := Z.to_N bls12_scalar_field_381_modulus in
  (r * ((p ^ 12 - 1) / r) = p ^ 12 - 1 /\ N.gcd 3 r = 1 /\ (p ^ 12 - 1) / r = bls12_381_final_exponent)%N.
Proof. vm_compute. repeat split. Qed.
Print Assumptions C45_bls12_381_exponent.
(** every result has order dividing r *)
Theorem C45_bls12_381_order (f : t12_Fp12 bls12_381_tower) : f <> 0 ->
  fpow (bls12_381_final_exponentiation f) (Z.to_N bls12_scalar_field_381_modulus) = 1.
Proof.
  intros Hf. rewrite (C45_bls12_381 f Hf).
  destruct (t12_fields _ bls381_p_prime bls381_field_check) as (_ & _ & FF). assert (R := FieldLaws_Ring _ (FF_field _ _ _ FF)).
  apply (order_from_exponent _ _ _ FF f _ 3 Hf). vm_compute. reflexivity.
Qed.
Print Assumptions C45_bls12_381_order.
(** alt_bn128 is given the same addition chain, which belongs to the BLS12 family: the
    result need not have order dividing r *)
Theorem C45_alt_bn128_refuted : exists f : t12_Fp12 alt_bn128_tower, f <> 0 /\
  fpow (alt_bn128_final_exponentiation f) (Z.to_N alt_bn128_scalar_field_254_modulus) <> 1.
Proof. exact alt_bn128_order. Qed.
Print Assumptions C45_alt_bn128_refuted.
(** what it computes instead, for every f: the exponent of the BLS12 family at the z of alt_bn128.
    The result is in the cyclotomic subgroup, and its order divides r only when that already holds
    for f^((p^6 - 1)(p^2 + 1)): the chain does not remove the cofactor.  Missing: the claim itself,
    which is refuted above. *)
Theorem C45_alt_bn128_partial (f : t12_Fp12 alt_bn128_tower) : f <> 0 ->
  let p := Z.to_N alt_bn128_base_field_254_modulus in let r := Z.to_N alt_bn128_scalar_field_254_modulus in
  let z := alt_bn128_final_exponent_z in let easy := ((p ^ 6 - 1) * (p ^ 2 + 1))%N in
  alt_bn128_final_exponentiation f = fpow f (easy * ((z - 1) ^ 2 * (z + p) * (z ^ 2 + p ^ 2 - 1) + 3)) /\
  fpow (alt_bn128_final_exponentiation f) (p ^ 4 - p ^ 2 + 1) = 1 /\
  (fpow (alt_bn128_final_exponentiation f) r = 1 <-> fpow f (easy * r) = 1) /\
  (alt_bn128_final_exponentiation f = 1 <-> fpow f easy = 1).
Proof.
  intros Hf p r z easy. set (h := ((z - 1) ^ 2 * (z + p) * (z ^ 2 + p ^ 2 - 1) + 3)%N).
  destruct (t12_fields _ alt_bn_p_prime alt_bn_field_check) as (_ & _ & FF). assert (KL := FF_field _ _ _ FF). assert (R := FieldLaws_Ring _ KL).
  assert (HG := first12_G _ alt_bn_p_prime alt_bn_field_check alt_bn_E1 f Hf). unfold G in HG.
  change (Z.to_N (t12_p alt_bn128_tower)) with p in HG. fold easy in HG.
  assert (E : alt_bn128_final_exponentiation f = fpow f (easy * h)).
  { unfold alt_bn128_final_exponentiation.
    rewrite (final12 _ alt_bn_p_prime alt_bn_field_check alt_bn_cyc_check alt_bn_frob_check); [|exact alt_bn_E1|exact Hf|vm_compute; reflexivity].
    change (Z.to_N (t12_p alt_bn128_tower)) with p. fold easy.
    assert (B : bls_exponent p alt_bn128_final_exponent_z alt_bn128_final_exponent_is_z_neg = Z.of_N h) by (vm_compute; reflexivity).
    rewrite B, <- (zpw_nat _ KL (p ^ 4 - p ^ 2 + 1)%N ltac:(vm_compute; reflexivity) (fpow f easy) h HG), <- (fpow_mul _ R). reflexivity. }
  assert (h0 : (0 < h)%N) by (vm_compute; reflexivity).
  split; [exact E|]. rewrite E, (fpow_mul _ R f). set (g := fpow f easy) in *.
  assert (GC : forall k, (0 < k)%N -> N.gcd (h * k) (p ^ 4 - p ^ 2 + 1) = k -> (fpow (fpow g h) k = 1 <-> fpow g k = 1)).
  { intros k K0 K. split; intros H.
    - rewrite <- (fpow_mul _ R) in H. assert (H2 := fpow_gcd _ KL g (h * k) (p ^ 4 - p ^ 2 + 1) (N.mul_pos_pos _ _ h0 K0) H HG). rewrite K in H2. exact H2.
    - rewrite <- (fpow_mul _ R), N.mul_comm, (fpow_mul _ R), H. apply (fpow_one _ R). }
  split; [|split].
  - rewrite <- (fpow_mul _ R), N.mul_comm, (fpow_mul _ R), HG. apply (fpow_one _ R).
  - rewrite (fpow_mul _ R f). fold g. apply GC; vm_compute; reflexivity.
  - assert (Q := GC 1%N ltac:(reflexivity) ltac:(vm_compute; reflexivity)). rewrite !(fpow_1 _ R) in Q. exact Q.
Qed.
Print Assumptions C45_alt_bn128_partial.
(** the declared exponent would be right, and the declared loop count is that of the BN family, 6 z + 2 *)
Theorem C45_alt_bn128_declared :
  (Z.to_N alt_bn128_scalar_field_254_modulus * alt_bn128_final_exponent = Z.to_N alt_bn128_base_field_254_modulus ^ 12 - 1 /\
   alt_bn128_ate_loop_count = 6 * alt_bn128_final_exponent_z + 2 /\ alt_bn128_ate_is_loop_count_neg = false)%N.
Proof. vm_compute. repeat split. Qed.
Print Assumptions C45_alt_bn128_declared.
(** the hypothesis at an element outside every proper subfield *)
Example C45_case : t12_sample bls12_381_tower <> 0.
Proof. intros H. apply (f_equal (fun x => zval (q0 (c0 (q0 x))))) in H. vm_compute in H. discriminate H. Qed.
Example C45_alt_bn128_case : t12_sample alt_bn128_tower <> 0.
Proof. intros H. apply (f_equal (fun x => zval (q0 (c0 (q0 x))))) in H. vm_compute in H. discriminate H. Qed.

(** ** C46 *)
Theorem C46_mnt4 find_wnaf (f : t4_Fp4 mnt4_tower) : wnaf_contract find_wnaf -> f <> 0 ->
  let p := Z.to_N mnt4_base_field_298_modulus in let r := Z.to_N mnt6_base_field_298_modulus in
  mnt4_298_final_exponentiation find_wnaf f = fpow f ((p ^ 4 - 1) / r) /\ (r * ((p ^ 4 - 1) / r) = p ^ 4 - 1)%N.
Proof.
  intros W Hf p r. split; [|vm_compute; reflexivity].
  destruct (t4_fields _ mnt4_p_prime mnt4_field_check) as (_ & FF). assert (KL := FF_field _ _ _ FF).
  assert (E : ((p ^ 4 - 1) / r = (p ^ 2 - 1) * ((p ^ 2 + 1) / r))%N) by (vm_compute; reflexivity). rewrite E.
  refine (mnt4_ok _ KL p (p ^ 2 + 1)%N _ _ _ _ _ _ mnt4_w1 mnt4_w0 mnt4_w0_neg (p ^ 2 - 1)%N ((p ^ 2 + 1) / r)%N _ f Hf eq_refl _);
    [vm_compute; reflexivity|vm_compute; reflexivity| | |vm_compute; reflexivity|].
  - intros x e Hx. apply (t4_cyc _ mnt4_p_prime mnt4_field_check mnt4_cyc_check x Hx), W.
  - intros x k _. apply (t4_frobs _ mnt4_p_prime mnt4_field_check mnt4_frob_check).
  - unfold G. rewrite <- (fpow_mul _ (FieldLaws_Ring _ KL)).
    assert (E4 : ((p ^ 2 - 1) * (p ^ 2 + 1) = p ^ 4 - 1)%N) by (vm_compute; reflexivity). rewrite E4. apply (FF_fermat _ _ _ FF), Hf.
Qed.
Print Assumptions C46_mnt4.
Theorem C46_mnt6 find_wnaf (f : t6_Fp6 mnt6_tower) : wnaf_contract find_wnaf -> f <> 0 ->
  let p := Z.to_N mnt6_base_field_298_modulus in let r := Z.to_N mnt4_base_field_298_modulus in
  mnt6_298_final_exponentiation find_wnaf f = fpow f ((p ^ 6 - 1) / r) /\ (r * ((p ^ 6 - 1) / r) = p ^ 6 - 1)%N.
Proof.
  intros W Hf p r. split; [|vm_compute; reflexivity].
  destruct (t6_fields _ mnt6_p_prime mnt6_field_check) as (_ & FF). assert (KL := FF_field _ _ _ FF).
  assert (E : ((p ^ 6 - 1) / r = (p ^ 3 - 1) * (p + 1) * ((p ^ 2 - p + 1) / r))%N) by (vm_compute; reflexivity). rewrite E.
  refine (mnt6_ok _ KL p (p ^ 2 - p + 1)%N _ _ _ _ _ _ mnt6_w1 mnt6_w0 mnt6_w0_neg ((p ^ 3 - 1) * (p + 1))%N ((p ^ 2 - p + 1) / r)%N _ f Hf eq_refl _);
    [vm_compute; reflexivity|vm_compute; reflexivity| | |vm_compute; reflexivity|].
  - intros x e Hx. apply (t6_cyc _ mnt6_p_prime mnt6_field_check mnt6_cyc_check x Hx), W.
  - intros x k Hk. rewrite (mnt6_agree x k) by (rewrite N.mod_small; lia). apply mnt6_fixed_frob.
  - unfold G. rewrite <- (fpow_mul _ (FieldLaws_Ring _ KL)).
    assert (E4 : ((p ^ 3 - 1) * (p + 1) * (p ^ 2 - p + 1) = p ^ 6 - 1)%N) by (vm_compute; reflexivity). rewrite E4. apply (FF_fermat _ _ _ FF), Hf.
Qed.
Print Assumptions C46_mnt6.
Theorem C46_edwards find_wnaf (f : t6_Fp6 edwards_tower) : wnaf_contract find_wnaf -> f <> 0 ->
  let p := Z.to_N edwards_base_field_183_modulus in let r := Z.to_N edwards_scalar_field_183_modulus in
  edwards_183_final_exponentiation find_wnaf f = fpow f ((p ^ 6 - 1) / r) /\ (r * ((p ^ 6 - 1) / r) = p ^ 6 - 1)%N.
Proof.
  intros W Hf p r. split; [|vm_compute; reflexivity].
  destruct (t6_fields _ edwards_p_prime edwards_field_check) as (_ & FF). assert (KL := FF_field _ _ _ FF).
  assert (E : ((p ^ 6 - 1) / r = (p ^ 3 - 1) * (p + 1) * ((p ^ 2 - p + 1) / r))%N) by (vm_compute; reflexivity). rewrite E.
  refine (mnt6_ok _ KL p (p ^ 2 - p + 1)%N _ _ _ _ _ _ edwards_w1 edwards_w0 edwards_w0_neg ((p ^ 3 - 1) * (p + 1))%N ((p ^ 2 - p + 1) / r)%N _ f Hf eq_refl _);
    [vm_compute; reflexivity|vm_compute; reflexivity| | |vm_compute; reflexivity|].
  - intros x e Hx. apply (t6_cyc _ edwards_p_prime edwards_field_check edwards_cyc_check x Hx), W.
  - intros x k Hk. apply (t6_frobs _ edwards_p_prime edwards_field_check edwards_frob6_check).
  - unfold G. rewrite <- (fpow_mul _ (FieldLaws_Ring _ KL)).
    assert (E4 : ((p ^ 3 - 1) * (p + 1) * (p ^ 2 - p + 1) = p ^ 6 - 1)%N) by (vm_compute; reflexivity). rewrite E4. apply (FF_fermat _ _ _ FF), Hf.
Qed.
Print Assumptions C46_edwards.
(** the declared (and unused) final_exponent constants agree *)
Theorem C46_declared_exponents :
  ((Z.to_N mnt4_base_field_298_modulus ^ 4 - 1) / Z.to_N mnt6_base_field_298_modulus = mnt4_final_exponent /\
   (Z.to_N mnt6_base_field_298_modulus ^ 6 - 1) / Z.to_N mnt4_base_field_298_modulus = mnt6_final_exponent /\
   (Z.to_N edwards_base_field_183_modulus ^ 6 - 1) / Z.to_N edwards_scalar_field_183_modulus = edwards_final_exponent)%N.
Proof. vm_compute. repeat split. Qed.
Print Assumptions C46_declared_exponents.
Example C46_case : wnaf_contract find_wnaf_ref /\
  (mkq (mkq (tozp _ 3) (tozp _ 1)) (mkq (tozp _ 4) (tozp _ 1)) : t4_Fp4 mnt4_tower) <> 0.
Proof.
  split; [exact find_wnaf_ref_ok|]. intros H. apply (f_equal (fun x => zval (q0 (q0 x)))) in H. vm_compute in H. discriminate H.
Qed.
Example C46_case_6 :
  (mkq (mkc (tozp _ 3) (tozp _ 1) (tozp _ 4)) (mkc (tozp _ 1) (tozp _ 5) (tozp _ 9)) : t6_Fp6 mnt6_tower) <> 0 /\
  (mkq (mkc (tozp _ 3) (tozp _ 1) (tozp _ 4)) (mkc (tozp _ 1) (tozp _ 5) (tozp _ 9)) : t6_Fp6 edwards_tower) <> 0.
Proof. split; intros H; apply (f_equal (fun x => zval (c0 (q0 x)))) in H; vm_compute in H; discriminate H. Qed.
