(** The checks of Proof/Shipped.v evaluated on the shipped constants. *)
From Coq Require Import ZArith NArith List Bool Lia Znumtheory.
From Verif Require Import Base.Field Base.Zp Base.Ext Model.FieldParams Model.Shipped Model.Fp3 Model.Fp6_2over3
  Proof.FiniteField Proof.Shipped Proof.PrimesPairing.
Import ListNotations.

Lemma bls381_p_prime : prime (t12_p bls12_381_tower).
Proof. exact prime_bls12_base_field_381. Qed.
Lemma bls377_p_prime : prime (t12_p bls12_377_tower).
Proof. exact prime_bls12_base_field_377. Qed.
Lemma alt_bn_p_prime : prime (t12_p alt_bn128_tower).
Proof. exact prime_alt_bn128_base_field_254. Qed.
Lemma bn_p_prime : prime (t12_p bn128_tower).
Proof. exact prime_alt_bn128_base_field_254. Qed.
Lemma mnt4_p_prime : prime (t4_p mnt4_tower).
Proof. exact prime_mnt4_base_field_298. Qed.
Lemma mnt6_p_prime : prime (t6_p mnt6_tower).
Proof. exact prime_mnt6_base_field_298. Qed.
Lemma edwards_p_prime : prime (t6_p edwards_tower).
Proof. exact prime_edwards_base_field_183. Qed.

Lemma bls381_field_check : t12_field_check bls12_381_tower = true.
Proof. vm_cast_no_check (eq_refl true). Qed.
Lemma bls377_field_check : t12_field_check bls12_377_tower = true.
Proof. vm_cast_no_check (eq_refl true). Qed.
Lemma alt_bn_field_check : t12_field_check alt_bn128_tower = true.
Proof. vm_cast_no_check (eq_refl true). Qed.
Lemma bn_field_check : t12_field_check bn128_tower = true.
Proof. vm_cast_no_check (eq_refl true). Qed.
Lemma mnt4_field_check : t4_field_check mnt4_tower = true.
Proof. vm_cast_no_check (eq_refl true). Qed.
Lemma mnt6_field_check : t6_field_check mnt6_tower = true.
Proof. vm_cast_no_check (eq_refl true). Qed.
Lemma edwards_field_check : t6_field_check edwards_tower = true.
Proof. vm_cast_no_check (eq_refl true). Qed.

Lemma bls381_frob_check : t12_frob_check bls12_381_tower = true.
Proof. vm_cast_no_check (eq_refl true). Qed.
Lemma bls377_frob_check : t12_frob_check bls12_377_tower = true.
Proof. vm_cast_no_check (eq_refl true). Qed.
Lemma alt_bn_frob_check : t12_frob_check alt_bn128_tower = true.
Proof. vm_cast_no_check (eq_refl true). Qed.
Lemma mnt4_frob_check : t4_frob_check mnt4_tower = true.
Proof. vm_cast_no_check (eq_refl true). Qed.
Lemma mnt6_frob3_check : t3_frob_check mnt6_tower = true.
Proof. vm_cast_no_check (eq_refl true). Qed.
Lemma edwards_frob3_check : t3_frob_check edwards_tower = true.
Proof. vm_cast_no_check (eq_refl true). Qed.
Lemma edwards_frob6_check : t6_frob_check edwards_tower = true.
Proof. vm_cast_no_check (eq_refl true). Qed.

(** mnt6 with the last entry of fp6_2over3 Frobenius_coeffs_c1 repaired *)
Definition mnt6_fc6_last : Z := (1 + nth 4 mnt6_fp6_2over3_Frobenius_coeffs_c1 0)%Z.
Definition mnt6_fixed : tower6 := mkTower6 mnt6_base_field_298_modulus
  mnt6_fp3_non_residue mnt6_fp6_2over3_non_residue mnt6_fp3_Frobenius_coeffs_c1 mnt6_fp3_Frobenius_coeffs_c2
  (firstn 5 mnt6_fp6_2over3_Frobenius_coeffs_c1 ++ [mnt6_fc6_last]).
Lemma mnt6_fixed_check : t6_frob_check mnt6_fixed = true.
Proof. vm_cast_no_check (eq_refl true). Qed.
Lemma mnt6_fixed_frob (x : t6_Fp6 mnt6_fixed) k :
  t6_frob6 mnt6_fixed x k = fpow x (Z.to_N mnt6_base_field_298_modulus ^ k).
Proof. exact (t6_frobs mnt6_fixed mnt6_p_prime mnt6_field_check mnt6_fixed_check x k). Qed.

Lemma mnt6_agree (x : t6_Fp6 mnt6_tower) k : (k mod 6 <> 5)%N ->
  t6_frob6 mnt6_tower x k = t6_frob6 mnt6_fixed x k.
Proof.
  intros Hk. unfold t6_frob6, fp6t_frob. f_equal. f_equal.
  assert (H : (k mod 6 < 6)%N) by (apply N.mod_lt; lia).
  assert (D : (N.to_nat (k mod 6) < 5)%nat) by lia. revert D. generalize (N.to_nat (k mod 6)). intros j Hj.
  do 5 (destruct j as [|j]; [reflexivity|]). exfalso. lia.
Qed.
