(** Domain parameters: order checks and primes. *)
From Coq Require Import ZArith List Bool Lia Znumtheory.
From Verif Require Import Base.Field Base.Zp Model.FieldParams Model.CurveParams Model.DomainParams Proof.Generators
  Proof.PrimesBrainpool Proof.PrimesMisc Proof.PrimesX962.
Import ListNotations.
Local Open Scope Z_scope.

(** every curve but x962_p_v3<192> *)
Definition good_curves : list sw_curve := [brainpool_r1_160; brainpool_r1_192; brainpool_r1_224; brainpool_r1_256; brainpool_r1_320; brainpool_r1_384; brainpool_r1_512; frp_v1_256; gost_A_256; sm2p_v1_256; x962_p_v2_192; x962_p_v1_239; x962_p_v2_239; x962_p_v3_239].
Lemma good_primes : Forall (fun c => prime (swc_p c) /\ prime (swc_r c)) good_curves.
Proof.
  unfold good_curves.
  apply (Forall_cons brainpool_r1_160); [exact (conj prime_brainpool_r1_base_field_160 prime_brainpool_r1_scalar_field_160)|].
  apply (Forall_cons brainpool_r1_192); [exact (conj prime_brainpool_r1_base_field_192 prime_brainpool_r1_scalar_field_192)|].
  apply (Forall_cons brainpool_r1_224); [exact (conj prime_brainpool_r1_base_field_224 prime_brainpool_r1_scalar_field_224)|].
  apply (Forall_cons brainpool_r1_256); [exact (conj prime_brainpool_r1_base_field_256 prime_brainpool_r1_scalar_field_256)|].
  apply (Forall_cons brainpool_r1_320); [exact (conj prime_brainpool_r1_base_field_320 prime_brainpool_r1_scalar_field_320)|].
  apply (Forall_cons brainpool_r1_384); [exact (conj prime_brainpool_r1_base_field_384 prime_brainpool_r1_scalar_field_384)|].
  apply (Forall_cons brainpool_r1_512); [exact (conj prime_brainpool_r1_base_field_512 prime_brainpool_r1_scalar_field_512)|].
  apply (Forall_cons frp_v1_256); [exact (conj prime_frp_v1_base_fields_256 prime_frp_v1_scalar_field_256)|].
  apply (Forall_cons gost_A_256); [exact (conj prime_gost_A_base_field_256 prime_gost_A_scalar_field_256)|].
  apply (Forall_cons sm2p_v1_256); [exact (conj prime_sm2p_v1_base_field_256 prime_sm2p_v1_scalar_field_256)|].
  apply (Forall_cons x962_p_v2_192); [exact (conj prime_x962_p_v2_base_field_192 prime_x962_p_v2_scalar_field_192)|].
  apply (Forall_cons x962_p_v1_239); [exact (conj prime_x962_p_v1_base_field_239 prime_x962_p_v1_scalar_field_239)|].
  apply (Forall_cons x962_p_v2_239); [exact (conj prime_x962_p_v2_base_field_239 prime_x962_p_v2_scalar_field_239)|].
  apply (Forall_cons x962_p_v3_239); [exact (conj prime_x962_p_v3_base_field_239 prime_x962_p_v3_scalar_field_239)|].
  apply Forall_nil.
Qed.
Lemma good_checks : forallb sw_check good_curves = true.
Proof. vm_cast_no_check (eq_refl true). Qed.
(** x962_p_v3<192> with the order of its own scalar field *)
Definition x962_p_v3_192_fixed : sw_curve :=
  mkSW (swc_p x962_p_v3_192) (swc_a x962_p_v3_192) (swc_b x962_p_v3_192) (swc_one x962_p_v3_192) x962_p_v3_scalar_field_192_modulus.
Lemma fixed_check : sw_check x962_p_v3_192_fixed = true.
Proof. vm_cast_no_check (eq_refl true). Qed.
Lemma fixed_primes : prime (swc_p x962_p_v3_192_fixed) /\ prime (swc_r x962_p_v3_192_fixed).
Proof. exact (conj prime_x962_p_v2_base_field_192 prime_x962_p_v3_scalar_field_192). Qed.
