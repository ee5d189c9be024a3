(** C30: which shipped moduli are prime. *)
From Coq Require Import ZArith NArith List Lia Znumtheory.
From Verif Require Import Base.Field Base.Zp Model.FieldParams
  Proof.PrimesPairing Proof.PrimesSecp Proof.PrimesEcpp Proof.PrimesBrainpool Proof.PrimesX962 Proof.PrimesMisc.
Import ListNotations.
Local Open Scope Z_scope.

(** every modulus offered by A/fields (one entry per field template instance) *)
Definition certified_moduli : list Z := [
  alt_bn128_base_field_254_modulus;
  alt_bn128_scalar_field_254_modulus;
  babyjubjub_scalar_field_modulus;
  bls12_base_field_381_modulus;
  bls12_base_field_377_modulus;
  bls12_scalar_field_381_modulus;
  bls12_scalar_field_377_modulus;
  bn128_base_field_254_modulus;
  bn128_scalar_field_254_modulus;
  brainpool_r1_base_field_160_modulus;
  brainpool_r1_base_field_192_modulus;
  brainpool_r1_base_field_224_modulus;
  brainpool_r1_base_field_256_modulus;
  brainpool_r1_base_field_320_modulus;
  brainpool_r1_base_field_384_modulus;
  brainpool_r1_base_field_512_modulus;
  brainpool_r1_scalar_field_160_modulus;
  brainpool_r1_scalar_field_192_modulus;
  brainpool_r1_scalar_field_224_modulus;
  brainpool_r1_scalar_field_256_modulus;
  brainpool_r1_scalar_field_320_modulus;
  brainpool_r1_scalar_field_384_modulus;
  brainpool_r1_scalar_field_512_modulus;
  curve25519_base_field_modulus;
  curve25519_scalar_field_modulus;
  edwards_base_field_183_modulus;
  edwards_scalar_field_183_modulus;
  frp_v1_base_fields_256_modulus;
  frp_v1_scalar_field_256_modulus;
  goldilocks64_base_field_modulus;
  gost_A_base_field_256_modulus;
  gost_A_scalar_field_256_modulus;
  jubjub_scalar_field_modulus;
  maxprime_64_modulus;
  mnt4_base_field_298_modulus;
  mnt6_base_field_298_modulus;
  pallas_base_field_modulus;
  secp_k1_base_field_160_modulus;
  secp_k1_base_field_192_modulus;
  secp_k1_base_field_224_modulus;
  secp_k1_base_field_256_modulus;
  secp_k1_scalar_field_160_modulus;
  secp_k1_scalar_field_192_modulus;
  secp_k1_scalar_field_224_modulus;
  secp_k1_scalar_field_256_modulus;
  secp_r1_base_field_160_modulus;
  secp_r1_base_field_192_modulus;
  secp_r1_base_field_224_modulus;
  secp_r1_base_field_256_modulus;
  secp_r1_base_field_384_modulus;
  secp_r1_base_field_521_modulus;
  secp_r1_scalar_field_160_modulus;
  secp_r1_scalar_field_192_modulus;
  secp_r1_scalar_field_224_modulus;
  secp_r1_scalar_field_256_modulus;
  secp_r1_scalar_field_384_modulus;
  secp_r1_scalar_field_521_modulus;
  sect_k1_scalar_field_163_modulus;
  sm2p_v1_base_field_256_modulus;
  sm2p_v1_scalar_field_256_modulus;
  vesta_base_field_modulus;
  x962_p_v2_base_field_192_modulus;
  x962_p_v3_base_field_192_modulus;
  x962_p_v1_base_field_239_modulus;
  x962_p_v2_base_field_239_modulus;
  x962_p_v3_base_field_239_modulus;
  x962_p_v2_scalar_field_192_modulus;
  x962_p_v3_scalar_field_192_modulus;
  x962_p_v1_scalar_field_239_modulus;
  x962_p_v2_scalar_field_239_modulus;
  x962_p_v3_scalar_field_239_modulus].
(** not certified: the search for a Pocklington certificate of these moduli of
    1024 bits and more did not succeed *)
Definition uncertified_moduli : list Z := [
  dsa_botan_2048_modulus;
  dsa_botan_3072_modulus;
  dsa_jce_1024_modulus;
  ffdhe_ietf_2048_modulus;
  ffdhe_ietf_3072_modulus;
  ffdhe_ietf_4096_modulus;
  ffdhe_ietf_6144_modulus;
  ffdhe_ietf_8192_modulus;
  modp_ietf_1024_modulus;
  modp_ietf_1536_modulus;
  modp_ietf_2048_modulus;
  modp_ietf_3072_modulus;
  modp_ietf_4096_modulus;
  modp_ietf_6144_modulus;
  modp_ietf_8192_modulus;
  modp_srp_1024_modulus;
  modp_srp_1536_modulus;
  modp_srp_2048_modulus;
  modp_srp_3072_modulus;
  modp_srp_4096_modulus;
  modp_srp_6144_modulus;
  modp_srp_8192_modulus].
Definition composite_moduli : list Z := [sect_k1_base_field_163_modulus].
Definition shipped_moduli : list Z := certified_moduli ++ uncertified_moduli ++ composite_moduli.

(** C30 in full would be [Forall prime shipped_moduli]; it is false: *)
Theorem C30_all_moduli_prime_refuted : ~ Forall prime shipped_moduli.
Proof.
  intros H. rewrite Forall_forall in H.
  assert (P : prime sect_k1_base_field_163_modulus).
  { apply H. unfold shipped_moduli, composite_moduli. apply in_or_app. right. apply in_or_app. right. left. reflexivity. }
  destruct P as [_ P]. specialize (P 2).
  assert (G : rel_prime 2 sect_k1_base_field_163_modulus) by (apply P; vm_compute; split; [discriminate|reflexivity]).
  apply Zgcd_1_rel_prime in G. vm_compute in G. discriminate G.
Qed.
Theorem C30_moduli_prime_partial : Forall prime certified_moduli.
Proof.
  unfold certified_moduli.
  apply (Forall_cons alt_bn128_base_field_254_modulus); [exact prime_alt_bn128_base_field_254|].
  apply (Forall_cons alt_bn128_scalar_field_254_modulus); [exact prime_alt_bn128_scalar_field_254|].
  apply (Forall_cons babyjubjub_scalar_field_modulus); [exact prime_babyjubjub_scalar_field|].
  apply (Forall_cons bls12_base_field_381_modulus); [exact prime_bls12_base_field_381|].
  apply (Forall_cons bls12_base_field_377_modulus); [exact prime_bls12_base_field_377|].
  apply (Forall_cons bls12_scalar_field_381_modulus); [exact prime_bls12_scalar_field_381|].
  apply (Forall_cons bls12_scalar_field_377_modulus); [exact prime_bls12_scalar_field_377|].
  apply (Forall_cons bn128_base_field_254_modulus); [exact prime_alt_bn128_base_field_254|].
  apply (Forall_cons bn128_scalar_field_254_modulus); [exact prime_alt_bn128_scalar_field_254|].
  apply (Forall_cons brainpool_r1_base_field_160_modulus); [exact prime_brainpool_r1_base_field_160|].
  apply (Forall_cons brainpool_r1_base_field_192_modulus); [exact prime_brainpool_r1_base_field_192|].
  apply (Forall_cons brainpool_r1_base_field_224_modulus); [exact prime_brainpool_r1_base_field_224|].
  apply (Forall_cons brainpool_r1_base_field_256_modulus); [exact prime_brainpool_r1_base_field_256|].
  apply (Forall_cons brainpool_r1_base_field_320_modulus); [exact prime_brainpool_r1_base_field_320|].
  apply (Forall_cons brainpool_r1_base_field_384_modulus); [exact prime_brainpool_r1_base_field_384|].
  apply (Forall_cons brainpool_r1_base_field_512_modulus); [exact prime_brainpool_r1_base_field_512|].
  apply (Forall_cons brainpool_r1_scalar_field_160_modulus); [exact prime_brainpool_r1_scalar_field_160|].
  apply (Forall_cons brainpool_r1_scalar_field_192_modulus); [exact prime_brainpool_r1_scalar_field_192|].
  apply (Forall_cons brainpool_r1_scalar_field_224_modulus); [exact prime_brainpool_r1_scalar_field_224|].
  apply (Forall_cons brainpool_r1_scalar_field_256_modulus); [exact prime_brainpool_r1_scalar_field_256|].
  apply (Forall_cons brainpool_r1_scalar_field_320_modulus); [exact prime_brainpool_r1_scalar_field_320|].
  apply (Forall_cons brainpool_r1_scalar_field_384_modulus); [exact prime_brainpool_r1_scalar_field_384|].
  apply (Forall_cons brainpool_r1_scalar_field_512_modulus); [exact prime_brainpool_r1_scalar_field_512|].
  apply (Forall_cons curve25519_base_field_modulus); [exact prime_curve25519_base_field|].
  apply (Forall_cons curve25519_scalar_field_modulus); [exact prime_curve25519_scalar_field|].
  apply (Forall_cons edwards_base_field_183_modulus); [exact prime_edwards_base_field_183|].
  apply (Forall_cons edwards_scalar_field_183_modulus); [exact prime_edwards_scalar_field_183|].
  apply (Forall_cons frp_v1_base_fields_256_modulus); [exact prime_frp_v1_base_fields_256|].
  apply (Forall_cons frp_v1_scalar_field_256_modulus); [exact prime_frp_v1_scalar_field_256|].
  apply (Forall_cons goldilocks64_base_field_modulus); [exact prime_goldilocks64_base_field|].
  apply (Forall_cons gost_A_base_field_256_modulus); [exact prime_gost_A_base_field_256|].
  apply (Forall_cons gost_A_scalar_field_256_modulus); [exact prime_gost_A_scalar_field_256|].
  apply (Forall_cons jubjub_scalar_field_modulus); [exact prime_jubjub_scalar_field|].
  apply (Forall_cons maxprime_64_modulus); [exact prime_maxprime_64|].
  apply (Forall_cons mnt4_base_field_298_modulus); [exact prime_mnt4_base_field_298|].
  apply (Forall_cons mnt6_base_field_298_modulus); [exact prime_mnt6_base_field_298|].
  apply (Forall_cons pallas_base_field_modulus); [exact prime_pallas_base_field|].
  apply (Forall_cons secp_k1_base_field_160_modulus); [exact prime_secp_k1_base_field_160|].
  apply (Forall_cons secp_k1_base_field_192_modulus); [exact prime_secp_k1_base_field_192|].
  apply (Forall_cons secp_k1_base_field_224_modulus); [exact prime_secp_k1_base_field_224|].
  apply (Forall_cons secp_k1_base_field_256_modulus); [exact prime_secp_k1_base_field_256|].
  apply (Forall_cons secp_k1_scalar_field_160_modulus); [exact prime_secp_k1_scalar_field_160|].
  apply (Forall_cons secp_k1_scalar_field_192_modulus); [exact prime_secp_k1_scalar_field_192|].
  apply (Forall_cons secp_k1_scalar_field_224_modulus); [exact prime_secp_k1_scalar_field_224|].
  apply (Forall_cons secp_k1_scalar_field_256_modulus); [exact prime_secp_k1_scalar_field_256|].
  apply (Forall_cons secp_r1_base_field_160_modulus); [exact prime_secp_r1_base_field_160|].
  apply (Forall_cons secp_r1_base_field_192_modulus); [exact prime_x962_p_v3_base_field_192|].
  apply (Forall_cons secp_r1_base_field_224_modulus); [exact prime_secp_r1_base_field_224|].
  apply (Forall_cons secp_r1_base_field_256_modulus); [exact prime_secp_r1_base_field_256|].
  apply (Forall_cons secp_r1_base_field_384_modulus); [exact prime_secp_r1_base_field_384|].
  apply (Forall_cons secp_r1_base_field_521_modulus); [exact prime_secp_r1_base_field_521|].
  apply (Forall_cons secp_r1_scalar_field_160_modulus); [exact prime_secp_r1_scalar_field_160|].
  apply (Forall_cons secp_r1_scalar_field_192_modulus); [exact prime_secp_r1_scalar_field_192|].
  apply (Forall_cons secp_r1_scalar_field_224_modulus); [exact prime_secp_r1_scalar_field_224|].
  apply (Forall_cons secp_r1_scalar_field_256_modulus); [exact prime_secp_r1_scalar_field_256|].
  apply (Forall_cons secp_r1_scalar_field_384_modulus); [exact prime_secp_r1_scalar_field_384|].
  apply (Forall_cons secp_r1_scalar_field_521_modulus); [exact prime_secp_r1_scalar_field_521|].
  apply (Forall_cons sect_k1_scalar_field_163_modulus); [exact prime_sect_k1_scalar_field_163|].
  apply (Forall_cons sm2p_v1_base_field_256_modulus); [exact prime_sm2p_v1_base_field_256|].
  apply (Forall_cons sm2p_v1_scalar_field_256_modulus); [exact prime_sm2p_v1_scalar_field_256|].
  apply (Forall_cons vesta_base_field_modulus); [exact prime_vesta_base_field|].
  apply (Forall_cons x962_p_v2_base_field_192_modulus); [exact prime_x962_p_v3_base_field_192|].
  apply (Forall_cons x962_p_v3_base_field_192_modulus); [exact prime_x962_p_v3_base_field_192|].
  apply (Forall_cons x962_p_v1_base_field_239_modulus); [exact prime_x962_p_v3_base_field_239|].
  apply (Forall_cons x962_p_v2_base_field_239_modulus); [exact prime_x962_p_v3_base_field_239|].
  apply (Forall_cons x962_p_v3_base_field_239_modulus); [exact prime_x962_p_v3_base_field_239|].
  apply (Forall_cons x962_p_v2_scalar_field_192_modulus); [exact prime_x962_p_v2_scalar_field_192|].
  apply (Forall_cons x962_p_v3_scalar_field_192_modulus); [exact prime_x962_p_v3_scalar_field_192|].
  apply (Forall_cons x962_p_v1_scalar_field_239_modulus); [exact prime_x962_p_v1_scalar_field_239|].
  apply (Forall_cons x962_p_v2_scalar_field_239_modulus); [exact prime_x962_p_v2_scalar_field_239|].
  apply (Forall_cons x962_p_v3_scalar_field_239_modulus); [exact prime_x962_p_v3_scalar_field_239|].
  apply Forall_nil.
Qed.
Theorem C30_every_nonzero_invertible_partial (m : Z) : In m certified_moduli ->
  FieldLaws (Zp m) /\ forall x : Zp m, x <> f0 -> fmul x (finv x) = f1.
Proof.
  intros Hm. assert (P : prime m) by (apply (proj1 (Forall_forall _ _) C30_moduli_prime_partial), Hm).
  assert (L : 1 < m) by (destruct P; assumption). assert (F := Zp_field m L P). split; [exact F|]. apply (finv_r _ F).
Qed.
Example C30_example : In goldilocks64_base_field_modulus certified_moduli /\ length certified_moduli = 71%nat.
Proof. split; [|reflexivity]. unfold certified_moduli. repeat (first [left; reflexivity|right]). Qed.
