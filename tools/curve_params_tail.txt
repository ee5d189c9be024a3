(** bls12/381/short_weierstrass_params.hpp:84-86: (one, one) *)
Definition bls12_381_g2_twist : list Z := [1; 1].
(** bls12/377/short_weierstrass_params.hpp:87-89: (zero, one) *)
Definition bls12_377_g2_twist : list Z := [0; 1].
(** edwards/183/twisted_edwards_params.hpp:44-45 *)
Definition edwards_183_a : Z := 1.

(** A short Weierstrass g1: modulus of base_field_type, coefficients, one_fill,
    modulus of scalar_field_type (curves/detail/<curve>/types.hpp) *)
Record sw_curve := mkSW { swc_p : Z; swc_a : Z; swc_b : Z; swc_one : list Z; swc_r : Z }.
Definition shipped_sw_g1 : list sw_curve := [
  mkSW secp_r1_base_field_160_modulus secp_r1_160_a secp_r1_160_b secp_r1_160_one secp_r1_scalar_field_160_modulus;
  mkSW secp_r1_base_field_192_modulus secp_r1_192_a secp_r1_192_b secp_r1_192_one secp_r1_scalar_field_192_modulus;
  mkSW secp_r1_base_field_224_modulus secp_r1_224_a secp_r1_224_b secp_r1_224_one secp_r1_scalar_field_224_modulus;
  mkSW secp_r1_base_field_256_modulus secp_r1_256_a secp_r1_256_b secp_r1_256_one secp_r1_scalar_field_256_modulus;
  mkSW secp_r1_base_field_384_modulus secp_r1_384_a secp_r1_384_b secp_r1_384_one secp_r1_scalar_field_384_modulus;
  mkSW secp_r1_base_field_521_modulus secp_r1_521_a secp_r1_521_b secp_r1_521_one secp_r1_scalar_field_521_modulus;
  mkSW secp_k1_base_field_160_modulus secp_k1_160_a secp_k1_160_b secp_k1_160_one secp_k1_scalar_field_160_modulus;
  mkSW secp_k1_base_field_192_modulus secp_k1_192_a secp_k1_192_b secp_k1_192_one secp_k1_scalar_field_192_modulus;
  mkSW secp_k1_base_field_224_modulus secp_k1_224_a secp_k1_224_b secp_k1_224_one secp_k1_scalar_field_224_modulus;
  mkSW secp_k1_base_field_256_modulus secp_k1_256_a secp_k1_256_b secp_k1_256_one secp_k1_scalar_field_256_modulus;
  mkSW pallas_base_field_modulus pallas_a pallas_b pallas_one vesta_base_field_modulus;
  mkSW vesta_base_field_modulus vesta_a vesta_b vesta_one pallas_base_field_modulus;
  mkSW alt_bn128_base_field_254_modulus alt_bn128_254_a alt_bn128_254_b alt_bn128_254_g1_one alt_bn128_scalar_field_254_modulus;
  mkSW bls12_base_field_381_modulus bls12_381_a bls12_381_b bls12_381_g1_one bls12_scalar_field_381_modulus;
  mkSW bls12_base_field_377_modulus bls12_377_a bls12_377_b bls12_377_g1_one bls12_scalar_field_377_modulus;
  mkSW mnt4_base_field_298_modulus mnt4_298_a mnt4_298_b mnt4_298_g1_one mnt6_base_field_298_modulus;
  mkSW mnt6_base_field_298_modulus mnt6_298_a mnt6_298_b mnt6_298_g1_one mnt4_base_field_298_modulus].

(** twisted Edwards g1 *)
Record te_curve := mkTE { tec_p : Z; tec_a : Z; tec_d : Z; tec_one : list Z; tec_r : Z }.
Definition shipped_te_g1 : list te_curve := [
  mkTE bls12_scalar_field_381_modulus jubjub_te_a jubjub_te_d jubjub_te_one jubjub_scalar_field_modulus;
  mkTE alt_bn128_scalar_field_254_modulus babyjubjub_te_a babyjubjub_te_d babyjubjub_te_one babyjubjub_scalar_field_modulus;
  mkTE curve25519_base_field_modulus curve25519_te_a curve25519_te_d curve25519_te_one curve25519_scalar_field_modulus].

(** Montgomery g1 *)
Record mont_curve := mkMC { mc_p : Z; mc_A : Z; mc_B : Z; mc_one : list Z; mc_r : Z }.
Definition shipped_mont_g1 : list mont_curve := [
  mkMC bls12_scalar_field_381_modulus jubjub_mont_A jubjub_mont_B jubjub_mont_one jubjub_scalar_field_modulus;
  mkMC alt_bn128_scalar_field_254_modulus babyjubjub_mont_A babyjubjub_mont_B babyjubjub_mont_one babyjubjub_scalar_field_modulus;
  mkMC curve25519_base_field_modulus curve25519_mont_A curve25519_mont_B curve25519_mont_one curve25519_scalar_field_modulus].
