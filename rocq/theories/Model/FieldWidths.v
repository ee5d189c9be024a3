(** Declared bit lengths of the fields (A = include/nil/crypto3/algebra).  No proofs. *)
From Coq Require Import ZArith List.
From Verif Require Import Model.FieldParams.
Import ListNotations.
Local Open Scope Z_scope.

(** A/fields/field.hpp:45-66: modulus_bits is the template argument of field<>; integral_type has
    that many bits, extended_integral_type sixteen times as many *)
Definition extended_bits (modulus_bits : Z) : Z := 16 * modulus_bits.
(** A/fields/fp2.hpp:72-73, fp3.hpp:70-71, fp4.hpp:69-70, fp6_2over3.hpp:68-69, fp6_3over2.hpp:72-73,
    fp12_2over3over2.hpp:77-78, and value_bits = modulus_bits with arity 1 in the prime fields *)
Definition value_bits (arity modulus_bits : Z) : Z := arity * modulus_bits.
(** the arity members at the lines above *)
Definition arities : list Z := [1; 2; 3; 4; 6; 12].
(** A/curves/detail/*/g1.hpp and g2.hpp (mnt4/g1.hpp:54-55): field_type::value_bits + 1 *)
Definition point_bits (arity modulus_bits : Z) : Z := value_bits arity modulus_bits + 1.
(** the template arguments with the moduli; the line is that of the field<> used *)
Definition field_widths : list (Z * Z) :=
  [
   (* A/fields/alt_bn128/base_field.hpp:48 *) (254, alt_bn128_base_field_254_modulus);
   (* A/fields/alt_bn128/scalar_field.hpp:50 *) (254, alt_bn128_scalar_field_254_modulus);
   (* A/fields/babyjubjub/scalar_field.hpp:45 *) (251, babyjubjub_scalar_field_modulus);
   (* A/fields/bls12/base_field.hpp:48 *) (381, bls12_base_field_381_modulus);
   (* A/fields/bls12/base_field.hpp:81 *) (377, bls12_base_field_377_modulus);
   (* A/fields/bls12/scalar_field.hpp:50 *) (255, bls12_scalar_field_381_modulus);
   (* A/fields/bls12/scalar_field.hpp:83 *) (253, bls12_scalar_field_377_modulus);
   (* A/fields/bn128/base_field.hpp:50 *) (254, bn128_base_field_254_modulus);
   (* A/fields/bn128/scalar_field.hpp:50 *) (254, bn128_scalar_field_254_modulus);
   (* A/fields/brainpool_r1/base_field.hpp:50 *) (160, brainpool_r1_base_field_160_modulus);
   (* A/fields/brainpool_r1/base_field.hpp:77 *) (192, brainpool_r1_base_field_192_modulus);
   (* A/fields/brainpool_r1/base_field.hpp:103 *) (224, brainpool_r1_base_field_224_modulus);
   (* A/fields/brainpool_r1/base_field.hpp:129 *) (256, brainpool_r1_base_field_256_modulus);
   (* A/fields/brainpool_r1/base_field.hpp:155 *) (320, brainpool_r1_base_field_320_modulus);
   (* A/fields/brainpool_r1/base_field.hpp:181 *) (384, brainpool_r1_base_field_384_modulus);
   (* A/fields/brainpool_r1/base_field.hpp:207 *) (512, brainpool_r1_base_field_512_modulus);
   (* A/fields/brainpool_r1/scalar_field.hpp:50 *) (160, brainpool_r1_scalar_field_160_modulus);
   (* A/fields/brainpool_r1/scalar_field.hpp:75 *) (192, brainpool_r1_scalar_field_192_modulus);
   (* A/fields/brainpool_r1/scalar_field.hpp:99 *) (224, brainpool_r1_scalar_field_224_modulus);
   (* A/fields/brainpool_r1/scalar_field.hpp:123 *) (256, brainpool_r1_scalar_field_256_modulus);
   (* A/fields/brainpool_r1/scalar_field.hpp:147 *) (320, brainpool_r1_scalar_field_320_modulus);
   (* A/fields/brainpool_r1/scalar_field.hpp:171 *) (384, brainpool_r1_scalar_field_384_modulus);
   (* A/fields/brainpool_r1/scalar_field.hpp:195 *) (512, brainpool_r1_scalar_field_512_modulus);
   (* A/fields/curve25519/base_field.hpp:48 *) (255, curve25519_base_field_modulus);
   (* A/fields/curve25519/scalar_field.hpp:48 *) (253, curve25519_scalar_field_modulus);
   (* A/fields/dsa_botan.hpp:50 *) (2048, dsa_botan_2048_modulus);
   (* A/fields/dsa_botan.hpp:78 *) (3072, dsa_botan_3072_modulus);
   (* A/fields/dsa_jce.hpp:50 *) (1024, dsa_jce_1024_modulus);
   (* A/fields/edwards/base_field.hpp:50 *) (183, edwards_base_field_183_modulus);
   (* A/fields/edwards/scalar_field.hpp:50 *) (181, edwards_scalar_field_183_modulus);
   (* A/fields/ffdhe_ietf.hpp:50 *) (2048, ffdhe_ietf_2048_modulus);
   (* A/fields/ffdhe_ietf.hpp:80 *) (3072, ffdhe_ietf_3072_modulus);
   (* A/fields/ffdhe_ietf.hpp:106 *) (4096, ffdhe_ietf_4096_modulus);
   (* A/fields/ffdhe_ietf.hpp:132 *) (6144, ffdhe_ietf_6144_modulus);
   (* A/fields/ffdhe_ietf.hpp:158 *) (8192, ffdhe_ietf_8192_modulus);
   (* A/fields/frp_v1/base_field.hpp:50 *) (256, frp_v1_base_fields_256_modulus);
   (* A/fields/frp_v1/scalar_field.hpp:50 *) (256, frp_v1_scalar_field_256_modulus);
   (* A/fields/goldilocks64/base_field.hpp:43 *) (64, goldilocks64_base_field_modulus);
   (* A/fields/gost_A/base_field.hpp:50 *) (256, gost_A_base_field_256_modulus);
   (* A/fields/gost_A/scalar_field.hpp:50 *) (256, gost_A_scalar_field_256_modulus);
   (* A/fields/jubjub/scalar_field.hpp:45 *) (252, jubjub_scalar_field_modulus);
   (* A/fields/maxprime.hpp:47 *) (64, maxprime_64_modulus);
   (* A/fields/mnt4/base_field.hpp:50 *) (298, mnt4_base_field_298_modulus);
   (* A/fields/mnt6/base_field.hpp:50 *) (298, mnt6_base_field_298_modulus);
   (* A/fields/modp_ietf.hpp:50 *) (1024, modp_ietf_1024_modulus);
   (* A/fields/modp_ietf.hpp:79 *) (1536, modp_ietf_1536_modulus);
   (* A/fields/modp_ietf.hpp:105 *) (2048, modp_ietf_2048_modulus);
   (* A/fields/modp_ietf.hpp:131 *) (3072, modp_ietf_3072_modulus);
   (* A/fields/modp_ietf.hpp:157 *) (4096, modp_ietf_4096_modulus);
   (* A/fields/modp_ietf.hpp:183 *) (6144, modp_ietf_6144_modulus);
   (* A/fields/modp_ietf.hpp:209 *) (8192, modp_ietf_8192_modulus);
   (* A/fields/modp_srp.hpp:56 *) (1024, modp_srp_1024_modulus);
   (* A/fields/modp_srp.hpp:86 *) (1536, modp_srp_1536_modulus);
   (* A/fields/modp_srp.hpp:112 *) (2048, modp_srp_2048_modulus);
   (* A/fields/modp_srp.hpp:138 *) (3072, modp_srp_3072_modulus);
   (* A/fields/modp_srp.hpp:164 *) (4096, modp_srp_4096_modulus);
   (* A/fields/modp_srp.hpp:190 *) (6144, modp_srp_6144_modulus);
   (* A/fields/modp_srp.hpp:216 *) (8192, modp_srp_8192_modulus);
   (* A/fields/pallas/base_field.hpp:42 *) (255, pallas_base_field_modulus);
   (* A/fields/secp/secp_k1/base_field.hpp:50 *) (160, secp_k1_base_field_160_modulus);
   (* A/fields/secp/secp_k1/base_field.hpp:77 *) (192, secp_k1_base_field_192_modulus);
   (* A/fields/secp/secp_k1/base_field.hpp:105 *) (224, secp_k1_base_field_224_modulus);
   (* A/fields/secp/secp_k1/base_field.hpp:133 *) (256, secp_k1_base_field_256_modulus);
   (* A/fields/secp/secp_k1/scalar_field.hpp:51 *) (161, secp_k1_scalar_field_160_modulus);
   (* A/fields/secp/secp_k1/scalar_field.hpp:79 *) (192, secp_k1_scalar_field_192_modulus);
   (* A/fields/secp/secp_k1/scalar_field.hpp:108 *) (225, secp_k1_scalar_field_224_modulus);
   (* A/fields/secp/secp_k1/scalar_field.hpp:136 *) (256, secp_k1_scalar_field_256_modulus);
   (* A/fields/secp/secp_r1/base_field.hpp:50 *) (160, secp_r1_base_field_160_modulus);
   (* A/fields/secp/secp_r1/base_field.hpp:77 *) (192, secp_r1_base_field_192_modulus);
   (* A/fields/secp/secp_r1/base_field.hpp:105 *) (224, secp_r1_base_field_224_modulus);
   (* A/fields/secp/secp_r1/base_field.hpp:133 *) (256, secp_r1_base_field_256_modulus);
   (* A/fields/secp/secp_r1/base_field.hpp:161 *) (384, secp_r1_base_field_384_modulus);
   (* A/fields/secp/secp_r1/base_field.hpp:189 *) (521, secp_r1_base_field_521_modulus);
   (* A/fields/secp/secp_r1/scalar_field.hpp:51 *) (161, secp_r1_scalar_field_160_modulus);
   (* A/fields/secp/secp_r1/scalar_field.hpp:79 *) (192, secp_r1_scalar_field_192_modulus);
   (* A/fields/secp/secp_r1/scalar_field.hpp:107 *) (224, secp_r1_scalar_field_224_modulus);
   (* A/fields/secp/secp_r1/scalar_field.hpp:135 *) (256, secp_r1_scalar_field_256_modulus);
   (* A/fields/secp/secp_r1/scalar_field.hpp:163 *) (384, secp_r1_scalar_field_384_modulus);
   (* A/fields/secp/secp_r1/scalar_field.hpp:191 *) (521, secp_r1_scalar_field_521_modulus);
   (* A/fields/sect/sect_k1/base_field.hpp:50 *) (164, sect_k1_base_field_163_modulus);
   (* A/fields/sect/sect_k1/scalar_field.hpp:50 *) (163, sect_k1_scalar_field_163_modulus);
   (* A/fields/sm2p_v1/base_field.hpp:50 *) (256, sm2p_v1_base_field_256_modulus);
   (* A/fields/sm2p_v1/scalar_field.hpp:50 *) (256, sm2p_v1_scalar_field_256_modulus);
   (* A/fields/vesta/base_field.hpp:45 *) (255, vesta_base_field_modulus);
   (* A/fields/x962_p/base_field.hpp:56 *) (192, x962_p_v2_base_field_192_modulus);
   (* A/fields/x962_p/base_field.hpp:84 *) (192, x962_p_v3_base_field_192_modulus);
   (* A/fields/x962_p/base_field.hpp:110 *) (239, x962_p_v1_base_field_239_modulus);
   (* A/fields/x962_p/base_field.hpp:136 *) (239, x962_p_v2_base_field_239_modulus);
   (* A/fields/x962_p/base_field.hpp:162 *) (239, x962_p_v3_base_field_239_modulus);
   (* A/fields/x962_p/scalar_field.hpp:56 *) (192, x962_p_v2_scalar_field_192_modulus);
   (* A/fields/x962_p/scalar_field.hpp:84 *) (192, x962_p_v3_scalar_field_192_modulus);
   (* A/fields/x962_p/scalar_field.hpp:110 *) (239, x962_p_v1_scalar_field_239_modulus);
   (* A/fields/x962_p/scalar_field.hpp:136 *) (239, x962_p_v2_scalar_field_239_modulus);
   (* A/fields/x962_p/scalar_field.hpp:162 *) (239, x962_p_v3_scalar_field_239_modulus)
  ].
