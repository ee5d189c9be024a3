(** The mul_generator members of the field headers (A = include/nil/crypto3/algebra).  No proofs. *)
From Coq Require Import ZArith List.
From Verif Require Import Model.FieldParams.
Import ListNotations.
Local Open Scope Z_scope.

(** A/fields/modp_ietf.hpp: mul_generator with the modulus it belongs to (RFC 2409 and RFC 3526) *)
Definition modp_ietf_generators : list (Z * Z) :=
  [(* A/fields/modp_ietf.hpp:69 *) (0x02, modp_ietf_1024_modulus);
   (* A/fields/modp_ietf.hpp:95 *) (0x02, modp_ietf_1536_modulus);
   (* A/fields/modp_ietf.hpp:121 *) (0x02, modp_ietf_2048_modulus);
   (* A/fields/modp_ietf.hpp:147 *) (0x02, modp_ietf_3072_modulus);
   (* A/fields/modp_ietf.hpp:173 *) (0x02, modp_ietf_4096_modulus);
   (* A/fields/modp_ietf.hpp:199 *) (0x02, modp_ietf_6144_modulus);
   (* A/fields/modp_ietf.hpp:225 *) (0x02, modp_ietf_8192_modulus)].
(** A/fields/ffdhe_ietf.hpp: mul_generator with the modulus it belongs to (RFC 7919) *)
Definition ffdhe_ietf_generators : list (Z * Z) :=
  [(* A/fields/ffdhe_ietf.hpp:70 *) (0x02, ffdhe_ietf_2048_modulus);
   (* A/fields/ffdhe_ietf.hpp:96 *) (0x02, ffdhe_ietf_3072_modulus);
   (* A/fields/ffdhe_ietf.hpp:122 *) (0x02, ffdhe_ietf_4096_modulus);
   (* A/fields/ffdhe_ietf.hpp:148 *) (0x02, ffdhe_ietf_6144_modulus);
   (* A/fields/ffdhe_ietf.hpp:174 *) (0x02, ffdhe_ietf_8192_modulus)].
(** A/fields/modp_srp.hpp: mul_generator with the modulus it belongs to (RFC 5054) *)
Definition modp_srp_generators : list (Z * Z) :=
  [(* A/fields/modp_srp.hpp:76 *) (0x02, modp_srp_1024_modulus);
   (* A/fields/modp_srp.hpp:102 *) (0x02, modp_srp_1536_modulus);
   (* A/fields/modp_srp.hpp:128 *) (0x02, modp_srp_2048_modulus);
   (* A/fields/modp_srp.hpp:154 *) (0x05, modp_srp_3072_modulus);
   (* A/fields/modp_srp.hpp:180 *) (0x05, modp_srp_4096_modulus);
   (* A/fields/modp_srp.hpp:206 *) (0x05, modp_srp_6144_modulus);
   (* A/fields/modp_srp.hpp:232 *) (0x13, modp_srp_8192_modulus)].
(** A/fields/alt_bn128/base_field.hpp:71 *)
Definition alt_bn128_base_mul_generator : Z := 0x03.
(** A/fields/alt_bn128/scalar_field.hpp:73 *)
Definition alt_bn128_scalar_mul_generator : Z := 0x05.
