{
 "claims": [
  {
   "property": "C01",
   "status": "proved",
   "theorems": [
    "C01_fp2_pow",
    "C01_fp3_pow",
    "C01_fp4_pow",
    "C01_fp6_2over3_pow",
    "C01_fp6_3over2_pow",
    "C01_fp12_pow",
    "C01_fp_pow",
    "C01_fp_pow_int",
    "C01_fp_pow_negative_refuted"
   ],
   "note": "pow of every extension class, of element_fp (powm trusted) and of built-in exponents below 2^128; negative built-in exponents refuted."
  },
  {
   "property": "C02",
   "status": "proved",
   "theorems": [
    "C02_fp2_mul",
    "C02_fp2_mul_assign",
    "C02_fp2_squared",
    "C02_fp2_linear",
    "C02_fp2_ring",
    "C02_fp2_neqb"
   ],
   "note": ""
  },
  {
   "property": "C03",
   "status": "proved",
   "theorems": [
    "C03_fp2_inverse",
    "C03_fp2_field",
    "C03_nonsquare_necessary"
   ],
   "note": ""
  },
  {
   "property": "C04",
   "status": "proved",
   "theorems": [
    "C04_fp3_mul",
    "C04_fp3_mul_assign",
    "C04_fp3_neqb",
    "C04_fp3_linear",
    "C04_fp3_ring",
    "C04_fp3_inverse",
    "C04_fp3_field"
   ],
   "note": ""
  },
  {
   "property": "C05",
   "status": "proved",
   "theorems": [
    "C05_fp4_mul",
    "C05_fp4_mul_by_non_residue",
    "C05_fp4_mul_assign",
    "C05_fp4_linear",
    "C05_fp4_ring",
    "C05_fp4_inverse"
   ],
   "note": ""
  },
  {
   "property": "C06",
   "status": "proved",
   "theorems": [
    "C06_fp6_mul",
    "C06_fp6_mul_assign",
    "C06_fp6_ring",
    "C06_fp6_smul",
    "C06_fp6_inverse"
   ],
   "note": ""
  },
  {
   "property": "C07",
   "status": "proved",
   "theorems": [
    "C07_fp6_mul",
    "C07_fp6_squared",
    "C07_fp6_ring",
    "C07_fp6_smul",
    "C07_fp6_inverse"
   ],
   "note": ""
  },
  {
   "property": "C08",
   "status": "proved",
   "theorems": [
    "C08_fp12_mul",
    "C08_fp12_mul_assign",
    "C08_fp12_ring",
    "C08_fp12_inverse",
    "C08_fp12_smul"
   ],
   "note": ""
  },
  {
   "property": "C09",
   "status": "proved",
   "theorems": [
    "C09_bls12_381",
    "C09_bls12_377",
    "C09_alt_bn128",
    "C09_bn128",
    "C09_mnt4",
    "C09_mnt6",
    "C09_edwards",
    "C09_group_orders"
   ],
   "note": "All six shipped towers (and bn128's) with certified prime moduli."
  },
  {
   "property": "C10",
   "status": "partial",
   "theorems": [
    "C10_bls12_381",
    "C10_bls12_377",
    "C10_alt_bn128",
    "C10_mnt4",
    "C10_edwards",
    "C10_mnt6_fp3",
    "C10_mnt6_fp6_partial",
    "C10_mnt6_fp6_refuted",
    "C10_bn128_refuted"
   ],
   "note": "Proved for every k and every class of bls12-381, bls12-377, alt_bn128, mnt4, edwards and mnt6 fp3; mnt6 fp6_2over3 proved for k mod 6 <> 5 and refuted for k = 5 (table entry 5 repeats entry 4); bn128 refuted (all-zero tables)."
  },
  {
   "property": "C11",
   "status": "proved",
   "theorems": [
    "C11_bls12_381",
    "C11_bls12_377",
    "C11_alt_bn128",
    "C11_bn128",
    "C11_mnt4",
    "C11_mnt6",
    "C11_edwards",
    "C11_outside_subgroup_refuted"
   ],
   "note": "Fp4 (mnt4), Fp6_2over3 (mnt6, edwards), Fp12 (bls12-381/377, alt_bn128, bn128), subgroup given by its order."
  },
  {
   "property": "C12",
   "status": "proved",
   "theorems": [
    "C12_bls12_381",
    "C12_bls12_377",
    "C12_alt_bn128",
    "C12_bn128",
    "C12_mnt4",
    "C12_mnt6",
    "C12_edwards"
   ],
   "note": "find_wnaf is external: the signed-digit versions are proved for every recoding meeting its contract."
  },
  {
   "property": "C13",
   "status": "proved",
   "theorems": [
    "C13_fp12_mul_by_045",
    "C13_fp12_mul_by_024",
    "C13_fp4_mul_by_023",
    "C13_fp4_mul_by_023_rejects",
    "C13_fp6_mul_by_2345",
    "C13_fp6_mul_by_2345_other_shape_refuted",
    "C13_fp6_scalings"
   ],
   "note": "mul_by_2345 is only correct on operands of the named shape (refuted otherwise); mulFp6_24_Fp_01 scales coefficients."
  },
  {
   "property": "C14",
   "status": "partial",
   "theorems": [
    "C14_bls12_381_partial",
    "C14_bls12_381_zero_refuted",
    "C14_bls12_381_diverges",
    "C14_bls12_377_partial",
    "C14_bls12_377_zero_refuted",
    "C14_bls12_377_diverges",
    "C14_alt_bn128_partial",
    "C14_alt_bn128_zero_refuted",
    "C14_alt_bn128_diverges",
    "C14_bn128_partial",
    "C14_bn128_zero_refuted",
    "C14_bn128_diverges",
    "C14_mnt4_partial",
    "C14_mnt4_zero_refuted",
    "C14_mnt4_diverges",
    "C14_mnt6_partial",
    "C14_mnt6_zero_refuted",
    "C14_mnt6_diverges",
    "C14_edwards_partial",
    "C14_edwards_zero_refuted",
    "C14_edwards_diverges"
   ],
   "note": "Proved for every non-zero square of every shipped fp2 and fp3 class. At zero the statement is false of the code: sqrt(0) never returns (refuted per class); it also never returns on non-squares."
  },
  {
   "property": "C15",
   "status": "proved",
   "theorems": [
    "C15_bls12_381_fp2",
    "C15_bls12_377_fp2",
    "C15_alt_bn128_fp2",
    "C15_bn128_fp2",
    "C15_mnt4_fp2",
    "C15_mnt6_fp3",
    "C15_prime",
    "C15_mnt4_base",
    "C15_mnt6_base",
    "C15_bls12_381_base",
    "C15_bls12_377_base",
    "C15_bls12_381_scalar",
    "C15_bls12_377_scalar",
    "C15_alt_bn128_base",
    "C15_alt_bn128_scalar",
    "C15_curve25519_base",
    "C15_edwards_base"
   ],
   "note": "Every shipped fp2 and fp3 class with the constant (edwards fp3 ships none) and the ten prime fields with the constant; C15_prime covers every odd prime. powm is external and taken as the integer power."
  },
  {
   "property": "C16",
   "status": "partial",
   "theorems": [
    "C16_add_partial",
    "C16_double_partial",
    "C16_neg",
    "C16_sub_partial",
    "C16_two_torsion_refuted",
    "C16_neg_standard_inf_refuted"
   ],
   "note": "Proved for every pair except doubling a point of order 2 (refuted: the code inverts zero); negation needs zero_fill = (0,0) (refuted for (0,1))."
  },
  {
   "property": "C17",
   "status": "proved",
   "theorems": [
    "C17_jacobian",
    "C17_jacobian_a4_0",
    "C17_jacobian_a4_minus_3"
   ],
   "note": "General, a4 = 0 and a4 = -3 families, any representatives, all exceptional cases."
  },
  {
   "property": "C18",
   "status": "proved",
   "theorems": [
    "C18_projective"
   ],
   "note": ""
  },
  {
   "property": "C19",
   "status": "partial",
   "theorems": [
    "C19_te_affine_equal",
    "C19_to_extended_partial",
    "C19_to_extended_refuted",
    "C19_montgomery_equal",
    "C19_jacobian_eqb",
    "C19_projective_eqb",
    "C19_affine_eqb",
    "C19_jacobian_to_affine",
    "C19_projective_to_affine",
    "C19_jacobian_a4_minus_3_to_affine_partial",
    "C19_jacobian_to_projective",
    "C19_to_projective_to_affine",
    "C19_jacobian_a4_minus_3_to_affine_refuted"
   ],
   "note": "==, to_affine for every family; Jacobian a4=-3 to_affine refuted; affine to_extended of the identity with zero_fill (0,0) refuted, other points proved; to_inverted under C25."
  },
  {
   "property": "C20",
   "status": "partial",
   "theorems": [
    "C20_extended_partial",
    "C20_extended_odd_partial",
    "C20_extended_refuted",
    "C20_inverted_partial",
    "C20_edwards_zero_refuted",
    "C20_projective",
    "C20_jacobian_partial",
    "C20_jacobian_equal_refuted"
   ],
   "note": "Projective proved for all operands. Jacobian: wrong exactly for P = Q (refuted). Extended twisted Edwards: proved when P-Q has no zero coordinate (in particular for distinct points of odd order), refuted for P = Q. Inverted: proved when the sum is representable. forms/edwards mixed_add from the identity refuted."
  },
  {
   "property": "C21",
   "status": "partial",
   "theorems": [
    "C21_te_affine",
    "C21_extended_partial",
    "C21_extended_refuted",
    "C21_inverted_partial",
    "C21_inverted_refuted",
    "C21_montgomery",
    "C21_edwards_g2_partial",
    "C21_edwards_g2_refuted",
    "C21_jacobian",
    "C21_jacobian_a4_0",
    "C21_jacobian_a4_minus_3",
    "C21_projective",
    "C21_projective_a4_minus_3_refuted",
    "C21_projective_a4_minus_3_partial"
   ],
   "note": "Proved for short Weierstrass families except projective a4=-3 (refuted: it tests membership of y^2 = x^3 - x + b, proved exactly), affine twisted Edwards and Montgomery. Extended accepts one further quadruple (0,0,0,0), inverted further triples (0,Y,0) (exact characterisation proved, exactness refuted)."
  },
  {
   "property": "C22",
   "status": "partial",
   "theorems": [
    "C22_group",
    "C22_add",
    "C22_double",
    "C22_neg_partial",
    "C22_sub_partial",
    "C22_neg_refuted",
    "C22_sub_refuted",
    "C22_zero",
    "C22_assign"
   ],
   "note": "+, += and doubling proved for all points incl. infinity and 2-torsion; - proved for finite operands and refuted for the identity (the flag is dropped, P - O becomes P + (0,0))."
  },
  {
   "property": "C23",
   "status": "proved",
   "theorems": [
    "C23_group",
    "C23_defined",
    "C23_add",
    "C23_double",
    "C23_neg",
    "C23_sub",
    "C23_zero"
   ],
   "note": "Any field of odd characteristic, a non-zero square, d non-square."
  },
  {
   "property": "C24",
   "status": "proved",
   "theorems": [
    "C24_add",
    "C24_neg",
    "C24_sub",
    "C24_double",
    "C24_equal",
    "C24_zero",
    "C24_to_affine"
   ],
   "note": "a = -1, as the class requires."
  },
  {
   "property": "C25",
   "status": "partial",
   "theorems": [
    "C25_add_partial",
    "C25_double_partial",
    "C25_neg",
    "C25_sub_partial",
    "C25_equal",
    "C25_zero",
    "C25_to_affine",
    "C25_to_inverted_partial",
    "C25_of_affine_partial",
    "C25_odd_partial",
    "C25_add_refuted",
    "C25_to_inverted_refuted",
    "C25_edwards_partial",
    "C25_edwards_g2",
    "C25_edwards_g2_reduce",
    "C25_edwards_g2_zero",
    "C25_edwards_g2_to_affine_refuted"
   ],
   "note": "Inverted coordinates cannot hold points with a zero coordinate: operations proved whenever the result is representable (always for points of odd order); (x,y)+(x,-y) and to_inverted of the identity refuted."
  },
  {
   "property": "C26",
   "status": "partial",
   "theorems": [
    "C26_te_affine",
    "C26_extended_partial",
    "C26_extended_order_partial",
    "C26_inverted_partial",
    "C26_montgomery",
    "C26_extended_refuted",
    "C26_projective",
    "C26_jacobian_partial",
    "C26_jacobian_a4_0_partial",
    "C26_jacobian_a4_minus_3_partial",
    "C26_affine_partial",
    "C26_affine_no_two_torsion",
    "C26_affine_odd_order",
    "C26_affine_refuted",
    "C26_jacobian_refuted",
    "C26_jacobian_a4_0_refuted",
    "C26_jacobian_a4_minus_3_refuted"
   ],
   "note": "Projective, affine twisted Edwards and Montgomery: every point and scalar. Jacobian and extended: every scalar when Z is not 1, otherwise below the order of the point (refuted beyond). Inverted: every point of odd order, every scalar. Affine Weierstrass: every point none of whose multiples has order 2 (curves without 2-torsion, points of odd order), refuted for the point of order 2."
  },
  {
   "property": "C27",
   "status": "proved",
   "theorems": [
    "C27_edwards_g2",
    "C27_closed",
    "C27_associative",
    "C27_commutative",
    "C27_identity",
    "C27_inverse"
   ],
   "note": "Any non-singular curve over any field of characteristic other than 2."
  },
  {
   "property": "C28",
   "status": "proved",
   "theorems": [
    "C28_to_montgomery",
    "C28_to_twisted_edwards"
   ],
   "note": "All points, including the 2-torsion point; sqrt is any function finding roots of non-zero squares."
  },
  {
   "property": "C29",
   "status": "proved",
   "theorems": [
    "C29_short_weierstrass",
    "C29_short_weierstrass_order",
    "C29_alt_bn128_g2",
    "C29_bls12_377_g2",
    "C29_bls12_381_g2",
    "C29_mnt4_g2",
    "C29_mnt6_g2",
    "C29_twisted_edwards",
    "C29_edwards_g1",
    "C29_montgomery",
    "C29_edwards_g2_coefficients",
    "C29_edwards_g2",
    "C29_projective_class",
    "C29_jacobian_class",
    "C29_te_affine_class",
    "C29_extended_class"
   ],
   "note": "All shipped G1/G2 constants: on the curve, not the identity, r*G = O; exact order r for every curve. edwards G2 uses its own class (Model/EdwardsG2.v)."
  },
  {
   "property": "C30",
   "status": "partial",
   "theorems": [
    "C30_all_moduli_prime_refuted",
    "C30_moduli_prime_partial",
    "C30_every_nonzero_invertible_partial"
   ],
   "note": "Every shipped modulus of at most 521 bits proved prime by Pocklington and elliptic curve certificates; the 1024- to 8192-bit dsa/modp/ffdhe/srp moduli are not certified; sect_k1<163>'s base modulus (2^163) refuted."
  },
  {
   "property": "C31",
   "status": "proved",
   "theorems": [
    "C31_inner_product",
    "C31_naive"
   ],
   "note": "Naive policy for any point class implementing a commutative group (instances: projective, affine Edwards; Jacobian on the prime-order subgroup), inner_product over any commutative ring."
  },
  {
   "property": "C32",
   "status": "proved",
   "theorems": [
    "C32_bdlo12",
    "C32_empty"
   ],
   "note": "All non-empty inputs; std::log2 taken exact and 1 << c not overflowing (length < 2^43)."
  },
  {
   "property": "C33",
   "status": "partial",
   "theorems": [
    "C33_bos_coster_partial",
    "C33_zero_refuted"
   ],
   "note": "Terminates with the sum whenever some scalar is non-zero or there is at most one base; two or more scalars all zero throw (refuted). find_wnaf and std::make_heap by contract."
  },
  {
   "property": "C34",
   "status": "partial",
   "theorems": [
    "C34_naive",
    "C34_bdlo12",
    "C34_bos_coster_partial",
    "C34_zero_chunks"
   ],
   "note": "Naive and BDLO12 for all inputs and chunk counts >= 1; Bos-Coster when every scalar is non-zero (a chunk of zero scalars throws, see C33)."
  },
  {
   "property": "C35",
   "status": "partial",
   "theorems": [
    "C35_naive",
    "C35_bos_coster",
    "C35_bdlo12_partial",
    "C35_bdlo12_refuted"
   ],
   "note": "Naive and Bos-Coster: all inputs. BDLO12: at least one scalar outside {0,1}; otherwise refuted (empty input to the bucket method)."
  },
  {
   "property": "C36",
   "status": "proved",
   "theorems": [
    "C36_windowed_exp",
    "C36_batch_exp",
    "C36_batch_exp_with_coeff"
   ],
   "note": ""
  },
  {
   "property": "C37",
   "status": "proved",
   "theorems": [
    "C37_fixed_window",
    "C37_opt_window"
   ],
   "note": "find_wnaf by contract, with a reference implementation proved to meet it; opt_window falls back on scalar * point, whose validity is C26."
  },
  {
   "property": "C38",
   "status": "partial",
   "theorems": [
    "C38_exp_window_partial",
    "C38_zero_refuted",
    "C38_shipped",
    "C38_thresholds",
    "C38_lowmem",
    "C38_wnaf_window"
   ],
   "note": "Exact characterisation for any non-empty table; shipped tables: every n >= 1, and their thresholds grow with the window. n = 0 reads out of bounds (refuted). The LOWMEM build and the window choice of opt_window_wnaf_exp are characterised as well."
  },
  {
   "property": "C39",
   "status": "proved",
   "theorems": [
    "C39_g1_compressed",
    "C39_g1_uncompressed",
    "C39_g2_compressed",
    "C39_g2_uncompressed",
    "C39_g1_compressed_format",
    "C39_g1_uncompressed_format",
    "C39_g2_compressed_format",
    "C39_g2_uncompressed_format",
    "C39_infinity_format"
   ],
   "note": "bls12-381 G1 and G2, all curve points, every Jacobian representation, both formats, plus the octet format of the draft. export_bits/import_bits and ressol by contract (contracts shown satisfiable)."
  },
  {
   "property": "C40",
   "status": "partial",
   "theorems": [
    "C40_g1_compressed_partial",
    "C40_g1_uncompressed_partial",
    "C40_g2_compressed_partial",
    "C40_g2_uncompressed_partial",
    "C40_g1_compressed_refuted",
    "C40_g1_uncompressed_refuted",
    "C40_g2_compressed_refuted",
    "C40_g2_uncompressed_refuted",
    "C40_infinity_refuted",
    "C40_coordinate_refuted"
   ],
   "note": "Proved: accepted strings give curve points, and canonical ones re-encode to themselves. Refuted: no subgroup check (witness points of order 3 and 13), x = p accepted, garbage after the infinity flag accepted."
  },
  {
   "property": "C41",
   "status": "partial",
   "theorems": [
    "C41_prime_roundtrip_shipped",
    "C41_prime_roundtrip",
    "C41_prime_accepts",
    "C41_prime_length",
    "C41_output_partial",
    "C41_output_refuted",
    "C41_extension_roundtrip",
    "C41_extension_accepts",
    "C41_bls12_381_fp2",
    "C41_bls12_381_fp12"
   ],
   "note": "Round trip into zeroed buffers and acceptance for prime fields and towers; determinacy of the output refuted (stale octets above the top non-zero one), with the exact behaviour proved."
  },
  {
   "property": "C42",
   "status": "partial",
   "theorems": [
    "C42_prime_field_multiplicity",
    "C42_uniform_nonzero_partial",
    "C42_uniform_refuted",
    "C42_extension_multiplicity",
    "C42_group_value",
    "C42_group_multiplicity"
   ],
   "note": "Prime field, extension and group draws: every non-zero element has the same multiplicity; zero is hit twice (the drawn interval is 0..p inclusive), so uniformity is refuted. The underlying integer distribution is trusted to be uniform on its documented closed interval."
  },
  {
   "property": "C43",
   "status": "proved",
   "theorems": [
    "C43_any_suite",
    "C43_g1",
    "C43_g2"
   ],
   "note": "The headers with the suite constants and sgn0 are not in the repository: proved for any suite meeting the conditions, and for the constants of RFC 9380. Relies on the contract inverse_mod(0) = 0."
  },
  {
   "property": "C44",
   "status": "partial",
   "theorems": [
    "C44_g2",
    "C44_g1_partial",
    "C44_g1_refuted",
    "C44_reachable"
   ],
   "note": "G2: every point of E', denominators never vanish. G1: always a curve point (C44_g1_partial), but at the kernel points it is the generator instead of the identity (C44_g1_refuted), and map_to_curve reaches one (C44_reachable). Points are given with Z = 1, as map_to_curve does: iso_map ignores Z."
  },
  {
   "property": "C45",
   "status": "partial",
   "theorems": [
    "C45_bls12_381",
    "C45_bls12_381_exponent",
    "C45_bls12_381_order",
    "C45_alt_bn128_refuted",
    "C45_alt_bn128_partial",
    "C45_alt_bn128_declared"
   ],
   "note": "bls12-381: exponent exactly 3*(p^12-1)/r for every non-zero f. alt_bn128 is instantiated with the BLS12 chain: refuted, with the exponent it does compute and when the result has order r proved for every f. bls12-377 has no usable pairing parameters (its params.hpp is ill-formed)."
  },
  {
   "property": "C46",
   "status": "proved",
   "theorems": [
    "C46_mnt4",
    "C46_mnt6",
    "C46_edwards",
    "C46_declared_exponents"
   ],
   "note": "mnt4, mnt6, edwards: exponent exactly (p^k-1)/r for every non-zero f; the declared constants agree. find_wnaf by contract (shown satisfiable)."
  },
  {
   "property": "C47",
   "status": "proved",
   "theorems": [
    "C47_bls12_381_doubling_step",
    "C47_bls12_381_addition_step",
    "C47_bls12_381_running_point",
    "C47_bls12_381_double_miller_loop",
    "C47_mnt4_doubling_step",
    "C47_mnt4_addition_step",
    "C47_mnt4_running_point",
    "C47_mnt4_double_miller_loop",
    "C47_mnt6_doubling_step",
    "C47_mnt6_addition_step",
    "C47_mnt6_running_point",
    "C47_mnt6_double_miller_loop",
    "C47_edwards_doubling_step",
    "C47_edwards_addition_step",
    "C47_edwards_full_addition_step",
    "C47_edwards_running_point",
    "C47_edwards_double_miller_loop"
   ],
   "note": "bls12-381, mnt4, mnt6 and edwards<183>: doubling and addition steps, running point [n]Q, exact consumption of the coefficient vectors, product formula for any stored points. alt_bn128 and bls12-377 have no well-formed pairing parameters."
  },
  {
   "property": "C48",
   "status": "partial",
   "theorems": [
    "C48_bls12_381_left_partial",
    "C48_bls12_381_left_one",
    "C48_bls12_381_refuted",
    "C48_mnt4_left_partial",
    "C48_mnt4_left_one",
    "C48_mnt4_refuted",
    "C48_mnt4_std_refuted",
    "C48_mnt6_left_partial",
    "C48_mnt6_left_one",
    "C48_mnt6_refuted",
    "C48_edwards_left",
    "C48_edwards_refuted"
   ],
   "note": "edwards-183 with P = O: proved. bls12-381, mnt4-298, mnt6-298 with P = O: the value is 1 or 0; missing: that it is never 0 (it is 1 at g2::one()). Q = O: refuted for all four pairings (bls12-381 and edwards-183 return 0 for every P, mnt4-298 returns 0 or, in the standard build, some value other than 1). mnt6-298 with Q = O: 0 at the point P = (0, sqrt b) of order r."
  },
  {
   "property": "C49",
   "status": "partial",
   "theorems": [
    "C49_rref",
    "C49_rank",
    "C49_inverse",
    "C49_det_partial",
    "C49_det_refuted",
    "C49_default_tolerance_refuted",
    "C49_inverse_default_tolerance_refuted",
    "C49_zero_tolerance_refuted"
   ],
   "note": "Proved for exact arithmetic with an exact zero test: rref is in reduced row-echelon form and row-equivalent, rank is the matrix rank, inverse is the two-sided inverse of every invertible matrix. det returns the inverse of the determinant (C49_det_partial, C49_det_refuted). With the shipped default tolerance rank, rref and inverse are wrong on small entries (refuted), and a zero tolerance also fails (refuted). The overload rref(m, tolerance) at matrix/math.hpp:277 does not type-check and is not modelled. Floating point rounding is not modelled."
  },
  {
   "property": "C50",
   "status": "partial",
   "theorems": [
    "C50_transpose",
    "C50_horzcat",
    "C50_vertcat",
    "C50_submat",
    "C50_reshape",
    "C50_repmat",
    "C50_fill",
    "C50_as_column",
    "C50_as_row",
    "C50_elementwise_one",
    "C50_elementwise_two",
    "C50_swaprow",
    "C50_swaprow_out_of_range",
    "C50_swapcol_square_partial",
    "C50_swapcol_tall",
    "C50_swapcol_wide_refuted",
    "C50_swapcol_tall_refuted",
    "C50_identity",
    "C50_matmul",
    "C50_vectmatmul",
    "C50_matvectmul",
    "C50_kron",
    "C50_trace",
    "C50_operators_matrix",
    "C50_operators_scalar",
    "C50_equality",
    "C50_hermitian",
    "C50_conjugate",
    "C50_norms",
    "C50_abs_real"
   ],
   "note": "All structural operations proved for every shape, except swapcol which is correct for square matrices only (C50_swapcol_square_partial); for tall matrices only the first rows are swapped, for wide matrices the access is out of bounds (refuted)."
  },
  {
   "property": "C51",
   "status": "proved",
   "theorems": [
    "C51_operators_vector",
    "C51_operators_scalar",
    "C51_inequality",
    "C51_conjugate",
    "C51_elementwise_one",
    "C51_elementwise_two",
    "C51_accumulate",
    "C51_fill",
    "C51_iota",
    "C51_generate",
    "C51_linspace",
    "C51_rotate",
    "C51_slice",
    "C51_slice_out_of_range",
    "C51_concat",
    "C51_sum",
    "C51_dot",
    "C51_min",
    "C51_max",
    "C51_min_defined",
    "C51_max_defined",
    "C51_min_index",
    "C51_max_index",
    "C51_equality"
   ],
   "note": "All lengths and arguments; slice past the end is an explicit undefined outcome."
  },
  {
   "property": "C52",
   "status": "partial",
   "theorems": [
    "C52_negative_rejected",
    "C52_positive_partial",
    "C52_exact_partial",
    "C52_zero_refuted",
    "C52_infinity_refuted",
    "C52_nan_refuted",
    "C52_nearest_refuted"
   ],
   "note": "Every positive finite double: returns one of the two doubles next to the root, the exact root of a square. Negative arguments rejected. Refuted: sqrt(0), sqrt(inf), sqrt(NaN) never return; sqrt(2) is not the nearest double."
  },
  {
   "property": "C53",
   "status": "partial",
   "theorems": [
    "C53_totient_partial",
    "C53_totient_refuted",
    "C53_totient_list",
    "C53_totient_list_refuted"
   ],
   "note": "totient is Euler's function whenever the factorisation handed to it is correct; totient_list lists the coprime residues for n >= 2; n = 1 refuted. Correctness of the factorisation is C54."
  },
  {
   "property": "C54",
   "status": "partial",
   "theorems": [
    "C54_factorize_partial",
    "C54_pollard_divisor",
    "C54_pollard_terminates",
    "C54_terminates_refuted",
    "C54_product_refuted",
    "C54_reduced_refuted"
   ],
   "note": "When prime_factorize returns, the factors are primes with product n, unless the perfect-square defect fires. Refuted: prime_factorize(9) diverges with the default-seeded mt19937, and the product can be wrong. is_prime is a parameter with its contract as hypothesis."
  },
  {
   "property": "C55",
   "status": "partial",
   "theorems": [
    "C55_ranges",
    "C55_ranges_rejects",
    "C55_ranges_release",
    "C55_iterators_partial",
    "C55_iterators_refuted"
   ],
   "note": "The range overload is proved for all inputs, including rejection of unequal lengths; the iterator overload has no return statement (undefined behaviour, refuted) but writes the right octets."
  },
  {
   "property": "C56",
   "status": "partial",
   "theorems": [
    "C56_projective",
    "C56_jacobian_partial",
    "C56_te_affine",
    "C56_jacobian_refuted"
   ],
   "note": "Equivalence proved for projective and Edwards-affine classes; for Jacobian classes under the no-collision hypothesis of C20, and refuted without it: a bls12-381 G1 point of order 3 is accepted."
  },
  {
   "property": "C57",
   "status": "proved",
   "theorems": [
    "C57_fp_helpers",
    "C57_fp_order",
    "C57_fp2_mul_x",
    "C57_fp2_mul_x_other_nonresidue_refuted",
    "C57_fp_integer_operators"
   ],
   "note": "mul_x/mul_xi only for non_residue -1 (refuted otherwise)."
  },
  {
   "property": "C58",
   "status": "partial",
   "theorems": [
    "C58_first_prime",
    "C58_next_prime",
    "C58_previous_prime",
    "C58_next_prime_refuted"
   ],
   "note": "Nearest-prime property proved whenever the search returns; next_prime from a start sharing a factor with m (9, 3) never returns (refuted). is_prime is a parameter with its contract as hypothesis."
  },
  {
   "property": "C59",
   "status": "partial",
   "theorems": [
    "C59_exponentiate",
    "C59_exponentiate_negative",
    "C59_exponentiate_refuted",
    "C59_double_range",
    "C59_double_zero",
    "C59_double_overflow",
    "C59_double_underflow",
    "C59_double"
   ],
   "note": "Exact over every field for every int exponent except INT_MIN, where -n overflows (refuted). For doubles: proved for every finite x and every exponent but INT_MIN: relative error |n| * 2^-51 for powers in 2^-1021..2^1021, with an absolute error |n| * 2^-1073 below, the infinity of the right sign from 2^1025 on and that or the power up to the relative error in between."
  },
  {
   "property": "C60",
   "status": "partial",
   "theorems": [
    "C60_terminates_refuted",
    "C60_zero_refuted",
    "C60_zero_square_refuted",
    "C60_negative_index_refuted",
    "C60_negative_rejected",
    "C60_result_partial",
    "C60_index_one_partial",
    "C60_index_two_partial"
   ],
   "note": "Termination is refuted: nthroot(4, 3) alternates between two neighbouring doubles for ever, nthroot(0, 3) ends in NaN for ever; nthroot(0, 2) is 2^-1074 and nthroot(8, -3) is -inf. Every value returned for n >= 1 is proved to satisfy |r^n - x| <= n * 2^-51 * r^n when r is at least 2^-1000 and r^(n-1) is in 2^-1021..2^1021. For n = 1 every non-negative finite x is returned exactly within three turns, and for n = 2 every positive finite x yields one of the two doubles next to its square root. Which inputs make it return for n >= 3 is not characterised."
  },
  {
   "property": "C61",
   "status": "proved",
   "theorems": [
    "C61_g1",
    "C61_g2"
   ],
   "note": "RFC 9380 constants; ressol contract for Fp, enough fuel for the Fp2 square root loop."
  },
  {
   "property": "C62",
   "status": "proved",
   "theorems": [
    "C62_bls12_381",
    "C62_mnt4",
    "C62_mnt6",
    "C62_edwards"
   ],
   "note": "bls12-381, mnt4-298, mnt6-298 and edwards-183; find_wnaf by contract (satisfied by the reference digits)."
  },
  {
   "property": "C63",
   "status": "proved",
   "theorems": [
    "C63_bls12_381_negate",
    "C63_mnt4_negate",
    "C63_mnt6_negate",
    "C63_bls12_381",
    "C63_bls12_381_add_left",
    "C63_bls12_381_add_right",
    "C63_mnt4",
    "C63_mnt4_add_left",
    "C63_mnt4_add_right",
    "C63_mnt6",
    "C63_mnt6_add_left",
    "C63_mnt6_add_right",
    "C63_edwards",
    "C63_edwards_add_left",
    "C63_edwards_add_right"
   ],
   "note": "All four pairings (find_wnaf by contract)."
  },
  {
   "property": "C64",
   "status": "partial",
   "theorems": [
    "C64_two_adicity",
    "C64_root_of_unity",
    "C64_coset_shift",
    "C64_nqr",
    "C64_montgomery_radix",
    "C64_group_order_half",
    "C64_group_order_refuted",
    "C64_arithmetic_generator",
    "C64_multiplicative_generator",
    "C64_ed25519_multiplicative_generator",
    "C64_geometric_generator_partial",
    "C64_goldilocks_geometric_order",
    "C64_geometric_generator_refuted",
    "C64_extension_nqr",
    "C64_extension_params_agree",
    "C64_extension_list",
    "C64_dl_groups",
    "C64_dl_order"
   ],
   "note": "two-adicity, roots of unity, generators, coset shift, nqr, radix constants: all 15 prime fields; nqr of all 7 extensions. Refuted: group_order is (p-1)/2; geometric_generator of goldilocks64 has order 192 < 2^32."
  },
  {
   "property": "C65",
   "status": "partial",
   "theorems": [
    "C65_domain_parameters_partial",
    "C65_x962_p192v3_refuted",
    "C65_x962_p192v3_own_order",
    "C65_nist_primes"
   ],
   "note": "14 of 15 parameter sets and the four NIST primes. Refuted for x962_p_v3<192>, which takes its q from x962_p_v2<192>."
  },
  {
   "property": "C66",
   "status": "proved",
   "theorems": [
    "C66_bls12_381",
    "C66_mnt4",
    "C66_mnt6",
    "C66_edwards"
   ],
   "note": "All four pairings (find_wnaf by contract)."
  },
  {
   "property": "C67",
   "status": "partial",
   "theorems": [
    "C67_static_shl",
    "C67_static_shr",
    "C67_shr",
    "C67_shl_partial",
    "C67_shl_wraps",
    "C67_shl_refuted",
    "C67_low_bits",
    "C67_low_bits_typed",
    "C67_low_bits_none",
    "C67_low_bits_narrow",
    "C67_low_bits_narrow_refuted",
    "C67_low_bits_dynamic",
    "C67_high_bits"
   ],
   "note": "All forms proved except run-time unbounded_shl, which shifts by n mod width from n = width on (refuted for every non-zero value)."
  },
  {
   "property": "C68",
   "status": "partial",
   "theorems": [
    "C68_joined_nil",
    "C68_joined_snoc",
    "C68_make_partial",
    "C68_make_refuted",
    "C68_make_signed_partial",
    "C68_make_negative_refuted",
    "C68_int_octets_refuted",
    "C68_make_long_refuted",
    "C68_make_int_refuted",
    "C68_extract",
    "C68_roundtrip"
   ],
   "note": "Proved for arguments of 8 and 16 bits, and of 32 bits for a 64-bit result; other argument types are shifted by at least the width of the promoted result, which is undefined (refuted). Signed argument types: proved for non-negative arguments of 7, 15, 31 or 63 digits; a negative one overwrites those before it, octets given as int end up 31 bits apart, and the wider types are undefined for narrow results (refuted)."
  },
  {
   "property": "C69",
   "status": "partial",
   "theorems": [
    "C69_real",
    "C69_zero_sign_refuted",
    "C69_complex_partial",
    "C69_complex_exact_partial",
    "C69_complex_refuted",
    "C69_underflow_refuted",
    "C69_out_of_range_refuted",
    "C69_complex_returns_partial",
    "C69_complex",
    "C69_precision_refuted"
   ],
   "note": "Real: proved for every finite double. Complex: relative error 2^-51 proved when each part is 0 or between 2^-511 and 2^511 in absolute value; exact neighbour of the modulus when nothing rounds; returns with an absolute error whenever both parts are at most 2^511 and one is at least 2^-537. Refuted: abs(+0) is -0; abs never returns when a part is at least 2^512 or both are at most 2^-538; abs(1.5 * 2^-537) is off by 5%. Every pair of finite parts is covered: it returns with that absolute error, or never returns and a part is above 2^511 or both are below 2^-537."
  },
  {
   "property": "C70",
   "status": "partial",
   "theorems": [
    "C70_fields",
    "C70_curves",
    "C70_readable",
    "C70_montgomery_refuted",
    "C70_montgomery_partial"
   ],
   "note": "Proved for every field, tower and coordinate class except Montgomery, whose identity flag is not printed (refuted; proved for two finite or two identity points). The digits of a residue are printed by the multiprecision library: plain decimal assumed."
  },
  {
   "property": "C71",
   "status": "partial",
   "theorems": [
    "C71_fp",
    "C71_extensions",
    "C71_points",
    "C71_jacobian_a4_refuted",
    "C71_precomputed_g1",
    "C71_precomputed_g2_refuted",
    "C71_precomputed_g2_partial"
   ],
   "note": "Proved for fields, towers, affine, projective, plain Jacobian, Edwards and Montgomery points and for the G1 precomputation. Refuted for every point of the jacobian_with_a4_0 and jacobian_with_a4_minus_3 classes (missing quotation marks) and for every G2 precomputation with coefficients (a comma after the last coefficient, proved to be the only fault)."
  },
  {
   "property": "C72",
   "status": "proved",
   "theorems": [
    "C72_modp",
    "C72_srp",
    "C72_ffdhe",
    "C72_shape",
    "C72_unique"
   ],
   "note": "All seven modp_ietf moduli, the five ffdhe_ietf moduli and the four modp_srp moduli shared with RFC 3526, against pi and e as real numbers. The three smaller SRP moduli have no such formula and are not covered."
  },
  {
   "property": "C73",
   "status": "proved",
   "theorems": [
    "C73_modulus_bits",
    "C73_integral_type",
    "C73_extended_type",
    "C73_value_bits",
    "C73_point_bits"
   ],
   "note": "All 94 moduli; the point statement over the prime fields, given that the modulus is prime (C30)."
  },
  {
   "property": "C74",
   "status": "partial",
   "theorems": [
    "C74_prime_order_subgroup_partial",
    "C74_primitive_root_partial",
    "C74_least_partial",
    "C74_residue_partial",
    "C74_euler",
    "C74_alt_bn128"
   ],
   "note": "Proved for all 19 groups given that p and (p-1)/2 are prime, which the RFCs assert and which is not proved here (see C30); that the generators are squares or non-squares and the least such needs the primality of p only. alt_bn128 without hypothesis."
  }
 ]
}