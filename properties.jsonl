{"id": "C01", "title": "pow is repeated multiplication", "statement": "x.pow(e) equals the product of e copies of x (and one() for e = 0), whatever field or extension the element lives in.", "quantifier": "every element of every commutative ring instance, every non-negative exponent", "why_tests_cant": "exponents are hundreds to thousands of bits; a square-and-multiply slip shows only on particular bit patterns", "anchors": ["include/nil/crypto3/algebra/fields/detail/exponentiation.hpp: power", "include/nil/crypto3/algebra/fields/detail/element/fp2.hpp: pow", "include/nil/crypto3/algebra/fields/detail/element/fp12_2over3over2.hpp: pow"]}
{"id": "C02", "title": "Fp2 arithmetic is arithmetic modulo u^2 - non_residue", "statement": "For quadratic extension elements, +, -, unary -, *, *=, squared, doubled and scalar multiplication return the coefficients of the corresponding polynomial operation reduced modulo u^2 = non_residue; * and *= and squared agree with each other.", "quantifier": "all pairs of elements, any base field, any non_residue", "why_tests_cant": "Karatsuba/complex-squaring shortcuts are polynomial identities in four unknowns; sampling cannot establish an identity for every field", "anchors": ["include/nil/crypto3/algebra/fields/detail/element/fp2.hpp: operator*, operator*=, squared, operator+, operator-"]}
{"id": "C03", "title": "Fp2 inversion", "statement": "If the non_residue is not a square then every non-zero Fp2 element times its inversed() is one(), and inversed() is never applied to a zero norm.", "quantifier": "all non-zero elements, any base field with a non-square non_residue", "why_tests_cant": "requires that the norm a0^2 - nr*a1^2 has no zero, a statement about all q^2-1 elements", "anchors": ["include/nil/crypto3/algebra/fields/detail/element/fp2.hpp: inversed"]}
{"id": "C04", "title": "Fp3 arithmetic and inversion", "statement": "For cubic extension elements every ring operation returns the coefficients of the product/sum modulo u^3 = non_residue, and when non_residue is not a cube every non-zero element times its inversed() is one().", "quantifier": "all elements, any base field, any non_residue (non-cube for inversion)", "why_tests_cant": "polynomial identities in six unknowns and an irreducibility argument", "anchors": ["include/nil/crypto3/algebra/fields/detail/element/fp3.hpp: operator*, operator*=, squared, inversed"]}
{"id": "C05", "title": "Fp4 tower arithmetic and inversion", "statement": "Fp4 operations (*, *=, squared, inversed, mul_by_non_residue) realise Fp2[w]/(w^2 - u); every non-zero element has inversed() as its inverse when u is not a square in Fp2.", "quantifier": "all elements, any underlying field and non_residue", "why_tests_cant": "identity over all elements of a 4-dimensional algebra", "anchors": ["include/nil/crypto3/algebra/fields/detail/element/fp4.hpp: operator*, squared, inversed, mul_by_non_residue"]}
{"id": "C06", "title": "Fp6 (3 over 2) tower arithmetic and inversion", "statement": "Fp6_3over2 operations realise Fp2[v]/(v^3 - xi); inversed() is the inverse of every non-zero element when xi is not a cube.", "quantifier": "all elements, any underlying field and non_residue", "why_tests_cant": "identity over all elements of a 6-dimensional algebra", "anchors": ["include/nil/crypto3/algebra/fields/detail/element/fp6_3over2.hpp: operator*, operator*=, squared, inversed"]}
{"id": "C07", "title": "Fp6 (2 over 3) tower arithmetic and inversion", "statement": "Fp6_2over3 operations (including the complex squaring) realise Fp3[w]/(w^2 - u); inversed() is the inverse of every non-zero element when u is not a square in Fp3.", "quantifier": "all elements, any underlying field and non_residue", "why_tests_cant": "identity over all elements of a 6-dimensional algebra", "anchors": ["include/nil/crypto3/algebra/fields/detail/element/fp6_2over3.hpp: operator*, squared, inversed, mul_by_non_residue"]}
{"id": "C08", "title": "Fp12 tower arithmetic and inversion", "statement": "Fp12_2over3over2 operations realise Fp6[w]/(w^2 - v); inversed() is the inverse of every non-zero element when v is not a square in Fp6.", "quantifier": "all elements, any underlying field and non_residue", "why_tests_cant": "identity over all elements of a 12-dimensional algebra", "anchors": ["include/nil/crypto3/algebra/fields/detail/element/fp12_2over3over2.hpp: operator*, squared, inversed, mul_by_non_residue"]}
{"id": "C09", "title": "shipped extension towers are fields", "statement": "With the shipped constants (modulus, non_residue) the towers of bls12-381, bls12-377, alt_bn128, mnt4-298, mnt6-298 and edwards-183 are fields: every non-zero element of GT's field has an inverse and inversed() computes it.", "quantifier": "all non-zero elements of the concrete shipped towers", "why_tests_cant": "a wrong non_residue constant leaves almost all elements invertible; only an irreducibility proof excludes zero divisors", "anchors": ["include/nil/crypto3/algebra/fields/detail/extension_params/bls12/fp2.hpp: non_residue", "include/nil/crypto3/algebra/fields/detail/extension_params/bls12/fp6_3over2.hpp: non_residue", "include/nil/crypto3/algebra/fields/detail/extension_params/mnt4/fp4.hpp", "include/nil/crypto3/algebra/fields/detail/extension_params/mnt6/fp6_2over3.hpp", "include/nil/crypto3/algebra/fields/detail/extension_params/edwards/fp6_2over3.hpp"]}
{"id": "C10", "title": "Frobenius_map(k) is the p^k-power map", "statement": "For every shipped extension field, x.Frobenius_map(k) equals x raised to modulus^k, for every k.", "quantifier": "all elements x, all k >= 0, every shipped (field, constant table) pair", "why_tests_cant": "one wrong entry in a coefficient table affects only one residue of k; x^(p^k) for larger k is too big to compute directly in a test of all k and x", "anchors": ["include/nil/crypto3/algebra/fields/detail/element/fp2.hpp: Frobenius_map", "include/nil/crypto3/algebra/fields/detail/element/fp3.hpp: Frobenius_map", "include/nil/crypto3/algebra/fields/detail/element/fp4.hpp: Frobenius_map", "include/nil/crypto3/algebra/fields/detail/element/fp6_2over3.hpp: Frobenius_map", "include/nil/crypto3/algebra/fields/detail/element/fp6_3over2.hpp: Frobenius_map", "include/nil/crypto3/algebra/fields/detail/element/fp12_2over3over2.hpp: Frobenius_map", "include/nil/crypto3/algebra/fields/detail/extension_params/mnt6/fp6_2over3.hpp: Frobenius_coeffs_c1", "include/nil/crypto3/algebra/fields/detail/extension_params/bn128/fp6_3over2.hpp: Frobenius_coeffs_c1"]}
{"id": "C11", "title": "unitary inverse and cyclotomic squaring", "statement": "On elements of the cyclotomic subgroup, unitary_inversed() is the multiplicative inverse and cyclotomic_squared() equals squared().", "quantifier": "all elements of the cyclotomic subgroup of Fp4, Fp6_2over3 and Fp12", "why_tests_cant": "the special formulas are only valid on the subgroup; the identity must hold for every member", "anchors": ["include/nil/crypto3/algebra/fields/detail/element/fp4.hpp: cyclotomic_squared, unitary_inversed", "include/nil/crypto3/algebra/fields/detail/element/fp6_2over3.hpp: cyclotomic_squared", "include/nil/crypto3/algebra/fields/detail/element/fp12_2over3over2.hpp: cyclotomic_squared"]}
{"id": "C12", "title": "cyclotomic_exp is pow on the cyclotomic subgroup", "statement": "For every x in the cyclotomic subgroup and every exponent e, x.cyclotomic_exp(e) equals x.pow(e).", "quantifier": "all subgroup elements, all exponents", "why_tests_cant": "NAF / bit-scan loops with found-nonzero flags over arbitrary exponents", "anchors": ["include/nil/crypto3/algebra/fields/detail/element/fp4.hpp: cyclotomic_exp", "include/nil/crypto3/algebra/fields/detail/element/fp6_2over3.hpp: cyclotomic_exp", "include/nil/crypto3/algebra/fields/detail/element/fp12_2over3over2.hpp: cyclotomic_exp"]}
{"id": "C13", "title": "sparse multiplications equal full multiplications", "statement": "mul_by_045, mul_by_024 (Fp12), mul_by_023 (Fp4), mul_by_2345 (Fp6_2over3) and mulFp6_24_Fp_01 return the product with the element that has the given coefficients in the named positions and zero elsewhere.", "quantifier": "all elements and all sparse operands", "why_tests_cant": "polynomial identities in up to 18 unknowns", "anchors": ["include/nil/crypto3/algebra/fields/detail/element/fp12_2over3over2.hpp: mul_by_045, mul_by_024", "include/nil/crypto3/algebra/fields/detail/element/fp4.hpp: mul_by_023", "include/nil/crypto3/algebra/fields/detail/element/fp6_2over3.hpp: mul_by_2345", "include/nil/crypto3/algebra/fields/detail/element/fp6_3over2.hpp: mulFp6_24_Fp_01"]}
{"id": "C14", "title": "extension-field sqrt returns a square root of every square", "statement": "For Fp2 and Fp3 elements, sqrt() of a square terminates and its result squared is the argument.", "quantifier": "all squares of the field, including zero", "why_tests_cant": "Tonelli-Shanks termination depends on 2-adic order of each argument; zero and the deepest 2-power cosets are never sampled", "anchors": ["include/nil/crypto3/algebra/fields/detail/element/fp2.hpp: sqrt", "include/nil/crypto3/algebra/fields/detail/element/fp3.hpp: sqrt"]}
{"id": "C15", "title": "is_square decides squareness", "statement": "x.is_square() is true exactly when some y of the same field satisfies y*y = x.", "quantifier": "all elements of fields whose (q-1)/2 constant is shipped", "why_tests_cant": "an equivalence with an existential over a 2^254..2^762 element field", "anchors": ["include/nil/crypto3/algebra/fields/detail/element/fp.hpp: is_square", "include/nil/crypto3/algebra/fields/detail/element/fp2.hpp: is_square", "include/nil/crypto3/algebra/fields/detail/element/fp3.hpp: is_square"]}
{"id": "C16", "title": "affine short-Weierstrass addition is the group law", "statement": "For affine points, + , += , double_inplace, unary - and - implement the chord-and-tangent law: identity, inverse, doubling and generic cases, and results stay on the curve.", "quantifier": "all pairs of points on any curve y^2 = x^3 + a x + b over any field of characteristic other than 2 and 3", "why_tests_cant": "the exceptional cases (P = Q, P = -Q, Y = 0, identity) are measure-zero", "anchors": ["include/nil/crypto3/algebra/curves/detail/forms/short_weierstrass/element_g1_affine.hpp: operator+, operator-, double_inplace, add, is_zero"]}
{"id": "C17", "title": "Jacobian coordinates implement the group law", "statement": "For the Jacobian families (general a, a = 0, a = -3), converting to affine commutes with +, +=, double_inplace, unary - and -: (P op Q).to_affine() is the affine sum, for any representatives.", "quantifier": "all pairs of Jacobian triples representing curve points, incl. identity, equal, opposite and 2-torsion points", "why_tests_cant": "projective formulas must be right for every representative Z and every special case", "anchors": ["include/nil/crypto3/algebra/curves/detail/forms/short_weierstrass/jacobian/element_g1.hpp", "include/nil/crypto3/algebra/curves/detail/forms/short_weierstrass/jacobian/add_2007_bl.hpp", "include/nil/crypto3/algebra/curves/detail/forms/short_weierstrass/jacobian/dbl_2007_bl.hpp", "include/nil/crypto3/algebra/curves/detail/forms/short_weierstrass/jacobian_with_a4_0/element_g1.hpp", "include/nil/crypto3/algebra/curves/detail/forms/short_weierstrass/jacobian_with_a4_0/dbl_2009_l.hpp", "include/nil/crypto3/algebra/curves/detail/forms/short_weierstrass/jacobian_with_a4_minus_3/element_g1.hpp", "include/nil/crypto3/algebra/curves/detail/forms/short_weierstrass/jacobian_with_a4_minus_3/dbl_2007_bl.hpp"]}
{"id": "C18", "title": "projective coordinates implement the group law", "statement": "For homogeneous projective coordinates (general a and a = -3), converting to affine commutes with +, +=, double_inplace, unary - and -.", "quantifier": "all pairs of projective triples representing curve points, incl. all exceptional cases", "why_tests_cant": "as for Jacobian", "anchors": ["include/nil/crypto3/algebra/curves/detail/forms/short_weierstrass/projective/element_g1.hpp", "include/nil/crypto3/algebra/curves/detail/forms/short_weierstrass/projective/add_1998_cmo_2.hpp", "include/nil/crypto3/algebra/curves/detail/forms/short_weierstrass/projective/dbl_2007_bl.hpp", "include/nil/crypto3/algebra/curves/detail/forms/short_weierstrass/projective_with_a4_minus_3/element_g1.hpp"]}
{"id": "C19", "title": "point equality and coordinate conversion", "statement": "operator== on Jacobian/projective/Edwards coordinates holds exactly when both operands denote the same point; to_affine and to_projective preserve the denoted point and to_affine(to_projective(P)) = P.", "quantifier": "all representatives of all points including the identity", "why_tests_cant": "requires quantifying over all rescalings", "anchors": ["include/nil/crypto3/algebra/curves/detail/forms/short_weierstrass/jacobian/element_g1.hpp: operator==, to_affine, to_projective", "include/nil/crypto3/algebra/curves/detail/forms/short_weierstrass/jacobian_with_a4_minus_3/element_g1.hpp: to_affine", "include/nil/crypto3/algebra/curves/detail/forms/short_weierstrass/projective/element_g1.hpp: operator==, to_affine"]}
{"id": "C20", "title": "mixed addition agrees with addition", "statement": "P.mixed_add(Q) for Q with Z = 1 denotes the same point as P + Q.", "quantifier": "all P and all normalised Q, including P = Q, P = -Q, P = O, Q = O", "why_tests_cant": "the colliding cases have negligible probability under random testing yet occur inside scalar multiplication by small or crafted scalars", "anchors": ["include/nil/crypto3/algebra/curves/detail/forms/short_weierstrass/jacobian/element_g1.hpp: mixed_add", "include/nil/crypto3/algebra/curves/detail/forms/short_weierstrass/jacobian_with_a4_0/element_g1.hpp: mixed_add", "include/nil/crypto3/algebra/curves/detail/forms/short_weierstrass/projective/element_g1.hpp: mixed_add", "include/nil/crypto3/algebra/curves/detail/forms/twisted_edwards/extended_with_a_minus_1/element_g1.hpp: mixed_add", "include/nil/crypto3/algebra/curves/detail/forms/edwards/inverted/element_g1.hpp: mixed_add"]}
{"id": "C21", "title": "is_well_formed accepts exactly the curve points", "statement": "is_well_formed() is true exactly for representations of the identity or of affine points satisfying the curve equation of the group's own parameters.", "quantifier": "all coordinate triples of every coordinate family", "why_tests_cant": "both directions range over every triple, on and off the curve", "anchors": ["include/nil/crypto3/algebra/curves/detail/forms/short_weierstrass/jacobian/element_g1.hpp: is_well_formed", "include/nil/crypto3/algebra/curves/detail/forms/short_weierstrass/projective/element_g1.hpp: is_well_formed", "include/nil/crypto3/algebra/curves/detail/forms/short_weierstrass/projective_with_a4_minus_3/element_g1.hpp: is_well_formed", "include/nil/crypto3/algebra/curves/detail/edwards/element_g2.hpp: is_well_formed", "include/nil/crypto3/algebra/curves/detail/forms/twisted_edwards/inverted/element_g1.hpp: is_well_formed"]}
{"id": "C22", "title": "Montgomery affine arithmetic is the group law", "statement": "+, double_inplace, unary - and - on Montgomery-form points implement the group law of B y^2 = x^3 + A x^2 + x, including the point at infinity.", "quantifier": "all pairs of points of any Montgomery curve, including infinity and the 2-torsion point", "why_tests_cant": "flag-based infinity handling has cases random tests do not reach", "anchors": ["include/nil/crypto3/algebra/curves/detail/forms/montgomery/element_g1_affine.hpp: operator+, operator-, double_inplace, add"]}
{"id": "C23", "title": "twisted-Edwards affine addition", "statement": "With a square and d non-square, the affine addition is defined for every pair of curve points (no zero denominators), stays on the curve, and gives a commutative group with identity (0,1) and inverse (-x,y).", "quantifier": "all pairs/triples of points of any complete twisted Edwards curve", "why_tests_cant": "completeness is a for-all statement about denominators", "anchors": ["include/nil/crypto3/algebra/curves/detail/forms/twisted_edwards/element_g1_affine.hpp: add, operator+, operator-, double_inplace, is_zero"]}
{"id": "C24", "title": "extended twisted-Edwards coordinates implement the group law", "statement": "extended_with_a_minus_1 +, double, unary -, to_affine, == refine the affine twisted-Edwards law with a = -1.", "quantifier": "all quadruples representing curve points", "why_tests_cant": "must hold for every Z representative and every collision", "anchors": ["include/nil/crypto3/algebra/curves/detail/forms/twisted_edwards/extended_with_a_minus_1/element_g1.hpp", "include/nil/crypto3/algebra/curves/detail/forms/twisted_edwards/extended_with_a_minus_1/add_2008_hwcd_3.hpp", "include/nil/crypto3/algebra/curves/detail/forms/twisted_edwards/extended_with_a_minus_1/dbl_2008_hwcd.hpp", "include/nil/crypto3/algebra/curves/detail/forms/twisted_edwards/extended_with_a_minus_1/madd_2008_hwcd_2.hpp"]}
{"id": "C25", "title": "inverted twisted-Edwards coordinates implement the group law", "statement": "inverted-coordinate +, double, unary -, ==, conversions refine the affine twisted-Edwards law.", "quantifier": "all triples representing curve points incl. identity and points with a zero coordinate", "why_tests_cant": "inverted coordinates cannot represent points with x*y = 0 faithfully, so the special cases decide correctness", "anchors": ["include/nil/crypto3/algebra/curves/detail/forms/twisted_edwards/inverted/element_g1.hpp", "include/nil/crypto3/algebra/curves/detail/forms/twisted_edwards/inverted/add_2008_bbjlp.hpp", "include/nil/crypto3/algebra/curves/detail/forms/twisted_edwards/inverted/dbl_2008_bbjlp.hpp", "include/nil/crypto3/algebra/curves/detail/forms/twisted_edwards/inverted/madd_2008_bbjlp.hpp", "include/nil/crypto3/algebra/curves/detail/forms/twisted_edwards/element_g1_affine.hpp: to_inverted"]}
{"id": "C26", "title": "scalar multiplication is iterated addition", "statement": "scalar * P denotes P added to itself scalar times (identity for 0), for every integer scalar and every representation of P, for each coordinate family.", "quantifier": "all scalars (not only those below the group order) and all points", "why_tests_cant": "the accumulator may meet the base (or its negative) only for special scalars", "anchors": ["include/nil/crypto3/algebra/curves/detail/scalar_mul.hpp: scalar_mul, operator*"]}
{"id": "C27", "title": "the chord-and-tangent law is a commutative group", "statement": "Point addition on a short Weierstrass curve is commutative and associative with identity O and inverses, so sums may be reordered.", "quantifier": "all points of any curve over any field of characteristic other than 2, 3", "why_tests_cant": "associativity quantifies over all triples", "anchors": ["include/nil/crypto3/algebra/curves/detail/forms/short_weierstrass/element_g1_affine.hpp: operator+"]}
{"id": "C28", "title": "Montgomery / twisted-Edwards conversion", "statement": "to_montgomery and to_twisted_edwards are mutually inverse on non-exceptional points, map curve points to curve points of the corresponding parameters, and map the identity to the identity.", "quantifier": "all points of the pair of curves", "why_tests_cant": "birational identities plus exceptional points", "anchors": ["include/nil/crypto3/algebra/curves/detail/forms/twisted_edwards/element_g1_affine.hpp: to_montgomery", "include/nil/crypto3/algebra/curves/detail/forms/montgomery/element_g1_affine.hpp: to_twisted_edwards"]}
{"id": "C29", "title": "shipped generators generate the stated subgroup", "statement": "For each shipped curve the generator one() satisfies the curve equation and scalar_field modulus * one() is the identity while one() is not.", "quantifier": "every shipped (curve, group) pair", "why_tests_cant": "constants are transcribed by hand; order is a statement about a 2^254-fold sum", "anchors": ["include/nil/crypto3/algebra/curves/detail/bls12/381/short_weierstrass_params.hpp", "include/nil/crypto3/algebra/curves/detail/pallas/params.hpp", "include/nil/crypto3/algebra/curves/detail/secp_r1/256/short_weierstrass_params.hpp", "include/nil/crypto3/algebra/curves/detail/jubjub/params.hpp"]}
{"id": "C30", "title": "shipped moduli are prime", "statement": "Every modulus offered as a prime-field characteristic is prime, so that every non-zero element is invertible.", "quantifier": "every shipped field modulus; every non-zero residue", "why_tests_cant": "primality is a statement about all divisors; probabilistic tests do not prove it", "anchors": ["include/nil/crypto3/algebra/fields/bls12/base_field.hpp: modulus", "include/nil/crypto3/algebra/fields/sect/sect_k1/base_field.hpp: modulus", "include/nil/crypto3/algebra/fields/pallas/base_field.hpp: modulus"]}
{"id": "C31", "title": "naive multiexp is the sum of scalar multiples", "statement": "multiexp with the naive policy returns sum_i scalar_i * base_i.", "quantifier": "all vectors of bases and scalars of any length, in any commutative group", "why_tests_cant": "all lengths and scalar patterns", "anchors": ["include/nil/crypto3/algebra/multiexp/policies.hpp: multiexp_method_naive_plain", "include/nil/crypto3/algebra/multiexp/inner_product.hpp: inner_product"]}
{"id": "C32", "title": "BDLO12 multiexp is the sum of scalar multiples", "statement": "The bucket method returns sum_i scalar_i * base_i for every non-empty input.", "quantifier": "all non-empty vectors of bases and scalars", "why_tests_cant": "window boundaries, empty buckets, leading zero groups and the chosen window width vary with length and bit size", "anchors": ["include/nil/crypto3/algebra/multiexp/policies.hpp: multiexp_method_BDLO12"]}
{"id": "C33", "title": "Bos-Coster multiexp is the sum of scalar multiples", "statement": "The Bos-Coster method returns sum_i scalar_i * base_i and terminates, for every input including zero scalars.", "quantifier": "all vectors of bases and scalars of any length and any scalar sizes", "why_tests_cant": "heap reordering and the difference step run data-dependent many times", "anchors": ["include/nil/crypto3/algebra/multiexp/policies.hpp: multiexp_method_bos_coster"]}
{"id": "C34", "title": "chunk count does not change multiexp", "statement": "multiexp returns the same value for every chunks_count >= 1.", "quantifier": "all inputs, all chunk counts", "why_tests_cant": "remainder handling when the size is not a multiple of the chunk count", "anchors": ["include/nil/crypto3/algebra/multiexp/multiexp.hpp: multiexp"]}
{"id": "C35", "title": "multiexp_with_mixed_addition equals multiexp", "statement": "multiexp_with_mixed_addition returns sum_i scalar_i * base_i for every input, whatever number of scalars are 0 or 1.", "quantifier": "all inputs, including those whose scalars are all 0 or 1", "why_tests_cant": "filtering produces an empty residual instance only on special inputs", "anchors": ["include/nil/crypto3/algebra/multiexp/multiexp.hpp: multiexp_with_mixed_addition"]}
{"id": "C36", "title": "fixed-base windows compute scalar multiples", "statement": "windowed_exp over get_window_table(scalar_bits, window, g) returns s * g for every s below 2^scalar_bits; batch_exp and batch_exp_with_coeff return the corresponding lists.", "quantifier": "all window sizes >= 1, all bit sizes, all scalars in range, any group", "why_tests_cant": "partial last window, all digit values", "anchors": ["include/nil/crypto3/algebra/multiexp/multiexp.hpp: get_window_table, windowed_exp, batch_exp, batch_exp_with_coeff"]}
{"id": "C37", "title": "wNAF exponentiation computes scalar multiples", "statement": "fixed_window_wnaf_exp and opt_window_wnaf_exp return scalar * base for every scalar and window size.", "quantifier": "all scalars, window sizes, bases", "why_tests_cant": "signed-digit edge cases", "anchors": ["include/nil/crypto3/algebra/wnaf.hpp: fixed_window_wnaf_exp, opt_window_wnaf_exp"]}
{"id": "C38", "title": "exp window selection", "statement": "get_exp_window_size(n) returns the largest window whose threshold is positive and does not exceed n (at least 1) for every n, including n = 0.", "quantifier": "all n, any threshold table", "why_tests_cant": "loop over an unsigned index that only stops by break", "anchors": ["include/nil/crypto3/algebra/multiexp/multiexp.hpp: get_exp_window_size"]}
{"id": "C39", "title": "bls12-381 point encoding round trip", "statement": "Decoding the compressed or uncompressed octets of any G1/G2 subgroup point returns that point, with sign and infinity flags handled.", "quantifier": "all points of G1 and G2", "why_tests_cant": "sign selection depends on y versus (p-1)/2 for every y; zero and infinity are special", "anchors": ["include/nil/crypto3/algebra/curves/detail/marshalling.hpp: point_to_octets_compress, octets_to_g1_point, compressed_to_g1_point"]}
{"id": "C40", "title": "bls12-381 decoding accepts only canonical encodings", "statement": "Any octet string accepted by the point decoder is the encoding of the point it returns (in particular coordinates are < p, the infinity encoding is all-zero after the flag bits, and the point is in the prime-order subgroup).", "quantifier": "all octet strings of the two lengths", "why_tests_cant": "non-canonical strings are a vanishing fraction and attackers choose them", "anchors": ["include/nil/crypto3/algebra/curves/detail/marshalling.hpp: octets_to_g1_point, compressed_to_g1_point, uncompressed_to_g1_point"]}
{"id": "C41", "title": "bincode field encoding round trip", "statement": "field_element_from_bytes(to_bytes(x)) returns (true, x) for every element; from_bytes returns false exactly when some chunk is >= modulus; to_bytes determines every byte of the output range.", "quantifier": "all elements, all byte strings of the right length, all prior buffer contents", "why_tests_cant": "short values and dirty buffers", "anchors": ["include/nil/crypto3/algebra/marshalling.hpp: bincode::field"]}
{"id": "C42", "title": "random field elements are uniform", "statement": "random_element<field> maps a uniform draw of the underlying distribution to each field element with equal multiplicity.", "quantifier": "all field elements", "why_tests_cant": "a bias of 1/p is invisible to sampling", "anchors": ["include/nil/crypto3/algebra/random_element.hpp: random_element"]}
{"id": "C43", "title": "simplified SWU lands on the isogenous curve", "statement": "For every field element u the simplified SWU map returns a point of y^2 = x^3 + A x + B, with sgn0(y) = sgn0(u) unless y = 0, for every u including the exceptional ones; for the bls12-381 suites of RFC 9380 y is never 0.", "quantifier": "all u in the field, any A, B, Z satisfying the RFC conditions", "why_tests_cant": "exceptional u (zero denominator) are isolated", "anchors": ["include/nil/crypto3/algebra/curves/detail/h2c/h2c_m2c.hpp: m2c_simple_swu"]}
{"id": "C44", "title": "isogeny maps land on the target curve", "statement": "iso_map sends every point of the isogenous curve E' to a point of the bls12-381 G1/G2 curve (points at which a denominator vanishes go to the identity).", "quantifier": "all points of E'", "why_tests_cant": "an identity between rational functions with 50+ hand-transcribed constants", "anchors": ["include/nil/crypto3/algebra/curves/detail/h2c/h2c_iso_map.hpp: iso_map"]}
{"id": "C45", "title": "BLS12 final exponentiation exponent", "statement": "final_exponentiation(f) = f^e with e a multiple of (p^12-1)/r coprime to r (as documented), for every non-zero f.", "quantifier": "all non-zero f in Fp12", "why_tests_cant": "the addition chain in z is correct only as a polynomial identity modulo the subgroup relations", "anchors": ["include/nil/crypto3/algebra/pairing/forms/short_weierstrass/jacobian_with_a4_0/final_exponentiation.hpp"]}
{"id": "C46", "title": "MNT4/MNT6/Edwards final exponentiation exponent", "statement": "final_exponentiation(f) = f^((p^k-1)/r) for the shipped w0,w1 constants, for every non-zero f.", "quantifier": "all non-zero f in the pairing target field", "why_tests_cant": "constants w0, w1 and the first chunk must combine to the exact exponent", "anchors": ["include/nil/crypto3/algebra/pairing/mnt4/298/final_exponentiation.hpp", "include/nil/crypto3/algebra/pairing/mnt6/298/final_exponentiation.hpp", "include/nil/crypto3/algebra/pairing/edwards/183/final_exponentiation.hpp", "include/nil/crypto3/algebra/pairing/detail/mnt6/298/params.hpp"]}
{"id": "C47", "title": "Miller loop steps and double Miller loop", "statement": "The precomputed doubling/addition steps advance the running point by the curve group law, the coefficients are those of the tangent/chord line, coefficient vectors have exactly the length the loop consumes, and double_miller_loop equals the product of two miller_loop results.", "quantifier": "all points and all loop counts", "why_tests_cant": "index bookkeeping and the product formula must hold for every loop bit pattern", "anchors": ["include/nil/crypto3/algebra/pairing/forms/short_weierstrass/jacobian_with_a4_0/ate_precompute_g2.hpp", "include/nil/crypto3/algebra/pairing/forms/short_weierstrass/jacobian_with_a4_0/ate_miller_loop.hpp", "include/nil/crypto3/algebra/pairing/forms/short_weierstrass/jacobian_with_a4_0/ate_double_miller_loop.hpp", "include/nil/crypto3/algebra/pairing/mnt4/298/ate_double_miller_loop.hpp", "include/nil/crypto3/algebra/pairing/edwards/183/ate_double_miller_loop.hpp"]}
{"id": "C48", "title": "pairing with the identity is one", "statement": "pair_reduced(P, O) and pair_reduced(O, Q) are the identity of GT.", "quantifier": "all P in G1, all Q in G2", "why_tests_cant": "the degenerate inputs are single points", "anchors": ["include/nil/crypto3/algebra/algorithms/pair.hpp: pair_reduced", "include/nil/crypto3/algebra/pairing/forms/short_weierstrass/jacobian_with_a4_0/ate_precompute_g2.hpp: process", "include/nil/crypto3/algebra/pairing/forms/short_weierstrass/projective/ate_precompute_g2.hpp: process", "include/nil/crypto3/algebra/pairing/edwards.hpp"]}
{"id": "C49", "title": "matrix determinant, rank, rref, inverse", "statement": "det returns the determinant, inverse returns the two-sided inverse of every invertible matrix, rank the row rank and rref the reduced row-echelon form.", "quantifier": "all square matrices of all sizes over a field", "why_tests_cant": "pivoting cases and all sizes", "anchors": ["include/nil/crypto3/algebra/matrix/math.hpp: gauss_jordan_impl, det, inverse, rank, rref"]}
{"id": "C50", "title": "matrix structural operations", "statement": "transpose, matmul, matvectmul, kron, identity, swaprow, swapcol, horzcat, vertcat, submat, reshape, repmat have their mathematical meaning for every shape.", "quantifier": "all shapes and contents", "why_tests_cant": "shape-dependent index errors appear only for non-square shapes", "anchors": ["include/nil/crypto3/algebra/matrix/math.hpp: matmul, kron, transpose", "include/nil/crypto3/algebra/matrix/utility.hpp: swapcol, swaprow, submat, reshape, repmat"]}
{"id": "C51", "title": "vector operations", "statement": "rotate, concat, slice, accumulate, sum, dot, min/max/min_index/max_index, elementwise have their mathematical meaning for all lengths and arguments (including negative rotation counts).", "quantifier": "all vectors of all lengths", "why_tests_cant": "index arithmetic for all sizes/offsets", "anchors": ["include/nil/crypto3/algebra/vector/utility.hpp: rotate, slice, concat, accumulate", "include/nil/crypto3/algebra/vector/math.hpp: dot, min_index, max_index"]}
{"id": "C52", "title": "scalar sqrt terminates", "statement": "The constexpr floating point sqrt terminates for every finite non-negative argument and returns a correctly rounded-ish root (within the documented meaning).", "quantifier": "all non-negative doubles", "why_tests_cant": "a data-dependent loop stopping on exact equality of successive iterates", "anchors": ["include/nil/crypto3/algebra/scalar/math.hpp: sqrt"]}
{"id": "C53", "title": "totient and totient_list", "statement": "totient(n) is Euler's function and totient_list(n) lists exactly the residues in 1..n coprime to n (so its length is totient(n)).", "quantifier": "all n >= 1", "why_tests_cant": "all n; boundary n = 1", "anchors": ["include/nil/crypto3/algebra/totient.hpp: totient, totient_list"]}
{"id": "C54", "title": "prime_factorize returns the prime factorisation", "statement": "prime_factorize(n) terminates and returns primes whose product is n, given a correct primality test.", "quantifier": "all n >= 2 and all random sequences", "why_tests_cant": "Pollard rho may return a trivial divisor for some n and seeds", "anchors": ["include/nil/crypto3/algebra/primes.hpp: pollard_rho_factorization, prime_factorize"]}
{"id": "C55", "title": "strxor", "statement": "strxor writes the bytewise exclusive-or of its inputs and returns a defined value.", "quantifier": "all input strings and lengths", "why_tests_cant": "missing return is undefined behaviour, not an observable failure", "anchors": ["include/nil/crypto3/algebra/algorithms/strxor.hpp: strxor"]}
{"id": "C56", "title": "subgroup check", "statement": "subgroup_check(P) is true exactly when (group order) * P is the identity, for every point of the curve, using a scalar multiplication that is itself correct for that scalar.", "quantifier": "all curve points, including those outside the prime-order subgroup", "why_tests_cant": "points of cofactor order are not produced by generators", "anchors": ["include/nil/crypto3/algebra/curves/detail/subgroup_check.hpp: subgroup_check", "include/nil/crypto3/algebra/curves/detail/scalar_mul.hpp: scalar_mul"]}
{"id": "C57", "title": "element-level helper operations", "statement": "doubled, ++, --, mixed integer/element operators, mul_x, mul_xi and comparison operators return what the corresponding ring expression denotes.", "quantifier": "all elements, all integers", "why_tests_cant": "helpers hard-code a particular non_residue", "anchors": ["include/nil/crypto3/algebra/fields/detail/element/fp.hpp: operator++, doubled", "include/nil/crypto3/algebra/fields/detail/element/fp2.hpp: mul_x, mul_xi, mul_Fp_1", "include/nil/crypto3/algebra/fields/detail/element/operations.hpp"]}
{"id": "C58", "title": "prime search in an arithmetic progression", "statement": "first_prime, next_prime and previous_prime return the nearest prime (above or below) congruent to 1 modulo m, given a correct primality test.", "quantifier": "all bit lengths, all moduli m, all starting primes", "why_tests_cant": "distribution of primes in a progression; overflow of the step arithmetic", "anchors": ["include/nil/crypto3/algebra/primes.hpp: first_prime, next_prime, previous_prime"]}
{"id": "C59", "title": "exponentiate", "statement": "exponentiate(x, n) is x^n for every int n (x^-1 to the |n| for negative n): exactly over a field; for doubles with a relative error of at most |n| * 2^-51 when the power stays between 2^-1021 and 2^1021, and otherwise with an error of at most |n| * (2^-51 * |x^n| + 2^-1073) or, for a power above 2^1021, as the infinity of the right sign.", "quantifier": "all x in a field and all doubles x in range, all int n", "why_tests_cant": "exponents near the ends of int", "anchors": ["include/nil/crypto3/algebra/scalar/math.hpp: exponentiate"]}
{"id": "C60", "title": "nthroot", "statement": "nthroot(x, n) returns for every positive finite x and n >= 1, and a returned r satisfies |r^n - x| <= n * 2^-51 * r^n.", "quantifier": "all positive doubles, all n", "why_tests_cant": "the iteration may cycle between neighbouring doubles for some inputs only", "anchors": ["include/nil/crypto3/algebra/scalar/math.hpp: nthroot"]}
{"id": "C61", "title": "map_to_curve always returns a curve point", "statement": "With the RFC 9380 suite constants, map_to_curve (simplified SWU followed by iso_map) terminates for every field element u and returns a point of the bls12-381 G1 (G2) curve.", "quantifier": "all u in Fp (Fp2), every sgn0 that is a sign, every ressol that returns roots of non-zero squares", "why_tests_cant": "the exceptional u (zero denominators of SWU or of the isogeny) are a handful of elements of a 381-bit field", "anchors": ["include/nil/crypto3/algebra/curves/detail/h2c/h2c_m2c.hpp: map_to_curve, m2c_simple_swu_zeroAB"]}
{"id": "C62", "title": "pair_reduced computes the reduced ate pairing", "statement": "For P and Q of order r, in any stored representation, pair_reduced(P, Q) is defined and equals the textbook reduced ate pairing f_(T,Q)(P)^e: the Miller function of the untwisted Q evaluated at P (tangents, chords and verticals), raised to (p^k-1)/r (three times that for bls12-381), with T the signed loop count. For edwards<183> the Miller function is taken on the Weierstrass form of the curve and its twist.", "quantifier": "all P in G1, all Q in G2 of order r, all representatives", "why_tests_cant": "each test checks one pair of points against another output of the same code; the claim is equality with an independent definition for all pairs", "anchors": ["include/nil/crypto3/algebra/algorithms/pair.hpp: pair_reduced", "include/nil/crypto3/algebra/pairing/forms/short_weierstrass/jacobian_with_a4_0/", "include/nil/crypto3/algebra/pairing/mnt4/298/ate_miller_loop.hpp", "include/nil/crypto3/algebra/pairing/mnt6/298/ate_miller_loop.hpp", "include/nil/crypto3/algebra/pairing/edwards/183/ate_miller_loop.hpp"]}
{"id": "C63", "title": "pair_reduced is bilinear into the order-r subgroup", "statement": "pair_reduced(P, Q) is a non-zero element with pair_reduced(P, Q)^r = 1. pair_reduced([a]P, [b]Q) = pair_reduced(P, Q)^(ab) for all integers a and b, pair_reduced(P + P', Q) = pair_reduced(P, Q) pair_reduced(P', Q) and likewise in the second argument; in particular negating either argument inverts the result. None of the points passed is the identity (that case is C48).", "quantifier": "bls12-381, mnt4-298, mnt6-298 and edwards-183; all P of order r in G1, all Q in the group generated by g2::one() (negation on the first three curves: all Q of order r on the twist), all integers a and b, all stored representations", "why_tests_cant": "bilinearity is a statement about all scalars and points; tests check a few", "anchors": ["include/nil/crypto3/algebra/algorithms/pair.hpp: pair_reduced"]}
{"id": "C64", "title": "arithmetic_params constants are what their names say", "statement": "For every field with arithmetic_params: modulus - 1 = 2^s * t with t odd; root_of_unity has multiplicative order exactly 2^s; multiplicative_generator generates the multiplicative group, and its coset of the 2^s-th roots of unity avoids them; the first 2^s powers of geometric_generator are distinct; nqr is not a square and nqr_to_t = nqr^t; Rsquared and Rcubed are powers of the 64-bit-limb Montgomery radix modulo p; group_order is the order of the multiplicative group. The mul_generator of a DSA group has order exactly group_order.", "quantifier": "all shipped arithmetic_params specialisations; all exponents", "why_tests_cant": "FFTs and square roots only exercise small powers; the order of an element of a 2^254-element group and the absence of repeats among 2^32 powers cannot be enumerated", "anchors": ["include/nil/crypto3/algebra/fields/arithmetic_params/*.hpp", "include/nil/crypto3/algebra/fields/params.hpp"]}
{"id": "C65", "title": "domain parameters of the standard curves are consistent", "statement": "For each curve header that ships p, q, a, b, x, y (brainpool_r1, frp_v1, gost_A, sm2p_v1, x962_p): p and q are prime, y^2 = x^3 + ax + b is non-singular over F_p, (x, y) lies on it and has order exactly q; the p of the NIST headers is the NIST prime.", "quantifier": "all shipped parameter sets; all scalars (exact order)", "why_tests_cant": "no test instantiates these headers, and the order of a point cannot be found by enumeration", "anchors": ["include/nil/crypto3/algebra/curves/brainpool_r1.hpp", "include/nil/crypto3/algebra/curves/frp_v1.hpp", "include/nil/crypto3/algebra/curves/gost_A.hpp", "include/nil/crypto3/algebra/curves/sm2p_v1.hpp", "include/nil/crypto3/algebra/curves/x962_p.hpp", "include/nil/crypto3/algebra/curves/p192.hpp"]}
{"id": "C66", "title": "pair_reduced is non-degenerate", "statement": "pair_reduced([a]G1, [b]G2) is never 1 when r divides neither a nor b, for the generators G1 = g1::one() and G2 = g2::one(); it is the power ab of one fixed element of order exactly r.", "quantifier": "all integers a and b not divisible by r, all stored representations", "why_tests_cant": "a degenerate pairing passes every bilinearity test; that no pair of points is degenerate is a statement about r^2 pairs", "anchors": ["include/nil/crypto3/algebra/algorithms/pair.hpp: pair_reduced", "include/nil/crypto3/algebra/pairing/bls12.hpp", "include/nil/crypto3/algebra/pairing/mnt4.hpp", "include/nil/crypto3/algebra/pairing/mnt6.hpp", "include/nil/crypto3/algebra/pairing/edwards.hpp"]}
{"id": "C67", "title": "shifts and masks of any amount", "statement": "unbounded_shl and unbounded_shr, with the amount given as template argument or at run time, return x * 2^n modulo 2^width and floor(x / 2^n) for every amount n, also from the width of the type on; low_bits and high_bits keep exactly the n lowest (highest) bits.", "quantifier": "all unsigned types, all values, all amounts", "why_tests_cant": "the defects are at amounts at or beyond the width of the type, and the claims are over every value and amount", "anchors": ["include/nil/crypto3/detail/unbounded_shift.hpp: unbounded_shl, unbounded_shr, low_bits, high_bits"]}
{"id": "C68", "title": "make_uint_t and extract_uint_t", "statement": "make_uint_t<Size>(a, b, ...) is the Size-bit number with the arguments as its digits, the first the most significant; extract_uint_t<8>(v, i) is octet i of v counted from the most significant; extracting the octets of make_uint_t returns them.", "quantifier": "all argument lists, all result and argument widths", "why_tests_cant": "shifting by the full width is undefined behaviour that a test run may not show, and the claims are over all values", "anchors": ["include/nil/crypto3/detail/make_uint_t.hpp: make_uint_t, extract_uint_t"]}
{"id": "C69", "title": "scalar abs is the absolute value", "statement": "abs(x) of a floating point x is |x|; abs of a complex number returns and is its modulus up to a relative error of 2^-51.", "quantifier": "all finite doubles, all pairs of finite doubles", "why_tests_cant": "abs of a complex number goes through the data-dependent loop of sqrt, and a call that never returns cannot be told from a slow one by a test", "anchors": ["include/nil/crypto3/algebra/scalar/math.hpp: abs"]}
{"id": "C70", "title": "printed elements can be told apart", "statement": "operator<< writes different text for different field elements, for different representatives of a point, and different text for the identity and for a finite point.", "quantifier": "all fields and towers of every modulus, all points of every coordinate class", "why_tests_cant": "a claim over all pairs of elements; a test prints a handful", "anchors": ["include/nil/crypto3/algebra/fields/detail/element/*.hpp: operator<<", "include/nil/crypto3/algebra/curves/detail/forms/*/element_g1*.hpp: operator<<"]}
{"id": "C71", "title": "printed elements are JSON", "statement": "operator<< of field elements, curve points and precomputed pairing arguments writes a JSON document: a decimal number, an array of coefficients, an object with one member per coordinate.", "quantifier": "all elements, all points, all precomputed values", "why_tests_cant": "the claim is over every element, and no test reads the output back", "anchors": ["include/nil/crypto3/algebra/curves/detail/forms/*/element_g1*.hpp: operator<<", "include/nil/crypto3/algebra/pairing/detail/forms/short_weierstrass/*/types.hpp: operator<<"]}
{"id": "C72", "title": "the finite-field Diffie-Hellman moduli are those of the standards", "statement": "The moduli of modp_ietf are p = 2^b - 2^(b-64) - 1 + 2^64 ([2^(b-130) pi] + X) with the X of RFC 2409 and RFC 3526; the 3072- to 8192-bit moduli of modp_srp are the same numbers; the moduli of ffdhe_ietf are p = 2^b - 2^(b-64) + ([2^(b-130) e] + X) 2^64 - 1 with the X of RFC 7919.", "quantifier": "every modulus of modp_ietf and ffdhe_ietf and the four larger ones of modp_srp", "why_tests_cant": "a peer that follows the standard uses the number the standard defines by pi or e; a test can only compare one copied literal with another", "anchors": ["include/nil/crypto3/algebra/fields/modp_ietf.hpp: modulus", "include/nil/crypto3/algebra/fields/modp_srp.hpp: modulus", "include/nil/crypto3/algebra/fields/ffdhe_ietf.hpp: modulus"]}
{"id": "C73", "title": "declared bit lengths fit the values", "statement": "modulus_bits is exactly the bit length of the modulus, so integral_type holds every residue and extended_integral_type the product of sixteen; value_bits bits hold an element of the field or its extension, coefficients side by side, without loss; value_bits of a curve group holds x and the parity of y, which determine the point.", "quantifier": "every shipped field; all residues, all coefficient vectors, all curve points", "why_tests_cant": "a width that is one bit short loses only the values above the largest power of two, which random tests rarely or never hit", "anchors": ["include/nil/crypto3/algebra/fields/field.hpp: modulus_bits, integral_type", "include/nil/crypto3/algebra/fields/*/base_field.hpp, scalar_field.hpp: field<N>", "include/nil/crypto3/algebra/fields/fp*.hpp: value_bits", "include/nil/crypto3/algebra/curves/detail/*/g1.hpp: value_bits"]}
{"id": "C74", "title": "mul_generator of the Diffie-Hellman groups generates the group the standards name", "statement": "In the modp_ietf and ffdhe_ietf groups mul_generator is 2 and its powers are exactly the subgroup of prime order (p-1)/2; in the modp_srp groups it is the least primitive root, so its powers are all the units; alt_bn128's mul_generator generates the multiplicative group of its field.", "quantifier": "every group of modp_ietf, ffdhe_ietf and modp_srp, both alt_bn128 fields; all exponents", "why_tests_cant": "the order is a statement about all exponents up to 2^8191; a key agreement works with a generator of the wrong order too, it only leaks bits of the exponent", "anchors": ["include/nil/crypto3/algebra/fields/modp_ietf.hpp: mul_generator", "include/nil/crypto3/algebra/fields/ffdhe_ietf.hpp: mul_generator", "include/nil/crypto3/algebra/fields/modp_srp.hpp: mul_generator", "include/nil/crypto3/algebra/fields/alt_bn128/base_field.hpp: mul_generator"]}
