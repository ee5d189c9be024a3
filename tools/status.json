{
 "C01": {
  "status": "proved",
  "note": "pow of every extension class, of element_fp (powm trusted) and of built-in exponents below 2^128; negative built-in exponents refuted."
 },
 "C02": {
  "status": "proved",
  "note": ""
 },
 "C03": {
  "status": "proved",
  "note": ""
 },
 "C04": {
  "status": "proved",
  "note": ""
 },
 "C05": {
  "status": "proved",
  "note": ""
 },
 "C06": {
  "status": "proved",
  "note": ""
 },
 "C07": {
  "status": "proved",
  "note": ""
 },
 "C08": {
  "status": "proved",
  "note": ""
 },
 "C13": {
  "status": "proved",
  "note": "mul_by_2345 is only correct on operands of the named shape (refuted otherwise); mulFp6_24_Fp_01 scales coefficients."
 },
 "C57": {
  "status": "proved",
  "note": "mul_x/mul_xi only for non_residue -1 (refuted otherwise)."
 },
 "C09": {
  "status": "proved",
  "note": "All six shipped towers (and bn128's) with certified prime moduli."
 },
 "C10": {
  "status": "partial",
  "note": "Proved for every k and every class of bls12-381, bls12-377, alt_bn128, mnt4, edwards and mnt6 fp3; mnt6 fp6_2over3 proved for k mod 6 <> 5 and refuted for k = 5 (table entry 5 repeats entry 4); bn128 refuted (all-zero tables)."
 },
 "C30": {
  "status": "partial",
  "note": "Every shipped modulus of at most 521 bits proved prime by Pocklington and elliptic curve certificates; the 1024- to 8192-bit dsa/modp/ffdhe/srp moduli are not certified; sect_k1<163>'s base modulus (2^163) refuted."
 },
 "C11": {
  "status": "proved",
  "note": "Fp4 (mnt4), Fp6_2over3 (mnt6, edwards), Fp12 (bls12-381/377, alt_bn128, bn128), subgroup given by its order."
 },
 "C12": {
  "status": "proved",
  "note": "find_wnaf is external: the signed-digit versions are proved for every recoding meeting its contract."
 },
 "C14": {
  "status": "partial",
  "note": "Proved for every non-zero square of every shipped fp2 and fp3 class. At zero the statement is false of the code: sqrt(0) never returns (refuted per class); it also never returns on non-squares."
 },
 "C15": {
  "status": "proved",
  "note": "Every shipped fp2 and fp3 class with the constant (edwards fp3 ships none) and the ten prime fields with the constant; C15_prime covers every odd prime. powm is external and taken as the integer power."
 },
 "C16": {
  "status": "partial",
  "note": "Proved for every pair except doubling a point of order 2 (refuted: the code inverts zero); negation needs zero_fill = (0,0) (refuted for (0,1))."
 },
 "C17": {
  "status": "proved",
  "note": "General, a4 = 0 and a4 = -3 families, any representatives, all exceptional cases."
 },
 "C18": {
  "status": "proved",
  "note": ""
 },
 "C19": {
  "status": "partial",
  "note": "==, to_affine for every family; Jacobian a4=-3 to_affine refuted; affine to_extended of the identity with zero_fill (0,0) refuted, other points proved; to_inverted under C25."
 },
 "C20": {
  "status": "partial",
  "note": "Projective proved for all operands. Jacobian: wrong exactly for P = Q (refuted). Extended twisted Edwards: proved when P-Q has no zero coordinate (in particular for distinct points of odd order), refuted for P = Q. Inverted: proved when the sum is representable. forms/edwards mixed_add from the identity refuted."
 },
 "C21": {
  "status": "partial",
  "note": "Proved for short Weierstrass families except projective a4=-3 (refuted: it tests membership of y^2 = x^3 - x + b, proved exactly), affine twisted Edwards and Montgomery. Extended accepts one further quadruple (0,0,0,0), inverted further triples (0,Y,0) (exact characterisation proved, exactness refuted)."
 },
 "C26": {
  "status": "partial",
  "note": "Projective, affine twisted Edwards and Montgomery: every point and scalar. Jacobian and extended: every scalar when Z is not 1, otherwise below the order of the point (refuted beyond). Inverted: every point of odd order, every scalar. Affine Weierstrass: every point none of whose multiples has order 2 (curves without 2-torsion, points of odd order), refuted for the point of order 2."
 },
 "C27": {
  "status": "proved",
  "note": "Any non-singular curve over any field of characteristic other than 2."
 },
 "C22": {
  "status": "partial",
  "note": "+, += and doubling proved for all points incl. infinity and 2-torsion; - proved for finite operands and refuted for the identity (the flag is dropped, P - O becomes P + (0,0))."
 },
 "C23": {
  "status": "proved",
  "note": "Any field of odd characteristic, a non-zero square, d non-square."
 },
 "C24": {
  "status": "proved",
  "note": "a = -1, as the class requires."
 },
 "C25": {
  "status": "partial",
  "note": "Inverted coordinates cannot hold points with a zero coordinate: operations proved whenever the result is representable (always for points of odd order); (x,y)+(x,-y) and to_inverted of the identity refuted."
 },
 "C28": {
  "status": "proved",
  "note": "All points, including the 2-torsion point; sqrt is any function finding roots of non-zero squares."
 },
 "C31": {
  "status": "proved",
  "note": "Naive policy for any point class implementing a commutative group (instances: projective, affine Edwards; Jacobian on the prime-order subgroup), inner_product over any commutative ring."
 },
 "C32": {
  "status": "proved",
  "note": "All non-empty inputs; std::log2 taken exact and 1 << c not overflowing (length < 2^43)."
 },
 "C33": {
  "status": "partial",
  "note": "Terminates with the sum whenever some scalar is non-zero or there is at most one base; two or more scalars all zero throw (refuted). find_wnaf and std::make_heap by contract."
 },
 "C34": {
  "status": "partial",
  "note": "Naive and BDLO12 for all inputs and chunk counts >= 1; Bos-Coster when every scalar is non-zero (a chunk of zero scalars throws, see C33)."
 },
 "C35": {
  "status": "partial",
  "note": "Naive and Bos-Coster: all inputs. BDLO12: at least one scalar outside {0,1}; otherwise refuted (empty input to the bucket method)."
 },
 "C36": {
  "status": "proved",
  "note": ""
 },
 "C37": {
  "status": "proved",
  "note": "find_wnaf by contract, with a reference implementation proved to meet it; opt_window falls back on scalar * point, whose validity is C26."
 },
 "C38": {
  "status": "partial",
  "note": "Exact characterisation for any non-empty table; shipped tables: every n >= 1, and their thresholds grow with the window. n = 0 reads out of bounds (refuted). The LOWMEM build and the window choice of opt_window_wnaf_exp are characterised as well."
 },
 "C29": {
  "status": "proved",
  "note": "All shipped G1/G2 constants: on the curve, not the identity, r*G = O; exact order r for every curve. edwards G2 uses its own class (Model/EdwardsG2.v)."
 },
 "C39": {
  "status": "proved",
  "note": "bls12-381 G1 and G2, all curve points, every Jacobian representation, both formats, plus the octet format of the draft. export_bits/import_bits and ressol by contract (contracts shown satisfiable)."
 },
 "C40": {
  "status": "partial",
  "note": "Proved: accepted strings give curve points, and canonical ones re-encode to themselves. Refuted: no subgroup check (witness points of order 3 and 13), x = p accepted, garbage after the infinity flag accepted."
 },
 "C41": {
  "status": "partial",
  "note": "Round trip into zeroed buffers and acceptance for prime fields and towers; determinacy of the output refuted (stale octets above the top non-zero one), with the exact behaviour proved."
 },
 "C49": {
  "status": "partial",
  "note": "Proved for exact arithmetic with an exact zero test: rref is in reduced row-echelon form and row-equivalent, rank is the matrix rank, inverse is the two-sided inverse of every invertible matrix. det returns the inverse of the determinant (C49_det_partial, C49_det_refuted). With the shipped default tolerance rank, rref and inverse are wrong on small entries (refuted), and a zero tolerance also fails (refuted). The overload rref(m, tolerance) at matrix/math.hpp:277 does not type-check and is not modelled. Floating point rounding is not modelled."
 },
 "C50": {
  "status": "partial",
  "note": "All structural operations proved for every shape, except swapcol which is correct for square matrices only (C50_swapcol_square_partial); for tall matrices only the first rows are swapped, for wide matrices the access is out of bounds (refuted)."
 },
 "C51": {
  "status": "proved",
  "note": "All lengths and arguments; slice past the end is an explicit undefined outcome."
 },
 "C42": {
  "status": "partial",
  "note": "Prime field, extension and group draws: every non-zero element has the same multiplicity; zero is hit twice (the drawn interval is 0..p inclusive), so uniformity is refuted. The underlying integer distribution is trusted to be uniform on its documented closed interval."
 },
 "C52": {
  "status": "partial",
  "note": "Every positive finite double: returns one of the two doubles next to the root, the exact root of a square. Negative arguments rejected. Refuted: sqrt(0), sqrt(inf), sqrt(NaN) never return; sqrt(2) is not the nearest double."
 },
 "C53": {
  "status": "partial",
  "note": "totient is Euler's function whenever the factorisation handed to it is correct; totient_list lists the coprime residues for n >= 2; n = 1 refuted. Correctness of the factorisation is C54."
 },
 "C54": {
  "status": "partial",
  "note": "When prime_factorize returns, the factors are primes with product n, unless the perfect-square defect fires. Refuted: prime_factorize(9) diverges with the default-seeded mt19937, and the product can be wrong. is_prime is a parameter with its contract as hypothesis."
 },
 "C55": {
  "status": "partial",
  "note": "The range overload is proved for all inputs, including rejection of unequal lengths; the iterator overload has no return statement (undefined behaviour, refuted) but writes the right octets."
 },
 "C56": {
  "status": "partial",
  "note": "Equivalence proved for projective and Edwards-affine classes; for Jacobian classes under the no-collision hypothesis of C20, and refuted without it: a bls12-381 G1 point of order 3 is accepted."
 },
 "C58": {
  "status": "partial",
  "note": "Nearest-prime property proved whenever the search returns; next_prime from a start sharing a factor with m (9, 3) never returns (refuted). is_prime is a parameter with its contract as hypothesis."
 },
 "C59": {
  "status": "partial",
  "note": "Exact over every field for every int exponent except INT_MIN, where -n overflows (refuted). For doubles: proved for every finite x and every exponent but INT_MIN: relative error |n| * 2^-51 for powers in 2^-1021..2^1021, with an absolute error |n| * 2^-1073 below, the infinity of the right sign from 2^1025 on and that or the power up to the relative error in between."
 },
 "C60": {
  "status": "partial",
  "note": "Termination is refuted: nthroot(4, 3) alternates between two neighbouring doubles for ever, nthroot(0, 3) ends in NaN for ever; nthroot(0, 2) is 2^-1074 and nthroot(8, -3) is -inf. Every value returned for n >= 1 is proved to satisfy |r^n - x| <= n * 2^-51 * r^n when r is at least 2^-1000 and r^(n-1) is in 2^-1021..2^1021. For n = 1 every non-negative finite x is returned exactly within three turns, and for n = 2 every positive finite x yields one of the two doubles next to its square root. Which inputs make it return for n >= 3 is not characterised."
 },
 "C45": {
  "status": "partial",
  "note": "bls12-381: exponent exactly 3*(p^12-1)/r for every non-zero f. alt_bn128 is instantiated with the BLS12 chain: refuted, with the exponent it does compute and when the result has order r proved for every f. bls12-377 has no usable pairing parameters (its params.hpp is ill-formed)."
 },
 "C46": {
  "status": "proved",
  "note": "mnt4, mnt6, edwards: exponent exactly (p^k-1)/r for every non-zero f; the declared constants agree. find_wnaf by contract (shown satisfiable)."
 },
 "C43": {
  "status": "proved",
  "note": "The headers with the suite constants and sgn0 are not in the repository: proved for any suite meeting the conditions, and for the constants of RFC 9380. Relies on the contract inverse_mod(0) = 0."
 },
 "C44": {
  "status": "partial",
  "note": "G2: every point of E', denominators never vanish. G1: always a curve point (C44_g1_partial), but at the kernel points it is the generator instead of the identity (C44_g1_refuted), and map_to_curve reaches one (C44_reachable). Points are given with Z = 1, as map_to_curve does: iso_map ignores Z."
 },
 "C61": {
  "status": "proved",
  "note": "RFC 9380 constants; ressol contract for Fp, enough fuel for the Fp2 square root loop."
 },
 "C47": {
  "status": "proved",
  "note": "bls12-381, mnt4, mnt6 and edwards<183>: doubling and addition steps, running point [n]Q, exact consumption of the coefficient vectors, product formula for any stored points. alt_bn128 and bls12-377 have no well-formed pairing parameters."
 },
 "C62": {
  "status": "proved",
  "note": "bls12-381, mnt4-298, mnt6-298 and edwards-183; find_wnaf by contract (satisfied by the reference digits)."
 },
 "C63": {
  "status": "proved",
  "note": "All four pairings (find_wnaf by contract)."
 },
 "C64": {
  "status": "partial",
  "note": "two-adicity, roots of unity, generators, coset shift, nqr, radix constants: all 15 prime fields; nqr of all 7 extensions. Refuted: group_order is (p-1)/2; geometric_generator of goldilocks64 has order 192 < 2^32."
 },
 "C65": {
  "status": "partial",
  "note": "14 of 15 parameter sets and the four NIST primes. Refuted for x962_p_v3<192>, which takes its q from x962_p_v2<192>."
 },
 "C66": {
  "status": "proved",
  "note": "All four pairings (find_wnaf by contract)."
 },
 "C48": {
  "status": "partial",
  "note": "edwards-183 with P = O: proved. bls12-381, mnt4-298, mnt6-298 with P = O: the value is 1 or 0; missing: that it is never 0 (it is 1 at g2::one()). Q = O: refuted for all four pairings (bls12-381 and edwards-183 return 0 for every P, mnt4-298 returns 0 or, in the standard build, some value other than 1). mnt6-298 with Q = O: 0 at the point P = (0, sqrt b) of order r."
 },
 "C67": {
  "status": "partial",
  "note": "All forms proved except run-time unbounded_shl, which shifts by n mod width from n = width on (refuted for every non-zero value)."
 },
 "C68": {
  "status": "partial",
  "note": "Proved for arguments of 8 and 16 bits, and of 32 bits for a 64-bit result; other argument types are shifted by at least the width of the promoted result, which is undefined (refuted). Signed argument types: proved for non-negative arguments of 7, 15, 31 or 63 digits; a negative one overwrites those before it, octets given as int end up 31 bits apart, and the wider types are undefined for narrow results (refuted)."
 },
 "C69": {
  "status": "partial",
  "note": "Real: proved for every finite double. Complex: relative error 2^-51 proved when each part is 0 or between 2^-511 and 2^511 in absolute value; exact neighbour of the modulus when nothing rounds; returns with an absolute error whenever both parts are at most 2^511 and one is at least 2^-537. Refuted: abs(+0) is -0; abs never returns when a part is at least 2^512 or both are at most 2^-538; abs(1.5 * 2^-537) is off by 5%. Every pair of finite parts is covered: it returns with that absolute error, or never returns and a part is above 2^511 or both are below 2^-537."
 },
 "C70": {
  "status": "partial",
  "note": "Proved for every field, tower and coordinate class except Montgomery, whose identity flag is not printed (refuted; proved for two finite or two identity points). The digits of a residue are printed by the multiprecision library: plain decimal assumed."
 },
 "C71": {
  "status": "partial",
  "note": "Proved for fields, towers, affine, projective, plain Jacobian, Edwards and Montgomery points and for the G1 precomputation. Refuted for every point of the jacobian_with_a4_0 and jacobian_with_a4_minus_3 classes (missing quotation marks) and for every G2 precomputation with coefficients (a comma after the last coefficient, proved to be the only fault)."
 },
 "C72": {
  "status": "proved",
  "note": "All seven modp_ietf moduli, the five ffdhe_ietf moduli and the four modp_srp moduli shared with RFC 3526, against pi and e as real numbers. The three smaller SRP moduli have no such formula and are not covered."
 },
 "C73": {
  "status": "proved",
  "note": "All 94 moduli; the point statement over the prime fields, given that the modulus is prime (C30)."
 },
 "C74": {
  "status": "partial",
  "note": "Proved for all 19 groups given that p and (p-1)/2 are prime, which the RFCs assert and which is not proved here (see C30); that the generators are squares or non-squares and the least such needs the primality of p only. alt_bn128 without hypothesis."
 }
}