# Formal model of crypto3-algebra (Rocq/Coq 8.16.1)

The sources under `/repo/include/nil/crypto3/algebra` (abbreviated `A/` below) are
read as text and transcribed, function by function, into Gallina.  Every model
definition cites the file and the lines it transcribes.

## Layout (`rocq/theories`)

* `Base/*`    - field interface (operations record + laws), integers mod p, lists, groups.
* `Model/*`   - transcription of the C++ code. No proofs.
* `Spec/*`    - independent specifications (polynomial quotient rings, affine group
  law, sums of scalar multiples, ...). They do not mention model helpers.
* `Proof/*`   - proofs.
* `Properties/*` - one file per property group: only `Theorem ... exact ...`,
  `Example`s (non-vacuity) and `Print Assumptions`.

## Modelling decisions

* C++ template parameter "field" becomes a record of operations `FieldOps`
  together with the predicate `FieldLaws`.  The value of `inversed()` at zero is
  not constrained by the laws (the C++ delegates it to an external
  `inverse_mod`), so no generic theorem can depend on it.
* Boost.Multiprecision modular numbers become integers mod p with canonical
  representative (trusted: external library).
* Static constants (moduli, non-residues, Frobenius tables, curve parameters)
  are extracted mechanically from /repo into `Model/Params.v` with citations.
* Non-terminating loops take fuel and return `None` on exhaustion.
* Undefined behaviour (missing return, out-of-bounds, assertion failure) is a
  distinct outcome (`None`/`Err`).

## Plan, property by property

| id | modelled | proof |
|----|----------|-------|
| C01 | `power` over a commutative ring, binary exponent | induction on the bits |
| C02-C08 | element operators of Fp2, Fp3, Fp4, Fp6(x2), Fp12 over an abstract field | `ring` identities against product-of-polynomials spec; irreducibility => norm nonzero => inverse |
| C09 | shipped constants | instantiate with Zp, non-square/non-cube by Euler criterion certificates |
| C10 | Frobenius_map + shipped tables | (a+b)^p = a^p+b^p, coefficients by vm_compute |
| C11,C12 | unitary_inversed, cyclotomic_squared, cyclotomic_exp | subgroup relations + ring; NAF invariant |
| C13 | sparse multiplications | ring |
| C14,C15 | sqrt loop with fuel; is_square | Tonelli-Shanks invariant; Euler criterion in finite fields |
| C16-C21 | affine / Jacobian / projective element classes | refinement to affine chord-tangent spec by `field`/`nsatz`-style certificates; counterexamples by vm_compute |
| C22-C25,C28 | Montgomery, twisted Edwards (affine, extended, inverted), conversions | as above |
| C26 | scalar_mul / operator* loops | loop invariant over abstract group + instances |
| C27 | chord-tangent law | associativity by case analysis + polynomial certificates |
| C29,C30 | shipped constants | Pocklington certificates (elliptic curve certificates for secp521r1's scalar modulus), vm_compute of scalar multiples |
| C31-C38 | multiexp algorithms on an abstract commutative group | induction / loop invariants; Bos-Coster: multiset invariant + termination measure |
| C39-C41 | octet codecs | round-trip lemmas over byte lists |
| C42 | draw -> element map | counting preimages |
| C43,C44 | SSWU, isogeny maps | algebraic identities; polynomial identity with shipped constants by vm_compute |
| C45,C46 | final exponentiation | exponent bookkeeping in cyclic/cyclotomic group |
| C47 | Miller loops, precomputation (bls12, mnt4, mnt6, edwards) | loop invariants, ring |
| C48 | the same at the identity | P = O: every factor lies in a proper subfield (or w times one); Q = O: evaluation of the model, on machine integers where the value depends on the point |
| C49,C50,C51 | matrix/vector | induction, mathcomp `\det` as specification |
| C52 | constexpr float sqrt over the standard library's SpecFloat | on the reals with Flocq's rounding: iterates stay at or above the double below the root, decrease above it, and never alternate between the two neighbours (no parity of ties is used, only that the argument is itself a double); measure: multiple of 2^-1074.  Divergence at 0, inf, NaN by the fixed point or NaN |
| C53-C55 | totient, factorisation, strxor | stdlib number theory |
| C56 | subgroup_check | scalar_mul + group |
| C57 | helpers | ring |
| C58 | first_prime, next_prime, previous_prime with fuel, `is_prime` an oracle | loop invariant; the congruence 1 mod m is kept by every step |
| C59, C60 | exponentiate, nthroot (SpecFloat) | induction on the bits, over a field and with accumulated relative errors over doubles; the residual of a step that does not move; a two-cycle of doubles by computation |
| C61 | map_to_curve = SSWU + iso_map with the RFC 9380 constants | C43 + C44 |
| C62 | ate precomputation, Miller loops, final exponentiation, pair_reduced | the value of the loop is the Miller function up to factors in a proper subfield, which the final exponent kills |
| C63 | as C62 | negation: identities between line values; order: C45/C46; bilinearity: the function A, B -> line/vertical is a symmetric cocycle (MillerLaws), the Frobenius map multiplies the untwisted points by the loop constant (checked on the generator), so the e-th power of the Miller function is additive in both arguments (MillerBilinear, TwistBilinear); edwards-183: the Weierstrass map is a homomorphism on points of odd order (EdwardsWeierstrass, EdwardsBilinear) |
| C66 | as C63 | the pairing of the generators is evaluated on machine integers through field homomorphisms (FastField, PairingMap, PairingBig, PairingGen) and is not 1; the rest follows from C63 and the primality of r |
| C64 | constants of arithmetic_params | order from the prime factorisation of p - 1 (Pocklington certificates), powers evaluated on bignums |
| C65 | constants of the curve headers without group types | as C29 |
| C67 | shift helpers of nil/crypto3/detail | induction on the template argument; bitwise extensionality |
| C68 | make_uint_t, extract_uint_t with undefined shifts as None | fold over the arguments, arithmetic mod 2^size |
| C69 | abs of reals and complex numbers over SpecFloat | case analysis on the real line; relative error of each rounded square and of the sum, then the faithful root of C52 |
| C70 | operator<< of fields, towers and points, as strings | decimal notation read back digit by digit; delimiters are not digits |
| C71 | the same, and of precomputed pairing arguments | RFC 8259 as an inductive relation; a scanner that every JSON text passes rejects the malformed ones |
| C72 | the modp_ietf, modp_srp and ffdhe_ietf moduli | Machin's formula and the series of e with error bounds on the real numbers, evaluated on lists of 31-bit limbs proved to compute the same integers |
| C73 | the template arguments of field<>, value_bits, extended_integral_type | powers of two; positional notation in slots of modulus_bits; p divides (y - y')(y + y') |
| C74 | the mul_generator members of modp_ietf, ffdhe_ietf, modp_srp and alt_bn128 | Gauss's lemma and Euler's form of it (the sign depends on p mod 4a); order of an element whose q-th power is 1 or -1; primality of p and (p-1)/2 is a hypothesis |

C48 (an argument at infinity): follow the precomputation of the identity through the
loops; the coefficients it produces are constants of the subfield or zero.

## Trusted base

* The Coq 8.16.1 kernel, including its `vm_compute` machine and the primitive 63-bit
  integers.
* What `Print Assumptions` lists for each theorem: see "Assumptions" below.  No file of
  this development declares an axiom, and no kernel check is switched off.
* The reading of the C++ text: no code of /repo is executed, and no tool relates the
  model to the code.  Every model definition cites the lines it transcribes.
* The scripts under `tools/` that copied the numeric constants (moduli, Frobenius tables,
  curve parameters, window tables) out of the headers.

The library files used are those of the standard library, of coq-bignums (fast integer
arithmetic on top of the standard library's primitive integers) and, in
`Spec/MathcompField.v`, `Proof/GaussJordan.v`, `Properties/GaussJordan.v` and
`Proof/Totient.v`, of mathcomp (as the specification of determinant, rank, inverse and
totient), and in `Proof/{SqrtReal,SqrtDouble,ExpDouble,ExpRange,ExpTotal,AbsDouble,NthRoot}.v` and
`Properties/ScalarMath.v` of Flocq (binary64 rounding; the statements use only the standard
library's SpecFloat and Reals).  `Print Assumptions`
reports nothing from mathcomp, Flocq or bignums.  `coqchk -o` on
the whole development also names the bodies that mathcomp seals inside its own modules
(for instance `bigop.BigOp.bigopE`, `finfun.FinfunDef`, `finset.SetDef`,
`fintype.SubsetDef`, `perm.PermDef`, `generic_quotient.Repr`, `tuple.FinTuple`): these are
fields of opaque module ascriptions with proofs behind them, not axioms of a theorem here.

## What is modelled

Paths below `include/nil/crypto3/algebra`.

| model file | code |
|---|---|
| `Fp.v`, `Power.v` | `fields/detail/element/fp.hpp`, `fields/detail/exponentiation.hpp` |
| `Fp2.v` `Fp3.v` `Fp4.v` `Fp6_3over2.v` `Fp6_2over3.v` `Fp12.v` | `fields/detail/element/fp{2,3,4,6_3over2,6_2over3,12_2over3over2}.hpp`: constructors, operators, member functions and the free functions of the files except std::hash; `operator<<` in `Printing.v` |
| `MixedOps.v` | `fields/detail/element/operations.hpp` |
| `Printing.v` | `operator<<` of the field elements, the curve points and the precomputed pairing inputs |
| `ArithmeticParams.v` | `fields/arithmetic_params/*.hpp` |
| `Sqrt.v` | `sqrt`, `is_square` of element_fp2, element_fp3, `is_square` of element_fp |
| `FieldParams.v`, `Shipped.v` | `fields/*/base_field.hpp`, `fields/*/scalar_field.hpp`, `fields/detail/extension_params/`, the square-root constants of `fields/arithmetic_params/` |
| `FieldWidths.v`, `MulGenerators.v` | the template arguments of `field<>`, `value_bits`, `extended_integral_type` and `mul_generator` members of `fields/*.hpp` |
| `ShortWeierstrass.v` | `curves/detail/forms/short_weierstrass/`: affine, projective, projective_with_a4_minus_3, jacobian, jacobian_with_a4_0, jacobian_with_a4_minus_3 |
| `Edwards.v` | `curves/detail/forms/twisted_edwards/` (affine, extended, inverted), `curves/detail/forms/edwards/inverted/` |
| `EdwardsG2.v` | `curves/detail/edwards/element_g2.hpp` |
| `Montgomery.v` | `curves/detail/forms/montgomery/element_g1_affine.hpp`, conversions to and from twisted Edwards |
| `ScalarMul.v`, `SubgroupCheck.v` | `curves/detail/scalar_mul.hpp`, `curves/detail/subgroup_check.hpp` |
| `CurveParams.v`, `Generators.v` | `curves/detail/*/*params.hpp`, `g1.hpp`, `g2.hpp` |
| `DomainParams.v` | `curves/{brainpool_r1,frp_v1,gost_A,sm2p_v1,x962_p,p192,p224,p384,p521}.hpp` (constants) |
| `H2c.v` | `curves/detail/h2c/h2c_m2c.hpp`, `h2c_iso_map.hpp` |
| `Marshalling.v` | `curves/detail/marshalling.hpp`, `marshalling.hpp` |
| `Multiexp.v`, `Wnaf.v`, `WindowTables.v` | `multiexp/*.hpp`, `wnaf.hpp`, `curves/params/{multiexp,wnaf}/` |
| `FinalExp.v`, `Pairing.v` | `pairing/**/final_exponentiation.hpp`, the precomputations, Miller and double Miller loops of bls12-381, mnt4-298, mnt6-298 and edwards-183, `algorithms/pair.hpp` |
| `Random.v` | `random_element.hpp` |
| `Strxor.v`, `NumberTheory.v`, `ScalarMath.v` | `algorithms/strxor.hpp`, `primes.hpp`, `totient.hpp`, `scalar/math.hpp` |
| `Shifts.v` | `nil/crypto3/detail/unbounded_shift.hpp`, `nil/crypto3/detail/make_uint_t.hpp` |
| `Vector.v`, `Matrix.v`, `Operators.v` | `vector/*.hpp`, `matrix/*.hpp` |

Simplifications, each stated again at the definition concerned:

* Boost.Multiprecision: modular numbers are integers mod p in canonical form; `powm`,
  `inverse_mod`, `ressol`, `miller_rabin_test`, `find_wnaf`, `export_bits`, `import_bits`
  are external.  Where their behaviour matters they are parameters with a contract as
  hypothesis, and the contract is shown to be satisfiable.
* std::make_heap, std::shuffle, random distributions: contracts as well.
* `squared()`, `doubled()` and small integer factors are written as products and sums in
  the curve formulas; C01-C08 relate them to the code.
* std::size_t arithmetic is exact where sizes are far below 2^64 (stated per file);
  vector rotation counts are modelled with their wrap-around.
* double is IEEE binary64, round to nearest even (SpecFloat).  The linear algebra theorems
  of C49 are about exact arithmetic.
* BOOST_ASSERT / CRYPTO3_ASSERT are modelled as enabled.

## What is not modelled

* `pairing/detail/alt_bn128/functions.hpp`: included nowhere, uses members that do not exist.
* The pairings of bls12-377 (its params.hpp does not parse) and alt_bn128 (no twist_coeff_b
  in its parameters); their final exponentiation is modelled as far as it is well formed.
* `affine_ate_*` of mnt4/mnt6 (`policy_type::ate_loop_count` is not a member),
  `tate_*` of edwards (undeclared names), the `__ZKLLVM__` branches.
* `rref(m, tolerance)` (matrix/math.hpp:277, does not type-check).
* The `USE_MIXED_ADDITION` branches of multiexp (`multiexp.hpp:96`, `policies.hpp:158,169,179`): the model
  takes the `#else` branch (`acc = acc.mixed_add(..)` assigns from a `void` function). `LOWMEM` is modelled by `get_exp_window_size_lowmem`, and both settings of
  `STANDARD_EC_INF_POINTS_ENABLED` by the parameter `std` or by an arbitrary `zero_fill`.
* Of `curves/{brainpool_r1,frp_v1,gost_A,p192,p224,p384,p521,sm2p_v1,x962_p}.hpp` only the constants
  (`DomainParams.v`): they define no group type, or name ones that are not in the repository
  (`detail/brainpool_r1/g1.hpp`, `detail/x962_p/g1.hpp`, `gost_A_g1`, `curve_nist.hpp`).
  `curves/ed25519.hpp` only renames the types of curve25519.
* `h2c_suites.hpp`, `h2c_sgn0.hpp`, expand_message: not in the repository.
* The coordinate tag headers (hessian, jacobi_*), `type_traits.hpp`: no run-time effect.
* Of `nil/crypto3/detail/*`: the assertion macros are modelled at their uses, `Shifts.v` covers the
  shift and octet helpers; `state_adder.hpp` does not parse, the rest (stream_endian tags,
  make_array, octet, type traits, ...) has no code the algebra runs.
* std::hash of element_fp (the external hash of the residue) and of element_fp2 (names a member type
  `modular_type` that element_fp2 does not have). How the multiprecision library prints a residue
  (`Printing.v` takes plain decimal, the default flags of a stream).
* Typedefs, serialisation through the marshalling library of another repository.
* Timing, memory use, thread safety.

## Mutation log

`seeded/LOG.jsonl` has one line per edit of a model definition tried in a scratch copy. How to read it:

* A build stops at the first statement whose proof script fails; `note` names it. `failed` lists the theorems
  that use that statement, found by following the references between the files. Builds were as a rule not carried past
  the first failure, so a listed theorem lost its proof; that its statement became false was not shown one by one.
* An edit with an empty `failed` list survived. Either `tightened` names the theorem added or strengthened
  because of it, or `note` says why the edit breaks no claim (performance only, or an equivalent program).
* Edits that only made the model ill-typed are not listed.

## Findings

Places where the code does not do what the property says; each has a theorem.

| theorem | finding |
|---|---|
| C01_fp_pow_negative_refuted | a negative built-in exponent is converted to a huge unsigned one |
| C10_mnt6_fp6_refuted | entry 5 of the mnt6 fp6 Frobenius table repeats entry 4 |
| C10_bn128_refuted | the bn128 Frobenius tables are all zero |
| C13_fp6_mul_by_2345_other_shape_refuted | mul_by_2345 also takes operands it is wrong for |
| C14_*_zero_refuted, C14_*_diverges | sqrt of zero and of non-squares never returns |
| C16_two_torsion_refuted, C16_neg_standard_inf_refuted | affine doubling of a 2-torsion point inverts zero; negation of the identity with fill (0,1) |
| C19_jacobian_a4_minus_3_to_affine_refuted | to_affine divides Y by Z^2 instead of Z^3 |
| C19_to_extended_refuted, C25_to_inverted_refuted, C25_add_refuted | identity and zero coordinates lost in coordinate conversions |
| C20_*_refuted, C26_*_refuted, C56_jacobian_refuted | mixed addition is wrong for equal operands; scalar multiples beyond the order, and so subgroup_check |
| C21_*_refuted | is_well_formed rejects or accepts too much (projective a4=-3, extended, inverted, edwards G2) |
| C22_neg_refuted, C22_sub_refuted | Montgomery negation drops the identity flag |
| C25_edwards_g2_to_affine_refuted | edwards G2 to_affine of the identity is not the identity |
| C30_all_moduli_prime_refuted | sect_k1's base "modulus" is 2^163 |
| C33_zero_refuted, C34, C35_bdlo12_refuted, C38_zero_refuted | all-zero scalars, all-trivial scalars and empty tables |
| C40_*_refuted, C41_output_refuted | deserialisation accepts x = p, points outside the subgroup, garbage after the infinity flag; serialisation into a dirty buffer keeps stale octets |
| C42_uniform_refuted | random_element draws zero twice as often |
| C44_g1_refuted | iso_map of a kernel point returns the generator |
| C45_alt_bn128_refuted | alt_bn128 uses the BLS12 final exponentiation |
| C49_*_refuted | det returns the inverse of the determinant; the default tolerance breaks rank and inverse |
| C50_swapcol_*_refuted | swapcol loops over the columns instead of the rows |
| C70_montgomery_refuted | the identity of a Montgomery curve is printed as a finite point |
| C71_*_refuted | points of jacobian_with_a4_0 and jacobian_with_a4_minus_3 and G2 precomputations are printed as malformed JSON |
| C69_*_refuted | abs(+0) is -0; abs of a complex number never returns when a part is at least 2^512 or both are at most 2^-538; abs(1.5 * 2^-537) is off by a twentieth |
| C52_*_refuted, C59_exponentiate_refuted, C60_*_refuted | sqrt(0), sqrt(inf), sqrt(NaN), nthroot(4,3), nthroot(0,3) never return; nthroot(0,2) is 2^-1074; nthroot(8,-3) is -inf; INT_MIN overflows |
| C64_group_order_refuted | `group_order` of arithmetic_params is half the order of the group |
| C64_geometric_generator_refuted | the geometric_generator of goldilocks64 has order 192, far below 2^32 |
| C67_shl_refuted, C68_make_refuted | run-time unbounded_shl by the width or more shifts by n mod width; make_uint_t with arguments as wide as the (promoted) result shifts by the full width; also C68_make_negative_refuted, C68_int_octets_refuted, C68_make_long_refuted, C68_make_int_refuted for signed argument types |
| C48_*_refuted | pair_reduced(P, O) is 0 (bls12-381, edwards-183 for every P, mnt6-298 for P = (0, sqrt b)) or another value than 1 (mnt4-298) |
| C65_x962_p192v3_refuted | x962_p192v3 takes its group order from x962_p192v2 |
| C53_*, C54_*, C55_iterators_refuted, C58_next_prime_refuted | totient(1), prime_factorize(9), strxor without return, next_prime |

## Assumptions

Generated by `tools/assumptions.py` from the output of `Print Assumptions`.
The axioms named are those of the standard library's primitive integers (`PrimInt63`,
`Uint63`), used (mostly through coq-bignums) for computing with the shipped constants, and those
of its real numbers (C52, C59, C60, C69 and C72 only).

<!-- assumptions -->
580 theorems.

**Closed under the global context** (365 theorems)

* `Properties/ArithmeticParams.v`: C64_extension_params_agree
* `Properties/Cyclotomic.v`: C11_outside_subgroup_refuted
* `Properties/DhGroups.v`: C72_shape
* `Properties/Edwards.v`: C23_group, C23_defined, C23_add, C23_double, C23_neg, C23_sub, C23_zero, C19_te_affine_equal, C21_te_affine, C26_te_affine, C24_add, C24_neg, C24_sub, C24_double, C24_equal, C24_zero, C24_to_affine, C19_to_extended_partial, C19_to_extended_refuted, C20_extended_partial, C20_extended_odd_partial, C20_extended_refuted, C21_extended_partial, C21_extended_refuted, C26_extended_partial, C26_extended_order_partial, C25_add_partial, C25_double_partial, C25_neg, C25_sub_partial, C25_equal, C25_zero, C25_to_affine, C25_to_inverted_partial, C25_of_affine_partial, C25_odd_partial, C25_add_refuted, C25_to_inverted_refuted, C21_inverted_partial, C21_inverted_refuted, C20_inverted_partial, C26_inverted_partial, C25_edwards_partial, C20_edwards_zero_refuted, C22_group, C22_add, C22_double, C22_neg_partial, C22_sub_partial, C22_neg_refuted, C22_sub_refuted, C22_zero, C22_assign, C19_montgomery_equal, C21_montgomery, C26_montgomery, C28_to_montgomery, C28_to_twisted_edwards, C26_extended_refuted
* `Properties/FieldWidths.v`: C73_modulus_bits, C73_integral_type, C73_extended_type, C73_value_bits, C73_point_bits, C41_prime_roundtrip_shipped
* `Properties/Fields.v`: C01_fp2_pow, C01_fp3_pow, C01_fp4_pow, C01_fp6_2over3_pow, C01_fp6_3over2_pow, C01_fp12_pow, C01_fp_pow, C01_fp_pow_int, C01_fp_pow_negative_refuted, C02_fp2_mul, C02_fp2_mul_assign, C02_fp2_squared, C02_fp2_linear, C02_fp2_ring, C02_fp2_neqb, C03_fp2_inverse, C03_fp2_field, C03_nonsquare_necessary, C04_fp3_mul, C04_fp3_mul_assign, C04_fp3_neqb, C04_fp3_linear, C04_fp3_ring, C04_fp3_inverse, C04_fp3_field, C05_fp4_mul, C05_fp4_mul_by_non_residue, C05_fp4_mul_assign, C05_fp4_linear, C05_fp4_ring, C05_fp4_inverse, C06_fp6_mul, C06_fp6_mul_assign, C06_fp6_ring, C06_fp6_smul, C06_fp6_inverse, C07_fp6_mul, C07_fp6_squared, C07_fp6_ring, C07_fp6_smul, C07_fp6_inverse, C08_fp12_mul, C08_fp12_mul_assign, C08_fp12_ring, C08_fp12_inverse, C08_fp12_smul, C13_fp12_mul_by_045, C13_fp12_mul_by_024, C13_fp4_mul_by_023, C13_fp4_mul_by_023_rejects, C13_fp6_mul_by_2345, C13_fp6_mul_by_2345_other_shape_refuted, C13_fp6_scalings, C57_fp_helpers, C57_fp_order, C57_fp2_mul_x, C57_fp2_mul_x_other_nonresidue_refuted
* `Properties/FinalExp.v`: C45_bls12_381_exponent, C45_alt_bn128_declared, C46_declared_exponents
* `Properties/GaussJordan.v`: C49_rref, C49_rank, C49_inverse, C49_det_partial, C49_det_refuted, C49_default_tolerance_refuted, C49_inverse_default_tolerance_refuted, C49_zero_tolerance_refuted
* `Properties/Generators.v`: C25_edwards_g2, C27_edwards_g2, C25_edwards_g2_reduce, C25_edwards_g2_zero, C21_edwards_g2_partial, C25_edwards_g2_to_affine_refuted
* `Properties/H2c.v`: C43_any_suite
* `Properties/Marshalling.v`: C41_prime_roundtrip, C41_prime_accepts, C41_prime_length, C41_output_partial, C41_output_refuted, C41_extension_roundtrip, C41_extension_accepts, C41_bls12_381_fp2, C41_bls12_381_fp12
* `Properties/Matrix.v`: C50_transpose, C50_horzcat, C50_vertcat, C50_submat, C50_reshape, C50_repmat, C50_fill, C50_as_column, C50_as_row, C50_elementwise_one, C50_elementwise_two, C50_swaprow, C50_swaprow_out_of_range, C50_swapcol_square_partial, C50_swapcol_tall, C50_swapcol_wide_refuted, C50_swapcol_tall_refuted, C50_identity, C50_matmul, C50_vectmatmul, C50_matvectmul, C50_kron, C50_trace
* `Properties/MixedOps.v`: C57_fp_integer_operators
* `Properties/Moduli.v`: C30_all_moduli_prime_refuted
* `Properties/MulGenerators.v`: C74_prime_order_subgroup_partial, C74_primitive_root_partial, C74_least_partial, C74_residue_partial, C74_euler
* `Properties/Multiexp.v`: C31_inner_product, C31_naive, C32_bdlo12, C32_empty, C33_bos_coster_partial, C33_zero_refuted, C34_naive, C34_bdlo12, C34_bos_coster_partial, C34_zero_chunks, C35_naive, C35_bos_coster, C35_bdlo12_partial, C35_bdlo12_refuted, C36_windowed_exp, C36_batch_exp, C36_batch_exp_with_coeff, C37_fixed_window, C37_opt_window, C38_exp_window_partial, C38_zero_refuted, C38_shipped, C38_thresholds, C38_lowmem, C38_wnaf_window
* `Properties/NumberTheory.v`: C54_factorize_partial, C54_pollard_divisor, C54_pollard_terminates, C54_terminates_refuted, C54_product_refuted, C54_reduced_refuted, C53_totient_partial, C53_totient_refuted, C53_totient_list, C53_totient_list_refuted, C58_first_prime, C58_next_prime, C58_previous_prime, C58_next_prime_refuted
* `Properties/Operators.v`: C51_operators_vector, C51_operators_scalar, C51_inequality, C51_conjugate, C50_operators_matrix, C50_operators_scalar, C50_equality, C50_hermitian, C50_conjugate, C50_norms, C50_abs_real
* `Properties/Printing.v`: C70_fields, C70_curves, C70_readable, C70_montgomery_refuted, C70_montgomery_partial, C71_fp, C71_extensions, C71_points, C71_jacobian_a4_refuted, C71_precomputed_g1, C71_precomputed_g2_refuted, C71_precomputed_g2_partial
* `Properties/Random.v`: C42_prime_field_multiplicity, C42_uniform_nonzero_partial, C42_uniform_refuted, C42_extension_multiplicity, C42_group_value, C42_group_multiplicity
* `Properties/ScalarMath.v`: C52_negative_rejected, C52_zero_refuted, C52_infinity_refuted, C52_nan_refuted, C52_nearest_refuted, C69_zero_sign_refuted, C69_complex_refuted, C69_underflow_refuted, C59_exponentiate, C59_exponentiate_negative, C59_exponentiate_refuted, C59_double_zero, C60_terminates_refuted, C60_zero_refuted, C60_zero_square_refuted, C60_negative_index_refuted, C60_negative_rejected
* `Properties/Shifts.v`: C67_static_shl, C67_static_shr, C67_shr, C67_shl_partial, C67_shl_wraps, C67_shl_refuted, C67_low_bits, C67_low_bits_typed, C67_low_bits_none, C67_low_bits_narrow, C67_low_bits_narrow_refuted, C67_low_bits_dynamic, C67_high_bits, C68_joined_nil, C68_joined_snoc, C68_make_partial, C68_make_refuted, C68_make_signed_partial, C68_make_negative_refuted, C68_int_octets_refuted, C68_make_long_refuted, C68_make_int_refuted, C68_extract, C68_roundtrip
* `Properties/ShippedFields.v`: C10_bn128_refuted
* `Properties/Sqrt.v`: C15_prime
* `Properties/Strxor.v`: C55_ranges, C55_ranges_rejects, C55_ranges_release, C55_iterators_partial, C55_iterators_refuted
* `Properties/Subgroup.v`: C56_projective, C56_jacobian_partial, C56_te_affine
* `Properties/Vector.v`: C51_elementwise_one, C51_elementwise_two, C51_accumulate, C51_fill, C51_iota, C51_generate, C51_linspace, C51_rotate, C51_slice, C51_slice_out_of_range, C51_concat, C51_sum, C51_dot, C51_min, C51_max, C51_min_defined, C51_max_defined, C51_min_index, C51_max_index, C51_equality
* `Properties/Weierstrass.v`: C16_add_partial, C16_double_partial, C16_neg, C16_sub_partial, C17_jacobian, C17_jacobian_a4_0, C17_jacobian_a4_minus_3, C18_projective, C19_jacobian_eqb, C19_projective_eqb, C19_affine_eqb, C19_jacobian_to_affine, C19_projective_to_affine, C19_jacobian_a4_minus_3_to_affine_partial, C19_jacobian_to_projective, C19_to_projective_to_affine, C20_projective, C20_jacobian_partial, C20_jacobian_equal_refuted, C21_jacobian, C21_jacobian_a4_0, C21_jacobian_a4_minus_3, C21_projective, C27_closed, C27_associative, C27_commutative, C27_identity, C27_inverse, C26_projective, C26_jacobian_partial, C26_jacobian_a4_0_partial, C26_jacobian_a4_minus_3_partial, C26_affine_partial, C26_affine_no_two_torsion, C26_affine_odd_order, C16_two_torsion_refuted, C16_neg_standard_inf_refuted, C19_jacobian_a4_minus_3_to_affine_refuted, C21_projective_a4_minus_3_refuted, C21_projective_a4_minus_3_partial, C26_affine_refuted, C26_jacobian_refuted, C26_jacobian_a4_0_refuted, C26_jacobian_a4_minus_3_refuted

**Axioms: `ClassicalDedekindReals.sig_forall_dec`, `FunctionalExtensionality.functional_extensionality_dep`** (1 theorems)

* `Properties/ScalarMath.v`: C69_real

**Axioms: `ClassicalDedekindReals.sig_forall_dec`, `ClassicalDedekindReals.sig_not_dec`, `FunctionalExtensionality.functional_extensionality_dep`** (2 theorems)

* `Properties/DhGroups.v`: C72_unique
* `Properties/ScalarMath.v`: C69_precision_refuted

**Axioms: `ClassicalDedekindReals.sig_forall_dec`, `ClassicalDedekindReals.sig_not_dec`, `Classical_Prop.classic`, `FunctionalExtensionality.functional_extensionality_dep`** (14 theorems)

* `Properties/ScalarMath.v`: C52_positive_partial, C52_exact_partial, C69_complex_partial, C69_complex_exact_partial, C69_out_of_range_refuted, C69_complex_returns_partial, C69_complex, C59_double_range, C59_double_overflow, C59_double_underflow, C59_double, C60_result_partial, C60_index_one_partial, C60_index_two_partial

**Axioms: `ClassicalDedekindReals.sig_forall_dec`, `ClassicalDedekindReals.sig_not_dec`, `FunctionalExtensionality.functional_extensionality_dep`, `PrimInt63.add`, `PrimInt63.div`, `PrimInt63.eqb`, `PrimInt63.int`, `PrimInt63.land`, `PrimInt63.lsl`, `PrimInt63.lsr`, `PrimInt63.mod`, `Uint63.add_spec`, `Uint63.div_spec`, `Uint63.lsl_spec`, `Uint63.mod_spec`** (1 theorems)

* `Properties/DhGroups.v`: C72_ffdhe

**Axioms: `ClassicalDedekindReals.sig_forall_dec`, `ClassicalDedekindReals.sig_not_dec`, `Classical_Prop.classic`, `FunctionalExtensionality.functional_extensionality_dep`, `PrimInt63.add`, `PrimInt63.div`, `PrimInt63.eqb`, `PrimInt63.int`, `PrimInt63.land`, `PrimInt63.lsl`, `PrimInt63.lsr`, `PrimInt63.mod`, `Uint63.add_spec`, `Uint63.div_spec`, `Uint63.lsl_spec`, `Uint63.mod_spec`** (2 theorems)

* `Properties/DhGroups.v`: C72_modp, C72_srp

**Axioms: `PrimInt63.add`, `PrimInt63.addc`, `PrimInt63.addcarryc`, `PrimInt63.addmuldiv`, `PrimInt63.compare`, `PrimInt63.div`, `PrimInt63.diveucl`, `PrimInt63.diveucl_21`, `PrimInt63.eqb`, `PrimInt63.head0`, `PrimInt63.int`, `PrimInt63.land`, `PrimInt63.leb`, `PrimInt63.lor`, `PrimInt63.lsl`, `PrimInt63.lsr`, `PrimInt63.ltb`, `PrimInt63.lxor`, `PrimInt63.mod`, `PrimInt63.mul`, `PrimInt63.mulc`, `PrimInt63.sub`, `PrimInt63.subc`, `PrimInt63.subcarryc`, `PrimInt63.tail0`** (4 theorems)

* `Properties/ArithmeticParams.v`: C64_two_adicity, C64_montgomery_radix, C64_group_order_half, C64_arithmetic_generator

**Axioms: `PrimInt63.add`, `PrimInt63.addc`, `PrimInt63.addcarryc`, `PrimInt63.addmuldiv`, `PrimInt63.compare`, `PrimInt63.div`, `PrimInt63.diveucl`, `PrimInt63.diveucl_21`, `PrimInt63.eqb`, `PrimInt63.head0`, `PrimInt63.int`, `PrimInt63.land`, `PrimInt63.leb`, `PrimInt63.lor`, `PrimInt63.lsl`, `PrimInt63.lsr`, `PrimInt63.ltb`, `PrimInt63.lxor`, `PrimInt63.mod`, `PrimInt63.mul`, `PrimInt63.mulc`, `PrimInt63.sub`, `PrimInt63.subc`, `PrimInt63.subcarryc`, `PrimInt63.tail0`, `Uint63.add_spec`, `Uint63.addc_def_spec`, `Uint63.addcarryc_def_spec`, `Uint63.addmuldiv_def_spec`, `Uint63.compare_def_spec`, `Uint63.div_spec`, `Uint63.diveucl_21_spec`, `Uint63.diveucl_def_spec`, `Uint63.eqb_correct`, `Uint63.eqb_refl`, `Uint63.head0_spec`, `Uint63.land_spec`, `Uint63.leb_spec`, `Uint63.lor_spec`, `Uint63.lsl_spec`, `Uint63.lsr_spec`, `Uint63.ltb_spec`, `Uint63.lxor_spec`, `Uint63.mod_spec`, `Uint63.mul_spec`, `Uint63.mulc_spec`, `Uint63.of_to_Z`, `Uint63.sub_spec`, `Uint63.subc_def_spec`, `Uint63.subcarryc_def_spec`, `Uint63.tail0_spec`** (191 theorems)

* `Properties/ArithmeticParams.v`: C64_root_of_unity, C64_coset_shift, C64_nqr, C64_group_order_refuted, C64_multiplicative_generator, C64_ed25519_multiplicative_generator, C64_geometric_generator_partial, C64_goldilocks_geometric_order, C64_geometric_generator_refuted, C64_extension_nqr, C64_extension_list, C64_dl_groups, C64_dl_order
* `Properties/Cyclotomic.v`: C11_bls12_381, C11_bls12_377, C11_alt_bn128, C11_bn128, C11_mnt4, C11_mnt6, C11_edwards, C12_bls12_381, C12_bls12_377, C12_alt_bn128, C12_bn128, C12_mnt4, C12_mnt6, C12_edwards
* `Properties/DomainParams.v`: C65_domain_parameters_partial, C65_x962_p192v3_refuted, C65_x962_p192v3_own_order, C65_nist_primes
* `Properties/FinalExp.v`: C45_bls12_381, C45_bls12_381_order, C45_alt_bn128_refuted, C45_alt_bn128_partial, C46_mnt4, C46_mnt6, C46_edwards
* `Properties/Generators.v`: C29_short_weierstrass, C29_short_weierstrass_order, C29_alt_bn128_g2, C29_bls12_377_g2, C29_bls12_381_g2, C29_mnt4_g2, C29_mnt6_g2, C29_twisted_edwards, C29_edwards_g1, C29_montgomery, C29_edwards_g2_coefficients, C29_edwards_g2, C21_edwards_g2_refuted, C29_projective_class, C29_jacobian_class, C29_te_affine_class, C29_extended_class
* `Properties/H2c.v`: C43_g1, C43_g2, C44_g2, C44_g1_partial, C44_g1_refuted, C44_reachable, C61_g1, C61_g2
* `Properties/Marshalling.v`: C39_g1_compressed, C39_g1_uncompressed, C39_g2_compressed, C39_g2_uncompressed, C39_g1_compressed_format, C39_g1_uncompressed_format, C39_g2_compressed_format, C39_g2_uncompressed_format, C39_infinity_format, C40_g1_compressed_partial, C40_g1_uncompressed_partial, C40_g2_compressed_partial, C40_g2_uncompressed_partial, C40_g1_compressed_refuted, C40_g1_uncompressed_refuted, C40_g2_compressed_refuted, C40_g2_uncompressed_refuted, C40_infinity_refuted, C40_coordinate_refuted
* `Properties/Miller.v`: C47_bls12_381_doubling_step, C47_bls12_381_addition_step, C47_bls12_381_running_point, C47_bls12_381_double_miller_loop, C47_mnt4_doubling_step, C47_mnt4_addition_step, C47_mnt4_running_point, C47_mnt4_double_miller_loop, C47_mnt6_doubling_step, C47_mnt6_addition_step, C47_mnt6_running_point, C47_mnt6_double_miller_loop
* `Properties/Moduli.v`: C30_moduli_prime_partial, C30_every_nonzero_invertible_partial
* `Properties/MulGenerators.v`: C74_alt_bn128
* `Properties/Pairing.v`: C62_bls12_381, C62_mnt4, C62_mnt6, C63_bls12_381_negate, C63_mnt4_negate, C63_mnt6_negate
* `Properties/PairingBilinear.v`: C63_bls12_381, C63_bls12_381_add_left, C63_bls12_381_add_right, C66_bls12_381, C63_mnt4, C63_mnt4_add_left, C63_mnt4_add_right, C66_mnt4, C63_mnt6, C63_mnt6_add_left, C63_mnt6_add_right, C66_mnt6
* `Properties/PairingEdwards.v`: C47_edwards_doubling_step, C47_edwards_addition_step, C47_edwards_full_addition_step, C47_edwards_running_point, C47_edwards_double_miller_loop, C62_edwards
* `Properties/PairingEdwardsBilinear.v`: C63_edwards, C63_edwards_add_left, C63_edwards_add_right, C66_edwards
* `Properties/PairingIdentity.v`: C48_bls12_381_left_partial, C48_bls12_381_left_one, C48_bls12_381_refuted, C48_mnt4_left_partial, C48_mnt4_left_one, C48_mnt4_refuted, C48_mnt4_std_refuted, C48_mnt6_left_partial, C48_mnt6_left_one, C48_mnt6_refuted, C48_edwards_left, C48_edwards_refuted
* `Properties/ShippedFields.v`: C09_bls12_381, C09_bls12_377, C09_alt_bn128, C09_bn128, C09_mnt4, C09_mnt6, C09_edwards, C09_group_orders, C10_bls12_381, C10_bls12_377, C10_alt_bn128, C10_mnt4, C10_edwards, C10_mnt6_fp3, C10_mnt6_fp6_partial, C10_mnt6_fp6_refuted
* `Properties/Sqrt.v`: C14_bls12_381_partial, C14_bls12_381_zero_refuted, C14_bls12_381_diverges, C14_bls12_377_partial, C14_bls12_377_zero_refuted, C14_bls12_377_diverges, C14_alt_bn128_partial, C14_alt_bn128_zero_refuted, C14_alt_bn128_diverges, C14_bn128_partial, C14_bn128_zero_refuted, C14_bn128_diverges, C14_mnt4_partial, C14_mnt4_zero_refuted, C14_mnt4_diverges, C14_mnt6_partial, C14_mnt6_zero_refuted, C14_mnt6_diverges, C14_edwards_partial, C14_edwards_zero_refuted, C14_edwards_diverges, C15_bls12_381_fp2, C15_bls12_377_fp2, C15_alt_bn128_fp2, C15_bn128_fp2, C15_mnt4_fp2, C15_mnt6_fp3, C15_mnt4_base, C15_mnt6_base, C15_bls12_381_base, C15_bls12_377_base, C15_bls12_381_scalar, C15_bls12_377_scalar, C15_alt_bn128_base, C15_alt_bn128_scalar, C15_curve25519_base, C15_edwards_base
* `Properties/Subgroup.v`: C56_jacobian_refuted
<!-- end assumptions -->
