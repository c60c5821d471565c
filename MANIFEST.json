{
 "claims": [
  {
   "property": "C01",
   "status": "proved",
   "theorems": [
    "C01_elt_is_the_residue",
    "C01_elt_eq_iff_congruent",
    "C01_elt_panics_iff_modulus_zero",
    "C01_zero_and_one"
   ],
   "note": "Every positive modulus, every integer; elt panics exactly for modulus 0."
  },
  {
   "property": "C02",
   "status": "proved",
   "theorems": [
    "C02_expressions_are_modular",
    "C02_ring_laws"
   ],
   "note": "All expression trees, all moduli > 0 (not only primes)."
  },
  {
   "property": "C03",
   "status": "proved",
   "theorems": [
    "C03_div_mul",
    "C03_inverse",
    "C03_div_by_zero",
    "C03_literals"
   ],
   "note": "All primes including 2; the division-by-zero value is stated exactly (0, or the dividend when p = 2)."
  },
  {
   "property": "C04",
   "status": "proved",
   "theorems": [
    "C04_pow_biguint",
    "C04_pow_bigint_nonneg",
    "C04_pow_bigint_hom",
    "C04_pow_bigint_zero",
    "C04_pow_agreement_refuted"
   ],
   "note": "BigUint exponents: any modulus. BigInt exponents: homomorphism in the exponent for x != 0, exact value for x = 0; the naive agreement of both exponent types is refuted for every p > 1."
  },
  {
   "property": "C05",
   "status": "proved",
   "theorems": [
    "C05_mixing_panics",
    "C05_mixing_division",
    "C05_eq_across_fields"
   ],
   "note": "Panic exactly when the moduli differ; == is false across fields."
  },
  {
   "property": "C06",
   "status": "proved",
   "theorems": [
    "C06_is_square_decides"
   ],
   "note": "All primes (2 included)."
  },
  {
   "property": "C07",
   "status": "proved",
   "theorems": [
    "C07_sqrt_is_a_root",
    "C07_sqrt_other_primes_panic"
   ],
   "note": "All primes, split exactly into the supported ones (3 mod 4, 5 mod 8) and those where sqrt always panics."
  },
  {
   "property": "C08",
   "status": "proved",
   "theorems": [
    "C08_cache_transparent",
    "C08_history_of_roots"
   ],
   "note": "sequential histories of sqrt calls over the shared cell, panics included"
  },
  {
   "property": "C09",
   "status": "proved",
   "theorems": [
    "C09_returned_answers_are_sequential",
    "C09_mutual_exclusion",
    "C09_never_blocks",
    "C09_concurrent_sqrt_refuted"
   ],
   "note": "any number of threads, any schedule: ended calls have the sequential outcome or the borrow panic; mutual exclusion; the no-panic claim is refuted on every supported prime"
  },
  {
   "property": "C10",
   "status": "proved",
   "theorems": [
    "C10_sgn0_is_parity",
    "C10_sgn0_neg",
    "C10_root_determined"
   ],
   "note": "All moduli for the value, odd moduli for the sign flip, odd primes for the root determination."
  },
  {
   "property": "C11",
   "status": "proved",
   "theorems": [
    "C11_to_bytes",
    "C11_size_bytes",
    "C11_round_trip",
    "C11_injective"
   ],
   "note": "All moduli > 0."
  },
  {
   "property": "C12",
   "status": "proved",
   "theorems": [
    "C12_from_bytes_total"
   ],
   "note": "All byte lists, all moduli > 0."
  },
  {
   "property": "C13",
   "status": "proved",
   "theorems": [
    "C13_panic_reason",
    "C13_from_str",
    "C13_plain_numbers",
    "C13_empty_text",
    "C13_display_round_trip",
    "C13_double_sign_refuted"
   ],
   "note": "Exact grammar of accepted texts; 'malformed text never yields a value' is refuted for double signs and underscores, which the grammar records."
  },
  {
   "property": "C14",
   "status": "proved",
   "theorems": [
    "C14_expressions_are_gaussian",
    "C14_ring_laws"
   ],
   "note": "All expression trees, all moduli > 0."
  },
  {
   "property": "C15",
   "status": "proved",
   "theorems": [
    "C15_division_value",
    "C15_division_correct_iff",
    "C15_division_by_zero",
    "C15_inverse_correct_iff_real",
    "C15_inversion_refuted"
   ],
   "note": "Refutes 'inversion is correct' for every prime p = 3 mod 4, and proves the exact set of elements on which it is. Division a/b: exact value, correct exactly when b is in the base field or a = 0; a/0 = 0."
  },
  {
   "property": "C16",
   "status": "proved",
   "theorems": [
    "C16_sqrt_constants",
    "C16_sqrt_message_refuted",
    "C16_powers_and_sqrt_refuted",
    "C16_exponent_bit_lost_refuted"
   ],
   "note": "The claim is refuted for every x and every exponent; also the exponent loop loses bit 31 of each word even if one() worked. The constants of sqrt and when they are unimplemented are exact."
  },
  {
   "property": "C17",
   "status": "proved",
   "theorems": [
    "C17_is_square2_decides",
    "C17_zero_is_square_refuted"
   ],
   "note": "All primes p = 3 mod 4; the answer at 0 is refuted as stated in the property."
  },
  {
   "property": "C18",
   "status": "proved",
   "theorems": [
    "C18_sgn0_value",
    "C18_sgn0_neg_iff",
    "C18_sgn0_neg_refuted"
   ],
   "note": "Exact characterisation, refutation for every odd p > 1."
  },
  {
   "property": "C19",
   "status": "proved",
   "theorems": [
    "C19_to_bytes_length",
    "C19_wrong_length",
    "C19_round_trip",
    "C19_from_bytes_right_length"
   ],
   "note": "All moduli > 0, all byte strings (Ok on the right length, Err otherwise)."
  },
  {
   "property": "C20",
   "status": "proved",
   "theorems": [
    "C20_new_scalar",
    "C20_scalar_ring",
    "C20_scalar_division",
    "C20_scalar_mixing",
    "C20_scalar_div_mixing",
    "C20_scalar_refusals"
   ],
   "note": "All orders > 0; division for prime orders; the extra panic of division for order 1 is stated."
  },
  {
   "property": "C21",
   "status": "proved",
   "theorems": [
    "C21_scalar_bytes",
    "C21_scalar_bytes_injective"
   ],
   "note": "All orders > 0, all scalars."
  },
  {
   "property": "C22",
   "status": "proved",
   "theorems": [
    "C22_iterators",
    "C22_iterators_zero",
    "C22_iter_lr_never_panics_refuted",
    "C22_iterators_fused"
   ],
   "note": "All scalars of fewer than 2^64 bits, both overflow-check settings; 'iter_lr never panics' refuted."
  },
  {
   "property": "C23",
   "status": "proved",
   "theorems": [
    "C23_new_point",
    "C23_history_sound",
    "C23_history_complete"
   ],
   "note": "Histories over new_point, identity, generator, decode, +, -, neg, scalar mul; both directions"
  },
  {
   "property": "C24",
   "status": "proved",
   "theorems": [
    "C24_law_is_total",
    "C24_addition",
    "C24_negation",
    "C24_subtraction",
    "C24_complete_for_all_curves_refuted"
   ],
   "note": "All pairs; completeness refuted for curves with a point of order 2 C24_law_is_total: the law the code is compared with has exactly one result, on the curve."
  },
  {
   "property": "C25",
   "status": "proved",
   "theorems": [
    "C25_associative",
    "C25_commutative",
    "C25_identity_and_inverse",
    "C25_equality_is_congruence"
   ],
   "note": "Associativity, commutativity, identity, inverses, congruence of =="
  },
  {
   "property": "C26",
   "status": "proved",
   "theorems": [
    "C26_multiples_exist",
    "C26_scalar_multiplication",
    "C26_zero_scalar_panics",
    "C26_homomorphism"
   ],
   "note": "k-fold sum, zero scalar, homomorphism modulo r C26_multiples_exist: the law the code is compared with has exactly one result, on the curve."
  },
  {
   "property": "C27",
   "status": "proved",
   "theorems": [
    "C27_mont_is_zero",
    "C27_is_zero"
   ],
   "note": "Weierstrass and Montgomery: is_zero iff == identity iff the point at infinity"
  },
  {
   "property": "C28",
   "status": "proved",
   "theorems": [
    "C28_encode",
    "C28_round_trip",
    "C28_encode_identity_breaks",
    "C28_identity_round_trip_refuted"
   ],
   "note": "Round trip for affine points; identity encoding refuted"
  },
  {
   "property": "C29",
   "status": "proved",
   "theorems": [
    "C29_decode_ok",
    "C29_decode_err",
    "C29_decode_panics",
    "C29_decode_never_panics_refuted"
   ],
   "note": "Exact Ok / Err / panic sets; never-panics claim refuted"
  },
  {
   "property": "C30",
   "status": "proved",
   "theorems": [
    "C30_decode_encode",
    "C30_unique_encodings"
   ],
   "note": "decode then encode is the identity on accepted texts"
  },
  {
   "property": "C31",
   "status": "proved",
   "theorems": [
    "C31_edw_normalize",
    "C31_mont_normalize",
    "C31_mont_normalize_identity_breaks",
    "C31_normalize",
    "C31_normalize_identity_breaks",
    "C31_normalize_keeps_point_refuted"
   ],
   "note": "Weierstrass, Montgomery and Edwards. On Weierstrass and Montgomery curves the identity case is refuted and its exact outcome proved; on Edwards curves normalize is right on every point."
  },
  {
   "property": "C32",
   "status": "proved",
   "theorems": [
    "C32_edw_equality",
    "C32_edw_representation",
    "C32_edw_zero_tuple",
    "C32_mont_equality",
    "C32_mont_representation",
    "C32_mont_zero_triple",
    "C32_equality",
    "C32_representation",
    "C32_zero_triple"
   ],
   "note": "The three curve shapes: == decides equality of the represented points, a triple represents at most one point, every point is represented, and the exact behaviour of the zero tuple, which equals everything."
  },
  {
   "property": "C33",
   "status": "proved",
   "theorems": [
    "C33_law_is_total",
    "C33_doubling_needs_b_one",
    "C33_exact_condition",
    "C33_new_point",
    "C33_addition",
    "C33_negation",
    "C33_subtraction",
    "C33_addition_for_all_b_refuted"
   ],
   "note": "On every Montgomery curve with b = 1, a^2 <> 4 and no point with ordinate s (hypotheses of the claim), new_point, addition, negation and subtraction equal the independent chord-and-tangent law, for every pair, with no panic. For b <> 1 the claim is refuted by a counterexample (the addition panics), and no doubling of a point with y <> 0 is right. The hypotheses are exact: with a point with y <> 0, addition is right on all pairs if and only if b = 1 and no point has the ordinate s. C33_law_is_total: the law the code is compared with has exactly one result, on the curve."
  },
  {
   "property": "C34",
   "status": "proved",
   "theorems": [
    "C34_multiples_exist",
    "C34_associative",
    "C34_commutative",
    "C34_identity_and_inverse",
    "C34_equality_is_congruence",
    "C34_scalar_multiplication",
    "C34_zero_scalar_panics",
    "C34_homomorphism",
    "C34_history_sound",
    "C34_history_complete",
    "C34_two_torsion"
   ],
   "note": "Group laws and congruence under ==, k*P is the k-fold sum, homomorphism on points killed by r, whole histories of public operations (sound and complete), and the exact meaning of is_two_torsion. With overflow checks the zero scalar panics (stated). C34_multiples_exist: the law the code is compared with has exactly one result, on the curve."
  },
  {
   "property": "C35",
   "status": "proved",
   "theorems": [
    "C35_decode_any_b",
    "C35_encode",
    "C35_round_trip",
    "C35_encode_identity_breaks",
    "C35_decode_ok",
    "C35_decode_err",
    "C35_decode_panics",
    "C35_decode_encode",
    "C35_identity_round_trip_refuted",
    "C35_unique_encodings_refuted",
    "C35_encode_injective_refuted",
    "C35_decode_never_panics_refuted"
   ],
   "note": "encode, round trip on non-identity points (also for every b other than 0), exact Ok/Err/panic classification of decode on every byte string. Refuted: identity round trip, injectivity of encode, uniqueness of encodings, decode never panics."
  },
  {
   "property": "C36",
   "status": "proved",
   "theorems": [
    "C36_law_is_total",
    "C36_addition",
    "C36_negation",
    "C36_subtraction",
    "C36_extended_coordinate",
    "C36_new_point",
    "C36_accepted_tuples",
    "C36_addition_on_any_curve_refuted"
   ],
   "note": "On every twisted Edwards curve with a a non-zero square and d a non-square: the law's denominators never vanish, new_point, addition, negation and subtraction equal the independent law for every pair, t*z = x*y, and the accepted tuples are classified. Without completeness the claim is refuted by a counterexample."
  },
  {
   "property": "C37",
   "status": "proved",
   "theorems": [
    "C37_associative",
    "C37_commutative",
    "C37_identity_and_inverse",
    "C37_equality_is_congruence",
    "C37_scalar_multiplication",
    "C37_zero_scalar_panics",
    "C37_homomorphism",
    "C37_history_sound",
    "C37_history_complete",
    "C37_multiples_exist"
   ],
   "note": "Group laws and congruence under ==, k*P is the k-fold sum, homomorphism on points killed by r, whole histories of public operations (sound and complete). With overflow checks the zero scalar panics (stated). C37_multiples_exist: the law the code is compared with has exactly one result, on the curve."
  },
  {
   "property": "C38",
   "status": "proved",
   "theorems": [
    "C38_is_zero",
    "C38_identity_is_zero",
    "C38_other_zero_point",
    "C38_is_zero_iff_identity_refuted"
   ],
   "note": "The claim is_zero iff identity is refuted on every such curve; exactly: is_zero iff x = 0 iff the point is (0,1) or (0,-1)."
  },
  {
   "property": "C39",
   "status": "proved",
   "theorems": [
    "C39_encode",
    "C39_size",
    "C39_round_trip",
    "C39_decode_ok",
    "C39_decode_encode",
    "C39_encode_injective",
    "C39_decode_err",
    "C39_decode_panics"
   ],
   "note": "encode, round trip on every point, canonical and injective encodings, exact Ok/Err/panic classification of decode on every byte string."
  },
  {
   "property": "C40",
   "status": "proved",
   "theorems": [
    "C40_new",
    "C40_map",
    "C40_on_curve",
    "C40_odd"
   ],
   "note": "SSWU::new accepts exactly the RFC 9380 parameters; for accepted parameters map(u) returns the point of the specification for every u (never panics); map(-u) = -map(u) for u <> 0. p = 3 mod 4 or 5 mod 8."
  },
  {
   "property": "C41",
   "status": "proved",
   "theorems": [
    "C41_new",
    "C41_map",
    "C41_on_curve"
   ],
   "note": "SVDW::new accepts exactly the RFC 9380 parameters; map(u) returns the point of the specification for every u, never panics."
  },
  {
   "property": "C42",
   "status": "proved",
   "theorems": [
    "C42_new",
    "C42_map",
    "C42_total",
    "C42_other_b",
    "C42_even",
    "C42_accepted_parameters_never_panic_refuted",
    "C42_all_b_refuted"
   ],
   "note": "b*b = 1: map(u) returns the specified point whenever one exists and panics otherwise; one exists for all u when z is not a square. For other b the map panics or returns (0,0). The claim that accepted parameters never panic is refuted for square z and for b*b <> 1."
  },
  {
   "property": "C43",
   "status": "proved",
   "theorems": [
    "C43_bijection",
    "C43_homomorphism",
    "C43_push",
    "C43_push_two_refuted",
    "C43_pull",
    "C43_pull_two_normalised",
    "C43_pull_two_refuted",
    "C43_pull_push",
    "C43_push_pull",
    "C43_push_add",
    "C43_shipped",
    "C43_push_double_refuted"
   ],
   "note": "Proved: the map is a bijective homomorphism between the two groups away from the exceptional points; push and pull compute it on every representation, including the exact behaviour at the exceptional points. Refuted as stated at two-torsion: push of (0,-1) gives the identity and pull of an unnormalised (0:0:Z) gives the all-zero tuple (theorems *_refuted); push is therefore not additive at points of order four."
  },
  {
   "property": "C44",
   "status": "proved",
   "theorems": [
    "C44_map",
    "C44_homomorphism",
    "C44_kernel",
    "C44_push",
    "C44_push_add",
    "C44_dual",
    "C44_dual_map",
    "C44_dual_homomorphism",
    "C44_dual_kernel",
    "C44_map_dual",
    "C44_pull",
    "C44_pull_refuted",
    "C44_pull_push",
    "C44_pull_add",
    "C44_push_pull",
    "C44_shipped"
   ],
   "note": "Proved: the 4-isogeny of RFC 7748 is a homomorphism with kernel {(0,1),(0,-1)}, push computes it on every representative; the dual map is a homomorphism with kernel the identity, (0,0) and the points with u = -1; each map after the other is multiplication by 4; pull computes the dual map at every point but (0,0), commutes with the additions there, and push after pull is multiplication by 4. Refuted at (0,0): pull returns the all-zero tuple, which represents no point and == every point."
  },
  {
   "property": "C45",
   "status": "proved",
   "theorems": [
    "C45_map",
    "C45_homomorphism",
    "C45_multiples",
    "C45_injective",
    "C45_push_sum",
    "C45_push_opposite",
    "C45_push_mul",
    "C45_shipped",
    "C45_exact",
    "C45_normalised",
    "C45_opposite",
    "C45_identity_refuted",
    "C45_unnormalised_refuted",
    "C45_generator",
    "C45_onto"
   ],
   "note": "Total on z = 1 points and exact on all tuples; injective homomorphism, commuting with pt_add and pt_mul of the model; the general claim is refuted at the identity and at unnormalised representatives. On affine points the isogeny is a bijection (C45_onto): every point of secp256k1 is the image of exactly one point."
  },
  {
   "property": "C46",
   "status": "proved",
   "theorems": [
    "C46_map",
    "C46_homomorphism",
    "C46_multiples",
    "C46_fibres",
    "C46_push_sum",
    "C46_push_mul",
    "C46_shipped",
    "C46_exact",
    "C46_normalised",
    "C46_kernel_refuted",
    "C46_identity_refuted",
    "C46_unnormalised_refuted",
    "C46_generator",
    "C46_onto_subgroup",
    "C46_eleven_preimages",
    "C46_onto_refuted"
   ],
   "note": "Exact on all tuples; homomorphism with kernel and fibres, commuting with pt_add and pt_mul of the model; the general claim is refuted at the ten finite kernel points, at the identity and at unnormalised representatives. The isogeny is a bijection between the multiples of the two base points (C46_onto_subgroup), every image has exactly eleven preimages (C46_eleven_preimages), and some points of BLS12-381 G1 are the image of none (C46_onto_refuted)."
  },
  {
   "property": "C47",
   "status": "proved",
   "theorems": [
    "C47_new",
    "C47_map",
    "C47_secp256k1",
    "C47_bls12381g1",
    "C47_bls12381g1_refuted"
   ],
   "note": "Exact for every accepted z and every u; total for secp256k1; totality refuted for BLS12-381 G1 with the standard z by an explicit u."
  },
  {
   "property": "C48",
   "status": "proved",
   "theorems": [
    "C48_P256",
    "C48_P384",
    "C48_P521",
    "C48_SECP256K1",
    "C48_SECP256K1_3ISO",
    "C48_BLS12381G1",
    "C48_BLS12381G1_11ISO",
    "C48_CURVE25519",
    "C48_CURVE448",
    "C48_EDWARDS25519",
    "C48_EDWARDS448"
   ],
   "note": "For each of the 11 shipped curves: the parsed parameters equal the standard ones (Spec/Instances.v), p and r are prime (Pocklington and elliptic-curve certificates), the completeness condition of the addition formula holds over the whole field, and the generator's order is exactly r. The number of points h r is in C55."
  },
  {
   "property": "C49",
   "status": "proved",
   "theorems": [
    "C49_edw_different_curves",
    "C49_edw_different_orders",
    "C49_edw_equality_across_curves",
    "C49_mont_different_curves",
    "C49_mont_different_orders",
    "C49_mont_equality_across_curves",
    "C49_different_curves",
    "C49_different_orders",
    "C49_equality_across_curves",
    "C49_new_point_wrong_field"
   ],
   "note": "Weierstrass, Montgomery and Edwards: different curves, different orders, comparison across curves."
  },
  {
   "property": "C50",
   "status": "proved",
   "theorems": [
    "C50_no_early_free",
    "C50_reclaimed",
    "C50_reclaimed_refuted",
    "C50_reclaimed_without_sqrt",
    "C50_quadratic_no_early_free",
    "C50_quadratic_reclaimed",
    "C50_quadratic_counts",
    "C50_quadratic_filled"
   ],
   "note": "Arc strong counts over all histories: no early free; reclaimed for p not 5 mod 8; leak for p = 5 mod 8 after any sqrt (refutation). For Fp2 (C50_quadratic_*) the counts of both allocations, the field's own and the base field it owns, over all histories of fields, elements, products, quotients and panicking square roots: no early free, no leak for any modulus; the cell is filled exactly after a square root with p = 3 mod 4"
  },
  {
   "property": "C51",
   "status": "proved",
   "theorems": [
    "C51_new",
    "C51_map_25519",
    "C51_map_448",
    "C51_edwards448_refuted",
    "C51_edwards25519",
    "C51_push_back"
   ],
   "note": "c51_new: behaviour of the constructor. c51_map_25519 / c51_map_448: the map is Elligator 2 on the Montgomery curve followed by the (inverse) birational map / the dual isogeny, for every field and parameters related as required. c51_edwards25519: total on the shipped edwards25519, with the inputs giving (0,-1). c51_edwards448_refuted: on the shipped edwards448 the result is a point exactly when u <> 0 and z u^2 <> -1, otherwise the all-zero tuple (the pull of (0,0)). c51_push_back: push of the result is the Montgomery point (25519) or four times it (448)."
  },
  {
   "property": "C52",
   "status": "proved",
   "theorems": [
    "C52_decimal",
    "C52_fields",
    "C52_fields_injective",
    "C52_elements",
    "C52_elements_injective",
    "C52_elements_of_two_fields_refuted",
    "C52_quadratic_reading",
    "C52_quadratic_text",
    "C52_quadratic_text_injective",
    "C52_quadratic_text_unreadable_refuted",
    "C52_scalars",
    "C52_scalars_injective",
    "C52_scalars_of_two_groups",
    "C52_points",
    "C52_points_injective",
    "C52_equal_points_print_differently_refuted",
    "C52_curves",
    "C52_curves_injective",
    "C52_unequal_curves_print_alike_refuted",
    "C52_names"
   ],
   "note": "All moduli, elements, scalars, points with reduced coordinates, curves and strings; decimal is specified in Spec/Text.v and shown unique. Three expected facts (Fp2 text reads back; equal points print alike; text determines the field) are refuted."
  },
  {
   "property": "C53",
   "status": "proved",
   "theorems": [
    "C53_mixing",
    "C53_equality",
    "C53_operand_guards",
    "C53_integers",
    "C53_trait_constructors_refuted",
    "C53_set_identities",
    "C53_set_identities_quadratic",
    "C53_set_one_modulus_one_refuted",
    "C53_accessors"
   ],
   "note": "All moduli and elements. The receiver-less trait constructors always panic (refuted claim); set_one is wrong for modulus 1 only (refuted claim)."
  },
  {
   "property": "C54",
   "status": "proved",
   "theorems": [
    "C54_cache_transparent"
   ],
   "note": "All moduli and all lengths of sequential call histories. Concurrent callers of this cell are in C59 (C59_quadratic)."
  },
  {
   "property": "C55",
   "status": "proved",
   "theorems": [
    "C55_P256",
    "C55_P384",
    "C55_P521",
    "C55_SECP256K1",
    "C55_SECP256K1_3ISO",
    "C55_CURVE25519",
    "C55_CURVE448",
    "C55_EDWARDS25519",
    "C55_EDWARDS448",
    "C55_BLS12381G1",
    "C55_BLS12381G1_11ISO",
    "C55_BLS12381G1_11ISO_cofactor_refuted",
    "C55_scalar_action",
    "C55_generator",
    "C55_scalar_action_refuted"
   ],
   "note": "Point counts by a lower bound (an explicit subgroup from certified points) meeting the bound 2p+1 on the number of points, so that the subgroup has index 1 or 2 and a parity argument excludes 2; no use of Hasse's theorem. Two of the claims are refuted with a point of the curve."
  },
  {
   "property": "C56",
   "status": "proved",
   "theorems": [
    "C56_agreement",
    "C56_distributes",
    "C56_congruence",
    "C56_small_scalars",
    "C56_killed",
    "C56_mont_agreement",
    "C56_mont_distributes",
    "C56_mont_congruence",
    "C56_mont_small_scalars",
    "C56_mont_killed",
    "C56_edw_agreement",
    "C56_edw_distributes",
    "C56_edw_congruence",
    "C56_edw_small_scalars",
    "C56_edw_killed",
    "C56_mont_wrapping_scalars_refuted"
   ],
   "note": "Generic proof over an abelian group (ScLaw), instantiated for the three kinds; the wrap-around counterexample is on a small Montgomery curve."
  },
  {
   "property": "C57",
   "status": "proved",
   "theorems": [
    "C57_same_bytes",
    "C57_shared_bytes",
    "C57_mont_same_bytes",
    "C57_mont_shared_bytes",
    "C57_edw_same_bytes",
    "C57_edw_shared_bytes",
    "C57_identity_has_its_own_bytes_refuted"
   ],
   "note": "Exact characterisation of equal encodings for the three kinds, on every curve; the collision of the compressed identity is shown on four shipped curves."
  },
  {
   "property": "C58",
   "status": "proved",
   "theorems": [
    "C58_weierstrass",
    "C58_rfc9380_sswu",
    "C58_rfc9380_svdw",
    "C58_secp256k1",
    "C58_bls12381g1",
    "C58_montgomery",
    "C58_edwards25519",
    "C58_edwards448"
   ],
   "note": "All shipped suites; edwards448 and the BLS12-381 isogeny with the exact set of exceptional inputs."
  },
  {
   "property": "C59",
   "status": "proved",
   "theorems": [
    "C59_alone",
    "C59_answers",
    "C59_wait_free",
    "C59_own_fields",
    "C59_cells",
    "C59_filled",
    "C59_shared_refuted",
    "C59_quadratic",
    "C59_quadratic_cells"
   ],
   "note": "Model/Shared.v: machine with programs that ask for square roots; every atomic action one step; memory sequentially consistent. C59_alone ties each program to the sequential function of the model. C59_shared_refuted: concurrent use of one curve can panic. Sharing of one field by several curves or elements is an allocation id chosen by the caller of the theorem."
  },
  {
   "property": "C60",
   "status": "proved",
   "theorems": [
    "C60_any_curve",
    "C60_mont_any_curve",
    "C60_edw_any_curve",
    "C60_membership",
    "C60_mont_membership",
    "C60_edw_membership",
    "C60_order_scalar",
    "C60_mont_order_scalar",
    "C60_edw_order_scalar",
    "C60_order_check_refuted",
    "C60_mont_order_check_refuted",
    "C60_edw_order_check_refuted"
   ],
   "note": "C60_membership and the Montgomery and Edwards versions: the 11 shipped curves; C60_any_curve etc.: any curve of the right kind with a clearing cofactor prime to the order. C60_order_scalar: the scalar made from the order is 0. C60_order_check_refuted: the naive check accepts points that are not multiples of the base point."
  },
  {
   "property": "C61",
   "status": "proved",
   "theorems": [
    "C61_any_curve",
    "C61_mont_any_curve",
    "C61_edw_any_curve",
    "C61_shipped",
    "C61_mont_shipped",
    "C61_edw_shipped",
    "C61_extraction_refuted",
    "C61_mont_extraction_refuted",
    "C61_edw_extraction_refuted"
   ],
   "note": "Schnorr and ECDSA equations as programs over the API: exactly the response/signature passes, two answers reveal the key of a multiple of the base point; on any curve with a base point of prime order and on all eleven shipped curves, both profiles; extraction without the membership proviso refuted by points of small order"
  },
  {
   "property": "C62",
   "status": "proved",
   "theorems": [
    "C62_elgamal",
    "C62_mont_elgamal",
    "C62_edw_elgamal",
    "C62_any_curve",
    "C62_mont_any_curve",
    "C62_edw_any_curve",
    "C62_shipped",
    "C62_mont_shipped",
    "C62_edw_shipped",
    "C62_hashed",
    "C62_mont_hashed",
    "C62_edw_hashed",
    "C62_blinding_refuted",
    "C62_mont_blinding_refuted",
    "C62_edw_blinding_refuted"
   ],
   "note": "ElGamal on all points; blinded evaluation exact and perfectly hiding on the multiples of the base point, hence on hashed points after clearing the cofactor; refuted by points of small order outside"
  },
  {
   "property": "C63",
   "status": "proved",
   "theorems": [
    "C63_dual_fibre",
    "C63_iso4",
    "C63_curve448",
    "C63_edwards448",
    "C63_curve25519",
    "C63_edwards25519",
    "C63_secp256k1",
    "C63_bls12381g1",
    "C63_sswu",
    "C63_sswu_degenerate",
    "C63_sswu_all",
    "C63_sswu_image",
    "C63_svdw",
    "C63_svdw_image",
    "C63_ell2_same",
    "C63_ell2_two_to_one",
    "C63_ell2_image",
    "C63_ell2",
    "C63_ell2_size",
    "C63_ell2_exact",
    "C63_curve25519_exact",
    "C63_curve448_exact",
    "C63_edwards25519_exact"
   ],
   "note": "exact for Elligator 2, with the exact number of points reached; for SSWU, SVDW and the maps through the isogenies upper bounds attained on small curves (examples), and lower bounds on the number of points reached; shipped curves and isogenies, edwards448 included"
  },
  {
   "property": "C64",
   "status": "proved",
   "theorems": [
    "C64_opaque",
    "C64_mont_opaque",
    "C64_edw_opaque",
    "C64_separating",
    "C64_mont_separating",
    "C64_edw_separating",
    "C64_raw_text_refuted",
    "C64_two_torsion_refuted"
   ],
   "note": "Interactive programs with arbitrary branching on replies, all three kinds of curves, both overflow modes: traces depend only on the affine points (opaque) and different points are separated by some program. Raw Display of un-normalised points and is_two_torsion are refuted as representation-independent."
  },
  {
   "property": "C65",
   "status": "proved",
   "theorems": [
    "C65_record",
    "C65_mont_record",
    "C65_edw_record",
    "C65_operations",
    "C65_mont_operations",
    "C65_edw_operations",
    "C65_counts",
    "C65_reveals",
    "C65_same_number_refuted"
   ],
   "note": "the multiplication loops with a record of operations refine the multiplications of C23/C34/C37; the record is the binary numeral of the scalar, so it determines the scalar; number of operations not constant among scalars of one length (refutation)"
  },
  {
   "property": "C66",
   "status": "proved",
   "theorems": [
    "C66_edw_tuples",
    "C66_edw_stands",
    "C66_edw_coordinates",
    "C66_edw_completed",
    "C66_edw_doubling",
    "C66_edw_multiplication",
    "C66_edw_no_point",
    "C66_addition",
    "C66_doubling",
    "C66_multiplication",
    "C66_odd_order",
    "C66_no_point",
    "C66_condition",
    "C66_mont_addition",
    "C66_mont_doubling",
    "C66_mont_multiplication",
    "C66_mont_no_point",
    "C66_mont_condition",
    "C66_edw_addition",
    "C66_edw_total",
    "C66_edw_condition",
    "C66_edw_odd_sums",
    "C66_edw_odd_order",
    "C66_equality_transitive_refuted"
   ],
   "note": "The hypotheses of C24, C33 and C36 are necessary; outside them the exact set of exceptional pairs and scalars for the three forms, and what (0,0,0) does afterwards. Edwards curves that are not complete: totality, exact condition, points of odd order, and addition and multiplication on the whole companion curve."
  },
  {
   "property": "C67",
   "status": "proved",
   "theorems": [
    "C67_modulus_one",
    "C67_inverse_of_an_element",
    "C67_division_iff_prime",
    "C67_powers_iff_prime",
    "C67_is_square_iff_prime_or_four",
    "C67_sqrt_iff",
    "C67_sqrt_iff_5mod8",
    "C67_sqrt_other"
   ],
   "note": "Each equivalence is proved for every modulus above 1 (modulus 1 separately, modulus 0 in C01). sqrt: exact condition for every modulus 3 modulo 4 and 5 modulo 8, panic for all others."
  },
  {
   "property": "C68",
   "status": "proved",
   "theorems": [
    "C68_power_loop",
    "C68_exponent_right_iff",
    "C68_sqrt_formula",
    "C68_sqrt_below_2_32",
    "C68_sqrt_of_one",
    "C68_sqrt_large_refuted"
   ],
   "note": "the loop computes x^k with k = e without the top bit of each 32-bit word, right exactly below 2^31; the sqrt formulas with exact powers find a root of every square for p = 3 mod 4, so sqrt would be right below 2^32 and is refuted at 1 for the shipped moduli; all with the value of one() as a parameter, the code's own one() panics (C16)"
  },
  {
   "property": "C69",
   "status": "proved",
   "theorems": [
    "C69_root_3mod4",
    "C69_product_3mod4",
    "C69_root_5mod8",
    "C69_formula_5mod8"
   ],
   "note": "both families of primes the code supports, every element; for p = 5 mod 8 the choice is stated relative to s = sqrt(4), which is 2 or -2 depending on p, and c69_formula_5mod8 gives the value itself"
  },
  {
   "property": "C70",
   "status": "proved",
   "theorems": [
    "C70_values",
    "C70_weier",
    "C70_mont",
    "C70_edw",
    "C70_different_fields"
   ],
   "note": "tuples need not be on the curve; transitivity through a tuple holds exactly when it is not all zero; points over different fields make == panic Scalars: == exists for Weierstrass and Edwards scalars only."
  },
  {
   "property": "C71",
   "status": "proved",
   "theorems": [
    "C71_fp",
    "C71_fp2",
    "C71_weier",
    "C71_mont",
    "C71_edw",
    "C71_lift"
   ],
   "note": "Each body is modelled separately. The remaining operators have one impl_op_ex! body each, repeated by the macro."
  },
  {
   "property": "C72",
   "status": "proved",
   "theorems": [
    "C72_weier_error",
    "C72_mont_error",
    "C72_weier_panic",
    "C72_mont_panic",
    "C72_edw_error",
    "C72_edw_panic"
   ],
   "note": "The text of every error and panic of the three decoders, as an equivalence with a description of the input. The error part for SEC1 forms holds on every curve over a prime field and every list of numbers; the rest under the hypotheses of C29, C35 and C39."
  },
  {
   "property": "C73",
   "status": "proved",
   "theorems": [
    "C73_weierstrass",
    "C73_secp256k1",
    "C73_bls12381g1",
    "C73_montgomery",
    "C73_edwards25519",
    "C73_edwards448",
    "C73_sswu_opposite",
    "C73_svdw_opposite",
    "C73_svdw_odd_refuted"
   ],
   "note": "Sums of two mapped points, cleared by the cofactor, on all shipped suites, with the exact conditions for the 11-isogeny and edwards448; opposite elements for SSWU and SVDW (refuted: SVDW is odd)."
  },
  {
   "property": "C74",
   "status": "proved",
   "theorems": [
    "C74_field_bench",
    "C74_curve_bench",
    "C74_example",
    "C74_documentation"
   ],
   "note": "Loop invariants for any number of rounds of the benchmark loops (c74_field_bench, c74_curve_bench, both build profiles), and the lines printed by examples/call01.rs and by the documentation example (texts are decimal projective coordinates of 2G). Criterion itself is not modelled."
  },
  {
   "property": "C75",
   "status": "proved",
   "theorems": [
    "C75_any_curve",
    "C75_mont_any_curve",
    "C75_edw_any_curve",
    "C75_shipped",
    "C75_mont_shipped",
    "C75_edw_shipped",
    "C75_contributory",
    "C75_contributory_refuted",
    "C75_mont_contributory_refuted",
    "C75_edw_contributory_refuted"
   ],
   "note": "Any keys, forms and profiles: both ends hold the bytes of the a b-fold multiple (any curve with a base point of prime order, then the shipped ones); the bytes are the same exactly when the products are, modulo the order. Any bytes from a peer: contributory on the curves of prime order; refuted on BLS12-381 G1 (key 3), the Montgomery and Edwards curves (key 2)."
  },
  {
   "property": "C76",
   "status": "proved",
   "theorems": [
    "C76_point",
    "C76_all",
    "C76_mont_point",
    "C76_mont_all",
    "C76_edw_point",
    "C76_edw_all",
    "C76_shipped",
    "C76_bls",
    "C76_mont_shipped",
    "C76_edw_shipped"
   ],
   "note": "Two strings for each affine Weierstrass point, two or three for a Montgomery point, one for an Edwards point; hence the exact number of accepted strings of any length for any curve, and for the nine shipped curves through the point counts of C55."
  },
  {
   "property": "C77",
   "status": "proved",
   "theorems": [
    "C77_any_curve",
    "C77_mont_any_curve",
    "C77_edw_any_curve",
    "C77_shipped",
    "C77_bls",
    "C77_bls_iso",
    "C77_mont_shipped",
    "C77_edw_shipped",
    "C77_hash_curve25519",
    "C77_hash_curve448",
    "C77_hash_edwards25519",
    "C77_hash_edwards448",
    "C77_hash_bls12381g1"
   ],
   "note": "Any curve with a base point of prime order and a clearing cofactor: equal numbers of points go to each multiple of the base point, none elsewhere, in both profiles; the shipped curves through C55 (1, 8, 4, and 0x396C8C005555E1568C00AAAB0000AAAB on BLS12-381 G1; eleven times the cofactor on its isogenous curve). C77_hash_*: lower bounds on the multiples of the base point that hashing reaches."
  },
  {
   "property": "C78",
   "status": "proved",
   "theorems": [
    "C78_any_curve",
    "C78_mont_any_curve",
    "C78_edw_any_curve",
    "C78_shipped",
    "C78_mont_shipped",
    "C78_edw_shipped",
    "C78_hashed",
    "C78_mont_hashed",
    "C78_edw_hashed"
   ],
   "note": "any curve with a base point of prime order and square roots, the shipped curves, and hashed points on them; Example on a curve of 11 points"
  }
 ]
}