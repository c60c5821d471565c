{
 "C01": {
  "status": "proved",
  "note": "Every positive modulus, every integer; elt panics exactly for modulus 0."
 },
 "C02": {
  "status": "proved",
  "note": "All expression trees, all moduli > 0 (not only primes)."
 },
 "C03": {
  "status": "proved",
  "note": "All primes including 2; the division-by-zero value is stated exactly (0, or the dividend when p = 2)."
 },
 "C04": {
  "status": "proved",
  "note": "BigUint exponents: any modulus. BigInt exponents: homomorphism in the exponent for x != 0, exact value for x = 0; the naive agreement of both exponent types is refuted for every p > 1."
 },
 "C05": {
  "status": "proved",
  "note": "Panic exactly when the moduli differ; == is false across fields."
 },
 "C06": {
  "status": "proved",
  "note": "All primes (2 included)."
 },
 "C07": {
  "status": "proved",
  "note": "All primes, split exactly into the supported ones (3 mod 4, 5 mod 8) and those where sqrt always panics."
 },
 "C08": {
  "status": "proved",
  "note": "sequential histories of sqrt calls over the shared cell, panics included"
 },
 "C09": {
  "status": "proved",
  "note": "any number of threads, any schedule: ended calls have the sequential outcome or the borrow panic; mutual exclusion; the no-panic claim is refuted on every supported prime"
 },
 "C10": {
  "status": "proved",
  "note": "All moduli for the value, odd moduli for the sign flip, odd primes for the root determination."
 },
 "C11": {
  "status": "proved",
  "note": "All moduli > 0."
 },
 "C12": {
  "status": "proved",
  "note": "All byte lists, all moduli > 0."
 },
 "C13": {
  "status": "proved",
  "note": "Exact grammar of accepted texts; 'malformed text never yields a value' is refuted for double signs and underscores, which the grammar records."
 },
 "C14": {
  "status": "proved",
  "note": "All expression trees, all moduli > 0."
 },
 "C15": {
  "status": "proved",
  "note": "Refutes 'inversion is correct' for every prime p = 3 mod 4, and proves the exact set of elements on which it is. Division a/b: exact value, correct exactly when b is in the base field or a = 0; a/0 = 0."
 },
 "C16": {
  "status": "proved",
  "note": "The claim is refuted for every x and every exponent; also the exponent loop loses bit 31 of each word even if one() worked. The constants of sqrt and when they are unimplemented are exact."
 },
 "C17": {
  "status": "proved",
  "note": "All primes p = 3 mod 4; the answer at 0 is refuted as stated in the property."
 },
 "C18": {
  "status": "proved",
  "note": "Exact characterisation, refutation for every odd p > 1."
 },
 "C19": {
  "status": "proved",
  "note": "All moduli > 0, all byte strings (Ok on the right length, Err otherwise)."
 },
 "C20": {
  "status": "proved",
  "note": "All orders > 0; division for prime orders; the extra panic of division for order 1 is stated."
 },
 "C21": {
  "status": "proved",
  "note": "All orders > 0, all scalars."
 },
 "C22": {
  "status": "proved",
  "note": "All scalars of fewer than 2^64 bits, both overflow-check settings; 'iter_lr never panics' refuted."
 },
 "C23": {
  "status": "proved",
  "note": "Histories over new_point, identity, generator, decode, +, -, neg, scalar mul; both directions"
 },
 "C24": {
  "status": "proved",
  "note": "All pairs; completeness refuted for curves with a point of order 2 C24_law_is_total: the law the code is compared with has exactly one result, on the curve."
 },
 "C25": {
  "status": "proved",
  "note": "Associativity, commutativity, identity, inverses, congruence of =="
 },
 "C26": {
  "status": "proved",
  "note": "k-fold sum, zero scalar, homomorphism modulo r C26_multiples_exist: the law the code is compared with has exactly one result, on the curve."
 },
 "C27": {
  "status": "proved",
  "note": "Weierstrass and Montgomery: is_zero iff == identity iff the point at infinity"
 },
 "C28": {
  "status": "proved",
  "note": "Round trip for affine points; identity encoding refuted"
 },
 "C29": {
  "status": "proved",
  "note": "Exact Ok / Err / panic sets; never-panics claim refuted"
 },
 "C30": {
  "status": "proved",
  "note": "decode then encode is the identity on accepted texts"
 },
 "C31": {
  "status": "proved",
  "note": "Weierstrass, Montgomery and Edwards. On Weierstrass and Montgomery curves the identity case is refuted and its exact outcome proved; on Edwards curves normalize is right on every point."
 },
 "C32": {
  "status": "proved",
  "note": "The three curve shapes: == decides equality of the represented points, a triple represents at most one point, every point is represented, and the exact behaviour of the zero tuple, which equals everything."
 },
 "C33": {
  "status": "proved",
  "note": "On every Montgomery curve with b = 1, a^2 <> 4 and no point with ordinate s (hypotheses of the claim), new_point, addition, negation and subtraction equal the independent chord-and-tangent law, for every pair, with no panic. For b <> 1 the claim is refuted by a counterexample (the addition panics), and no doubling of a point with y <> 0 is right. The hypotheses are exact: with a point with y <> 0, addition is right on all pairs if and only if b = 1 and no point has the ordinate s. C33_law_is_total: the law the code is compared with has exactly one result, on the curve."
 },
 "C34": {
  "status": "proved",
  "note": "Group laws and congruence under ==, k*P is the k-fold sum, homomorphism on points killed by r, whole histories of public operations (sound and complete), and the exact meaning of is_two_torsion. With overflow checks the zero scalar panics (stated). C34_multiples_exist: the law the code is compared with has exactly one result, on the curve."
 },
 "C35": {
  "status": "proved",
  "note": "encode, round trip on non-identity points (also for every b other than 0), exact Ok/Err/panic classification of decode on every byte string. Refuted: identity round trip, injectivity of encode, uniqueness of encodings, decode never panics."
 },
 "C36": {
  "status": "proved",
  "note": "On every twisted Edwards curve with a a non-zero square and d a non-square: the law's denominators never vanish, new_point, addition, negation and subtraction equal the independent law for every pair, t*z = x*y, and the accepted tuples are classified. Without completeness the claim is refuted by a counterexample."
 },
 "C37": {
  "status": "proved",
  "note": "Group laws and congruence under ==, k*P is the k-fold sum, homomorphism on points killed by r, whole histories of public operations (sound and complete). With overflow checks the zero scalar panics (stated). C37_multiples_exist: the law the code is compared with has exactly one result, on the curve."
 },
 "C38": {
  "status": "proved",
  "note": "The claim is_zero iff identity is refuted on every such curve; exactly: is_zero iff x = 0 iff the point is (0,1) or (0,-1)."
 },
 "C39": {
  "status": "proved",
  "note": "encode, round trip on every point, canonical and injective encodings, exact Ok/Err/panic classification of decode on every byte string."
 },
 "C40": {
  "status": "proved",
  "note": "SSWU::new accepts exactly the RFC 9380 parameters; for accepted parameters map(u) returns the point of the specification for every u (never panics); map(-u) = -map(u) for u <> 0. p = 3 mod 4 or 5 mod 8."
 },
 "C41": {
  "status": "proved",
  "note": "SVDW::new accepts exactly the RFC 9380 parameters; map(u) returns the point of the specification for every u, never panics."
 },
 "C42": {
  "status": "proved",
  "note": "b*b = 1: map(u) returns the specified point whenever one exists and panics otherwise; one exists for all u when z is not a square. For other b the map panics or returns (0,0). The claim that accepted parameters never panic is refuted for square z and for b*b <> 1."
 },
 "C43": {
  "status": "proved",
  "note": "Proved: the map is a bijective homomorphism between the two groups away from the exceptional points; push and pull compute it on every representation, including the exact behaviour at the exceptional points. Refuted as stated at two-torsion: push of (0,-1) gives the identity and pull of an unnormalised (0:0:Z) gives the all-zero tuple (theorems *_refuted); push is therefore not additive at points of order four."
 },
 "C44": {
  "status": "proved",
  "note": "Proved: the 4-isogeny of RFC 7748 is a homomorphism with kernel {(0,1),(0,-1)}, push computes it on every representative; the dual map is a homomorphism with kernel the identity, (0,0) and the points with u = -1; each map after the other is multiplication by 4; pull computes the dual map at every point but (0,0), commutes with the additions there, and push after pull is multiplication by 4. Refuted at (0,0): pull returns the all-zero tuple, which represents no point and == every point."
 },
 "C45": {
  "status": "proved",
  "note": "Total on z = 1 points and exact on all tuples; injective homomorphism, commuting with pt_add and pt_mul of the model; the general claim is refuted at the identity and at unnormalised representatives. On affine points the isogeny is a bijection (C45_onto): every point of secp256k1 is the image of exactly one point."
 },
 "C46": {
  "status": "proved",
  "note": "Exact on all tuples; homomorphism with kernel and fibres, commuting with pt_add and pt_mul of the model; the general claim is refuted at the ten finite kernel points, at the identity and at unnormalised representatives. The isogeny is a bijection between the multiples of the two base points (C46_onto_subgroup), every image has exactly eleven preimages (C46_eleven_preimages), and some points of BLS12-381 G1 are the image of none (C46_onto_refuted)."
 },
 "C47": {
  "status": "proved",
  "note": "Exact for every accepted z and every u; total for secp256k1; totality refuted for BLS12-381 G1 with the standard z by an explicit u."
 },
 "C48": {
  "status": "proved",
  "note": "For each of the 11 shipped curves: the parsed parameters equal the standard ones (Spec/Instances.v), p and r are prime (Pocklington and elliptic-curve certificates), the completeness condition of the addition formula holds over the whole field, and the generator's order is exactly r. The number of points h r is in C55."
 },
 "C49": {
  "status": "proved",
  "note": "Weierstrass, Montgomery and Edwards: different curves, different orders, comparison across curves."
 },
 "C50": {
  "status": "proved",
  "note": "Arc strong counts over all histories: no early free; reclaimed for p not 5 mod 8; leak for p = 5 mod 8 after any sqrt (refutation). For Fp2 (C50_quadratic_*) the counts of both allocations, the field's own and the base field it owns, over all histories of fields, elements, products, quotients and panicking square roots: no early free, no leak for any modulus; the cell is filled exactly after a square root with p = 3 mod 4"
 },
 "C51": {
  "status": "proved",
  "note": "c51_new: behaviour of the constructor. c51_map_25519 / c51_map_448: the map is Elligator 2 on the Montgomery curve followed by the (inverse) birational map / the dual isogeny, for every field and parameters related as required. c51_edwards25519: total on the shipped edwards25519, with the inputs giving (0,-1). c51_edwards448_refuted: on the shipped edwards448 the result is a point exactly when u <> 0 and z u^2 <> -1, otherwise the all-zero tuple (the pull of (0,0)). c51_push_back: push of the result is the Montgomery point (25519) or four times it (448)."
 },
 "C52": {
  "status": "proved",
  "note": "All moduli, elements, scalars, points with reduced coordinates, curves and strings; decimal is specified in Spec/Text.v and shown unique. Three expected facts (Fp2 text reads back; equal points print alike; text determines the field) are refuted."
 },
 "C53": {
  "status": "proved",
  "note": "All moduli and elements. The receiver-less trait constructors always panic (refuted claim); set_one is wrong for modulus 1 only (refuted claim)."
 },
 "C54": {
  "status": "proved",
  "note": "All moduli and all lengths of sequential call histories. Concurrent callers of this cell are in C59 (C59_quadratic)."
 },
 "C55": {
  "status": "proved",
  "note": "Point counts by a lower bound (an explicit subgroup from certified points) meeting the bound 2p+1 on the number of points, so that the subgroup has index 1 or 2 and a parity argument excludes 2; no use of Hasse's theorem. Two of the claims are refuted with a point of the curve."
 },
 "C56": {
  "status": "proved",
  "note": "Generic proof over an abelian group (ScLaw), instantiated for the three kinds; the wrap-around counterexample is on a small Montgomery curve."
 },
 "C57": {
  "status": "proved",
  "note": "Exact characterisation of equal encodings for the three kinds, on every curve; the collision of the compressed identity is shown on four shipped curves."
 },
 "C58": {
  "status": "proved",
  "note": "All shipped suites; edwards448 and the BLS12-381 isogeny with the exact set of exceptional inputs."
 },
 "C59": {
  "status": "proved",
  "note": "Model/Shared.v: machine with programs that ask for square roots; every atomic action one step; memory sequentially consistent. C59_alone ties each program to the sequential function of the model. C59_shared_refuted: concurrent use of one curve can panic. Sharing of one field by several curves or elements is an allocation id chosen by the caller of the theorem."
 },
 "C60": {
  "status": "proved",
  "note": "C60_membership and the Montgomery and Edwards versions: the 11 shipped curves; C60_any_curve etc.: any curve of the right kind with a clearing cofactor prime to the order. C60_order_scalar: the scalar made from the order is 0. C60_order_check_refuted: the naive check accepts points that are not multiples of the base point."
 },
 "C61": {
  "status": "proved",
  "note": "Schnorr and ECDSA equations as programs over the API: exactly the response/signature passes, two answers reveal the key of a multiple of the base point; on any curve with a base point of prime order and on all eleven shipped curves, both profiles; extraction without the membership proviso refuted by points of small order"
 },
 "C62": {
  "status": "proved",
  "note": "ElGamal on all points; blinded evaluation exact and perfectly hiding on the multiples of the base point, hence on hashed points after clearing the cofactor; refuted by points of small order outside"
 },
 "C63": {
  "status": "proved",
  "note": "exact for Elligator 2, with the exact number of points reached; for SSWU, SVDW and the maps through the isogenies upper bounds attained on small curves (examples), and lower bounds on the number of points reached; shipped curves and isogenies, edwards448 included"
 },
 "C64": {
  "status": "proved",
  "note": "Interactive programs with arbitrary branching on replies, all three kinds of curves, both overflow modes: traces depend only on the affine points (opaque) and different points are separated by some program. Raw Display of un-normalised points and is_two_torsion are refuted as representation-independent."
 },
 "C65": {
  "status": "proved",
  "note": "the multiplication loops with a record of operations refine the multiplications of C23/C34/C37; the record is the binary numeral of the scalar, so it determines the scalar; number of operations not constant among scalars of one length (refutation)"
 },
 "C66": {
  "status": "proved",
  "note": "The hypotheses of C24, C33 and C36 are necessary; outside them the exact set of exceptional pairs and scalars for the three forms, and what (0,0,0) does afterwards. Edwards curves that are not complete: totality, exact condition, points of odd order, and addition and multiplication on the whole companion curve."
 },
 "C67": {
  "status": "proved",
  "note": "Each equivalence is proved for every modulus above 1 (modulus 1 separately, modulus 0 in C01). sqrt: exact condition for every modulus 3 modulo 4 and 5 modulo 8, panic for all others."
 },
 "C68": {
  "status": "proved",
  "note": "the loop computes x^k with k = e without the top bit of each 32-bit word, right exactly below 2^31; the sqrt formulas with exact powers find a root of every square for p = 3 mod 4, so sqrt would be right below 2^32 and is refuted at 1 for the shipped moduli; all with the value of one() as a parameter, the code's own one() panics (C16)"
 },
 "C69": {
  "status": "proved",
  "note": "both families of primes the code supports, every element; for p = 5 mod 8 the choice is stated relative to s = sqrt(4), which is 2 or -2 depending on p, and c69_formula_5mod8 gives the value itself"
 },
 "C70": {
  "status": "proved",
  "note": "tuples need not be on the curve; transitivity through a tuple holds exactly when it is not all zero; points over different fields make == panic Scalars: == exists for Weierstrass and Edwards scalars only."
 },
 "C71": {
  "status": "proved",
  "note": "Each body is modelled separately. The remaining operators have one impl_op_ex! body each, repeated by the macro."
 },
 "C72": {
  "status": "proved",
  "note": "The text of every error and panic of the three decoders, as an equivalence with a description of the input. The error part for SEC1 forms holds on every curve over a prime field and every list of numbers; the rest under the hypotheses of C29, C35 and C39."
 },
 "C73": {
  "status": "proved",
  "note": "Sums of two mapped points, cleared by the cofactor, on all shipped suites, with the exact conditions for the 11-isogeny and edwards448; opposite elements for SSWU and SVDW (refuted: SVDW is odd)."
 },
 "C74": {
  "status": "proved",
  "note": "Loop invariants for any number of rounds of the benchmark loops (c74_field_bench, c74_curve_bench, both build profiles), and the lines printed by examples/call01.rs and by the documentation example (texts are decimal projective coordinates of 2G). Criterion itself is not modelled."
 },
 "C75": {
  "status": "proved",
  "note": "Any keys, forms and profiles: both ends hold the bytes of the a b-fold multiple (any curve with a base point of prime order, then the shipped ones); the bytes are the same exactly when the products are, modulo the order. Any bytes from a peer: contributory on the curves of prime order; refuted on BLS12-381 G1 (key 3), the Montgomery and Edwards curves (key 2)."
 },
 "C76": {
  "status": "proved",
  "note": "Two strings for each affine Weierstrass point, two or three for a Montgomery point, one for an Edwards point; hence the exact number of accepted strings of any length for any curve, and for the nine shipped curves through the point counts of C55."
 },
 "C77": {
  "status": "proved",
  "note": "Any curve with a base point of prime order and a clearing cofactor: equal numbers of points go to each multiple of the base point, none elsewhere, in both profiles; the shipped curves through C55 (1, 8, 4, and 0x396C8C005555E1568C00AAAB0000AAAB on BLS12-381 G1; eleven times the cofactor on its isogenous curve). C77_hash_*: lower bounds on the multiples of the base point that hashing reaches."
 },
 "C78": {
  "status": "proved",
  "note": "any curve with a base point of prime order and square roots, the shipped curves, and hashed points on them; Example on a curve of 11 points"
 }
}