{"id": "C01", "title": "Field elements are canonical residues", "statement": "For a field Fp::new(p), f.elt(n) (and every from(u8..i64)) is the residue of n modulo p in [0,p); f.elt(n)==f.elt(m) exactly when p divides n-m; zero()/one() are the residues of 0/1; elt panics only when the modulus is 0.", "quantifier": "all moduli p and all integers n, m", "why_tests_cant": "n ranges over all integers and p over all moduli; a test samples a few.", "anchors": ["src/primefield/mod.rs: Fp::elt, Fp::zero, Fp::one, FromFactory"]}
{"id": "C02", "title": "Field arithmetic is exact modular arithmetic", "statement": "Any expression built from elements of one field with +, -, *, unary - and ^2u32 evaluates without panic to the canonical residue of the same integer expression; so all commutative-ring laws hold under ==.", "quantifier": "all moduli p>0, all expression trees (histories of operations) over field elements", "why_tests_cant": "unbounded expression trees and operands; a missed reduction shows up only for particular operand sizes.", "anchors": ["src/primefield/mod.rs: Add/Sub/Mul/Neg/BitXor<u32> for FpElt, red"]}
{"id": "C03", "title": "Division and inversion invert", "statement": "For prime p and b != 0: (a/b)*b == a, 1u32/b and b^-1i32 are the unique inverse of b; division by zero does not panic and gives 0 (p>2); 1u32 is the only accepted numerator, -1i32 the only accepted i32 exponent, 2u32 the only u32 exponent.", "quantifier": "all primes p, all a, b in the field, all u32/i32 literals", "why_tests_cant": "needs Fermat's little theorem for every prime and every element.", "anchors": ["src/primefield/mod.rs: inv_mod, Div, Div<&FpElt> for u32, BitXor<i32>, BitXor<u32>"]}
{"id": "C04", "title": "Exponentiation by integers", "statement": "x ^ e for a BigUint e is the e-th power of x mod p; for a BigInt e (any sign) and x != 0 it is the e-th power in the multiplicative group (negative e: power of the inverse). For x = 0 and a BigInt exponent the answer is 1 exactly when (p-1) divides e, so 0^(p-1) is 1: the naive claim 'BigInt and BigUint exponents agree' fails there.", "quantifier": "all primes p, all elements x, all exponents", "why_tests_cant": "exponents are unbounded; the anomaly sits on one residue class of exponents.", "anchors": ["src/primefield/mod.rs: BitXor<&BigUint>, BitXor<&BigInt>"]}
{"id": "C05", "title": "Mixing fields panics, and only that", "statement": "A binary operator on two field elements panics with 'elements of different fields' iff their moduli differ (for + - * and /); == on elements of different fields is false and never panics.", "quantifier": "all pairs of elements of any two fields with positive moduli (prime for /)", "why_tests_cant": "all pairs of moduli.", "anchors": ["src/primefield/mod.rs: Add/Sub/Mul/Div, ERR_BIN_OP, PartialEq for Params"]}
{"id": "C06", "title": "is_square decides quadratic residuosity", "statement": "For odd prime p, x.is_square() is true iff there is y in the field with y*y == x (0 counts as a square).", "quantifier": "all odd primes p and all x", "why_tests_cant": "Euler's criterion for all primes; existence quantifier over the whole field.", "anchors": ["src/primefield/mod.rs: Sqrt::is_square"]}
{"id": "C07", "title": "sqrt returns a root of every square", "statement": "For prime p = 3 mod 4 or p = 5 mod 8, if x is a square then x.sqrt()^2 == x (and sqrt never panics on any x); for every other prime (2 and p = 1 mod 8) sqrt panics on every input.", "quantifier": "all primes p and all x", "why_tests_cant": "every residue of every prime; needs that 2 is a non-residue for p = 5 mod 8 so that the cached constant is a square root of -1.", "anchors": ["src/primefield/mod.rs: sqrt, calc_sqrt_precmp"]}
{"id": "C08", "title": "The sqrt cache is transparent in sequential use", "statement": "In any sequence of sqrt calls through any clones of one field, every call gives the same answer as on a fresh field, and the cache holds either nothing or the constants of that field.", "quantifier": "all primes, all finite sequential histories of calls", "why_tests_cant": "all histories.", "anchors": ["src/primefield/mod.rs: get_sqrt_precmp, Params.sqrt_precmp"]}
{"id": "C09", "title": "Concurrent sqrt on one shared field", "statement": "Under every interleaving, a sqrt call on a shared field that returns gives the sequential answer. The stronger claim 'no interleaving panics' is false: two overlapping calls hit AtomicRefCell::borrow_mut while it is mutably borrowed and the second one panics.", "quantifier": "all numbers of threads, all schedules", "why_tests_cant": "interleavings; a race window of a few instructions.", "anchors": ["src/primefield/mod.rs: get_sqrt_precmp (AtomicRefCell::borrow_mut)"]}
{"id": "C10", "title": "sgn0 separates a root from its negative", "statement": "sgn0(x) is 1 for even and -1 for odd canonical residue; for odd p and x != 0, sgn0(-x) == -sgn0(x); so a square root is determined by its square and its sgn0.", "quantifier": "all odd moduli, all x", "why_tests_cant": "all elements of all fields.", "anchors": ["src/primefield/mod.rs: Sgn0 for FpElt"]}
{"id": "C11", "title": "Field byte serialization round-trips", "statement": "to_bytes_be/le of an element has exactly size_bytes() bytes and never panics, to_bytes_le is the reverse of to_bytes_be, from_bytes_x(to_bytes_x(x)) == Ok(x), distinct elements have distinct encodings, and the bytes are the base-256 value of the residue.", "quantifier": "all moduli p>1, all elements", "why_tests_cant": "padding/length boundaries occur at sparse values (leading zero bytes, top-byte boundaries).", "anchors": ["src/primefield/mod.rs: Serialize, Deserialize, size_bytes"]}
{"id": "C12", "title": "from_bytes is total", "statement": "from_bytes_be/le on any byte string (any length, including empty) returns Ok of the residue of its big/little-endian value.", "quantifier": "all moduli p>0, all byte strings", "why_tests_cant": "all lengths and contents.", "anchors": ["src/primefield/mod.rs: Deserialize for Fp"]}
{"id": "C13", "title": "Number parsing of field elements", "statement": "f.from(s) for the decimal text of n, '0x'/'0o'/'0b' prefixed text, optionally preceded by '-', is the residue of the number denoted; from(\"\") is 0; parsing the Display text of an element gives it back; malformed text panics, it never yields a value.", "quantifier": "all moduli, all integers n, all strings", "why_tests_cant": "unbounded strings and numerals.", "anchors": ["src/primefield/mod.rs: FromFactory<&str> for Fp, Display for FpElt"]}
{"id": "C14", "title": "Quadratic extension ring arithmetic", "statement": "Fp2 +, -, *, unary - and ^2u32 compute in Z[i]/p: componentwise sums and (a+bi)(c+di)=(ac-bd)+(ad+bc)i; any expression tree evaluates without panic to the residue of the same Gaussian-integer expression.", "quantifier": "all moduli p>0, all expression trees", "why_tests_cant": "unbounded trees.", "anchors": ["src/quadraticfield/mod.rs: Add/Sub/Mul/Neg for Fp2Elt"]}
{"id": "C15", "title": "Quadratic extension inversion", "statement": "Claim: b*(1/b) == 1 for every b != 0 (p = 3 mod 4). The code multiplies by the element instead of its conjugate, so the claim is false; exactly: b*(1u32/b) == 1 iff the imaginary part of b is 0, for b != 0. Likewise a/b is a quotient exactly when b lies in the base field or a is 0; a/0 is 0.", "quantifier": "all primes p = 3 mod 4, all b", "why_tests_cant": "for every b with nonzero imaginary part.", "anchors": ["src/quadraticfield/mod.rs: inv_mod, Div"]}
{"id": "C16", "title": "Quadratic extension powers and sqrt", "statement": "Claim: x ^ e is the e-th power and sqrt of a square is a root. False: exponentiation starts from Fp2Elt::one(), which is unimplemented, so ^ &BigUint/&BigInt panics for every x and e and sqrt panics for every x and every modulus. The constants of sqrt are (p-3)/4 and (p-1)/2 exactly when p mod 4 = 3, and unimplemented otherwise.", "quantifier": "all moduli, elements, exponents", "why_tests_cant": "universal panic, and no test of the repo calls it.", "anchors": ["src/quadraticfield/mod.rs: BitXor<&BigUint>, sqrt, One for Fp2Elt"]}
{"id": "C17", "title": "Quadratic extension is_square", "statement": "For p = 3 mod 4 prime and x != 0, is_square(x) iff x has a square root in Fp2; is_square(0) is false although 0 = 0*0 (unlike the prime field).", "quantifier": "all primes p = 3 mod 4, all x", "why_tests_cant": "existence over p^2 elements.", "anchors": ["src/quadraticfield/mod.rs: is_square"]}
{"id": "C18", "title": "Quadratic extension sgn0", "statement": "sgn0 is 1 when both parts are even residues and -1 otherwise. Claim: sgn0(-x) == -sgn0(x) for x != 0. False exactly when both parts are non-zero and their parities differ.", "quantifier": "all odd p, all x", "why_tests_cant": "depends on the parity pattern of both coordinates and of their negatives.", "anchors": ["src/quadraticfield/mod.rs: Sgn0 for Fp2Elt"]}
{"id": "C19", "title": "Quadratic extension serialization", "statement": "to_bytes_be/le has length size_bytes(); from_bytes of another length is Err; from_bytes(to_bytes(x)) == Ok(x).", "quantifier": "all moduli p>1, all elements, all byte strings", "why_tests_cant": "length boundaries.", "anchors": ["src/quadraticfield/mod.rs: Serialize, Deserialize"]}
{"id": "C20", "title": "Scalars are integers modulo the order", "statement": "new_scalar(k) is the residue of k mod r; +,-,*,neg are arithmetic mod r; for prime r and b != 0, (a/b)*b == a; scalars of different orders panic in binary operators.", "quantifier": "all r>0 (prime for division), all integers k", "why_tests_cant": "all integers.", "anchors": ["src/*/scalar.rs: Scalar::new, ops, inv_mod"]}
{"id": "C21", "title": "Scalar serialization", "statement": "to_bytes_be/le has ceil(bits(r)/8) bytes, never panics, denotes the residue, le is the reverse of be.", "quantifier": "all r>0, all scalars", "why_tests_cant": "leading-zero boundaries.", "anchors": ["src/*/scalar.rs: Serialize"]}
{"id": "C22", "title": "Scalar bit iterators", "statement": "iter_rl yields exactly the binary digits of k from least to most significant and then ends; iter_lr yields them from the most significant and then ends, for every k != 0. For k = 0 iter_lr computes 0usize-1: it panics when overflow checks are on and yields no bit otherwise; so 'iter_lr never panics' is false.", "quantifier": "all scalars k (of fewer than 2^64 bits), both overflow-check settings", "why_tests_cant": "termination relies on wrap-around of usize at the last step; zero is a single special value.", "anchors": ["src/*/scalar.rs: Iterino, iter_lr, iter_rl"]}
{"id": "C23", "title": "Weierstrass: only points of the curve exist", "statement": "new_point(x,y) panics iff (x,y) is not on the curve; identity, generator, +, -, neg, scalar * and decode only ever return points satisfying the curve equation, for any history of operations, and none of them panics on points of one curve (no point of order 2; k != 0 mod r or no overflow checks).", "quantifier": "all curves with prime p>3 and no rational root of x^3+ax+b, all finite histories", "why_tests_cant": "all histories.", "anchors": ["src/weierstrass/curve.rs: new_point, is_on_curve, new_proy_point", "src/weierstrass/point.rs"]}
{"id": "C24", "title": "Weierstrass addition is the chord-and-tangent law", "statement": "For points P,Q of one curve without rational 2-torsion, P+Q, P-Q, -P are the textbook affine sum/difference/negative for every pair, including P=Q, P=-Q and the identity (completeness).", "quantifier": "all curves with prime p>3 without rational point of order 2, all pairs of points", "why_tests_cant": "special pairs have density ~1/p.", "anchors": ["src/weierstrass/point.rs: core_add, core_doubling, core_neg"]}
{"id": "C25", "title": "Weierstrass points form an abelian group under ==", "statement": "(P+Q)+R == P+(Q+R), P+Q == Q+P, P+identity == P, P+(-P) == identity, and == is an equivalence respected by the operations.", "quantifier": "all such curves, all triples of points", "why_tests_cant": "all triples; needs associativity of the elliptic-curve group law.", "anchors": ["src/weierstrass/point.rs"]}
{"id": "C26", "title": "Weierstrass scalar multiplication", "statement": "k*P is P added to itself k mod r times; hence additive in k when r*P is the identity; multiplication by a scalar of another order panics; k = 0: identity without overflow checks, panic with them.", "quantifier": "all such curves, points, scalars", "why_tests_cant": "all k up to 2^521.", "anchors": ["src/weierstrass/point.rs: core_mul, Mul"]}
{"id": "C27", "title": "is_zero recognises the identity (Weierstrass, Montgomery)", "statement": "For a point of the curve, is_zero() is true iff it == identity().", "quantifier": "all curves, all reachable points", "why_tests_cant": "all projective representatives.", "anchors": ["src/weierstrass/point.rs: is_zero", "src/montgomery/point.rs: is_zero"]}
{"id": "C28", "title": "Weierstrass encode/decode round-trip", "statement": "For every non-identity point decode(encode(P,c)) == Ok(P) for both compress modes, with lengths size+1 / 2*size+1 and tags 2/3/4. Claim for the identity is false: encode normalizes first, so encode(identity) is 04 00..00 (02 00..00), never the single byte 00.", "quantifier": "all curves with p = 3 mod 4 or 5 mod 8 (compressed), all points", "why_tests_cant": "every point; parity of y; identity is a single special value.", "anchors": ["src/weierstrass/point.rs: encode", "src/weierstrass/curve.rs: decode"]}
{"id": "C29", "title": "Weierstrass decode on arbitrary bytes", "statement": "Complete classification of decode on every byte string: Ok only for canonical encodings of curve points, Err on wrong length/tag/range. Claim 'decode never panics' is false: every 1-byte input panics (slice out of range), and well-formed encodings of off-curve coordinates panic instead of returning Err.", "quantifier": "all byte strings, all curves", "why_tests_cant": "all byte strings.", "anchors": ["src/weierstrass/curve.rs: decode"]}
{"id": "C30", "title": "Weierstrass encodings are unique", "statement": "If decode(b) is Ok(P) then encode(P, mode of b) gives back b (curves without point of order 2), so no two byte strings of the same mode decode to equal points.", "quantifier": "all byte strings, all curves", "why_tests_cant": "malleability: all pairs of byte strings.", "anchors": ["src/weierstrass/curve.rs: decode"]}
{"id": "C31", "title": "normalize keeps the point", "statement": "normalize() of a non-identity point gives the representative with z=1 of the same point. For the Weierstrass and Montgomery identity it yields x=0,y=0,z=1, which differs from the identity.", "quantifier": "all points", "why_tests_cant": "identity is a single value.", "anchors": ["src/*/point.rs: normalize"]}
{"id": "C32", "title": "Point equality is equality of affine points", "statement": "For points of one curve, P==Q iff they are the same affine point (or both infinity); reflexive, symmetric, transitive. The triple (0,0,0) passes is_on_curve and would equal everything, so correctness rests on it never being produced.", "quantifier": "all points", "why_tests_cant": "all pairs of representatives.", "anchors": ["src/*/point.rs: PartialEq"]}
{"id": "C33", "title": "Montgomery addition is the chord-and-tangent law", "statement": "On curves with b=1 whose points never have y=s, P+Q is the textbook affine sum for every pair (completeness), never panics. For b != 1 the claim is false: the formulas ignore b, and no doubling of a point with y != 0 is right. On a nonsingular curve with any b, any s and a point with y != 0, the addition is right on all pairs exactly when b=1 and no point has y=s.", "quantifier": "all Montgomery curves with b=1 and no point with y=s, all pairs; for the exact condition, all nonsingular Montgomery curves with a point with y != 0", "why_tests_cant": "exceptional pairs.", "anchors": ["src/montgomery/point.rs: core_add"]}
{"id": "C34", "title": "Montgomery group and scalar multiplication", "statement": "Abelian group laws under ==, and k*P is the k mod r fold sum.", "quantifier": "all such curves, points, scalars", "why_tests_cant": "all triples / all k.", "anchors": ["src/montgomery/point.rs: core_mul"]}
{"id": "C35", "title": "Montgomery encode/decode", "statement": "decode(encode(P,c)) == Ok(P) for every non-identity point; classification of decode. Claims refuted: encode(identity) equals encode((0,0)) so the identity decodes to the 2-torsion point; 03 00..00 and 02 00..00 both decode to (0,0).", "quantifier": "all curves, points, byte strings", "why_tests_cant": "identity / 2-torsion special values.", "anchors": ["src/montgomery/curve.rs: decode", "src/montgomery/point.rs: encode"]}
{"id": "C36", "title": "Edwards addition is complete", "statement": "For a square, d non-square: P+Q is the Edwards sum for every pair with nonzero denominators, never panics; the extended coordinate stays consistent (t*z = x*y).", "quantifier": "all twisted Edwards curves with a square, d non-square, all pairs", "why_tests_cant": "denominators never vanish: a statement on all pairs.", "anchors": ["src/edwards/point.rs: core_add"]}
{"id": "C37", "title": "Edwards group and scalar multiplication", "statement": "Abelian group laws under ==, and k*P is the k mod r fold sum.", "quantifier": "all such curves, points, scalars", "why_tests_cant": "all triples / all k.", "anchors": ["src/edwards/point.rs"]}
{"id": "C38", "title": "Edwards is_zero", "statement": "Claim: is_zero() iff == identity(). False: is_zero() is also true for the point (0,-1) of order 2; exactly: is_zero iff x = 0.", "quantifier": "all Edwards curves, all points", "why_tests_cant": "one special point.", "anchors": ["src/edwards/point.rs: is_zero"]}
{"id": "C39", "title": "Edwards encode/decode", "statement": "decode(encode(P)) == Ok(P) for every point, fixed length floor(bits(p)/8)+1; Ok(P) from decode(b) implies encode(P)==b; Err on wrong length or y>=p or sign bit with x=0; panics when y has no matching x.", "quantifier": "all curves with a square, d non-square and p = 3 mod 4 or 5 mod 8; all points; all byte strings", "why_tests_cant": "sign/zero cases; all byte strings.", "anchors": ["src/edwards/point.rs: encode", "src/edwards/curve.rs: decode"]}
{"id": "C40", "title": "SSWU maps every field element to the curve", "statement": "For every curve/Z accepted by SSWU::new, map(u) returns (never panics) a point of the curve, and its y has the sign of u unless y=0.", "quantifier": "all accepted parameters with p = 3 mod 4 or 5 mod 8, all u", "why_tests_cant": "exceptional u (Z u^2 = -1, u = 0) have density ~1/p.", "anchors": ["src/weierstrass/sswu.rs"]}
{"id": "C41", "title": "SVDW maps every field element to the curve", "statement": "Same for SVDW::new / map.", "quantifier": "all accepted parameters, all u", "why_tests_cant": "exceptional u.", "anchors": ["src/weierstrass/svdw.rs"]}
{"id": "C42", "title": "Elligator2 on Montgomery curves", "statement": "For b*b=1, a != 0 and Z a non-square, map(u) returns a point of the curve for every u. Claims refuted: Ell2::new does not check Z, and computes a/(1/b) instead of a/b, so accepted parameters exist for which map panics.", "quantifier": "all parameters, all u", "why_tests_cant": "exceptional u and parameters.", "anchors": ["src/montgomery/elligator2.rs"]}
{"id": "C43", "title": "edwards25519 <-> curve25519 map", "statement": "The map between edwards25519 and curve25519 is a bijective group homomorphism, and push and pull compute it (for every representative) except at the points of order 2. Refuted there: push((0,-1)) is the identity, so push is not additive; pull of (0:0:Z) with Z != 1 returns the invalid all-zero point.", "quantifier": "all points of both curves", "why_tests_cant": "exceptional points.", "anchors": ["src/instances/rational_maps.rs: Ed2Mt25519"]}
{"id": "C44", "title": "edwards448 <-> curve448 isogeny", "statement": "push is a homomorphism onto points of curve448 for every representative, with kernel {(0,1),(0,-1)}; pull computes the dual isogeny, also a homomorphism, for every point but (0,0); each after the other is multiplication by 4. Refuted: pull((0,0)) returns the all-zero tuple, which == every Edwards point.", "quantifier": "all points of both curves", "why_tests_cant": "exceptional points.", "anchors": ["src/instances/rational_maps.rs: Ed4isoMt448"]}
{"id": "C45", "title": "secp256k1 3-isogeny", "statement": "The map built for secp256k1 has the coefficients of RFC 9380 E.1 and satisfies the isogeny identities. push looks only at X and Y of its argument: it returns the image of (X,Y), a point of secp256k1, exactly when (X,Y) is an affine point of the isogenous curve (no denominator ever vanishes there), and panics otherwise. So it is total on points with z=1, commutes with negation there, and sends the base point to the base point. The isogeny is an injective group homomorphism, and so on points with z=1 push commutes (up to point equality) with addition, cancellation and scalar multiplication as the code computes them. Refuted in general: it panics on the identity and on unnormalised representatives of points it accepts when normalised.", "quantifier": "all tuples of canonical coordinates; all points of the isogenous curve; all scalars", "why_tests_cant": "all points.", "anchors": ["src/instances/rational_maps.rs: Isosecp256k1"]}
{"id": "C46", "title": "BLS12-381 G1 11-isogeny", "statement": "The map built for BLS12-381 G1 has the coefficients of RFC 9380 E.2 and satisfies the isogeny identities. push returns the image of (X,Y) exactly when (X,Y) is an affine point of the isogenous curve whose abscissa is not one of the five of the rational kernel, and panics in all other cases. The isogeny is a group homomorphism whose kernel is the identity and the ten points with those abscissas; two points have the same image exactly when they differ by a kernel point; so on points with z=1 push commutes (up to point equality) with addition and scalar multiplication, a result in the kernel giving the identity. Refuted in general: it panics on every finite kernel point (which the isogeny sends to the identity), on the identity and on unnormalised representatives.", "quantifier": "all tuples of canonical coordinates; all points of the isogenous curve; all scalars", "why_tests_cant": "all points.", "anchors": ["src/instances/rational_maps.rs: IsoBls12381G1"]}
{"id": "C47", "title": "SSWU for AB=0 curves", "statement": "SSWUAB0::new accepts exactly the codomain of the isogeny with parameters SSWU accepts on its domain. map(u) is the image under the isogeny of the SSWU point of u. Over the 3-isogeny to secp256k1 it is total: a point of secp256k1 for every u. Over the 11-isogeny to BLS12-381 G1 it returns a point exactly when the SSWU point is outside the kernel; refuted in general, an explicit u makes map panic with the standard z=11.", "quantifier": "all curves, all z, all u", "why_tests_cant": "all u.", "anchors": ["src/weierstrass/sswuab0.rs"]}
{"id": "C48", "title": "Shipped curves satisfy what the formulas need", "statement": "For each shipped curve: p and r are prime, the generator is on the curve and r*generator is the identity, and the completeness condition of its addition formula holds (no 2-torsion / no point with y=s / a square and d non-square).", "quantifier": "all points of each shipped curve", "why_tests_cant": "quantifies over all field elements of 255..521-bit fields; primality.", "anchors": ["src/instances/weier.rs", "src/instances/mont.rs", "src/instances/edw.rs"]}
{"id": "C49", "title": "Operations on points of different curves panic", "statement": "P+Q panics iff the curves differ in any parameter; P*k panics with 'Scalar don't match with point' iff the scalar's order differs from the curve's.", "quantifier": "all pairs of curves/points/scalars", "why_tests_cant": "all pairs.", "anchors": ["src/*/point.rs: ERR_ADD_OP, ERR_MUL_OP"]}
{"id": "C50", "title": "A field is reclaimed when its last handle is dropped", "statement": "Claim: after the user drops every Fp/FpElt the shared parameters are freed. False for p = 5 mod 8 once sqrt has been called: the cached constant is an element holding a reference to its own field (reference cycle). True for p = 3 mod 4.", "quantifier": "all histories of clone/drop/sqrt", "why_tests_cant": "all histories; leaks are invisible to assertions.", "anchors": ["src/primefield/mod.rs: SqrtPrecmp::P5MOD8, Params.sqrt_precmp"]}
{"id": "C51", "title": "Elligator 2 on Edwards curves through a rational map", "statement": "edwards::Ell2::new with no rational map always panics (todo!), panics when the map's domain is another curve, and otherwise succeeds exactly when A of the codomain is non-zero. For non-square z, map(u) never panics and is the pull-back of the RFC 9380 Elligator 2 point of the codomain. On edwards25519 the result is always a point of the curve, equal to (0,-1) exactly when u = 0 or z*u^2 = -1. Claim that it is always a point on edwards448: false; exactly for u = 0 and z*u^2 = -1 (u in {0,1,-1} for the RFC's z = -1) the result is the invalid tuple (0,0,0,0). Pushing the result to the codomain gives back the Elligator 2 point on the 25519 pair and four times it on the 448 pair.", "quantifier": "all curves related by the two rational maps, all non-square z and all field elements u", "why_tests_cant": "The bad inputs are two or three values out of 2^448; tests draw random inputs or compare with vectors that avoid them.", "anchors": ["src/edwards/elligator2.rs:13-46", "src/instances/rational_maps.rs", "src/montgomery/elligator2.rs"]}
{"id": "C52", "title": "Display texts and reading quadratic elements", "statement": "Every printable type prints the decimal text (no leading zeros) of its numbers in its fixed layout: GF(p), GF(p)^2, residues, a+i*b, scalars, projective coordinates of points, the two coefficients of a curve, the names of the shipped curves. Within one field/curve/group equal texts mean equal values. Fp2 reads exactly the texts l,r of two number literals as l + r i and panics on all others; reading the decimal texts of both parts gives the element back. False claims refuted: printing an Fp2 element and reading it back panics for every element; equal points can print differently; elements, scalars and curves over different fields can print alike.", "quantifier": "all moduli, elements, scalars, points, curves, all strings", "why_tests_cant": "injectivity of texts over all values and behaviour on all strings.", "anchors": ["src/*/: impl Display for Fp, FpElt, Fp2, Fp2Elt, Scalar, Point, Curve", "src/instances/: impl Display for WeCurveID, MtCurveID, EdCurveID", "src/quadraticfield/mod.rs: FromFactory<&str> for Fp2"]}
{"id": "C53", "title": "Operand checks, integers and identities of the field types", "statement": "+ - * / of Fp2 elements with different moduli panic and never panic for equal moduli > 1; == holds exactly for equal moduli and equal coordinates; x^e only for e=2u32 or -1i32 and k/x only for k=1u32, else panic; integers lift to (k mod p) + 0i; set_zero/set_one turn any element into f.zero()/f.one() and is_zero/is_one recognise exactly these (moduli > 1). Refuted: the receiver-less Zero::zero()/One::one() are usable (they always panic); set_one equals f.one() for modulus 1.", "quantifier": "all moduli, elements, exponents, integers", "why_tests_cant": "all pairs of moduli and all elements.", "anchors": ["src/quadraticfield/mod.rs: operators, FromFactory, Zero, One, CMov", "src/primefield/mod.rs: Zero, One"]}
{"id": "C54", "title": "Square-root constant cache of Fp2", "statement": "Any sequence of calls of Fp2::get_sqrt_precmp on one field gives each time what a fresh field gives, leaves the cell unborrowed, and leaves in it the constants of p when p mod 4 = 3; otherwise every call panics and the cell stays empty and usable.", "quantifier": "all moduli, all numbers of sequential calls", "why_tests_cant": "all call histories, including after panics.", "anchors": ["src/quadraticfield/mod.rs: get_sqrt_precmp, calc_sqrt_precmp"]}
{"id": "C55", "title": "Number of points and cofactors of the shipped curves", "statement": "The five curves with cofactor 1 have exactly r points (the shipped order), all of them the distinct multiples 0..r-1 of the shipped base point, and the scalars act on every point: kP+lP=(k+l)P, l(kP)=(kl)P. curve25519/448 and edwards25519/448 have exactly h*r points and BLS12-381 G1 exactly r*0x396C8C005555E1568C00AAAB0000AAAB; on all of these new_scalar(get_cofactor()) times any point is, for the code's ==, a multiple of the base point, and h*r sends every point to the identity. Refuted: the scalars act on every point of curve25519; the shipped cofactor of the BLS 11-isogenous curve clears it (it has points of order 121; 11 times the shipped cofactor does clear it, and it has as many points as G1).", "quantifier": "all points of each of the eleven shipped curves, all scalars", "why_tests_cant": "the curves have more than 2^254 points; point counts cannot be enumerated.", "anchors": ["src/instances.rs", "src/ellipticcurve.rs: get_order, get_cofactor, get_field", "src/weierstrass/curve.rs", "src/montgomery/curve.rs", "src/edwards/curve.rs"]}
{"id": "C56", "title": "Laws of scalar multiplication", "statement": "On every curve of the three kinds and for every point, in or out of the subgroup of the base point: l(kP) == k(lP) (both ends of a key agreement get equal points), k(P+Q) == kP+kQ, k(P-Q) == kP-kQ, k(-P) == -(kP), points equal for == have equal multiples, and scalars whose sum (product) stays below r satisfy kP+lP == (k+l)P (l(kP) == (kl)P); each with either overflow behaviour of the build. On points killed by r: kP-lP == (k-l)P, -(kP) == (-k)P and, for prime r and k nonzero, (1/k)(kP) == P and (l/k)(kP) == lP. Refuted: kP+lP == (k+l)P for scalars that wrap around on a point outside the subgroup.", "quantifier": "all curves satisfying the completeness conditions, all points, all scalars below r, debug and release builds", "why_tests_cant": "equality of projective results for all scalars and all points.", "anchors": ["src/weierstrass/point.rs", "src/montgomery/point.rs", "src/edwards/point.rs", "src/weierstrass/scalar.rs"]}
{"id": "C57", "title": "Bytes identify points", "statement": "Two points of a Weierstrass curve have the same bytes exactly when they are == , except that in compressed form the identity has the bytes of the point (0,y) with y even; on Montgomery curves the only coincidence is the identity and (0,0), in both forms; on Edwards curves there is none. Hence both ends of a key agreement get the same bytes. Refuted: the compressed bytes of the identity of P-256, P-384, P-521 and BLS12-381 G1 belong to no other point.", "quantifier": "all curves, all pairs of points in any representation, both forms, all scalars", "why_tests_cant": "injectivity over all pairs of points.", "anchors": ["src/weierstrass/point.rs: encode", "src/montgomery/point.rs: encode", "src/edwards/point.rs: encode"]}
{"id": "C58", "title": "Hashing ends in the prime-order subgroup", "statement": "For every field element u, the map to the curve followed by multiplication by the curve's cofactor returns, in both build profiles, a point of the curve equal to a multiple of the base point: SSWU and SVDW with any accepted z on P-256, P-384, P-521, secp256k1, its 3-isogenous curve and BLS12-381 G1; SSWU through the isogenies onto secp256k1 and (exactly off the kernel) BLS12-381 G1; Elligator 2 with any non-square z on curve25519, curve448, edwards25519, and on edwards448 exactly when u <> 0 and z u^2 <> -1. The parameters z of RFC 9380 are accepted.", "quantifier": "all field elements u, all accepted parameters z, all shipped suites, both build profiles", "why_tests_cant": "2^256 or more inputs; the subgroup is too large to enumerate; exceptional inputs are negligible among random ones.", "anchors": ["src/weierstrass/sswu.rs", "src/weierstrass/svdw.rs", "src/weierstrass/sswuab0.rs", "src/instances/rational_maps.rs", "src/montgomery/elligator2.rs", "src/edwards/elligator2.rs", "src/weierstrass/curve.rs: get_cofactor"]}
{"id": "C59", "title": "Decoding, maps and square roots under concurrent callers", "statement": "Any number of threads make sqrt, decode, map-to-curve and SVDW-constructor calls on shared fields and curves, interleaved in any way. The calls of a thread end in order, each with the outcome it has when it is the only call, or with the borrow panic of the shared cache. No thread waits for another: seven own steps per call suffice. Threads that share no allocation never see the borrow panic. At all times a cache holds nothing or its field's constants, and no cell stays borrowed once no call is active, also after panics. The claim that concurrent use of one curve never panics is false for every call that takes a square root. The same holds for square roots in the quadratic extension.", "quantifier": "all numbers of threads, call sequences, inputs, allocations and schedules", "why_tests_cant": "Schedules cannot be enumerated; the overlap window is short and depends on the machine.", "anchors": ["src/primefield/mod.rs: get_sqrt_precmp, sqrt", "src/quadraticfield/mod.rs: get_sqrt_precmp, sqrt", "src/weierstrass/curve.rs: decode", "src/montgomery/curve.rs: decode", "src/edwards/curve.rs: decode", "src/weierstrass/sswu.rs", "src/weierstrass/svdw.rs", "src/montgomery/elligator2.rs"]}
{"id": "C60", "title": "Which points are multiples of the base point, decided through the API", "statement": "On every shipped curve, and on any curve of the right kind whose cofactor is prime to the order, for every point P and in both build profiles: P * (get_order() - 1) == -P holds exactly when P is one of 0, G, 2G, .., (r-1)G. The check P * get_order() == identity does not decide this: new_scalar reduces the order to 0, so the product is the identity for every point, and panics where overflow is checked. It accepts (0,2) on BLS12-381 G1, (0,0) on curve25519 and curve448 and (0,-1) on edwards25519 and edwards448, which are not multiples of the base point.", "quantifier": "all points of all shipped curves, both build profiles", "why_tests_cant": "The curves have 2^252 or more points, and points outside the subgroup of small order are negligible among random ones; membership of a given point cannot be checked by enumeration.", "anchors": ["src/weierstrass/curve.rs: new_scalar, get_order", "src/weierstrass/point.rs: Mul, Neg, PartialEq, is_zero", "src/montgomery/curve.rs: new_scalar, get_order", "src/montgomery/point.rs", "src/edwards/curve.rs: new_scalar, get_order", "src/edwards/point.rs", "src/instances/mod.rs"]}
{"id": "C61", "title": "Signature equations hold, and only for the signature", "statement": "On every shipped curve (and on any curve of the right kind with a base point of prime order), in both build profiles: for a key a, nonce k and challenge c, of all scalars s exactly s = k + c*a satisfies s*G == k*G + c*(a*G); for a hash z, rho, key d and nonce k, of all nonzero s exactly s = (z + rho*d)/k satisfies (z/s)*G + (rho/s)*(d*G) == k*G. If a point P is a multiple of G, two answers s1, s2 to challenges c1 /= c2 with s_i*G == R + c_i*P give P == x*G for x = (s1-s2)/(c1-c2). Without the proviso that fails: the point (0,2) of BLS12-381 G1, (0,0) of curve25519 and curve448 and (0,-1) of edwards25519 and edwards448 pass as keys though they are not x*G.", "quantifier": "all keys, nonces, challenges, messages, points; all shipped curves; both build profiles", "why_tests_cant": "There are 2^252 or more scalars; that no other scalar passes cannot be checked by enumeration.", "anchors": ["src/weierstrass/point.rs: Mul, Add, Sub, PartialEq", "src/weierstrass/scalar.rs: +, -, *, /", "src/montgomery/point.rs", "src/montgomery/scalar.rs", "src/edwards/point.rs", "src/edwards/scalar.rs", "src/instances/mod.rs"]}
{"id": "C62", "title": "Encryption and blinded evaluation come back to the point they started from", "statement": "On every shipped curve and any curve of the right kind, in both build profiles: (M + k*(a*P)) - a*(k*P) == M for all points P, M (ElGamal). For P a multiple of the base point, (1/b)*(k*(b*P)) == k*P for all b /= 0 (blinded evaluation), in particular for every point hashed to the curve and multiplied by the cofactor; and for any two such P, Q other than the identity exactly one b gives b*P == Q (the blinded point says nothing about P). On points that are not multiples of the base point the blinded evaluation can differ: (0,2) of BLS12-381 G1, (0,0) of curve25519 and curve448, (0,-1) of edwards25519 and edwards448.", "quantifier": "all points and scalars; all shipped curves; both build profiles", "why_tests_cant": "There are 2^252 or more points and scalars, and the failing points have small order, negligible among random ones.", "anchors": ["src/weierstrass/point.rs: Mul, Add, Sub, PartialEq", "src/weierstrass/scalar.rs: +, -, *, /", "src/montgomery/point.rs", "src/montgomery/scalar.rs", "src/edwards/point.rs", "src/edwards/scalar.rs", "src/instances/mod.rs"]}
{"id": "C63", "title": "How many field elements each map sends to one point", "statement": "For accepted parameters: simplified SWU sends at most 4 field elements to a point, not counting the at most 3 elements u with z*u^2*(z*u^2+1) = 0, which all go to abscissa b/(z*a); so at most 7 in all, and 4 away from that abscissa. SVDW sends at most 4 nonzero elements to a point, at most 5 in all and 4 unless 2x = -z. Elligator 2 (b^2 = 1, z not a square) sends u and v to one point exactly when u^2 = v^2 or both satisfy z*u^2*(z*u^2+1) = 0; for p = 1 mod 4 exactly when v = u or v = -u; the points reached are characterised by whether -z*x*(x+a) is a square (with a condition at x = 0 and at x = -a). Hence the maps reach at least p/4, (p+2)/4 and (p-1)/2 points. On curve25519 and edwards25519 two elements collide exactly when equal or opposite. Through the isogenies: at most 7 on secp256k1, at least p/4 points reached; at most 77 on BLS12-381 G1, at least (p/4-10)/11; at most 8 on edwards448, at least (p+3)/8. Elligator 2 with z not a square reaches exactly (p+1)/2 points when p = 1 mod 4 and exactly (p-1)/2 when p = 3 mod 4: 2^254-9 on curve25519 and on edwards25519, 2^447-2^223-1 on curve448.", "quantifier": "all curves and parameters that the constructors accept, all points and all field elements; the shipped curves and isogenies", "why_tests_cant": "Counting preimages takes one pass over a field of 2^255 or more elements; that no more than four collide cannot be sampled.", "anchors": ["src/weierstrass/sswu.rs", "src/weierstrass/svdw.rs", "src/montgomery/elligator2.rs", "src/edwards/elligator2.rs", "src/weierstrass/sswuab0.rs", "src/instances/rational_maps.rs"]}
{"id": "C64", "title": "Callers cannot see how a point is represented", "statement": "Take any program over one curve that makes points (from coordinates, the identity, the generator, decoding bytes), adds, subtracts, negates, multiplies by integers, normalises points that is_zero does not report, compares, tests for zero, encodes (compressed or not) and prints the normalised point, and that chooses each next step from the answers so far. Started on two lists of points that represent the same affine points with different projective coordinates, it produces the same trace: the same answers, bytes, texts, refusals and panics in the same order. Conversely two points that represent different affine points are told apart by some program. The text of a point that was not normalised and is_two_torsion do show the representation (refuted).", "quantifier": "all Weierstrass, Montgomery and Edwards curves of C23, C34, C37, all programs of any length with arbitrary branching on replies, all register contents, both overflow modes", "why_tests_cant": "Programs branch without bound on what they see, and every point has p-1 representations; a test compares a few.", "anchors": ["src/weierstrass/point.rs", "src/weierstrass/curve.rs", "src/montgomery/point.rs", "src/montgomery/curve.rs", "src/edwards/point.rs", "src/edwards/curve.rs"]}
{"id": "C65", "title": "Which point operations a scalar multiplication performs", "statement": "Multiplying a point by a scalar k > 0 performs exactly one doubling per binary digit of k, most significant first, each followed by an addition when the digit is 1: floor(log2 k)+1 doublings and as many additions as k has ones, whatever the point. For k = 0 it performs none. Hence the sequence of operations determines the scalar: two scalars that give the same sequence are equal. That the number of operations depends only on the length of the scalar is false.", "quantifier": "all points and all scalars of fewer than 2^64 bits on every Weierstrass, Montgomery and Edwards curve, both overflow modes", "why_tests_cant": "The sequence is not visible in the result; scalars are unbounded.", "anchors": ["src/weierstrass/point.rs: core_mul", "src/montgomery/point.rs: core_mul", "src/edwards/point.rs: core_mul", "src/*/scalar.rs: iter_lr"]}
{"id": "C66", "title": "Exceptional inputs of the addition formulas, exactly", "statement": "On any nonsingular Weierstrass curve the sum of two points is right unless their difference has order 2, and then it is the triple (0,0,0); on any nonsingular Montgomery curve with b = 1 it is right unless their difference has ordinate s, and then it is (0,0,0); doubling is always right. A scalar multiple is right unless some addition of double-and-add meets such a difference, and then it is (0,0,0); for a point of odd order on a Weierstrass curve this never happens. So the conditions of C24 and C33 (no point of order 2, no point with ordinate s) are necessary and sufficient for addition to be right on all pairs. The triple (0,0,0) absorbs addition, subtraction, negation and multiplication, compares equal to every point, is not reported as the identity and represents no point; comparison is then not transitive. On any Edwards curve, whatever a and d, addition, subtraction, negation and multiplication never panic, on points and on anything computed from points; addition is right where the addition law is defined and returns a tuple with last coordinate 0, no point, elsewhere. For a, d not 0 it is right on all pairs exactly when the curve is complete (a a square, d not) or every point has a zero coordinate. For a, d, a - d not 0 the points of odd order are closed under addition, their sums are always defined, and addition and multiplication are right on them, complete or not. Moreover every tuple that satisfies the two equations of the coordinates is (0,0,0,0) or stands for exactly one point of the companion curve v^2 = u^3 + 2(a+d)u^2 + (a-d)^2 u (x = 2u/v, y = (u-(a-d))/(u+(a-d))), and is a point of the Edwards curve exactly when no denominator vanishes there; the sum of two such tuples is the sum on the companion curve unless their difference is not a point of the Edwards curve, and then it is (0,0,0,0); doubling and negation are always right; a scalar multiple is right unless some addition of double-and-add meets such a difference, and then it is (0,0,0,0), which absorbs every operation and compares equal to everything.", "quantifier": "all odd prime fields, all nonsingular curves (all a, d for Edwards), all pairs of points in all coordinates, all scalars k > 0 of fewer than 2^64 bits, both overflow modes", "why_tests_cant": "The shipped curves have no exceptional pairs, so no test of them reaches the exceptions; on other curves they are a negligible fraction of the pairs.", "anchors": ["src/weierstrass/point.rs: core_add, core_doubling, core_mul", "src/montgomery/point.rs: core_add", "src/edwards/point.rs: core_add, core_neg, core_mul"]}
{"id": "C67", "title": "Field objects with a modulus that is not prime", "statement": "Fp::new takes any modulus. Modulo 1 the only element is both zero and one, sums and products work, and division, powers with a BigInt exponent and is_square panic. For a modulus n > 1: 1u32/b inverts b exactly when b^(n-1) = 1 modulo n; division undoes multiplication for every non-zero divisor exactly when n is prime; x^e with BigInt exponents turns sums into products for every non-zero x exactly when n is prime; is_square tells the squares from the others exactly when n is prime or n = 4. For n = 3 modulo 4, sqrt returns a root of every square exactly when b^n = b modulo n for every b, that is also for composite n such as 8911. For n = 5 modulo 8, exactly when n is prime or b^((n+1)/2) = b modulo n for every b, as for 9585541 = 7*31*163*271. For every other modulus sqrt panics.", "quantifier": "all moduli n >= 1, all elements, all exponents", "why_tests_cant": "The equivalences range over every modulus and every element; the composite moduli on which an operation is still right (4 for is_square, Carmichael numbers for sqrt) are rare enough for sampled tests to miss.", "anchors": ["src/primefield/mod.rs: Fp::new (TODO: verify whether p is prime), inv_mod, bitxor, is_square, sqrt"]}
{"id": "C68", "title": "The powers and square roots of Fp2, were one() to work", "statement": "Fp2Elt::one() always panics, so the power loop and the square root of Fp2 cannot be run. Were it to return the field's one: x^e would be x^k where k is e without the top bit of each of its 32-bit words, so the exponent is right exactly when e < 2^31. The formulas of sqrt (p = 3 mod 4) with exact powers return a square root of every square, and no root of anything else. Hence sqrt would be right for every prime p = 3 mod 4 below 2^32. For larger primes the root of 1 would be 2^k with k the shortened (p-1)/2, which is not a root of 1 in the fields of P-256, P-384, P-521, secp256k1, BLS12-381 and curve448, nor modulo 2^32+15.", "quantifier": "all moduli p > 0 and all exponents for the loop; all primes p = 3 mod 4, all elements and all power functions exact up to (p-1)/2 for sqrt", "why_tests_cant": "The code panics before it reaches the loop; whether repairing one() alone is enough depends on exponents and moduli far beyond sampled sizes.", "anchors": ["src/quadraticfield/mod.rs: impl BitXor<&BigUint> for &Fp2Elt", "src/quadraticfield/mod.rs: impl Sqrt for Fp2Elt", "src/quadraticfield/mod.rs: calc_sqrt_precmp", "src/quadraticfield/mod.rs: impl One for Fp2Elt"]}
{"id": "C69", "title": "Which square root sqrt returns", "statement": "For p = 3 mod 4, sqrt(x) is x^((p+1)/4) for every x: the one root of a square that is itself a square, and a root of -x when x is not a square; so sqrt(xy) = sqrt(x)sqrt(y) always. For p = 5 mod 8, sqrt(4) is 2 or -2 (both occur); with s = sqrt(4), sqrt of a square is the only root that is a fourth power or s times a fourth power, it is a fourth power whenever the argument is one, and for a non-square x the result y has y^4 = -x^2.", "quantifier": "all primes p = 3 mod 4 or 5 mod 8 and all elements", "why_tests_cant": "Which root comes out depends on the prime and the argument through a power; samples cannot show that the choice is uniform.", "anchors": ["src/primefield/mod.rs: impl Sqrt for FpElt", "src/primefield/mod.rs: calc_sqrt_precmp"]}
{"id": "C70", "title": "What == decides for each type", "statement": "Fields, field elements, quadratic field and elements, scalars and curves are == exactly when identical. For points whose coordinates lie in one prime field, on the curve or not, == never panics, is reflexive and symmetric, holds exactly when the curves are equal and the cross products x1 z2 = z1 x2, y1 z2 = z1 y2 (and t1 z2 = z1 t2 on Edwards curves) agree, and is transitive through a middle tuple exactly when that tuple is not all zero. For points over different fields == panics instead of answering false.", "quantifier": "all values of the types; all tuples over all prime fields and all curve parameters", "why_tests_cant": "The Eq contract is a statement about all triples of representations, including tuples no test constructs.", "anchors": ["src/weierstrass/point.rs: impl PartialEq for Point", "src/montgomery/point.rs: impl PartialEq for Point", "src/edwards/point.rs: impl PartialEq for Point", "src/edwards/scalar.rs: impl PartialEq for Scalar", "src/primefield/mod.rs: impl PartialEq for Params", "src/quadraticfield/mod.rs: impl PartialEq for Params"]}
{"id": "C71", "title": "Every owned or borrowed form of an operator computes the same", "statement": "a + b on Fp and Fp2 is the residue of the sum in each of the four ways of passing the operands, and panics with \"elements of different fields\" across fields. k * P with the scalar on the left is the k-fold sum of P in each of its three forms on each curve type, and panics if the scalar has another order. n.lift(&f) is the residue of n, for machine integers and written numbers.", "quantifier": "all forms, all moduli and elements, all curves, points and scalars", "why_tests_cant": "The bodies are separate copies; tests use one or two forms on a few values.", "anchors": ["src/primefield/mod.rs: impl Add for &FpElt", "src/quadraticfield/mod.rs: impl Add for &Fp2Elt", "src/weierstrass/scalar.rs: impl Mul<Point> for Scalar", "src/montgomery/scalar.rs: impl Mul<Point> for Scalar", "src/edwards/scalar.rs: impl Mul<Point> for Scalar", "src/ops.rs: IntoFactory::lift"]}
{"id": "C72", "title": "Why decode fails", "statement": "The error text of decode tells what is wrong with the input: for the Weierstrass and Montgomery forms each of the six texts is returned exactly on one kind of input (length; x not below p; tag 0 on a longer input; length and tag disagree; y not below p; unknown tag), checked in that order, on every curve over a prime field; for the Edwards form the same with three texts (length; y not below p; sign bit set with x = 0). A panic of decode says 'range end index out of range for slice' exactly on one-byte inputs, and 'not valid point' exactly when the input is well formed but no point of the curve has these coordinates (for compressed inputs: no point has this x).", "quantifier": "all curves, all byte strings", "why_tests_cant": "all lengths, tags and values at once; the order of the checks.", "anchors": ["src/weierstrass/curve.rs: decode", "src/montgomery/curve.rs: decode", "src/edwards/curve.rs: decode"]}
{"id": "C73", "title": "Hashing from two field elements", "statement": "Mapping two field elements u, v to the curve, adding the images and multiplying by the cofactor (hash_to_curve of RFC 9380) returns, in both build profiles, a multiple of the base point, which equals the sum of the two cleared images and does not depend on the order of u and v: for every pair on the suites of C58 (SSWU, SVDW with any accepted z on the six Weierstrass curves whose cofactor clears, SSWU through the 3-isogeny, Elligator 2 on curve25519, curve448 and edwards25519); through the 11-isogeny exactly when neither SSWU point lies in the kernel; on edwards448 exactly when neither element is sent to (0,0,0,0). For u and -u (u nonzero) the SSWU images cancel; the SVDW images cancel unless both of the first two candidates of u are abscissas of points, and then u takes the first and -u the second (refuted: SVDW is odd).", "quantifier": "all pairs of field elements, all accepted parameters z, all shipped suites, both build profiles", "why_tests_cant": "the pairs are about 2^512 and the bad ones (kernel abscissas, exceptional elements) are a handful; tests on random elements never meet them", "anchors": ["src/weierstrass/sswu.rs", "src/weierstrass/svdw.rs", "src/weierstrass/sswuab0.rs", "src/montgomery/elligator2.rs", "src/edwards/elligator2.rs", "src/instances/rational_maps.rs", "src/weierstrass/point.rs", "src/edwards/point.rs", "src/montgomery/point.rs"]}
{"id": "C74", "title": "The shipped programs run as long as they like", "statement": "The benchmark loops never panic and their state is known after any number n of rounds, in both build profiles, on P-256, P-384 and P-521: x0 is -1+15n, x1 is -(15^n), x2 stays -1 (as canonical residues); g0 is 2^n G and never the identity; g1 is G after an even number of rounds and -G after an odd one. The example program and the example in the crate's documentation run to their end and print decimal projective coordinates of the doubles of the base points (and the coefficients of the curves).", "quantifier": "all numbers of rounds, both build profiles", "why_tests_cant": "The loops run for an unbounded number of rounds and nothing looks at their state.", "anchors": ["benches/curve.rs: arith", "benches/field.rs: arith", "examples/call01.rs: main", "src/lib.rs: version, documentation"]}
{"id": "C75", "title": "Key agreement over the wire", "statement": "Two ends each multiply the base point by a non-zero key, encode, send, decode what they got, multiply by their key and encode the result. On every shipped curve both ends then hold the same bytes, which are those of the (a b)-fold multiple of the base point and not those of the identity, whatever forms (compressed or not) were sent and whichever build profiles the ends use; two runs give the same bytes exactly when the products of the keys agree modulo the order. On the curves of prime order, whatever bytes a peer sends, if decode accepts them then no non-zero key gives the identity and different keys give different bytes. On BLS12-381 G1, the Montgomery and the Edwards curves that is false: a peer can send accepted bytes of a point of order 3 or 2.", "quantifier": "all pairs of non-zero keys, all forms, both build profiles, all byte strings a peer may send", "why_tests_cant": "The keys and the bytes an attacker may send are not enumerable; the failures are at single points of small order.", "anchors": ["src/weierstrass/curve.rs: decode", "src/weierstrass/point.rs: encode", "src/montgomery/curve.rs: decode", "src/edwards/curve.rs: decode", "src/weierstrass/scalar.rs: mul"]}
{"id": "C76", "title": "How many byte strings decode accepts", "statement": "On a Weierstrass curve exactly two byte strings decode to a given affine point (its compressed and its uncompressed form), on a Montgomery curve two, or three when the ordinate is 0, and on an Edwards curve one; so a curve of n points has exactly 2(n-1), 2(n-1)+t (t points with ordinate 0) and n accepted strings among all byte strings of any length. On the shipped curves: 2(r-1) on the five of prime order, 2(N-1) on BLS12-381 G1 and its isogenous curve of N points, 2hr-1 on curve25519 and curve448, and hr on edwards25519 and edwards448.", "quantifier": "all curves of the three models with a supported field, all points, all byte strings of any length", "why_tests_cant": "The byte strings are infinitely many; that no further string is read as a point cannot be sampled, and the counts are of the size of the field.", "anchors": ["src/weierstrass/curve.rs: decode", "src/montgomery/curve.rs: decode", "src/edwards/curve.rs: decode"]}
{"id": "C77", "title": "Multiplying by the cofactor keeps uniform points uniform", "statement": "Multiplication by the cofactor, as the code does it and in both build profiles, sends exactly the same number of points of the curve to every multiple of the base point, and none elsewhere; every point is sent to one of them. On any curve of the three models with n points, a base point of prime order r and a cofactor 0 < h < r that clears it, that number f satisfies n = r f. On the shipped curves: 1 on the five of prime order, 0x396C8C005555E1568C00AAAB0000AAAB on BLS12-381 G1 (and, with eleven times the shipped cofactor, on its isogenous curve), 8 on curve25519 and edwards25519, 4 on curve448 and edwards448. Hence hashing (the map to the curve followed by the cofactor) reaches at least 2^251-1 multiples of the base point on curve25519 and edwards25519, 2^445-2^221 on curve448, 2^443-2^219 on edwards448 (Elligator 2 with any non-square z), and one in 44 on BLS12-381 G1 (simplified SWU through the isogeny with any accepted z).", "quantifier": "all curves as described, all points of the curve, all multiples of the base point, all representations, both build profiles", "why_tests_cant": "The preimages of a point are counted among all points of the curve.", "anchors": ["src/weierstrass/point.rs: operator *", "src/montgomery/point.rs: operator *", "src/edwards/point.rs: operator *", "src/instances/weier.rs", "src/instances/mont.rs", "src/instances/edw.rs"]}
{"id": "C78", "title": "Blinded evaluation over bytes returns the bytes of k P", "statement": "A client multiplies a point P by a blinding scalar b and sends the encoding; a server decodes it, multiplies by its key k and sends the encoding back; the client decodes it, multiplies by 1/b and encodes. For P a multiple of the base point other than the identity and b, k nonzero, the client gets exactly encode(k P), for every combination of build profiles and compression flags; results under one key are equal bytes iff the points are equal, and results on one point are equal bytes iff the keys are. On the shipped curves this covers hashing a field element and clearing the cofactor, whenever that is not the identity.", "quantifier": "all curves of the three kinds with square roots and a base point of prime order, all points of its subgroup but the identity, all nonzero scalars, all profiles and compression flags; all shipped curves; all hashed field elements", "why_tests_cant": "the claim composes hashing, scalar multiplication, normalisation, encoding, decoding with square roots and scalar inversion over all points and keys; a test covers a few of them", "anchors": ["src/weierstrass/point.rs", "src/weierstrass/curve.rs", "src/weierstrass/scalar.rs", "src/montgomery/point.rs", "src/montgomery/curve.rs", "src/edwards/point.rs", "src/edwards/curve.rs"]}
