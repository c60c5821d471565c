# Formal model of armfazh/redox-ecc (Rocq / Coq 8.16.1)

## Layout of /verif/rocq/theories

| file(s) | role |
|---|---|
| `Model/*.v` | executable Gallina model, one file per Rust module, no proofs |
| `Spec/Arith, Curve, Instances, Isogeny, Maps, Order, RatMaps, Text` | small textbook specification over plain integers (congruences, affine chord-and-tangent law, Edwards law, base-256 values) that does not mention the model |
| `Spec/Elements, Exprs, WPoints, MPoints, EPoints, Morphisms, Shipped, CacheState, Concurrent, Membership, Protocols` | the vocabulary of the theorems: how values of the model are read as those mathematical objects. A theorem of `Properties/` uses only definitions of `Model/` and `Spec/` |
| `Math/*.v` | number theory and algebra used by the proofs (Fermat, Euler, Pocklington, Z/p as a field, elliptic-curve group law) |
| `Proofs/*.v` | proofs connecting model and specification |
| `Properties/*.v` | the property theorems, each closed by `exact ...`, followed by `Print Assumptions` |

## Modelling decisions

* `BigInt`/`BigUint` are `Z`. The num-bigint functions used (`mod_floor`, `modpow`, `bits`, `to_bytes_be`,
  `from_bytes_*`, `to_u32_digits`, `from_str_radix`, decimal `Display`) are modelled in `Model/BigInt.v`.
  The dependency sources are not available here, so their behaviour is part of the trusted base.
* `Fp` is its modulus (this is exactly what its `PartialEq` compares); the `AtomicRefCell` cache is modelled
  separately (`Model/SqrtCache.v`) with threads, lock state and a reference count.
* Panics are values: every function returns `out A := Ret a | Panic why`; `std::io::Result` is data inside it.
* `usize` arithmetic is explicit where it matters (`Iterino`, `iter_lr`): wrap modulo 2^64, and a flag says
  whether the build has overflow checks (debug) or not (release).
* `&mut self` methods return the new value.
* Projective points are records of field elements plus the curve, exactly as in the code, so that all
  cross-field / cross-curve panics are visible.

## What is modelled, file by file

| Rust file | model | not modelled |
|---|---|---|
| src/primefield/mod.rs | `Model/PrimeField.v` (values), `Model/SqrtCache.v` (one shared cache, threads, Arc counts), `Model/Shared.v`, `Model/SharedOps.v` (whole API calls by threads sharing fields) | owned/borrowed variants generated by impl_op_ex! from one body (those with bodies of their own are in `Model/OpForms.v`) |
| src/quadraticfield/mod.rs | `Model/QuadField.v`, `Model/FieldExtras.v` (trait identities, cache cell under sequential calls), `Model/Shared.v` (concurrent square roots), `Model/QuadHeap.v` (Arc counts of Fp2 and of the base field it owns) | |
| all Display impls | `Model/Display.v` (FpElt in `Model/PrimeField.v`) | formatter flags |
| src/weierstrass/{curve,point,scalar}.rs | `Model/WCurve.v`, `Model/Scalar.v`, `Model/MulTrace.v` (operations of a multiplication, all three kinds) | |
| src/weierstrass/{sswu,svdw}.rs | `Model/Maps.v` | |
| src/weierstrass/sswuab0.rs | `Model/RationalMaps.v` | `Box<dyn Isogeny>` is the one shipped implementation |
| src/montgomery/{curve,point,scalar}.rs | `Model/MCurve.v`, `Model/Scalar.v` | |
| src/montgomery/elligator2.rs | `Model/Maps.v` | |
| src/edwards/{curve,point,scalar}.rs | `Model/ECurve.v`, `Model/Scalar.v` | |
| src/edwards/elligator2.rs | `Model/RationalMaps.v` | `Box<dyn RationalMap>` is one of the two shipped maps |
| src/instances/{weier,mont,edw}.rs | `Model/Instances.v` (parameter texts copied verbatim) | |
| src/instances/rational_maps.rs | `Model/RationalMaps.v` | |
| src/macros/mod.rs (do_if_eq) | `Model/Out.v` | |
| src/field.rs, src/ops.rs, src/ellipticcurve.rs | trait declarations only; CMov's default method is `cmov` in `Model/PrimeField.v`; get_order/get_cofactor/get_field of the three curve types are in `Model/CurveExtras.v` | |
| src/lib.rs (version, documentation example), examples/call01.rs, benches/*.rs | `Model/Benches.v` | criterion calls the closures any number of times; its timing and reports are not modelled. version() is the text in Cargo.toml |
| src/tests.rs, tests/ | the tests are not modelled | |

The dependencies are modelled from their documentation: num-bigint / num-integer in `Model/BigInt.v`,
AtomicRefCell (borrow_mut panics when already borrowed) and Arc (strong count) in `Model/SqrtCache.v`.
Memory exhaustion, stack overflow, timing and side channels are outside the model.

## Properties and how they are proved

C01-C05 (prime field): every model operation on canonical elements reduces to `el p (integer expression)`;
expression trees by induction. C03/C04 from Fermat's little theorem (proved here).
C06-C07: Euler's criterion (root counting over Z/p), 2 is a non-residue for p = 5 mod 8.
C08, C09, C50: labelled transition system with arbitrary schedules; invariants by induction over the trace. `C50_quadratic_*` (`Proofs/QuadHeapProps.v`): the same for the two nested allocations of an Fp2; an element counts once for the field and twice for the base.
C10-C13: base-256 / radix digit lemmas.
C14-C19: quadratic field, Gaussian integers mod p; several claims refuted with exact characterisation.
C20-C22: scalars; iterator as a state machine with wrap-around.
C23-C32, C33-C35: complete formulas proved equal to the affine law over an abstract field of characteristic
not 2 or 3, by polynomial identities; associativity of the affine law proved once over an abstract field.
C36-C39: Edwards law, completeness from `a` square and `d` non-square; associativity by polynomial identities.
C40-C42, C47: each map: the algebraic identity behind it plus the square-selection argument.
C43-C46: rational maps and isogenies: polynomial identities (with concrete coefficients for the isogenies).
C45/C46 homomorphism: three collinear points go to three collinear points, a polynomial identity in the slope and intercept
of the line, checked modulo the cubic whose roots are the abscissas (`Proofs/PolyB.v`, `Proofs/Cert_Line.v`); from it
additivity off the kernel, then on it by translating with points in general position (`Math/IsogHom.v`).
C44, the second map: it is two isogenies of degree two (`Math/Iso2.v`) followed by a birational map to the Edwards curve
(`Math/Birat2.v`), each a homomorphism; the composite with the first map is read off the doubling formula (`Math/Iso4Dual.v`).
C48: Pocklington certificates, root-freeness by gcd(x^p - x, f) = 1, scalar multiplication by computation.
C49: case analysis.

C51: Elligator 2 on Edwards curves is C42 followed by C43 or C44.
C52: decimal texts are digit strings, so the separators of each layout can be found again; `Spec/Text.v` defines decimal.
C53, C54: case analysis; induction over the call history.
C55: the number of points. Points certified to have given orders generate an explicit subgroup of n points
(`Math/FinGroup.v`, `Proofs/OrderBls.v`); a curve over F_p has at most 2p+1 points and 2p+1 < 3n, so the index is 1 or 2, and
2 is excluded because every point is twice another plus a known one (odd n: no point of order 2; the cyclic 2-power part
otherwise). Hasse's theorem is not needed. On G1 independence of two points of the same prime order comes from the
automorphism (x,y) -> (wx,y); on the 11-isogenous curve it is pulled back through the isogeny (C46).
C56: proved once over an abelian group with a representation relation (`Proofs/ScLaw.v`), instantiated three times.
C57: encode writes the identity as (0,0); digit strings are injective; ordinates over one abscissa differ in parity.
C58: composition of C40, C41, C42, C47, C51 with C55; acceptance of the parameters z by certified roots and non-squares.
C59: an invariant over all schedules of a generic machine (`Model/Shared.v`: programs that ask for square roots, cells per allocation and field, one step per atomic action), a refinement of each program to the sequential function, and a measure for wait-freedom. An uncontended borrow and a panic while borrowed are covered. A cell is filled before its first answer and keeps its constants.

C60: one proof over the abstract group laws of C56 (`Proofs/Subgroup.v`): (r−1)A = −A iff rA = 0, and rA = 0 iff A is generated, by C55 (h clears) and Bézout (h prime to r). Points of small order are not generated by the same argument.
C61, C62: `Spec/Protocols.v` writes the protocols as programs over the operations of a curve (parameters, so that one definition serves the three kinds) and says what is claimed of them; `Proofs/Protocols.v` proves the claims from the abstract laws of C56: multiples of a base point of prime order r are integers modulo r, the rest is divisibility by r. The refutations use the points of small order of C60. `C62_*hashed` starts from the conclusion of C58 (`w_lands` etc.). The programs are not code of the repository; they are what a caller of it writes.
C63: `Spec/Counting.v` counts without listing (`at_most`, `at_least`, through lists without repetition). `Math/Fibre.v` proves over any field that the preimages of an abscissa are roots of a polynomial in u^2 of degree 2 per branch, and that the sign of u halves them; `Proofs/FibreProps.v` transfers this to the maps by C40–C42, `Proofs/FibreInstProps.v` to the shipped curves by C43, C45 and C46, and `Proofs/Fibre448Props.v` to edwards448 by C44 (a fibre of the second map has at most four points). Examples on small curves attain the bounds 4, 7, 5, 3 and 8.

C64: `Spec/Programs.v` defines interactive programs over an abstract set of curve operations (`api`): a program is a tree whose next command is any function of the reply just seen, so it may branch on every answer, and its run is a trace of replies ended by a stop or a panic. `opaque` says that traces depend only on the affine points in the registers; `separating` that different points are told apart. `Proofs/ProgramP.v` proves both from the laws of a curve by induction on the program; `Proofs/ProgramProps.v` supplies the laws for the three kinds of curves. Normalize is only offered for points that is_zero does not report (C31: the normalised identity of a Weierstrass or Montgomery curve is no point); Print shows the normalised point. Raw Display, coordinate access, is_two_torsion and the isogenies (C45) do show the representation and are left out of the programs.

C65: `Model/MulTrace.v` is the loop of the three multiplications with a list of operations written beside the accumulator; `C65_*record` says that without the list it is the multiplication of C23, C34 and C37, `C65_*operations` reads the list off the binary numeral (`Spec/Ladder.v`), `C65_reveals` recovers the scalar from it. Only the operations on points are recorded, not their cost.

C50, for quadratic fields, also says when the cell of constants is filled: exactly when a square root was asked for while the field was alive and p = 3 mod 4 (`C50_quadratic_filled`).

C66: `Math/Excep.v` follows the polynomials of the code through every pair of points of any nonsingular curve; `Spec/Exceptions.v` says which pairs are exceptional, and which scalars meet one (`spoils`: a leading part 2m+1 of the scalar with a bad difference 2mA - A). `C66_condition` and `C66_mont_condition` show that the hypotheses `weier` and `mont` of the other properties are exactly what addition needs; `C66_odd_order` recovers multiplication for points of odd order on curves of even order. For Edwards curves that are not complete, `Math/EdOdd.v` compares the curve with v^2 = u^3 + 2(a+d) u^2 + (a-d)^2 u: the points of the latter without an Edwards point have order 2 or 4, and the Edwards law is undefined at a pair only if their sum or difference is such a point, so it is total on points of odd order (`C66_edw_odd_sums`, `C66_edw_odd_order`); `Math/EdComp.v` then follows the four coordinates through the whole group of that companion curve: (u, v) is written (2u(u+f), v(u-f), 2u(u-f), v(u+f)) with f = a-d, and the code's formulas give the sum, up to a factor that is not 0, or four zeros, the latter exactly when the difference has no Edwards point (`C66_edw_completed`, `C66_edw_multiplication`, stated with `e_stands` of `Spec/Exceptions.v`); `C66_edw_total` shows the equations of a tuple survive every operation even where it is no point. `C66_equality_transitive_refuted` is a curve modulo 7 where two different points both compare equal to their computed sum.

C67: `Fp::new` carries the remark "TODO: verify whether p is prime" and accepts everything, so the conditions `prime p` of C03, C04 and C06 are put to the test: each is shown to be necessary as well as sufficient (with the one exception 4 for `is_square`), and for moduli 3 modulo 4 the exact condition under which `sqrt` works is Fermat's congruence for every base, not primality. `Math/Composite.v` has the number theory. For moduli 5 modulo 8 (`Math/Composite5.v`) the condition is: prime, or b^((n+1)/2) = b modulo n for every b; a composite n passes only if it is square-free and no prime factor takes the second branch of the formula, which is excluded by looking at 2 modulo each factor.

C13_panic_reason: besides which texts the parser of C13 accepts, which of its panics refuses each other text (`Spec/Reasons.v`).

**C68 (Fp2 powers and square roots, were one() to work).** `Model/QuadField.v` takes the value of `Fp2Elt::one()` as a
parameter of the power (`pow_bigint2_from`) and the power as a parameter of sqrt (`sqrt2_steps`, `sqrt2_using`); the
functions of the code are the instances with `fp2elt_one`, which panics. `Math/Gauss.v` builds the field of pairs
over a field without a root of -1 and proves that the p-th power is conjugation (binomial theorem). The loop computes x^k
with `skips_top_bits e k` (Spec/Gauss.v, stated on the bits of e and k alone); k = e exactly below 2^31. sqrt with powers
exact up to (p-1)/2 returns a root of every square. The refutation at the shipped moduli computes 4^k with the
`Math/Limb.v` arithmetic.

**C69 (which root sqrt returns).** `Math/Roots.v` works with the class x^((p-1)/4) of x modulo fourth powers. For p = 5
mod 8 the code's constant is (2t^2+1)t with t = 2^((p-5)/8), which is 2^((p-1)/4) or its negative depending on p, so the
statement is made relative to s = sqrt(4), itself 2 or -2. Statements use `fourth_mod`/`times_fourth_mod` of `Spec/Roots.v`.

**C70 (the Eq contract).** Tuples are only required to have coordinates in one field (`wtuple`, `mtuple`, `etuple` in
`Spec/Equality.v`), not to lie on the curve. Transitivity is characterised by the middle tuple: it holds for all neighbours
iff the middle tuple is not all zero.

**C71 (forms of an operator).** `+` on Fp and on Fp2 has three bodies for its four owned/borrowed forms, scalar * point has
three per curve type, and `lift` forwards to `from`. `Model/OpForms.v` writes each body separately; the theorems say every
form gives the residue of the sum, the k-fold sum, the residue of n, or the same panic.

C33 beyond b = 1: `mont_b` (`Spec/Exceptions.v`) is any nonsingular Montgomery curve. `Math/MontB.v` shows that the doubling formula, which
does not read b, has the right abscissa only if b = 1 or the point has order 3, and that in the second case the ordinate is wrong. So on a
curve with a point with y <> 0, addition is right on all pairs exactly when b = 1 and no point has the ordinate s.

C35 beyond b = 1: `C35_decode_any_b` shows that `decode`, which divides by b before the square root, reads every SEC1 encoding of every
affine point of a `mont_b` curve as that point. It was added after swapping the operands of that division went unnoticed.

C72: `Spec/DecodeText.v` writes down, for a text split as tag, x bytes and y bytes, which error or panic text belongs to it. The error part of the
Weierstrass and Montgomery theorems needs only a prime modulus; the panic part needs the hypotheses of C29 and C35. The texts of Rust's own
panics (slice range) are shortened in the model: only which panic it is is claimed.

C73: `Spec/TwoMaps.v` says what it means that the sum of two mapped points clears; the proofs combine C58 (each image is a point of the curve),
C24/C33/C36 (the sum is one), C55 (the cofactor clears every point) and C56 (clearing distributes). On edwards448 a summand (0,0,0,0) makes Z of the
sum 0, so the condition is exact. Opposite elements: the SVDW candidates of -u are those of u with the first two exchanged.

C24, C26, C33, C34, C36, C37 compare the code with relations (`chord_tangent`, `multiple`, the Edwards law). `Proofs/LawProps.v` proves that
on points of the curve these relations are operations: a result exists, is unique and is a point of the curve.

C45, C46 also have `Proofs/OntoProps.v`: preimages under the isogenies, by the number of points (C55), the homomorphism and the kernel.

C74: `Model/Benches.v` has the benchmark loops with the number of rounds as a parameter, and the two example programs as the list of
lines they print; `Spec/Benches.v` says what they should compute. The proofs are loop invariants over the group (C24, C26, C48), the field
(C02, C03) and the texts (C52).

C75: `Spec/Wire.v` has the two ends of a key agreement that exchange bytes, over parameters for the operations, so that one definition
serves the three kinds of curves; `finish` is what an end does with the bytes of a peer (`None` when `decode` refuses them, a panic of
`decode` stays a panic). `Proofs/WireP.v` proves the claims in any group in which the operations compute and from two facts about the
encodings (C28/C35/C39 round trip, C57 same bytes). The key of the claim is given as "the bytes of every representation of the multiple".

C63 also has `Proofs/ImageProps.v`: the points Elligator 2 reaches, counted by representatives 0 or 1, .., (p-1)/2.

C76: `Spec/Accepted.v` says which byte strings a decoder takes, and which it reads as a given point. The counts use the `counted` of
C55 (a list without repetitions of exactly the things counted), so they say both that the forms are accepted and that nothing else is.
Montgomery points with ordinate 0 have a third string: the compressed form is accepted with either tag. The shipped totals follow from the
numbers of points of C55.

C77: `sent_to` (`Spec/Clearing.v`) says that the code's multiplication by a scalar sends a point to another, through every
representation and in both profiles. Translation by a preimage is a bijection between the points sent to the identity and those sent to C,
so all counts are equal, and they add up to the number of points of C55. The shipped cofactor of the curve isogenous to BLS12-381 G1 does
not clear (C55), so the statement for that curve uses eleven times the cofactor.
The bounds on hashing combine these counts with the numbers of points the maps reach (C63): m points reached and f to one leave
at least ceil(m/f) multiples of the base point.

C78: `evaluate` (`Spec/WireBlind.v`) is a run of blinded evaluation in which client and server exchange bytes; it reuses
`finish` of C75 for "decode, multiply, encode". `evaluates` says that the client ends with the bytes of k P, `separates` that
these bytes tell points (under one key) and keys (on one point) apart. Both are for multiples of the base point other than the
identity; outside them blinding can change the result (C62_*blinding_refuted), and the identity of a Weierstrass or Montgomery curve does not survive encoding (C57).

No property is not applicable; timing and performance are not claimed by the library (C65 only lists operations).

Claims that are false of the code are stated as `..._refuted` theorems next to the exact behaviour.

## Certificates

`Math/Prime_*.v` (Pocklington, and elliptic-curve certificates through `Proofs/ECPrime.v`), `Proofs/Inst_*.v` (order of
the base points), `Proofs/Cert_*.v` (non-squares, polynomial identities, kernel points) are generated data checked by
boolean functions on 30-bit limbs (`Math/Limb.v`, `Math/LimbF.v`, `Proofs/InstP.v`, `Proofs/PolyL.v`, `Proofs/PolyB.v`) whose soundness is proved.
Nothing about the generator is trusted.

## Trusted base

* Coq 8.16.1's kernel, including its virtual machine and primitive 63-bit integers (`coqchk` rechecks without the VM).
* The modelling decisions and the behaviour assumed of the dependencies, above.
* The reading of the Rust source: the model is hand-written, one definition per function, with line references.
* Axioms. `Print Assumptions` stands under every theorem in `Properties/*.v`.
  All theorems are closed under the global context, except those about the shipped curves and maps that rest on a
  certificate: C43_shipped, C44_shipped, C45_*, C46_*, C47_secp256k1, C47_bls12381g1, C47_bls12381g1_refuted, C48_*,
  C51_edwards448_refuted, C51_edwards25519, C55_*, C57_identity_has_its_own_bytes_refuted, C58_*, C60_*, C61_* and C62_* (but not C60_*any_curve, C61_*any_curve, C62_*any_curve, C62_*elgamal), C63_curve25519, C63_edwards25519, C63_secp256k1, C63_bls12381g1, C63_curve448, C63_edwards448, C63_curve25519_exact, C63_curve448_exact, C63_edwards25519_exact, C68_sqrt_large_refuted, C73_weierstrass, C73_montgomery, C73_edwards25519, C73_edwards448, C73_secp256k1, C73_bls12381g1, C74_curve_bench, C74_field_bench, C74_documentation, C74_example, C75_* (but not C75_*any_curve), C76_shipped, C76_bls, C76_mont_shipped, C76_edw_shipped, C77_* (but not C77_*any_curve), C78_* (but not C78_*any_curve) and the example C44_dual_kernel_ex. These use the standard library's primitive integers and their
  specification axioms, and nothing else:
  `PrimInt63.{int, add, sub, mul, land, lor, lsl, lsr, eqb, ltb, leb}` and
  `Uint63.{of_to_Z, add_spec, sub_spec, mul_spec, land_spec, lor_spec, lsl_spec, lsr_spec, eqb_correct, eqb_refl, ltb_spec, leb_spec}`.

## Mutation tests

`seeded/LOG.jsonl` has one line per wrong version of a model definition tried in a scratch copy: the edit, the claim
it breaks, the proofs that stopped compiling and the property theorems that depend on them. Survivors are explained there.
