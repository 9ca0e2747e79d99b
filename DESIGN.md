# Formal model of Indra4091/falconGo in Rocq (Coq 8.16.1)

The Go source in `/repo` was read as text; nothing was compiled or run. Every definition of the
model carries the file and the lines it models.

## 1. Layout (`rocq/theories/`, logical name `Verif`)

| files | contents |
|---|---|
| `GoBase.v` | result monad (`Ok`/`Err`/`Panic`/`Diverge`), slice indexing, machine-integer wraps |
| `Spec.v` `SpecHash.v` `SpecFft.v` `SpecBabai.v` | the specification: negacyclic product, evaluation, centred residues, norms, bit code, hash point, NTRU equation, complex roots. No reference to the model |
| `Xof.v` | `sha3.ShakeHash` as an arbitrary state machine |
| `Float.v` | the float64 operations as a record `floats`; `Binary64.v` is the IEEE 754 instance, `ExactReal.v` the exact one |
| `NttTables.v` `FftTables.v` `Params.v` | tables generated verbatim from `ntt_constants.go`, `fft_constants.go`, `falcon_constants.go` |
| `Util.v` `Ntt.v` `Encoding.v` `Falcon.v` `Ntrugen.v` `Samplerz.v` `Fft.v` `Ffsampling.v` `KeyGen.v` `UtilRest.v` `BigStr.v` | the model, function by function, slices as lists |
| `Heap.v` `KeyHeap.v` | the big-integer code of `ntrugen.go` over a heap of `*big.Int`, and `GetPrivateKey` over a memory of int16 arrays |
| `*Proofs*.v` `Poly*.v` `Lattice.v` `NearPlane.v` `FfInt.v` `HalfGauss.v` `ExpPoly.v` `NttLen.v` `NttProps.v` `NtruProps.v` `NoErr.v` `WordSize.v` `FftShape.v` `Roots*.v` `FfExact.v` `Babai.v` `SamplerCount.v` `FloatErr.v` `FftErr.v` `GramErr.v` `FftL1.v` `IfftAvg.v` `CdivErr.v` `CdivGen.v` `SqrErr.v` `QuotErr.v` `QuotLoop.v` `Gs*.v` `Heap{Frame,Refine,Kara,Solve}.v` | lemmas |
| `Examples.v` `Witness.v` `KeyWitness.v` `Hang.v` | concrete inputs for the non-vacuity examples and the refutations |
| `Keccak.v` `Recorded.v` `Tests.v` | SHAKE256, and the repository's own test vectors run against the model (section 6) |
| `Props*.v` | the property theorems `Cnn_...`, each followed by `Print Assumptions`, with the non-vacuity examples |

`properties.jsonl` lists the properties, `MANIFEST.json` the status and the theorems of each,
`seeded/LOG.jsonl` the wrong programs the theorems were tested against.

## 2. Trusted base

* Coq's kernel (and, for `vm_compute`, its virtual machine; `coqchk` re-checks the compiled files
  without it).
* The axioms reported by `Print Assumptions`:
  * none for the theorems about verification, encoding, NTT, keys, NTRU solving, utilities, heaps,
    and for every theorem quantified over all `floats`;
  * `ClassicalDedekindReals.sig_forall_dec`, `ClassicalDedekindReals.sig_not_dec`,
    `FunctionalExtensionality.functional_extensionality_dep` (the standard library's real numbers)
    for the theorems in exact arithmetic: C43, C44, C45, C46, C49, C68, C70_parameters, C74, C75, C76_reduce_terminates_iff,
    C83_sampling, C85_ring, C88_ratio, C89_*, C92_* (except C92_complete, C92_sound), C95_signs_everything, C95_nonvacuous, C96_multipliers, C96_exact_unique (C88_sigbound: all but `sig_not_dec`);
  * the same and `Classical_Prop.classic` for the theorems about binary64, through Flocq:
    C25_key_pair_refuted, C36_equation_refuted, C38_never_close, C38_approxexp_refuted,
    C39_ccs_ignored_partial, C39_berexp_refuted, C40_range, C40_wrapped, C40_nonvacuous,
    C41_sums, C41_wrapped_sums, C41_nonvacuous, C42_*, C48_panic_refuted, C50_normalize_refuted,
    C62_*, C67_truncates, C67_roundtrip, C69_*, C70_* (except C69_base_sampler, C70_not_gaussian, C70_parameters),
    C71_*, C72_*, C73_*, C76_units_diverge, C76_terminates_refuted, C76_keygen_refuted, C77_*, C78_reduce_exact,
    C79_sub, C79_neg, C81_*, C82_*, C83_nonvacuous, C84_* (except C84_narrow),
    C85_rounded, C85_nonvacuous, C87_basis, C88_sigma, C90_*, C91_nonvacuous, C93_* (except C93_returns), C95_generated, C95_generated_nonvacuous, C96_float_solve, C96_nonvacuous, C102_generated, C102_keys, C102_nonvacuous, C104_any_pair, C104_outputs, C104_wrong, C104_hang, C106_keys, C106_determined,
    C108_wrong_key, C109_unsignable.
  All four come from Coq's standard library. Flocq 4.1.0 is used for IEEE 754 operations and adds none.
* That the definitions say what the Go code does. Points where this rests on knowledge of Go and
  not on text in `/repo` (the dependencies and the Go runtime are not in the sandbox):
  * integer conversion and overflow wrap; a slice or index out of range panics; integer division by
    zero panics; shift counts; `%` truncates;
  * `math/big`: `Div` is Euclidean, `Int64` is the low 64 bits, `Rsh` rounds towards minus infinity,
    `Bytes` is the absolute value big-endian, `SetString` with base 0 reads the prefixes 0b, 0o, 0x, 0 and underscores;
  * `math.Pow(x, 2)` squares the fraction after `Frexp` and rounds once; `math.Round` rounds halves
    away from zero; complex division is Smith's algorithm followed by the correction of NaN results;
    complex product without fused operations (amd64);
  * conversion of an out-of-range float64 to an integer is implementation-defined: arbitrary
    functions `ci`, `cu` in `binary64 ci cu`;
  * a missing map key gives the zero value; `append` and slicing semantics;
  * `strconv.ParseInt`, `fmt.Sprintf("%09b")`, `strconv.FormatInt`.

## 3. Modelling decisions

* `int16`, `byte`, `uint32`, ... are `Z` with the wrap written where Go truncates. `int` operations
  of the NTT carry a word-size wrap `iw`, instantiated with 64 bits (32 bits for C51).
* A Go function that returns `(x, error)` and can panic returns `res X`. Loops without a static bound
  take fuel and return `Diverge` when it runs out; theorems exclude `Diverge`, bound the fuel, or are
  stated for every fuel.
* Slices are lists of values. Aliasing is modelled in `Heap.v` and `KeyHeap.v`; `HeapRefine.v`,
  `HeapKara.v` and `HeapSolve.v` prove that the heap code computes what the list model computes.
* SHAKE256 is an arbitrary state machine `XOF`, `crypto/rand` an arbitrary stream of blocks: theorems
  hold for every one of them.
* Float code is written once over `floats`. A theorem quantified over `floats` holds for every
  rounding behaviour, fused operations included; theorems about values use `exactR` or
  `binary64 ci cu`. Theorems in exact arithmetic use `exact_roots`; C43_tables bounds the distance
  between the tables and the exact roots.
* `reduce` and `NtruSolve` depend on floats only through the rounded quotient, a parameter `quo`.
* `fmt.Print*` and `log.Print*` output is not modelled; `fmt.Sprint` is a parameter of `printTree`.

## 4. What is modelled

| Go file | modelled | not modelled |
|---|---|---|
| `falcon.go` | all functions | commented-out code |
| `falcon_constants.go` | parameter sets, lengths | unused constants |
| `encoding.go` | all | |
| `ntt.go`, `ntt_constants.go` | all | |
| `fft.go`, `fft_constants.go` | all | |
| `samplerz.go` | all | |
| `ffsampling.go` | all | logging, commented-out code |
| `ntrugen.go` | all, with lists and with a heap | |
| `util.go` | all; `crypto/rand`, `encoding/hex` by their documented behaviour | |
| `types/` | `NewBigIntFromString` | variables holding 0, commented-out code |
| `KAT/` | | JSON test data |

## 5. Result and method per property

`R` marks a property that is false of the code; the theorem named `..._refuted` has the witness and
the `_partial` or exact theorems say what does hold.

| id | | method |
|---|---|---|
| C01, C03 | | compose C06, C16, C18; no uint32 wrap below the bound; exact acceptance condition |
| C02 | R | the uint32 sum wraps; a forgery for every XOF, message and salt |
| C04, C10, C28 | R | exact characterisation of the panicking inputs |
| C05, C09 | R | header, length and padding are ignored; exact canonical inputs |
| C06-C08, C11 | | induction over the bit code |
| C12, C13 | | induction on fuel; counting of residues |
| C14-C17, C52, C53 | | evaluation by induction on the degree; complete computation over the finite tables |
| C18, C19 | C19 R | int16 overflow |
| C20-C24 | C21, C23 R | dropped error; sum-of-lengths check |
| C25, C26 | R | results never assigned |
| C27 | | loop unfolding |
| C29-C31 | | induction with evaluation at one large integer |
| C32 | | descent on the remainder |
| C33, C34 | R | `d.Int64()` truncates; degree 1 |
| C35 | | loop invariant, any quotient |
| C36 | R | int16 truncation; equation modulo 2^16 |
| C37 | | counting |
| C38, C39 | R | 64-bit product is truncated |
| C40-C42 | | monotonicity of rounding (Flocq) |
| C43-C46, C49 | | algebra over the complex numbers, exact arithmetic |
| C47, C48, C50 | R | structural, any rounding |
| C51 | R | 32-bit overflow in INTT; exact condition for one level, agreement of everything else |
| C54-C57 | | induction |
| C58 | R | stored slice headers |
| C59-C61 | | footprints and refinement over the heap |
| C62-C64, C66 | R | induction; leading NaN, int16 overflow, unfinished or doubled output, leaf at the root |
| C65, C67 | | case analysis, induction |
| C68 | | LDL tree specified on coefficients (`SpecBabai.v`), quadratic form as an average over the roots, induction on the tree |
| C69 | | counting of blocks and of streams, any floats; monotonicity of rounding for the exponents |
| C70 | R | C69 and computation of the 38 shift counts |
| C71, C72 | | rounding error of one complex operation, induction over the recursion of the transforms |
| C73 | R | truncation; C71 |
| C74 | | values at the roots, Parseval, Pythagoras |
| C75 | | projection on the multiples of (f, g), its change in one round, bit sizes as a measure |
| C76 | R | `math.Round` rounds halves away from zero, so a tie moves between 1/2 and -1/2 for ever |
| C77, C78 | | error of the transforms in the sum of the coefficients, error of the quotient, contraction of the multiplier in one round |
| C79 | | Flocq's correctness of one operation, element by element |
| C80 | R | base 0: a leading 0 means octal |
| C81 | | Parseval over the coefficients of the float quotient; relative error at each root; the norm of (f, g) is computed exactly |
| C82 | | both branches of Smith's algorithm |
| C83 | | splitting and merging are coefficient-wise on the transforms; induction on the degree |
| C84 | | wrap-around, Flocq's correctness of rounding, exact integer sums |
| C85, C86 | | values at the roots |
| C87 | | values of integer polynomials modulo x^n+1 (`Lattice.v`); inversion of the code; C71 |
| C88 | | integer computation on the ten sets, difference of squares |
| C89 | | 128-bit fixed-point enclosures of exp(-z^2/(2 1.8205^2)) from one series for exp (`HalfGauss.v`), the counts of C37 and C69 |
| C90 | | the polynomial minus the Taylor sum of order 17, in integers, bounded on 89 intervals by its shifted coefficients (`ExpPoly.v`); one rounding per Horner step |
| C91 | | `uses_blocks` is closed under bind; induction on the loops |
| C92 | | C87, C01, C03; the second diagonal entry of the tree is q^2/(ff*+gg*) at every root, so the leaves sum to at most 2n GsNorm (`NearPlane.v`); 184\|x\| <= x^2+92^2 for the code length |
| C93 | | the recursion of the tree algorithms performs the additions and multiplications of FFT in the same order, up to commuting an addition; C71 for the way back |
| C94 | | C02, C01; \|a-b\|^2 <= 2\|a\|^2 + 2\|b\|^2; the centred remainder is the least |
| C95 | | C92, C81, C20; the bound of `code_fits` leaves room up to 17000 |
| C96 | | q(F-F') = f A and q(G-G') = g A with A = G(F-F') - F(G-G'), and f invertible gives q \| A; the multiplier is linear; C75, C77 for what reduce returns |
| C97 | | c -> c - s1 h permutes the points; Chebyshev on 20 levels of x^2 plus an exact (truncated) count of level sums for the lower bound; Chernoff with integer weights for the upper bounds |
| C98 | | rejection sampling counted word by word: the number of k-word streams that give a point does not depend on the point; Chernoff with integer weights for the streams that give none; C97 for the accepted points |
| C99 | | for invertible s1 the map h -> c - s1 h permutes the points, so C97's counts carry over to keys; DivZq inverts it |
| C100 | | the NTT permutes the points, and f is invertible iff its NTT has no zero |
| C101 | | as C97, for arbitrary bytes |
| C102 | R in part | each coefficient of the relative norm is at most the squared norm of f (Cauchy-Schwarz), then induction on the tower; C81 for the keys |
| C103 | | C97 for tuples of points; Bernoulli's inequality; union bound |
| C104 | R | for each sample from -18 to 19 eleven bytes that give it; a sum of m samples written as the floors of (c+i)/m; f = g = 1 + cx, of norm 1 + c^n = 1 mod 2^64; units of degree 8 lifted by x -> x^(n/8); C81 for the norm test |
| C105 | | every fuelled function is monotone in the order where Diverge is below every other result |
| C106 | | forward: C91, C104 and the invariant of the loop of NtruGen; backward: the tape of C104, and an inverse modulo q leaves no zero of the NTT; C105 for the uniqueness of F and G |
| C107 | | rows of one basis are in the lattice of the common public key, so C87 writes them in the other; determinants through the NTRU equation, by evaluation modulo x^n+1 |
| C108 | | f = 1 + 112x (degree 1024: 1 + 76x + 76x^513) and g = 0: the norm of f is 1 modulo 2^64, so the gcd test on the low 64 bits passes; the binary64 quotients are exactly 0 because the FFT of zeros is 0; resultant coprime to q, so no F, G exist |
| C109 | | under the zero public key of C108 s0 is the hash point itself; the longest decodable vector from the length of the code (fill one coefficient, put the rest in another); Chernoff's bound as in C97 for the points out of reach |

## 6. Fidelity checks

`Tests.v` runs the model on the deterministic unit tests of the repository that state an expected
output, `Recorded.v` on a recorded signature; a mismatch stops the build. Functions covered:
`Compress`, `Decompress`, `SplitNTT`, `MergeNTT`, `NTT`, `INTT`, `MulZq`, `Karatsuba`, `karamul`,
`galoisConjugate`, `fieldNorm`, `lift`, `bitsize`, `xgcd`, `reduce`, `NtruSolve` (degree 64),
`GsNorm` (degree 64), `Gram`, `LdlFFT`, `FfnpFFT` (degree 2). Floats are compared with `==`, as
`reflect.DeepEqual` does.

Not covered, because the repository gives nothing to compare with: tests that are commented out
(`TestLdl`, `TestFfldl`, `TestFfnp`, `TestSamplerZ` with the sampler vectors of the Falcon
specification, `TestSign_KAT`), tests of random output (`TestFfSamplingFFT`, which calls itself
until the sampler happens to return the wanted value, `TestSamplerz`, `TestBaseSampler`,
`TestGenPoly`, `TestNtruGen`, the key generation tests) and `TestFfldlFFT`, which only logs. So no
recorded output checks the sampler, `FfSamplingFFT`, `FfldlFFT` or signing.

Outside the build, the hundred signatures of `signatureC.txt` were run once through the model's
`Verify` with the SHAKE256 of `Keccak.v`: 100 of 100 were accepted, and with the next message of
`messageC.txt` in place of the signed one 100 of 100 were rejected. Only the first is kept in
`Recorded.v`, for build time. The input of `TestSignVerifyBytes` has 1722 bytes and makes
`VerifyBytes` panic in the model (C28); the code could not be run here to confirm that.

These are tests of the model on literals and not part of any theorem.
