{"id": "C01", "title": "Verify accepts every honest signature (completeness)", "statement": "For every 512-coefficient public key h, message, salt and short polynomial s with a canonical 625-byte encoding, if ||(c - s*h centred mod q, s)||^2 <= 34034726 where c is the hash point of (salt, message), then Verify(h, message, header||salt||Compress(s,625)) returns true, whatever the header byte.", "quantifier": "all public keys, messages, salts, header bytes, hash functions and all polynomials s that meet the bound", "why_tests_cant": "the 100 recorded signatures are a vanishing fraction of the key/message/signature space; completeness needs the NTT product, the codec round trip and the absence of integer wrap-around for all of them", "anchors": ["src/falcon.go:Verify", "src/internal/encoding.go:Compress", "src/internal/encoding.go:Decompress", "src/internal/transforms/ntt/ntt.go:MulZq", "src/internal/transforms/ntt/ntt.go:SubZq"]}
{"id": "C02", "title": "Verify never accepts a long vector (soundness of the norm bound)", "statement": "If Verify(pubkey, message, signature) returns true then the pair (s0, s1) it recovers satisfies ||s0||^2 + ||s1||^2 <= 34034726 over the integers.", "quantifier": "all byte strings offered as signatures, all public keys, all messages", "why_tests_cant": "a forged or malformed signature must be rejected whatever it is; tests only contain valid signatures", "anchors": ["src/falcon.go:Verify", "src/falcon.go:normSign"]}
{"id": "C03", "title": "Verify decides exactly the (wrapped) Falcon acceptance predicate", "statement": "Whenever Verify returns, it returns true exactly when the signature body decodes to some polynomial which, reduced coefficientwise to int16, is s1 and (||centred(c - s1*h)||^2 + ||s1||^2) mod 2^32 <= 34034726, with * the negacyclic product in Z_q[x]/(x^512+1).", "quantifier": "all inputs on which Verify returns", "why_tests_cant": "it is an if-and-only-if over the whole input space", "anchors": ["src/falcon.go:Verify", "src/internal/transforms/ntt/ntt.go:MulZq", "src/internal/transforms/ntt/ntt.go:SubZq"]}
{"id": "C04", "title": "Verify never panics", "statement": "Verify returns a boolean, and does not panic, on every signature byte string and every public key slice.", "quantifier": "all byte strings and int16 slices, including truncated, empty and all-zero ones", "why_tests_cant": "a crash on one malformed input among exponentially many is exactly what sampling misses", "anchors": ["src/falcon.go:Verify", "src/internal/encoding.go:Decompress", "src/internal/transforms/ntt/ntt.go:mulNTT"]}
{"id": "C05", "title": "Accepted signatures are non-malleable as byte strings", "statement": "For a fixed key, message and salt, two different signature byte strings that are both accepted recover different polynomials; in particular the header byte, the length and the padding of an accepted signature are fixed.", "quantifier": "all pairs of accepted byte strings", "why_tests_cant": "quantifies over pairs of adversarial byte strings", "anchors": ["src/falcon.go:Verify", "src/internal/encoding.go:Decompress"]}
{"id": "C06", "title": "Decompress inverts Compress", "statement": "For every non-empty slice v of int16 coefficients and every slen for which Compress(v, slen) succeeds, Decompress(Compress(v, slen), slen, len(v)) returns exactly v.", "quantifier": "all non-empty int16 slices and byte lengths", "why_tests_cant": "round trip over an unbounded domain; the tests decode and encode one unrelated vector each", "anchors": ["src/internal/encoding.go:Compress", "src/internal/encoding.go:Decompress"]}
{"id": "C07", "title": "Compress is total, exact about its length and fails only when the encoding does not fit", "statement": "Compress(v, slen) never panics; it fails with ErrEncodingTooLong exactly when the sum over the coefficients of 9 + |v_i|/128 exceeds 8*slen, and otherwise returns exactly slen bytes whose bits are the sign/low-7/unary code of v followed by zeros.", "quantifier": "all int16 slices and all (also negative) slen", "why_tests_cant": "the boundary case must hold for every slice", "anchors": ["src/internal/encoding.go:Compress"]}
{"id": "C08", "title": "Compress is injective", "statement": "If Compress(v, slen) = Compress(v', slen) for slices v, v' of the same length then v = v'.", "quantifier": "all pairs of int16 slices of equal length", "why_tests_cant": "quantifies over pairs", "anchors": ["src/internal/encoding.go:Compress"]}
{"id": "C09", "title": "Decompress accepts only canonical encodings", "statement": "If Decompress(x, slen, n) returns v then x = Compress(v, slen).", "quantifier": "all byte strings, byte lengths and n", "why_tests_cant": "the code's comment promises a unique encoding; only a proof over all strings can establish it", "anchors": ["src/internal/encoding.go:Decompress"]}
{"id": "C10", "title": "Decompress never panics", "statement": "Decompress(x, slen, n) returns a slice or ErrInvalidEncoding for every byte string x.", "quantifier": "all byte strings x, all slen and n", "why_tests_cant": "one panicking input among 2^5000 suffices to refute it", "anchors": ["src/internal/encoding.go:Decompress"]}
{"id": "C11", "title": "Decompress output is well-formed and describes its input", "statement": "If Decompress(x, slen, n) returns v then len(x) <= slen, len(v) = n, the bits of x (zero-extended) start with the sign/low-7/unary code of v, and no coefficient is encoded as minus zero; conversely every such non-zero x is decoded to v.", "quantifier": "all byte strings, byte lengths and n", "why_tests_cant": "functional characterisation over all strings", "anchors": ["src/internal/encoding.go:Decompress"]}
{"id": "C12", "title": "HashToPoint returns 512 coefficients in [0,q) obtained by exact rejection sampling", "statement": "Whenever hashToPoint returns it returns the first 512 big-endian 16-bit words of the XOF output below 61445, reduced mod q; each residue has exactly 5 preimages among the accepted words, so a uniform XOF gives uniform coefficients.", "quantifier": "all messages, salts and XOF behaviours", "why_tests_cant": "uniformity and range are statements about all outputs of the hash", "anchors": ["src/falcon.go:hashToPoint"]}
{"id": "C13", "title": "Signer-side and verifier-side hashing agree", "statement": "The private key's hashToPoint with n = 512 and the verifier's hashToPoint return the same coefficients for every salt and message.", "quantifier": "all salts, messages and XOF behaviours", "why_tests_cant": "a mismatch on a single word value (e.g. the rejection bound) would break signatures rarely", "anchors": ["src/falcon.go:hashToPoint", "src/falcon.go:(*PrivateKey).hashToPoint"]}
{"id": "C14", "title": "NTT evaluates a polynomial at the roots of x^n+1", "statement": "For n = 2^k, 1 <= k <= 10, NTT(f) is, entry by entry, f evaluated mod q at n distinct roots of x^n + 1 mod q, in [0,q).", "quantifier": "all int16 polynomials of all ten degrees", "why_tests_cant": "12289^1024 inputs; also checks all 2046 table entries", "anchors": ["src/internal/transforms/ntt/ntt.go:NTT", "src/internal/transforms/ntt/ntt.go:MergeNTT", "src/internal/transforms/ntt/ntt_constants.go"]}
{"id": "C15", "title": "INTT and NTT are mutually inverse", "statement": "INTT(NTT(f)) = f mod q (coefficients in [0,q)) for every int16 slice of valid degree, and NTT(INTT(F)) = F mod q.", "quantifier": "all int16 slices of the ten degrees", "why_tests_cant": "unbounded input space", "anchors": ["src/internal/transforms/ntt/ntt.go:NTT", "src/internal/transforms/ntt/ntt.go:INTT", "src/internal/transforms/ntt/ntt.go:SplitNTT", "src/internal/transforms/ntt/ntt.go:MergeNTT"]}
{"id": "C16", "title": "MulZq is multiplication in Z_q[x]/(x^n+1)", "statement": "For two int16 slices of the same valid degree n, MulZq(f,g) is the negacyclic convolution of f and g reduced to [0,q).", "quantifier": "all pairs of int16 polynomials of the ten degrees", "why_tests_cant": "unit tests compare one pair", "anchors": ["src/internal/transforms/ntt/ntt.go:MulZq", "src/internal/transforms/ntt/ntt.go:mulNTT", "src/internal/transforms/ntt/ntt.go:NTT", "src/internal/transforms/ntt/ntt.go:INTT"]}
{"id": "C17", "title": "DivZq divides, and fails exactly on non-invertible divisors", "statement": "For slices of the same valid degree, DivZq(f,g) returns the unique h in [0,q)^n with h*g = f in Z_q[x]/(x^n+1) if g is invertible there, and ErrDivByZero if it is not.", "quantifier": "all pairs of int16 polynomials of the ten degrees", "why_tests_cant": "invertibility is a global property of g", "anchors": ["src/internal/transforms/ntt/ntt.go:DivZq", "src/internal/transforms/ntt/ntt.go:divNTT"]}
{"id": "C18", "title": "SubZq subtracts mod q", "statement": "For slices f, g of the same length with -32768 <= f[i] <= 20479 (in particular f in [0,q)) and -32767 <= g[i] <= 32767, SubZq(f,g) is f - g reduced to [0,q); it panics exactly when the lengths differ.", "quantifier": "all pairs of slices", "why_tests_cant": "int16 overflow only shows for particular values", "anchors": ["src/internal/transforms/ntt/ntt.go:SubZq", "src/internal/transforms/ntt/ntt.go:addZq", "src/internal/transforms/ntt/ntt.go:negZq"]}
{"id": "C19", "title": "SubZq is correct for all int16 inputs", "statement": "For every pair of equal-length int16 slices, SubZq(f,g)[i] = (f[i]-g[i]) mod q.", "quantifier": "all int16 pairs", "why_tests_cant": "overflow happens only for a subset of values", "anchors": ["src/internal/transforms/ntt/ntt.go:SubZq", "src/internal/transforms/ntt/ntt.go:addZq", "src/internal/transforms/ntt/ntt.go:negZq"]}
{"id": "C20", "title": "The public key matches the private key", "statement": "For every private key whose f and g have the same valid degree n and whose f is invertible mod q, GetPublicKey returns (n, h) with h in [0,q)^n and h*f = g in Z_q[x]/(x^n+1).", "quantifier": "all private keys", "why_tests_cant": "unbounded key space", "anchors": ["src/falcon.go:GetPublicKey", "src/internal/transforms/ntt/ntt.go:DivZq"]}
{"id": "C21", "title": "GetPublicKey reports an unusable private key", "statement": "If f is not invertible mod q, GetPublicKey does not hand out a public key as if nothing had happened.", "quantifier": "all private keys with non-invertible f", "why_tests_cant": "needs every non-invertible f", "anchors": ["src/falcon.go:GetPublicKey"]}
{"id": "C22", "title": "Degrees are validated", "statement": "GetPrivateKey and GeneratePrivateKey, NewKeyPair and NewKeyPairFromPrivateKey return ErrInvalidDegree exactly when n is not one of 2,4,...,1024, and GetParamSet returns the zero parameter set exactly for those n and otherwise a set whose n is the argument, with sigbound = floor(1.21*2n*sigma^2).", "quantifier": "all 65536 degrees", "why_tests_cant": "tests use n = 16 and 512 only", "anchors": ["src/falcon.go:isValidDegree", "src/falcon.go:GetParamSet", "src/falcon.go:GetPrivateKey", "src/falcon.go:GeneratePrivateKey", "src/falcon_constants.go"]}
{"id": "C23", "title": "Private keys are accepted only with four polynomials of length n", "statement": "If GetPrivateKey(n,f,g,F,G) succeeds then f, g, F and G all have length n.", "quantifier": "all quadruples of slices", "why_tests_cant": "the length check could be wrong on combinations never tested", "anchors": ["src/falcon.go:GetPrivateKey", "src/falcon.go:isValidPolysLength"]}
{"id": "C24", "title": "GetPrivateKey accepts every well-formed key and returns it unchanged", "statement": "For valid n and slices of length n, GetPrivateKey succeeds and returns exactly n, f, g, F, G.", "quantifier": "all valid degrees and all slices of that length", "why_tests_cant": "all inputs", "anchors": ["src/falcon.go:GetPrivateKey", "src/falcon.go:isValidPolysLength"]}
{"id": "C25", "title": "NewKeyPair returns a key pair", "statement": "If NewKeyPair(n) returns without error then the returned private and public keys are non-nil and match.", "quantifier": "all degrees and all randomness", "why_tests_cant": "the test's loop body never runs", "anchors": ["src/falcon.go:NewKeyPair"]}
{"id": "C26", "title": "NewKeyPairFromPrivateKey returns the key pair it was given", "statement": "If NewKeyPairFromPrivateKey(n, polys) returns without error then it returns a private key holding polys and the matching public key.", "quantifier": "all degrees and polynomials", "why_tests_cant": "no test calls it", "anchors": ["src/falcon.go:NewKeyPairFromPrivateKey"]}
{"id": "C27", "title": "VerifyBytes agrees with Verify on the 32-byte-word layout", "statement": "For every public key, 32-byte message and 666-byte signature packed as 1722 zero-padded 32-byte big-endian words (key coefficients as two words), VerifyBytes(packed ++ anything) behaves exactly like Verify(key, message, signature).", "quantifier": "all keys, messages, signatures and trailing bytes", "why_tests_cant": "unbounded input space", "anchors": ["src/falcon.go:VerifyBytes", "src/falcon.go:Verify"]}
{"id": "C28", "title": "VerifyBytes never panics", "statement": "VerifyBytes returns a boolean on every byte string.", "quantifier": "all byte strings", "why_tests_cant": "length-dependent panics need all lengths", "anchors": ["src/falcon.go:VerifyBytes"]}
{"id": "C29", "title": "Karatsuba multiplies polynomials", "statement": "For every k and integer polynomials a, b of length n = 2^k, Karatsuba(a,b,n) is the 2n-coefficient product of a and b.", "quantifier": "all sizes 2^k and all integer coefficients", "why_tests_cant": "unbounded sizes and coefficients", "anchors": ["src/internal/ntrugen.go:Karatsuba"]}
{"id": "C30", "title": "karamul multiplies modulo x^n+1", "statement": "For n = 2^k, karamul(a,b) is the negacyclic product of a and b over the integers.", "quantifier": "all sizes 2^k and all integer coefficients", "why_tests_cant": "unbounded", "anchors": ["src/internal/ntrugen.go:karamul", "src/internal/ntrugen.go:Karatsuba"]}
{"id": "C31", "title": "fieldNorm is the norm to the half-degree ring", "statement": "For a of length n = 2^k >= 2, fieldNorm(a)(x^2) = a(x)*a(-x) mod x^n+1.", "quantifier": "all sizes 2^k and all integer coefficients", "why_tests_cant": "unbounded", "anchors": ["src/internal/ntrugen.go:fieldNorm", "src/internal/ntrugen.go:lift", "src/internal/ntrugen.go:galoisConjugate"]}
{"id": "C32", "title": "xgcd returns a Bezout identity", "statement": "xgcd(b,n) terminates for all integers and returns (d,u,v) with d = u*b + v*n and |d| = gcd(b,n); d >= 0 whenever b and n are non-negative.", "quantifier": "all pairs of integers", "why_tests_cant": "unbounded integers and loop iterations", "anchors": ["src/internal/ntrugen.go:xgcd"]}
{"id": "C33", "title": "NtruSolve only returns solutions of the NTRU equation", "statement": "If NtruSolve(f,g) succeeds with (F,G) then f*G - g*F = q in Z[x]/(x^n+1).", "quantifier": "all f, g of length 2^k and every floating-point rounding behaviour", "why_tests_cant": "floating-point rounding and big-integer sizes cannot be enumerated", "anchors": ["src/internal/ntrugen.go:NtruSolve", "src/internal/ntrugen.go:reduce", "src/internal/ntrugen.go:xgcd"]}
{"id": "C34", "title": "NtruSolve fails only when the norms of f and g are not coprime", "statement": "If NtruSolve(f,g) returns ErrEquation then gcd of the integer norms of f and g is not 1.", "quantifier": "all f, g of length 2^k", "why_tests_cant": "unbounded", "anchors": ["src/internal/ntrugen.go:NtruSolve", "src/internal/ntrugen.go:xgcd"]}
{"id": "C35", "title": "reduce preserves the NTRU equation and the lattice", "statement": "Whatever quotients the floating-point FFT produces, reduce(f,g,F,G) returns (F - k*f, G - k*g) for one polynomial k, so f*G - g*F is unchanged.", "quantifier": "all integer polynomials of length 2^k, all sequences of rounded quotients, any number of iterations", "why_tests_cant": "rounding behaviours and iteration counts are unbounded", "anchors": ["src/internal/ntrugen.go:reduce"]}
{"id": "C36", "title": "A generated private key satisfies the NTRU equation", "statement": "Every key returned by GeneratePrivateKey(n) satisfies f*G - g*F = q in Z[x]/(x^n+1) with f invertible mod q.", "quantifier": "all valid degrees, all random streams and rounding behaviours", "why_tests_cant": "key generation is randomised; the property must hold for every outcome", "anchors": ["src/falcon.go:GeneratePrivateKey", "src/internal/ntrugen.go:NtruGen", "src/util/util.go:BigIntToInt16"]}
{"id": "C37", "title": "BaseSampler has exactly the tabulated distribution", "statement": "For every 9-byte input, BaseSampler returns a value in 0..18, and for every k in 0..17 exactly RCDT[k] of the 2^72 inputs give a value greater than k.", "quantifier": "all 2^72 byte strings", "why_tests_cant": "2^72 inputs", "anchors": ["src/internal/samplerz.go:BaseSampler", "src/internal/samplerz.go:RCDT"]}
{"id": "C38", "title": "approxexp approximates 2^63*ccs*exp(-x)", "statement": "For 0 <= x <= ln 2 and 0 <= ccs <= 1 approxexp(x,ccs) is close to 2^63*ccs*exp(-x).", "quantifier": "all float arguments in range", "why_tests_cant": "all floats", "anchors": ["src/internal/samplerz.go:approxexp"]}
{"id": "C39", "title": "berexp accepts with probability about ccs*exp(-x)", "statement": "For uniform random bytes, berexp(x,ccs,bytes) returns true with probability close to ccs*exp(-x).", "quantifier": "all float arguments in range, all random bytes", "why_tests_cant": "a probability statement over all random bytes", "anchors": ["src/internal/samplerz.go:berexp"]}
{"id": "C40", "title": "Samplerz stays within 19 of its centre and key coefficients are bounded", "statement": "Whatever the randomness, a value returned by Samplerz(mu, sigma, sigmin) with floor(mu)-18 >= -128 and floor(mu)+19 <= 127 lies in [floor(mu)-18, floor(mu)+19].", "quantifier": "all centres, deviations and random streams", "why_tests_cant": "tails are never hit by tests", "anchors": ["src/internal/samplerz.go:Samplerz"]}
{"id": "C41", "title": "GenPoly coefficients are exact sums of samples", "statement": "For every valid degree n >= 4, GenPoly(n) returns n coefficients, each the exact sum of 4096/n samples and of absolute value at most 19*4096/n (no int16 or int8 wrap).", "quantifier": "all degrees 4..1024 and all random streams", "why_tests_cant": "tails are never hit by tests", "anchors": ["src/internal/ntrugen.go:GenPoly", "src/internal/samplerz.go:Samplerz"]}
{"id": "C42", "title": "Samplerz does not panic on admissible parameters", "statement": "For finite mu of moderate size and 0 < sigma <= 1.8205 the shift count used by Samplerz is never negative, so Samplerz does not panic, for every randomness.", "quantifier": "all floats mu, sigma in range and all random bytes", "why_tests_cant": "floating-point rounding of all inputs", "anchors": ["src/internal/samplerz.go:Samplerz", "src/internal/samplerz.go:berexp"]}
{"id": "C43", "title": "FFT evaluates at the complex roots and IFFT inverts it", "statement": "In exact arithmetic with exact roots, FFT(f) is f evaluated at the n complex roots of x^n+1 and IFFT(FFT(f)) = f, for n = 2^k, 1 <= k <= 10.", "quantifier": "all real polynomials of the ten degrees", "why_tests_cant": "continuum of inputs", "anchors": ["src/internal/transforms/fft/fft.go:FFT", "src/internal/transforms/fft/fft.go:IFFT", "src/internal/transforms/fft/fft.go:SplitFFT", "src/internal/transforms/fft/fft.go:MergeFFT", "src/internal/transforms/fft/fft_constants.go"]}
{"id": "C44", "title": "fft.Mul, fft.Div and fft.Adj are the ring operations of R[x]/(x^n+1)", "statement": "In exact arithmetic fft.Mul is the negacyclic product, fft.Div(f,g)*g = f when g has no zero evaluation, and fft.Adj(f) is f(1/x).", "quantifier": "all real polynomials of the ten degrees", "why_tests_cant": "continuum of inputs", "anchors": ["src/internal/transforms/fft/fft.go:Mul", "src/internal/transforms/fft/fft.go:Div", "src/internal/transforms/fft/fft.go:Adj"]}
{"id": "C45", "title": "Gram is the Hermitian Gram matrix", "statement": "In exact arithmetic Gram(B)[i][j] = sum_k B[i][k] * adj(B[j][k]) in R[x]/(x^n+1).", "quantifier": "all 2x2 matrices of real polynomials", "why_tests_cant": "continuum of inputs", "anchors": ["src/internal/ffsampling.go:Gram"]}
{"id": "C46", "title": "LdlFFT is an LDL* decomposition", "statement": "In exact arithmetic, for self-adjoint G with non-zero G00 evaluations, L*D*L^* = G, L is unit lower triangular and D diagonal.", "quantifier": "all self-adjoint 2x2 matrices", "why_tests_cant": "continuum of inputs", "anchors": ["src/internal/ffsampling.go:LdlFFT"]}
{"id": "C47", "title": "FfldlFFT builds the LDL tree of its argument", "statement": "After T.FfldlFFT(G) the tree T holds the LDL node of G (Value is the L10 of G, of length n) with subtrees for the two halves.", "quantifier": "all self-adjoint 2x2 matrices of degree n >= 4", "why_tests_cant": "the test only logs the tree", "anchors": ["src/internal/ffsampling.go:FfldlFFT", "src/internal/ffsampling.go:FFTtree"]}
{"id": "C48", "title": "FfSamplingFFT does not panic on trees built by FfldlFFT", "statement": "For every degree n, sampling with the tree computed by FfldlFFT does not index out of range.", "quantifier": "all degrees", "why_tests_cant": "the only test is for n = 2", "anchors": ["src/internal/ffsampling.go:FfSamplingFFT", "src/internal/ffsampling.go:FfldlFFT"]}
{"id": "C49", "title": "FfnpFFT returns lattice (integer) vectors", "statement": "In exact arithmetic, for every target and tree of matching shape FfnpFFT returns the FFTs of two integer polynomials.", "quantifier": "all targets and trees", "why_tests_cant": "continuum of inputs", "anchors": ["src/internal/ffsampling.go:FfnpFFT"]}
{"id": "C50", "title": "normalizeTree normalises every leaf", "statement": "NewKeyPair's normalizeTree call replaces every leaf ||b_i||^2 of the LDL tree by sigma/||b_i||.", "quantifier": "all trees", "why_tests_cant": "the only test is commented out", "anchors": ["src/falcon.go:normalizeTree", "src/internal/ffsampling.go:AllChild"]}
{"id": "C51", "title": "The result of Verify does not depend on the platform word size", "statement": "Verify returns the same answer with 32-bit and with 64-bit Go int.", "quantifier": "all inputs", "why_tests_cant": "tests run on one platform", "anchors": ["src/internal/transforms/ntt/ntt.go:SplitNTT", "src/internal/transforms/ntt/ntt.go:INTT", "src/falcon.go:Verify"]}
{"id": "C52", "title": "No 64-bit overflow in the NTT", "statement": "With 64-bit int no intermediate product or sum of NTT, INTT, MulZq or DivZq on int16 inputs overflows.", "quantifier": "all int16 inputs of the ten degrees", "why_tests_cant": "the extremal intermediate values are not reached by tests", "anchors": ["src/internal/transforms/ntt/ntt.go:NTT", "src/internal/transforms/ntt/ntt.go:INTT", "src/internal/transforms/ntt/ntt.go:SplitNTT", "src/internal/transforms/ntt/ntt.go:MergeNTT"]}
{"id": "C53", "title": "Congruent public keys verify the same signatures; only the first 512 coefficients matter", "statement": "Verify depends on the public key only through its first 512 coefficients mod q, for keys of length 512 to 767; every other length makes Verify panic (or the encoding is rejected first).", "quantifier": "all public key slices", "why_tests_cant": "all lengths and values", "anchors": ["src/falcon.go:Verify", "src/internal/transforms/ntt/ntt.go:NTT", "src/util/util.go:SplitPolysInt"]}
{"id": "C54", "title": "Split and merge of polynomials are inverse", "statement": "MergePolysInt(SplitPolysInt(f)) = f for every slice of even length and SplitPolysInt(MergePolysInt(f0,f1)) = (f0,f1) for equal lengths; the same for float64.", "quantifier": "all slices", "why_tests_cant": "unbounded lengths", "anchors": ["src/util/util.go:SplitPolysInt", "src/util/util.go:MergePolysInt", "src/util/util.go:SplitPolysFloat64", "src/util/util.go:MergePolysfloat64"]}
{"id": "C55", "title": "Pmod is the non-negative remainder", "statement": "For b != 0, Pmod(x,b) is the unique r with 0 <= r < |b| and r = x mod b; Pmod(x,0) panics.", "quantifier": "all int64 pairs", "why_tests_cant": "2^128 inputs", "anchors": ["src/util/util.go:Pmod"]}
{"id": "C56", "title": "bitsize is the bit length rounded up to a multiple of 8", "statement": "bitsize(a) terminates for every integer and returns the least multiple of 8 that is at least the bit length of |a|.", "quantifier": "all integers", "why_tests_cant": "unbounded", "anchors": ["src/internal/ntrugen.go:bitsize"]}
{"id": "C57", "title": "Slice helpers mean what they say", "statement": "Max returns the maximum of its arguments, MinFromBigInt/MaxFromBigInt the minimum/maximum of a non-empty slice, AllZeroes/AnyZeroes decide for-all/exists zero, BigIntSliceEqual decides equality, and each panics exactly on the empty slice where it indexes element 0.", "quantifier": "all slices", "why_tests_cant": "unbounded lengths", "anchors": ["src/util/util.go:Max", "src/util/util.go:MinFromBigInt", "src/util/util.go:MaxFromBigInt", "src/util/util.go:AllZeroes", "src/util/util.go:AnyZeroes", "src/util/util.go:BigIntSliceEqual"]}
{"id": "C58", "title": "A private key is isolated from its caller's buffers", "statement": "After GetPrivateKey(n,f,g,F,G) succeeds, later writes to the slices f, g, F, G by the caller do not change the key.", "quantifier": "all histories of writes after the call", "why_tests_cant": "needs all histories", "anchors": ["src/falcon.go:GetPrivateKey"]}
{"id": "C59", "title": "Polynomial arithmetic does not mutate its arguments", "statement": "karamul, fieldNorm, galoisConjugate and lift leave the big integers of their input slices unchanged, although they use in-place big.Int operations.", "quantifier": "all heaps and slices, aliased or not", "why_tests_cant": "aliasing patterns are unbounded", "anchors": ["src/internal/ntrugen.go:Karatsuba", "src/internal/ntrugen.go:karamul", "src/internal/ntrugen.go:fieldNorm", "src/internal/ntrugen.go:lift"]}
{"id": "C60", "title": "The in-place NTRU code computes what the value-level code computes", "statement": "karamul, galoisConjugate, fieldNorm, lift and NtruSolve, run on a heap of shared big integers, return exactly the values that the same functions on lists of values return (or panic, or run forever, exactly when these do); NtruSolve leaves every integer and array of its caller unchanged, also when it fails, and returns integers that the caller did not have, none of them shared.", "quantifier": "all heaps, slices, aliasing patterns and lengths", "why_tests_cant": "aliasing patterns and sizes are unbounded", "anchors": ["src/internal/ntrugen.go:karamul", "src/internal/ntrugen.go:fieldNorm", "src/internal/ntrugen.go:lift", "src/internal/ntrugen.go:NtruSolve"]}
{"id": "C61", "title": "reduce writes only F and G", "statement": "reduce(f,g,F,G) updates the integers of F and G in place, returns the slices F and G themselves, and leaves f, g and every other integer and array unchanged, whenever the integers of F and G are distinct and not shared with f and g.", "quantifier": "all heaps and slices meeting the sharing condition, all numbers of rounds", "why_tests_cant": "unbounded heaps and rounds", "anchors": ["src/internal/ntrugen.go:reduce"]}
{"id": "C62", "title": "SmallestFloat64 and BiggestFloat64 return the extremum", "statement": "On a non-empty slice SmallestFloat64 (BiggestFloat64) returns an element that is not NaN unless all elements are, and that is <= (>=) every element that is not NaN; it panics exactly on the empty slice.", "quantifier": "all slices of float64", "why_tests_cant": "values include NaN, infinities and both zeros at any position", "anchors": ["src/util/util.go:SmallestFloat64", "src/util/util.go:BiggestFloat64"]}
{"id": "C63", "title": "The int16 helpers are exact", "statement": "SquareInt16, NegInt16 and SubInt16 return the integer square, negation and difference.", "quantifier": "all int16 values and slices", "why_tests_cant": "overflow occurs only for particular values", "anchors": ["src/util/util.go:SquareInt16", "src/util/util.go:NegInt16", "src/util/util.go:SubInt16"]}
{"id": "C64", "title": "Random salts and hex strings have the promised length", "statement": "GenerateRandSalt returns SaltLen = 40 bytes, and RandomHexString(n) returns n hexadecimal digits.", "quantifier": "all n and all outputs of the random source", "why_tests_cant": "the length is unbounded", "anchors": ["src/util/util.go:GenerateRandSalt", "src/util/util.go:RandomHexString"]}
{"id": "C65", "title": "RandElement and RandomFft draw uniformly", "statement": "RandElement returns the element at the drawn index, and RandomFft returns the draw from [0,8) minus 3, so a value in [-3,4] that is uniform when the draw is.", "quantifier": "all slices and draws", "why_tests_cant": "randomness", "anchors": ["src/util/util.go:RandElement", "src/util/util.go:RandomFft"]}
{"id": "C66", "title": "printTree prints every node once, indented by its path", "statement": "printTree(tree, \"\") does not panic on well-formed LDL trees and returns one line per node in preorder, indented by the path from the root.", "quantifier": "all trees", "why_tests_cant": "tree depth is unbounded", "anchors": ["src/falcon.go:printTree"]}
{"id": "C67", "title": "Byte and float conversions are exact", "statement": "UintFromBytes is the little-endian value of the first eight bytes and panics exactly on shorter slices; Float64ToInt16 truncates values that fit and inverts Int16ToFloat64; the real part of Float64ToComplexReal is its argument.", "quantifier": "all slices", "why_tests_cant": "value ranges", "anchors": ["src/util/util.go:UintFromBytes", "src/util/util.go:Float64ToInt16", "src/util/util.go:Float64ToComplexReal"]}
{"id": "C68", "title": "Nearest plane returns a close lattice point", "statement": "For a basis of real polynomials modulo x^n+1, the LDL tree of its Gram matrix and a real target, FfnpFFT returns integer polynomials z whose squared distance |(t-z)B|^2 is at most a quarter of the sum of the leaves of the tree, in exact arithmetic.", "quantifier": "all degrees n = 2^k, k >= 1, all bases, all targets", "why_tests_cant": "real-valued inputs and unbounded recursion depth", "anchors": ["src/internal/ffsampling.go:FfnpFFT"]}
{"id": "C69", "title": "Distribution and termination of one call of Samplerz", "statement": "For finite mu with floor in [-110,108] and 0 < sigma <= 1.8205, the number of streams of m+1 eleven-byte blocks on which Samplerz reads them all and returns floor(mu)+z is R^m*chi(|z|')*128*a(z), where chi counts the outputs of BaseSampler, a(z) the bytes accepted by berexp and R the rejected blocks; for 1/2 < sigmin/sigma < 1 it returns at the latest at the first block ending in 0, at most (255/256)^m of the streams leave it unfinished after m blocks, and blocks ending in 255 are rejected forever.", "quantifier": "all centres, deviations and random streams of any length", "why_tests_cant": "2^(88 m) streams", "anchors": ["src/internal/samplerz.go:Samplerz"]}
{"id": "C70", "title": "Coefficients of GenPoly follow the centred Gaussian", "statement": "The sampler used by GenPoly gives z and -z the same probability, as the discrete Gaussian centred at 0 does.", "quantifier": "all values z", "why_tests_cant": "exact probabilities out of 2^88", "anchors": ["src/internal/ntrugen.go:GenPoly", "src/internal/samplerz.go:Samplerz"]}
{"id": "C71", "title": "Accuracy of FFT and IFFT in binary64", "statement": "With the repository's decimal tables and binary64 arithmetic, for n = 2^k up to 1024 and finite coefficients bounded by B <= 2^100: FFT returns finite values within 20 k n B 2^-53 of the values at the exact roots of x^n+1, IFFT adds at most 50 k M 2^-53 to the error of its input, FFT followed by IFFT is within 70 k n B 2^-53 of the identity, and integer polynomials with coefficients up to 2^30 come back exactly after rounding.", "quantifier": "all polynomials, all degrees 2 to 1024", "why_tests_cant": "all binary64 inputs", "anchors": ["src/internal/transforms/fft/fft.go:FFT", "src/internal/transforms/fft/fft.go:IFFT"]}
{"id": "C72", "title": "Accuracy of Mul, Adj and Gram in binary64", "statement": "The products, adjoints and Gram matrices computed with the floating-point transforms are finite and within the stated multiples of 2^-53 of the exact ones in R[x]/(x^n+1); products of integer polynomials are exact after rounding when the product of the coefficient bounds is at most 2^22.", "quantifier": "all polynomials of degree 2 to 1024, all matrices", "why_tests_cant": "all binary64 inputs", "anchors": ["src/internal/transforms/fft/fft.go:Mul", "src/internal/transforms/fft/fft.go:Adj", "src/internal/ffsampling.go:Gram"]}
{"id": "C73", "title": "RoundFFTtoInt16 rounds to the nearest integer", "statement": "On finite values within 1/2 of an int16, in particular on what FFT and IFFT give back for an int16 polynomial, RoundFFTtoInt16 returns that int16.", "quantifier": "all finite values near an int16", "why_tests_cant": "all binary64 values", "anchors": ["src/internal/transforms/fft/fft.go:RoundFFTtoInt16"]}
{"id": "C74", "title": "GsNorm is the Gram-Schmidt norm", "statement": "In exact arithmetic, when f f* + g g* is invertible, GsNorm(f, g, q) returns the larger of |(f,g)|^2 and the squared distance of (F,G) to the real multiples of (f,g), for every real solution (F,G) of f G - g F = q (such solutions exist).", "quantifier": "all real polynomials f, g of degree n = 2^k >= 2", "why_tests_cant": "all polynomials and all solutions of the NTRU equation", "anchors": ["src/internal/ntrugen.go:GsNorm"]}
{"id": "C75", "title": "reduce is Babai's rounding and its result fits int16", "statement": "In exact arithmetic, if reduce returns on a solution of the NTRU equation, it has subtracted z (f,g) with |c_i - z_i| < 1/2 for every coefficient of the best real multiplier c, and every coefficient of the result is at most (1 + sqrt(n)/2) sqrt(GsNorm); with the bound of NtruGen on GsNorm the solution of NtruSolve is at most 2205 in absolute value and so fits the int16 it is converted to.", "quantifier": "all integer f, g, F, G at degrees 2 to 1024", "why_tests_cant": "all key candidates", "anchors": ["src/internal/ntrugen.go:reduce", "src/internal/ntrugen.go:NtruSolve", "src/internal/ntrugen.go:NtruGen"]}
{"id": "C76", "title": "Termination of reduce", "statement": "reduce returns for every solution of the NTRU equation with a bounded GsNorm, so key generation ends once a pair (f, g) passes its tests and the equation is solvable.", "quantifier": "all f, g, F, G", "why_tests_cant": "a loop whose exit depends on all coefficients", "anchors": ["src/internal/ntrugen.go:reduce", "src/internal/ntrugen.go:NtruSolve"]}
{"id": "C77", "title": "Floating-point reduce rounds correctly and its result fits int16", "statement": "In binary64 arithmetic with the tables of the source, if the exact Gram-Schmidt norm of (f,g) is at most 17000 (NtruGen accepts up to 1.17^2 q < 16823) and reduce returns on a solution of the NTRU equation, it has subtracted z (f,g) with |c_i - z_i| <= 0.5007 for every coefficient of the best real multiplier c, and every coefficient of the result is at most 2220; so the solution found by NtruSolve and stored in the key satisfies the NTRU equation without overflow of int16.", "quantifier": "all integer f, g, F, G at degrees 2 to 1024, all random streams", "why_tests_cant": "rounding errors depend on all coefficients", "anchors": ["src/internal/ntrugen.go:reduce", "src/internal/ntrugen.go:NtruSolve", "src/internal/ntrugen.go:NtruGen", "src/falcon.go:GeneratePrivateKey"]}
{"id": "C78", "title": "Floating-point reduce returns what exact arithmetic returns, away from ties", "statement": "In binary64 arithmetic, if the exact Gram-Schmidt norm of (f,g) is at most 17000 and no coefficient of the best real multiplier is within 1/1000 of a half, reduce returns, and its result is the one computed in exact arithmetic.", "quantifier": "all integer f, g, F, G at degrees 2 to 1024", "why_tests_cant": "a loop over rounded quotients, for inputs of any size", "anchors": ["src/internal/ntrugen.go:reduce"]}
{"id": "C79", "title": "SubFloat64 and NegFloat64 work element by element", "statement": "SubFloat64(x, y) has length len(x), its element i is x[i]-y[i] rounded to nearest when this does not overflow, and it panics exactly when y is shorter than x. NegFloat64 flips the sign of every element and nothing else.", "quantifier": "all float64 slices", "why_tests_cant": "slices of any length, all float64 values", "anchors": ["src/util/util.go:SubFloat64", "src/util/util.go:NegFloat64"]}
{"id": "C80", "title": "NewBigIntFromString reads decimal numerals", "statement": "A string of decimal digits with an optional minus sign becomes the integer it denotes.", "quantifier": "all digit strings", "why_tests_cant": "unbounded strings", "anchors": ["src/types/bignum.go:NewBigIntFromString"]}
{"id": "C81", "title": "The floating-point Gram-Schmidt norm test of NtruGen is accurate", "statement": "For small integer f and g, GsNorm in binary64 is within 0.4% + 0.1 of the exact Gram-Schmidt norm when this is at most 10^6, so the test of NtruGen accepts below 16755 and rejects from 16891 to 10^6. Every generated key has |f|^2+|g|^2 <= 16822. A generated key whose exact norm is at most 10^6 has norm at most 16891, and F and G with coefficients at most 2220 that solve the NTRU equation.", "quantifier": "all f, g at degrees 2 to 1024, all runs of GeneratePrivateKey", "why_tests_cant": "all pairs of polynomials and all random inputs", "anchors": ["src/internal/ntrugen.go:GsNorm", "src/internal/ntrugen.go:NtruGen"]}
{"id": "C82", "title": "Complex division is accurate", "statement": "The complex128 division used by DivFFT returns each part of the true quotient within (64 A/S + 1) 2^-53, where A bounds the parts of the numerator and S is the larger part of the divisor.", "quantifier": "all finite numerators and divisors with parts up to 2^180, S at least 1/10", "why_tests_cant": "all pairs of complex128 values", "anchors": ["src/internal/transforms/fft/fft.go:DivFFT"]}
{"id": "C83", "title": "What FfSamplingFFT samples", "statement": "In exact arithmetic, FfSamplingFFT on the transforms of t0, t1 returns z0, z1 exactly when the integer polynomials z0, z1 come from the recursive sampling on coefficients: t1 by halves, then t0 + (t1 - z1) l by halves, Samplerz at the constants. It calls Samplerz exactly 2n times, on consecutive random bytes. Every level uses the values of the root of the tree, and every call the same deviation.", "quantifier": "all targets, trees whose Value begins with the transforms of real polynomials l, random bytes and degrees n = 2^k; the calls for any tree and floating-point arithmetic up to degree 1024", "why_tests_cant": "all random streams and real targets", "anchors": ["src/internal/ffsampling.go:FfSamplingFFT"]}
{"id": "C84", "title": "Conversions, Min, RoundAll and Sqnorm of util.go", "statement": "IntToInt16 and BigIntToInt16 return the int16 congruent to each integer modulo 2^16. Int16ToFloat64 is exact. Min returns the smaller of two finite floats. RoundAll returns the nearest integers, ties away from zero, for finite floats up to 2^62 in absolute value. Sqnorm of integer vectors is the exact sum of squares below 2^52.", "quantifier": "all slices", "why_tests_cant": "slices of any length and all float64 values", "anchors": ["src/util/util.go:IntToInt16", "src/util/util.go:BigIntToInt16", "src/util/util.go:Int16ToFloat64", "src/util/util.go:Min", "src/util/util.go:RoundAll", "src/util/util.go:Sqnorm"]}
{"id": "C85", "title": "The operations on transforms", "statement": "AddFFT, SubFFT, DivFFT and MulFFT work place by place; the first three panic exactly when the lengths differ, MulFFT exactly when its second argument is the shorter one. In exact arithmetic the transform of a sum, difference, negation, product modulo x^n+1 or adjoint is what the FFT operation computes from the transforms. In binary64 each element of Add and Sub is the correctly rounded sum or difference.", "quantifier": "all slices; all polynomials of degree n = 2^k", "why_tests_cant": "all lengths and all float64 values", "anchors": ["src/internal/transforms/fft/fft.go:Add", "src/internal/transforms/fft/fft.go:AddFFT", "src/internal/transforms/fft/fft.go:AdjFFT", "src/internal/transforms/fft/fft.go:DivFFT", "src/internal/transforms/fft/fft.go:NegFFT", "src/internal/transforms/fft/fft.go:MulFFT", "src/internal/transforms/fft/fft.go:Sub", "src/internal/transforms/fft/fft.go:SubFFT"]}
{"id": "C86", "title": "addNTT and subNTT add and subtract transforms", "statement": "addNTT (subNTT) of the NTTs of f and g is the NTT of f+g (f-g) modulo q.", "quantifier": "all int16 polynomials at every valid degree", "why_tests_cant": "all pairs of polynomials", "anchors": ["src/internal/transforms/ntt/ntt.go:addNTT", "src/internal/transforms/ntt/ntt.go:subNTT"]}
{"id": "C87", "title": "The matrix and the tree of a key pair", "statement": "When fG-gF=q modulo x^n+1 and f is invertible modulo q, the rows (g,-f), (G,-F) generate the lattice {(u,v): u+vh=0 mod q} of the public key h, each element in exactly one way. The matrix built by basisAndMatrix holds the transforms of g, -f, G, -F in this order, in binary64 within 20 k 2^k 2^15 2^-53 of the exact values. The tree is that of the Gram matrix, with the first value of the left child replaced by sigma/sqrt of its real part, the second by zero, and the right child unchanged.", "quantifier": "all int16 polynomials at every valid degree; all pairs (u,v)", "why_tests_cant": "all keys and all lattice elements", "anchors": ["src/falcon.go:basisAndMatrix", "src/falcon.go:fft3D", "src/falcon.go:normalizeTree", "src/falcon.go:NewKeyPair"]}
{"id": "C88", "title": "The parameter sets are consistent", "statement": "In every parameter set sigbound = floor(2n(1.1 sigma)^2), sigma = 1.17 sqrt(12289) sigmin up to 2^-45, and the stored numbers are the binary64 values nearest to the literals of the source; sigma_of is that number exactly.", "quantifier": "every degree with a parameter set", "why_tests_cant": "real-number relations, checked exactly", "anchors": ["src/falcon_constants.go:ParamSets"]}
{"id": "C89", "title": "BaseSampler samples the half-Gaussian of parameter 1.8205", "statement": "For every k<18 the number of the 2^72 nine-byte inputs on which BaseSampler returns a value above k is at most 2^72 Pr[z>k] and at least 2^72 Pr[z>k]-9, where z>=0 has probability proportional to exp(-z^2/(2 1.8205^2)). For every k from 1 to 18 the number of inputs giving k is 2^72 Pr[z=k] rounded down; the number giving 0 exceeds 2^72 Pr[z=0] by 8 to 9; 2^72 Pr[z>18]<=1.", "quantifier": "all 2^72 inputs; all values k", "why_tests_cant": "counts over 2^72 inputs against an infinite sum of exponentials", "anchors": ["src/internal/samplerz.go:BaseSampler", "src/internal/samplerz.go:RCDT"]}
{"id": "C90", "title": "The tables C, LN2 and ILN2 of samplerz.go", "statement": "For every real x in [0, ln 2], 2^-63 sum C[12-i] (-x)^i differs from exp(-x) by at most 2^-51 (the comment in the source, which writes x^i without the sign, is wrong). The algorithm documented at approxexp, on unbounded integers, returns 2^63 ccs exp(-x) up to 3633. LN2 exceeds ln 2 by less than 1e-13 and ILN2 exceeds 1/ln 2 by less than 2e-12.", "quantifier": "all real x in [0, ln 2], all ccs in [0,1]", "why_tests_cant": "a bound over a continuum", "anchors": ["src/internal/samplerz.go:C", "src/internal/samplerz.go:approxexp", "src/internal/samplerz.go:LN2", "src/internal/samplerz.go:ILN2"]}
{"id": "C91", "title": "Which random bytes the samplers use", "statement": "Every round of Samplerz reads one fresh block of 11 bytes, cut into 9, 1 and 1 without loss; an error of the random source panics. Samplerz returns the value of the first accepted block. Samplerz, GenPoly and FfSamplingFFT read a segment of consecutive blocks and their results depend on nothing else; the 4096 samples of GenPoly come from adjacent segments, and so do f and g of a key.", "quantifier": "all random sources, all float arithmetics, any number of rounds", "why_tests_cant": "all sources of randomness", "anchors": ["src/internal/samplerz.go:Samplerz", "src/internal/samplerz.go:generateAndSplitRandBytes", "src/internal/samplerz.go:generateRandBytes", "src/internal/samplerz.go:splitRandBytes", "src/util/util.go:RandomBytes", "src/internal/ntrugen.go:GenPoly", "src/internal/ffsampling.go:FfSamplingFFT"]}
{"id": "C92", "title": "Signatures are the lattice points near the hash point", "statement": "For a degree-512 key whose basis satisfies the NTRU equation: every combination (u,v) of the rows (g,-f), (G,-F) with |c-u|^2+|v|^2 <= 34034726, c the hash point, gives through Compress(-v,625) a string Verify accepts; every accepted string names such a combination, in one way only, with the bound modulo 2^32. In exact arithmetic FfnpFFT on the coordinates of (c,0) returns a combination at squared distance at most n/2 times GsNorm(f,g); for a key within 1.17^2 q its encoding always fits 625 bytes and Verify accepts it.", "quantifier": "all keys, messages, salts, XOFs, hash points; all degrees 2^k for the distance", "why_tests_cant": "all keys and all hash points; real arithmetic", "anchors": ["src/falcon.go:Verify", "src/internal/ffsampling.go:FfnpFFT", "src/internal/ntrugen.go:GsNorm", "src/falcon.go:GetPublicKey", "src/internal/encoding.go:Compress"]}
{"id": "C93", "title": "The tree algorithms return transforms of integer polynomials, bit for bit", "statement": "For n=2^k, 1<=k<=10: on a tree with nodes down to a leaf per coefficient FfnpFFT returns two vectors of length n in any arithmetic; in binary64, whenever its two vectors are finite, each is exactly (same float64s) FFT of a vector of integers. FfSamplingFFT returns exactly FFT of two integer vectors in [-128,127], which are the results of 2n successive calls of Samplerz in a fixed order, all with the same deviation. IFFT followed by RoundAll gives back every integer vector within 2^30 from its FFT.", "quantifier": "all degrees 2..1024, targets, trees, random streams", "why_tests_cant": "all inputs, exact float equality", "anchors": ["src/internal/ffsampling.go:FfnpFFT", "src/internal/ffsampling.go:FfSamplingFFT", "src/internal/transforms/fft/fft.go:FFT", "src/internal/transforms/fft/fft.go:IFFT", "src/util/util.go:RoundAll"]}
{"id": "C94", "title": "Two signatures of one salt differ by a short lattice vector, and conversely", "statement": "If Verify accepts two strings with the same salt for one key and message, they name the same s1 or their difference (s0-s0', s1-s1') is a non-zero vector of the public lattice {(u,v): u+vh=0 mod q}, of squared norm at most 4*34034726 when neither norm wrapped modulo 2^32. Conversely (s0,s1) plus a lattice vector, if within the bound and encodable, is accepted.", "quantifier": "all keys, messages, XOFs, strings, lattice vectors", "why_tests_cant": "all pairs of accepted strings", "anchors": ["src/falcon.go:Verify", "src/internal/encoding.go:Decompress"]}
{"id": "C95", "title": "Every generated key whose norms have a gcd below 2^64-1 can sign every message", "statement": "For a key GeneratePrivateKey returns in binary64 (gcd of the norms below 2^64-1, exact Gram-Schmidt norm at most 10^6): GetPublicKey succeeds, every target has a lattice point within squared distance 16891 n/2, and for n=512 every message and salt that hashes to a point has a 625-byte encoding that Verify accepts. The last part holds for every key satisfying the NTRU equation with Gram-Schmidt norm at most 17000.", "quantifier": "all random streams, degrees, messages, salts, XOFs", "why_tests_cant": "all hash points; existence of a signature", "anchors": ["src/falcon.go:GeneratePrivateKey", "src/falcon.go:GetPublicKey", "src/falcon.go:Verify", "src/internal/ntrugen.go:NtruGen", "src/internal/ntrugen.go:GsNorm", "src/internal/encoding.go:Compress"]}
{"id": "C96", "title": "F and G are determined by f and g", "statement": "With f invertible modulo q, the solutions of fG-gF=q are exactly (F,G)-a(f,g), a an integer polynomial, unique; a is the difference of the real multipliers of the closest multiples of (f,g). So one solution at most has all coefficients of its multiplier below 1/2, and NtruSolve in binary64 returns the F and G of exact arithmetic except for +-1 times (f,g) at coefficients where the multiplier is within 7/10000 of a half. Without the invertibility of f the first claim is false.", "quantifier": "all f, g, all degrees 2..1024 (any degree for the first part)", "why_tests_cant": "comparison with exact real arithmetic for all inputs", "anchors": ["src/internal/ntrugen.go:NtruSolve", "src/internal/ntrugen.go:reduce"]}
{"id": "C97", "title": "How often a fixed signature body is accepted", "statement": "There is one 625-byte string (the code of a vector of squared norm 1393883648) such that for every public key at least one in 2^16 of the q^512 hash points is accepted with it, the vector being more than 252 times too long: the sum wraps at 2^33. A body whose vector has squared norm at most 34034726 is accepted for at most one in 2^41 hash points, whatever the key. Every point is a hash for some XOF.", "quantifier": "all keys of 512..767 coefficients, all hash points, all messages, salts, XOFs, all short vectors", "why_tests_cant": "a count over 12289^512 points", "anchors": ["src/falcon.go:Verify", "src/falcon.go:hashToPoint", "src/internal/encoding.go:Decompress"]}
{"id": "C98", "title": "Hash points are exactly uniform over the streams", "statement": "Of the 2^(16k) possible first k words of the XOF stream, equally many hash to each of the q^512 points, for every k. Fewer than one in 2^40 of the 600-word prefixes do not yet yield a point. For every key, at least one in 2^17 of the 600-word prefixes makes Verify accept the fixed body of C97; a body with a short vector is accepted for at most one in 2^41 prefixes of any length.", "quantifier": "all k, all pairs of points, all keys of 512..767 coefficients, all messages, salts, headers, XOFs, all short vectors", "why_tests_cant": "a count over 2^9600 streams", "anchors": ["src/falcon.go:hashToPoint", "src/falcon.go:Verify"]}
{"id": "C99", "title": "Which keys accept a given signature", "statement": "For a message, salt and body whose vector s1 is invertible mod q, and for every s0 with coefficients in -6144..6144 such that (s0, s1) is short enough, there is exactly one public key h for which Verify recovers s0; it is DivZq(c - s0, s1) and Verify accepts under it: a signature does not bind its signer's key. At least one in 2^16 of all q^512 keys accepts the fixed body of C97, for every hash point; at most one in 2^41 accepts a given body with a short invertible vector.", "quantifier": "all messages, salts, headers, XOFs, hash points, all invertible s1, all s0, all keys of 512 residues", "why_tests_cant": "existence and uniqueness among, and counts over, 12289^512 keys", "anchors": ["src/falcon.go:Verify", "src/internal/transforms/ntt/ntt.go:DivZq"]}
{"id": "C100", "title": "How many polynomials are invertible, and how many key pairs share a public key", "statement": "At every supported degree n exactly (q-1)^n of the q^n polynomials with coefficients 0..q-1 are invertible modulo q and x^n+1, and for every public key h exactly (q-1)^n pairs (f, g) of such polynomials make DivZq(g, f) return h.", "quantifier": "all ten degrees, all public keys", "why_tests_cant": "counts over 12289^n polynomials", "anchors": ["src/internal/transforms/ntt/ntt.go:DivZq", "src/internal/transforms/ntt/ntt.go:NTT", "src/falcon.go:GetPublicKey"]}
{"id": "C101", "title": "How many hash points a signature body is accepted for does not depend on the key", "statement": "For any bytes after the salt and any two public keys of 512..767 coefficients, the numbers of hash points for which Verify accepts are equal: they are the number of s0 mod q for which (s0, s1) is short enough, modulo 2^32.", "quantifier": "all byte strings, all pairs of keys, all messages, salts, headers, XOFs", "why_tests_cant": "an equality of two counts over 12289^512 points", "anchors": ["src/falcon.go:Verify", "src/falcon.go:hashToPoint"]}
{"id": "C102", "title": "At degrees 2, 4 and 8 NtruSolve and key generation are right", "statement": "The norm of f down to Z is bounded through its squared norm, at every degree. So at degrees 2, 4 and 8, for f and g of squared norm at most 27000, whatever NtruSolve returns solves the NTRU equation, for every rounding: the test d.Int64() != 1 cannot be fooled. In binary64 every key generated at these degrees holds the int16 conversions of a solution, and the solution itself when the exact Gram-Schmidt norm is at most 10^6.", "quantifier": "all f, g, all quotient functions, all random streams, all fuels, all degrees (norm bound)", "why_tests_cant": "all polynomials and all random streams", "anchors": ["src/internal/ntrugen.go:NtruSolve", "src/internal/ntrugen.go:fieldNorm", "src/internal/ntrugen.go:NtruGen", "src/falcon.go:GeneratePrivateKey"]}
{"id": "C103", "title": "A forger that tries many salts succeeds, unless the body is short", "statement": "Take any public key and t salts. Of the tuples of t hash points at most a part (1 - 2^-16)^t is one for which Verify rejects all t signatures made of a salt and one fixed body, so 65536 k salts fail for at most one tuple in 2^k. With a body whose norm is within the bound, as the specification demands, t salts succeed for at most t tuples in 2^41.", "quantifier": "all keys, all t, all messages, salts, headers, XOFs", "why_tests_cant": "counts over 12289^(512 t) tuples of hash points", "anchors": ["src/falcon.go:Verify", "src/falcon.go:hashToPoint"]}
{"id": "C104", "title": "What GenPoly can return, and how key generation fails at every degree", "statement": "GenPoly of degree n returns exactly the polynomials whose coefficients are int16 values from -18*(4096/n) to 19*(4096/n), and any two of them come one after the other from some random bytes. For every degree from 16 to 1024 there are random bytes from which GeneratePrivateKey returns a key that does not satisfy the NTRU equation, or does not return. For every degree from 8 to 1024 there are random bytes from which it never returns, although both polynomials were drawn.", "quantifier": "all supported degrees, all fuels, all conversions of out-of-range floats", "why_tests_cant": "the streams have probability far below 2^-100, so no random test meets them", "anchors": ["src/internal/ntrugen.go:GenPoly", "src/internal/ntrugen.go:NtruGen", "src/internal/ntrugen.go:NtruSolve", "src/falcon.go:GeneratePrivateKey"]}
{"id": "C105", "title": "A run that ends does not depend on the fuel of the model", "statement": "Verify, VerifyBytes, hashToPoint, Samplerz, GenPoly, FfSamplingFFT, NtruSolve, GeneratePrivateKey, FfldlFFT, FfnpFFT and NewKeyPair, run with some fuels and ending there, give the same result with all larger fuels; two runs of GeneratePrivateKey on the same random bytes that both end, end alike.", "quantifier": "all inputs, all fuels, all random bytes, any float operations, any XOF", "why_tests_cant": "a statement on the unbounded loops of the code: it ties every theorem with a fuel to the loop without one", "anchors": ["src/falcon.go:Verify", "src/falcon.go:GeneratePrivateKey", "src/internal/samplerz.go:Samplerz", "src/internal/ntrugen.go:NtruGen", "src/internal/ntrugen.go:NtruSolve"]}
{"id": "C106", "title": "The private keys that key generation can return", "statement": "For each degree GeneratePrivateKey returns the key (f, g, F, G) for some random bytes exactly when f and g are polynomials GenPoly can draw, f is invertible modulo q, the computed Gram-Schmidt norm of (f, g) passes the test, and NtruSolve ends on (f, g) with polynomials that become F and G when cut to 16 bits. Two generated keys with equal f and g are equal.", "quantifier": "all supported degrees, all keys, all random bytes, all fuels, all conversions of out-of-range floats", "why_tests_cant": "an equivalence over all random streams", "anchors": ["src/falcon.go:GeneratePrivateKey", "src/internal/ntrugen.go:NtruGen", "src/internal/ntrugen.go:GenPoly", "src/internal/ntrugen.go:NtruSolve"]}
{"id": "C107", "title": "The private keys of one public key", "statement": "Take two private keys with f and f' invertible modulo q. GetPublicKey gives both the same polynomial exactly when f*g' = f'*g modulo q. If both satisfy the NTRU equation this holds exactly when one basis is the other times a matrix of determinant 1 over Z[x]/(x^n+1). For one pair (f, g) the solutions of the NTRU equation are F + c*f, G + c*g with any polynomial c.", "quantifier": "all supported degrees, all keys with int16 coefficients of f and g", "why_tests_cant": "an equivalence between equality of public keys and the existence of an integer matrix", "anchors": ["src/falcon.go:GetPublicKey", "src/internal/transforms/ntt/ntt.go:DivZq", "src/internal/ntrugen.go:NtruSolve"]}
{"id": "C108", "title": "Key generation can return a key that has no NTRU solution", "statement": "At every degree from 16 to 1024 there is a stream of random bytes for which key generation returns a key whose pair (f, g) has no solution F, G of the NTRU equation at all. Its g and F are zero and its public key is the zero polynomial. Under the zero public key of degree 512, Verify accepts exactly when the body decodes and the squared norms of the hash point and of the body add up to at most the bound, modulo 2^32.", "quantifier": "all degrees 16..1024, all fuels of the model's loops, all choices for out-of-range float conversions; for the second part all messages and signatures", "why_tests_cant": "the stream is one of astronomically many, and the absence of a solution is a statement about all F and G", "anchors": ["src/falcon.go:GeneratePrivateKey", "src/internal/ntrugen.go:NtruGen", "src/internal/ntrugen.go:NtruSolve", "src/falcon.go:GetPublicKey", "src/falcon.go:Verify"]}
{"id": "C109", "title": "A generated key may leave most messages without any signature", "statement": "There is a stream of random bytes for which key generation at degree 512 returns a key and GetPublicKey a public key, such that for at least 38 in 39 of all hash points no signature body at all is accepted by Verify. So the hypothesis of C95 on the norms of f and g cannot be dropped. On the way: the vector that a 625-byte body decodes to has squared norm at most 1393949183 as int16 values, and one has 1393883648.", "quantifier": "all fuels, all choices for out-of-range float conversions, all XOFs, messages, salts and bodies of any length", "why_tests_cant": "a universal statement over all signature bodies and a count over q^512 points", "anchors": ["src/falcon.go:GeneratePrivateKey", "src/falcon.go:GetPublicKey", "src/falcon.go:Verify", "src/internal/ntrugen.go:NtruSolve", "src/internal/encoding.go:Decompress"]}
