{"id": "C01", "title": "Bit conversion round trip", "statement": "U8ToBits/U16ToBits/U32ToBits/U64ToBits followed by the ConvertU* of the same width returns the original number, and converting a bit slice of exactly that width to a number and back returns the slice. ConvertU* of a slice of any length is the little-endian value of the slice modulo 2^width; ToBits(v, size) lists the little-endian bits of v for every size, padding with false.", "quantifier": "every value of every width, every bit slice of every length, every size", "why_tests_cant": "64-bit value space and unbounded slice lengths", "anchors": ["bitutils/bitutils.go: ConvertU8, ConvertU16, ConvertU32, ConvertU64, ToBits, U8ToBits, U16ToBits, U32ToBits, U64ToBits"]}
{"id": "C02", "title": "Parameter sets are well formed at every level", "statement": "For every value of the security level (named or not) the getters return a set in which N = 2^NBIT, BG = 2^BGBIT, the three lv1 dimensions agree, L*BGBIT <= 32, BASEBIT*IKS_T <= 31, 2L levels fit the evaluator's 8 decomposition buffers, the block size is positive and the number of blocks covers the LWE dimension; the three lv1 noise deviations agree, and 0 < BSKAlpha < KSKAlpha <= 1/20000; an unknown level gives the 128-bit set. Block rotation is on at every level, the program starts at the 128-bit level, levels with the same description have the same parameters, the description of a message level states its modulus 2^k and the ring degree in use, and of the named levels only Uint5 and Uint6, and Uint7 and Uint8, share their parameters.", "quantifier": "every integer value of CurrentSecurityLevel", "why_tests_cant": "the level is a global mutable int; any value can be stored in it", "anchors": ["params/params.go: GetTLWELv0, GetTLWELv1, GetTRLWELv1, GetTRGSWLv1, GetBlockCount, UseBlockBlindRotation, KSKAlpha, BSKAlpha", "params/params.go: SecurityInfo, CurrentSecurityLevel"]}
{"id": "C03", "title": "Float to torus conversion", "statement": "For every finite float64 d, F64ToTorus(d) is the truncation of frac(d)*2^32 modulo 2^32; F64ToTorus(TorusToF64(t)) = t for every 32-bit torus value t; F64ToTorus(-d) = -F64ToTorus(d).", "quantifier": "every finite double and every uint32", "why_tests_cant": "2^64 doubles; rounding cases are invisible to sampling", "anchors": ["utils/utils.go: F64ToTorus, TorusToF64, F64ToTorusVec"]}
{"id": "C04", "title": "Boolean TLWE encryption round trip", "statement": "For every key, mask randomness and noise sample, decrypting EncryptBool(b) returns b exactly when the noise, reduced to the torus representative in [-1/2, 1/2), is in [-1/8, 3/8) for b = true and in [-3/8, 1/8) for b = false; for any other noise the result is the wrong bit. In particular every noise in [-1/8, 1/8) is fine. This holds for both TLWE levels, and encryption never panics.", "quantifier": "every key, mask, noise value and bit", "why_tests_cant": "noise tails and boundary samples have negligible sampling probability", "anchors": ["tlwe/tlwe.go: EncryptF64, EncryptBool, DecryptBool (Lv0 and Lv1)"]}
{"id": "C05", "title": "Linear homomorphism of TLWE operations", "statement": "Add, Sub, Neg, AddMul, SubMul and AddAssign act on the phase (b - <a,s>) as the corresponding linear operation modulo 2^32 under every key, return ciphertexts of the same length, and AddAssign is correct even when the output is one of its inputs. Mul multiplies coordinate by coordinate; it is not a homomorphic product: the phase of its result is not determined by the phases of its operands.", "quantifier": "every pair of ciphertexts, every key, every multiplier", "why_tests_cant": "must hold for all 2^32-valued coefficients and all aliasing patterns", "anchors": ["tlwe/tlwe.go: Add, AddAssign, Sub, Neg, AddMul, SubMul, Mul"]}
{"id": "C06", "title": "Integer message round trip", "statement": "DecryptLWEMessage(EncryptLWEMessage(m, M), M) = m mod M (mathematical modulus, also for negative m) for every message modulus M that divides 2^31 and every noise of absolute value below 2^31/M/2, and for every other M below 2^20 when the noise plus the drift of the message (m times 2^31 mod M, over M) stays within half of 2^31/M. Without noise every message survives exactly when 2^31 mod M is at most half of 2^31/M: for all M up to 2^15, but not for M = 32896, where M - 1 is decrypted wrongly. M = 0 and M > 2^31 make decryption panic.", "quantifier": "every key, mask, message (including negative and out of range), modulus and noise within the margin", "why_tests_cant": "message/modulus/noise space is unbounded; rounding for moduli that are not powers of two is subtle", "anchors": ["tlwe/programmable_encrypt.go: EncryptLWEMessage, DecryptLWEMessage"]}
{"id": "C07", "title": "LUT encoder round trip and normalisation", "statement": "Encoder.Decode(Encoder.Encode(m)) = m mod M for every integer m (also negative and out of range) and every supported modulus; Encode agrees with the plaintext EncryptLWEMessage uses for the same message when M is a power of two.", "quantifier": "every message, every modulus up to the stated bound", "why_tests_cant": "unbounded integers; float rounding", "anchors": ["lut/encoder.go: NewEncoder, Encode, Decode", "tlwe/programmable_encrypt.go: EncryptLWEMessage"]}
{"id": "C08", "title": "NOT flips the decrypted bit", "statement": "For every ciphertext and key, Decrypt(NOT(ct)) = not Decrypt(ct), except when the phase is exactly 0 or exactly 1/2, where NOT leaves the decrypted bit unchanged. The unconditional statement is false.", "quantifier": "every ciphertext and key", "why_tests_cant": "the two failing phases out of 2^32 are never hit by sampling", "anchors": ["gates/gates.go: NOT", "tlwe/tlwe.go: Neg, DecryptBool"]}
{"id": "C09", "title": "Constants decrypt under every key", "statement": "gates.Constant(v) decrypts to v under every secret key, with an error of at most one unit of 2^-32 from the nominal encoding.", "quantifier": "every key and both values", "why_tests_cant": "key space", "anchors": ["gates/gates.go: Constant"]}
{"id": "C10", "title": "Multiplication by a monomial", "statement": "PolyMulWithXK(p, k) gives p*X^k modulo X^N+1 for every integer k, positive or negative, of any size. Stated exactly this fails: each coefficient that wraps around is -p_i - 1 instead of -p_i. What holds is that the result differs from the exact product by 0 or -1 per coefficient, and that the operation is an exact action of Z/2N (composing rotations adds the exponents). The older copy of the function in trgsw agrees for exponents that are not negative and panics for the others unless 2N divides them.", "quantifier": "every polynomial, every N, every integer k", "why_tests_cant": "an off-by-one of 2^-32 is far below the noise tests tolerate", "anchors": ["poly/buffer_methods.go: PolyMulWithXK, PolyMulWithXKInPlace", "trgsw/trgsw.go: polyMulWithXKInPlace"]}
{"id": "C11", "title": "Monomial multiplication and aliasing", "statement": "PolyMulWithXKInPlace(a, k, result) is correct when result and a are different buffers; when they are the same buffer the result is wrong for some inputs.", "quantifier": "every pair of buffers, every k", "why_tests_cant": "aliasing patterns are not explored by tests", "anchors": ["poly/buffer_methods.go: PolyMulWithXKInPlace"]}
{"id": "C12", "title": "Gadget decomposition", "statement": "The signed decomposition produces L digits in [-BG/2, BG/2) whose recombination equals the coefficient with its low 32-L*BGBIT bits cleared (a one-sided error in [0, 2^(32-L*BGBIT))), and the two implementations (poly.Decomposer and trgsw) agree.", "quantifier": "every 32-bit coefficient, every L and BGBIT with L*BGBIT <= 32", "why_tests_cant": "2^32 coefficients times parameter choices", "anchors": ["poly/decomposer.go: DecomposePolyAssign", "trgsw/trgsw.go: decompositionInPlace", "cloudkey/cloudkey.go: genDecompositionOffset"]}
{"id": "C13", "title": "Fourier product is the negacyclic product", "statement": "With exact arithmetic, MulPoly computed with the code's own butterflies, twiddle tables, bit reversal and memory layout is exactly the product of a and b modulo X^N+1 and modulo 2^32, and so is every sum of products accumulated in the Fourier domain and read back.", "quantifier": "every N = 2^k >= 16, every pair of polynomials, every number of products", "why_tests_cant": "all sizes and all polynomials", "anchors": ["poly/fourier_transform.go: fftInPlace, ifftInPlace, convertPolyToFourierPolyAssign", "poly/poly_evaluator.go: genTwiddleFactors, bitReverseInPlace", "poly/poly_mul.go: MulPolyAssign"]}
{"id": "C14", "title": "Float64 error of the Fourier product", "statement": "With IEEE-754 binary64 arithmetic, the coefficients of MulPoly, and of any sum of products accumulated in the Fourier domain, differ from the exact negacyclic result by at most delta whenever N*D*E*(87*(k-1)+7) < (2*delta+1)*2^52 (D, E bound the signed coefficients; a similar formula for K products). No Fourier coefficient overflows or becomes NaN. A torus polynomial times a binary key is exact for every N up to 2048.", "quantifier": "every N = 2^k with 4 <= k <= 51, every pair of polynomials, every implementation of the complex exponential accurate to 3*2^-53 on |x| <= 4, every choice of the multiply-adds the compiler fuses", "why_tests_cant": "worst case inputs for rounding are not found by sampling, and tests run on one platform", "anchors": ["poly/fourier_transform.go", "poly/fourier_ops.go", "poly/poly_mul.go"]}
{"id": "C15", "title": "Fourier round trip is exact", "statement": "ToPoly(ToFourierPoly(p)) = p bit for bit, for every polynomial, in binary64 arithmetic, whatever the output buffers held.", "quantifier": "every polynomial with uint32 coefficients at every N = 2^k with 4 <= k <= 21 (the shipped degrees are 512, 1024 and 2048), every implementation of the complex exponential accurate to 3*2^-53", "why_tests_cant": "existing test tolerates an error of 10 and tries one polynomial", "anchors": ["poly/fourier_transform.go: ToFourierPoly, ToPoly"]}
{"id": "C16", "title": "Fourier code never leaves its buffers", "statement": "All unsafe pointer accesses of the FFT, inverse FFT, conversions and Fourier arithmetic stay inside their slices and inside the twiddle tables for every degree NewEvaluator accepts, and NewEvaluator panics for every other degree.", "quantifier": "every power of two N >= 16", "why_tests_cant": "unsafe code has undefined behaviour on a miss; a test only covers the sizes it runs", "anchors": ["poly/fourier_transform.go", "poly/fourier_ops.go", "poly/poly_evaluator.go: NewEvaluator, genTwiddleFactors"]}
{"id": "C17", "title": "TRLWE encryption round trip", "statement": "Decrypting a TRLWE encryption of a bit vector returns the bits, for every key, mask and per-coefficient noise (plus Fourier error) below 1/8.", "quantifier": "every key, mask, noise vector, bit vector and N", "why_tests_cant": "all noise vectors", "anchors": ["trlwe/trlwe.go: EncryptF64, EncryptBool, DecryptBool"]}
{"id": "C18", "title": "Sample extraction", "statement": "SampleExtractIndex(ct, k) has, under the same key, the phase of coefficient k of ct plus the number of key bits above index k (the off-by-one of the negation), for every k; both variants (allocating and assigning) agree.", "quantifier": "every TRLWE ciphertext, key and index", "why_tests_cant": "off-by-one error is below the tolerance of statistical tests", "anchors": ["trlwe/trlwe.go: SampleExtractIndex", "trlwe/trlwe_ops.go: SampleExtractIndexAssign"]}
{"id": "C19", "title": "Extraction to level 0", "statement": "SampleExtractIndex2, and therefore the bootstrap variant without key switching, is usable at every shipped parameter set. This is false: it panics at all of them.", "quantifier": "every security level", "why_tests_cant": "no test calls it", "anchors": ["trlwe/trlwe.go: SampleExtractIndex2", "gates/gates.go: bootstrapWithoutKeySwitch"]}
{"id": "C20", "title": "External product", "statement": "The phase of the external product of a TRGSW encryption of m with a TRLWE ciphertext is m times the phase of the ciphertext plus an explicit error: the decomposition digits times the row noises, m times the truncation error, and the Fourier error.", "quantifier": "every TRGSW sample, TRLWE ciphertext, key, message and noise", "why_tests_cant": "quantifies over all noises and ciphertexts", "anchors": ["trgsw/trgsw.go: EncryptTorus, ExternalProductWithFFT", "evaluator/evaluator.go: ExternalProductAssign"]}
{"id": "C21", "title": "CMUX selects", "statement": "CMUX(in1, in2, cond) has the phase of in1 when cond encrypts 0 and of in2 when it encrypts 1, up to the external product error; the assigning variant is correct when its output is its first input and wrong when the output is the second input.", "quantifier": "every ciphertext, key, condition, noise and the aliasing patterns", "why_tests_cant": "aliasing and noise", "anchors": ["trgsw/trgsw.go: CMUX", "evaluator/evaluator.go: CMuxAssign"]}
{"id": "C22", "title": "Blind rotation", "statement": "Blind rotation of a test vector v by an LWE ciphertext (a, b) under key s gives a TRLWE encryption of v times X^(-phase), where phase = round(b) - sum s_i round(a_i) in Z/2N, up to an explicit error bound that is linear in the number of key bits.", "quantifier": "every LWE ciphertext, test vector, key, bootstrapping key noise, n and N", "why_tests_cant": "composition of n CMUX steps for all inputs", "anchors": ["evaluator/evaluator.go: BlindRotateAssign", "trgsw/trgsw.go: BlindRotate"]}
{"id": "C23", "title": "The two blind rotation implementations agree", "statement": "evaluator.BlindRotateAssign and trgsw.BlindRotate return identical ciphertexts, bit for bit, on the same inputs, whatever the contents of their scratch buffers.", "quantifier": "every input and every prior buffer content", "why_tests_cant": "bitwise equality over all inputs and histories", "anchors": ["evaluator/evaluator.go: BlindRotateAssign", "trgsw/trgsw.go: BlindRotate, CMUX, ExternalProductWithFFT"]}
{"id": "C24", "title": "Identity key switching", "statement": "Key switching maps a TLWE ciphertext under the lv1 key to one under the lv0 key whose phase differs by at most (number of key bits)*2^(31-BASEBIT*IKS_T) plus the noises of the key switching entries used; the allocating and assigning variants agree; all key accesses are in range.", "quantifier": "every ciphertext, keys, entry noises, BASEBIT, IKS_T", "why_tests_cant": "all noise patterns and rounding boundaries", "anchors": ["trgsw/trgsw.go: IdentityKeySwitching", "trgsw/keyswitch.go: IdentityKeySwitchingAssign", "cloudkey/cloudkey.go: genKeySwitchingKey"]}
{"id": "C25", "title": "Parallel key generation is schedule independent", "statement": "The bootstrapping key and key switching key are the same for every interleaving of the generating goroutines, given the randomness each encryption draws, and every slot is written exactly once.", "quantifier": "every interleaving of the goroutines' writes", "why_tests_cant": "number of schedules is astronomically large", "anchors": ["cloudkey/cloudkey.go: genKeySwitchingKey, genBootstrappingKey"]}
{"id": "C26", "title": "Gate bootstrap", "statement": "Bootstrapping a ciphertext whose rounded phase is in the positive half of the circle gives an encryption of +1/8, in the negative half -1/8, with an error bounded independently of the input noise.", "quantifier": "every ciphertext, key and cloud key noise within the stated budget", "why_tests_cant": "all inputs and noises", "anchors": ["gates/gates.go: bootstrap", "evaluator/evaluator.go: BootstrapAssign, Bootstrap"]}
{"id": "C27", "title": "Gate truth tables", "statement": "NAND, OR, AND, XOR, XNOR, NOR, ANDNY, ANDYN, ORNY, ORYN and MUX on ciphertexts decrypting to a and b give a ciphertext decrypting to the gate's truth table, for all input noises below the gate's margin.", "quantifier": "every input pair, noise, key and cloud key within budget", "why_tests_cant": "four rows are tested with one noise sample each", "anchors": ["gates/gates.go: NAND, OR, AND, XOR, XNOR, NOR, ANDNY, ANDYN, ORNY, ORYN, MUX"]}
{"id": "C28", "title": "Circuits of any depth", "statement": "Evaluating any boolean circuit built from the gates on encryptions of x decrypts to the plaintext evaluation, with no limit on size or depth, when the bootstrapped noise bound fits the gate margin.", "quantifier": "every circuit, every input, every depth", "why_tests_cant": "unbounded depth is the point of bootstrapping", "anchors": ["gates/gates.go", "README.md"]}
{"id": "C29", "title": "Ripple-carry adder", "statement": "The README full adder chained over n bits gives the n-bit sum and the carry for every n and every pair of inputs.", "quantifier": "every width and every operand", "why_tests_cant": "2^(2n) inputs at every width", "anchors": ["README.md: full adder", "gates/gates.go: XOR, AND, OR, Constant", "examples/simple_gates/main.go"]}
{"id": "C30", "title": "Batch gates equal single gates", "statement": "BatchNAND, BatchAND, BatchOR, BatchXOR and BatchNOR return, position by position, exactly what the single gate returns, and so the gate's truth table, when no evaluator of the pool is handed out twice during the batch; under every other schedule they still return one ciphertext per position without a panic. False for BatchXNOR, which returns encryptions of XOR. False when an evaluator is reused: the first position then gets the second position's result.", "quantifier": "every batch size, every input, every history of batches, every goroutine schedule and pool behaviour", "why_tests_cant": "BatchXNOR and BatchNOR have no test; equality holds or fails depending on the schedule", "anchors": ["gates/gates.go: BatchNAND, BatchAND, BatchOR, BatchXOR, BatchNOR, BatchXNOR"]}
{"id": "C31", "title": "Batch gates under every schedule", "statement": "BatchBlindRotate returns the blind rotation of each input whatever the goroutine schedule. False: results point into pooled scratch buffers that are returned to the pool before the results are read, so a schedule that reuses an evaluator returns the second input's rotation for both. It holds for schedules in which no evaluator is reused, and such schedules exist for every batch. Under every schedule the call returns one result per input, without a panic, and changes no object outside the pool.", "quantifier": "every goroutine schedule and pool behaviour, every history of batches, every batch", "why_tests_cant": "depends on scheduling and on sync.Pool; a lucky schedule passes", "anchors": ["trgsw/trgsw.go: BatchBlindRotate, evaluatorPool", "poly/buffer_methods.go: GetTRLWEBuffer"]}
{"id": "C32", "title": "Lifetime of returned ciphertexts", "statement": "The ciphertext returned by Evaluator.Bootstrap or BootstrapLUTTemp keeps its value through the next three bootstraps on that evaluator and is overwritten by the fourth; ResetBuffers voids the guarantee; results of gates and of BootstrapLUT/BootstrapFunc are never overwritten.", "quantifier": "every history of calls on an evaluator", "why_tests_cant": "needs arbitrary call histories", "anchors": ["evaluator/buffers.go: GetNextResult, Reset", "evaluator/evaluator.go: Bootstrap", "evaluator/programmable_bootstrap.go: BootstrapLUT, BootstrapLUTTemp"]}
{"id": "C33", "title": "History independence of an evaluator", "statement": "The output of a bootstrap depends only on its arguments, not on what the evaluator computed before.", "quantifier": "every prior content of all scratch buffers", "why_tests_cant": "unbounded histories", "anchors": ["evaluator/evaluator.go", "evaluator/buffers.go"]}
{"id": "C34", "title": "Shallow copies are usable", "statement": "ShallowCopy of an evaluator always returns, gives the copy buffers of its own and changes nothing that existed. But a copy cannot bootstrap like the original: its decomposer has one level, and every external product, CMUX, blind rotation and bootstrap on it panics, whatever the arguments.", "quantifier": "every reachable evaluator, every parameter set, every argument and later history", "why_tests_cant": "no test calls ShallowCopy", "anchors": ["evaluator/evaluator.go: ShallowCopy", "poly/decomposer.go: NewDecomposer, GetPolyDecomposedBuffer"]}
{"id": "C35", "title": "Gates work at every security level", "statement": "After selecting a security level and generating keys, the gates work at the 128-bit level and at Uint1, and only there: the package evaluator is sized once at start-up for the 128-bit level. At Uint2 to Uint8 every gate call panics; at the 80-bit and 110-bit levels a gate call panics or returns a ciphertext with an all-zero mask, readable without the key.", "quantifier": "every security level, key made at it, input and history of calls", "why_tests_cant": "tests run gates at the start-up level", "anchors": ["gates/gates.go: init, globalEval", "evaluator/buffers.go: NewBufferPool", "trgsw/keyswitch.go: IdentityKeySwitchingAssign", "README.md"]}
{"id": "C36", "title": "Gates called from several goroutines", "statement": "The functions of package gates are not safe for concurrent use: for any two gates on any inputs there is an interleaving of two goroutines under which both calls return an encryption of the first gate's result, so OR(true,false) running beside AND(true,false) can make AND return true. If each goroutine has an evaluator of its own (the cloud key and input ciphertexts may be shared), then under every interleaving nothing panics, every goroutine ends, it gets exactly the ciphertexts it would get running alone, these decrypt to the plaintext circuit's bits, and ciphertexts held elsewhere do not change.", "quantifier": "every number of goroutines, every circuit each of them evaluates, every key, inputs and earlier calls, every interleaving of single memory accesses", "why_tests_cant": "an interleaving that goes wrong may never occur in a test run, and the absence of interference is a statement about all of them", "anchors": ["gates/gates.go: globalEval, bootstrap, NAND ... MUX", "evaluator/evaluator.go: Bootstrap, BlindRotateAssign", "evaluator/buffers.go: GetNextResult"]}
{"id": "C37", "title": "LUT layout", "statement": "GenLookUpTable(f) stores the encoding of f(x) at every index within N/(2M) of the position x*N/M of message x, wrapping around to negated values for x = 0, for every message modulus M with 2M dividing N (and the matching rounded window for any other M). GenLookUpTableFull does the same for functions into the torus. GenLookUpTableCustom gives the table of a generator made for its own modulus and scale and leaves the generator's encoder unchanged. For M = N, which the code accepts, the table is off by one. Copy and CopyFrom give the same table, Clear the zero table.", "quantifier": "every function f, every modulus, every index", "why_tests_cant": "all functions and all indices", "anchors": ["lut/generator.go: GenLookUpTableAssign, GenLookUpTableFullAssign, GenLookUpTableCustom", "lut/lut.go: Copy, CopyFrom, Clear"]}
{"id": "C38", "title": "Programmable bootstrapping evaluates the function", "statement": "BootstrapFunc/BootstrapLUT and their Temp and Assign variants, on an encryption of x, give an encryption of f(x) mod M for every function f, with output noise independent of the input noise, whenever the input's phase after rounding is in x's window; a phase in the upper half of the torus gives -f. With the noise of the input, the rounding and the keys within explicit budgets the result decrypts to f(x) mod M.", "quantifier": "every function, message, modulus, key and noise within budget, every reachable evaluator state", "why_tests_cant": "all functions and noises", "anchors": ["evaluator/programmable_bootstrap.go", "lut/generator.go", "tlwe/programmable_encrypt.go"]}
{"id": "C39", "title": "Nibble adder example", "statement": "The add_two_numbers example computes a+b mod 256 for all bytes a, b with three programmable bootstraps on encrypted nibbles of message modulus 32.", "quantifier": "every pair of bytes, every noise within budget", "why_tests_cant": "65536 inputs times noise", "anchors": ["examples/add_two_numbers/main.go"]}
{"id": "C40", "title": "Modulus switching", "statement": "ModSwitch(x) is x*N/2^32 rounded half up, modulo N, for every uint32 x.", "quantifier": "every uint32 and every N that is a power of two", "why_tests_cant": "2^32 inputs and rounding ties", "anchors": ["lut/generator.go: ModSwitch"]}
{"id": "C41", "title": "Public key encryption", "statement": "A ciphertext produced by the public key decrypts, under the secret key, to the encrypted bit, for every random choice, when the sum of the noises of the selected zero encryptions plus the fresh noise is below 1/8.", "quantifier": "every public key, selection of entries and signs, noise", "why_tests_cant": "3^(2n) random combinations", "anchors": ["proxyreenc/proxyreenc.go: NewPublicKeyLv0, EncryptF64, EncryptBool"]}
{"id": "C42", "title": "Proxy re-encryption", "statement": "Re-encrypting a ciphertext of Alice with a re-encryption key to Bob (asymmetric or symmetric) gives a ciphertext whose phase under Bob's key differs from the original by at most an explicit bound; and, for the noises that were drawn with the key, exactly by the noises of the entries which the digits of the ciphertext's mask select, up to the error of rounding the mask to the digits.", "quantifier": "every ciphertext, pair of keys, key noises and valid BASEBIT, T", "why_tests_cant": "all noise patterns", "anchors": ["proxyreenc/proxyreenc.go: ReencryptTLWELv0, NewProxyReencryptionKeyAsymmetricWithParams, NewProxyReencryptionKeySymmetricWithParams"]}
{"id": "C43", "title": "Multi-hop re-encryption", "statement": "A chain of h re-encryptions preserves the message as long as h times the per-hop bound plus the initial noise is below 1/8.", "quantifier": "every chain length and every sequence of keys", "why_tests_cant": "unbounded chains", "anchors": ["proxyreenc/proxyreenc.go: ReencryptTLWELv0"]}
{"id": "C44", "title": "Re-encryption parameter limits", "statement": "Re-encryption works for every BASEBIT*T <= 31 and panics for every BASEBIT*T >= 32.", "quantifier": "every BASEBIT and T", "why_tests_cant": "parameters are free integers", "anchors": ["proxyreenc/proxyreenc.go: ReencryptTLWELv0, NewProxyReencryptionKeySymmetricWithParams"]}
{"id": "C45", "title": "Bit vector encryption", "statement": "DecryptBits(EncryptBits(bits)) = bits for slices of any length when every noise is within the margin.", "quantifier": "every slice length, key and noise vector", "why_tests_cant": "unbounded lengths", "anchors": ["bitutils/bitutils.go: EncryptBits, DecryptBits"]}
{"id": "C46", "title": "Cloud key contents", "statement": "The decomposition offset equals half the gadget base at each level, the test vector is the constant 1/8, bootstrapping entry i encrypts lv0 key bit i, key switching entry (i,j,k) encrypts k*s_i*2^-(BASEBIT*(j+1)), and a cloud key made without a key switching key has only zero entries.", "quantifier": "every secret key and level", "why_tests_cant": "all keys", "anchors": ["cloudkey/cloudkey.go"]}
{"id": "C47", "title": "The cloud key does not give away the secret key", "statement": "The cloud key is meant to be handed to an untrusted server, so nobody should be able to compute the secret key from it. False at the security levels Uint2 to Uint8: the standard deviation used for the bootstrapping key is so small compared with the 32-bit torus that every noise sample within 100 standard deviations is rounded to 0, and an explicit computation on the cloud key alone (inverse transform of the published rows, one linear equation modulo 2) returns the complete secret key, both levels, unless every random mask has an even coefficient sum. At the other levels a sample is lost only if it is below 1/64 of a standard deviation; the torus conversion loses exactly the samples of absolute value below 2^-32.", "quantifier": "every secret key, all masks (one with an odd sum), all noise samples within 100 standard deviations, every level Uint2..Uint8; every parameter set whose rounded samples are 0", "why_tests_cant": "Gates decrypt correctly (even better) without noise, so no functional test notices; the claim is about all random draws and about an adversary.", "anchors": ["utils/utils.go F64ToTorus, GaussianTorus", "params/params.go BSKAlpha, paramsUint2..paramsUint8", "trgsw/trgsw.go EncryptTorus", "trlwe/trlwe.go EncryptF64", "cloudkey/cloudkey.go NewCloudKey"]}
{"id": "C48", "title": "Keys and ciphertexts carry their full randomness", "statement": "NewSecretKey and the encryptions are expected to draw keys, masks and noise that an outsider cannot enumerate. False: each call seeds a math/rand generator, which keeps only the seed modulo 2^31-1. Whatever that generator computes, NewSecretKey can return at most 2^31-1 different keys and some binary keys never occur; among 2^31 encryptions of a bit two are identical; two encryptions with equal reduced seeds have the same mask and are equal exactly when their bits are; and a public key encryption that can be decrypted with the secret key can also be opened with the public key alone by trying the 2^31-1 seeds.", "quantifier": "every generator (any function of the reduced seed), all seeds, keys, bits and dimensions", "why_tests_cant": "A collision or an enumeration needs about 2^31 calls; a test sees a handful of distinct outputs.", "anchors": ["key/key.go NewSecretKey", "tlwe/tlwe.go EncryptF64, EncryptBool", "proxyreenc/proxyreenc.go PublicKeyLv0.EncryptF64, EncryptBool"]}
{"id": "C49", "title": "Programs over the polynomial API", "statement": "Any sequence of calls of the public polynomial API (create, write coefficients, copy, clear, transform, add, subtract, multiply, multiply-add, multiply-subtract, multiply by a number, transform back with overwrite/add/subtract, direct products), on any variables and with any aliasing of arguments and results, leaves in every polynomial variable exactly what the same program means over integer polynomials modulo X^N+1 (coefficients modulo 2^32 where they are read back). With exact complex arithmetic this holds for every program; in float64 it holds for every program that an integer-only check of magnitudes accepts. A FourierPoly given to an Unsafe transform is used up: nothing is promised about it afterwards. Whatever the arithmetic does, no call on existing variables panics. The pointwise operations give the same numbers whether or not the output is one of the inputs, and touch no other buffer.", "quantifier": "every finite program, every aliasing, every degree 2^k (k>=4; in float64 k<=51), every memory the evaluator is created in, every exponential function within the stated error", "why_tests_cant": "unbounded sequences of calls and aliasing patterns over unbounded inputs; float64 errors accumulate along the sequence", "anchors": ["poly/fourier_ops.go", "poly/fourier_transform.go ToFourierPoly, ToPoly and the Assign forms", "poly/poly_mul.go MulPoly, MulPolyAssign, MulAddPolyAssign, MulSubPolyAssign", "poly/poly.go Copy, CopyFrom, Clear", "poly/poly_evaluator.go NewPoly, NewFourierPoly"]}
{"id": "C50", "title": "Programs over encrypted messages", "statement": "A program of any length over encrypted messages of modulus 2^k, made of Add, Sub, Neg, AddMul, SubMul, AddAssign, table generation and programmable bootstraps (BootstrapLUT, BootstrapFunc and their Assign forms, outputs may be inputs), computes its meaning: every ciphertext decrypts to the value the same program computes on plain messages, provided its noise bounds, propagated by a short arithmetic check, allow each bootstrap. Positions beyond the modulus (after a sum or negation) act as the opposite point. Only the named outputs are overwritten, and new results are fresh. In float64 the bound on a bootstrap's noise follows from the parameters; consequently any number of functions can be applied in one ciphertext, and numbers of any number of digits in base B (2B <= 2^k) can be added, with the carry, as examples/add_two_numbers does for two.", "quantifier": "all programs, functions, messages, ciphertexts within their bounds, keys, noise within bounds, parameter sets of the required shape, histories of the evaluator, digit counts and bases", "why_tests_cant": "programs of unbounded length over all messages and keys; noise and buffer reuse accumulate along the program", "anchors": ["evaluator/programmable_bootstrap.go BootstrapFunc, BootstrapFuncAssign, BootstrapLUT, BootstrapLUTAssign", "tlwe/tlwe.go Add, Sub, Neg, AddMul, SubMul, AddAssign", "lut/generator.go GenLookUpTable", "tlwe/programmable_encrypt.go", "examples/add_two_numbers/main.go"]}
{"id": "C51", "title": "Message capacity of the Uint levels", "statement": "The position a programmable bootstrap reads is the encrypted message moved by the noise and by how the coefficients of the mask round to multiples of 1/(2N); this determines the result exactly for every ciphertext. Counting masks: at Uint1, Uint2, Uint3 and Uint4, for every key, bootstrapping any function of a message of 1, 2, 3, 4 bits with noise up to 1/128 of the distance of two messages gives the function's value (provided the noise the bootstrap adds is less than half that distance), except for at most one mask in 2^30; at Uint5 (5 bits, key of weight at most 640 of 1071) except for at most one in 2048. At Uint7 and Uint8 the promise that 7 and 8 bit messages can be bootstrapped is false: for every key of weight at least 450 (480) of 1160, at least a hundredth (a tenth) of all masks make the bootstrap read another message, whatever the noise, so that even refreshing a message (bootstrapping the identity) changes it.", "quantifier": "all keys (of the stated weights), all masks by exact counting, all functions and messages, all noise within bounds, all randomness of key generation, all reachable evaluator states", "why_tests_cant": "statements about the fraction of all (2^32)^n masks for every key; a test samples a few masks and its failure would look like an unlucky draw", "anchors": ["params/params.go paramsUint1 to paramsUint8", "evaluator/evaluator.go BlindRotateAssign (rounding of the mask)", "evaluator/programmable_bootstrap.go BootstrapFunc", "lut/generator.go GenLookUpTable", "tlwe/programmable_encrypt.go"]}
{"id": "C52", "title": "Programs of several parties", "statement": "In a program of any length in which several parties encrypt bits (with their secret keys or under each other's public keys), hand each other ciphertexts through re-encryption keys (symmetric or asymmetric), and compute gates, MUX, NOT, Copy and Constant with the cloud key of the ciphertexts' owner, in one process with one shared evaluator, every ciphertext decrypts, with the secret key of the party it belongs to, to the bit the program means, provided the noise bounds, propagated by a short arithmetic check (re-encryption adds the link's error, a bootstrap resets the noise), stay in range. No earlier ciphertext and no key changes. In float64 the noise a bootstrap leaves follows from the parameters. A multi-bit message re-encrypted over any chain of parties can be the input of a programmable bootstrap with the last party's cloud key.", "quantifier": "all programs, numbers of parties and links, keys, bits, randomness within the bounds, orders of calls, reachable evaluator states, chain lengths, functions and messages", "why_tests_cant": "programs of unbounded length mixing keys of several parties in one evaluator's buffers; noise accumulates over re-encryptions between bootstraps", "anchors": ["proxyreenc/proxyreenc.go ReencryptTLWELv0, NewProxyReencryptionKeyAsymmetric, NewProxyReencryptionKeySymmetric, NewPublicKeyLv0", "gates/gates.go", "evaluator/evaluator.go", "evaluator/programmable_bootstrap.go BootstrapFunc", "examples/proxy_reencryption/main.go"]}
{"id": "C53", "title": "What a proxy's service reveals", "statement": "That the delegatee learns the converted messages and no more is false. Whoever may have ciphertexts of their choice converted and decrypts the results (the delegatee who asks the proxy, or the delegatee and the proxy together) finds the delegator's complete secret key with n fixed ciphertexts, one per key bit, at every security level, in the asymmetric and in the symmetric mode, with the default digits, for any key noise below 1/64 of the torus; also through any chain of proxies within the decryption range. The same n questions to anybody who tells which bit a ciphertext decrypts to recover the key exactly. So a re-encryption key delegates everything the delegator's key protects, forever, and not the messages chosen for conversion.", "quantifier": "all secret keys, all randomness of the keys within the bound, all levels, both modes, all digits with basebit*t >= 2, all chains", "why_tests_cant": "tests convert honest ciphertexts only; the claim is about every key and a chosen-ciphertext strategy", "anchors": ["proxyreenc/proxyreenc.go package comment (Security), ReencryptTLWELv0, NewProxyReencryptionKeyAsymmetric, NewProxyReencryptionKeySymmetric", "tlwe/tlwe.go DecryptBool"]}
{"id": "C54", "title": "Pools of scratch buffers", "statement": "A polynomial returned by PolyMulWithXK stays what it is until the fourth next call: in every sequence of calls whose operands are the caller's polynomials or one of the last three results, each of the last four results is the caller's polynomial times the product of the powers of X (up to 0 or -1 per coefficient, which does not add up), and nothing of the caller's changes. Three is exact: multiplying the fourth last result by X fills it with copies of one coefficient. A BufferManager hands out, for every sequence of calls and resets, four distinct new buffers of each kind in turn, so the fifth is the first again. The aligned constructors return the same as the ordinary ones for every degree, valid or not. The reported memory is not what is held: the manager counts each Fourier buffer twice, and the evaluator's pool reports between 6/5 and 3/2 of what it holds at every level. The ring ciphertext buffers of an evaluator are handed out in the same way; clearing one zeroes both slices and nothing else. The numbered buffers are exactly 0 to 7, a copy into one changes no other, and the buffer names mean five distinct buffers, all other names panicking.", "quantifier": "all sequences of calls, exponents, polynomials, degrees, memories and levels", "why_tests_cant": "lifetimes depend on the whole history of calls; a test that uses fewer than four results at once never sees a reuse", "anchors": ["poly/buffer_methods.go GetRotationBuffer, PolyMulWithXK, PolyMulWithXKInPlace, ResetRotationPool", "poly/buffer_manager.go NewBufferManager, GetRotationBuffer, GetTRLWEBuffer, Reset, MemoryUsage", "poly/aligned.go NewPolyAligned, NewFourierPolyAligned", "evaluator/buffers.go NewBufferPool, newBlockRotationBuffers, MemoryUsage", "poly/buffer_methods.go GetTRLWEBuffer, ResetTRLWEPool, ClearTRLWEBuffer, ClearBuffer, BufferToPolyAssign, GetDecompBuffer, GetDecompFFTBuffer, CopyToDecompBuffer; evaluator/buffers.go Reset"]}
{"id": "C55", "title": "The example programs print the right answers", "statement": "Each example program, as a whole from key generation and encryption to the values it prints, ends without panic and prints the right answers: simple_gates the truth table of the six gates and of NOT; programmable_bootstrap the identity, NOT, both constants, NOT through one shared lookup table and the increment modulo 4; add_two_numbers a + b modulo 256 for all bytes a and b; proxy_reencryption the five messages for Bob with the count 5 of 5, and the last message for Bob and, two hops away, for Carol. This holds for all draws whose noise in the run stays within explicit margins, and for float64 arithmetic for all draws within worst-case bounds.", "quantifier": "all random draws of keys, masks, noises and selections within the noise bounds, all bytes, all parameter sets that fit, any arithmetic of the Fourier transform", "why_tests_cant": "a run of a program is one draw of its randomness", "anchors": ["examples/simple_gates/main.go", "examples/programmable_bootstrap/main.go", "examples/add_two_numbers/main.go", "examples/proxy_reencryption/main.go"]}
{"id": "C56", "title": "Public keys and re-encryption keys fail for few coin tosses", "statement": "A public key encryption adds each zero encryption with a random sign or not at all, so the noise of a re-encryption with an asymmetric key is a sum with random signs. Over all coin tosses and all signs of the fresh noises, the noise used by one re-encryption has average exactly 0 and a known average square: half of (the number of digits used times the sum of squares of the public key's noises, plus twice the sum of squares of the fresh noises). After a chain of re-encryptions of any length with asymmetric and symmetric keys the bit is recovered for all but a fraction 2 exp(-T^2/Q) of the tosses, where T is the margin left after the rounding of digits and Q the sum of these squares. At the 128-bit level with noises as drawn in practice, a public key encryption fails for less than one in 2^1000 tosses, an asymmetric hop for at most one in 16 (one in 50 when at most 4800 of the 6300 digits are used), and five symmetric hops for at most one in a million. The same keys serve many ciphertexts: for all but the fraction L * 2 exp(-T^2/Q) of the tosses they work for every one of L given ciphertexts, bits or messages of any moduli below 2^20, each recovered exactly when the margin allows it.", "quantifier": "all secret keys, public keys, masks, noise magnitudes, ciphertexts and lists of them, message moduli, chains of hops of both kinds, and all coin tosses and signs", "why_tests_cant": "the tosses of one re-encryption key at the 128-bit level number more than 4^35000000, and a run sees one of them", "anchors": ["proxyreenc/proxyreenc.go: NewPublicKeyLv0, EncryptBool, NewProxyReencryptionKeyAsymmetric, NewProxyReencryptionKeySymmetric, ReencryptTLWELv0"]}
{"id": "C57", "title": "Bootstraps fail for few sign tosses of the cloud key", "statement": "The noise a bootstrap takes from the cloud key is a sum of the key's noise samples, each multiplied by a digit of the run, and each sample is as likely positive as negative. For a ciphertext and test vector fixed beforehand, key generation succeeds for all signs of the samples, and for all but a fraction 2 exp(-T^2/Q) of them the noise of the bootstrap is at most T, plus the total the decompositions cut off in this run, plus a constant for the Fourier transform and rounding. Q is twice (4^(bg-1) times the sum of squares of the bootstrapping key's noises, plus the sum of squares of the key switching key's noises). The digits of a step may depend on the signs of all earlier parts of the key. Several given bootstraps are good at once but for the sum of their fractions. So a gate on given ciphertexts decrypts to its truth table, and a programmable bootstrap to its table entry, but for that fraction. At the 128-bit level with noises as drawn in practice a gate on fresh ciphertexts fails for at most one in 10^14 sign tosses, if the total cut off by the decompositions in the run is at most 2^28 (its worst case is ten times as much). Gates on outputs of earlier gates with the same key are not covered, since these depend on the signs.", "quantifier": "all parameter sets, secret keys, masks, noise magnitudes, ciphertexts, test vectors, tables, gates, cosine and sine functions as accurate as C14 asks, reachable evaluator states, and all signs of the noise samples of the cloud key", "why_tests_cant": "the signs of a cloud key at the 128-bit level number 2^4337664, a failure rate of 10^-14 cannot be observed, and the digits of the run depend on the signs", "anchors": ["cloudkey/cloudkey.go: NewCloudKey, genBootstrappingKey, genKeySwitchingKey", "evaluator/evaluator.go: BlindRotateAssign, BootstrapAssign", "evaluator/programmable_bootstrap.go: BootstrapLUT", "trgsw/trgsw.go: IdentityKeySwitching", "gates/gates.go: AND, OR, NAND, NOR, XOR, XNOR, ANDNY, ANDYN, ORNY, ORYN"]}
{"id": "C58", "title": "Batches keep working when the security level changes", "statement": "The evaluators of the batch operations come from one pool that outlives changes of the security level. Evaluators left in the pool by batches at one level serve every level of the same ring size (80, 110 and 128 bits, Uint1 and Uint3 share one; Uint4 to Uint8 share another): C30 and C31 hold there. But if the pool has evaluators from a level of another ring size, a batch that takes one of them does not return: the blind rotation panics, and with it the program, whatever the keys, the inputs and the schedule.", "quantifier": "all sequences of batches and levels, keys made at the current level, inputs, test vectors, schedules, and states of memory in which the pool's buffers have kept their lengths", "why_tests_cant": "tests run their batches at one level; and whether a goroutine takes an old evaluator depends on the schedule and the garbage collector", "anchors": ["trgsw/trgsw.go: evaluatorPool, BatchBlindRotate, BlindRotate, CMUX", "gates/gates.go: BatchNAND, BatchAND, BatchOR, BatchXOR, BatchNOR, BatchXNOR", "params/params.go: CurrentSecurityLevel"]}
{"id": "C59", "title": "Encrypted programs on several goroutines", "statement": "Goroutines that run programs of linear operations and programmable bootstraps, each with an evaluator of its own, may share the cloud key and any ciphertexts and lookup tables that none of them writes to. Under every schedule nothing panics, every goroutine gets exactly the ciphertexts and tables it gets when it runs alone, hence (within the noise bounds of C50) each result decrypts to what its program computes on messages, and nothing but the outputs of their own calls changes. On one shared evaluator this is false: for every pair of BootstrapLUT calls there is a schedule under which both return the value of the first.", "quantifier": "all numbers of goroutines, programs, keys, ciphertexts, tables and earlier calls, and all schedules of single memory accesses", "why_tests_cant": "tests run one schedule of a few goroutines; a result that is overwritten between two accesses of another goroutine shows up only under particular schedules", "anchors": ["evaluator/programmable_bootstrap.go: BootstrapFunc, BootstrapFuncAssign, BootstrapLUT, BootstrapLUTAssign", "evaluator/buffers.go: GetNextResult", "evaluator/evaluator.go: BlindRotateAssign, ShallowCopy", "tlwe/tlwe.go: Add, Sub, Neg, AddMul, SubMul, AddAssign", "lut/generator.go: GenLookUpTable"]}
{"id": "C60", "title": "Encoders with a custom scale", "statement": "An encoder made with a message modulus M and a scale of one's own decodes what it encodes, for every message, provided the scale is at least 2^-29 and the largest message stays below 1; DecodeBool tells zero from non-zero. Noise below half the scale does no harm unless it carries the value over the end of the torus; it may do that too if the scale cuts the torus into a multiple of M parts, and otherwise noise -1 turns message 0 into another message. Bootstrapping with a custom table gives a ciphertext whose phase decodes to the function's value. A scale that is too fine makes every message 0, one that is too coarse gives two messages one code.", "quantifier": "all message moduli, all scales (every float64), all messages and all noise values", "why_tests_cant": "the float64 scale, the modulus and the noise together have far too many values, and the failures lie at roundings and at the end of the torus", "anchors": ["lut/encoder.go: NewEncoderWithScale, Encode, EncodeWithCustomScale, Decode, DecodeBool", "lut/generator.go: GenLookUpTableCustom, NewGeneratorWithScale"]}
{"id": "C61", "title": "Gates and programmable bootstraps can be mixed on the same ciphertexts", "statement": "A program of any length that calls gates, linear operations and programmable bootstraps in any order on the same ciphertexts and the same evaluator computes what the calls mean, as long as the noise bounds allow each bootstrap. An encrypted bit is also an encrypted message: with messages of modulus 2^k (k >= 2), true is position 2^(k-2) and false is position 7*2^(k-2) of 2^(k+1). So any predicate of an encrypted message can be turned into a bit for the gates, and the result of a gate into the message 1 or 0. Ciphertexts that are not outputs keep their contents.", "quantifier": "all parameter sets that satisfy the checks, keys, randomness, programs, messages, bits, predicates, moduli 2^k with 2 <= k < log2 N, and states of the evaluator", "why_tests_cant": "programs have any length and any mix of calls; both packages share the evaluator's buffers, and the noise bound has to hold for every key and every mask", "anchors": ["gates/gates.go: AND, OR, XOR, NOT, Constant, Copy, MUX and the other gates", "evaluator/programmable_bootstrap.go: BootstrapFunc, BootstrapLUT and their Assign forms", "tlwe/tlwe.go: Add, Sub, Neg, AddMul, SubMul", "lut/generator.go: GenLookUpTable"]}
{"id": "C62", "title": "Goroutines that mix gates and programmable bootstraps do not disturb each other", "statement": "Any number of goroutines share one cloud key. Each has an evaluator of its own and runs a program of any length that calls gates, linear operations and programmable bootstraps in any order. Ciphertexts and lookup tables may be shared as long as no goroutine is given a ciphertext that another writes to. Under every interleaving of their memory accesses nothing panics, every goroutine gets exactly the ciphertexts and tables it gets when it runs alone, and every ciphertext decrypts to the message or bit its program computes. The test vector of the cloud key and everything else nobody writes to keep their contents, and the goroutines can be given more calls afterwards. With one evaluator for two goroutines this is false: a programmable bootstrap and a gate on ciphertexts of their own can be scheduled so that both return the result of the programmable bootstrap, and the gate's result can decrypt to the wrong bit.", "quantifier": "all parameter sets that satisfy the checks, keys, randomness, numbers of goroutines, programs, messages, bits, tables, moduli 2^k with 2 <= k < log2 N, and schedules", "why_tests_cant": "the number of interleavings is exponential in the number of memory accesses, and a test run or the race detector sees one of them", "anchors": ["gates/gates.go: AND, OR, XOR, NOT, Constant, Copy, MUX and the other gates", "evaluator/evaluator.go: NewEvaluator, Bootstrap", "evaluator/programmable_bootstrap.go: BootstrapFunc, BootstrapLUT and their Assign forms", "tlwe/tlwe.go: Add, Sub, Neg, AddMul, SubMul, AddAssign", "cloudkey/cloudkey.go: CloudKey"]}
{"id": "C63", "title": "Several parties can mix messages, bits, tables and re-encryption", "statement": "Parties that encrypt messages and bits (with secret or public keys), run gates, linear operations and programmable bootstraps on their own ciphertexts with their own cloud keys, and hand ciphertexts to each other through re-encryption keys obtain, in every order of calls and after any number of hand-overs, what the program means: each message and each bit decrypts with the secret key of the party that holds it, as long as the noise bounds allow each bootstrap. The parties' work does not disturb each other's ciphertexts and tables: buffers that are not outputs of a call keep their contents, and results are new buffers.", "quantifier": "all parameter sets that satisfy the checks, numbers of parties, keys, randomness, re-encryption keys, programs, messages, bits, functions, moduli 2^k with 2 <= k < log2 N, and states of the evaluator", "why_tests_cant": "programs have any length and any interleaving of the parties' calls; the noise of encryption, re-encryption and bootstraps accumulates along every path through the parties and has to be bounded for every key and mask", "anchors": ["gates/gates.go: AND, OR, XOR, NOT, Constant, Copy, MUX and the other gates", "evaluator/programmable_bootstrap.go: BootstrapFunc, BootstrapLUT and their Assign forms", "tlwe/tlwe.go: Add, Sub, Neg, AddMul, SubMul", "tlwe/programmable_encrypt.go: EncryptLWEMessage", "proxyreenc/proxyreenc.go: ReencryptTLWELv0", "proxyreenc/proxyreenc.go: EncryptBool"]}
{"id": "C64", "title": "A TRLWE ciphertext survives its Fourier form, except through the dummy", "statement": "Converting a ring ciphertext to its Fourier form gives two slices of the evaluator's length without infinities or NaNs, and transforming them back gives the ciphertext bit for bit, whatever the buffers hold. The empty Fourier form a user allocates to be filled in does not work: its slices are twice as long as the evaluator's, and every operation that writes to one or transforms it in place panics. Only as an operand does it behave like the zero polynomial.", "quantifier": "all ring sizes 2^k with 4 <= k <= 21 (the dummy: all k >= 4), ciphertexts, buffer contents, machines (fused or separate products, any cmplx.Exp accurate to 3 * 2^-53 on [-4,4]), and, for the dummy, every arithmetic", "why_tests_cant": "nothing in the repository calls these functions; the round trip depends on rounding for each of 2^(32*2N) ciphertexts", "anchors": ["trlwe/trlwe.go: TRLWELv1FFT, NewTRLWELv1FFT, NewTRLWELv1FFTDummy", "poly/fourier_transform.go: ToFourierPoly, ToFourierPolyAssign, ToPoly, ToPolyAssign, ToPolyAssignUnsafe, fftInPlace, ifftInPlace", "poly/fourier_ops.go: AddFourierPolyAssign, SubFourierPolyAssign, MulFourierPolyAssign, MulAddFourierPolyAssign, MulSubFourierPolyAssign, FloatMulFourierPolyAssign, FloatMulAddFourierPolyAssign", "poly/poly.go: NewFourierPoly"]}
{"id": "C65", "title": "Message programs work for every modulus, and may mix moduli", "statement": "A program of any length made of the linear ciphertext operations (Add, Sub, Neg, AddMul, SubMul, AddAssign) and of programmable bootstraps (tables made once or functions given at the call, results new or written into an existing ciphertext), where every bootstrap has a message modulus of its own below 2^20 that need not be a power of two, never panics and leaves in every ciphertext an encryption of its meaning, provided its noise bounds allow each bootstrap. A result can be decrypted with every modulus whose grid contains it. Ciphertexts, tables and evaluator that are not outputs are unchanged. In particular two numbers of any number of digits in any base B (for instance decimal) are added correctly with every modulus from 2B.", "quantifier": "all programs, moduli, functions, messages, keys and reachable evaluator states; all float64 machines whose cos and sin are accurate; all numbers of digits and bases of the adder", "why_tests_cant": "the programs, functions, moduli and noises are unboundedly many; for a modulus that is not a power of two the encoder, the table and the decoder round differently, so a test on a few messages does not bound the accumulated rounding", "anchors": ["evaluator/programmable_bootstrap.go: BootstrapLUT, BootstrapLUTAssign, BootstrapFunc, BootstrapFuncAssign", "lut/generator.go: NewGenerator, GenLookUpTable", "lut/encoder.go: Encode", "tlwe/programmable_encrypt.go: EncryptLWEMessage, DecryptLWEMessage", "tlwe/tlwe.go: Add, Sub, Neg, AddMul, SubMul"]}
{"id": "C66", "title": "A hostile client can neither crash the evaluator nor influence other clients", "statement": "A server uses one evaluator for many clients. Whatever numbers a client puts in a cloud key (including NaN and infinities) and in its ciphertexts, as long as the slices have the lengths of the parameter set, programs of gates, linear operations and programmable bootstraps and calls of Bootstrap with those keys return without panic, with results of the right length, and change no buffer of anyone except the outputs named in the call. What a client gets is a function of its own key, ciphertexts and tables: it is the same on every evaluator, whatever ran there before. In particular a client with a real key and fresh ciphertexts gets results that decrypt correctly on an evaluator that served such hostile clients before.", "quantifier": "all keys and ciphertexts of the right lengths with any contents, all programs, all finite histories of an evaluator (including calls with hostile keys, rotations, external products and CMUX on arbitrary operands, and resets), all parameter sets, any arithmetic for the Fourier transforms and every float64 machine whose cos and sin are accurate", "why_tests_cant": "hostile contents and histories are unboundedly many; an input that panics or leaves NaN behind in a work buffer may be one bit pattern in 2^64, and the damage would show only in a later client's result", "anchors": ["evaluator/evaluator.go: Bootstrap, BootstrapAssign, BlindRotateAssign, ExternalProductAssign, CMuxAssign, ResetBuffers", "evaluator/programmable_bootstrap.go: BootstrapLUT, BootstrapFunc", "gates/gates.go: NAND, OR, AND, XOR, XNOR, NOR, MUX, NOT, Copy", "cloudkey/cloudkey.go: CloudKey", "poly/fourier_ops.go, poly/decomposer.go", "trgsw/keyswitch.go: IdentityKeySwitchingAssign"]}
{"id": "C67", "title": "With a goroutine for each client, hostile clients cannot disturb the others under any schedule", "statement": "A server runs a goroutine for each client, each with an evaluator of its own, the clients' keys, numbers of message bits, programs and ciphertexts all different. Some clients put arbitrary numbers (NaN and infinities included) in their cloud keys and ciphertexts; only the lengths are right. Under every schedule of the goroutines' memory accesses no goroutine panics or gets stuck, every client gets exactly the numbers it gets when nothing else runs, and no buffer changes that no program names as an output. A client with a real key and encryptions gets ciphertexts that decrypt to what its program computes, whatever the others send and whenever their calls run. For any number of clients and any requests the server can be set up like this.", "quantifier": "all numbers of clients, all keys and ciphertexts of the right lengths with any contents, all programs of gates, linear operations, table generation and programmable bootstraps, all prior histories of the evaluators, all schedules, all parameter sets, any arithmetic for the Fourier transforms and every float64 machine whose cos and sin are accurate", "why_tests_cant": "schedules and hostile contents are unboundedly many, and their product even more so; the race detector only sees the schedules and contents that were run", "anchors": ["evaluator/evaluator.go: NewEvaluator, Bootstrap, BootstrapAssign, BlindRotateAssign", "evaluator/programmable_bootstrap.go: BootstrapLUT, BootstrapLUTAssign, BootstrapFunc, BootstrapFuncAssign", "gates/gates.go: NAND, OR, AND, XOR, XNOR, NOR, MUX, NOT, Copy", "cloudkey/cloudkey.go: CloudKey", "lut/generator.go: GenLookUpTable", "tlwe/tlwe.go: Add, Sub, Neg, AddMul, SubMul"]}
{"id": "C68", "title": "Ciphertexts and keys of another level's dimension: too short panics, too long is silently misread", "statement": "The dimension of ciphertexts comes from the global security level. Of a ciphertext with too few entries (made at a level of smaller dimension) every linear operation, decryption, re-encryption, gate and bootstrap panics, whatever the other operands, keys and buffers hold. Copy is the exception: it returns a ciphertext of the current dimension whose missing entries, the body included, are zero. Of a ciphertext with too many entries only the first n+1 are read: every linear operation, decryption, re-encryption and gate gives what it gives for any other ciphertext with the same first entries. It is false that a ciphertext of a larger dimension is rejected or keeps its message: encryptions of true and of false made with the same randomness decrypt to the same bit and give the same result in every gate. The same holds for keys: encryption and decryption with a secret key that is too short, and every bootstrap and gate with a cloud key made at a level of smaller dimension, panic; of longer keys only the first n parts are read.", "quantifier": "all dimensions, all ciphertexts of any length and contents in any operand position, all gates, keys, tables, evaluators and memory contents, all encryption randomness", "why_tests_cant": "that nothing but the first entries is ever read, and that no state of keys and buffers lets a short ciphertext through, are statements about all contents; tests use one level and matching lengths", "anchors": ["tlwe/tlwe.go: Add, Sub, Mul, Neg, AddMul, SubMul, DecryptBool, EncryptBool", "tlwe/programmable_encrypt.go: DecryptLWEMessage", "proxyreenc/proxyreenc.go: ReencryptTLWELv0", "gates/gates.go: NAND, OR, AND, XOR, XNOR, NOR, MUX, NOT, Copy", "evaluator/evaluator.go: BlindRotateAssign, Bootstrap, BootstrapAssign", "evaluator/programmable_bootstrap.go: BootstrapLUT, BootstrapFunc", "params/params.go: CurrentSecurityLevel"]}
{"id": "C69", "title": "Batches of several callers in flight share one evaluator pool", "statement": "The pool of evaluators used by the batch operations is global, so batches started by different goroutines, of one user or of several users with keys of their own, share it. Under every interleaving and every behaviour of the pool nothing panics and nothing outside the pool's evaluators changes, and if the pool hands out no evaluator twice, over all batches together, then at every moment every finished rotation is that of its own ciphertext with its own test vector and key, and each user's batch gate returns encryptions of the right bits. This also holds when batches are called at any time, on ciphertexts computed meanwhile from earlier results, while other code runs and the pool drops evaluators. It is false that batches do not disturb each other: a batch of one ciphertext is right under every schedule when alone, but beside a second batch of one ciphertext there is a schedule in which the first finishes with the right result and then finds the rotation of the second user's ciphertext, under the second user's key, in its place before it has read it.", "quantifier": "any number of batches of any sizes in flight, all users' keys and randomness, all ciphertexts, test vectors and pool histories, all interleavings of the goroutines' steps and of the pool's choices, of other code's writes outside the evaluators and the arguments still read, at every moment", "why_tests_cant": "which evaluator sync.Pool returns and how goroutines of different callers interleave is outside a test's control; the failure needs one batch to start between the end of another's rotations and its reading of the results", "anchors": ["trgsw/trgsw.go: evaluatorPool, BatchBlindRotate", "gates/gates.go: BatchNAND, BatchAND, BatchOR, BatchXOR, BatchNOR, BatchXNOR"]}
{"id": "C70", "title": "Batches come to an end", "statement": "At every moment, whatever other code has run and however the pool has behaved, a goroutine of a batch that has not finished can take its next step without waiting for the pool, for another goroutine or for another caller, and without panicking; each step brings its own goroutine one step closer to its end and leaves the progress of the others as it was; a goroutine takes exactly n + 4 steps (n the dimension of the ciphertexts), so no schedule of the goroutines started so far is longer than n + 4 events each, and every partial schedule can be completed so that all batches return, with every result right if no evaluator has been handed out twice so far. Hence no schedule deadlocks or runs on for ever.", "quantifier": "any number of batches of any sizes in flight, all users' keys and randomness, all ciphertexts, test vectors and pool histories, other code running in between, all interleavings and pool choices, at every moment", "why_tests_cant": "a test observes some schedules end; that none blocks, and that no moment of any schedule leaves a goroutine without a step, ranges over all interleavings", "anchors": ["trgsw/trgsw.go: evaluatorPool, BatchBlindRotate", "gates/gates.go: BatchNAND, BatchAND, BatchOR, BatchXOR, BatchNOR, BatchXNOR"]}
