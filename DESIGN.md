# Formal model of go-tfhe in Rocq (Coq 8.16.1)

Source modelled: `/repo` (thedonutfactory/go-tfhe), read as text.
Properties: `properties.jsonl`.  Theorems per property: `MANIFEST.json`.
Mutation log: `seeded/LOG.jsonl`.

## 1. How the code is represented

| Go | Model |
|---|---|
| `params.Torus` (`uint32`) | `Z`, every operation wrapped explicitly modulo 2^32 |
| `int`, `int64`, `uint64` | `Z`; wrap written out where the code can reach it (bit conversion, float to int) |
| `float64` | Flocq `binary_float 53 1024` (IEEE-754 binary64, round to nearest even), or a polymorphic arithmetic record instantiated with it and with exact reals |
| slices | `list`; an index outside the slice gives the value `Panic PIndex` |
| panics (index, division by zero, negative shift, explicit) | constructor `Panic` of the result type `res` |
| `for` loops | structural recursion on the trip count (`for_range`) |
| pointers, in-place mutation, buffer pools | an explicit memory (`mem`) of torus buffers, Fourier buffers and ints addressed by locations, so that aliasing is representable |
| goroutines | explicit interleavings of write events, rotation steps or single memory accesses; the schedule is universally quantified |
| `math/rand`, Gaussian sampler | arguments of the model (arbitrary masks, arbitrary noise samples); theorems quantify over them |
| package-level parameters | a parameter set `pr : pset` passed to every function; `getParams` maps a security level to its set |
| Fourier evaluator, when used by upper layers | a record of operations (`fops`), built by `fft_evaluator R N` from the modelled FFT for an arithmetic `R`: `f64_arith mc` is IEEE binary64 on a machine `mc`, a record of what Go leaves open: the results of `cmplx.Exp(i x)`, and for every expression with a product next to a sum or difference, which product the compiler fuses with it, if any, and the value of `int64(x)` for an `x` that does not fit |

Layout of `rocq/theories`:

* model, one file per package or topic: `GoBase GoMem Params F64 Utils Key Tlwe TlweMem BitUtils Poly Fft Trlwe TrlweFft Trgsw Lut Evaluator CloudKey Gates ProxyReenc NibbleAdd Seed FourierApi Buffers Info Examples` `Flight` (several batches at a time), `Conc` (the gate operations as programs of memory accesses) and `ConcLut` (the same for programmable bootstraps).  Every definition cites file and lines.
* specification, independent of the code's helpers: `Spec RunSpec Circuit ReencSpec LutSpec BatchSpec LevelSpec ConcSpec ConcLutSpec ConcMixSpec FourierSpec LutProg ModProg MixProg MaskSpec Party MixParty PoolSpec SmallSpec ExampleSpec CoinSpec BootCoinSpec HostileSpec ConcHostSpec WrongLenSpec FlightSpec FlightOtherSpec FlightLiveSpec`, `Attack` (the attacker of C47 and C48) and `Spy` (that of C53).
* proofs: `*Facts`, `*Props`, `Fft*`, `*Err`, ...
* `Prop*.v`: the property theorems, each one `exact lemma`, with `Print Assumptions` and concrete cases that meet the hypotheses.
* `Tiny TinyRun NoiseCheck`: a small parameter set (N = 16, n = 3) on which whole runs are computed in the kernel, with the noise of each run measured.

### Vocabulary used in the theorems

* `phase`, `lwe_phase n s c` is `b - <a, s>` mod 2^32; `centered` is its representative in [-2^31, 2^31).  `encrypts n s c b E`: the phase of `c` is within `E` of +1/8 (true) or -1/8 (false).
* `setup R O pr sk rk rb ck`: `pr` is well formed, `O` is the evaluator the code's constructor returns for arithmetic `R`, `sk` a binary key of the right sizes, and `ck` the result of the modelled `NewCloudKey` on the randomness `rk`, `rb`.  Nothing else is assumed about the key.
* `reachable O pr e m`: evaluator `e` in memory `m`, after `NewEvaluator` and any sequence of calls on it and of actions elsewhere (`uses`, `elsewhere`, `ResetBuffers`).  `serves pr0 pr`: an evaluator made for the sizes of `pr0` fits `pr`.  `preachable`: the same for a polynomial evaluator.  `pool_reachable`: memory and evaluator pool after any batches under any schedules.
* `own e x`: buffer `x` belongs to evaluator `e`; `user m e x`: an allocated buffer that does not.
* `key_at m e k ck`: the key handle `k` refers to the contents of `ck`.
* `wires m w v E`: the ciphertexts `w` encrypt the bits `v` with noise at most `E`.
* `after`, `runs`: histories of calls (C32, C33).
* `together ps m sched`: the goroutines `ps` under an interleaving of single memory accesses (C36).

## 2. Per property: what is modelled and how it is proved

* C01 bits: shift loops over `Z` with wrap at the width; equality with the little-endian value by induction on the list, and with `Z.testbit`.
* C02 params: the level is any `Z`; case analysis on the named levels plus default.  `SecurityInfo` is a function into strings; `SmallSpec.v` builds the expected text from the number of bits and the degree.
* C03 F64ToTorus: Flocq model of `math.Mod(d,1)`, multiplication by 2^32 and conversion; against `Ztrunc` of the real fractional part.  With the result of an out-of-range conversion as a parameter (`F64ToTorus_on`) the same holds for every value of it.
* C04, C45 Boolean round trip: phase identity by induction on the inner product loop; interval reasoning modulo 2^32.
* C05 linear ops: loop characterisation (pointwise map), then bilinearity of the inner product.  Aliasing of AddAssign in the memory model.  Mul by a pair of examples with equal phases and different products.
* C06, C07 message encodings: exact for moduli dividing 2^31; rounding analysis in Flocq for the others.
* C08, C09 NOT and Constant: phase algebra; witnesses for the two exceptional phases.
* C10, C11 monomial multiplication: loop invariants with split index; the antiperiodic extension of the coefficients is the specification; witnesses for the off-by-one and for aliasing.
* C12 decomposition: shift/mask lemmas to div/mod; telescoping sum by induction on the level.
* C13 FFT, exact: polymorphic FFT model instantiated with the reals; each butterfly stage is a ring isomorphism `C[X]/(X^2t - w^2) -> C[X]/(X^t - w) x C[X]/(X^t + w)`; the twiddle table is the one produced by the modelled generator and bit reversal.
* C14, C15 FFT, binary64: same model with Flocq floats; forward error induction over the stages.  `mc_ok mc` is the only hypothesis on the machine, and it is about the library: for |x| <= 4 the float64 result of `cmplx.Exp(i x)` is within 3*2^-53 of the exact complex value; `C14_cis_exists` shows such a function exists.
* C16 bounds: every unsafe access in the model is checked and returns `Panic PUnsafe` outside; never reached.
* C17 to C24: phase algebra in Z modulo 2^32 with the negacyclic product; noise as explicit hypotheses, and worst-case bounds for binary64.
* C25 schedule independence: the goroutines' writes go to disjoint indices, so any interleaving gives the same array.
* C26 to C29 gates: from blind rotation, extraction and key switching; circuits by induction on the circuit; adder by induction on the width.
* C30, C31 batches: events are pool Get, one rotation step, pool Put; every list of events that is a schedule of the program.
* C32, C33 lifetime and history: invariants over call histories in the memory model.
* C34, C35, C19 panics: computed symbolically from the model, for all arguments.
* C36 concurrency: relational noninterference between a goroutine's run in the interleaving and its run alone, with a renaming of newly allocated buffers; the refutation constructs the bad interleaving.
* C37 to C40 LUT and programmable bootstrapping: loop invariants for table filling; window arithmetic.
* C41 to C44 proxy re-encryption: phase algebra as for key switching; induction over hops.
* C46: contents of the generated keys, from the generation loops.
* C47 secrecy of the key under the cloud key: rounding of small noise by F64ToTorus (C03); when all noise rounds to 0 each published row is an exact equation, and modulo 2 the ring has `X^N + 1 = (X + 1)^N`, so an odd mask is invertible (repeated squaring).  `Attack.v` is the attacker, a specification, not code of /repo.
* C48 randomness: the generator is an arbitrary function of the seed modulo 2^31 - 1 (`Seed.v`, documented behaviour of `rand.NewSource`); pigeonhole, and the seed enumeration attack on public key encryption.
* C49 polynomial API: `FourierApi.v` models the calls on buffers in memory, `FourierSpec.v` gives programs their meaning over integer polynomials and an integer-only error budget; induction over the program with a relation between variables and meanings, generic in the arithmetic (`FourierRel.v`), instantiated with exact complex numbers (`FourierReal.v`) and with float64 (`FourierF64.v`, one rounding lemma per operation).  `FourierSlices.v`: the calls on buffers, aliased or not, compute the slice functions of `Fft.v`.  The factor of FloatMul is an integer-valued float64.
* C50 message programs: `LutProg.v` defines programs over the calls of package tlwe and the programmable bootstrap, their meaning on positions and the propagation of noise bounds; induction over the program with `lwires`/`ltables` as invariant (`LutProgProps.v`), one lemma per call; chains and the multi-digit adder are programs whose meaning is computed by induction on their length.
* C51 capacity: the rounding of each mask coefficient is exact (`index_exact`), so the position read is a function of noise and mask (`read_position`, `MaskSpec.v`).  Masks are counted as lists over an alphabet of 2^32 letters (`MaskCount.v`): 4th and 6th moments of the rounding sum bound the number of masks that read wrongly from below (Uint8, Uint7); an exponential bound (`MaskTail.v`, over the reals, evaluated with rationals) bounds it from above (Uint1 to Uint5).  Uint6 is left open: the bounds are too weak there in both directions.
* C52 parties: `Party.v` defines programs of calls by several parties, their meaning (an owner and a bit per ciphertext) and the propagation of noise bounds; induction over the program (`PartyProps.v`) with the invariant that each ciphertext is a user buffer encrypting its bit under its owner's key and that all cloud keys stay in memory; each step is a theorem of C26, C27, C41, C42.  `m_start` builds the parties and the evaluator for all keys.
* C53 spying through a proxy: `Spy.v` defines the n questions (2^30 at one position of the mask, 2^29 as body) and how an answer gives a key bit.  The phase of a question is +-1/8 depending on the bit; its mask has one non-zero digit, so a conversion adds the noise of one entry of the key and the rounding error (`SpyProps.v`, from C42_run).
* C54 buffer pools: `PoolSpec.v` defines sequences of calls and what their results mean; the invariant (`PoolProps.v`) is that the index is the number of calls modulo 4 and that the last four results hold their meanings.  Bytes are counted from the lengths of the buffers allocated between two memories.  The remaining accessors (`PropSmall.v`, `SmallProps.v`) by loop invariants and case analysis.
* C55 example programs: `Examples.v` has the four programs as functions of what they draw, with the list of printed values as result.  `ExampleSpec.v` says what the noises of a run are, in terms of the ciphertexts that the program encrypts.  The proofs (`ExampleProps.v`) run the programs with the theorems about gates, lookup tables, the nibble adder and re-encryption (C26, C38, C39, C42).  The non-vacuity cases run simple_gates and proxy_reencryption at the 128-bit parameters.
* C56 coin tosses: `CoinSpec.v` turns a list of tosses (numbers below 4) into the selections and signs of public key encryptions and the signs of fresh noises, and says "for all tosses but a fraction" by a list without repetition of the exceptions.  The magnitudes of the noises are arbitrary; only their signs and the selections are counted, so no probability measure on float64 is needed.  `CoinProps.v` sums exponentials of the noise over all tosses (cosh x <= exp(x^2/2), hop after hop, the ciphertext of a hop depending on the tosses of the hops before) and applies Markov's inequality.  `CoinMany.v` adds the exceptions of several ciphertexts and decodes integer messages; property files PropCoin.v and PropCoinMany.v.
* C57 coin tosses of cloud keys: `BootCoinSpec.v` changes the signs of the noises of a cloud key as tossed and counts as in C56. `BootCoinFacts.v` writes the signed noise of a bootstrap (`boot_noise`) as a sum of key noise samples times digits, plus what the decompositions drop and an error of the Fourier transform that is bounded for all runs. The digits of step i depend only on the parts of the key before i (`acc_prefix`, `coef_prefix`), and those of the key switching on the whole bootstrapping key, so the sum is a martingale and the sum of its exponentials over all tosses is bounded part by part (`mgf_mart`). What the decompositions drop is not a sum of noises and stays a measured quantity of the run (`cut_off`), with its worst case in `C57_cut_worst`.
* C58 change of level: `pool_reachable` lets the level change between batches among levels of one ring size, so C30 and C31 are proved for such histories. For another ring size, `StaleProps.v` shows from the lengths of the buffers alone that the first CMUX of every blind rotation panics: a smaller evaluator has rotation buffers that are too short, a larger one accumulators longer than the key's rows. A schedule whose goroutines mix old and new evaluators of different tables is covered by the theorem about single rotations, not by the one about whole schedules.
* C59 concurrent programs: `ConcLut.v` continues `Conc.v` with programmable bootstraps and the linear operations as programs of accesses. `ConcLutFacts.v` relates two copies of a program up to a renaming of the buffers it allocates; the simulation of C36 (`ConcRel.v`) then gives a bijection between the buffers of a goroutine's run alone and of the joint run, under which contents agree. Messages follow by moving C50 through it. The refutation drives two programs along an explicit schedule. The two-argument linear operations read each argument at once, which is coarser than the code; for arguments no one writes to this makes no difference.
* C60 custom scales: real-number bounds on the one product in `Encode` and on the quotient and sum in `Decode` (Flocq error lemmas); the largest product is kept below 1 by monotone rounding.  With C37 and C38 for bootstraps.
* C61 mixed programs: a bit is a position of C50, so each call is a step of C27 or of C50 and keeps one invariant; the gates' test vector stays apart from the ciphertexts.  `message_to_bit` and `bit_to_message` are programs of this kind.
* C62 goroutines with mixed programs: the programs of accesses of C36 and C59 on one list of ciphertexts; the simulation of ConcRel.v with the test vector among what may only be read; the truth of one goroutine alone is C61. The refutation for a shared evaluator is a schedule given in ConcMixRace.v.
* C63 several parties with mixed programs (C52 and C61 together): every party has a desk of ciphertexts and tables.  A call of C61 changes one desk and keeps the other user buffers, so the other desks, their tables and all test vectors stay; encryption and re-encryption append a new buffer.  The invariant says what each desk holds and that the desks are separate.
* C64 (`TrlweFft TrlweFftProps PropTrlweFft`): the round trip is C15 applied to both components, with the slices' lengths and finiteness (C14).  The dummy: a transform of 2N floats reads N/2 pairs of twiddles in its last (inverse: first) stage, one more than the table holds, so no run of the loop completes; element-wise loops run over the output and index an operand of length N at N.  As an operand only the first N floats are read.  Proved over every arithmetic.
* C65 (programs with several moduli): ModProg.v has the programs, their meaning on 2Q positions for a common multiple Q of the moduli, noise bounds in units of 1/Q (so that linear operations are exact), and the run; ModProgProps.v proves by induction on the program that wires keep standing at their positions (`stands`), using t_lut, t_func and their assign forms for each bootstrap, and instantiates the adder in base B; property file PropModProg.v, with a program that reads one ciphertext with moduli 20, 12, 4 and 2, and a decimal addition.
* C66 (hostile clients): HostileSpec.v says what shape a key and a ciphertext must have (lengths only), and what a history may contain (`any_history`: calls with arbitrary operands of the right shape); HostileFacts.v shows that every evaluator call returns from a state whose buffers have the right lengths, for arbitrary key contents; HostileRun.v gives programs a semantics on contents alone and shows by induction on the program that the run follows it; HostileProps.v derives that two servers give the same numbers, and correctness for an honest client by moving its run to a fresh evaluator where C61 applies; property file PropHostile.v, with a client whose key is NaN throughout followed by an honest one.
* C67 (a goroutine per client): ConcHostSpec.v gives each goroutine of C62 a key, message bits and program of its own, and asks of keys and ciphertexts only the lengths of HostileSpec.v; ConcHostProps.v extends the relation between the concurrent run and the runs alone (ConcRel.v) to different keys and to evaluators with arbitrary histories: no run panics by C66, so every schedule keeps the relation; an honest client's results are those of its run alone, which C66 shows correct; ConcHostStart.v builds such a server for any list of requests; property file PropConcHost.v, with a client whose key is NaN beside an honest one.
* C68 (ciphertexts of another dimension): WrongLenSpec.v says when a ciphertext is too short and when two agree on their first n+1 entries; WrongLen.v shows that each loop over a short operand reaches an index out of range (for bootstraps the first read of the body does), that Copy pads with zeros, and that loops over operands with the same start are equal step by step; encryptions of true and false at a larger dimension differ in the last entry only; WrongKey.v does the same for secret keys and bootstrapping keys; property file PropWrongLen.v, with an encryption of dimension 3 read at dimensions 5 and 2.
* C69 (batches in flight): Flight.v runs the events of Gates.v's batch model with each goroutine's own arguments; FlightSpec.v has the vocabulary (the arguments of a flight, the evaluators handed out over all batches, the rotation a goroutine was started for, the results one batch reads); FlightFacts.v generalises the invariant of BatchFacts.v (separate buffers of held and pooled evaluators, progress of each goroutine, results kept until their evaluator is handed out again) to per-goroutine keys and test vectors and to any moment of the schedule; the starting states are those after any earlier flights (`flight_reachable`), which include the states after any batches one by one (C69_histories); FlightProps.v has the post-processing, the schedule without reuse and the one with it; property file PropFlight.v, with two users of the tiny set in binary64. Simplification: the arguments of all batches exist from the start, and nothing else runs meanwhile. FlightOtherSpec.v adds the start of goroutines during the flight, what other code does meanwhile and the loss of evaluators as steps of a relation; FlightOtherFacts.v proves the invariant again with the evaluators handed out so far in place of those still to come, PropFlightOther.v has the theorems.
* C70 (batches come to an end): FlightLiveSpec.v counts the events a goroutine has before it; FlightLiveFacts.v shows with the invariant of FlightOtherFacts.v that each event lowers its own goroutine's count by one and no other's, that an unfinished goroutine always has an event, and by induction on the total that every moment extends to the end; for a batch alone, and from that for a batch gate, the schedules of Gates.v and Flight.v are shown to be the same; property file PropFlightLive.v. Fairness of the Go scheduler is not modelled: the theorems say that the schedules cannot block or go on for ever, and a scheduler that lets every runnable goroutine run in the end therefore ends every batch. One event is one step of the blind rotation, so that each step returns is part of the model's totality.

Properties of the code that turned out false are stated as false in `properties.jsonl`, proved in a theorem with `_refuted` in its name, and accompanied by theorems for what does hold.

## 3. Deterministic, not probabilistic

Gaussian noise is unbounded, so "decrypts correctly" is never unconditionally
true.  Every correctness theorem therefore quantifies over all noise values and
states the budget under which the result is right.  Two forms are used:

* run-specific: `boot_noise O pr sk ck tv ct T` says the noise of this bootstrap is at most `T`. It is the absolute value of a signed sum: for each step, what its CMUX output differs by from the accumulator it should select, turned by the rotations still to come and read off at the coefficient that is extracted (`left_noise`). The signed key switching noise (`ks_noise`) is part of the sum; what the complements of the gadget and of the extraction lose is added. `cmux_noise`, the largest coefficient of each step, bounds it (`left_of_cmux`) and is used for worst cases;
* worst case (`_float64` theorems): key noise samples at most `Bb`, `Bk` (`key_noise_within`), Fourier error at most `d`, `d'` (`fft_error_within`), and `worst_noise pr sk Bb Bk d d'` within the margin.

At the shipped parameter sets the worst case over all digit values exceeds the
margin at realistic noise levels (the sets are designed for typical, not worst,
noise), so there the run-specific form is the one that applies; the concrete
instances of the worst-case form use the small set of `Tiny.v`.  The probability
that the budget is met is not modelled, except for the part that is due to the
rounding of the mask, which C51 counts.  Neither are timing and cryptographic
security in general; C47 and C48 are about two concrete ways in which secrecy
fails.

## 4. Trusted base and limits of the model

Trusted: the Coq 8.16.1 kernel (with `vm_compute`), and the reading of the Go
source (a hand translation, each definition citing its lines).

Simplifications, repeated at the definitions they concern:

* Go `int` is unbounded except where stated; slices have no capacity beyond their length (no code path appends to a shared slice).
* Floating point follows IEEE-754, with every choice of fused multiply-adds the Go compiler has in this code (it fuses on arm64, ppc64 and s390x, not on amd64): the theorems hold for each choice.  The choice is made per function and expression; the unrolled copies of one loop body are taken to be compiled alike.  `int64(x)` of a float that does not fit is left open in the Fourier evaluator, so every `_float64` theorem holds whatever the machine makes of it.  Elsewhere (`F64ToTorus`, `Decode`, `ModSwitch`) the model uses the amd64 value; C03_portable, C07_portable and C40_portable show that it never appears for finite inputs.
* `cmplx.Exp` is the field `m_cis` of the machine (see C14).  `math.Mod`, `math.Round`, `math.Floor` are modelled by their documented meaning.
* `rand.NewSource(seed)` is any function of `seed mod (2^31 - 1)`, as its documentation says (C48 only; elsewhere the draws are arbitrary).
* Allocation never fails; goroutine creation, `sync.WaitGroup` and `sync.Pool` are modelled by their documented meaning (the pool may drop, keep or create any element).
* Memory accesses of concurrent goroutines are sequentially consistent.  Granularity: one torus element write, one buffer read, `copy`, one int access, one Fourier-buffer operation (C36, C59); one blind-rotation step (C31, C69, C70).  Programs with a data race may behave worse in Go than any interleaving; the positive theorems are about race-free programs, for which Go promises sequential consistency.

Not modelled: the addresses of allocations, printing in `examples`, tests and benchmarks.

## 5. Print Assumptions

Only axioms of the standard library occur; no theorem depends on an axiom of
this development or of Flocq, Coquelicot or another library.

* Closed under the global context: the theorems of C01, C02, C05, C08, C10, C11, C16, C18, C54, and C06_moduli, C06_modulus_too_big_panics, C07_modulus_zero_panics, C12_decompose, C68_short_values, C68_copy_refuted, C19_extract2_refuted, C19_works_iff, C24_keyswitch, C24_assign_same, C31_reuse_levels, C37_window, C37_full, C37_copy, C37_copy_from, C37_clear, C48_keys_refuted, C48_missing_keys, C49_returns, C49_slices, C57_cut_worst, C58_ring_sizes, C61_bits, C64_dummy_refuted, C65_start.
* `ClassicalDedekindReals.sig_not_dec`, `ClassicalDedekindReals.sig_forall_dec`, `FunctionalExtensionality.functional_extensionality_dep` (the construction of the real numbers): C13_product_exact, C49_exact.  Of these the last two only: C47_kept.
* The same three and `Classical_Prop.classic` (used by Flocq's proofs about rounding): all other theorems.  They enter through the binary64 operations the model of encryption and of the FFT is built from.

`coqchk` also lists the fields of opaque standard library modules
(`Coq.ssr.ssrunder.Under_rel`, `Rdefinitions.RbaseSymbolsImpl`, `RinvImpl`).
