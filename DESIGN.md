# Formal model of ETHFALCON in Rocq (Coq 8.16.1)

## Method
* The Python reference (`/repo/pythonref`) and the Solidity contracts (`/repo/src`) are modelled by hand as
  executable Gallina functions, function by function (`theories/*Model.v`); each definition cites file:lines.
* Integers are `Z` (Python ints are unbounded); bytes are `Z` in 0..255; EVM words are `Z` with explicit `mod 2^256`
  where wrapping can happen; Python exceptions are values (`Raise`), `False` results are `None`.
* Loops are structural recursion on the data they consume; loops that are not obviously terminating
  (rejection loops, signing loop, reduction loop) run on explicit fuel, and running out of fuel is a separate
  result that never looks like a success. Theorems either quantify over all fuels or state when it suffices.
* External primitives (keccak256, blake2s, AES, the operating system's randomness) are universally quantified
  function parameters, never axioms. Floating-point code (FFT, ffSampling, Babai's quotient) is an oracle:
  theorems hold for every integer it could return.
* `polyntt` (external dependency, source not in /repo) is modelled by the NTT algorithm that the repository's own
  Solidity code implements (`ZKNOX_NTT.sol`), with the repo's tables.
* Specifications are in `*Spec.v`, independent of the model code. Property theorems live in `Props_*.v`, each closed
  by `exact lemma` with `Print Assumptions` below it.

## Trusted base
Coq's kernel (and `vm_compute`), the hand translation from Python/Solidity to Gallina, the reading of external
primitives as arbitrary functions, standard library only. See the end of this file for the axioms list.

## Plan per property
* **C01** Signature compression round-trips — EncodingModel; induction over the vector on bit lists.
* **C02** compress output length and failure condition — Length of the bit string; bytes of chunks.
* **C03** decompress accepts exactly the valid encodings — Parser soundness and completeness by induction.
* **C04** decompress failure modes are exactly characterised — Explicit exception results in the parser; characterisation by induction on bits.
* **C05** Signature byte encodings are not unique — Witness construction for every vector with padding.
* **C06** mod-q key encoding round-trips — CodecModel with explicit accumulator; invariant acc mod 2^acc_len = pending bits.
* **C07** mod-q key encoding is canonical — Same invariant, decode side.
* **C08** modq_encode rejects exactly the out-of-range inputs — Branch analysis.
* **C09** Small-coefficient (secret key) encoding round-trips — Same accumulator invariant with width `bits`.
* **C10** Small-coefficient encoding is canonical and rejects -2^(bits-1) — Same.
* **C11** NIST public-key parsing — from_bytes loop related to 14-bit field spec.
* **C12** NIST public-key parsing never yields a degree-1024 key, and 1792-byte inputs alias 897-byte keys — Counting fields; prefix argument.
* **C13** Reconstructing G from (f,g,F) — Uses NTT/ring development (division in Zq[x]/(x^n+1)).
* **C14** Keccak PRNG: absorption is concatenation — PrngModel generic in hash.
* **C15** Keccak PRNG: output is one stream however it is read — Invariant: generator = position in the stream.
* **C16** Keccak PRNG: phase discipline — Case analysis on all operations, histories by induction.
* **C17** Blake2s PRNG: same stream contract with a 1024-byte buffer — Same functor-free generic model with buffer limit parameter.
* **C18** SHAKE wrapper computes the sponge on the concatenated input — Sponge invariant: state = absorb of concatenation.
* **C19** Keccak-f[1600] implementation equals the FIPS-202 round function — Symbolic lane equality: every lane an explicit expression of the 25 inputs.
* **C20** Hash-chain XOF contract — Stream invariant.
* **C21** ChaCha20 generator — Word-level model; refill invariant.
* **C22** Hash-to-point output is in range and is the filtered stream — Fuelled loop; filter specification.
* **C23** Hash-to-point rejection sampling is exactly uniform — Exhaustive finite count lifted by arithmetic.
* **C24** On-chain Keccak hash-to-point equals the Python one — Both sides equal to the filter of the same stream.
* **C25** On-chain NIST hash-to-point equals the Python one — Same.
* **C26** Tetration hash-to-point and domain order — Same.
* **C27** Falcon completeness: every produced signature verifies — Ring Z[x]/(x^n+1), centred representative minimal.
* **C28** Falcon soundness of acceptance — Unfolding verify to specification, NTT multiplication theorem.
* **C29** Signature byte format — Lengths.
* **C30** Header byte is not authenticated — Verify does not read byte 0.
* **C31** Public key relation — Division theorem.
* **C32** Recovery-mode completeness — As 27 with inverse.
* **C33** Recovery-mode soundness — As 28.
* **C34** Epervier completeness — As 32.
* **C35** Epervier soundness — As 33.
* **C36** Failure of recovery is confused with address zero — Case analysis.
* **C37** The inverse hint bytes are malleable — Congruence.
* **C38** Karatsuba product is the negacyclic product — Karatsuba by induction on k.
* **C39** NTRU equation for every solution returned — Field norm tower, oracle for k in reduce.
* **C40** Babai reduction preserves the NTRU equation — Induction on the reduction loop.
* **C41** Extended gcd — Invariant of Euclid's loop with floor division.
* **C42** Field norm and Galois conjugate — Negaperiodic functions.
* **C43** Generated keys are well formed — Combination.
* **C44** bitsize — Induction on value.
* **C45** Base sampler range and exact distribution — Monotone table; counting.
* **C46** Lazy Bernoulli comparison — Lexicographic comparison.
* **C47** Reference Gaussian sampler range — Case analysis and table bounds.
* **C48** split and merge are mutually inverse — List induction.
* **C49** Compact representation round-trip (Python to Solidity) — Bit disjointness.
* **C50** On-chain NTT multiplies polynomials — Tree of square roots of -1; layers.
* **C51** On-chain NTT is invertible — Layerwise inverse.
* **C52** What on-chain falcon_core actually accepts — Word-level model with memory pointers of the loop bounds.
* **C53** On-chain verification is forgeable without the key — Instance of 52.
* **C54** Honest signatures are accepted on chain (except at the exact bound) — 52 with 27/28.
* **C55** Polynomial range check accepts q — Loop model.
* **C56** On-chain signature decompression vs Python — Accumulator invariant, 32-bit masks.
* **C57** On-chain public-key decompression vs Python — Accumulator invariant, 32-bit masks.
* **C58** KAT framing is understood on chain — Byte-level framing.
* **C59** Epervier on-chain hint check is sound — Products of prefix/suffix.
* **C60** Epervier on-chain norm check skips the last coefficient — Witness.
* **C61** NTT contract tables are never immutable — State machine over transactions.
* **C62** Key files round-trip — Character-level parser/printer of decimal ints and lists.
* **C63** CLI deterministic signing uses public randomness only — Sponge state before permutation; dependency argument.
* **C64** Version dispatch of the CLI — 27/34 with dispatch.
* **C65** Transaction encoding is injective — ABI encoder as bytes; injectivity.
* **C66** AES-CTR DRBG output — AES as parameter; invariants.
* **C67** Bytecode storage round-trip — EVM creation code prefix as bytes.
* **C68** Packed signature parsing on chain — Byte slicing.
* **C69** Signed 16-bit and NIST secret-key codecs of the KAT generator — Codec round trips.
* **C70** Signatures are malleable on chain — Congruence modulo q of packed words; witness for every accepted signature.
* **C71** Tables of the stateful NTT — Bytes of the stored tables; layout of the code deployed by SSTORE2; readers give back the table.
* **C72** Values samplerz can return — Support computed from the base sampler's range, for every oracle float.
* **C73** CLI actions that never succeed — Symbolic execution of the argument handling: every path raises.
* **C74** The FFT in exact arithmetic — Gallina model over Coq's reals (pairs); structural induction on the size; roots of -1.
* **C75** Sampling and signing in exact arithmetic — Induction over the tree: z integer, (t-z)B in the lattice; instantiates the oracle of C27/C32/C34.
* **C76** Leaf range and gs_norm — LDL leaves are Gram-Schmidt norms; product identities; interval facts on the parameter table.
* **C77** Norm identity — Induction over the tree, Pythagoras at each node.
* **C78** BLAKE2s and felt hashing — RFC 7693 transcription as spec; serialisation as word lists, injective.
* **C79** samplerz distribution — Counting of random inputs (finite sums), exp polynomial bounds, table bounds against the real Gaussian.
* **C80** External recursive verifier and forgery — Recursive NTT = evaluation at the tabulated roots (tables checked by vm_compute); verdict as in C52; C26 + C28 for the forgery.
* **C81** sig_sol.py — SigSolModel.v models the script (key generator and sampler as parameters) up to the printed line; Props_SigSol.v decodes the line with an independent ABI decoder and reduces acceptance to C54, completeness to C27
* **C82** ffnp and ffnp_fft — FfnpModel.v adds the coefficient-format ldl/ffldl/ffnp, ffnp_fft and test.py's vecmatmul to the FFT model; FfnpProofs.v relates the trees of the two formats node by node and shows ffnp_fft = ffsampling_fft with rounding as the sampler, so the bound follows from the norm identity of C77
* **C83** C codecs — CModel.v models codec.c with explicit uint32_t accumulators and reads past the end as a result; CCodecProofs.v gives acceptance in the terms of EncodingSpec.v/CodecSpec.v by an invariant on the queue of unread bits, so the comparison with Python is through the specifications
* **C84** C arithmetic — CModel.v models vrfy.c on uint32_t; CTables.v holds GMb/iGMb; CNttProofs.v proves Montgomery products and shows the loops equal to NttModel.v with other tables (checked by vm_compute to satisfy the tree equations and to be those of the contracts)
* **C85** C verifier — COpenSpec.v specifies the signed-message format; COpenProofs.v proves acceptance iff format, short preimage and hash; CHashProofs.v that the hash is rejection sampling on SHAKE256(nonce||message); sign_dyn is a parameter with the property it must have as hypothesis of the completeness theorem only
* **C86** 16-bit C verifier — as C85 (COpen16Proofs.v); second encoding built explicitly for the malleability
* **C87** Keccak-256 C build — CHashProofs.v relates keccak_prng.c to the abstract generator of PrngProofs.v; a dropped inject leaves the context unchanged; Keccak-256 is a parameter
* **C88** Go wrapper — Go calls return, panic, or run into undefined behaviour of C; the reachability of the overflow uses the key h = hash, s2 = 1
* **C89** C key arithmetic and secret keys — CKeyModel.v models the addition chain of mq_div_12289, compute_public, complete_private, verify_recover, the codecs and the framing of nist.c/nist16.c; CKeyProofs.v proves Fermat's theorem modulo 12289 by a permutation argument and relates the C transforms to Python's; CKeyCodec.v/CKeyFrame.v give the formats of CKeySpec.v by the invariants of C83
* **C90** C Epervier — CKeyModel.v models epervier16.c (sign_dyn and the nonce are parameters, a loop that has not ended is a result of its own); CEpProofs.v proves acceptance iff the format of CKeySpec.v and a short preimage under the unique recovered key; the KAT finding follows from the uniqueness of the recovered key and the injectivity of the transform
* **C91** C floating-point sums and products — FprModel.v models fpr.h/fpr.c on 64-bit integers, line by line; FprSpec.v gives the real value of a double, the nearest double (ties to even) and the flush of results below the smallest normal number to zero; FprBits.v removes the bit tricks, FprRound.v proves that FPR packs m 2^e with a sticky last bit correctly rounded, FprMul.v and FprAdd.v that the mantissas carry the right sticky bit; FprUnique.v that nearest is a function
* **C92** C floating-point quotients and roots — FprDiv.v: loop invariants x + q y = 2^n x0 of the bit-by-bit division and x r = X 2^53 - q^2 of the square root, then as C91
* **C93** C floating-point conversions — FprConv.v, FprMisc.v: shifts by an exponent are divisions by powers of two; comparison through the order of the bit patterns
* **C94** C generator — CRngModel.v models rng.c and the two inline functions of inner.h; CRngSpec.v gives the stream of refills on ChachaSpec.v; CRngProofs.v shows each update of a state list to be an update of the RFC state, then an invariant on (refill, position); the comparison with rng.py goes through the specification of C21
* **C95** C sampler — CSamplerModel.v follows sign.c:989-1198 and fpr.c:514-598, the generator being a parameter; CSamplerProofs.v: three-limb comparison by borrows, high product by 32-bit limbs, scaling by 2^63 exact; then step by step against SamplerModel.v on a common stream of bytes
* **C96** C acceptance probability — CSamplerReal.v: error bounds from correct rounding (C91-C93) by a grid of doubles; the non-negative remainder from monotonicity of rounding and one computation for each of the 63 multiples of ln 2; the exponential from C46's analysis (SamplerReal.v)
* **C97** distribution of the C sampler — CSamplerDist.v: a chain of rounding errors (distance, square, 1/(2 sigma^2), products, difference) from correct rounding gives the exponent to 2^-42 and its sign from sigma <= 1.8204 < 1.8205; with C96 each threshold is within 9/8 2^-42; then C79's argument (counts of accepted strings, tail of the Gaussian, normalisation) for arbitrary such thresholds
* **C98** C KAT generator — CKatModel.v follows katrng.c:140-452 with its tables; CKatProofs.v: 32-bit words as four bytes, the extended table checked entry by entry against FIPS 197 (Aes.v), key schedule by induction on the words, one round against ShiftRows/SubBytes/MixColumns, then requests against DrbgModel.v (C66)

<!-- generated tail -->
## How each part of the code is modelled
| code | model | how |
|---|---|---|
| pythonref/encoding.py, falcon_codec.py, scripts/generate_kat_rsp.py (codecs, .rsp lines) | EncodingModel, CodecModel, KatModel | complete; exceptions as values |
| pythonref/common.py, PublicKey.from_bytes, complete_private | CodecModel, FalconModel, PolyModel | complete |
| keccak.py, shake.py, keccak_prng.py, keccaxof.py, blake2s_prng.py, blake2s/, rng.py, drbg/ | KeccakModel, PrngModel, BlakeModel, ChachaModel, DrbgModel, Aes | complete; the hash under keccak_prng/keccaxof/blake2s_prng is a parameter; AES itself is a parameter of the DRBG with a FIPS-197 instance |
| falcon.py, falcon_recovery.py, falcon_epervier.py | FalconModel | sign/verify/recover complete; `sample_preimage` is an oracle there (any integer vectors of the lattice coset), discharged in exact arithmetic by C75 |
| ntrugen.py | NtruModel, SamplerModel | karamul, xgcd, ntru_solve, field norm, lift, ntru_gen complete; Babai's float quotient in `reduce` is an oracle |
| samplerz.py, mkgauss.py | SamplerModel (floats are oracles), SamplerRealModel (floats are exact reals) | complete |
| fft.py, ffsampling.py (gram, ldl, ldl_fft, ffldl, ffldl_fft, ffnp, ffnp_fft, ffsampling_fft), falcon.py normalize_tree/sample_preimage, test.py vecmatmul | FftModel, FfnpModel | complex numbers are pairs of exact reals |
| sign_cli.py, sig_sol.py | TextModel, CliModel, SigSolModel | argument handling, files as texts, subprocess calls as data |
| src/ZKNOX_NTT.sol, ZKNOX_NTT_falcon.sol (assembly), ZKNOX_falcon_core.sol, ZKNOX_falcon*.sol, ZKNOX_epervier.sol, ZKNOX_ethepervier.sol, ZKNOX_HashToPoint.sol, ZKNOX_shake.sol, ZKNOX_falcon_utils.sol, ZKNOX_falcon_encodings.sol, ZKNOX_common.sol, ZKNOX_falcon_deploy.sol, lib/sstore2 (write/read) | NttModel, NttTables, NttTables1024, SolModel, SolCodecModel, SolWorldModel | words are integers with explicit wrapping; memory as lists or word maps where the assembly needs it; storage and code of accounts as maps |
| external/NTT_Recursive.sol, external/ETHFalcon_Recursive.sol, forgery.py | ExtTables (generated from the source text), ExtModel | complete |
| falcon/nistfalcon/src codec.c, vrfy.c, common.c (hash-to-point, is_short), keccak_prng.c, nist.c, nist16.c, epervier16.c (framing of keys and signed messages, opening); KAT/PQCgenKAT_sign_epervier_zknox.c (the two calls on the public key); falcon/falcon.go; geth/contracts.go falconvrfy | CTables (generated from the source text), CModel, CKeyModel | uint32/uint16/int16 arithmetic explicit; an access outside a buffer is a result of its own; the signing call and Keccak-256 are parameters; FprModel.v, CRngModel.v and CSamplerModel.v hold fpr.c, rng.c and the sampler of sign.c; SHAKE256 is the sponge of KeccakModel.v |

Simplifications, also stated at each definition:
* **Floating point.** Either an oracle (any value may be returned) or exact real arithmetic. Only C91–C93 and C95–C97 (the C emulation of doubles and the sampler on it) speak about IEEE rounding; the two readings bracket
  it: the oracle theorems (C27–C37, C39, C40, C72) hold whatever rounding does, the exact ones (C74–C77, C79) say what the code computes up to rounding.
* **Hash functions** below keccak_prng, keccaxof, blake2s_prng and the contracts are parameters with 32-byte outputs; no cryptographic assumption is used anywhere.
* **polyntt** (external package, not in the repository) is modelled by the NTT the repository's own contract implements, with the repository's tables (PolyModel).
* **EVM**: gas, the 24 KiB code-size limit, call depth, and out-of-gas are not modelled; memory is unbounded.
* **Fuel** bounds rejection loops; running out is a result of its own.

Not modelled: test_*.py, test/*.t.sol, bench/profile scripts, generate_*_test_vectors.py (printing only), scripts/saga.py (statistics),
scripts/parameters.py (security estimates), script/ (deployment scripts of forge), hash/ (bindings to external Rust crates), src/ZKNOX_display.sol (printing), the C code under falcon/nistfalcon other than codec.c, vrfy.c, nist.c, nist16.c, epervier16.c, fpr.h, fpr.c (but fpr_gm_tab), rng.c, katrng.c, the integer sampler of sign.c (989-1198), hash-to-point and keccak_prng.c (not modelled: fft.c, keygen.c, the rest of sign.c, seedexpander of katrng.c, and shake.c/keccak256.c, which the model replaces by the sponge of KeccakModel.v and by a parameter),
ZKNOX_PythonSigner.sol's `vm.ffi` process call itself.

## What Print Assumptions lists
Every theorem of MANIFEST.json (401) was printed with `Print Assumptions`:
* **Closed under the global context** (no axiom at all): the 341 theorems not listed below.
* **ClassicalDedekindReals.sig_forall_dec, FunctionalExtensionality.functional_extensionality_dep** (22): C79_accepted_round_ends, C79_rejected_round_repeats, C91_c_float_addition_is_correctly_rounded, C91_c_float_multiplication_is_correctly_rounded, C91_c_float_negation_is_exact, C91_c_float_square_is_correctly_rounded, C91_c_float_subtraction_is_correctly_rounded, C91_correct_rounding_is_unique, C92_c_float_division_is_correctly_rounded, C92_c_float_inverse_is_correctly_rounded, C93_c_comparison, C93_c_doubling, C93_c_exact_constants, C93_c_floor, C93_c_floor_of_minus_zero, C93_c_halving, C93_c_integer_of_53_bits_converts_exactly, C93_c_integer_to_float_is_correctly_rounded, C93_c_round_to_integer, C93_c_truncation, C95_c_exponential_is_the_python_polynomial, C95_c_sample_range.
* **ClassicalDedekindReals.sig_forall_dec, ClassicalDedekindReals.sig_not_dec, FunctionalExtensionality.functional_extensionality_dep** (26): C74_adj, C74_div, C74_fft_evaluates, C74_fft_ifft, C74_ifft_fft, C74_mul, C74_mul_integers, C74_roots, C74_short, C74_split_merge, C75_epervier_verifies, C75_key_succeeds, C75_oracle_exists, C75_recovery_verifies, C75_sampling_exact, C75_signatures_verify, C76_gs_norm, C76_leaf_range, C76_leaves_positive, C77_norm, C77_norm_bound, C82_close, C82_formats_agree, C92_c_float_square_root_is_correctly_rounded, C93_c_rounded_constants, C97_c_exponent.
* **ClassicalDedekindReals.sig_forall_dec, ClassicalDedekindReals.sig_not_dec, Classical_Prop.classic, FunctionalExtensionality.functional_extensionality_dep** (12): C45_table_is_half_gaussian, C46_accepts_with_probability_exp, C46_approxexp_accurate, C46_threshold_accurate, C47_table_is_gaussian, C79_acceptance, C79_every_leaf_of_the_signer, C79_round_is_gaussian, C96_c_range_reduction, C96_c_threshold_is_accurate, C97_c_acceptance, C97_c_round_is_gaussian.

These four are the axioms of Coq's standard library of real numbers (`ClassicalDedekindReals`, functional extensionality) and
classical logic as used by its analysis part (`Classical_Prop.classic`). `Coq.ssr.ssrunder.Under_rel.*` and `Rdefinitions.RbaseSymbolsImpl.*`,
which a listing of the whole environment shows, are opaque module fields of the standard library that no theorem here depends on as an axiom
(they have bodies). No axiom, Variable or Hypothesis outside a section, functor, module type or disabled check is used in `theories/`.
