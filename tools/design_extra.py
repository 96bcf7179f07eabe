EXTRA = {
81: ("sig_sol.py", "SigSolModel.v models the script (key generator and sampler as parameters) up to the printed line; Props_SigSol.v decodes the line with an independent ABI decoder and reduces acceptance to C54, completeness to C27"),
82: ("ffnp and ffnp_fft", "FfnpModel.v adds the coefficient-format ldl/ffldl/ffnp, ffnp_fft and test.py's vecmatmul to the FFT model; FfnpProofs.v relates the trees of the two formats node by node and shows ffnp_fft = ffsampling_fft with rounding as the sampler, so the bound follows from the norm identity of C77"),
83: ("C codecs", "CModel.v models codec.c with explicit uint32_t accumulators and reads past the end as a result; CCodecProofs.v gives acceptance in the terms of EncodingSpec.v/CodecSpec.v by an invariant on the queue of unread bits, so the comparison with Python is through the specifications"),
84: ("C arithmetic", "CModel.v models vrfy.c on uint32_t; CTables.v holds GMb/iGMb; CNttProofs.v proves Montgomery products and shows the loops equal to NttModel.v with other tables (checked by vm_compute to satisfy the tree equations and to be those of the contracts)"),
85: ("C verifier", "COpenSpec.v specifies the signed-message format; COpenProofs.v proves acceptance iff format, short preimage and hash; CHashProofs.v that the hash is rejection sampling on SHAKE256(nonce||message); sign_dyn is a parameter with the property it must have as hypothesis of the completeness theorem only"),
86: ("16-bit C verifier", "as C85 (COpen16Proofs.v); second encoding built explicitly for the malleability"),
87: ("Keccak-256 C build", "CHashProofs.v relates keccak_prng.c to the abstract generator of PrngProofs.v; a dropped inject leaves the context unchanged; Keccak-256 is a parameter"),
88: ("Go wrapper", "Go calls return, panic, or run into undefined behaviour of C; the reachability of the overflow uses the key h = hash, s2 = 1"),
89: ("C key arithmetic and secret keys", "CKeyModel.v models the addition chain of mq_div_12289, compute_public, complete_private, verify_recover, the codecs and the framing of nist.c/nist16.c; CKeyProofs.v proves Fermat's theorem modulo 12289 by a permutation argument and relates the C transforms to Python's; CKeyCodec.v/CKeyFrame.v give the formats of CKeySpec.v by the invariants of C83"),
90: ("C Epervier", "CKeyModel.v models epervier16.c (sign_dyn and the nonce are parameters, a loop that has not ended is a result of its own); CEpProofs.v proves acceptance iff the format of CKeySpec.v and a short preimage under the unique recovered key; the KAT finding follows from the uniqueness of the recovered key and the injectivity of the transform"),
91: ("C floating-point sums and products", "FprModel.v models fpr.h/fpr.c on 64-bit integers, line by line; FprSpec.v gives the real value of a double, the nearest double (ties to even) and the flush of results below the smallest normal number to zero; FprBits.v removes the bit tricks, FprRound.v proves that FPR packs m 2^e with a sticky last bit correctly rounded, FprMul.v and FprAdd.v that the mantissas carry the right sticky bit; FprUnique.v that nearest is a function"),
92: ("C floating-point quotients and roots", "FprDiv.v: loop invariants x + q y = 2^n x0 of the bit-by-bit division and x r = X 2^53 - q^2 of the square root, then as C91"),
93: ("C floating-point conversions", "FprConv.v, FprMisc.v: shifts by an exponent are divisions by powers of two; comparison through the order of the bit patterns"),
94: ("C generator", "CRngModel.v models rng.c and the two inline functions of inner.h; CRngSpec.v gives the stream of refills on ChachaSpec.v; CRngProofs.v shows each update of a state list to be an update of the RFC state, then an invariant on (refill, position); the comparison with rng.py goes through the specification of C21"),
95: ("C sampler", "CSamplerModel.v follows sign.c:989-1198 and fpr.c:514-598, the generator being a parameter; CSamplerProofs.v: three-limb comparison by borrows, high product by 32-bit limbs, scaling by 2^63 exact; then step by step against SamplerModel.v on a common stream of bytes"),
96: ("C acceptance probability", "CSamplerReal.v: error bounds from correct rounding (C91-C93) by a grid of doubles; the non-negative remainder from monotonicity of rounding and one computation for each of the 63 multiples of ln 2; the exponential from C46's analysis (SamplerReal.v)"),
97: ("distribution of the C sampler", "CSamplerDist.v: a chain of rounding errors (distance, square, 1/(2 sigma^2), products, difference) from correct rounding gives the exponent to 2^-42 and its sign from sigma <= 1.8204 < 1.8205; with C96 each threshold is within 9/8 2^-42; then C79's argument (counts of accepted strings, tail of the Gaussian, normalisation) for arbitrary such thresholds"),
98: ("C KAT generator", "CKatModel.v follows katrng.c:140-452 with its tables; CKatProofs.v: 32-bit words as four bytes, the extended table checked entry by entry against FIPS 197 (Aes.v), key schedule by induction on the words, one round against ShiftRows/SubBytes/MixColumns, then requests against DrbgModel.v (C66)"),
}
