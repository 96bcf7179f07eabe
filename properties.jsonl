{"id": "C01", "title": "Signature compression round-trips", "statement": "If compress(v, slen) returns a byte string x (not False) for a non-empty v, then decompress(x, slen', len(v)) returns exactly v for every slen' >= slen.", "quantifier": "every non-empty list of integers v (any sign, any magnitude), every slen, every slen' >= slen", "why_tests_cant": "The input space (integer vectors of any length and magnitude) is infinite; tests sample Gaussian-looking vectors only.", "anchors": ["pythonref/encoding.py:compress", "pythonref/encoding.py:decompress"]}
{"id": "C02", "title": "compress output length and failure condition", "statement": "compress(v, slen) returns False exactly when the sum over coefficients of (9 + |c| // 128) bits exceeds 8*slen; otherwise it returns exactly slen byte values, each in 0..255.", "quantifier": "every list of integers v and every slen >= 0", "why_tests_cant": "The boundary depends on the whole vector; sampled vectors essentially never hit the exact limit.", "anchors": ["pythonref/encoding.py:compress"]}
{"id": "C03", "title": "decompress accepts exactly the valid encodings", "statement": "For n >= 1, decompress(x, slen, n) returns the list v if and only if len(x) <= slen, len(v) = n and the bits of x start with the concatenated encodings of the coefficients of v (sign bit, seven low bits, unary high part, terminating 1; zero only with sign 0). Nothing else is ever returned as a success.", "quantifier": "every byte string x, every slen, every n >= 1", "why_tests_cant": "The claim is an if-and-only-if over all byte strings; tests only feed honest encodings.", "anchors": ["pythonref/encoding.py:decompress"]}
{"id": "C04", "title": "decompress failure modes are exactly characterised", "statement": "For len(x) <= slen: decompress raises IndexError exactly when x contains no 1 bit; it raises ValueError exactly when n >= 1 and some complete prefix of fewer than n coefficients leaves exactly one bit before the last 1 of x; in every other non-accepting case it returns False. In particular it is NOT total: attacker-chosen input makes verification raise instead of returning False.", "quantifier": "every byte string x, slen, n", "why_tests_cant": "Requires reasoning about every malformed encoding, including all truncations.", "anchors": ["pythonref/encoding.py:decompress"]}
{"id": "C05", "title": "Signature byte encodings are not unique", "statement": "decompress ignores everything after the n-th coefficient and accepts inputs shorter than slen: whenever the honest encoding leaves at least one padding bit, a different byte string of the same length decodes to the same vector, so a valid signature can be altered without the key and stays valid.", "quantifier": "every vector whose encoding does not fill the last byte exactly", "why_tests_cant": "Malleability is an existential statement about all signatures; positive tests cannot see it.", "anchors": ["pythonref/encoding.py:decompress", "pythonref/falcon.py:PublicKey.verify"]}
{"id": "C06", "title": "mod-q key encoding round-trips", "statement": "For every x of length n with coefficients in [0,q), modq_encode(x,n) succeeds with ceil(14n/8) bytes and modq_decode of it (followed by any further bytes) returns x.", "quantifier": "every n and every coefficient vector in [0,q)^n, every suffix", "why_tests_cant": "q^512 inputs.", "anchors": ["pythonref/falcon_codec.py:modq_encode", "pythonref/falcon_codec.py:modq_decode"]}
{"id": "C07", "title": "mod-q key encoding is canonical", "statement": "If modq_decode(data,n) succeeds then re-encoding the result gives back exactly the first ceil(14n/8) bytes of data: every public key has one encoding, and any out-of-range coefficient or non-zero padding bit is rejected.", "quantifier": "every byte string and every n", "why_tests_cant": "Tests cannot enumerate malformed encodings.", "anchors": ["pythonref/falcon_codec.py:modq_encode", "pythonref/falcon_codec.py:modq_decode"]}
{"id": "C08", "title": "modq_encode rejects exactly the out-of-range inputs", "statement": "modq_encode(x, n) with len(x) = n succeeds iff all coefficients are in [0,q) and raises ValueError otherwise.", "quantifier": "every integer vector", "why_tests_cant": "Infinite input space.", "anchors": ["pythonref/falcon_codec.py:modq_encode"]}
{"id": "C09", "title": "Small-coefficient (secret key) encoding round-trips", "statement": "For 1 < bits <= 8 (indeed any bits >= 2) and every x of length n with |x_i| <= 2^(bits-1)-1, trim_i8_encode succeeds and trim_i8_decode of its output returns x.", "quantifier": "every n, every bits >= 2, every in-range vector", "why_tests_cant": "Infinite family of widths and vectors.", "anchors": ["pythonref/falcon_codec.py:trim_i8_encode", "pythonref/falcon_codec.py:trim_i8_decode"]}
{"id": "C10", "title": "Small-coefficient encoding is canonical and rejects -2^(bits-1)", "statement": "If trim_i8_decode(data,n,bits) succeeds, the result is in range (never -2^(bits-1)) and re-encoding yields exactly the first ceil(n*bits/8) bytes of data.", "quantifier": "every byte string, n, bits >= 2", "why_tests_cant": "Tests cannot enumerate malformed encodings.", "anchors": ["pythonref/falcon_codec.py:trim_i8_decode"]}
{"id": "C11", "title": "NIST public-key parsing", "statement": "PublicKey.from_bytes(0x09 || modq_encode(h,512)) returns n=512 and h for every h in [0,q)^512; conversely a 897-byte input is accepted iff its header is 0x09 and all 512 14-bit fields are < q, and the decoded key determines the bytes.", "quantifier": "every 897-byte string and every public key", "why_tests_cant": "2^7176 inputs.", "anchors": ["pythonref/falcon.py:PublicKey.from_bytes", "pythonref/falcon_codec.py:modq_encode"]}
{"id": "C12", "title": "NIST public-key parsing never yields a degree-1024 key, and 1792-byte inputs alias 897-byte keys", "statement": "No byte string is ever accepted as a Falcon-1024 key (a 1793-byte encoding is refused for its length and 1791 data bytes hold only 1023 coefficients), and every accepted 897-byte key is also accepted when followed by any 895 extra bytes: the byte encoding of a key is not unique.", "quantifier": "every byte string", "why_tests_cant": "A universal negative over all byte strings.", "anchors": ["pythonref/falcon.py:PublicKey.from_bytes"]}
{"id": "C13", "title": "Reconstructing G from (f,g,F)", "statement": "complete_private(f,g,F,n) either raises ZeroDivisionError exactly when f is not invertible mod (q, x^n+1), or returns the unique G with coefficients in [-6144,6144] such that f*G = g*F mod (q, x^n+1); so if the true G of the NTRU basis has coefficients in that range, it is returned.", "quantifier": "every n=2^k and all integer polynomials f,g,F of length n", "why_tests_cant": "Infinite input space; the quotient is computed through the NTT.", "anchors": ["pythonref/falcon_codec.py:complete_private"]}
{"id": "C14", "title": "Keccak PRNG: absorption is concatenation", "statement": "For any sequence of update calls whose total length is at most 4096 bytes, the resulting generator is the same as after a single update with the concatenation; an update that would exceed 4096 bytes raises ValueError and leaves the generator unchanged.", "quantifier": "every sequence of byte strings", "why_tests_cant": "All splittings of all messages.", "anchors": ["pythonref/keccak_prng.py:KeccakPRNG.inject", "pythonref/keccak_prng.py:KeccakPRNG.update"]}
{"id": "C15", "title": "Keccak PRNG: output is one stream however it is read", "statement": "After flip, any sequence of read(k1), read(k2), ... returns consecutive slices of the one infinite stream H(S||0) H(S||1) ... with S = H(absorbed bytes) and 8-byte big-endian counters, as long as fewer than 2^64 blocks are used; each read(k) returns exactly k bytes.", "quantifier": "every absorbed string, every sequence of read sizes, every 32-byte-output hash function", "why_tests_cant": "All histories of reads.", "anchors": ["pythonref/keccak_prng.py:KeccakPRNG.extract", "pythonref/keccak_prng.py:KeccakPRNG.flip"]}
{"id": "C16", "title": "Keccak PRNG: phase discipline", "statement": "update after flip, flip after flip and read before flip all raise ValueError; no call sequence returns output before flip or changes the stream after flip.", "quantifier": "every sequence of update/flip/read calls", "why_tests_cant": "All call histories.", "anchors": ["pythonref/keccak_prng.py:KeccakPRNG"]}
{"id": "C17", "title": "Blake2s PRNG: same stream contract with a 1024-byte buffer", "statement": "Blake2sPRNG satisfies the same concatenation, streaming and phase properties with buffer limit 1024.", "quantifier": "every call history", "why_tests_cant": "All call histories.", "anchors": ["pythonref/blake2s_prng.py:Blake2sPRNG"]}
{"id": "C18", "title": "SHAKE wrapper computes the sponge on the concatenated input", "statement": "After updates m1..mk and flip, reads return consecutive slices of the SHAKE-256 sponge output (rate 136, suffix 0x1F, pad10*1) of m1||...||mk, whatever the splitting of inputs and outputs.", "quantifier": "every sequence of updates and reads", "why_tests_cant": "All call histories and message lengths.", "anchors": ["pythonref/shake.py:SHAKE", "pythonref/keccak.py:KeccakHash"]}
{"id": "C19", "title": "Keccak-f[1600] implementation equals the FIPS-202 round function", "statement": "Keccak.F1600 maps every 25-lane state to iota(chi(pi(rho(theta)))) iterated 24 times as FIPS 202 defines it.", "quantifier": "every state of 25 64-bit lanes", "why_tests_cant": "2^1600 states.", "anchors": ["pythonref/keccak.py:Keccak.F1600", "src/ZKNOX_shake.sol:f1600"]}
{"id": "C20", "title": "Hash-chain XOF contract", "statement": "KeccaXOF read(2) calls return successive 2-byte words of K1 K2 K3 ... with K1 = keccak(inputs), K(i+1) = keccak(Ki); update after the first read raises ValueError.", "quantifier": "every sequence of updates and read(2) calls", "why_tests_cant": "All call histories.", "anchors": ["pythonref/keccaxof.py:KeccaXOF"]}
{"id": "C21", "title": "ChaCha20 generator", "statement": "Each 64-byte block equals the RFC 8439 block function on the seeded matrix, successive requests of at most 512 bytes return consecutive slices of 512-byte interleaved refills (a leftover shorter than the request is discarded), and randombytes(k) returns k bytes iff k <= 512.", "quantifier": "every 56-byte seed and every sequence of requests", "why_tests_cant": "All seeds and histories.", "anchors": ["pythonref/rng.py:ChaCha20"]}
{"id": "C22", "title": "Hash-to-point output is in range and is the filtered stream", "statement": "hash_to_point(n,m,salt,xof), when it returns, returns exactly n coefficients in [0,q), namely the first n big-endian 16-bit words of the XOF stream of salt||m that are < 5q, each reduced mod q.", "quantifier": "every message, salt, n, and XOF stream", "why_tests_cant": "All messages; termination depends on the stream.", "anchors": ["pythonref/falcon.py:hash_to_point"]}
{"id": "C23", "title": "Hash-to-point rejection sampling is exactly uniform", "statement": "Among the 16-bit words accepted by hash_to_point every residue in [0,q) has exactly 5 preimages: uniform words give uniform coefficients.", "quantifier": "every residue in [0,q)", "why_tests_cant": "A counting statement over the whole word space.", "anchors": ["pythonref/falcon.py:hash_to_point"]}
{"id": "C24", "title": "On-chain Keccak hash-to-point equals the Python one", "statement": "hashToPointEVM(salt,msg) returns the same 512 coefficients as hash_to_point(512,msg,salt,KeccakPRNG) whenever the latter returns (fewer than 2^64 blocks, at most 4096 bytes absorbed).", "quantifier": "every salt, message and 32-byte hash function", "why_tests_cant": "Cross-implementation equality for all inputs.", "anchors": ["src/ZKNOX_HashToPoint.sol:hashToPointEVM", "pythonref/falcon.py:hash_to_point", "pythonref/keccak_prng.py:KeccakPRNG"]}
{"id": "C25", "title": "On-chain NIST hash-to-point equals the Python one", "statement": "hashToPointNIST(salt,msg) returns the same 512 coefficients as hash_to_point(512,msg,salt,SHAKE) whenever the latter returns.", "quantifier": "every salt and message", "why_tests_cant": "Cross-implementation equality for all inputs.", "anchors": ["src/ZKNOX_HashToPoint.sol:hashToPointNIST", "src/ZKNOX_shake.sol", "pythonref/shake.py:SHAKE"]}
{"id": "C26", "title": "Tetration hash-to-point and domain order", "statement": "hashToPointTETRATION(salt,msg) equals hash_to_point with KeccaXOF and with salt and message SWAPPED; with the same argument order the two differ in their preimage.", "quantifier": "every salt and message", "why_tests_cant": "Cross-implementation equality for all inputs.", "anchors": ["src/ZKNOX_HashToPoint.sol:hashToPointTETRATION", "pythonref/keccaxof.py:KeccaXOF"]}
{"id": "C27", "title": "Falcon completeness: every produced signature verifies", "statement": "For every key with f invertible mod q and f*G - g*F = q, every message, every source of randomness and every choice of integer lattice vector by the sampler, a signature returned by sign verifies under the public key with the same XOF.", "quantifier": "every key satisfying the NTRU equation, message, salt, sampler behaviour, n in the parameter table", "why_tests_cant": "Quantifies over all sampler outputs and keys.", "anchors": ["pythonref/falcon.py:SecretKey.sign", "pythonref/falcon.py:PublicKey.verify"]}
{"id": "C28", "title": "Falcon soundness of acceptance", "statement": "PublicKey.verify(m, sig) returns True iff sig decodes to some s1 and the vector (s0,s1), with s0 the coefficient-wise centred representative of H(m,salt) - s1*h mod (q, x^n+1), has squared norm at most sig_bound.", "quantifier": "every public key, message and signature byte string", "why_tests_cant": "All byte strings.", "anchors": ["pythonref/falcon.py:PublicKey.verify"]}
{"id": "C29", "title": "Signature byte format", "statement": "sign returns header (0x20+log2 n) || 40-byte salt || exactly sig_bytelen-41 bytes, i.e. a fixed total length per parameter set, with norm at most the bound.", "quantifier": "every key, message, randomness", "why_tests_cant": "All executions.", "anchors": ["pythonref/falcon.py:SecretKey.sign"]}
{"id": "C30", "title": "Header byte is not authenticated", "statement": "The verdict of verify does not depend on the first byte of the signature; consequently signatures are malleable.", "quantifier": "every signature and every replacement header byte", "why_tests_cant": "Universal over all signatures.", "anchors": ["pythonref/falcon.py:PublicKey.verify"]}
{"id": "C31", "title": "Public key relation", "statement": "For a constructed secret key the public polynomial h satisfies h*f = g mod (q,x^n+1), has coefficients in [0,q), and is the only such polynomial; construction raises when f is not invertible.", "quantifier": "every f,g", "why_tests_cant": "All keys.", "anchors": ["pythonref/falcon.py:SecretKey.__init__"]}
{"id": "C32", "title": "Recovery-mode completeness", "statement": "A signature returned by RecoveryModeSecretKey.sign recovers, for its message, exactly the signer's address hash, hence verifies.", "quantifier": "every key, message, sampler behaviour", "why_tests_cant": "All executions.", "anchors": ["pythonref/falcon_recovery.py:RecoveryModeSecretKey.sign", "pythonref/falcon_recovery.py:RecoveryModePublicKey.recover"]}
{"id": "C33", "title": "Recovery-mode soundness", "statement": "If recover returns an address (not False) then the signature decodes to (s0,s1) of squared norm at most the bound with s1 invertible, and the address is the hash of the unique h with s0 + s1*h = H(m,salt) mod q.", "quantifier": "every byte string and message", "why_tests_cant": "All byte strings.", "anchors": ["pythonref/falcon_recovery.py:RecoveryModePublicKey.recover"]}
{"id": "C34", "title": "Epervier completeness", "statement": "A signature returned by EpervierSecretKey.sign recovers exactly the signer's address hash (hash of NTT(h)).", "quantifier": "every key, message, sampler behaviour", "why_tests_cant": "All executions.", "anchors": ["pythonref/falcon_epervier.py:EpervierSecretKey.sign", "pythonref/falcon_epervier.py:EpervierPublicKey.recover"]}
{"id": "C35", "title": "Epervier soundness", "statement": "If Epervier recover returns an address then (s0,s1) is short, s1 is invertible and the address is the hash of NTT(h) for the unique h with s0 + s1*h = H(m,salt) mod q.", "quantifier": "every byte string and message", "why_tests_cant": "All byte strings.", "anchors": ["pythonref/falcon_epervier.py:EpervierPublicKey.recover"]}
{"id": "C36", "title": "Failure of recovery is confused with address zero", "statement": "In recovery and epervier modes verify compares the result of recover (False on failure) with the stored integer key: for the key 0 every signature on which recover fails is reported valid; for every other integer key (except none) verify is True iff recover returned exactly that address.", "quantifier": "every signature on which recover returns False", "why_tests_cant": "Depends on Python's False == 0 for one exceptional key.", "anchors": ["pythonref/falcon_recovery.py:RecoveryModePublicKey.verify", "pythonref/falcon_epervier.py:EpervierPublicKey.verify"]}
{"id": "C37", "title": "The inverse hint bytes are malleable", "statement": "The 3-byte inverse coefficients in recovery/epervier signatures are only checked mod q: adding a multiple of q that still fits 3 bytes keeps the recovered address, so signatures can be altered without the key.", "quantifier": "every valid recovery signature", "why_tests_cant": "Universal over all signatures.", "anchors": ["pythonref/falcon_recovery.py:RecoveryModePublicKey.recover"]}
{"id": "C38", "title": "Karatsuba product is the negacyclic product", "statement": "karamul(a,b) equals the product of a and b modulo x^n+1 for all integer polynomials of length n = 2^k.", "quantifier": "every k and all integer polynomials", "why_tests_cant": "Infinite input space.", "anchors": ["pythonref/ntrugen.py:karatsuba", "pythonref/ntrugen.py:karamul"]}
{"id": "C39", "title": "NTRU equation for every solution returned", "statement": "If ntru_solve(f,g) returns (F,G) then f*G - g*F = q modulo x^n+1, for polynomials of any length n=2^k and whatever integer combinations the floating-point reduction chooses.", "quantifier": "every f,g of length 2^k, every behaviour of the floating-point reduction", "why_tests_cant": "Infinite input space and arbitrary rounding behaviour.", "anchors": ["pythonref/ntrugen.py:ntru_solve", "pythonref/ntrugen.py:reduce", "pythonref/ntrugen.py:field_norm", "pythonref/ntrugen.py:lift", "pythonref/ntrugen.py:galois_conjugate"]}
{"id": "C40", "title": "Babai reduction preserves the NTRU equation", "statement": "reduce(f,g,F,G) returns (F',G') with f*G'-g*F' = f*G-g*F and F'-F, G'-G the same multiple of f and g.", "quantifier": "every f,g,F,G and any sequence of rounded quotients", "why_tests_cant": "Floating-point dependent control flow.", "anchors": ["pythonref/ntrugen.py:reduce"]}
{"id": "C41", "title": "Extended gcd", "statement": "xgcd(b,n) returns (d,u,v) with d = u*b + v*n and |d| = gcd(b,n); the sign of d may be negative, so ntru_solve rejects some coprime inputs.", "quantifier": "all integers b,n", "why_tests_cant": "Infinite input space.", "anchors": ["pythonref/ntrugen.py:xgcd"]}
{"id": "C42", "title": "Field norm and Galois conjugate", "statement": "lift(field_norm(a)) = a * galois_conjugate(a) modulo x^n+1 for every a of length n=2^k >= 2.", "quantifier": "every integer polynomial", "why_tests_cant": "Infinite input space.", "anchors": ["pythonref/ntrugen.py:field_norm", "pythonref/ntrugen.py:lift", "pythonref/ntrugen.py:galois_conjugate"]}
{"id": "C43", "title": "Generated keys are well formed", "statement": "Whenever ntru_gen returns, f*G-g*F = q mod x^n+1 and f is invertible mod q; with the reference sampler every coefficient of f and g is in [-127,127] and their coefficient sums are odd.", "quantifier": "every randomness source", "why_tests_cant": "All executions.", "anchors": ["pythonref/ntrugen.py:ntru_gen", "pythonref/mkgauss.py:poly_small_mkgauss"]}
{"id": "C44", "title": "bitsize", "statement": "bitsize(a) is the least multiple of 8 that is >= the bit length of |a|.", "quantifier": "every integer", "why_tests_cant": "Infinite input space.", "anchors": ["pythonref/ntrugen.py:bitsize"]}
{"id": "C45", "title": "Base sampler range and exact distribution", "statement": "basesampler returns z0 in 0..18 and, for each k, returns a value > k for exactly RCDT[k] of the 2^72 possible 9-byte inputs; the number of inputs giving i >= 1 is the integer part of 2^72 times the probability of i under the half-Gaussian of deviation 1.8205.", "quantifier": "every 9-byte string", "why_tests_cant": "2^72 inputs; exact counting.", "anchors": ["pythonref/samplerz.py:basesampler"]}
{"id": "C46", "title": "Lazy Bernoulli comparison", "statement": "The byte-wise lazy comparison in berexp returns True iff the 64-bit number formed by the (lazily drawn) bytes is less than z, for the z it computed whenever 0 <= z < 2^64, and it consumes between 1 and 8 bytes. With exact real arithmetic for the floats, the acceptance probability is ccs*exp(-x) up to 2^-44.", "quantifier": "every z in range and every byte stream", "why_tests_cant": "2^128 pairs.", "anchors": ["pythonref/samplerz.py:berexp"]}
{"id": "C47", "title": "Reference Gaussian sampler range", "statement": "mkgauss draws stay within +-26*2^(10-logn), and each elementary draw of value k has exactly the probability given by its table, whose entries are 2^63 times the probabilities of the Gaussian of deviation 1.17 sqrt(12289/2048) (tail given nonzero), rounded to the nearest integer.", "quantifier": "every byte stream, logn <= 10", "why_tests_cant": "All byte streams.", "anchors": ["pythonref/mkgauss.py:mkgauss"]}
{"id": "C48", "title": "split and merge are mutually inverse", "statement": "merge(split(f)) = f for even length and split(merge([f0,f1])) = [f0,f1] for equal lengths.", "quantifier": "every list", "why_tests_cant": "Infinite input space.", "anchors": ["pythonref/common.py:split", "pythonref/common.py:merge"]}
{"id": "C49", "title": "Compact representation round-trip (Python to Solidity)", "statement": "falcon_compact(a) for coefficients in [0,2^16), length multiple of 16, yields 256-bit words which _ZKNOX_NTT_Expand turns back into a, and equals _ZKNOX_NTT_Compact(a).", "quantifier": "every such list of 512 coefficients", "why_tests_cant": "2^8192 inputs.", "anchors": ["pythonref/common.py:falcon_compact", "src/ZKNOX_falcon_utils.sol:_ZKNOX_NTT_Compact", "src/ZKNOX_falcon_utils.sol:_ZKNOX_NTT_Expand"]}
{"id": "C50", "title": "On-chain NTT multiplies polynomials", "statement": "For all a,b in [0,q)^512, inverse-NTT(NTT(a) pointwise NTT(b)) equals a*b modulo (q, x^512+1); results are canonical.", "quantifier": "all coefficient vectors", "why_tests_cant": "q^1024 pairs.", "anchors": ["src/ZKNOX_NTT.sol", "src/ZKNOX_NTT_falcon.sol"]}
{"id": "C51", "title": "On-chain NTT is invertible", "statement": "inverse-NTT(NTT(a)) = a for every a in [0,q)^512 and NTT(inverse-NTT(b)) = b.", "quantifier": "all coefficient vectors", "why_tests_cant": "q^512 inputs.", "anchors": ["src/ZKNOX_NTT.sol", "src/ZKNOX_NTT_falcon.sol"]}
{"id": "C52", "title": "What on-chain falcon_core actually accepts", "statement": "For canonical inputs, falcon_core(s2, ntth, hashed) with hashed allocated before returns true iff the centred squared norm of coefficients 0..510 of hashed - s2*h is < sigBound: coefficient 511 and the whole of s2 are never counted. Hence the documented check ||s1||^2+||s2||^2 < bound is not implemented.", "quantifier": "every s2, public key and hashed point", "why_tests_cant": "Universal over all inputs; positive tests cannot see missing terms.", "anchors": ["src/ZKNOX_falcon_core.sol:falcon_core", "src/ZKNOX_falcon_core.sol:falcon_normalize"]}
{"id": "C53", "title": "On-chain verification is forgeable without the key", "statement": "For every public key h invertible mod q and every message and salt, s2 = c*h^-1 is accepted by the on-chain verifier: the verifier gives no unforgeability.", "quantifier": "every invertible public key and message", "why_tests_cant": "Universal existence of a forgery.", "anchors": ["src/ZKNOX_falcon_core.sol:falcon_core", "src/ZKNOX_falcon.sol:verify"]}
{"id": "C54", "title": "Honest signatures are accepted on chain (except at the exact bound)", "statement": "If the Python verifier accepts (s1 decoded, norm strictly below the bound), the on-chain core accepts the corresponding compact signature and NTT-domain key.", "quantifier": "every key and signature", "why_tests_cant": "All keys and signatures.", "anchors": ["src/ZKNOX_falcon_core.sol:falcon_core", "pythonref/falcon.py:PublicKey.verify", "pythonref/sign_cli.py:verify_signature_on_chain"]}
{"id": "C55", "title": "Polynomial range check accepts q", "statement": "falcon_checkPolynomialRange returns true iff all (possibly expanded) coefficients are <= q, i.e. it accepts the non-canonical value q contrary to its documentation.", "quantifier": "every polynomial", "why_tests_cant": "Boundary value over all positions.", "anchors": ["src/ZKNOX_falcon_core.sol:falcon_checkPolynomialRange"]}
{"id": "C56", "title": "On-chain signature decompression vs Python", "statement": "On encodings produced by compress with all |c| <= 2047, _decompress_sig returns the same coefficients mod q as decompress; unlike Python it also accepts minus zero, returning the non-canonical value q.", "quantifier": "every such vector / buffer", "why_tests_cant": "All encodings.", "anchors": ["src/ZKNOX_falcon_encodings.sol:_decompress_sig", "pythonref/encoding.py:decompress"]}
{"id": "C57", "title": "On-chain public-key decompression vs Python", "statement": "_ZKNOX_NTT_Decompress(0x09||data, 1) succeeds iff modq_decode(data,512) does, with the same coefficients, despite the 32-bit accumulator.", "quantifier": "every 896-byte-or-longer data", "why_tests_cant": "Overflow-sensitive for all inputs.", "anchors": ["src/ZKNOX_falcon_utils.sol:_ZKNOX_NTT_Decompress", "pythonref/falcon_codec.py:modq_decode"]}
{"id": "C58", "title": "KAT framing is understood on chain", "statement": "For every signed message produced by scripts/generate_kat_rsp.sign_message framing, decompress_KAT returns the salt, the message and the coefficients that were framed.", "quantifier": "every message, salt and compressed signature", "why_tests_cant": "All messages and lengths.", "anchors": ["pythonref/scripts/generate_kat_rsp.py:sign_message", "src/ZKNOX_falcon_encodings.sol:decompress_KAT"]}
{"id": "C59", "title": "Epervier on-chain hint check is sound", "statement": "ZKNOX_epervier.recover passes the hint check iff hint * prod NTT(s2)_i = 1 mod q, and then uses exactly the pointwise inverse of NTT(s2).", "quantifier": "every s2 and hint", "why_tests_cant": "All inputs.", "anchors": ["src/ZKNOX_epervier.sol:recover"]}
{"id": "C60", "title": "Epervier on-chain norm check skips the last coefficient", "statement": "recover's norm test covers indices 0..510 only: coefficient 511 of s1 and s2 is unconstrained.", "quantifier": "every signature", "why_tests_cant": "Positive tests cannot see missing terms.", "anchors": ["src/ZKNOX_epervier.sol:recover"]}
{"id": "C61", "title": "NTT contract tables are never immutable", "statement": "ZKNOX_NTT.update succeeds for anybody in every reachable state after construction, in particular after make_immutable: the guard is inverted.", "quantifier": "every reachable contract state and caller", "why_tests_cant": "All transaction histories.", "anchors": ["src/ZKNOX_NTT.sol:update"]}
{"id": "C62", "title": "Key files round-trip", "statement": "load_pk(save_pk(pk)) and load_sk(save_sk(sk)) return the same n, polynomials and version for every supported version and all integer coefficients; load_signature(save_signature(s)) = s.", "quantifier": "every key and signature", "why_tests_cant": "All integers and lengths.", "anchors": ["pythonref/sign_cli.py:save_pk", "pythonref/sign_cli.py:load_pk", "pythonref/sign_cli.py:save_sk", "pythonref/sign_cli.py:load_sk", "pythonref/sign_cli.py:save_signature", "pythonref/sign_cli.py:load_signature"]}
{"id": "C63", "title": "CLI deterministic signing uses public randomness only", "statement": "In the CLI, the salt and sampler seed used to sign a message are a function of the PUBLIC key and the message only, and (because the sponge is read without padding or permuting) do not depend on a trailing part of the message; messages of equal length that differ only there get the same salt.", "quantifier": "every key and message", "why_tests_cant": "A dependency statement over all secrets.", "anchors": ["pythonref/sign_cli.py:signature"]}
{"id": "C64", "title": "Version dispatch of the CLI", "statement": "For versions falcon, ethfalcon and epervier, signatures produced by the CLI's signature() verify with verify_signature; for falconrec verify_signature always raises.", "quantifier": "every key, message and version", "why_tests_cant": "All messages.", "anchors": ["pythonref/sign_cli.py:signature", "pythonref/sign_cli.py:verify_signature"]}
{"id": "C65", "title": "Transaction encoding is injective", "statement": "The byte string hashed by transaction_hash determines (nonce,to,data,value); distinct transactions are hashed on distinct preimages.", "quantifier": "every pair of in-range transactions", "why_tests_cant": "All byte strings.", "anchors": ["pythonref/sign_cli.py:transaction_hash"]}
{"id": "C66", "title": "AES-CTR DRBG output", "statement": "random_bytes(k) returns exactly k bytes, successive counter blocks are consecutive mod 2^128, and key and V stay 32 and 16 bytes in every reachable state.", "quantifier": "every seed and call history", "why_tests_cant": "All call histories.", "anchors": ["pythonref/drbg/aes256_ctr_drbg.py:AES256_CTR_DRBG"]}
{"id": "C67", "title": "Bytecode storage round-trip", "statement": "SSTORE2.read(SSTORE2.write(data)) = data for every data that fits, and the compact public key written by DeployPolynomial is read back unchanged.", "quantifier": "every byte string", "why_tests_cant": "All byte strings.", "anchors": ["lib/sstore2/contracts/SSTORE2.sol", "src/ZKNOX_common.sol"]}
{"id": "C68", "title": "Packed signature parsing on chain", "statement": "verify(bytes,bytes32,bytes) on packed salt||s2 words calls the core check with exactly that salt and those 32 words; trailing bytes fewer than one word are ignored (malleable).", "quantifier": "every byte string", "why_tests_cant": "All byte strings.", "anchors": ["src/ZKNOX_ethfalcon.sol:verify", "src/ZKNOX_common.sol"]}
{"id": "C69", "title": "Signed 16-bit and NIST secret-key codecs of the KAT generator", "statement": "decode_secret_key_nist applied to the NIST encoding of f, g, F (with any trailing bytes) returns f, g, F and the completed G; encode_secret_key loses nothing on 16-bit coefficients; decode_secret_key_nist refuses everything encode_secret_key writes (the two formats differ); parse_kat_rsp reads back every .rsp file generate_rsp writes, except that an empty message is lost.", "quantifier": "every in-range key, every list of vectors", "why_tests_cant": "All keys and files.", "anchors": ["pythonref/scripts/generate_kat_rsp.py:encode_secret_key", "pythonref/scripts/generate_kat_rsp.py:decode_secret_key_nist"]}
{"id": "C70", "title": "On-chain signatures are malleable", "statement": "The verdict of the on-chain verifier depends on the 16-bit coefficients of s2 modulo q only, so every accepted array of 32 words has another, different, accepted array; recover accepts hint + q*k with the same result for every k.", "quantifier": "every accepted signature, message, key and hint", "why_tests_cant": "Universal existence of a second signature.", "anchors": ["src/ZKNOX_falcon_core.sol:falcon_core", "src/ZKNOX_falcon.sol:verify", "src/ZKNOX_epervier.sol:recover"]}
{"id": "C71", "title": "The stateful NTT contract multiplies with word tables, not with the deployed tables", "statement": "With table contracts that hold one 32-byte word per entry the stateful ZKNOX_NTT functions return the product modulo (q, x^n+1); with the tables that Deploy creates (16 entries per word) they do not.", "quantifier": "every pair of polynomials of size 2^k <= 512, every storage state", "why_tests_cant": "All polynomials; tests compare a few products.", "anchors": ["src/ZKNOX_NTT.sol:ZKNOX_NTT_MUL", "src/ZKNOX_NTT.sol:ZKNOX_NTTFW", "src/ZKNOX_falcon_deploy.sol:Deploy"]}
{"id": "C72", "title": "Support of the integer Gaussian sampler", "statement": "Every value returned by samplerz(mu, sigma, sigmin) lies in [floor(mu)-18, floor(mu)+19], whatever the floating-point rejection decides, and at least 11 random bytes are read.", "quantifier": "every mu, sigma, sigmin, randomness source and number of rejections", "why_tests_cant": "All byte streams and floats.", "anchors": ["pythonref/samplerz.py:samplerz", "pythonref/samplerz.py:basesampler"]}
{"id": "C73", "title": "Command line actions that can never succeed", "statement": "The action sign_tx never completes: it raises (TypeError, verify_signature called with three arguments) on every key, transaction and version; recover_on_chain_with_transaction never sends anything (IndexError: 8 fields, 7 values); verify_signature_on_chain_with_transaction builds its command with every value in its place.", "quantifier": "every key file, transaction, signature and version", "why_tests_cant": "Universal failure over all inputs.", "anchors": ["pythonref/sign_cli.py:cli", "pythonref/sign_cli.py:recover_on_chain_with_transaction", "pythonref/sign_cli.py:verify_signature_on_chain_with_transaction"]}
{"id": "C74", "title": "The FFT, in exact arithmetic", "statement": "With exact complex numbers fft lists the values of a real polynomial at 2^k distinct complex numbers whose 2^k-th power is -1; ifft(fft(f)) = f and fft(ifft(v)) = v for every conjugation-symmetric v; mul, div and adj are the product, quotient and adjoint modulo x^n + 1; split_fft and merge_fft are the even/odd split; a polynomial of fewer than two coefficients raises.", "quantifier": "every k >= 1 and all polynomials of 2^k coefficients", "why_tests_cant": "All polynomials of all sizes.", "anchors": ["pythonref/fft.py", "pythonref/common.py:split", "pythonref/common.py:merge"]}
{"id": "C75", "title": "Sampling and signing, in exact arithmetic", "statement": "With exact complex numbers, for every key solving the NTRU equation, building the sampling tree succeeds, and sampling returns an integer vector of the lattice whatever the values returned by samplerz are; so every signature produced from such samples verifies, in each of the three schemes.", "quantifier": "every key, hash point, message, salt, and every behaviour of samplerz", "why_tests_cant": "All keys, all sampler behaviours.", "anchors": ["pythonref/falcon.py:sample_preimage", "pythonref/falcon.py:__init__", "pythonref/ffsampling.py:ffldl_fft", "pythonref/ffsampling.py:ffsampling_fft"]}
{"id": "C76", "title": "Standard deviations handed to samplerz", "statement": "In exact arithmetic all leaves of the sampling tree of a key are positive reals, and for a key that passes the gs_norm test of key generation every standard deviation handed to samplerz lies in [sigmin, MAX_SIGMA], for the numbers of the table of every parameter set; gs_norm(f, g, q) is the larger of |(g,-f)|^2 and the squared norm of q (f*, g*)/(ff* + gg*).", "quantifier": "every key of every parameter set", "why_tests_cant": "All keys.", "anchors": ["pythonref/ntrugen.py:gs_norm", "pythonref/ffsampling.py:ffldl_fft", "pythonref/falcon.py:normalize_tree", "pythonref/falcon.py:Params", "pythonref/samplerz.py:MAX_SIGMA"]}
{"id": "C77", "title": "Norm of the sampled signature", "statement": "In exact arithmetic |s|^2 = sigma^2 * sum over the 2n calls samplerz(mu_i, sigma_i) -> z_i of ((z_i - mu_i)/sigma_i)^2; hence the vector is at most 2 n delta^2 B long (squared) when every |z_i - mu_i| <= delta and gs_norm <= B.", "quantifier": "every key, hash point and sampler behaviour", "why_tests_cant": "All keys and sampler behaviours; a wrong tree shows only as a statistical deviation.", "anchors": ["pythonref/ffsampling.py:ffsampling_fft", "pythonref/falcon.py:sample_preimage"]}
{"id": "C78", "title": "The in-repo BLAKE2s is BLAKE2s, and hashing field elements is an unambiguous encoding of them", "statement": "blake2s_compress is the compression function of RFC 7693 for every chaining value, block, counter and final flag. calculate_blake2s_hash_from_felt252s returns the BLAKE2s-256 digest, as a little-endian integer modulo the prime, of a serialisation of the residues (shorter than 4 GiB; beyond that the code's counter is wrong). The serialisation is as documented (2 words below 2^63 and otherwise 8 words with bit 255 set when encode is on), depends only on the residues, and different lists of residues have different serialisations.", "quantifier": "every list of integers, both flags, every modulus up to 2^255 (2^256 without encode)", "why_tests_cant": "The values and lengths of the lists are unbounded; an ambiguous serialisation would only show on a crafted pair of inputs.", "anchors": ["pythonref/blake2s/blake2s.py:blake2s_compress", "pythonref/blake2s/blake2s.py:calculate_blake2s_hash_from_felt252s"]}
{"id": "C79", "title": "samplerz returns a discrete Gaussian sample, in exact arithmetic", "statement": "With exact real arithmetic, for every centre mu and every 1 <= sigmin <= sigma <= MAX_SIGMA, the proportions of the values returned by a round of samplerz among the accepted random inputs are the probabilities of the discrete Gaussian of centre mu and deviation sigma over the integers, with an L1 distance of at most 2^-40; at least one input in eight is accepted; a rejected round is followed by a round on fresh bytes. The standard deviations of the tree of every generated key are in that range.", "quantifier": "every mu, sigma, sigmin in the range, every string of random bytes, every key", "why_tests_cant": "A distribution over 2^144 inputs for each of infinitely many centres; statistical tests see deviations of about 2^-15 at best.", "anchors": ["pythonref/samplerz.py:samplerz", "pythonref/samplerz.py:berexp", "pythonref/samplerz.py:approxexp", "pythonref/samplerz.py:basesampler"]}
{"id": "C80", "title": "The external recursive verifier, and the forgery against it", "statement": "The recursive NTT of external/ multiplies in Z_q[x]/(x^n+1) for every size its tables cover (2 to 512), iNTT inverts nTT, and multiplying by a key transformed beforehand gives the same product, so verify_nttpub on the transform of a key behaves as verify on the key. For int256 coefficients verify returns, always the zero address, exactly when every s1 coefficient lies in [-q, q] and some s1' congruent to s1 and s0 with s0 + s1*h = hash have squared norm below 34034726; otherwise it reverts. Hence coefficients can be replaced by congruent ones; the verdict depends on the concatenation message || salt only; and every signature Python accepts with KeccaXOF (norm below the bound) is accepted for every other cut of salt || message, the forgery that forgery.py demonstrates.", "quantifier": "every message, salt, signature array, key and 32-byte hash function", "why_tests_cant": "All inputs; the multiplication tables hold 1022 constants and 12289 inverses, and the forgery is a statement on every signature.", "anchors": ["external/ETHFalcon_Recursive.sol:verify", "external/ETHFalcon_Recursive.sol:verify_nttpub", "external/NTT_Recursive.sol", "pythonref/forgery.py"]}
{"id": "C81", "title": "The Python signer used by the Solidity tests prints signatures that the contracts accept", "statement": "Whenever sig_sol.py prints, the printed hexadecimal decodes under abi.decode(uint256[32], bytes, uint256[32]) to a public key, a 40-byte salt and an s2 that ZKNOX_falcon.verify (mode NIST) or ZKNOX_ethfalcon.verify (mode ETH, messages up to 4056 bytes) accepts for the message, unless s2 is zero. For an NTRU key and lattice samples it prints whenever signing returns: the assertion and the encodings never fail. For any other mode it never prints. The salt and key depend on the seed only, so all messages signed with one seed share a salt; the first two characters of the message argument are dropped whatever they are.", "quantifier": "every message, seed and mode string, every key generator and sampler", "why_tests_cant": "All messages, seeds and keys; the Solidity tests run a handful of seeds.", "anchors": ["pythonref/sig_sol.py", "src/ZKNOX_PythonSigner.sol:sign", "src/ZKNOX_falcon.sol:verify", "src/ZKNOX_ethfalcon.sol:verify"]}
{"id": "C82", "title": "Nearest-plane rounding: the two formats agree and the result is close", "statement": "In exact arithmetic, for every key solving the NTRU equation and every target with real coefficients, ffldl and ffldl_fft build their trees, ffnp and ffnp_fft return without exception, and the inverse transform of the FFT result is exactly the integer vector of the coefficient version. The lattice vector found is close to the target: the squared norm of (t - z) B is at most (n/2) gs_norm(f, g, q).", "quantifier": "every key and every real target", "why_tests_cant": "All real targets and keys; the test samples random targets and checks a heuristic bound.", "anchors": ["pythonref/ffsampling.py:ffnp", "pythonref/ffsampling.py:ffnp_fft", "pythonref/ffsampling.py:ffldl", "pythonref/ffsampling.py:ldl", "pythonref/test.py:test_ffnp", "pythonref/test.py:vecmatmul"]}
{"id": "C83", "title": "The C signature codec is strict and agrees with the Python one", "statement": "comp_decode accepts exactly the byte strings that hold 2^logn coefficients of at most 2047 in absolute value, each in its only encoding, without superfluous bytes and with zero bits at the end; comp_encode produces exactly that or fails (coefficient too large or buffer too small); so decoding inverts encoding and a vector has one encoding. Python's compress is the C encoding padded with zero bytes; what C decodes, Python decodes to the same values; what Python decodes, C decodes unless a coefficient exceeds 2047 or the padding is not zero. modq_decode is the Python modq_decode.", "quantifier": "every byte string, every vector, every logn and buffer size", "why_tests_cant": "All byte strings; a lenient decoder shows only on crafted inputs.", "anchors": ["falcon/nistfalcon/src/codec.c:comp_decode", "falcon/nistfalcon/src/codec.c:comp_encode", "falcon/nistfalcon/src/codec.c:modq_decode", "falcon/nistfalcon/src/codec.c:modq_decode16", "pythonref/encoding.py:compress", "pythonref/encoding.py:decompress"]}
{"id": "C84", "title": "The C arithmetic of the verifier is exact", "statement": "Montgomery multiplication returns x*y/2^16 modulo q in [0, q); the C NTT, pointwise product and inverse NTT multiply in Z_q[x]/(x^n+1) for every n = 2 ... 1024; for n = 512 the transform is the one of the contracts; the 32-bit saturating norm decides the exact inequality for all int16 vectors; so verify_raw accepts iff (s1, s2) with s1 + s2 h = c has squared norm at most the bound.", "quantifier": "all operands, all sizes, all int16 vectors", "why_tests_cant": "2^27 Montgomery products and 12289^512 vectors; an overflow shows only on extreme inputs.", "anchors": ["falcon/nistfalcon/src/vrfy.c:mq_montymul", "falcon/nistfalcon/src/vrfy.c:mq_NTT", "falcon/nistfalcon/src/vrfy.c:mq_iNTT", "falcon/nistfalcon/src/vrfy.c:verify_raw", "falcon/nistfalcon/src/common.c:is_short"]}
{"id": "C85", "title": "The C verifier opens exactly the well-formed signed messages, with SHAKE256", "statement": "crypto_sign_open returns a message iff the input is length || nonce || message || 0x29 || compressed s2, the key is 9 || packed h, and some s1 with s1 + s2 h = hash-to-point(SHAKE256(nonce || message)) has |s1|^2 + |s2|^2 <= 34034726. The bytes are determined by nonce, message and s2. It stays inside its buffers when the key has 897 bytes (not when it is shorter). It agrees with the Python verifier up to re-encoding, and opens what crypto_sign returns when the sampler gives short preimages.", "quantifier": "every signed message and key, every sampler", "why_tests_cant": "All byte strings.", "anchors": ["falcon/nistfalcon/src/nist.c:crypto_sign_open", "falcon/nistfalcon/src/nist.c:crypto_sign", "falcon/nistfalcon/src/common.c:hash_to_point_vartime", "pythonref/falcon.py:verify"]}
{"id": "C86", "title": "The 16-bit C verifier", "statement": "zknox_crypto_sign_open is the same check for a key given as the transform of h and s2 given as 512 words; it agrees with crypto_sign_open on the same nonce, message and s2. A negative coefficient x is accepted as x + q and as x + 2^16, so every accepted signed message with a negative coefficient has a second accepted form. Words from 2047 on are read as negative: encoding then decoding is the identity iff all coefficients are between -10242 and 2046. No access outside the buffers when the key has 1025 bytes.", "quantifier": "every signed message and key", "why_tests_cant": "All byte strings.", "anchors": ["falcon/nistfalcon/src/nist16.c:zknox_crypto_sign_open", "falcon/nistfalcon/src/codec.c:comp_decode16", "falcon/nistfalcon/src/codec.c:comp_encode16"]}
{"id": "C87", "title": "The C build with Keccak-256: same point as Python up to 4096 bytes, and nothing is hashed beyond", "statement": "With -DETHFALCON signer, verifier and Python's KeccakPRNG hash nonce || message to the same point when it has at most 4096 bytes. For longer inputs the return code of inject is ignored: the verifier hashes the empty string and the signer only the nonce, so a signature that opens one message of more than 4056 bytes opens every other one under every nonce, and for a key anyone can compute such a signature exists.", "quantifier": "every nonce, message, key and 32-byte hash function", "why_tests_cant": "All messages; the tests use short ones.", "anchors": ["falcon/nistfalcon/src/keccak_prng.c:inner_keccak256_inject", "falcon/nistfalcon/src/keccak_prng.c:inner_keccak256_extract", "falcon/nistfalcon/src/nist.c:crypto_sign_open", "pythonref/keccak_prng.py"]}
{"id": "C88", "title": "The Go wrapper and the precompile", "statement": "VerifySignature returns true iff the C verifier opens the signature to the message (at most 1024 bytes); the precompile returns 32 bytes ending in 1 iff so, else zeros. It panics exactly on an empty signature or key. It reads outside the key when this is shorter than 897 bytes, and overruns its 1024-byte buffer for every message of more than 1024 bytes under a key that anyone can compute; otherwise memory is safe. SignMessage overruns its 1330 bytes iff message and compressed signature exceed 1287 bytes together, and panics exactly on an empty message or key.", "quantifier": "every signature, message and key", "why_tests_cant": "All byte strings; the overflow needs a valid signature on a long message.", "anchors": ["falcon/falcon.go:VerifySignature", "falcon/falcon.go:SignMessage", "geth/contracts.go:falconvrfy.Run"]}
{"id": "C89", "title": "Key arithmetic and secret keys of the C code", "statement": "mq_div_12289 divides modulo q for all operands. compute_public returns h with h f = g iff f is invertible, as Python. complete_private returns G iff f is invertible and the G with f G = g F modulo q fits in [-127, 127] (Python has no such bound); it recovers the G of every NTRU key in that range. is_invertible, count_nttzero and verify_recover decide invertibility, count zeros and return the unique key under which the signature is a short preimage. A 1281-byte secret key decodes iff it is 0x59 || f, g on 6 bits || F on 8 bits and complete_private succeeds; encoding then decoding gives the key back; nothing outside the buffer is read; Python's KAT decoder accepts the same keys except for the bound on G. The NTRU equation is not checked: f = g = 1, F = G is accepted.", "quantifier": "all operands, polynomials and byte strings", "why_tests_cant": "12289^2 divisions, all polynomials and keys.", "anchors": ["falcon/nistfalcon/src/vrfy.c:mq_div_12289", "falcon/nistfalcon/src/vrfy.c:compute_public", "falcon/nistfalcon/src/vrfy.c:complete_private", "falcon/nistfalcon/src/vrfy.c:verify_recover", "falcon/nistfalcon/src/vrfy.c:is_invertible", "falcon/nistfalcon/src/vrfy.c:count_nttzero", "falcon/nistfalcon/src/codec.c:trim_i8_encode", "falcon/nistfalcon/src/codec.c:trim_i8_decode", "falcon/nistfalcon/src/nist.c:crypto_sign_keypair", "falcon/nistfalcon/src/nist16.c:zknox_crypto_sign_keypair"]}
{"id": "C90", "title": "The C Epervier functions", "statement": "zknox_crypto_sign_open_epervier returns m iff the input is length || nonce || m || 0x29 || s1 || 0x29 || s2 || rest, s2 is invertible, |s1|^2 + |s2|^2 <= 34034726 and s1 + s2 h = hash-to-point(SHAKE256(nonce || m)) for the h whose transform is the key. The hint at the end is never read, so it can be replaced by anything. The signer stops at the first sample with invertible s2 and writes as hint the inverse of the product of the transform of s2, as the contract requires (C59); what it writes is opened when the sampler gives short preimages with coefficients in [-10242, 2046]. With an announced length of at least 2050 nothing outside the buffers is read; with length 1 the verifier reads past its input, whatever the key. The KAT generator transforms the key twice: a message that opens under the key of the key generator does not open under that one unless h is its own transform.", "quantifier": "every signed message, key, sampler and number of retries", "why_tests_cant": "All byte strings and samplers.", "anchors": ["falcon/nistfalcon/src/epervier16.c:zknox_crypto_sign_open_epervier", "falcon/nistfalcon/src/epervier16.c:zknox_crypto_sign_epervier", "falcon/nistfalcon/src/epervier16.c:zknox_pk_epervier", "falcon/nistfalcon/src/vrfy.c:verify_recover_epervier", "falcon/nistfalcon/src/vrfy.c:hint_epervier", "falcon/nistfalcon/KAT/PQCgenKAT_sign_epervier_zknox.c:main"]}
{"id": "C91", "title": "C floating point: sums, differences and products are correctly rounded", "statement": "For all zeros and normal numbers, fpr_add, fpr_sub and fpr_mul return the IEEE-754 double nearest to the exact result (ties to even, right sign, sign of zero included) when that lies between the smallest and largest normal number, and a zero when it is smaller; negation is exact. The nearest double is unique, so the C code and Python's hardware floats agree bit for bit on such operations.", "quantifier": "every pair of operands (2^128)", "why_tests_cant": "The space cannot be enumerated, and rounding errors of one unit show only on rare patterns of bits (ties, carries into the exponent, cancellation).", "anchors": ["falcon/nistfalcon/src/fpr.c:fpr_add", "falcon/nistfalcon/src/fpr.c:fpr_mul", "falcon/nistfalcon/src/fpr.h:fpr_sub", "falcon/nistfalcon/src/fpr.h:fpr_neg", "falcon/nistfalcon/src/fpr.h:FPR"]}
{"id": "C92", "title": "C floating point: quotients and square roots are correctly rounded", "statement": "For every zero or normal x and normal y, fpr_div(x, y) and fpr_inv(y) return the nearest double to the exact quotient (zero when smaller than every normal number); for every x with clear sign bit, fpr_sqrt(x) returns the nearest double to the square root of x.", "quantifier": "every operand", "why_tests_cant": "As C91; bit-by-bit division and square root err on the last bit only for rare operands.", "anchors": ["falcon/nistfalcon/src/fpr.c:fpr_div", "falcon/nistfalcon/src/fpr.c:fpr_sqrt", "falcon/nistfalcon/src/fpr.h:fpr_inv"]}
{"id": "C93", "title": "C floating point: conversions, comparison and constants", "statement": "fpr_scaled(i, sc) is i 2^sc correctly rounded, exact for |i| <= 2^53 and sc = 0. Below 2^63 in absolute value, fpr_trunc truncates, fpr_floor floors (except that -0 gives -1), fpr_rint rounds to nearest, ties to even. fpr_lt compares the values (except that -0 < +0). Halving and doubling are exact. The constants q, 1/q, 1/(2 sigma0^2), 1.17^2 q, 1/sqrt 2, 1/sqrt 8 and the powers of two hold what they are named for, correctly rounded; those named 2^63 - 1 hold 2^63.", "quantifier": "every operand", "why_tests_cant": "2^64 operands for each function.", "anchors": ["falcon/nistfalcon/src/fpr.c:fpr_scaled", "falcon/nistfalcon/src/fpr.h:fpr_of", "falcon/nistfalcon/src/fpr.h:fpr_rint", "falcon/nistfalcon/src/fpr.h:fpr_floor", "falcon/nistfalcon/src/fpr.h:fpr_trunc", "falcon/nistfalcon/src/fpr.h:fpr_lt", "falcon/nistfalcon/src/fpr.h:fpr_half", "falcon/nistfalcon/src/fpr.h:fpr_double", "falcon/nistfalcon/src/fpr.c:fpr_p2_tab"]}
{"id": "C94", "title": "The generator of the C signer", "statement": "Seeded with 56 bytes, and whatever the uninitialised buffer holds, every history of prng_get_u64 and prng_get_u8 returns the little-endian values of consecutive bytes of 512-byte refills made of RFC 8439 blocks (the 64-bit counter wraps), starting a new refill when fewer than ten bytes are left for a 64-bit draw; it never reads outside the buffer. The sampler of the C code and rng.py draw the same values from the same seed as long as no nine-byte draw starts exactly nine bytes before the end of a refill; there, and such histories exist, Python uses those nine bytes and C drops them. prng_get_bytes (never called) returns the same bytes again and again.", "quantifier": "every 56-byte seed and every history of draws", "why_tests_cant": "All seeds and histories; the parting of the two generators needs one of many positions.", "anchors": ["falcon/nistfalcon/src/rng.c:prng_init", "falcon/nistfalcon/src/rng.c:prng_refill", "falcon/nistfalcon/src/rng.c:prng_get_bytes", "falcon/nistfalcon/src/inner.h:prng_get_u64", "falcon/nistfalcon/src/inner.h:prng_get_u8", "pythonref/rng.py"]}
{"id": "C95", "title": "The integer sampler of the C signer is the Python one", "statement": "On the same stream of bytes, the C base sampler returns the value of Python's basesampler after nine bytes; the C byte-by-byte comparison accepts exactly when the next eight bytes, big-endian, are below the threshold, and reads the same bytes; the C rejection loop is Python's samplerz with the C threshold. Its exponential evaluates approxexp's polynomial on the same 63-bit integers, halved. Every sample lies within 19 of its centre, for |centre| < 2^31.", "quantifier": "every stream of bytes, every centre, deviation and number of rounds", "why_tests_cant": "The table has 18 entries of 72 bits compared limb by limb with borrows; a missed carry shows on few of 2^72 inputs.", "anchors": ["falcon/nistfalcon/src/sign.c:gaussian0_sampler", "falcon/nistfalcon/src/sign.c:BerExp", "falcon/nistfalcon/src/sign.c:sampler", "falcon/nistfalcon/src/fpr.c:fpr_expm_p63", "pythonref/samplerz.py"]}
{"id": "C96", "title": "The C acceptance probability is exponential", "statement": "For every double x in [0, 10^6] and every double ccs in [1/2, 1), the 64-bit threshold of the C BerExp divided by 2^64 differs from ccs exp(-x) by at most 2^-46: range reduction by the C constants ln 2 and 1/ln 2 never leaves a negative remainder, the shift saturates at 63, and all roundings are counted. At ccs = 1 the C code's product overflows and the threshold is the maximal one.", "quantifier": "every pair of doubles in the range", "why_tests_cant": "2^60 doubles; a negative remainder is converted to a huge unsigned integer and would show only next to multiples of ln 2.", "anchors": ["falcon/nistfalcon/src/sign.c:BerExp", "falcon/nistfalcon/src/fpr.c:fpr_expm_p63", "falcon/nistfalcon/src/fpr.h:fpr_log2", "falcon/nistfalcon/src/fpr.h:fpr_inv_log2"]}
{"id": "C97", "title": "The C sampler returns discrete Gaussians", "statement": "With emulated floating point, for every centre (a zero or normal number other than -0, below 2^31 in absolute value), every inverse deviation isigma in [1/1.8204, 1] and sigma_min >= 1 with sigma_min isigma <= 1 - 2^-50: among the 18-byte inputs on which one round of the C sampler accepts, the proportions of the returned values differ from the discrete Gaussian of centre mu and deviation 1/isigma by at most 2^-38 in all, and at least one input in eight is accepted. The exponent given to BerExp is never negative and within 2^-42 of the real one. A rejected round uses 11 to 18 bytes and starts afresh.", "quantifier": "every centre, deviation and 18-byte input", "why_tests_cant": "A statistical test sees deviations of 2^-15 at best, for a few centres.", "anchors": ["falcon/nistfalcon/src/sign.c:sampler", "falcon/nistfalcon/src/sign.c:gaussian0_sampler", "falcon/nistfalcon/src/sign.c:BerExp", "falcon/nistfalcon/src/fpr.h:fpr_inv_2sqrsigma0", "falcon/nistfalcon/src/fpr.h:fpr_sigma_min"]}
{"id": "C98", "title": "The C KAT generator is the standard one and Python's", "statement": "For every 32-byte key and 16-byte block the table-driven C code computes AES-256 (FIPS 197). For every 48-byte seed, with or without a 48-byte personalization string, and every list of request lengths (fewer than 2^48), the C randombytes_init and randombytes return the bytes of SP 800-90A's CTR_DRBG, which are those of the Python class on the same requests. The counter wraps after 2^128 - 1.", "quantifier": "every key, block, seed and history of requests", "why_tests_cant": "2^384 keys and blocks, all histories; a wrong table entry shows on the blocks that reach it, a lost carry once in 2^16 or 2^24 blocks.", "anchors": ["falcon/nistfalcon/src/katrng.c:aes256_keysched", "falcon/nistfalcon/src/katrng.c:aes256_encrypt", "falcon/nistfalcon/src/katrng.c:AES256_CTR_DRBG_Update", "falcon/nistfalcon/src/katrng.c:randombytes_init", "falcon/nistfalcon/src/katrng.c:randombytes", "pythonref/drbg/aes256_ctr_drbg.py"]}
