#!/usr/bin/env python3
"""Generates /verif/properties.jsonl (one JSON object per line)."""
import json
P = []
def p(title, statement, quantifier, why, anchors):
    P.append(dict(id="C%02d" % (len(P)+1), title=title, statement=statement,
                  quantifier=quantifier, why_tests_cant=why, anchors=anchors))
py="pythonref/"
# ---------------------------------------------------------------- signature compression
p("Signature compression round-trips",
  "If compress(v, slen) returns a byte string x (not False) for a non-empty v, then decompress(x, slen', len(v)) returns exactly v for every slen' >= slen.",
  "every non-empty list of integers v (any sign, any magnitude), every slen, every slen' >= slen",
  "The input space (integer vectors of any length and magnitude) is infinite; tests sample Gaussian-looking vectors only.",
  [py+"encoding.py:compress", py+"encoding.py:decompress"])
p("compress output length and failure condition",
  "compress(v, slen) returns False exactly when the sum over coefficients of (9 + |c| // 128) bits exceeds 8*slen; otherwise it returns exactly slen byte values, each in 0..255.",
  "every list of integers v and every slen >= 0",
  "The boundary depends on the whole vector; sampled vectors essentially never hit the exact limit.",
  [py+"encoding.py:compress"])
p("decompress accepts exactly the valid encodings",
  "For n >= 1, decompress(x, slen, n) returns the list v if and only if len(x) <= slen, len(v) = n and the bits of x start with the concatenated encodings of the coefficients of v (sign bit, seven low bits, unary high part, terminating 1; zero only with sign 0). Nothing else is ever returned as a success.",
  "every byte string x, every slen, every n >= 1",
  "The claim is an if-and-only-if over all byte strings; tests only feed honest encodings.",
  [py+"encoding.py:decompress"])
p("decompress failure modes are exactly characterised",
  "For len(x) <= slen: decompress raises IndexError exactly when x contains no 1 bit; it raises ValueError exactly when n >= 1 and some complete prefix of fewer than n coefficients leaves exactly one bit before the last 1 of x; in every other non-accepting case it returns False. In particular it is NOT total: attacker-chosen input makes verification raise instead of returning False.",
  "every byte string x, slen, n",
  "Requires reasoning about every malformed encoding, including all truncations.",
  [py+"encoding.py:decompress"])
p("Signature byte encodings are not unique",
  "decompress ignores everything after the n-th coefficient and accepts inputs shorter than slen: whenever the honest encoding leaves at least one padding bit, a different byte string of the same length decodes to the same vector, so a valid signature can be altered without the key and stays valid.",
  "every vector whose encoding does not fill the last byte exactly",
  "Malleability is an existential statement about all signatures; positive tests cannot see it.",
  [py+"encoding.py:decompress", py+"falcon.py:PublicKey.verify"])
# ---------------------------------------------------------------- NIST codecs
p("mod-q key encoding round-trips",
  "For every x of length n with coefficients in [0,q), modq_encode(x,n) succeeds with ceil(14n/8) bytes and modq_decode of it (followed by any further bytes) returns x.",
  "every n and every coefficient vector in [0,q)^n, every suffix",
  "q^512 inputs.",
  [py+"falcon_codec.py:modq_encode", py+"falcon_codec.py:modq_decode"])
p("mod-q key encoding is canonical",
  "If modq_decode(data,n) succeeds then re-encoding the result gives back exactly the first ceil(14n/8) bytes of data: every public key has one encoding, and any out-of-range coefficient or non-zero padding bit is rejected.",
  "every byte string and every n",
  "Tests cannot enumerate malformed encodings.",
  [py+"falcon_codec.py:modq_encode", py+"falcon_codec.py:modq_decode"])
p("modq_encode rejects exactly the out-of-range inputs",
  "modq_encode(x, n) with len(x) = n succeeds iff all coefficients are in [0,q) and raises ValueError otherwise.",
  "every integer vector", "Infinite input space.",
  [py+"falcon_codec.py:modq_encode"])
p("Small-coefficient (secret key) encoding round-trips",
  "For 1 < bits <= 8 (indeed any bits >= 2) and every x of length n with |x_i| <= 2^(bits-1)-1, trim_i8_encode succeeds and trim_i8_decode of its output returns x.",
  "every n, every bits >= 2, every in-range vector",
  "Infinite family of widths and vectors.",
  [py+"falcon_codec.py:trim_i8_encode", py+"falcon_codec.py:trim_i8_decode"])
p("Small-coefficient encoding is canonical and rejects -2^(bits-1)",
  "If trim_i8_decode(data,n,bits) succeeds, the result is in range (never -2^(bits-1)) and re-encoding yields exactly the first ceil(n*bits/8) bytes of data.",
  "every byte string, n, bits >= 2",
  "Tests cannot enumerate malformed encodings.",
  [py+"falcon_codec.py:trim_i8_decode"])
p("NIST public-key parsing",
  "PublicKey.from_bytes(0x09 || modq_encode(h,512)) returns n=512 and h for every h in [0,q)^512; conversely a 897-byte input is accepted iff its header is 0x09 and all 512 14-bit fields are < q, and the decoded key determines the bytes.",
  "every 897-byte string and every public key", "2^7176 inputs.",
  [py+"falcon.py:PublicKey.from_bytes", py+"falcon_codec.py:modq_encode"])
p("NIST public-key parsing never yields a degree-1024 key, and 1792-byte inputs alias 897-byte keys",
  "No byte string is ever accepted as a Falcon-1024 key (a 1793-byte encoding is refused for its length and 1791 data bytes hold only 1023 coefficients), and every accepted 897-byte key is also accepted when followed by any 895 extra bytes: the byte encoding of a key is not unique.",
  "every byte string", "A universal negative over all byte strings.",
  [py+"falcon.py:PublicKey.from_bytes"])
p("Reconstructing G from (f,g,F)",
  "complete_private(f,g,F,n) either raises ZeroDivisionError exactly when f is not invertible mod (q, x^n+1), or returns the unique G with coefficients in [-6144,6144] such that f*G = g*F mod (q, x^n+1); so if the true G of the NTRU basis has coefficients in that range, it is returned.",
  "every n=2^k and all integer polynomials f,g,F of length n",
  "Infinite input space; the quotient is computed through the NTT.",
  [py+"falcon_codec.py:complete_private"])
# ---------------------------------------------------------------- XOFs
p("Keccak PRNG: absorption is concatenation",
  "For any sequence of update calls whose total length is at most 4096 bytes, the resulting generator is the same as after a single update with the concatenation; an update that would exceed 4096 bytes raises ValueError and leaves the generator unchanged.",
  "every sequence of byte strings", "All splittings of all messages.",
  [py+"keccak_prng.py:KeccakPRNG.inject", py+"keccak_prng.py:KeccakPRNG.update"])
p("Keccak PRNG: output is one stream however it is read",
  "After flip, any sequence of read(k1), read(k2), ... returns consecutive slices of the one infinite stream H(S||0) H(S||1) ... with S = H(absorbed bytes) and 8-byte big-endian counters, as long as fewer than 2^64 blocks are used; each read(k) returns exactly k bytes.",
  "every absorbed string, every sequence of read sizes, every 32-byte-output hash function",
  "All histories of reads.",
  [py+"keccak_prng.py:KeccakPRNG.extract", py+"keccak_prng.py:KeccakPRNG.flip"])
p("Keccak PRNG: phase discipline",
  "update after flip, flip after flip and read before flip all raise ValueError; no call sequence returns output before flip or changes the stream after flip.",
  "every sequence of update/flip/read calls", "All call histories.",
  [py+"keccak_prng.py:KeccakPRNG"])
p("Blake2s PRNG: same stream contract with a 1024-byte buffer",
  "Blake2sPRNG satisfies the same concatenation, streaming and phase properties with buffer limit 1024.",
  "every call history", "All call histories.",
  [py+"blake2s_prng.py:Blake2sPRNG"])
p("SHAKE wrapper computes the sponge on the concatenated input",
  "After updates m1..mk and flip, reads return consecutive slices of the SHAKE-256 sponge output (rate 136, suffix 0x1F, pad10*1) of m1||...||mk, whatever the splitting of inputs and outputs.",
  "every sequence of updates and reads", "All call histories and message lengths.",
  [py+"shake.py:SHAKE", py+"keccak.py:KeccakHash"])
p("Keccak-f[1600] implementation equals the FIPS-202 round function",
  "Keccak.F1600 maps every 25-lane state to iota(chi(pi(rho(theta)))) iterated 24 times as FIPS 202 defines it.",
  "every state of 25 64-bit lanes", "2^1600 states.",
  [py+"keccak.py:Keccak.F1600", "src/ZKNOX_shake.sol:f1600"])
p("Hash-chain XOF contract",
  "KeccaXOF read(2) calls return successive 2-byte words of K1 K2 K3 ... with K1 = keccak(inputs), K(i+1) = keccak(Ki); update after the first read raises ValueError.",
  "every sequence of updates and read(2) calls", "All call histories.",
  [py+"keccaxof.py:KeccaXOF"])
p("ChaCha20 generator",
  "Each 64-byte block equals the RFC 8439 block function on the seeded matrix, successive requests of at most 512 bytes return consecutive slices of 512-byte interleaved refills (a leftover shorter than the request is discarded), and randombytes(k) returns k bytes iff k <= 512.",
  "every 56-byte seed and every sequence of requests", "All seeds and histories.",
  [py+"rng.py:ChaCha20"])
# ---------------------------------------------------------------- hash to point
p("Hash-to-point output is in range and is the filtered stream",
  "hash_to_point(n,m,salt,xof), when it returns, returns exactly n coefficients in [0,q), namely the first n big-endian 16-bit words of the XOF stream of salt||m that are < 5q, each reduced mod q.",
  "every message, salt, n, and XOF stream", "All messages; termination depends on the stream.",
  [py+"falcon.py:hash_to_point"])
p("Hash-to-point rejection sampling is exactly uniform",
  "Among the 16-bit words accepted by hash_to_point every residue in [0,q) has exactly 5 preimages: uniform words give uniform coefficients.",
  "every residue in [0,q)", "A counting statement over the whole word space.",
  [py+"falcon.py:hash_to_point"])
p("On-chain Keccak hash-to-point equals the Python one",
  "hashToPointEVM(salt,msg) returns the same 512 coefficients as hash_to_point(512,msg,salt,KeccakPRNG) whenever the latter returns (fewer than 2^64 blocks, at most 4096 bytes absorbed).",
  "every salt, message and 32-byte hash function", "Cross-implementation equality for all inputs.",
  ["src/ZKNOX_HashToPoint.sol:hashToPointEVM", py+"falcon.py:hash_to_point", py+"keccak_prng.py:KeccakPRNG"])
p("On-chain NIST hash-to-point equals the Python one",
  "hashToPointNIST(salt,msg) returns the same 512 coefficients as hash_to_point(512,msg,salt,SHAKE) whenever the latter returns.",
  "every salt and message", "Cross-implementation equality for all inputs.",
  ["src/ZKNOX_HashToPoint.sol:hashToPointNIST", "src/ZKNOX_shake.sol", py+"shake.py:SHAKE"])
p("Tetration hash-to-point and domain order",
  "hashToPointTETRATION(salt,msg) equals hash_to_point with KeccaXOF and with salt and message SWAPPED; with the same argument order the two differ in their preimage.",
  "every salt and message", "Cross-implementation equality for all inputs.",
  ["src/ZKNOX_HashToPoint.sol:hashToPointTETRATION", py+"keccaxof.py:KeccaXOF"])
# ---------------------------------------------------------------- Falcon
p("Falcon completeness: every produced signature verifies",
  "For every key with f invertible mod q and f*G - g*F = q, every message, every source of randomness and every choice of integer lattice vector by the sampler, a signature returned by sign verifies under the public key with the same XOF.",
  "every key satisfying the NTRU equation, message, salt, sampler behaviour, n in the parameter table",
  "Quantifies over all sampler outputs and keys.",
  [py+"falcon.py:SecretKey.sign", py+"falcon.py:PublicKey.verify"])
p("Falcon soundness of acceptance",
  "PublicKey.verify(m, sig) returns True iff sig decodes to some s1 and the vector (s0,s1), with s0 the coefficient-wise centred representative of H(m,salt) - s1*h mod (q, x^n+1), has squared norm at most sig_bound.",
  "every public key, message and signature byte string", "All byte strings.",
  [py+"falcon.py:PublicKey.verify"])
p("Signature byte format",
  "sign returns header (0x20+log2 n) || 40-byte salt || exactly sig_bytelen-41 bytes, i.e. a fixed total length per parameter set, with norm at most the bound.",
  "every key, message, randomness", "All executions.",
  [py+"falcon.py:SecretKey.sign"])
p("Header byte is not authenticated",
  "The verdict of verify does not depend on the first byte of the signature; consequently signatures are malleable.",
  "every signature and every replacement header byte", "Universal over all signatures.",
  [py+"falcon.py:PublicKey.verify"])
p("Public key relation",
  "For a constructed secret key the public polynomial h satisfies h*f = g mod (q,x^n+1), has coefficients in [0,q), and is the only such polynomial; construction raises when f is not invertible.",
  "every f,g", "All keys.",
  [py+"falcon.py:SecretKey.__init__"])
# ---------------------------------------------------------------- recovery
p("Recovery-mode completeness",
  "A signature returned by RecoveryModeSecretKey.sign recovers, for its message, exactly the signer's address hash, hence verifies.",
  "every key, message, sampler behaviour", "All executions.",
  [py+"falcon_recovery.py:RecoveryModeSecretKey.sign", py+"falcon_recovery.py:RecoveryModePublicKey.recover"])
p("Recovery-mode soundness",
  "If recover returns an address (not False) then the signature decodes to (s0,s1) of squared norm at most the bound with s1 invertible, and the address is the hash of the unique h with s0 + s1*h = H(m,salt) mod q.",
  "every byte string and message", "All byte strings.",
  [py+"falcon_recovery.py:RecoveryModePublicKey.recover"])
p("Epervier completeness",
  "A signature returned by EpervierSecretKey.sign recovers exactly the signer's address hash (hash of NTT(h)).",
  "every key, message, sampler behaviour", "All executions.",
  [py+"falcon_epervier.py:EpervierSecretKey.sign", py+"falcon_epervier.py:EpervierPublicKey.recover"])
p("Epervier soundness",
  "If Epervier recover returns an address then (s0,s1) is short, s1 is invertible and the address is the hash of NTT(h) for the unique h with s0 + s1*h = H(m,salt) mod q.",
  "every byte string and message", "All byte strings.",
  [py+"falcon_epervier.py:EpervierPublicKey.recover"])
p("Failure of recovery is confused with address zero",
  "In recovery and epervier modes verify compares the result of recover (False on failure) with the stored integer key: for the key 0 every signature on which recover fails is reported valid; for every other integer key (except none) verify is True iff recover returned exactly that address.",
  "every signature on which recover returns False", "Depends on Python's False == 0 for one exceptional key.",
  [py+"falcon_recovery.py:RecoveryModePublicKey.verify", py+"falcon_epervier.py:EpervierPublicKey.verify"])
p("The inverse hint bytes are malleable",
  "The 3-byte inverse coefficients in recovery/epervier signatures are only checked mod q: adding a multiple of q that still fits 3 bytes keeps the recovered address, so signatures can be altered without the key.",
  "every valid recovery signature", "Universal over all signatures.",
  [py+"falcon_recovery.py:RecoveryModePublicKey.recover"])
# ---------------------------------------------------------------- NTRU
p("Karatsuba product is the negacyclic product",
  "karamul(a,b) equals the product of a and b modulo x^n+1 for all integer polynomials of length n = 2^k.",
  "every k and all integer polynomials", "Infinite input space.",
  [py+"ntrugen.py:karatsuba", py+"ntrugen.py:karamul"])
p("NTRU equation for every solution returned",
  "If ntru_solve(f,g) returns (F,G) then f*G - g*F = q modulo x^n+1, for polynomials of any length n=2^k and whatever integer combinations the floating-point reduction chooses.",
  "every f,g of length 2^k, every behaviour of the floating-point reduction", "Infinite input space and arbitrary rounding behaviour.",
  [py+"ntrugen.py:ntru_solve", py+"ntrugen.py:reduce", py+"ntrugen.py:field_norm", py+"ntrugen.py:lift", py+"ntrugen.py:galois_conjugate"])
p("Babai reduction preserves the NTRU equation",
  "reduce(f,g,F,G) returns (F',G') with f*G'-g*F' = f*G-g*F and F'-F, G'-G the same multiple of f and g.",
  "every f,g,F,G and any sequence of rounded quotients", "Floating-point dependent control flow.",
  [py+"ntrugen.py:reduce"])
p("Extended gcd",
  "xgcd(b,n) returns (d,u,v) with d = u*b + v*n and |d| = gcd(b,n); the sign of d may be negative, so ntru_solve rejects some coprime inputs.",
  "all integers b,n", "Infinite input space.",
  [py+"ntrugen.py:xgcd"])
p("Field norm and Galois conjugate",
  "lift(field_norm(a)) = a * galois_conjugate(a) modulo x^n+1 for every a of length n=2^k >= 2.",
  "every integer polynomial", "Infinite input space.",
  [py+"ntrugen.py:field_norm", py+"ntrugen.py:lift", py+"ntrugen.py:galois_conjugate"])
p("Generated keys are well formed",
  "Whenever ntru_gen returns, f*G-g*F = q mod x^n+1 and f is invertible mod q; with the reference sampler every coefficient of f and g is in [-127,127] and their coefficient sums are odd.",
  "every randomness source", "All executions.",
  [py+"ntrugen.py:ntru_gen", py+"mkgauss.py:poly_small_mkgauss"])
p("bitsize",
  "bitsize(a) is the least multiple of 8 that is >= the bit length of |a|.",
  "every integer", "Infinite input space.",
  [py+"ntrugen.py:bitsize"])
# ---------------------------------------------------------------- samplers
p("Base sampler range and exact distribution",
  "basesampler returns z0 in 0..18 and, for each k, returns a value > k for exactly RCDT[k] of the 2^72 possible 9-byte inputs; the number of inputs giving i >= 1 is the integer part of 2^72 times the probability of i under the half-Gaussian of deviation 1.8205.",
  "every 9-byte string", "2^72 inputs; exact counting.",
  [py+"samplerz.py:basesampler"])
p("Lazy Bernoulli comparison",
  "The byte-wise lazy comparison in berexp returns True iff the 64-bit number formed by the (lazily drawn) bytes is less than z, for the z it computed whenever 0 <= z < 2^64, and it consumes between 1 and 8 bytes. With exact real arithmetic for the floats, the acceptance probability is ccs*exp(-x) up to 2^-44.",
  "every z in range and every byte stream", "2^128 pairs.",
  [py+"samplerz.py:berexp"])
p("Reference Gaussian sampler range",
  "mkgauss draws stay within +-26*2^(10-logn), and each elementary draw of value k has exactly the probability given by its table, whose entries are 2^63 times the probabilities of the Gaussian of deviation 1.17 sqrt(12289/2048) (tail given nonzero), rounded to the nearest integer.",
  "every byte stream, logn <= 10", "All byte streams.",
  [py+"mkgauss.py:mkgauss"])
# ---------------------------------------------------------------- misc poly
p("split and merge are mutually inverse",
  "merge(split(f)) = f for even length and split(merge([f0,f1])) = [f0,f1] for equal lengths.",
  "every list", "Infinite input space.",
  [py+"common.py:split", py+"common.py:merge"])
p("Compact representation round-trip (Python to Solidity)",
  "falcon_compact(a) for coefficients in [0,2^16), length multiple of 16, yields 256-bit words which _ZKNOX_NTT_Expand turns back into a, and equals _ZKNOX_NTT_Compact(a).",
  "every such list of 512 coefficients", "2^8192 inputs.",
  [py+"common.py:falcon_compact", "src/ZKNOX_falcon_utils.sol:_ZKNOX_NTT_Compact", "src/ZKNOX_falcon_utils.sol:_ZKNOX_NTT_Expand"])
# ---------------------------------------------------------------- NTT
p("On-chain NTT multiplies polynomials",
  "For all a,b in [0,q)^512, inverse-NTT(NTT(a) pointwise NTT(b)) equals a*b modulo (q, x^512+1); results are canonical.",
  "all coefficient vectors", "q^1024 pairs.",
  ["src/ZKNOX_NTT.sol", "src/ZKNOX_NTT_falcon.sol"])
p("On-chain NTT is invertible",
  "inverse-NTT(NTT(a)) = a for every a in [0,q)^512 and NTT(inverse-NTT(b)) = b.",
  "all coefficient vectors", "q^512 inputs.",
  ["src/ZKNOX_NTT.sol", "src/ZKNOX_NTT_falcon.sol"])
# ---------------------------------------------------------------- on-chain verify
p("What on-chain falcon_core actually accepts",
  "For canonical inputs, falcon_core(s2, ntth, hashed) with hashed allocated before returns true iff the centred squared norm of coefficients 0..510 of hashed - s2*h is < sigBound: coefficient 511 and the whole of s2 are never counted. Hence the documented check ||s1||^2+||s2||^2 < bound is not implemented.",
  "every s2, public key and hashed point", "Universal over all inputs; positive tests cannot see missing terms.",
  ["src/ZKNOX_falcon_core.sol:falcon_core", "src/ZKNOX_falcon_core.sol:falcon_normalize"])
p("On-chain verification is forgeable without the key",
  "For every public key h invertible mod q and every message and salt, s2 = c*h^-1 is accepted by the on-chain verifier: the verifier gives no unforgeability.",
  "every invertible public key and message", "Universal existence of a forgery.",
  ["src/ZKNOX_falcon_core.sol:falcon_core", "src/ZKNOX_falcon.sol:verify"])
p("Honest signatures are accepted on chain (except at the exact bound)",
  "If the Python verifier accepts (s1 decoded, norm strictly below the bound), the on-chain core accepts the corresponding compact signature and NTT-domain key.",
  "every key and signature", "All keys and signatures.",
  ["src/ZKNOX_falcon_core.sol:falcon_core", py+"falcon.py:PublicKey.verify", py+"sign_cli.py:verify_signature_on_chain"])
p("Polynomial range check accepts q",
  "falcon_checkPolynomialRange returns true iff all (possibly expanded) coefficients are <= q, i.e. it accepts the non-canonical value q contrary to its documentation.",
  "every polynomial", "Boundary value over all positions.",
  ["src/ZKNOX_falcon_core.sol:falcon_checkPolynomialRange"])
p("On-chain signature decompression vs Python",
  "On encodings produced by compress with all |c| <= 2047, _decompress_sig returns the same coefficients mod q as decompress; unlike Python it also accepts minus zero, returning the non-canonical value q.",
  "every such vector / buffer", "All encodings.",
  ["src/ZKNOX_falcon_encodings.sol:_decompress_sig", py+"encoding.py:decompress"])
p("On-chain public-key decompression vs Python",
  "_ZKNOX_NTT_Decompress(0x09||data, 1) succeeds iff modq_decode(data,512) does, with the same coefficients, despite the 32-bit accumulator.",
  "every 896-byte-or-longer data", "Overflow-sensitive for all inputs.",
  ["src/ZKNOX_falcon_utils.sol:_ZKNOX_NTT_Decompress", py+"falcon_codec.py:modq_decode"])
p("KAT framing is understood on chain",
  "For every signed message produced by scripts/generate_kat_rsp.sign_message framing, decompress_KAT returns the salt, the message and the coefficients that were framed.",
  "every message, salt and compressed signature", "All messages and lengths.",
  [py+"scripts/generate_kat_rsp.py:sign_message", "src/ZKNOX_falcon_encodings.sol:decompress_KAT"])
p("Epervier on-chain hint check is sound",
  "ZKNOX_epervier.recover passes the hint check iff hint * prod NTT(s2)_i = 1 mod q, and then uses exactly the pointwise inverse of NTT(s2).",
  "every s2 and hint", "All inputs.",
  ["src/ZKNOX_epervier.sol:recover"])
p("Epervier on-chain norm check skips the last coefficient",
  "recover's norm test covers indices 0..510 only: coefficient 511 of s1 and s2 is unconstrained.",
  "every signature", "Positive tests cannot see missing terms.",
  ["src/ZKNOX_epervier.sol:recover"])
p("NTT contract tables are never immutable",
  "ZKNOX_NTT.update succeeds for anybody in every reachable state after construction, in particular after make_immutable: the guard is inverted.",
  "every reachable contract state and caller", "All transaction histories.",
  ["src/ZKNOX_NTT.sol:update"])
# ---------------------------------------------------------------- CLI etc
p("Key files round-trip",
  "load_pk(save_pk(pk)) and load_sk(save_sk(sk)) return the same n, polynomials and version for every supported version and all integer coefficients; load_signature(save_signature(s)) = s.",
  "every key and signature", "All integers and lengths.",
  [py+"sign_cli.py:save_pk", py+"sign_cli.py:load_pk", py+"sign_cli.py:save_sk", py+"sign_cli.py:load_sk", py+"sign_cli.py:save_signature", py+"sign_cli.py:load_signature"])
p("CLI deterministic signing uses public randomness only",
  "In the CLI, the salt and sampler seed used to sign a message are a function of the PUBLIC key and the message only, and (because the sponge is read without padding or permuting) do not depend on a trailing part of the message; messages of equal length that differ only there get the same salt.",
  "every key and message", "A dependency statement over all secrets.",
  [py+"sign_cli.py:signature"])
p("Version dispatch of the CLI",
  "For versions falcon, ethfalcon and epervier, signatures produced by the CLI's signature() verify with verify_signature; for falconrec verify_signature always raises.",
  "every key, message and version", "All messages.",
  [py+"sign_cli.py:signature", py+"sign_cli.py:verify_signature"])
p("Transaction encoding is injective",
  "The byte string hashed by transaction_hash determines (nonce,to,data,value); distinct transactions are hashed on distinct preimages.",
  "every pair of in-range transactions", "All byte strings.",
  [py+"sign_cli.py:transaction_hash"])
p("AES-CTR DRBG output",
  "random_bytes(k) returns exactly k bytes, successive counter blocks are consecutive mod 2^128, and key and V stay 32 and 16 bytes in every reachable state.",
  "every seed and call history", "All call histories.",
  [py+"drbg/aes256_ctr_drbg.py:AES256_CTR_DRBG"])
p("Bytecode storage round-trip",
  "SSTORE2.read(SSTORE2.write(data)) = data for every data that fits, and the compact public key written by DeployPolynomial is read back unchanged.",
  "every byte string", "All byte strings.",
  ["lib/sstore2/contracts/SSTORE2.sol", "src/ZKNOX_common.sol"])
p("Packed signature parsing on chain",
  "verify(bytes,bytes32,bytes) on packed salt||s2 words calls the core check with exactly that salt and those 32 words; trailing bytes fewer than one word are ignored (malleable).",
  "every byte string", "All byte strings.",
  ["src/ZKNOX_ethfalcon.sol:verify", "src/ZKNOX_common.sol"])
p("Signed 16-bit and NIST secret-key codecs of the KAT generator",
  "decode_secret_key_nist applied to the NIST encoding of f, g, F (with any trailing bytes) returns f, g, F and the completed G; encode_secret_key loses nothing on 16-bit coefficients; decode_secret_key_nist refuses everything encode_secret_key writes (the two formats differ); parse_kat_rsp reads back every .rsp file generate_rsp writes, except that an empty message is lost.",
  "every in-range key, every list of vectors", "All keys and files.",
  [py+"scripts/generate_kat_rsp.py:encode_secret_key", py+"scripts/generate_kat_rsp.py:decode_secret_key_nist"])
p("On-chain signatures are malleable",
  "The verdict of the on-chain verifier depends on the 16-bit coefficients of s2 modulo q only, so every accepted array of 32 words has another, different, accepted array; recover accepts hint + q*k with the same result for every k.",
  "every accepted signature, message, key and hint", "Universal existence of a second signature.",
  ["src/ZKNOX_falcon_core.sol:falcon_core", "src/ZKNOX_falcon.sol:verify", "src/ZKNOX_epervier.sol:recover"])
p("The stateful NTT contract multiplies with word tables, not with the deployed tables",
  "With table contracts that hold one 32-byte word per entry the stateful ZKNOX_NTT functions return the product modulo (q, x^n+1); with the tables that Deploy creates (16 entries per word) they do not.",
  "every pair of polynomials of size 2^k <= 512, every storage state", "All polynomials; tests compare a few products.",
  ["src/ZKNOX_NTT.sol:ZKNOX_NTT_MUL", "src/ZKNOX_NTT.sol:ZKNOX_NTTFW", "src/ZKNOX_falcon_deploy.sol:Deploy"])
p("Support of the integer Gaussian sampler",
  "Every value returned by samplerz(mu, sigma, sigmin) lies in [floor(mu)-18, floor(mu)+19], whatever the floating-point rejection decides, and at least 11 random bytes are read.",
  "every mu, sigma, sigmin, randomness source and number of rejections", "All byte streams and floats.",
  [py+"samplerz.py:samplerz", py+"samplerz.py:basesampler"])
p("Command line actions that can never succeed",
  "The action sign_tx never completes: it raises (TypeError, verify_signature called with three arguments) on every key, transaction and version; recover_on_chain_with_transaction never sends anything (IndexError: 8 fields, 7 values); verify_signature_on_chain_with_transaction builds its command with every value in its place.",
  "every key file, transaction, signature and version", "Universal failure over all inputs.",
  [py+"sign_cli.py:cli", py+"sign_cli.py:recover_on_chain_with_transaction", py+"sign_cli.py:verify_signature_on_chain_with_transaction"])
p("The FFT, in exact arithmetic",
  "With exact complex numbers fft lists the values of a real polynomial at 2^k distinct complex numbers whose 2^k-th power is -1; ifft(fft(f)) = f and fft(ifft(v)) = v for every conjugation-symmetric v; mul, div and adj are the product, quotient and adjoint modulo x^n + 1; split_fft and merge_fft are the even/odd split; a polynomial of fewer than two coefficients raises.",
  "every k >= 1 and all polynomials of 2^k coefficients", "All polynomials of all sizes.",
  [py+"fft.py", py+"common.py:split", py+"common.py:merge"])
p("Sampling and signing, in exact arithmetic",
  "With exact complex numbers, for every key solving the NTRU equation, building the sampling tree succeeds, and sampling returns an integer vector of the lattice whatever the values returned by samplerz are; so every signature produced from such samples verifies, in each of the three schemes.",
  "every key, hash point, message, salt, and every behaviour of samplerz", "All keys, all sampler behaviours.",
  [py+"falcon.py:sample_preimage", py+"falcon.py:__init__", py+"ffsampling.py:ffldl_fft", py+"ffsampling.py:ffsampling_fft"])
p("Standard deviations handed to samplerz",
  "In exact arithmetic all leaves of the sampling tree of a key are positive reals, and for a key that passes the gs_norm test of key generation every standard deviation handed to samplerz lies in [sigmin, MAX_SIGMA], for the numbers of the table of every parameter set; gs_norm(f, g, q) is the larger of |(g,-f)|^2 and the squared norm of q (f*, g*)/(ff* + gg*).",
  "every key of every parameter set", "All keys.",
  [py+"ntrugen.py:gs_norm", py+"ffsampling.py:ffldl_fft", py+"falcon.py:normalize_tree", py+"falcon.py:Params", py+"samplerz.py:MAX_SIGMA"])
p("Norm of the sampled signature",
  "In exact arithmetic |s|^2 = sigma^2 * sum over the 2n calls samplerz(mu_i, sigma_i) -> z_i of ((z_i - mu_i)/sigma_i)^2; hence the vector is at most 2 n delta^2 B long (squared) when every |z_i - mu_i| <= delta and gs_norm <= B.",
  "every key, hash point and sampler behaviour", "All keys and sampler behaviours; a wrong tree shows only as a statistical deviation.",
  [py+"ffsampling.py:ffsampling_fft", py+"falcon.py:sample_preimage"])
p("The in-repo BLAKE2s is BLAKE2s, and hashing field elements is an unambiguous encoding of them",
  "blake2s_compress is the compression function of RFC 7693 for every chaining value, block, counter and final flag. calculate_blake2s_hash_from_felt252s returns the BLAKE2s-256 digest, as a little-endian integer modulo the prime, of a serialisation of the residues (shorter than 4 GiB; beyond that the code's counter is wrong). The serialisation is as documented (2 words below 2^63 and otherwise 8 words with bit 255 set when encode is on), depends only on the residues, and different lists of residues have different serialisations.",
  "every list of integers, both flags, every modulus up to 2^255 (2^256 without encode)", "The values and lengths of the lists are unbounded; an ambiguous serialisation would only show on a crafted pair of inputs.",
  [py+"blake2s/blake2s.py:blake2s_compress", py+"blake2s/blake2s.py:calculate_blake2s_hash_from_felt252s"])
p("samplerz returns a discrete Gaussian sample, in exact arithmetic",
  "With exact real arithmetic, for every centre mu and every 1 <= sigmin <= sigma <= MAX_SIGMA, the proportions of the values returned by a round of samplerz among the accepted random inputs are the probabilities of the discrete Gaussian of centre mu and deviation sigma over the integers, with an L1 distance of at most 2^-40; at least one input in eight is accepted; a rejected round is followed by a round on fresh bytes. The standard deviations of the tree of every generated key are in that range.",
  "every mu, sigma, sigmin in the range, every string of random bytes, every key", "A distribution over 2^144 inputs for each of infinitely many centres; statistical tests see deviations of about 2^-15 at best.",
  [py+"samplerz.py:samplerz", py+"samplerz.py:berexp", py+"samplerz.py:approxexp", py+"samplerz.py:basesampler"])
p("The external recursive verifier, and the forgery against it",
  "The recursive NTT of external/ multiplies in Z_q[x]/(x^n+1) for every size its tables cover (2 to 512), iNTT inverts nTT, and multiplying by a key transformed beforehand gives the same product, so verify_nttpub on the transform of a key behaves as verify on the key. For int256 coefficients verify returns, always the zero address, exactly when every s1 coefficient lies in [-q, q] and some s1' congruent to s1 and s0 with s0 + s1*h = hash have squared norm below 34034726; otherwise it reverts. Hence coefficients can be replaced by congruent ones; the verdict depends on the concatenation message || salt only; and every signature Python accepts with KeccaXOF (norm below the bound) is accepted for every other cut of salt || message, the forgery that forgery.py demonstrates.",
  "every message, salt, signature array, key and 32-byte hash function", "All inputs; the multiplication tables hold 1022 constants and 12289 inverses, and the forgery is a statement on every signature.",
  ["external/ETHFalcon_Recursive.sol:verify", "external/ETHFalcon_Recursive.sol:verify_nttpub", "external/NTT_Recursive.sol", py+"forgery.py"])
p("The Python signer used by the Solidity tests prints signatures that the contracts accept",
  "Whenever sig_sol.py prints, the printed hexadecimal decodes under abi.decode(uint256[32], bytes, uint256[32]) to a public key, a 40-byte salt and an s2 that ZKNOX_falcon.verify (mode NIST) or ZKNOX_ethfalcon.verify (mode ETH, messages up to 4056 bytes) accepts for the message, unless s2 is zero. For an NTRU key and lattice samples it prints whenever signing returns: the assertion and the encodings never fail. For any other mode it never prints. The salt and key depend on the seed only, so all messages signed with one seed share a salt; the first two characters of the message argument are dropped whatever they are.",
  "every message, seed and mode string, every key generator and sampler", "All messages, seeds and keys; the Solidity tests run a handful of seeds.",
  [py+"sig_sol.py", "src/ZKNOX_PythonSigner.sol:sign", "src/ZKNOX_falcon.sol:verify", "src/ZKNOX_ethfalcon.sol:verify"])
p("Nearest-plane rounding: the two formats agree and the result is close",
  "In exact arithmetic, for every key solving the NTRU equation and every target with real coefficients, ffldl and ffldl_fft build their trees, ffnp and ffnp_fft return without exception, and the inverse transform of the FFT result is exactly the integer vector of the coefficient version. The lattice vector found is close to the target: the squared norm of (t - z) B is at most (n/2) gs_norm(f, g, q).",
  "every key and every real target", "All real targets and keys; the test samples random targets and checks a heuristic bound.",
  [py+"ffsampling.py:ffnp", py+"ffsampling.py:ffnp_fft", py+"ffsampling.py:ffldl", py+"ffsampling.py:ldl", py+"test.py:test_ffnp", py+"test.py:vecmatmul"])
c="falcon/nistfalcon/src/"
p("The C signature codec is strict and agrees with the Python one",
  "comp_decode accepts exactly the byte strings that hold 2^logn coefficients of at most 2047 in absolute value, each in its only encoding, without superfluous bytes and with zero bits at the end; comp_encode produces exactly that or fails (coefficient too large or buffer too small); so decoding inverts encoding and a vector has one encoding. Python's compress is the C encoding padded with zero bytes; what C decodes, Python decodes to the same values; what Python decodes, C decodes unless a coefficient exceeds 2047 or the padding is not zero. modq_decode is the Python modq_decode.",
  "every byte string, every vector, every logn and buffer size", "All byte strings; a lenient decoder shows only on crafted inputs.",
  [c+"codec.c:comp_decode", c+"codec.c:comp_encode", c+"codec.c:modq_decode", c+"codec.c:modq_decode16", "pythonref/encoding.py:compress", "pythonref/encoding.py:decompress"])
p("The C arithmetic of the verifier is exact",
  "Montgomery multiplication returns x*y/2^16 modulo q in [0, q); the C NTT, pointwise product and inverse NTT multiply in Z_q[x]/(x^n+1) for every n = 2 ... 1024; for n = 512 the transform is the one of the contracts; the 32-bit saturating norm decides the exact inequality for all int16 vectors; so verify_raw accepts iff (s1, s2) with s1 + s2 h = c has squared norm at most the bound.",
  "all operands, all sizes, all int16 vectors", "2^27 Montgomery products and 12289^512 vectors; an overflow shows only on extreme inputs.",
  [c+"vrfy.c:mq_montymul", c+"vrfy.c:mq_NTT", c+"vrfy.c:mq_iNTT", c+"vrfy.c:verify_raw", c+"common.c:is_short"])
p("The C verifier opens exactly the well-formed signed messages, with SHAKE256",
  "crypto_sign_open returns a message iff the input is length || nonce || message || 0x29 || compressed s2, the key is 9 || packed h, and some s1 with s1 + s2 h = hash-to-point(SHAKE256(nonce || message)) has |s1|^2 + |s2|^2 <= 34034726. The bytes are determined by nonce, message and s2. It stays inside its buffers when the key has 897 bytes (not when it is shorter). It agrees with the Python verifier up to re-encoding, and opens what crypto_sign returns when the sampler gives short preimages.",
  "every signed message and key, every sampler", "All byte strings.",
  [c+"nist.c:crypto_sign_open", c+"nist.c:crypto_sign", c+"common.c:hash_to_point_vartime", "pythonref/falcon.py:verify"])
p("The 16-bit C verifier",
  "zknox_crypto_sign_open is the same check for a key given as the transform of h and s2 given as 512 words; it agrees with crypto_sign_open on the same nonce, message and s2. A negative coefficient x is accepted as x + q and as x + 2^16, so every accepted signed message with a negative coefficient has a second accepted form. Words from 2047 on are read as negative: encoding then decoding is the identity iff all coefficients are between -10242 and 2046. No access outside the buffers when the key has 1025 bytes.",
  "every signed message and key", "All byte strings.",
  [c+"nist16.c:zknox_crypto_sign_open", c+"codec.c:comp_decode16", c+"codec.c:comp_encode16"])
p("The C build with Keccak-256: same point as Python up to 4096 bytes, and nothing is hashed beyond",
  "With -DETHFALCON signer, verifier and Python's KeccakPRNG hash nonce || message to the same point when it has at most 4096 bytes. For longer inputs the return code of inject is ignored: the verifier hashes the empty string and the signer only the nonce, so a signature that opens one message of more than 4056 bytes opens every other one under every nonce, and for a key anyone can compute such a signature exists.",
  "every nonce, message, key and 32-byte hash function", "All messages; the tests use short ones.",
  [c+"keccak_prng.c:inner_keccak256_inject", c+"keccak_prng.c:inner_keccak256_extract", c+"nist.c:crypto_sign_open", "pythonref/keccak_prng.py"])
p("The Go wrapper and the precompile",
  "VerifySignature returns true iff the C verifier opens the signature to the message (at most 1024 bytes); the precompile returns 32 bytes ending in 1 iff so, else zeros. It panics exactly on an empty signature or key. It reads outside the key when this is shorter than 897 bytes, and overruns its 1024-byte buffer for every message of more than 1024 bytes under a key that anyone can compute; otherwise memory is safe. SignMessage overruns its 1330 bytes iff message and compressed signature exceed 1287 bytes together, and panics exactly on an empty message or key.",
  "every signature, message and key", "All byte strings; the overflow needs a valid signature on a long message.",
  ["falcon/falcon.go:VerifySignature", "falcon/falcon.go:SignMessage", "geth/contracts.go:falconvrfy.Run"])
p("Key arithmetic and secret keys of the C code",
  "mq_div_12289 divides modulo q for all operands. compute_public returns h with h f = g iff f is invertible, as Python. complete_private returns G iff f is invertible and the G with f G = g F modulo q fits in [-127, 127] (Python has no such bound); it recovers the G of every NTRU key in that range. is_invertible, count_nttzero and verify_recover decide invertibility, count zeros and return the unique key under which the signature is a short preimage. A 1281-byte secret key decodes iff it is 0x59 || f, g on 6 bits || F on 8 bits and complete_private succeeds; encoding then decoding gives the key back; nothing outside the buffer is read; Python's KAT decoder accepts the same keys except for the bound on G. The NTRU equation is not checked: f = g = 1, F = G is accepted.",
  "all operands, polynomials and byte strings", "12289^2 divisions, all polynomials and keys.",
  [c+"vrfy.c:mq_div_12289", c+"vrfy.c:compute_public", c+"vrfy.c:complete_private", c+"vrfy.c:verify_recover", c+"vrfy.c:is_invertible", c+"vrfy.c:count_nttzero", c+"codec.c:trim_i8_encode", c+"codec.c:trim_i8_decode", c+"nist.c:crypto_sign_keypair", c+"nist16.c:zknox_crypto_sign_keypair"])
p("The C Epervier functions",
  "zknox_crypto_sign_open_epervier returns m iff the input is length || nonce || m || 0x29 || s1 || 0x29 || s2 || rest, s2 is invertible, |s1|^2 + |s2|^2 <= 34034726 and s1 + s2 h = hash-to-point(SHAKE256(nonce || m)) for the h whose transform is the key. The hint at the end is never read, so it can be replaced by anything. The signer stops at the first sample with invertible s2 and writes as hint the inverse of the product of the transform of s2, as the contract requires (C59); what it writes is opened when the sampler gives short preimages with coefficients in [-10242, 2046]. With an announced length of at least 2050 nothing outside the buffers is read; with length 1 the verifier reads past its input, whatever the key. The KAT generator transforms the key twice: a message that opens under the key of the key generator does not open under that one unless h is its own transform.",
  "every signed message, key, sampler and number of retries", "All byte strings and samplers.",
  [c+"epervier16.c:zknox_crypto_sign_open_epervier", c+"epervier16.c:zknox_crypto_sign_epervier", c+"epervier16.c:zknox_pk_epervier", c+"vrfy.c:verify_recover_epervier", c+"vrfy.c:hint_epervier", "falcon/nistfalcon/KAT/PQCgenKAT_sign_epervier_zknox.c:main"])
p("C floating point: sums, differences and products are correctly rounded",
  "For all zeros and normal numbers, fpr_add, fpr_sub and fpr_mul return the IEEE-754 double nearest to the exact result (ties to even, right sign, sign of zero included) when that lies between the smallest and largest normal number, and a zero when it is smaller; negation is exact. The nearest double is unique, so the C code and Python's hardware floats agree bit for bit on such operations.",
  "every pair of operands (2^128)", "The space cannot be enumerated, and rounding errors of one unit show only on rare patterns of bits (ties, carries into the exponent, cancellation).",
  [c+"fpr.c:fpr_add", c+"fpr.c:fpr_mul", c+"fpr.h:fpr_sub", c+"fpr.h:fpr_neg", c+"fpr.h:FPR"])
p("C floating point: quotients and square roots are correctly rounded",
  "For every zero or normal x and normal y, fpr_div(x, y) and fpr_inv(y) return the nearest double to the exact quotient (zero when smaller than every normal number); for every x with clear sign bit, fpr_sqrt(x) returns the nearest double to the square root of x.",
  "every operand", "As C91; bit-by-bit division and square root err on the last bit only for rare operands.",
  [c+"fpr.c:fpr_div", c+"fpr.c:fpr_sqrt", c+"fpr.h:fpr_inv"])
p("C floating point: conversions, comparison and constants",
  "fpr_scaled(i, sc) is i 2^sc correctly rounded, exact for |i| <= 2^53 and sc = 0. Below 2^63 in absolute value, fpr_trunc truncates, fpr_floor floors (except that -0 gives -1), fpr_rint rounds to nearest, ties to even. fpr_lt compares the values (except that -0 < +0). Halving and doubling are exact. The constants q, 1/q, 1/(2 sigma0^2), 1.17^2 q, 1/sqrt 2, 1/sqrt 8 and the powers of two hold what they are named for, correctly rounded; those named 2^63 - 1 hold 2^63.",
  "every operand", "2^64 operands for each function.",
  [c+"fpr.c:fpr_scaled", c+"fpr.h:fpr_of", c+"fpr.h:fpr_rint", c+"fpr.h:fpr_floor", c+"fpr.h:fpr_trunc", c+"fpr.h:fpr_lt", c+"fpr.h:fpr_half", c+"fpr.h:fpr_double", c+"fpr.c:fpr_p2_tab"])
p("The generator of the C signer",
  "Seeded with 56 bytes, and whatever the uninitialised buffer holds, every history of prng_get_u64 and prng_get_u8 returns the little-endian values of consecutive bytes of 512-byte refills made of RFC 8439 blocks (the 64-bit counter wraps), starting a new refill when fewer than ten bytes are left for a 64-bit draw; it never reads outside the buffer. The sampler of the C code and rng.py draw the same values from the same seed as long as no nine-byte draw starts exactly nine bytes before the end of a refill; there, and such histories exist, Python uses those nine bytes and C drops them. prng_get_bytes (never called) returns the same bytes again and again.",
  "every 56-byte seed and every history of draws", "All seeds and histories; the parting of the two generators needs one of many positions.",
  [c+"rng.c:prng_init", c+"rng.c:prng_refill", c+"rng.c:prng_get_bytes", c+"inner.h:prng_get_u64", c+"inner.h:prng_get_u8", "pythonref/rng.py"])
p("The integer sampler of the C signer is the Python one",
  "On the same stream of bytes, the C base sampler returns the value of Python's basesampler after nine bytes; the C byte-by-byte comparison accepts exactly when the next eight bytes, big-endian, are below the threshold, and reads the same bytes; the C rejection loop is Python's samplerz with the C threshold. Its exponential evaluates approxexp's polynomial on the same 63-bit integers, halved. Every sample lies within 19 of its centre, for |centre| < 2^31.",
  "every stream of bytes, every centre, deviation and number of rounds", "The table has 18 entries of 72 bits compared limb by limb with borrows; a missed carry shows on few of 2^72 inputs.",
  [c+"sign.c:gaussian0_sampler", c+"sign.c:BerExp", c+"sign.c:sampler", c+"fpr.c:fpr_expm_p63", "pythonref/samplerz.py"])
p("The C acceptance probability is exponential",
  "For every double x in [0, 10^6] and every double ccs in [1/2, 1), the 64-bit threshold of the C BerExp divided by 2^64 differs from ccs exp(-x) by at most 2^-46: range reduction by the C constants ln 2 and 1/ln 2 never leaves a negative remainder, the shift saturates at 63, and all roundings are counted. At ccs = 1 the C code's product overflows and the threshold is the maximal one.",
  "every pair of doubles in the range", "2^60 doubles; a negative remainder is converted to a huge unsigned integer and would show only next to multiples of ln 2.",
  [c+"sign.c:BerExp", c+"fpr.c:fpr_expm_p63", c+"fpr.h:fpr_log2", c+"fpr.h:fpr_inv_log2"])
p("The C sampler returns discrete Gaussians",
  "With emulated floating point, for every centre (a zero or normal number other than -0, below 2^31 in absolute value), every inverse deviation isigma in [1/1.8204, 1] and sigma_min >= 1 with sigma_min isigma <= 1 - 2^-50: among the 18-byte inputs on which one round of the C sampler accepts, the proportions of the returned values differ from the discrete Gaussian of centre mu and deviation 1/isigma by at most 2^-38 in all, and at least one input in eight is accepted. The exponent given to BerExp is never negative and within 2^-42 of the real one. A rejected round uses 11 to 18 bytes and starts afresh.",
  "every centre, deviation and 18-byte input", "A statistical test sees deviations of 2^-15 at best, for a few centres.",
  [c+"sign.c:sampler", c+"sign.c:gaussian0_sampler", c+"sign.c:BerExp", c+"fpr.h:fpr_inv_2sqrsigma0", c+"fpr.h:fpr_sigma_min"])
p("The C KAT generator is the standard one and Python's",
  "For every 32-byte key and 16-byte block the table-driven C code computes AES-256 (FIPS 197). For every 48-byte seed, with or without a 48-byte personalization string, and every list of request lengths (fewer than 2^48), the C randombytes_init and randombytes return the bytes of SP 800-90A's CTR_DRBG, which are those of the Python class on the same requests. The counter wraps after 2^128 - 1.",
  "every key, block, seed and history of requests", "2^384 keys and blocks, all histories; a wrong table entry shows on the blocks that reach it, a lost carry once in 2^16 or 2^24 blocks.",
  [c+"katrng.c:aes256_keysched", c+"katrng.c:aes256_encrypt", c+"katrng.c:AES256_CTR_DRBG_Update", c+"katrng.c:randombytes_init", c+"katrng.c:randombytes", "pythonref/drbg/aes256_ctr_drbg.py"])
with open("/verif/properties.jsonl","w") as f:
    for o in P: f.write(json.dumps(o)+"\n")
print(len(P))
