## How each part of the code is modelled
| code | model | how |
|---|---|---|
| pythonref/encoding.py, falcon_codec.py, scripts/generate_kat_rsp.py (codecs, .rsp lines) | EncodingModel, CodecModel, KatModel | complete; exceptions as values |
| pythonref/common.py, PublicKey.from_bytes, complete_private | CodecModel, FalconModel, PolyModel | complete |
| keccak.py, shake.py, keccak_prng.py, keccaxof.py, blake2s_prng.py, blake2s/, rng.py, drbg/ | KeccakModel, PrngModel, BlakeModel, ChachaModel, DrbgModel, Aes | complete; the hash under keccak_prng/keccaxof/blake2s_prng is a parameter; AES itself is a parameter of the DRBG with a FIPS-197 instance |
| falcon.py, falcon_recovery.py, falcon_epervier.py | FalconModel | sign/verify/recover complete; `sample_preimage` is an oracle there (any integer vectors of the lattice coset), discharged in exact arithmetic by C75 |
| ntrugen.py | NtruModel, SamplerModel | karamul, xgcd, ntru_solve, field norm, lift, ntru_gen complete; Babai's float quotient in `reduce` is an oracle |
| samplerz.py, mkgauss.py | SamplerModel (floats are oracles), SamplerRealModel (floats are exact reals) | complete |
| fft.py, ffsampling.py (gram, ldl, ldl_fft, ffldl, ffldl_fft, ffnp, ffnp_fft, ffsampling_fft), falcon.py normalize_tree/sample_preimage, test.py vecmatmul | FftModel, FfnpModel | complex numbers are pairs of exact reals |
| sign_cli.py, sig_sol.py | TextModel, CliModel, SigSolModel | argument handling, files as texts, subprocess calls as data |
| src/ZKNOX_NTT.sol, ZKNOX_NTT_falcon.sol (assembly), ZKNOX_falcon_core.sol, ZKNOX_falcon*.sol, ZKNOX_epervier.sol, ZKNOX_ethepervier.sol, ZKNOX_HashToPoint.sol, ZKNOX_shake.sol, ZKNOX_falcon_utils.sol, ZKNOX_falcon_encodings.sol, ZKNOX_common.sol, ZKNOX_falcon_deploy.sol, lib/sstore2 (write/read) | NttModel, NttTables, NttTables1024, SolModel, SolCodecModel, SolWorldModel | words are integers with explicit wrapping; memory as lists or word maps where the assembly needs it; storage and code of accounts as maps |
| external/NTT_Recursive.sol, external/ETHFalcon_Recursive.sol, forgery.py | ExtTables (generated from the source text), ExtModel | complete |
| falcon/nistfalcon/src codec.c, vrfy.c, common.c (hash-to-point, is_short), keccak_prng.c, nist.c, nist16.c, epervier16.c (framing of keys and signed messages, opening); KAT/PQCgenKAT_sign_epervier_zknox.c (the two calls on the public key); falcon/falcon.go; geth/contracts.go falconvrfy | CTables (generated from the source text), CModel, CKeyModel | uint32/uint16/int16 arithmetic explicit; an access outside a buffer is a result of its own; the signing call and Keccak-256 are parameters; FprModel.v, CRngModel.v and CSamplerModel.v hold fpr.c, rng.c and the sampler of sign.c; SHAKE256 is the sponge of KeccakModel.v |

Simplifications, also stated at each definition:
* **Floating point.** Either an oracle (any value may be returned) or exact real arithmetic. Only C91–C93 and C95–C97 (the C emulation of doubles and the sampler on it) speak about IEEE rounding; the two readings bracket
  it: the oracle theorems (C27–C37, C39, C40, C72) hold whatever rounding does, the exact ones (C74–C77, C79) say what the code computes up to rounding.
* **Hash functions** below keccak_prng, keccaxof, blake2s_prng and the contracts are parameters with 32-byte outputs; no cryptographic assumption is used anywhere.
* **polyntt** (external package, not in the repository) is modelled by the NTT the repository's own contract implements, with the repository's tables (PolyModel).
* **EVM**: gas, the 24 KiB code-size limit, call depth, and out-of-gas are not modelled; memory is unbounded.
* **Fuel** bounds rejection loops; running out is a result of its own.

Not modelled: test_*.py, test/*.t.sol, bench/profile scripts, generate_*_test_vectors.py (printing only), scripts/saga.py (statistics),
scripts/parameters.py (security estimates), script/ (deployment scripts of forge), hash/ (bindings to external Rust crates), src/ZKNOX_display.sol (printing), the C code under falcon/nistfalcon other than codec.c, vrfy.c, nist.c, nist16.c, epervier16.c, fpr.h, fpr.c (but fpr_gm_tab), rng.c, katrng.c, the integer sampler of sign.c (989-1198), hash-to-point and keccak_prng.c (not modelled: fft.c, keygen.c, the rest of sign.c, seedexpander of katrng.c, and shake.c/keccak256.c, which the model replaces by the sponge of KeccakModel.v and by a parameter),
ZKNOX_PythonSigner.sol's `vm.ffi` process call itself.
