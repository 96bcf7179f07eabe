(** Model of /repo/pythonref/sig_sol.py and of the decoding of its output in src/ZKNOX_PythonSigner.sol.  argv are strings of characters; the line printed is a string.
    The process call itself (vm.ffi) is not modelled, apart from its reading of the printed hexadecimal digits. *)
From Coq Require Import String.
From Verif Require Import Base PrngModel KeccakModel HashModel EncodingModel PolyModel FalconModel TextModel SolModel CliModel.

Section SigSol.
Variable Hk : list Z -> list Z.   (* keccak-256 *)
(** sig_sol.py:21-24: ntru_gen(512, randombytes=prng.read) where prng is SHAKE on [seed]; a function of the seed, which may not return *)
Variable gen : list Z -> fres (list Z * list Z * list Z * list Z).
(** the lattice sampler: a function of the key, of the seed of the attempt and of the point (floating point) *)
Variable smp : seckey -> list Z -> list Z -> list Z * list Z.

(** sig_sol.py:32-33: SHAKE.new(seed + b'_sign'), flipped; falcon.py:451, 455-457, 465: the salt is its first read, the next one seeds the attempts *)
Definition sign_prng (seed : list Z) : khash := shake_flip (shake_update shake_new (seed ++ chars "_sign")).
Definition ss_salt (seed : list Z) : list Z := snd (shake_read (sign_prng seed) FalconModel.SALT_LEN).
Definition ss_attempt_seed (seed : list Z) (i : nat) : list Z :=
  let s48 := snd (shake_read (fst (shake_read (sign_prng seed) FalconModel.SALT_LEN)) SEED_LEN) in
  nth_read (shake_flip (shake_update shake_new s48)) 56 i.
(** sig_sol.py:14-17: any other mode leaves xof undefined; the NameError (here OtherException) comes when it is used, after the key generation *)
Definition ss_xof (mode : list Z) : res xof :=
  if seqb mode (chars "ETH") then Ok (KeccakPRNG Hk) else if seqb mode (chars "NIST") then Ok SHAKE else Raise OtherException.
(** sig_sol.py:46-49: eth_abi encode of ['uint256[32]', 'bytes', 'uint256[32]']: 65 head words, the 33rd the offset of the tail; integers out of range and
    lists of another length raise *)
Definition word_ok (w : Z) : bool := (0 <=? w) && (w <? 2 ^ 256).
Definition abi_encode_sig (pk salt s2 : list Z) : res (list Z) :=
  if (length pk =? 32)%nat && (length s2 =? 32)%nat && forallb word_ok pk && forallb word_ok s2 then
    Ok (flat_map (to_be 32) pk ++ to_be 32 2080 ++ flat_map (to_be 32) s2 ++
        to_be 32 (Z.of_nat (length salt)) ++ salt ++ repeat 0 ((32 - length salt mod 32) mod 32))
  else Raise OtherException.
(** sig_sol.py:12-50 *)
Definition sig_sol (fh fuel fv : nat) (arg1 arg2 arg3 : list Z) : fres (list Z) :=
  fbind (lift (fromhex (skipn 2 arg1))) (fun msg =>
  fbind (lift (fromhex arg3)) (fun seed =>
  fbind (gen seed) (fun '(f, g, F, G) =>
  fbind (lift (SecretKey 512 f g F G)) (fun K =>
  fbind (lift (PublicKey 512 (sk_h K))) (fun P =>
  fbind (lift (ss_xof arg2)) (fun X =>
  fbind (sign fh fuel K (fun i point => smp K (ss_attempt_seed seed i) point) (fun _ => ss_salt seed) msg X) (fun sig =>
  fbind (lift (onchain_falcon_args (sk_h K) sig)) (fun r =>
  match r with
  | None => Fin (Raise TypeError)
  | Some (S2, PK) =>
    fbind (verify fv P msg sig X) (fun ok =>
    if ok then fbind (lift (abi_encode_sig PK (slice HEAD_LEN (HEAD_LEN + FalconModel.SALT_LEN) sig) S2)) (fun e => Fin (Ok (hex e ++ [c_nl])))
    else Fin (Raise AssertionError))
  end)))))))).
End SigSol.
