(** Model of the verifier contracts: src/ZKNOX_falcon_utils.sol, ZKNOX_NTT_falcon.sol, ZKNOX_falcon_core.sol, ZKNOX_falcon.sol,
    ZKNOX_ethfalcon.sol, ZKNOX_epervier.sol, ZKNOX_ethepervier.sol, and of pythonref/common.py:falcon_compact.
    An [uint256[] memory] is the list of its words; where the code uses memory addresses the model has them as integers.
    Gas is not modelled. *)
From Verif Require Import Base HashModel KeccakModel NttModel PrngModel FalconModel.

(** EVM arithmetic on words: ADD, SUB, MUL, SHL wrap modulo 2^256; GT gives 0 or 1 *)
Definition evm_add (x y : Z) := (x + y) mod two256.
Definition evm_sub (x y : Z) := (x - y) mod two256.
Definition evm_mul (x y : Z) := (x * y) mod two256.
Definition evm_shl (s x : Z) := Z.shiftl x s mod two256.
Definition evm_gt (x y : Z) : Z := if y <? x then 1 else 0.
Definition qs1 : Z := 6144.            (* ZKNOX_falcon_utils.sol:48 *)
Definition sigBound : Z := 34034726.   (* ZKNOX_falcon_utils.sol:39 *)
Definition falcon_S256 : nat := 32.    (* ZKNOX_falcon_utils.sol:16 *)

(** for { let o := o } lt(o, lim) { o := add(o, step) } { body } *)
Fixpoint for_lt {A} (fuel : nat) (o lim step : Z) (body : Z -> A -> A) (a : A) : A :=
  match fuel with
  | O => a
  | S fuel' => if o <? lim then for_lt fuel' (o + step) lim step body (body o a) else a
  end.
(** the word at byte offset [o] of a memory array: mload(add(a, o)); offset 32 is element 0 *)
Definition at_off (a : list Z) (o : Z) : Z := nth (Z.to_nat (o / 32 - 1)) a 0.

(** ZKNOX_falcon_utils.sol:98-124. The loop reads 32 words whatever the length of a; words past the end of a shorter array are the
    following memory, here 0: callers' theorems have length a = 32. *)
Definition Expand (a : list Z) : list Z :=
  flat_map (fun i => map (fun j => Z.land (Z.shiftr (nth i a 0) (16 * Z.of_nat j)) 0xffff) (seq 0 16)) (seq 0 32).
(** ZKNOX_falcon_utils.sol:77-91 *)
Definition compact_step (op : Z -> Z -> Z) (sh : Z -> Z -> Z) (a b : list Z) (i : nat) : list Z :=
  upd b (i / 16) (op (nth (i / 16) b 0) (sh (16 * Z.of_nat (i mod 16)) (nth i a 0))).
Definition Compact (a : list Z) : list Z :=
  fold_left (compact_step Z.lxor evm_shl a) (seq 0 512) (repeat 0 32).
(** pythonref/common.py:48-58 *)
Definition falcon_compact (a : list Z) : res (list Z) :=
  if negb (length a mod 16 =? 0)%nat then Raise AssertionError
  else if negb (forallb (fun e => e <? Z.shiftl 1 16) a) then Raise AssertionError
  else Ok (fold_left (compact_step Z.lor (fun s x => Z.shiftl x s) a) (seq 0 (length a)) (repeat 0 (length a / 16))).
(** ZKNOX_falcon_utils.sol:58-70 (an input shorter than 512 reads the following memory: 0 here) *)
Definition Swap (Pol : list Z) : list Z :=
  fold_left (fun m i => upd m (511 - i) (nth i Pol 0)) (seq 0 512) (repeat 0 512).

(** ZKNOX_NTT_falcon.sol:186-192 *)
Definition HALFMUL_Compact (a b : list Z) : list Z :=
  Compact (NTTINV_vectorized (VECMULMOD (NTTFW_vectorized (Expand a)) (Expand b))).

(** ZKNOX_falcon_core.sol:27-36: the loop leaves at the first word > q *)
Fixpoint range_loop (a : list Z) : bool :=
  match a with [] => true | x :: a => if qf <? x then false else range_loop a end.
(** ZKNOX_falcon_core.sol:17-38 *)
Definition falcon_checkPolynomialRange (polynomial : list Z) (is_compact : bool) : bool :=
  range_loop (if Bool.eqb is_compact false then Expand polynomial else polynomial).

(** ZKNOX_falcon_core.sol:64-66 and 83-85: fold the centred square of x into norm *)
Definition norm_add (x norm : Z) : Z :=
  let cond := evm_gt x qs1 in
  let x := evm_add (evm_mul cond (evm_sub qf x)) (evm_mul (evm_sub 1 cond) x) in
  evm_add norm (evm_mul x x).
(** ZKNOX_falcon_core.sol:50-92; s1ptr is the address of the array s1. The words between s1ptr+32 and 16384 lie inside s1, which
    70-79 overwrite with the expansion of s2. *)
Definition falcon_normalize (s1ptr : Z) (s1 s2 hashed : list Z) : bool :=
  let norm := for_lt 512 32 16384 32 (fun o norm => norm_add ((at_off hashed o + evm_sub qf (at_off s1 o)) mod qf) norm) 0 in
  let s1 := Expand s2 in
  let norm := for_lt 512 (s1ptr + 32) 16384 32 (fun o norm => norm_add (at_off s1 (o - s1ptr)) norm) norm in
  norm <? sigBound.
(** Memory allocated by falcon_core before s1: Expand (512 words + length), the two 32-word tables, Expand, VECMULMOD, Compact *)
Definition core_s1ptr (fmp : Z) : Z := fmp + (16384 + 32) + 1024 + (16384 + 32) + (16384 + 32) + 1024 + (1024 + 32).
(** ZKNOX_falcon_core.sol:103-119; fmp is the free memory pointer at entry *)
Definition falcon_core (fmp : Z) (s2 ntth hashed : list Z) : bool :=
  if negb (length hashed =? 512)%nat then false
  else if negb (length s2 =? 32)%nat then false
  else falcon_normalize (core_s1ptr fmp) (Expand (HALFMUL_Compact s2 ntth)) s2 hashed.

(** ZKNOX_falcon.sol:49-79 with [h2p] = hashToPointNIST, ZKNOX_ethfalcon.sol:47-77 with hashToPointEVM; fmp is the free memory pointer
    after hashing *)
Definition contract_verify (h2p : nat -> list Z -> list Z -> option (list Z)) (fmp : Z) (fuel : nat)
    (h salt s2 ntth : list Z) : fres bool :=
  if negb (length salt =? 40)%nat then Fin (Raise Revert)
  else if negb (length s2 =? falcon_S256)%nat then Fin (Raise Revert)
  else if negb (length ntth =? falcon_S256)%nat then Fin (Raise Revert)
  else match h2p fuel salt h with
       | None => NoFuel
       | Some hashed => Fin (Ok (falcon_core fmp s2 ntth hashed))
       end.

(** ZKNOX_epervier.sol:50-62 *)
Definition epervier_norm (s1 s2 : list Z) : Z :=
  for_lt 512 32 16384 32 (fun o norm => norm_add (at_off s2 o) (norm_add (at_off s1 o) norm)) 0.
(** ZKNOX_epervier.sol:72-85: prefix[i] = prefix[i-1] * s2[i] mod q *)
Definition ep_prefix (s2 : list Z) : list Z :=
  fold_left (fun p i => upd p i ((nth (i - 1) p 0 * nth i s2 0) mod qf)) (seq 1 511) (upd (repeat 0 512) 0 (nth 0 s2 0)).
(** ZKNOX_epervier.sol:87-93: offset from 32 to 16352, element 511 - k from element 512 - k, k = offset / 32 *)
Definition ep_back (s2 : list Z) (hint : Z) : list Z :=
  fold_left (fun v k => upd v (511 - k) ((nth (512 - k) v 0 * nth (512 - k) s2 0) mod qf)) (seq 1 511) (upd (repeat 0 512) 511 hint).
(** ZKNOX_epervier.sol:95-101 *)
Definition ep_forward (prefix v : list Z) : list Z :=
  fold_left (fun v i => upd v i ((nth (i - 1) prefix 0 * nth i v 0) mod qf)) (seq 1 511) v.
(** ZKNOX_epervier.sol:107-113: sum of 1 - s2[i] * inv[i] *)
Definition ep_check (s2 inv : list Z) : Z :=
  for_lt 513 32 16416 32 (fun o norm => evm_add norm (evm_sub 1 ((at_off s2 o * at_off inv o) mod qf))) 0.
(** ZKNOX_epervier.sol:108-112 *)
Definition ep_sub (hashed s1 : list Z) : list Z :=
  map (fun i => (nth i hashed 0 + evm_sub qf (nth i s1 0)) mod qf) (seq 0 512).
(** ZKNOX_epervier.sol:20-22: address(uint160(uint256(keccak256(m)))); abi.encodePacked of an uint256[] is its words in big endian *)
Definition HashToAddress (H : list Z -> list Z) (m : list Z) : Z := be_int (H m) mod 2 ^ 160.
(** ZKNOX_epervier.sol:33-119 (hashToPointNIST), ZKNOX_ethepervier.sol (hashToPointEVM) *)
Definition contract_recover (H : list Z -> list Z) (h2p : nat -> list Z -> list Z -> option (list Z)) (fuel : nat)
    (msgs salt cs1 cs2 : list Z) (hint : Z) : fres Z :=
  if negb (length salt =? 40)%nat then Fin (Raise Revert)
  else if negb (length cs1 =? 32)%nat then Fin (Raise Revert)
  else if negb (length cs2 =? 32)%nat then Fin (Raise Revert)
  else
    let s1 := Expand cs1 in
    let s2 := Expand cs2 in
    if sigBound <? epervier_norm s1 s2 then Fin (Raise Revert)
    else
      let s2 := NTTFW_vectorized s2 in
      let inv := ep_forward (ep_prefix s2) (ep_back s2 hint) in
      match h2p fuel salt msgs with
      | None => NoFuel
      | Some hashed =>
        if negb (ep_check s2 inv =? 0) then Fin (Raise Revert)
        else Fin (Ok (HashToAddress H (flat_map (to_be 32) (VECMULMOD (NTTFW_vectorized (ep_sub hashed s1)) inv))))
      end.

(** ** The arguments computed off chain *)
From Verif Require Import EncodingModel PolyModel.
(** sign_cli.py:215-220 (and 293-299): the compact signature and key passed to verify *)
Definition onchain_falcon_args (h sig : list Z) : res (option (list Z * list Z)) :=
  let! s2 := decompress (skipn 41 sig) (666 - HEAD_LEN - FalconModel.SALT_LEN) 512 in
  match s2 with
  | None => Raise TypeError                    (* for elt in False *)
  | Some s2 =>
    let s2 := map (fun e => e mod q) s2 in
    let! S2 := falcon_compact s2 in
    let! PK := falcon_compact (ntt h) in
    Ok (Some (S2, PK))
  end.
(** sign_cli.py:185-198: the compact s1, s2 and the hint passed to recover *)
Definition onchain_epervier_args (sig : list Z) : res (option (list Z * list Z * Z)) :=
  let! s := decompress (slice 41 (length sig - 512 * 3) sig) (666 * 2 - HEAD_LEN - FalconModel.SALT_LEN) (512 * 2) in
  match s with
  | None => Raise TypeError                    (* len(False) *)
  | Some s =>
    let mid := (length s / 2)%nat in
    let s := map (fun e => e mod q) s in
    let s1 := firstn mid s in let s2 := skipn mid s in
    let! S1 := falcon_compact s1 in
    let! S2 := falcon_compact s2 in
    let! inv := poly_inverse s2 in
    Ok (Some (S1, S2, fold_left (fun hint elt => (hint * elt) mod q) (ntt inv) 1))
  end.
