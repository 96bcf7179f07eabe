(** Model of contract creation and storage around the verifiers: code storage (lib/sstore2/contracts/SSTORE2.sol,
    lib/sstore2/contracts/utils/Bytecode.sol, src/ZKNOX_falcon_deploy.sol), the packed entry points verify(bytes,bytes32,bytes) of
    src/ZKNOX_falcon.sol and src/ZKNOX_ethfalcon.sol, src/ZKNOX_common.sol, and the stateful contract src/ZKNOX_NTT.sol. *)
From Verif Require Import Base KeccakModel PrngModel HashModel FalconModel NttTables NttModel SolModel.

(** * the part of the EVM that runs the creation code *)
(** Memory: one byte per address. *)
Definition memory_t := Z -> Z.
(** byte at position [i] of the code, 0 past its end (EVM: reading code past its end gives zeros / STOP) *)
Definition code_byte (code : list Z) (i : nat) : Z := nth i code 0.
(** Interpreter of the opcodes used by the creation code: STOP, CODECOPY, PUSH1, PUSH4, DUP1, RETURN.  [None]: exceptional halt (other
    opcode, stack underflow, no fuel).  Gas is not modelled. *)
Fixpoint exec (fuel : nat) (code : list Z) (pc : nat) (stack : list Z) (mem : memory_t) : option (list Z) :=
  match fuel with
  | O => None
  | S fuel' =>
    let op := code_byte code pc in
    if op =? 0x60 then exec fuel' code (pc + 2) (code_byte code (pc + 1) :: stack) mem
    else if op =? 0x63 then exec fuel' code (pc + 5) (be_int (map (code_byte code) (seq (pc + 1) 4)) :: stack) mem
    else if op =? 0x80 then match stack with x :: s => exec fuel' code (pc + 1) (x :: x :: s) mem | [] => None end
    else if op =? 0x39 then
      match stack with
      | dst :: off :: size :: s =>
          exec fuel' code (pc + 1) s (fun a => if (dst <=? a) && (a <? dst + size) then code_byte code (Z.to_nat (off + (a - dst))) else mem a)
      | _ => None
      end
    else if op =? 0xF3 then
      match stack with off :: size :: _ => Some (map (fun i => mem (off + Z.of_nat i)) (seq 0 (Z.to_nat size))) | _ => None end
    else if op =? 0x00 then Some []
    else None
  end.

(** CREATE and CREATE2: the code put at the new address; [None]: address 0.  EIP-3860 (creation code at most 49152 bytes), EIP-170 (code at
    most 24576 bytes), EIP-3541 (no code starting with 0xEF).  Gas, balance, nonce and address collisions are not modelled. *)
Definition create (init : list Z) : option (list Z) :=
  if (49152 <? Z.of_nat (length init)) then None
  else match exec 20 init 0 [] (fun _ => 0) with
       | None => None
       | Some code =>
         if 24576 <? Z.of_nat (length code) then None
         else if code_byte code 0 =? 0xEF then None
         else Some code
       end.

(** Bytecode.sol:13-31 (also src/ZKNOX_falcon_deploy.sol:55-56, 70-71, 82): PUSH4 uint32(len), DUP1, PUSH1 14, PUSH1 0, CODECOPY, PUSH1 0, RETURN, code *)
Definition creationCodeFor (code : list Z) : list Z :=
  [0x63] ++ to_be 4 (Z.of_nat (length code) mod 2 ^ 32) ++ [0x80; 0x60; 0x0E; 0x60; 0x00; 0x39; 0x60; 0x00; 0xF3] ++ code.

(** SSTORE2.sol:20-35; the result is the code found at the returned pointer *)
Definition sstore2_write (data : list Z) : res (list Z) :=
  match create (creationCodeFor (0 :: data)) with Some code => Ok code | None => Raise Revert end.

(** Bytecode.sol:53-79 on an address holding [code] *)
Definition codeAt (code : list Z) (start end_ : Z) : res (list Z) :=
  let csize := Z.of_nat (length code) in
  if csize =? 0 then Ok []
  else if csize <? start then Ok []
  else if end_ <? start then Raise Revert
  else
    let reqSize := end_ - start in
    let maxSize := csize - start in
    let size := if maxSize <? reqSize then maxSize else reqSize in
    Ok (map (fun i => code_byte code (Z.to_nat start + i)) (seq 0 (Z.to_nat size))).
(** SSTORE2.sol:43-45 *)
Definition sstore2_read (code : list Z) : res (list Z) := codeAt code 1 (2 ^ 256 - 1).

(** src/ZKNOX_falcon_deploy.sol:79-87; abi.encodePacked of an uint256[] is its words in big endian *)
Definition DeployPolynomial (polynomial : list Z) : res (list Z) :=
  match create (creationCodeFor (flat_map (to_be 32) polynomial)) with Some code => Ok code | None => Raise Revert end.

(** src/ZKNOX_falcon_deploy.sol:9-15, _Swap16: i = 0, 16, ..., 240; << binds tighter than &: (inw >> (240 - i) & 0xffff) is (inw >> (240-i)) & 0xffff *)
Definition Swap16 (inw : Z) : Z :=
  fold_left (fun outw i => Z.lxor outw (Z.shiftl (Z.land (Z.shiftr inw (240 - i)) 0xffff) i mod two256)) (map (fun k => 16 * Z.of_nat k) (seq 0 16)) 0.
(** src/ZKNOX_falcon_deploy.sol:17-36, _Compact *)
Definition deploy_Compact (a : list Z) : list Z := map Swap16 (Compact a).
(** src/ZKNOX_falcon_deploy.sol:39-76: the codes of the two table contracts (the checks against address 0 are in DeployPolynomial) *)
Definition Deploy : res (list Z * list Z) :=
  let! a := DeployPolynomial (deploy_Compact deploy_psi_rev) in
  let! b := DeployPolynomial (deploy_Compact deploy_psi_inv_rev) in
  Ok (a, b).

(** * ABI encoding of one uint256[] *)
Definition word_at (data : list Z) (i : nat) : Z := be_int (map (code_byte data) (seq i 32)).
(** abi.encode(uint256[]): offset 0x20, length, elements *)
Definition abi_encode_words (l : list Z) : list Z := flat_map (to_be 32) (32 :: Z.of_nat (length l) :: l).
(** abi.decode(data, (uint256[])) as generated by solc: head present, offset and length below 2^64, array inside the data;
    bytes after the array are ignored *)
Definition abi_decode_words (data : list Z) : res (list Z) :=
  let len := Z.of_nat (length data) in
  if len <? 32 then Raise Revert else
  let off := word_at data 0 in
  if 2 ^ 64 - 1 <? off then Raise Revert else
  if len <=? off + 31 then Raise Revert else
  let k := word_at data (Z.to_nat off) in
  if 2 ^ 64 - 1 <? k then Raise Revert else
  if len <? off + 32 + 32 * k then Raise Revert else
  Ok (map (fun i => word_at data (Z.to_nat off + 32 + 32 * i)) (seq 0 (Z.to_nat k))).

(** * the packed entry point *)
(** mload / mstore; addresses do not wrap around 2^256 (memory that large cannot be paid for) *)
Definition mload (m : memory_t) (p : Z) : Z := be_int (map (fun i => m (p + Z.of_nat i)) (seq 0 32)).
Definition mstore (m : memory_t) (p v : Z) : memory_t :=
  fun a => if (p <=? a) && (a <? p + 32) then (v / 256 ^ (31 - (a - p))) mod 256 else m a.
(** length-prefixed arrays in memory, as read when they are encoded for a call *)
Definition mem_bytes (m : memory_t) (p : Z) : list Z := map (fun i => m (p + 32 + Z.of_nat i)) (seq 0 (Z.to_nat (mload m p))).
Definition mem_words (m : memory_t) (p : Z) : list Z := map (fun i => mload m (p + 32 + 32 * Z.of_nat i)) (seq 0 (Z.to_nat (mload m p))).

(** src/ZKNOX_falcon.sol:95-121 (= ZKNOX_ethfalcon.sol:93-119), the assembly block; [sig] is the address of the bytes; SALT_LEN = 40.
    Returns the memory, saltPtr and s2Ptr. *)
Definition split_sig (m : memory_t) (sig : Z) : memory_t * Z * Z :=
  let freePtr := mload m 0x40 in
  let saltPtr := freePtr in
  let m := mstore m saltPtr 40 in
  let src := sig + 32 in
  let dst := saltPtr + 32 in
  let m := for_lt 3 0 40 32 (fun i m => mstore m (dst + i) (mload m (src + i))) m in
  let saltAllocSize := 64 in                      (* and(add(40, 31), not(31)) *)
  let freePtr := freePtr + (32 + saltAllocSize) in
  let s2DataStart := src + 40 in
  let s2LengthSlot := s2DataStart - 32 in
  let savedPtr := freePtr in
  let m := mstore m savedPtr (mload m sig) in
  let m := mstore m (savedPtr + 32) (mload m s2LengthSlot) in
  let m := mstore m 0x40 (savedPtr + 64) in
  let m := mstore m s2LengthSlot (evm_sub (mload m sig) 40 / 32) in
  (m, saltPtr, s2LengthSlot).

(** src/ZKNOX_falcon.sol:81-134 / ZKNOX_ethfalcon.sol:79-132.  [codes]: the code at each address; [pk32]: the 32 bytes of calldata from the
    start of _pubkey (its bytes, then whatever follows it); [m], [sigp]: memory after "bytes memory sig = _sig"; [fmp']: free memory pointer in
    the external call this.verify; a revert of that call is passed on. *)
Definition packed_verify (selector : Z) (h2p : nat -> list Z -> list Z -> option (list Z)) (fmp' : Z) (fuel : nat) (codes : Z -> list Z)
    (pk32 digest : list Z) (m : memory_t) (sigp : Z) : fres Z :=
  let pkContractAddress := Z.shiftr (be_int pk32) 96 in
  match (let! d := sstore2_read (codes pkContractAddress) in abi_decode_words d) with
  | Raise e => Fin (Raise e)
  | Ok ntth =>
    let '(m, saltPtr, s2Ptr) := split_sig m sigp in
    match contract_verify h2p fmp' fuel digest (mem_bytes m saltPtr) (mem_words m s2Ptr) ntth with
    | NoFuel => NoFuel
    | Fin (Raise e) => Fin (Raise e)
    | Fin (Ok true) => Fin (Ok selector)
    | Fin (Ok false) => Fin (Ok 0xFFFFFFFF)
    end
  end.

(** src/ZKNOX_common.sol:53-69; salt[i] is bounds-checked; [s2] has 32 words *)
Definition packSignature (salt s2 : list Z) : res (list Z) :=
  if (length salt <? 40)%nat then Raise Revert else Ok (firstn 40 salt ++ flat_map (to_be 32) s2).

(** * the stateful contract ZKNOX_NTT *)
(** src/ZKNOX_NTT.sol:52-56 *)
Record ntt_state := { o_psirev : Z; o_psi_inv_rev : Z; storage_q : Z; storage_nm1modq : Z; is_immutable : Z }.
(** src/ZKNOX_NTT.sol:61-68 *)
Definition ntt_constructor (Apsi_rev Apsi_inrev q nm1modq : Z) : ntt_state :=
  {| o_psirev := Apsi_rev; o_psi_inv_rev := Apsi_inrev; storage_q := q; storage_nm1modq := nm1modq; is_immutable := 1 |}.
(** src/ZKNOX_NTT.sol:70-78; no access control *)
Definition ntt_update (Apsi_rev Apsi_inrev q nm1modq : Z) (s : ntt_state) : ntt_state :=
  if 0 <? is_immutable s then
    {| o_psirev := Apsi_rev; o_psi_inv_rev := Apsi_inrev; storage_q := q; storage_nm1modq := nm1modq; is_immutable := is_immutable s |}
  else s.
(** src/ZKNOX_NTT.sol:81-83 *)
Definition ntt_make_immutable (s : ntt_state) : ntt_state :=
  {| o_psirev := o_psirev s; o_psi_inv_rev := o_psi_inv_rev s; storage_q := storage_q s; storage_nm1modq := storage_nm1modq s; is_immutable := 1 |}.

(** src/ZKNOX_NTT.sol:103 and 139: extcodecopy(addr, S, 32*idx, 32) then mload(S); zeros past the end of the code *)
Definition code_table (code : list Z) (idx : nat) : Z := word_at code (32 * idx).
(** mulmod and addmod in assembly give 0 when the modulus is 0; [x mod 0 = x] in Coq, so the model is for storage_q > 0 only.
    src/ZKNOX_NTT.sol:87-119 *)
Definition NTTFW_stateful (codes : Z -> list Z) (s : ntt_state) (a : list Z) (apsirev : Z) : list Z :=
  nttfw (storage_q s) (code_table (codes apsirev)) (length a) a.
(** src/ZKNOX_NTT.sol:123-164 *)
Definition NTTINV_stateful (codes : Z -> list Z) (s : ntt_state) (a : list Z) (apsiinvrev : Z) : list Z :=
  nttinv (storage_q s) (code_table (codes apsiinvrev)) (storage_nm1modq s) (length a) a.
(** src/ZKNOX_NTT.sol:167-169 *)
Definition NTT_HALFMUL_stateful (codes : Z -> list Z) (s : ntt_state) (a b : list Z) : res (list Z) :=
  let! p := ZKNOX_VECMULMOD (storage_q s) (NTTFW_stateful codes s a (o_psirev s)) b in
  Ok (NTTINV_stateful codes s p (o_psi_inv_rev s)).
(** src/ZKNOX_NTT.sol:172-177 *)
Definition NTT_MUL_stateful (codes : Z -> list Z) (s : ntt_state) (a b : list Z) : res (list Z) :=
  let! p := ZKNOX_VECMULMOD (storage_q s) (NTTFW_stateful codes s a (o_psirev s)) (NTTFW_stateful codes s b (o_psirev s)) in
  Ok (NTTINV_stateful codes s p (o_psi_inv_rev s)).
(** src/ZKNOX_NTT.sol:411-419, packed input and output (its Expand and Compact are those of ZKNOX_falcon_utils.sol) *)
Definition NTT_HALFMUL_Compact_stateful (codes : Z -> list Z) (s : ntt_state) (a b : list Z) : res (list Z) :=
  let! p := ZKNOX_VECMULMOD (storage_q s) (NTTFW_stateful codes s (Expand a) (o_psirev s)) (Expand b) in
  Ok (Compact (NTTINV_stateful codes s p (o_psi_inv_rev s))).
