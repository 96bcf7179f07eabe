(** Model of hash_to_point (/repo/pythonref/falcon.py:186-214) over an arbitrary XOF class, and of
    the three on-chain variants of /repo/src/ZKNOX_HashToPoint.sol. *)
From Verif Require Import Base KeccakModel PrngModel.

Definition q : Z := 12289.                                  (* common.py:5 *)

(** A XOF class: new/update/flip/read; [xsalt] is what hash_to_point does to the salt for this class
    (falcon.py:195-197: blake2s(salt) when xof is Blake2sPRNG, nothing otherwise). *)
Record xof := mk_xof {
  xt : Type; xsalt : list Z -> list Z; xnew : xt;
  xupdate : xt -> list Z -> xt * res unit;
  xflip : xt -> xt * res unit;
  xread : xt -> nat -> xt * res (list Z) }.

(** keccak_prng.py:109-115 / blake2s_prng.py: update = inject, read = extract *)
Definition KeccakPRNG (H : list Z -> list Z) : xof :=
  mk_xof prng (fun s => s) (prng_new (Z.to_nat 4096)) (inject (Z.to_nat 4096)) (flip H) (extract H).
Definition Blake2sPRNG (H : list Z -> list Z) : xof :=
  mk_xof prng H (prng_new (Z.to_nat 1024)) (inject (Z.to_nat 1024)) (flip H) (extract H).
(** shake.py:6-24 *)
Definition SHAKE : xof :=
  mk_xof khash (fun s => s) shake_new (fun s d => (shake_update s d, Ok tt)) (fun s => (shake_flip s, Ok tt))
    (fun s k => let (s', b) := shake_read s k in (s', Ok b)).
(** keccaxof.py; flip does nothing (39-40) *)
Definition KeccaXOF (H : list Z -> list Z) : xof :=
  mk_xof kxof (fun s => s) kxof_new kxof_update (fun s => (s, Ok tt)) (kxof_read H).

(** Result of a loop run with bounded fuel: [NoFuel] = still running. *)
Inductive fres (A : Type) := Fin (r : res A) | NoFuel.
Arguments Fin {A} _. Arguments NoFuel {A}.

(** falcon.py:204-213; the list [hashed] is its first i entries (the rest is still 0) *)
Fixpoint h2p_loop (X : xof) (fuel : nat) (n : nat) (x : xt X) (hashed : list Z) : fres (list Z) :=
  if (length hashed <? n)%nat then
    match fuel with
    | O => NoFuel
    | S fuel' =>
      let (x, r) := xread X x 2 in
      match r with
      | Raise e => Fin (Raise e)
      | Ok twobytes =>
        let elt := Z.shiftl (nth 0 twobytes 0) 8 + nth 1 twobytes 0 in
        let k := Z.shiftl 1 16 / q in
        h2p_loop X fuel' n x (if elt <? k * q then hashed ++ [elt mod q] else hashed)
      end
    end
  else Fin (Ok hashed).

(** falcon.py:186-214 *)
Definition hash_to_point (fuel : nat) (n : nat) (message salt : list Z) (X : xof) : fres (list Z) :=
  let salt := xsalt X salt in
  let (x, r) := xupdate X (xnew X) salt in
  match r with Raise e => Fin (Raise e) | Ok _ =>
  let (x, r) := xupdate X x message in
  match r with Raise e => Fin (Raise e) | Ok _ =>
  let (x, r) := xflip X x in
  match r with Raise e => Fin (Raise e) | Ok _ =>
  h2p_loop X fuel n x []
  end end end.

(** ** ZKNOX_HashToPoint.sol; [H] is keccak256 (an EVM opcode) *)
Definition kq : Z := 61445.                                 (* ZKNOX_falcon_utils.sol:51 *)

Section Sol.
Variable H : list Z -> list Z.

(** ZKNOX_HashToPoint.sol:38-47: for j = 240; lt(j, 666); j -= 16 mod 2^256 *)
Fixpoint evm_inner (fuel : nat) (buffer j : Z) (out : list Z) : list Z :=
  if j <? 666 then
    match fuel with
    | O => out                                              (* unreachable with fuel 17 *)
    | S fuel' =>
      let chunk := Z.land (Z.shiftr buffer j) 0xffff in
      if chunk <? kq then
        let out := out ++ [chunk mod q] in
        if (length out =? 512)%nat then out
        else evm_inner fuel' buffer ((j - 16) mod 2 ^ 256) out
      else evm_inner fuel' buffer ((j - 16) mod 2 ^ 256) out
    end
  else out.

(** ZKNOX_HashToPoint.sol:36-52; [counter] is the 32-byte memory word at extendedState+64, of which
    the hash input (40 bytes) covers the first 8 bytes *)
Fixpoint evm_loop (fuel : nat) (state : list Z) (counter : Z) (out : list Z) : option (list Z) :=
  if (length out <? 512)%nat then
    match fuel with
    | O => None
    | S fuel' =>
      let buffer := be_int (H (state ++ be64 (counter / 2 ^ 192))) in
      let out := evm_inner 17 buffer 240 out in
      evm_loop fuel' state
        ((counter + 6277101735386680763835789423207666416102355444464034512896) mod 2 ^ 256) out
    end
  else Some out.
(** ZKNOX_HashToPoint.sol:22-54 *)
Definition hashToPointEVM (fuel : nat) (salt msgHash : list Z) : option (list Z) :=
  evm_loop fuel (H (salt ++ msgHash)) 0 [].

(** ZKNOX_HashToPoint.sol:60-70 *)
Definition splitToHex (x : Z) : list Z :=
  map (fun i => Z.land (Z.shiftr x (Z.shiftl (15 - Z.of_nat i) 4)) 0xffff) (seq 0 16).

(** ZKNOX_HashToPoint.sol:121-136 *)
Fixpoint tet_loop (fuel : nat) (tmp sample : list Z) (j : nat) (hashed : list Z) : option (list Z) :=
  if (length hashed <? 512)%nat then
    match fuel with
    | O => None
    | S fuel' =>
      let '(tmp, sample, j) := if (j =? 16)%nat
                               then (H tmp, splitToHex (be_int (H tmp)), 0%nat) else (tmp, sample, j) in
      let s := nth j sample 0 in
      tet_loop fuel' tmp sample (S j) (if s <? kq then hashed ++ [s mod q] else hashed)
    end
  else Some hashed.
(** ZKNOX_HashToPoint.sol:115-138 *)
Definition hashToPointTETRATION (fuel : nat) (salt msgHash : list Z) : option (list Z) :=
  let tmp := H (msgHash ++ salt) in
  tet_loop fuel tmp (splitToHex (be_int tmp)) 0 [].
End Sol.

(** ZKNOX_HashToPoint.sol:88-103 *)
Fixpoint nist_loop (fuel : nat) (c : ctx) (tmp : list Z) (j : nat) (hashed : list Z) : option (list Z) :=
  if (length hashed <? 512)%nat then
    match fuel with
    | O => None
    | S fuel' =>
      let '(c, tmp, j) := if (j =? 136)%nat
                          then let (c, tmp) := shakeSqueeze c 136 in (c, tmp, 0%nat) else (c, tmp, j) in
      let dibytes := nth (j + 1) tmp 0 + Z.shiftl (nth j tmp 0) 8 in
      nist_loop fuel' c tmp (j + 2) (if dibytes <? kq then hashed ++ [dibytes mod q] else hashed)
    end
  else Some hashed.
(** ZKNOX_HashToPoint.sol:78-106 *)
Definition hashToPointNIST (fuel : nat) (salt msgHash : list Z) : option (list Z) :=
  let c := shakePad (shakeUpdate ctx_zero (salt ++ msgHash)) in
  let (c, tmp) := shakeSqueeze c 136 in
  nist_loop fuel c tmp 0 [].
