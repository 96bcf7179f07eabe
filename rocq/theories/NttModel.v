(** Model of the number-theoretic transforms of src/ZKNOX_NTT_falcon.sol and src/ZKNOX_NTT.sol. An [uint256[] memory] is a list of
    integers in [0, 2^256); indices and sizes are nat. *)
From Verif Require Import Base KeccakModel NttTables.

Definition two256 : Z := 2 ^ 256.

Section Ntt.
Variable Q : Z.            (* the modulus: constant q of ZKNOX_falcon_utils.sol:45, or the argument / storage value of ZKNOX_NTT.sol *)
Variable psi : nat -> Z.   (* the table, read at index m + i (forward) or h + i (inverse) *)

(** ZKNOX_NTT_falcon.sol:70-76, ZKNOX_NTT.sol:105-114: one butterfly at index j, in place; [sub] wraps modulo 2^256. *)
Definition fw_step (S : Z) (t : nat) (a : list Z) (j : nat) : list Z :=
  let U := nth j a 0 in
  let V := (nth (j + t) a 0 * S) mod Q in
  let a := upd a (j + t) ((U + (Q - V) mod two256) mod Q) in
  upd a j ((U + V) mod Q).
(** ZKNOX_NTT_falcon.sol:60-77: the group i of a layer, j from 2*i*t to 2*i*t + t - 1. *)
Definition fw_group (m t : nat) (a : list Z) (i : nat) : list Z :=
  fold_left (fw_step (psi (m + i)) t) (seq (2 * (i * t)) t) a.
Definition fw_layer (m t : nat) (a : list Z) : list Z := fold_left (fw_group m t) (seq 0 m) a.
(** ZKNOX_NTT_falcon.sol:55-79: while m < n. The fuel n is never exhausted since m doubles from 1 (see [nttfw_rounds] in NttProofs.v). *)
Fixpoint fw_loop (fuel t m n : nat) (a : list Z) : list Z :=
  match fuel with
  | O => a
  | S fuel => if (m <? n)%nat then let t := (t / 2)%nat in fw_loop fuel t (2 * m) n (fw_layer m t a) else a
  end.
(** ZKNOX_NTT_falcon.sol:13-82; ZKNOX_NTT.sol:87-119 and 260-296 *)
Definition nttfw (n : nat) (a : list Z) : list Z := fw_loop n n 1 n a.

(** ZKNOX_NTT_falcon.sol:161-167 *)
Definition inv_step (S : Z) (t : nat) (a : list Z) (j : nat) : list Z :=
  let U := nth j a 0 in
  let V := nth (j + t) a 0 in
  let a := upd a (j + t) (((U + (Q - V) mod two256) mod Q * S) mod Q) in
  upd a j ((U + V) mod Q).
(** ZKNOX_NTT_falcon.sol:151-170: group_ptr advances by 2*t per group *)
Definition inv_group (h t : nat) (a : list Z) (i : nat) : list Z :=
  fold_left (inv_step (psi (h + i)) t) (seq (2 * (i * t)) t) a.
Definition inv_layer (h t : nat) (a : list Z) : list Z := fold_left (inv_group h t) (seq 0 h) a.
(** ZKNOX_NTT_falcon.sol:144-173: while m > 1 *)
Fixpoint inv_loop (fuel t m : nat) (a : list Z) : list Z :=
  match fuel with
  | O => a
  | S fuel => if (1 <? m)%nat then let h := (m / 2)%nat in inv_loop fuel (2 * t) h (inv_layer h t a) else a
  end.
(** ZKNOX_NTT_falcon.sol:102-184; ZKNOX_NTT.sol:123-164 and 300-340: final scaling by nm1modq *)
Definition nttinv (nm1 : Z) (n : nat) (a : list Z) : list Z :=
  map (fun x => (x * nm1) mod Q) (inv_loop n 1 n a).

(** ZKNOX_NTT_falcon.sol:85-100; ZKNOX_NTT.sol:20-27 (after the length assertion) *)
Definition vecmul (n : nat) (a b : list Z) : list Z := map (fun i => (nth i a 0 * nth i b 0) mod Q) (seq 0 n).
End Ntt.

(** The constants of ZKNOX_falcon_utils.sol:33-51 *)
Definition qf : Z := 12289.
Definition nm1modq : Z := 12265.
Definition nf : nat := 512.

(** ZKNOX_NTT_falcon.sol:62-64: twiddle extraction from the 32-word table *)
Definition packed_at (tbl : list Z) (mi : nat) : Z :=
  Z.land (Z.shiftr (nth (mi / 16) tbl 0) (16 * Z.of_nat (mi mod 16))) 0xffff.
Definition NTTFW_vectorized (a : list Z) : list Z := nttfw qf (packed_at packed_psirev) nf a.
Definition NTTINV_vectorized (a : list Z) : list Z := nttinv qf (packed_at packed_psiinvrev) nm1modq nf a.
Definition VECMULMOD (a b : list Z) : list Z := vecmul qf nf a b.

(** ZKNOX_NTT.sol:188-241, the stateless version: array accesses are bounds-checked and [q - V] reverts on underflow.
    addmod and mulmod with q = 0 return 0 in the EVM; solidity >= 0.5 panics: the model only covers q > 0. *)
Section Stateless.
Variable Q : Z.
Variable tbl : list Z.
Definition rd (a : list Z) (i : nat) : res Z := match nth_error a i with Some v => Ok v | None => Raise Revert end.
Definition wr (a : list Z) (i : nat) (v : Z) : res (list Z) := if (i <? length a)%nat then Ok (upd a i v) else Raise Revert.
Definition csub (x y : Z) : res Z := if x <? y then Raise Revert else Ok (x - y).
Fixpoint rfold {A B} (f : A -> B -> res A) (l : list B) (a : A) : res A :=
  match l with [] => Ok a | b :: l => let! a' := f a b in rfold f l a' end.
(** ZKNOX_NTT.sol:200-205 *)
Definition sfw_step (S : Z) (t : nat) (a : list Z) (j : nat) : res (list Z) :=
  let! U := rd a j in
  let! x := rd a (j + t) in
  let V := (x * S) mod Q in
  let! a := wr a j ((U + V) mod Q) in
  let! d := csub Q V in
  wr a (j + t) ((U + d) mod Q).
(** ZKNOX_NTT.sol:195-206; j2 + 1 = j1 + t; with t = 0 (a length that is not a power of two) j1 + t - 1 underflows at i = 0. *)
Definition sfw_group (m t : nat) (a : list Z) (i : nat) : res (list Z) :=
  if Nat.eqb (2 * (i * t) + t) 0 then Raise Revert
  else let! tw := rd tbl (m + i) in rfold (sfw_step tw t) (seq (2 * (i * t)) t) a.
(** ZKNOX_NTT.sol:193-208 *)
Fixpoint sfw_loop (fuel t m n : nat) (a : list Z) : res (list Z) :=
  match fuel with
  | O => Ok a
  | S fuel => if (m <? n)%nat then
      let t := (t / 2)%nat in
      let! a := rfold (sfw_group m t) (seq 0 m) a in sfw_loop fuel t (2 * m) n a
    else Ok a
  end.
Definition NTTFW_stateless (a : list Z) : res (list Z) := sfw_loop (length a) (length a) 1 (length a) a.
(** ZKNOX_NTT.sol:224-229 *)
Definition sinv_step (S : Z) (t : nat) (a : list Z) (j : nat) : res (list Z) :=
  let! U := rd a j in
  let! V := rd a (j + t) in
  let! a := wr a j ((U + V) mod Q) in
  let! d := csub Q V in
  wr a (j + t) (((U + d) mod Q * S) mod Q).
(** ZKNOX_NTT.sol:221-231; here t >= 1 always *)
Definition sinv_group (h t : nat) (a : list Z) (i : nat) : res (list Z) :=
  let! tw := rd tbl (h + i) in rfold (sinv_step tw t) (seq (2 * (i * t)) t) a.
(** ZKNOX_NTT.sol:217-234 *)
Fixpoint sinv_loop (fuel t m : nat) (a : list Z) : res (list Z) :=
  match fuel with
  | O => Ok a
  | S fuel => if (1 <? m)%nat then
      let h := (m / 2)%nat in
      let! a := rfold (sinv_group h t) (seq 0 h) a in sinv_loop fuel (2 * t) h a
    else Ok a
  end.
Definition NTTINV_stateless (nm1 : Z) (a : list Z) : res (list Z) :=
  let! a := sinv_loop (length a) 1 (length a) a in Ok (map (fun x => (x * nm1) mod Q) a).
End Stateless.

(** ZKNOX_NTT.sol:20-27, 30-37, 41-48: the vector operations; assert(a.length == b.length). *)
Definition vop (f : Z -> Z -> res Z) : list Z -> list Z -> res (list Z) :=
  fix go a b := match a, b with
  | [], [] => Ok []
  | x :: a, y :: b => let! z := f x y in let! r := go a b in Ok (z :: r)
  | _, _ => Raise Revert
  end.
Definition ZKNOX_VECMULMOD (Q : Z) := vop (fun x y => Ok ((x * y) mod Q)).
Definition ZKNOX_VECADDMOD (Q : Z) := vop (fun x y => Ok ((x + y) mod Q)).
Definition ZKNOX_VECSUBMOD (Q : Z) := vop (fun x y => let! d := csub Q y in Ok ((x + d) mod Q)).

(** ZKNOX_NTT.sol:244-255: multiplication of two polynomials (the second one already transformed in HALFMUL) *)
Definition mul_NTTPoly (Q nm1 : Z) (a b : list Z) : res (list Z) :=
  let! ta := NTTFW_stateless Q psi_rev_table a in
  let! tb := NTTFW_stateless Q psi_rev_table b in
  let! p := ZKNOX_VECMULMOD Q ta tb in
  NTTINV_stateless Q psi_inv_rev_table nm1 p.
Definition NTT_HALFMUL_stateless (Q nm1 : Z) (a b : list Z) : res (list Z) :=
  let! ta := NTTFW_stateless Q psi_rev_table a in
  let! p := ZKNOX_VECMULMOD Q ta b in
  NTTINV_stateless Q psi_inv_rev_table nm1 p.
