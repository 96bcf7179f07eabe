(** CTR_DRBG with AES-256 and no derivation function (NIST SP 800-90A section 10.2.1), on an integer counter: the state is a key,
    a counter modulo 2^128 and the number of requests served. Written independently of the Python code. *)
From Verif Require Import Base FalconModel PrngModel.

(** the block cipher: 32-byte keys, 16-byte blocks *)
Definition cipher_ok (E : list Z -> list Z -> list Z) : Prop :=
  forall k v, length k = 32%nat -> length v = 16%nat -> length (E k v) = 16%nat /\ bytes (E k v).

Section Spec.
Variable E : list Z -> list Z -> list Z.

(** the i-th block after counter value c *)
Definition block (key : list Z) (c : Z) (i : nat) : list Z := E key (to_be 16 ((c + Z.of_nat i) mod 2 ^ 128)).
(** m consecutive blocks: counters c+1, ..., c+m *)
Definition keystream (key : list Z) (c : Z) (m : nat) : list Z := flat_map (block key c) (seq 1 m).
Definition pad48 (a : list Z) : list Z := a ++ repeat 0 (48 - length a).
Definition xorb (a b : list Z) : list Z := map (fun i => Z.lxor (nth i a 0) (nth i b 0)) (seq 0 (length a)).

Record st := mk_st { key : list Z; ctr : Z; served : Z }.
(** CTR_DRBG_Update, 10.2.1.2 *)
Definition upd48 (data : list Z) (k : list Z) (c : Z) : list Z * Z :=
  let t := xorb (keystream k c 3) data in (firstn 32 t, be_int (skipn 32 t)).
(** number of 16-byte blocks needed for num bytes *)
Definition nblocks (num : Z) : nat := Z.to_nat ((num + 15) / 16).
(** CTR_DRBG_Instantiate, 10.2.1.3.1 *)
Definition instantiate (seed pers : list Z) : st :=
  let (k, c) := upd48 (xorb seed (pad48 pers)) (repeat 0 32) 0 in mk_st k c 0.
(** CTR_DRBG_Generate, 10.2.1.5.1 *)
Definition generate (s : st) (num : Z) (additional : list Z) : st * list Z :=
  let (k, c) := match additional with [] => (key s, ctr s) | _ => upd48 (pad48 additional) (key s) (ctr s) end in
  let out := firstn (Z.to_nat num) (keystream k c (nblocks num)) in
  let (k', c') := upd48 (pad48 additional) k ((c + Z.of_nat (nblocks num)) mod 2 ^ 128) in
  (mk_st k' c' (served s + 1), out).
End Spec.
