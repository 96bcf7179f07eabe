(** FIPS 202, sections 3.2-3.4 (Keccak-f[1600]), 4 (sponge), 5.1 (pad10*1) and 6 (SHAKE256),
    written at bit level (permutation) and byte level (sponge), independently of the code.
    [A x y z] with x,y in 0..4 and z in 0..63. *)
From Coq Require Import ZArith List Bool.
Import ListNotations.
Open Scope Z_scope.

Definition bitstate := nat -> nat -> Z -> bool.

(** 3.2.1: "(x-1) mod 5" is written (x+4) mod 5. *)
Definition column (A : bitstate) (x : nat) (z : Z) : bool :=
  xorb (A x 0%nat z) (xorb (A x 1%nat z) (xorb (A x 2%nat z) (xorb (A x 3%nat z) (A x 4%nat z)))).
Definition theta (A : bitstate) : bitstate := fun x y z =>
  xorb (A x y z) (xorb (column A ((x + 4) mod 5) z) (column A ((x + 1) mod 5) ((z - 1) mod 64))).

(** 3.2.2: the lane visited at step t, and its offset (t+1)(t+2)/2. *)
Fixpoint rho_pos (t : nat) : nat * nat :=
  match t with
  | O => (1, 0)%nat
  | S t' => let (x, y) := rho_pos t' in (y, (2 * x + 3 * y) mod 5)%nat
  end.
Definition rho_offset (x y : nat) : Z :=
  match find (fun t => let (a, b) := rho_pos t in Nat.eqb a x && Nat.eqb b y) (seq 0 24) with
  | Some t => Z.of_nat ((t + 1) * (t + 2) / 2)
  | None => 0                          (* lane (0,0) *)
  end.
Definition rho (A : bitstate) : bitstate := fun x y z => A x y ((z - rho_offset x y) mod 64).
(** 3.2.3 *)
Definition pi (A : bitstate) : bitstate := fun x y z => A ((x + 3 * y) mod 5)%nat x z.
(** 3.2.4 *)
Definition chi (A : bitstate) : bitstate := fun x y z =>
  xorb (A x y z) (andb (negb (A ((x + 1) mod 5)%nat y z)) (A ((x + 2) mod 5)%nat y z)).
(** 3.2.5, algorithm 5: the LFSR, R[0] first. *)
Definition lfsr_step (R : list bool) : list bool :=
  let R := false :: R in
  let r i := nth i R false in
  [xorb (r 0%nat) (r 8%nat); r 1%nat; r 2%nat; r 3%nat; xorb (r 4%nat) (r 8%nat);
   xorb (r 5%nat) (r 8%nat); xorb (r 6%nat) (r 8%nat); r 7%nat].
Definition rc (t : nat) : bool :=
  nth 0 (Nat.iter (t mod 255) lfsr_step [true; false; false; false; false; false; false; false]) false.
(** RC[2^j - 1] = rc(j + 7 ir) for j = 0..6, other bits 0. *)
Definition RC (ir : nat) (z : Z) : bool :=
  existsb (fun j => (z =? 2 ^ Z.of_nat j - 1) && rc (j + 7 * ir)) (seq 0 7).
Definition iota (ir : nat) (A : bitstate) : bitstate := fun x y z =>
  match x, y with O, O => xorb (A x y z) (RC ir z) | _, _ => A x y z end.

Definition Rnd (A : bitstate) (ir : nat) : bitstate := iota ir (chi (pi (rho (theta A)))).
Definition keccak_f1600 (A : bitstate) : bitstate := fold_left Rnd (seq 0 24) A.

(** ** The sponge on byte strings: state = 200 bytes, [P] the permutation. *)
Section Sponge.
Variable P : list Z -> list Z.
Variable rate : nat.
Variable ds : Z.                     (* domain-separation suffix with the first pad bit: 0x1F *)

Definition xor_bytes (a b : list Z) : list Z := map (fun p => Z.lxor (fst p) (snd p)) (combine a b).

(** m || suffix || 0* || 0x80 up to a multiple of the rate (both in one byte if one is left) *)
Definition sponge_pad (m : list Z) : list Z :=
  match (rate - length m mod rate)%nat with
  | O => []                          (* impossible for rate > 0 *)
  | 1%nat => m ++ [Z.lxor ds 0x80]
  | S (S k) => m ++ ds :: repeat 0 k ++ [0x80]
  end.
(** first k blocks *)
Fixpoint blocks (k : nat) (m : list Z) : list (list Z) :=
  match k with O => [] | S k' => firstn rate m :: blocks k' (skipn rate m) end.
Definition absorb_block (S b : list Z) : list Z := P (xor_bytes S (b ++ repeat 0 (200 - rate))).
Definition sponge_absorb (m : list Z) : list Z :=
  let p := sponge_pad m in fold_left absorb_block (blocks (length p / rate) p) (repeat 0 200).
(** byte [j] of the output stream *)
Definition sponge_byte (m : list Z) (j : nat) : Z :=
  nth (j mod rate) (Nat.iter (j / rate) P (sponge_absorb m)) 0.
End Sponge.

(** 3.1.2/3.1.3: strings and states; bit t of byte k is A[x,y,8j+t], k = 8(5y+x)+j. *)
Definition state_of_bytes (b : list Z) : bitstate := fun x y z =>
  Z.testbit (nth (8 * (5 * y + x) + Z.to_nat (z / 8)) b 0) (z mod 8).
Definition bytes_of_state (A : bitstate) : list Z :=
  map (fun k => let l := (k / 8)%nat in let j := Z.of_nat (k mod 8) in
    fold_right (fun t acc => (if A (l mod 5)%nat (l / 5)%nat (8 * j + Z.of_nat t) then 1 else 0) + 2 * acc)
               0 (seq 0 8)) (seq 0 200).
Definition keccak_p (b : list Z) : list Z := bytes_of_state (keccak_f1600 (state_of_bytes b)).

(** SHAKE256: rate 136 bytes, suffix bits 1111 and first pad bit: 0x1F. *)
Definition shake256_byte (m : list Z) (j : nat) : Z := sponge_byte keccak_p 136 0x1f m j.
(** Keccak-256 (Ethereum): same rate, suffix 0x01, 32 bytes. *)
Definition keccak256 (m : list Z) : list Z := map (sponge_byte keccak_p 136 0x01 m) (seq 0 32).
