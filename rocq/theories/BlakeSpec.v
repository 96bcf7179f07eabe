(** BLAKE2s as in RFC 7693 (sections 2 and 3), unkeyed, 32-byte digest, independently of the code. *)
From Coq Require Import ZArith List Bool.
Import ListNotations.
Open Scope Z_scope.

(** 2.6: first 32 bits of the fractional parts of the square roots of the first eight primes *)
Definition iv (i : nat) : Z := Z.sqrt (nth i [2; 3; 5; 7; 11; 13; 17; 19] 0 * 2 ^ 64) mod 2 ^ 32.
(** 2.7: message schedule *)
Definition sched : list (list nat) := [
    [ 0;  1;  2;  3;  4;  5;  6;  7;  8;  9; 10; 11; 12; 13; 14; 15];
    [14; 10;  4;  8;  9; 15; 13;  6;  1; 12;  0;  2; 11;  7;  5;  3];
    [11;  8; 12;  0;  5;  2; 15; 13; 10; 14;  3;  6;  7;  1;  9;  4];
    [ 7;  9;  3;  1; 13; 12; 11; 14;  2;  6;  5; 10;  4;  0; 15;  8];
    [ 9;  0;  5;  7;  2;  4; 10; 15; 14;  1; 11; 12;  6;  8;  3; 13];
    [ 2; 12;  6; 10;  0; 11;  8;  3;  4; 13;  7;  5; 15; 14;  1;  9];
    [12;  5;  1; 15; 14; 13;  4; 10;  0;  7;  6;  3;  9;  2;  8; 11];
    [13; 11;  7; 14; 12;  1;  3;  9;  5;  0; 15;  4;  8;  6;  2; 10];
    [ 6; 15; 14;  9; 11;  3;  0;  8; 12;  2; 13;  7;  1;  4; 10;  5];
    [10;  2;  8;  4;  7;  6;  1;  5; 15; 11;  9; 14;  3; 12; 13;  0]]%nat.
Definition vec := nat -> Z.
Definition vset (v : vec) (a : nat) (x : Z) : vec := fun i => if Nat.eqb i a then x else v i.
(** rotation to the right *)
Definition rotr (x n : Z) : Z := x / 2 ^ n + (x mod 2 ^ n) * 2 ^ (32 - n).
(** 3.1 *)
Definition G (v : vec) (a b c d : nat) (x y : Z) : vec :=
  let v := vset v a ((v a + v b + x) mod 2 ^ 32) in
  let v := vset v d (rotr (Z.lxor (v d) (v a)) 16) in
  let v := vset v c ((v c + v d) mod 2 ^ 32) in
  let v := vset v b (rotr (Z.lxor (v b) (v c)) 12) in
  let v := vset v a ((v a + v b + y) mod 2 ^ 32) in
  let v := vset v d (rotr (Z.lxor (v d) (v a)) 8) in
  let v := vset v c ((v c + v d) mod 2 ^ 32) in
  vset v b (rotr (Z.lxor (v b) (v c)) 7).
(** 3.2: one round with the schedule s *)
Definition round (m : vec) (v : vec) (s : list nat) : vec :=
  let w i := m (nth i s 0%nat) in
  let v := G v 0 4 8 12 (w 0%nat) (w 1%nat) in
  let v := G v 1 5 9 13 (w 2%nat) (w 3%nat) in
  let v := G v 2 6 10 14 (w 4%nat) (w 5%nat) in
  let v := G v 3 7 11 15 (w 6%nat) (w 7%nat) in
  let v := G v 0 5 10 15 (w 8%nat) (w 9%nat) in
  let v := G v 1 6 11 12 (w 10%nat) (w 11%nat) in
  let v := G v 2 7 8 13 (w 12%nat) (w 13%nat) in
  G v 3 4 9 14 (w 14%nat) (w 15%nat).
Definition F (h m : vec) (t : Z) (last : bool) : vec :=
  let v := fun i => if (i <? 8)%nat then h i else iv (i - 8) in
  let v := vset v 12 (Z.lxor (v 12%nat) (t mod 2 ^ 32)) in
  let v := vset v 13 (Z.lxor (v 13%nat) (t / 2 ^ 32)) in
  let v := if last then vset v 14 (Z.lxor (v 14%nat) (2 ^ 32 - 1)) else v in
  let v := fold_left (round m) sched v in
  fun i => Z.lxor (Z.lxor (h i) (v i)) (v (i + 8)%nat).
(** 3.3: the message is cut into blocks of 64 bytes, padded with zeros; an empty message is one block *)
Definition block (d : list Z) (k : nat) : vec := fun i =>
  let b j := nth (64 * k + 4 * i + j) d 0 in b 0%nat + 256 * b 1%nat + 65536 * b 2%nat + 16777216 * b 3%nat.
Definition blocks (d : list Z) : nat := Nat.max 1 ((length d + 63) / 64).
Definition h0 : vec := fun i => if Nat.eqb i 0 then Z.lxor (iv 0) 0x01010020 else iv i.
Definition blake2s (d : list Z) : list Z :=
  let h := fold_left (fun h k => F h (block d k) (64 * Z.of_nat (k + 1)) false) (seq 0 (blocks d - 1)) h0 in
  let h := F h (block d (blocks d - 1)) (Z.of_nat (length d)) true in
  flat_map (fun i => map (fun j => (h i / 256 ^ Z.of_nat j) mod 256) (seq 0 4)) (seq 0 8).

(** the value of a string of bytes, little endian *)
Fixpoint le_value (b : list Z) : Z := match b with [] => 0 | x :: b' => x + 256 * le_value b' end.
