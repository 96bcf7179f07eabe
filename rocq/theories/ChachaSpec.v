(** RFC 8439 ChaCha block function (sections 2.1-2.3), on words in [0,2^32), independently of the code. *)
From Coq Require Import ZArith List Bool.
Import ListNotations.
Open Scope Z_scope.

Definition add32 (a b : Z) : Z := (a + b) mod 2 ^ 32.
(** left rotation: bit i of the result is bit (i - n) mod 32 of x *)
Definition rotl32 (x n : Z) : Z :=
  fold_right (fun i acc => (if Z.testbit x ((Z.of_nat i - n) mod 32) then 1 else 0) + 2 * acc) 0 (seq 0 32).

(** 2.1 *)
Definition quarter (t : Z * Z * Z * Z) : Z * Z * Z * Z :=
  let '(a, b, c, d) := t in
  let step x y z n := (add32 x y, rotl32 (Z.lxor z (add32 x y)) n) in
  let (a, d) := step a b d 16 in
  let (c, b) := step c d b 12 in
  let (a, d) := step a b d 8 in
  let (c, b) := step c d b 7 in
  (a, b, c, d).
(** 2.2: the state is a vector of 16 words *)
Definition QUARTERROUND (s : nat -> Z) (x y z w : nat) : nat -> Z := fun i =>
  let '(a, b, c, d) := quarter (s x, s y, s z, s w) in
  if Nat.eqb i x then a else if Nat.eqb i y then b else if Nat.eqb i z then c else if Nat.eqb i w then d else s i.
(** 2.3.1 inner_block: 4 column rounds then 4 diagonal rounds *)
Definition inner_block (s : nat -> Z) : nat -> Z :=
  fold_left (fun s q => let '(x, y, z, w) := q in QUARTERROUND s x y z w)
    [(0, 4, 8, 12); (1, 5, 9, 13); (2, 6, 10, 14); (3, 7, 11, 15);
     (0, 5, 10, 15); (1, 6, 11, 12); (2, 7, 8, 13); (3, 4, 9, 14)]%nat s.
(** chacha20_block before serialization *)
Definition chacha20_words (s : nat -> Z) : nat -> Z := fun i => add32 (Nat.iter 10 inner_block s i) (s i).

(** ** The generator of Falcon: matrix, 8-way interleaving, requests. *)
(** little-endian word i of the seed *)
Definition seed_word (seed : list Z) (i : nat) : Z :=
  let b j := nth (4 * i + j) seed 0 in b 0%nat + 256 * b 1%nat + 65536 * b 2%nat + 16777216 * b 3%nat.
Definition seed_counter (seed : list Z) : Z := seed_word seed 12 + 2 ^ 32 * seed_word seed 13.
(** constants "expand 32-byte k", ten seed words, two seed words xored with the 64-bit counter *)
Definition falcon_matrix (seed : list Z) (ctr : Z) : nat -> Z := fun i =>
  match i with
  | 0%nat => 0x61707865 | 1%nat => 0x3320646e | 2%nat => 0x79622d32 | 3%nat => 0x6b206574
  | 14%nat => Z.lxor (seed_word seed 10) (ctr mod 2 ^ 32)
  | 15%nat => Z.lxor (seed_word seed 11) (ctr / 2 ^ 32)
  | _ => seed_word seed (i - 4)
  end.
(** byte j of refill r: refill r uses counters ctr0 + 8r .. ctr0 + 8r + 7; word w of the refill is
    word w/8 of block w mod 8; words are little-endian *)
Definition refill_byte (seed : list Z) (r j : nat) : Z :=
  let w := (j / 4)%nat in
  let block := chacha20_words (falcon_matrix seed (seed_counter seed + 8 * Z.of_nat r + Z.of_nat (w mod 8))) in
  (block (w / 8)%nat / 256 ^ Z.of_nat (j mod 4)) mod 256.

(** answers to a sequence of requests: [r] refills made so far, [p] bytes of the last one consumed *)
Fixpoint answers (seed : list Z) (r p : nat) (ks : list nat) : list (list Z) :=
  match ks with
  | [] => []
  | k :: ks' =>
      if (p + k <=? 512)%nat then
        map (refill_byte seed (r - 1)) (seq p k) :: answers seed r (p + k) ks'
      else map (refill_byte seed r) (seq 0 (Nat.min k 512)) :: answers seed (S r) (Nat.min k 512) ks'
  end.
