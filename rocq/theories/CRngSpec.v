(** The generator of the C signer, written independently of the code: an endless stream of 512-byte refills of ChaCha20 (RFC 8439,
    ChachaSpec), the 64-bit counter wrapping, and what the two kinds of draws return. *)
From Verif Require Import Base ChachaSpec.

(** byte j of refill r *)
Definition crefill_byte (seed : list Z) (r j : nat) : Z :=
  let w := (j / 4)%nat in
  let ctr := (seed_counter seed + 8 * Z.of_nat r + Z.of_nat (w mod 8)) mod 2 ^ 64 in
  (chacha20_words (falcon_matrix seed ctr) (w / 8)%nat / 256 ^ Z.of_nat (j mod 4)) mod 256.
(** little-endian value of n bytes from position p of refill r *)
Definition le_value (f : nat -> Z) (p n : nat) : Z := fold_right (fun j acc => f j + 256 * acc) 0 (seq p n).

Inductive c_draw := U64 | U8.
(** r: current refill, p: position in it.  A 64-bit draw with fewer than ten bytes left moves to the next refill; a byte that is the
    last of the refill moves to the next one. *)
Fixpoint c_answers (seed : list Z) (r p : nat) (ds : list c_draw) : list Z :=
  match ds with
  | [] => []
  | U64 :: ds => let '(r, p) := if (p + 9 <? 512)%nat then (r, p) else (S r, 0%nat) in
                 le_value (crefill_byte seed r) p 8 :: c_answers seed r (p + 8) ds
  | U8 :: ds => crefill_byte seed r p :: (if (p + 1 =? 512)%nat then c_answers seed (S r) 0 ds else c_answers seed r (p + 1) ds)
  end.

(** What the two signers draw: nine bytes at once (the base sampler) or one byte.  The C code takes the nine as a 64-bit draw and a byte. *)
Definition as_c (k : nat) : list c_draw := if (k =? 9)%nat then [U64; U8] else [U8].
(** position of the Python generator (rng.py: a request that does not fit in the rest of the refill starts the next one) *)
Definition py_next (p k : nat) : nat := if (p + k <=? 512)%nat then p + k else k.
(** refills made and bytes of the last one consumed after a history *)
Fixpoint py_at (r p : nat) (ks : list nat) : nat * nat :=
  match ks with [] => (r, p) | k :: ks => if (p + k <=? 512)%nat then py_at r (p + k) ks else py_at (S r) k ks end.
(** no nine-byte draw starts exactly at position 503, nine bytes before the end of a refill *)
Fixpoint avoids_503 (p : nat) (ks : list nat) : bool :=
  match ks with
  | [] => true
  | k :: ks => negb ((k =? 9)%nat && (p =? 503)%nat) && avoids_503 (py_next p k) ks
  end.
(** the bytes of a request as the C values: little-endian *)
Definition as_values (out : list Z) : list Z :=
  if (length out =? 9)%nat then [fold_right (fun b acc => b + 256 * acc) 0 (firstn 8 out); nth 8 out 0] else [nth 0 out 0].
