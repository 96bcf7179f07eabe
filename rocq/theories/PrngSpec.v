(** Specification of the counter-mode generators and of the hash-chain XOF. *)
From Verif Require Import Base PrngModel.

(** Byte [i] of the infinite stream H(S||0) H(S||1) ... with 8-byte big-endian counters. *)
Definition stream_byte (H : list Z -> list Z) (seed : list Z) (i : Z) : Z :=
  nth (Z.to_nat (i mod 32)) (H (seed ++ be64 (i / 32))) 0.
(** bytes [pos, pos+k) of it *)
Definition stream_slice (H : list Z -> list Z) (seed : list Z) (pos : Z) (k : nat) : list Z :=
  map (fun j => stream_byte H seed (pos + Z.of_nat j)) (seq 0 k).

(** Abstract generator: the bytes absorbed so far, and after flip the number of bytes delivered. *)
Inductive agen := Absorbing (absorbed : list Z) | Squeezing (absorbed : list Z) (pos : Z).

(** The stream has 2^64 blocks of 32 bytes. *)
Definition stream_end : Z := 32 * 2 ^ 64.

Definition aspec (max : nat) (H : list Z -> list Z) (a : agen) (o : op) : agen * outcome :=
  match o, a with
  | Update d, Absorbing m =>
      if (length m + length d <=? max)%nat then (Absorbing (m ++ d), Done)
      else (a, Error ValueError)
  | Update _, Squeezing _ _ => (a, Error ValueError)
  | Flip, Absorbing m => (Squeezing m 0, Done)
  | Flip, Squeezing _ _ => (a, Error ValueError)
  | Read _, Absorbing _ => (a, Error ValueError)
  | Read k, Squeezing m pos =>
      if pos + Z.of_nat k <=? stream_end
      then (Squeezing m (pos + Z.of_nat k), Bytes (stream_slice H (H m) pos k))
      else (Squeezing m stream_end, Error StructError)
  end.

Fixpoint arun (max : nat) (H : list Z -> list Z) (a : agen) (ops : list op) : list outcome :=
  match ops with
  | [] => []
  | o :: ops' => let (a', r) := aspec max H a o in r :: arun max H a' ops'
  end.

(** Hash chain K1 = H(m), K(i+1) = H(Ki), and its byte stream. *)
Definition chain (H : list Z -> list Z) (m : list Z) (i : nat) : list Z := Nat.iter i H (H m).
Definition chain_byte (H : list Z -> list Z) (m : list Z) (i : nat) : Z :=
  nth (i mod 32) (chain H m (i / 32)) 0.
