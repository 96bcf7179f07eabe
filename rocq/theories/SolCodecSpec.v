(** Specification of the signature format as accepted on chain, independent of the code. *)
From Verif Require Import Base.

(** [sol_encodes x w]: the bit string [w] (sign, seven low bits, unary quotient closed by a one) stands for the word [x]:
    the magnitude m is at most 2047 and x is m or 12289 - m.  Unlike [encodes] of EncodingSpec a negative zero is valid
    and stands for the word 12289. *)
Definition sol_encodes (x : Z) (w : list bool) : Prop :=
  exists (sign : bool) (low : list bool) (high : nat),
    length low = 7%nat /\
    w = sign :: low ++ repeat false high ++ [true] /\
    of_bits low + 128 * Z.of_nat high <= 2047 /\
    x = (if sign then 12289 - (of_bits low + 128 * Z.of_nat high) else of_bits low + 128 * Z.of_nat high).

Inductive sol_encodes_all : list Z -> list bool -> Prop :=
| senc_nil : sol_encodes_all [] []
| senc_cons x xs w1 w2 : sol_encodes x w1 -> sol_encodes_all xs w2 -> sol_encodes_all (x :: xs) (w1 ++ w2).

(** [k] bytes of memory from position [o]: bytes of the buffer, then whatever follows it. *)
Definition memory (buf : list Z) (tail : nat -> Z) (o k : nat) : list Z :=
  map (fun i => nth i buf (tail i)) (seq o k).
