(** Specification of the Falcon compressed signature format, independent of the code. *)
From Verif Require Import Base.

(** [encodes c w]: the bit string [w] is a valid encoding of the integer [c]: a sign bit, the
    seven low bits of |c|, the quotient |c|/128 as that many zero bits, a closing one bit.
    Zero has a single encoding (minus zero is not valid). *)
Definition encodes (c : Z) (w : list bool) : Prop :=
  exists (sign : bool) (low : list bool) (high : nat),
    length low = 7%nat /\
    w = sign :: low ++ repeat false high ++ [true] /\
    c = (if sign then -1 else 1) * (of_bits low + 128 * Z.of_nat high) /\
    ~ (sign = true /\ c = 0).

(** [encodes_all v w]: [w] is the concatenation of valid encodings of the elements of [v]. *)
Inductive encodes_all : list Z -> list bool -> Prop :=
| enc_nil : encodes_all [] []
| enc_cons c v w1 w2 : encodes c w1 -> encodes_all v w2 -> encodes_all (c :: v) (w1 ++ w2).

(** Number of bits needed by the compressed format. *)
Definition coef_cost (c : Z) : Z := 9 + Z.abs c / 128.
Definition total_cost (v : list Z) : Z := fold_right (fun c s => coef_cost c + s) 0 v.
