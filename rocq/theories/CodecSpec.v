(** Specification of fixed-width bit packing, independent of the code. *)
From Verif Require Import Base.

(** [data] is the big-endian packing of the non-negative [fields], [width] bits each, padded
    with fewer than 8 zero bits to a whole number of bytes. *)
Definition packs (width : nat) (fields : list Z) (data : list Z) : Prop :=
  bytes data /\
  exists pad, (pad < 8)%nat /\ bytes_bits data = flat_map (zbits width) fields ++ repeat false pad.

(** Range of a public-key coefficient; the modulus is 12289. *)
Definition in_zq (c : Z) : Prop := 0 <= c < 12289.

(** Range of a secret coefficient coded on [bits] bits: the most negative value is excluded. *)
Definition in_trim (bits : nat) (c : Z) : Prop :=
  - (2 ^ (Z.of_nat bits - 1) - 1) <= c <= 2 ^ (Z.of_nat bits - 1) - 1.

(** ceil(k / 8) *)
Definition ceil8 (k : nat) : nat := ((k + 7) / 8)%nat.
