(** IEEE-754 binary64, independently of the code: a number is 64 bits, 1 sign, 11 exponent, 52 mantissa bits. *)
From Coq Require Import ZArith Reals Lra.
Open Scope Z_scope.

Definition fsign (x : Z) : Z := x / 2 ^ 63.
Definition fexp (x : Z) : Z := (x / 2 ^ 52) mod 2 ^ 11.
Definition fmant (x : Z) : Z := x mod 2 ^ 52.

(** the finite numbers *)
Definition double (x : Z) : Prop := 0 <= x < 2 ^ 64 /\ fexp x <= 2046.
(** those that the C code works with: zeros and normal numbers *)
Definition normal (x : Z) : Prop := double x /\ 1 <= fexp x.
Definition usable (x : Z) : Prop := normal x \/ x = 0 \/ x = 2 ^ 63.

Definition sgn (s : Z) : R := if s =? 1 then (-1)%R else 1%R.
(** the real number that 64 bits stand for *)
Definition val (x : Z) : R :=
  if fexp x =? 0 then (sgn (fsign x) * IZR (fmant x) * powerRZ 2 (-1074))%R
  else (sgn (fsign x) * IZR (2 ^ 52 + fmant x) * powerRZ 2 (fexp x - 1075))%R.

(** x is the number nearest to r; when two are equally near, x is the one with an even mantissa *)
Definition nearest (r : R) (x : Z) : Prop :=
  double x /\
  (forall y, double y -> (Rabs (val x - r) <= Rabs (val y - r))%R) /\
  (forall y, double y -> val y <> val x -> Rabs (val y - r) = Rabs (val x - r) -> Z.even (fmant x) = true).

Definition smallest_normal : R := powerRZ 2 (-1022).
Definition largest : R := (IZR (2 ^ 53 - 1) * powerRZ 2 971)%R.

(** correct rounding, with results too small for a normal number replaced by zero; nothing is said above the largest number *)
Definition rounded (r : R) (x : Z) : Prop :=
  (Rabs r <= largest)%R ->
  usable x /\ ((smallest_normal <= Rabs r)%R -> nearest r x) /\ ((Rabs r < smallest_normal)%R -> val x = 0%R).

(** the sign bit r of a sum of x and y whose exact value is e: the sign of e; an exact zero is +0 unless both operands are negative *)
Definition sum_sign (x y r : Z) (e : R) : Prop :=
  ((0 < e)%R -> fsign r = 0) /\ ((e < 0)%R -> fsign r = 1) /\ (e = 0%R -> fsign r = Z.land (fsign x) (fsign y)).
