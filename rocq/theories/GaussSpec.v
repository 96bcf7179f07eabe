(** Discrete Gaussian weights and sums, and counting: independent of the code. *)
From Coq Require Import Reals ZArith List.
Open Scope R_scope.
(** the weight exp(-k^2 / (2 sigma^2)) of the integers k and -k *)
Definition gweight (sigma : R) (k : nat) : R := exp (- (INR k ^ 2 / (2 * sigma ^ 2))).
(** T is the sum of the weights of m, m + 1, m + 2, ... *)
Definition gsum (sigma : R) (m : nat) (T : R) : Prop := infinite_sum (fun j => gweight sigma (m + j)) T.

(** the weight of the integer z for the discrete Gaussian of centre mu and deviation sigma *)
Definition dgauss (sigma mu : R) (z : Z) : R := exp (- ((IZR z - mu) ^ 2 / (2 * sigma ^ 2))).
(** finite sums *)
Definition sum_over (l : list Z) (f : Z -> R) : R := fold_right (fun z s => f z + s) 0 l.
(** G is the sum of the nonnegative function f over all integers: the least upper bound of its sums over lists of different integers *)
Definition zsum (f : Z -> R) (G : R) : Prop := is_lub (fun s => exists l, NoDup l /\ s = sum_over l f) G.
(** exactly n objects have the property P *)
Definition has_count {A} (P : A -> Prop) (n : Z) : Prop := exists L, NoDup L /\ (forall x, In x L <-> P x) /\ Z.of_nat (length L) = n.
