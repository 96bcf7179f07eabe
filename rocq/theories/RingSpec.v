(** Specification: integer polynomials as coefficient lists (constant term first), product modulo x^n + 1. *)
From Coq Require Import ZArith List.
Import ListNotations.
Open Scope Z_scope.

Definition coef (a : list Z) (i : nat) : Z := nth i a 0.
Fixpoint sum_to (n : nat) (f : nat -> Z) : Z :=
  match n with O => 0 | S k => sum_to k f + f k end.
(** coefficient of x^k in the product of a and b *)
Definition pcoef (a b : list Z) (k : nat) : Z := sum_to (S k) (fun i => coef a i * coef b (k - i)).
(** a * b modulo x^n + 1, for a, b with at most n coefficients: x^(k+n) = - x^k *)
Definition negmul (n : nat) (a b : list Z) : list Z :=
  map (fun k => pcoef a b k - pcoef a b (k + n)) (seq 0 n).
Definition padd (n : nat) (a b : list Z) : list Z := map (fun k => coef a k + coef b k) (seq 0 n).
Definition psub (n : nat) (a b : list Z) : list Z := map (fun k => coef a k - coef b k) (seq 0 n).
(** the constant polynomial c *)
Definition pconst (n : nat) (c : Z) : list Z := c :: repeat 0 (n - 1).
(** congruence modulo m, coefficient by coefficient (m = 0: equality) *)
Definition pcong (n : nat) (m : Z) (a b : list Z) : Prop :=
  forall i, (i < n)%nat -> (m | coef a i - coef b i).
