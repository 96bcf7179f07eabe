(** The exact counterpart of the floating-point code: real numbers of the standard library, complex numbers as pairs, principal square roots. *)
From Coq Require Import Reals.
From Verif Require Import Base RingSpec FftModel.
Open Scope R_scope.

(** round to the nearest integer, ties to even (Python's round) *)
Definition rround (x : R) : Z :=
  let k := Int_part x in
  if Rlt_dec (x - IZR k) (1 / 2) then k else if Rlt_dec (1 / 2) (x - IZR k) then (k + 1)%Z else if Z.even k then k else (k + 1)%Z.
(** complex division *)
Definition rcdiv (x y : R * R) : R * R :=
  let d := fst y * fst y + snd y * snd y in
  ((fst x * fst y + snd x * snd y) / d, (snd x * fst y - fst x * snd y) / d).
Definition RN : num R := mk_num Rplus Rminus Rmult Ropp (fun x => x / 2) Rdiv sqrt IZR rcdiv rround Rmax.
Notation CR := (R * R)%type.

(** principal square root of a complex number of modulus 1; scripts/generate_constants.sage:7-15 builds the tables by taking sqrt(elt), -sqrt(elt) of
    each element of the previous one, starting from the roots i, -i of x^2 + 1 (that is, from the square root of -1) *)
Definition usqrt (z : CR) : CR := (sqrt ((1 + fst z) / 2), if Rle_dec 0 (snd z) then sqrt ((1 - fst z) / 2) else - sqrt ((1 - fst z) / 2)).
Definition ropp (z : CR) : CR := (- fst z, - snd z).
Fixpoint rts (k : nat) : list CR :=
  match k with O => [(-1, 0)] | S k' => flat_map (fun z => [usqrt z; ropp (usqrt z)]) (rts k') end.
(** roots_dict[2^k] *)
Definition xroots (n : nat) : list CR := rts (Nat.log2 n).

(** value of a polynomial with real coefficients at a complex number *)
Definition cmulx (x y : CR) : CR := (fst x * fst y - snd x * snd y, fst x * snd y + snd x * fst y).
Fixpoint ev (f : list R) (x : CR) : CR :=
  match f with [] => (0, 0) | a :: f' => let y := cmulx x (ev f' x) in (a + fst y, snd y) end.
(** product of polynomials with real coefficients modulo x^n + 1 *)
Definition rcoef (f : list R) (i : nat) : R := nth i f 0.
Fixpoint rsum (n : nat) (f : nat -> R) : R := match n with O => 0 | S k => rsum k f + f k end.
Definition rpcoef (a b : list R) (k : nat) : R := rsum (S k) (fun i => rcoef a i * rcoef b (k - i)).
Definition rnegmul (n : nat) (a b : list R) : list R := map (fun k => rpcoef a b k - rpcoef a b (k + n)) (seq 0 n).

(** sums over lists; squared norm *)
Fixpoint lsum {A} (F : A -> R) (l : list A) : R := match l with [] => 0 | x :: l' => F x + lsum F l' end.
Definition rsq (f : list R) : R := lsum (fun x => x * x) f.

(** the leaves of a tree *)
Fixpoint leaves (t : tree (T := R)) : list CR := match t with Leaf x => [x] | Node _ a b => leaves a ++ leaves b end.

(** a sampler which records its calls (centre, standard deviation, result), most recent first *)
Definition logged {St} (sam : R -> R -> St -> option (Z * St)) (mu sg : R) (s : St * list (R * R * Z)) : option (Z * (St * list (R * R * Z))) :=
  match sam mu sg (fst s) with None => None | Some (z, s') => Some (z, (s', (mu, sg, z) :: snd s)) end.
(** squared deviation of a call, in units of its standard deviation *)
Definition dev (c : R * R * Z) : R := let '(mu, sg, z) := c in ((IZR z - mu) / sg) * ((IZR z - mu) / sg).
