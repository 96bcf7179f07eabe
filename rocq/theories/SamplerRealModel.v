(** The floating point parts of pythonref/samplerz.py in exact real arithmetic (simplification: no rounding of floats; the constants are the decimal
    numbers written in the file).  The integer parts are SamplerModel's. *)
From Coq Require Import Reals ZArith.
From Verif Require Import Base SamplerModel.
Open Scope R_scope.

(** samplerz.py:10-11, 16-17 *)
Definition MAX_SIGMA : R := 18205 / 10000.
Definition INV_2SIGMA2 : R := 1 / (2 * MAX_SIGMA ^ 2).
Definition LN2 : R := 69314718056 / 100000000000.
Definition ILN2 : R := 144269504089 / 100000000000.
(** Python's int() of a float: truncation towards zero *)
Definition Rtrunc (x : R) : Z := if Rle_dec 0 x then Int_part x else (- Int_part (- x))%Z.
(** samplerz.py:79-99, approxexp(x, ccs) *)
Definition approxexp_real (x ccs : R) : Z := approxexp (Rtrunc (x * 2 ^ 63)) (Rtrunc (ccs * 2 ^ 63)).
(** samplerz.py:108-111: the integer z of berexp(x, ccs); the loop over the bytes is berexp_cmp *)
Definition berexp_threshold (x ccs : R) : Z :=
  let s := Rtrunc (x * ILN2) in
  let r := x - IZR s * LN2 in
  let s := Z.min s 63 in
  Z.shiftr (approxexp_real r ccs - 1) s.
(** samplerz.py:137-153 *)
Definition samplerz_real (b : nat -> Z) (fuel : nat) (mu sigma sigmin : R) (pos : nat) : option (Z * nat) :=
  let s := Int_part mu in
  let r := mu - IZR s in
  let dss := 1 / (2 * sigma * sigma) in
  let ccs := sigmin / sigma in
  samplerz b fuel s (fun z z0 => berexp_threshold ((IZR z - r) ^ 2 * dss - IZR z0 ^ 2 * INV_2SIGMA2) ccs) pos.
