(** Model of the polynomial arithmetic modulo (q, x^n + 1) of the Python package polyntt used by /repo/pythonref (falcon.py:16-17 and
    others import polyntt.poly.Poly and polyntt.ntt_iterative.NTTIterative). The package is not in the repository: its transform is taken
    to be the one of eprint 2016/504 which the contracts implement (src/ZKNOX_NTT.sol:187 "following eprint 2016/504 Algorithm 1"; the
    on-chain tests compare against it), extended to n = 1024. Poly(c, q) keeps the coefficients c as given; operators return residues. *)
From Verif Require Import Base HashModel KeccakModel NtruModel NttTables NttTables1024 NttModel.

Definition psip_table : list Z := psi_rev_table ++ psi_upper.
Definition psiip_table : list Z := psi_inv_rev_table ++ psi_inv_upper.
Definition psip (i : nat) : Z := nth i psip_table 0.
Definition psiip (i : nat) : Z := nth i psiip_table 0.

(** polyntt.utils.inv_mod: modular inverse *)
Definition inv_q (x : Z) : Z := let '(_, u, _) := xgcd (x mod q) q in u mod q.

(** NTTIterative(q).ntt / .intt / .vec_mul *)
Definition ntt (a : list Z) : list Z := nttfw q psip (length a) a.
Definition intt (a : list Z) : list Z := nttinv q psiip (inv_q (Z.of_nat (length a))) (length a) a.
Definition vec_mul (a b : list Z) : list Z := vecmul q (length a) a b.
(** Poly.__mul__, __sub__, __truediv__, inverse *)
Definition poly_mul (a b : list Z) : list Z := intt (vec_mul (ntt a) (ntt b)).
Definition poly_sub (a b : list Z) : list Z := map (fun i => (nth i a 0 - nth i b 0) mod q) (seq 0 (length a)).
Definition invertible (f : list Z) : bool := forallb (fun x => negb (x mod q =? 0)) (ntt f).
Definition poly_div (a b : list Z) : res (list Z) :=
  if invertible b then Ok (intt (vec_mul (ntt a) (map inv_q (ntt b)))) else Raise ZeroDivisionError.
Definition poly_inverse (b : list Z) : res (list Z) :=
  if invertible b then Ok (intt (map inv_q (ntt b))) else Raise ZeroDivisionError.
