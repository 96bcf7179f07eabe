(** Model of /repo/pythonref/ntrugen.py (integer parts).  Floating-point computations are replaced by
    an oracle: any integers the rounding may produce (or an exception). *)
From Verif Require Import Base KeccakModel HashModel.

(** l[i] += v *)
Definition add_at (l : list Z) (i : nat) (v : Z) : list Z := upd l i (nth i l 0 + v).
(** [f(i) for i in range(n)] *)
Definition tab (n : nat) (f : nat -> Z) : list Z := map f (seq 0 n).

(** ntrugen.py:15-40; [fuel] bounds the recursion depth (n suffices) *)
Fixpoint karatsuba (fuel : nat) (a b : list Z) (n : nat) : list Z :=
  if (n =? 1)%nat then [nth 0 a 0 * nth 0 b 0; 0]
  else match fuel with
  | O => []                                                 (* unreachable for n = 2^k *)
  | S fuel' =>
    let n2 := (n / 2)%nat in
    let a0 := firstn n2 a in let a1 := skipn n2 a in
    let b0 := firstn n2 b in let b1 := skipn n2 b in
    let ax := tab n2 (fun i => nth i a0 0 + nth i a1 0) in
    let bx := tab n2 (fun i => nth i b0 0 + nth i b1 0) in
    let a0b0 := karatsuba fuel' a0 b0 n2 in
    let a1b1 := karatsuba fuel' a1 b1 n2 in
    let axbx := karatsuba fuel' ax bx n2 in
    let axbx := fold_left (fun l i => add_at l i (- (nth i a0b0 0 + nth i a1b1 0))) (seq 0 n) axbx in
    fold_left (fun ab i =>
      add_at (add_at (add_at ab i (nth i a0b0 0)) (i + n) (nth i a1b1 0)) (i + n2) (nth i axbx 0))
      (seq 0 n) (repeat 0 (2 * n))
  end.
(** ntrugen.py:43-50 *)
Definition karamul (a b : list Z) : list Z :=
  let n := length a in
  let ab := karatsuba n a b n in
  tab n (fun i => nth i ab 0 - nth (i + n) ab 0).
(** ntrugen.py:53-59 *)
Definition galois_conjugate (a : list Z) : list Z :=
  tab (length a) (fun i => (-1) ^ Z.of_nat i * nth i a 0).
(** ntrugen.py:62-76 *)
Definition field_norm (a : list Z) : list Z :=
  let n2 := (length a / 2)%nat in
  let ae := tab n2 (fun i => nth (2 * i) a 0) in
  let ao := tab n2 (fun i => nth (2 * i + 1) a 0) in
  let ae_squared := karamul ae ae in
  let ao_squared := karamul ao ao in
  let res := fold_left (fun l i => add_at l (i + 1) (- nth i ao_squared 0)) (seq 0 (n2 - 1)) ae_squared in
  add_at res 0 (nth (n2 - 1) ao_squared 0).
(** ntrugen.py:79-88 *)
Definition lift (a : list Z) : list Z :=
  let n := length a in
  fold_left (fun l i => upd l (2 * i) (nth i a 0)) (seq 0 n) (repeat 0 (2 * n)).
(** ntrugen.py:91-102; [fuel]: one unit per loop iteration *)
Fixpoint bitsize_loop (fuel : nat) (val res : Z) : Z :=
  if val =? 0 then res
  else match fuel with
  | O => res                                                (* unreachable *)
  | S fuel' => bitsize_loop fuel' (Z.shiftr val 8) (res + 8)
  end.
Definition bitsize (a : Z) : Z := bitsize_loop (S (Z.to_nat (Z.log2 (Z.abs a)))) (Z.abs a) 0.

(** min(l), max(l) of a non-empty list *)
Definition lmin (l : list Z) : Z := match l with [] => 0 | x :: r => fold_left Z.min r x end.
Definition lmax (l : list Z) : Z := match l with [] => 0 | x :: r => fold_left Z.max r x end.
Definition max_size (f g : list Z) : Z :=
  Z.max 53 (Z.max (bitsize (lmin f)) (Z.max (bitsize (lmax f)) (Z.max (bitsize (lmin g)) (bitsize (lmax g))))).
Definition adjust (size : Z) (f : list Z) : list Z := map (fun x => Z.shiftr x (size - 53)) f.

Section Oracle.
(** ntrugen.py:119-141: the rounded quotient computed in floating point from the four adjusted
    polynomials; the call index is the number of iterations left, so that nothing is assumed about it.
    [Raise]: e.g. division by zero, or int(round(nan)). *)
Variable quotient : nat -> list Z -> list Z -> list Z -> list Z -> res (list Z).

(** ntrugen.py:122-155 *)
Fixpoint reduce_loop (fuel : nat) (size : Z) (f g F G : list Z) : fres (list Z * list Z) :=
  let Size := max_size F G in
  if Size <? size then Fin (Ok (F, G))
  else match fuel with
  | O => NoFuel
  | S fuel' =>
    match quotient fuel (adjust size f) (adjust size g) (adjust Size F) (adjust Size G) with
    | Raise e => Fin (Raise e)
    | Ok k =>
      if forallb (fun x => x =? 0) k then Fin (Ok (F, G))
      else
        let fk := karamul f k in
        let gk := karamul g k in
        let F := fold_left (fun l i => add_at l i (- Z.shiftl (nth i fk 0) (Size - size))) (seq 0 (length f)) F in
        let G := fold_left (fun l i => add_at l i (- Z.shiftl (nth i gk 0) (Size - size))) (seq 0 (length f)) G in
        reduce_loop fuel' size f g F G
    end
  end.
(** ntrugen.py:105-155 *)
Definition reduce (fuel : nat) (f g F G : list Z) : fres (list Z * list Z) :=
  reduce_loop fuel (max_size f g) f g F G.

(** ntrugen.py:158-168 *)
Fixpoint xgcd_loop (fuel : nat) (b n x0 x1 y0 y1 : Z) : Z * Z * Z :=
  if n =? 0 then (b, x0, y0)
  else match fuel with
  | O => (b, x0, y0)                                        (* unreachable: C41 *)
  | S fuel' =>
    let q := b / n in
    xgcd_loop fuel' n (b mod n) x1 (x0 - q * x1) y1 (y0 - q * y1)
  end.
Definition xgcd (b n : Z) : Z * Z * Z := xgcd_loop (Z.to_nat (2 * Z.log2 (Z.abs n)) + 3) b n 1 0 0 1.

(** ntrugen.py:171-192; [depth] bounds the recursion (log2 n suffices), [fuel] each reduction *)
Fixpoint ntru_solve (depth fuel : nat) (f g : list Z) : fres (list Z * list Z) :=
  let n := length f in
  if (n =? 1)%nat then
    let '(d, u, v) := xgcd (nth 0 f 0) (nth 0 g 0) in
    if negb (d =? 1) then Fin (Raise ValueError)
    else Fin (Ok ([- q * v], [q * u]))
  else match depth with
  | O => NoFuel
  | S depth' =>
    match ntru_solve depth' fuel (field_norm f) (field_norm g) with
    | Fin (Ok (Fp, Gp)) =>
      let F := karamul (lift Fp) (galois_conjugate g) in
      let G := karamul (lift Gp) (galois_conjugate f) in
      reduce fuel f g F G
    | r => r
    end
  end.
End Oracle.
