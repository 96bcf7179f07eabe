(** Model of the integer parts of the samplers: pythonref/samplerz.py, pythonref/mkgauss.py, and of key generation, pythonref/ntrugen.py:209-256.
    The randomness source is a stream of bytes [b] and a position: randombytes(k) gives b(pos), ..., b(pos+k-1).  Any run of any source that returns
    the number of bytes asked for is such a stream.  Floating point values enter only as arbitrary functions or integers. *)
From Verif Require Import Base HashModel NtruModel PolyModel.

Section Source.
Variable b : nat -> Z.
Definition draw (pos k : nat) : list Z := map b (seq pos k).
(** int.from_bytes(_, "little") *)
Fixpoint le_int (l : list Z) : Z := match l with [] => 0 | x :: l => x + 256 * le_int l end.

(** samplerz.py:22-40 *)
Definition RCDT : list Z := [
    3024686241123004913666; 1564742784480091954050; 636254429462080897535; 199560484645026482916; 47667343854657281903; 8595902006365044063;
    1163297957344668388; 117656387352093658; 8867391802663976; 496969357462633; 20680885154299; 638331848991; 14602316184; 247426747;
    3104126; 28824; 198; 1].
(** samplerz.py:65-76; RCDT_PREC >> 3 = 9 bytes *)
Definition basesampler (pos : nat) : Z * nat :=
  let u := le_int (draw pos 9) in
  (fold_left (fun z0 elt => z0 + (if u <? elt then 1 else 0)) RCDT 0, (pos + 9)%nat).

(** samplerz.py:48-61 *)
Definition expC : list Z := [
    0x00000004741183A3; 0x00000036548CFC06; 0x0000024FDCBF140A; 0x0000171D939DE045; 0x0000D00CF58F6F84; 0x000680681CF796E3;
    0x002D82D8305B0FEA; 0x011111110E066FD0; 0x0555555555070F00; 0x155555555581FF00; 0x400000000002B400; 0x7FFFFFFFFFFF4800; 0x8000000000000000].
(** samplerz.py:79-99, with zx = int(x * (1 << 63)) and zc = int(ccs * (1 << 63)); multiplying a float by 2^63 is exact *)
Definition approxexp (zx zc : Z) : Z :=
  let y := fold_left (fun y elt => elt - Z.shiftr (zx * y) 63) (tl expC) (hd 0 expC) in
  Z.shiftr (Z.shiftl zc 1 * y) 63.

(** samplerz.py:112-117, for the integer z of line 111; i = 56, 48, ..., 0 *)
Fixpoint berexp_loop (z : Z) (l : list Z) (pos : nat) : bool * nat :=
  match l with
  | [] => (false, pos)
  | i :: l' =>
    let p := le_int (draw pos 1) in
    let w := p - Z.land (Z.shiftr z i) 0xFF in
    if w =? 0 then match l' with [] => (false, S pos) | _ => berexp_loop z l' (S pos) end
    else (w <? 0, S pos)
  end.
Definition berexp_cmp (z : Z) (pos : nat) : bool * nat := berexp_loop z [56; 48; 40; 32; 24; 16; 8; 0] pos.
(** samplerz.py:108-111: s = min(int(x * ILN2), 63) and r = x - s' * LN2 are floats: here zr = int(r * 2^63) *)
Definition berexp_z (zr zc s : Z) : Z := Z.shiftr (approxexp zr zc - 1) s.

(** samplerz.py:137-153: fl = floor(mu); [thr z z0] is the integer z that berexp computes from the floats (line 151: depends on z, z0, mu, sigma, sigmin) *)
Fixpoint samplerz (fuel : nat) (fl : Z) (thr : Z -> Z -> Z) (pos : nat) : option (Z * nat) :=
  match fuel with
  | O => None
  | S fuel' =>
    let '(z0, pos) := basesampler pos in
    let bb := Z.land (le_int (draw pos 1)) 1 in
    let pos := (pos + 1)%nat in
    let z := bb + (2 * bb - 1) * z0 in
    let '(acc, pos) := berexp_cmp (thr z z0) pos in
    if acc then Some (z + fl, pos) else samplerz fuel' fl thr pos
  end.

(** ntrugen.py:209-226, gen_poly(n): 4096 samples, mu = 0; Poly(f, q).coeffs is f *)
Fixpoint samples (fuel k : nat) (thr : Z -> Z -> Z) (pos : nat) : option (list Z * nat) :=
  match k with
  | O => Some ([], pos)
  | S k' => match samplerz fuel 0 thr pos with
            | None => None
            | Some (z, pos) => match samples fuel k' thr pos with None => None | Some (l, pos) => Some (z :: l, pos) end
            end
  end.
Definition sum_list (l : list Z) : Z := fold_left Z.add l 0.
Definition gen_poly (fuel n : nat) (thr : Z -> Z -> Z) (pos : nat) : fres (list Z * nat) :=
  if (4096 <=? n)%nat then Fin (Raise AssertionError)
  else match samples fuel (64 * 64) thr pos with
       | None => NoFuel
       | Some (f0, pos) => let k := (64 * 64 / n)%nat in Fin (Ok (map (fun i => sum_list (map (fun j => nth (i * k + j) f0 0) (seq 0 k))) (seq 0 n), pos))
       end.

(** mkgauss.py:1-11 *)
Definition gauss_1024_12289 : list Z := [
    1283868770400643928; 6416574995475331444; 4078260278032692663; 2353523259288686585; 1227179971273316331;  575931623374121527;
     242543240509105209;   91437049221049666;   30799446349977173; 9255276791179340;    2478152334826140;     590642893610164;
        125206034929641;      23590435911403;       3948334035941; 586753615614;        77391054539;          9056793210;
              940121950;           86539696;             7062824; 510971;              32764;               1862; 94; 4; 0].
Definition gtab (k : nat) : Z := nth k gauss_1024_12289 0.
(** mkgauss.py:13-15 *)
Definition get_rng_u64 (pos : nat) : Z := le_int (draw pos 8).
(** mkgauss.py:21-37: one sample; Python integers are unbounded, >> is arithmetic; ~(1 << 63) = - 2^63 - 1 *)
Definition mkgauss1 (pos : nat) : Z :=
  let r := get_rng_u64 pos in
  let neg := Z.shiftr r 63 in
  let r := Z.land r (Z.lnot (Z.shiftl 1 63)) in
  let f := Z.land (Z.shiftr (r - gtab 0) 63) 1 in
  let r := get_rng_u64 (pos + 8) in
  let r := Z.land r (Z.lnot (Z.shiftl 1 63)) in
  let '(v, f) := fold_left (fun '(v, f) k =>
      let t := Z.lxor (Z.land (Z.shiftr (r - gtab k) 63) 1) 1 in
      (Z.lor v (Z.land (Z.of_nat k) (- (Z.land t (Z.lxor f 1)))), Z.lor f t)) (seq 1 26) (0, f) in
  let v := Z.lxor v (Z.land (- neg) 0xFFFFFFFF) + neg in
  let v := Z.land v 0xFFFFFFFF in
  if 0x80000000 <=? v then v - 0x100000000 else v.
(** mkgauss.py:17-39, logn <= 10 *)
Definition mkgauss (logn pos : nat) : Z * nat :=
  let g := (2 ^ (10 - logn))%nat in
  (fold_left (fun val i => val + mkgauss1 (pos + 16 * i)) (seq 0 g) 0, (pos + 16 * g)%nat).
(** mkgauss.py:44-55: draw until accepted; [last]: u == n - 1 *)
Fixpoint small_coef (fuel logn : nat) (last : bool) (mod2 : Z) (pos : nat) : option (Z * Z * nat) :=
  match fuel with
  | O => None
  | S fuel' =>
    let '(s, pos) := mkgauss logn pos in
    if (s <? -127) || (127 <? s) then small_coef fuel' logn last mod2 pos
    else if last then if Z.lxor mod2 (Z.land s 1) =? 0 then small_coef fuel' logn last mod2 pos else Some (s, mod2, pos)
    else Some (s, Z.lxor mod2 (Z.land s 1), pos)
  end.
(** mkgauss.py:41-57; [fuel] bounds the number of draws of each coefficient *)
Fixpoint small_coefs (fuel logn n u : nat) (k : nat) (mod2 : Z) (pos : nat) : option (list Z * nat) :=
  match k with
  | O => Some ([], pos)
  | S k' => match small_coef fuel logn (u =? n - 1)%nat mod2 pos with
            | None => None
            | Some (s, mod2, pos) => match small_coefs fuel logn n (S u) k' mod2 pos with None => None | Some (l, pos) => Some (s :: l, pos) end
            end
  end.
Definition poly_small_mkgauss (fuel n logn pos : nat) : option (list Z * nat) := small_coefs fuel logn n 0 n 0 pos.

(** ntrugen.py:228-256 with ntt = NTTIterative.  [gs_ok t f g]: the floating point test gs_norm(f, g, q) <= 1.17^2 q passes on iteration t;
    [quotient]: as in NtruModel; [thr]: as in samplerz with mu = 0, sigma = 1.4330...; [fuel] bounds the iterations and each inner loop. *)
Section Gen.
Variable gs_ok : nat -> list Z -> list Z -> bool.
Variable quotient : nat -> nat -> list Z -> list Z -> list Z -> list Z -> res (list Z).
Variable thr : Z -> Z -> Z.
(** lines 234-239 *)
Definition gen_one (fuel n : nat) (logn : option nat) (pos : nat) : fres (list Z * nat) :=
  match logn with
  | Some lg => match poly_small_mkgauss fuel n lg pos with None => NoFuel | Some r => Fin (Ok r) end
  | None => gen_poly fuel n thr pos
  end.
Fixpoint ntru_gen (fuel inner n : nat) (logn : option nat) (pos : nat) : fres (list Z * list Z * list Z * list Z) :=
  match fuel with
  | O => NoFuel
  | S fuel' =>
    match gen_one inner n logn pos with
    | NoFuel => NoFuel
    | Fin (Raise e) => Fin (Raise e)
    | Fin (Ok (f, pos)) =>
      match gen_one inner n logn pos with
      | NoFuel => NoFuel
      | Fin (Raise e) => Fin (Raise e)
      | Fin (Ok (g, pos)) =>
        if negb (gs_ok fuel f g) then ntru_gen fuel' inner n logn pos
        else if existsb (fun elem => elem =? 0) (ntt f) then ntru_gen fuel' inner n logn pos
        else match ntru_solve (quotient fuel) 12 inner f g with
             | Fin (Ok (F, G)) => Fin (Ok (f, g, F, G))
             | Fin (Raise ValueError) => ntru_gen fuel' inner n logn pos
             | Fin (Raise e) => Fin (Raise e)
             | NoFuel => NoFuel
             end
      end
    end
  end.
End Gen.
End Source.

(** * common.py:8-36 *)
Section SplitMerge.
Context {A : Type}.
Variable d : A.
Definition split (f : list A) : list A * list A :=
  let n := length f in
  (map (fun i => nth (2 * i) f d) (seq 0 (n / 2)), map (fun i => nth (2 * i + 1) f d) (seq 0 (n / 2))).
(** f = [0] * n, then f[2i] = f0[i], f[2i+1] = f1[i] for every i: IndexError if f1 is shorter *)
Definition merge (f0 f1 : list A) : res (list A) :=
  if (length f1 <? length f0)%nat then Raise IndexError
  else Ok (map (fun i => nth (i / 2) (if Nat.even i then f0 else f1) d) (seq 0 (2 * length f0))).
End SplitMerge.
