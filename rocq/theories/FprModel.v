(** Model of the floating-point numbers of the C implementation, falcon/nistfalcon/src/fpr.h and fpr.c: binary64 emulated with
    64-bit unsigned integers.  An fpr is a uint64_t, here a Z in [0, 2^64).  Every cast and every operation on uint64_t/uint32_t is reduced
    explicitly; values of type int (exponents, shift counts) stay far below 2^31 and are plain Z, for which Z.land with a negative
    number is the two's complement "and" of C. *)
From Verif Require Import Base.

Definition w64 (x : Z) : Z := x mod 2 ^ 64.
Definition w32 (x : Z) : Z := x mod 2 ^ 32.
(** int64_t from the same 64 bits *)
Definition s64 (x : Z) : Z := (x + 2 ^ 63) mod 2 ^ 64 - 2 ^ 63.

(** fpr.h:126-131 *)
Definition fpr_ursh (x n : Z) : Z :=
  let x := Z.lxor x (Z.land (Z.lxor x (Z.shiftr x 32)) (w64 (- Z.shiftr n 5))) in
  Z.shiftr x (Z.land n 31).
(** fpr.h:139-144; on int64_t, >> of a negative value is arithmetic *)
Definition fpr_irsh (x n : Z) : Z :=
  let x := Z.lxor x (Z.land (Z.lxor x (Z.shiftr x 32)) (- Z.shiftr n 5)) in
  Z.shiftr x (Z.land n 31).
(** fpr.h:152-157 *)
Definition fpr_ulsh (x n : Z) : Z :=
  let x := Z.lxor x (Z.land (Z.lxor x (w64 (Z.shiftl x 32))) (w64 (- Z.shiftr n 5))) in
  w64 (Z.shiftl x (Z.land n 31)).

(** fpr.h:174-216 *)
Definition FPR (s e m : Z) : Z :=
  let e := e + 1076 in
  let t := Z.shiftr (w32 e) 31 in
  let m := Z.land m (w64 (t - 1)) in
  let t := w32 (Z.shiftr m 54) in
  let e := Z.land e (- t) in
  let x := w64 (Z.lor (w64 (Z.shiftl s 63)) (Z.shiftr m 2) + w64 (Z.shiftl (w32 e) 52)) in
  let f := Z.land (w32 m) 7 in
  w64 (x + Z.land (Z.shiftr 0xC8 f) 1).

(** fpr.c:45-78, one of the first five steps of FPR_NORM64: nt = (m >> (64 - k)) is non-zero ? keep : shift left by k *)
Definition norm_step (k : Z) (me : Z * Z) : Z * Z :=
  let (m, e) := me in
  let nt := w32 (Z.shiftr m (64 - k)) in
  let nt := Z.shiftr (Z.lor nt (w32 (- nt))) 31 in
  (Z.lxor m (Z.land (Z.lxor m (w64 (Z.shiftl m k))) (w64 (nt - 1))), e + nt * k).
(** fpr.c:75-77, the last step: nt = m >> 63 is already a bit *)
Definition norm_last (me : Z * Z) : Z * Z :=
  let (m, e) := me in
  let nt := w32 (Z.shiftr m 63) in
  (Z.lxor m (Z.land (Z.lxor m (w64 (Z.shiftl m 1))) (w64 (nt - 1))), e + nt).
(** fpr.c:45-78 *)
Definition FPR_NORM64 (m e : Z) : Z * Z :=
  norm_last (norm_step 2 (norm_step 4 (norm_step 8 (norm_step 16 (norm_step 32 (m, e - 63)))))).

(** fpr.c:81-135; i is an int64_t *)
Definition fpr_scaled (i sc : Z) : Z :=
  let s := Z.shiftr (w64 i) 63 in
  let i := s64 (Z.lxor i (- s) + s) in
  let m := w64 i in
  let e := 9 + sc in
  let (m, e) := FPR_NORM64 m e in
  let m := Z.lor m (w32 (Z.land (w32 m) 0x1FF + 0x1FF)) in
  let m := Z.shiftr m 9 in
  let t := w32 (Z.shiftr (w64 (Z.lor i (- i))) 63) in
  let m := Z.land m (w64 (- t)) in
  let e := Z.land e (- t) in
  FPR s e m.
(** fpr.h:221-225 *)
Definition fpr_of (i : Z) : Z := fpr_scaled i 0.

(** fpr.c:158-164: the conditional swap of the operands of fpr_add *)
Definition add_swap (x y : Z) : Z * Z :=
  let m := 2 ^ 63 - 1 in
  let za := w64 (Z.land x m - Z.land y m) in
  let cs := Z.lor (w32 (Z.shiftr za 63)) (Z.land (w32 (1 - w32 (Z.shiftr (w64 (- za)) 63))) (w32 (Z.shiftr x 63))) in
  let m := Z.land (Z.lxor x y) (w64 (- cs)) in
  (Z.lxor x m, Z.lxor y m).
(** fpr.c:172-183: sign, exponent and mantissa of an operand *)
Definition add_unpack (x : Z) : Z * Z * Z :=
  let ex := Z.shiftr x 52 in
  let sx := Z.shiftr ex 11 in
  let ex := Z.land ex 0x7FF in
  let m := w64 (Z.shiftl (w32 (Z.shiftr (ex + 0x7FF) 11)) 52) in
  let xu := w64 (Z.shiftl (Z.lor (Z.land x (2 ^ 52 - 1)) m) 3) in
  (sx, ex - 1078, xu).
(** fpr.c:139-245 *)
Definition fpr_add (x y : Z) : Z :=
  let (x, y) := add_swap x y in
  let '(sx, ex, xu) := add_unpack x in
  let '(sy, ey, yu) := add_unpack y in
  let cc := ex - ey in
  let yu := Z.land yu (w64 (- Z.shiftr (w32 (cc - 60)) 31)) in
  let cc := Z.land cc 63 in
  let m := w64 (fpr_ulsh 1 cc - 1) in
  let yu := Z.lor yu (w64 (Z.land yu m + m)) in
  let yu := fpr_ursh yu cc in
  let xu := w64 (xu + (yu - Z.land (w64 (Z.shiftl yu 1)) (w64 (- Z.lxor sx sy)))) in
  let (xu, ex) := FPR_NORM64 xu ex in
  let xu := Z.lor xu (w32 (Z.land (w32 xu) 0x1FF + 0x1FF)) in
  let xu := Z.shiftr xu 9 in
  let ex := ex + 9 in
  FPR sx ex xu.
(** fpr.h:399-404 *)
Definition fpr_sub (x y : Z) : Z := fpr_add x (Z.lxor y (2 ^ 63)).
(** fpr.h:406-411 *)
Definition fpr_neg (x : Z) : Z := Z.lxor x (2 ^ 63).
(** fpr.h:413-426 *)
Definition fpr_half (x : Z) : Z :=
  let x := w64 (x - 2 ^ 52) in
  let t := Z.shiftr (Z.land (w32 (Z.shiftr x 52)) 0x7FF + 1) 11 in
  Z.land x (w64 (t - 1)).
(** fpr.h:428-438 *)
Definition fpr_double (x : Z) : Z :=
  w64 (x + w64 (Z.shiftl (Z.shiftr (Z.land (w32 (Z.shiftr x 52)) 0x7FF + 0x7FF) 11) 52)).

(** fpr.c:263-296: the product of two mantissas, by 25-bit limbs; z0, z1, z2 are uint32_t *)
Definition mul_mantissa (xu yu : Z) : Z :=
  let x0 := Z.land (w32 xu) 0x01FFFFFF in
  let x1 := w32 (Z.shiftr xu 25) in
  let y0 := Z.land (w32 yu) 0x01FFFFFF in
  let y1 := w32 (Z.shiftr yu 25) in
  let w := w64 (x0 * y0) in
  let z0 := Z.land (w32 w) 0x01FFFFFF in
  let z1 := w32 (Z.shiftr w 25) in
  let w := w64 (x0 * y1) in
  let z1 := w32 (z1 + Z.land (w32 w) 0x01FFFFFF) in
  let z2 := w32 (Z.shiftr w 25) in
  let w := w64 (x1 * y0) in
  let z1 := w32 (z1 + Z.land (w32 w) 0x01FFFFFF) in
  let z2 := w32 (z2 + w32 (Z.shiftr w 25)) in
  let zu := w64 (x1 * y1) in
  let z2 := w32 (z2 + Z.shiftr z1 25) in
  let z1 := Z.land z1 0x01FFFFFF in
  let zu := w64 (zu + z2) in
  Z.lor zu (Z.shiftr (w32 (Z.lor z0 z1 + 0x01FFFFFF)) 25).
(** fpr.c:260-261, 356-357, 448 *)
Definition mantissa (x : Z) : Z := Z.lor (Z.land x (2 ^ 52 - 1)) (2 ^ 52).
(** fpr.c:303-305, 392-394: conditional right shift with a sticky low bit; answers the new value and w *)
Definition norm_one (z : Z) : Z * Z :=
  let zv := Z.lor (Z.shiftr z 1) (Z.land z 1) in
  let w := Z.shiftr z 55 in
  (Z.lxor z (Z.land (Z.lxor z zv) (w64 (- w))), w).
(** fpr.c:249-343 *)
Definition fpr_mul (x y : Z) : Z :=
  let zu := mul_mantissa (mantissa x) (mantissa y) in
  let (zu, w) := norm_one zu in
  let ex := Z.land (Z.shiftr x 52) 0x7FF in
  let ey := Z.land (Z.shiftr y 52) 0x7FF in
  let e := ex + ey - 2100 + w in
  let s := Z.shiftr (Z.lxor x y) 63 in
  let d := Z.shiftr (Z.land (ex + 0x7FF) (ey + 0x7FF)) 11 in
  let zu := Z.land zu (w64 (- d)) in
  FPR s e zu.
(** fpr.h:443-447 *)
Definition fpr_sqr (x : Z) : Z := fpr_mul x x.

(** fpr.c:363-376: one step of the bit by bit division *)
Definition div_step (yu : Z) (st : Z * Z) : Z * Z :=
  let (xu, q) := st in
  let b := w64 (Z.shiftr (w64 (xu - yu)) 63 - 1) in
  let xu := w64 (xu - Z.land b yu) in
  let q := Z.lor q (Z.land b 1) in
  (w64 (Z.shiftl xu 1), w64 (Z.shiftl q 1)).
(** fpr.c:347-432 *)
Definition fpr_div (x y : Z) : Z :=
  let xu := mantissa x in
  let yu := mantissa y in
  let (xu, q) := Nat.iter 55 (div_step yu) (xu, 0) in
  let q := Z.lor q (Z.shiftr (Z.lor xu (w64 (- xu))) 63) in
  let (q, w) := norm_one q in
  let ex := Z.land (Z.shiftr x 52) 0x7FF in
  let ey := Z.land (Z.shiftr y 52) 0x7FF in
  let e := ex - ey - 55 + w in
  let s := Z.shiftr (Z.lxor x y) 63 in
  let d := Z.shiftr (ex + 0x7FF) 11 in
  let s := Z.land s d in
  let e := Z.land e (- d) in
  let q := Z.land q (w64 (- d)) in
  FPR s e q.
(** fpr.h:452-456 *)
Definition fpr_inv (x : Z) : Z := fpr_div 4607182418800017408 x.

(** fpr.c:474-484: one step of the bit by bit square root *)
Definition sqrt_step (st : Z * Z * Z * Z) : Z * Z * Z * Z :=
  let '(xu, q, s, r) := st in
  let t := w64 (s + r) in
  let b := w64 (Z.shiftr (w64 (xu - t)) 63 - 1) in
  let s := w64 (s + Z.land (w64 (Z.shiftl r 1)) b) in
  let xu := w64 (xu - Z.land t b) in
  let q := w64 (q + Z.land r b) in
  (w64 (Z.shiftl xu 1), q, s, Z.shiftr r 1).
(** fpr.c:436-511 *)
Definition fpr_sqrt (x : Z) : Z :=
  let xu := mantissa x in
  let ex := Z.land (Z.shiftr x 52) 0x7FF in
  let e := ex - 1023 in
  let xu := w64 (xu + Z.land xu (w64 (- Z.land e 1))) in
  let e := Z.shiftr e 1 in
  let xu := w64 (Z.shiftl xu 1) in
  let '(xu, q, _, _) := Nat.iter 54 sqrt_step (xu, 0, 0, Z.shiftl 1 53) in
  let q := w64 (Z.shiftl q 1) in
  let q := Z.lor q (Z.shiftr (Z.lor xu (w64 (- xu))) 63) in
  let e := e - 54 in
  let q := Z.land q (w64 (- Z.shiftr (ex + 0x7FF) 11)) in
  FPR 0 e q.

(** fpr.h:272-319 *)
Definition fpr_rint (x : Z) : Z :=
  let m := Z.land (Z.lor (w64 (Z.shiftl x 10)) (2 ^ 62)) (2 ^ 63 - 1) in
  let e := 1085 - Z.land (Z.shiftr x 52) 0x7FF in
  let m := Z.land m (w64 (- Z.shiftr (w32 (e - 64)) 31)) in
  let e := Z.land e 63 in
  let d := fpr_ulsh m (63 - e) in
  let dd := Z.lor (w32 d) (Z.land (w32 (Z.shiftr d 32)) 0x1FFFFFFF) in
  let f := Z.lor (w32 (Z.shiftr d 61)) (Z.shiftr (Z.lor dd (w32 (- dd))) 31) in
  let m := w64 (fpr_ursh m e + Z.land (Z.shiftr 0xC8 f) 1) in
  let s := w32 (Z.shiftr x 63) in
  s64 (Z.lxor (s64 m) (- s) + s).
(** fpr.h:321-362 *)
Definition fpr_floor (x : Z) : Z :=
  let e := Z.land (Z.shiftr x 52) 0x7FF in
  let t := Z.shiftr x 63 in
  let xi := s64 (Z.land (Z.lor (w64 (Z.shiftl x 10)) (2 ^ 62)) (2 ^ 63 - 1)) in
  let xi := s64 (Z.lxor xi (- t) + t) in
  let cc := 1085 - e in
  let xi := fpr_irsh xi (Z.land cc 63) in
  Z.lxor xi (Z.land (Z.lxor xi (- t)) (- Z.shiftr (w32 (63 - cc)) 31)).
(** fpr.h:364-394 *)
Definition fpr_trunc (x : Z) : Z :=
  let e := Z.land (Z.shiftr x 52) 0x7FF in
  let xu := Z.land (Z.lor (w64 (Z.shiftl x 10)) (2 ^ 62)) (2 ^ 63 - 1) in
  let cc := 1085 - e in
  let xu := fpr_ursh xu (Z.land cc 63) in
  let xu := Z.land xu (w64 (- Z.shiftr (w32 (cc - 64)) 31)) in
  let t := Z.shiftr x 63 in
  let xu := w64 (Z.lxor xu (w64 (- t)) + t) in
  s64 xu.
(** fpr.h:461-480 *)
Definition fpr_lt (x y : Z) : Z :=
  let cc0 := if s64 x <? s64 y then 1 else 0 in
  let cc1 := if s64 y <? s64 x then 1 else 0 in
  Z.lxor cc0 (Z.land (Z.lxor cc0 cc1) (Z.shiftr (Z.land x y) 63)).

(** fpr.h:227-229, 258-270 *)
Definition fpr_q : Z := 4667981563525332992.
Definition fpr_inverse_of_q : Z := 4545632735260551042.
Definition fpr_inv_2sqrsigma0 : Z := 4594603506513722306.
Definition fpr_bnorm_max : Z := 4670353323383631276.
Definition fpr_one : Z := 4607182418800017408.
Definition fpr_two : Z := 4611686018427387904.
Definition fpr_onehalf : Z := 4602678819172646912.
Definition fpr_invsqrt2 : Z := 4604544271217802189.
Definition fpr_invsqrt8 : Z := 4600040671590431693.
Definition fpr_ptwo31 : Z := 4746794007248502784.
Definition fpr_ptwo31m1 : Z := 4746794007244308480.
Definition fpr_mtwo31m1 : Z := 13970166044099084288.
Definition fpr_ptwo63m1 : Z := 4890909195324358656.
Definition fpr_mtwo63m1 : Z := 14114281232179134464.
Definition fpr_ptwo63 : Z := 4890909195324358656.
(** fpr.c:1627-1639 *)
Definition fpr_p2_tab : list Z :=
  [4611686018427387904; 4607182418800017408; 4602678819172646912; 4598175219545276416; 4593671619917905920; 4589168020290535424;
   4584664420663164928; 4580160821035794432; 4575657221408423936; 4571153621781053440; 4566650022153682944].
