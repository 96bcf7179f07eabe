(** Model of the integer sampler of the C signer, falcon/nistfalcon/src/sign.c:989-1198, and of fpr_expm_p63, fpr.c:514-598.
    The generator is a parameter: any state type with a 64-bit and an 8-bit draw (CRngModel.v gives the real one).  Floats are those of
    FprModel.v. *)
From Verif Require Import Base FprModel.

(** a conversion to int or int32_t from a wider signed integer *)
Definition s32 (x : Z) : Z := (x + 2 ^ 31) mod 2 ^ 32 - 2 ^ 31.
(** fpr.h:256, 257 *)
Definition fpr_log2 : Z := 4604418534313441775.
Definition fpr_inv_log2 : Z := 4609176140021203710.

(** sign.c:992-1010, dist[]: the rows are (dist[u], dist[u+1], dist[u+2]) *)
Definition c_dist : list (Z * Z * Z) := [
  (10745844, 3068844, 3741698); (5559083, 1580863, 8248194); (2260429, 13669192, 2736639); (708981, 4421575, 10046180);
  (169348, 7122675, 4136815); (30538, 13063405, 7650655); (4132, 14505003, 7826148); (417, 16768101, 11363290);
  (31, 8444042, 8086568); (1, 12844466, 265321); (0, 1232676, 13644283); (0, 38047, 9111839); (0, 870, 6138264); (0, 14, 12545723);
  (0, 0, 3104126); (0, 0, 28824); (0, 0, 198); (0, 0, 1)].
(** sign.c:1022-1043: from the two draws; v0..v2, cc are uint32_t *)
Definition gaussian0_of (lo hi : Z) : Z :=
  let v0 := Z.land (w32 lo) 0xFFFFFF in
  let v1 := Z.land (w32 (Z.shiftr lo 24)) 0xFFFFFF in
  let v2 := Z.lor (w32 (Z.shiftr lo 48)) (w32 (Z.shiftl hi 16)) in
  fold_left (fun z '(w2, w1, w0) =>
    let cc := Z.shiftr (w32 (v0 - w0)) 31 in
    let cc := Z.shiftr (w32 (v1 - w1 - cc)) 31 in
    let cc := Z.shiftr (w32 (v2 - w2 - cc)) 31 in
    z + cc) c_dist 0.

(** fpr.c:529-543 *)
Definition c_expC : list Z := [
  0x00000004741183A3; 0x00000036548CFC06; 0x0000024FDCBF140A; 0x0000171D939DE045; 0x0000D00CF58F6F84; 0x000680681CF796E3;
  0x002D82D8305B0FEA; 0x011111110E066FD0; 0x0555555555070F00; 0x155555555581FF00; 0x400000000002B400; 0x7FFFFFFFFFFF4800; 0x8000000000000000].
(** fpr.c:567-575 and 587-595: the top 64 bits of a product, by 32-bit limbs *)
Definition c_umulh (z y : Z) : Z :=
  let z0 := w32 z in
  let z1 := w32 (Z.shiftr z 32) in
  let y0 := w32 y in
  let y1 := w32 (Z.shiftr y 32) in
  let a := w64 (w64 (z0 * y1) + Z.shiftr (w64 (z0 * y0)) 32) in
  let b := w64 (z1 * y0) in
  let c := w64 (Z.shiftr a 32 + Z.shiftr b 32) in
  let c := w64 (c + Z.shiftr (w64 (w32 a + w32 b)) 32) in
  w64 (c + w64 (z1 * y1)).
(** fpr.c:514-598 *)
Definition fpr_expm_p63 (x ccs : Z) : Z :=
  let z := w64 (Z.shiftl (w64 (fpr_trunc (fpr_mul x fpr_ptwo63))) 1) in
  let y := fold_left (fun y elt => w64 (elt - c_umulh z y)) (tl c_expC) (hd 0 c_expC) in
  let z := w64 (Z.shiftl (w64 (fpr_trunc (fpr_mul ccs fpr_ptwo63))) 1) in
  c_umulh z y.

(** sign.c:1061-1088: the 64-bit threshold of BerExp.  A shift by a negative int (undefined in C) is not distinguished here. *)
Definition c_reduce (x : Z) : Z * Z :=
  let s := s32 (fpr_trunc (fpr_mul x fpr_inv_log2)) in
  (s, fpr_sub x (fpr_mul (fpr_of s) fpr_log2)).
Definition c_saturate (s : Z) : Z :=
  let sw := w32 s in
  s32 (Z.lxor sw (Z.land (Z.lxor sw 63) (w32 (- Z.shiftr (w32 (63 - sw)) 31)))).
Definition c_threshold (x ccs : Z) : Z :=
  let '(s, r) := c_reduce x in
  Z.shiftr (w64 (w64 (Z.shiftl (fpr_expm_p63 r ccs) 1) - 1)) (c_saturate s).

Section Generator.
Context {G : Type}.
Variable get_u64 get_u8 : G -> G * Z.

(** sign.c:989-1044 *)
Definition gaussian0_sampler (g : G) : G * Z :=
  let '(g, lo) := get_u64 g in
  let '(g, hi) := get_u8 g in
  (g, gaussian0_of lo hi).
(** sign.c:1096-1104; i = 56, 48, ..., 0; w is uint32_t *)
Fixpoint berexp_bytes (z : Z) (l : list Z) (g : G) : G * Z :=
  match l with
  | [] => (g, 0)
  | i :: l' =>
    let '(g, v) := get_u8 g in
    let w := w32 (v - Z.land (w32 (Z.shiftr z i)) 0xFF) in
    if (w =? 0) && (0 <? i) then berexp_bytes z l' g else (g, Z.shiftr w 31)
  end.
(** sign.c:1049-1105 *)
Definition BerExp (g : G) (x ccs : Z) : G * Z := berexp_bytes (c_threshold x ccs) [56; 48; 40; 32; 24; 16; 8; 0] g.

(** sign.c:1188-1189: the argument of BerExp *)
Definition c_x (r dss z z0 : Z) : Z :=
  fpr_sub (fpr_mul (fpr_sqr (fpr_sub (fpr_of z) r)) dss) (fpr_mul (fpr_of (z0 * z0)) fpr_inv_2sqrsigma0).
(** sign.c:1144-1197, the rejection loop; [fuel] bounds its rounds, None: it has not ended *)
Fixpoint sampler_loop (fuel : nat) (s r dss ccs : Z) (g : G) : option (G * Z) :=
  match fuel with
  | O => None
  | S fuel' =>
    let '(g, z0) := gaussian0_sampler g in
    let '(g, v) := get_u8 g in
    let b := Z.land v 1 in
    let z := b + (Z.shiftl b 1 - 1) * z0 in
    let '(g, acc) := BerExp g (c_x r dss z z0) ccs in
    if acc =? 0 then sampler_loop fuel' s r dss ccs g else Some (g, s + z)
  end.
(** sign.c:1115-1198; sigma_min is a field of the context *)
Definition sampler (fuel : nat) (sigma_min mu isigma : Z) (g : G) : option (G * Z) :=
  let s := s32 (fpr_floor mu) in
  let r := fpr_sub mu (fpr_of s) in
  let dss := fpr_half (fpr_sqr isigma) in
  let ccs := fpr_mul isigma sigma_min in
  sampler_loop fuel s r dss ccs g.
End Generator.
