(** Model of falcon/nistfalcon/src/rng.c and of prng_get_u64/prng_get_u8 (inner.h): the ChaCha20-based generator of the C signer.
    Memory is little-endian (as the casts of rng.c assume).  state.d[0..47] is kept as twelve 32-bit words, state.d[48..55] as the 64-bit
    counter; buf.d is a list of 512 bytes. *)
From Verif Require Import Base KeccakModel.

Definition m32 (x : Z) : Z := x mod 2 ^ 32.
Definition m64 (x : Z) : Z := x mod 2 ^ 64.
Record prng := mk_prng { pw : list Z; pctr : Z; pbuf : list Z; pptr : nat }.

(** rng.c:84-86 *)
Definition c_CW : list Z := [0x61707865; 0x3320646e; 0x79622d32; 0x6b206574].
(** (x << n) | (x >> (32 - n)) on uint32_t *)
Definition c_rotl (x n : Z) : Z := Z.lor (m32 (Z.shiftl x n)) (Z.shiftr x (32 - n)).
(** rng.c:107-120, QROUND *)
Definition c_qround (st : list Z) (a b c d : nat) : list Z :=
  let st := upd st a (m32 (nth a st 0 + nth b st 0)) in
  let st := upd st d (Z.lxor (nth d st 0) (nth a st 0)) in
  let st := upd st d (c_rotl (nth d st 0) 16) in
  let st := upd st c (m32 (nth c st 0 + nth d st 0)) in
  let st := upd st b (Z.lxor (nth b st 0) (nth c st 0)) in
  let st := upd st b (c_rotl (nth b st 0) 12) in
  let st := upd st a (m32 (nth a st 0 + nth b st 0)) in
  let st := upd st d (Z.lxor (nth d st 0) (nth a st 0)) in
  let st := upd st d (c_rotl (nth d st 0) 8) in
  let st := upd st c (m32 (nth c st 0 + nth d st 0)) in
  let st := upd st b (Z.lxor (nth b st 0) (nth c st 0)) in
  upd st b (c_rotl (nth b st 0) 7).
(** rng.c:122-129 *)
Definition c_double_round (st : list Z) : list Z :=
  let st := c_qround st 0 4 8 12 in
  let st := c_qround st 1 5 9 13 in
  let st := c_qround st 2 6 10 14 in
  let st := c_qround st 3 7 11 15 in
  let st := c_qround st 0 5 10 15 in
  let st := c_qround st 1 6 11 12 in
  let st := c_qround st 2 7 8 13 in
  c_qround st 3 4 9 14.
(** rng.c:95-104, 135-144: one block *)
Definition c_block (w : list Z) (cc : Z) : list Z :=
  let st := c_CW ++ w in
  let st := upd st 14 (Z.lxor (nth 14 st 0) (m32 cc)) in
  let st := upd st 15 (Z.lxor (nth 15 st 0) (m32 (Z.shiftr cc 32))) in
  let st := Nat.iter 10 c_double_round st in
  let st := fold_left (fun st v => upd st v (m32 (nth v st 0 + nth v c_CW 0))) (seq 0 4) st in
  let st := fold_left (fun st v => upd st v (m32 (nth v st 0 + nth (v - 4) w 0))) (seq 4 10) st in
  let st := upd st 14 (m32 (nth 14 st 0 + Z.lxor (nth 10 w 0) (m32 cc))) in
  upd st 15 (m32 (nth 15 st 0 + Z.lxor (nth 11 w 0) (m32 (Z.shiftr cc 32)))).
(** rng.c:151-160: the interleaved bytes of block u *)
Definition c_store (buf : list Z) (u : nat) (st : list Z) : list Z :=
  fold_left (fun buf v =>
      let i := (4 * u + 32 * v)%nat in
      let x := nth v st 0 in
      let buf := upd buf (i + 0) (x mod 256) in
      let buf := upd buf (i + 1) (Z.shiftr x 8 mod 256) in
      let buf := upd buf (i + 2) (Z.shiftr x 16 mod 256) in
      upd buf (i + 3) (Z.shiftr x 24 mod 256)) (seq 0 16) buf.
(** rng.c:80-166 *)
Definition prng_refill (p : prng) : prng :=
  let '(cc, buf) := fold_left (fun '(cc, buf) u => (m64 (cc + 1), c_store buf u (c_block (pw p) cc))) (seq 0 8) (pctr p, pbuf p) in
  mk_prng (pw p) cc buf 0.
(** rng.c:38-63; [tmp] is what SHAKE256 gives, [junk] the uninitialised buffer *)
Definition prng_init (junk tmp : list Z) : prng :=
  let w i := Z.lor (Z.lor (Z.lor (nth (4 * i) tmp 0) (Z.shiftl (nth (4 * i + 1) tmp 0) 8)) (Z.shiftl (nth (4 * i + 2) tmp 0) 16)) (Z.shiftl (nth (4 * i + 3) tmp 0) 24) in
  let tl := w 12%nat in
  let th := w 13%nat in
  prng_refill (mk_prng (map w (seq 0 12)) (m64 (tl + Z.shiftl th 32)) junk 0).

(** inner.h:577-601 *)
Definition prng_get_u64 (p : prng) : prng * Z :=
  let p := if (512 - 9 <=? pptr p)%nat then prng_refill p else p in
  let u := pptr p in
  (mk_prng (pw p) (pctr p) (pbuf p) (u + 8),
   fold_left (fun x k => Z.lor x (Z.shiftl (nth (u + k) (pbuf p) 0) (8 * Z.of_nat k))) (seq 0 8) 0).
(** inner.h:606-617 *)
Definition prng_get_u8 (p : prng) : prng * Z :=
  let v := nth (pptr p) (pbuf p) 0 in
  let p := mk_prng (pw p) (pctr p) (pbuf p) (pptr p + 1) in
  (if (pptr p =? 512)%nat then prng_refill p else p, v).
(** rng.c:169-189; each iteration copies at least one byte: [fuel] = len suffices *)
Fixpoint prng_get_bytes (fuel : nat) (p : prng) (len : nat) : prng * list Z :=
  match fuel, len with
  | S fuel, S _ =>
    let clen := Nat.min (512 - pptr p) len in
    let dst := firstn clen (pbuf p) in
    let p := mk_prng (pw p) (pctr p) (pbuf p) (pptr p + clen) in
    let p := if (pptr p =? 512)%nat then prng_refill p else p in
    let '(p, l) := prng_get_bytes fuel p (len - clen) in (p, dst ++ l)
  | _, _ => (p, [])
  end.
