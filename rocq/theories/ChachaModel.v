(** Model of /repo/pythonref/rng.py (ChaCha20 generator). *)
From Verif Require Import Base KeccakModel.

(** rng.py:22 *)
Definition CW : list Z := [0x61707865; 0x3320646e; 0x79622d32; 0x6b206574].
(** rng.py:25-30 *)
Definition roll (x n : Z) : Z := Z.land (Z.shiftl x n) 0xffffffff + Z.shiftr x (32 - n).

(** rng.py:35-43; the hex string [hexbytes] is kept as the bytes it denotes. *)
Record chacha := mk_chacha { cs : list Z; cctr : Z; chex : list Z }.
Definition chacha_new (src : list Z) : chacha :=
  let s := map (fun i => of_le (slice (4 * i) (4 * (i + 1)) src)) (seq 0 14) in
  mk_chacha s (nth 12 s 0 + Z.shiftl (nth 13 s 0) 32) [].

(** rng.py:56-77 *)
Definition qround (st : list Z) (A B C D : nat) : list Z :=
  let a := nth A st 0 in let b := nth B st 0 in let c := nth C st 0 in let d := nth D st 0 in
  let a := Z.land (a + b) 0xffffffff in
  let d := roll (Z.lxor d a) 16 in
  let c := Z.land (c + d) 0xffffffff in
  let b := roll (Z.lxor b c) 12 in
  let a := Z.land (a + b) 0xffffffff in
  let d := roll (Z.lxor d a) 8 in
  let c := Z.land (c + d) 0xffffffff in
  let b := roll (Z.lxor b c) 7 in
  upd (upd (upd (upd st A a) B b) C c) D d.
(** rng.py:90-98 *)
Definition double_round (st : list Z) : list Z :=
  let st := qround st 0 4 8 12 in
  let st := qround st 1 5 9 13 in
  let st := qround st 2 6 10 14 in
  let st := qround st 3 7 11 15 in
  let st := qround st 0 5 10 15 in
  let st := qround st 1 6 11 12 in
  let st := qround st 2 7 8 13 in
  qround st 3 4 9 14.
(** rng.py:79-102; the matrix (84-88), ten double rounds, the final addition, ctr += 1 *)
Definition chacha_matrix (s : list Z) (ctr : Z) : list Z :=
  CW ++ firstn 10 s ++ [Z.lxor (nth 10 s 0) (Z.land ctr 0xffffffff); Z.lxor (nth 11 s 0) (Z.shiftr ctr 32)].
Definition chacha_update (g : chacha) : chacha * list Z :=
  let state := chacha_matrix (cs g) (cctr g) in
  let st := Nat.iter 10 double_round state in
  let out := map (fun i => Z.land (nth i st 0 + nth i state 0) 0xffffffff) (seq 0 16) in
  (mk_chacha (cs g) (cctr g + 1) (chex g), out).

(** x.to_bytes(4, "little") *)
Definition le4 (x : Z) : list Z := map (fun i => (x / 256 ^ Z.of_nat i) mod 256) (seq 0 4).

(** block[i::8] = w, for len(w) = 16 and len(block) = 128 *)
Definition set_stride (block w : list Z) (i : nat) : list Z :=
  fold_left (fun b j => upd b (i + 8 * j) (nth j w 0)) (seq 0 16) block.
(** rng.py:104-111 *)
Definition block_update (g : chacha) : chacha * list Z :=
  let (g, block) := fold_left (fun (st : chacha * list Z) i =>
      let (g, block) := st in
      let (g, w) := chacha_update g in (g, set_stride block w i))
    (seq 0 8) (g, repeat 0 128) in
  (g, flat_map le4 block).

(** rng.py:113-123; the slices out[i:i+2] of the hex string are taken from the last to the first,
    and the result is reversed again *)
Definition randombytes (g : chacha) (k : nat) : chacha * list Z :=
  let g := if (length (chex g) <? k)%nat
           then let (g, h) := block_update g in mk_chacha (cs g) (cctr g) h else g in
  let out := firstn k (chex g) in
  let out := flat_map (fun i => slice i (i + 1) out) (rev (seq 0 k)) in
  (mk_chacha (cs g) (cctr g) (skipn k (chex g)), rev out).
