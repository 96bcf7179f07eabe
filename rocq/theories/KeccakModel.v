(** Model of /repo/pythonref/keccak.py, /repo/pythonref/shake.py and of the Keccak permutation
    of /repo/src/ZKNOX_shake.sol. *)
From Verif Require Import Base.

(** ** Keccak-f[1600], keccak.py *)
(** keccak.py:11-15 *)
Definition KECCAK_RHO : list Z :=
  [1; 3; 6; 10; 15; 21; 28; 36; 45; 55; 2; 14; 27; 41; 56; 8; 25; 43; 62; 18; 39; 61; 20; 44].
(** keccak.py:16-20 *)
Definition KECCAK_PI : list nat :=
  [10; 7; 11; 17; 18; 3; 5; 16; 8; 21; 24; 4; 15; 23; 19; 13; 12; 2; 20; 14; 22; 9; 6; 1]%nat.
(** keccak.py:21-34 *)
Definition KECCAK_RC : list Z :=
  [0x0000000000000001; 0x0000000000008082; 0x800000000000808a; 0x8000000080008000;
   0x000000000000808b; 0x0000000080000001; 0x8000000080008081; 0x8000000000008009;
   0x000000000000008a; 0x0000000000000088; 0x0000000080008009; 0x000000008000000a;
   0x000000008000808b; 0x800000000000008b; 0x8000000000008089; 0x8000000000008003;
   0x8000000000008002; 0x8000000000000080; 0x000000000000800a; 0x800000008000000a;
   0x8000000080008081; 0x8000000000008080; 0x0000000080000001; 0x8000000080008008].

Definition mask64 : Z := 0xffffffffffffffff.

(** keccak.py:40-42 rol; numpy uint64 shifts drop the bits above 64. *)
Definition rol (x s : Z) : Z := Z.lxor (Z.shiftl x s mod 2 ^ 64) (Z.shiftr x (64 - s)).
(** ~x on numpy uint64 *)
Definition lnot64 (x : Z) : Z := Z.lxor x mask64.

Definition lane (s : list Z) (i : nat) : Z := nth i s 0.
Fixpoint upd {A} (l : list A) (i : nat) (v : A) : list A :=
  match l, i with
  | [], _ => []
  | _ :: l', O => v :: l'
  | a :: l', S i' => a :: upd l' i' v
  end.

(** keccak.py:57-60 *)
Definition parity (s : list Z) : list Z :=
  map (fun x => fold_left (fun acc y => Z.lxor acc (lane s (x + y))) [0; 5; 10; 15; 20]%nat 0)
      [0; 1; 2; 3; 4]%nat.
(** keccak.py:63-66 *)
Definition theta_step (s : list Z) : list Z :=
  let bc := parity s in
  fold_left (fun s x =>
    let t := Z.lxor (lane bc ((x + 4) mod 5)) (rol (lane bc ((x + 1) mod 5)) 1) in
    fold_left (fun s y => upd s (y + x) (Z.lxor (lane s (y + x)) t)) [0; 5; 10; 15; 20]%nat s)
    [0; 1; 2; 3; 4]%nat s.
(** keccak.py:69-73 *)
Definition rho_pi_step (s : list Z) : list Z :=
  fst (fold_left (fun (st : list Z * Z) x =>
    let (s, t) := st in
    let p := nth x KECCAK_PI O in
    (upd s p (rol t (nth x KECCAK_RHO 0)), lane s p)) (seq 0 24) (s, lane s 1)).
(** keccak.py:75-80 *)
Definition chi_step (s : list Z) : list Z :=
  fold_left (fun s y =>
    let bc := map (fun x => lane s (y + x)) [0; 1; 2; 3; 4]%nat in
    fold_left (fun s x => upd s (y + x)
      (Z.lxor (lane bc x) (Z.land (lnot64 (lane bc ((x + 1) mod 5))) (lane bc ((x + 2) mod 5)))))
      [0; 1; 2; 3; 4]%nat s)
    [0; 5; 10; 15; 20]%nat s.
(** keccak.py:82 *)
Definition iota_step (rc : Z) (s : list Z) : list Z := upd s 0 (Z.lxor (lane s 0) rc).

Definition round (s : list Z) (rc : Z) : list Z := iota_step rc (chi_step (rho_pi_step (theta_step s))).

(** keccak.py:51-83 *)
Definition F1600 (s : list Z) : list Z := fold_left round KECCAK_RC s.

(** ** The sponge, keccak.py:97-153 *)
(** ndarray.view(uint8 / uint64) on a little-endian machine *)
Definition le8 (x : Z) : list Z := map (fun i => (x / 256 ^ Z.of_nat i) mod 256) (seq 0 8).
Definition of_le (l : list Z) : Z := fold_right (fun b a => b + 256 * a) 0 l.
Definition bytes_of_lanes (s : list Z) : list Z := flat_map le8 s.
Fixpoint lanes_of_bytes_n (k : nat) (b : list Z) : list Z :=
  match k with O => [] | S k' => of_le (firstn 8 b) :: lanes_of_bytes_n k' (skipn 8 b) end.
Definition lanes_of_bytes (b : list Z) : list Z := lanes_of_bytes_n 25 b.

Fixpoint xorl (a b : list Z) : list Z :=
  match a, b with
  | x :: a', y :: b' => Z.lxor x y :: xorl a' b'
  | _, _ => a
  end.
(** buf[i:i+len(d)] ^= d, for i + len(d) <= len(buf) *)
Definition xor_at (i : nat) (d : list Z) (buf : list Z) : list Z :=
  firstn i buf ++ xorl (skipn i buf) d.

Section Sponge.
Variable F : list Z -> list Z.        (* the permutation on 25 lanes *)
Variable rate : nat.
Variable dsbyte : Z.

(** keccak.py:97-104 (direction is never read through the SHAKE wrapper) *)
Record khash := mk_khash { kstate : list Z; kbuf : list Z; ki : nat }.

Definition khash_new : khash := mk_khash (repeat 0 25) (repeat 0 200) 0.

(** keccak.py:139-143 *)
Definition permute (s : khash) : khash :=
  mk_khash (F (xorl (kstate s) (lanes_of_bytes (kbuf s)))) (repeat 0 200) 0.

(** keccak.py:106-118; [fuel] >= len(b); [b] is the part not absorbed yet *)
Fixpoint absorb_loop (fuel : nat) (s : khash) (b : list Z) : khash :=
  match b with
  | [] => s
  | _ =>
    match fuel with
    | O => s                                  (* unreachable when rate > 0 *)
    | S fuel' =>
      let willabsorb := Nat.min (rate - ki s) (length b) in
      let s := mk_khash (kstate s) (xor_at (ki s) (firstn willabsorb b) (kbuf s)) (ki s + willabsorb) in
      let s := if (ki s =? rate)%nat then permute s else s in
      absorb_loop fuel' s (skipn willabsorb b)
    end
  end.
Definition absorb (s : khash) (b : list Z) : khash := absorb_loop (length b) s b.

(** keccak.py:120-132 *)
Fixpoint squeeze_loop (fuel : nat) (s : khash) (tosqueeze : nat) (b : list Z) : khash * list Z :=
  match tosqueeze with
  | O => (s, b)
  | _ =>
    match fuel with
    | O => (s, b)                             (* unreachable when rate > 0 *)
    | S fuel' =>
      let willsqueeze := Nat.min (rate - ki s) tosqueeze in
      let b := b ++ slice (ki s) (ki s + willsqueeze) (bytes_of_lanes (kstate s)) in
      let s := mk_khash (kstate s) (kbuf s) (ki s + willsqueeze) in
      let s := if (ki s =? rate)%nat then permute s else s in
      squeeze_loop fuel' s (tosqueeze - willsqueeze) b
    end
  end.
Definition squeeze (s : khash) (n : nat) : khash * list Z := squeeze_loop n s n [].

(** keccak.py:134-137 *)
Definition pad (s : khash) : khash :=
  permute (mk_khash (kstate s)
    (xor_at (rate - 1) [0x80] (xor_at (ki s) [dsbyte] (kbuf s))) (ki s)).
End Sponge.

(** shake.py:6-24: update = absorb, read = squeeze, flip = pad, with rate 136 and dsbyte 0x1f. *)
Definition shake_rate : nat := 136.
Definition shake_new : khash := khash_new.
Definition shake_update (s : khash) (d : list Z) : khash := absorb F1600 shake_rate s d.
Definition shake_flip (s : khash) : khash := pad F1600 shake_rate 0x1f s.
Definition shake_read (s : khash) (n : nat) : khash * list Z := squeeze F1600 shake_rate s n.

(** ** /repo/src/ZKNOX_shake.sol *)
(** EVM words: shl wraps at 256 bits. *)
Definition evm_shl (s x : Z) : Z := Z.shiftl x s mod 2 ^ 256.
Definition evm_shr (s x : Z) : Z := Z.shiftr x s.

(** ZKNOX_shake.sol:61-69: theta step 1 *)
Definition sol_bc (s : list Z) : list Z :=
  map (fun x => Z.lxor (Z.lxor (Z.lxor (Z.lxor (lane s x) (lane s (x + 5))) (lane s (x + 10)))
                         (lane s (x + 15))) (lane s (x + 20))) [0; 1; 2; 3; 4]%nat.
(** ZKNOX_shake.sol:71-116: theta step 2, one unrolled block per column [x] *)
Definition sol_theta_col (bc : list Z) (s : list Z) (x : nat) : list Z :=
  let b1 := lane bc ((x + 1) mod 5) in
  let d := Z.lxor (lane bc ((x + 4) mod 5))
             (Z.land mask64 (Z.lxor (evm_shl 1 b1) (evm_shr 63 b1))) in
  fold_left (fun s y => upd s (x + y) (Z.lxor (lane s (x + y)) d)) [0; 5; 10; 15; 20]%nat s.
(** ZKNOX_shake.sol:118-128: rho + pi *)
Definition sol_rho_pi (s : list Z) : list Z :=
  fst (fold_left (fun (st : list Z * Z) x =>
    let (s, t) := st in
    let p := nth x KECCAK_PI O in
    let r := nth x KECCAK_RHO 0 in
    (upd s p (Z.land mask64 (Z.lxor (evm_shl r t) (evm_shr (64 - r) t))), lane s p))
    (seq 0 24) (s, lane s 1)).
(** ZKNOX_shake.sol:130-208: chi, row at offset [y] (unrolled five times); rc only enters row 0 *)
Definition sol_chi_row (s : list Z) (y : nat) : list Z :=
  let c x := lane s (y + x) in
  let c0 := c 0%nat in let c1 := c 1%nat in let c2 := c 2%nat in
  let c3 := c 3%nat in let c4 := c 4%nat in
  let s := upd s (y + 0) (Z.lxor c0 (Z.land (Z.lxor c1 mask64) c2)) in
  let s := upd s (y + 1) (Z.lxor c1 (Z.land (Z.lxor c2 mask64) c3)) in
  let s := upd s (y + 2) (Z.lxor c2 (Z.land (Z.lxor c3 mask64) c4)) in
  let s := upd s (y + 3) (Z.lxor c3 (Z.land (Z.lxor c4 mask64) c0)) in
  upd s (y + 4) (Z.lxor c4 (Z.land (Z.lxor c0 mask64) c1)).
Definition sol_chi_row0 (rc : Z) (s : list Z) : list Z :=
  let c0 := lane s 0 in let c1 := lane s 1 in let c2 := lane s 2 in
  let c3 := lane s 3 in let c4 := lane s 4 in
  let s := upd s 0 (Z.land (Z.lxor (Z.lxor c0 (Z.land (Z.lxor c1 mask64) c2)) rc) mask64) in
  let s := upd s 1 (Z.lxor c1 (Z.land (Z.lxor c2 mask64) c3)) in
  let s := upd s 2 (Z.lxor c2 (Z.land (Z.lxor c3 mask64) c4)) in
  let s := upd s 3 (Z.lxor c3 (Z.land (Z.lxor c4 mask64) c0)) in
  upd s 4 (Z.lxor c4 (Z.land (Z.lxor c0 mask64) c1)).
Definition sol_round (s : list Z) (rc : Z) : list Z :=
  let bc := sol_bc s in
  let s := fold_left (sol_theta_col bc) [0; 1; 2; 3; 4]%nat s in
  let s := sol_rho_pi s in
  let s := sol_chi_row0 rc s in
  fold_left sol_chi_row [5; 10; 15; 20]%nat s.
(** ZKNOX_shake.sol:48-212; the constant tables of lines 50-52 are those of keccak.py *)
Definition f1600_sol (s : list Z) : list Z := fold_left sol_round KECCAK_RC s.

(** ZKNOX_shake.sol:17-22; [direction] true = squeezing *)
Record ctx := mk_ctx { cstate : list Z; cbuff : list Z; ci : nat; cdir : bool }.
Definition ctx_zero : ctx := mk_ctx (repeat 0 25) (repeat 0 200) 0 false.

(** ZKNOX_shake.sol:317-344: word [w] of the buffer, then xor and f1600.  The returned buffer is
    a fresh zeroed memory array. *)
Definition sol_word (buf : list Z) (w : nat) : Z :=
  let b j := nth (8 * w + j) buf 0 in
  Z.land (fold_left (fun v j => Z.lor v (evm_shl (8 * Z.of_nat j) (b j))) [1; 2; 3; 4; 5; 6; 7]%nat (b 0%nat))
         mask64.
Definition shakePermute (buf state : list Z) : list Z * list Z :=
  (repeat 0 200, f1600_sol (map (fun w => Z.lxor (lane state w) (sol_word buf w)) (seq 0 25))).

(** ZKNOX_shake.sol:222-249 *)
Fixpoint shakeAbsorb (fuel : nat) (i : nat) (buf state input : list Z) : nat * list Z * list Z :=
  match input with
  | [] => (i, buf, state)
  | _ =>
    match fuel with
    | O => (i, buf, state)                   (* unreachable *)
    | S fuel' =>
      let w := Nat.min (136 - i) (length input) in
      let buf := xor_at i (firstn w input) buf in
      let i := (i + w)%nat in
      let '(i, buf, state) := if (i =? 136)%nat then let (b, s) := shakePermute buf state in (0%nat, b, s)
                              else (i, buf, state) in
      shakeAbsorb fuel' i buf state (skipn w input)
    end
  end.
(** ZKNOX_shake.sol:266-273 *)
Definition shakeUpdate (c : ctx) (input : list Z) : ctx :=
  let (buf, st) := if cdir c then shakePermute (cbuff c) (cstate c) else (cbuff c, cstate c) in
  let '(i, buf, st) := shakeAbsorb (length input) (ci c) buf st input in
  mk_ctx st buf i false.
(** ZKNOX_shake.sol:281-307 *)
Fixpoint shakeSqueeze_loop (fuel : nat) (c : ctx) (tosqueeze : nat) (out : list Z) : ctx * list Z :=
  match tosqueeze with
  | O => (c, out)
  | _ =>
    match fuel with
    | O => (c, out)
    | S fuel' =>
      let w := Nat.min (136 - ci c) tosqueeze in
      let chunk := map (fun j => let r := (ci c + j)%nat in
                     Z.land (Z.shiftr (lane (cstate c) (r / 8)) (8 * Z.of_nat (r mod 8))) 0xff) (seq 0 w) in
      let i := (ci c + w)%nat in
      let c := if (i =? 136)%nat
               then let (b, s) := shakePermute (cbuff c) (cstate c) in mk_ctx s b 0 (cdir c)
               else mk_ctx (cstate c) (cbuff c) i (cdir c) in
      shakeSqueeze_loop fuel' c (tosqueeze - w) (out ++ chunk)
    end
  end.
Definition shakeSqueeze (c : ctx) (n : nat) : ctx * list Z := shakeSqueeze_loop n c n [].
(** ZKNOX_shake.sol:350-358 *)
Definition shakePad (c : ctx) : ctx :=
  let buf := xor_at 135 [0x80] (xor_at (ci c) [0x1f] (cbuff c)) in
  let (b, s) := shakePermute buf (cstate c) in mk_ctx s b 0 (cdir c).
