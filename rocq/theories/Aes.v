(** AES-256 (FIPS 197), encryption of one block. This is not code of the repository (the library Crypto.Cipher.AES is external): it only
    provides a concrete cipher on which the theorems about the DRBG are exercised, checked against the FIPS 197 vector. *)
From Verif Require Import Base.

(** multiplication by x modulo x^8+x^4+x^3+x+1, FIPS 197 section 4.2.1 *)
Definition xtime (a : Z) : Z := let b := 2 * a in if b <? 256 then b else Z.lxor b 0x11b.
Fixpoint gmul_n (k : nat) (a b : Z) : Z :=
  match k with O => 0 | S k' => Z.lxor (if Z.odd b then a else 0) (gmul_n k' (xtime a) (b / 2)) end.
Definition gmul (a b : Z) : Z := gmul_n 8 a b.
Definition ginv (a : Z) : Z := let a2 := gmul a a in let a4 := gmul a2 a2 in let a8 := gmul a4 a4 in let a16 := gmul a8 a8 in
  let a32 := gmul a16 a16 in let a64 := gmul a32 a32 in let a128 := gmul a64 a64 in
  gmul (gmul (gmul a2 a4) (gmul a8 a16)) (gmul (gmul a32 a64) a128).
Definition rotl8 (x s : Z) : Z := Z.lor (Z.land (Z.shiftl x s) 255) (Z.shiftr x (8 - s)).
(** section 5.1.1 *)
Definition sub_byte (a : Z) : Z :=
  let b := ginv a in fold_left Z.lxor [rotl8 b 1; rotl8 b 2; rotl8 b 3; rotl8 b 4; 0x63] b.
Definition sbox_table : list Z := Eval vm_compute in map (fun i => sub_byte (Z.of_nat i)) (seq 0 256).
Definition sbox (a : Z) : Z := nth (Z.to_nat a) sbox_table 0.
Definition xors (a b : list Z) : list Z := map (fun p => Z.lxor (fst p) (snd p)) (combine a b).
(** section 5.2, Nk = 8: the words of the key schedule, latest first *)
Fixpoint expand (k : nat) (i : nat) (rcon : Z) (ws : list (list Z)) : list (list Z) :=
  match k with
  | O => ws
  | S k' =>
    let t := nth 0 ws [] in
    let o := nth 7 ws [] in
    if (i mod 8 =? 0)%nat then
      let t := map sbox (tl t ++ firstn 1 t) in
      expand k' (S i) (xtime rcon) (xors o (xors t [rcon; 0; 0; 0]) :: ws)
    else if (i mod 8 =? 4)%nat then expand k' (S i) rcon (xors o (map sbox t) :: ws)
    else expand k' (S i) rcon (xors o t :: ws)
  end.
Definition chunk4 (l : list Z) : list (list Z) := map (fun i => firstn 4 (skipn (4 * i) l)) (seq 0 (length l / 4)).
Definition round_keys (key : list Z) : list (list Z) :=
  let ws := rev (expand 52 8 1 (rev (chunk4 key))) in map (fun r => concat (firstn 4 (skipn (4 * r) ws))) (seq 0 15).
(** sections 5.1.2, 5.1.3; the state is the 16 bytes, column by column *)
Definition shift_rows (s : list Z) : list Z := map (fun i => nth ((i + 4 * (i mod 4)) mod 16) s 0) (seq 0 16).
Definition mix_column (c : list Z) : list Z :=
  map (fun i => Z.lxor (Z.lxor (gmul 2 (nth (i mod 4) c 0)) (gmul 3 (nth ((i + 1) mod 4) c 0)))
                       (Z.lxor (nth ((i + 2) mod 4) c 0) (nth ((i + 3) mod 4) c 0))) (seq 0 4).
Definition aes_round (last : bool) (s rk : list Z) : list Z :=
  let s := shift_rows (map sbox s) in xors (if last then s else flat_map mix_column (chunk4 s)) rk.
Definition norm16 (l : list Z) : list Z := map (fun i => (nth i l 0) mod 256) (seq 0 16).
(** section 5.1; [norm16] is the identity on a 16-byte list, it makes the length and the byte range of the result evident *)
Definition aes256 (key block : list Z) : list Z :=
  let rk := round_keys key in
  let s := xors block (nth 0 rk []) in
  let s := fold_left (aes_round false) (firstn 13 (skipn 1 rk)) s in
  norm16 (aes_round true s (nth 14 rk [])).

Lemma aes256_block k v : length (aes256 k v) = 16%nat /\ bytes (aes256 k v).
Proof.
  unfold aes256, norm16. split; [now rewrite map_length, seq_length|]. apply Forall_map, Forall_forall. intros i _.
  unfold is_byte. apply Z.mod_pos_bound. lia.
Qed.

(** FIPS 197, appendix C.3 *)
Example aes256_fips : aes256 (map Z.of_nat (seq 0 32)) (map (fun i => 17 * Z.of_nat i) (seq 0 16)) =
  [0x8e; 0xa2; 0xb7; 0xca; 0x51; 0x67; 0x45; 0xbf; 0xea; 0xfc; 0x49; 0x90; 0x4b; 0x49; 0x60; 0x89].
Proof. vm_compute. reflexivity. Qed.
