(** Model of /repo/pythonref/blake2s/blake2s.py: the BLAKE2s compression function and the hash of a list of field elements. *)
From Verif Require Import Base KeccakModel.

(** blake2s.py:6 *)
Definition PRIME : Z := 2 ^ 251 + 17 * 2 ^ 192 + 1.
(** blake2s.py:8-17 *)
Definition IV : list Z := [0x6A09E667; 0xBB67AE85; 0x3C6EF372; 0xA54FF53A; 0x510E527F; 0x9B05688C; 0x1F83D9AB; 0x5BE0CD19].
(** blake2s.py:19-30 *)
Definition SIGMA : list (list nat) := [
    [0; 1; 2; 3; 4; 5; 6; 7; 8; 9; 10; 11; 12; 13; 14; 15];
    [14; 10; 4; 8; 9; 15; 13; 6; 1; 12; 0; 2; 11; 7; 5; 3];
    [11; 8; 12; 0; 5; 2; 15; 13; 10; 14; 3; 6; 7; 1; 9; 4];
    [7; 9; 3; 1; 13; 12; 11; 14; 2; 6; 5; 10; 4; 0; 15; 8];
    [9; 0; 5; 7; 2; 4; 10; 15; 14; 1; 11; 12; 6; 8; 3; 13];
    [2; 12; 6; 10; 0; 11; 8; 3; 4; 13; 7; 5; 15; 14; 1; 9];
    [12; 5; 1; 15; 14; 13; 4; 10; 0; 7; 6; 3; 9; 2; 8; 11];
    [13; 11; 7; 14; 12; 1; 3; 9; 5; 0; 15; 4; 8; 6; 2; 10];
    [6; 15; 14; 9; 11; 3; 0; 8; 12; 2; 13; 7; 1; 4; 10; 5];
    [10; 2; 8; 4; 7; 6; 1; 5; 15; 11; 9; 14; 3; 12; 13; 0]]%nat.

(** blake2s.py:33-34 *)
Definition right_rot (value n : Z) : Z := Z.lor (Z.shiftr value n) (Z.shiftl (Z.land value (2 ^ n - 1)) (32 - n)).
(** blake2s.py:107-117 *)
Definition mix (a b c d m0 m1 : Z) : Z * Z * Z * Z :=
  let a := (a + b + m0) mod 2 ^ 32 in
  let d := right_rot (Z.lxor d a) 16 in
  let c := (c + d) mod 2 ^ 32 in
  let b := right_rot (Z.lxor b c) 12 in
  let a := (a + b + m1) mod 2 ^ 32 in
  let d := right_rot (Z.lxor d a) 8 in
  let c := (c + d) mod 2 ^ 32 in
  let b := right_rot (Z.lxor b c) 7 in
  (a, b, c, d).
(** one assignment state[i], state[j], state[k], state[l] = mix(...) of blake_round *)
Definition mix_at (st : list Z) (i j k l : nat) (m0 m1 : Z) : list Z :=
  let '(a, b, c, d) := mix (nth i st 0) (nth j st 0) (nth k st 0) (nth l st 0) m0 m1 in
  upd (upd (upd (upd st i a) j b) k c) l d.
(** blake2s.py:73-104 *)
Definition blake_round (state message : list Z) (sigma : list nat) : list Z :=
  let m i := nth (nth i sigma 0%nat) message 0 in
  let state := mix_at state 0 4 8 12 (m 0%nat) (m 1%nat) in
  let state := mix_at state 1 5 9 13 (m 2%nat) (m 3%nat) in
  let state := mix_at state 2 6 10 14 (m 4%nat) (m 5%nat) in
  let state := mix_at state 3 7 11 15 (m 6%nat) (m 7%nat) in
  let state := mix_at state 0 5 10 15 (m 8%nat) (m 9%nat) in
  let state := mix_at state 1 6 11 12 (m 10%nat) (m 11%nat) in
  let state := mix_at state 2 7 8 13 (m 12%nat) (m 13%nat) in
  mix_at state 3 4 9 14 (m 14%nat) (m 15%nat).
(** blake2s.py:58-70; [for i in range(10)] runs through SIGMA *)
Definition blake2s_compress (h message : list Z) (t0 t1 f0 f1 : Z) : list Z :=
  let state := h ++ firstn 4 IV ++
    map (fun x => x mod 2 ^ 32) [Z.lxor (nth 4 IV 0) t0; Z.lxor (nth 5 IV 0) t1; Z.lxor (nth 6 IV 0) f0; Z.lxor (nth 7 IV 0) f1] in
  let state := fold_left (fun state sigma => blake_round state message sigma) SIGMA state in
  map (fun '(x, (v0, v1)) => Z.lxor (Z.lxor x v0) v1) (combine h (combine (firstn 8 state) (skipn 8 state))).

(** blake2s.py:120-125 *)
Definition blake_state_into_felt (state : list Z) (prime : Z) : Z :=
  fold_left (fun digest_int '(idx, word) => Z.lor digest_int (Z.shiftl (Z.land word 0xFFFFFFFF) (32 * Z.of_nat idx))) (combine (seq 0 (length state)) state) 0 mod prime.

(** blake2s.py:149-159: the words of one field element *)
Definition felt_words (encode little_endian : bool) (prime felt : Z) : list Z :=
  let val := felt mod prime in
  let word_cnt := if encode && (val <? Z.shiftl 1 63) then 2%nat else 8%nat in
  let val := if encode && (word_cnt =? 8)%nat then val + Z.shiftl 1 255 else val in
  let shifts := map (fun k => 32 * Z.of_nat k) (seq 0 word_cnt) in
  let shifts := if little_endian then shifts else rev shifts in
  map (fun shift => Z.land (Z.shiftr val shift) 0xFFFFFFFF) shifts.
(** blake2s.py:148 *)
Definition felts_words (data : list Z) (encode little_endian : bool) (prime : Z) : list Z :=
  flat_map (felt_words encode little_endian prime) data.

(** blake2s.py:174-188: the loop, starting with the words from position i on; [todo] = number of blocks left *)
Fixpoint felt_blocks (todo : nat) (words : list Z) (total_bytes bytes_seen : Z) (state : list Z) : list Z :=
  match todo with
  | O => state
  | S todo' =>
    let block := firstn 16 words in
    let block := if (length block <? 16)%nat then block ++ repeat 0 (16 - length block) else block in
    let bytes_seen := bytes_seen + Z.min 64 (total_bytes - bytes_seen) in
    let f0 := if bytes_seen =? total_bytes then 0xFFFFFFFF else 0 in
    felt_blocks todo' (skipn 16 words) total_bytes bytes_seen (blake2s_compress state block bytes_seen 0 f0 0)
  end.
(** blake2s.py:161-170 *)
Definition H0 : list Z := [0x6B08E647; 0xBB67AE85; 0x3C6EF372; 0xA54FF53A; 0x510E527F; 0x9B05688C; 0x1F83D9AB; 0x5BE0CD19].
(** blake2s.py:128-190; len(range(0, max(len(words), 1), 16)) blocks *)
Definition calculate_blake2s_hash_from_felt252s (data : list Z) (encode little_endian : bool) (prime : Z) : Z :=
  let words := felts_words data encode little_endian prime in
  let total_bytes := 4 * Z.of_nat (length words) in
  let state := felt_blocks ((Nat.max (length words) 1 + 15) / 16) words total_bytes 0 H0 in
  blake_state_into_felt state prime.
