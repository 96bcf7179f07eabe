(** Model of the C implementation under /repo/falcon/nistfalcon/src (vrfy.c, codec.c, common.c, keccak_prng.c, nist.c, nist16.c), of the Go wrapper
    /repo/falcon/falcon.go and of the precompile of /repo/geth/contracts.go.
    uint32_t, uint16_t and int16_t arithmetic is explicit. Arrays are lists; a read or write outside an array is a result of its own.
    Not modelled: shake.c and keccak256.c (SHAKE256 is the sponge of KeccakModel.v, Keccak-256 a parameter), key generation, sign_dyn (a parameter). *)
From Verif Require Import Base KeccakModel PrngModel HashModel CTables.

Definition u32 (x : Z) : Z := x mod 2 ^ 32.
Definition u16 (x : Z) : Z := x mod 2 ^ 16.
Definition i16 (x : Z) : Z := (x + 2 ^ 15) mod 2 ^ 16 - 2 ^ 15.

(** * vrfy.c *)
Definition CQ : Z := 12289. Definition Q0I : Z := 12287. Definition CR : Z := 4091. Definition CR2 : Z := 10952.   (* vrfy.c:46-49 *)
(** Q & -(d >> 31) for a uint32_t d *)
Definition qmask (d : Z) : Z := Z.land CQ (u32 (- Z.shiftr d 31)).
(** vrfy.c:342-357 *)
Definition mq_add (x y : Z) : Z := let d := u32 (x + y - CQ) in u32 (d + qmask d).
(** vrfy.c:362-374 *)
Definition mq_sub (x y : Z) : Z := let d := u32 (x - y) in u32 (d + qmask d).
(** vrfy.c:379-384 *)
Definition mq_rshift1 (x : Z) : Z := Z.shiftr (u32 (x + Z.land CQ (u32 (- Z.land x 1)))) 1.
(** vrfy.c:391-422 *)
Definition mq_montymul (x y : Z) : Z :=
  let z := u32 (x * y) in
  let w := u32 (Z.land (u32 (z * Q0I)) 0xFFFF * CQ) in
  let z := Z.shiftr (u32 (z + w)) 16 in
  let z := u32 (z - CQ) in
  u32 (z + qmask z).

(** vrfy.c:520-530: one butterfly of mq_NTT *)
Definition cfw_step (s : Z) (ht : nat) (a : list Z) (j : nat) : list Z :=
  let u := nth j a 0 in
  let v := mq_montymul (nth (j + ht) a 0) s in
  upd (upd a j (u16 (mq_add u v))) (j + ht) (u16 (mq_sub u v)).
(** vrfy.c:512-531: the loops over i (j1 = i * t, t = 2 * ht) and j *)
Definition cfw_layer (m ht : nat) (a : list Z) : list Z :=
  fold_left (fun a i => fold_left (cfw_step (nth (m + i) GMb 0) ht) (seq (i * (2 * ht)) ht) a) (seq 0 m) a.
(** vrfy.c:507-533: for (m = 1; m < n; m <<= 1), at most n rounds *)
Fixpoint cfw_loop (fuel t m n : nat) (a : list Z) : list Z :=
  match fuel with
  | O => a
  | S fuel => if (m <? n)%nat then let ht := (t / 2)%nat in cfw_loop fuel ht (2 * m) n (cfw_layer m ht a) else a
  end.
(** vrfy.c:502-533 *)
Definition mq_NTT (logn : nat) (a : list Z) : list Z := let n := (2 ^ logn)%nat in cfw_loop n n 1 n a.

(** vrfy.c:561-570: one butterfly of mq_iNTT *)
Definition cinv_step (s : Z) (t : nat) (a : list Z) (j : nat) : list Z :=
  let u := nth j a 0 in
  let v := nth (j + t) a 0 in
  upd (upd a j (u16 (mq_add u v))) (j + t) (u16 (mq_montymul (mq_sub u v) s)).
(** vrfy.c:553-572 *)
Definition cinv_layer (hm t : nat) (a : list Z) : list Z :=
  fold_left (fun a i => fold_left (cinv_step (nth (hm + i) iGMb 0) t) (seq (i * (2 * t)) t) a) (seq 0 hm) a.
(** vrfy.c:547-575: while (m > 1) *)
Fixpoint cinv_loop (fuel t m : nat) (a : list Z) : list Z :=
  match fuel with
  | O => a
  | S fuel => if (1 <? m)%nat then let hm := (m / 2)%nat in cinv_loop fuel (2 * t) hm (cinv_layer hm t a) else a
  end.
(** vrfy.c:586-590: ni, after logn halvings *)
Definition c_ni (logn : nat) : Z := Nat.iter logn mq_rshift1 CR.
(** vrfy.c:538-595 *)
Definition mq_iNTT (logn : nat) (a : list Z) : list Z :=
  let n := (2 ^ logn)%nat in map (fun x => u16 (mq_montymul x (c_ni logn))) (cinv_loop n 1 n a).
(** vrfy.c:599-610 *)
Definition mq_poly_tomonty (f : list Z) : list Z := map (fun x => u16 (mq_montymul x CR2)) f.
(** vrfy.c:615-625, 630-640; both arrays have n elements *)
Definition mq_poly_montymul_ntt (f g : list Z) : list Z := map (fun '(x, y) => u16 (mq_montymul x y)) (combine f g).
Definition mq_poly_sub (f g : list Z) : list Z := map (fun '(x, y) => u16 (mq_sub x y)) (combine f g).
(** vrfy.c:645-649 *)
Definition to_ntt_monty (logn : nat) (h : list Z) : list Z := mq_poly_tomonty (mq_NTT logn h).
(** vrfy.c:696-703: an int16_t brought to a uint16_t; the conversion to uint32_t sign-extends *)
Definition c_lift (s : Z) : Z := let w := u32 s in u16 (u32 (w + qmask w)).
(** vrfy.c:716-722: from [0, q) to [-q/2, q/2] *)
Definition c_centre (t : Z) : Z := i16 (t - Z.land CQ (u32 (- Z.shiftr (u32 (Z.shiftr CQ 1 - t)) 31))).

(** common.c:296-307 *)
Definition l2bound : list Z := [0; 101498; 208714; 428865; 892039; 1852696; 3842630; 7959734; 16468416; 34034726; 70265242].
(** common.c:323-335: the state is (s, ng) *)
Definition short_step (st : Z * Z) (z : Z) : Z * Z := let s := u32 (fst st + u32 (z * z)) in (s, Z.lor (snd st) s).
(** common.c:310-340 *)
Definition is_short (logn : nat) (s1 s2 : list Z) : bool :=
  let (s, ng) := fold_left (fun st '(a, b) => short_step (short_step st a) b) (combine s1 s2) (0, 0) in
  let s := Z.lor s (u32 (- Z.shiftr ng 31)) in
  s <=? nth logn l2bound 0.
(** vrfy.c:685-729; [h] in NTT and Montgomery form *)
Definition verify_raw (logn : nat) (c0 s2 h : list Z) : bool :=
  let tt := map c_lift s2 in
  let tt := mq_poly_sub (mq_iNTT logn (mq_poly_montymul_ntt (mq_NTT logn tt) h)) c0 in
  is_short logn (map c_centre tt) s2.

(** * codec.c *)
(** Decoding the bytes at [data], which the caller says are [max_in_len]; reading past the end of [data] is undefined *)
Inductive cdec (A : Type) := Dec (x : A) (used : nat) | Bad | Beyond.
Arguments Dec {A} _ _. Arguments Bad {A}. Arguments Beyond {A}.
(** codec.c:134-152 (width 14) and 174-192 (width 16); [todo] = n - u. uint32_t acc *)
Fixpoint cfixed_loop {A} (width : nat) (conv : Z -> option A) (todo : nat) (data : list Z) (acc : Z) (acc_len : nat) (x : list A) : cdec (list A) :=
  match todo with
  | O => if Z.land acc (u32 (Z.shiftl 1 (Z.of_nat acc_len)) - 1) =? 0 then Dec x 0 else Bad
  | S todo' =>
    match data with
    | [] => Beyond
    | b :: data' =>
      let acc := Z.lor (u32 (Z.shiftl acc 8)) b in
      let acc_len := (acc_len + 8)%nat in
      if (width <=? acc_len)%nat then
        let acc_len := (acc_len - width)%nat in
        match conv (Z.land (Z.shiftr acc (Z.of_nat acc_len)) (2 ^ Z.of_nat width - 1)) with
        | None => Bad
        | Some w => cfixed_loop width conv todo' data' acc acc_len (x ++ [w])
        end
      else cfixed_loop width conv todo data' acc acc_len x
    end
  end.
(** codec.c:119-154, 159-194: the returned length is in_len *)
Definition cfixed {A} (width : nat) (conv : Z -> option A) (logn max_in_len : nat) (data : list Z) : cdec (list A) :=
  let n := (2 ^ logn)%nat in
  let in_len := ((n * width + 7) / 8)%nat in
  if (max_in_len <? in_len)%nat then Bad
  else match cfixed_loop width conv n data 0 0 [] with Dec x _ => Dec x in_len | r => r end.
(** codec.c:142-146 *)
Definition modq_conv (w : Z) : option Z := if 12289 <=? w then None else Some (u16 w).
Definition c_modq_decode := cfixed 14 modq_conv.
Definition c_modq_decode16 := cfixed 16 modq_conv.
(** codec.c:627-635: w is an int16_t; the shift of a negative int is arithmetic (gcc, clang) *)
Definition comp16_conv (w : Z) : option Z :=
  let w := i16 w in
  if 12289 <=? w then None else Some (i16 (w - Z.land 12289 (Z.lnot (Z.shiftr (w - 2047) 31)))).
Definition c_comp_decode16 := cfixed 16 comp16_conv.

(** codec.c:562-577: for (;;); the result is None for return 0, or m, acc, acc_len, the unread bytes. m > 2047 after at most 16 rounds. *)
Fixpoint comp_unary (fuel : nat) (m acc : Z) (acc_len : nat) (data : list Z) : option (Z * Z * nat * list Z) :=
  match fuel with
  | O => None
  | S fuel' =>
    let go acc acc_len data :=
      let acc_len := (acc_len - 1)%nat in
      if Z.land (Z.shiftr acc (Z.of_nat acc_len)) 1 =? 0 then
        let m := m + 128 in
        if 2047 <? m then None else comp_unary fuel' m acc acc_len data
      else Some (m, acc, acc_len, data) in
    match acc_len, data with
    | O, [] => None
    | O, b :: data => go (Z.lor (u32 (Z.shiftl acc 8)) b) 8%nat data
    | _, _ => go acc acc_len data
    end
  end.
(** codec.c:547-594; [v] = length of the whole input minus length of [data] *)
Fixpoint comp_loop (todo : nat) (acc : Z) (acc_len : nat) (data : list Z) (x : list Z) : option (list Z * list Z) :=
  match todo with
  | O => if Z.land acc (u32 (Z.shiftl 1 (Z.of_nat acc_len)) - 1) =? 0 then Some (x, data) else None
  | S todo' =>
    match data with
    | [] => None
    | b0 :: data =>
      let acc := Z.lor (u32 (Z.shiftl acc 8)) b0 in
      let b := Z.shiftr acc (Z.of_nat acc_len) in
      let s := Z.land b 128 in let m := Z.land b 127 in
      match comp_unary 17 m acc acc_len data with
      | None => None
      | Some (m, acc, acc_len, data) =>
        if negb (s =? 0) && (m =? 0) then None
        else comp_loop todo' acc acc_len data (x ++ [i16 (if negb (s =? 0) then - m else m)])
      end
    end
  end.
(** codec.c:531-598: the values and the number of bytes used *)
Definition c_comp_decode (logn : nat) (data : list Z) : option (list Z * nat) :=
  match comp_loop (2 ^ logn) 0 0 data [] with Some (x, rest) => Some (x, (length data - length rest)%nat) | None => None end.

(** codec.c:453-463: while (acc_len >= 8); None is return 0. acc_len is below 32. *)
Fixpoint cflush (fuel max : nat) (acc : Z) (acc_len : nat) (out : list Z) : option (nat * list Z) :=
  if (8 <=? acc_len)%nat then
    match fuel with
    | O => None
    | S fuel' => if (max <=? length out)%nat then None else cflush fuel' max acc (acc_len - 8) (out ++ [Z.shiftr acc (Z.of_nat (acc_len - 8)) mod 256])
    end
  else Some (acc_len, out).
(** codec.c:415-464 *)
Fixpoint comp_enc_loop (max : nat) (x : list Z) (acc : Z) (acc_len : nat) (out : list Z) : option (Z * nat * list Z) :=
  match x with
  | [] => Some (acc, acc_len, out)
  | t :: x' =>
    let acc := u32 (Z.shiftl acc 1) in
    let acc := if t <? 0 then Z.lor acc 1 else acc in
    let w := Z.abs t in
    let acc := Z.lor (u32 (Z.shiftl acc 7)) (Z.land w 127) in
    let w := Z.shiftr w 7 in
    let acc := Z.lor (u32 (Z.shiftl acc (w + 1))) 1 in
    let acc_len := (acc_len + 8 + Z.to_nat (w + 1))%nat in
    match cflush acc_len max acc acc_len out with
    | None => None
    | Some (acc_len, out) => comp_enc_loop max x' acc acc_len out
    end
  end.
(** codec.c:390-482 with a buffer; None is return 0 *)
Definition c_comp_encode (max : nat) (x : list Z) : option (list Z) :=
  if forallb (fun t => (-2047 <=? t) && (t <=? 2047)) x then
    match comp_enc_loop max x 0 0 [] with
    | None => None
    | Some (acc, acc_len, out) =>
      if (0 <? acc_len)%nat then if (max <=? length out)%nat then None else Some (out ++ [u32 (Z.shiftl acc (8 - Z.of_nat acc_len)) mod 256]) else Some out
    end
  else None.
(** codec.c:487-528: two bytes per coefficient; n values and a buffer of at least 2 n bytes *)
Definition c_comp_encode16 (x : list Z) : option (list Z) :=
  if existsb (fun t => (12289 <=? t) || (t <=? -12289)) x then None
  else Some (flat_map (fun t => let w := u32 (t + Z.land (Z.shiftr t 31) 12289) in [Z.shiftr w 8 mod 256; w mod 256]) x).

(** * common.c, keccak_prng.c *)
(** common.c:60-66, 104-110: while (w >= 12289) w -= 12289, for w < 61445: at most 4 rounds *)
Fixpoint c_reduce (fuel : nat) (w : Z) : Z := match fuel with O => w | S f => if 12289 <=? w then c_reduce f (w - 12289) else w end.
(** common.c:33-70, 73-114 on a source of bytes; None: still running after [fuel] rounds *)
Fixpoint c_h2p {St} (extract : St -> nat -> St * list Z) (fuel n : nat) (s : St) (x : list Z) : option (list Z) :=
  match n with
  | O => Some x
  | S n' =>
    match fuel with
    | O => None
    | S fuel' =>
      let (s, buf) := extract s 2%nat in
      let w := Z.lor (Z.shiftl (nth 0 buf 0) 8) (nth 1 buf 0) in
      if w <? 61445 then c_h2p extract fuel' n' s (x ++ [u16 (c_reduce 5 w)]) else c_h2p extract fuel' n s x
    end
  end.
(** nist.c:360-363 (verifier: one inject of nonce || message), 246-250 (signer: nonce, then message): SHAKE256 *)
Definition c_hash_shake (fuel logn : nat) (inputs : list (list Z)) : option (list Z) :=
  c_h2p shake_read fuel (2 ^ logn) (shake_flip (fold_left shake_update inputs shake_new)) [].

(** keccak_prng.c on the structure of keccak_prng.h; the fields are those of the Python class modelled in PrngModel.v. Return codes: 0, -2, -3 *)
Definition c_inject (s : prng) (data : list Z) : prng * Z :=
  if finalized s then (s, -2)
  else if (Z.to_nat 4096 <? buffer_len s + length data)%nat then (s, -3)
  else (mk_prng (firstn (buffer_len s) (buffer s) ++ data ++ skipn (buffer_len s + length data) (buffer s)) (state s) (buffer_len s + length data) (counter s) (finalized s)
          (out_buffer s) (out_buffer_pos s) (out_buffer_len s), 0).
Section Keccak256.
Variable H : list Z -> list Z.
(** keccak_prng.c:86-105 *)
Definition c_flip (s : prng) : prng * Z :=
  if finalized s then (s, -2)
  else (mk_prng (buffer s) (H (firstn (buffer_len s) (buffer s))) (buffer_len s) (counter s) true (out_buffer s) 0 0, 0).
(** keccak_prng.c:139-166: while (offset < len); the counter is a uint64_t *)
Fixpoint c_extract_loop (fuel : nat) (s : prng) (len offset : nat) (out : list Z) : prng * list Z :=
  if (offset <? len)%nat then
    match fuel with
    | O => (s, out)   (* not reached with fuel >= len *)
    | S fuel' =>
      let block := state s ++ map (fun i => Z.land (Z.shiftr (counter s) (56 - Z.of_nat i * 8)) 0xFF) (seq 0 8) in
      let ob := H block in
      let remaining := (len - offset)%nat in
      let to_copy := if (remaining <? 32)%nat then remaining else 32%nat in
      c_extract_loop fuel' (mk_prng (buffer s) (state s) (buffer_len s) ((counter s + 1) mod 2 ^ 64) (finalized s) ob to_copy 32) len (offset + to_copy) (out ++ firstn to_copy ob)
    end
  else (s, out).
(** keccak_prng.c:110-169, on a finalized context *)
Definition c_extract (s : prng) (len : nat) : prng * list Z :=
  if (out_buffer_pos s <? out_buffer_len s)%nat then
    let available := (out_buffer_len s - out_buffer_pos s)%nat in
    let to_copy := if (len <? available)%nat then len else available in
    let out := slice (out_buffer_pos s) (out_buffer_pos s + to_copy) (out_buffer s) in
    let s := mk_prng (buffer s) (state s) (buffer_len s) (counter s) (finalized s) (out_buffer s) (out_buffer_pos s + to_copy) (out_buffer_len s) in
    if (to_copy =? len)%nat then (s, out) else c_extract_loop len s len to_copy out
  else c_extract_loop len s len 0 [].
(** nist.c:355-358 (verifier): one inject; nist.c:240-244 (signer): nonce, then message. The return codes are not looked at. *)
Definition c_hash_keccak (fuel logn : nat) (inputs : list (list Z)) : option (list Z) :=
  let s := fold_left (fun s d => fst (c_inject s d)) inputs (prng_new (Z.to_nat 4096)) in
  c_h2p c_extract fuel (2 ^ logn) (fst (c_flip s)) [].
End Keccak256.

(** * nist.c, nist16.c *)
(** result of a C function: return 0 with a value, return -1, undefined behaviour (access outside an object), still running *)
Inductive cres (A : Type) := CRet (a : A) | CErr | CUndef | CRunning.
Arguments CRet {A} _. Arguments CErr {A}. Arguments CUndef {A}. Arguments CRunning {A}.
Section Api.
Variable hash : list Z -> option (list Z).           (* nonce || message to the point *)
Variable pklen : nat.                                (* CRYPTO_PUBLICKEYBYTES, ZKNOX_CRYPTO_PUBLICKEYBYTES *)
Variable pkdec : nat -> list Z -> cdec (list Z).     (* max_in_len, bytes *)
Variable tomonty : list Z -> list Z.
Variable sigdec : list Z -> cdec (list Z).
(** nist.c:288-380, nist16.c:293-392: the recovered message *)
Definition sign_open (sm pk : list Z) : cres (list Z) :=
  match pk with
  | [] => CUndef
  | p0 :: pk' =>
    if negb (p0 =? 0x00 + 9) then CErr
    else match pkdec (pklen - 1)%nat pk' with
    | Beyond => CUndef
    | Bad => CErr
    | Dec h used =>
      if negb (used =? pklen - 1)%nat then CErr else
      let h := tomonty h in
      if (length sm <? 2 + 40)%nat then CErr else
      let sig_len := Z.lor (Z.shiftl (nth 0 sm 0) 8) (nth 1 sm 0) in
      if Z.of_nat (length sm) - 2 - 40 <? sig_len then CErr else
      let sig_len := Z.to_nat sig_len in
      let msg_len := (length sm - 2 - 40 - sig_len)%nat in
      let esig := skipn (2 + 40 + msg_len) sm in
      if (sig_len <? 1)%nat || negb (nth 0 esig 0 =? 0x20 + 9) then CErr else
      match sigdec (skipn 1 esig) with
      | Beyond => CUndef
      | Bad => CErr
      | Dec sig used =>
        if negb (used =? sig_len - 1)%nat then CErr else
        match hash (slice 2 (2 + 40 + msg_len) sm) with
        | None => CRunning
        | Some hm => if verify_raw 9 hm sig h then CRet (slice (2 + 40) (2 + 40 + msg_len) sm) else CErr
        end
      end
    end
  end.
End Api.
Definition dec_of {A} (r : option (A * nat)) : cdec A := match r with Some (x, v) => Dec x v | None => Bad end.
(** nist.c:288-380 *)
Definition crypto_sign_open (hash : list Z -> option (list Z)) : list Z -> list Z -> cres (list Z) :=
  sign_open hash 897 (c_modq_decode 9) (to_ntt_monty 9) (fun d => dec_of (c_comp_decode 9 d)).
(** nist16.c:283-291, 293-392; the bytes given to comp_decode16 are the rest of sm *)
Definition to_monty (h : list Z) : list Z := map (fun x => u16 (u32 (x * 4091) mod 12289)) h.
Definition zknox_crypto_sign_open (hash : list Z -> option (list Z)) : list Z -> list Z -> cres (list Z) :=
  sign_open hash (Z.to_nat 1025) (c_modq_decode16 9) to_monty (fun d => c_comp_decode16 9 (length d) d).

(** nist.c:252-281, nist16.c: after sign_dyn, which gives [sig]; [enc] is comp_encode into 647 bytes, or comp_encode16 *)
Definition sign_frame (enc : list Z -> option (list Z)) (nonce m sig : list Z) : option (list Z) :=
  match enc sig with
  | None => None
  | Some e =>
    let sig_len := Z.of_nat (length e + 1) in
    Some ([Z.shiftr sig_len 8 mod 256; sig_len mod 256] ++ nonce ++ m ++ (0x20 + 9) :: e)
  end.
(** nist.c:175-282; [sk_sign sk hm]: decoding of the key and sign_dyn, None: return -1; [hash2 nonce m] *)
Definition crypto_sign (hash2 : list Z -> list Z -> option (list Z)) (sk_sign : list Z -> list Z -> option (list Z)) (nonce m sk : list Z) : cres (list Z) :=
  match hash2 nonce m with
  | None => CRunning
  | Some hm => match sk_sign sk hm with
               | None => CErr
               | Some sig => match sign_frame (c_comp_encode 647) nonce m sig with None => CErr | Some sm => CRet sm end
               end
  end.

(** * falcon.go, geth/contracts.go *)
(** a Go call returns, panics, runs into undefined behaviour of C, or is still running *)
Inductive gores (A : Type) := GoRet (a : A) | GoPanic | GoUndef | GoRunning.
Arguments GoRet {A} _. Arguments GoPanic {A}. Arguments GoUndef {A}. Arguments GoRunning {A}.
Definition zlist_eqb (a b : list Z) : bool := if list_eq_dec Z.eq_dec a b then true else false.
(** falcon.go:62-80: &signature[0] and &pk[0] panic on empty slices; m has 1024 bytes. The pair is (result, error?) *)
Definition VerifySignature (hash : list Z -> option (list Z)) (signature message pk : list Z) : gores (bool * bool) :=
  match signature, pk with
  | [], _ | _, [] => GoPanic
  | _, _ =>
    match crypto_sign_open hash signature pk with
    | CErr => GoRet (false, true)
    | CUndef => GoUndef
    | CRunning => GoRunning
    | CRet m => if (1024 <? length m)%nat then GoUndef else GoRet (zlist_eqb m message, false)
    end
  end.
(** falcon.go:46-60: sm has 1330 bytes; None: an error *)
Definition SignMessage hash2 sk_sign (nonce message sk : list Z) : gores (option (list Z)) :=
  match message, sk with
  | [], _ | _, [] => GoPanic
  | _, _ =>
    match crypto_sign hash2 sk_sign nonce message sk with
    | CErr => GoRet None
    | CUndef => GoUndef
    | CRunning => GoRunning
    | CRet sm => if (1330 <? length sm)%nat then GoUndef else GoRet (Some sm)
    end
  end.
(** geth/contracts.go:1202-1241 after the arguments are unpacked: the 32 bytes returned *)
Definition falconvrfy_run hash (sig msg pub : list Z) : gores (list Z) :=
  match VerifySignature hash sig msg pub with
  | GoRet (ok, _) => GoRet (repeat 0 31 ++ [if ok then 1 else 0])
  | GoPanic => GoPanic | GoUndef => GoUndef | GoRunning => GoRunning
  end.
