(** More of the C implementation: division modulo q and the key arithmetic of vrfy.c, the fixed-width encoders and the secret-key codec of codec.c,
    decoding of secret keys and framing of key pairs (nist.c, nist16.c), and epervier16.c.
    Parameters: Zf(keygen), Zf(sign_dyn), randombytes (floating point and randomness). Conventions of CModel.v. *)
From Verif Require Import Base KeccakModel HashModel CTables CModel.

(** * vrfy.c *)
(** vrfy.c:427-431 *)
Definition mq_montysqr (x : Z) : Z := mq_montymul x x.
(** vrfy.c:437-497: y18, the inverse of y in Montgomery representation *)
Definition mq_inv_chain (y : Z) : Z :=
  let y0 := mq_montymul y CR2 in
  let y1 := mq_montysqr y0 in
  let y2 := mq_montymul y1 y0 in
  let y3 := mq_montymul y2 y1 in
  let y4 := mq_montysqr y3 in
  let y5 := mq_montysqr y4 in
  let y6 := mq_montysqr y5 in
  let y7 := mq_montysqr y6 in
  let y8 := mq_montysqr y7 in
  let y9 := mq_montymul y8 y2 in
  let y10 := mq_montymul y9 y8 in
  let y11 := mq_montysqr y10 in
  let y12 := mq_montysqr y11 in
  let y13 := mq_montymul y12 y9 in
  let y14 := mq_montysqr y13 in
  let y15 := mq_montysqr y14 in
  let y16 := mq_montymul y15 y10 in
  let y17 := mq_montysqr y16 in
  mq_montymul y17 y0.
(** vrfy.c:437-497 *)
Definition mq_div_12289 (x y : Z) : Z := mq_montymul (mq_inv_chain y) x.
(** vrfy.c:659-681 (the array of 512 entries suffices for logn <= 9) *)
Definition hint_epervier (logn : nat) (s2 : list Z) : Z :=
  let s := mq_poly_tomonty (mq_NTT logn (map c_lift s2)) in
  let hint := fold_left (fun hint x => u16 (mq_montymul hint x)) s 1 in
  u16 (mq_div_12289 1 hint).
(** vrfy.c:734-759; mq_conv_small (vrfy.c:324-337) is the computation of c_lift. None is return 0. *)
Definition compute_public (logn : nat) (f g : list Z) : option (list Z) :=
  let tt := mq_NTT logn (map c_lift f) in
  let h := mq_NTT logn (map c_lift g) in
  if existsb (fun t => t =? 0) tt then None
  else Some (mq_iNTT logn (map (fun '(x, t) => u16 (mq_div_12289 x t)) (combine h tt))).
(** vrfy.c:800-802: the coefficient as an int32_t *)
Definition c_small (w : Z) : Z :=
  let w := u32 (w - Z.land CQ (Z.lxor 0xFFFFFFFF (u32 (- Z.shiftr (u32 (w - Z.shiftr CQ 1)) 31)))) in
  if w <? 2 ^ 31 then w else w - 2 ^ 32.
(** vrfy.c:762-810 *)
Definition c_complete_private (logn : nat) (f g F : list Z) : option (list Z) :=
  let t1 := mq_NTT logn (map c_lift g) in
  let t2 := mq_NTT logn (map c_lift F) in
  let t1 := mq_poly_montymul_ntt (mq_poly_tomonty t1) t2 in
  let t2 := mq_NTT logn (map c_lift f) in
  if existsb (fun t => t =? 0) t2 then None
  else
    let G := map c_small (mq_iNTT logn (map (fun '(x, t) => u16 (mq_div_12289 x t)) (combine t1 t2))) in
    if existsb (fun gi => (gi <? -127) || (127 <? gi)) G then None else Some G.
(** the loops r |= tt[u] - 1 of vrfy.c:831-835, 878-883 and 935-940 *)
Definition zero_flag (tt : list Z) : Z := fold_left (fun r t => Z.lor r (u32 (t - 1))) tt 0.
(** vrfy.c:813-837 *)
Definition is_invertible (logn : nat) (s2 : list Z) : Z := u32 (1 - Z.shiftr (zero_flag (mq_NTT logn (map c_lift s2))) 31).
(** vrfy.c:953-979 *)
Definition count_nttzero (logn : nat) (s : list Z) : Z :=
  fold_left (fun r t => u32 (r + Z.shiftr (u32 (t - 1)) 31)) (mq_NTT logn (map c_lift s)) 0.
(** vrfy.c:863-866, 920-923: c0 - s1 *)
Definition c_diff (c0 s1 : list Z) : list Z := map (fun '(c, s) => let w := u32 s in u16 (mq_sub c (u32 (w + qmask w)))) (combine c0 s1).
(** vrfy.c:876-883 and 933-940: the quotient in transformed form *)
Definition c_quot (logn : nat) (c0 s1 s2 : list Z) : list Z :=
  map (fun '(x, t) => u16 (mq_div_12289 x t)) (combine (mq_NTT logn (c_diff c0 s1)) (mq_NTT logn (map c_lift s2))).
(** vrfy.c:892-893 and 948-949: the value returned *)
Definition c_recover_ok (logn : nat) (s1 s2 : list Z) : Z :=
  let r := zero_flag (mq_NTT logn (map c_lift s2)) in
  Z.shiftr (Z.land (Z.lxor 0xFFFFFFFF r) (u32 (- if is_short logn s1 s2 then 1 else 0))) 31.
(** vrfy.c:840-894: h and the value returned *)
Definition verify_recover (logn : nat) (c0 s1 s2 : list Z) : list Z * Z := (mq_iNTT logn (c_quot logn c0 s1 s2), c_recover_ok logn s1 s2).
(** vrfy.c:897-950 *)
Definition verify_recover_epervier (logn : nat) (c0 s1 s2 : list Z) : list Z * Z := (c_quot logn c0 s1 s2, c_recover_ok logn s1 s2).

(** * codec.c *)
(** while (acc_len >= 8): the bytes written; [acc_len] rounds suffice *)
Fixpoint cput (fuel : nat) (acc : Z) (acc_len : nat) (out : list Z) : nat * list Z :=
  if (8 <=? acc_len)%nat then
    match fuel with O => (acc_len, out) | S fuel' => cput fuel' acc (acc_len - 8) (out ++ [Z.shiftr acc (Z.of_nat (acc_len - 8)) mod 256]) end
  else (acc_len, out).
(** codec.c:61-71 (width 14), 101-113 (width 16), 324-334 (width bits, fields masked) *)
Fixpoint cpack_loop (width : nat) (fields : list Z) (acc : Z) (acc_len : nat) (out : list Z) : list Z :=
  match fields with
  | [] => if (0 <? acc_len)%nat then out ++ [u32 (Z.shiftl acc (8 - Z.of_nat acc_len)) mod 256] else out
  | w :: fields' =>
    let acc := Z.lor (u32 (Z.shiftl acc (Z.of_nat width))) w in
    let acc_len := (acc_len + width)%nat in
    let (acc_len, out) := cput acc_len acc acc_len out in cpack_loop width fields' acc acc_len out
  end.
(** codec.c:36-73, 77-115, 295-336; the fields of n values, written to a buffer of [max] bytes; None is return 0 *)
Definition cpack (width : nat) (field : Z -> option Z) (max : nat) (x : list Z) : option (list Z) :=
  if existsb (fun v => match field v with None => true | _ => false end) x then None
  else if (max <? (length x * width + 7) / 8)%nat then None
  else Some (cpack_loop width (map (fun v => match field v with Some w => w | None => 0 end) x) 0 0 []).
Definition cmodq_field (v : Z) : option Z := if 12289 <=? v then None else Some v.
Definition c_modq_encode := cpack 14 cmodq_field.
Definition c_modq_encode16 := cpack 16 cmodq_field.
(** codec.c:306-312, 325: minv, maxv and (uint8_t)x[u] & mask *)
Definition ctrim_field (bits : nat) (v : Z) : option Z :=
  let maxv := Z.shiftl 1 (Z.of_nat bits - 1) - 1 in
  if (v <? - maxv) || (maxv <? v) then None else Some (Z.land (v mod 256) (Z.shiftl 1 (Z.of_nat bits) - 1)).
Definition c_trim_i8_encode (bits : nat) := cpack bits (ctrim_field bits).
(** codec.c:364-377: while (acc_len >= bits && u < n); w is a uint32_t, -mask2 its two's complement; the int8_t stored *)
Definition i8 (x : Z) : Z := (x + 2 ^ 7) mod 2 ^ 8 - 2 ^ 7.
Definition ctrim_conv (bits : nat) (w : Z) : option Z :=
  let mask2 := Z.shiftl 1 (Z.of_nat bits - 1) in
  let w := Z.lor w (u32 (- Z.land w mask2)) in
  if w =? u32 (- mask2) then None else Some (i8 w).
Fixpoint ctrim_inner (bits todo : nat) (acc : Z) (acc_len : nat) (x : list Z) : option (nat * nat * list Z) :=
  match todo with
  | O => Some (O, acc_len, x)
  | S todo' =>
    if (bits <=? acc_len)%nat then
      match ctrim_conv bits (Z.land (Z.shiftr acc (Z.of_nat (acc_len - bits))) (Z.shiftl 1 (Z.of_nat bits) - 1)) with
      | None => None
      | Some w => ctrim_inner bits todo' acc (acc_len - bits) (x ++ [w])
      end
    else Some (todo, acc_len, x)
  end.
(** codec.c:361-384 *)
Fixpoint ctrim_loop (bits todo : nat) (data : list Z) (acc : Z) (acc_len : nat) (x : list Z) : cdec (list Z) :=
  match todo with
  | O => if Z.land acc (u32 (Z.shiftl 1 (Z.of_nat acc_len)) - 1) =? 0 then Dec x 0 else Bad
  | S _ =>
    match data with
    | [] => Beyond
    | b :: data' =>
      let acc := Z.lor (u32 (Z.shiftl acc 8)) b in
      match ctrim_inner bits todo acc (acc_len + 8) x with
      | None => Bad
      | Some (todo, acc_len, x) => ctrim_loop bits todo data' acc acc_len x
      end
    end
  end.
(** codec.c:340-386 *)
Definition c_trim_i8_decode (bits logn max_in_len : nat) (data : list Z) : cdec (list Z) :=
  let n := (2 ^ logn)%nat in
  let in_len := ((n * bits + 7) / 8)%nat in
  if (max_in_len <? in_len)%nat then Bad
  else match ctrim_loop bits n data 0 0 [] with Dec x _ => Dec x in_len | r => r end.
(** codec.c:677-703 *)
Definition max_fg_bits : list nat := [0; 8; 8; 8; 8; 8; 7; 7; 6; 6; 5]%nat.
Definition max_FG_bits : list nat := [0; 8; 8; 8; 8; 8; 8; 8; 8; 8; 8]%nat.

(** * nist.c, nist16.c, epervier16.c *)
(** nist.c:194-230, nist16.c:199-235 and epervier16.c:83-110: decoding of a secret key of CRYPTO_SECRETKEYBYTES = 1281 bytes *)
Definition decode_sk (sk : list Z) : cres (list Z * list Z * list Z * list Z) :=
  match sk with
  | [] => CUndef
  | h0 :: _ =>
    if negb (h0 =? 0x50 + 9) then CErr else
    let u := 1%nat in
    match c_trim_i8_decode (nth 9 max_fg_bits 0%nat) 9 (Z.to_nat 1281 - u) (skipn u sk) with
    | Beyond => CUndef | Bad => CErr
    | Dec f v =>
      let u := (u + v)%nat in
      match c_trim_i8_decode (nth 9 max_fg_bits 0%nat) 9 (Z.to_nat 1281 - u) (skipn u sk) with
      | Beyond => CUndef | Bad => CErr
      | Dec g v =>
        let u := (u + v)%nat in
        match c_trim_i8_decode (nth 9 max_FG_bits 0%nat) 9 (Z.to_nat 1281 - u) (skipn u sk) with
        | Beyond => CUndef | Bad => CErr
        | Dec F v =>
          let u := (u + v)%nat in
          if negb (u =? Z.to_nat 1281)%nat then CErr
          else match c_complete_private 9 f g F with None => CErr | Some G => CRet (f, g, F, G) end
        end
      end
    end
  end.
(** nist.c:52-93, 126-167, nist16.c:54-96, 130-171: after keygen gave f, g, F, h; [penc] is modq_encode into 896 bytes, or modq_encode16 (of to_ntt(h)) into 1024 bytes *)
Definition encode_sk (f g F : list Z) : option (list Z) :=
  let u := 1%nat in
  match c_trim_i8_encode (nth 9 max_fg_bits 0%nat) (Z.to_nat 1281 - u) f with
  | None => None
  | Some ef =>
    let u := (u + length ef)%nat in
    match c_trim_i8_encode (nth 9 max_fg_bits 0%nat) (Z.to_nat 1281 - u) g with
    | None => None
    | Some eg =>
      let u := (u + length eg)%nat in
      match c_trim_i8_encode (nth 9 max_FG_bits 0%nat) (Z.to_nat 1281 - u) F with
      | None => None
      | Some eF => let u := (u + length eF)%nat in if negb (u =? Z.to_nat 1281)%nat then None else Some ((0x50 + 9) :: ef ++ eg ++ eF)
      end
    end
  end.
(** the pair is (pk, sk) *)
Definition keypair_frame (f g F h : list Z) : option (list Z * list Z) :=
  match encode_sk f g F with
  | None => None
  | Some sk => match c_modq_encode 896 h with None => None | Some e => Some (9 :: e, sk) end
  end.
Definition zknox_keypair_frame (f g F h : list Z) : option (list Z * list Z) :=
  match encode_sk f g F with
  | None => None
  | Some sk => match c_modq_encode16 (Z.to_nat 1024) (mq_NTT 9 h) with None => None | Some e => Some (9 :: e, sk) end
  end.
(** epervier16.c:26-58: the public key after the call; what follows the first 1025 bytes is not written *)
Definition zknox_pk_epervier (pk : list Z) : cres (list Z) :=
  match pk with
  | [] => CUndef
  | p0 :: pk' =>
    if negb (p0 =? 9) then CErr
    else match c_modq_decode16 9 (Z.to_nat 1024) pk' with
    | Beyond => CUndef | Bad => CErr
    | Dec h used =>
      if negb (used =? Z.to_nat 1024)%nat then CErr
      else match c_modq_encode16 (Z.to_nat 1024) (mq_NTT 9 h) with
           | None => CErr
           | Some e => CRet (9 :: e ++ skipn (Z.to_nat 1024) pk')
           end
    end
  end.
(** epervier16.c:148-183: after sign_dyn gave s1 and s2 *)
Definition ep_frame (nonce m s1 s2 : list Z) : option (list Z) :=
  match c_comp_encode16 s1 with
  | None => None
  | Some e1 =>
    match c_comp_encode16 s2 with
    | None => None
    | Some e2 =>
      let sig_len := Z.of_nat (length e1 + 1 + length e2 + 1 + 2) in
      let hint := hint_epervier 9 s2 in
      Some ([Z.shiftr sig_len 8 mod 256; sig_len mod 256] ++ nonce ++ m ++ (0x20 + 9) :: e1 ++ (0x20 + 9) :: e2 ++ [Z.shiftr hint 8 mod 256; hint mod 256])
    end
  end.
(** epervier16.c:143-146: do sign_dyn while s2 is not invertible; [smp i] is what the i-th call gives; None: still running *)
Fixpoint ep_attempts (fuel i : nat) (smp : nat -> list Z * list Z) : option (list Z * list Z) :=
  match fuel with
  | O => None
  | S fuel' => let (s1, s2) := smp i in if is_invertible 9 s2 =? 0 then ep_attempts fuel' (S i) smp else Some (s1, s2)
  end.
(** epervier16.c:60-184 *)
Definition zknox_crypto_sign_epervier (hash2 : list Z -> list Z -> option (list Z)) (sign_dyn : list Z * list Z * list Z * list Z -> list Z -> nat -> list Z * list Z)
    (fuel : nat) (nonce m sk : list Z) : cres (list Z) :=
  match decode_sk sk with
  | CErr => CErr | CUndef => CUndef | CRunning => CRunning
  | CRet key =>
    match hash2 nonce m with
    | None => CRunning
    | Some hm =>
      match ep_attempts fuel 0 (sign_dyn key hm) with
      | None => CRunning
      | Some (s1, s2) => match ep_frame nonce m s1 s2 with None => CErr | Some sm => CRet sm end
      end
    end
  end.
(** epervier16.c:186-272. The reads esig[0], esig[1025] and those of comp_decode16 are not checked against smlen. *)
Definition zknox_crypto_sign_open_epervier (hash : list Z -> option (list Z)) (sm pk : list Z) : cres (list Z) :=
  match pk with
  | [] => CUndef
  | p0 :: pk' =>
    if negb (p0 =? 9) then CErr
    else match c_modq_decode16 9 (Z.to_nat 1024) pk' with
    | Beyond => CUndef | Bad => CErr
    | Dec h used =>
      if negb (used =? Z.to_nat 1024)%nat then CErr else
      if (length sm <? 2 + 40)%nat then CErr else
      let sig_len := Z.lor (Z.shiftl (nth 0 sm 0) 8) (nth 1 sm 0) in
      if Z.of_nat (length sm) - 2 - 40 <? sig_len then CErr else
      let sig_len := Z.to_nat sig_len in
      let msg_len := (length sm - 2 - 40 - sig_len)%nat in
      let esig := skipn (2 + 40 + msg_len) sm in
      if (sig_len <? 1)%nat || negb (nth 0 esig 0 =? 0x20 + 9) then CErr else
      if (length esig <=? Z.to_nat 1025)%nat then CUndef else
      if negb (nth (Z.to_nat 1025) esig 0 =? 0x20 + 9) then CErr else
      match c_comp_decode16 9 (Z.to_nat 1024) (skipn 1 esig) with
      | Beyond => CUndef | Bad => CErr
      | Dec s1 used1 =>
        if negb (used1 =? Z.to_nat 1024)%nat then CErr else
        match c_comp_decode16 9 (Z.to_nat 1024) (skipn (Z.to_nat 1026) esig) with
        | Beyond => CUndef | Bad => CErr
        | Dec s2 used2 =>
          if negb (used2 =? Z.to_nat 1024)%nat then CErr else
          match hash (slice 2 (2 + 40 + msg_len) sm) with
          | None => CRunning
          | Some hm =>
            let (h2, ok) := verify_recover_epervier 9 hm s1 s2 in
            if ok =? 0 then CErr
            else if zlist_eqb h h2 then CRet (slice (2 + 40) (2 + 40 + msg_len) sm) else CErr
          end
        end
      end
    end
  end.
