(** Model of /repo/pythonref/falcon_codec.py (modq_*, trim_i8_* codecs) and of
    PublicKey.from_bytes (/repo/pythonref/falcon.py:236-285). *)
From Verif Require Import Base.

Definition q : Z := 12289.   (* common.py:5 *)

(** bytearray(out_len) with sequential writes: [out] are the bytes written so far
    (buf_pos = length out).  Writing past the end raises IndexError.
    Simplification: the unwritten tail (zeros) is appended at the end by [finish]. *)
Definition buf_write (out_len : nat) (out : list Z) (b : Z) : res (list Z) :=
  if (length out <? out_len)%nat then Ok (out ++ [b]) else Raise IndexError.

(** falcon_codec.py:50-53 and 125-128: while acc_len >= 8.  [fuel] = acc_len suffices. *)
Fixpoint flush8 (fuel : nat) (out_len : nat) (acc : Z) (acc_len : nat) (out : list Z)
  : res (nat * list Z) :=
  if (8 <=? acc_len)%nat then
    match fuel with
    | O => Raise OtherException    (* unreachable with fuel >= acc_len *)
    | S fuel' =>
      let acc_len := (acc_len - 8)%nat in
      let! out := buf_write out_len out (Z.land (Z.shiftr acc (Z.of_nat acc_len)) 0xFF) in
      flush8 fuel' out_len acc acc_len out
    end
  else Ok (acc_len, out).

(** falcon_codec.py:45-53 (field = coef, width 14) and 120-128 (field = coef & mask, width bits).
    [field coef] is [None] when the range check raises ValueError. *)
Fixpoint encode_loop (field : Z -> option Z) (width : nat) (out_len : nat)
    (x : list Z) (acc : Z) (acc_len : nat) (out : list Z) : res (Z * nat * list Z) :=
  match x with
  | [] => Ok (acc, acc_len, out)
  | coef :: x' =>
    match field coef with
    | None => Raise ValueError
    | Some w =>
      let acc := Z.lor (Z.shiftl acc (Z.of_nat width)) w in
      let acc_len := (acc_len + width)%nat in
      let! (acc_len, out) := flush8 acc_len out_len acc acc_len out in
      encode_loop field width out_len x' acc acc_len out
    end
  end.

(** falcon_codec.py:39-58 / 110-133: the whole encoder. *)
Definition encode_gen (field : Z -> option Z) (width : nat) (x : list Z) (n : nat) : res (list Z) :=
  let out_len := ((n * width + 7) / 8)%nat in
  let! (acc, acc_len, out) := encode_loop field width out_len x 0 0 [] in
  let! out := if (0 <? acc_len)%nat
              then buf_write out_len out (Z.land (Z.shiftl acc (8 - Z.of_nat acc_len)) 0xFF)
              else Ok out in
  Ok (out ++ repeat 0 (out_len - length out)).

(** falcon_codec.py:28-58 modq_encode; lines 46-47 are the range check. *)
Definition modq_encode (x : list Z) (n : nat) : res (list Z) :=
  encode_gen (fun coef => if (12289 <=? coef) || (coef <? 0) then None else Some coef) 14 x n.

(** falcon_codec.py:98-133 trim_i8_encode, for bits >= 1 (bits = 0 makes 1 << -1 raise:
    not modelled).  Lines 121-123: range check and masking. *)
Definition trim_i8_encode (x : list Z) (n bits : nat) : res (list Z) :=
  let mask := Z.shiftl 1 (Z.of_nat bits) - 1 in
  let maxv := Z.shiftl 1 (Z.of_nat bits - 1) - 1 in
  let minv := - maxv in
  encode_gen (fun coef => if (coef <? minv) || (maxv <? coef) then None
                          else Some (Z.land coef mask)) bits x n.

(** falcon_codec.py:81-90: the modq decoding loop, [todo] = n - len(x); recursion on the
    unread bytes.  Reading past the end would raise IndexError. *)
Fixpoint modq_decode_loop (todo : nat) (data : list Z) (acc : Z) (acc_len : nat) (x : list Z)
  : res (list Z * Z * nat) :=
  match todo with
  | O => Ok (x, acc, acc_len)
  | S todo' =>
    match data with
    | [] => Raise IndexError
    | b :: data' =>
      let acc := Z.lor (Z.shiftl acc 8) b in
      let acc_len := (acc_len + 8)%nat in
      if (14 <=? acc_len)%nat then
        let acc_len := (acc_len - 14)%nat in
        let w := Z.land (Z.shiftr acc (Z.of_nat acc_len)) 0x3FFF in
        if 12289 <=? w then Raise ValueError
        else modq_decode_loop todo' data' acc acc_len (x ++ [w])
      else modq_decode_loop todo data' acc acc_len x
    end
  end.

(** falcon_codec.py:61-95 *)
Definition modq_decode (data : list Z) (n : nat) : res (list Z) :=
  let in_len := ((n * 14 + 7) / 8)%nat in
  if (length data <? in_len)%nat then Raise ValueError
  else
    let! (x, acc, acc_len) := modq_decode_loop n data 0 0 [] in
    if negb (Z.land acc (Z.shiftl 1 (Z.of_nat acc_len) - 1) =? 0) then Raise ValueError
    else Ok x.

(** falcon_codec.py:163-171: the inner loop of trim_i8_decode:
    while acc_len >= bits and len(x) < n.  Recursion on [todo] = n - len(x). *)
Fixpoint trim_inner (bits : nat) (todo : nat) (acc : Z) (acc_len : nat) (x : list Z)
  : res (nat * nat * list Z) :=
  match todo with
  | O => Ok (O, acc_len, x)
  | S todo' =>
    if (bits <=? acc_len)%nat then
      let acc_len := (acc_len - bits)%nat in
      let mask1 := Z.shiftl 1 (Z.of_nat bits) - 1 in
      let mask2 := Z.shiftl 1 (Z.of_nat bits - 1) in
      let w := Z.land (Z.shiftr acc (Z.of_nat acc_len)) mask1 in
      let w := Z.lor w (- Z.land w mask2) in
      if w =? - mask2 then Raise ValueError
      else trim_inner bits todo' acc acc_len (x ++ [w])
    else Ok (todo, acc_len, x)
  end.

(** falcon_codec.py:159-171: the outer loop. *)
Fixpoint trim_decode_loop (bits : nat) (todo : nat) (data : list Z) (acc : Z) (acc_len : nat) (x : list Z)
  : res (list Z * Z * nat) :=
  match todo with
  | O => Ok (x, acc, acc_len)
  | S _ =>
    match data with
    | [] => Raise IndexError
    | b :: data' =>
      let acc := Z.lor (Z.shiftl acc 8) b in
      let acc_len := (acc_len + 8)%nat in
      let! (todo, acc_len, x) := trim_inner bits todo acc acc_len x in
      trim_decode_loop bits todo data' acc acc_len x
    end
  end.

(** falcon_codec.py:136-176 (bits >= 1). *)
Definition trim_i8_decode (data : list Z) (n bits : nat) : res (list Z) :=
  let in_len := ((n * bits + 7) / 8)%nat in
  if (length data <? in_len)%nat then Raise ValueError
  else
    let! (x, acc, acc_len) := trim_decode_loop bits n data 0 0 [] in
    if negb (Z.land acc (Z.shiftl 1 (Z.of_nat acc_len) - 1) =? 0) then Raise ValueError
    else Ok x.

(** falcon.py:270-280: inner while of from_bytes. fuel = acc_bits. *)
Fixpoint from_bytes_inner (fuel : nat) (n : nat) (acc : Z) (acc_bits : nat) (h : list Z)
  : res (Z * nat * list Z) :=
  if ((14 <=? acc_bits)%nat && (length h <? n)%nat)%bool then
    match fuel with
    | O => Raise OtherException   (* unreachable with fuel >= acc_bits *)
    | S fuel' =>
      let acc_bits := (acc_bits - 14)%nat in
      let val := Z.land (Z.shiftr acc (Z.of_nat acc_bits)) 0x3FFF in
      if 12289 <=? val then Raise ValueError
      else from_bytes_inner fuel' n (Z.land acc (Z.shiftl 1 (Z.of_nat acc_bits) - 1)) acc_bits (h ++ [val])
    end
  else Ok (acc, acc_bits, h).

(** falcon.py:266-280: for b in data. *)
Fixpoint from_bytes_loop (n : nat) (data : list Z) (acc : Z) (acc_bits : nat) (h : list Z)
  : res (list Z) :=
  match data with
  | [] => Ok h
  | b :: data' =>
    let acc := Z.lor (Z.shiftl acc 8) b in
    let acc_bits := (acc_bits + 8)%nat in
    let! (acc, acc_bits, h) := from_bytes_inner acc_bits n acc acc_bits h in
    from_bytes_loop n data' acc acc_bits h
  end.

(** falcon.py:236-285; the constructed PublicKey is the pair (n, h). *)
Definition from_bytes (pk : list Z) : res (nat * list Z) :=
  if negb ((length pk =? 897) || (length pk =? 1792))%nat then Raise ValueError
  else
    let hdr := nth 0 pk 0 in
    let! n := if hdr =? 0x09 then Ok 512%nat
              else if hdr =? 0x0A then Ok 1024%nat else Raise ValueError in
    let! h := from_bytes_loop n (skipn 1 pk) 0 0 [] in
    if negb (length h =? n)%nat then Raise ValueError else Ok (n, h).
