(** Model of the on-chain decoders of /repo/src/ZKNOX_falcon_encodings.sol (_decompress_sig, decompress_KAT) and
    /repo/src/ZKNOX_falcon_utils.sol:133-165 (_ZKNOX_NTT_Decompress), and of the framing side of
    /repo/pythonref/scripts/generate_kat_rsp.py (encode_public_key, the frame built by sign_message). *)
From Verif Require Import Base EncodingModel.

(** The byte at buf + 32 + v.  Inside the buffer it is buf[v]; assembly mload does no bounds check, so past the end it is whatever
    lies in memory there: [tail v].  Every position is read at most once (v only grows), so a memory that changes during the call
    (the array x is written while buf is read) is covered by ranging over all functions [tail]. *)
Definition mem_byte (buf : list Z) (tail : nat -> Z) (v : nat) : Z :=
  if (v <? length buf)%nat then nth v buf 0 else tail v.

Section DecompressSig.
(** [accw]: number of bits of acc that survive an assignment.  acc is declared uint32 but assigned in assembly, where it is a full
    256-bit stack slot (the compiler may or may not clean it): the theorems range over every accw >= 16. *)
Variables (accw : Z) (rd : nat -> Z).

(** ZKNOX_falcon_encodings.sol:34 and 42: acc := or(shl(8, acc), byte) *)
Definition acc_push (acc b : Z) : Z := Z.lor (Z.shiftl acc 8) b mod 2 ^ accw.

(** ZKNOX_falcon_encodings.sol:40-59, the for loop; [fuel] 16 is enough because m grows by 128 and m > 2047 reverts.
    Returns (acc, acc_len, v, m). *)
Fixpoint sig_high (fuel : nat) (acc acc_len : Z) (v : nat) (m : Z) : res (Z * Z * nat * Z) :=
  match fuel with
  | O => Raise OtherException     (* unreachable *)
  | S f =>
    let '(acc, v, acc_len) := if 0 =? acc_len then (acc_push acc (rd v), S v, 8) else (acc, v, acc_len) in
    let acc_len := acc_len - 1 in
    if negb (Z.land (Z.shiftr acc acc_len) 1 =? 0) then Ok (acc, acc_len, v, m)      (* lines 47-50: break *)
    else
      let m := m + 128 in                                                             (* line 52 *)
      if 2047 <? m then Raise Revert                                                  (* lines 53-58 *)
      else sig_high f acc acc_len v m
  end.

(** ZKNOX_falcon_encodings.sol:24-77, for u in 0..n-1; [todo] = n - u. Returns x and v. *)
Fixpoint sig_loop (todo : nat) (acc acc_len : Z) (v : nat) (x : list Z) : res (list Z * nat) :=
  match todo with
  | O => Ok (x, v)
  | S todo' =>
    let acc := acc_push acc (rd v) in                                                 (* lines 33-34 *)
    let v := S v in
    let b := Z.shiftr acc acc_len in
    let s := Z.land b 128 in
    let m := Z.land b 127 in
    let! (acc, acc_len, v, m) := sig_high 16 acc acc_len v m in
    let temp := if 0x80 =? s then 12289 - m else m in                                 (* lines 69-75 *)
    sig_loop todo' acc acc_len v (x ++ [temp])
  end.

(** ZKNOX_falcon_encodings.sol:17-87 *)
Definition decompress_sig_from (offset : nat) : res (list Z) :=
  let! (x, v) := sig_loop 512 0 0 offset [] in
  if (666 <=? v - offset)%nat then Raise Revert else Ok x.
End DecompressSig.

Definition decompress_sig (accw : Z) (buf : list Z) (tail : nat -> Z) (offset : nat) : res (list Z) :=
  decompress_sig_from accw (mem_byte buf tail) offset.

(** ZKNOX_falcon_utils.sol:140-157; [todo] = n - u, [data] the bytes of buf from cpt on: buf[cpt] past the end is Panic(0x32).
    uint32: acc << 8 drops the bits above 32. *)
Fixpoint ntt_decompress_loop (todo : nat) (data : list Z) (acc : Z) (acc_len : nat) (x : list Z) : res (list Z * Z * nat) :=
  match todo with
  | O => Ok (x, acc, acc_len)
  | S todo' =>
    match data with
    | [] => Raise Revert
    | b :: data' =>
      let acc := Z.lor (Z.shiftl acc 8 mod 2 ^ 32) b in
      let acc_len := (acc_len + 8)%nat in
      if (14 <=? acc_len)%nat then
        let acc_len := (acc_len - 14)%nat in
        let w := Z.land (Z.shiftr acc (Z.of_nat acc_len)) 0x3FFF in
        if 12289 <=? w then Raise Revert
        else ntt_decompress_loop todo' data' acc acc_len (x ++ [w])
      else ntt_decompress_loop todo data' acc acc_len x
    end
  end.

(** ZKNOX_falcon_utils.sol:133-165 *)
Definition NTT_Decompress (buf : list Z) (offset : nat) : res (list Z) :=
  let! (x, acc, acc_len) := ntt_decompress_loop 512 (skipn offset buf) 0 0 [] in
  if negb (Z.land acc (Z.shiftl 1 (Z.of_nat acc_len) - 1) =? 0) then Raise Revert
  else Ok x.

(** Checked byte access sm[i] in Solidity. *)
Definition byte_at (b : list Z) (i : nat) : res Z :=
  match nth_error b i with Some x => Ok x | None => Raise Revert end.

(** ZKNOX_falcon_encodings.sol:115-117 and 119-121: the copy loops, k bytes from position i *)
Fixpoint copy_bytes (b : list Z) (i k : nat) : res (list Z) :=
  match k with
  | O => Ok []
  | S k' => let! x := byte_at b i in let! r := copy_bytes b (S i) k' in Ok (x :: r)
  end.

(** ZKNOX_falcon_encodings.sol:98-130.  Line 102 reads sm[0], sm[1] (checked) but the value slen is not used.
    [tail]: memory after sm, as for decompress_sig. *)
Definition decompress_KAT (accw : Z) (pk sm : list Z) (tail : nat -> Z) (mlen : nat) : res (list Z * list Z * list Z * list Z) :=
  let! _ := byte_at sm 0 in
  let! _ := byte_at sm 1 in
  let! p0 := byte_at pk 0 in
  if negb (p0 =? 0x09) then Raise Revert else
  let! h := NTT_Decompress pk 1 in
  let! salt := copy_bytes sm 2 40 in
  let! message := copy_bytes sm 42 mlen in
  let! hd := byte_at sm (2 + 40 + mlen) in
  if negb (hd =? 0x29) then Raise Revert else
  let! s2 := decompress_sig accw sm tail (2 + 40 + mlen + 1) in
  Ok (h, s2, salt, message).

(** scripts/generate_kat_rsp.py:84-88: int(bits[i:i+8], 2) for i in range(0, len(bits), 8); [fuel] = len(bits). *)
Fixpoint bits_to_bytes (fuel : nat) (bits : list bool) : list Z :=
  match fuel, bits with
  | S f, _ :: _ => of_bits (firstn 8 bits) :: bits_to_bytes f (skipn 8 bits)
  | _, _ => []
  end.

(** scripts/generate_kat_rsp.py:68-90 encode_public_key (n is unused); format(coef % q, '014b') *)
Definition encode_public_key (h : list Z) : list Z :=
  let bits := flat_map (fun coef => zbits 14 (coef mod 12289)) h in
  9 :: bits_to_bytes (length bits) bits.

(** slen.to_bytes(2, 'big'): OverflowError unless 0 <= slen < 2^16 *)
Definition to_bytes2 (x : Z) : res (list Z) :=
  if (0 <=? x) && (x <? 65536) then Ok [x / 256; x mod 256] else Raise OverflowError.

(** scripts/generate_kat_rsp.py:225-243, sign_message after the call to sk.sign: from the Python signature [sig] to sm *)
Definition frame_sm (msg sig : list Z) : res (list Z) :=
  let salt := slice 1 41 sig in
  let compressed_sig := skipn 41 sig in
  let slen := 40 + Z.of_nat (length msg) + 1 + Z.of_nat (length compressed_sig) in
  let! slen_bytes := to_bytes2 slen in
  Ok (slen_bytes ++ salt ++ msg ++ [0x29] ++ compressed_sig).

(** scripts/generate_kat_rsp.py:314: the Python signature rebuilt from sm *)
Definition unframe_sm (sm : list Z) (mlen : nat) : list Z := [0x39] ++ slice 2 42 sm ++ skipn (42 + mlen + 1) sm.
