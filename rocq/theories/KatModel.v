(** Model of /repo/pythonref/scripts/generate_kat_rsp.py: the secret-key codecs and the .req/.rsp files.
    Printing is ignored; encode_public_key and the framing of sign_message are in SolCodecModel. *)
From Coq Require Import String.
From Verif Require Import Base CodecModel FalconModel TextModel.

(** generate_kat_rsp.py:93-110 (the argument n is unused) *)
Definition sk_word (coef : Z) : list Z :=
  let val := if coef <? 0 then Z.shiftl 1 16 + coef else coef in
  [Z.land (Z.shiftr val 8) 0xFF; Z.land val 0xFF].
Definition encode_secret_key (f g F G : list Z) : list Z :=
  flat_map (fun poly => flat_map sk_word poly) [f; g; F; G].

(** falcon_codec.py:16-25; the header has been checked to be between 1 and 10 *)
Definition MAX_FG_BITS (logn : Z) : nat := if logn <=? 5 then 8%nat else if logn <=? 7 then 7%nat else if logn <=? 9 then 6%nat else 5%nat.
Definition MAX_FG_BITS_FG (logn : Z) : nat := 8%nat.

(** generate_kat_rsp.py:113-163 *)
Definition decode_secret_key_nist (sk_hex : list Z) (n : nat) : res (list Z * list Z * list Z * list Z) :=
  let! sk_bytes := fromhex sk_hex in
  match sk_bytes with
  | [] => Raise IndexError
  | header :: _ =>
    let logn := header - 0x50 in
    if (logn <? 1) || (10 <? logn) then Raise ValueError
    else if negb (Z.of_nat n =? Z.shiftl 1 logn) then Raise ValueError
    else
      let fg_bits := MAX_FG_BITS logn in let FG_bits := MAX_FG_BITS_FG logn in
      let fg_len := ((n * fg_bits + 7) / 8)%nat in let FG_len := ((n * FG_bits + 7) / 8)%nat in
      let offset := 1%nat in
      let! f := trim_i8_decode (slice offset (offset + fg_len) sk_bytes) n fg_bits in
      let offset := (offset + fg_len)%nat in
      let! g := trim_i8_decode (slice offset (offset + fg_len) sk_bytes) n fg_bits in
      let offset := (offset + fg_len)%nat in
      let! F := trim_i8_decode (slice offset (offset + FG_len) sk_bytes) n FG_bits in
      let! G := complete_private f g F n in
      Ok (f, g, F, G)
  end.

(** * Files *)
(** lines of a text file: "for line in f" followed by line.strip() (generate_kat_rsp.py:32-33, 252-253); the end-of-line character is removed by strip *)
Fixpoint file_lines (cur s : list Z) : list (list Z) :=
  match s with
  | [] => match cur with [] => [] | _ => [cur] end
  | c :: s' => if c =? c_nl then cur :: file_lines [] s' else file_lines (cur ++ [c]) s'
  end.
(** line.split(' = ', 1) when ' = ' in line, else None *)
Fixpoint split_sep (pre s : list Z) : option (list Z * list Z) :=
  match s with
  | a :: b :: c :: s' => if (a =? c_space) && (b =? c_eq) && (c =? c_space) then Some (pre, s') else
      match s with x :: t => split_sep (pre ++ [x]) t | [] => None end
  | _ => None
  end.
(** dictionaries: keys in order of first insertion; assignment replaces *)
Definition dict := list (list Z * list Z).
Fixpoint dict_set (d : dict) (k v : list Z) : dict :=
  match d with
  | [] => [(k, v)]
  | (k', v') :: d' => if seqb k' k then (k', v) :: d' else (k', v') :: dict_set d' k v
  end.
Definition has_key (d : dict) (k : list Z) : bool := existsb (fun p => seqb (fst p) k) d.
(** generate_kat_rsp.py:246-270, on the stripped lines *)
Definition close (vectors : list dict) (cur : dict) : list dict :=
  if has_key cur (chars "count") then vectors ++ [cur] else vectors.
Fixpoint parse_lines (lines : list (list Z)) (vectors : list dict) (cur : dict) : list dict :=
  match lines with
  | [] => close vectors cur
  | l :: lines' =>
    let line := strip l in
    if match line with [] => true | c :: _ => c =? 35 end then parse_lines lines' (close vectors cur) []
    else
      match split_sep [] line with
      | Some (key, value) => parse_lines lines' vectors (dict_set cur (strip key) (strip value))
      | None => parse_lines lines' vectors cur
      end
  end.
Definition parse_kat_rsp (data : list Z) : list dict := parse_lines (file_lines [] data) [] [].

(** generate_kat_rsp.py:320-329: the record of one vector *)
Record kat := { k_count : Z; k_seed : list Z; k_mlen : Z; k_msg : list Z; k_pk : list Z; k_sk : list Z; k_smlen : Z; k_sm : list Z }.
Definition kline (name : string) (v : list Z) : list Z := chars name ++ chars " = " ++ v ++ [c_nl].
Definition write_vector (v : kat) : list Z :=
  kline "count" (str_int (k_count v)) ++ kline "seed" (k_seed v) ++ kline "mlen" (str_int (k_mlen v)) ++ kline "msg" (k_msg v) ++
  kline "pk" (k_pk v) ++ kline "sk" (k_sk v) ++ kline "smlen" (str_int (k_smlen v)) ++ kline "sm" (k_sm v) ++ [c_nl].
(** generate_kat_rsp.py:286-288 *)
Definition write_rsp (vs : list kat) : list Z := chars "# Falcon-512" ++ [c_nl; c_nl] ++ flat_map write_vector vs.
