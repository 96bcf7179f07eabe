(** Model of /repo/pythonref/encoding.py (compress, decompress, decode16). *)
From Verif Require Import Base.

(** encoding.py:19-25, the bit string appended for one coefficient:
    sign bit, format(abs(coef) % 128, '#09b')[2:] (7 binary digits), then
    "0" * (abs(coef) >> 7) + "1". *)
Definition compress_coef (coef : Z) : list bool :=
  (coef <? 0) :: zbits 7 (Z.abs coef mod 2 ^ 7)
  ++ repeat false (Z.to_nat (Z.shiftr (Z.abs coef) 7)) ++ [true].

(** encoding.py:17-25, the loop building u. *)
Definition compress_bits (v : list Z) : list bool := flat_map compress_coef v.

(** encoding.py:6-32.  [None] models the returned False.  [slen] is a natural number
    (a negative slen makes Python behave as for a too small one: not modelled). *)
Definition compress (v : list Z) (slen : nat) : option (list Z) :=
  let u := compress_bits v in
  if (8 * slen <? length u)%nat then None
  else
    let u := u ++ repeat false (8 * slen - length u) in
    Some (map (fun i => of_bits (slice (8 * i) (8 * i + 8) u)) (seq 0 (length u / 8))).

(** encoding.py:50-52: while u[-1] == "0": u = u[:-1]; on the reversed string.
    u[-1] on the empty string raises IndexError, outside the try block. *)
Fixpoint strip_rev (r : list bool) : res (list bool) :=
  match r with
  | [] => Raise IndexError
  | true :: _ => Ok r
  | false :: r' => strip_rev r'
  end.
Definition strip (u : list bool) : res (list bool) :=
  let! r := strip_rev (rev u) in Ok (rev r).

(** encoding.py:60-64: the scan while u[i] == "0" starting at i = 8; [u] here is the
    suffix from index 8.  Returns high and the remainder u[i+1:]; [None] when the index
    runs off the end (IndexError, caught at line 78). *)
Fixpoint unary (u : list bool) (high : Z) : option (Z * list bool) :=
  match u with
  | [] => None
  | true :: u' => Some (high, u')
  | false :: u' => unary u' (high + 1)
  end.

(** encoding.py:54-79, the parsing loop.  [todo] = n - len(v).  The result
    [Ok None] is False. *)
Fixpoint decompress_loop (todo : nat) (u : list bool) (v : list Z) : res (option (list Z)) :=
  match todo with
  | O => Ok (Some v)                          (* len(v) = n: lines 74-76 *)
  | S todo' =>
    match u with
    | [] => Ok None                           (* loop exits with len(v) < n: lines 74-75 *)
    | u0 :: _ =>
      let sign := if u0 then -1 else 1 in     (* line 57 *)
      let lowbits := slice 1 8 u in           (* line 59: int(u[1:8], 2) *)
      match lowbits with
      | [] => Raise ValueError                (* int('', 2): not an IndexError, not caught *)
      | _ =>
        let low := of_bits lowbits in
        match unary (skipn 8 u) 0 with        (* lines 60-64 *)
        | None => Ok None                     (* IndexError caught: lines 78-79 *)
        | Some (high, u') =>
          let coef := sign * (low + Z.shiftl high 7) in
          if (coef =? 0) && (sign =? -1) then Ok None   (* lines 68-69 *)
          else decompress_loop todo' u' (v ++ [coef])   (* lines 71-72 *)
        end
      end
    end
  end.

(** encoding.py:35-79.  bin((1 << 8) ^ elt)[3:] is the 8-digit binary form of a byte. *)
Definition decompress (x : list Z) (slen n : nat) : res (option (list Z)) :=
  if (slen <? length x)%nat then Ok None
  else
    let u := flat_map (zbits 8) x in
    let! u := strip u in
    decompress_loop n u [].

(** encoding.py:81-95 (n and q are unused by the code).  val = x[i+1] + (x[i] << 8). *)
Fixpoint decode16_loop (x : list Z) : list Z :=
  match x with
  | hi :: lo :: x' => (lo + Z.shiftl hi 8) :: decode16_loop x'
  | _ => []
  end.
Definition decode16 (x : list Z) : res (list Z) :=
  if Nat.even (length x) then Ok (decode16_loop x) else Raise ValueError.
