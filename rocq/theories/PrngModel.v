(** Model of /repo/pythonref/keccak_prng.py and /repo/pythonref/blake2s_prng.py: the two files are
    identical up to MAX_BUFFER_SIZE and the 32-byte hash function, so the model is parametrised by
    [max_buffer] (4096: keccak_prng.py:9; 1024: blake2s_prng.py:11) and [H] (keccak-256 from
    pycryptodome, keccak_prng.py:47-48,86-87; hashlib.blake2s with digest_size 32,
    blake2s_prng.py:49-50,88-89).  Also /repo/pythonref/keccaxof.py. *)
From Verif Require Import Base.

(** struct.pack(">Q", x): 8 bytes big-endian; struct.error outside [0, 2^64). *)
Definition be64 (x : Z) : list Z :=
  map (fun i => (x / 256 ^ (7 - Z.of_nat i)) mod 256) (seq 0 8).
Definition pack_Q (x : Z) : res (list Z) :=
  if (0 <=? x) && (x <? 2 ^ 64) then Ok (be64 x) else Raise StructError.

Section Prng.
Variable max_buffer : nat.
Variable H : list Z -> list Z.

(** keccak_prng.py:14-25: the fields of the object. *)
Record prng := mk_prng {
  buffer : list Z; state : list Z; buffer_len : nat; counter : Z; finalized : bool;
  out_buffer : list Z; out_buffer_pos : nat; out_buffer_len : nat }.

(** keccak_prng.py:14-25 and new() 27-29 *)
Definition prng_new : prng :=
  mk_prng (repeat 0 max_buffer) (repeat 0 32) 0 0 false (repeat 0 32) 0 0.

(** keccak_prng.py:31-40 inject (= update, 109-111).  Methods return the object after the call
    together with the value or exception, so that effects before an exception are visible. *)
Definition inject (s : prng) (data : list Z) : prng * res unit :=
  if finalized s then (s, Raise ValueError)
  else if (max_buffer <? length data + buffer_len s)%nat then (s, Raise ValueError)
  else
    let b := firstn (buffer_len s) (buffer s) ++ data
             ++ skipn (buffer_len s + length data) (buffer s) in
    (mk_prng b (state s) (buffer_len s + length data) (counter s) (finalized s)
       (out_buffer s) (out_buffer_pos s) (out_buffer_len s), Ok tt).

(** keccak_prng.py:42-56 *)
Definition flip (s : prng) : prng * res unit :=
  if finalized s then (s, Raise ValueError)
  else
    (mk_prng (buffer s) (H (firstn (buffer_len s) (buffer s))) (buffer_len s) (counter s) true
       (out_buffer s) 0 0, Ok tt).

(** keccak_prng.py:81-105: while offset < length, on [fuel] >= length - offset. *)
Fixpoint extract_loop (fuel : nat) (s : prng) (length_ offset : nat) (output : list Z)
  : prng * res (list Z) :=
  if (offset <? length_)%nat then
    match fuel with
    | O => (s, Raise OtherException)   (* unreachable *)
    | S fuel' =>
      match pack_Q (counter s) with
      | Raise e => (s, Raise e)
      | Ok ctr =>
        let ob := H (state s ++ ctr) in
        let to_copy := Nat.min (length_ - offset) 32 in
        let s' := mk_prng (buffer s) (state s) (buffer_len s) (counter s + 1) (finalized s)
                    ob to_copy 32 in
        extract_loop fuel' s' length_ (offset + to_copy) (output ++ firstn to_copy ob)
      end
    end
  else (s, Ok output).

(** keccak_prng.py:58-107 extract (= read, 113-115), for length >= 0. *)
Definition extract (s : prng) (length_ : nat) : prng * res (list Z) :=
  if negb (finalized s) then (s, Raise ValueError)
  else if (out_buffer_pos s <? out_buffer_len s)%nat then
    let available := (out_buffer_len s - out_buffer_pos s)%nat in
    let to_copy := Nat.min length_ available in
    let output := slice (out_buffer_pos s) (out_buffer_pos s + to_copy) (out_buffer s) in
    let s' := mk_prng (buffer s) (state s) (buffer_len s) (counter s) (finalized s)
                (out_buffer s) (out_buffer_pos s + to_copy) (out_buffer_len s) in
    if (to_copy =? length_)%nat then (s', Ok output)
    else extract_loop length_ s' length_ to_copy output
  else extract_loop length_ s length_ 0 [].

(** Calls a client can make, and the observable results. *)
Inductive op := Update (data : list Z) | Flip | Read (k : nat).
Inductive outcome := Done | Bytes (b : list Z) | Error (e : exn).

Definition step (s : prng) (o : op) : prng * outcome :=
  match o with
  | Update d => let (s', r) := inject s d in (s', match r with Ok _ => Done | Raise e => Error e end)
  | Flip => let (s', r) := flip s in (s', match r with Ok _ => Done | Raise e => Error e end)
  | Read k => let (s', r) := extract s k in (s', match r with Ok b => Bytes b | Raise e => Error e end)
  end.

Fixpoint run (s : prng) (ops : list op) : list outcome :=
  match ops with
  | [] => []
  | o :: ops' => let (s', r) := step s o in r :: run s' ops'
  end.
End Prng.

(** ** /repo/pythonref/keccaxof.py *)
Section Xof.
Variable H : list Z -> list Z.

(** keccaxof.py:6-9.  [tmp] is a hex string in the code, only ever cut at even positions:
    modelled as the bytes it denotes.  last = None is [None]. *)
Record kxof := mk_kxof { kinput : list (list Z); klast : option (list Z); ktmp : list Z }.

Definition kxof_new : kxof := mk_kxof [] None [].

(** keccaxof.py:15-18 *)
Definition kxof_update (s : kxof) (data : list Z) : kxof * res unit :=
  match klast s with
  | Some _ => (s, Raise ValueError)
  | None => (mk_kxof (kinput s ++ [data]) None (ktmp s), Ok tt)
  end.

(** keccaxof.py:29-33: while len(tmp) < to_slice *)
Fixpoint kxof_fill (fuel : nat) (last tmp : list Z) (k : nat) : list Z * list Z :=
  if (length tmp <? k)%nat then
    match fuel with
    | O => (last, tmp)                  (* unreachable with fuel >= k and 32-byte digests *)
    | S fuel' => kxof_fill fuel' (H last) (tmp ++ H last) k
    end
  else (last, tmp).

Definition be_int (l : list Z) : Z := fold_left (fun a b => 256 * a + b) l 0.

(** keccaxof.py:20-37: encode_packed(["bytes"]*k, inputs) is the concatenation;
    int('', 16) raises ValueError, to_bytes(2) raises OverflowError from 65536 on. *)
Definition kxof_read (s : kxof) (k : nat) : kxof * res (list Z) :=
  let (last, tmp) := match klast s with
                     | None => let d := H (concat (kinput s)) in (d, d)
                     | Some l => (l, ktmp s)
                     end in
  let (last, tmp) := kxof_fill k last tmp k in
  let buff := firstn k tmp in
  let s' := mk_kxof (kinput s) (Some last) (skipn k tmp) in
  match buff with
  | [] => (s', Raise ValueError)
  | _ => let v := be_int buff in
         if 65536 <=? v then (s', Raise OverflowError) else (s', Ok [v / 256; v mod 256])
  end.
End Xof.
