(** Model of /repo/pythonref/drbg/aes256_ctr_drbg.py (class AES256_CTR_DRBG).
    The block cipher AES-256 (Crypto.Cipher.AES in ECB mode, an external library) is a parameter [aes key block].
    Not modelled: seed = None (os.urandom(48)). *)
From Verif Require Import Base PrngModel HashModel FalconModel.

Section Drbg.
Variable aes : list Z -> list Z -> list Z.

(** aes256_ctr_drbg.py:34-45; seed_length = 48, reseed_interval = 2**48 *)
Record drbg := mk_drbg { d_key : list Z; d_V : list Z; d_ctr : Z }.
Definition seed_length : nat := 48.
Definition reseed_interval : Z := 2 ^ 48.

(** aes256_ctr_drbg.py:6-11 *)
Definition xor_bytes (a b : list Z) : list Z := map (fun p => Z.lxor (fst p) (snd p)) (combine a b).

(** aes256_ctr_drbg.py:80-86 *)
Definition increment_counter (V : list Z) : list Z := to_be 16 ((be_int V + 1) mod 2 ^ 128).

(** aes256_ctr_drbg.py:98-101: while len(tmp) != seed_length. Four rounds of fuel: with 16-byte blocks three are run;
    [None] = the loop is still running. *)
Fixpoint update_loop (fuel : nat) (key V tmp : list Z) : option (list Z * list Z) :=
  if (length tmp =? seed_length)%nat then Some (V, tmp)
  else match fuel with
       | O => None
       | S fuel' => let V := increment_counter V in update_loop fuel' key V (tmp ++ aes key V)
       end.
(** aes256_ctr_drbg.py:88-109 *)
Definition ctr_drbg_update (provided : list Z) (key V : list Z) : option (list Z * list Z) :=
  match update_loop 4 key V [] with
  | None => None
  | Some (V, tmp) =>
    let tmp := firstn seed_length tmp in
    let tmp := xor_bytes tmp provided in
    Some (firstn 32 tmp, skipn 32 tmp)
  end.

(** aes256_ctr_drbg.py:136-140: while len(tmp) < num_bytes *)
Fixpoint collect (fuel : nat) (key V tmp : list Z) (num : Z) : option (list Z * list Z) :=
  if Z.of_nat (length tmp) <? num then
    match fuel with
    | O => None
    | S fuel' => let V := increment_counter V in collect fuel' key V (tmp ++ aes key V) num
    end
  else Some (V, tmp).

(** aes256_ctr_drbg.py:34-45, 47-58, 60-78: __init__(seed, personalization) *)
Definition new (seed personalization : list Z) : fres drbg :=
  if negb (length seed =? seed_length)%nat then Fin (Raise ValueError)
  else if (seed_length <? length personalization)%nat then Fin (Raise ValueError)
  else
    let personalization := personalization ++ repeat 0 (seed_length - length personalization) in
    match ctr_drbg_update (xor_bytes seed personalization) (repeat 0 32) (repeat 0 16) with
    | None => NoFuel
    | Some (key, V) => Fin (Ok (mk_drbg key V 1))
    end.

(** aes256_ctr_drbg.py:111-146. The state is returned also when an exception is raised (unchanged: the checks come first).
    raise Warning(..) is OtherException. A negative num gives tmp[:num] of the empty string. *)
Definition random_bytes (s : drbg) (num : Z) (additional : option (list Z)) : option (drbg * res (list Z)) :=
  if reseed_interval <=? d_ctr s then Some (s, Raise OtherException)
  else
    let k (additional key V : list Z) :=
      match collect (Z.to_nat num) key V [] num with
      | None => None
      | Some (V, tmp) =>
        let out := firstn (Z.to_nat num) tmp in
        match ctr_drbg_update additional key V with
        | None => None
        | Some (key, V) => Some (mk_drbg key V (d_ctr s + 1), Ok out)
        end
      end in
    match additional with
    | None => k (repeat 0 seed_length) (d_key s) (d_V s)
    | Some a =>
      if (seed_length <? length a)%nat then Some (s, Raise ValueError)
      else
        let a := a ++ repeat 0 (seed_length - length a) in
        match ctr_drbg_update a (d_key s) (d_V s) with
        | None => None
        | Some (key, V) => k a key V
        end
    end.
End Drbg.
