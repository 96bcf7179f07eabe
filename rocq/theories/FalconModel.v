(** Model of /repo/pythonref/falcon.py (PublicKey.verify, SecretKey.__init__/sample_preimage/sign), falcon_recovery.py,
    falcon_epervier.py and falcon_codec.py:complete_private.
    Not modelled: the floating-point computation of the lattice point (ffsampling_fft, fft): it is an oracle giving, for the i-th attempt
    and the hashed point, the two rounded integer vectors v0, v1 of falcon.py:419-420. Printing is ignored. *)
From Verif Require Import Base HashModel KeccakModel PrngModel EncodingModel NtruModel PolyModel.

(** falcon.py:55-136, columns n, sig_bound, sig_bytelen; falcon.py:29-40, logn *)
Definition ParamTable : list (Z * (Z * Z * Z)) :=
  [ (2, (101498, 44, 1)); (4, (208714, 47, 2)); (8, (428865, 52, 3)); (16, (892039, 63, 4)); (32, (1852696, 82, 5));
    (64, (3842630, 122, 6)); (128, (7959734, 200, 7)); (256, (16468416, 356, 8)); (512, (34034726, 666, 9));
    (1024, (70265242, 1280, 10)) ].
Definition params (n : nat) : res (Z * nat * Z) :=
  match find (fun p => fst p =? Z.of_nat n) ParamTable with
  | Some (_, (b, l, k)) => Ok (b, Z.to_nat l, k)
  | None => Raise KeyError
  end.
Definition HEAD_LEN := 1%nat.  (* falcon.py:44 *)
Definition SALT_LEN := 40%nat. (* falcon.py:45 *)

Definition fbind {A B} (x : fres A) (f : A -> fres B) : fres B :=
  match x with Fin (Ok a) => f a | Fin (Raise e) => Fin (Raise e) | NoFuel => NoFuel end.
Definition lift {A} (x : res A) : fres A := Fin x.

(** sum(coef ** 2 for coef in v) *)
Definition sumsq (v : list Z) : Z := fold_left (fun a c => a + c * c) v 0.
(** (coef + (q >> 1)) % q - (q >> 1) *)
Definition centre (c : Z) : Z := (c + Z.shiftr q 1) mod q - Z.shiftr q 1.

(** falcon.py:217-228 *)
Record pubkey := { pk_n : nat; pk_h : list Z; pk_bound : Z; pk_len : nat }.
Definition PublicKey (n : nat) (h : list Z) : res pubkey :=
  let! (b, l, _) := params n in Ok {| pk_n := n; pk_h := h; pk_bound := b; pk_len := l |}.

(** falcon.py:287-318. For KeccakPRNG (301-302) xof is replaced by an instance, whose new() is the class method: same XOF. *)
Definition verify (fuel : nat) (P : pubkey) (message signature : list Z) (X : xof) : fres bool :=
  let salt := slice HEAD_LEN (HEAD_LEN + SALT_LEN) signature in
  let enc_s := skipn (HEAD_LEN + SALT_LEN) signature in
  fbind (lift (decompress enc_s (pk_len P - HEAD_LEN - SALT_LEN) (pk_n P))) (fun s1 =>
  match s1 with
  | None => Fin (Ok false)
  | Some s1 =>
    fbind (hash_to_point fuel (pk_n P) message salt X) (fun hashed =>
    let s0 := poly_sub hashed (poly_mul s1 (pk_h P)) in
    let s0 := map centre s0 in
    let norm_sign := sumsq s0 + sumsq s1 in
    if pk_bound P <? norm_sign then Fin (Ok false) else Fin (Ok true))
  end).

(** falcon.py:337-376, with polys given; the Falcon tree is part of the sampling oracle *)
Record seckey := { sk_n : nat; sk_f : list Z; sk_g : list Z; sk_F : list Z; sk_G : list Z; sk_h : list Z;
                   sk_bound : Z; sk_len : nat; sk_logn : Z }.
Definition SecretKey (n : nat) (f g F G : list Z) : res seckey :=
  let! (b, l, lg) := params n in
  if (length f =? n)%nat && (length g =? n)%nat && (length F =? n)%nat && (length G =? n)%nat then
    let! h := poly_div g f in
    Ok {| sk_n := n; sk_f := f; sk_g := g; sk_F := F; sk_G := G; sk_h := h; sk_bound := b; sk_len := l; sk_logn := lg |}
  else Raise AssertionError.

(** fft.py:96-111 *)
Definition neg (f : list Z) : list Z := map (fun x => - x) f.
Definition add (f g : list Z) : res (list Z) :=
  if (length f =? length g)%nat then Ok (map (fun i => nth i f 0 + nth i g 0) (seq 0 (length f))) else Raise AssertionError.
Definition sub (f g : list Z) : res (list Z) := add f (neg g).

(** The sampling oracle: attempt number, point |-> v0, v1 (falcon.py:394-420 and 429-438) *)
Definition sampler := nat -> list Z -> list Z * list Z.
(** falcon.py:425-426, 439-440 *)
Definition sample_preimage (S : sampler) (i : nat) (point : list Z) : res (list Z * list Z) :=
  let (v0, v1) := S i point in
  let! s0 := sub point v0 in Ok (s0, neg v1).

(** falcon.py:461-477 *)
Fixpoint sign_loop (fuel : nat) (K : seckey) (S : sampler) (i : nat) (header salt hashed : list Z) : fres (list Z) :=
  match fuel with
  | O => NoFuel
  | Datatypes.S fuel' =>
    fbind (lift (sample_preimage S i hashed)) (fun s =>
    let norm_sign := sumsq (fst s) + sumsq (snd s) in
    if norm_sign <=? sk_bound K then
      match compress (snd s) (sk_len K - HEAD_LEN - SALT_LEN) with
      | Some enc_s => Fin (Ok (header ++ salt ++ enc_s))
      | None => sign_loop fuel' K S (i + 1) header salt hashed
      end
    else sign_loop fuel' K S (i + 1) header salt hashed)
  end.
(** falcon.py:442-477; [randombytes] is the caller's source for the salt; the seed (454-457) is part of the oracle *)
Definition sign (fuelh fuel : nat) (K : seckey) (S : sampler) (randombytes : nat -> list Z) (message : list Z) (X : xof) : fres (list Z) :=
  let header := [0x20 + sk_logn K] in
  let salt := randombytes SALT_LEN in
  fbind (hash_to_point fuelh (sk_n K) message salt X) (fun hashed =>
  sign_loop fuel K S 0 header salt hashed).

(** x.to_bytes(k, 'big') for 0 <= x < 256^k *)
Fixpoint to_be (k : nat) (x : Z) : list Z :=
  match k with O => [] | S k' => to_be k' (x / 256) ++ [x mod 256] end.
(** [int.from_bytes(b[i:i+3], 'big') for i in range(0, len(b), 3)] *)
Fixpoint chunks3 (fuel : nat) (b : list Z) : list Z :=
  match fuel, b with
  | S fuel', _ :: _ => be_int (firstn 3 b) :: chunks3 fuel' (skipn 3 b)
  | _, _ => []
  end.
(** falcon_recovery.py:69-72 (and 83-87, falcon_epervier.py:65-68, 81-85): KeccakHash(rate=136, dsbyte=0x01) is keccak-256 [H] *)
Definition address (H : list Z -> list Z) (h : list Z) : Z := be_int (skipn 12 (H (flat_map (to_be 32) h))).

(** The two recovery modes differ by what is hashed: h (recovery) or its transform (epervier), and by 63 / 61 (s0 lifted to [0,q) or not) *)
Section Recovery.
Variable H : list Z -> list Z.

(** falcon_recovery.py:28-58 = falcon_epervier.py:28-56; result: None is False *)
Definition recover_parse (n : nat) (bound : Z) (len : nat) (signature : list Z) : res (option (list Z * list Z * list Z)) :=
  let enc_s := slice (HEAD_LEN + SALT_LEN) (length signature - n * 3) signature in
  let! s := decompress enc_s (len * 2 - HEAD_LEN - SALT_LEN) (n * 2) in
  match s with
  | None => Ok None
  | Some s =>
    let mid := (length s / 2)%nat in
    let s0 := firstn mid s in let s1 := skipn mid s in
    let b := skipn (length signature - n * 3) signature in
    let s_1_inv_ntt := chunks3 (length b) b in
    if forallb (fun e => e =? 1) (vec_mul s_1_inv_ntt (ntt s1)) then
      if bound <? sumsq s0 + sumsq s1 then Ok None else Ok (Some (s0, s1, s_1_inv_ntt))
    else Ok None
  end.

(** falcon_recovery.py:15-22, falcon_epervier.py:15-22 *)
Record recpub := { rp_n : nat; rp_pk : Z; rp_bound : Z; rp_len : nat }.
Definition RecoveryModePublicKey (n : nat) (pk : Z) : res recpub :=
  let! (b, l, _) := params n in Ok {| rp_n := n; rp_pk := pk; rp_bound := b; rp_len := l |}.

(** falcon_recovery.py:24-72 *)
Definition recover (fuel : nat) (P : recpub) (message signature : list Z) (X : xof) : fres (option Z) :=
  let salt := slice HEAD_LEN (HEAD_LEN + SALT_LEN) signature in
  fbind (lift (recover_parse (rp_n P) (rp_bound P) (rp_len P) signature)) (fun r =>
  match r with
  | None => Fin (Ok None)
  | Some (s0, s1, s_1_inv_ntt) =>
    fbind (hash_to_point fuel (rp_n P) message salt X) (fun hashed =>
    let s0 := map (fun elt => if elt <? 0 then elt + q else elt) s0 in
    let h_ntt := vec_mul (ntt (poly_sub hashed s0)) s_1_inv_ntt in
    Fin (Ok (Some (address H (intt h_ntt)))))
  end).
(** falcon_epervier.py:24-68 *)
Definition ep_recover (fuel : nat) (P : recpub) (message signature : list Z) (X : xof) : fres (option Z) :=
  let salt := slice HEAD_LEN (HEAD_LEN + SALT_LEN) signature in
  fbind (lift (recover_parse (rp_n P) (rp_bound P) (rp_len P) signature)) (fun r =>
  match r with
  | None => Fin (Ok None)
  | Some (s0, s1, s_1_inv_ntt) =>
    fbind (hash_to_point fuel (rp_n P) message salt X) (fun hashed =>
    let h_ntt := vec_mul (ntt (poly_sub hashed s0)) s_1_inv_ntt in
    Fin (Ok (Some (address H h_ntt))))
  end).
(** pk_rec == self.pk (falcon_recovery.py:77, falcon_epervier.py:73): in Python False == 0 *)
Definition py_eq (r : option Z) (pk : Z) : bool := match r with Some a => a =? pk | None => 0 =? pk end.
Definition rec_verify (fuel : nat) (P : recpub) (message signature : list Z) (X : xof) : fres bool :=
  fbind (recover fuel P message signature X) (fun r => Fin (Ok (py_eq r (rp_pk P)))).
Definition ep_verify (fuel : nat) (P : recpub) (message signature : list Z) (X : xof) : fres bool :=
  fbind (ep_recover fuel P message signature X) (fun r => Fin (Ok (py_eq r (rp_pk P)))).
(** falcon_recovery.py:80-87, falcon_epervier.py:76-85 *)
Definition rec_pk (K : seckey) : Z := address H (sk_h K).
Definition ep_pk (K : seckey) : Z := address H (ntt (sk_h K)).

(** falcon_recovery.py:103-127 = falcon_epervier.py:101-125 (where the inverse is computed before the test on enc_s).
    [all(elt % q != 0 for elt in s_1_ntt)] is [invertible]. *)
Fixpoint rec_sign_loop (fuel : nat) (K : seckey) (S : sampler) (i : nat) (header salt hashed : list Z) : fres (list Z) :=
  match fuel with
  | O => NoFuel
  | Datatypes.S fuel' =>
    fbind (lift (sample_preimage S i hashed)) (fun s =>
    if invertible (snd s) then
      if sumsq (fst s) + sumsq (snd s) <=? sk_bound K then
        match compress (fst s ++ snd s) (sk_len K * 2 - HEAD_LEN - SALT_LEN) with
        | Some enc_s =>
          fbind (lift (poly_inverse (snd s))) (fun inv => Fin (Ok (header ++ salt ++ enc_s ++ flat_map (to_be 3) (ntt inv))))
        | None => rec_sign_loop fuel' K S (i + 1) header salt hashed
        end
      else rec_sign_loop fuel' K S (i + 1) header salt hashed
    else rec_sign_loop fuel' K S (i + 1) header salt hashed)
  end.
(** falcon_recovery.py:89-127, falcon_epervier.py:87-125 *)
Definition rec_sign (fuelh fuel : nat) (K : seckey) (S : sampler) (randombytes : nat -> list Z) (message : list Z) (X : xof) : fres (list Z) :=
  let header := [0x30 + sk_logn K] in
  let salt := randombytes SALT_LEN in
  fbind (hash_to_point fuelh (sk_n K) message salt X) (fun hashed =>
  rec_sign_loop fuel K S 0 header salt hashed).
End Recovery.

(** falcon_codec.py:179-206 *)
Definition complete_private (f g F : list Z) (n : nat) : res (list Z) :=
  let numerator := poly_mul g F in
  let numerator := upd numerator 0 ((nth 0 numerator 0 + q) mod q) in
  let! G := poly_div numerator f in
  Ok (map centre G).
