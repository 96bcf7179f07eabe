(** C98: katrng.c, the generator of the C test vectors, is AES-256 in the CTR_DRBG of SP 800-90A, and gives the bytes of the Python one. *)
From Verif Require Import Base PrngModel HashModel FalconModel RecoveryProofs DrbgModel DrbgSpec DrbgProofs Aes CKatModel CKatProofs Props_Drbg.

(** For every key and block, the C code computes the AES-256 of FIPS 197. *)
Theorem C98_aes256 : forall key block, length key = 32%nat -> bytes key -> length block = 16%nat -> bytes block ->
  AES256_ECB key block = aes256 key block.
Proof. exact AES256_ok. Qed.
Print Assumptions C98_aes256.

(** "increment V": the 128-bit big-endian counter, wrapping. *)
Theorem C98_counter : forall V, length V = 16%nat -> bytes V -> length (incr_V V) = 16%nat /\ bytes (incr_V V) /\ be_int (incr_V V) = (be_int V + 1) mod 2 ^ 128.
Proof.
  intros V L B. destruct (incr_V_ok V B L) as (_ & B' & L'). split; [exact L'|split; [exact B'|]]. unfold incr_V in *.
  destruct (incr_rev_ok (rev V) (Forall_rev B)) as (_ & _ & E). rewrite be_rev, E, <- be_rev, rev_involutive, rev_length, L. reflexivity.
Qed.
Print Assumptions C98_counter.

Lemma c_history lens : forall K V c, kv K V -> c + Z.of_nat (length lens) <= 2 ^ 48 ->
  answers aes256 (mk_drbg K V c) (map (fun n => (Z.of_nat n, None)) lens) = Some (map Ok (c_answers (K, V) lens)).
Proof.
  induction lens as [|n lens IH]; intros K V c H Hc; cbn [map answers c_answers]; [reflexivity|]. cbn [length] in Hc.
  pose proof (randombytes_ok n K V c H ltac:(lia)) as R. destruct (randombytes (K, V) n) as [[K' V'] x]. destruct R as [R1 R2]. rewrite R1. rewrite (IH K' V' (c + 1) R2) by lia. reflexivity.
Qed.

(** The same seed, personalization (48 bytes or NULL) and requests: Python answers each request (up to its limit of 2^48 - 1 requests) with the bytes of the C code. *)
Theorem C98_same_bytes_as_python : forall seed pers lens, length seed = 48%nat -> bytes seed ->
  (forall p, pers = Some p -> length p = 48%nat /\ bytes p) -> Z.of_nat (length lens) < 2 ^ 48 ->
  exists s, new aes256 seed (match pers with Some p => p | None => [] end) = Fin (Ok s) /\
    answers aes256 s (map (fun n => (Z.of_nat n, None)) lens) = Some (map Ok (c_answers (randombytes_init seed pers) lens)).
Proof.
  intros seed pers lens Ls Bs Hp Hl. set (p := match pers with Some p => p | None => [] end).
  assert (P : (length p <= 48)%nat /\ bytes p). { unfold p. destruct pers as [q|]; [destruct (Hp q eq_refl); split; [lia|assumption]|split; [cbn; lia|constructor]]. }
  destruct P as [Lp Bp]. pose proof (pad48_length p Lp) as L8. pose proof (pad48_bytes p Bp) as B8. set (d := xor_bytes seed (pad48 p)).
  assert (Ld : length d = 48%nat) by (unfold d; rewrite xor_bytes_spec by lia; rewrite xorb_length; exact Ls).
  assert (Bd : bytes d) by (unfold d; rewrite xor_bytes_spec by lia; apply xorb_bytes; assumption).
  assert (K0 : kv (repeat 0 32) (repeat 0 16)) by (repeat split; auto using bytes_zeros).
  destruct (c_update_ok (Some d) _ _ K0 Ld Bd) as [U1 U2]. cbn [given] in U1.
  assert (R : randombytes_init seed pers = c_update (Some d) (repeat 0 32) (repeat 0 16)).
  { unfold randombytes_init. do 2 f_equal. rewrite (firstn_all2 (n := 48)) by lia. unfold d, p. destruct pers as [q|].
    - destruct (Hp q eq_refl) as [Lq _]. unfold pad48. rewrite Lq, Nat.sub_diag. cbn [repeat]. rewrite app_nil_r. apply xors48; assumption.
    - unfold pad48. cbn [length Nat.sub app]. symmetry. now apply xor_zeros. }
  rewrite R. destruct (c_update (Some d) (repeat 0 32) (repeat 0 16)) as [K V]. cbn [fst snd] in U2. exists (mk_drbg K V 1). split.
  - unfold new. rewrite Ls. cbn [Nat.eqb seed_length negb]. destruct (Nat.ltb_spec seed_length (length p)); [unfold seed_length in *; lia|]. cbv zeta.
    change (p ++ repeat 0 (seed_length - length p)) with (pad48 p). fold d. rewrite U1. reflexivity.
  - apply c_history; [exact U2|lia].
Qed.
Print Assumptions C98_same_bytes_as_python.

(** Hence the C generator is the one of the standard (C66): the answers are those of SP 800-90A on AES-256. *)
Theorem C98_sp800_90a : forall seed pers lens, length seed = 48%nat -> bytes seed ->
  (forall p, pers = Some p -> length p = 48%nat /\ bytes p) -> Z.of_nat (length lens) < 2 ^ 48 ->
  map Ok (c_answers (randombytes_init seed pers) lens) =
  expected aes256 (instantiate aes256 seed (match pers with Some p => p | None => [] end)) (map (fun n => (Z.of_nat n, None)) lens).
Proof.
  intros seed pers lens Ls Bs Hp Hl. destruct (C98_same_bytes_as_python seed pers lens Ls Bs Hp Hl) as (s & E & A).
  assert (P : (length (match pers with Some p => p | None => [] end) <= 48)%nat /\ bytes (match pers with Some p => p | None => [] end)).
  { destruct pers as [q|]; [destruct (Hp q eq_refl); split; [lia|assumption]|split; [cbn; lia|constructor]]. }
  destruct P as [Lp Bp]. destruct (C66_history_is_ctr_drbg aes256 cipher_ok_aes seed _ (map (fun n => (Z.of_nat n, None)) lens) Ls Bs Lp Bp) as (s' & E' & A').
  - apply Forall_map, Forall_forall. intros n _. split; [discriminate|constructor].
  - rewrite E in E'. injection E' as <-. rewrite A in A'. now injection A'.
Qed.
Print Assumptions C98_sp800_90a.

(** FIPS 197, appendix C.3, by the C code. *)
Example C98_fips : AES256_ECB (map Z.of_nat (seq 0 32)) (map (fun i => 17 * Z.of_nat i) (seq 0 16)) =
  [0x8e; 0xa2; 0xb7; 0xca; 0x51; 0x67; 0x45; 0xbf; 0xea; 0xfc; 0x49; 0x90; 0x4b; 0x49; 0x60; 0x89].
Proof. vm_compute. reflexivity. Qed.
(** The NIST seed 0, 1, ..., 47: the first 48 bytes are the seed of the first NIST test vector (count = 0 of every Falcon KAT), 061550234D158C5E.... *)
Example C98_nist_seed : map (firstn 8) (c_answers (randombytes_init (map Z.of_nat (seq 0 48)) None) [48%nat]) = [[0x06; 0x15; 0x50; 0x23; 0x4D; 0x15; 0x8C; 0x5E]].
Proof. vm_compute. reflexivity. Qed.
(** A counter of all ones wraps to zero. *)
Example C98_wrap : incr_V (repeat 0xff 16) = repeat 0 16 /\ incr_V (repeat 0 14 ++ [0x12; 0xff]) = repeat 0 14 ++ [0x13; 0].
Proof. split; reflexivity. Qed.
