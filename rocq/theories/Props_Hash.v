(** Property theorems C22-C26: hash_to_point (falcon.py:186-214) and ZKNOX_HashToPoint.sol.
    [H] is the 32-byte hash (keccak-256, blake2s), an arbitrary function here.
    [Fin (Ok v)] = returned v within [fuel] loop iterations; [NoFuel] = still looping. *)
From Verif Require Import Base PrngModel PrngSpec KeccakModel KeccakSpec SpongeProofs ShakeProofs HashModel HashSpec HashProofs.

(** C22: with each XOF class, the returned list is the first n accepted words of the class's stream on
    salt||m, and it is returned as soon as the loop may run N times. *)
Theorem C22_keccak_prng_filter : forall H, (forall m, length (H m) = 32%nat) -> forall n msg salt,
  (length salt + length msg <= Z.to_nat 4096)%nat -> forall fuel v,
  hash_to_point fuel n msg salt (KeccakPRNG H) = Fin (Ok v) <->
  exists N, first_accepted (word16 (fun i => stream_byte H (H (salt ++ msg)) (Z.of_nat i))) n N v /\
            (N <= fuel)%nat /\ Z.of_nat N <= 16 * 2 ^ 64.
Proof. exact KeccakPRNG_h2p. Qed.
Print Assumptions C22_keccak_prng_filter.

Theorem C22_blake2s_prng_filter : forall H, (forall m, length (H m) = 32%nat) -> forall n msg salt,
  (32 + length msg <= Z.to_nat 1024)%nat -> forall fuel v,
  hash_to_point fuel n msg salt (Blake2sPRNG H) = Fin (Ok v) <->
  exists N, first_accepted (word16 (fun i => stream_byte H (H (H salt ++ msg)) (Z.of_nat i))) n N v /\
            (N <= fuel)%nat /\ Z.of_nat N <= 16 * 2 ^ 64.
Proof. exact Blake2s_h2p. Qed.
Print Assumptions C22_blake2s_prng_filter.

Theorem C22_shake_filter : forall n msg salt fuel v,
  Forall (fun b => 0 <= b < 256) salt -> Forall (fun b => 0 <= b < 256) msg ->
  hash_to_point fuel n msg salt SHAKE = Fin (Ok v) <->
  exists N, first_accepted (word16 (shake256_byte (salt ++ msg))) n N v /\ (N <= fuel)%nat.
Proof. exact SHAKE_h2p. Qed.
Print Assumptions C22_shake_filter.

Theorem C22_keccaxof_filter : forall H, (forall m, length (H m) = 32%nat) ->
  (forall m, Forall (fun b => 0 <= b < 256) (H m)) -> forall n msg salt fuel v,
  hash_to_point fuel n msg salt (KeccaXOF H) = Fin (Ok v) <->
  exists N, first_accepted (word16 (chain_byte H (salt ++ msg))) n N v /\ (N <= fuel)%nat.
Proof. exact KeccaXOF_h2p. Qed.
Print Assumptions C22_keccaxof_filter.

(** hence: exactly n coefficients, all in [0, q) *)
Theorem C22_range_and_length : forall w n N v, first_accepted w n N v ->
  length v = n /\ Forall (fun x => 0 <= x < 12289) v.
Proof. intros w n N v (-> & L & _). split; [exact L|]. apply accepted_range. Qed.
Print Assumptions C22_range_and_length.
(** ... and the list does not depend on how long the loop was allowed to run *)
Theorem C22_first_accepted_unique : forall w n N1 v1 N2 v2,
  first_accepted w n N1 v1 -> first_accepted w n N2 v2 -> N1 = N2 /\ v1 = v2.
Proof. exact first_accepted_unique. Qed.
Print Assumptions C22_first_accepted_unique.

Lemma inject_too_long max s d : (max < length d + buffer_len s)%nat -> inject max s d = (s, Raise ValueError).
Proof. intros Hl. unfold inject. destruct (finalized s); auto. rewrite (proj2 (Nat.ltb_lt _ _) Hl). reflexivity. Qed.
Lemma inject_fits max s d : finalized s = false -> (length d + buffer_len s <= max)%nat ->
  exists s', inject max s d = (s', Ok tt) /\ buffer_len s' = (buffer_len s + length d)%nat.
Proof.
  intros Hf Hl. unfold inject. rewrite Hf. rewrite (proj2 (Nat.ltb_ge _ _) Hl). eexists. split; reflexivity.
Qed.
Lemma h2p_overflow max H salt_fn n msg salt fuel : (max < length (salt_fn salt) + length msg)%nat ->
  hash_to_point fuel n msg salt (mk_xof prng salt_fn (prng_new max) (inject max) (flip H) (extract H)) = Fin (Raise ValueError).
Proof.
  intros Hl. unfold hash_to_point. cbn [xsalt xupdate xnew].
  destruct (Nat.lt_ge_cases max (length (salt_fn salt))) as [G|G].
  - rewrite inject_too_long by (cbn [prng_new buffer_len]; lia). reflexivity.
  - destruct (inject_fits max (prng_new max) (salt_fn salt)) as (s' & -> & Hb); [reflexivity|cbn [prng_new buffer_len]; lia|].
    cbn [prng_new buffer_len] in Hb. rewrite inject_too_long by lia. reflexivity.
Qed.
(** longer inputs are refused *)
Theorem C22_keccak_prng_overflow : forall H n msg salt fuel, (Z.to_nat 4096 < length salt + length msg)%nat ->
  hash_to_point fuel n msg salt (KeccakPRNG H) = Fin (Raise ValueError).
Proof. intros. apply (h2p_overflow (Z.to_nat 4096) H (fun s => s)). assumption. Qed.
Print Assumptions C22_keccak_prng_overflow.
Theorem C22_blake2s_prng_overflow : forall H, (forall m, length (H m) = 32%nat) -> forall n msg salt fuel,
  (Z.to_nat 1024 < 32 + length msg)%nat ->
  hash_to_point fuel n msg salt (Blake2sPRNG H) = Fin (Raise ValueError).
Proof. intros H H32 n msg salt fuel Hl. apply (h2p_overflow (Z.to_nat 1024) H H). rewrite H32. exact Hl. Qed.
Print Assumptions C22_blake2s_prng_overflow.

(** C23: hash_to_point on a XOF delivering the word w: the answer is [r] for exactly the five words
    r, r+q, ..., r+4q, and words >= 5q are not used. *)
Definition one_word_xof (w : Z) : xof :=
  mk_xof unit (fun s => s) tt (fun x _ => (x, Ok tt)) (fun x => (x, Ok tt)) (fun x _ => (x, Ok [w / 256; w mod 256])).
Theorem C23_five_preimages : forall msg salt r, 0 <= r < 12289 ->
  (forall w, 0 <= w < 65536 ->
     (hash_to_point 1 1 msg salt (one_word_xof w) = Fin (Ok [r]) <->
      In w [r; r + 12289; r + 2 * 12289; r + 3 * 12289; r + 4 * 12289])) /\
  NoDup [r; r + 12289; r + 2 * 12289; r + 3 * 12289; r + 4 * 12289] /\
  Forall (fun w => 0 <= w < 65536) [r; r + 12289; r + 2 * 12289; r + 3 * 12289; r + 4 * 12289].
Proof.
  intros msg salt r Hr. split; [|split].
  - intros w Hw. unfold hash_to_point, one_word_xof. cbn [xsalt xupdate xnew xflip h2p_loop length Nat.ltb Nat.leb xread nth].
    rewrite Z.shiftl_mul_pow2 by lia. change (Z.shiftl 1 16 / q * q) with 61445. unfold q.
    replace (w / 256 * 2 ^ 8 + w mod 256) with w by lia. destruct (Z.ltb_spec w 61445); cbn [app length Nat.ltb Nat.leb In].
    + split; [intros E|intros E].
      * assert (w mod 12289 = r) by congruence. lia.
      * assert (w mod 12289 = r) by lia. congruence.
    + split; [discriminate|lia].
  - repeat constructor; cbn [In]; lia.
  - repeat constructor; lia.
Qed.
Print Assumptions C23_five_preimages.
Theorem C23_rejected_words : forall msg salt w, 61445 <= w < 65536 ->
  hash_to_point 1 1 msg salt (one_word_xof w) = NoFuel.
Proof.
  intros msg salt w Hw. unfold hash_to_point, one_word_xof. cbn [xsalt xupdate xnew xflip h2p_loop length Nat.ltb Nat.leb xread nth].
  rewrite Z.shiftl_mul_pow2 by lia. change (Z.shiftl 1 16 / q * q) with 61445.
  replace (w / 256 * 2 ^ 8 + w mod 256) with w by lia. destruct (Z.ltb_spec w 61445); [lia|]. reflexivity.
Qed.
Print Assumptions C23_rejected_words.

(** C24 *)
Theorem C24_evm_equals_python : forall H, (forall m, length (H m) = 32%nat) -> (forall m, Forall (fun b => 0 <= b < 256) (H m)) ->
  forall salt msg, (length salt + length msg <= Z.to_nat 4096)%nat -> forall fuel v,
  hash_to_point fuel 512 msg salt (KeccakPRNG H) = Fin (Ok v) ->
  forall fuel', (fuel <= 16 * fuel' - 1)%nat -> hashToPointEVM H (S fuel') salt msg = Some v.
Proof.
  intros H H32 HB salt msg Hl fuel v E fuel' Hf. apply (KeccakPRNG_h2p H H32 512 msg salt Hl) in E.
  destruct E as (N & F & B & _). apply (proj2 (EVM_h2p H H32 HB salt msg (S fuel') v) N F). lia.
Qed.
Print Assumptions C24_evm_equals_python.
(** conversely, an EVM answer reached within 2^64 blocks is the Python answer *)
Theorem C24_python_equals_evm : forall H, (forall m, length (H m) = 32%nat) -> (forall m, Forall (fun b => 0 <= b < 256) (H m)) ->
  forall salt msg, (length salt + length msg <= Z.to_nat 4096)%nat -> forall fuel v,
  hashToPointEVM H fuel salt msg = Some v -> Z.of_nat fuel <= 2 ^ 64 ->
  hash_to_point (16 * fuel) 512 msg salt (KeccakPRNG H) = Fin (Ok v).
Proof.
  intros H H32 HB salt msg Hl fuel v E Hf. apply (proj1 (EVM_h2p H H32 HB salt msg fuel v)) in E.
  destruct E as (N & F & B). apply (KeccakPRNG_h2p H H32 512 msg salt Hl). exists N. split; [exact F|]. split; [exact B|]. lia.
Qed.
Print Assumptions C24_python_equals_evm.

(** C25 *)
Theorem C25_nist_equals_python : forall salt msg fuel v,
  Forall (fun b => 0 <= b < 256) salt -> Forall (fun b => 0 <= b < 256) msg ->
  (hashToPointNIST fuel salt msg = Some v <-> hash_to_point fuel 512 msg salt SHAKE = Fin (Ok v)).
Proof. intros salt msg fuel v Bs Bm. rewrite (NIST_h2p salt msg fuel v Bs Bm). symmetry. exact (SHAKE_h2p 512 msg salt fuel v Bs Bm). Qed.
Print Assumptions C25_nist_equals_python.

(** C26: the arguments of hash_to_point(n, message, salt, xof) are in the other order *)
Theorem C26_tetration_is_keccaxof_swapped : forall H, (forall m, length (H m) = 32%nat) -> (forall m, Forall (fun b => 0 <= b < 256) (H m)) ->
  forall salt msg fuel v,
  hashToPointTETRATION H fuel salt msg = Some v <->
  hash_to_point fuel 512 (*message*) salt (*salt*) msg (KeccaXOF H) = Fin (Ok v).
Proof.
  intros H H32 HB salt msg fuel v. rewrite (TET_h2p H H32 HB salt msg fuel v). symmetry.
  exact (KeccaXOF_h2p H H32 HB 512 salt msg fuel v).
Qed.
Print Assumptions C26_tetration_is_keccaxof_swapped.

(** Keccak-256, computed with the model of keccak.py *)
Definition keccak256_impl (m : list Z) : list Z := snd (squeeze F1600 136 (pad F1600 136 1 (absorb F1600 136 khash_new m)) 32).
Lemma keccak256_impl_ok m : bytes m -> keccak256_impl m = keccak256 m.
Proof.
  intros B. assert (D : is_byte 1) by (unfold is_byte; lia).
  pose proof (sponge_correct F1600 136 1 F1600_ok ltac:(lia) D [m] [32%nat] (Forall_cons _ B (Forall_nil _))) as E.
  cbn [squeezes fold_left concat length seq map firstn list_sum fold_right nth] in E. rewrite app_nil_r in E. unfold keccak256_impl.
  destruct (squeeze F1600 136 (pad F1600 136 1 (absorb F1600 136 khash_new m)) 32) as [s o]. cbn [snd].
  assert (E2 : o = map (sponge_byte (Pb F1600) 136 1 m) (seq 0 32)) by exact (f_equal (hd []) E).
  rewrite E2. unfold keccak256. apply map_ext. intros j. apply sponge_byte_ext; [lia|exact D|exact B].
Qed.
(** with the same argument order the two disagree, for a hash meeting the hypotheses *)
Definition toy_hash (m : list Z) : list Z :=
  map (fun i => (fold_left (fun a b => (7 * a + b + 3) mod 1000003) m i) mod 256) (map Z.of_nat (seq 0 32)).

Definition differ (a : option (list Z)) (b : fres (list Z)) : bool :=
  match a, b with Some v, Fin (Ok v') => negb (nth 0 v 0 =? nth 0 v' 0) | _, _ => false end.
Lemma differ_sound a b : differ a b = true -> exists v v', a = Some v /\ b = Fin (Ok v') /\ v <> v'.
Proof.
  unfold differ. destruct a as [v|]; [|discriminate]. destruct b as [[v'|]|]; try discriminate.
  intros E. exists v, v'. split; [reflexivity|]. split; [reflexivity|]. intros ->. rewrite Z.eqb_refl in E. discriminate.
Qed.
Lemma differ_run : differ (hashToPointTETRATION toy_hash 800 [1] [2]) (hash_to_point 800 512 [2] [1] (KeccaXOF toy_hash)) = true.
Proof. vm_cast_no_check (eq_refl true). Qed.
Theorem C26_same_order_refuted : exists H salt msg v v',
  (forall m, length (H m) = 32%nat) /\ (forall m, Forall (fun b => 0 <= b < 256) (H m)) /\
  hashToPointTETRATION H 800 salt msg = Some v /\
  hash_to_point 800 512 msg salt (KeccaXOF H) = Fin (Ok v') /\ v <> v'.
Proof.
  destruct (differ_sound _ _ differ_run) as (v & v' & E). exists toy_hash, [1], [2], v, v'.
  split; [intros m; unfold toy_hash; now rewrite !map_length, seq_length|].
  split; [|exact E]. intros m. apply Forall_forall. intros x Hx. apply in_map_iff in Hx. destruct Hx as (i & <- & _). lia.
Qed.
Print Assumptions C26_same_order_refuted.

(** non-vacuity: a hash meeting the hypotheses, and a run *)
Example C22_nontrivial :
  (forall m, length (toy_hash m) = 32%nat) /\ (forall m, Forall (fun b => 0 <= b < 256) (toy_hash m)) /\
  match hash_to_point 40 4 [7; 8] [9] (KeccakPRNG toy_hash) with Fin (Ok v) => length v = 4%nat | _ => False end.
Proof.
  split; [|split].
  - intros m. unfold toy_hash. now rewrite !map_length, seq_length.
  - intros m. unfold toy_hash. apply Forall_forall. intros x Hx. apply in_map_iff in Hx. destruct Hx as (i & <- & _). lia.
  - vm_compute. reflexivity.
Qed.
