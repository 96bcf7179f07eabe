(** Property theorems C14-C17 and C20: keccak_prng.py, blake2s_prng.py, keccaxof.py.
    [H] is the 32-byte hash (keccak-256 or blake2s), an arbitrary function here. *)
From Verif Require Import Base PrngModel PrngSpec PrngProofs.

Definition keccak_max : nat := Z.to_nat 4096.
Definition blake2s_max : nat := Z.to_nat 1024.

(** Main refinement: every sequence of calls on a fresh generator is answered exactly as the
    abstract generator [aspec] (absorbed bytes, then one stream) answers it. *)
Theorem C15_prng_refines_stream : forall H, (forall m, length (H m) = 32%nat) -> forall ops,
  run keccak_max H (prng_new keccak_max) ops = arun keccak_max H (Absorbing []) ops.
Proof. exact (prng_refines keccak_max). Qed.
Print Assumptions C15_prng_refines_stream.

(** C14 *)
Theorem C14_absorb_concat : forall H, (forall m, length (H m) = 32%nat) -> forall ds tail,
  (length (concat ds) <= keccak_max)%nat ->
  run keccak_max H (prng_new keccak_max) (map Update ds ++ tail)
  = map (fun _ => Done) ds ++
    skipn 1 (run keccak_max H (prng_new keccak_max) (Update (concat ds) :: tail)).
Proof. exact (absorb_concat keccak_max). Qed.
Print Assumptions C14_absorb_concat.

(** A refused update, wherever it occurs, changes no later answer. *)
Theorem C14_refused_update_no_effect : forall H, (forall m, length (H m) = 32%nat) ->
  forall pre d post,
  nth (length pre) (run keccak_max H (prng_new keccak_max) (pre ++ Update d :: post)) Done = Error ValueError ->
  run keccak_max H (prng_new keccak_max) (pre ++ Update d :: post) =
  firstn (length pre) (run keccak_max H (prng_new keccak_max) (pre ++ post)) ++ Error ValueError ::
  skipn (length pre) (run keccak_max H (prng_new keccak_max) (pre ++ post)).
Proof. exact (refused_update_no_effect keccak_max). Qed.
Print Assumptions C14_refused_update_no_effect.

(** An update overflowing the 4096-byte buffer is refused (and only then, before flip). *)
Theorem C14_overflow_refused_iff : forall H, (forall m, length (H m) = 32%nat) -> forall ds d,
  (length (concat ds) <= keccak_max)%nat ->
  nth (length ds) (run keccak_max H (prng_new keccak_max) (map Update ds ++ [Update d])) Done =
  if (length (concat ds) + length d <=? keccak_max)%nat then Done else Error ValueError.
Proof.
  intros H H32 ds d Hm. rewrite (absorb_concat keccak_max H H32) by exact Hm.
  rewrite app_nth2 by (rewrite map_length; apply le_n). rewrite map_length, Nat.sub_diag.
  rewrite (prng_refines keccak_max H H32). cbn [arun aspec length plus app].
  rewrite (proj2 (Nat.leb_le _ _) Hm). cbn [skipn nth].
  destruct (length (concat ds) + length d <=? keccak_max)%nat; reflexivity.
Qed.
Print Assumptions C14_overflow_refused_iff.

(** C15 *)
Theorem C15_reads_are_consecutive_slices : forall H, (forall m, length (H m) = 32%nat) -> forall ds ks,
  (length (concat ds) <= keccak_max)%nat -> Z.of_nat (list_sum ks) <= 32 * 2 ^ 64 ->
  run keccak_max H (prng_new keccak_max) (map Update ds ++ Flip :: map Read ks) =
  map (fun _ => Done) ds ++ Done ::
  map (fun i => Bytes (stream_slice H (H (concat ds)) (Z.of_nat (list_sum (firstn i ks))) (nth i ks 0%nat)))
      (seq 0 (length ks)).
Proof. exact (read_stream keccak_max). Qed.
Print Assumptions C15_reads_are_consecutive_slices.

Theorem C15_slice_length : forall H seed pos k, length (stream_slice H seed pos k) = k.
Proof. intros. unfold stream_slice. rewrite map_length. apply seq_length. Qed.

(** whatever the read sizes, the concatenated output is the same prefix of the stream *)
Theorem C15_read_sizes_irrelevant : forall H, (forall m, length (H m) = 32%nat) -> forall seed ks pos,
  concat (map (fun i => stream_slice H seed (pos + Z.of_nat (list_sum (firstn i ks))) (nth i ks 0%nat))
      (seq 0 (length ks))) = stream_slice H seed pos (list_sum ks).
Proof. exact slices_concat. Qed.
Print Assumptions C15_read_sizes_irrelevant.

(** beyond 2^64 blocks: struct.error, never a repeated block *)
Theorem C15_exhaustion : forall H, (forall m, length (H m) = 32%nat) -> forall m k,
  (length m <= keccak_max)%nat -> 32 * 2 ^ 64 < Z.of_nat k ->
  run keccak_max H (prng_new keccak_max) [Update m; Flip; Read k] = [Done; Done; Error StructError].
Proof.
  intros H H32 m k Hm Hk. rewrite (prng_refines keccak_max H H32). cbn [arun aspec length plus app].
  rewrite (proj2 (Nat.leb_le _ _) Hm). unfold stream_end.
  rewrite (proj2 (Z.leb_gt (0 + Z.of_nat k) (32 * 2 ^ 64)) Hk). reflexivity.
Qed.

(** a toy 32-byte hash, to exhibit concrete runs *)
Definition toy_hash (m : list Z) : list Z :=
  map (fun i => (fold_left (fun a b => 7 * a + b + 3) m i) mod 256) (map Z.of_nat (seq 0 32)).
Example C15_nontrivial :
  (forall m, length (toy_hash m) = 32%nat) /\
  run keccak_max toy_hash (prng_new keccak_max) [Update [1; 2]; Update [3]; Flip; Read 3; Read 40; Read 0; Flip; Update [4]; Read 1]
  = [Done; Done; Done; Bytes (stream_slice toy_hash (toy_hash [1; 2; 3]) 0 3);
     Bytes (stream_slice toy_hash (toy_hash [1; 2; 3]) 3 40); Bytes []; Error ValueError; Error ValueError;
     Bytes (stream_slice toy_hash (toy_hash [1; 2; 3]) 43 1)] /\
  stream_slice toy_hash (toy_hash [1; 2; 3]) 31 3 <> [0; 0; 0].
Proof.
  split; [|split].
  - intros m. unfold toy_hash. now rewrite !map_length, seq_length.
  - vm_compute. reflexivity.
  - vm_compute. discriminate.
Qed.

(** C16 *)
Theorem C16_phase_discipline : forall H, (forall m, length (H m) = 32%nat) -> forall pre,
  (~ In Flip pre -> forall k,
     nth (length pre) (run keccak_max H (prng_new keccak_max) (pre ++ [Read k])) Done = Error ValueError) /\
  (In Flip pre -> forall d,
     nth (length pre) (run keccak_max H (prng_new keccak_max) (pre ++ [Update d])) Done = Error ValueError) /\
  (In Flip pre ->
     nth (length pre) (run keccak_max H (prng_new keccak_max) (pre ++ [Flip])) Done = Error ValueError).
Proof.
  intros H H32 pre. destruct (phase_discipline keccak_max H H32 pre) as (A & B & C).
  assert (D : In Flip pre <-> flip_done pre = true).
  { unfold flip_done. rewrite existsb_exists. split.
    - intros I. exists Flip. auto.
    - intros (o & I & E). destruct o; try discriminate. exact I. }
  split; [|split].
  - intros N. apply A. destruct (flip_done pre); auto. exfalso. apply N, D. reflexivity.
  - intros I. apply B, D, I.
  - intros I. apply C, D, I.
Qed.
Print Assumptions C16_phase_discipline.

(** C17: the same contract for Blake2sPRNG, buffer limit 1024 *)
Theorem C17_blake2s_refines_stream : forall H, (forall m, length (H m) = 32%nat) -> forall ops,
  run blake2s_max H (prng_new blake2s_max) ops = arun blake2s_max H (Absorbing []) ops.
Proof. exact (prng_refines blake2s_max). Qed.
Print Assumptions C17_blake2s_refines_stream.

Theorem C17_blake2s_reads : forall H, (forall m, length (H m) = 32%nat) -> forall ds ks,
  (length (concat ds) <= blake2s_max)%nat -> Z.of_nat (list_sum ks) <= 32 * 2 ^ 64 ->
  run blake2s_max H (prng_new blake2s_max) (map Update ds ++ Flip :: map Read ks) =
  map (fun _ => Done) ds ++ Done ::
  map (fun i => Bytes (stream_slice H (H (concat ds)) (Z.of_nat (list_sum (firstn i ks))) (nth i ks 0%nat)))
      (seq 0 (length ks)).
Proof. exact (read_stream blake2s_max). Qed.

Example C17_limit : 
  run blake2s_max toy_hash (prng_new blake2s_max) [Update (repeat 1 1000); Update (repeat 2 25); Update (repeat 3 24)]
  = [Done; Error ValueError; Done].
Proof. vm_compute. reflexivity. Qed.

(** C20: KeccaXOF.  [kreads s j] is the list of results of j successive read(2). *)
Theorem C20_reads_are_chain_words : forall H, (forall m, length (H m) = 32%nat) ->
  (forall m, Forall (fun b => 0 <= b < 256) (H m)) -> forall ds j,
  kreads H (fold_left (fun s d => fst (kxof_update s d)) ds kxof_new) j =
  map (fun i => Ok (map (chain_byte H (concat ds)) (seq (2 * i) 2))) (seq 0 j).
Proof. exact kxof_reads. Qed.
Print Assumptions C20_reads_are_chain_words.

Theorem C20_update_after_read_refused : forall H s k d,
  let s' := fst (kxof_read H s k) in kxof_update s' d = (s', Raise ValueError).
Proof. exact kxof_update_after_read. Qed.
Print Assumptions C20_update_after_read_refused.

(** Only two-byte reads return what was asked for: one byte is returned as two, three overflow. *)
Theorem C20_other_sizes_refuted : exists s, 
  snd (kxof_read toy_hash s 1) = Ok [0; 3] /\ snd (kxof_read toy_hash s 0) = Raise ValueError /\
  snd (kxof_read toy_hash s 3) = Raise OverflowError.
Proof. exists (mk_kxof [] (Some (toy_hash [5])) [3; 200; 7; 9]). vm_compute. repeat split; reflexivity. Qed.

Example C20_nontrivial : 
  map (fun r => match r with Ok [a; b] => 256 * a + b | _ => -1 end)
    (kreads toy_hash (fst (kxof_update kxof_new [9])) 20)
  = map (fun i => 256 * chain_byte toy_hash [9] (2 * i) + chain_byte toy_hash [9] (2 * i + 1)) (seq 0 20).
Proof. vm_compute. reflexivity. Qed.
