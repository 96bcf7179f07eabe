(** C56-C58: on-chain decoding of signatures, public keys and KAT frames. *)
From Verif Require Import Base EncodingModel EncodingSpec EncodingProofs CodecModel CodecSpec CodecProofs SolCodecModel SolCodecSpec SolCodecProofs.

(** C56: exactly which memories are accepted, and what they decode to; everything else reverts. *)
Theorem C56_accepts_iff : forall accw buf tail off x, 16 <= accw -> Forall (fun b => 0 <= b < 256) buf -> (forall i, 0 <= tail i < 256) ->
  (decompress_sig accw buf tail off = Ok x <->
   length x = 512%nat /\ exists w rest, sol_encodes_all x w /\ bytes_bits (memory buf tail off 665) = w ++ rest).
Proof. intros accw buf tail off x Ha Hb Ht. exact (sig_accepts_iff accw buf tail off x Ha Hb Ht). Qed.
Print Assumptions C56_accepts_iff.

Theorem C56_otherwise_reverts : forall accw buf tail off, 16 <= accw -> Forall (fun b => 0 <= b < 256) buf -> (forall i, 0 <= tail i < 256) ->
  (exists x, decompress_sig accw buf tail off = Ok x) \/ decompress_sig accw buf tail off = Raise Revert.
Proof. intros accw buf tail off Ha Hb Ht. exact (sig_from_total accw _ off Ha (mem_byte_is buf tail Hb Ht)). Qed.
Print Assumptions C56_otherwise_reverts.

(** Whatever Python decodes to coefficients of magnitude at most 2047 decodes to the same residues on chain,
    whatever surrounds it in the buffer and in memory ... *)
Theorem C56_agrees_with_python : forall accw pre d suf tail slen v, 16 <= accw ->
  Forall (fun b => 0 <= b < 256) (pre ++ d ++ suf) -> (forall i, 0 <= tail i < 256) ->
  decompress d slen 512 = Ok (Some v) -> (length d <= 665)%nat -> Forall (fun c => -2047 <= c <= 2047) v ->
  decompress_sig accw (pre ++ d ++ suf) tail (length pre) = Ok (map (fun c => c mod 12289) v).
Proof.
  intros accw pre d suf tail slen v Ha Hb Ht E Hd Hv.
  apply decompress_accepts in E; [|lia]. destruct E as (_ & Lv & w & rest & Hw & E).
  apply (sig_of_encoding accw pre d suf tail v w rest); auto.
  apply Forall_impl with (2 := Hv). intros. lia.
Qed.
Print Assumptions C56_agrees_with_python.

(** ... in particular the output of compress *)
Theorem C56_decodes_compress : forall accw pre d suf tail slen v, 16 <= accw ->
  Forall (fun b => 0 <= b < 256) (pre ++ suf) -> (forall i, 0 <= tail i < 256) ->
  compress v slen = Some d -> (slen <= 665)%nat -> length v = 512%nat -> Forall (fun c => -2047 <= c <= 2047) v ->
  decompress d slen 512 = Ok (Some v) /\
  decompress_sig accw (pre ++ d ++ suf) tail (length pre) = Ok (map (fun c => c mod 12289) v).
Proof.
  intros accw pre d suf tail slen v Ha Hb Ht E Hs Lv Hv.
  destruct (compress_some_bits _ _ _ E) as (Bd & Ld & BB).
  assert (D : decompress d slen 512 = Ok (Some v)).
  { apply decompress_accepts; [lia|]. repeat split; auto; [lia|]. eexists _, _. split; [apply compress_bits_encodes|exact BB]. }
  split; auto. apply (C56_agrees_with_python accw pre d suf tail slen v); auto; [|lia].
  apply Forall_app in Hb. destruct Hb. apply Forall_app. split; auto. apply Forall_app. split; auto.
Qed.
Print Assumptions C56_decodes_compress.

(** A larger coefficient, which Python accepts, makes the on-chain decoder revert. *)
Theorem C56_large_coefficient_reverts : forall accw pre d suf tail slen v, 16 <= accw ->
  Forall (fun b => 0 <= b < 256) (pre ++ d ++ suf) -> (forall i, 0 <= tail i < 256) ->
  decompress d slen 512 = Ok (Some v) -> (length d <= 665)%nat -> Exists (fun c => c < -2047 \/ 2047 < c) v ->
  decompress_sig accw (pre ++ d ++ suf) tail (length pre) = Raise Revert.
Proof.
  intros accw pre d suf tail slen v Ha Hb Ht E Hd Hv.
  apply decompress_accepts in E; [|lia]. destruct E as (_ & Lv & w & rest & Hw & E).
  apply (sig_big_refused accw pre d suf tail v w rest); auto.
  apply Exists_impl with (2 := Hv). intros. lia.
Qed.
Print Assumptions C56_large_coefficient_reverts.

(** Minus zero: any compressed vector with a zero has a second encoding which Python refuses and the chain accepts, giving the
    non-canonical word 12289 at that place and the same residues everywhere. *)
Theorem C56_minus_zero : forall a b slen d, length (a ++ 0 :: b) = 512%nat -> Forall (fun c => -2047 <= c <= 2047) (a ++ 0 :: b) ->
  compress (a ++ 0 :: b) slen = Some d -> (slen <= 665)%nat ->
  exists d', Forall (fun b => 0 <= b < 256) d' /\ length d' = length d /\ d' <> d /\ decompress d' slen 512 = Ok None /\
    forall accw pre suf tail, 16 <= accw -> Forall (fun b => 0 <= b < 256) (pre ++ d' ++ suf) -> (forall i, 0 <= tail i < 256) ->
      decompress_sig accw (pre ++ d' ++ suf) tail (length pre) =
      Ok (map (fun c => c mod 12289) a ++ 12289 :: map (fun c => c mod 12289) b).
Proof.
  intros a b slen d L F E Hs. apply minus_zero_accepted; auto.
  apply Forall_impl with (2 := F). intros. lia.
Qed.
Print Assumptions C56_minus_zero.

(** The decoder does not stay inside its buffer: on an empty buffer the outcome is decided by the memory behind it. *)
Theorem C56_reads_inside_buffer_refuted : forall accw, 16 <= accw ->
  (exists tail x, (forall i, 0 <= tail i < 256) /\ decompress_sig accw [] tail 0 = Ok x) /\
  (exists tail, (forall i, 0 <= tail i < 256) /\ decompress_sig accw [] tail 0 = Raise Revert).
Proof.
  intros accw Ha. split.
  - set (zeros := repeat 0 512).
    destruct (compress zeros 576) as [d|] eqn:E.
    2:{ exfalso. apply compress_none in E. vm_compute in E. discriminate. }
    exists (fun i => nth i d 0), (map (fun c => c mod 12289) zeros).
    destruct (compress_some_bits _ _ _ E) as (Bd & Ld & BB).
    assert (Ht : forall i, 0 <= nth i d 0 < 256).
    { intros i. destruct (le_lt_dec (length d) i) as [H|H]; [rewrite nth_overflow by auto; lia|].
      unfold bytes in Bd. rewrite Forall_forall in Bd. apply Bd. now apply nth_In. }
    split; auto. apply sig_accepts_iff; auto; [constructor|].
    split; [unfold zeros; now rewrite map_length, repeat_length|].
    exists (compress_bits zeros). eexists. split.
    + apply encodes_all_sol; [apply compress_bits_encodes|]. apply Forall_forall. intros c Hc. apply repeat_spec in Hc. subst. cbn. lia.
    + unfold memory.
      assert (EM : map (fun i => nth i [] (nth i d 0)) (seq 0 665) = d ++ map (fun i => nth i d 0) (seq 576 89)).
      { change 665%nat with (576 + 89)%nat. rewrite seq_app, map_app. f_equal.
        - rewrite <- Ld. clear. induction d as [|x d IH]; auto. cbn [length seq map]. f_equal.
          rewrite <- seq_shift, map_map. rewrite <- IH at 2. apply map_ext. intros i. destruct i; reflexivity.
        }
      rewrite EM, bytes_bits_app, BB, <- app_assoc. reflexivity.
  - exists (fun _ => 0). split; [intros; lia|].
    vm_compute. reflexivity.
Qed.
Print Assumptions C56_reads_inside_buffer_refuted.

Definition ex_v : list Z := map (fun i => (Z.of_nat i * 37) mod 401 - 200) (seq 0 512).
Example C56_nontrivial : exists d, compress ex_v 625 = Some d /\
  Forall (fun c => -2047 <= c <= 2047) ex_v /\
  decompress_sig 256 ([1; 2; 3] ++ d ++ [7]) (fun _ => 255) 3 = Ok (map (fun c => c mod 12289) ex_v) /\
  decompress_sig 32 ([1; 2; 3] ++ d ++ [7]) (fun _ => 255) 3 = Ok (map (fun c => c mod 12289) ex_v).
Proof.
  destruct (compress ex_v 625) as [d|] eqn:E; [|vm_compute in E; discriminate].
  exists d. split; auto. assert (F : Forall (fun c => -2047 <= c <= 2047) ex_v).
  { apply Forall_forall. intros c Hc. unfold ex_v in Hc. apply in_map_iff in Hc. destruct Hc as (i & <- & _). lia. }
  assert (B : Forall (fun b => 0 <= b < 256) ([1; 2; 3] ++ [7])) by (repeat constructor; lia).
  split; auto. split.
  - refine (proj2 (C56_decodes_compress 256 [1; 2; 3] d [7] (fun _ => 255) 625 ex_v _ B _ E _ _ F)); try lia; reflexivity.
  - refine (proj2 (C56_decodes_compress 32 [1; 2; 3] d [7] (fun _ => 255) 625 ex_v _ B _ E _ _ F)); try lia; reflexivity.
Qed.
Example C56_zero_and_big : In 0 ex_v /\
  (exists d, compress (2048 :: repeat 0 511) 625 = Some d /\ decompress_sig 256 d (fun _ => 0) 0 = Raise Revert) /\
  (exists d, compress (2047 :: repeat 0 511) 625 = Some d /\ decompress_sig 256 d (fun _ => 0) 0 = Ok (2047 :: repeat 0 511)).
Proof.
  split; [|split].
  - unfold ex_v. apply in_map_iff. exists 233%nat. split; [reflexivity|]. apply in_seq. lia.
  - eexists. split; [vm_compute; reflexivity|]. vm_compute. reflexivity.
  - eexists. split; [vm_compute; reflexivity|]. vm_compute. reflexivity.
Qed.

(** C57: the on-chain public-key decoder is modq_decode at n = 512, for every buffer and offset; a refusal is a revert. *)
Theorem C57_same_as_python : forall buf off y, Forall (fun b => 0 <= b < 256) buf ->
  (NTT_Decompress buf off = Ok y <-> modq_decode (skipn off buf) 512 = Ok y) /\
  (NTT_Decompress buf off = Raise Revert <-> exists e, modq_decode (skipn off buf) 512 = Raise e).
Proof.
  intros buf off y Hb. split; [now apply ntt_decompress_iff|].
  pose proof (ntt_decompress_modq buf off Hb) as H.
  destruct (modq_decode (skipn off buf) 512) as [z|e]; rewrite H; split; try discriminate; eauto.
  intros (e & E); discriminate.
Qed.
Print Assumptions C57_same_as_python.

(** hence the exact set of accepted buffers, and the inverse of modq_encode *)
Theorem C57_accepts_iff : forall buf y, Forall (fun b => 0 <= b < 256) buf ->
  (NTT_Decompress buf 1 = Ok y <->
   (897 <= length buf)%nat /\ length y = 512%nat /\ Forall (fun c => 0 <= c < 12289) y /\ packs 14 y (slice 1 897 buf)).
Proof.
  intros buf y Hb. rewrite ntt_decompress_iff by auto.
  rewrite modq_decode_accepts_iff by (now apply Forall_skipn || now apply bytes_skipn).
  change (ceil8 (512 * 14)) with 896%nat. rewrite skipn_length. unfold slice. change (897 - 1)%nat with 896%nat.
  split; intros (A & B); (split; [lia|exact B]).
Qed.
Print Assumptions C57_accepts_iff.

Theorem C57_decodes_modq_encode : forall h d suffix, length h = 512%nat -> modq_encode h 512 = Ok d ->
  Forall (fun b => 0 <= b < 256) d -> Forall (fun b => 0 <= b < 256) suffix ->
  NTT_Decompress (9 :: d ++ suffix) 1 = Ok h.
Proof.
  intros h d suffix L E Hd Hs. apply ntt_decompress_iff.
  - constructor; [unfold is_byte; lia|]. apply bytes_app. auto.
  - cbn [skipn]. now apply modq_roundtrip.
Qed.
Print Assumptions C57_decodes_modq_encode.

Example C57_nontrivial : exists d, modq_encode (map (fun i => Z.of_nat (i * 24)) (seq 0 512)) 512 = Ok d /\
  NTT_Decompress (9 :: d) 1 = Ok (map (fun i => Z.of_nat (i * 24)) (seq 0 512)) /\
  NTT_Decompress (9 :: removelast d) 1 = Raise Revert /\ NTT_Decompress (9 :: repeat 255 896) 1 = Raise Revert.
Proof. eexists. split; [vm_compute; reflexivity|]. repeat split; vm_compute; reflexivity. Qed.

(** C58: what the KAT generator frames, decompress_KAT unframes.  [header :: salt ++ enc] is the Python signature. *)
Theorem C58_frame_understood : forall accw h header salt enc msg sm tail v, 16 <= accw -> (forall i, 0 <= tail i < 256) ->
  length h = 512%nat -> length salt = 40%nat -> Forall (fun b => 0 <= b < 256) (salt ++ msg ++ enc) ->
  decompress enc 625 512 = Ok (Some v) -> Forall (fun c => -2047 <= c <= 2047) v ->
  frame_sm msg (header :: salt ++ enc) = Ok sm ->
  decompress_KAT accw (encode_public_key h) sm tail (length msg) =
  Ok (map (fun c => c mod 12289) h, map (fun c => c mod 12289) v, salt, msg).
Proof.
  intros accw h header salt enc msg sm tail v Ha Ht Lh Ls Hb E Hv HF.
  destruct (encode_public_key_modq h Lh) as (d & -> & EM & Bd & Ld).
  assert (Lh' : length (map (fun c => c mod 12289) h) = 512%nat) by now rewrite map_length.
  unfold frame_sm in HF. unfold slice in HF. change (41 - 1)%nat with 40%nat in HF.
  change (skipn 1 (header :: salt ++ enc)) with (salt ++ enc) in HF. change (skipn 41 (header :: salt ++ enc)) with (skipn 40 (salt ++ enc)) in HF.
  rewrite firstn_app_exact in HF by auto. rewrite (skipn_app_exact salt) in HF by auto.
  unfold to_bytes2 in HF. destruct ((0 <=? _) && _)%bool eqn:ES in HF; [|discriminate].
  cbn [bind] in HF. apply Ok_inj in HF. subst sm. apply andb_true_iff in ES.
  set (slen := 40 + Z.of_nat (length msg) + 1 + Z.of_nat (length enc)) in *.
  assert (Bh : 0 <= slen / 256 < 256 /\ 0 <= slen mod 256 < 256) by (clearbody slen; lia).
  rewrite (kat_decode accw (9 :: d) (slen / 256) (slen mod 256) salt msg enc tail (map (fun c => c mod 12289) h)); auto.
  - assert (S2 : decompress_sig accw ([slen / 256; slen mod 256] ++ salt ++ msg ++ [41] ++ enc) tail (43 + length msg)
       = Ok (map (fun c => c mod 12289) v)).
    { pose proof (C56_agrees_with_python accw ([slen / 256; slen mod 256] ++ salt ++ msg ++ [41]) enc [] tail 625 v) as H.
      rewrite app_nil_r in H. rewrite <- !app_assoc in H. rewrite !app_length, Ls in H. cbn [length] in H.
      replace (2 + (40 + (length msg + 1)))%nat with (43 + length msg)%nat in H by lia. apply H; auto.
      - apply Forall_app in Hb. destruct Hb as [Hb1 Hb]. apply Forall_app in Hb. destruct Hb as [Hb2 Hb3].
        clearbody slen. apply Forall_app. split; [repeat constructor; lia|]. apply Forall_app. split; auto.
        apply Forall_app. split; auto. apply Forall_app. split; auto. repeat constructor; lia.
      - apply decompress_accepts in E; [|lia]. destruct E as (E & _). lia. }
    rewrite S2. reflexivity.
  - constructor; [unfold is_byte; lia|exact Bd].
  - change (skipn 1 (9 :: d)) with d. rewrite <- (app_nil_r d). apply modq_roundtrip; auto. constructor.
Qed.
Print Assumptions C58_frame_understood.

(** framing fails exactly for messages that make the two-byte length overflow *)
Theorem C58_frame_overflow_iff : forall msg sig, (41 <= length sig)%nat ->
  (frame_sm msg sig = Raise OverflowError <-> 65536 <= Z.of_nat (length msg + length sig)) /\
  (Z.of_nat (length msg + length sig) < 65536 <-> exists sm, frame_sm msg sig = Ok sm).
Proof.
  intros msg sig L. unfold frame_sm, to_bytes2. rewrite skipn_length.
  destruct ((0 <=? 40 + Z.of_nat (length msg) + 1 + Z.of_nat (length sig - 41)) &&
            (40 + Z.of_nat (length msg) + 1 + Z.of_nat (length sig - 41) <? 65536))%bool eqn:E; cbn [bind].
  - apply andb_true_iff in E. split; split; try discriminate; try lia; eauto.
  - apply andb_false_iff in E. split; split; try lia; auto. intros (sm & X); discriminate.
Qed.
Print Assumptions C58_frame_overflow_iff.

(** and what generate_rsp checks with Python is the signature that was framed, up to its first byte *)
Theorem C58_reconstruction : forall msg header salt enc sm, length salt = 40%nat ->
  frame_sm msg (header :: salt ++ enc) = Ok sm -> unframe_sm sm (length msg) = 0x39 :: salt ++ enc.
Proof.
  intros msg header salt enc sm Ls HF.
  unfold frame_sm in HF. unfold slice in HF. change (41 - 1)%nat with 40%nat in HF.
  change (skipn 1 (header :: salt ++ enc)) with (salt ++ enc) in HF. change (skipn 41 (header :: salt ++ enc)) with (skipn 40 (salt ++ enc)) in HF.
  rewrite firstn_app_exact in HF by auto. rewrite (skipn_app_exact salt) in HF by auto.
  unfold to_bytes2 in HF. destruct ((0 <=? _) && _)%bool in HF; [|discriminate].
  cbn [bind] in HF. apply Ok_inj in HF. subst sm. unfold unframe_sm. cbn [app]. f_equal. f_equal.
  - unfold slice. cbn [skipn]. change (42 - 2)%nat with 40%nat. now apply firstn_app_exact.
  - replace (42 + length msg + 1)%nat with (S (S (40 + (length msg + 1)))) by lia. cbn [skipn].
    rewrite (Nat.add_comm 40), <- skipn_skipn. rewrite (skipn_app_exact salt) by auto.
    rewrite Nat.add_comm, <- skipn_skipn. rewrite skipn_app_exact by auto. reflexivity.
Qed.
Print Assumptions C58_reconstruction.

(** the two length bytes are ignored: they can be changed at will *)
Theorem C58_length_field_ignored : forall accw pk tail mlen a b a' b' rest, Forall (fun x => 0 <= x < 256) (a :: b :: rest) ->
  0 <= a' < 256 -> 0 <= b' < 256 -> (forall i, 0 <= tail i < 256) -> 16 <= accw ->
  decompress_KAT accw pk (a' :: b' :: rest) tail mlen = decompress_KAT accw pk (a :: b :: rest) tail mlen.
Proof.
  intros accw pk tail mlen a b a' b' rest Hb Ha' Hb' Ht Ha. unfold decompress_KAT.
  change (byte_at (a' :: b' :: rest) 0) with (Ok a' : res Z). change (byte_at (a' :: b' :: rest) 1) with (Ok b' : res Z).
  change (byte_at (a :: b :: rest) 0) with (Ok a : res Z). change (byte_at (a :: b :: rest) 1) with (Ok b : res Z). cbn [bind].
  destruct (byte_at pk 0) as [p0|]; cbn [bind]; [|reflexivity]. destruct (negb (p0 =? 9)); [reflexivity|].
  destruct (NTT_Decompress pk 1) as [h|]; cbn [bind]; [|reflexivity].
  assert (CP : forall k i, copy_bytes (a' :: b' :: rest) (S (S i)) k = copy_bytes (a :: b :: rest) (S (S i)) k).
  { induction k as [|k IH]; intros i; auto. cbn [copy_bytes]. change (byte_at (a' :: b' :: rest) (S (S i))) with (byte_at (a :: b :: rest) (S (S i))).
    destruct (byte_at (a :: b :: rest) (S (S i))); cbn [bind]; auto. now rewrite IH. }
  rewrite (CP 40%nat O). destruct (copy_bytes (a :: b :: rest) 2 40) as [salt|]; cbn [bind]; [|reflexivity].
  rewrite (CP mlen 40%nat). destruct (copy_bytes (a :: b :: rest) 42 mlen) as [msg|]; cbn [bind]; [|reflexivity].
  change (byte_at (a' :: b' :: rest) (2 + 40 + mlen)) with (byte_at (a :: b :: rest) (2 + 40 + mlen)).
  destruct (byte_at (a :: b :: rest) (2 + 40 + mlen)) as [hd|]; cbn [bind]; [|reflexivity]. destruct (negb (hd =? 41)); [reflexivity|].
  assert (EM : memory (a' :: b' :: rest) tail (2 + 40 + mlen + 1) 665 = memory (a :: b :: rest) tail (2 + 40 + mlen + 1) 665).
  { unfold memory. apply map_ext_in. intros i Hi. apply in_seq in Hi. destruct i as [|[|i]]; [lia..|reflexivity]. }
  assert (Hb2 : Forall (fun x => 0 <= x < 256) (a' :: b' :: rest)).
  { constructor; [exact Ha'|]. constructor; [exact Hb'|]. exact (Forall_inv_tail (Forall_inv_tail Hb)). }
  assert (T : forall y, decompress_sig accw (a :: b :: rest) tail (2 + 40 + mlen + 1) = Ok y <->
                        decompress_sig accw (a' :: b' :: rest) tail (2 + 40 + mlen + 1) = Ok y).
  { intros y. rewrite (C56_accepts_iff accw (a :: b :: rest) tail _ y Ha Hb Ht), (C56_accepts_iff accw (a' :: b' :: rest) tail _ y Ha Hb2 Ht).
    rewrite EM. reflexivity. }
  destruct (C56_otherwise_reverts accw (a :: b :: rest) tail (2 + 40 + mlen + 1) Ha Hb Ht) as [(x & E)|E];
  destruct (C56_otherwise_reverts accw (a' :: b' :: rest) tail (2 + 40 + mlen + 1) Ha Hb2 Ht) as [(x' & E')|E']; rewrite E, E'.
  - pose proof (Ok_inj _ _ (eq_trans (eq_sym (proj1 (T x) E)) E')) as <-. reflexivity.
  - pose proof (eq_trans (eq_sym (proj1 (T x) E)) E') as X. discriminate X.
  - pose proof (eq_trans (eq_sym (proj2 (T x') E')) E) as X. discriminate X.
  - reflexivity.
Qed.
Print Assumptions C58_length_field_ignored.

Example C58_nontrivial : exists d sm, compress ex_v 625 = Some d /\
  frame_sm [1; 2; 3; 4] (57 :: repeat 7 40 ++ d) = Ok sm /\ firstn 2 sm = [2; 158] /\
  decompress_KAT 256 (encode_public_key (repeat (-1) 512)) sm (fun _ => 1) 4 =
    Ok (repeat 12288 512, map (fun c => c mod 12289) ex_v, repeat 7 40, [1; 2; 3; 4]).
Proof. eexists _, _. split; [vm_compute; reflexivity|]. split; [vm_compute; reflexivity|]. split; [vm_compute; reflexivity|]. vm_compute. reflexivity. Qed.
