(** Proofs about the deterministic randomness of the command line. *)
From Verif Require Import Base PrngModel KeccakModel KeccakSpec KeccakProofs SpongeProofs ShakeProofs HashModel EncodingModel PolyModel FalconModel RecoveryProofs TextModel CliModel.
Import List.

(** What is absorbed, and the sponge state after the full 136-byte blocks of it (no padding). *)
Definition absorbed (h data : list Z) : list Z := repeat 1 32 ++ [0] ++ flat_map (to_be 2) h ++ data.
Definition unpadded_state (m : list Z) : list Z := fold_left (absorb_block keccak_p 136) (blocks 136 (length m / 136) m) (repeat 0 200).

Lemma flat_be_bytes k h : bytes (flat_map (to_be k) h).
Proof. apply Forall_flat_map, Forall_forall. intros. apply to_be_bytes. Qed.
Lemma flat_be_length k h : length (flat_map (to_be k) h) = (k * length h)%nat.
Proof. induction h as [|x h IH]; cbn [flat_map length]; [lia|]. rewrite app_length, to_be_length, IH. lia. Qed.
Lemma absorbed_length h data : length (absorbed h data) = (33 + 2 * length h + length data)%nat.
Proof. unfold absorbed. rewrite !app_length, repeat_length, flat_be_length. cbn [length]. lia. Qed.
Lemma absorbed_bytes h data : bytes data -> bytes (absorbed h data).
Proof.
  intros B. unfold absorbed. rewrite !bytes_app. repeat split; auto using flat_be_bytes.
  - apply Forall_forall. intros x Hx. apply repeat_spec in Hx. subst. unfold is_byte. lia.
  - constructor; [unfold is_byte; lia|constructor].
Qed.

Lemma blocks_split rate bl rest : (0 < rate)%nat -> Forall (fun b : list Z => length b = rate) bl -> (length rest < rate)%nat ->
  blocks rate (length (concat bl ++ rest) / rate) (concat bl ++ rest) = bl /\ (length (concat bl ++ rest) mod rate)%nat = length rest.
Proof.
  intros Hr Fb Lr.
  assert (LC : length (concat bl) = (length bl * rate)%nat).
  { clear -Fb. induction Fb as [|b bl Hb Hbl IH]; auto. cbn [concat length]. rewrite app_length, IH, Hb. lia. }
  rewrite app_length, LC. split.
  - rewrite Nat.div_add_l, Nat.div_small, Nat.add_0_r by lia. apply blocks_concat; auto.
  - rewrite Nat.add_comm, Nat.mod_add by lia. now apply Nat.mod_small.
Qed.

Lemma det_sponge_state h data : bytes data ->
  let s := det_sponge h data in let m := absorbed h data in
  bytes_of_lanes (kstate s) = unpadded_state m /\ ki s = (length m mod 136)%nat /\ okh s.
Proof.
  intros B. cbv zeta.
  assert (B1 : bytes (repeat 1 32)) by (apply Forall_forall; intros x Hx; apply repeat_spec in Hx; subst; unfold is_byte; lia).
  assert (B0 : bytes [0]) by (constructor; [unfold is_byte; lia|constructor]).
  assert (Bh := flat_be_bytes 2 h).
  assert (A : Abs F1600 136 (absorbed h data) (det_sponge h data)).
  { pose proof (absorbs_spec F1600 136 F1600_ok ltac:(lia) [repeat 1 32; [0]; flat_map (to_be 2) h; data] [] khash_new (Forall_nil _)) as Q.
    cbn [concat fold_left app] in Q. rewrite app_nil_r in Q. apply Q; [do 4 (constructor; [assumption|]); constructor|apply Abs_new; lia]. }
  pose proof (absorbed_bytes h data B) as Bm.
  destruct A as (bl & rest & Em & Fb & Lr & Ei & Ebuf & Ok & Est).
  destruct (blocks_split 136 bl rest ltac:(lia) Fb Lr) as [E1 E2].
  assert (FB : Forall (fun b => length b = 136%nat /\ bytes b) bl).
  { rewrite Em in Bm. apply bytes_app in Bm as [Bm _]. clear -Fb Bm. induction Fb as [|b bl Hb Hbl IH]; constructor; cbn [concat] in Bm; apply bytes_app in Bm; tauto. }
  assert (Br : bytes rest) by (rewrite Em in Bm; apply bytes_app in Bm; tauto).
  split; [|split].
  - rewrite Est. unfold unpadded_state. rewrite Em, E1.
    assert (O : ok200 (repeat 0 200)) by (split; [apply repeat_length|apply bytes_repeat0]).
    clear -FB O. revert O. generalize (repeat 0 200) as S0. induction FB as [|b l [Lb Bb] Hl IH]; intros S0 O; [reflexivity|].
    rewrite !fold_left_cons. destruct (absorb_block_ext 136 S0 b ltac:(lia) O Lb Bb) as [E O2]. rewrite E. now apply IH.
  - rewrite Em, E2. exact Ei.
  - split; [exact Ok|]. split; [|rewrite Ei; exact Lr]. rewrite Ebuf. split; [rewrite app_length, repeat_length; lia|].
    apply bytes_app. split; auto. apply bytes_repeat0.
Qed.

(** reading: length, and the first block *)
Lemma squeeze_len fuel : forall s t b, okh s -> (t <= fuel)%nat -> bytes b ->
  exists s' o, squeeze_loop F1600 136 fuel s t b = (s', b ++ o) /\ length o = t /\ okh s' /\ bytes o.
Proof.
  induction fuel as [|fuel IH]; intros s t b Hs Ht Bb.
  - assert (t = 0%nat) by lia. subst. exists s, []. rewrite app_nil_r. repeat split; try apply Hs; constructor.
  - destruct t as [|t']; [exists s, []; rewrite app_nil_r; cbn [squeeze_loop]; repeat split; try apply Hs; constructor|].
    cbn [squeeze_loop]. set (t := S t') in *. destruct Hs as (Ok & Ob & Hi).
    set (w := Nat.min (136 - ki s) t). cbn [ki kstate kbuf].
    set (sl := slice (ki s) (ki s + w) (bytes_of_lanes (kstate s))).
    assert (Ls : length sl = w).
    { unfold sl, slice. rewrite firstn_length, skipn_length, bytes_of_lanes_length, (proj1 Ok). lia. }
    assert (Bs : bytes sl) by (unfold sl, slice; apply bytes_firstn, bytes_skipn, bytes_of_lanes_bytes).
    set (s1 := mk_khash (kstate s) (kbuf s) (ki s + w)).
    assert (O1 : okh (if (ki s + w =? 136)%nat then permute F1600 s1 else s1)).
    { destruct (Nat.eqb_spec (ki s + w) 136).
      - apply permute_okh; auto.
      - split; [exact Ok|]. split; [exact Ob|]. unfold s1. cbn [ki]. lia. }
    destruct (IH _ (t - w)%nat (b ++ sl) O1) as (s' & o & E & Lo & Os & Bo); [lia|apply bytes_app; auto|].
    exists s', (sl ++ o). rewrite E, <- app_assoc. split; [reflexivity|]. split; [rewrite app_length; lia|]. split; auto. apply bytes_app. auto.
Qed.
Lemma read_ok s n : okh s -> exists s' o, shake_read s n = (s', o) /\ length o = n /\ okh s' /\ bytes o.
Proof.
  intros H. destruct (squeeze_len n s n [] H (le_n n) (Forall_nil _)) as (s' & o & E & R). exists s', o. split; auto.
Qed.
Lemma squeeze_first s n : (ki s + n < 136)%nat ->
  shake_read s n = (mk_khash (kstate s) (kbuf s) (ki s + n), slice (ki s) (ki s + n) (bytes_of_lanes (kstate s))).
Proof.
  intros L. unfold shake_read, shake_rate, squeeze. destruct n as [|n].
  - cbn [squeeze_loop]. unfold slice. rewrite Nat.add_0_r, Nat.sub_diag, firstn_O. now destruct s.
  - set (k := S n) in *. assert (E : squeeze_loop F1600 136 k s k [] =
      squeeze_loop F1600 136 n (let s := mk_khash (kstate s) (kbuf s) (ki s + Nat.min (136 - ki s) k) in if (ki s =? 136)%nat then permute F1600 s else s)
        (k - Nat.min (136 - ki s) k) ([] ++ slice (ki s) (ki s + Nat.min (136 - ki s) k) (bytes_of_lanes (kstate s)))) by reflexivity.
    rewrite E. clear E. replace (Nat.min (136 - ki s) k) with k by lia. rewrite Nat.sub_diag. cbv zeta. cbn [ki app].
    destruct (Nat.eqb_spec (ki s + k) 136); [lia|]. destruct n; reflexivity.
Qed.
(** the last read of a block: only the output matters *)
Lemma squeeze_first_out s n : (ki s + n <= 136)%nat -> (0 < n)%nat -> snd (shake_read s n) = slice (ki s) (ki s + n) (bytes_of_lanes (kstate s)).
Proof.
  intros L H0. unfold shake_read, shake_rate, squeeze. destruct n as [|n]; [lia|].
  set (k := S n) in *. assert (E : squeeze_loop F1600 136 k s k [] =
      squeeze_loop F1600 136 n (let s := mk_khash (kstate s) (kbuf s) (ki s + Nat.min (136 - ki s) k) in if (ki s =? 136)%nat then permute F1600 s else s)
        (k - Nat.min (136 - ki s) k) ([] ++ slice (ki s) (ki s + Nat.min (136 - ki s) k) (bytes_of_lanes (kstate s)))) by reflexivity.
  rewrite E. clear E. replace (Nat.min (136 - ki s) k) with k by lia. rewrite Nat.sub_diag. destruct n; reflexivity.
Qed.

Lemma cli_salt_length h data : bytes data -> length (cli_salt h data) = 40%nat.
Proof.
  intros B. destruct (det_sponge_state h data B) as (_ & _ & Ok). unfold cli_salt. destruct (read_ok _ SALT_LEN Ok) as (s' & o & E & L & _). rewrite E. exact L.
Qed.
Lemma cli_salt_unpadded h data : bytes data -> (length (absorbed h data) mod 136 <= 96)%nat ->
  cli_salt h data = slice (length (absorbed h data) mod 136) (length (absorbed h data) mod 136 + 40) (unpadded_state (absorbed h data)).
Proof.
  intros B L. destruct (det_sponge_state h data B) as (E & Ei & Ok). unfold cli_salt. rewrite squeeze_first_out; unfold SALT_LEN; [|lia|lia].
  now rewrite E, Ei.
Qed.
Lemma cli_seed0_unpadded h data : bytes data -> (length (absorbed h data) mod 136 <= 48)%nat ->
  cli_seed h data 0 = slice (length (absorbed h data) mod 136 + 40) (length (absorbed h data) mod 136 + 88) (unpadded_state (absorbed h data)).
Proof.
  intros B L. destruct (det_sponge_state h data B) as (E & Ei & Ok). unfold cli_seed. cbn [nth_read].
  rewrite (squeeze_first (det_sponge h data) SALT_LEN) by (unfold SALT_LEN; lia). cbn [fst].
  set (s1 := mk_khash _ _ _).
  assert (Q : snd (shake_read s1 SEED_LEN) = slice (ki s1) (ki s1 + SEED_LEN) (bytes_of_lanes (kstate s1))).
  { apply squeeze_first_out; unfold s1, SEED_LEN, SALT_LEN; cbn [ki]; lia. }
  destruct (shake_read s1 SEED_LEN) as [s' o] eqn:ER. cbn [snd] in Q. rewrite Q. unfold s1. cbn [ki kstate]. rewrite E, Ei. unfold SALT_LEN, SEED_LEN.
  f_equal. lia.
Qed.
Lemma unpadded_prefix m1 m2 : length m1 = length m2 -> firstn (136 * (length m1 / 136)) m1 = firstn (136 * (length m1 / 136)) m2 ->
  unpadded_state m1 = unpadded_state m2.
Proof.
  intros L E. unfold unpadded_state. f_equal. rewrite <- L.
  assert (X : forall k a b, firstn (136 * k) a = firstn (136 * k) b -> blocks 136 k a = blocks 136 k b).
  { induction k as [|k IH]; intros a b H; [reflexivity|]. cbn [blocks]. f_equal.
    - apply (f_equal (firstn 136)) in H. rewrite !firstn_firstn in H. rewrite Nat.min_l in H by lia. exact H.
    - apply IH. apply (f_equal (skipn 136)) in H. rewrite !skipn_firstn_comm in H. replace (136 * S k - 136)%nat with (136 * k)%nat in H by lia. exact H. }
  now apply X.
Qed.
