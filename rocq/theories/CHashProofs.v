(** Hash-to-point of common.c and keccak_prng.c: the C code draws the same point as the Python one. *)
From Verif Require Import Base KeccakModel KeccakSpec KeccakProofs SpongeProofs ShakeProofs PrngModel PrngSpec PrngProofs HashModel HashSpec HashProofs CTables CModel CNttProofs.

Lemma c_reduce_mod w : 0 <= w < 61445 -> u16 (c_reduce 5 w) = w mod 12289.
Proof.
  intros H. assert (G : forall f w, 0 <= w < 12289 * Z.of_nat f -> c_reduce f w = w mod 12289).
  { clear. induction f as [|f IH]; intros w Hw; [lia|]. cbn [c_reduce]. destruct (Z.leb_spec 12289 w).
    - rewrite IH by lia. rewrite <- (Z_mod_plus_full (w - 12289) 1). f_equal. lia.
    - rewrite Z.mod_small; lia. }
  rewrite G by lia. apply u16_id. pose proof (mod_range w). lia.
Qed.
Lemma lor_word x y : is_byte x -> is_byte y -> Z.lor (Z.shiftl x 8) y = 256 * x + y.
Proof. intros Hx Hy. rewrite lor_shiftl_add by (unfold is_byte in Hy; cbn in *; lia). change (2 ^ 8) with 256. lia. Qed.

Section Gen.
Context {St : Type}.
Variable rd : St -> nat -> St * list Z.
Variable b : nat -> Z.
Variable ok : nat -> Prop.
Variable R : nat -> St -> Prop.
Hypothesis Rread : forall k s, R k s -> ok k -> exists s', rd s 2%nat = (s', [b (2 * k)%nat; b (2 * k + 1)%nat]) /\ R (S k) s'.
Hypothesis Bb : forall i, is_byte (b i).
Variable n : nat.

Lemma word_nonneg k : 0 <= word16 b k.
Proof. unfold word16. pose proof (Bb (2 * k)). pose proof (Bb (2 * k + 1)). unfold is_byte in *. lia. Qed.
Lemma c_h2p_gen fuel : forall k s out rem, R k s -> Prog (word16 b) n k out -> (length out + rem = n)%nat -> (forall i, (k <= i < k + fuel)%nat -> ok i) ->
  (forall v, c_h2p rd fuel rem s out = Some v -> exists N, first_accepted (word16 b) n N v /\ (N <= k + fuel)%nat) /\
  (forall N v, first_accepted (word16 b) n N v -> (N <= k + fuel)%nat -> c_h2p rd fuel rem s out = Some v).
Proof.
  induction fuel as [|fuel IH]; intros k s out rem HR HP HL HO.
  - destruct rem as [|rem]; cbn [c_h2p].
    + assert (F : first_accepted (word16 b) n k out) by (apply Prog_final; [exact HP|lia]). split.
      * intros v E. assert (out = v) by congruence. subst v. exists k. split; [exact F|lia].
      * intros N v F' _. f_equal. now apply (first_accepted_unique _ _ _ _ _ _ F F').
    + split; [discriminate|]. intros N v F' B. exfalso. pose proof (Prog_le_N _ _ _ _ _ _ F' HP ltac:(lia)). lia.
  - destruct rem as [|rem]; cbn [c_h2p].
    + assert (F : first_accepted (word16 b) n k out) by (apply Prog_final; [exact HP|lia]). split.
      * intros v E. assert (out = v) by congruence. subst v. exists k. split; [exact F|lia].
      * intros N v F' _. f_equal. now apply (first_accepted_unique _ _ _ _ _ _ F F').
    + destruct (Rread k s HR (HO k ltac:(lia))) as (s' & E & HR'). rewrite E. cbn [nth].
      rewrite lor_word by apply Bb. change (256 * b (2 * k)%nat + b (2 * k + 1)%nat) with (word16 b k).
      pose proof (Prog_step _ _ _ _ HP ltac:(lia)) as HP'. change (5 * 12289) with 61445 in HP'. pose proof (word_nonneg k) as W0.
      assert (HO' : forall i, (S k <= i < S k + fuel)%nat -> ok i) by (intros; apply HO; lia).
      destruct (Z.ltb_spec (word16 b k) 61445) as [L|L].
      * rewrite c_reduce_mod by lia. destruct (IH (S k) s' _ rem HR' HP' ltac:(rewrite app_length; cbn [length]; lia) HO') as [I1 I2]. split.
        -- intros v Ev. destruct (I1 v Ev) as (N & F & B). exists N. split; [exact F|lia].
        -- intros N v F B. apply (I2 N v F). lia.
      * destruct (IH (S k) s' out (S rem) HR' HP' HL HO') as [I1 I2]. split.
        -- intros v Ev. destruct (I1 v Ev) as (N & F & B). exists N. split; [exact F|lia].
        -- intros N v F B. apply (I2 N v F). lia.
Qed.
Lemma c_h2p_iff fuel s v : R 0%nat s -> (forall i, (i < fuel)%nat -> ok i) ->
  (c_h2p rd fuel n s [] = Some v <-> exists N, first_accepted (word16 b) n N v /\ (N <= fuel)%nat).
Proof.
  intros HR HO. destruct (c_h2p_gen fuel 0 s [] n HR (Prog_0 _ _) eq_refl ltac:(intros; apply HO; lia)) as [I1 I2]. split; [apply I1|].
  intros (N & F & B). exact (I2 N v F B).
Qed.
End Gen.

(** * SHAKE256 *)
Lemma shake256_is_byte m j : bytes m -> is_byte (shake256_byte m j).
Proof.
  intros Hm. unfold shake256_byte, sponge_byte. destruct (sponge_absorb_ext 136 31 m ltac:(lia) ltac:(unfold is_byte; lia) Hm) as [_ O].
  assert (G : forall k, ok200 (Nat.iter k keccak_p (sponge_absorb keccak_p 136 31 m))).
  { induction k as [|k IH]; [exact O|]. change (Nat.iter (S k) keccak_p ?x) with (keccak_p (Nat.iter k keccak_p x)). apply Pb_keccak. exact IH. }
  destruct (G (j / 136)%nat) as [L B]. revert L B. generalize (Nat.iter (j / 136) keccak_p (sponge_absorb keccak_p 136 31 m)). intros l L B.
  unfold bytes in B. rewrite Forall_forall in B. apply B. apply nth_In. pose proof (Nat.mod_upper_bound j 136). lia.
Qed.
Theorem c_hash_shake_iff fuel k ms v : Forall bytes ms ->
  (c_hash_shake fuel k ms = Some v <-> exists N, first_accepted (word16 (shake256_byte (concat ms))) (2 ^ k) N v /\ (N <= fuel)%nat).
Proof.
  intros Bms. set (m := concat ms). assert (Bm : bytes m) by (unfold m; clear -Bms; induction Bms as [|d l Hd Hl IH]; [constructor|]; cbn; apply bytes_app; auto). assert (D31 : is_byte 31) by (unfold is_byte; lia). assert (R136 : (1 <= 136 <= 199)%nat) by lia.
  set (S0 := sponge_absorb (Pb F1600) 136 31 m).
  assert (Eb : forall j, nth (j mod 136) (Nat.iter (j / 136) (Pb F1600) S0) 0 = shake256_byte m j).
  { intros j. symmetry. unfold shake256_byte. rewrite <- sponge_byte_ext by auto. reflexivity. }
  unfold c_hash_shake. apply (c_h2p_iff shake_read (shake256_byte m) (fun _ => True) (fun k x => Sq F1600 136 S0 (2 * k) x)); [| |  |auto].
  - intros i x HR _. destruct (squeeze_spec F1600 136 F1600_ok R136 S0 (2 * i) x 2 HR) as (s' & E & HS). exists s'. split.
    + unfold shake_read, shake_rate. rewrite E. f_equal. unfold out_slice. cbn [seq map]. rewrite !Eb. now rewrite Nat.add_1_r.
    + now replace (2 * S i)%nat with (2 * i + 2)%nat by lia.
  - intros i. now apply shake256_is_byte.
  - apply (pad_Sq F1600 136 31 F1600_ok R136 D31 m); auto.
    assert (G : forall m0 s, bytes m0 -> Abs F1600 136 m0 s -> Abs F1600 136 (m0 ++ m) (fold_left shake_update ms s)).
    { unfold m. clear -Bms R136. induction Bms as [|d l Hd Hl IH]; intros m0 s H0 HA; cbn [concat fold_left]; [rewrite app_nil_r; exact HA|].
      rewrite app_assoc. apply IH; [apply bytes_app; auto|]. apply (absorb_spec F1600 136 F1600_ok R136 m0); auto. }
    apply (G []); [constructor|]. apply Abs_new. exact R136.
Qed.

(** * Keccak-256 in counter mode *)
Section K.
Variable H : list Z -> list Z.
Hypothesis H32 : forall m, length (H m) = 32%nat.
Hypothesis Hb : forall m, bytes (H m).

Lemma be64_shift c : map (fun i => Z.land (Z.shiftr c (56 - Z.of_nat i * 8)) 0xFF) (seq 0 8) = be64 c.
Proof.
  unfold be64. apply map_ext_in. intros i Hi. apply in_seq in Hi. change 0xFF with (2 ^ 8 - 1). rewrite land_ones_mod by lia. rewrite Z.shiftr_div_pow2 by lia.
  f_equal. f_equal. change 256 with (2 ^ 8). rewrite <- Z.pow_mul_r by lia. f_equal. lia.
Qed.
Lemma c_extract_loop_eq len : forall fuel s offset out s' o, extract_loop H fuel s len offset out = (s', Ok o) -> counter s' < 2 ^ 64 ->
  c_extract_loop H fuel s len offset out = (s', o).
Proof.
  assert (M : forall fuel s offset out s' o, extract_loop H fuel s len offset out = (s', Ok o) -> counter s <= counter s').
  { induction fuel as [|fuel IH]; intros s offset out s' o E; cbn [extract_loop] in E; destruct (offset <? len)%nat.
    - discriminate E.
    - assert (s = s') by congruence. subst. lia.
    - unfold pack_Q in E. destruct ((0 <=? counter s) && (counter s <? 2 ^ 64)); [|discriminate E]. apply IH in E. cbn [counter] in E. lia.
    - assert (s = s') by congruence. subst. lia. }
  induction fuel as [|fuel IH]; intros s offset out s' o E HC; cbn [extract_loop c_extract_loop] in *; destruct (offset <? len)%nat.
  - discriminate E.
  - congruence.
  - unfold pack_Q in E. destruct ((0 <=? counter s) && (counter s <? 2 ^ 64)) eqn:EC; [|discriminate E]. pose proof (M _ _ _ _ _ _ E) as HM. cbn [counter] in HM.
    rewrite be64_shift. rewrite Z.mod_small by lia.
    replace (if (len - offset <? 32)%nat then (len - offset)%nat else 32%nat) with (Nat.min (len - offset) 32) by (destruct (Nat.ltb_spec (len - offset) 32); lia).
    now apply IH.
  - congruence.
Qed.
Lemma c_extract_eq s len s' o : extract H s len = (s', Ok o) -> counter s' < 2 ^ 64 -> c_extract H s len = (s', o).
Proof.
  unfold extract, c_extract. destruct (finalized s); [|discriminate]. cbn [negb]. destruct (Nat.ltb_spec (out_buffer_pos s) (out_buffer_len s)) as [L|L].
  - replace (if (len <? out_buffer_len s - out_buffer_pos s)%nat then len else (out_buffer_len s - out_buffer_pos s)%nat) with (Nat.min len (out_buffer_len s - out_buffer_pos s))
      by (destruct (Nat.ltb_spec len (out_buffer_len s - out_buffer_pos s)); lia).
    destruct (Nat.eqb _ len) eqn:E'; [congruence|]. apply c_extract_loop_eq.
  - apply c_extract_loop_eq.
Qed.
Lemma c_inject_ok s d m : Rel (Z.to_nat 4096) H s (Absorbing m) -> (length m + length d <= Z.to_nat 4096)%nat -> Rel (Z.to_nat 4096) H (fst (c_inject s d)) (Absorbing (m ++ d)).
Proof.
  intros HR HL. destruct (inject_step H H32 (Z.to_nat 4096) s d m HR HL) as (s' & E & HR').
  assert (EE : fst (c_inject s d) = fst (inject (Z.to_nat 4096) s d)).
  { unfold c_inject, inject. destruct (finalized s); [reflexivity|]. rewrite (Nat.add_comm (length d)). destruct (Z.to_nat 4096 <? buffer_len s + length d)%nat; reflexivity. }
  rewrite EE, E. exact HR'.
Qed.
Lemma c_inject_over s d m : Rel (Z.to_nat 4096) H s (Absorbing m) -> (Z.to_nat 4096 < length m + length d)%nat -> c_inject s d = (s, -3).
Proof.
  intros (_ & F & BL & _) HL. unfold c_inject. rewrite F, BL. destruct (Nat.ltb_spec (Z.to_nat 4096) (length m + length d)); [reflexivity|lia].
Qed.
(** what the context has absorbed: an input that does not fit is dropped *)
Definition absorbed1 (m d : list Z) : list Z := if (length m + length d <=? Z.to_nat 4096)%nat then m ++ d else m.
Lemma c_injects_rel ds : forall s m, Rel (Z.to_nat 4096) H s (Absorbing m) ->
  Rel (Z.to_nat 4096) H (fold_left (fun s d => fst (c_inject s d)) ds s) (Absorbing (fold_left absorbed1 ds m)).
Proof.
  induction ds as [|d ds IH]; intros s m HR; [exact HR|]. cbn [fold_left]. apply IH. unfold absorbed1. destruct (Nat.leb_spec (length m + length d) (Z.to_nat 4096)).
  - now apply c_inject_ok.
  - rewrite (c_inject_over s d m HR) by assumption. exact HR.
Qed.
Theorem c_hash_keccak_iff fuel k ds v : Z.of_nat fuel < 2 ^ 64 ->
  (c_hash_keccak H fuel k ds = Some v <-> exists N, first_accepted (word16 (ctr_stream H (fold_left absorbed1 ds []))) (2 ^ k) N v /\ (N <= fuel)%nat).
Proof.
  intros HF. unfold c_hash_keccak. set (m := fold_left absorbed1 ds []).
  set (okk := fun i : nat => Z.of_nat i < 2 ^ 64).
  apply (c_h2p_iff (c_extract H) (ctr_stream H m) okk (fun i s => Rel (Z.to_nat 4096) H s (Squeezing m (2 * Z.of_nat i)))).
  - intros i s HR Ho. destruct (read_step H H32 (Z.to_nat 4096) m i s HR ltac:(unfold ctr_ok, okk in *; lia)) as (s' & E & HR'). exists s'. split; [|exact HR'].
    apply c_extract_eq; [exact E|]. destruct HR' as (_ & _ & _ & _ & [(_ & _ & -> & _)|(_ & HP & _ & _ & EP)]); [lia|]. unfold okk in Ho. lia.
  - intros i. unfold ctr_stream, stream_byte. specialize (Hb (H m ++ be64 (Z.of_nat i / 32))). unfold bytes in Hb. rewrite Forall_forall in Hb. apply Hb. apply nth_In. rewrite H32. lia.
  - pose proof (c_injects_rel ds (prng_new (Z.to_nat 4096)) [] (rel_new (Z.to_nat 4096) H)) as HR. fold m in HR.
    destruct (flip_step H H32 (Z.to_nat 4096) _ m HR) as (s' & E & HR'). replace (fst (c_flip H _)) with s'; [exact HR'|].
    unfold c_flip. unfold flip in E. destruct (finalized _); [discriminate E|]. cbn [fst]. congruence.
  - intros i Hi. unfold okk. lia.
Qed.
End K.
