(** SHAKE wrapper = SHAKE256; Solidity SHAKE = Python SHAKE. *)
From Verif Require Import Base KeccakModel KeccakSpec KeccakProofs SpongeProofs.

Lemma F1600_ok s : ok25 s -> ok25 (F1600 s).
Proof. intros H. exact (proj1 (F1600_fips s H)). Qed.

Definition ok200 (b : list Z) : Prop := length b = 200%nat /\ bytes b.

Lemma Pb_keccak b : ok200 b -> Pb F1600 b = keccak_p b /\ ok200 (keccak_p b).
Proof.
  intros [L B]. rewrite (keccak_p_F1600 b L B). split; [reflexivity|].
  pose proof (F1600_ok _ (lanes_of_bytes_ok b L B)) as [L2 F2]. split.
  - rewrite bytes_of_lanes_length, L2. reflexivity.
  - apply bytes_of_lanes_bytes.
Qed.

Lemma xor_bytes_ok a b : ok200 a -> ok200 b -> ok200 (xor_bytes a b).
Proof.
  intros [La Ba] [Lb Bb]. split.
  - unfold xor_bytes. rewrite map_length, combine_length. lia.
  - unfold xor_bytes, bytes. apply Forall_map, Forall_forall. intros [x y] Hin.
    pose proof (in_combine_l _ _ _ _ Hin). pose proof (in_combine_r _ _ _ _ Hin).
    unfold bytes in Ba, Bb. rewrite Forall_forall in Ba, Bb. cbn [fst snd]. apply lxor_byte; auto.
Qed.

Lemma blocks_ok rate k : forall p, (k * rate <= length p)%nat -> bytes p ->
  Forall (fun b => length b = rate /\ bytes b) (blocks rate k p).
Proof.
  induction k as [|k IH]; intros p L B; cbn [blocks]; constructor.
  - split; [rewrite firstn_length; lia|now apply bytes_firstn].
  - apply IH; [rewrite skipn_length; lia|now apply bytes_skipn].
Qed.

Lemma sponge_pad_bytes rate ds m : is_byte ds -> bytes m -> bytes (sponge_pad rate ds m).
Proof.
  intros Hd Hm. assert (is_byte 128) by (unfold is_byte; lia).
  unfold sponge_pad. destruct (rate - length m mod rate)%nat as [|[|k]].
  - constructor.
  - apply bytes_app. split; auto. constructor; [apply lxor_byte; auto|constructor].
  - apply bytes_app. split; auto. constructor; auto. apply bytes_app. split; [apply bytes_repeat0|].
    repeat constructor; apply H.
Qed.

Lemma absorb_block_ext rate S0 b : (rate <= 200)%nat -> ok200 S0 -> length b = rate -> bytes b ->
  absorb_block (Pb F1600) rate S0 b = absorb_block keccak_p rate S0 b /\
  ok200 (absorb_block keccak_p rate S0 b).
Proof.
  intros Hr O Lb Bb. unfold absorb_block. apply Pb_keccak. apply xor_bytes_ok; auto.
  split; [rewrite app_length, repeat_length; lia|].
  apply bytes_app. split; auto. apply bytes_repeat0.
Qed.

Lemma sponge_absorb_ext rate ds m : (1 <= rate <= 199)%nat -> is_byte ds -> bytes m ->
  sponge_absorb (Pb F1600) rate ds m = sponge_absorb keccak_p rate ds m /\
  ok200 (sponge_absorb keccak_p rate ds m).
Proof.
  intros Hr Hd Hm. unfold sponge_absorb.
  set (p := sponge_pad rate ds m). assert (Bp : bytes p) by (apply sponge_pad_bytes; auto).
  assert (FB : Forall (fun b => length b = rate /\ bytes b) (blocks rate (length p / rate) p)).
  { apply blocks_ok; auto. rewrite Nat.mul_comm. apply Nat.mul_div_le. lia. }
  assert (O : ok200 (repeat 0 200)) by (split; [apply repeat_length|apply bytes_repeat0]).
  revert O. generalize (repeat 0 200) as S0.
  induction FB as [|b l [Lb Bb] Hl IH]; intros S0 O.
  - split; [reflexivity|exact O].
  - rewrite !fold_left_cons.
    destruct (absorb_block_ext rate S0 b ltac:(lia) O Lb Bb) as [E O2]. rewrite E. apply IH. exact O2.
Qed.

Lemma sponge_byte_ext rate ds m j : (1 <= rate <= 199)%nat -> is_byte ds -> bytes m ->
  sponge_byte (Pb F1600) rate ds m j = sponge_byte keccak_p rate ds m j.
Proof.
  intros Hr Hd Hm. unfold sponge_byte. destruct (sponge_absorb_ext rate ds m Hr Hd Hm) as [-> O].
  f_equal. assert (G : forall k, Nat.iter k (Pb F1600) (sponge_absorb keccak_p rate ds m) =
                               Nat.iter k keccak_p (sponge_absorb keccak_p rate ds m) /\
                               ok200 (Nat.iter k keccak_p (sponge_absorb keccak_p rate ds m))).
  { induction k as [|k [IH1 IH2]]; [split; [reflexivity|exact O]|].
    change (Nat.iter (S k) (Pb F1600) ?x) with (Pb F1600 (Nat.iter k (Pb F1600) x)).
    change (Nat.iter (S k) keccak_p ?x) with (keccak_p (Nat.iter k keccak_p x)).
    rewrite IH1. apply Pb_keccak. exact IH2. }
  apply G.
Qed.

(** the wrapper of shake.py *)
Fixpoint shake_reads (s : khash) (ks : list nat) : list (list Z) :=
  match ks with [] => [] | k :: ks' => let (s', o) := shake_read s k in o :: shake_reads s' ks' end.

Lemma shake_reads_spec inputs ks : Forall bytes inputs ->
  shake_reads (shake_flip (fold_left shake_update inputs shake_new)) ks =
  map (fun i => map (shake256_byte (concat inputs)) (seq (list_sum (firstn i ks)) (nth i ks 0%nat)))
      (seq 0 (length ks)).
Proof.
  intros HB.
  assert (ER : forall s, shake_reads s ks = squeezes F1600 136 s ks).
  { clear. induction ks as [|k ks' IH]; intros s; [reflexivity|].
    cbn [shake_reads squeezes]. unfold shake_read, shake_rate.
    generalize (squeeze F1600 136 s k). intros [s' o]. now rewrite IH. }
  rewrite ER. unfold shake_flip, shake_update, shake_new, shake_rate.
  rewrite (sponge_correct F1600 136 0x1f F1600_ok) by (auto; try lia; unfold is_byte; lia).
  apply map_ext. intros i. apply map_ext. intros j. unfold shake256_byte.
  apply sponge_byte_ext; [lia|unfold is_byte; lia|].
  clear -HB. induction HB as [|d l Hd Hl IH]; [constructor|]. cbn. apply bytes_app; auto.
Qed.

(** ** Solidity = Python *)
Lemma skipn_add {A} a b (l : list A) : skipn a (skipn b l) = skipn (b + a) l.
Proof. revert l; induction b as [|b IH]; intros [|x l]; auto. - cbn [plus]. now destruct a. - apply IH. Qed.

Lemma sol_word_spec buf w : length buf = 200%nat -> bytes buf -> (w < 25)%nat ->
  sol_word buf w = nth w (lanes_of_bytes buf) 0.
Proof.
  intros L B Hw.
  assert (EN : forall k b w, (w < k)%nat -> length b = (8 * k)%nat ->
     nth w (lanes_of_bytes_n k b) 0 = of_le (firstn 8 (skipn (8 * w) b))).
  { clear. induction k as [|k IH]; intros b w Hw Lb; [lia|]. cbn [lanes_of_bytes_n]. destruct w as [|w].
    - reflexivity.
    - cbn [nth]. rewrite IH by (try lia; rewrite skipn_length; lia).
      f_equal. f_equal. rewrite skipn_add. f_equal. lia. }
  unfold lanes_of_bytes. rewrite EN by auto.
  assert (EL : firstn 8 (skipn (8 * w) buf) = map (fun j => nth (8 * w + j) buf 0) (seq 0 8)).
  { replace 8%nat with (8 * w + 8 - 8 * w)%nat at 1 by lia. change (slice (8 * w) (8 * w + 8) buf = map (fun j => nth (8 * w + j) buf 0) (seq 0 8)).
    rewrite slice_nth by lia. 
    replace (seq (8 * w) 8) with (map (fun j => (8 * w + j)%nat) (seq 0 8)).
    2:{ cbn [seq map]. repeat (apply f_equal2; [lia|]). reflexivity. }
    now rewrite map_map. }
  rewrite EL. unfold sol_word.
  assert (BB : forall j, (j < 8)%nat -> is_byte (nth (8 * w + j) buf 0)).
  { intros j Hj. unfold bytes in B. rewrite Forall_forall in B. apply B, nth_In. lia. }
  cbn [seq map fold_left of_le fold_right].
  pose proof (BB 0%nat ltac:(lia)) as B0. pose proof (BB 1%nat ltac:(lia)) as B1.
  pose proof (BB 2%nat ltac:(lia)) as B2. pose proof (BB 3%nat ltac:(lia)) as B3.
  pose proof (BB 4%nat ltac:(lia)) as B4. pose proof (BB 5%nat ltac:(lia)) as B5.
  pose proof (BB 6%nat ltac:(lia)) as B6. pose proof (BB 7%nat ltac:(lia)) as B7.
  revert B0 B1 B2 B3 B4 B5 B6 B7. clear.
  generalize (nth (8 * w + 0) buf 0) (nth (8 * w + 1) buf 0) (nth (8 * w + 2) buf 0) (nth (8 * w + 3) buf 0)
    (nth (8 * w + 4) buf 0) (nth (8 * w + 5) buf 0) (nth (8 * w + 6) buf 0) (nth (8 * w + 7) buf 0).
  intros b0 b1 b2 b3 b4 b5 b6 b7. unfold is_byte. intros.
  assert (ST : forall v k b, 0 <= k -> 0 <= v < 2 ^ (8 * k) -> 8 * k < 64 -> 0 <= b < 256 ->
             Z.lor v (evm_shl (8 * k) b) = v + 2 ^ (8 * k) * b).
  { intros v k b Hk Hv Hk8 Hb. unfold evm_shl. rewrite Z.mod_small.
    - rewrite Z.lor_comm, lor_shiftl_add by lia. lia.
    - rewrite Z.shiftl_mul_pow2 by lia. split; [apply Z.mul_nonneg_nonneg; lia|].
      apply Z.lt_le_trans with (256 * 2 ^ (8 * k)). { apply Z.mul_lt_mono_pos_r; lia. }
      change 256 with (2 ^ 8) at 1. rewrite <- Z.pow_add_r by lia. apply Z.pow_le_mono_r; lia. }
  Ltac pw := change (Z.of_nat 1) with 1 in *; change (Z.of_nat 2) with 2 in *; change (Z.of_nat 3) with 3 in *;
    change (Z.of_nat 4) with 4 in *; change (Z.of_nat 5) with 5 in *; change (Z.of_nat 6) with 6 in *;
    change (Z.of_nat 7) with 7 in *;
    change (2 ^ (8 * 1)) with 256 in *; change (2 ^ (8 * 2)) with 65536 in *;
    change (2 ^ (8 * 3)) with 16777216 in *; change (2 ^ (8 * 4)) with 4294967296 in *;
    change (2 ^ (8 * 5)) with 1099511627776 in *; change (2 ^ (8 * 6)) with 281474976710656 in *;
    change (2 ^ (8 * 7)) with 72057594037927936 in *; change (2 ^ 64) with 18446744073709551616 in *.
  pw.
  rewrite (ST _ 1) by (pw; lia). rewrite (ST _ 2) by (pw; lia). rewrite (ST _ 3) by (pw; lia).
  rewrite (ST _ 4) by (pw; lia). rewrite (ST _ 5) by (pw; lia). rewrite (ST _ 6) by (pw; lia).
  rewrite (ST _ 7) by (pw; lia).
  change mask64 with (Z.ones 64). rewrite Z.land_ones by lia. pw.
  rewrite Z.mod_small by lia. ring.
Qed.

Lemma ext_nth0 (a b : list Z) : length a = length b -> (forall i, (i < length a)%nat -> nth i a 0 = nth i b 0) -> a = b.
Proof. intros. now apply (nth_ext a b 0 0). Qed.

Lemma nth_xorl a : forall b i, length a = length b -> nth i (xorl a b) 0 = Z.lxor (nth i a 0) (nth i b 0).
Proof.
  induction a as [|x a IH]; intros [|y b] i L; cbn [length] in L; try discriminate.
  - destruct i; reflexivity.
  - destruct i; cbn [xorl nth]; auto.
Qed.

Lemma shakePermute_eq buf st i : ok200 buf -> ok25 st ->
  shakePermute buf st = (repeat 0 200, kstate (permute F1600 (mk_khash st buf i))).
Proof.
  intros [L B] Ok. unfold shakePermute. f_equal. unfold permute. cbn [kstate kbuf].
  pose proof (lanes_of_bytes_ok buf L B) as [L1 F1].
  assert (E : map (fun w => Z.lxor (lane st w) (sol_word buf w)) (seq 0 25) = xorl st (lanes_of_bytes buf)).
  { apply ext_nth0.
    - rewrite map_length, seq_length, xorl_length. symmetry. apply Ok.
    - intros w Hw. rewrite map_length, seq_length in Hw.
      rewrite (nth_indep _ 0 (Z.lxor (lane st 0) (sol_word buf 0))) by (rewrite map_length, seq_length; lia).
      rewrite (map_nth (fun w => Z.lxor (lane st w) (sol_word buf w))), seq_nth by lia.
      rewrite nth_xorl by (rewrite L1; apply Ok). rewrite sol_word_spec by auto. reflexivity. }
  rewrite E. apply f1600_sol_eq. split; [rewrite xorl_length; apply Ok|].
  apply xorl_ok; auto; [rewrite L1; symmetry; apply Ok|apply Ok].
Qed.

Definition okh (s : khash) : Prop := ok25 (kstate s) /\ ok200 (kbuf s) /\ (ki s < 136)%nat.
Definition ctx_of (s : khash) (d : bool) : ctx := mk_ctx (kstate s) (kbuf s) (ki s) d.

Lemma permute_okh s : ok25 (kstate s) -> ok200 (kbuf s) -> okh (permute F1600 s).
Proof.
  intros Ok [L B]. destruct s as [st buf i]. cbn [kstate kbuf] in *.
  destruct (permute_Pb F1600 F1600_ok st buf i Ok L B) as (O & E1 & E2 & _).
  split; [exact O|]. rewrite E1, E2. split; [split; [apply repeat_length|apply bytes_repeat0]|lia].
Qed.

Lemma xor_at_ok i d buf : ok200 buf -> bytes d -> (i + length d <= 200)%nat -> ok200 (xor_at i d buf).
Proof.
  intros [L B] Bd H. unfold xor_at. split.
  - rewrite app_length, xorl_length, firstn_length, skipn_length. lia.
  - apply bytes_app. split; [now apply bytes_firstn|].
    assert (G : forall a b, bytes a -> bytes b -> bytes (xorl a b)).
    { clear. unfold bytes. induction a as [|x a IH]; intros [|y b] Ha Hb; cbn [xorl]; auto.
      inversion Ha; inversion Hb; subst. constructor; auto. now apply lxor_byte. }
    apply G; auto. now apply bytes_skipn.
Qed.

Lemma shakeAbsorb_eq fuel : forall s input, okh s -> bytes input ->
  shakeAbsorb fuel (ki s) (kbuf s) (kstate s) input =
    (let s' := absorb_loop F1600 136 fuel s input in (ki s', kbuf s', kstate s'))
  /\ okh (absorb_loop F1600 136 fuel s input).
Proof.
  induction fuel as [|fuel IH]; intros s input Ok B.
  - destruct input; cbn; auto.
  - destruct input as [|b0 input']; [cbn; auto|]. set (input := b0 :: input') in *.
    cbn [shakeAbsorb absorb_loop]. fold input. destruct Ok as (Ok & Ob & Hi).
    set (w := Nat.min (136 - ki s) (length input)).
    assert (Lw : length (firstn w input) = w) by (rewrite firstn_length; unfold w; lia).
    set (buf := xor_at (ki s) (firstn w input) (kbuf s)).
    assert (Ob' : ok200 buf) by (apply xor_at_ok; auto; [now apply bytes_firstn|unfold w in *; lia]).
    cbn [ki]. destruct (Nat.eqb_spec (ki s + w) 136) as [E|NE].
    + rewrite (shakePermute_eq _ _ (ki s + w)) by assumption.
      assert (Ok' := permute_okh (mk_khash (kstate s) buf (ki s + w)) Ok Ob').
      apply (IH (permute F1600 (mk_khash (kstate s) buf (ki s + w))) (skipn w input)); auto. now apply bytes_skipn.
    + apply (IH (mk_khash (kstate s) buf (ki s + w)) (skipn w input)); [|now apply bytes_skipn].
      split; [exact Ok|]. split; [exact Ob'|]. cbn [ki]. unfold w in *; lia.
Qed.

Lemma shakeUpdate_eq s input : okh s -> bytes input ->
  shakeUpdate (ctx_of s false) input = ctx_of (shake_update s input) false /\ okh (shake_update s input).
Proof.
  intros Ok B. unfold shakeUpdate, ctx_of, shake_update, absorb, shake_rate. cbn [cdir cbuff cstate ci].
  destruct (shakeAbsorb_eq (length input) s input Ok B) as [E O]. rewrite E. auto.
Qed.

Lemma shakePad_eq s d : okh s -> shakePad (ctx_of s d) = ctx_of (shake_flip s) d /\ okh (shake_flip s).
Proof.
  intros (Ok & Ob & Hi). unfold shakePad, shake_flip, ctx_of, pad, shake_rate. cbn [cdir cbuff cstate ci].
  change (136 - 1)%nat with 135%nat.
  assert (Ob' : ok200 (xor_at 135 [128] (xor_at (ki s) [31] (kbuf s)))).
  { apply xor_at_ok; [apply xor_at_ok; auto| |]; try (repeat constructor; unfold is_byte; lia); cbn [length]; lia. }
  rewrite (shakePermute_eq _ _ (ki s)) by assumption. split; [reflexivity|].
  apply permute_okh; assumption.
Qed.

Lemma squeeze_chunk st i w : ok25 st -> (i + w <= 136)%nat ->
  map (fun j => let r := (i + j)%nat in
       Z.land (Z.shiftr (lane st (r / 8)) (8 * Z.of_nat (r mod 8))) 0xff) (seq 0 w) =
  slice i (i + w) (bytes_of_lanes st).
Proof.
  intros [L FU] H. rewrite slice_nth by (rewrite bytes_of_lanes_length, L; lia).
  replace (seq i w) with (map (fun j => (i + j)%nat) (seq 0 w)).
  2:{ clear. revert i. induction w as [|w IH]; intros i; auto. cbn [seq map]. f_equal; [lia|].
      rewrite <- seq_shift, map_map. rewrite <- (IH (S i)). apply map_ext. intros; lia. }
  rewrite map_map. apply map_ext_in. intros j Hj. apply in_seq in Hj. cbv zeta.
  set (r := (i + j)%nat).
  pose proof (Nat.div_mod r 8 ltac:(lia)) as D. pose proof (Nat.mod_upper_bound r 8 ltac:(lia)) as M.
  destruct (nth_bytes_of_lanes st (r / 8) (r mod 8) M) as [E|E].
  - rewrite <- D in E. rewrite E, nth_le8 by exact M. unfold lane.
    change 0xff with (Z.ones 8). rewrite Z.land_ones by lia. change (2 ^ 8) with 256. f_equal.
    rewrite Z.shiftr_div_pow2 by lia. f_equal. change 256 with (2 ^ 8). now rewrite <- Z.pow_mul_r by lia.
  - assert (r / 8 < 25)%nat by (apply Nat.div_lt_upper_bound; lia). lia.
Qed.

Lemma shakeSqueeze_eq d fuel : forall s n out, okh s ->
  shakeSqueeze_loop fuel (ctx_of s d) n out =
    (let (s', o) := squeeze_loop F1600 136 fuel s n out in (ctx_of s' d, o))
  /\ okh (fst (squeeze_loop F1600 136 fuel s n out)).
Proof.
  induction fuel as [|fuel IH]; intros s n out Ok.
  - destruct n; cbn; auto.
  - destruct n as [|n']; [cbn; auto|].
    cbn [shakeSqueeze_loop squeeze_loop]. set (n := S n'). destruct Ok as (Ok & Ob & Hi).
    change (ci (ctx_of s d)) with (ki s). change (cstate (ctx_of s d)) with (kstate s).
    change (cbuff (ctx_of s d)) with (kbuf s). change (cdir (ctx_of s d)) with d.
    cbn [ki].
    set (w := Nat.min (136 - ki s) n).
    assert (Hw : (ki s + w <= 136)%nat) by (unfold w; lia).
    pose proof (squeeze_chunk (kstate s) (ki s) w Ok Hw) as EC. cbv zeta in EC. rewrite EC.
    destruct (Nat.eqb_spec (ki s + w) 136) as [E|NE].
    + rewrite (shakePermute_eq _ _ (ki s + w)) by assumption.
      apply (IH (permute F1600 (mk_khash (kstate s) (kbuf s) (ki s + w)))).
      apply permute_okh; assumption.
    + apply (IH (mk_khash (kstate s) (kbuf s) (ki s + w))).
      split; [exact Ok|]. split; [exact Ob|]. cbn [ki]. unfold w in *; lia.
Qed.

Lemma shakeSqueeze_read s d n : okh s ->
  shakeSqueeze (ctx_of s d) n = (let (s', o) := shake_read s n in (ctx_of s' d, o)) /\ okh (fst (shake_read s n)).
Proof. intros. apply shakeSqueeze_eq. assumption. Qed.

Lemma okh_new : okh shake_new.
Proof.
  unfold okh. cbn [shake_new khash_new kstate kbuf ki]. split; [|split; [|lia]].
  - split; [reflexivity|]. apply Forall_forall. intros x Hx. apply repeat_spec in Hx. subst. apply u64_0.
  - split; [apply repeat_length|apply bytes_repeat0].
Qed.
Lemma ctx_of_new : ctx_zero = ctx_of shake_new false. Proof. reflexivity. Qed.

(** the whole Solidity SHAKE: update*, pad, squeeze* *)
Fixpoint sol_reads (c : ctx) (ks : list nat) : list (list Z) :=
  match ks with [] => [] | k :: ks' => let (c', o) := shakeSqueeze c k in o :: sol_reads c' ks' end.

Lemma sol_reads_eq ks : forall s d, okh s -> sol_reads (ctx_of s d) ks = shake_reads s ks.
Proof.
  induction ks as [|k ks IH]; intros s d Ok; auto. cbn [sol_reads shake_reads].
  destruct (shakeSqueeze_read s d k Ok) as [E O]. rewrite E. destruct (shake_read s k) as [s' o]. cbn [fst] in O.
  now rewrite IH.
Qed.

Lemma sol_updates_eq inputs : forall s, okh s -> Forall bytes inputs ->
  fold_left shakeUpdate inputs (ctx_of s false) = ctx_of (fold_left shake_update inputs s) false /\
  okh (fold_left shake_update inputs s).
Proof.
  induction inputs as [|d l IH]; intros s Ok FB; cbn [fold_left]; auto. inversion FB; subst.
  destruct (shakeUpdate_eq s d Ok) as [E O]; auto. rewrite E. apply IH; auto.
Qed.

Lemma sol_shake_spec inputs ks : Forall bytes inputs ->
  sol_reads (shakePad (fold_left shakeUpdate inputs ctx_zero)) ks =
  map (fun i => map (shake256_byte (concat inputs)) (seq (list_sum (firstn i ks)) (nth i ks 0%nat)))
      (seq 0 (length ks)).
Proof.
  intros FB. rewrite ctx_of_new. destruct (sol_updates_eq inputs shake_new okh_new FB) as [-> O].
  destruct (shakePad_eq _ false O) as [-> O2]. rewrite sol_reads_eq by auto.
  now apply shake_reads_spec.
Qed.
