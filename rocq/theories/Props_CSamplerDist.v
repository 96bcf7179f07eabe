(** C97: one round of the C sampler (CSamplerModel.v: the bit-exact model of sign.c:989-1198, emulated floating point included) returns a sample of the
    discrete Gaussian of GaussSpec.  The counterpart of C79, without exact arithmetic: every rounding is accounted for. *)
From Coq Require Import Reals Lra Lia ZArith List Bool.
From Verif Require Import Base SamplerModel SamplerRealModel SamplerProofs GaussSpec GaussTables SamplerReal RoundCount SumOver SamplerDist Props_Gauss.
From Verif Require Import FprModel FprSpec FprBits FprRound FprConv FprMisc Props_Fpr CSamplerModel CSamplerProofs CSamplerDist Props_CSampler.
From Verif Require CSamplerReal.
Import ListNotations.
Open Scope R_scope.

(** l: 18 random bytes (enough for one round) on which the first round accepts and returns z *)
Definition accepted_c (sigma_min mu isigma : Z) (z : Z) (l : list Z) : Prop :=
  bytes l /\ length l = 18%nat /\ exists pos, sampler (su64 (fun i => nth i l 0%Z)) (su8 (fun i => nth i l 0%Z)) 1 sigma_min mu isigma 0%nat = Some (pos, z).
(** the parameters: 64-bit numbers; the centre is any number below 2^31 in absolute value (but not -0), the deviation 1 / isigma is between
    1 and 1.8204, and the acceptance factor sigma_min / sigma is below 1 by at least 2^-50 (C96_c_scale_factor_one_is_wrong) *)
Definition parameters_c (sigma_min mu isigma : Z) : Prop :=
  usable mu /\ mu <> (2 ^ 63)%Z /\ Rabs (val mu) < IZR (2 ^ 31) /\
  usable isigma /\ 10000 / 18204 <= val isigma <= 1 /\ usable sigma_min /\ 1 <= val sigma_min /\ val sigma_min * val isigma <= 1 - / 2 ^ 50.

Lemma stream_of l : bytes l -> stream (fun i => nth i l 0%Z).
Proof. intros H i. destruct (Nat.lt_ge_cases i (length l)) as [L|L]; [|rewrite nth_overflow by exact L; lia]. unfold bytes in H. rewrite Forall_forall in H. apply H, nth_In, L. Qed.
Lemma accepted_round sm mu i z l : usable mu -> mu <> (2 ^ 63)%Z -> Rabs (val mu) < IZR (2 ^ 31) ->
  (round_gives (Int_part (val mu)) (c_thr sm mu i) z l <-> accepted_c sm mu i z l).
Proof.
  intros U N B. destruct (floor_is_Int_part mu U N B) as [E R]. unfold accepted_c, round_gives, c_thr.
  assert (S : s32 (fpr_floor mu) = fpr_floor mu) by (unfold s32; rewrite Z.mod_small by lia; lia).
  assert (G : bytes l -> forall pos, sampler (su64 (fun i => nth i l 0%Z)) (su8 (fun i => nth i l 0%Z)) 1 sm mu i 0%nat = Some (pos, z) <->
    samplerz (fun i => nth i l 0%Z) 1 (Int_part (val mu)) (fun z z0 => c_threshold (c_x (fpr_sub mu (fpr_of (fpr_floor mu))) (fpr_half (fpr_sqr i)) z z0) (fpr_mul i sm)) 0 = Some (z, pos)).
  { intros Hb pos. unfold sampler. cbv zeta. rewrite S, C95_c_rejection_loop_is_the_python_one by (apply stream_of; exact Hb). rewrite E.
    generalize (fun z z0 => c_threshold (c_x (fpr_sub mu (fpr_of (Int_part (val mu)))) (fpr_half (fpr_sqr i)) z z0) (fpr_mul i sm)). intros t.
    destruct (samplerz _ 1 _ t 0) as [[z' p']|]; cbn [option_map]; unfold swap; cbn [fst snd]; split; intros H; inversion H; reflexivity. }
  split; intros (Hb & L & pos & H); (split; [exact Hb|]; split; [exact L|]; exists pos; apply (G Hb pos); exact H).
Qed.
Lemma params_sigma i : 10000 / 18204 <= val i <= 1 -> 1 <= 1 / val i <= MAX_SIGMA.
Proof.
  intros H. unfold Rdiv. rewrite !Rmult_1_l. split; [rewrite <- Rinv_1; apply Rinv_le_contravar; lra|]. apply Rle_trans with (/ (10000 / 18204)); [apply Rinv_le_contravar; lra|unfold MAX_SIGMA; lra].
Qed.
Lemma params_ccs i s : 10000 / 18204 <= val i <= 1 -> 1 <= val s -> val s * val i <= 1 - / 2 ^ 50 -> 54 / 100 <= val s * val i <= 1.
Proof. intros H1 H2 H3. split; [apply Rle_trans with (1 * (10000 / 18204)); [lra|apply Rmult_le_compat; lra]|lra]. Qed.

(** Among the accepted inputs, the proportions of the returned values are the probabilities of the discrete Gaussian of centre val mu and deviation 1 / val isigma,
    with a total difference (twice the statistical distance) of at most 2^-38, for every centre and every deviation. *)
Theorem C97_c_round_is_gaussian : forall sigma_min mu isigma G N Ntot, parameters_c sigma_min mu isigma -> zsum (dgauss (1 / val isigma) (val mu)) G ->
  (forall z, has_count (accepted_c sigma_min mu isigma z) (N z)) -> has_count (fun l => exists z, accepted_c sigma_min mu isigma z l) Ntot ->
  forall zs, NoDup zs -> sum_over zs (fun z => Rabs (IZR (N z) / IZR Ntot - dgauss (1 / val isigma) (val mu) z / G)) <= / 2 ^ 38.
Proof.
  intros sm mu i G N Ntot (Um & Nm & Bm & Ui & Hi & Us & Hs & Hc) HG HN HNt zs Nz. destruct (gsum_exists MAX_SIGMA 0 MAX_pos) as (T & HT). destruct (gsum_exists MAX_SIGMA 19 MAX_pos) as (U & HU).
  pose proof (c_thr_ok sm mu i Um Nm Bm Ui Us Hi Hs Hc) as TH. assert (Ht : forall k, (-18 <= k <= 19)%Z -> (0 <= c_thr sm mu i k (z0_of k) < 2 ^ 64)%Z) by (intros k Hk; apply (TH k Hk)).
  destruct (params_sigma i Hi) as [S1 S2]. destruct (round_close_c (val mu) (1 / val i) (val sm * val i) T U (c_thr sm mu i) S1 S2 (params_ccs i sm Hi Hs Hc) HT HU TH G HG) as [S0 D].
  assert (EN : forall z, N z = round_count (Int_part (val mu)) (c_thr sm mu i) z).
  { intros z. apply (has_count_unique _ _ _ (HN z)). apply (has_count_iff (round_gives (Int_part (val mu)) (c_thr sm mu i) z)); [intros l; apply accepted_round; assumption|]. apply round_has_count, Ht. }
  assert (ET : IZR Ntot = 2 ^ 144 * sum_over (window (Int_part (val mu))) (Wc (val mu) (c_thr sm mu i))).
  { rewrite <- sum_counts_c. f_equal. apply (has_count_unique _ _ _ HNt). apply (has_count_iff (fun l => exists z, round_gives (Int_part (val mu)) (c_thr sm mu i) z l)); [|apply round_total, Ht].
    intros l. split; intros (z & H); exists z; apply accepted_round; assumption. }
  rewrite ET. eapply Rle_trans; [|apply (D zs Nz)]. apply sum_over_le. intros z _. apply Req_le. f_equal. f_equal. rewrite EN. unfold Wc at 2. set (S := sum_over _ _) in *. clearbody S. set (n := IZR _). clearbody n. field. lra.
Qed.
(** the numbers and the sum exist, and at least one input in eight is accepted *)
Theorem C97_c_acceptance : forall sigma_min mu isigma, parameters_c sigma_min mu isigma ->
  exists G N Ntot, zsum (dgauss (1 / val isigma) (val mu)) G /\ (forall z, has_count (accepted_c sigma_min mu isigma z) (N z)) /\
  has_count (fun l => exists z, accepted_c sigma_min mu isigma z l) Ntot /\ 1 / 8 * 256 ^ 18 <= IZR Ntot.
Proof.
  intros sm mu i (Um & Nm & Bm & Ui & Hi & Us & Hs & Hc). destruct (gsum_exists MAX_SIGMA 0 MAX_pos) as (T & HT). destruct (gsum_exists MAX_SIGMA 19 MAX_pos) as (U & HU).
  pose proof (c_thr_ok sm mu i Um Nm Bm Ui Us Hi Hs Hc) as TH. assert (Ht : forall k, (-18 <= k <= 19)%Z -> (0 <= c_thr sm mu i k (z0_of k) < 2 ^ 64)%Z) by (intros k Hk; apply (TH k Hk)).
  destruct (params_sigma i Hi) as [S1 S2]. destruct (G_exists (val mu) (1 / val i) 1 U ltac:(lra) S2 HU) as (G & HG).
  destruct (round_close_c (val mu) (1 / val i) (val sm * val i) T U (c_thr sm mu i) S1 S2 (params_ccs i sm Hi Hs Hc) HT HU TH G HG) as [S0 _].
  exists G, (round_count (Int_part (val mu)) (c_thr sm mu i)), (fold_right (fun z s => round_count (Int_part (val mu)) (c_thr sm mu i) z + s)%Z 0%Z (window (Int_part (val mu)))).
  split; [exact HG|]. split.
  { intros z. apply (has_count_iff (round_gives (Int_part (val mu)) (c_thr sm mu i) z)); [intros l; apply accepted_round; assumption|]. apply round_has_count, Ht. }
  split.
  { apply (has_count_iff (fun l => exists z, round_gives (Int_part (val mu)) (c_thr sm mu i) z l)); [|apply round_total, Ht]. intros l. split; intros (z & H); exists z; apply accepted_round; assumption. }
  rewrite sum_counts_c. set (S := sum_over _ _) in *. clearbody S. replace (256 ^ 18) with (2 ^ 144) by (cbn; lra). lra.
Qed.
(** the exponent: never negative (BerExp's precondition), and within 2^-42 of the real one *)
Theorem C97_c_exponent : forall r isigma k R0, usable r -> usable isigma -> (-18 <= k <= 19)%Z -> 0 <= R0 <= 1 -> Rabs (val r - R0) <= / 2 ^ 53 -> 10000 / 18204 <= val isigma <= 1 ->
  let z0 := if (1 <=? k)%Z then (k - 1)%Z else (- k)%Z in
  let x := c_x r (fpr_half (fpr_sqr isigma)) k z0 in
  usable x /\ 0 <= val x <= 1000 /\ Rabs (val x - ((IZR k - R0) ^ 2 / (2 * (1 / val isigma) ^ 2) - IZR z0 ^ 2 / (2 * (18205 / 10000) ^ 2))) <= / 2 ^ 42.
Proof.
  intros r i k R0 Ur Ui Hk HR Hr Hi. cbv zeta. apply Rabs_bet in Hr. destruct (c_x_close r i k R0 Ur Ui Hk HR ltac:(lra) Hi) as (A & B & C). unfold z0_of in *. split; [exact A|]. split; [exact B|].
  set (z0 := if (1 <=? k)%Z then (k - 1)%Z else (- k)%Z) in *. clearbody z0. set (x := val (c_x _ _ _ _)) in *. clearbody x.
  replace ((IZR k - R0) ^ 2 / (2 * (1 / val i) ^ 2) - IZR z0 ^ 2 / (2 * (18205 / 10000) ^ 2)) with ((IZR k - R0) ^ 2 * (val i * val i / 2) - IZR z0 ^ 2 * INV_2SIGMA2); [exact C|].
  unfold INV_2SIGMA2, MAX_SIGMA. field. lra.
Qed.
(** The parameters of Falcon-512: sigma_min = 1.2778336969128337 (fpr_sigma_min[9], fpr.h:253), at sigma = 1.7 and centre 0.3; and an accepted string. *)
Definition sigma_min_512 : Z := 4608433670533905013.
Definition inv_1_7 : Z := 4603473572048065235.
Example C97_parameters : parameters_c sigma_min_512 d03 inv_1_7.
Proof.
  assert (V1 : val sigma_min_512 = 5754851361258101 / 4503599627370496).
  { rewrite (exact_value _ 0 1023 1251251733887605) by (try (vm_compute; reflexivity); lia). unfold FprSpec.sgn. change (0 =? 1)%Z with false. cbv iota. rewrite Rmult_1_l. change (1023 - 1075)%Z with (- (52))%Z. rewrite CSamplerReal.p2_opp by lia. reflexivity. }
  assert (V2 : val d03 = 5404319552844595 / 18014398509481984).
  { rewrite (exact_value _ 0 1021 900719925474099) by (try (vm_compute; reflexivity); lia). unfold FprSpec.sgn. change (0 =? 1)%Z with false. cbv iota. rewrite Rmult_1_l. change (1021 - 1075)%Z with (- (54))%Z. rewrite CSamplerReal.p2_opp by lia. reflexivity. }
  assert (V3 : val inv_1_7 = 5298352502788819 / 9007199254740992).
  { rewrite (exact_value _ 0 1022 794752875418323) by (try (vm_compute; reflexivity); lia). unfold FprSpec.sgn. change (0 =? 1)%Z with false. cbv iota. rewrite Rmult_1_l. change (1022 - 1075)%Z with (- (53))%Z. rewrite CSamplerReal.p2_opp by lia. reflexivity. }
  unfold parameters_c. rewrite V1, V2, V3. repeat (split; [first [apply usable_check; vm_compute; reflexivity | discriminate | (rewrite Rabs_right by lra; change (IZR (2 ^ 31)) with 2147483648; lra) | lra | split; lra]|]). lra.
Qed.
Example C97_accepted : accepted_c sigma_min_512 d03 inv_1_7 (-3)%Z (map (ramp 33 7) (seq 0 18)).
Proof.
  split; [unfold bytes; apply Forall_forall; intros x Hx; apply in_map_iff in Hx; destruct Hx as (i & <- & _); apply Z.mod_pos_bound; reflexivity|].
  split; [reflexivity|]. exists 11%nat. vm_compute. reflexivity.
Qed.
(** A round that rejects has used 11 to 18 bytes and the loop starts again after them, with the same parameters; an accepted round ends it. *)
Theorem C97_c_rounds : forall b sigma_min mu isigma pos fuel, stream b ->
  match sampler (su64 b) (su8 b) 1 sigma_min mu isigma pos with
  | None => exists k, (11 <= k <= 18)%nat /\ sampler (su64 b) (su8 b) (S fuel) sigma_min mu isigma pos = sampler (su64 b) (su8 b) fuel sigma_min mu isigma (pos + k)%nat
  | Some x => sampler (su64 b) (su8 b) (S fuel) sigma_min mu isigma pos = Some x
  end.
Proof.
  intros b sm mu i pos fuel Hb. unfold sampler. cbv zeta. generalize (s32 (fpr_floor mu)). intros s. generalize (fpr_sub mu (fpr_of s)) (fpr_half (fpr_sqr i)) (fpr_mul i sm). intros r d c.
  rewrite !C95_c_rejection_loop_is_the_python_one by exact Hb. set (t := fun z z0 => c_threshold (c_x r d z z0) c).
  destruct (samplerz b 1 s t pos) as [[z p]|] eqn:E; cbn [option_map].
  - cbn [samplerz] in *. destruct (basesampler b pos) as [z0 p0]. destruct (berexp_cmp _ _ _) as [[|] p2]; [|discriminate E]. rewrite E. reflexivity.
  - destruct (samplerz_rounds b fuel s t pos Hb E) as (k & Hk & E2). exists k. split; [exact Hk|]. rewrite C95_c_rejection_loop_is_the_python_one by exact Hb. rewrite E2. reflexivity.
Qed.
