(** C79: samplerz returns a sample of the discrete Gaussian.  SamplerRealModel's samplerz_real (exact real arithmetic in place of floats) against GaussSpec. *)
From Coq Require Import Reals Lra Lia ZArith List Bool.
From Verif Require Import Base SamplerModel SamplerRealModel SamplerProofs GaussSpec RoundCount SumOver SamplerDist Props_Gauss.
Import ListNotations.
Open Scope R_scope.

(** l: 18 random bytes (enough for one round) on which the first round accepts and returns z *)
Definition accepted (mu sigma sigmin : R) (z : Z) (l : list Z) : Prop :=
  bytes l /\ length l = 18%nat /\ exists pos, samplerz_real (fun i => nth i l 0%Z) 1 mu sigma sigmin 0 = Some (z, pos).
(** Among the accepted inputs, the proportions of the returned values are the probabilities of the discrete Gaussian of centre mu and deviation sigma,
    with a total difference (twice the statistical distance) of at most 2^-40, for every centre and every deviation of the signer. *)
Theorem C79_round_is_gaussian : forall mu sigma sigmin G N Ntot, 1 <= sigmin <= sigma -> sigma <= MAX_SIGMA -> zsum (dgauss sigma mu) G ->
  (forall z, has_count (accepted mu sigma sigmin z) (N z)) -> has_count (fun l => exists z, accepted mu sigma sigmin z l) Ntot ->
  forall zs, NoDup zs -> sum_over zs (fun z => Rabs (IZR (N z) / IZR Ntot - dgauss sigma mu z / G)) <= / 2 ^ 40.
Proof.
  intros mu sigma sigmin G N Ntot Hs Hm HG HN HNt zs Nz. destruct (gsum_exists MAX_SIGMA 0 MAX_pos) as (T & HT). destruct (gsum_exists MAX_SIGMA 19 MAX_pos) as (U & HU).
  assert (Ht : forall k, (-18 <= k <= 19)%Z -> (0 <= thrR mu sigma sigmin k (z0_of k) < 2 ^ 64)%Z) by (intros k Hk; apply (thrR_b mu sigma sigmin Hs Hm k Hk)).
  destruct (round_close mu sigma sigmin T U Hs Hm HT HU G HG) as [S0 D].
  assert (EN : forall z, N z = round_count (Int_part mu) (thrR mu sigma sigmin) z) by (intros z; apply (has_count_unique _ _ _ (HN z)), round_has_count, Ht).
  assert (ET : IZR Ntot = 2 ^ 144 * sum_over (window (Int_part mu)) (Wt mu sigma sigmin)).
  { rewrite <- sum_counts. f_equal. apply (has_count_unique _ _ _ HNt), round_total, Ht. }
  rewrite ET. eapply Rle_trans; [|apply (D zs Nz)]. apply sum_over_le. intros z _. apply Req_le. f_equal. f_equal. rewrite EN. unfold Wt at 2. set (S := sum_over _ _) in *. clearbody S. set (n := IZR _). clearbody n. field. lra.
Qed.
Print Assumptions C79_round_is_gaussian.
(** the numbers and the sum exist, and at least one input in eight is accepted *)
Theorem C79_acceptance : forall mu sigma sigmin, 1 <= sigmin <= sigma -> sigma <= MAX_SIGMA ->
  exists G N Ntot, zsum (dgauss sigma mu) G /\ (forall z, has_count (accepted mu sigma sigmin z) (N z)) /\ has_count (fun l => exists z, accepted mu sigma sigmin z l) Ntot /\
  1 / 8 * 256 ^ 18 <= IZR Ntot.
Proof.
  intros mu sigma sigmin Hs Hm. destruct (gsum_exists MAX_SIGMA 0 MAX_pos) as (T & HT). destruct (gsum_exists MAX_SIGMA 19 MAX_pos) as (U & HU).
  destruct (G_exists mu sigma sigmin U Hs Hm HU) as (G & HG).
  assert (Ht : forall k, (-18 <= k <= 19)%Z -> (0 <= thrR mu sigma sigmin k (z0_of k) < 2 ^ 64)%Z) by (intros k Hk; apply (thrR_b mu sigma sigmin Hs Hm k Hk)).
  exists G, (round_count (Int_part mu) (thrR mu sigma sigmin)), (fold_right (fun z s => round_count (Int_part mu) (thrR mu sigma sigmin) z + s)%Z 0%Z (window (Int_part mu))).
  split; [exact HG|]. split; [intros z; apply round_has_count, Ht|]. split; [apply round_total, Ht|].
  rewrite sum_counts. destruct (round_close mu sigma sigmin T U Hs Hm HT HU G HG) as [S0 _]. set (S := sum_over _ _) in *. clearbody S. replace (256 ^ 18) with (2 ^ 144) by (cbn; lra). lra.
Qed.
Print Assumptions C79_acceptance.
(** A rejected round has used 11 to 18 bytes; the next round starts after them, with the same parameters. *)
Theorem C79_rejected_round_repeats : forall b mu sigma sigmin pos fuel, stream b -> samplerz_real b 1 mu sigma sigmin pos = None ->
  exists k, (11 <= k <= 18)%nat /\ samplerz_real b (S fuel) mu sigma sigmin pos = samplerz_real b fuel mu sigma sigmin (pos + k).
Proof. intros b mu sigma sigmin pos fuel Hb. rewrite !samplerz_real_eq. intros E. destruct (samplerz_rounds b fuel _ _ pos Hb E) as (k & Hk & E2). exists k. split; [exact Hk|exact E2]. Qed.
Print Assumptions C79_rejected_round_repeats.
(** An accepted round ends the loop. *)
Theorem C79_accepted_round_ends : forall b mu sigma sigmin pos fuel z pos', samplerz_real b 1 mu sigma sigmin pos = Some (z, pos') ->
  samplerz_real b (S fuel) mu sigma sigmin pos = Some (z, pos').
Proof.
  intros b mu sigma sigmin pos fuel z pos'. rewrite !samplerz_real_eq. cbn [samplerz]. destruct (basesampler b pos) as [z0 p]. destruct (berexp_cmp _ _ _) as [[|] p2]; [congruence|discriminate].
Qed.
Print Assumptions C79_accepted_round_ends.
(** the parameters of Falcon-512 and of key generation (sigma = 1.4330..., sigmin = sigma - 0.001) satisfy the hypotheses *)
Example C79_parameters : 1 <= 1.2778336969128337 <= 165.7366171829776 / 100 /\ 165.7366171829776 / 100 <= MAX_SIGMA /\ 1 <= 1.43300980528773 - 0.001 <= 1.43300980528773 /\ 1.43300980528773 <= MAX_SIGMA.
Proof. unfold MAX_SIGMA. lra. Qed.
(** The signer: for every key passing the test of key generation, each standard deviation in its tree (leaves of T_fft, exact arithmetic, FftModel) is one
    for which samplerz is this close to the Gaussian, whatever the centre. *)
From Verif Require FftModel.
From Verif Require Import FftSpec FftProofs FftAlg FftTree FftSample FftKey FftGs FalconSpec Props_Fft.
Theorem C79_every_leaf_of_the_signer : forall k f g F G sg sm K x y mu N Ntot Gs, (1 <= k)%nat -> ntru_key (2 ^ k) f g F G -> FftModel.params_float (2 ^ k) = Some (sg, sm) ->
  FftModel.gs_norm RN xroots f g 12289 = Ok x -> x <= dbl FftModel.lit117 * dbl FftModel.lit117 * 12289 ->
  FftModel.init_key RN xroots (dbl sg) f g F G = Ok K -> In y (leaves (FftModel.T_fft K)) ->
  zsum (dgauss (fst y) mu) Gs -> (forall z, has_count (accepted mu (fst y) (dbl sm) z) (N z)) -> has_count (fun l => exists z, accepted mu (fst y) (dbl sm) z l) Ntot ->
  forall zs, NoDup zs -> sum_over zs (fun z => Rabs (IZR (N z) / IZR Ntot - dgauss (fst y) mu z / Gs)) <= / 2 ^ 40.
Proof.
  intros [|k] f g F G sg sm K x y mu N Ntot Gs Hk (Lf & Lg & LF & LG & E & _) HP Hg Hx HK Hy; [lia|]. rewrite (init_key_exact k f g F G Lf Lg LF LG E (dbl sg)) in HK.
  assert (EK : exact_key k f g F G (dbl sg) = K) by congruence. subst K. destruct (table_ok _ _ _ HP) as (P1 & P2 & P3 & _).
  assert (P4 : dbl sg * dbl sg * (dbl FftModel.lit117 * dbl FftModel.lit117 * 12289) <= MAX_SIGMA * MAX_SIGMA * (12289 * 12289)).
  { clear - HP. unfold FftModel.params_float in HP. repeat match type of HP with (if ?b then _ else _) = _ => destruct b end; try discriminate HP;
    injection HP as <- <-; unfold dbl, FftModel.lit117, MAX_SIGMA; cbn [fst snd]; lra. }
  assert (R : Forall (fun y => snd y = 0 /\ dbl sm <= fst y <= MAX_SIGMA) (leaves (FftModel.T_fft (exact_key k f g F G (dbl sg))))).
  { apply (sigma_range k f g F G Lf Lg LF LG E (dbl sg) (dbl sm) MAX_SIGMA (dbl FftModel.lit117 * dbl FftModel.lit117 * 12289) x); auto; try lra. pose proof MAX_pos. lra. }
  rewrite Forall_forall in R. destruct (R y Hy) as (_ & R1 & R2). intros HG HN HT. apply C79_round_is_gaussian with (sigmin := dbl sm); auto. lra.
Qed.
Print Assumptions C79_every_leaf_of_the_signer.
