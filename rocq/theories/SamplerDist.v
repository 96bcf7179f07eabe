(** One round of samplerz in exact arithmetic against the discrete Gaussian. *)
From Coq Require Import Reals Lra Lia ZArith List Bool.
From Verif Require Import Base SamplerModel SamplerRealModel ExpBounds GaussSpec GaussTables SamplerReal Props_Gauss RoundCount SumOver.
Import ListNotations.
Open Scope R_scope.

Lemma gweight_pos s k : 0 < gweight s k. Proof. apply exp_pos. Qed.
(** * the sums of the weights of the table *)
Definition TcB (k : nat) : Z * Z := tsum 128 (rcl 10 pB qB 128) (firstn (26 - k) (skipn k (wtab 10 pB qB 128 27))) (nth 26 (wtab 10 pB qB 128 27) (0, 0)%Z).
Lemma TcB_ok k U : (k <= 26)%nat -> gsum MAX_SIGMA k U -> encl 128 U (TcB k).
Proof.
  intros Hk HU. assert (Hp : (0 < pB)%Z) by reflexivity. assert (Hq : (0 < qB)%Z) by reflexivity. assert (HN : (0 <= 128)%Z) by lia.
  assert (C : (0 <=? expLo 10 pB qB 128)%Z && (expHi 10 pB qB 128 <? 2 ^ 128)%Z = true) by (vm_cast_no_check (eq_refl true)).
  apply andb_prop in C. destruct C as [C0 C1]. apply Z.leb_le in C0. apply Z.ltb_lt in C1.
  assert (HU' : infinite_sum (fun j => rho (IZR pB / IZR qB) (k + j)) U).
  { intros eps He. destruct (HU eps He) as (n & Hn). exists n. intros i Hi. specialize (Hn i Hi). erewrite sum_eq; [exact Hn|]. intros j _. symmetry. apply gweight_B. }
  exact (wsum_spec 10 pB qB 128 26 k U Hp Hq HN C0 C1 Hk HU').
Qed.
Definition T_test (t u : Z * Z) (b : Z) : bool :=
  ((2 ^ 128 <=? fst t) && (100 * snd t <=? 279 * 2 ^ 128) && ((b - 32) * snd t <=? 2 ^ 72 * 2 ^ 128) && (2 ^ 72 * 2 ^ 128 <=? (b + 32) * fst t) && (32 <=? b) && (snd u <=? 2 ^ 58))%Z.
Lemma T_test_ok : T_test (TcB 0) (TcB 19) (base_hi 0 - base_lo 0) = true.
Proof. vm_cast_no_check (eq_refl true). Qed.
Lemma T_arith (X b lo hi T : R) : 0 < X -> X <= lo -> 100 * hi <= 279 * X -> (b - 32) * hi <= 2 ^ 72 * X -> 2 ^ 72 * X <= (b + 32) * lo -> 32 <= b -> lo <= X * T <= hi ->
  1 <= T <= 279 / 100 /\ Rabs (b / 2 ^ 72 - 1 / T) <= / 2 ^ 67.
Proof.
  intros HX H1 H2 H3 H4 H5 [H6 H7]. assert (T1 : 1 <= T) by nra. assert (T2 : T <= 279 / 100) by nra. split; [split; assumption|].
  assert (A : (b - 32) * T <= 2 ^ 72). { apply Rmult_le_reg_l with X; [exact HX|]. replace (X * ((b - 32) * T)) with ((b - 32) * (X * T)) by ring. apply Rle_trans with ((b - 32) * hi); [apply Rmult_le_compat_l; lra|lra]. }
  assert (B : 2 ^ 72 <= (b + 32) * T). { apply Rmult_le_reg_l with X; [exact HX|]. replace (X * ((b + 32) * T)) with ((b + 32) * (X * T)) by ring. apply Rle_trans with ((b + 32) * lo); [lra|apply Rmult_le_compat_l; lra]. }
  clear H1 H2 H3 H4 H6 H7 HX. replace (b / 2 ^ 72 - 1 / T) with ((b * T - 2 ^ 72) * (/ T * / 2 ^ 72)) by (field; lra).
  rewrite Rabs_mult, (Rabs_pos_eq (/ T * / 2 ^ 72)) by (left; apply Rmult_lt_0_compat; apply Rinv_0_lt_compat; lra).
  assert (D : Rabs (b * T - 2 ^ 72) <= 32 * T) by (apply Rabs_le; lra).
  apply Rle_trans with (32 * T * (/ T * / 2 ^ 72)); [apply Rmult_le_compat_r; [left; apply Rmult_lt_0_compat; apply Rinv_0_lt_compat; lra|exact D]|].
  replace (32 * T * (/ T * / 2 ^ 72)) with (32 / 2 ^ 72) by (field; lra). lra.
Qed.
Lemma T_test_spec t u b T U : T_test t u b = true -> encl 128 T t -> encl 128 U u -> 1 <= T <= 279 / 100 /\ Rabs (IZR b / 2 ^ 72 - 1 / T) <= / 2 ^ 67 /\ U <= / 2 ^ 70.
Proof.
  unfold T_test. intros F (_ & E) (_ & E'). apply andb_prop in F. destruct F as [F F6]. apply andb_prop in F. destruct F as [F F5]. apply andb_prop in F. destruct F as [F F4].
  apply andb_prop in F. destruct F as [F F3]. apply andb_prop in F. destruct F as [F1 F2]. apply Z.leb_le in F1, F2, F3, F4, F5, F6. apply IZR_le in F1, F2, F3, F4, F5, F6.
  rewrite !mult_IZR in *. rewrite minus_IZR in F3. rewrite plus_IZR in F4. pose proof (IZR_pow2 128 ltac:(lia)) as P.
  assert (X : IZR (2 ^ 128) = 2 ^ 70 * IZR (2 ^ 58)) by (replace (2 ^ 70) with (IZR (2 ^ 70)) by (rewrite pow_IZR; reflexivity); rewrite <- mult_IZR; reflexivity).
  pose proof (IZR_pow2 58 ltac:(lia)) as P'.
  replace (IZR (2 ^ 72)) with (2 ^ 72) in * by (rewrite pow_IZR; reflexivity).
  destruct (T_arith _ _ _ _ _ P F1 F2 F3 F4 F5 E) as [G1 G2]. split; [exact G1|]. split; [exact G2|].
  rewrite X in E'. clear - E' F6 P'. set (Y := IZR (2 ^ 58)) in *. clearbody Y. set (h := IZR (snd u)) in *. clearbody h.
  apply Rmult_le_reg_l with Y; [exact P'|]. apply Rmult_le_reg_l with (2 ^ 70); [lra|]. replace (2 ^ 70 * (Y * / 2 ^ 70)) with Y by field. lra.
Qed.
Lemma T_facts T U : gsum MAX_SIGMA 0 T -> gsum MAX_SIGMA 19 U -> 1 <= T <= 279 / 100 /\ Rabs (IZR (base_hi 0 - base_lo 0) / 2 ^ 72 - 1 / T) <= / 2 ^ 67 /\ U <= / 2 ^ 70.
Proof. intros HT HU. exact (T_test_spec _ _ _ T U T_test_ok (TcB_ok 0 T ltac:(lia) HT) (TcB_ok 19 U ltac:(lia) HU)). Qed.

Definition pT (T : R) (i : Z) : R := gweight MAX_SIGMA (Z.to_nat i) / T.
Lemma count_close T U i : gsum MAX_SIGMA 0 T -> gsum MAX_SIGMA 19 U -> (0 <= i <= 18)%Z -> Rabs (IZR (base_hi i - base_lo i) / 2 ^ 72 - pT T i) <= / 2 ^ 67.
Proof.
  intros HT HU Hi. destruct (T_facts T U HT HU) as (T1 & T2 & _). destruct (Z.eq_dec i 0) as [->|Hn].
  - unfold pT. replace (gweight MAX_SIGMA (Z.to_nat 0)) with 1; [exact T2|]. unfold gweight. cbn [Z.to_nat INR]. replace (- (0 ^ 2 / (2 * MAX_SIGMA ^ 2))) with 0 by (unfold MAX_SIGMA; lra). rewrite exp_0. reflexivity.
  - pose proof (C45_table_is_half_gaussian T (Z.to_nat i) HT ltac:(lia)) as C. replace (base_hi i - base_lo i)%Z with (base_count (Z.to_nat i)).
    + fold (pT T i) in C. set (p := pT T i) in *. set (b := IZR (base_count (Z.to_nat i))) in *. clearbody p b. apply Rabs_le. lra.
    + unfold base_count, base_hi, base_lo. destruct (Z.leb_spec i 0) as [H|H]; [lia|]. f_equal. f_equal. lia.
Qed.
Lemma pT_nonneg T i : 1 <= T -> 0 <= pT T i.
Proof. intros H. unfold pT. apply Rmult_le_pos; [left; apply gweight_pos|left; apply Rinv_0_lt_compat; lra]. Qed.
Lemma sum_psum (f : nat -> R) K : sum_over (map Z.of_nat (seq 0 K)) (fun z => f (Z.to_nat z)) = psum f K.
Proof.
  induction K as [|K IH]; [reflexivity|]. rewrite seq_S, map_app, sum_over_app, IH. cbn [map Nat.add psum]. rewrite sum_over_cons, sum_over_nil, Nat2Z.id. lra.
Qed.
Lemma psum_le_gsum sigma m T K : 0 < sigma -> gsum sigma m T -> psum (fun j => gweight sigma (m + j)) K <= T.
Proof.
  intros Hs HT. apply (rho_sum_bounds (/ (2 * sigma ^ 2)) ltac:(apply Rinv_0_lt_compat; nra) m K T). exact HT.
Qed.
Lemma MAX_pos : 0 < MAX_SIGMA. Proof. unfold MAX_SIGMA. lra. Qed.
Lemma window_z0 (p : Z -> R) : sum_over (window 0) (fun k => p (z0_of k)) = 2 * sum_over (map Z.of_nat (seq 0 19)) p.
Proof.
  rewrite <- (sum_over_map (window 0) z0_of p). replace (map z0_of (window 0)) with (rev (map Z.of_nat (seq 0 19)) ++ map Z.of_nat (seq 0 19)) by (vm_compute; reflexivity).
  rewrite sum_over_app. set (l := map Z.of_nat (seq 0 19)). clearbody l. enough (H : sum_over (rev l) p = sum_over l p) by lra.
  induction l as [|z l IH]; [reflexivity|]. cbn [rev]. rewrite sum_over_app, !sum_over_cons, sum_over_nil, IH. lra.
Qed.
Lemma window_pT T : 1 <= T -> gsum MAX_SIGMA 0 T -> sum_over (window 0) (fun k => pT T (z0_of k)) <= 2.
Proof.
  intros T1 HT. rewrite window_z0. pose proof (psum_le_gsum MAX_SIGMA 0 T 19 MAX_pos HT) as H. rewrite <- sum_psum in H.
  assert (E : sum_over (map Z.of_nat (seq 0 19)) (pT T) = / T * sum_over (map Z.of_nat (seq 0 19)) (fun z => gweight MAX_SIGMA (0 + Z.to_nat z))).
  { rewrite <- sum_over_scal. apply sum_over_ext. intros z _. unfold pT. cbn [Nat.add]. unfold Rdiv. ring. }
  rewrite E. set (s := sum_over _ _) in *. clearbody s. apply Rle_trans with (2 * (/ T * T)); [|rewrite Rinv_l; lra]. pose proof (Rinv_0_lt_compat T ltac:(lra)). nra.
Qed.

(** * one round *)
Section Round.
Variables (mu sigma sigmin T U : R).
Hypothesis Hs : 1 <= sigmin <= sigma. Hypothesis Hm : sigma <= MAX_SIGMA.
Hypothesis HT : gsum MAX_SIGMA 0 T. Hypothesis HU : gsum MAX_SIGMA 19 U.
Let fl := Int_part mu.
Let r := mu - IZR fl.
Let dss := 1 / (2 * sigma * sigma).
Let ccs := sigmin / sigma.
Let xx (z z0 : Z) : R := (IZR z - r) ^ 2 * dss - IZR z0 ^ 2 * INV_2SIGMA2.
Definition thrR (z z0 : Z) : Z := berexp_threshold (xx z z0) ccs.
Lemma samplerz_real_eq b fuel pos : samplerz_real b fuel mu sigma sigmin pos = samplerz b fuel fl thrR pos.
Proof. reflexivity. Qed.
Lemma r_bound : 0 <= r < 1.
Proof. unfold r, fl. pose proof (Int_part_floor mu). lra. Qed.
Lemma sigma_b : 1 <= sigma <= 18205 / 10000. Proof. unfold MAX_SIGMA in *. lra. Qed.
Lemma ccs_b : 1 / 2 <= ccs <= 1.
Proof.
  pose proof sigma_b. unfold ccs. split.
  - apply Rmult_le_reg_r with sigma; [lra|]. replace (sigmin / sigma * sigma) with sigmin by (field; lra). lra.
  - apply Rmult_le_reg_r with sigma; [lra|]. replace (sigmin / sigma * sigma) with sigmin by (field; lra). lra.
Qed.
Lemma dss_b : INV_2SIGMA2 <= dss <= 1 / 2.
Proof.
  pose proof sigma_b. unfold dss, INV_2SIGMA2. split; unfold Rdiv; rewrite !Rmult_1_l; apply Rinv_le_contravar; unfold MAX_SIGMA in *; nra.
Qed.
Lemma INV_pos : 0 < INV_2SIGMA2. Proof. unfold INV_2SIGMA2, MAX_SIGMA. lra. Qed.
Lemma z0_le k : IZR (z0_of k) ^ 2 <= (IZR k - r) ^ 2.
Proof.
  pose proof r_bound. unfold z0_of. destruct (Z.leb_spec 1 k) as [L|L]; apply IZR_le in L || (assert (L' : (k <= 0)%Z) by lia; apply IZR_le in L').
  - rewrite minus_IZR. apply pow_incr. lra.
  - rewrite opp_IZR. replace ((IZR k - r) ^ 2) with ((r - IZR k) ^ 2) by ring. apply pow_incr. lra.
Qed.
Lemma xx_b k : (-18 <= k <= 19)%Z -> 0 <= xx k (z0_of k) <= 1000000.
Proof.
  intros Hk. pose proof (z0_le k) as Z0. pose proof dss_b as D. pose proof INV_pos as I. pose proof r_bound as R0. unfold xx. set (a := IZR (z0_of k) ^ 2) in *. assert (A0 : 0 <= a) by apply pow2_ge_0. clearbody a.
  destruct Hk as [K1 K2]. apply IZR_le in K1, K2. assert (C : (IZR k - r) ^ 2 <= 400) by nra. set (c := (IZR k - r) ^ 2) in *. clearbody c. set (i := INV_2SIGMA2) in *. clearbody i. set (d := dss) in *. clearbody d.
  split; [|nra]. assert (a * i <= c * d) by (apply Rmult_le_compat; lra). lra.
Qed.
Lemma thrR_b k : (-18 <= k <= 19)%Z -> (0 <= thrR k (z0_of k) < 2 ^ 64)%Z /\ Rabs (IZR (thrR k (z0_of k)) / 2 ^ 64 - ccs * exp (- xx k (z0_of k))) <= 2 / 3 * / 2 ^ 44.
Proof. intros Hk. exact (berexp_threshold_accurate _ _ (xx_b k Hk) ccs_b). Qed.
Let K : R := ccs / (2 * T).
Lemma T1 : 1 <= T <= 279 / 100. Proof. apply (T_facts T U HT HU). Qed.
Lemma K_b : 1 / 12 <= K <= 1 / 2.
Proof.
  pose proof T1. pose proof ccs_b. unfold K. split.
  - apply Rmult_le_reg_r with (2 * T); [lra|]. replace (ccs / (2 * T) * (2 * T)) with ccs by (field; lra). lra.
  - apply Rmult_le_reg_r with (2 * T); [lra|]. replace (ccs / (2 * T) * (2 * T)) with ccs by (field; lra). lra.
Qed.
Definition Wt (z : Z) : R := IZR (round_count fl thrR z) / 2 ^ 144.
Lemma dgauss_shift k : dgauss sigma mu (fl + k) = dgauss sigma r k.
Proof. unfold dgauss, r. rewrite plus_IZR. do 2 f_equal. f_equal. ring. Qed.
Lemma target_split k : K * dgauss sigma r k = 1 / 2 * (pT T (z0_of k) * (ccs * exp (- xx k (z0_of k)))).
Proof.
  unfold K, pT, dgauss, gweight. assert (Z0 : (0 <= z0_of k)%Z) by (unfold z0_of; destruct (Z.leb_spec 1 k); lia). rewrite INR_IZR_INZ, Z2Nat.id by exact Z0.
  pose proof sigma_b. pose proof T1. replace (- ((IZR k - r) ^ 2 / (2 * sigma ^ 2))) with (- (IZR (z0_of k) ^ 2 / (2 * MAX_SIGMA ^ 2)) + - xx k (z0_of k)).
  - rewrite exp_plus. field. lra.
  - unfold xx, dss, INV_2SIGMA2. pose proof MAX_pos. field. split; lra.
Qed.
Lemma scale_abs a b B : 0 <= a -> Rabs b <= B -> Rabs (a * b) <= a * B.
Proof. intros Ha Hb. rewrite Rabs_mult, (Rabs_pos_eq a Ha). now apply Rmult_le_compat_l. Qed.
Lemma Wt_close k : (-18 <= k <= 19)%Z -> Rabs (Wt (fl + k) - K * dgauss sigma mu (fl + k)) <= 1 / 2 * (pT T (z0_of k) * (2 / 3 * / 2 ^ 44) + / 2 ^ 67).
Proof.
  intros Hk. rewrite dgauss_shift, target_split. destruct (thrR_b k Hk) as [B1 B2]. assert (Z0 : (0 <= z0_of k <= 18)%Z) by (unfold z0_of; destruct (Z.leb_spec 1 k); lia).
  pose proof (count_close T U _ HT HU Z0) as C. unfold Wt, round_count. replace (fl + k - fl)%Z with k by lia. cbv zeta.
  replace ((-18 <=? k)%Z && (k <=? 19)%Z) with true by (symmetry; apply andb_true_intro; split; apply Z.leb_le; lia).
  rewrite !mult_IZR. set (c := IZR (base_hi _ - base_lo _)) in *. clearbody c. pose proof (pT_nonneg T (z0_of k) (proj1 T1)) as P0. set (p := pT T (z0_of k)) in *. clearbody p.
  set (e := ccs * exp _) in *. clearbody e. destruct B1 as [Q1 Q2]. apply IZR_le in Q1. apply IZR_lt in Q2. set (t := IZR (thrR k (z0_of k))) in *. clearbody t.
  replace (IZR (2 ^ 64)) with (2 ^ 64) in Q2 by (rewrite pow_IZR; reflexivity). assert (TT : 0 <= t / 2 ^ 64 <= 1) by lra.
  replace (c * (128 * t) / 2 ^ 144 - 1 / 2 * (p * e)) with (1 / 2 * ((t / 2 ^ 64) * (c / 2 ^ 72 - p) + p * (t / 2 ^ 64 - e))) by field.
  apply scale_abs; [lra|]. set (s := t / 2 ^ 64) in *. clearbody s. eapply Rle_trans; [apply Rabs_triang|]. rewrite Rplus_comm. apply Rplus_le_compat; [apply scale_abs; assumption|].
  eapply Rle_trans; [apply (scale_abs s); [lra|exact C]|]. lra.
Qed.
Lemma window_shift f : sum_over (window fl) f = sum_over (window 0) (fun k => f (fl + k)%Z).
Proof.
  replace (window fl) with (map (Z.add fl) (window 0)); [apply sum_over_map|]. unfold window. rewrite map_map. apply map_ext. intros i. lia.
Qed.
Lemma total_close : sum_over (window fl) (fun z => Rabs (Wt z - K * dgauss sigma mu z)) <= 2 / 3 * / 2 ^ 44 + 19 * / 2 ^ 67.
Proof.
  rewrite window_shift. eapply Rle_trans.
  - apply sum_over_le. intros k Hk. apply Wt_close. apply in_window in Hk. lia.
  - cbv beta. rewrite sum_over_scal, sum_over_plus. pose proof (window_pT T (proj1 T1) HT) as W.
    rewrite (sum_over_ext _ (fun z => pT T (z0_of z) * (2 / 3 * / 2 ^ 44)) (fun z => (2 / 3 * / 2 ^ 44) * pT T (z0_of z))) by (intros; ring). rewrite sum_over_scal.
    assert (E : sum_over (window 0) (fun _ => / 2 ^ 67) = 38 * / 2 ^ 67).
    { generalize (/ 2 ^ 67). intros y. change (window 0) with (map (fun i => 0 - 18 + Z.of_nat i)%Z (seq 0 38)). cbn [seq map]. unfold sum_over. cbn [fold_right]. lra. }
    rewrite E. set (s := sum_over _ _) in *. clearbody s. lra.
Qed.
(** * the tail of the target *)
Lemma gweight_mono k x : INR k ^ 2 <= x ^ 2 -> exp (- (x ^ 2 / (2 * sigma ^ 2))) <= gweight MAX_SIGMA k.
Proof.
  intros H. apply exp_le_mono. apply Ropp_le_contravar. pose proof sigma_b as S. pose proof MAX_pos. unfold Rdiv. apply Rmult_le_compat; [apply pow2_ge_0|left; apply Rinv_0_lt_compat; nra|exact H|].
  apply Rinv_le_contravar; nra.
Qed.
Lemma tail_half (h : Z -> Z) l : NoDup l -> (forall z z', In z l -> In z' l -> h z = h z' -> z = z') -> (forall z, In z l -> (0 <= h z)%Z /\ (IZR (h z) + 19) ^ 2 <= (IZR z - r) ^ 2) -> sum_over l (dgauss sigma r) <= U.
Proof.
  intros N Hi Hh. apply Rle_trans with (sum_over (map h l) (fun z => gweight MAX_SIGMA (19 + Z.to_nat z))).
  - rewrite sum_over_map. apply sum_over_le. intros z Hz. destruct (Hh z Hz) as [H0 H1]. apply gweight_mono. rewrite plus_INR, INR_IZR_INZ, (INR_IZR_INZ (Z.to_nat _)), Z2Nat.id by exact H0.
    change (IZR (Z.of_nat 19)) with 19. rewrite Rplus_comm. exact H1.
  - set (B := fold_right Z.max 0%Z (map h l)). eapply Rle_trans; [|apply (psum_le_gsum MAX_SIGMA 19 U (Z.to_nat B + 1) MAX_pos HU)]. rewrite <- sum_psum. apply sum_over_incl.
    + apply NoDup_map_inj; assumption.
    + intros y Hy. assert (HB : (y <= B)%Z).
      { unfold B. clear - Hy. induction (map h l) as [|x m IH]; [destruct Hy|]. cbn [fold_right]. destruct Hy as [->|Hy]; [lia|]. specialize (IH Hy). lia. }
      apply in_map_iff in Hy. destruct Hy as (z & <- & Hz). destruct (Hh z Hz) as [H0 _]. apply in_map_iff. exists (Z.to_nat (h z)). split; [lia|]. apply in_seq. lia.
    + intros z. left. apply gweight_pos.
Qed.
Lemma tail_r l : NoDup l -> (forall z, In z l -> ~ (-18 <= z <= 19)%Z) -> sum_over l (dgauss sigma r) <= 2 * U.
Proof.
  intros N Ho. rewrite (sum_over_filter l (fun z => (0 <? z)%Z)). pose proof r_bound as R0. replace (2 * U) with (U + U) by ring. apply Rplus_le_compat.
  - apply (tail_half (fun z => z - 20)%Z); [apply NoDup_filter, N|intros; lia|]. intros z Hz. apply filter_In in Hz. destruct Hz as [Hz P]. apply Z.ltb_lt in P. specialize (Ho z Hz).
    split; [lia|]. rewrite minus_IZR. assert (L : (20 <= z)%Z) by lia. apply IZR_le in L. apply pow_incr. lra.
  - apply (tail_half (fun z => - 19 - z)%Z); [apply NoDup_filter, N|intros; lia|]. intros z Hz. apply filter_In in Hz. destruct Hz as [Hz P]. apply negb_true_iff, Z.ltb_ge in P. specialize (Ho z Hz).
    split; [lia|]. rewrite minus_IZR. assert (L : (z <= -19)%Z) by lia. apply IZR_le in L. replace ((IZR z - r) ^ 2) with ((r - IZR z) ^ 2) by ring. apply pow_incr. lra.
Qed.
Lemma tail_mu l : NoDup l -> (forall z, In z l -> ~ In z (window fl)) -> sum_over l (dgauss sigma mu) <= 2 * U.
Proof.
  intros N Ho. rewrite (sum_over_ext l (dgauss sigma mu) (fun z => dgauss sigma r (z - fl))) by (intros z _; rewrite <- dgauss_shift; f_equal; lia).
  rewrite <- (sum_over_map l (fun z => z - fl)%Z (dgauss sigma r)). apply tail_r.
  - apply NoDup_map_inj; [intros; lia|exact N].
  - intros z Hz. apply in_map_iff in Hz. destruct Hz as (y & <- & Hy). specialize (Ho y Hy). rewrite in_window in Ho. lia.
Qed.
Lemma dgauss_pos z : 0 < dgauss sigma mu z. Proof. apply exp_pos. Qed.
Lemma G_exists : exists G, zsum (dgauss sigma mu) G.
Proof.
  apply zsum_exists with (B := sum_over (window fl) (dgauss sigma mu) + 2 * U). intros l N. rewrite (sum_over_filter l (inb (window fl))). apply Rplus_le_compat.
  - apply sum_over_incl; [apply NoDup_filter, N| |intros z; left; apply dgauss_pos]. intros z Hz. apply filter_In in Hz. apply inb_true, Hz.
  - apply tail_mu; [apply NoDup_filter, N|]. intros z Hz. apply filter_In in Hz. apply inb_false, Hz.
Qed.
Lemma G_low G : zsum (dgauss sigma mu) G -> 3 / 2 <= G.
Proof.
  intros HG. eapply Rle_trans; [|apply (zsum_ge _ G [fl; fl + 1]%Z HG)].
  - rewrite !sum_over_cons, sum_over_nil. replace fl with (fl + 0)%Z at 1 by lia. rewrite !dgauss_shift. unfold dgauss. pose proof r_bound as R0. pose proof sigma_b as S.
    assert (I : 0 < / (2 * sigma ^ 2) <= / 2) by (split; [apply Rinv_0_lt_compat; nra|apply Rinv_le_contravar; nra]). unfold Rdiv. set (i := / (2 * sigma ^ 2)) in *. clearbody i.
    pose proof (exp_ineq1_le (- ((0 - r) ^ 2 * i))) as A. pose proof (exp_ineq1_le (- ((1 - r) ^ 2 * i))) as B. rewrite Rplus_0_r.
    assert (C : ((0 - r) ^ 2 + (1 - r) ^ 2) * i <= 1 / 2). { assert ((0 - r) ^ 2 + (1 - r) ^ 2 <= 1) by nra. assert (0 <= (0 - r) ^ 2 + (1 - r) ^ 2) by nra. nra. } lra.
  - constructor; [intros [H|[]]; lia|]. constructor; [intros []|constructor].
Qed.
Lemma U_b : 0 <= U <= / 2 ^ 70.
Proof. split; [|apply (T_facts T U HT HU)]. pose proof (psum_le_gsum MAX_SIGMA 19 U 0 MAX_pos HU). exact H. Qed.
Lemma Wt_nonneg z : 0 <= Wt z.
Proof.
  unfold Wt, round_count. cbv zeta. apply Rmult_le_pos; [|left; apply Rinv_0_lt_compat; lra]. destruct (_ && _) eqn:E; [|lra]. apply andb_prop in E. destruct E as [E1 E2]. apply Z.leb_le in E1, E2.
  apply IZR_le. destruct (thrR_b (z - fl) ltac:(lia)) as [Q _]. pose proof (base_range (z0_of (z - fl)) ltac:(unfold z0_of; destruct (Z.leb_spec 1 (z - fl)); lia)). nia.
Qed.
Lemma Wt_out z : ~ In z (window fl) -> Wt z = 0.
Proof.
  intros H. rewrite in_window in H. unfold Wt, round_count. cbv zeta. replace ((-18 <=? z - fl)%Z && (z - fl <=? 19)%Z) with false; [lra|]. symmetry. apply andb_false_iff. rewrite !Z.leb_gt. lia.
Qed.
Lemma sum_counts : IZR (fold_right (fun z s => round_count fl thrR z + s)%Z 0%Z (window fl)) = 2 ^ 144 * sum_over (window fl) Wt.
Proof.
  induction (window fl) as [|z l IH]; cbn [fold_right]; [rewrite sum_over_nil; lra|]. rewrite plus_IZR, IH, sum_over_cons. unfold Wt at 2. field.
Qed.
Theorem round_close G : zsum (dgauss sigma mu) G -> 1 / 8 <= sum_over (window fl) Wt /\
  forall l, NoDup l -> sum_over l (fun z => Rabs (Wt z / sum_over (window fl) Wt - dgauss sigma mu z / G)) <= / 2 ^ 40.
Proof.
  intros HG. pose proof K_b as KB. pose proof U_b as UB. pose proof (G_low G HG) as GL. pose proof T1 as TB. pose proof ccs_b as CB.
  assert (KG : 1 / 7 <= K * G).
  { assert (KL : 1 / (2 * (279 / 100) * (18205 / 10000)) <= K).
    { pose proof sigma_b as SB. replace K with (sigmin * / (sigma * (2 * T))) by (unfold K, ccs; field; lra). unfold Rdiv. rewrite Rmult_1_l. apply Rle_trans with (1 * / (sigma * (2 * T))); [rewrite Rmult_1_l; apply Rinv_le_contravar; nra|]. apply Rmult_le_compat_r; [left; apply Rinv_0_lt_compat; nra|lra]. }
    nra. }
  destruct (dist_generic Wt (dgauss sigma mu) (window fl) K G _ (2 * U) (window_NoDup fl) Wt_nonneg Wt_out (fun z => Rlt_le _ _ (dgauss_pos z)) HG total_close ltac:(lra) ltac:(lra) tail_mu) as (S0 & SD & D).
  - assert (K * (2 * U) <= 1 / 2 * (2 * / 2 ^ 70)) by (apply Rmult_le_compat; lra). lra.
  - split; [apply Rabs_bet in SD; assert (K * (2 * U) <= 1 / 2 * (2 * / 2 ^ 70)) by (apply Rmult_le_compat; lra); lra|]. intros l N. eapply Rle_trans; [apply (D l N)|]. apply Rmult_le_reg_r with (K * G); [lra|]. unfold Rdiv. rewrite Rmult_assoc, Rinv_l, Rmult_1_r by lra.
    assert (K * U <= 1 / 2 * / 2 ^ 70) by (apply Rmult_le_compat; lra). set (kg := K * G) in *. set (ku := K * U) in *. replace (2 * K * (2 * U)) with (4 * ku) by (unfold ku; ring). clearbody kg ku. lra.
Qed.
End Round.
