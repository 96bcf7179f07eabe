(** The distribution of one round of the C sampler: the round of SamplerDist with any thresholds within 9/8 2^-42 of the Gaussian ones, and the
    rounding of the exponent computed by falcon/nistfalcon/src/sign.c:1140-1189. *)
From Coq Require Import Reals Lra Lia ZArith List Bool.
From Verif Require Import Base SamplerModel SamplerRealModel GaussSpec ExpBounds GaussTables SamplerReal SumOver RoundCount.
From Verif Require Import SamplerDist.
From Verif Require Import FprModel FprSpec FprBits FprRound FprAdd FprMul FprConv FprMisc Props_Fpr CSamplerModel CSamplerProofs CSamplerReal.
Import ListNotations.
Open Scope R_scope.

Section Round.
Variables (mu sigma ccs T U : R) (thr : Z -> Z -> Z).
Hypothesis Hs : 1 <= sigma. Hypothesis Hm : sigma <= MAX_SIGMA. Hypothesis Hc : 54 / 100 <= ccs <= 1.
Hypothesis HT : gsum MAX_SIGMA 0 T. Hypothesis HU : gsum MAX_SIGMA 19 U.
Let fl := Int_part mu.
Let r := mu - IZR fl.
Let xx (k : Z) : R := (IZR k - r) ^ 2 * (1 / (2 * sigma * sigma)) - IZR (z0_of k) ^ 2 * INV_2SIGMA2.
Let eps : R := 9 / 8 * / 2 ^ 42.
Hypothesis Hthr : forall k, (-18 <= k <= 19)%Z -> (0 <= thr k (z0_of k) < 2 ^ 64)%Z /\ Rabs (IZR (thr k (z0_of k)) / 2 ^ 64 - ccs * exp (- xx k)) <= eps.
Let Hs1 : 1 <= 1 <= sigma. Proof. lra. Qed.
Let K : R := ccs / (2 * T).
Let T1c : 1 <= T <= 279 / 100. Proof. exact (T1 T U HT HU). Qed.
Lemma K_c : 54 / 100 / (2 * (279 / 100)) <= K <= 1 / 2.
Proof.
  pose proof T1c. unfold K. split; (apply Rmult_le_reg_r with (2 * T); [lra|]; replace (ccs / (2 * T) * (2 * T)) with ccs by (field; lra)); lra.
Qed.
Definition Wc (z : Z) : R := IZR (round_count fl thr z) / 2 ^ 144.
Lemma target_c k : K * dgauss sigma r k = 1 / 2 * (pT T (z0_of k) * (ccs * exp (- xx k))).
Proof.
  pose proof (target_split mu sigma 1 T U Hs1 Hm HT HU k) as E. change (1 / sigma / (2 * T) * dgauss sigma r k = 1 / 2 * (pT T (z0_of k) * (1 / sigma * exp (- xx k)))) in E. set (d := dgauss sigma r k) in *. set (e := exp (- xx k)) in *. set (p := pT T (z0_of k)) in *. clearbody d e p.
  pose proof T1c. unfold K. replace (ccs / (2 * T) * d) with (ccs * sigma * (1 / sigma / (2 * T) * d)) by (field; lra). rewrite E. field. lra.
Qed.
Lemma Wc_close k : (-18 <= k <= 19)%Z -> Rabs (Wc (fl + k) - K * dgauss sigma mu (fl + k)) <= 1 / 2 * (pT T (z0_of k) * eps + / 2 ^ 67).
Proof.
  intros Hk. unfold fl at 2. rewrite dgauss_shift. fold fl. fold r. rewrite target_c. destruct (Hthr k Hk) as [B1 B2]. assert (Z0 : (0 <= z0_of k <= 18)%Z) by (unfold z0_of; destruct (Z.leb_spec 1 k); lia).
  pose proof (count_close T U _ HT HU Z0) as C. unfold Wc, round_count. replace (fl + k - fl)%Z with k by lia. cbv zeta.
  replace ((-18 <=? k)%Z && (k <=? 19)%Z) with true by (symmetry; apply andb_true_intro; split; apply Z.leb_le; lia).
  rewrite !mult_IZR. set (c := IZR (base_hi _ - base_lo _)) in *. clearbody c. pose proof (pT_nonneg T (z0_of k) (proj1 T1c)) as P0. set (p := pT T (z0_of k)) in *. clearbody p.
  set (e := ccs * exp _) in *. clearbody e. destruct B1 as [Q1 Q2]. apply IZR_le in Q1. apply IZR_lt in Q2. set (t := IZR (thr k (z0_of k))) in *. clearbody t.
  replace (IZR (2 ^ 64)) with (2 ^ 64) in Q2 by (rewrite pow_IZR; reflexivity). assert (TT : 0 <= t / 2 ^ 64 <= 1) by lra.
  replace (c * (128 * t) / 2 ^ 144 - 1 / 2 * (p * e)) with (1 / 2 * ((t / 2 ^ 64) * (c / 2 ^ 72 - p) + p * (t / 2 ^ 64 - e))) by field.
  apply SamplerDist.scale_abs; [lra|]. set (s := t / 2 ^ 64) in *. clearbody s. eapply Rle_trans; [apply Rabs_triang|]. rewrite Rplus_comm. apply Rplus_le_compat; [apply SamplerDist.scale_abs; assumption|].
  eapply Rle_trans; [apply (SamplerDist.scale_abs s); [lra|exact C]|]. lra.
Qed.
Lemma total_c : sum_over (window fl) (fun z => Rabs (Wc z - K * dgauss sigma mu z)) <= eps + 19 * / 2 ^ 67.
Proof.
  unfold fl at 1. rewrite (window_shift mu 0). fold fl. eapply Rle_trans.
  - apply sum_over_le. intros k Hk. apply Wc_close. apply in_window in Hk. lia.
  - cbv beta. rewrite sum_over_scal, sum_over_plus. pose proof (window_pT T (proj1 T1c) HT) as W.
    rewrite (sum_over_ext _ (fun z => pT T (z0_of z) * eps) (fun z => eps * pT T (z0_of z))) by (intros; ring). rewrite sum_over_scal.
    assert (E : sum_over (window 0) (fun _ => / 2 ^ 67) = 38 * / 2 ^ 67).
    { generalize (/ 2 ^ 67). intros y. change (window 0) with (map (fun i => 0 - 18 + Z.of_nat i)%Z (seq 0 38)). cbn [seq map]. unfold sum_over. cbn [fold_right]. lra. }
    rewrite E. set (s := sum_over _ _) in *. clearbody s. unfold eps. lra.
Qed.
Lemma Wc_nonneg z : 0 <= Wc z.
Proof.
  unfold Wc, round_count. cbv zeta. apply Rmult_le_pos; [|left; apply Rinv_0_lt_compat; lra]. destruct (_ && _) eqn:E; [|lra]. apply andb_prop in E. destruct E as [E1 E2]. apply Z.leb_le in E1, E2.
  apply IZR_le. destruct (Hthr (z - fl) ltac:(lia)) as [Q _]. pose proof (base_range (z0_of (z - fl)) ltac:(unfold z0_of; destruct (Z.leb_spec 1 (z - fl)); lia)). nia.
Qed.
Lemma Wc_out z : ~ In z (window fl) -> Wc z = 0.
Proof.
  intros H. rewrite in_window in H. unfold Wc, round_count. cbv zeta. replace ((-18 <=? z - fl)%Z && (z - fl <=? 19)%Z) with false; [lra|]. symmetry. apply andb_false_iff. rewrite !Z.leb_gt. lia.
Qed.
Lemma sum_counts_c : IZR (fold_right (fun z s => round_count fl thr z + s)%Z 0%Z (window fl)) = 2 ^ 144 * sum_over (window fl) Wc.
Proof.
  induction (window fl) as [|z l IH]; cbn [fold_right]; [rewrite sum_over_nil; lra|]. rewrite plus_IZR, IH, sum_over_cons. unfold Wc at 2. field.
Qed.
Theorem round_close_c G : zsum (dgauss sigma mu) G -> 1 / 8 <= sum_over (window fl) Wc /\
  forall l, NoDup l -> sum_over l (fun z => Rabs (Wc z / sum_over (window fl) Wc - dgauss sigma mu z / G)) <= / 2 ^ 38.
Proof.
  intros HG. pose proof K_c as KB. pose proof (U_b T U HT HU) as UB. pose proof (G_low mu sigma 1 Hs1 Hm G HG) as GL.
  assert (KG : 1 / 7 <= K * G).
  { apply Rle_trans with (54 / 100 / (2 * (279 / 100)) * (3 / 2)); [lra|]. apply Rmult_le_compat; lra. }
  destruct (dist_generic Wc (dgauss sigma mu) (window fl) K G _ (2 * U) (window_NoDup fl) Wc_nonneg Wc_out (fun z => Rlt_le _ _ (dgauss_pos mu sigma z)) HG total_c ltac:(lra) ltac:(lra) (tail_mu mu sigma 1 U Hs1 Hm HU)) as (S0 & SD & D).
  - assert (K * (2 * U) <= 1 / 2 * (2 * / 2 ^ 70)) by (apply Rmult_le_compat; lra). unfold eps. lra.
  - split; [apply Rabs_bet in SD; assert (K * (2 * U) <= 1 / 2 * (2 * / 2 ^ 70)) by (apply Rmult_le_compat; lra); unfold eps in SD; lra|]. intros l N. eapply Rle_trans; [apply (D l N)|]. apply Rmult_le_reg_r with (K * G); [lra|]. unfold Rdiv. rewrite Rmult_assoc, Rinv_l, Rmult_1_r by lra.
    assert (K * U <= 1 / 2 * / 2 ^ 70) by (apply Rmult_le_compat; lra). set (kg := K * G) in *. set (ku := K * U) in *. replace (2 * K * (2 * U)) with (4 * ku) by (unfold ku; ring). clearbody kg ku. unfold eps. lra.
Qed.
End Round.

(** * the exponent *)
Lemma not_tiny x : usable x -> / 2 <= 2 * Rabs (val x) -> val x <> 0 /\ (2 <= fexp x)%Z.
Proof.
  intros U H. assert (N : val x <> 0) by (intros E; rewrite E, Rabs_R0 in H; lra). split; [exact N|]. destruct U as [[[R E2] E1]|[->| ->]].
  - destruct (fields x R) as (S & E & M & _). destruct (Z_lt_ge_dec (fexp x) 2) as [L|L]; [|lia]. exfalso. assert (E' : fexp x = 1%Z) by lia. unfold val in H. rewrite E' in H. change (1 =? 0)%Z with false in H. cbv iota in H.
    rewrite !Rabs_mult, sgn_abs, Rmult_1_l, (Rabs_right (powerRZ 2 _)), <- abs_IZR, Z.abs_eq in H by (try (left; apply p2_pos); lia).
    assert (B : IZR (2 ^ 52 + fmant x) * powerRZ 2 (1 - 1075) <= powerRZ 2 53 * powerRZ 2 (1 - 1075)).
    { apply Rmult_le_compat_r; [left; apply p2_pos|]. rewrite p2_nat by lia. apply IZR_le. lia. }
    rewrite <- p2_add in B. assert (C : powerRZ 2 (53 + (1 - 1075)) <= powerRZ 2 (- (3))) by (apply p2_mono; lia). rewrite p2_opp in C by lia. change (IZR (2 ^ 3)) with 8 in C. lra.
  - exfalso. apply N. apply (val_zero 0 ltac:(lia)).
  - exfalso. apply N. apply (val_zero 1 ltac:(lia)).
Qed.
Lemma inv_close : usable fpr_inv_2sqrsigma0 /\ Rabs (val fpr_inv_2sqrsigma0 - INV_2SIGMA2) <= / 2 ^ 55.
Proof.
  split; [apply usable_check; vm_compute; reflexivity|]. destruct C93_c_rounded_constants as (_ & N & _). assert (E : 1 / (2 * (18205 / 10000 * (18205 / 10000))) = INV_2SIGMA2) by (unfold INV_2SIGMA2, MAX_SIGMA; f_equal; ring).
  rewrite E in N. eapply Rle_trans; [apply (nearest_err _ _ (-2) N)|].
  - pose proof INV_pos. rewrite Rabs_right by lra. change (-2)%Z with (- (2))%Z. rewrite p2_opp by lia. change (IZR (2 ^ 2)) with 4. unfold INV_2SIGMA2, MAX_SIGMA. lra.
  - lia.
  - change (-2 - 53)%Z with (- (55))%Z. rewrite p2_opp by lia. replace (IZR (2 ^ 55)) with (2 ^ 55) by (cbn; lra). lra.
Qed.
Lemma err_at r x (k : Z) B E : rounded r x -> - B <= r <= B -> (-900 <= k <= 900)%Z -> B <= powerRZ 2 k -> powerRZ 2 (k - 53) = E ->
  usable x /\ - E <= val x - r <= E /\ (0 <= r -> 0 <= val x) /\ (r = 0 -> val x = 0).
Proof.
  intros H HB Hk Bk <-. destruct (rounded_err r x k H) as (U & A & P & Z0); [apply Rle_trans with B; [apply Rabs_le; exact HB|exact Bk]|exact Hk|].
  split; [exact U|]. split; [apply Rabs_bet in A; exact A|]. split; assumption.
Qed.
Lemma p2n (n : Z) (b : nat) : (0 <= n)%Z -> n = Z.of_nat b -> powerRZ 2 n = 2 ^ b.
Proof. intros _ ->. symmetry. apply pow_powerRZ. Qed.
Lemma p2m (n : Z) (b : nat) : n = (- Z.of_nat b)%Z -> powerRZ 2 n = / 2 ^ b.
Proof. intros ->. rewrite p2_opp by lia. f_equal. rewrite <- p2_nat by lia. symmetry. apply pow_powerRZ. Qed.
Lemma sq_bound x B : - B <= x <= B -> 0 <= B -> 0 <= x * x <= B * B.
Proof.
  intros H H0. split; [apply Rle_0_sqr|]. assert (Rabs x <= B) by (apply Rabs_le; lra). replace (x * x) with (Rabs x * Rabs x) by (rewrite <- Rabs_mult; apply Rabs_right; apply Rle_ge, Rle_0_sqr).
  apply Rmult_le_compat; (apply Rabs_pos || assumption).
Qed.
Lemma sq_close u v e : - (19) <= u <= 19 -> - e <= v - u <= e -> 0 <= e -> - (38 * e + e * e) <= v * v - u ^ 2 <= 38 * e + e * e.
Proof.
  intros Hu Hv He. replace (v * v - u ^ 2) with (2 * u * (v - u) + (v - u) * (v - u)) by ring. pose proof (sq_bound (v - u) e Hv He) as S.
  assert (A : Rabs (2 * u * (v - u)) <= 38 * e). { rewrite Rabs_mult. apply Rmult_le_compat; try apply Rabs_pos; apply Rabs_le; lra. } apply Rabs_bet in A. lra.
Qed.
(** the squared distance to the centre *)
Lemma dist_term k r R0 : usable r -> (-18 <= k <= 19)%Z -> 0 <= R0 <= 1 -> - / 2 ^ 53 <= val r - R0 <= / 2 ^ 53 ->
  exists q, q = fpr_sqr (fpr_sub (fpr_of k) r) /\ usable q /\ 0 <= val q <= 401 /\ - (37 / 10 * / 2 ^ 44) <= val q - (IZR k - R0) ^ 2 <= 37 / 10 * / 2 ^ 44.
Proof.
  intros Ur Hk HR Hr. destruct (of_exact k ltac:(lia)) as [Vk Uk]. destruct (sub_rounded (fpr_of k) r Uk Ur) as [Rd _]. rewrite Vk in Rd. set (d := fpr_sub (fpr_of k) r) in *. clearbody d.
  assert (K : -18 <= IZR k <= 19) by (split; apply IZR_le; lia). set (a := IZR k) in *. clearbody a.
  destruct (err_at _ d 5 32 (/ 2 ^ 48) Rd ltac:(lra) ltac:(lia)) as (Ud & Ed & _ & _); [rewrite (p2n 5 5) by reflexivity || lia; lra | apply p2m; lia |].
  set (u := a - R0). assert (Hu : - (19) <= u <= 19) by (unfold u; lra). assert (Hd : - (33 / 32 * / 2 ^ 48) <= val d - u <= 33 / 32 * / 2 ^ 48) by (unfold u; lra).
  destruct (mul_rounded d d Ud Ud) as [Rq _]. exists (fpr_sqr d). split; [reflexivity|]. unfold fpr_sqr. set (q := fpr_mul d d) in *. clearbody q.
  set (v := val d) in *. clearbody v u. pose proof (sq_close u v _ Hu Hd ltac:(lra)) as Q. pose proof (sq_bound v 20 ltac:(lra) ltac:(lra)) as S.
  destruct (err_at _ q 9 512 (/ 2 ^ 44) Rq ltac:(lra) ltac:(lia)) as (Uq & Eq & Pq & _); [rewrite (p2n 9 9) by reflexivity || lia; lra | apply p2m; lia |].
  split; [exact Uq|]. split; [split; [apply Pq; lra | lra]|]. set (w := u ^ 2) in *. clearbody w. lra.
Qed.
(** 1 / (2 sigma^2) *)
Lemma dss_term i : usable i -> 10000 / 18204 <= val i <= 1 -> exists d, d = fpr_half (fpr_sqr i) /\ usable d /\ 15 / 100 <= val d <= 1 / 2 /\ - / 2 ^ 54 <= val d - val i * val i / 2 <= / 2 ^ 54.
Proof.
  intros Ui Hi. destruct (mul_rounded i i Ui Ui) as [Rs _]. exists (fpr_half (fpr_sqr i)). split; [reflexivity|]. unfold fpr_sqr. set (q := fpr_mul i i) in *. clearbody q. set (s := val i) in *. clearbody s.
  assert (S : 301 / 1000 <= s * s <= 1) by (split; [apply Rle_trans with (10000 / 18204 * (10000 / 18204)); [lra|apply Rmult_le_compat; lra] | apply Rle_trans with (1 * 1); [apply Rmult_le_compat; lra|lra]]).
  assert (R : rounded (s * s) q) by exact Rs. destruct (err_at _ q 0 1 (/ 2 ^ 53) R ltac:(lra) ltac:(lia)) as (Uq & Eq & _ & _); [cbn; lra | apply p2m; lia |].
  assert (U1 : val q <= 1).
  { destruct (Rle_or_lt (val q) 1) as [L|L]; [exact L|]. exfalso. destruct one_val as [U1 V1]. destruct U1 as [[D1 _]|[C|C]]; [|discriminate C|discriminate C].
    destruct (R ltac:(rewrite Rabs_right by lra; pose proof (largest_big 0 ltac:(lia)) as B; change (powerRZ 2 0) with 1 in B; lra)) as (_ & N & _).
    destruct N as (_ & H & _); [rewrite Rabs_right by lra; unfold smallest_normal; apply Rle_trans with (powerRZ 2 (- (3))); [apply p2_mono; lia | rewrite p2_opp by lia; change (IZR (2 ^ 3)) with 8; lra]|].
    specialize (H fpr_one D1). rewrite V1 in H. rewrite Rabs_right in H by lra. unfold Rabs in H. destruct (Rcase_abs (1 - s * s)); lra. }
  destruct (half_ok q Uq) as [Uh Vh]. { right. apply not_tiny; [exact Uq|]. rewrite Rabs_right by lra. lra. }
  split; [exact Uh|]. rewrite Vh. split; [split; lra|]. lra.
Qed.
Lemma close_term r i k R0 : usable r -> usable i -> (-18 <= k <= 19)%Z -> 0 <= R0 <= 1 -> - / 2 ^ 53 <= val r - R0 <= / 2 ^ 53 -> 10000 / 18204 <= val i <= 1 ->
  exists p, p = fpr_mul (fpr_sqr (fpr_sub (fpr_of k) r)) (fpr_half (fpr_sqr i)) /\ usable p /\ 0 <= val p <= 202 /\
    - (11 / 2 * / 2 ^ 45) <= val p - (IZR k - R0) ^ 2 * (val i * val i / 2) <= 11 / 2 * / 2 ^ 45.
Proof.
  intros Ur Ui Hk HR Hr Hi. destruct (dist_term k r R0 Ur Hk HR Hr) as (q & Fq & Uq & Bq & Eq). destruct (dss_term i Ui Hi) as (d & Fd & Ud & Bd & Ed).
  destruct (mul_rounded _ _ Uq Ud) as [Rp _]. exists (fpr_mul q d). split; [rewrite Fq, Fd; reflexivity|]. clear Fq Fd. generalize dependent (fpr_mul q d). intros p Rp.
  set (y := val d) in *. set (x := val q) in *. set (D := val i * val i / 2) in *. assert (HD : 0 <= D <= 1 / 2) by (unfold D; pose proof (sq_bound (val i) 1 ltac:(lra) ltac:(lra)); lra).
  assert (K : -18 <= IZR k <= 19) by (split; apply IZR_le; lia). assert (C : 0 <= (IZR k - R0) ^ 2 <= 361).
  { replace ((IZR k - R0) ^ 2) with ((IZR k - R0) * (IZR k - R0)) by ring. pose proof (sq_bound (IZR k - R0) 19 ltac:(lra) ltac:(lra)). lra. }
  set (c := (IZR k - R0) ^ 2) in *. clearbody c D x y.
  assert (P : 0 <= x * y <= 401 * (1 / 2)) by (split; [apply Rmult_le_pos; lra | apply Rmult_le_compat; lra]).
  destruct (err_at _ p 8 256 (/ 2 ^ 45) Rp ltac:(lra) ltac:(lia)) as (Up & Ep & Pp & _); [rewrite (p2n 8 8) by reflexivity || lia; lra | apply p2m; lia |].
  split; [exact Up|]. split; [split; [apply Pp; lra|lra]|].
  assert (E : - (37 / 20 * / 2 ^ 44 + 361 * / 2 ^ 54) <= x * y - c * D <= 37 / 20 * / 2 ^ 44 + 361 * / 2 ^ 54).
  { replace (x * y - c * D) with (y * (x - c) + c * (y - D)) by ring.
    assert (A : Rabs (y * (x - c)) <= 1 / 2 * (37 / 10 * / 2 ^ 44)) by (rewrite Rabs_mult; apply Rmult_le_compat; try apply Rabs_pos; apply Rabs_le; lra).
    assert (B : Rabs (c * (y - D)) <= 361 * / 2 ^ 54) by (rewrite Rabs_mult; apply Rmult_le_compat; try apply Rabs_pos; apply Rabs_le; lra).
    apply Rabs_bet in A. apply Rabs_bet in B. lra. }
  lra.
Qed.
Lemma base_term z0 : (0 <= z0 <= 18)%Z -> exists w, w = fpr_mul (fpr_of (z0 * z0)) fpr_inv_2sqrsigma0 /\ usable w /\ 0 <= val w <= 60 /\ (z0 = 0%Z -> val w = 0) /\
  - (23 / 40 * / 2 ^ 45) <= val w - IZR z0 ^ 2 * INV_2SIGMA2 <= 23 / 40 * / 2 ^ 45.
Proof.
  intros Hz. destruct (of_exact (z0 * z0) ltac:(nia)) as [Vz Uz]. destruct inv_close as [Uc Ec]. destruct (mul_rounded _ _ Uz Uc) as [Rw _]. rewrite Vz in Rw.
  exists (fpr_mul (fpr_of (z0 * z0)) fpr_inv_2sqrsigma0). split; [reflexivity|]. revert Rw. generalize (fpr_mul (fpr_of (z0 * z0)) fpr_inv_2sqrsigma0). intros w Rw.
  generalize dependent (val fpr_inv_2sqrsigma0). intros C Ec Rw. apply Rabs_bet in Ec.
  assert (I : 150864 / 1000000 <= INV_2SIGMA2 <= 150868 / 1000000) by (unfold INV_2SIGMA2, MAX_SIGMA; lra). set (J := INV_2SIGMA2) in *. clearbody J.
  rewrite mult_IZR in Rw. replace (IZR z0 ^ 2) with (IZR z0 * IZR z0) by ring. assert (Z1 : 0 <= IZR z0 <= 18) by (split; apply IZR_le; lia).
  assert (S : 0 <= IZR z0 * IZR z0 <= 324) by (pose proof (sq_bound (IZR z0) 18 ltac:(lra) ltac:(lra)); lra).
  assert (Zz : z0 = 0%Z -> IZR z0 * IZR z0 = 0) by (intros ->; lra). set (a := IZR z0 * IZR z0) in *. clearbody a.
  assert (P : 0 <= a * C <= 324 * (151 / 1000)) by (split; [apply Rmult_le_pos; lra | apply Rmult_le_compat; lra]).
  destruct (err_at _ w 6 64 (/ 2 ^ 47) Rw ltac:(lra) ltac:(lia)) as (Uw & Ew & Pw & Zw); [rewrite (p2n 6 6) by reflexivity || lia; lra | apply p2m; lia |].
  split; [exact Uw|]. split; [split; [apply Pw; lra|lra]|]. split; [intros Z0; apply Zw; rewrite (Zz Z0); ring|].
  assert (B : - (324 * / 2 ^ 55) <= a * (C - J) <= 324 * / 2 ^ 55).
  { assert (A : Rabs (a * (C - J)) <= 324 * / 2 ^ 55) by (rewrite Rabs_mult; apply Rmult_le_compat; try apply Rabs_pos; apply Rabs_le; lra). apply Rabs_bet in A. lra. }
  replace (val w - a * J) with ((val w - a * C) + a * (C - J)) by ring. lra.
Qed.
Theorem c_x_close r i k R0 : usable r -> usable i -> (-18 <= k <= 19)%Z -> 0 <= R0 <= 1 -> - / 2 ^ 53 <= val r - R0 <= / 2 ^ 53 -> 10000 / 18204 <= val i <= 1 ->
  usable (c_x r (fpr_half (fpr_sqr i)) k (z0_of k)) /\ 0 <= val (c_x r (fpr_half (fpr_sqr i)) k (z0_of k)) <= 1000 /\
  Rabs (val (c_x r (fpr_half (fpr_sqr i)) k (z0_of k)) - ((IZR k - R0) ^ 2 * (val i * val i / 2) - IZR (z0_of k) ^ 2 * INV_2SIGMA2)) <= / 2 ^ 42.
Proof.
  intros Ur Ui Hk HR Hr Hi. destruct (close_term r i k R0 Ur Ui Hk HR Hr Hi) as (p & Ep0 & Up & Bp & Ep). destruct (base_term (z0_of k) ltac:(unfold z0_of; destruct (Z.leb_spec 1 k); lia)) as (w & Ew0 & Uw & Bw & Zw & Ew).
  unfold c_x. rewrite <- Ep0, <- Ew0. clear Ep0 Ew0. destruct (sub_rounded p w Up Uw) as [Rx _]. set (x := fpr_sub p w) in *. clearbody x.
  destruct (err_at _ x 8 256 (/ 2 ^ 45) Rx ltac:(lra) ltac:(lia)) as (Ux & Ex & Px & _); [rewrite (p2n 8 8) by reflexivity || lia; lra | apply p2m; lia |].
  split; [exact Ux|]. assert (N : 0 <= val p - val w).
  { destruct (Z.eq_dec (z0_of k) 0) as [E0|E0]; [rewrite (Zw E0); lra|].
    assert (Z0 : (1 <= z0_of k)%Z) by (unfold z0_of in *; destruct (Z.leb_spec 1 k); lia). apply IZR_le in Z0.
    assert (L : IZR (z0_of k) <= IZR k - R0 \/ IZR (z0_of k) <= - (IZR k - R0)).
    { unfold z0_of. destruct (Z.leb_spec 1 k) as [Lk|Lk]; [left; rewrite minus_IZR; lra | right; rewrite opp_IZR; lra]. }
    assert (Q : IZR (z0_of k) ^ 2 <= (IZR k - R0) ^ 2) by (destruct L; [|replace ((IZR k - R0) ^ 2) with ((- (IZR k - R0)) ^ 2) by ring]; apply pow_incr; lra).
    assert (O : 1 <= IZR (z0_of k) ^ 2) by (replace 1 with (1 ^ 2) by ring; apply pow_incr; lra).
    assert (I : INV_2SIGMA2 + / 2 ^ 20 <= val i * val i / 2).
    { assert (10000 / 18204 * (10000 / 18204) <= val i * val i) by (apply Rmult_le_compat; lra). unfold INV_2SIGMA2, MAX_SIGMA. lra. }
    set (J := INV_2SIGMA2) in *. assert (J0 : 0 < J) by apply INV_pos. clearbody J. set (a := IZR (z0_of k) ^ 2) in *. set (c := (IZR k - R0) ^ 2) in *. set (D := val i * val i / 2) in *. clearbody a c D.
    assert (A : a * (J + / 2 ^ 20) <= c * D) by (apply Rmult_le_compat; lra). assert (A2 : / 2 ^ 20 <= a * / 2 ^ 20) by lra. rewrite Rmult_plus_distr_l in A. lra. }
  split; [split; [apply Px; exact N | lra]|]. apply Rabs_le. set (a := IZR (z0_of k) ^ 2 * INV_2SIGMA2) in *. set (c := (IZR k - R0) ^ 2 * (val i * val i / 2)) in *. clearbody a c. lra.
Qed.

(** * the thresholds of the C sampler *)
Lemma floor_is_Int_part mu : usable mu -> mu <> (2 ^ 63)%Z -> Rabs (val mu) < IZR (2 ^ 31) -> fpr_floor mu = Int_part (val mu) /\ (- 2 ^ 31 <= fpr_floor mu < 2 ^ 31)%Z.
Proof.
  intros U N B. destruct (floor_ok mu U N) as [F1 F2]. { rewrite p2_nat by lia. apply Rlt_trans with (IZR (2 ^ 31)); [exact B|apply IZR_lt; reflexivity]. }
  assert (B2 : - IZR (2 ^ 31) < val mu < IZR (2 ^ 31)) by (unfold Rabs in B; destruct (Rcase_abs (val mu)); lra).
  split.
  { pose proof (Int_part_floor (val mu)) as G. set (n := Int_part (val mu)) in *. clearbody n. assert (fpr_floor mu < n + 1 /\ n < fpr_floor mu + 1)%Z; [|lia]. split; apply lt_IZR; rewrite plus_IZR; lra. }
  split; [|apply lt_IZR; lra]. assert (- 2 ^ 31 - 1 < fpr_floor mu)%Z; [|lia]. apply lt_IZR. rewrite minus_IZR, opp_IZR. lra.
Qed.
Lemma centre_close mu : usable mu -> mu <> (2 ^ 63)%Z -> Rabs (val mu) < IZR (2 ^ 31) ->
  exists r, r = fpr_sub mu (fpr_of (fpr_floor mu)) /\ usable r /\ - / 2 ^ 53 <= val r - (val mu - IZR (Int_part (val mu))) <= / 2 ^ 53.
Proof.
  intros U N B. destruct (floor_is_Int_part mu U N B) as [E R]. destruct (of_exact (fpr_floor mu) ltac:(lia)) as [Vf Uf]. destruct (sub_rounded mu _ U Uf) as [Rr _]. rewrite Vf, E in Rr.
  exists (fpr_sub mu (fpr_of (fpr_floor mu))). split; [reflexivity|]. rewrite E. pose proof (Int_part_floor (val mu)) as F.
  destruct (err_at _ (fpr_sub mu (fpr_of (Int_part (val mu)))) 0 1 (/ 2 ^ 53) Rr ltac:(lra) ltac:(lia)) as (Ur & Er & _); [cbn; lra | apply p2m; lia |]. split; [exact Ur|exact Er].
Qed.
Lemma ccs_close i sm : usable i -> usable sm -> 10000 / 18204 <= val i <= 1 -> 1 <= val sm -> val sm * val i <= 1 - / 2 ^ 50 ->
  exists c, c = fpr_mul i sm /\ usable c /\ 1 / 2 <= val c < 1 /\ - / 2 ^ 53 <= val c - val sm * val i <= / 2 ^ 53.
Proof.
  intros Ui Us Hi Hs Hc. destruct (mul_rounded i sm Ui Us) as [Rc _]. assert (L : 54 / 100 <= val i * val sm). { apply Rle_trans with (10000 / 18204 * 1); [lra|apply Rmult_le_compat; lra]. }
  exists (fpr_mul i sm). split; [reflexivity|]. rewrite (Rmult_comm (val sm)) in *. destruct (err_at _ (fpr_mul i sm) 0 1 (/ 2 ^ 53) Rc ltac:(lra) ltac:(lia)) as (Uc & Ec & _); [cbn; lra | apply p2m; lia |].
  split; [exact Uc|]. split; [split; lra|exact Ec].
Qed.
Lemma exp_minus_close u v e : 0 <= u -> 0 <= v -> Rabs (u - v) <= e -> e <= / 1024 -> Rabs (exp (- u) - exp (- v)) <= 513 / 512 * (513 / 512) * e.
Proof. intros Hu Hv H He. destruct (exp_lip u v ltac:(lra) ltac:(lra)) as [L|L]; lra. Qed.
Lemma threshold_close r i c k R0 C : usable r -> usable i -> usable c -> (-18 <= k <= 19)%Z -> 0 <= R0 <= 1 -> - / 2 ^ 53 <= val r - R0 <= / 2 ^ 53 -> 10000 / 18204 <= val i <= 1 ->
  1 / 2 <= val c < 1 -> - / 2 ^ 53 <= val c - C <= / 2 ^ 53 -> 0 <= C <= 1 -> 0 <= (IZR k - R0) ^ 2 * (val i * val i / 2) - IZR (z0_of k) ^ 2 * INV_2SIGMA2 ->
  (0 <= c_threshold (c_x r (fpr_half (fpr_sqr i)) k (z0_of k)) c < 2 ^ 64)%Z /\
  Rabs (IZR (c_threshold (c_x r (fpr_half (fpr_sqr i)) k (z0_of k)) c) / 2 ^ 64 - C * exp (- ((IZR k - R0) ^ 2 * (val i * val i / 2) - IZR (z0_of k) ^ 2 * INV_2SIGMA2))) <= 9 / 8 * / 2 ^ 42.
Proof.
  intros Ur Ui Uc Hk HR Hr Hi Hc Ec HC HX. destruct (c_x_close r i k R0 Ur Ui Hk HR Hr Hi) as (Ux & Bx & Ex). revert Ux Bx Ex. generalize (c_x r (fpr_half (fpr_sqr i)) k (z0_of k)). intros x Ux Bx Ex.
  destruct (c_threshold_accurate x c Ux Uc ltac:(lra) Hc) as [T1 T2]. split; [exact T1|]. set (X := (IZR k - R0) ^ 2 * (val i * val i / 2) - IZR (z0_of k) ^ 2 * INV_2SIGMA2) in *. clearbody X.
  pose proof (exp_minus_close (val x) X _ (proj1 Bx) HX Ex ltac:(lra)) as E. apply Rabs_bet in E. apply Rabs_bet in T2. set (t := IZR _ / 2 ^ 64) in *. clearbody t.
  assert (P : 0 <= exp (- val x) <= 1) by (split; [left; apply exp_pos|rewrite <- exp_0; apply exp_le_mono; lra]). set (a := exp (- val x)) in *. set (b := exp (- X)) in *. clearbody a b. set (cv := val c) in *. clearbody cv.
  assert (A : Rabs (C * (a - b)) <= 1 * (513 / 512 * (513 / 512) * / 2 ^ 42)) by (rewrite Rabs_mult; apply Rmult_le_compat; try apply Rabs_pos; apply Rabs_le; lra).
  assert (B : Rabs ((cv - C) * a) <= / 2 ^ 53 * 1) by (rewrite Rabs_mult; apply Rmult_le_compat; try apply Rabs_pos; apply Rabs_le; lra).
  apply Rabs_bet in A. apply Rabs_bet in B. replace (t - C * b) with ((t - cv * a) + (cv - C) * a + C * (a - b)) by ring. apply Rabs_le. lra.
Qed.
(** what the sampler calls the exponent, with sigma = 1 / isigma *)
Definition c_thr (sigma_min mu isigma : Z) (z z0 : Z) : Z :=
  c_threshold (c_x (fpr_sub mu (fpr_of (fpr_floor mu))) (fpr_half (fpr_sqr isigma)) z z0) (fpr_mul isigma sigma_min).
Theorem c_thr_ok sm mu i : usable mu -> mu <> (2 ^ 63)%Z -> Rabs (val mu) < IZR (2 ^ 31) -> usable i -> usable sm -> 10000 / 18204 <= val i <= 1 -> 1 <= val sm -> val sm * val i <= 1 - / 2 ^ 50 ->
  forall k, (-18 <= k <= 19)%Z -> (0 <= c_thr sm mu i k (z0_of k) < 2 ^ 64)%Z /\
  Rabs (IZR (c_thr sm mu i k (z0_of k)) / 2 ^ 64 - val sm * val i * exp (- ((IZR k - (val mu - IZR (Int_part (val mu)))) ^ 2 * (1 / (2 * (1 / val i) * (1 / val i))) - IZR (z0_of k) ^ 2 * INV_2SIGMA2))) <= 9 / 8 * / 2 ^ 42.
Proof.
  intros Um Nm Bm Ui Us Hi Hs Hc k Hk. destruct (centre_close mu Um Nm Bm) as (r & Er0 & Ur & Er). destruct (ccs_close i sm Ui Us Hi Hs Hc) as (c & Ec0 & Uc & Bc & Ec). unfold c_thr. rewrite <- Er0, <- Ec0. clear Er0 Ec0.
  assert (D : 1 / (2 * (1 / val i) * (1 / val i)) = val i * val i / 2) by (field; lra). rewrite D. pose proof (r_bound (val mu)) as R0.
  apply threshold_close; try assumption; try lra.
  - pose proof (xx_b (val mu) (1 / val i) 1) as X. rewrite D in X. apply X; [| |exact Hk].
    + split; [lra|]. unfold Rdiv. rewrite Rmult_1_l. rewrite <- Rinv_1 at 1. apply Rinv_le_contravar; lra.
    + unfold Rdiv, MAX_SIGMA. rewrite Rmult_1_l. apply Rle_trans with (/ (10000 / 18204)); [apply Rinv_le_contravar; lra|lra].
Qed.
