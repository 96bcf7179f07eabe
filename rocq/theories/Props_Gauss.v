(** C45-C47: the Gaussian tables and the approximation of exp in the samplers, against GaussSpec (discrete Gaussian weights over the reals). *)
From Coq Require Import Reals Lra Lia ZArith List Bool.
From Verif Require Import Base SamplerModel SamplerRealModel ExpBounds GaussSpec GaussTables ExpPoly SamplerReal.
Import ListNotations.
Open Scope R_scope.

(** * C45: the table of basesampler *)
Definition pB : Z := (10 ^ 8)%Z.
Definition qB : Z := (2 * 18205 ^ 2)%Z.
Lemma gweight_B k : gweight MAX_SIGMA k = rho (IZR pB / IZR qB) k.
Proof. unfold gweight, rho, MAX_SIGMA. do 2 f_equal. change (IZR pB) with 100000000. change (IZR qB) with 662844050. field. Qed.
(** the sums exist *)
Lemma gsum_exists sigma m : 0 < sigma -> exists T, gsum sigma m T.
Proof.
  intros Hs. destruct (rho_sum_exists (/ (2 * sigma ^ 2)) ltac:(apply Rinv_0_lt_compat; nra) m) as (T & HT). exists T. exact HT.
Qed.
(** the number of 72-bit u for which basesampler returns i, for i >= 1 (C45_distribution): *)
Definition base_count (i : nat) : Z := (nth (i - 1) RCDT 0 - nth i RCDT 0)%Z.
(** it is 2^72 times the probability of i for the half-Gaussian of deviation 1.8205, rounded down *)
Theorem C45_table_is_half_gaussian : forall T i, gsum MAX_SIGMA 0 T -> (1 <= i <= 18)%nat ->
  IZR (base_count i) <= 2 ^ 72 * (gweight MAX_SIGMA i / T) < IZR (base_count i) + 1.
Proof.
  intros T i HT Hi.
  assert (Hp : (0 < pB)%Z) by reflexivity. assert (Hq : (0 < qB)%Z) by reflexivity. assert (HN : (0 <= 128)%Z) by lia.
  assert (C : (0 <=? expLo 10 pB qB 128)%Z && (expHi 10 pB qB 128 <? 2 ^ 128)%Z = true) by (vm_cast_no_check (eq_refl true)).
  apply andb_prop in C. destruct C as [C0 C1]. apply Z.leb_le in C0. apply Z.ltb_lt in C1.
  set (ws := wtab 10 pB qB 128 27). set (Tc := tsum 128 (rcl 10 pB qB 128) (firstn (26 - 0) (skipn 0 ws)) (nth 26 ws (0, 0)%Z)).
  assert (HT' : infinite_sum (fun j => rho (IZR pB / IZR qB) (0 + j)) T).
  { intros eps He. destruct (HT eps He) as (n & Hn). exists n. intros k Hk. specialize (Hn k Hk). erewrite sum_eq; [exact Hn|]. intros j _. symmetry. apply gweight_B. }
  pose proof (wsum_spec 10 pB qB 128 26 0 T Hp Hq HN C0 C1 ltac:(lia) HT') as ET. cbv zeta in ET. fold ws Tc in ET.
  assert (F : (0 <? fst Tc)%Z && floor_check (2 ^ 72) ws Tc base_count (seq 1 18) = true) by (vm_cast_no_check (eq_refl true)).
  apply andb_prop in F. destruct F as [F0 F1]. apply Z.ltb_lt in F0.
  rewrite gweight_B. replace (2 ^ 72) with (IZR (2 ^ 72)%Z) by (rewrite pow_IZR; reflexivity).
  apply (floor_check_spec 128 (2 ^ 72) ws T Tc base_count (seq 1 18) (rho (IZR pB / IZR qB)) HN ltac:(reflexivity) ET F0); [|exact F1|apply in_seq; lia].
  intros j Hj. apply in_seq in Hj. apply wtab_spec; auto; lia.
Qed.
Print Assumptions C45_table_is_half_gaussian.

(** * C47: the table of mkgauss *)
(** NIST reference: the Gaussian of 1024 coefficients with q = 12289 has deviation 1.17 sqrt(q / 2048) *)
Definition KEYGEN_SIGMA : R := 117 / 100 * sqrt (12289 / 2048).
Definition pK : Z := (1024 * 10000)%Z.
Definition qK : Z := (13689 * 12289)%Z.
Lemma gweight_K k : gweight KEYGEN_SIGMA k = rho (IZR pK / IZR qK) k.
Proof.
  unfold gweight, rho, KEYGEN_SIGMA. do 2 f_equal. rewrite Rpow_mult_distr, pow2_sqrt by lra. change (IZR pK) with 10240000. change (IZR qK) with 168224121. field.
Qed.
(** entry 0 is 2^63 P(X = 0) and entry k (1 <= k <= 26) is 2^63 P(|X| > k given X <> 0), rounded to the nearest integer *)
Theorem C47_table_is_gaussian : forall T1, gsum KEYGEN_SIGMA 1 T1 ->
  Rabs (IZR (gtab 0) - 2 ^ 63 * (1 / (1 + 2 * T1))) <= 1 / 2 /\
  forall k U, (1 <= k <= 26)%nat -> gsum KEYGEN_SIGMA (k + 1) U -> Rabs (IZR (gtab k) - 2 ^ 63 * (U / T1)) <= 1 / 2.
Proof.
  intros T1 HT.
  assert (Hp : (0 < pK)%Z) by reflexivity. assert (Hq : (0 < qK)%Z) by reflexivity. assert (HN : (0 <= 128)%Z) by lia.
  assert (C : (0 <=? expLo 10 pK qK 128)%Z && (expHi 10 pK qK 128 <? 2 ^ 128)%Z = true) by (vm_cast_no_check (eq_refl true)).
  apply andb_prop in C. destruct C as [C0 C1]. apply Z.leb_le in C0. apply Z.ltb_lt in C1.
  set (ws := wtab 10 pK qK 128 43). set (Tc k := tsum 128 (rcl 10 pK qK 128) (firstn (42 - k) (skipn k ws)) (nth 42 ws (0, 0)%Z)).
  assert (Sum : forall k U, (k <= 42)%nat -> gsum KEYGEN_SIGMA k U -> encl 128 U (Tc k)).
  { intros k U Hk HU. assert (HU' : infinite_sum (fun j => rho (IZR pK / IZR qK) (k + j)) U).
    { intros eps He. destruct (HU eps He) as (n & Hn). exists n. intros i Hi. specialize (Hn i Hi). erewrite sum_eq; [exact Hn|]. intros j _. symmetry. apply gweight_K. }
    exact (wsum_spec 10 pK qK 128 42 k U Hp Hq HN C0 C1 Hk HU'). }
  pose proof (Sum 1%nat T1 ltac:(lia) HT) as E1. set (Wc := (2 ^ 128 + 2 * fst (Tc 1%nat), 2 ^ 128 + 2 * snd (Tc 1%nat))%Z).
  assert (EW : encl 128 (1 + 2 * T1) Wc).
  { destruct E1 as (A & B & D). split; unfold Wc; cbn [fst snd]; [lia|]. rewrite !plus_IZR, !mult_IZR. lra. }
  assert (EO : encl 128 1 (2 ^ 128, 2 ^ 128)%Z) by (split; cbn [fst snd]; [lia|lra]).
  split.
  - assert (F : ((0 <? fst Wc) && (0 <=? gtab 0) && (((2 * gtab 0 - 1) * (if 0 <=? 2 * gtab 0 - 1 then snd Wc else fst Wc) <=? 2 ^ 64 * 2 ^ 128) && (2 ^ 64 * 2 ^ 128 <=? (2 * gtab 0 + 1) * fst Wc)))%Z = true) by (vm_cast_no_check (eq_refl true)).
    apply andb_prop in F. destruct F as [F F2]. apply andb_prop in F. destruct F as [F0 F1]. apply Z.ltb_lt in F0. apply Z.leb_le in F1.
    exact (near_check_spec 128 _ Wc _ (2 ^ 128, 2 ^ 128)%Z (gtab 0) HN EW EO F0 F1 F2).
  - intros k U Hk HU. pose proof (Sum (k + 1)%nat U ltac:(lia) HU) as EU.
    assert (F : (let ws := wtab 10 pK qK 128 43 in let rc := rcl 10 pK qK 128 in let w42 := nth 42 ws (0, 0)%Z in
        let T := fun k => tsum 128 rc (firstn (42 - k) (skipn k ws)) w42 in let t1 := T 1%nat in
        (0 <? fst t1) && forallb (fun k => let u := T (k + 1)%nat in (0 <=? gtab k) && (((2 * gtab k - 1) * (if 0 <=? 2 * gtab k - 1 then snd t1 else fst t1) <=? 2 ^ 64 * fst u) && (2 ^ 64 * snd u <=? (2 * gtab k + 1) * fst t1))) (seq 1 26))%Z = true) by (vm_cast_no_check (eq_refl true)).
    cbv zeta in F. fold ws in F. change (tsum 128 (rcl 10 pK qK 128) (firstn (42 - 1) (skipn 1 ws)) (nth 42 ws (0, 0)%Z)) with (Tc 1%nat) in F.
    apply andb_prop in F. destruct F as [F0 F]. apply Z.ltb_lt in F0. rewrite forallb_forall in F. specialize (F k ltac:(apply in_seq; lia)). apply andb_prop in F. destruct F as [F1 F2]. apply Z.leb_le in F1.
    exact (near_check_spec 128 _ (Tc 1%nat) _ (Tc (k + 1)%nat) (gtab k) HN E1 EU F0 F1 F2).
Qed.
Print Assumptions C47_table_is_gaussian.

(** * C46: approxexp and berexp against exp *)
(** approxexp on the 63-bit fixed point inputs zx = x 2^63 and zc = ccs 2^63 is 2^64 ccs exp(-x), with an error below 2^-50 ccs + 2^-61 *)
Theorem C46_approxexp_accurate : forall zx zc, -1 / 2048 <= IZR zx / 2 ^ 63 <= 1421 / 2048 -> 0 <= IZR zc / 2 ^ 63 <= 1 ->
  Rabs (IZR (approxexp zx zc) / 2 ^ 64 - IZR zc / 2 ^ 63 * exp (- (IZR zx / 2 ^ 63))) <= IZR zc / 2 ^ 63 * / 2 ^ 50 + / 2 ^ 61.
Proof. exact approxexp_accurate. Qed.
Print Assumptions C46_approxexp_accurate.
(** The integer part of berexp, for any integers zr = r 2^63, zc = ccs 2^63 and s that the floating point part hands over (r may be slightly
    negative, as after rounding): the acceptance probability z / 2^64 is ccs exp(-r) 2^-s up to the stated error. *)
Theorem C46_threshold_accurate : forall zr zc s, -1 / 2048 <= IZR zr / 2 ^ 63 <= 1421 / 2048 -> 0 <= IZR zc / 2 ^ 63 <= 1 -> (0 <= s)%Z ->
  Rabs (IZR (berexp_z zr zc s) / 2 ^ 64 - IZR zc / 2 ^ 63 * exp (- (IZR zr / 2 ^ 63)) / IZR (2 ^ s)) <= (IZR zc / 2 ^ 63 * / 2 ^ 50 + / 2 ^ 60) / IZR (2 ^ s) + / 2 ^ 64.
Proof. exact berexp_z_accurate. Qed.
Print Assumptions C46_threshold_accurate.
(** The whole of berexp with real arithmetic in place of floats: the acceptance probability is ccs exp(-x) up to 2/3 of 2^-44 (the constant LN2
    of the code is ln 2 up to 2^-44). *)
Theorem C46_accepts_with_probability_exp : forall x ccs, 0 <= x <= 1000000 -> 1 / 2 <= ccs <= 1 ->
  (0 <= berexp_threshold x ccs < 2 ^ 64)%Z /\ Rabs (IZR (berexp_threshold x ccs) / 2 ^ 64 - ccs * exp (- x)) <= 2 / 3 * / 2 ^ 44.
Proof. exact berexp_threshold_accurate. Qed.
Print Assumptions C46_accepts_with_probability_exp.
(** the hypotheses are met by the largest input of the signer with the smallest ccs, and at zero *)
Example C46_inputs_exist : 0 <= (19 - 0) ^ 2 * (1 / (2 * 1.2778 * 1.2778)) - 18 ^ 2 * INV_2SIGMA2 <= 1000000 /\ 1 / 2 <= 1.2778 / MAX_SIGMA <= 1.
Proof. unfold INV_2SIGMA2, MAX_SIGMA. lra. Qed.
(** T exists and the theorems of C45 and C47 apply *)
Example C45_C47_sums_exist : (exists T, gsum MAX_SIGMA 0 T) /\ (exists T, gsum KEYGEN_SIGMA 1 T) /\ (exists T, gsum KEYGEN_SIGMA 27 T).
Proof.
  assert (0 < KEYGEN_SIGMA) by (unfold KEYGEN_SIGMA; apply Rmult_lt_0_compat; [lra|apply sqrt_lt_R0; lra]).
  split; [|split]; apply gsum_exists; [unfold MAX_SIGMA; lra|assumption|assumption].
Qed.
