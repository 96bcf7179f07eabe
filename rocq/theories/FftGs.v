(** gs_norm, and the range of the leaves of the key's tree, in exact arithmetic. *)
From Coq Require Import Reals Lra Lia.
From Verif Require Import Base RingSpec FalconSpec FftModel FftSpec FftProofs FftAlg FftTree FftSample FftKey.
Import List.
Open Scope R_scope.

Lemma sumsq_fold l : forall acc, IZR (fold_left (fun res coef => res + coef ^ 2)%Z l acc) = IZR acc + rsq (zr l).
Proof.
  induction l as [|x l IH]; intros acc; [unfold rsq; cbn; ring|]. cbn [fold_left map]. rewrite IH, plus_IZR. unfold rsq. cbn [lsum]. replace (x ^ 2)%Z with (x * x)%Z by ring. rewrite mult_IZR. ring.
Qed.
Lemma rsq_app a b : rsq (a ++ b) = rsq a + rsq b.
Proof. unfold rsq. induction a as [|x a IH]; cbn [app lsum]; [ring|]. rewrite IH. ring. Qed.
Lemma rsq_fold l : forall acc, fold_left (fun res coef => res + coef * coef) l acc = acc + rsq l.
Proof. unfold rsq. induction l as [|x l IH]; intros acc; cbn [fold_left lsum]; [ring|]. rewrite IH. ring. Qed.
Lemma rsq_opp l : rsq (map Ropp l) = rsq l.
Proof. unfold rsq. rewrite lsum_map. apply lsum_ext. intros; ring. Qed.
Lemma cabs2_zero x : cabs2 x = 0 -> x = c0.
Proof. destruct x as [p r]. unfold cabs2, c0. cbn [fst snd]. intros H. f_equal; nra. Qed.

Section Gs.
Variables (k : nat) (f g F G : list Z).
Hypothesis (Lf : length f = (2 ^ S k)%nat) (Lg : length g = (2 ^ S k)%nat) (LF : length F = (2 ^ S k)%nat) (LG : length G = (2 ^ S k)%nat).
Hypothesis NT : psub (2 ^ S k) (negmul (2 ^ S k) f G) (negmul (2 ^ S k) g F) = pconst (2 ^ S k) 12289.
Let D0 := diag0 f g. Let D1 := diag1 f g.
Lemma D0_pos : pos (S k) D0. Proof. exact (diag0_pos k f g F G Lf Lg LF LG NT). Qed.
Definition mean (D : CR -> R) : R := lsum D (rts (S k)) / 2 ^ S k.
Lemma p2 : 0 < 2 ^ S k. Proof. apply pow_lt. lra. Qed.
Lemma mean0 : mean D0 = sqn f + sqn g.
Proof.
  unfold mean, D0, diag0. rewrite lsum_add. rewrite !parseval by (now rewrite ?map_length). rewrite <- zr_opp, rsq_opp. unfold sqn. field. pose proof p2. lra.
Qed.
Lemma D0_ev z : D0 z = cabs2 (ev (zr f) z) + cabs2 (ev (zr g) z).
Proof. unfold D0, diag0. rewrite <- zr_opp, ev_opp. unfold cabs2, FftModel.copp. cbn [fst snd RN nopp]. ring. Qed.

Theorem gs_norm_exact : gs_norm RN xroots f g 12289 = Ok (Rmax (mean D0) (mean D1)).
Proof.
  unfold gs_norm. change (nofZ RN) with IZR. rewrite sumsq_fold, map_app, rsq_app.
  assert (LZf : length (zr f) = (2 ^ S k)%nat) by now rewrite map_length. assert (LZg : length (zr g) = (2 ^ S k)%nat) by now rewrite map_length.
  rewrite (adj_exact (S k) (zr f)), (adj_exact (S k) (zr g)) by (auto; lia). cbn [bind]. rewrite (mul_exact (S k)) by (auto; try lia; now rewrite radj_length). cbn [bind].
  rewrite (mul_exact (S k)) by (auto; try lia; now rewrite radj_length). cbn [bind].
  unfold FftModel.add. rewrite !rnegmul_length, Nat.eqb_refl. cbn [bind]. change (nadd RN) with Rplus.
  fold (radd (rnegmul (2 ^ S k) (zr f) (radj (zr f))) (rnegmul (2 ^ S k) (zr g) (radj (zr g)))). set (ffgg := radd _ _).
  assert (LW : length ffgg = (2 ^ S k)%nat) by (unfold ffgg; rewrite radd_length; now rewrite ?rnegmul_length).
  assert (EW : forall z, In z (rts (S k)) -> ev ffgg z = inj (D0 z)).
  { intros z Hz. pose proof (proj1 (Forall_forall _ _) (rts_root (S k)) z Hz) as R. pose proof (proj1 (Forall_forall _ _) (rts_unit (S k)) z Hz) as U.
    unfold ffgg. rewrite ev_add by (now rewrite !rnegmul_length). rewrite !ev_negmul by (auto; now rewrite radj_length). rewrite !(ev_adj (2 ^ S k)) by assumption.
    rewrite !cabs2_conj, <- inj_add, D0_ev. reflexivity. }
  assert (NZ : forall z, In z (rts (S k)) -> ev ffgg z <> c0).
  { intros z Hz E. rewrite EW in E by exact Hz. pose proof (D0_pos z Hz). unfold inj, c0 in E. injection E. lra. }
  destruct (div_exact (S k) (radj (zr g)) ffgg ltac:(lia) ltac:(now rewrite radj_length) LW NZ) as (h1 & -> & L1 & M1). cbn [bind].
  destruct (div_exact (S k) (radj (zr f)) ffgg ltac:(lia) ltac:(now rewrite radj_length) LW NZ) as (h2 & -> & L2 & M2). cbn [bind].
  cbn [RN nmax nmul]. f_equal. f_equal.
  - rewrite mean0. unfold sqn. ring.
  - unfold nsqnorm. cbn [fold_left]. change (nadd RN) with Rplus. change (nmul RN) with Rmult. rewrite !rsq_fold. change (zero RN) with 0. replace (0 + rsq h1 + rsq h2) with (rsq h1 + rsq h2) by ring.
    assert (H : forall h x, length h = (2 ^ S k)%nat -> length x = (2 ^ S k)%nat -> rnegmul (2 ^ S k) h ffgg = radj x -> forall z, In z (rts (S k)) -> cabs2 (ev h z) * (D0 z * D0 z) = cabs2 (ev x z)).
    { intros h x Lh Lx E z Hz. pose proof (proj1 (Forall_forall _ _) (rts_root (S k)) z Hz) as R. pose proof (proj1 (Forall_forall _ _) (rts_unit (S k)) z Hz) as U.
      assert (Q : ev h z *c ev ffgg z = conj (ev x z)) by (rewrite <- (ev_negmul (2 ^ S k) h ffgg z) by assumption; rewrite E; now apply (ev_adj (2 ^ S k))).
      rewrite <- (cabs2_cj (ev x z)), <- Q, cabs2_mul, EW by exact Hz. unfold cabs2 at 3, inj. cbn [fst snd]. ring. }
    unfold mean. pose proof p2 as PP. apply Rmult_eq_reg_r with (2 ^ S k); [|lra]. unfold Rdiv. rewrite (Rmult_assoc (lsum D1 _)), Rinv_l by lra. rewrite Rmult_1_r.
    transitivity (IZR (12289 ^ 2) * (2 ^ S k * rsq h1 + 2 ^ S k * rsq h2)); [ring|]. rewrite <- !parseval, <- lsum_add, <- lsum_scal by assumption. apply lsum_ext. intros z Hz.
    pose proof (H h1 (zr g) L1 LZg M1 z Hz) as E1. pose proof (H h2 (zr f) L2 LZf M2 z Hz) as E2. pose proof (D0_pos z Hz) as PD.
    unfold D1, diag1. fold D0. apply Rmult_eq_reg_r with (D0 z * D0 z); [|nra]. rewrite Rmult_assoc, Rmult_plus_distr_r, E1, E2. rewrite Rplus_comm, <- D0_ev. change (12289 ^ 2)%Z with (12289 * 12289)%Z. rewrite mult_IZR. field. lra.
Qed.
Lemma mean_inv0 : mean (fun z => / D0 z) = mean D1 / (12289 * 12289).
Proof.
  unfold mean, D1, diag1. fold D0. rewrite (lsum_ext (fun z => 12289 * 12289 / D0 z) (fun z => (12289 * 12289) * / D0 z)) by reflexivity. rewrite lsum_scal. field. pose proof p2. lra.
Qed.
Lemma mean_inv1 : mean (fun z => / D1 z) = mean D0 / (12289 * 12289).
Proof.
  unfold mean. rewrite (lsum_ext (fun z => / D1 z) (fun z => / (12289 * 12289) * D0 z)).
  - rewrite lsum_scal. field. pose proof p2. lra.
  - intros z Hz. unfold D1, diag1. fold D0. pose proof (D0_pos z Hz). field. lra.
Qed.
(** every leaf of the tree, before normalisation, lies between q^2 / B and B, where B bounds the squared Gram-Schmidt norm *)
Theorem leaves_range B x : gs_norm RN xroots f g 12289 = Ok x -> x <= B ->
  Forall (fun y => snd y = 0 /\ 0 < fst y /\ 12289 * 12289 <= B * fst y /\ fst y <= B) (leaves (exact_tree k f g F G)).
Proof.
  rewrite gs_norm_exact. intros [= <-] HB. assert (B0 : mean D0 <= B) by (eapply Rle_trans; [apply Rmax_l|exact HB]). assert (B1 : mean D1 <= B) by (eapply Rle_trans; [apply Rmax_r|exact HB]).
  assert (PD : pos (S k) D0) by exact D0_pos. assert (PD1 : pos (S k) D1) by exact (diag1_pos k f g F G Lf Lg LF LG NT).
  assert (SD : sym (S k) D0) by exact (diag0_sym k f g). assert (SD1 : sym (S k) D1) by exact (diag1_sym k f g).
  assert (C : forall y m, 0 < y -> / y <= m / (12289 * 12289) -> m <= B -> 12289 * 12289 <= B * y).
  { intros y m Py Hy Hm. assert (A : / y <= B / (12289 * 12289)) by lra. apply Rmult_le_compat_r with (r := y * (12289 * 12289)) in A; [|nra].
    replace (/ y * (y * (12289 * 12289))) with (12289 * 12289) in A by (field; lra). replace (B / (12289 * 12289) * (y * (12289 * 12289))) with (B * y) in A by field. exact A. }
  unfold exact_tree. cbn [leaves]. apply Forall_app. split; (eapply Forall_impl; [|apply dtree_leaves; assumption]); cbn beta; intros y (Y1 & Y2 & Y3 & Y4); repeat split; auto.
  - apply (C _ (mean D1)); auto. rewrite <- mean_inv0. exact Y4.
  - eapply Rle_trans; [exact Y3|]. exact B0.
  - apply (C _ (mean D0)); auto. rewrite <- mean_inv1. exact Y4.
  - eapply Rle_trans; [exact Y3|]. exact B1.
Qed.
Lemma leaves_normalize s t : leaves (normalize_tree RN s t) = map (fun x => (s / sqrt (fst x), 0)) (leaves t).
Proof. induction t as [x|l a IHa b IHb]; cbn [normalize_tree leaves map]; [reflexivity|]. now rewrite IHa, IHb, map_app. Qed.
(** so the standard deviations given to samplerz lie between sigma / sqrt B and sigma * sqrt B / q *)
Theorem sigma_range sigma lo hi B x : 0 < sigma -> 0 <= lo -> 0 < hi -> gs_norm RN xroots f g 12289 = Ok x -> x <= B ->
  lo * lo * B <= sigma * sigma -> sigma * sigma * B <= hi * hi * (12289 * 12289) ->
  Forall (fun y => snd y = 0 /\ lo <= fst y <= hi) (leaves (T_fft (exact_key k f g F G sigma))).
Proof.
  intros Ps Plo Phi E HB H1 H2. unfold exact_key. cbn [T_fft]. rewrite leaves_normalize. apply Forall_map. eapply Forall_impl; [|eapply leaves_range; eassumption].
  cbn beta. intros y (Y1 & Y2 & Y3 & Y4). cbn [fst snd]. split; [reflexivity|]. set (v := fst y) in *. pose proof (sqrt_lt_R0 v Y2) as Pr. pose proof (sqrt_sqrt v ltac:(lra)) as Sq. set (r := sqrt v) in *. split.
  - apply Rmult_le_reg_r with r; [exact Pr|]. replace (sigma / r * r) with sigma by (field; lra). apply Rsqr_incr_0; [|nra|lra]. unfold Rsqr. replace (lo * r * (lo * r)) with (lo * lo * (r * r)) by ring. rewrite Sq. nra.
  - apply Rmult_le_reg_r with r; [exact Pr|]. replace (sigma / r * r) with sigma by (field; lra). apply Rsqr_incr_0; [|lra|nra]. unfold Rsqr. replace (hi * r * (hi * r)) with (hi * hi * (r * r)) by ring. rewrite Sq.
    assert (PB : 0 < B) by nra. apply Rmult_le_reg_r with B; [exact PB|]. eapply Rle_trans; [exact H2|]. replace (hi * hi * v * B) with (hi * hi * (B * v)) by ring. apply Rmult_le_compat_l; [nra|exact Y3].
Qed.
End Gs.
