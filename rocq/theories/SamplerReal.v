(** Accuracy of approxexp and berexp. *)
From Coq Require Import Reals Lra Lia ZArith List Bool.
From Verif Require Import Base SamplerModel SamplerRealModel ExpBounds GaussTables ExpPoly SamplerProofs.
From Verif Require Props_Sampler.
Import ListNotations.
Open Scope R_scope.

Lemma Rabs_bet x a : Rabs x <= a -> - a <= x <= a.
Proof. intros H. pose proof (Rle_abs x). pose proof (Rle_abs (- x)). rewrite Rabs_Ropp in *. lra. Qed.
Lemma two63 : IZR (2 ^ 63) = 2 ^ 63. Proof. cbn; lra. Qed.
Lemma approxexp_horner zx zc : approxexp zx zc = Z.shiftr (2 * zc * hornerZ zx) 63.
Proof. unfold approxexp. fold (hornerZ zx). rewrite Z.shiftl_mul_pow2 by lia. f_equal. change (2 ^ 1)%Z with 2%Z. ring. Qed.
Theorem approxexp_accurate zx zc : -1 / 2048 <= IZR zx / 2 ^ 63 <= 1421 / 2048 -> 0 <= IZR zc / 2 ^ 63 <= 1 ->
  Rabs (IZR (approxexp zx zc) / 2 ^ 64 - IZR zc / 2 ^ 63 * exp (- (IZR zx / 2 ^ 63))) <= IZR zc / 2 ^ 63 * / 2 ^ 50 + / 2 ^ 61.
Proof.
  intros Hx Hc. pose proof (Pexp_accurate _ Hx) as A. assert (Ax : Rabs (IZR zx / 2 ^ 63) <= 7 / 10) by (apply Rabs_le; lra). pose proof (horner_close zx Ax) as H.
  rewrite approxexp_horner. pose proof (shiftr_floor (2 * zc * hornerZ zx) 63 ltac:(lia)) as F. rewrite !mult_IZR, two63 in F.
  set (a := IZR (Z.shiftr _ _)) in *. set (y := IZR (hornerZ zx)) in *. set (x := IZR zx / 2 ^ 63) in *. set (c := IZR zc / 2 ^ 63) in *.
  assert (Ec : IZR zc = c * 2 ^ 63) by (unfold c; field). rewrite Ec in F.
  assert (E : 2 * (c * 2 ^ 63) * y / 2 ^ 63 = 2 * c * y) by field. rewrite E in F. clear E Ec Ax.
  set (p := Pexp x) in *. set (e := exp (- x)) in *. clearbody a y x c p e.
  assert (E : a / 2 ^ 64 - c * e = (a - 2 * c * y) / 2 ^ 64 + c * ((y - 2 ^ 63 * p) / 2 ^ 63) + c * (p - e)) by field. rewrite E. clear E.
  apply Rabs_bet in A. apply Rabs_bet in H. apply Rabs_le.
  assert (K : c * (p - e) <= c * / 2 ^ 50 /\ - (c * / 2 ^ 50) <= c * (p - e)) by (split; nra).
  assert (L : c * ((y - 2 ^ 63 * p) / 2 ^ 63) <= 10 / 3 / 2 ^ 63 /\ - (10 / 3 / 2 ^ 63) <= c * ((y - 2 ^ 63 * p) / 2 ^ 63)).
  { set (w := (y - 2 ^ 63 * p) / 2 ^ 63). assert (W : - (10 / 3 / 2 ^ 63) <= w <= 10 / 3 / 2 ^ 63) by (unfold w; lra). clearbody w. split; nra. }
  assert (M : - / 2 ^ 64 <= (a - 2 * c * y) / 2 ^ 64 <= 0) by lra.
  lra.
Qed.

(** * the threshold of berexp, for any integers *)
Theorem berexp_z_accurate zr zc s : -1 / 2048 <= IZR zr / 2 ^ 63 <= 1421 / 2048 -> 0 <= IZR zc / 2 ^ 63 <= 1 -> (0 <= s)%Z ->
  Rabs (IZR (berexp_z zr zc s) / 2 ^ 64 - IZR zc / 2 ^ 63 * exp (- (IZR zr / 2 ^ 63)) / IZR (2 ^ s)) <= (IZR zc / 2 ^ 63 * / 2 ^ 50 + / 2 ^ 60) / IZR (2 ^ s) + / 2 ^ 64.
Proof.
  intros Hx Hc Hs. pose proof (approxexp_accurate zr zc Hx Hc) as A. unfold berexp_z. pose proof (shiftr_floor (approxexp zr zc - 1) s Hs) as F. rewrite minus_IZR in F.
  pose proof (IZR_pow2 s Hs) as P. set (t := IZR (Z.shiftr _ s)) in *. set (a := IZR (approxexp zr zc)) in *. set (c := IZR zc / 2 ^ 63) in *. set (e := exp _) in *. set (S := IZR (2 ^ s)) in *.
  clearbody t a c e S. clear Hx Hs. apply Rabs_bet in A.
  assert (I0 : 0 < / S) by now apply Rinv_0_lt_compat.
  assert (E : t / 2 ^ 64 - c * e / S = (t - (a - 1) / S) / 2 ^ 64 + (a / 2 ^ 64 - c * e - / 2 ^ 64) * / S) by (field; lra). rewrite E. clear E.
  assert (M : - / 2 ^ 64 <= (t - (a - 1) / S) / 2 ^ 64 <= 0) by lra. set (u := (t - (a - 1) / S) / 2 ^ 64) in *. clearbody u.
  set (v := a / 2 ^ 64 - c * e) in *. assert (V : - (c * / 2 ^ 50 + / 2 ^ 60) <= v - / 2 ^ 64 <= c * / 2 ^ 50 + / 2 ^ 60) by lra. clearbody v.
  unfold Rdiv. set (B := c * / 2 ^ 50 + / 2 ^ 60) in *. clearbody B. apply Rabs_le. assert ((v - / 2 ^ 64) * / S <= B * / S) by (apply Rmult_le_compat_r; lra). assert (- B * / S <= (v - / 2 ^ 64) * / S) by (apply Rmult_le_compat_r; lra). lra.
Qed.

(** * ln 2 *)
Lemma exp_le_mono x y : x <= y -> exp x <= exp y.
Proof. intros [H| ->]; [left; now apply exp_increasing|right; reflexivity]. Qed.
Definition delta : R := LN2 - ln 2.
Lemma exp_ln2 : exp (- ln 2) = / 2. Proof. rewrite exp_Ropp, exp_ln by lra. reflexivity. Qed.
Lemma delta_range : 0 <= delta <= / 2 ^ 44.
Proof.
  unfold delta. split.
  - enough (exp (- LN2) <= exp (- ln 2)). { destruct (Rle_or_lt (ln 2) LN2) as [L|L]; [lra|]. assert (exp (- ln 2) < exp (- LN2)) by (apply exp_increasing; lra). lra. }
    rewrite exp_ln2. pose proof (exp_enclosure 12 69314718056 100000000000 100 ltac:(lia) ltac:(lia) ltac:(lia)) as [_ U].
    assert (C : (2 * expHi 12 69314718056 100000000000 100 <=? 2 ^ 100)%Z = true) by (vm_cast_no_check (eq_refl true)). apply Z.leb_le in C. apply IZR_le in C. rewrite mult_IZR in C.
    change (69314718056 / 100000000000) with LN2 in U. pose proof (IZR_pow2 100 ltac:(lia)). apply Rmult_le_reg_l with (IZR (2 ^ 100)); [assumption|]. lra.
  - enough (exp (- ln 2) <= exp (- (LN2 - / 2 ^ 44))). { destruct (Rle_or_lt (LN2 - ln 2) (/ 2 ^ 44)) as [L|L]; [lra|]. assert (exp (- (LN2 - / 2 ^ 44)) < exp (- ln 2)) by (apply exp_increasing; lra). lra. }
    rewrite exp_ln2. set (q := (100000000000 * 2 ^ 44)%Z). set (p := (69314718056 * 2 ^ 44 - 100000000000)%Z).
    pose proof (exp_enclosure 12 p q 100 ltac:(reflexivity) ltac:(unfold p; lia) ltac:(lia)) as [L _].
    assert (C : (2 ^ 100 <=? 2 * expLo 12 p q 100)%Z = true) by (vm_cast_no_check (eq_refl true)). apply Z.leb_le in C. apply IZR_le in C. rewrite mult_IZR in C.
    replace (IZR p / IZR q) with (LN2 - / 2 ^ 44) in L.
    + pose proof (IZR_pow2 100 ltac:(lia)). apply Rmult_le_reg_l with (IZR (2 ^ 100)); [assumption|]. lra.
    + unfold p, q, LN2. rewrite minus_IZR, !mult_IZR. replace (IZR (2 ^ 44)) with (2 ^ 44) by (cbn; lra). field.
Qed.
Lemma exp_opp_1 : exp (- (1)) <= 3 / 8.
Proof.
  pose proof (exp_opp_bounds 2 1 ltac:(lra)) as [_ U]. cbn in U. lra.
Qed.
Lemma x_exp x : x * exp (- x) <= 3 / 8.
Proof.
  pose proof (exp_ineq1_le (x - 1)) as H. pose proof (exp_pos (- x)) as P. assert (E : exp (x - 1) * exp (- x) = exp (- (1))) by (rewrite <- exp_plus; f_equal; ring).
  assert (x * exp (- x) <= exp (x - 1) * exp (- x)) by (apply Rmult_le_compat_r; lra). pose proof exp_opp_1. lra.
Qed.
(** exp y - 1 <= 2 y on [0, 1/2] *)
Lemma exp_small y : 0 <= y <= 1 / 2 -> exp y - 1 <= 2 * y.
Proof. intros Hy. pose proof (etay_neg 0 y ltac:(lra)) as [_ U0]. pose proof (etay_neg 1 y ltac:(lra)) as [_ U]. cbn in U. nra. Qed.
Lemma exp_small' y : 0 <= y <= / 1024 -> exp y - 1 <= 513 / 512 * y.
Proof. intros Hy. pose proof (etay_neg 1 y ltac:(lra)) as [_ U]. cbn in U. nra. Qed.

Lemma pow2_exp n : / IZR (2 ^ Z.of_nat n) = exp (- (IZR (Z.of_nat n) * ln 2)).
Proof. rewrite <- INR_IZR_INZ, Ropp_mult_distr_r, <- exp_pow, exp_ln2, pow_inv, <- pow_IZR. reflexivity. Qed.
Lemma scale_le c y B : 0 <= c <= 1 -> 0 <= y <= B -> 0 <= c * y <= B.
Proof. intros Hc Hy. split; nra. Qed.
(** * exact arithmetic *)
Lemma Int_part_floor x : IZR (Int_part x) <= x < IZR (Int_part x) + 1.
Proof. destruct (base_Int_part x). lra. Qed.
Lemma Rtrunc_close x : x - 1 < IZR (Rtrunc x) < x + 1.
Proof. unfold Rtrunc. destruct (Rle_dec 0 x); [pose proof (Int_part_floor x); lra|]. rewrite opp_IZR. pose proof (Int_part_floor (- x)). lra. Qed.
Lemma Rtrunc_nonneg x : 0 <= x -> IZR (Rtrunc x) <= x < IZR (Rtrunc x) + 1 /\ (0 <= Rtrunc x)%Z.
Proof.
  intros H. unfold Rtrunc. destruct (Rle_dec 0 x) as [_|N]; [|lra]. pose proof (Int_part_floor x). split; [lra|]. apply le_IZR. 
  assert ((-1 < Int_part x)%Z) by (apply lt_IZR; lra). apply IZR_le. lia.
Qed.
Lemma exp_lip u v : -1 / 2048 <= u -> -1 / 2048 <= v -> Rabs (exp (- u) - exp (- v)) <= 513 / 512 * (513 / 512) * Rabs (u - v) \/ / 1024 < Rabs (u - v).
Proof.
  intros Hu Hv. destruct (Rle_or_lt (Rabs (u - v)) (/ 1024)) as [L|L]; [left|right; exact L].
  assert (G : forall u v, -1 / 2048 <= u -> u <= v -> v - u <= / 1024 -> 0 <= exp (- u) - exp (- v) <= 513 / 512 * (513 / 512) * (v - u)).
  { clear. intros u v Hu Huv L. assert (E : exp (- u) = exp (- v) * exp (v - u)) by (rewrite <- exp_plus; f_equal; ring). rewrite E.
    pose proof (exp_small' (v - u) ltac:(lra)) as S. pose proof (exp_ineq1_le (v - u)) as S'. pose proof (exp_pos (- v)) as P.
    assert (B : exp (- v) <= 513 / 512). { apply Rle_trans with (exp (/ 2048)); [apply exp_le_mono; lra|]. pose proof (exp_small' (/ 2048) ltac:(lra)). lra. }
    replace (exp (- v) * exp (v - u) - exp (- v)) with (exp (- v) * (exp (v - u) - 1)) by ring. split; [nra|].
    apply Rle_trans with (513 / 512 * (513 / 512 * (v - u))); [|lra]. apply Rmult_le_compat; lra. }
  destruct (Rle_or_lt u v) as [H|H].
  - rewrite (Rabs_left1 (u - v)) in * by lra. specialize (G u v Hu H ltac:(lra)). rewrite Rabs_right by lra. lra.
  - rewrite (Rabs_right (u - v)) in * by lra. specialize (G v u Hv ltac:(lra) ltac:(lra)). rewrite Rabs_left1 by lra. lra.
Qed.
Theorem berexp_threshold_accurate x ccs : 0 <= x <= 1000000 -> 1 / 2 <= ccs <= 1 ->
  (0 <= berexp_threshold x ccs < 2 ^ 64)%Z /\ Rabs (IZR (berexp_threshold x ccs) / 2 ^ 64 - ccs * exp (- x)) <= 2 / 3 * / 2 ^ 44.
Proof.
  intros Hx Hc. unfold berexp_threshold, approxexp_real. set (s0 := Rtrunc (x * ILN2)). set (r := x - IZR s0 * LN2).
  assert (HI : 0 <= x * ILN2) by (unfold ILN2; lra). destruct (Rtrunc_nonneg _ HI) as [S1 S0]. fold s0 in S1, S0.
  assert (Hr : - / 2 ^ 20 <= r < 6935 / 10000) by (unfold r, LN2, ILN2 in *; lra).
  set (zr := Rtrunc (r * 2 ^ 63)). set (zc := Rtrunc (ccs * 2 ^ 63)).
  destruct (Rtrunc_nonneg (ccs * 2 ^ 63) ltac:(lra)) as [Zc1 Zc0]. fold zc in Zc1, Zc0. pose proof (Rtrunc_close (r * 2 ^ 63)) as Zr. fold zr in Zr.
  set (c' := IZR zc / 2 ^ 63). assert (Hc' : ccs - / 2 ^ 63 <= c' <= ccs) by (unfold c'; lra).
  set (r' := IZR zr / 2 ^ 63). assert (Hr' : r - / 2 ^ 63 <= r' <= r + / 2 ^ 63) by (unfold r'; lra).
  set (s := Z.min s0 63). assert (Hs : (0 <= s <= 63)%Z) by (unfold s; lia).
  pose proof (berexp_z_accurate zr zc s ltac:(fold r'; lra) ltac:(fold c'; lra) ltac:(lia)) as B. fold r' c' in B. unfold berexp_z in B.
  set (t := Z.shiftr (approxexp zr zc - 1) s) in *. set (S := IZR (2 ^ s)) in *.
  assert (HS : 1 <= S). { unfold S. apply IZR_le. pose proof (Z.pow_pos_nonneg 2 s). lia. } assert (IS : 0 < / S <= 1) by (split; [apply Rinv_0_lt_compat; lra|rewrite <- Rinv_1; apply Rinv_le_contravar; lra]).
  assert (Er : Rabs (exp (- r') - exp (- r)) <= / 2 ^ 62).
  { assert (Rabs (r' - r) <= / 2 ^ 63) by (apply Rabs_le; lra). destruct (exp_lip r' r ltac:(lra) ltac:(lra)) as [L|L]; lra. }
  assert (Pr : 0 < exp (- r') <= 513 / 512).
  { split; [apply exp_pos|]. apply Rle_trans with (exp (/ 2048)); [apply exp_le_mono; lra|]. pose proof (exp_small' (/ 2048) ltac:(lra)). lra. }
  apply Rabs_bet in B. apply Rabs_bet in Er.
  (* |t / 2^64 - ccs exp(-r) / S| *)
  assert (T : - (/ 2 ^ 49) * / S - / 2 ^ 64 <= IZR t / 2 ^ 64 - ccs * exp (- r) * / S <= / 2 ^ 49 * / S + / 2 ^ 64).
  { set (e' := exp (- r')) in *. set (e := exp (- r)) in *. clearbody e e'. clear - B Er Pr Hc Hc' IS.
    assert (D : - / 2 ^ 61 <= c' * e' - ccs * e <= / 2 ^ 61). { replace (c' * e' - ccs * e) with ((c' - ccs) * e' + ccs * (e' - e)) by ring. split; nra. }
    assert (c' * / 2 ^ 50 <= / 2 ^ 50) by nra.
    assert (D1 : (c' * e' - ccs * e) * / S <= / 2 ^ 61 * / S) by (apply Rmult_le_compat_r; lra). assert (D2 : - / 2 ^ 61 * / S <= (c' * e' - ccs * e) * / S) by (apply Rmult_le_compat_r; lra).
    assert (G : (c' * / 2 ^ 50 + / 2 ^ 60) * / S <= (/ 2 ^ 50 + / 2 ^ 60) * / S) by (apply Rmult_le_compat_r; lra).
    unfold Rdiv in *. split; lra. }
  split.
  - split.
    + assert (e0 : 1 / 5 <= exp (- r)).
      { apply Rle_trans with (exp (- (1))); [|apply exp_le_mono; lra]. pose proof (exp_opp_bounds 2 1 ltac:(lra)) as [L _]. cbn in L. lra. }
      assert (G : 1 / 11 * / S <= ccs * exp (- r) * / S - / 2 ^ 49 * / S).
      { rewrite <- Rmult_minus_distr_r. apply Rmult_le_compat_r; [lra|]. assert (1 / 2 * (1 / 5) <= ccs * exp (- r)) by (apply Rmult_le_compat; lra). lra. }
      assert (-1 < IZR t) by (assert (0 < 1 / 11 * / S) by lra; lra). assert ((-1 < t)%Z) by (apply lt_IZR; lra). lia.
    + destruct (Z.eq_dec s0 0) as [Z0|N0].
      * assert (Es : s = 0%Z) by (unfold s; lia). unfold t. rewrite Es.
        assert (R0 : 0 <= r) by (unfold r; rewrite Z0; lra). destruct (Rtrunc_nonneg (r * 2 ^ 63) ltac:(lra)) as [A1 A2]. fold zr in A1, A2.
        apply (Props_Sampler.C46_threshold_range zr zc 0).
        -- split; [exact A2|]. apply le_IZR. rewrite mult_IZR. replace (IZR (2 ^ 60)) with (2 ^ 60) by (cbn; lra). lra.
        -- assert ((2 ^ 62 - 1 < zc)%Z) by (apply lt_IZR; rewrite minus_IZR; replace (IZR (2 ^ 62)) with (2 ^ 62) by (cbn; lra); lra).
           assert ((zc <= 2 ^ 63)%Z) by (apply le_IZR; rewrite two63; lra). lia.
        -- lia.
      * assert (S2 : / S <= / 2). { apply Rinv_le_contravar; [lra|]. unfold S. apply IZR_le. replace 2%Z with (2 ^ 1)%Z at 1 by reflexivity. apply Z.pow_le_mono_r; unfold s; lia. }
        apply lt_IZR. replace (IZR (2 ^ 64)) with (2 ^ 64) by (cbn; lra).
        assert (E1 : exp (- r) <= 3 / 2) by lra. assert (E2 : ccs * exp (- r) <= 1 * (3 / 2)) by (apply Rmult_le_compat; [lra|left; apply exp_pos|lra|lra]).
        assert (ccs * exp (- r) * / S + / 2 ^ 49 * / S <= 8 / 5 * / 2) by (rewrite <- Rmult_plus_distr_r; apply Rmult_le_compat; [|lra| |lra]; [pose proof (scale_le ccs (exp (- r)) (3 / 2) ltac:(lra) ltac:(pose proof (exp_pos (- r)); lra)); lra|lra]). lra.
  - destruct (Z.le_gt_cases s0 63) as [L63|G63].
    + assert (Es : s = s0) by (unfold s; lia).
      assert (EX : exp (- r) * / S = exp (- x) * exp (IZR s0 * delta)).
      { unfold S. rewrite Es. rewrite <- (Z2Nat.id s0) by exact S0. rewrite pow2_exp, <- !exp_plus. f_equal. rewrite Z2Nat.id by exact S0. unfold r, delta. ring. }
      rewrite Rmult_assoc, EX in T. destruct delta_range as [D0 D1]. assert (Hs0 : 0 <= IZR s0 <= 63) by (split; apply IZR_le; lia).
      assert (SD : 0 <= IZR s0 * delta <= / 1024) by (split; nra). pose proof (exp_small' _ SD) as X1. pose proof (exp_ineq1_le (IZR s0 * delta)) as X2.
      pose proof (x_exp x) as XE. pose proof (exp_pos (- x)) as PX.
      assert (Q : 0 <= exp (- x) * (exp (IZR s0 * delta) - 1) <= 6 / 10 * / 2 ^ 44).
      { split; [nra|]. apply Rle_trans with (exp (- x) * (513 / 512 * (x * ILN2 * / 2 ^ 44))).
        - apply Rmult_le_compat_l; [lra|]. apply Rle_trans with (513 / 512 * (IZR s0 * delta)); [lra|]. apply Rmult_le_compat_l; [lra|]. apply Rmult_le_compat; lra.
        - replace (exp (- x) * (513 / 512 * (x * ILN2 * / 2 ^ 44))) with (x * exp (- x) * (513 / 512 * ILN2 * / 2 ^ 44)) by ring. unfold ILN2. nra. }
      set (u := exp (- x) * (exp (IZR s0 * delta) - 1)) in *. replace (exp (- x) * exp (IZR s0 * delta)) with (exp (- x) + u) in T by (unfold u; ring). clearbody u.
      assert (0 <= ccs * u <= u) by (apply scale_le; lra). rewrite Rmult_plus_distr_l in T. assert (/ 2 ^ 49 * / S <= / 2 ^ 49) by nra. apply Rabs_le. lra.
    + assert (Es : s = 63%Z) by (unfold s; lia).
      assert (ES : S = 2 ^ 63) by (unfold S; rewrite Es; apply two63). rewrite ES in T.
      assert (X44 : 44 <= x). { assert (64 <= IZR s0) by (apply IZR_le; lia). unfold ILN2 in S1. lra. }
      assert (EX : 0 < exp (- x) <= / 2 ^ 60).
      { split; [apply exp_pos|]. apply Rle_trans with (exp (- (INR 60 * ln 2))).
        - apply exp_le_mono. destruct delta_range as [D0 _]. unfold delta, LN2 in D0. replace (INR 60) with 60 by (cbn; lra). lra.
        - rewrite Ropp_mult_distr_r, <- exp_pow, exp_ln2, pow_inv. lra. }
      assert (0 <= ccs * exp (- x) <= / 2 ^ 60) by (apply scale_le; lra).
      assert (E1 : 0 < exp (- r) <= 2) by (split; [apply exp_pos|lra]). assert (0 <= ccs * exp (- r) <= 2) by (apply scale_le; lra). apply Rabs_le. lra.
Qed.
