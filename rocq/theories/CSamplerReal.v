(** Accuracy of the acceptance probability of the C sampler: range reduction, exponential and saturation. *)
From Coq Require Import ZArith Reals Lra Lia.
From Verif Require Import Base SamplerModel SamplerRealModel ExpBounds GaussTables ExpPoly SamplerProofs SamplerReal FprModel FprSpec FprBits FprRound FprMul FprAdd FprConv FprMisc FprUnique Props_Fpr CSamplerModel CSamplerProofs.
Set Default Goal Selector "!".
Open Scope R_scope.

(** * Errors of one operation *)
Lemma scale_double x k : normal x -> (1 <= fexp x + k <= 2046)%Z -> normal (x + k * 2 ^ 52)%Z /\ val (x + k * 2 ^ 52)%Z = val x * powerRZ 2 k.
Proof.
  intros [[R E2] E1] Hk. destruct (fields x R) as (S & _ & M & X).
  assert (Y : (x + k * 2 ^ 52 = fsign x * 2 ^ 63 + ((fexp x + k) * 2 ^ 52 + fmant x))%Z) by lia. rewrite Y. set (y := (fsign x * 2 ^ 63 + ((fexp x + k) * 2 ^ 52 + fmant x))%Z).
  assert (Fs : fsign y = fsign x) by (apply field_sign; lia). assert (Fe : fexp y = (fexp x + k)%Z) by (apply field_exp; lia). assert (Fm : fmant y = fmant x) by (apply field_mant; lia).
  split; [split; [split; [unfold y; lia|lia]|lia]|]. unfold val. rewrite Fs, Fe, Fm. destruct (Z.eqb_spec (fexp x + k) 0); [lia|]. destruct (Z.eqb_spec (fexp x) 0); [lia|].
  replace (fexp x + k - 1075)%Z with ((fexp x - 1075) + k)%Z by lia. rewrite p2_add. ring.
Qed.
Lemma int_normal i y : i <> 0%Z -> (Z.abs i <= 2 ^ 53)%Z -> double y -> val y = IZR i -> normal y /\ (1023 <= fexp y <= 1076)%Z.
Proof.
  intros N H D V. pose proof D as [R E2]. destruct (fields y R) as (S & E & M & _).
  assert (A : 1 <= Rabs (val y) <= IZR (2 ^ 53)) by (rewrite V, <- abs_IZR; split; [apply (IZR_le 1); lia | apply IZR_le; lia]).
  unfold val in A. destruct (Z.eqb_spec (fexp y) 0) as [Z0|Z0]; rewrite !Rabs_mult, sgn_abs, Rmult_1_l, (Rabs_right (powerRZ 2 _)), <- abs_IZR, Z.abs_eq in A by (try (left; apply p2_pos); lia).
  - exfalso. assert (IZR (fmant y) * powerRZ 2 (-1074) < 1); [|lra]. apply Rlt_le_trans with (powerRZ 2 52 * powerRZ 2 (-1074)).
    + apply Rmult_lt_compat_r; [apply p2_pos|]. rewrite p2_nat by lia. apply IZR_lt. lia.
    + rewrite <- p2_add. change 1 with (powerRZ 2 0). apply p2_mono. lia.
  - split; [split; [exact D|lia]|]. split.
    + apply Z.nlt_ge. intros C. assert (IZR (2 ^ 52 + fmant y) * powerRZ 2 (fexp y - 1075) < 1); [|lra]. apply Rlt_le_trans with (powerRZ 2 53 * powerRZ 2 (fexp y - 1075)).
      * apply Rmult_lt_compat_r; [apply p2_pos|]. rewrite (p2_nat 53) by lia. apply IZR_lt. lia.
      * rewrite <- p2_add. change 1 with (powerRZ 2 0). apply p2_mono. lia.
    + apply Z.nlt_ge. intros C. assert (IZR (2 ^ 53) < IZR (2 ^ 52 + fmant y) * powerRZ 2 (fexp y - 1075)); [|lra]. apply Rlt_le_trans with (powerRZ 2 52 * powerRZ 2 (fexp y - 1075)).
      * rewrite <- p2_add, <- (p2_nat 53) by lia. apply Rlt_le_trans with (powerRZ 2 54); [rewrite (p2_nat 53), (p2_nat 54) by lia; apply IZR_lt; reflexivity | apply p2_mono; lia].
      * apply Rmult_le_compat_r; [left; apply p2_pos|]. rewrite (p2_nat 52) by lia. apply IZR_le. lia.
Qed.
Lemma grid i k : (Z.abs i <= 2 ^ 53)%Z -> (-1000 <= k <= 900)%Z -> exists y, double y /\ val y = IZR i * powerRZ 2 k.
Proof.
  intros H Hk. destruct (Z.eq_dec i 0) as [->|N].
  - exists 0%Z. destruct (val_zero 0 ltac:(lia)) as (V & _). split; [split; [split; [discriminate|reflexivity]|vm_compute; discriminate]|]. change (0 * 2 ^ 63)%Z with 0%Z in V. rewrite V. ring.
  - destruct (int_double i N H) as (y & D & V). destruct (int_normal i y N H D V) as [Ny E]. destruct (scale_double y k Ny ltac:(lia)) as [[D' _] V']. exists (y + k * 2 ^ 52)%Z. split; [exact D'|]. rewrite V', V. reflexivity.
Qed.
Lemma nearest_err r x k : nearest r x -> Rabs r <= powerRZ 2 k -> (-900 <= k <= 900)%Z -> Rabs (val x - r) <= powerRZ 2 (k - 53).
Proof.
  intros (_ & H & _) B Hk. set (u := powerRZ 2 (k - 53)). assert (U : 0 < u) by apply p2_pos.
  assert (Ek : powerRZ 2 k = IZR (2 ^ 53) * u) by (unfold u; rewrite <- (p2_nat 53), <- p2_add by lia; f_equal; lia).
  set (m := Int_part (r / u)). pose proof (Int_part_floor (r / u)) as F. fold m in F.
  assert (Q : r / u * u = r) by (field; lra). assert (Br : - IZR (2 ^ 53) <= r / u <= IZR (2 ^ 53)).
  { apply Rabs_bet in B. rewrite Ek in B. split; apply Rmult_le_reg_r with u; try assumption; rewrite Q; lra. }
  assert (Hm : (Z.abs m <= 2 ^ 53)%Z).
  { apply Z.abs_le. split; [|apply le_IZR; lra]. assert (- 2 ^ 53 - 1 < m)%Z; [|lia]. apply lt_IZR. rewrite minus_IZR, opp_IZR. lra. }
  destruct (grid m (k - 53) Hm ltac:(lia)) as (y & D & V). apply Rle_trans with (Rabs (val y - r)); [apply H; exact D|]. rewrite V. fold u. apply Rabs_le.
  assert (IZR m * u <= r / u * u) by (apply Rmult_le_compat_r; lra). assert (r / u * u <= (IZR m + 1) * u) by (apply Rmult_le_compat_r; lra). lra.
Qed.
Lemma largest_big k : (k <= 900)%Z -> powerRZ 2 k <= largest.
Proof.
  intros Hk. unfold largest. apply Rle_trans with (1 * powerRZ 2 971); [rewrite Rmult_1_l; apply p2_mono; lia|]. apply Rmult_le_compat_r; [left; apply p2_pos | apply (IZR_le 1); lia].
Qed.
Lemma rounded_err r x k : rounded r x -> Rabs r <= powerRZ 2 k -> (-900 <= k <= 900)%Z ->
  usable x /\ Rabs (val x - r) <= powerRZ 2 (k - 53) /\ (0 <= r -> 0 <= val x) /\ (r = 0 -> val x = 0).
Proof.
  intros H B Hk. destruct (H ltac:(pose proof (largest_big k (proj2 Hk)); lra)) as (U & N & Z0). split; [exact U|].
  destruct (Rle_or_lt smallest_normal (Rabs r)) as [C|C].
  - specialize (N C). split; [apply nearest_err; assumption|]. split.
    + intros P. destruct N as (_ & N & _). specialize (N 0%Z). destruct (val_zero 0 ltac:(lia)) as (V & _). change (0 * 2 ^ 63)%Z with 0%Z in V. rewrite V in N.
      assert (D : double 0) by (split; [split; [discriminate|reflexivity]|vm_compute; discriminate]). specialize (N D). rewrite (Rabs_left1 (0 - r)) in N by lra. apply Rabs_bet in N. lra.
    + intros E. subst r. rewrite Rabs_R0 in C. unfold smallest_normal in C. pose proof (p2_pos (-1022)). lra.
  - specialize (Z0 C). rewrite Z0. split; [|split; [lra|reflexivity]]. replace (0 - r) with (- r) by ring. rewrite Rabs_Ropp. apply Rle_trans with smallest_normal; [lra|]. apply p2_mono. lia.
Qed.
Lemma nearest_mono a b x y : nearest a x -> nearest b y -> a < b -> val x <= val y.
Proof.
  intros (Dx & Hx & _) (Dy & Hy & _) L. apply Rnot_lt_le. intros C. specialize (Hx y Dy). specialize (Hy x Dx). apply Rabs_bet in Hx. apply Rabs_bet in Hy.
  unfold Rabs in *. destruct (Rcase_abs (val x - a)), (Rcase_abs (val y - a)), (Rcase_abs (val x - b)), (Rcase_abs (val y - b)); lra.
Qed.
Lemma rounded_mono a b x y : rounded a x -> rounded b y -> 0 <= a -> a < b -> b <= largest -> val x <= val y.
Proof.
  intros Hx Hy P L B. destruct (Hx ltac:(rewrite Rabs_right by lra; lra)) as (_ & Nx & Zx). destruct (Hy ltac:(rewrite Rabs_right by lra; lra)) as (_ & Ny & Zy).
  rewrite !Rabs_right in * by lra. destruct (Rle_or_lt smallest_normal a) as [C|C].
  - apply (nearest_mono a b); [apply Nx; exact C | apply Ny; lra | exact L].
  - rewrite (Zx C). destruct (Rle_or_lt smallest_normal b) as [C'|C']; [|rewrite (Zy C'); lra].
    destruct (Ny C') as (_ & N & _). specialize (N 0%Z). destruct (val_zero 0 ltac:(lia)) as (V & _). change (0 * 2 ^ 63)%Z with 0%Z in V. rewrite V in N.
    assert (D : double 0) by (split; [split; [discriminate|reflexivity]|vm_compute; discriminate]). specialize (N D). rewrite (Rabs_left1 (0 - b)) in N by lra. apply Rabs_bet in N. lra.
Qed.

Lemma p2_opp n : (0 <= n)%Z -> powerRZ 2 (- n) = / IZR (2 ^ n).
Proof.
  intros H. pose proof (p2_add n (- n)) as A. rewrite Z.add_opp_diag_r in A. change (powerRZ 2 0) with 1 in A. rewrite (p2_nat n) in A by exact H.
  assert (P : 0 < IZR (2 ^ n)) by (apply IZR_lt, Z.pow_pos_nonneg; lia). apply Rmult_eq_reg_l with (IZR (2 ^ n)); [|lra]. rewrite <- A. field. lra.
Qed.

(** * The constants *)
Definition mL : Z := 6243314768165359.
Definition mI : Z := 6497320848556798.
Lemma log2_val : usable fpr_log2 /\ val fpr_log2 = IZR mL / IZR (2 ^ 53).
Proof.
  split; [apply usable_check; vm_compute; reflexivity|].
  rewrite (exact_value fpr_log2 0 1022 (mL - 2 ^ 52)) by (try (vm_compute; reflexivity); lia). unfold FprSpec.sgn. change (0 =? 1)%Z with false. cbv iota. change (1022 - 1075)%Z with (- (53))%Z.
  replace (2 ^ 52 + (mL - 2 ^ 52))%Z with mL by ring. rewrite p2_opp, Rmult_1_l by lia. reflexivity.
Qed.
Lemma inv_log2_val : usable fpr_inv_log2 /\ val fpr_inv_log2 = IZR mI / IZR (2 ^ 52).
Proof.
  split; [apply usable_check; vm_compute; reflexivity|].
  rewrite (exact_value fpr_inv_log2 0 1023 (mI - 2 ^ 52)) by (try (vm_compute; reflexivity); lia). unfold FprSpec.sgn. change (0 =? 1)%Z with false. cbv iota. change (1023 - 1075)%Z with (- (52))%Z.
  replace (2 ^ 52 + (mI - 2 ^ 52))%Z with mI by ring. rewrite p2_opp, Rmult_1_l by lia. reflexivity.
Qed.

Lemma ln2_range : (693147 / 1000000 <= ln 2 <= 693148 / 1000000).
Proof. destruct delta_range as [D0 D1]. unfold delta, LN2 in *. lra. Qed.
Lemma log2_close : - / 2 ^ 53 <= val fpr_log2 - ln 2 <= / 2 ^ 53.
Proof.
  rewrite (proj2 log2_val). replace (IZR (2 ^ 53)) with (2 ^ 53) by (cbn; lra). split.
  - enough (exp (- ((IZR mL + 1) / 2 ^ 53)) <= exp (- ln 2)). { destruct (Rle_or_lt (ln 2) ((IZR mL + 1) / 2 ^ 53)) as [L|L]; [lra|]. assert (exp (- ln 2) < exp (- ((IZR mL + 1) / 2 ^ 53))) by (apply exp_increasing; lra). lra. }
    rewrite exp_ln2. set (q := (2 ^ 53)%Z). set (p := (mL + 1)%Z).
    pose proof (exp_enclosure 12 p q 100 ltac:(reflexivity) ltac:(vm_compute; discriminate) ltac:(lia)) as [_ U].
    assert (C : (2 * expHi 12 p q 100 <=? 2 ^ 100)%Z = true) by (vm_cast_no_check (eq_refl true)). apply Z.leb_le in C. apply IZR_le in C. rewrite mult_IZR in C.
    replace (IZR p / IZR q) with ((IZR mL + 1) / 2 ^ 53) in U by (unfold p, q; rewrite plus_IZR; replace (IZR (2 ^ 53)) with (2 ^ 53) by (cbn; lra); reflexivity).
    pose proof (IZR_pow2 100 ltac:(lia)). apply Rmult_le_reg_l with (IZR (2 ^ 100)); [assumption|]. lra.
  - enough (exp (- ln 2) <= exp (- ((IZR mL - 1) / 2 ^ 53))). { destruct (Rle_or_lt ((IZR mL - 1) / 2 ^ 53) (ln 2)) as [L|L]; [lra|]. assert (exp (- ((IZR mL - 1) / 2 ^ 53)) < exp (- ln 2)) by (apply exp_increasing; lra). lra. }
    rewrite exp_ln2. set (q := (2 ^ 53)%Z). set (p := (mL - 1)%Z).
    pose proof (exp_enclosure 12 p q 100 ltac:(reflexivity) ltac:(vm_compute; discriminate) ltac:(lia)) as [L _].
    assert (C : (2 ^ 100 <=? 2 * expLo 12 p q 100)%Z = true) by (vm_cast_no_check (eq_refl true)). apply Z.leb_le in C. apply IZR_le in C. rewrite mult_IZR in C.
    replace (IZR p / IZR q) with ((IZR mL - 1) / 2 ^ 53) in L by (unfold p, q; rewrite minus_IZR; replace (IZR (2 ^ 53)) with (2 ^ 53) by (cbn; lra); reflexivity).
    pose proof (IZR_pow2 100 ltac:(lia)). apply Rmult_le_reg_l with (IZR (2 ^ 100)); [assumption|]. lra.
Qed.
Lemma inv_log2_close : 1442695 / 1000000 <= val fpr_inv_log2 <= 1442696 / 1000000 /\ 1 - / 2 ^ 50 <= val fpr_inv_log2 * ln 2 <= 1 + / 2 ^ 50.
Proof.
  assert (E : 1442695 / 1000000 <= val fpr_inv_log2 <= 1442696 / 1000000) by (rewrite (proj2 inv_log2_val); unfold mI; replace (IZR (2 ^ 52)) with (2 ^ 52) by (cbn; lra); lra).
  split; [exact E|]. pose proof log2_close as L. assert (P : 1 - / 2 ^ 51 <= val fpr_inv_log2 * val fpr_log2 <= 1 + / 2 ^ 51).
  { rewrite (proj2 inv_log2_val), (proj2 log2_val). unfold mI, mL. replace (IZR (2 ^ 52)) with (2 ^ 52) by (cbn; lra). replace (IZR (2 ^ 53)) with (2 ^ 53) by (cbn; lra). lra. }
  set (a := val fpr_inv_log2) in *. set (b := val fpr_log2) in *. set (l := ln 2) in *. clearbody a b l. replace (a * l) with (a * b - a * (b - l)) by ring.
  assert (- (2 * / 2 ^ 53) <= a * (b - l) <= 2 * / 2 ^ 53); [|lra]. split; nra.
Qed.

(** * Range reduction *)
Definition prod (x : Z) : Z := fpr_mul x fpr_inv_log2.
Definition point (s y : Z) : bool := ((0 <=? y - 1) && (y <? 2 ^ 63) && (1 <=? fexp (y - 1)) && (fexp (y - 1) <=? 2046) && (fpr_trunc (prod (y - 1)) <? s))%Z.
Lemma reduce_points : forallb (fun s => point s (fpr_mul (fpr_of s) fpr_log2)) (map Z.of_nat (seq 1 63)) = true.
Proof. vm_compute. reflexivity. Qed.
Lemma reduce_point s : (1 <= s <= 63)%Z -> exists y, y = fpr_mul (fpr_of s) fpr_log2 /\ point s y = true.
Proof.
  intros Hs. exists (fpr_mul (fpr_of s) fpr_log2). split; [reflexivity|]. pose proof reduce_points as P. rewrite forallb_forall in P. apply P.
  replace s with (Z.of_nat (Z.to_nat s)) by lia. apply in_map, in_seq. lia.
Qed.
Lemma prod_ok x : usable x -> 0 <= val x <= 1000000 ->
  usable (prod x) /\ 0 <= val (prod x) /\ Rabs (val (prod x) - val x * val fpr_inv_log2) <= / 2 ^ 32 /\ (0 <= fpr_trunc (prod x) < 2 ^ 30)%Z /\
  IZR (fpr_trunc (prod x)) <= val (prod x) < IZR (fpr_trunc (prod x)) + 1.
Proof.
  intros U H. destruct (mul_rounded x fpr_inv_log2 U (proj1 inv_log2_val)) as [R _]. fold (prod x) in R. destruct inv_log2_close as [I _].
  assert (P : 0 <= val x * val fpr_inv_log2 <= 1500000) by (split; [apply Rmult_le_pos; lra|]; apply Rle_trans with (1000000 * (1442696 / 1000000)); [apply Rmult_le_compat; lra|lra]).
  destruct (rounded_err _ _ 21 R) as (Up & E & N & _); [rewrite Rabs_right by lra; rewrite p2_nat by lia; apply Rle_trans with 1500000; [lra|]; apply IZR_le; lia | lia |].
  specialize (N (proj1 P)). change (21 - 53)%Z with (- (32))%Z in E. rewrite p2_opp in E by lia. replace (IZR (2 ^ 32)) with (2 ^ 32) in E by (cbn; lra).
  pose proof (Rabs_bet _ _ E) as E'. destruct (trunc_ok (prod x) Up) as [T1 T2]; [rewrite Rabs_right by lra; rewrite p2_nat by lia; apply Rlt_le_trans with 2000000; [lra|]; apply IZR_le; lia|].
  rewrite (Rabs_right (val (prod x))) in T1 by lra. set (t := fpr_trunc (prod x)) in *.
  assert (T0 : (0 <= t)%Z).
  { destruct (Z_lt_ge_dec t 0) as [C|C]; [exfalso|lia]. assert (IZR t < 0) by (apply (IZR_lt _ 0); exact C). assert (1 <= IZR (Z.abs t)) by (apply (IZR_le 1); lia). nra. }
  rewrite Z.abs_eq in T1 by exact T0. split; [exact Up|]. split; [exact N|]. split; [exact E|]. split; [split; [exact T0|]|exact T1].
  apply Z.le_lt_trans with 2000000%Z; [apply le_IZR; lra | reflexivity].
Qed.
Lemma prod_mono x y : usable x -> usable y -> 0 <= val x -> val x < val y -> val y <= 1000000 -> (fpr_trunc (prod x) <= fpr_trunc (prod y))%Z.
Proof.
  intros Ux Uy P L B. destruct (prod_ok x Ux ltac:(lra)) as (_ & _ & _ & _ & Tx). destruct (prod_ok y Uy ltac:(lra)) as (_ & _ & _ & _ & Ty).
  destruct (mul_rounded x fpr_inv_log2 Ux (proj1 inv_log2_val)) as [Rx _]. destruct (mul_rounded y fpr_inv_log2 Uy (proj1 inv_log2_val)) as [Ry _]. fold (prod x) in Rx. fold (prod y) in Ry.
  destruct inv_log2_close as [I _]. assert (M : val (prod x) <= val (prod y)).
  { apply (rounded_mono _ _ _ _ Rx Ry); [apply Rmult_le_pos; lra | apply Rmult_lt_compat_r; lra |]. apply Rle_trans with (powerRZ 2 21); [|apply largest_big; lia].
    rewrite p2_nat by lia. apply Rle_trans with (1000000 * (1442696 / 1000000)); [apply Rmult_le_compat; lra|]. apply Rle_trans with 1500000; [lra|]. apply IZR_le. lia. }
  assert (fpr_trunc (prod x) < fpr_trunc (prod y) + 1)%Z; [|lia]. apply lt_IZR. rewrite plus_IZR. lra.
Qed.
(** the multiple of ln 2 that is subtracted never exceeds x *)
Lemma multiple_below x : usable x -> 0 <= val x <= 1000000 -> let s := fpr_trunc (prod x) in (1 <= s <= 63)%Z -> val (fpr_mul (fpr_of s) fpr_log2) <= val x.
Proof.
  intros U H s Hs. assert (Es : s = fpr_trunc (prod x)) by reflexivity. clearbody s. apply Rnot_lt_le. intros C. destruct (reduce_point s Hs) as (y & Ey0 & P). rewrite <- Ey0 in C. unfold point in P. rewrite !andb_true_iff in P. destruct P as ((((P1 & P2) & P3) & P4) & P5).
  assert (Uz : usable (y - 1)%Z) by (apply usable_check; rewrite !andb_true_iff; repeat split; lia).
  assert (Vs : val (fpr_of s) = IZR s) by (apply of_exact; lia). pose proof (of_exact s ltac:(lia)) as [_ Us].
  destruct (mul_rounded (fpr_of s) fpr_log2 Us (proj1 log2_val)) as [Ry _]. rewrite <- Ey0 in Ry. rewrite Vs in Ry. clear Ey0. pose proof log2_close as L. pose proof ln2_range as L2.
  assert (S0 : 1 <= IZR s <= 63) by (split; apply IZR_le; lia).
  destruct (rounded_err _ _ 6 Ry) as (Uy & Ey & _); [|lia|].
  { rewrite Rabs_right by (apply Rle_ge, Rmult_le_pos; lra). rewrite p2_nat by lia. change (IZR (2 ^ 6)) with 64. nra. }
  change (6 - 53)%Z with (- (47))%Z in Ey. rewrite p2_opp in Ey by lia. replace (IZR (2 ^ 47)) with (2 ^ 47) in Ey by (cbn; lra). apply Rabs_bet in Ey.
  assert (By : 0 < val y <= 64) by (split; nra).
  assert (Sz : fsign (y - 1) = 0%Z) by (unfold fsign; apply Z.div_small; lia). assert (Sy : fsign y = 0%Z) by (unfold fsign; apply Z.div_small; lia).
  destruct (usable_val (y - 1) Uz) as (_ & _ & _ & Xz & Vz & Az & _). destruct (usable_val y Uy) as (_ & _ & _ & Xy & Vy & Ay & _). destruct (usable_val x U) as (_ & Sx & _ & Xx & Vx & Ax & Zx).
  rewrite Sz in *. rewrite Sy in *. change (FprSpec.sgn 0) with 1 in *. rewrite Rmult_1_l in Vz, Vy.
  assert (Lz : val (y - 1) < val y). { rewrite Vz, Vy. apply aval_mono; try assumption. lia. }
  assert (T : (s <= fpr_trunc (prod (y - 1)))%Z); [|lia].
  destruct (Req_dec (val x) 0) as [Z0|NZ].
  { exfalso. destruct (prod_ok x U H) as (_ & _ & _ & _ & T). rewrite <- Es in T. destruct (mul_rounded x fpr_inv_log2 U (proj1 inv_log2_val)) as [R _]. fold (prod x) in R. rewrite Z0, Rmult_0_l in R.
    destruct (rounded_err _ _ 0 R) as (_ & _ & _ & Q); [rewrite Rabs_R0; apply Rlt_le, p2_pos | lia |]. specialize (Q eq_refl). lra. }
  assert (Sx0 : fsign x = 0%Z). { assert (D : fsign x = 0%Z \/ fsign x = 1%Z) by lia. destruct D as [D|D]; [exact D|]. rewrite D in Vx. change (FprSpec.sgn 1) with (-1) in Vx. exfalso. apply NZ.
    idtac. lra. }
  rewrite Sx0 in *. change (FprSpec.sgn 0) with 1 in *. rewrite Rmult_1_l in Vx.
  assert (Kxy : (FprMisc.kmag x < FprMisc.kmag y)%Z).
  { apply Z.nle_gt. intros K. destruct (Z.eq_dec (FprMisc.kmag x) (FprMisc.kmag y)) as [Q|Q]; [rewrite (aval_inj x y U Uy Q) in Vx; lra|]. pose proof (aval_mono y x Uy U ltac:(lia)). lra. }
  destruct (Z.eq_dec (FprMisc.kmag x) (FprMisc.kmag (y - 1))) as [Q|Q].
  - assert (Q' : (y - 1)%Z = x) by lia. exact (eq_ind_r (fun z => (s <= fpr_trunc (prod z))%Z) (Z.eq_le_incl _ _ Es) Q').
  - rewrite Es. apply prod_mono; try assumption; [lra| |lra]. rewrite Vx, Vz. apply aval_mono; try assumption. lia.
Qed.

(** * The threshold *)
Lemma saturate_ok s : (0 <= s < 2 ^ 31)%Z -> c_saturate s = Z.min s 63.
Proof.
  intros H. unfold c_saturate. cbv zeta. rewrite (w32_id s) by lia. rewrite neg32 by lia. assert (S : forall x, (0 <= x < 2 ^ 31)%Z -> s32 x = x) by (intros x Hx; unfold s32; rewrite Z.mod_small by lia; lia).
  destruct (Z.ltb_spec (63 - s) 0) as [L|L].
  - change (w32 (Z.opp 1)) with (2 ^ 32 - 1)%Z. rewrite land_low by lia.
    assert (B : (0 <= Z.lxor s 63 < 2 ^ 32)%Z).
    { split; [apply Z.lxor_nonneg; lia|]. destruct (Z.eq_dec (Z.lxor s 63) 0) as [->|N]; [reflexivity|]. apply Z.log2_lt_pow2; [assert (0 <= Z.lxor s 63)%Z by (apply Z.lxor_nonneg; lia); lia|].
      eapply Z.le_lt_trans; [apply Z.log2_lxor; lia|]. apply Z.max_lub_lt; [|reflexivity]. destruct (Z.eq_dec s 0) as [->|N0]; [reflexivity|]. apply Z.log2_lt_pow2; lia. }
    rewrite Z.mod_small by exact B. rewrite <- Z.lxor_assoc, Z.lxor_nilpotent, Z.lxor_0_l. rewrite S by lia. lia.
  - change (w32 (Z.opp 0)) with 0%Z. rewrite Z.land_0_r, Z.lxor_0_r, S by lia. lia.
Qed.
Lemma shift_top e : (0 <= Z.shiftr (w64 e) 63 <= 1)%Z.
Proof.
  pose proof (w64_range e) as W. rewrite shiftr_div by lia. split; [apply Z.div_pos; lia|]. assert (w64 e / 2 ^ 63 < 2)%Z; [|lia]. apply Z.div_lt_upper_bound; lia.
Qed.
Lemma c_threshold_range x ccs s : c_saturate (fst (c_reduce x)) = s -> (0 <= s)%Z -> (0 <= c_threshold x ccs < 2 ^ 64)%Z.
Proof.
  intros E S. unfold c_threshold. destruct (c_reduce x) as [t r]. cbn [fst] in E. rewrite E. set (a := w64 (Z.shiftl _ _)). clearbody a. pose proof (w64_range (a - 1)) as W.
  rewrite shiftr_div by exact S. assert (P : (0 < 2 ^ s)%Z) by (apply Z.pow_pos_nonneg; lia). split; [apply Z.div_pos; lia|]. apply Z.le_lt_trans with (w64 (a - 1)); [apply Z.div_le_upper_bound; [lia|]; nia | lia].
Qed.
(** the exact reduction: s = floor(x / ln 2), up to 2^-31, and the computed remainder r, never negative *)
Lemma reduce_ok x : usable x -> 0 <= val x <= 1000000 -> exists s r, c_reduce x = (s, r) /\ (0 <= s < 2 ^ 30)%Z /\
  - / 2 ^ 29 <= val x - IZR s * ln 2 < 6935 / 10000 /\
  ((s <= 63)%Z -> usable r /\ 0 <= val r < 6936 / 10000 /\ Rabs (val r - (val x - IZR s * ln 2)) <= IZR s * / 2 ^ 53 + (if (s =? 0)%Z then 0 else / 2 ^ 46)).
Proof.
  intros U H. unfold c_reduce. fold (prod x). destruct (prod_ok x U H) as (Up & P0 & Pe & T0 & T). set (t := fpr_trunc (prod x)) in *.
  assert (Es : s32 t = t) by (unfold s32; rewrite Z.mod_small by lia; lia). rewrite Es. exists t, (fpr_sub x (fpr_mul (fpr_of t) fpr_log2)). split; [reflexivity|]. split; [exact T0|].
  destruct inv_log2_close as [I1 I2]. pose proof ln2_range as L2. pose proof log2_close as LC. apply Rabs_bet in Pe.
  assert (T00 : 0 <= IZR t) by (apply IZR_le; lia).
  set (X := val x) in *. set (il := val fpr_inv_log2) in *.
  assert (Q : val x - IZR t * ln 2 = val x - IZR t * ln 2) by reflexivity.
  assert (XI : IZR t - / 2 ^ 32 <= X * il <= IZR t + 1 + / 2 ^ 32) by lra.
  assert (R1 : - / 2 ^ 29 <= X - IZR t * ln 2 < 6935 / 10000).
  { assert (XL : X * il * ln 2 = X * (il * ln 2)) by ring. assert (M1 : X * (1 - / 2 ^ 50) <= X * (il * ln 2)) by (apply Rmult_le_compat_l; lra). assert (M2 : X * (il * ln 2) <= X * (1 + / 2 ^ 50)) by (apply Rmult_le_compat_l; lra).
    rewrite <- XL in M1, M2. assert (N1 : (IZR t - / 2 ^ 32) * ln 2 <= X * il * ln 2) by (apply Rmult_le_compat_r; lra). assert (N2 : X * il * ln 2 <= (IZR t + 1 + / 2 ^ 32) * ln 2) by (apply Rmult_le_compat_r; lra).
    set (l := ln 2) in *. clearbody l. clear - M1 M2 N1 N2 H L2. split; lra. }
  split; [exact R1|]. intros L63.
  assert (T63 : 0 <= IZR t <= 63) by (split; [exact T00|apply IZR_le; lia]).
  pose proof (of_exact t ltac:(lia)) as [Vt Ut]. destruct (mul_rounded (fpr_of t) fpr_log2 Ut (proj1 log2_val)) as [Ry _]. rewrite Vt in Ry. set (lc := val fpr_log2) in *.
  assert (TL : 0 <= IZR t * lc <= 44) by (split; [apply Rmult_le_pos; lra|]; apply Rle_trans with (63 * (6932 / 10000)); [apply Rmult_le_compat; lra|lra]).
  destruct (rounded_err _ _ 6 Ry) as (Uy & Ey & _ & Zy); [rewrite Rabs_right by lra; rewrite p2_nat by lia; change (IZR (2 ^ 6)) with 64; lra | lia |].
  change (6 - 53)%Z with (- (47))%Z in Ey. rewrite p2_opp in Ey by lia. replace (IZR (2 ^ 47)) with (2 ^ 47) in Ey by (cbn; lra). apply Rabs_bet in Ey.
  set (y := fpr_mul (fpr_of t) fpr_log2) in *.
  destruct (sub_rounded x y U Uy) as [Rs _]. fold X in Rs.
  assert (Bel : val y <= X).
  { destruct (Z.eq_dec t 0) as [Z0|N0]; [rewrite Zy by (rewrite Z0; ring); lra|]. apply multiple_below; [exact U|exact H|]. fold t. lia. }
  assert (TC : - (IZR t * / 2 ^ 53) <= IZR t * lc - IZR t * ln 2 <= IZR t * / 2 ^ 53) by (pose proof (Rmult_le_compat_l _ _ _ T00 (proj1 LC)); pose proof (Rmult_le_compat_l _ _ _ T00 (proj2 LC)); split; lra).
  destruct (rounded_err _ _ 0 Rs) as (Ur & Er & Nr & _); [change (powerRZ 2 0) with 1; rewrite Rabs_right by lra; lra | lia |].
  change (0 - 53)%Z with (- (53))%Z in Er. rewrite p2_opp in Er by lia. replace (IZR (2 ^ 53)) with (2 ^ 53) in Er by (cbn; lra). apply Rabs_bet in Er. specialize (Nr ltac:(lra)).
  split; [exact Ur|]. split; [lra|]. apply Rabs_le. destruct (Z.eqb_spec t 0) as [Z0|N0].
  - assert (Y0 : val y = 0) by (apply Zy; rewrite Z0; ring). rewrite Y0, Rminus_0_r in *. rewrite Z0 in *. rewrite !Rmult_0_l in *.
    assert (Ex : val (fpr_sub x y) = X).
    { destruct (Rs ltac:(pose proof (largest_big 20 ltac:(lia)) as LB; rewrite p2_nat in LB by lia; change (IZR (2 ^ 20)) with 1048576 in LB; rewrite Rabs_right by lra; lra)) as (_ & Nn & Zn).
      destruct (Rle_or_lt smallest_normal (Rabs X)) as [C|C]; [|]. 
      - apply (nearest_exact _ _ x); [exact (Nn C) | | reflexivity]. destruct U as [[D _]|[-> | ->]]; [exact D| |]; (split; [split; [discriminate|reflexivity]|vm_compute; discriminate]).
      - rewrite (Zn C). destruct (normal_dec x) as [N|N]; [|destruct (zero_exp x U N) as (_ & _ & _ & V & _); fold X in V; lra].
        exfalso. pose proof N as [[R E2] E1]. destruct (usable_cases x U) as (_ & [[E V]|[E _]]); [|lia]. unfold X in C. rewrite V in C. rewrite !Rabs_mult, sgn_abs, Rmult_1_l, (Rabs_right (powerRZ 2 _)) in C by (left; apply p2_pos).
        rewrite <- abs_IZR, Z.abs_eq in C by (destruct (fields x R) as (_ & _ & M & _); lia).
        assert (smallest_normal <= IZR (2 ^ 52 + fmant x) * powerRZ 2 (fexp x - 1075)); [|lra]. unfold smallest_normal.
        apply Rle_trans with (IZR (2 ^ 52) * powerRZ 2 (-1074)); [rewrite p2_scale by lia; apply p2_mono; lia|].
        apply Rmult_le_compat; [apply IZR_le; lia | left; apply p2_pos | apply IZR_le; destruct (fields x R) as (_ & _ & M & _); lia | apply p2_mono; lia]. }
    rewrite Ex. lra.
  - lra.
Qed.
Lemma scale_abs c u B : 0 <= c <= 1 -> - B <= u <= B -> - B <= c * u <= B.
Proof. intros. split; nra. Qed.
Definition half_threshold (A s : Z) : Z := (Z.shiftr (w64 (w64 (Z.shiftl (A / 2) 1) - 1)) s)%Z.
Lemma numeric s zr zc X C vr : (0 <= s <= 63)%Z -> (0 <= zr < 2 ^ 63)%Z -> (0 <= zc < 2 ^ 63)%Z -> IZR zr <= vr * powerRZ 2 63 < IZR zr + 1 -> IZR zc <= C * powerRZ 2 63 < IZR zc + 1 ->
  0 <= X -> 1 / 2 <= C < 1 -> - / 2 ^ 29 <= X - IZR s * ln 2 < 6935 / 10000 -> 0 <= vr < 6936 / 10000 ->
  Rabs (vr - (X - IZR s * ln 2)) <= IZR s * / 2 ^ 53 + (if (s =? 0)%Z then 0 else / 2 ^ 46) -> (0 <= approxexp zr zc <= 2 * zc)%Z ->
  Rabs (IZR (half_threshold (approxexp zr zc) s) / 2 ^ 64 - C * exp (- X)) <= / 2 ^ 46.
Proof.
  intros S0 Bz Bc Vz Vc Hx Hc R1 Br Er AM. unfold half_threshold.
    rewrite p2_nat in Vz, Vc by lia. rewrite two63 in Vz, Vc. set (r' := IZR zr / 2 ^ 63). set (c' := IZR zc / 2 ^ 63).
    assert (Hr' : vr - / 2 ^ 63 <= r' <= vr) by (unfold r'; lra). assert (Hc' : C - / 2 ^ 63 <= c' <= C) by (unfold c'; lra).
    assert (Zr0 : 0 <= r') by (unfold r'; assert (0 <= IZR zr) by (apply IZR_le; lia); lra). assert (Zc0 : 0 <= c') by (unfold c'; assert (0 <= IZR zc) by (apply IZR_le; lia); lra).
    pose proof (approxexp_accurate zr zc ltac:(fold r'; lra) ltac:(fold c'; lra)) as AA. fold r' c' in AA. set (A := approxexp zr zc) in *. clearbody A.
    set (e := (A / 2)%Z).
    assert (He : (2 * e <= A <= 2 * e + 1)%Z) by (unfold e; pose proof (Z.div_mod A 2 ltac:(lia)); pose proof (Z.mod_pos_bound A 2 ltac:(lia)); lia). clearbody e.
    set (rho := X - IZR s * ln 2) in *. set (e' := exp (- r')) in *. set (er := exp (- rho)).
    assert (Pe' : 2 / 10 <= e' <= 1).
    { split.
      - apply Rle_trans with (exp (- (1))); [|apply exp_le_mono; lra]. pose proof (exp_opp_bounds 2 1 ltac:(lra)) as [L _]. cbn in L. lra.
      - rewrite <- exp_0. apply exp_le_mono. lra. }
    apply Rabs_bet in AA. assert (Ace : 9 / 100 <= c' * e' <= 1).
    { split; [apply Rle_trans with (45 / 100 * (2 / 10)); [lra | apply Rmult_le_compat; lra] | apply Rle_trans with (1 * 1); [apply Rmult_le_compat; lra | lra]]. }
    assert (C50 : c' * / 2 ^ 50 <= / 2 ^ 50) by lra.
    assert (E1 : (1 <= e)%Z).
    { assert (1 < A)%Z; [|lia]. apply lt_IZR. lra. }
    rewrite shiftl_mul by lia. change (2 ^ 1)%Z with 2%Z. rewrite (w64_id (e * 2)), (w64_id (e * 2 - 1)), shiftr_div by lia.
    pose proof (div_real (e * 2 - 1) s ltac:(lia) (proj1 S0)) as DR. set (T := ((e * 2 - 1) / 2 ^ s)%Z) in *. clearbody T. rewrite minus_IZR, mult_IZR in DR.
    set (S := IZR (2 ^ s)) in *. assert (HS : 1 <= S) by (unfold S; apply IZR_le; pose proof (Z.pow_pos_nonneg 2 s); lia).
    assert (IS : 0 < / S <= 1) by (split; [apply Rinv_0_lt_compat; lra|rewrite <- Rinv_1; apply Rinv_le_contravar; lra]).
    assert (EX : exp (- X) = er * / S).
    { unfold S, er. rewrite <- (Z2Nat.id s) by lia. rewrite pow2_exp, <- exp_plus. f_equal. rewrite Z2Nat.id by lia. unfold rho. ring. }
    rewrite EX. 
    set (b := if (s =? 0)%Z then 0 else / 2 ^ 46) in *.
    assert (Bb : 0 <= b <= / 2 ^ 46) by (unfold b; destruct (s =? 0)%Z; lra).
    assert (S63 : 0 <= IZR s <= 63) by (split; apply IZR_le; lia).
    apply Rabs_bet in Er.
    assert (Lip : Rabs (e' - er) <= 101 / 100 * (/ 2 ^ 63 + IZR s * / 2 ^ 53 + b)).
    { assert (Q : Rabs (r' - rho) <= / 2 ^ 63 + IZR s * / 2 ^ 53 + b) by (apply Rabs_le; lra).
      destruct (exp_lip r' rho ltac:(lra) ltac:(lra)) as [L|L]; fold e' er in L; lra. }
    assert (BS : (/ 2 ^ 63 + IZR s * / 2 ^ 53 + b) * / S <= / 2 ^ 47 + / 2 ^ 53).
    { unfold b. destruct (Z.eqb_spec s 0) as [Z0|N0].
      - rewrite Z0, Rmult_0_l. apply Rle_trans with ((/ 2 ^ 63 + 0 + 0) * 1); [apply Rmult_le_compat_l; lra | lra].
      - assert (P2 : (2 * s <= 2 ^ s)%Z). { pose proof (Z.pow_gt_lin_r 2 (s - 1) ltac:(lia) ltac:(lia)). replace s with (1 + (s - 1))%Z at 2 by lia. rewrite Z.pow_add_r by lia. lia. }
        assert (PS : 2 * IZR s <= S) by (unfold S; rewrite <- mult_IZR; apply IZR_le; exact P2). assert (s1 : 1 <= IZR s) by (apply IZR_le; lia).
        assert (I2 : / S <= / 2) by (apply Rinv_le_contravar; lra).
        assert (M : IZR s * / S <= / 2). { apply Rmult_le_reg_r with S; [lra|]. rewrite Rmult_assoc, Rinv_l by lra. lra. }
        replace ((/ 2 ^ 63 + IZR s * / 2 ^ 53 + / 2 ^ 46) * / S) with ((/ 2 ^ 63 + / 2 ^ 46) * / S + IZR s * / S * / 2 ^ 53) by ring.
        assert ((/ 2 ^ 63 + / 2 ^ 46) * / S <= (/ 2 ^ 63 + / 2 ^ 46) * / 2) by (apply Rmult_le_compat_l; lra). assert (IZR s * / S * / 2 ^ 53 <= / 2 * / 2 ^ 53) by (apply Rmult_le_compat_r; lra). lra. }
    set (B := / 2 ^ 63 + IZR s * / 2 ^ 53 + b) in *. clearbody B.
    assert (He1 : 2 * IZR e <= IZR A <= 2 * IZR e + 1) by (rewrite <- mult_IZR, <- plus_IZR; split; apply IZR_le; lia).
    (* the numerator: 2e - 1 against ccs exp(-rho) 2^64 *)
    assert (D : c' * e' - C * er = (c' - C) * e' + C * (e' - er)) by ring. apply Rabs_bet in Lip.
    assert (D1 : - / 2 ^ 63 <= (c' - C) * e' <= 0) by (split; nra). assert (B0 : 0 <= B) by lra.
    assert (D2 : - (101 / 100 * B) <= C * (e' - er) <= 101 / 100 * B) by (apply scale_abs; lra).
    set (n := (IZR e * 2 - 1) / 2 ^ 64) in *.
    assert (N : - (/ 2 ^ 50 + / 2 ^ 60 + 101 / 100 * B) <= n - C * er <= / 2 ^ 50 + / 2 ^ 60 + 101 / 100 * B) by (unfold n; split; lra).
    assert (NS : - (/ 2 ^ 50 + / 2 ^ 60 + 101 / 100 * (/ 2 ^ 47 + / 2 ^ 53)) <= (n - C * er) * / S <= / 2 ^ 50 + / 2 ^ 60 + 101 / 100 * (/ 2 ^ 47 + / 2 ^ 53)).
    { assert (K : (/ 2 ^ 50 + / 2 ^ 60 + 101 / 100 * B) * / S <= / 2 ^ 50 + / 2 ^ 60 + 101 / 100 * (/ 2 ^ 47 + / 2 ^ 53)).
      { replace ((/ 2 ^ 50 + / 2 ^ 60 + 101 / 100 * B) * / S) with ((/ 2 ^ 50 + / 2 ^ 60) * / S + 101 / 100 * (B * / S)) by ring.
        assert ((/ 2 ^ 50 + / 2 ^ 60) * / S <= (/ 2 ^ 50 + / 2 ^ 60) * 1) by (apply Rmult_le_compat_l; lra). lra. }
      assert (K1 : (n - C * er) * / S <= (/ 2 ^ 50 + / 2 ^ 60 + 101 / 100 * B) * / S) by (apply Rmult_le_compat_r; lra).
      assert (K2 : - (/ 2 ^ 50 + / 2 ^ 60 + 101 / 100 * B) * / S <= (n - C * er) * / S) by (apply Rmult_le_compat_r; lra). lra. }
    assert (DR' : n * / S - / 2 ^ 64 <= IZR T / 2 ^ 64 <= n * / S).
    { replace (n * / S) with ((IZR e * 2 - 1) / S / 2 ^ 64) by (unfold n; field; lra). lra. }
    rewrite Rmult_minus_distr_r in NS. rewrite <- Rmult_assoc. apply Rabs_le. lra.
Qed.
Theorem c_threshold_accurate x ccs : usable x -> usable ccs -> 0 <= val x <= 1000000 -> 1 / 2 <= val ccs < 1 ->
  (0 <= c_threshold x ccs < 2 ^ 64)%Z /\ Rabs (IZR (c_threshold x ccs) / 2 ^ 64 - val ccs * exp (- val x)) <= / 2 ^ 46.
Proof.
  intros Ux Uc Hx Hc. destruct (reduce_ok x Ux Hx) as (s & r & E & S0 & R1 & R2). pose proof (saturate_ok s ltac:(lia)) as ES.
  split; [apply (c_threshold_range x ccs (Z.min s 63)); [rewrite E; exact ES | lia]|].
  assert (T : c_threshold x ccs = Z.shiftr (w64 (w64 (Z.shiftl (fpr_expm_p63 r ccs) 1) - 1)) (Z.min s 63)) by (unfold c_threshold; rewrite E, ES; reflexivity).
  rewrite T. clear T E ES. destruct (Z.le_gt_cases s 63) as [L63|G63].
  - specialize (R2 L63). destruct R2 as (Ur & Br & Er). rewrite Z.min_l by exact L63.
    destruct (expm_ok r ccs Ur Uc ltac:(lra) ltac:(lra)) as [EM AM]. destruct (trunc63 r Ur ltac:(lra)) as [Bz Vz]. destruct (trunc63 ccs Uc ltac:(lra)) as [Bc Vc].
    rewrite EM. clear EM. set (zr := fpr_trunc (fpr_mul r fpr_ptwo63)) in *. set (zc := fpr_trunc (fpr_mul ccs fpr_ptwo63)) in *. clearbody zr zc.
    exact (numeric s zr zc (val x) (val ccs) (val r) (conj (proj1 S0) L63) Bz Bc Vz Vc (proj1 Hx) Hc R1 Br Er AM).
  - rewrite Z.min_r by lia. generalize (fpr_expm_p63 r ccs). intros e. pose proof (shift_top (w64 (Z.shiftl e 1) - 1)) as ST. set (T := Z.shiftr (w64 (w64 (Z.shiftl e 1) - 1)) 63) in *. clearbody T.
    assert (T1 : 0 <= IZR T <= 1) by (split; apply IZR_le; lia). pose proof ln2_range as L2.
    assert (X44 : 44 <= val x). { assert (64 <= IZR s) by (apply IZR_le; lia). nra. }
    assert (EX : 0 < exp (- val x) <= / 2 ^ 60).
    { split; [apply exp_pos|]. apply Rle_trans with (exp (- (INR 60 * ln 2))).
      - apply exp_le_mono. replace (INR 60) with 60 by (cbn; lra). lra.
      - rewrite Ropp_mult_distr_r, <- exp_pow, exp_ln2, pow_inv. lra. }
    assert (0 <= val ccs * exp (- val x) <= / 2 ^ 60) by (apply scale_le; lra). apply Rabs_le. lra.
Qed.
