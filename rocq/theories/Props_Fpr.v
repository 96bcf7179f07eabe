(** C91-C93: the floating-point numbers of the C implementation (falcon/nistfalcon/src/fpr.h, fpr.c) against IEEE-754 (FprSpec.v). *)
From Coq Require Import Reals Lra.
From Verif Require Import Base FprModel FprSpec FprBits FprRound FprMul FprAdd FprDiv FprConv FprMisc FprUnique.
Open Scope Z_scope.

(** ** C91: addition, subtraction, multiplication *)
Theorem C91_c_float_addition_is_correctly_rounded x y : usable x -> usable y ->
  rounded (val x + val y) (fpr_add x y) /\ ((Rabs (val x + val y) <= largest)%R -> sum_sign x y (fpr_add x y) (val x + val y)).
Proof. exact (add_rounded x y). Qed.
Theorem C91_c_float_subtraction_is_correctly_rounded x y : usable x -> usable y ->
  rounded (val x - val y) (fpr_sub x y) /\ ((Rabs (val x - val y) <= largest)%R -> sum_sign x (fpr_neg y) (fpr_sub x y) (val x - val y)).
Proof. exact (sub_rounded x y). Qed.
Theorem C91_c_float_negation_is_exact y : usable y -> usable (fpr_neg y) /\ val (fpr_neg y) = (- val y)%R /\ fsign (fpr_neg y) = 1 - fsign y.
Proof. exact (neg_ok y). Qed.
Theorem C91_c_float_multiplication_is_correctly_rounded x y : usable x -> usable y ->
  rounded (val x * val y) (fpr_mul x y) /\ ((Rabs (val x * val y) <= largest)%R -> fsign (fpr_mul x y) = Z.lxor (fsign x) (fsign y)).
Proof. exact (mul_rounded x y). Qed.
Theorem C91_c_float_square_is_correctly_rounded x : usable x -> rounded (val x * val x) (fpr_sqr x).
Proof. intros U. destruct (mul_rounded x x U U) as [R _]. exact R. Qed.
(** "the nearest number" names one bit pattern: any other correctly rounded implementation (Python's floats) answers the same 64 bits *)
Theorem C91_correct_rounding_is_unique r x y : nearest r x -> nearest r y -> val x <> 0%R -> x = y.
Proof.
  intros Hx Hy N. pose proof Hx as (Dx & _). pose proof Hy as (Dy & _). apply val_bits; try assumption. exact (nearest_unique r x y Hx Hy).
Qed.

(** 0.1 + 0.2 = 0.30000000000000004, 0.1 * 3 = 0.30000000000000004, 0.3 - 0.1 = 0.19999999999999998 *)
Definition d01 : Z := 4591870180066957722. Definition d02 : Z := 4596373779694328218. Definition d03 : Z := 4599075939470750515. Definition d3 : Z := 4613937818241073152.
Lemma usable_check x : (0 <=? x) && (x <? 2 ^ 64) && (1 <=? fexp x) && (fexp x <=? 2046) = true -> usable x.
Proof. intros H. rewrite !andb_true_iff in H. left. split; [split; lia | lia]. Qed.
Example C91_witness : usable d01 /\ usable d02 /\ usable d03 /\ usable d3 /\
  fpr_add d01 d02 = 4599075939470750516 /\ fpr_mul d01 d3 = 4599075939470750516 /\ fpr_sub d03 d01 = 4596373779694328217 /\
  fpr_add d01 (fpr_neg d01) = 0 /\ fpr_add (2 ^ 63) (2 ^ 63) = 2 ^ 63 /\ fpr_mul (fpr_neg d3) 0 = 2 ^ 63.
Proof. repeat (split; [apply usable_check; vm_compute; reflexivity|]). repeat split; vm_compute; reflexivity. Qed.

(** ** C92: division, inverse and square root *)
Theorem C92_c_float_division_is_correctly_rounded x y : usable x -> normal y ->
  rounded (val x / val y) (fpr_div x y) /\
  ((Rabs (val x / val y) <= largest)%R -> fsign (fpr_div x y) = if fexp x =? 0 then 0 else Z.lxor (fsign x) (fsign y)).
Proof. exact (div_rounded x y). Qed.
Lemma one_val : usable fpr_one /\ val fpr_one = 1%R.
Proof.
  split; [apply usable_check; vm_compute; reflexivity|].
  rewrite (exact_value fpr_one 0 1023 0) by (try (vm_compute; reflexivity); lia). unfold sgn. change (0 =? 1) with false. cbv iota. change (1023 - 1075) with (- (52)).
  rewrite Z.add_0_r, <- (p2_nat 52), Rmult_1_l by lia. rewrite <- p2_add, Z.add_opp_diag_r. reflexivity.
Qed.
Theorem C92_c_float_inverse_is_correctly_rounded y : normal y -> rounded (/ val y) (fpr_inv y).
Proof.
  intros N. destruct one_val as [U1 V1]. destruct (div_rounded fpr_one y U1 N) as [R _]. rewrite V1 in R. unfold Rdiv in R. rewrite Rmult_1_l in R. exact R.
Qed.
Theorem C92_c_float_square_root_is_correctly_rounded x : usable x -> fsign x = 0 -> rounded (sqrt (val x)) (fpr_sqrt x) /\ fsign (fpr_sqrt x) = 0.
Proof. exact (sqrt_rounded x). Qed.
(** 1/3, sqrt 2, 0.1/3, sqrt 0 *)
Example C92_witness : normal d3 /\ fpr_inv d3 = 4599676419421066581 /\ fpr_div d01 d3 = 4584964660638322961 /\ fpr_sqrt fpr_two = 4609047870845172685 /\
  fpr_sqrt 0 = 0 /\ fpr_div (2 ^ 63) d3 = 0.
Proof.
  split; [split; [split; [split|]|]; vm_compute; congruence|]. repeat split; vm_compute; reflexivity.
Qed.

(** ** C93: conversions, comparison, halving, doubling and constants *)
Theorem C93_c_integer_to_float_is_correctly_rounded i sc : - 2 ^ 63 < i < 2 ^ 63 -> - 2 ^ 20 <= sc <= 2 ^ 20 ->
  rounded (IZR i * powerRZ 2 sc) (fpr_scaled i sc) /\
  ((Rabs (IZR i * powerRZ 2 sc) <= largest)%R -> fsign (fpr_scaled i sc) = if i <? 0 then 1 else 0).
Proof. exact (scaled_rounded i sc). Qed.
Theorem C93_c_integer_of_53_bits_converts_exactly i : Z.abs i <= 2 ^ 53 -> val (fpr_of i) = IZR i /\ usable (fpr_of i).
Proof. exact (of_exact i). Qed.
Theorem C93_c_truncation x : usable x -> (Rabs (val x) < powerRZ 2 63)%R ->
  (IZR (Z.abs (fpr_trunc x)) <= Rabs (val x) < IZR (Z.abs (fpr_trunc x)) + 1)%R /\ (0 <= IZR (fpr_trunc x) * val x)%R.
Proof. exact (trunc_ok x). Qed.
Theorem C93_c_floor x : usable x -> x <> 2 ^ 63 -> (Rabs (val x) < powerRZ 2 63)%R -> (IZR (fpr_floor x) <= val x < IZR (fpr_floor x) + 1)%R.
Proof. exact (floor_ok x). Qed.
(** the excluded input: the floor of -0 comes out as -1 *)
Theorem C93_c_floor_of_minus_zero : val (2 ^ 63) = 0%R /\ fpr_floor (2 ^ 63) = -1.
Proof. exact floor_minus_zero. Qed.
Theorem C93_c_round_to_integer x : usable x -> (Rabs (val x) < powerRZ 2 63)%R ->
  (Rabs (IZR (fpr_rint x) - val x) <= / 2)%R /\ (Rabs (IZR (fpr_rint x) - val x) = (/ 2)%R -> Z.even (fpr_rint x) = true).
Proof. exact (rint_ok x). Qed.
Theorem C93_c_comparison x y : usable x -> usable y -> (val x <> 0%R \/ val y <> 0%R) -> fpr_lt x y = if Rlt_dec (val x) (val y) then 1 else 0.
Proof. exact (lt_ok x y). Qed.
(** on zeros, -0 < +0 is answered *)
Theorem C93_c_comparison_of_zeros : fpr_lt (2 ^ 63) 0 = 1 /\ fpr_lt 0 (2 ^ 63) = 0 /\ fpr_lt 0 0 = 0 /\ fpr_lt (2 ^ 63) (2 ^ 63) = 0.
Proof. exact lt_zeros. Qed.
Theorem C93_c_halving x : usable x -> val x = 0%R \/ 2 <= fexp x -> usable (fpr_half x) /\ val (fpr_half x) = (val x / 2)%R.
Proof. exact (half_ok x). Qed.
Theorem C93_c_doubling x : usable x -> fexp x <= 2045 -> usable (fpr_double x) /\ val (fpr_double x) = (2 * val x)%R /\ fsign (fpr_double x) = fsign x.
Proof. exact (double_ok x). Qed.

(** constants: an exact power of two times a small integer *)
Lemma const_exact x e M k n : usable x -> fsign x = 0 -> fexp x = e -> fmant x = M -> e <> 0 -> 0 <= k -> 2 ^ 52 + M = n * 2 ^ k -> e - 1075 + k = 0 -> val x = IZR n.
Proof.
  intros U S E M0 N K A B. rewrite (exact_value x 0 e M S E M0 N). unfold sgn. change (0 =? 1) with false. cbv iota. rewrite A, mult_IZR, <- (p2_nat k) by assumption.
  rewrite Rmult_1_l, Rmult_assoc, <- p2_add. replace (k + (e - 1075)) with 0 by lia. change (powerRZ 2 0) with 1%R. ring.
Qed.
Theorem C93_c_exact_constants : val fpr_q = 12289%R /\ val fpr_one = 1%R /\ val fpr_two = 2%R /\ val fpr_onehalf = (/ 2)%R /\
  val fpr_ptwo31 = IZR (2 ^ 31) /\ val fpr_ptwo31m1 = IZR (2 ^ 31 - 1) /\ val fpr_mtwo31m1 = IZR (- (2 ^ 31 - 1)) /\ val fpr_ptwo63 = IZR (2 ^ 63) /\
  (forall i, 0 <= i < 11 -> val (nth (Z.to_nat i) fpr_p2_tab 0) = powerRZ 2 (1 - i)).
Proof.
  assert (P : forall x e, fsign x = 0 -> fexp x = e -> fmant x = 0 -> e <> 0 -> val x = powerRZ 2 (e - 1023)).
  { intros x e S E M N. rewrite (exact_value x 0 e 0 S E M N). unfold sgn. change (0 =? 1) with false. cbv iota. rewrite Z.add_0_r, Rmult_1_l, <- (p2_nat 52) by lia. rewrite <- p2_add. f_equal. lia. }
  split; [apply (const_exact _ 1036 2252349569499136 39 12289); (apply usable_check; vm_compute; reflexivity) || (vm_compute; congruence) || (vm_compute; reflexivity)|].
  split; [exact (proj2 one_val)|].
  split; [rewrite (P fpr_two 1024) by (try (vm_compute; reflexivity); lia); change (1024 - 1023) with 1; rewrite (p2_nat 1) by lia; reflexivity|].
  split; [rewrite (P fpr_onehalf 1022) by (try (vm_compute; reflexivity); lia); change (1022 - 1023) with (-1); change (powerRZ 2 (-1)) with (/ (2 * 1))%R; f_equal; ring|].
  split; [rewrite (P fpr_ptwo31 1054) by (try (vm_compute; reflexivity); lia); change (1054 - 1023) with 31; apply p2_nat; lia|].
  split; [apply (const_exact _ 1053 4503599623176192 22 (2 ^ 31 - 1)); (apply usable_check; vm_compute; reflexivity) || (vm_compute; congruence) || (vm_compute; reflexivity)|].
  split.
  { assert (E : val fpr_mtwo31m1 = (- val fpr_ptwo31m1)%R).
    { assert (U : usable fpr_ptwo31m1) by (apply usable_check; vm_compute; reflexivity). destruct (neg_ok fpr_ptwo31m1 U) as (_ & V & _). rewrite <- V.
      reflexivity. }
    rewrite E, opp_IZR. f_equal. apply (const_exact _ 1053 4503599623176192 22 (2 ^ 31 - 1)); (apply usable_check; vm_compute; reflexivity) || (vm_compute; congruence) || (vm_compute; reflexivity). }
  split; [rewrite (P fpr_ptwo63 1086) by (try (vm_compute; reflexivity); lia); change (1086 - 1023) with 63; apply p2_nat; lia|].
  intros i H. assert (C : fsign (nth (Z.to_nat i) fpr_p2_tab 0) = 0 /\ fexp (nth (Z.to_nat i) fpr_p2_tab 0) = 1024 - i /\ fmant (nth (Z.to_nat i) fpr_p2_tab 0) = 0).
  { assert (K : i = 0 \/ i = 1 \/ i = 2 \/ i = 3 \/ i = 4 \/ i = 5 \/ i = 6 \/ i = 7 \/ i = 8 \/ i = 9 \/ i = 10) by lia.
    repeat (destruct K as [-> | K]; [vm_compute; repeat split; reflexivity|]). subst i. vm_compute. repeat split; reflexivity. }
  destruct C as (C1 & C2 & C3). rewrite (P _ (1024 - i) C1 C2 C3) by lia. f_equal. lia.
Qed.
(** 2^63 - 1 does not fit in 53 bits: the constants named for it hold +-2^63 *)
Theorem C93_c_constants_for_2_63_minus_1 : fpr_ptwo63m1 = fpr_ptwo63 /\ fpr_mtwo63m1 = fpr_neg fpr_ptwo63.
Proof. split; vm_compute; reflexivity. Qed.
(** 1/q, 1/(2 * 1.8205^2), 1.17^2 q, 1/sqrt 2, 1/sqrt 8: the nearest double *)
Lemma near_ratio x E M p q : x = E * 2 ^ 52 + (M - 2 ^ 52) -> 1 <= E <= 1075 -> 2 ^ 52 < M < 2 ^ 53 -> 0 < q -> 2 * Z.abs (M * q - p * 2 ^ (1075 - E)) < q -> nearest (IZR p / IZR q) x.
Proof.
  intros X HE HM Q A. apply (near_const x E M); try assumption; [lia|]. rewrite (p2_nat (1075 - E)) by lia. assert (QR : (0 < IZR q)%R) by (apply IZR_lt; lia).
  apply IZR_lt in A. rewrite mult_IZR, abs_IZR, minus_IZR, !mult_IZR in A. set (T := IZR (2 ^ (1075 - E))) in *. clearbody T.
  replace (IZR M - IZR p / IZR q * T)%R with ((IZR M * IZR q - IZR p * T) / IZR q)%R by (field; lra). unfold Rdiv. rewrite Rabs_mult, (Rabs_right (/ IZR q)) by (left; apply Rinv_0_lt_compat; assumption).
  apply Rmult_lt_reg_r with (IZR q); [assumption|]. rewrite Rmult_assoc, Rinv_l by lra. lra.
Qed.
Lemma near_sqrt x E M p q : x = E * 2 ^ 52 + (M - 2 ^ 52) -> 1 <= E <= 1075 -> 2 ^ 52 < M < 2 ^ 53 -> 0 < q -> 0 < p ->
  (2 * M - 1) * (2 * M - 1) * q < 4 * p * 2 ^ (1075 - E) * 2 ^ (1075 - E) < (2 * M + 1) * (2 * M + 1) * q -> nearest (sqrt (IZR p / IZR q)) x.
Proof.
  intros X HE HM Q P [A B]. apply (near_const x E M); try assumption; [lia|]. rewrite (p2_nat (1075 - E)) by lia. assert (QR : (0 < IZR q)%R) by (apply IZR_lt; lia). assert (PR : (0 < IZR p)%R) by (apply IZR_lt; lia).
  assert (T0 : (0 < IZR (2 ^ (1075 - E)))%R) by (apply IZR_lt, Z.pow_pos_nonneg; lia).
  apply IZR_lt in A. apply IZR_lt in B. rewrite !mult_IZR in A, B. rewrite minus_IZR, mult_IZR in A. rewrite plus_IZR, mult_IZR in B.
  assert (M0 : (1 <= IZR M)%R) by (apply (IZR_le 1); lia). set (T := IZR (2 ^ (1075 - E))) in *. clearbody T. set (s := sqrt (IZR p / IZR q)).
  assert (S0 : (0 <= s)%R) by apply sqrt_pos. assert (SS : (s * s = IZR p / IZR q)%R) by (apply sqrt_sqrt; left; apply Rdiv_lt_0_compat; assumption).
  assert (SQ : (s * s * IZR q = IZR p)%R) by (rewrite SS; field; lra). clearbody s. set (u := (s * T)%R). assert (U0 : (0 <= u)%R) by (apply Rmult_le_pos; lra).
  assert (UU : (u * u * IZR q = IZR p * T * T)%R) by (subst u; rewrite <- SQ; ring). clearbody u.
  assert (L : (2 * IZR M - 1 < 2 * u)%R).
  { apply Rnot_le_lt. intros C. assert ((2 * u) * (2 * u) <= (2 * IZR M - 1) * (2 * IZR M - 1))%R by (apply Rmult_le_compat; lra).
    assert ((2 * u) * (2 * u) * IZR q <= (2 * IZR M - 1) * (2 * IZR M - 1) * IZR q)%R by (apply Rmult_le_compat_r; lra). lra. }
  assert (G : (2 * u < 2 * IZR M + 1)%R).
  { apply Rnot_le_lt. intros C. assert ((2 * IZR M + 1) * (2 * IZR M + 1) <= (2 * u) * (2 * u))%R by (apply Rmult_le_compat; lra).
    assert ((2 * IZR M + 1) * (2 * IZR M + 1) * IZR q <= (2 * u) * (2 * u) * IZR q)%R by (apply Rmult_le_compat_r; lra). lra. }
  apply Rabs_def1; lra.
Qed.
Theorem C93_c_rounded_constants : nearest (/ 12289) fpr_inverse_of_q /\ nearest (1 / (2 * ((18205 / 10000) * (18205 / 10000)))) fpr_inv_2sqrsigma0 /\
  nearest ((117 / 100) * (117 / 100) * 12289) fpr_bnorm_max /\ nearest (sqrt (/ 2)) fpr_invsqrt2 /\ nearest (sqrt (/ 8)) fpr_invsqrt8.
Proof.
  split; [|split; [|split; [|split]]].
  - replace (/ 12289)%R with (1 / 12289)%R by field. apply (near_ratio _ (fpr_inverse_of_q / 2 ^ 52) (2 ^ 52 + fpr_inverse_of_q mod 2 ^ 52)); vm_compute; (reflexivity || (split; congruence) || (split; reflexivity)).
  - replace (1 / (2 * (18205 / 10000 * (18205 / 10000))))%R with (IZR (10000 * 10000) / IZR (2 * 18205 * 18205))%R by (rewrite !mult_IZR; field).
    apply (near_ratio _ (fpr_inv_2sqrsigma0 / 2 ^ 52) (2 ^ 52 + fpr_inv_2sqrsigma0 mod 2 ^ 52)); vm_compute; (reflexivity || (split; congruence) || (split; reflexivity)).
  - replace (117 / 100 * (117 / 100) * 12289)%R with (IZR (117 * 117 * 12289) / IZR (100 * 100))%R by (rewrite !mult_IZR; field).
    apply (near_ratio _ (fpr_bnorm_max / 2 ^ 52) (2 ^ 52 + fpr_bnorm_max mod 2 ^ 52)); vm_compute; (reflexivity || (split; congruence) || (split; reflexivity)).
  - replace (/ 2)%R with (1 / 2)%R by field. apply (near_sqrt _ (fpr_invsqrt2 / 2 ^ 52) (2 ^ 52 + fpr_invsqrt2 mod 2 ^ 52)); vm_compute; (reflexivity || (split; congruence) || (split; reflexivity)).
  - replace (/ 8)%R with (1 / 8)%R by field. apply (near_sqrt _ (fpr_invsqrt8 / 2 ^ 52) (2 ^ 52 + fpr_invsqrt8 mod 2 ^ 52)); vm_compute; (reflexivity || (split; congruence) || (split; reflexivity)).
Qed.
(** -2.5 truncates to -2, floors to -3, rounds to -2 (tie to even); 3.5 rounds to 4 *)
Example C93_witness : usable 13836183955189006336 /\ fpr_trunc 13836183955189006336 = -2 /\ fpr_floor 13836183955189006336 = -3 /\ fpr_rint 13836183955189006336 = -2 /\
  fpr_rint 4615063718147915776 = 4 /\ fpr_of (-12289) = fpr_neg fpr_q /\ fpr_of (2 ^ 53 + 1) = fpr_of (2 ^ 53) /\ fpr_lt 13836183955189006336 fpr_one = 1 /\
  fpr_half fpr_two = fpr_one /\ fpr_double fpr_onehalf = fpr_one.
Proof. split; [apply usable_check; vm_compute; reflexivity|]. repeat split; vm_compute; reflexivity. Qed.
