(** Bit-level facts about the constant-time idioms of fpr.c. *)
From Verif Require Import Base FprModel FprSpec.

Lemma w64_id x : 0 <= x < 2 ^ 64 -> w64 x = x. Proof. intros. apply Z.mod_small. assumption. Qed.
Lemma w32_id x : 0 <= x < 2 ^ 32 -> w32 x = x. Proof. intros. apply Z.mod_small. assumption. Qed.
Lemma w64_range x : 0 <= w64 x < 2 ^ 64. Proof. apply Z.mod_pos_bound. reflexivity. Qed.
Lemma w32_range x : 0 <= w32 x < 2 ^ 32. Proof. apply Z.mod_pos_bound. reflexivity. Qed.
Lemma s64_id x : - 2 ^ 63 <= x < 2 ^ 63 -> s64 x = x. Proof. intros. unfold s64. rewrite Z.mod_small; lia. Qed.
Lemma pow_split a b : 0 <= a -> 0 <= b -> 2 ^ (a + b) = 2 ^ a * 2 ^ b. Proof. intros. apply Z.pow_add_r; assumption. Qed.
Lemma ones_m1 k : 0 <= k -> 2 ^ k - 1 = Z.ones k.
Proof. intros. rewrite Z.ones_equiv. lia. Qed.
Lemma land_low x k : 0 <= k -> Z.land x (2 ^ k - 1) = x mod 2 ^ k.
Proof. intros. rewrite ones_m1 by assumption. apply Z.land_ones. assumption. Qed.
Lemma land_mask1 x : 0 <= x < 2 ^ 64 -> Z.land x (w64 (-1)) = x.
Proof. intros H. change (w64 (-1)) with (2 ^ 64 - 1). rewrite land_low by lia. apply Z.mod_small. assumption. Qed.
Lemma mask_neg x b : 0 <= x < 2 ^ 64 -> 0 <= b <= 1 -> Z.land x (w64 (- b)) = if b =? 1 then x else 0.
Proof.
  intros H Hb. assert (E : b = 0 \/ b = 1) by lia. destruct E as [-> | ->].
  - apply Z.land_0_r.
  - apply land_mask1. assumption.
Qed.
Lemma mask_neg_int x b : 0 <= b <= 1 -> Z.land x (- b) = if b =? 1 then x else 0.
Proof.
  intros Hb. assert (E : b = 0 \/ b = 1) by lia. destruct E as [-> | ->].
  - apply Z.land_0_r.
  - apply Z.land_m1_r.
Qed.
Lemma mask_pred x b : 0 <= x < 2 ^ 64 -> 0 <= b <= 1 -> Z.land x (w64 (b - 1)) = if b =? 1 then 0 else x.
Proof.
  intros H Hb. assert (E : b = 0 \/ b = 1) by lia. destruct E as [-> | ->].
  - apply land_mask1. assumption.
  - apply Z.land_0_r.
Qed.
Lemma lxor_select x y (c : bool) : Z.lxor x (if c then Z.lxor x y else 0) = if c then y else x.
Proof.
  destruct c; [|apply Z.lxor_0_r]. rewrite <- Z.lxor_assoc, Z.lxor_nilpotent. apply Z.lxor_0_l.
Qed.
Lemma range_bits x k : 0 <= k -> 0 <= x -> (forall i, k <= i -> Z.testbit x i = false) -> x < 2 ^ k.
Proof.
  intros Hk Hx H. destruct (Z.eq_dec x 0) as [->|N]; [apply Z.pow_pos_nonneg; lia|].
  apply Z.log2_lt_pow2; [lia|]. apply Z.nle_gt. intros L. specialize (H _ L). rewrite Z.bit_log2 in H; [discriminate H | lia].
Qed.
Lemma bits_above x k i : 0 <= x < 2 ^ k -> k <= i -> Z.testbit x i = false.
Proof.
  intros H L. destruct (Z.eq_dec x 0) as [->|N]; [apply Z.testbit_0_l|].
  apply Z.bits_above_log2; [lia|]. apply Z.lt_le_trans with k; [|assumption]. apply Z.log2_lt_pow2; lia.
Qed.
Lemma lxor_range x y k : 0 <= k -> 0 <= x < 2 ^ k -> 0 <= y < 2 ^ k -> 0 <= Z.lxor x y < 2 ^ k.
Proof.
  intros Hk Hx Hy. assert (0 <= Z.lxor x y) by (apply Z.lxor_nonneg; lia). split; [assumption|].
  apply range_bits; try assumption. intros i Hi. rewrite Z.lxor_spec, (bits_above x k), (bits_above y k) by assumption. reflexivity.
Qed.
Lemma lor_range x y k : 0 <= k -> 0 <= x < 2 ^ k -> 0 <= y < 2 ^ k -> 0 <= Z.lor x y < 2 ^ k.
Proof.
  intros Hk Hx Hy. assert (0 <= Z.lor x y) by (apply Z.lor_nonneg; lia). split; [assumption|].
  apply range_bits; try assumption. intros i Hi. rewrite Z.lor_spec, (bits_above x k), (bits_above y k) by assumption. reflexivity.
Qed.
Lemma shiftr_div x k : 0 <= k -> Z.shiftr x k = x / 2 ^ k. Proof. intros. apply Z.shiftr_div_pow2. assumption. Qed.
Lemma shiftl_mul x k : 0 <= k -> Z.shiftl x k = x * 2 ^ k. Proof. intros. apply Z.shiftl_mul_pow2. assumption. Qed.
Lemma div_range x k j : 0 <= k -> 0 <= j -> 0 <= x < 2 ^ (k + j) -> 0 <= x / 2 ^ k < 2 ^ j.
Proof.
  intros Hk Hj H. rewrite pow_split in H by assumption. assert (0 < 2 ^ k) by (apply Z.pow_pos_nonneg; lia).
  split; [apply Z.div_pos; lia | apply Z.div_lt_upper_bound; lia].
Qed.
(** a or b with no common bit *)
Lemma lor_add a b k : 0 <= k -> 0 <= b < 2 ^ k -> Z.lor (a * 2 ^ k) b = a * 2 ^ k + b.
Proof.
  intros Hk Hb.
  assert (E : Z.land (a * 2 ^ k) b = 0).
  { apply Z.bits_inj'. intros i Hi. rewrite Z.land_spec, Z.bits_0.
    destruct (Z.lt_ge_cases i k) as [L|L].
    - rewrite Z.mul_pow2_bits_low by assumption. reflexivity.
    - rewrite (bits_above b k i) by assumption. apply andb_false_r. }
  rewrite Z.add_nocarry_lxor by exact E. symmetry. apply Z.lxor_lor. exact E.
Qed.
(** the sign bit of a 32-bit int *)
Lemma neg32 e : - 2 ^ 31 <= e < 2 ^ 31 -> Z.shiftr (w32 e) 31 = if e <? 0 then 1 else 0.
Proof.
  intros H. rewrite shiftr_div by lia. unfold w32. destruct (Z.ltb_spec e 0) as [L|L].
  - replace (e mod 2 ^ 32) with (e + 2 ^ 32) by (apply Z.mod_unique_pos with (q := -1); lia).
    symmetry. apply Z.div_unique_pos with (r := e + 2 ^ 31); lia.
  - rewrite Z.mod_small by lia. apply Z.div_small. lia.
Qed.
Lemma neg64 e : - 2 ^ 63 <= e < 2 ^ 63 -> Z.shiftr (w64 e) 63 = if e <? 0 then 1 else 0.
Proof.
  intros H. rewrite shiftr_div by lia. unfold w64. destruct (Z.ltb_spec e 0) as [L|L].
  - replace (e mod 2 ^ 64) with (e + 2 ^ 64) by (apply Z.mod_unique_pos with (q := -1); lia).
    symmetry. apply Z.div_unique_pos with (r := e + 2 ^ 63); lia.
  - rewrite Z.mod_small by lia. apply Z.div_small. lia.
Qed.
Lemma top_bit_or x y k : 0 <= k -> 0 <= x < 2 ^ (k + 1) -> 0 <= y < 2 ^ (k + 1) ->
  Z.lor x y / 2 ^ k = if (x / 2 ^ k =? 1) || (y / 2 ^ k =? 1) then 1 else 0.
Proof.
  intros Hk Hx Hy. rewrite <- !shiftr_div by assumption. rewrite Z.shiftr_lor, !shiftr_div by assumption.
  pose proof (div_range x k 1 Hk ltac:(lia) Hx) as A. pose proof (div_range y k 1 Hk ltac:(lia) Hy) as B. change (2 ^ 1) with 2 in *.
  assert (E : x / 2 ^ k = 0 \/ x / 2 ^ k = 1) by lia. assert (E' : y / 2 ^ k = 0 \/ y / 2 ^ k = 1) by lia.
  destruct E as [-> | ->], E' as [-> | ->]; reflexivity.
Qed.
(** (x | -x) >> (w-1): x is not zero *)
Lemma nonzero32 x : 0 <= x < 2 ^ 32 -> Z.shiftr (Z.lor x (w32 (- x))) 31 = if x =? 0 then 0 else 1.
Proof.
  intros H. rewrite shiftr_div by lia. rewrite top_bit_or; [|lia|assumption|apply w32_range].
  destruct (Z.eqb_spec x 0) as [->|N]; [reflexivity|].
  unfold w32. replace (- x mod 2 ^ 32) with (2 ^ 32 - x) by (apply Z.mod_unique_pos with (q := -1); lia).
  destruct (Z.lt_ge_cases x (2 ^ 31)) as [L|L].
  - replace ((2 ^ 32 - x) / 2 ^ 31) with 1 by (apply Z.div_unique_pos with (r := 2 ^ 31 - x); lia). rewrite orb_true_r. reflexivity.
  - replace (x / 2 ^ 31) with 1 by (apply Z.div_unique_pos with (r := x - 2 ^ 31); lia). reflexivity.
Qed.
Lemma nonzero64 x : 0 <= x < 2 ^ 64 -> Z.shiftr (Z.lor x (w64 (- x))) 63 = if x =? 0 then 0 else 1.
Proof.
  intros H. rewrite shiftr_div by lia. rewrite top_bit_or; [|lia|assumption|apply w64_range].
  destruct (Z.eqb_spec x 0) as [->|N]; [reflexivity|].
  unfold w64. replace (- x mod 2 ^ 64) with (2 ^ 64 - x) by (apply Z.mod_unique_pos with (q := -1); lia).
  destruct (Z.lt_ge_cases x (2 ^ 63)) as [L|L].
  - replace ((2 ^ 64 - x) / 2 ^ 63) with 1 by (apply Z.div_unique_pos with (r := 2 ^ 63 - x); lia). rewrite orb_true_r. reflexivity.
  - replace (x / 2 ^ 63) with 1 by (apply Z.div_unique_pos with (r := x - 2 ^ 63); lia). reflexivity.
Qed.
Lemma bit_range (c : bool) : 0 <= (if c then 1 else 0) <= 1. Proof. destruct c; lia. Qed.
Lemma eqb_bit (c : bool) : ((if c then 1 else 0) =? 1) = c. Proof. destruct c; reflexivity. Qed.
Lemma eqb_bit' (c : bool) : ((if c then 0 else 1) =? 1) = negb c. Proof. destruct c; reflexivity. Qed.

Lemma shift_count n : 0 <= n < 64 -> (n / 32 = 0 /\ Z.land n 31 = n) \/ (n / 32 = 1 /\ Z.land n 31 = n - 32 /\ 32 <= n).
Proof.
  intros H. change 31 with (2 ^ 5 - 1). rewrite land_low by lia. change (2 ^ 5) with 32.
  destruct (Z.lt_ge_cases n 32) as [L|L]; [left | right]; repeat split.
  - apply Z.div_small. lia.
  - apply Z.mod_small. lia.
  - symmetry. apply Z.div_unique_pos with (r := n - 32); lia.
  - symmetry. apply Z.mod_unique_pos with (q := 1); lia.
  - exact L.
Qed.
Lemma ursh_ok x n : 0 <= x < 2 ^ 64 -> 0 <= n < 64 -> fpr_ursh x n = x / 2 ^ n.
Proof.
  intros Hx Hn. unfold fpr_ursh. cbv zeta. rewrite (shiftr_div n 5) by lia. change (2 ^ 5) with 32.
  assert (R : 0 <= Z.lxor x (Z.shiftr x 32) < 2 ^ 64).
  { apply lxor_range; [lia|assumption|]. rewrite shiftr_div by lia. pose proof (div_range x 32 32 ltac:(lia) ltac:(lia) Hx). lia. }
  destruct (shift_count n Hn) as [[-> ->]|(-> & -> & L)].
  - rewrite mask_neg by (try assumption; lia). change (0 =? 1) with false. cbv iota. rewrite Z.lxor_0_r. apply shiftr_div. lia.
  - rewrite mask_neg by (try assumption; lia). change (1 =? 1) with true. cbv iota. rewrite (lxor_select x _ true).
    rewrite Z.shiftr_shiftr by lia. rewrite shiftr_div by lia. f_equal. f_equal. lia.
Qed.
Lemma irsh_ok x n : 0 <= n < 64 -> fpr_irsh x n = x / 2 ^ n.
Proof.
  intros Hn. unfold fpr_irsh. cbv zeta. rewrite (shiftr_div n 5) by lia. change (2 ^ 5) with 32.
  destruct (shift_count n Hn) as [[-> ->]|(-> & -> & L)].
  - rewrite mask_neg_int by lia. change (0 =? 1) with false. cbv iota. rewrite Z.lxor_0_r. apply shiftr_div. lia.
  - rewrite mask_neg_int by lia. change (1 =? 1) with true. cbv iota. rewrite (lxor_select x _ true).
    rewrite Z.shiftr_shiftr by lia. rewrite shiftr_div by lia. f_equal. f_equal. lia.
Qed.
Lemma ulsh_ok x n : 0 <= x < 2 ^ 64 -> 0 <= n < 64 -> fpr_ulsh x n = w64 (x * 2 ^ n).
Proof.
  intros Hx Hn. unfold fpr_ulsh. cbv zeta. rewrite (shiftr_div n 5) by lia. change (2 ^ 5) with 32.
  assert (R : 0 <= Z.lxor x (w64 (Z.shiftl x 32)) < 2 ^ 64) by (apply lxor_range; [lia|assumption|apply w64_range]).
  destruct (shift_count n Hn) as [[-> ->]|(-> & -> & L)].
  - rewrite mask_neg by (try assumption; lia). change (0 =? 1) with false. cbv iota. rewrite Z.lxor_0_r. rewrite shiftl_mul by lia. reflexivity.
  - rewrite mask_neg by (try assumption; lia). change (1 =? 1) with true. cbv iota. rewrite (lxor_select x _ true).
    rewrite !shiftl_mul by lia. unfold w64. rewrite Z.mul_mod_idemp_l by lia. f_equal. rewrite <- Z.mul_assoc. f_equal.
    rewrite <- pow_split by lia. f_equal. lia.
Qed.

(** ** Normalisation *)
(** m * 2^n with the exponent lowered by n: the same number, larger mantissa *)
Definition same_scaled (m e m' e' : Z) : Prop := exists n, 0 <= n /\ m' = m * 2 ^ n /\ e' = e - n.
Lemma norm_step_ok k m e : 1 <= k <= 32 -> 0 <= m < 2 ^ 64 ->
  norm_step k (m, e) = if m / 2 ^ (64 - k) =? 0 then (m * 2 ^ k, e) else (m, e + k).
Proof.
  intros Hk Hm. cbv beta iota zeta delta [norm_step]. rewrite (shiftr_div m) by lia.
  pose proof (div_range m (64 - k) k ltac:(lia) ltac:(lia)) as D. replace (64 - k + k) with 64 in D by lia. specialize (D Hm).
  assert (P : 2 ^ k <= 2 ^ 32) by (apply Z.pow_le_mono_r; lia).
  rewrite (w32_id (m / 2 ^ (64 - k))) by lia. rewrite nonzero32 by lia.
  assert (R : 0 <= Z.lxor m (w64 (Z.shiftl m k)) < 2 ^ 64) by (apply lxor_range; [lia|assumption|apply w64_range]).
  rewrite mask_pred; [|assumption|destruct (_ =? 0); lia].
  destruct (Z.eqb_spec (m / 2 ^ (64 - k)) 0) as [E|N].
  - change (0 =? 1) with false. cbv iota. rewrite (lxor_select m _ true). rewrite shiftl_mul by lia.
    assert (L : m < 2 ^ (64 - k)). { apply Z.div_small_iff in E; [|apply Z.pow_nonzero; lia]. destruct E as [E|E]; [apply E|lia]. }
    f_equal; [|lia]. apply w64_id. split; [apply Z.mul_nonneg_nonneg; [apply Hm|apply Z.pow_nonneg; lia]|].
    replace 64 with (64 - k + k) by lia. rewrite pow_split by lia. apply Z.mul_lt_mono_pos_r; [apply Z.pow_pos_nonneg; lia|assumption].
  - change (1 =? 1) with true. cbv iota. rewrite Z.lxor_0_r. f_equal. lia.
Qed.
Lemma norm_last_ok m e : 0 <= m < 2 ^ 64 -> norm_last (m, e) = if m / 2 ^ 63 =? 0 then (m * 2, e) else (m, e + 1).
Proof.
  intros Hm. cbv beta iota zeta delta [norm_last]. rewrite shiftr_div by lia.
  pose proof (div_range m 63 1 ltac:(lia) ltac:(lia) Hm) as D. change (2 ^ 1) with 2 in D.
  rewrite (w32_id (m / 2 ^ 63)) by lia.
  assert (R : 0 <= Z.lxor m (w64 (Z.shiftl m 1)) < 2 ^ 64) by (apply lxor_range; [lia|assumption|apply w64_range]).
  rewrite mask_pred by (try assumption; lia).
  assert (E : m / 2 ^ 63 = 0 \/ m / 2 ^ 63 = 1) by lia. destruct E as [E|E]; rewrite E.
  - change (0 =? 1) with false. change (0 =? 0) with true. cbv iota. rewrite (lxor_select m _ true). rewrite shiftl_mul by lia.
    apply Z.div_small_iff in E; [|lia]. f_equal; [|lia]. change (2 ^ 1) with 2. apply w64_id. lia.
  - change (1 =? 1) with true. change (1 =? 0) with false. cbv iota. rewrite Z.lxor_0_r. reflexivity.
Qed.

(** after the steps with shifts 32, ..., k the value is at least 2^(64-k), starting from 2^(64-2k) *)
Lemma norm_progress k m e : 1 <= k <= 32 -> 0 < m < 2 ^ 64 -> 2 ^ (64 - 2 * k) <= m ->
  exists n m', norm_step k (m, e) = (m', e + k - n) /\ 0 <= n /\ m' = m * 2 ^ n /\ 2 ^ (64 - k) <= m' < 2 ^ 64.
Proof.
  intros Hk Hm L. rewrite norm_step_ok by lia.
  assert (P : 0 < 2 ^ (64 - k)) by (apply Z.pow_pos_nonneg; lia).
  destruct (Z.eqb_spec (m / 2 ^ (64 - k)) 0) as [E|N].
  - exists k, (m * 2 ^ k). split; [f_equal; lia|]. split; [lia|]. split; [reflexivity|].
    apply Z.div_small_iff in E; [|lia]. assert (m < 2 ^ (64 - k)) by lia.
    assert (Q : 0 < 2 ^ k) by (apply Z.pow_pos_nonneg; lia). split.
    + replace (64 - k) with (64 - 2 * k + k) by lia. rewrite pow_split by lia. apply Z.mul_le_mono_nonneg_r; lia.
    + replace 64 with (64 - k + k) by lia. rewrite pow_split by lia. apply Z.mul_lt_mono_pos_r; lia.
  - exists 0, m. rewrite Z.pow_0_r, Z.mul_1_r. split; [f_equal; lia|]. split; [lia|]. split; [reflexivity|]. split; [|lia].
    apply Z.nlt_ge. intros C. apply N. apply Z.div_small. lia.
Qed.
Lemma norm64_ok m e : 0 < m < 2 ^ 64 ->
  exists n m', FPR_NORM64 m e = (m', e - n) /\ 0 <= n /\ m' = m * 2 ^ n /\ 2 ^ 63 <= m' < 2 ^ 64.
Proof.
  intros Hm. unfold FPR_NORM64.
  destruct (norm_progress 32 m (e - 63) ltac:(lia) Hm ltac:(change (2 ^ (64 - 2 * 32)) with 1; lia)) as (n1 & m1 & -> & N1 & E1 & B1).
  destruct (norm_progress 16 m1 (e - 63 + 32 - n1) ltac:(lia) ltac:(change (2 ^ (64 - 32)) with (2 ^ 32) in B1; lia) (proj1 B1)) as (n2 & m2 & -> & N2 & E2 & B2).
  destruct (norm_progress 8 m2 (e - 63 + 32 - n1 + 16 - n2) ltac:(lia) ltac:(change (2 ^ (64 - 16)) with (2 ^ 48) in B2; lia) (proj1 B2)) as (n3 & m3 & -> & N3 & E3 & B3).
  destruct (norm_progress 4 m3 (e - 63 + 32 - n1 + 16 - n2 + 8 - n3) ltac:(lia) ltac:(change (2 ^ (64 - 8)) with (2 ^ 56) in B3; lia) (proj1 B3)) as (n4 & m4 & -> & N4 & E4 & B4).
  destruct (norm_progress 2 m4 (e - 63 + 32 - n1 + 16 - n2 + 8 - n3 + 4 - n4) ltac:(lia) ltac:(change (2 ^ (64 - 4)) with (2 ^ 60) in B4; lia) (proj1 B4)) as (n5 & m5 & -> & N5 & E5 & B5).
  change (2 ^ (64 - 2)) with (2 ^ 62) in B5.
  rewrite norm_last_ok by lia.
  assert (M : m5 = m * 2 ^ (n1 + n2 + n3 + n4 + n5)).
  { rewrite !pow_split by lia. subst m1 m2 m3 m4 m5. ring. }
  destruct (Z.eqb_spec (m5 / 2 ^ 63) 0) as [E|N].
  - exists (n1 + n2 + n3 + n4 + n5 + 1), (m5 * 2). apply Z.div_small_iff in E; [|lia].
    split; [f_equal; lia|]. split; [lia|]. split; [|lia]. rewrite pow_split by lia. change (2 ^ 1) with 2. rewrite M. ring.
  - exists (n1 + n2 + n3 + n4 + n5), m5. split; [f_equal; lia|]. split; [lia|]. split; [exact M|].
    split; [|lia]. apply Z.nlt_ge. intros C. apply N. apply Z.div_small. lia.
Qed.
Lemma norm64_zero e : FPR_NORM64 0 e = (0, e - 63).
Proof.
  unfold FPR_NORM64. rewrite norm_step_ok by lia. change (0 / 2 ^ (64 - 32) =? 0) with true. cbv iota.
  change (0 * 2 ^ 32) with 0. rewrite norm_step_ok by lia. change (0 / 2 ^ (64 - 16) =? 0) with true. cbv iota.
  change (0 * 2 ^ 16) with 0. rewrite norm_step_ok by lia. change (0 / 2 ^ (64 - 8) =? 0) with true. cbv iota.
  change (0 * 2 ^ 8) with 0. rewrite norm_step_ok by lia. change (0 / 2 ^ (64 - 4) =? 0) with true. cbv iota.
  change (0 * 2 ^ 4) with 0. rewrite norm_step_ok by lia. change (0 / 2 ^ (64 - 2) =? 0) with true. cbv iota.
  change (0 * 2 ^ 2) with 0. rewrite norm_last_ok by lia. reflexivity.
Qed.
