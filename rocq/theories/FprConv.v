(** Conversions, comparison, halving and doubling of the C floating-point numbers. *)
From Coq Require Import Reals Lra.
From Verif Require Import Base FprModel FprSpec FprBits FprRound FprMul FprAdd.
Open Scope Z_scope.

(** ** Integer to floating-point *)
Definition esh (c : Z) (p : Z * Z) : Z * Z := (fst p, snd p + c).
Lemma norm_step_sh k c p : norm_step k (esh c p) = esh c (norm_step k p).
Proof. destruct p as [m e]. cbv beta iota zeta delta [norm_step esh fst snd]. f_equal. ring. Qed.
Lemma norm_last_sh c p : norm_last (esh c p) = esh c (norm_last p).
Proof. destruct p as [m e]. cbv beta iota zeta delta [norm_last esh fst snd]. f_equal. ring. Qed.
Lemma norm64_sh m e c : FPR_NORM64 m (e + c) = esh c (FPR_NORM64 m e).
Proof.
  unfold FPR_NORM64. replace (m, e + c - 63) with (esh c (m, e - 63)) by (unfold esh; cbn [fst snd]; f_equal; ring).
  rewrite !norm_step_sh, norm_last_sh. reflexivity.
Qed.
Lemma w64_lor a b : w64 (Z.lor a b) = Z.lor (w64 a) (w64 b).
Proof. unfold w64. rewrite <- !(land_low _ 64) by lia. apply Z.land_lor_distr_l. Qed.
Lemma cond_neg a s : 0 <= s <= 1 -> Z.lxor a (- s) + s = if s =? 1 then - a else a.
Proof.
  intros H. assert (C : s = 0 \/ s = 1) by lia. destruct C as [-> | ->].
  - change (0 =? 1) with false. cbv iota. change (- 0) with 0. rewrite Z.lxor_0_r. ring.
  - change (1 =? 1) with true. cbv iota. change (- (1)) with (-1). rewrite Z.lxor_m1_r. unfold Z.lnot. lia.
Qed.
Lemma scaled_finish i sc : - 2 ^ 63 < i < 2 ^ 63 -> i <> 0 -> - 2 ^ 20 <= sc <= 2 ^ 20 ->
  fpr_scaled i sc = finish (if i <? 0 then 1 else 0) sc (Z.abs i).
Proof.
  intros Hi N Hs. cbv beta delta [fpr_scaled]. rewrite neg64 by lia. cbv zeta.
  rewrite cond_neg by apply bit_range. rewrite eqb_bit. replace (if i <? 0 then - i else i) with (Z.abs i) by (destruct (Z.ltb_spec i 0); lia).
  rewrite (s64_id (Z.abs i)) by lia. rewrite (w64_id (Z.abs i)) by lia. rewrite w64_lor, (w64_id (Z.abs i)) by lia. rewrite nonzero64 by lia.
  replace (Z.abs i =? 0) with false by (symmetry; apply Z.eqb_neq; lia). cbv iota. change (w32 1) with 1.
  unfold finish. rewrite (Z.add_comm 9 sc), norm64_sh. unfold esh. destruct (norm64_ok (Z.abs i) sc ltac:(lia)) as (n & m & -> & Hn & Em & Bm). cbn [fst snd].
  rewrite mask_neg_int by lia. change (1 =? 1) with true. cbv iota. rewrite drop9 by lia. rewrite mask_neg; [reflexivity| |lia].
  assert (0 <= m / 2 ^ 9 < 2 ^ 55) by (split; [apply Z.div_pos; lia | apply Z.div_lt_upper_bound; lia]).
  apply (lor_range _ _ 64); [lia | lia | destruct (_ =? 0); lia].
Qed.
Lemma scaled_zero sc : fpr_scaled 0 sc = 0.
Proof.
  cbv beta delta [fpr_scaled]. change (Z.shiftr (w64 0) 63) with 0. cbv zeta. change (s64 (Z.lxor 0 (- 0) + 0)) with 0. change (w64 0) with 0.
  rewrite norm64_zero. change (w32 (Z.shiftr (w64 (Z.lor 0 (- 0))) 63)) with 0. change (- 0) with 0. change (w64 0) with 0. rewrite !Z.land_0_r. reflexivity.
Qed.
Theorem scaled_rounded i sc : - 2 ^ 63 < i < 2 ^ 63 -> - 2 ^ 20 <= sc <= 2 ^ 20 ->
  rounded (IZR i * powerRZ 2 sc) (fpr_scaled i sc) /\ ((Rabs (IZR i * powerRZ 2 sc) <= largest)%R -> fsign (fpr_scaled i sc) = if i <? 0 then 1 else 0).
Proof.
  intros Hi Hs. destruct (Z.eq_dec i 0) as [->|N].
  - rewrite scaled_zero, Rmult_0_l. split; [exact (rounded_zero 0 ltac:(lia)) | intros _; reflexivity].
  - rewrite scaled_finish by assumption.
    assert (E : (IZR i * powerRZ 2 sc = sgn (if i <? 0 then 1 else 0) * IZR (Z.abs i) * powerRZ 2 sc)%R).
    { destruct (Z.ltb_spec i 0) as [L|L]; unfold sgn; [change (1 =? 1) with true | change (0 =? 1) with false]; cbv iota.
      - rewrite Z.abs_neq, opp_IZR by lia. ring.
      - rewrite Z.abs_eq by lia. ring. }
    rewrite E. apply finish_ok; [apply bit_range | lia | lia | left; reflexivity].
Qed.

(** an integer of at most 53 bits is a double *)
Lemma int_double i : i <> 0 -> Z.abs i <= 2 ^ 53 -> exists y, double y /\ val y = IZR i.
Proof.
  intros N H. set (a := Z.abs i) in *. assert (Pa : 0 < a) by lia.
  assert (S : exists n M, 0 <= n <= 52 /\ M = a * 2 ^ n /\ 2 ^ 52 <= M <= 2 ^ 53).
  { destruct (Z.eq_dec a (2 ^ 53)) as [E|E]; [exists 0, (2 ^ 53); rewrite E; change (2 ^ 0) with 1; lia|].
    pose proof (Z.log2_spec a Pa) as [L1 L2]. pose proof (Z.log2_nonneg a) as L0.
    assert (L3 : Z.log2 a < 53) by (apply Z.log2_lt_pow2; lia).
    exists (52 - Z.log2 a), (a * 2 ^ (52 - Z.log2 a)). split; [lia|]. split; [reflexivity|].
    assert (P : 0 < 2 ^ (52 - Z.log2 a)) by (apply Z.pow_pos_nonneg; lia).
    assert (E1 : 2 ^ 52 = 2 ^ Z.log2 a * 2 ^ (52 - Z.log2 a)) by (rewrite <- pow_split by lia; f_equal; lia).
    assert (E2 : 2 ^ 53 = 2 ^ Z.succ (Z.log2 a) * 2 ^ (52 - Z.log2 a)) by (rewrite <- pow_split by lia; f_equal; lia).
    rewrite E1, E2. set (u := 2 ^ Z.log2 a) in *. set (v := 2 ^ Z.succ (Z.log2 a)) in *. set (w := 2 ^ (52 - Z.log2 a)) in *. clearbody u v w. nia. }
  destruct S as (n & M & Hn & EM & BM). set (s := if i <? 0 then 1 else 0). assert (Hs : 0 <= s <= 1) by apply bit_range.
  destruct (val_packed s (- n - 2) M Hs BM ltac:(lia) ltac:(lia)) as ([D _] & V & _). eexists. split; [exact D|]. rewrite V.
  replace (- n - 2 + 2) with (- n) by lia. rewrite EM, mult_IZR, <- (p2_nat n) by lia.
  assert (P : (powerRZ 2 n * powerRZ 2 (- n) = 1)%R) by (rewrite <- p2_add, Z.add_opp_diag_r; reflexivity).
  replace (sgn s * (IZR a * powerRZ 2 n) * powerRZ 2 (- n))%R with (sgn s * IZR a * (powerRZ 2 n * powerRZ 2 (- n)))%R by ring. rewrite P, Rmult_1_r.
  subst s a. destruct (Z.ltb_spec i 0) as [L|L]; unfold sgn; [change (1 =? 1) with true | change (0 =? 1) with false]; cbv iota.
  - rewrite Z.abs_neq, opp_IZR by lia. ring.
  - rewrite Z.abs_eq by lia. ring.
Qed.
Lemma nearest_exact r x y : nearest r x -> double y -> val y = r -> val x = r.
Proof.
  intros (_ & H & _) D E. specialize (H y D). rewrite E, (Rminus_diag_eq r r), Rabs_R0 in H by reflexivity.
  pose proof (Rabs_pos (val x - r)) as P. assert (Z0 : Rabs (val x - r) = 0%R) by lra. destruct (Req_dec (val x - r) 0) as [Q|Q]; [lra|]. apply Rabs_no_R0 in Q. contradiction.
Qed.
Lemma abs_int_bounds i : i <> 0 -> Z.abs i < 2 ^ 63 -> (smallest_normal <= Rabs (IZR i) <= largest)%R.
Proof.
  intros N H. rewrite <- abs_IZR. split.
  - apply Rle_trans with 1%R; [|apply (IZR_le 1); lia]. unfold smallest_normal. change 1%R with (powerRZ 2 0). apply p2_mono. lia.
  - apply Rle_trans with (IZR (2 ^ 63)); [apply IZR_le; lia|]. unfold largest. apply Rle_trans with (IZR (2 ^ 52) * powerRZ 2 11)%R.
    + rewrite (p2_nat 11), <- !mult_IZR by lia. apply IZR_le. lia.
    + apply Rmult_le_compat; [apply IZR_le; lia | left; apply p2_pos | apply IZR_le; lia | apply p2_mono; lia].
Qed.
Theorem of_exact i : Z.abs i <= 2 ^ 53 -> val (fpr_of i) = IZR i /\ usable (fpr_of i).
Proof.
  intros H. destruct (scaled_rounded i 0 ltac:(lia) ltac:(lia)) as [R _]. change (powerRZ 2 0) with 1%R in R. rewrite Rmult_1_r in R. unfold fpr_of.
  destruct (Z.eq_dec i 0) as [->|N]; [rewrite scaled_zero; destruct (val_zero 0 ltac:(lia)) as (V & U & _); split; assumption|].
  destruct (abs_int_bounds i N ltac:(lia)) as [B1 B2]. destruct (R B2) as (U & Nr & _). split; [|exact U].
  destruct (int_double i N H) as (y & D & V). exact (nearest_exact (IZR i) _ y (Nr B1) D V).
Qed.

(** ** Floating-point to integer *)
Definition m63 (x : Z) : Z := (2 ^ 52 + fmant x) * 2 ^ 10.
Lemma m63_ok x : 0 <= x < 2 ^ 64 -> Z.land (Z.lor (w64 (Z.shiftl x 10)) (2 ^ 62)) (2 ^ 63 - 1) = m63 x.
Proof.
  intros H. rewrite Z.land_lor_distr_l, !land_low by lia. change (2 ^ 62 mod 2 ^ 63) with (2 ^ 62). rewrite shiftl_mul by lia.
  assert (E : w64 (x * 2 ^ 10) mod 2 ^ 63 = (x mod 2 ^ 53) * 2 ^ 10).
  { unfold w64. symmetry. apply Z.mod_unique_pos with (q := x / 2 ^ 53 - 2 * (x * 2 ^ 10 / 2 ^ 64)).
    - pose proof (Z.mod_pos_bound x (2 ^ 53) ltac:(lia)). lia.
    - pose proof (Z.div_mod x (2 ^ 53) ltac:(lia)). pose proof (Z.div_mod (x * 2 ^ 10) (2 ^ 64) ltac:(lia)). lia. }
  rewrite E. unfold m63, fmant.
  assert (D : x mod 2 ^ 53 = x / 2 ^ 52 mod 2 * 2 ^ 52 + x mod 2 ^ 52).
  { symmetry. apply Z.mod_unique_pos with (q := x / 2 ^ 52 / 2).
    - pose proof (Z.mod_pos_bound x (2 ^ 52) ltac:(lia)). pose proof (Z.mod_pos_bound (x / 2 ^ 52) 2 ltac:(lia)). lia.
    - pose proof (Z.div_mod x (2 ^ 52) ltac:(lia)). pose proof (Z.div_mod (x / 2 ^ 52) 2 ltac:(lia)). lia. }
  rewrite D. pose proof (Z.mod_pos_bound x (2 ^ 52) ltac:(lia)) as B. pose proof (Z.mod_pos_bound (x / 2 ^ 52) 2 ltac:(lia)) as C.
  set (M := x mod 2 ^ 52) in *. set (b := x / 2 ^ 52 mod 2) in *. clearbody M b. clear - B C.
  pose proof (lor_add 1 (M * 2 ^ 10) 62 ltac:(lia) ltac:(lia)) as L. rewrite Z.mul_1_l in L. assert (K : b = 0 \/ b = 1) by lia. destruct K as [-> | ->].
  - rewrite Z.mul_0_l, Z.add_0_l, Z.lor_comm, L. lia.
  - replace ((1 * 2 ^ 52 + M) * 2 ^ 10) with (2 ^ 62 + M * 2 ^ 10) by lia. rewrite <- L at 1. rewrite Z.lor_comm, Z.lor_assoc, Z.lor_diag, L. lia.
Qed.
Lemma m63_range x : 0 <= x < 2 ^ 64 -> 2 ^ 62 <= m63 x < 2 ^ 63 - 1.
Proof. intros H. destruct (fields x H) as (_ & _ & M & _). unfold m63. lia. Qed.
Lemma sgn_pm s : (sgn s = 1 \/ sgn s = -1)%R. Proof. unfold sgn. destruct (_ =? _); [right|left]; reflexivity. Qed.
(** a normal number below 2^63 is m63 / 2^cc *)
Lemma m63_val x : normal x -> (Rabs (val x) < powerRZ 2 63)%R ->
  1 <= fexp x <= 1085 /\ val x = (sgn (fsign x) * (IZR (m63 x) / IZR (2 ^ (1085 - fexp x))))%R.
Proof.
  intros [[R E] E1] L. destruct (fields x R) as (S & _ & M & _).
  assert (V : val x = (sgn (fsign x) * IZR (2 ^ 52 + fmant x) * powerRZ 2 (fexp x - 1075))%R).
  { unfold val. replace (fexp x =? 0) with false by (symmetry; apply Z.eqb_neq; lia). reflexivity. }
  assert (B : fexp x <= 1085).
  { apply Z.nlt_ge. intros C. apply Rlt_not_le in L. apply L. rewrite V, !Rabs_mult, sgn_abs, Rmult_1_l.
    rewrite (Rabs_right (powerRZ 2 _)) by (left; apply p2_pos). rewrite <- abs_IZR, Z.abs_eq by lia.
    apply Rle_trans with (IZR (2 ^ 52) * powerRZ 2 11)%R; [rewrite p2_scale by lia; apply p2_mono; lia|].
    apply Rmult_le_compat; [apply IZR_le; lia | left; apply p2_pos | apply IZR_le; lia | apply p2_mono; lia]. }
  split; [lia|]. rewrite V. unfold m63. rewrite mult_IZR, <- (p2_nat 10), <- (p2_nat (1085 - fexp x)) by lia.
  assert (P : (powerRZ 2 (fexp x - 1075) * powerRZ 2 (1085 - fexp x) = powerRZ 2 10)%R) by (rewrite <- p2_add; f_equal; lia).
  rewrite <- P. pose proof (p2_pos (1085 - fexp x)) as Q. set (A := powerRZ 2 (1085 - fexp x)) in *. set (C := powerRZ 2 (fexp x - 1075)) in *. set (D := IZR (2 ^ 52 + fmant x)). clearbody A C D. field. lra.
Qed.
Lemma big_shift a c : 0 <= a < 2 ^ 63 -> 63 <= c -> a / 2 ^ c = 0.
Proof. intros H C. apply Z.div_small. assert (2 ^ 63 <= 2 ^ c) by (apply Z.pow_le_mono_r; lia). lia. Qed.
Lemma small_mask c k : - 2 ^ 20 <= c <= 2 ^ 20 -> 0 <= k <= 2 ^ 20 -> Z.shiftr (w32 (c - k)) 31 = if c <? k then 1 else 0.
Proof. intros. rewrite neg32 by lia. destruct (Z.ltb_spec (c - k) 0), (Z.ltb_spec c k); lia. Qed.
Lemma div_real a c : 0 <= a -> 0 <= c -> (IZR (a / 2 ^ c) <= IZR a / IZR (2 ^ c) < IZR (a / 2 ^ c) + 1)%R.
Proof.
  intros Ha Hc. assert (Q : 0 < 2 ^ c) by (apply Z.pow_pos_nonneg; lia). assert (QR : (0 < IZR (2 ^ c))%R) by (apply IZR_lt; lia).
  pose proof (Z.div_mod a (2 ^ c) ltac:(lia)) as D. pose proof (Z.mod_pos_bound a (2 ^ c) Q) as M.
  assert (E : (IZR a / IZR (2 ^ c) = IZR (a / 2 ^ c) + IZR (a mod 2 ^ c) / IZR (2 ^ c))%R).
  { rewrite D at 1. rewrite plus_IZR, mult_IZR. set (A := IZR (2 ^ c)) in *. clearbody A. field. lra. }
  assert (M0 : (0 <= IZR (a mod 2 ^ c) / IZR (2 ^ c))%R) by (apply Rmult_le_pos; [apply IZR_le; lia | left; apply Rinv_0_lt_compat; assumption]).
  assert (M1 : (IZR (a mod 2 ^ c) / IZR (2 ^ c) < 1)%R).
  { apply Rmult_lt_reg_r with (IZR (2 ^ c)); [assumption|]. unfold Rdiv. rewrite Rmult_assoc, Rinv_l, Rmult_1_r, Rmult_1_l by lra. apply IZR_lt. lia. }
  lra.
Qed.

Lemma trunc_eq x : 0 <= x < 2 ^ 64 -> fexp x <= 1085 ->
  fpr_trunc x = if fsign x =? 1 then - (m63 x / 2 ^ (1085 - fexp x)) else m63 x / 2 ^ (1085 - fexp x).
Proof.
  intros H E. destruct (fields x H) as (S & E0 & _ & _). pose proof (m63_range x H) as B. cbv beta zeta delta [fpr_trunc].
  rewrite exp_ok, m63_ok, land63 by assumption. rewrite (shiftr_div x 63) by lia. fold (fsign x). rewrite small_mask by lia.
  pose proof (Z.mod_pos_bound (1085 - fexp x) 64 ltac:(lia)) as C. rewrite ursh_ok by lia.
  assert (Q : 0 <= m63 x / 2 ^ ((1085 - fexp x) mod 64) < 2 ^ 63).
  { assert (0 < 2 ^ ((1085 - fexp x) mod 64)) by (apply Z.pow_pos_nonneg; lia). split; [apply Z.div_pos; lia|]. apply Z.div_lt_upper_bound; nia. }
  rewrite mask_neg by (try apply bit_range; lia). rewrite eqb_bit.
  assert (V : (if 1085 - fexp x <? 64 then m63 x / 2 ^ ((1085 - fexp x) mod 64) else 0) = m63 x / 2 ^ (1085 - fexp x)).
  { destruct (Z.ltb_spec (1085 - fexp x) 64) as [L|L]; [rewrite Z.mod_small by lia; reflexivity | symmetry; apply big_shift; lia]. }
  assert (A : 0 <= m63 x / 2 ^ (1085 - fexp x) < 2 ^ 63) by (rewrite <- V; destruct (_ <? _); lia).
  rewrite V. set (a := m63 x / 2 ^ (1085 - fexp x)) in *. clearbody a. clear - A S.
  assert (K : fsign x = 0 \/ fsign x = 1) by lia. destruct K as [-> | ->].
  - change (0 =? 1) with false. cbv iota. change (w64 (- 0)) with 0. rewrite Z.lxor_0_r, Z.add_0_r, w64_id by lia. apply s64_id. lia.
  - change (1 =? 1) with true. cbv iota. change (w64 (- (1))) with (2 ^ 64 - 1).
    assert (X : Z.lxor a (2 ^ 64 - 1) = 2 ^ 64 - 1 - a).
    { rewrite ones_m1 by lia. rewrite Z.lxor_comm.
      apply Z.bits_inj'. intros i Hi. rewrite Z.lxor_spec. replace (Z.ones 64 - a) with (Z.ldiff (Z.ones 64) a).
      - rewrite Z.ldiff_spec. destruct (Z.lt_ge_cases i 64) as [L|L].
        + rewrite Z.ones_spec_low by lia. reflexivity.
        + rewrite Z.ones_spec_high by lia. rewrite (bits_above a 63 i) by lia. reflexivity.
      - symmetry. apply Z.sub_nocarry_ldiff. apply Z.bits_inj'. intros j Hj. rewrite Z.ldiff_spec, Z.bits_0. destruct (Z.lt_ge_cases j 64) as [L|L].
        + rewrite Z.ones_spec_low by lia. apply andb_false_r.
        + rewrite (bits_above a 63 j) by lia. reflexivity. }
    rewrite X. replace (2 ^ 64 - 1 - a + 1) with (2 ^ 64 - a) by lia. unfold w64, s64. destruct (Z.eq_dec a 0) as [->|N]; [reflexivity|].
    rewrite (Z.mod_small (2 ^ 64 - a)) by lia. replace (2 ^ 64 - a + 2 ^ 63) with ((2 ^ 63 - a) + 1 * 2 ^ 64) by lia. rewrite Z.mod_add, Z.mod_small by lia. lia.
Qed.
Lemma zero_exp x : usable x -> ~ normal x -> (x = 0 \/ x = 2 ^ 63) /\ fexp x = 0 /\ fmant x = 0 /\ val x = 0%R /\ 0 <= x < 2 ^ 64.
Proof.
  intros U N. destruct U as [U|U]; [contradiction|]. split; [exact U|].
  destruct U as [-> | ->]; [destruct (val_zero 0 ltac:(lia)) as (V & _) | destruct (val_zero 1 ltac:(lia)) as (V & _)]; (split; [reflexivity|split; [reflexivity|split; [exact V|lia]]]).
Qed.
Lemma normal_dec x : normal x \/ ~ normal x.
Proof.
  unfold normal, double. destruct (Z_le_gt_dec 0 x), (Z_lt_ge_dec x (2 ^ 64)), (Z_le_gt_dec (fexp x) 2046), (Z_le_gt_dec 1 (fexp x)); try (right; lia). left. lia.
Qed.
Theorem trunc_ok x : usable x -> (Rabs (val x) < powerRZ 2 63)%R ->
  (IZR (Z.abs (fpr_trunc x)) <= Rabs (val x) < IZR (Z.abs (fpr_trunc x)) + 1)%R /\ (0 <= IZR (fpr_trunc x) * val x)%R.
Proof.
  intros U L. destruct (normal_dec x) as [N|N].
  - destruct (m63_val x N L) as [E V]. pose proof N as [[R _] _]. rewrite trunc_eq by lia. pose proof (m63_range x R) as B.
    pose proof (div_real (m63 x) (1085 - fexp x) ltac:(lia) ltac:(lia)) as D. set (r := (IZR (m63 x) / IZR (2 ^ (1085 - fexp x)))%R) in *.
    assert (A0 : 0 <= m63 x / 2 ^ (1085 - fexp x)) by (apply Z.div_pos; [lia | apply Z.pow_pos_nonneg; lia]).
    set (a := m63 x / 2 ^ (1085 - fexp x)) in *. clearbody a r. assert (AR : (0 <= IZR a)%R) by (apply IZR_le; lia).
    rewrite V, Rabs_mult, sgn_abs, Rmult_1_l, (Rabs_right r) by lra.
    unfold sgn. destruct (fsign x =? 1).
    + rewrite Z.abs_opp, Z.abs_eq by lia. split; [lra|]. rewrite opp_IZR. nra.
    + rewrite Z.abs_eq by lia. split; [lra|]. nra.
  - destruct (zero_exp x U N) as (C & E & M & V & R). rewrite V, Rabs_R0, Rmult_0_r.
    assert (T : fpr_trunc x = 0) by (destruct C as [-> | ->]; vm_compute; reflexivity). rewrite T. change (IZR (Z.abs 0)) with 0%R. lra.
Qed.

Lemma floor_eq x : 0 <= x < 2 ^ 64 -> 1 <= fexp x <= 1085 ->
  fpr_floor x = (if fsign x =? 1 then - m63 x else m63 x) / 2 ^ (1085 - fexp x).
Proof.
  intros H E. destruct (fields x H) as (S & E0 & _ & _). pose proof (m63_range x H) as B. cbv beta zeta delta [fpr_floor].
  rewrite exp_ok, m63_ok, land63 by assumption. rewrite (shiftr_div x 63) by lia. fold (fsign x). rewrite (s64_id (m63 x)) by lia. rewrite cond_neg by assumption.
  rewrite neg32 by lia. set (a := if fsign x =? 1 then - m63 x else m63 x).
  assert (A : - 2 ^ 63 < a < 2 ^ 63) by (subst a; destruct (_ =? 1); lia). rewrite s64_id by lia.
  pose proof (Z.mod_pos_bound (1085 - fexp x) 64 ltac:(lia)) as C. rewrite irsh_ok by lia. rewrite mask_neg_int by apply bit_range. rewrite eqb_bit, lxor_select.
  destruct (Z.ltb_spec (63 - (1085 - fexp x)) 0) as [L|L]; [|rewrite Z.mod_small by lia; reflexivity].
  assert (P : 2 ^ 63 <= 2 ^ (1085 - fexp x)) by (apply Z.pow_le_mono_r; lia). subst a. assert (K : fsign x = 0 \/ fsign x = 1) by lia. destruct K as [K | K]; rewrite K.
  - change (0 =? 1) with false. cbv iota. symmetry. apply Z.div_small. lia.
  - change (1 =? 1) with true. cbv iota. change (- (1)) with (-1). apply Z.div_unique_pos with (r := 2 ^ (1085 - fexp x) - m63 x); lia.
Qed.
Lemma div_real_any a c : 0 <= c -> (IZR (a / 2 ^ c) <= IZR a / IZR (2 ^ c) < IZR (a / 2 ^ c) + 1)%R.
Proof.
  intros Hc. assert (Q : 0 < 2 ^ c) by (apply Z.pow_pos_nonneg; lia). assert (QR : (0 < IZR (2 ^ c))%R) by (apply IZR_lt; lia).
  pose proof (Z.div_mod a (2 ^ c) ltac:(lia)) as D. pose proof (Z.mod_pos_bound a (2 ^ c) Q) as M.
  assert (E : (IZR a / IZR (2 ^ c) = IZR (a / 2 ^ c) + IZR (a mod 2 ^ c) / IZR (2 ^ c))%R).
  { rewrite D at 1. rewrite plus_IZR, mult_IZR. set (A := IZR (2 ^ c)) in *. clearbody A. field. lra. }
  assert (M0 : (0 <= IZR (a mod 2 ^ c) / IZR (2 ^ c))%R) by (apply Rmult_le_pos; [apply IZR_le; lia | left; apply Rinv_0_lt_compat; assumption]).
  assert (M1 : (IZR (a mod 2 ^ c) / IZR (2 ^ c) < 1)%R).
  { apply Rmult_lt_reg_r with (IZR (2 ^ c)); [assumption|]. unfold Rdiv. rewrite Rmult_assoc, Rinv_l, Rmult_1_r, Rmult_1_l by lra. apply IZR_lt. lia. }
  lra.
Qed.
Theorem floor_ok x : usable x -> x <> 2 ^ 63 -> (Rabs (val x) < powerRZ 2 63)%R -> (IZR (fpr_floor x) <= val x < IZR (fpr_floor x) + 1)%R.
Proof.
  intros U X L. destruct (normal_dec x) as [N|N].
  - destruct (m63_val x N L) as [E V]. pose proof N as [[R _] _]. rewrite floor_eq by lia.
    replace (val x) with (IZR (if fsign x =? 1 then - m63 x else m63 x) / IZR (2 ^ (1085 - fexp x)))%R; [apply div_real_any; lia|].
    rewrite V. unfold sgn. destruct (fsign x =? 1); [rewrite opp_IZR|]; unfold Rdiv; ring.
  - destruct (zero_exp x U N) as (C & E & M & V & R). rewrite V. assert (Z0 : x = 0) by (destruct C; [assumption | contradiction]).
    assert (T : fpr_floor x = 0) by (rewrite Z0; vm_compute; reflexivity). rewrite T. lra.
Qed.
Theorem floor_minus_zero : val (2 ^ 63) = 0%R /\ fpr_floor (2 ^ 63) = -1.
Proof. split; [destruct (val_zero 1 ltac:(lia)) as (V & _); exact V | vm_compute; reflexivity]. Qed.

(** ** Rounding to the nearest integer *)
Lemma nonzero_split d : 0 <= d < 2 ^ 64 ->
  (Z.lor (w32 d) (Z.land (w32 (Z.shiftr d 32)) 0x1FFFFFFF) =? 0) = (d mod 2 ^ 61 =? 0) /\ 0 <= Z.lor (w32 d) (Z.land (w32 (Z.shiftr d 32)) 0x1FFFFFFF) < 2 ^ 32.
Proof.
  intros H. rewrite shiftr_div by lia. pose proof (div_range d 32 32 ltac:(lia) ltac:(lia) H) as Q. rewrite (w32_id (d / 2 ^ 32)) by lia.
  change 0x1FFFFFFF with (2 ^ 29 - 1). rewrite land_low by lia. pose proof (w32_range d) as W. pose proof (Z.mod_pos_bound (d / 2 ^ 32) (2 ^ 29) ltac:(lia)) as T.
  split; [|apply lor_range; lia].
  assert (D : d mod 2 ^ 61 = (d / 2 ^ 32) mod 2 ^ 29 * 2 ^ 32 + w32 d).
  { symmetry. unfold w32 in *. apply Z.mod_unique_pos with (q := d / 2 ^ 32 / 2 ^ 29); [lia|]. pose proof (Z.div_mod d (2 ^ 32) ltac:(lia)). pose proof (Z.div_mod (d / 2 ^ 32) (2 ^ 29) ltac:(lia)). lia. }
  rewrite D. set (u := w32 d) in *. set (v := (d / 2 ^ 32) mod 2 ^ 29) in *. clearbody u v. clear - W T.
  destruct (Z.eqb_spec (v * 2 ^ 32 + u) 0) as [E|E].
  - assert (u = 0 /\ v = 0) as [-> ->] by lia. reflexivity.
  - apply Z.eqb_neq. intros C. apply Z.lor_eq_0_iff in C. lia.
Qed.
Definition rnd (P e : Z) : Z := rne (Z.lor (4 * P / 2 ^ e) (if (4 * P) mod 2 ^ e =? 0 then 0 else 1)).
Lemma lor_bit_div v b : 0 <= b <= 1 -> Z.lor v b / 4 = v / 4 /\ Z.lor v b mod 8 = Z.lor (v mod 8) b.
Proof.
  intros H. split.
  - change 4 with (2 ^ 2). rewrite <- !shiftr_div by lia. rewrite Z.shiftr_lor. rewrite (shiftr_div b 2) by lia. rewrite (Z.div_small b) by lia. apply Z.lor_0_r.
  - change 8 with (2 ^ 3). rewrite <- !land_low by lia. rewrite Z.land_lor_distr_l. rewrite (land_low b 3) by lia. rewrite (Z.mod_small b) by lia. reflexivity.
Qed.
Lemma rint_core m e : 0 <= m < 2 ^ 63 - 1 -> 0 <= e < 64 ->
  let d := fpr_ulsh m (63 - e) in
  let dd := Z.lor (w32 d) (Z.land (w32 (Z.shiftr d 32)) 0x1FFFFFFF) in
  let f := Z.lor (w32 (Z.shiftr d 61)) (Z.shiftr (Z.lor dd (w32 (- dd))) 31) in
  w64 (fpr_ursh m e + Z.land (Z.shiftr 0xC8 f) 1) = rnd m e /\ 0 <= rnd m e < 2 ^ 63.
Proof.
  intros Hm He d dd f. assert (Pe : 0 < 2 ^ e) by (apply Z.pow_pos_nonneg; lia). assert (P63 : 2 ^ (63 - e) * 2 ^ e = 2 ^ 63) by (rewrite <- pow_split by lia; f_equal; lia).
  assert (Pf : 0 < 2 ^ (63 - e)) by (apply Z.pow_pos_nonneg; lia).
  set (N := m * 2 ^ (63 - e)). assert (Ed : d = w64 N) by (apply ulsh_ok; lia). assert (Rd : 0 <= d < 2 ^ 64) by (rewrite Ed; apply w64_range).
  destruct (nonzero_split d Rd) as [Z1 Z2]. fold dd in Z1, Z2.
  assert (EN : N * 2 ^ e = 4 * m * 2 ^ 61) by (subst N; rewrite <- Z.mul_assoc, P63; lia).
  assert (D1 : N / 2 ^ 61 = 4 * m / 2 ^ e).
  { rewrite <- (Z.div_mul_cancel_r N (2 ^ 61) (2 ^ e)) by lia. rewrite EN, (Z.mul_comm (2 ^ 61)). apply Z.div_mul_cancel_r; lia. }
  assert (D2 : N mod 2 ^ 61 * 2 ^ e = (4 * m) mod 2 ^ e * 2 ^ 61).
  { rewrite <- Z.mul_mod_distr_r by lia. rewrite EN, (Z.mul_comm (2 ^ 61)). apply Z.mul_mod_distr_r; lia. }
  assert (D3 : d / 2 ^ 61 = (4 * m / 2 ^ e) mod 8).
  { rewrite <- D1, Ed. unfold w64. 
    pose proof (Z.div_mod N (2 ^ 64) ltac:(lia)) as A. pose proof (Z.mod_pos_bound N (2 ^ 64) ltac:(lia)) as B.
    pose proof (Z.div_mod (N mod 2 ^ 64) (2 ^ 61) ltac:(lia)) as A2. pose proof (Z.mod_pos_bound (N mod 2 ^ 64) (2 ^ 61) ltac:(lia)) as B2.
    apply Z.mod_unique_pos with (q := N / 2 ^ 64); [lia|]. symmetry. apply Z.div_unique_pos with (r := (N mod 2 ^ 64) mod 2 ^ 61); lia. }
  assert (D4 : d mod 2 ^ 61 = N mod 2 ^ 61).
  { rewrite Ed. unfold w64. symmetry. apply Z.mod_unique_pos with (q := N / 2 ^ 61 - 8 * (N / 2 ^ 64)); [apply Z.mod_pos_bound; lia|].
    pose proof (Z.div_mod N (2 ^ 61) ltac:(lia)). pose proof (Z.div_mod N (2 ^ 64) ltac:(lia)). lia. }
  assert (D5 : (dd =? 0) = ((4 * m) mod 2 ^ e =? 0)).
  { rewrite Z1, D4. set (u := N mod 2 ^ 61) in *. set (v := (4 * m) mod 2 ^ e) in *. clearbody u v. clear - D2 Pe.
    destruct (Z.eqb_spec v 0) as [->|Nv]; [apply Z.eqb_eq; nia | apply Z.eqb_neq; intros ->; lia]. }
  assert (Ef : f = Z.lor ((4 * m / 2 ^ e) mod 8) (if (4 * m) mod 2 ^ e =? 0 then 0 else 1)).
  { subst f. rewrite nonzero32 by assumption. rewrite D5. rewrite shiftr_div by lia. rewrite D3. pose proof (Z.mod_pos_bound (4 * m / 2 ^ e) 8 ltac:(lia)). rewrite w32_id by lia. reflexivity. }
  rewrite Ef. clear Ef. unfold rnd. set (V := 4 * m / 2 ^ e) in *. set (b := if (4 * m) mod 2 ^ e =? 0 then 0 else 1).
  assert (Hb : 0 <= b <= 1) by (subst b; clear; destruct (_ =? 0); lia). destruct (lor_bit_div V b Hb) as [L1 L2].
  assert (E4 : V / 4 = m / 2 ^ e).
  { subst V. rewrite Z.div_div by lia. rewrite (Z.mul_comm (2 ^ e)). apply Z.div_mul_cancel_l; lia. }
  rewrite ursh_ok by lia. rewrite <- L2, <- E4, <- L1. fold (up (Z.lor V b)). fold (rne (Z.lor V b)).
  assert (RR : 0 <= rne (Z.lor V b) < 2 ^ 63).
  { unfold rne. rewrite L1, E4. pose proof (up_range (Z.lor V b)). assert (0 <= m / 2 ^ e < 2 ^ 63 - 1); [|lia].
    split; [apply Z.div_pos; lia | apply Z.div_lt_upper_bound; nia]. }
  split; [apply w64_id; lia | exact RR].
Qed.
Lemma rint_eq x : 0 <= x < 2 ^ 64 -> fexp x <= 1085 ->
  let a := if 1085 - fexp x <? 64 then rnd (m63 x) (1085 - fexp x) else 0 in
  fpr_rint x = (if fsign x =? 1 then - a else a).
Proof.
  intros H E a. destruct (fields x H) as (S & E0 & _ & _). pose proof (m63_range x H) as B. cbv beta delta [fpr_rint].
  rewrite exp_ok, m63_ok by assumption. cbv zeta. rewrite small_mask by lia. rewrite mask_neg by (try apply bit_range; lia). rewrite eqb_bit, land63.
  pose proof (Z.mod_pos_bound (1085 - fexp x) 64 ltac:(lia)) as C.
  set (m := if 1085 - fexp x <? 64 then m63 x else 0). assert (Hm : 0 <= m < 2 ^ 63 - 1) by (subst m; destruct (_ <? _); lia).
  destruct (rint_core m ((1085 - fexp x) mod 64) Hm C) as [R1 R2]. cbv zeta in R1. rewrite R1.
  assert (EA : rnd m ((1085 - fexp x) mod 64) = a).
  { subst m a. destruct (Z.ltb_spec (1085 - fexp x) 64) as [L|L]; [rewrite Z.mod_small by lia; reflexivity|].
    unfold rnd. rewrite Z.mul_0_r, Z.mod_0_l, Z.div_0_l by (apply Z.pow_nonzero; lia). reflexivity. }
  rewrite EA in *. clearbody a. rewrite (shiftr_div x 63) by lia. fold (fsign x). rewrite (w32_id (fsign x)) by lia. rewrite (s64_id a) by lia. rewrite cond_neg by assumption.
  apply s64_id. destruct (_ =? 1); lia.
Qed.
Theorem rint_ok x : usable x -> (Rabs (val x) < powerRZ 2 63)%R ->
  (Rabs (IZR (fpr_rint x) - val x) <= / 2)%R /\ (Rabs (IZR (fpr_rint x) - val x) = (/ 2)%R -> Z.even (fpr_rint x) = true).
Proof.
  intros U L. destruct (normal_dec x) as [N|N].
  - destruct (m63_val x N L) as [E V]. pose proof N as [[R _] _]. rewrite rint_eq by lia. pose proof (m63_range x R) as B.
    set (a := if 1085 - fexp x <? 64 then rnd (m63 x) (1085 - fexp x) else 0).
    assert (G : (Rabs (IZR a - IZR (m63 x) / IZR (2 ^ (1085 - fexp x))) <= / 2)%R /\ (Rabs (IZR a - IZR (m63 x) / IZR (2 ^ (1085 - fexp x))) = (/ 2)%R -> Z.even a = true)).
    { assert (P : 0 < 2 ^ (1085 - fexp x)) by (apply Z.pow_pos_nonneg; lia). assert (PR : (0 < IZR (2 ^ (1085 - fexp x)))%R) by (apply IZR_lt; lia).
      subst a. destruct (Z.ltb_spec (1085 - fexp x) 64) as [Lt|Ge].
      - pose proof (sticky_rne _ _ (sticky_drop (4 * m63 x) (1085 - fexp x) ltac:(lia))) as G. fold (rnd (m63 x) (1085 - fexp x)) in G.
        replace (IZR (4 * m63 x) / IZR (2 ^ (1085 - fexp x)) / 4)%R with (IZR (m63 x) / IZR (2 ^ (1085 - fexp x)))%R in G; [exact G|].
        rewrite mult_IZR. set (A := IZR (2 ^ (1085 - fexp x))) in *. clearbody A. field. lra.
      - assert (Q : (0 <= IZR (m63 x) / IZR (2 ^ (1085 - fexp x)) < / 2)%R).
        { split; [apply Rmult_le_pos; [apply IZR_le; lia | left; apply Rinv_0_lt_compat; assumption]|].
          apply Rmult_lt_reg_r with (IZR (2 ^ (1085 - fexp x))); [assumption|]. unfold Rdiv. rewrite Rmult_assoc, Rinv_l, Rmult_1_r by lra.
          assert (2 ^ 64 <= 2 ^ (1085 - fexp x)) by (apply Z.pow_le_mono_r; lia). assert (2 * m63 x < 2 ^ (1085 - fexp x)) as W by lia. apply IZR_lt in W. rewrite mult_IZR in W. lra. }
        split; [rewrite Rabs_left1 by lra; lra|]. intros _. reflexivity. }
    destruct G as [G1 G2]. clearbody a. rewrite V. set (r := (IZR (m63 x) / IZR (2 ^ (1085 - fexp x)))%R) in *. clearbody r.
    unfold sgn. destruct (fsign x =? 1).
    + assert (EQ : (Rabs (IZR (- a) - -1 * r) = Rabs (IZR a - r))%R) by (rewrite opp_IZR, <- Rabs_Ropp; f_equal; ring). rewrite EQ, Z.even_opp. split; assumption.
    + rewrite Rmult_1_l. split; assumption.
  - destruct (zero_exp x U N) as (C & E & M & V & R). rewrite V.
    assert (T : fpr_rint x = 0) by (destruct C as [-> | ->]; vm_compute; reflexivity). rewrite T. rewrite Rminus_diag_eq, Rabs_R0 by reflexivity. split; [lra | reflexivity].
Qed.
