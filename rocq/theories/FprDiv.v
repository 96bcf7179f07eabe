(** fpr_div and fpr_sqrt are correctly rounded. *)
From Coq Require Import Reals Lra.
From Verif Require Import Base FprModel FprSpec FprBits FprRound FprMul.
Open Scope Z_scope.

(** b = ((xu - t) >> 63) - 1: all ones when t <= xu *)
Lemma ge_mask xu t : 0 <= xu < 2 ^ 63 -> 0 <= t < 2 ^ 63 -> w64 (Z.shiftr (w64 (xu - t)) 63 - 1) = if t <=? xu then 2 ^ 64 - 1 else 0.
Proof.
  intros Hx Ht. rewrite neg64 by lia. destruct (Z.ltb_spec (xu - t) 0), (Z.leb_spec t xu); try lia; reflexivity.
Qed.
Lemma land_ge v xu t : 0 <= v < 2 ^ 64 -> Z.land v (if t <=? xu then 2 ^ 64 - 1 else 0) = if t <=? xu then v else 0.
Proof. intros H. destruct (t <=? xu); [rewrite land_low by lia; apply Z.mod_small; exact H | apply Z.land_0_r]. Qed.

Lemma div_step_ok yu xu q : 0 < yu < 2 ^ 53 -> 0 <= xu < 2 * yu -> 0 <= q < 2 ^ 62 -> Z.even q = true ->
  div_step yu (xu, q) = if yu <=? xu then (2 * (xu - yu), 2 * (q + 1)) else (2 * xu, 2 * q).
Proof.
  intros Hy Hx Hq E. cbv beta iota zeta delta [div_step]. rewrite ge_mask by lia. rewrite (Z.land_comm _ yu), (Z.land_comm _ 1). rewrite !land_ge by lia.
  destruct (Z.leb_spec yu xu) as [L|L].
  - rewrite (w64_id (xu - yu)) by lia. rewrite lor1. apply Z.even_spec in E. destruct E as [k ->]. rewrite (Z.mul_comm 2 k), Z.div_mul by lia.
    rewrite !shiftl_mul by lia. change (2 ^ 1) with 2. rewrite !w64_id by lia. f_equal; lia.
  - rewrite Z.sub_0_r, Z.lor_0_r. rewrite (w64_id xu) by lia. rewrite !shiftl_mul by lia. change (2 ^ 1) with 2. rewrite !w64_id by lia. f_equal; lia.
Qed.
Lemma div_loop yu x0 n : 2 ^ 52 <= yu < 2 ^ 53 -> 2 ^ 52 <= x0 < 2 ^ 53 -> (n <= 55)%nat ->
  exists x q, Nat.iter n (div_step yu) (x0, 0) = (x, q) /\ 0 <= x < 2 * yu /\ 0 <= q /\ Z.even q = true /\ x + q * yu = 2 ^ Z.of_nat n * x0.
Proof.
  intros Hy Hx. induction n as [|n IH]; intros Hn.
  - exists x0, 0. split; [reflexivity|]. repeat split; try lia.
  - destruct (IH ltac:(lia)) as (x & q & E & Bx & Bq & Ev & I). change (Nat.iter (S n) (div_step yu) (x0, 0)) with (div_step yu (Nat.iter n (div_step yu) (x0, 0))); rewrite E.
    assert (Bq' : q < 2 ^ 62).
    { assert (2 ^ Z.of_nat n <= 2 ^ 54) by (apply Z.pow_le_mono_r; lia). nia. }
    rewrite div_step_ok by (try assumption; lia). rewrite Nat2Z.inj_succ, Z.pow_succ_r by lia.
    destruct (Z.leb_spec yu x) as [L|L].
    + exists (2 * (x - yu)), (2 * (q + 1)). split; [reflexivity|]. split; [lia|]. split; [lia|]. split; [rewrite Z.even_mul; reflexivity|]. lia.
    + exists (2 * x), (2 * q). split; [reflexivity|]. split; [lia|]. split; [lia|]. split; [rewrite Z.even_mul; reflexivity|]. lia.
Qed.
Lemma even_lor q (b : bool) : Z.even q = true -> Z.lor q (if b then 0 else 1) = q + (if b then 0 else 1).
Proof.
  intros E. destruct b; [rewrite Z.lor_0_r; lia|]. rewrite lor1. apply Z.even_spec in E. destruct E as [k ->]. rewrite (Z.mul_comm 2 k), Z.div_mul by lia. lia.
Qed.

Theorem div_rounded x y : usable x -> normal y ->
  rounded (val x / val y) (fpr_div x y) /\ ((Rabs (val x / val y) <= largest)%R -> fsign (fpr_div x y) = if fexp x =? 0 then 0 else Z.lxor (fsign x) (fsign y)).
Proof.
  intros Ux Ny. destruct (usable_cases x Ux) as (Rx & Cx). destruct (usable_cases y (or_introl Ny)) as (Ry & Cy).
  destruct Cy as [[Ey' Vy]|(Ey' & _)]; [|destruct Ny as [_ Ny]; lia].
  destruct (fields x Rx) as (Sx & Ex & Mx & _). destruct (fields y Ry) as (Sy & Ey & My & _).
  destruct (sgn_xor (fsign x) (fsign y) Sx Sy) as [SX SR].
  unfold fpr_div. rewrite (mantissa_ok x Rx), (mantissa_ok y Ry).
  set (xu := 2 ^ 52 + fmant x) in *. set (yu := 2 ^ 52 + fmant y) in *. assert (Bx : 2 ^ 52 <= xu < 2 ^ 53) by lia. assert (By : 2 ^ 52 <= yu < 2 ^ 53) by lia. clearbody xu yu.
  destruct (div_loop yu xu 55 By Bx (le_n 55)) as (x' & q & -> & Bx' & Bq & Ev & I). change (Z.of_nat 55) with 55 in I.
  rewrite nonzero64 by lia. rewrite even_lor by exact Ev. set (q1 := q + _).
  assert (YR : (0 < IZR yu)%R) by (apply IZR_lt; lia).
  assert (BQ : 2 ^ 54 <= q1 < 2 ^ 56).
  { apply Z.even_spec in Ev. destruct Ev as [k ->]. assert (2 ^ 53 <= k) by nia. assert (2 * k < 2 ^ 56) by nia. subst q1. destruct (x' =? 0); lia. }
  assert (S : sticky q1 (IZR (2 ^ 55) * IZR xu / IZR yu)).
  { assert (M : (IZR (2 ^ 55) * IZR xu / IZR yu = IZR q + IZR x' / IZR yu)%R).
    { rewrite <- mult_IZR, <- I, plus_IZR, mult_IZR. field. lra. }
    rewrite M. subst q1. destruct (Z.eqb_spec x' 0) as [->|N].
    - left. rewrite Z.add_0_r. unfold Rdiv. rewrite Rmult_0_l. ring.
    - right. split; [rewrite Z.odd_add, <- Z.negb_even, Ev; reflexivity|]. rewrite plus_IZR.
      assert (0 < IZR x' / IZR yu < 2)%R; [|lra]. split.
      + apply Rdiv_lt_0_compat; [apply IZR_lt; lia | assumption].
      + apply Rmult_lt_reg_r with (IZR yu); [assumption|]. unfold Rdiv. rewrite Rmult_assoc, Rinv_l, Rmult_1_r by lra. rewrite <- mult_IZR. apply IZR_lt. lia. }
  clearbody q1. destruct (norm_one_ok q1 _ BQ S) as (z & w & -> & Hw & Hz & S').
  rewrite !exp_ok, sign_xor, exp_flag by assumption.
  destruct Cx as [[Ex' Vx]|(Ex' & _ & Vx)].
  - replace (fexp x =? 0) with false by (symmetry; apply Z.eqb_neq; lia). cbv iota.
    replace (Z.land (Z.lxor (fsign x) (fsign y)) 1) with (Z.lxor (fsign x) (fsign y)).
    2:{ rewrite land_bit. symmetry. apply Z.mod_small. lia. }
    rewrite mask_neg_int by lia. rewrite mask_neg by lia. change (1 =? 1) with true. cbv iota.
    assert (E : (val x / val y = sgn (Z.lxor (fsign x) (fsign y)) * (IZR (2 ^ 55) * IZR xu / IZR yu / powerRZ 2 w) * powerRZ 2 (fexp x - fexp y - 55 + w))%R).
    { rewrite Vx, Vy, SX. assert (PE : (powerRZ 2 (fexp x - 1075) = powerRZ 2 (fexp x - fexp y - 55 + w) * powerRZ 2 (fexp y - 1075) * IZR (2 ^ 55) / powerRZ 2 w)%R).
      { replace (fexp x - 1075) with ((fexp x - fexp y - 55 + w) + (fexp y - 1075) + 55 + - w) by lia. rewrite !p2_add, (p2_nat 55) by lia.
        assert (powerRZ 2 w * powerRZ 2 (- w) = 1)%R by (rewrite <- p2_add, Z.add_opp_diag_r; reflexivity). pose proof (p2_pos w).
        replace (powerRZ 2 (- w)) with (/ powerRZ 2 w)%R; [unfold Rdiv; ring|]. apply Rmult_eq_reg_l with (powerRZ 2 w); [|lra]. rewrite Rinv_r by lra. lra. }
      rewrite PE. pose proof (p2_pos w) as W. pose proof (p2_pos (fexp y - 1075)) as PY.
      assert (SS : (sgn (fsign y) = 1 \/ sgn (fsign y) = -1)%R) by (unfold sgn; destruct (_ =? _); [right | left]; reflexivity).
      set (W' := powerRZ 2 w) in *. set (Y' := powerRZ 2 (fexp y - 1075)) in *. set (C := IZR (2 ^ 55)). set (sy := sgn (fsign y)) in *. clearbody W' Y' C sy.
      destruct SS as [-> | ->]; field; repeat split; lra. }
    rewrite E. apply FPR_rounds; try assumption. lia.
  - rewrite Ex'. change (0 =? 0) with true. cbv iota. rewrite Z.land_0_r, !Z.opp_0. change (w64 0) with 0. rewrite !Z.land_0_r. rewrite FPR_zero by lia.
    rewrite Vx. unfold Rdiv. rewrite Rmult_0_l. split; [apply (rounded_zero 0); lia | intros _; reflexivity].
Qed.

(** ** Square root *)
Lemma iter_S {A} n (f : A -> A) x : Nat.iter (S n) f x = f (Nat.iter n f x).
Proof. reflexivity. Qed.
Lemma pair_eq4 (a b c d a' b' c' d' : Z) : a = a' -> b = b' -> c = c' -> d = d' -> (a, b, c, d) = (a', b', c', d').
Proof. congruence. Qed.
Lemma sqrt_step_ok xu q r : 0 <= q < 2 ^ 54 -> 0 <= r <= 2 ^ 53 -> 0 <= xu < 2 ^ 57 ->
  sqrt_step (xu, q, 2 * q, r) = if 2 * q + r <=? xu then (2 * (xu - (2 * q + r)), q + r, 2 * (q + r), r / 2) else (2 * xu, q, 2 * q, r / 2).
Proof.
  intros Hq Hr Hx. cbv beta iota zeta delta [sqrt_step]. rewrite (w64_id (2 * q + r)) by lia. rewrite ge_mask by lia. rewrite (shiftl_mul r 1) by lia. change (2 ^ 1) with 2.
  rewrite (w64_id (r * 2)) by lia. rewrite !land_ge by lia. rewrite (shiftr_div r 1) by lia. change (2 ^ 1) with 2.
  destruct (Z.leb_spec (2 * q + r) xu) as [L|L].
  - rewrite (w64_id (xu - (2 * q + r))) by lia. rewrite shiftl_mul by lia. change (2 ^ 1) with 2. rewrite !w64_id by lia. apply pair_eq4; lia.
  - rewrite Z.sub_0_r, !Z.add_0_r. rewrite (w64_id xu) by lia. rewrite shiftl_mul by lia. change (2 ^ 1) with 2. rewrite !w64_id by lia. apply pair_eq4; lia.
Qed.
Lemma sqrt_loop X n : 2 ^ 53 <= X < 2 ^ 55 -> (n <= 53)%nat ->
  let r := 2 ^ (53 - Z.of_nat n) in
  exists x q, Nat.iter n sqrt_step (X, 0, 0, 2 ^ 53) = (x, q, 2 * q, r) /\ 0 <= x < 4 * q + 4 * r /\ 0 <= q /\ x * r = X * 2 ^ 53 - q * q.
Proof.
  intros HX. induction n as [|n IH]; intros Hn r.
  - exists X, 0. split; [reflexivity|]. subst r. change (2 ^ (53 - Z.of_nat 0)) with (2 ^ 53). lia.
  - destruct (IH ltac:(lia)) as (x & q & E & Bx & Bq & I). change (Nat.iter (S n) sqrt_step (X, 0, 0, 2 ^ 53)) with (sqrt_step (Nat.iter n sqrt_step (X, 0, 0, 2 ^ 53))); rewrite E. set (r0 := 2 ^ (53 - Z.of_nat n)) in *.
    assert (R : r0 = 2 * r). { subst r r0. replace (53 - Z.of_nat n) with (1 + (53 - Z.of_nat (S n))) by lia. rewrite pow_split by lia. reflexivity. }
    assert (Pr : 0 < r) by (apply Z.pow_pos_nonneg; lia). assert (Pr0 : r0 <= 2 ^ 53) by (apply Z.pow_le_mono_r; lia). clearbody r r0.
    assert (Bq2 : q < 2 ^ 54) by nia.
    rewrite sqrt_step_ok by lia. rewrite R. rewrite (Z.mul_comm 2 r), Z.div_mul by lia.
    destruct (Z.leb_spec (2 * q + r * 2) x) as [L|L].
    + exists (2 * (x - (2 * q + r * 2))), (q + r * 2). split; [reflexivity|]. split; [lia|]. split; [lia|]. nia.
    + exists (2 * x), q. split; [reflexivity|]. split; [lia|]. split; [lia|]. nia.
Qed.
Lemma sqrt_result X : 2 ^ 53 <= X < 2 ^ 55 ->
  exists x q s r, Nat.iter 54 sqrt_step (X, 0, 0, 2 ^ 53) = (x, q, s, r) /\ 0 <= x < 2 ^ 58 /\ 2 ^ 53 <= q < 2 ^ 54 /\ x = 2 * (X * 2 ^ 53 - q * q) /\ x < 4 * q + 2.
Proof.
  intros HX. destruct (sqrt_loop X 53 HX (le_n 53)) as (x & q & E & Bx & Bq & I). change (2 ^ (53 - Z.of_nat 53)) with 1 in *.
  rewrite (iter_S 53), E.
  assert (Bq2 : q < 2 ^ 54) by nia.
  rewrite sqrt_step_ok by lia. destruct (Z.leb_spec (2 * q + 1) x) as [L|L].
  - eexists _, _, _, _. split; [reflexivity|]. split; [lia|]. split; [nia|]. split; [nia|lia].
  - eexists _, _, _, _. split; [reflexivity|]. split; [lia|]. split; [nia|]. split; [nia|lia].
Qed.

Theorem sqrt_rounded x : usable x -> fsign x = 0 -> rounded (sqrt (val x)) (fpr_sqrt x) /\ fsign (fpr_sqrt x) = 0.
Proof.
  intros Ux S0. destruct (usable_cases x Ux) as (Rx & Cx). destruct (fields x Rx) as (Sx & Ex & Mx & _).
  unfold fpr_sqrt. rewrite (mantissa_ok x Rx), exp_ok, land_bit, exp_flag by assumption.
  set (m := 2 ^ 52 + fmant x) in *. assert (Bm : 2 ^ 52 <= m < 2 ^ 53) by lia. clearbody m.
  pose proof (Z.mod_pos_bound (fexp x - 1023) 2 ltac:(lia)) as Bp. pose proof (Z.div_mod (fexp x - 1023) 2 ltac:(lia)) as Dp.
  rewrite (shiftr_div (fexp x - 1023) 1) by lia. change (2 ^ 1) with 2. set (p := (fexp x - 1023) mod 2) in *. set (h := (fexp x - 1023) / 2) in *. clearbody p h.
  rewrite mask_neg by lia.
  assert (EX : w64 (Z.shiftl (w64 (m + (if p =? 1 then m else 0))) 1) = m * 2 ^ p * 2).
  { assert (C : p = 0 \/ p = 1) by lia. destruct C as [-> | ->]; cbv iota; [change (0 =? 1) with false | change (1 =? 1) with true]; cbv iota; rewrite shiftl_mul by lia;
    [change (2 ^ 0) with 1 | idtac]; change (2 ^ 1) with 2; rewrite (w64_id (m + _)) by lia; rewrite w64_id by lia; lia. }
  rewrite EX. set (X := m * 2 ^ p * 2) in *.
  assert (BX : 2 ^ 53 <= X < 2 ^ 55).
  { subst X. assert (C : p = 0 \/ p = 1) by lia. destruct C as [-> | ->]; [change (2 ^ 0) with 1 | change (2 ^ 1) with 2]; lia. }
  change (Z.shiftl 1 53) with (2 ^ 53). destruct (sqrt_result X BX) as (x' & q & s & r & -> & Bx' & Bq & I & Bu).
  rewrite shiftl_mul by lia. change (2 ^ 1) with 2. rewrite (w64_id (q * 2)) by lia. rewrite nonzero64 by lia.
  rewrite even_lor by (rewrite Z.even_mul; apply orb_true_r). set (v := q * 2 + _).
  assert (BV : 2 ^ 54 <= v < 2 ^ 55) by (subst v; destruct (x' =? 0); lia).
  set (mu := (2 * sqrt (IZR (X * 2 ^ 53)))%R).
  assert (SV : sticky v mu).
  { assert (Q0 : (0 <= IZR q)%R) by (apply IZR_le; lia).
    subst v mu. destruct (Z.eqb_spec x' 0) as [Z0|N].
    - left. assert (EQ : X * 2 ^ 53 = q * q) by lia. rewrite EQ, Z.add_0_r, !mult_IZR, sqrt_square by assumption. ring.
    - right. split; [rewrite Z.odd_add, Z.odd_mul, andb_false_r; reflexivity|]. rewrite plus_IZR, mult_IZR.
      assert (L : (IZR q < sqrt (IZR (X * 2 ^ 53)))%R).
      { rewrite <- (sqrt_square (IZR q)) at 1 by assumption. apply sqrt_lt_1_alt. rewrite <- mult_IZR. split; [apply IZR_le; nia | apply IZR_lt; lia]. }
      assert (U : (sqrt (IZR (X * 2 ^ 53)) < IZR q + 1)%R).
      { rewrite <- (sqrt_square (IZR q + 1)) by lra. apply sqrt_lt_1_alt. rewrite <- plus_IZR, <- mult_IZR. split; [apply IZR_le; nia | apply IZR_lt; lia]. }
      lra. }
  clearbody v. destruct Cx as [[Ex' Vx]|(Ex' & _ & Vx)].
  - replace (fexp x =? 0) with false by (symmetry; apply Z.eqb_neq; lia). cbv iota. rewrite mask_neg by lia. change (1 =? 1) with true. cbv iota.
    assert (E : (sqrt (val x) = sgn 0 * mu * powerRZ 2 (h - 54))%R).
    { rewrite Vx, S0. subst mu. unfold sgn. change (0 =? 1) with false. cbv iota.
      assert (V : (1 * IZR m * powerRZ 2 (fexp x - 1075) = IZR (X * 2 ^ 53) * (powerRZ 2 (h - 53) * powerRZ 2 (h - 53)))%R).
      { rewrite <- p2_add. subst X. rewrite !mult_IZR. rewrite <- (p2_nat p), <- (p2_nat 53) by lia. change 2%R with (powerRZ 2 1) at 3 || idtac.
        replace (fexp x - 1075) with (p + 1 + 53 + (h - 53 + (h - 53))) by lia. rewrite (p2_add _ (h - 53 + (h - 53))), (p2_add (p + 1)), (p2_add p 1). change (powerRZ 2 1) with (2 * 1)%R. ring. }
      rewrite V. rewrite sqrt_mult; [|apply IZR_le; nia|apply Rmult_le_pos; left; apply p2_pos]. rewrite sqrt_square by (left; apply p2_pos).
      replace (h - 53) with (h - 54 + 1) by lia. rewrite (p2_add (h - 54) 1). change (powerRZ 2 1) with (2 * 1)%R. ring. }
    assert (LG : (Rabs (sqrt (val x)) <= largest)%R).
    { rewrite E. unfold sgn. change (0 =? 1) with false. cbv iota. rewrite Rmult_1_l. destruct (sticky_bounds v mu BV SV) as [B1 B2].
      rewrite Rabs_right by (apply Rle_ge, Rmult_le_pos; [apply Rle_trans with (2 := B1); apply IZR_le; lia | left; apply p2_pos]).
      unfold largest. apply Rle_trans with (IZR (2 ^ 55) * powerRZ 2 900)%R.
      - apply Rmult_le_compat; [apply Rle_trans with (2 := B1); apply IZR_le; lia | left; apply p2_pos | lra | apply p2_mono; lia].
      - assert (P971 : (powerRZ 2 971 = powerRZ 2 900 * IZR (2 ^ 71))%R) by (rewrite <- (p2_nat 71), <- p2_add by lia; reflexivity).
        rewrite P971, (Rmult_comm (powerRZ 2 900)), <- Rmult_assoc. apply Rmult_le_compat_r; [left; apply p2_pos|]. rewrite <- mult_IZR. apply IZR_le. lia. }
    destruct (FPR_rounds 0 (h - 54) v mu ltac:(lia) BV SV ltac:(lia)) as [F1 F2]. rewrite <- E in F1, F2. split; [exact F1 | apply F2; exact LG].
  - rewrite Ex'. change (0 =? 0) with true. cbv iota. rewrite Z.opp_0. change (w64 0) with 0. rewrite Z.land_0_r. rewrite FPR_zero by lia.
    rewrite Vx, sqrt_0. split; [apply (rounded_zero 0); lia | reflexivity].
Qed.
