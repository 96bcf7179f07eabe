(** Packing and rounding: FPR applied to a 55-bit mantissa with a sticky low bit is round-to-nearest-even. *)
From Coq Require Import Reals Lra.
From Verif Require Import Base FprModel FprSpec FprBits.

(** ** Fields of an encoding *)
Lemma field_sign s K : 0 <= K < 2 ^ 63 -> fsign (s * 2 ^ 63 + K) = s.
Proof. intros H. unfold fsign. symmetry. apply Z.div_unique_pos with (r := K); lia. Qed.
Lemma field_mant s E M : 0 <= M < 2 ^ 52 -> fmant (s * 2 ^ 63 + (E * 2 ^ 52 + M)) = M.
Proof. intros H. unfold fmant. symmetry. apply Z.mod_unique_pos with (q := s * 2 ^ 11 + E); lia. Qed.
Lemma field_exp s E M : 0 <= M < 2 ^ 52 -> 0 <= E < 2 ^ 11 -> fexp (s * 2 ^ 63 + (E * 2 ^ 52 + M)) = E.
Proof.
  intros H HE. unfold fexp.
  replace ((s * 2 ^ 63 + (E * 2 ^ 52 + M)) / 2 ^ 52) with (s * 2 ^ 11 + E) by (apply Z.div_unique_pos with (r := M); lia).
  symmetry. apply Z.mod_unique_pos with (q := s); lia.
Qed.
Lemma fields x : 0 <= x < 2 ^ 64 -> 0 <= fsign x <= 1 /\ 0 <= fexp x < 2 ^ 11 /\ 0 <= fmant x < 2 ^ 52 /\ x = fsign x * 2 ^ 63 + (fexp x * 2 ^ 52 + fmant x).
Proof.
  intros H. pose proof (div_range x 63 1 ltac:(lia) ltac:(lia) H) as A. unfold fsign, fexp, fmant. change (2 ^ 1) with 2 in A.
  pose proof (Z.mod_pos_bound (x / 2 ^ 52) (2 ^ 11) ltac:(lia)) as B. pose proof (Z.mod_pos_bound x (2 ^ 52) ltac:(lia)) as C.
  split; [lia|]. split; [assumption|]. split; [assumption|].
  pose proof (Z.div_mod x (2 ^ 52) ltac:(lia)) as D. pose proof (Z.div_mod (x / 2 ^ 52) (2 ^ 11) ltac:(lia)) as E.
  rewrite Z.div_div in E by lia. change (2 ^ 52 * 2 ^ 11) with (2 ^ 63) in E. lia.
Qed.

(** ** Packing *)
Definition up (m : Z) : Z := Z.land (Z.shiftr 0xC8 (m mod 8)) 1.
Definition rne (m : Z) : Z := m / 4 + up m.
Lemma land_bit z : Z.land z 1 = z mod 2.
Proof. exact (land_low z 1 ltac:(lia)). Qed.
Lemma up_range m : 0 <= up m <= 1.
Proof. unfold up. rewrite land_bit. pose proof (Z.mod_pos_bound (Z.shiftr 0xC8 (m mod 8)) 2 ltac:(lia)). lia. Qed.
Lemma rne_range m : 2 ^ 54 <= m < 2 ^ 55 -> 2 ^ 52 <= rne m <= 2 ^ 53.
Proof.
  intros H. pose proof (up_range m). unfold rne. pose proof (Z.div_mod m 4 ltac:(lia)). pose proof (Z.mod_pos_bound m 4 ltac:(lia)). lia.
Qed.
Lemma FPR_bits s e m : 0 <= s <= 1 -> 2 ^ 54 <= m < 2 ^ 55 -> 0 <= e + 1076 -> (e + 1076) * 2 ^ 52 + rne m < 2 ^ 63 ->
  FPR s e m = s * 2 ^ 63 + ((e + 1076) * 2 ^ 52 + rne m).
Proof.
  intros Hs Hm He Ho. pose proof (rne_range m Hm) as RR. pose proof (up_range m) as UR.
  assert (HE : e + 1076 < 2 ^ 11) by lia.
  cbv beta zeta delta [FPR]. rewrite neg32 by lia.
  replace (e + 1076 <? 0) with false by (symmetry; apply Z.ltb_ge; lia). cbv iota.
  rewrite (mask_pred m 0) by lia. change (0 =? 1) with false. cbv iota.
  rewrite (shiftr_div m 54) by lia. replace (m / 2 ^ 54) with 1 by (apply Z.div_unique_pos with (r := m - 2 ^ 54); lia).
  change (w32 1) with 1. rewrite mask_neg_int by lia. change (1 =? 1) with true. cbv iota.
  rewrite (w32_id (e + 1076)) by lia. rewrite (shiftl_mul s 63), (shiftl_mul (e + 1076) 52) by lia.
  rewrite (w64_id (s * 2 ^ 63)) by lia. rewrite (w64_id ((e + 1076) * 2 ^ 52)) by lia.
  rewrite (shiftr_div m 2) by lia. change (2 ^ 2) with 4.
  pose proof (Z.div_mod m 4 ltac:(lia)) as D4. pose proof (Z.mod_pos_bound m 4 ltac:(lia)) as M4.
  rewrite lor_add by lia.
  assert (E7 : Z.land (w32 m) 7 = m mod 8).
  { change 7 with (2 ^ 3 - 1). rewrite land_low by lia. unfold w32. change (2 ^ 3) with 8.
    symmetry. apply Z.mod_unique_pos with (q := m / 8 - 2 ^ 29 * (m / 2 ^ 32)); [apply Z.mod_pos_bound; lia|].
    pose proof (Z.div_mod m 8 ltac:(lia)). pose proof (Z.div_mod m (2 ^ 32) ltac:(lia)). lia. }
  rewrite E7. fold (up m). unfold rne in *.
  rewrite (w64_id (s * 2 ^ 63 + m / 4 + (e + 1076) * 2 ^ 52)) by lia. rewrite w64_id by lia. lia.
Qed.
Lemma FPR_zero s e : 0 <= s <= 1 -> - 2 ^ 30 <= e <= 2 ^ 30 -> FPR s e 0 = s * 2 ^ 63.
Proof.
  intros Hs He. cbv beta zeta delta [FPR]. rewrite Z.land_0_l. change (w32 (Z.shiftr 0 54)) with 0. change (- 0) with 0.
  rewrite Z.land_0_r. change (w64 (Z.shiftl (w32 0) 52)) with 0. change (Z.shiftr 0 2) with 0. rewrite Z.lor_0_r, Z.add_0_r.
  change (Z.land (w32 0) 7) with 0. change (Z.land (Z.shiftr 200 0) 1) with 0. rewrite Z.add_0_r, shiftl_mul by lia.
  rewrite (w64_id (s * 2 ^ 63)) by lia. rewrite !(w64_id (s * 2 ^ 63)) by lia. reflexivity.
Qed.
Lemma FPR_small s e m : 0 <= s <= 1 -> 0 <= m < 2 ^ 64 -> - 2 ^ 30 <= e < -1076 -> FPR s e m = s * 2 ^ 63.
Proof.
  intros Hs Hm He. rewrite <- (FPR_zero s e) by lia.
  assert (E : forall m', 0 <= m' < 2 ^ 64 -> Z.land m' (w64 (Z.shiftr (w32 (e + 1076)) 31 - 1)) = 0).
  { intros m' Hm'. rewrite neg32 by lia. replace (e + 1076 <? 0) with true by (symmetry; apply Z.ltb_lt; lia). cbv iota.
    rewrite mask_pred by lia. reflexivity. }
  cbv beta zeta delta [FPR]. rewrite (E m Hm), (E 0 ltac:(lia)). reflexivity.
Qed.

(** ** Values *)
Open Scope R_scope.
Lemma p2_pos e : 0 < powerRZ 2 e. Proof. apply powerRZ_lt. lra. Qed.
Lemma p2_add a b : powerRZ 2 (a + b) = powerRZ 2 a * powerRZ 2 b. Proof. apply powerRZ_add. lra. Qed.
Lemma p2_nat k : (0 <= k)%Z -> powerRZ 2 k = IZR (2 ^ k).
Proof.
  intros H. rewrite <- (Z2Nat.id k H). rewrite <- pow_powerRZ. rewrite pow_IZR. reflexivity.
Qed.
Lemma sgn_sq s : sgn s * sgn s = 1. Proof. unfold sgn. destruct (_ =? _)%Z; lra. Qed.
Lemma sgn_abs s : Rabs (sgn s) = 1. Proof. unfold sgn. destruct (_ =? _)%Z; [rewrite Rabs_left|rewrite Rabs_right]; lra. Qed.

Lemma val_zero s : (0 <= s <= 1)%Z -> val (s * 2 ^ 63) = 0 /\ usable (s * 2 ^ 63) /\ double (s * 2 ^ 63).
Proof.
  intros H. assert (E : s = 0%Z \/ s = 1%Z) by lia. destruct E as [-> | ->].
  - split; [|split].
    + unfold val. change (fexp (0 * 2 ^ 63) =? 0)%Z with true. cbv iota. change (fmant (0 * 2 ^ 63)) with 0%Z. ring.
    + right; left; reflexivity.
    + split; [lia|vm_compute; discriminate].
  - split; [|split].
    + unfold val. change (fexp (1 * 2 ^ 63) =? 0)%Z with true. cbv iota. change (fmant (1 * 2 ^ 63)) with 0%Z. ring.
    + right; right; reflexivity.
    + split; [lia|vm_compute; discriminate].
Qed.
(** the encoding with exponent field e + 1076 and a mantissa M in [2^52, 2^53] that may carry *)
Lemma val_packed s e M : (0 <= s <= 1)%Z -> (2 ^ 52 <= M <= 2 ^ 53)%Z -> (0 <= e + 1076)%Z -> ((e + 1076) * 2 ^ 52 + M < 2047 * 2 ^ 52)%Z ->
  let x := (s * 2 ^ 63 + ((e + 1076) * 2 ^ 52 + M))%Z in
  normal x /\ val x = sgn s * IZR M * powerRZ 2 (e + 2) /\ Z.even (fmant x) = Z.even M /\ fsign x = s.
Proof.
  intros Hs HM He Ho x.
  destruct (Z.eq_dec M (2 ^ 53)) as [->|NM].
  - assert (Ex : x = (s * 2 ^ 63 + ((e + 1078) * 2 ^ 52 + 0))%Z) by (subst x; lia).
    assert (F1 : fexp x = (e + 1078)%Z) by (rewrite Ex; apply field_exp; lia).
    assert (F2 : fmant x = 0%Z) by (rewrite Ex; apply field_mant; lia).
    assert (F3 : fsign x = s) by (subst x; apply field_sign; lia).
    split; [split; [split; [subst x; lia | rewrite F1; lia] | rewrite F1; lia]|]. split; [|split; [rewrite F2; reflexivity | exact F3]].
    unfold val. rewrite F1, F2, F3. replace (e + 1078 =? 0)%Z with false by (symmetry; apply Z.eqb_neq; lia).
    replace (e + 1078 - 1075)%Z with (e + 2 + 1)%Z by lia. rewrite (p2_add (e + 2) 1). change (powerRZ 2 1) with (2 * 1).
    rewrite Z.add_0_r. change (2 ^ 53)%Z with (2 * 2 ^ 52)%Z. rewrite (mult_IZR 2). ring.
  - assert (Ex : x = (s * 2 ^ 63 + ((e + 1077) * 2 ^ 52 + (M - 2 ^ 52)))%Z) by (subst x; lia).
    assert (F1 : fexp x = (e + 1077)%Z) by (rewrite Ex; apply field_exp; lia).
    assert (F2 : fmant x = (M - 2 ^ 52)%Z) by (rewrite Ex; apply field_mant; lia).
    assert (F3 : fsign x = s) by (subst x; apply field_sign; lia).
    split; [split; [split; [subst x; lia | rewrite F1; lia] | rewrite F1; lia]|]. split; [|split; [rewrite F2, Z.even_sub; destruct (Z.even M); reflexivity | exact F3]].
    unfold val. rewrite F1, F2, F3. replace (e + 1077 =? 0)%Z with false by (symmetry; apply Z.eqb_neq; lia).
    replace (e + 1077 - 1075)%Z with (e + 2)%Z by lia. replace (2 ^ 52 + (M - 2 ^ 52))%Z with M by lia. reflexivity.
Qed.

(** every double, on the grid of step 2^g with g >= -1074: a whole number of steps, or less than 2^52 steps *)
Lemma on_grid y g : double y -> (-1074 <= g)%Z ->
  (exists K, val y = IZR K * powerRZ 2 g) \/ Rabs (val y) < IZR (2 ^ 52) * powerRZ 2 g.
Proof.
  intros [Hy HE] Hg. destruct (fields y Hy) as (S & E & M & _). unfold val. destruct (Z.eqb_spec (fexp y) 0) as [E0|E0].
  - destruct (Z.eq_dec g (-1074)) as [->|N].
    + left. exists ((if fsign y =? 1 then -1 else 1) * fmant y)%Z. rewrite mult_IZR. unfold sgn. destruct (_ =? _)%Z; reflexivity.
    + right. rewrite Rabs_mult, Rabs_mult, sgn_abs, (Rabs_right (powerRZ 2 _)) by (left; apply p2_pos).
      rewrite Rabs_right by (apply Rle_ge, IZR_le; lia). rewrite Rmult_1_l.
      apply Rlt_le_trans with (IZR (2 ^ 52) * powerRZ 2 (-1074)).
      * apply Rmult_lt_compat_r; [apply p2_pos | apply IZR_lt; lia].
      * apply Rmult_le_compat_l; [apply IZR_le; lia|]. replace g with (-1074 + (g + 1074))%Z by lia. rewrite p2_add.
        rewrite <- (Rmult_1_r (powerRZ 2 (-1074))) at 1. apply Rmult_le_compat_l; [left; apply p2_pos|]. rewrite p2_nat by lia.
        apply IZR_le. pose proof (Z.pow_pos_nonneg 2 (g + 1074) ltac:(lia) ltac:(lia)). lia.
  - destruct (Z.le_gt_cases g (fexp y - 1075)) as [L|L].
    + left. exists ((if fsign y =? 1 then -1 else 1) * (2 ^ 52 + fmant y) * 2 ^ (fexp y - 1075 - g))%Z. rewrite !mult_IZR.
      replace (fexp y - 1075)%Z with ((fexp y - 1075 - g) + g)%Z at 1 by lia. rewrite p2_add, (p2_nat (fexp y - 1075 - g)) by lia.
      unfold sgn. destruct (fsign y =? 1)%Z; ring.
    + right. rewrite Rabs_mult, Rabs_mult, sgn_abs, (Rabs_right (powerRZ 2 _)) by (left; apply p2_pos).
      rewrite Rabs_right by (apply Rle_ge, IZR_le; lia). rewrite Rmult_1_l.
      replace g with (fexp y - 1075 + 1 + (g - (fexp y - 1075) - 1))%Z by lia. rewrite !p2_add. change (powerRZ 2 1) with (2 * 1).
      set (P := powerRZ 2 (fexp y - 1075)). assert (0 < P) by apply p2_pos.
      rewrite (p2_nat (g - _ - 1)) by lia. set (Q := IZR (2 ^ (g - (fexp y - 1075) - 1))).
      assert (1 <= Q) by (apply IZR_le; pose proof (Z.pow_pos_nonneg 2 (g - (fexp y - 1075) - 1) ltac:(lia) ltac:(lia)); lia).
      assert (IZR (2 ^ 52 + fmant y) < IZR (2 ^ 53)) by (apply IZR_lt; lia).
      assert (IZR (2 ^ 53) = 2 * IZR (2 ^ 52)) as E53 by (rewrite <- mult_IZR; reflexivity).
      apply Rlt_le_trans with (IZR (2 ^ 53) * P); [apply Rmult_lt_compat_r; assumption|]. rewrite E53.
      replace (IZR (2 ^ 52) * (P * (2 * 1) * Q)) with (2 * IZR (2 ^ 52) * P * Q) by ring.
      rewrite <- (Rmult_1_r (2 * IZR (2 ^ 52) * P)) at 1. apply Rmult_le_compat_l; [|assumption].
      assert (0 < IZR (2 ^ 52)) by (apply IZR_lt; lia). apply Rmult_le_pos; lra.
Qed.

(** ** Rounding *)
Definition sticky (m : Z) (mu : R) : Prop := mu = IZR m \/ (Z.odd m = true /\ IZR m - 1 < mu < IZR m + 1).
Lemma sticky_rne m mu : sticky m mu -> Rabs (IZR (rne m) - mu / 4) <= / 2 /\ (Rabs (IZR (rne m) - mu / 4) = / 2 -> Z.even (rne m) = true).
Proof.
  intros S. pose proof (Z.div_mod m 8 ltac:(lia)) as D. pose proof (Z.mod_pos_bound m 8 ltac:(lia)) as B.
  set (a := (m / 8)%Z) in *. set (b := (m mod 8)%Z) in *.
  assert (U : up m = if (b =? 3)%Z || (b =? 6)%Z || (b =? 7)%Z then 1%Z else 0%Z).
  { unfold up. fold b. clearbody b. assert (C : b = 0%Z \/ b = 1%Z \/ b = 2%Z \/ b = 3%Z \/ b = 4%Z \/ b = 5%Z \/ b = 6%Z \/ b = 7%Z) by lia.
    destruct C as [->|[->|[->|[->|[->|[->|[->| ->]]]]]]]; reflexivity. }
  assert (O : Z.odd m = Z.odd b). { rewrite D, Z.odd_add, Z.odd_mul. change (Z.odd 8) with false. destruct (Z.odd b); reflexivity. }
  assert (Q : (m / 4 = 2 * a + b / 4)%Z).
  { symmetry. apply Z.div_unique_pos with (r := (b mod 4)%Z); [apply Z.mod_pos_bound; lia|]. pose proof (Z.div_mod b 4 ltac:(lia)). lia. }
  assert (EV : forall k, Z.even (2 * a + k) = Z.even k). { intros k. rewrite Z.even_add, Z.even_mul. cbn. destruct (Z.even k); reflexivity. }
  unfold rne. rewrite U, Q. unfold sticky in S. rewrite O in S. rewrite D in S. rewrite plus_IZR, mult_IZR in S. clear D O U Q. clearbody a b.
  assert (C : b = 0%Z \/ b = 1%Z \/ b = 2%Z \/ b = 3%Z \/ b = 4%Z \/ b = 5%Z \/ b = 6%Z \/ b = 7%Z) by lia.
  destruct C as [->|[->|[->|[->|[->|[->|[->| ->]]]]]]]; cbn [Z.odd] in S; cbn [Z.eqb Pos.eqb orb]; change (0 / 4)%Z with 0%Z; change (1 / 4)%Z with 0%Z; change (2 / 4)%Z with 0%Z; change (3 / 4)%Z with 0%Z;
    change (4 / 4)%Z with 1%Z; change (5 / 4)%Z with 1%Z; change (6 / 4)%Z with 1%Z; change (7 / 4)%Z with 1%Z; rewrite ?Z.add_0_r, <- ?Z.add_assoc;
    change (1 + 1)%Z with 2%Z; change (0 + 1)%Z with 1%Z; rewrite ?plus_IZR, ?mult_IZR; (split; [apply Rabs_le; destruct S as [S|[S S']]; try discriminate S; lra|]); intros T;
    try (rewrite ?EV; reflexivity); try (rewrite Z.even_mul; reflexivity); exfalso; revert T; (destruct S as [S|[S S']]; try discriminate S);
    (match goal with |- Rabs ?z = _ -> False => destruct (Rle_dec 0 z); [rewrite Rabs_right by lra | rewrite Rabs_left by lra] end); lra.
Qed.

Lemma nearest_grid s e M rho : (0 <= s <= 1)%Z -> (2 ^ 52 <= M <= 2 ^ 53)%Z -> (0 <= e + 1076)%Z -> ((e + 1076) * 2 ^ 52 + M < 2047 * 2 ^ 52)%Z ->
  IZR (2 ^ 52) <= rho -> Rabs (IZR M - rho) <= / 2 -> (Rabs (IZR M - rho) = / 2 -> Z.even M = true) ->
  nearest (sgn s * rho * powerRZ 2 (e + 2)) (s * 2 ^ 63 + ((e + 1076) * 2 ^ 52 + M)).
Proof.
  intros Hs HM He Ho Hr Hd Ht. destruct (val_packed s e M Hs HM He Ho) as (N & V & F & _).
  set (x := (s * 2 ^ 63 + ((e + 1076) * 2 ^ 52 + M))%Z) in *. clearbody x.
  set (P := powerRZ 2 (e + 2)) in *. assert (PP : 0 < P) by apply p2_pos.
  assert (DX : Rabs (val x - sgn s * rho * P) = Rabs (IZR M - rho) * P).
  { rewrite V. replace (sgn s * IZR M * P - sgn s * rho * P) with (sgn s * (IZR M - rho) * P) by ring.
    rewrite !Rabs_mult, sgn_abs, (Rabs_right P) by lra. ring. }
  assert (DY : forall y, double y -> Rabs (IZR M - rho) * P <= Rabs (val y - sgn s * rho * P) /\
                (val y <> val x -> Rabs (val y - sgn s * rho * P) = Rabs (IZR M - rho) * P -> Rabs (IZR M - rho) = / 2)).
  { assert (INT : forall K : Z, K <> M -> / 2 <= Rabs (IZR K - rho)).
    { intros K NK. assert (1 <= Rabs (IZR K - IZR M)).
      { rewrite <- minus_IZR. rewrite <- abs_IZR. apply IZR_le. lia. }
      pose proof (Rabs_triang (IZR K - rho) (rho - IZR M)) as T. replace (IZR K - rho + (rho - IZR M)) with (IZR K - IZR M) in T by ring.
      rewrite (Rabs_minus_sym rho) in T. lra. }
    intros y Dy. destruct (on_grid y (e + 2) Dy ltac:(lia)) as [[K EK]|LT].
    - fold P in EK. set (K' := ((if s =? 1 then -1 else 1) * K)%Z).
      assert (EK' : val y = sgn s * IZR K' * P).
      { rewrite EK. unfold K', sgn. rewrite mult_IZR. destruct (s =? 1)%Z; ring. }
      assert (D : Rabs (val y - sgn s * rho * P) = Rabs (IZR K' - rho) * P).
      { rewrite EK'. replace (sgn s * IZR K' * P - sgn s * rho * P) with (sgn s * (IZR K' - rho) * P) by ring.
        rewrite !Rabs_mult, sgn_abs, (Rabs_right P) by lra. ring. }
      rewrite D. destruct (Z.eq_dec K' M) as [->|NK].
      + split; [lra|]. intros NE. exfalso. apply NE. rewrite EK', V. reflexivity.
      + specialize (INT K' NK). split; [apply Rmult_le_compat_r; lra|]. intros _ T.
        apply Rmult_eq_reg_r in T; lra.
    - fold P in LT. assert (IZR (2 ^ 52) - rho <= 0) by lra.
      assert (B : Rabs (IZR M - rho) <= rho - IZR (2 ^ 52)).
      { destruct (Z.eq_dec M (2 ^ 52)) as [->|NK]; [rewrite Rabs_left1; lra|].
        specialize (INT (2 ^ 52)%Z ltac:(lia)). rewrite Rabs_left1 in INT by lra. lra. }
      assert (C : (rho - IZR (2 ^ 52)) * P < Rabs (val y - sgn s * rho * P)).
      { assert (A : Rabs (sgn s * rho * P) = rho * P).
        { rewrite !Rabs_mult, sgn_abs, !Rabs_right; lra. }
        pose proof (Rabs_triang_inv (sgn s * rho * P) (val y)) as T. rewrite A in T. rewrite (Rabs_minus_sym (val y)). lra. }
      assert (E : Rabs (IZR M - rho) * P <= (rho - IZR (2 ^ 52)) * P) by (apply Rmult_le_compat_r; lra).
      split; [lra|]. intros _ T. lra. }
  split; [apply N|]. rewrite DX. split.
  - intros y Dy. apply (DY y Dy).
  - intros y Dy Ny T. rewrite F. apply Ht. destruct (DY y Dy) as [_ Z]. apply Z; assumption.
Qed.

Lemma sticky_bounds m mu : (2 ^ 54 <= m < 2 ^ 55)%Z -> sticky m mu -> IZR (2 ^ 54) <= mu < IZR (2 ^ 55).
Proof.
  intros H [->|[O B]].
  - split; [apply IZR_le; lia | apply IZR_lt; lia].
  - assert (N : m <> (2 ^ 54)%Z) by (intros ->; discriminate O).
    assert (IZR (2 ^ 54) <= IZR m - 1) by (rewrite <- minus_IZR; apply IZR_le; lia).
    assert (IZR m + 1 <= IZR (2 ^ 55)) by (rewrite <- plus_IZR; apply IZR_le; lia). lra.
Qed.
Lemma p2_mono a b : (a <= b)%Z -> powerRZ 2 a <= powerRZ 2 b.
Proof.
  intros H. replace b with (a + (b - a))%Z by lia. rewrite p2_add, (p2_nat (b - a)) by lia.
  rewrite <- (Rmult_1_r (powerRZ 2 a)) at 1. apply Rmult_le_compat_l; [left; apply p2_pos|]. apply IZR_le.
  pose proof (Z.pow_pos_nonneg 2 (b - a) ltac:(lia) ltac:(lia)). lia.
Qed.
Lemma p2_scale k e : (0 <= k)%Z -> IZR (2 ^ k) * powerRZ 2 e = powerRZ 2 (k + e).
Proof. intros H. rewrite p2_add, (p2_nat k) by assumption. reflexivity. Qed.
Lemma largest_lt : largest < powerRZ 2 1024.
Proof.
  unfold largest. change 1024%Z with (53 + 971)%Z. rewrite <- (p2_scale 53 971) by lia. apply Rmult_lt_compat_r; [apply p2_pos|]. apply IZR_lt. lia.
Qed.

Theorem FPR_rounds s e m mu : (0 <= s <= 1)%Z -> (2 ^ 54 <= m < 2 ^ 55)%Z -> sticky m mu -> (- 2 ^ 30 <= e)%Z ->
  rounded (sgn s * mu * powerRZ 2 e) (FPR s e m) /\ (Rabs (sgn s * mu * powerRZ 2 e) <= largest -> fsign (FPR s e m) = s).
Proof.
  intros Hs Hm S He. destruct (sticky_bounds m mu Hm S) as [B1 B2]. destruct (sticky_rne m mu S) as [R1 R2].
  pose proof (rne_range m Hm) as RR. set (M := rne m) in *.
  assert (PP : 0 < powerRZ 2 e) by apply p2_pos.
  assert (P54 : 0 < IZR (2 ^ 54)) by (apply IZR_lt; lia).
  assert (A : Rabs (sgn s * mu * powerRZ 2 e) = mu * powerRZ 2 e).
  { rewrite !Rabs_mult, sgn_abs, (Rabs_right mu), (Rabs_right (powerRZ 2 e)) by lra. ring. }
  unfold rounded. rewrite A.
  assert (BL : powerRZ 2 (54 + e) <= mu * powerRZ 2 e). { rewrite <- (p2_scale 54 e) by lia. apply Rmult_le_compat_r; lra. }
  assert (BU : mu * powerRZ 2 e < powerRZ 2 (55 + e)). { rewrite <- (p2_scale 55 e) by lia. apply Rmult_lt_compat_r; lra. }
  destruct (Z.lt_ge_cases e (-1076)) as [L|L].
  - rewrite (FPR_small s e m) by lia. destruct (val_zero s Hs) as (V0 & U0 & _).
    split.
    + intros _. split; [exact U0|]. split; [|intros _; exact V0]. intros C. exfalso. unfold smallest_normal in C.
      pose proof (p2_mono (55 + e) (-1022) ltac:(lia)). lra.
    + intros _. rewrite <- (Z.add_0_r (s * 2 ^ 63)). apply field_sign. lia.
  - assert (T : mu * powerRZ 2 e <= largest -> ((e + 1076) * 2 ^ 52 + M < 2047 * 2 ^ 52)%Z).
    { intros LE. assert (e < 970)%Z.
      { apply Z.nle_gt. intros C. pose proof (p2_mono 1024 (54 + e) ltac:(lia)). pose proof largest_lt. lra. }
      destruct (Z.eq_dec e 969) as [->|N]; [|lia].
      assert (mu <= 4 * IZR (2 ^ 53 - 1)).
      { unfold largest in LE. change 971%Z with (2 + 969)%Z in LE. rewrite p2_add in LE. change (powerRZ 2 2) with (2 * (2 * 1)) in LE.
        apply Rmult_le_reg_r with (powerRZ 2 969); [apply p2_pos|]. lra. }
      assert (M < 2 ^ 53)%Z; [|lia]. apply lt_IZR. pose proof (Rle_abs (IZR M - mu / 4)). rewrite minus_IZR in *. lra. }
    split.
    + intros LE. specialize (T LE). rewrite FPR_bits by (fold M; lia). fold M.
      destruct (val_packed s e M Hs RR ltac:(lia) T) as (N & _ & _ & _).
      split; [left; exact N|]. split.
      * intros _. replace (sgn s * mu * powerRZ 2 e) with (sgn s * (mu / 4) * powerRZ 2 (e + 2)).
        -- apply nearest_grid; try assumption; [lia|]. change (2 ^ 54)%Z with (4 * 2 ^ 52)%Z in B1. rewrite mult_IZR in B1. lra.
        -- rewrite p2_add. change (powerRZ 2 2) with (2 * (2 * 1)). field.
      * intros C. exfalso. unfold smallest_normal in C. pose proof (p2_mono (-1022) (54 + e) ltac:(lia)). lra.
    + intros LE. specialize (T LE). rewrite FPR_bits by (fold M; lia). fold M. apply field_sign. lia.
Qed.
