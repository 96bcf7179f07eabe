(** fpr_mul is correctly rounded. *)
From Coq Require Import Reals Lra.
From Verif Require Import Base FprModel FprSpec FprBits FprRound.
Open Scope Z_scope.

Lemma lor1 a : Z.lor a 1 = 2 * (a / 2) + 1.
Proof.
  pose proof (Z.div_mod a 2 ltac:(lia)) as D. pose proof (Z.mod_pos_bound a 2 ltac:(lia)) as B. set (k := a / 2) in *. clearbody k.
  assert (E : Z.lor (k * 2 ^ 1) 1 = k * 2 ^ 1 + 1) by (apply lor_add; lia). change (2 ^ 1) with 2 in E.
  assert (C : a mod 2 = 0 \/ a mod 2 = 1) by lia. destruct C as [C|C]; rewrite C in D.
  - replace a with (k * 2) by lia. lia.
  - replace a with (Z.lor (k * 2) 1) by lia. rewrite <- Z.lor_assoc. change (Z.lor 1 1) with 1. lia.
Qed.
Lemma odd_succ_double k : Z.odd (2 * k + 1) = true.
Proof. rewrite Z.odd_add, Z.odd_mul. reflexivity. Qed.
Lemma sticky_or a (b : bool) mu : (b = false -> mu = IZR a) -> (b = true -> IZR a < mu < IZR a + 1)%R -> sticky (Z.lor a (if b then 1 else 0)) mu.
Proof.
  intros H0 H1. destruct b.
  - right. rewrite lor1. split; [apply odd_succ_double|]. specialize (H1 eq_refl).
    pose proof (Z.div_mod a 2 ltac:(lia)) as D. pose proof (Z.mod_pos_bound a 2 ltac:(lia)) as B.
    assert (C : a mod 2 = 0 \/ a mod 2 = 1) by lia. destruct C as [C|C]; rewrite C in D.
    + replace (2 * (a / 2) + 1) with (a + 1) by lia. rewrite plus_IZR. lra.
    + replace (2 * (a / 2) + 1) with a by lia. lra.
  - left. rewrite Z.lor_0_r. apply H0. reflexivity.
Qed.
(** dropping k bits of an integer, with a sticky bit *)
Lemma sticky_drop P k : 0 <= k -> sticky (Z.lor (P / 2 ^ k) (if P mod 2 ^ k =? 0 then 0 else 1)) (IZR P / IZR (2 ^ k)).
Proof.
  intros Hk. assert (Q : 0 < 2 ^ k) by (apply Z.pow_pos_nonneg; lia). assert (QR : (0 < IZR (2 ^ k))%R) by (apply IZR_lt; lia).
  replace (if P mod 2 ^ k =? 0 then 0 else 1) with (if negb (P mod 2 ^ k =? 0) then 1 else 0) by (destruct (_ =? _); reflexivity).
  pose proof (Z.div_mod P (2 ^ k) ltac:(lia)) as D. pose proof (Z.mod_pos_bound P (2 ^ k) Q) as B.
  assert (E : (IZR P / IZR (2 ^ k) = IZR (P / 2 ^ k) + IZR (P mod 2 ^ k) / IZR (2 ^ k))%R).
  { rewrite D at 1. rewrite plus_IZR, mult_IZR. field. lra. }
  rewrite E. apply sticky_or; intros N.
  - apply negb_false_iff, Z.eqb_eq in N. rewrite N. unfold Rdiv. rewrite Rmult_0_l. ring.
  - apply negb_true_iff, Z.eqb_neq in N. assert (0 < IZR (P mod 2 ^ k) / IZR (2 ^ k) < 1)%R; [|lra]. split.
    + apply Rdiv_lt_0_compat; [apply IZR_lt; lia | assumption].
    + apply Rmult_lt_reg_r with (IZR (2 ^ k)); [assumption|]. unfold Rdiv. rewrite Rmult_assoc, Rinv_l by lra. rewrite Rmult_1_r, Rmult_1_l. apply IZR_lt. lia.
Qed.
(** dropping one more bit of a value with a sticky bit *)
Lemma sticky_half z mu : sticky z mu -> sticky (Z.lor (z / 2) (z mod 2)) (mu / 2).
Proof.
  intros S. pose proof (Z.div_mod z 2 ltac:(lia)) as D. pose proof (Z.mod_pos_bound z 2 ltac:(lia)) as B.
  assert (C : z mod 2 = 0 \/ z mod 2 = 1) by lia. destruct C as [C|C]; rewrite C in *.
  - apply (sticky_or _ false); [intros _|discriminate]. destruct S as [->|[O _]].
    + rewrite D at 1. rewrite plus_IZR, mult_IZR. field.
    + rewrite D, Z.odd_add, Z.odd_mul in O. discriminate O.
  - apply (sticky_or _ true); [discriminate|intros _]. assert (E : IZR z = (2 * IZR (z / 2) + 1)%R) by (rewrite D at 1; rewrite plus_IZR, mult_IZR; reflexivity).
    destruct S as [->|[_ [S1 S2]]]; rewrite E in *; lra.
Qed.

Lemma norm_one_ok z mu : 2 ^ 54 <= z < 2 ^ 56 -> sticky z mu ->
  exists z' w, norm_one z = (z', w) /\ 0 <= w <= 1 /\ 2 ^ 54 <= z' < 2 ^ 55 /\ sticky z' (mu / powerRZ 2 w).
Proof.
  intros Hz S. unfold norm_one. rewrite (shiftr_div z 1), (shiftr_div z 55), land_bit by lia. change (2 ^ 1) with 2.
  assert (Hw : 0 <= z / 2 ^ 55 < 2) by (apply (div_range z 55 1); lia).
  pose proof (Z.div_mod z 2 ltac:(lia)) as D. pose proof (Z.mod_pos_bound z 2 ltac:(lia)) as B.
  rewrite mask_neg; [|apply lxor_range; [lia|lia|apply lor_range; lia]|lia].
  rewrite lxor_select. eexists; exists (z / 2 ^ 55). split; [reflexivity|]. split; [lia|].
  assert (C : z / 2 ^ 55 = 0 \/ z / 2 ^ 55 = 1) by lia. pose proof (Z.div_mod z (2 ^ 55) ltac:(lia)) as D55. pose proof (Z.mod_pos_bound z (2 ^ 55) ltac:(lia)) as B55.
  destruct C as [C|C]; rewrite C in *.
  - change (0 =? 1) with false. cbv iota. split; [lia|]. change (powerRZ 2 0) with 1%R. replace (mu / 1)%R with mu by field. exact S.
  - change (1 =? 1) with true. cbv iota. split.
    + assert (P : z mod 2 = 0 \/ z mod 2 = 1) by lia. destruct P as [P|P]; rewrite P; [rewrite Z.lor_0_r; lia|]. rewrite lor1.
      pose proof (Z.div_mod (z / 2) 2 ltac:(lia)). pose proof (Z.mod_pos_bound (z / 2) 2 ltac:(lia)). lia.
    + change (powerRZ 2 1) with (2 * 1)%R. rewrite Rmult_1_r. apply sticky_half. exact S.
Qed.

Lemma mantissa_ok x : 0 <= x < 2 ^ 64 -> mantissa x = 2 ^ 52 + fmant x.
Proof.
  intros H. unfold mantissa, fmant. rewrite land_low by lia. pose proof (Z.mod_pos_bound x (2 ^ 52) ltac:(lia)) as B.
  rewrite Z.lor_comm. pose proof (lor_add 1 (x mod 2 ^ 52) 52 ltac:(lia) B) as E. rewrite Z.mul_1_l in E. exact E.
Qed.
Lemma exp_ok x : Z.land (Z.shiftr x 52) 0x7FF = fexp x.
Proof. change 0x7FF with (2 ^ 11 - 1). rewrite land_low, shiftr_div by lia. reflexivity. Qed.
Lemma low25 w : 0 <= w -> Z.land (w32 w) 0x01FFFFFF = w mod 2 ^ 25.
Proof.
  intros H. change 0x01FFFFFF with (2 ^ 25 - 1). rewrite land_low by lia. unfold w32.
  symmetry. apply Z.mod_unique_pos with (q := w / 2 ^ 25 - 2 ^ 7 * (w / 2 ^ 32)); [apply Z.mod_pos_bound; lia|].
  pose proof (Z.div_mod w (2 ^ 25) ltac:(lia)). pose proof (Z.div_mod w (2 ^ 32) ltac:(lia)). lia.
Qed.
Lemma limb_product x0 x1 y0 y1 : 0 <= x0 < 2 ^ 25 -> 0 <= y0 < 2 ^ 25 -> 0 <= x1 < 2 ^ 28 -> 0 <= y1 < 2 ^ 28 ->
  0 <= x0 * y0 < 2 ^ 50 /\ 0 <= x0 * y1 < 2 ^ 53 /\ 0 <= x1 * y0 < 2 ^ 53 /\ 0 <= x1 * y1 < 2 ^ 56.
Proof. intros. repeat split; nia. Qed.
Lemma mul_mantissa_ok xu yu : 2 ^ 52 <= xu < 2 ^ 53 -> 2 ^ 52 <= yu < 2 ^ 53 ->
  mul_mantissa xu yu = Z.lor (xu * yu / 2 ^ 50) (if (xu * yu) mod 2 ^ 50 =? 0 then 0 else 1).
Proof.
  intros Hx Hy. cbv beta zeta delta [mul_mantissa]. rewrite (low25 xu), (low25 yu) by lia. rewrite (shiftr_div xu 25), (shiftr_div yu 25) by lia.
  pose proof (Z.div_mod xu (2 ^ 25) ltac:(lia)) as Dx. pose proof (Z.mod_pos_bound xu (2 ^ 25) ltac:(lia)) as Mx.
  pose proof (Z.div_mod yu (2 ^ 25) ltac:(lia)) as Dy. pose proof (Z.mod_pos_bound yu (2 ^ 25) ltac:(lia)) as My.
  assert (Ux : 0 <= xu / 2 ^ 25 < 2 ^ 28) by (apply (div_range xu 25 28); lia).
  assert (Uy : 0 <= yu / 2 ^ 25 < 2 ^ 28) by (apply (div_range yu 25 28); lia).
  rewrite (w32_id (xu / 2 ^ 25)), (w32_id (yu / 2 ^ 25)) by lia.
  set (x0 := xu mod 2 ^ 25) in *. set (x1 := xu / 2 ^ 25) in *. set (y0 := yu mod 2 ^ 25) in *. set (y1 := yu / 2 ^ 25) in *.
  clearbody x0 x1 y0 y1. destruct (limb_product x0 x1 y0 y1 Mx My Ux Uy) as (B00 & B01 & B10 & B11).
  assert (P : xu * yu = 2 ^ 50 * (x1 * y1) + 2 ^ 25 * (x0 * y1) + 2 ^ 25 * (x1 * y0) + x0 * y0) by (rewrite Dx, Dy; ring).
  set (p00 := x0 * y0) in *. set (p01 := x0 * y1) in *. set (p10 := x1 * y0) in *. set (p11 := x1 * y1) in *. rewrite P. clearbody p00 p01 p10 p11.
  clear Dx Dy P Hx Hy Mx My Ux Uy.
  rewrite (w64_id p00), (w64_id p01), (w64_id p10), (w64_id p11) by lia. rewrite (low25 p00), (low25 p01), (low25 p10) by lia.
  rewrite (shiftr_div p00 25), (shiftr_div p01 25), (shiftr_div p10 25) by lia.
  pose proof (Z.div_mod p00 (2 ^ 25) ltac:(lia)) as D00. pose proof (Z.mod_pos_bound p00 (2 ^ 25) ltac:(lia)) as M00.
  pose proof (Z.div_mod p01 (2 ^ 25) ltac:(lia)) as D01. pose proof (Z.mod_pos_bound p01 (2 ^ 25) ltac:(lia)) as M01.
  pose proof (Z.div_mod p10 (2 ^ 25) ltac:(lia)) as D10. pose proof (Z.mod_pos_bound p10 (2 ^ 25) ltac:(lia)) as M10.
  assert (U00 : 0 <= p00 / 2 ^ 25 < 2 ^ 25) by (apply (div_range p00 25 25); lia).
  assert (U01 : 0 <= p01 / 2 ^ 25 < 2 ^ 28) by (apply (div_range p01 25 28); lia).
  assert (U10 : 0 <= p10 / 2 ^ 25 < 2 ^ 28) by (apply (div_range p10 25 28); lia).
  set (h00 := p00 / 2 ^ 25) in *. set (l00 := p00 mod 2 ^ 25) in *. set (h01 := p01 / 2 ^ 25) in *. set (l01 := p01 mod 2 ^ 25) in *.
  set (h10 := p10 / 2 ^ 25) in *. set (l10 := p10 mod 2 ^ 25) in *. clearbody h00 l00 h01 l01 h10 l10.
  rewrite (w32_id h00), (w32_id h01), (w32_id h10) by lia. rewrite (w32_id (h00 + l01)) by lia. rewrite (w32_id (h00 + l01 + l10)) by lia.
  rewrite (w32_id (h01 + h10)) by lia. set (z1 := h00 + l01 + l10) in *. assert (Ez1 : z1 = h00 + l01 + l10) by reflexivity. clearbody z1.
  rewrite (shiftr_div z1 25) by lia. pose proof (Z.div_mod z1 (2 ^ 25) ltac:(lia)) as D1. pose proof (Z.mod_pos_bound z1 (2 ^ 25) ltac:(lia)) as M1.
  assert (U1 : 0 <= z1 / 2 ^ 25 < 2 ^ 2) by (apply (div_range z1 25 2); lia).
  replace (Z.land z1 0x01FFFFFF) with (z1 mod 2 ^ 25) by (symmetry; apply (land_low z1 25); lia).
  set (c := z1 / 2 ^ 25) in *. set (l1 := z1 mod 2 ^ 25) in *. clearbody c l1.
  rewrite (w32_id (h01 + h10 + c)) by lia. rewrite (w64_id (p11 + (h01 + h10 + c))) by lia.
  assert (Q : (2 ^ 50 * p11 + 2 ^ 25 * p01 + 2 ^ 25 * p10 + p00) / 2 ^ 50 = p11 + (h01 + h10 + c)).
  { symmetry. apply Z.div_unique_pos with (r := 2 ^ 25 * l1 + l00); lia. }
  assert (Rm : (2 ^ 50 * p11 + 2 ^ 25 * p01 + 2 ^ 25 * p10 + p00) mod 2 ^ 50 = 2 ^ 25 * l1 + l00).
  { symmetry. apply Z.mod_unique_pos with (q := p11 + (h01 + h10 + c)); lia. }
  rewrite Q, Rm. f_equal.
  assert (L : 0 <= Z.lor l00 l1 < 2 ^ 25) by (apply lor_range; lia). rewrite w32_id by lia. rewrite shiftr_div by lia.
  destruct (Z.eqb_spec (2 ^ 25 * l1 + l00) 0) as [E|N].
  - assert (l1 = 0) by lia. assert (l00 = 0) by lia. subst l1 l00. reflexivity.
  - assert (Z.lor l00 l1 <> 0). { intros Z0. apply Z.lor_eq_0_iff in Z0. lia. }
    symmetry. apply Z.div_unique_pos with (r := Z.lor l00 l1 - 1); lia.
Qed.

Lemma sign_xor x y : 0 <= x < 2 ^ 64 -> 0 <= y < 2 ^ 64 -> Z.shiftr (Z.lxor x y) 63 = Z.lxor (fsign x) (fsign y).
Proof. intros. rewrite Z.shiftr_lxor, !shiftr_div by lia. reflexivity. Qed.
Lemma sgn_xor a b : 0 <= a <= 1 -> 0 <= b <= 1 -> sgn (Z.lxor a b) = (sgn a * sgn b)%R /\ 0 <= Z.lxor a b <= 1.
Proof.
  intros Ha Hb. assert (A : a = 0 \/ a = 1) by lia. assert (B : b = 0 \/ b = 1) by lia.
  destruct A as [-> | ->], B as [-> | ->]; (split; [unfold sgn; cbn; ring | cbn; lia]).
Qed.
Lemma usable_cases x : usable x -> 0 <= x < 2 ^ 64 /\
  ((1 <= fexp x <= 2046 /\ val x = (sgn (fsign x) * IZR (2 ^ 52 + fmant x) * powerRZ 2 (fexp x - 1075))%R) \/ (fexp x = 0 /\ fmant x = 0 /\ val x = 0%R)).
Proof.
  intros [[[H E] E1]|Z].
  - split; [exact H|]. left. split; [split; assumption|]. unfold val. replace (fexp x =? 0) with false by (symmetry; apply Z.eqb_neq; lia). reflexivity.
  - destruct Z as [-> | ->]; (split; [lia|]; right; split; [reflexivity|]; split; [reflexivity|]).
    + apply (val_zero 0). lia.
    + apply (val_zero 1). lia.
Qed.
(** the test d = (ex + 0x7FF) >> 11 *)
Lemma exp_flag E : 0 <= E < 2 ^ 11 -> Z.shiftr (E + 0x7FF) 11 = if E =? 0 then 0 else 1.
Proof.
  intros H. rewrite shiftr_div by lia. destruct (Z.eqb_spec E 0) as [->|N]; [reflexivity|].
  symmetry. apply Z.div_unique_pos with (r := E - 1); lia.
Qed.
Lemma rounded_zero s : 0 <= s <= 1 -> rounded 0 (s * 2 ^ 63).
Proof.
  intros H. destruct (val_zero s H) as (V & U & _). intros _. split; [exact U|]. split; [|intros _; exact V].
  intros C. exfalso. rewrite Rabs_R0 in C. unfold smallest_normal in C. pose proof (p2_pos (-1022)). lra.
Qed.
Lemma sign_zero s : 0 <= s <= 1 -> fsign (s * 2 ^ 63) = s.
Proof. intros H. rewrite <- (Z.add_0_r (s * 2 ^ 63)). apply field_sign. lia. Qed.

Theorem mul_rounded x y : usable x -> usable y ->
  rounded (val x * val y) (fpr_mul x y) /\ ((Rabs (val x * val y) <= largest)%R -> fsign (fpr_mul x y) = Z.lxor (fsign x) (fsign y)).
Proof.
  intros Ux Uy. destruct (usable_cases x Ux) as (Rx & Cx). destruct (usable_cases y Uy) as (Ry & Cy).
  destruct (fields x Rx) as (Sx & Ex & Mx & _). destruct (fields y Ry) as (Sy & Ey & My & _).
  destruct (sgn_xor (fsign x) (fsign y) Sx Sy) as [SX SR].
  unfold fpr_mul. rewrite (mantissa_ok x Rx), (mantissa_ok y Ry), !exp_ok, sign_xor by assumption.
  set (xu := 2 ^ 52 + fmant x) in *. set (yu := 2 ^ 52 + fmant y) in *. assert (Bx : 2 ^ 52 <= xu < 2 ^ 53) by lia. assert (By : 2 ^ 52 <= yu < 2 ^ 53) by lia. clearbody xu yu.
  rewrite (mul_mantissa_ok xu yu Bx By). pose proof (sticky_drop (xu * yu) 50 ltac:(lia)) as S.
  assert (BP : 2 ^ 104 <= xu * yu < 2 ^ 106) by nia.
  assert (BQ : 2 ^ 54 <= xu * yu / 2 ^ 50 < 2 ^ 56).
  { split; [apply Z.div_le_lower_bound; lia | apply Z.div_lt_upper_bound; lia]. }
  set (zu := Z.lor _ _) in *.
  assert (BZ : 2 ^ 54 <= zu < 2 ^ 56).
  { subst zu. destruct (_ =? 0); [rewrite Z.lor_0_r; exact BQ|]. rewrite lor1. pose proof (Z.div_mod (xu * yu / 2 ^ 50) 2 ltac:(lia)). pose proof (Z.mod_pos_bound (xu * yu / 2 ^ 50) 2 ltac:(lia)). lia. }
  clearbody zu. destruct (norm_one_ok zu _ BZ S) as (z & w & -> & Hw & Hz & S').
  rewrite Z.shiftr_land, !exp_flag by assumption.
  destruct Cx as [[Ex' Vx]|(Ex' & _ & Vx)].
  2:{ rewrite Ex'. cbn [Z.eqb]. rewrite Z.land_0_l, Z.opp_0. change (w64 0) with 0. rewrite Z.land_0_r, FPR_zero by lia. rewrite Vx, Rmult_0_l.
      split; [apply rounded_zero; assumption | intros _; apply sign_zero; assumption]. }
  destruct Cy as [[Ey' Vy]|(Ey' & _ & Vy)].
  2:{ rewrite Ey'. cbn [Z.eqb]. rewrite Z.land_0_r, Z.opp_0. change (w64 0) with 0. rewrite Z.land_0_r, FPR_zero by lia. rewrite Vy, Rmult_0_r.
      split; [apply rounded_zero; assumption | intros _; apply sign_zero; assumption]. }
  replace (fexp x =? 0) with false by (symmetry; apply Z.eqb_neq; lia). replace (fexp y =? 0) with false by (symmetry; apply Z.eqb_neq; lia).
  cbv iota. change (Z.land 1 1) with 1. rewrite mask_neg by lia. change (1 =? 1) with true. cbv iota.
  assert (E : (val x * val y = sgn (Z.lxor (fsign x) (fsign y)) * (IZR (xu * yu) / IZR (2 ^ 50) / powerRZ 2 w) * powerRZ 2 (fexp x + fexp y - 2100 + w))%R).
  { rewrite Vx, Vy, SX, mult_IZR. replace (fexp x + fexp y - 2100 + w) with ((fexp x - 1075) + (fexp y - 1075) + 50 + w) by lia. rewrite !p2_add.
    rewrite (p2_nat 50) by lia. pose proof (p2_pos w) as W. assert (K : (0 < IZR (2 ^ 50))%R) by (apply IZR_lt; lia).
    set (W' := powerRZ 2 w) in *. set (K' := IZR (2 ^ 50)) in *. clearbody W' K'. field. lra. }
  rewrite E. apply FPR_rounds; try assumption. lia.
Qed.
