(** fpr_add and fpr_sub are correctly rounded. *)
From Coq Require Import Reals Lra.
From Verif Require Import Base FprModel FprSpec FprBits FprRound FprMul.
Open Scope Z_scope.

Lemma sticky_dropk z mu k : 1 <= k -> sticky z mu -> sticky (Z.lor (z / 2 ^ k) (if z mod 2 ^ k =? 0 then 0 else 1)) (mu / IZR (2 ^ k)).
Proof.
  intros Hk [->|[O B]]; [apply sticky_drop; lia|].
  assert (Q : 0 < 2 ^ k) by (apply Z.pow_pos_nonneg; lia). assert (QR : (0 < IZR (2 ^ k))%R) by (apply IZR_lt; lia).
  pose proof (Z.div_mod z (2 ^ k) ltac:(lia)) as D. pose proof (Z.mod_pos_bound z (2 ^ k) Q) as M.
  assert (N : z mod 2 ^ k <> 0).
  { intros N. rewrite N, Z.add_0_r in D. rewrite D, Z.odd_mul in O. replace k with (1 + (k - 1)) in O at 1 by lia. rewrite pow_split in O by lia.
    rewrite Z.odd_mul in O. discriminate O. }
  replace (z mod 2 ^ k =? 0) with false by (symmetry; apply Z.eqb_neq; exact N).
  apply (sticky_or _ true); [discriminate|]. intros _.
  assert (A : (IZR (z / 2 ^ k) * IZR (2 ^ k) <= IZR z - 1)%R) by (rewrite <- mult_IZR, <- minus_IZR; apply IZR_le; lia).
  assert (C : (IZR z + 1 <= (IZR (z / 2 ^ k) + 1) * IZR (2 ^ k))%R) by (rewrite <- !plus_IZR, <- mult_IZR; apply IZR_le; lia).
  split.
  - apply Rmult_lt_reg_r with (IZR (2 ^ k)); [assumption|]. unfold Rdiv. rewrite Rmult_assoc, Rinv_l, Rmult_1_r by lra. lra.
  - apply Rmult_lt_reg_r with (IZR (2 ^ k)); [assumption|]. unfold Rdiv. rewrite Rmult_assoc, Rinv_l, Rmult_1_r by lra. lra.
Qed.
(** (v | ((v & (2^c - 1)) + (2^c - 1))) >> c *)
Lemma sticky_shift v c : 0 <= v -> 0 <= c -> Z.lor v (v mod 2 ^ c + (2 ^ c - 1)) / 2 ^ c = Z.lor (v / 2 ^ c) (if v mod 2 ^ c =? 0 then 0 else 1).
Proof.
  intros Hv Hc. rewrite <- shiftr_div by assumption. rewrite Z.shiftr_lor, !shiftr_div by assumption. f_equal.
  assert (Q : 0 < 2 ^ c) by (apply Z.pow_pos_nonneg; lia). pose proof (Z.mod_pos_bound v (2 ^ c) Q) as M.
  destruct (Z.eqb_spec (v mod 2 ^ c) 0) as [E|N].
  - rewrite E. apply Z.div_small. lia.
  - symmetry. apply Z.div_unique_pos with (r := v mod 2 ^ c - 1); lia.
Qed.
Lemma drop9 v : 0 <= v < 2 ^ 64 -> Z.shiftr (Z.lor v (w32 (Z.land (w32 v) 0x1FF + 0x1FF))) 9 = Z.lor (v / 2 ^ 9) (if v mod 2 ^ 9 =? 0 then 0 else 1).
Proof.
  intros H. assert (E : Z.land (w32 v) 0x1FF = v mod 2 ^ 9).
  { change 0x1FF with (2 ^ 9 - 1). rewrite land_low by lia. unfold w32.
    symmetry. apply Z.mod_unique_pos with (q := v / 2 ^ 9 - 2 ^ 23 * (v / 2 ^ 32)); [apply Z.mod_pos_bound; lia|].
    pose proof (Z.div_mod v (2 ^ 9) ltac:(lia)). pose proof (Z.div_mod v (2 ^ 32) ltac:(lia)). lia. }
  rewrite E. pose proof (Z.mod_pos_bound v (2 ^ 9) ltac:(lia)) as M. rewrite w32_id by lia. rewrite shiftr_div by lia.
  exact (sticky_shift v 9 ltac:(lia) ltac:(lia)).
Qed.

(** ** The tail of fpr_add and fpr_scaled: normalise, drop nine bits, pack *)
Definition finish (s e T : Z) : Z := let (m, e) := FPR_NORM64 T e in
  FPR s (e + 9) (Z.shiftr (Z.lor m (w32 (Z.land (w32 m) 0x1FF + 0x1FF))) 9).
Lemma finish_ok s e T tau : 0 <= s <= 1 -> 0 < T < 2 ^ 64 -> - 2 ^ 29 <= e -> (tau = IZR T \/ (sticky T tau /\ 2 ^ 54 <= T)) ->
  rounded (sgn s * tau * powerRZ 2 e) (finish s e T) /\ ((Rabs (sgn s * tau * powerRZ 2 e) <= largest)%R -> fsign (finish s e T) = s).
Proof.
  intros Hs HT He S. unfold finish. destruct (norm64_ok T e HT) as (n & m & -> & Hn & Em & Bm).
  assert (Hn64 : n < 64).
  { apply Z.nle_gt. intros C. assert (2 ^ 64 <= 2 ^ n) by (apply Z.pow_le_mono_r; lia). nia. }
  rewrite drop9 by lia.
  assert (BQ : 2 ^ 54 <= m / 2 ^ 9 < 2 ^ 55) by (split; [apply Z.div_le_lower_bound; lia | apply Z.div_lt_upper_bound; lia]).
  set (v := Z.lor _ _).
  assert (BZ : 2 ^ 54 <= v < 2 ^ 55).
  { subst v. destruct (_ =? 0); [rewrite Z.lor_0_r; exact BQ|]. rewrite lor1.
    pose proof (Z.div_mod (m / 2 ^ 9) 2 ltac:(lia)). pose proof (Z.mod_pos_bound (m / 2 ^ 9) 2 ltac:(lia)). lia. }
  assert (SV : sticky v (tau * IZR (2 ^ n) / IZR (2 ^ 9))).
  { subst v. destruct S as [->|[S HT54]].
    - rewrite Em, <- mult_IZR. apply sticky_drop. lia.
    - assert (n <= 9).
      { apply Z.nlt_ge. intros C. assert (2 ^ 10 <= 2 ^ n) by (apply Z.pow_le_mono_r; lia). nia. }
      assert (P : 2 ^ 9 = 2 ^ (9 - n) * 2 ^ n) by (rewrite <- pow_split by lia; f_equal; lia).
      assert (Pn : 0 < 2 ^ n) by (apply Z.pow_pos_nonneg; lia). assert (Pk : 0 < 2 ^ (9 - n)) by (apply Z.pow_pos_nonneg; lia).
      assert (E1 : m / 2 ^ 9 = T / 2 ^ (9 - n)) by (rewrite Em, P; apply Z.div_mul_cancel_r; lia).
      assert (E2 : m mod 2 ^ 9 = T mod 2 ^ (9 - n) * 2 ^ n) by (rewrite Em, P; apply Z.mul_mod_distr_r; lia).
      assert (E3 : (m mod 2 ^ 9 =? 0) = (T mod 2 ^ (9 - n) =? 0)).
      { rewrite E2. destruct (Z.eqb_spec (T mod 2 ^ (9 - n)) 0) as [Z0|Z0]; [rewrite Z0; reflexivity | apply Z.eqb_neq; nia]. }
      rewrite E1, E3. replace (tau * IZR (2 ^ n) / IZR (2 ^ 9))%R with (tau / IZR (2 ^ (9 - n)))%R.
      + destruct (Z.eq_dec n 9) as [->|N9].
        * change (2 ^ (9 - 9)) with 1. rewrite Z.div_1_r, Z.mod_1_r. change (0 =? 0) with true. cbv iota. rewrite Z.lor_0_r.
          replace (tau / 1)%R with tau by field. exact S.
        * apply sticky_dropk; [lia | exact S].
      + rewrite P, mult_IZR. assert (0 < IZR (2 ^ n))%R by (apply IZR_lt; lia). assert (0 < IZR (2 ^ (9 - n)))%R by (apply IZR_lt; lia).
        set (A := IZR (2 ^ n)) in *. set (B := IZR (2 ^ (9 - n))) in *. clearbody A B. field. lra. }
  clearbody v.
  assert (E : (sgn s * tau * powerRZ 2 e = sgn s * (tau * IZR (2 ^ n) / IZR (2 ^ 9)) * powerRZ 2 (e - n + 9))%R).
  { replace e with ((e - n + 9) + n - 9) at 1 by lia. replace ((e - n + 9) + n - 9) with ((e - n + 9) + n + - (9)) by lia. rewrite !p2_add.
    rewrite (p2_nat n) by lia. replace (powerRZ 2 (- (9))) with (/ IZR (2 ^ 9))%R; [unfold Rdiv; ring|]. rewrite <- (p2_nat 9) by lia.
    assert (powerRZ 2 9 * powerRZ 2 (- (9)) = 1)%R by (rewrite <- p2_add; reflexivity). pose proof (p2_pos 9). apply Rmult_eq_reg_l with (powerRZ 2 9); [|lra].
    rewrite Rinv_r by lra. lra. }
  rewrite E. apply FPR_rounds; try assumption. lia.
Qed.
Lemma finish_zero s e : 0 <= s <= 1 -> - 2 ^ 29 <= e <= 2 ^ 29 -> finish s e 0 = s * 2 ^ 63.
Proof.
  intros Hs He. unfold finish. rewrite norm64_zero. change (Z.shiftr (Z.lor 0 (w32 (Z.land (w32 0) 0x1FF + 0x1FF))) 9) with 0. apply FPR_zero; lia.
Qed.

(** ** The operands *)
Lemma swap_ok x y : 0 <= x < 2 ^ 64 -> 0 <= y < 2 ^ 64 ->
  add_swap x y = if (x mod 2 ^ 63 <? y mod 2 ^ 63) || ((x mod 2 ^ 63 =? y mod 2 ^ 63) && (fsign x =? 1)) then (y, x) else (x, y).
Proof.
  intros Hx Hy. destruct (fields x Hx) as (Sx & _). cbv beta zeta delta [add_swap]. rewrite !land_low by lia.
  pose proof (Z.mod_pos_bound x (2 ^ 63) ltac:(lia)) as Bx. pose proof (Z.mod_pos_bound y (2 ^ 63) ltac:(lia)) as By.
  set (ax := x mod 2 ^ 63) in *. set (ay := y mod 2 ^ 63) in *. clearbody ax ay.
  rewrite neg64 by lia.
  assert (E : w64 (- w64 (ax - ay)) = w64 (ay - ax)).
  { unfold w64. rewrite <- (Z.sub_0_l (_ mod _)), Zminus_mod_idemp_r. f_equal. lia. }
  rewrite E, neg64 by lia. rewrite (shiftr_div x 63) by lia. fold (fsign x).
  assert (C : Z.lor (w32 (if ax - ay <? 0 then 1 else 0)) (Z.land (w32 (1 - w32 (if ay - ax <? 0 then 1 else 0))) (w32 (fsign x))) =
              if (ax <? ay) || ((ax =? ay) && (fsign x =? 1)) then 1 else 0).
  { assert (S : fsign x = 0 \/ fsign x = 1) by lia.
    destruct (Z.ltb_spec (ax - ay) 0), (Z.ltb_spec (ay - ax) 0), (Z.ltb_spec ax ay), (Z.eqb_spec ax ay), S as [-> | ->]; try lia; reflexivity. }
  rewrite C. rewrite mask_neg; [|apply lxor_range; lia|apply bit_range]. rewrite eqb_bit.
  destruct ((ax <? ay) || _).
  - rewrite (lxor_select x y true). rewrite (Z.lxor_comm x y), (lxor_select y x true). reflexivity.
  - rewrite !Z.lxor_0_r. reflexivity.
Qed.
Lemma swap_facts x y : usable x -> usable y -> exists a b, add_swap x y = (a, b) /\ usable a /\ usable b /\ (val x + val y = val a + val b)%R /\
  Z.land (fsign x) (fsign y) = Z.land (fsign a) (fsign b) /\ b mod 2 ^ 63 <= a mod 2 ^ 63 /\ (a mod 2 ^ 63 = b mod 2 ^ 63 -> fsign a = 1 -> fsign b = 1).
Proof.
  intros Ux Uy. destruct (usable_cases x Ux) as (Rx & _). destruct (usable_cases y Uy) as (Ry & _). rewrite swap_ok by assumption.
  destruct ((x mod 2 ^ 63 <? y mod 2 ^ 63) || ((x mod 2 ^ 63 =? y mod 2 ^ 63) && (fsign x =? 1))) eqn:C.
  - exists y, x. split; [reflexivity|]. split; [exact Uy|]. split; [exact Ux|]. split; [ring|]. split; [apply Z.land_comm|].
    apply orb_true_iff in C. destruct C as [C|C]; [apply Z.ltb_lt in C; lia|]. apply andb_true_iff in C. destruct C as [C1 C2].
    apply Z.eqb_eq in C1. apply Z.eqb_eq in C2. lia.
  - exists x, y. split; [reflexivity|]. split; [exact Ux|]. split; [exact Uy|]. split; [reflexivity|]. split; [reflexivity|].
    apply orb_false_iff in C. destruct C as [C1 C2]. apply Z.ltb_ge in C1. split; [lia|]. intros E S. rewrite E, Z.eqb_refl, S in C2. discriminate C2.
Qed.
(** magnitude: 8 times the integer mantissa *)
Definition mag (x : Z) : Z := if fexp x =? 0 then 0 else 8 * (2 ^ 52 + fmant x).
Lemma unpack_ok x : usable x -> add_unpack x = (fsign x, fexp x - 1078, mag x) /\ val x = (sgn (fsign x) * IZR (mag x) * powerRZ 2 (fexp x - 1078))%R.
Proof.
  intros U. destruct (usable_cases x U) as (R & C). destruct (fields x R) as (S & E & M & _).
  cbv beta zeta delta [add_unpack]. rewrite exp_ok, exp_flag by assumption. rewrite Z.shiftr_shiftr by lia. change (52 + 11) with 63. rewrite (shiftr_div x 63) by lia. fold (fsign x).
  rewrite land_low by lia. fold (fmant x). unfold mag. destruct C as [[E1 V]|(E1 & M0 & V)].
  - replace (fexp x =? 0) with false by (symmetry; apply Z.eqb_neq; lia). cbv iota. change (w64 (Z.shiftl (w32 1) 52)) with (2 ^ 52).
    rewrite Z.lor_comm. pose proof (lor_add 1 (fmant x) 52 ltac:(lia) M) as L. rewrite Z.mul_1_l in L. rewrite L. rewrite shiftl_mul by lia. rewrite w64_id by lia.
    split; [f_equal; lia|]. rewrite V. replace (fexp x - 1075) with (3 + (fexp x - 1078)) by lia. rewrite p2_add, (p2_nat 3) by lia. rewrite mult_IZR. change (IZR (2 ^ 3)) with 8%R. ring.
  - rewrite E1, M0. change (0 =? 0) with true. cbv iota. split; [reflexivity|]. rewrite V. ring.
Qed.
Lemma mod63 x : 0 <= x < 2 ^ 64 -> x mod 2 ^ 63 = fexp x * 2 ^ 52 + fmant x.
Proof.
  intros H. destruct (fields x H) as (S & E & M & D). symmetry. apply Z.mod_unique_pos with (q := fsign x); lia.
Qed.
Lemma mag_range x : usable x -> (mag x = 0 /\ fexp x = 0) \/ (2 ^ 55 <= mag x < 2 ^ 56 /\ 1 <= fexp x <= 2046 /\ mag x mod 8 = 0).
Proof.
  intros U. destruct (usable_cases x U) as (R & C). destruct (fields x R) as (_ & _ & M & _). unfold mag. destruct C as [[E _]|(E & _)].
  - right. replace (fexp x =? 0) with false by (symmetry; apply Z.eqb_neq; lia). split; [lia|]. split; [lia|]. rewrite Z.mul_comm. apply Z.mod_mul. lia.
  - left. rewrite E. split; reflexivity.
Qed.

(** the far case: the smaller operand is below 2^-60 of the other's scale and is ignored *)
Lemma nearest_far x d : normal x -> 2 <= fexp x -> (Rabs d < powerRZ 2 (fexp x - 1075) / 4)%R -> nearest (val x + d) x.
Proof.
  intros N E2 D. destruct N as [[R E] E1]. destruct (fields x R) as (S & _ & M & X).
  assert (V : val x = (sgn (fsign x) * IZR (2 ^ 52 + fmant x) * powerRZ 2 (fexp x - 1075))%R).
  { unfold val. replace (fexp x =? 0) with false by (symmetry; apply Z.eqb_neq; lia). reflexivity. }
  set (P := powerRZ 2 (fexp x - 1075)) in *. assert (PP : (0 < P)%R) by apply p2_pos.
  set (dd := (sgn (fsign x) * d / P)%R).
  assert (Ed : d = (sgn (fsign x) * dd * P)%R). { unfold dd. replace (sgn (fsign x) * (sgn (fsign x) * d / P) * P)%R with ((sgn (fsign x) * sgn (fsign x)) * (d * (/ P * P)))%R by (unfold Rdiv; ring). rewrite sgn_sq, Rinv_l by lra. ring. }
  assert (Bd : (Rabs dd < / 4)%R).
  { unfold dd, Rdiv. rewrite !Rabs_mult, sgn_abs, Rmult_1_l, Rabs_inv, (Rabs_right P) by lra. apply Rmult_lt_reg_r with P; [assumption|].
    rewrite Rmult_assoc, Rinv_l by lra. lra. }
  apply Rabs_def2 in Bd. destruct Bd as [Bd1 Bd2].
  destruct (Z.eq_dec (fmant x) 0) as [M0|M0].
  - (* a power of two: use the finer grid below it *)
    replace (val x + d)%R with (sgn (fsign x) * (IZR (2 ^ 53) + 2 * dd) * powerRZ 2 ((fexp x - 1078) + 2))%R.
    2:{ rewrite V, Ed, M0, Z.add_0_r. subst P. replace (fexp x - 1075) with (fexp x - 1078 + 2 + 1) by lia. rewrite (p2_add (fexp x - 1078 + 2) 1). change (powerRZ 2 1) with (2 * 1)%R.
        change (2 ^ 53) with (2 * 2 ^ 52). rewrite mult_IZR. ring. }
    replace x with (fsign x * 2 ^ 63 + ((fexp x - 1078 + 1076) * 2 ^ 52 + 2 ^ 53)) at 3 by lia.
    destruct (Rle_dec 0 dd) as [Pd|Pd].
    + (* above the power of two: the coarser grid *)
      replace (sgn (fsign x) * (IZR (2 ^ 53) + 2 * dd) * powerRZ 2 (fexp x - 1078 + 2))%R with (sgn (fsign x) * (IZR (2 ^ 52) + dd) * powerRZ 2 ((fexp x - 1077) + 2))%R.
      2:{ replace (fexp x - 1077 + 2) with (fexp x - 1078 + 2 + 1) by lia. rewrite (p2_add (fexp x - 1078 + 2) 1). change (powerRZ 2 1) with (2 * 1)%R.
          change (2 ^ 53) with (2 * 2 ^ 52). rewrite mult_IZR. ring. }
      replace ((fexp x - 1078 + 1076) * 2 ^ 52 + 2 ^ 53) with ((fexp x - 1077 + 1076) * 2 ^ 52 + 2 ^ 52) by lia.
      apply nearest_grid; try lia; try lra.
      * apply Rabs_le. lra.
      * intros T. exfalso. rewrite Rabs_left1 in T by lra. lra.
    + apply nearest_grid; try lia.
      * change (2 ^ 53) with (2 * 2 ^ 52). rewrite mult_IZR. assert (1 <= IZR (2 ^ 52))%R by (apply IZR_le; lia). lra.
      * apply Rabs_le. lra.
      * intros T. exfalso. rewrite Rabs_right in T by lra. lra.
  - replace (val x + d)%R with (sgn (fsign x) * (IZR (2 ^ 52 + fmant x) + dd) * powerRZ 2 ((fexp x - 1077) + 2))%R.
    2:{ rewrite V, Ed. replace (fexp x - 1077 + 2) with (fexp x - 1075) by lia. fold P. ring. }
    replace x with (fsign x * 2 ^ 63 + ((fexp x - 1077 + 1076) * 2 ^ 52 + (2 ^ 52 + fmant x))) at 4 by lia.
    apply nearest_grid; try lia.
    + rewrite plus_IZR. assert (1 <= IZR (fmant x))%R by (apply IZR_le; lia). lra.
    + apply Rabs_le. lra.
    + intros T. exfalso. destruct (Rle_dec 0 dd); [rewrite Rabs_left1 in T by lra | rewrite Rabs_right in T by lra]; lra.
Qed.

Lemma land63 c : Z.land c 63 = c mod 64. Proof. exact (land_low c 6 ltac:(lia)). Qed.

Lemma rne4 k : rne (4 * k) = k.
Proof.
  unfold rne, up. rewrite (Z.mul_comm 4 k), Z.div_mul by lia. rewrite (Z.mul_comm k 4).
  assert (P2 : k mod 2 = 0 \/ k mod 2 = 1) by (pose proof (Z.mod_pos_bound k 2 ltac:(lia)); lia).
  replace ((4 * k) mod 8) with (4 * (k mod 2)) by (change 8 with (4 * 2); rewrite Z.mul_mod_distr_l by lia; reflexivity).
  destruct P2 as [-> | ->].
  - change (Z.land (Z.shiftr 200 (4 * 0)) 1) with 0. lia.
  - change (Z.land (Z.shiftr 200 (4 * 1)) 1) with 0. lia.
Qed.

Definition add_core (a b : Z) : Z :=
  let '(sx, ex, xu) := add_unpack a in
  let '(sy, ey, yu) := add_unpack b in
  let cc := ex - ey in
  let yu := Z.land yu (w64 (- Z.shiftr (w32 (cc - 60)) 31)) in
  let cc := Z.land cc 63 in
  let m := w64 (fpr_ulsh 1 cc - 1) in
  let yu := Z.lor yu (w64 (Z.land yu m + m)) in
  let yu := fpr_ursh yu cc in
  finish sx ex (w64 (xu + (yu - Z.land (w64 (Z.shiftl yu 1)) (w64 (- Z.lxor sx sy))))).
Lemma add_is_core x y a b : add_swap x y = (a, b) -> fpr_add x y = add_core a b.
Proof. intros E. cbv beta delta [fpr_add]. rewrite E. cbv beta iota zeta delta [add_core finish]. reflexivity. Qed.

(** the aligned smaller operand, with its sticky bit *)
Lemma aligned yu c : 0 <= yu < 2 ^ 56 -> 0 <= c < 64 ->
  fpr_ursh (Z.lor yu (w64 (Z.land yu (w64 (fpr_ulsh 1 c - 1)) + w64 (fpr_ulsh 1 c - 1)))) c = Z.lor (yu / 2 ^ c) (if yu mod 2 ^ c =? 0 then 0 else 1).
Proof.
  intros Hy Hc. rewrite ulsh_ok by lia. rewrite Z.mul_1_l.
  assert (P : 0 < 2 ^ c) by (apply Z.pow_pos_nonneg; lia). assert (P' : 2 ^ c <= 2 ^ 63) by (apply Z.pow_le_mono_r; lia).
  rewrite (w64_id (2 ^ c)) by lia. rewrite (w64_id (2 ^ c - 1)) by lia. rewrite land_low by lia.
  pose proof (Z.mod_pos_bound yu (2 ^ c) P) as M. rewrite w64_id by lia. rewrite ursh_ok; [apply sticky_shift; lia| |assumption].
  apply lor_range; lia.
Qed.

Lemma sticky_sum xu y2 t (sg : bool) : Z.even xu = true -> sticky y2 t ->
  sticky (if sg then xu - y2 else xu + y2) (if sg then IZR xu - t else IZR xu + t)%R.
Proof.
  intros E S. assert (O : Z.odd xu = false) by (rewrite <- Z.negb_even, E; reflexivity). destruct sg.
  - destruct S as [->|[Oy B]]; [left; rewrite minus_IZR; reflexivity|]. right. rewrite Z.odd_sub, O, Oy, minus_IZR. split; [reflexivity|lra].
  - destruct S as [->|[Oy B]]; [left; rewrite plus_IZR; reflexivity|]. right. rewrite Z.odd_add, O, Oy, plus_IZR. split; [reflexivity|lra].
Qed.

Lemma core_rounded a b : usable a -> usable b -> b mod 2 ^ 63 <= a mod 2 ^ 63 -> (a mod 2 ^ 63 = b mod 2 ^ 63 -> fsign a = 1 -> fsign b = 1) ->
  rounded (val a + val b) (add_core a b) /\ ((Rabs (val a + val b) <= largest)%R -> sum_sign a b (add_core a b) (val a + val b)).
Proof.
  intros Ua Ub Hord Hzero. destruct (unpack_ok a Ua) as (-> & Va) || (unfold add_core; destruct (unpack_ok a Ua) as (Pa & Va); rewrite Pa).
  destruct (unpack_ok b Ub) as (Pb & Vb); rewrite Pb.
  destruct (usable_cases a Ua) as (Ra & _). destruct (usable_cases b Ub) as (Rb & _). destruct (fields a Ra) as (Sa & Ea & Ma & Xa). destruct (fields b Rb) as (Sb & Eb & Mb & Xb).
  rewrite (mod63 a Ra), (mod63 b Rb) in Hord, Hzero.
  pose proof (mag_range a Ua) as Ga. pose proof (mag_range b Ub) as Gb.
  assert (OE : fexp b <= fexp a) by lia.
  assert (OM : fexp a = fexp b -> mag b <= mag a) by (intros EE; unfold mag; rewrite EE; destruct (fexp b =? 0); lia).
  replace (fexp a - 1078 - (fexp b - 1078)) with (fexp a - fexp b) by lia. set (cc := fexp a - fexp b) in *. assert (Hcc : 0 <= cc < 2 ^ 11) by lia.
  rewrite neg32 by lia. rewrite land63.
  rewrite (mask_neg (mag b)); [|lia|apply bit_range]. rewrite eqb_bit.
  set (c := cc mod 64). assert (Hc : 0 <= c < 64) by (apply Z.mod_pos_bound; lia).
  set (yu := if cc - 60 <? 0 then mag b else 0). assert (Hyu : 0 <= yu < 2 ^ 56) by (subst yu; destruct (_ <? _); lia).
  cbv zeta. rewrite (aligned yu c Hyu Hc). set (y2 := Z.lor _ _).
  assert (Sy : sticky y2 (IZR yu / IZR (2 ^ c))) by (apply sticky_drop; lia).
  assert (Pc : 0 < 2 ^ c) by (apply Z.pow_pos_nonneg; lia).
  assert (Hy2 : 0 <= y2 <= yu / 2 ^ c + 1).
  { subst y2. assert (0 <= yu / 2 ^ c) by (apply Z.div_pos; lia). destruct (_ =? 0); [rewrite Z.lor_0_r; lia|]. rewrite lor1.
    pose proof (Z.div_mod (yu / 2 ^ c) 2 ltac:(lia)). pose proof (Z.mod_pos_bound (yu / 2 ^ c) 2 ltac:(lia)). lia. }
  assert (Hle : y2 <= mag a).
  { destruct (Z.eq_dec c 0) as [C0|C0].
    - assert (Y2 : y2 = yu) by (subst y2; rewrite C0; change (2 ^ 0) with 1; rewrite Z.div_1_r, Z.mod_1_r; change (0 =? 0) with true; cbv iota; apply Z.lor_0_r).
      rewrite Y2. subst yu. destruct (Z.ltb_spec (cc - 60) 0) as [L|L]; [|lia].
      assert (cc = 0) by (subst c; rewrite Z.mod_small in C0 by lia; exact C0). apply OM. lia.
    - destruct Ga as [[Ga Ga']|[Ga Ga']].
      + assert (cc = 0) by lia. exfalso. apply C0. subst c. rewrite H. reflexivity.
      + assert (2 <= 2 ^ c) by (change 2 with (2 ^ 1) at 1; apply Z.pow_le_mono_r; lia).
        assert (yu / 2 ^ c <= yu / 2) by (apply Z.div_le_compat_l; lia). assert (yu / 2 < 2 ^ 55) by (apply Z.div_lt_upper_bound; lia). lia. }
  assert (By2 : y2 < 2 ^ 63) by lia.
  rewrite shiftl_mul by lia. change (2 ^ 1) with 2. rewrite (w64_id (y2 * 2)) by lia.
  destruct (sgn_xor (fsign a) (fsign b) Sa Sb) as [SX SR]. rewrite mask_neg by lia.
  set (sg := Z.lxor (fsign a) (fsign b) =? 1) in *.
  assert (ET : w64 (mag a + (y2 - (if sg then y2 * 2 else 0))) = if sg then mag a - y2 else mag a + y2).
  { destruct sg; rewrite w64_id; lia. }
  rewrite ET. clear ET. set (T := if sg then mag a - y2 else mag a + y2) in *.
  set (t := (IZR (mag b) * powerRZ 2 (- cc))%R). set (tau := (if sg then IZR (mag a) - t else IZR (mag a) + t)%R).
  assert (Hsg : (sgn (fsign b) = if sg then - sgn (fsign a) else sgn (fsign a))%R).
  { subst sg. assert (A : fsign a = 0 \/ fsign a = 1) by lia. assert (B : fsign b = 0 \/ fsign b = 1) by lia.
    destruct A as [-> | ->], B as [-> | ->]; unfold sgn; cbn; ring. }
  assert (Er : (val a + val b = sgn (fsign a) * tau * powerRZ 2 (fexp a - 1078))%R).
  { rewrite Va, Vb, Hsg. subst tau t. replace (fexp b - 1078) with (- cc + (fexp a - 1078)) by lia. rewrite p2_add. destruct sg; ring. }
  assert (Ht0 : (0 <= t)%R). { subst t. apply Rmult_le_pos; [apply IZR_le; lia | left; apply p2_pos]. }
  assert (Pcc : (powerRZ 2 (- cc) = / IZR (2 ^ cc))%R).
  { rewrite <- (p2_nat cc) by lia. assert (powerRZ 2 cc * powerRZ 2 (- cc) = 1)%R by (rewrite <- p2_add, Z.add_opp_diag_r; reflexivity).
    pose proof (p2_pos cc). apply Rmult_eq_reg_l with (powerRZ 2 cc); [|lra]. rewrite Rinv_r by lra. lra. }
  assert (Pcc1 : (1 <= IZR (2 ^ cc))%R) by (apply IZR_le; pose proof (Z.pow_pos_nonneg 2 cc ltac:(lia) ltac:(lia)); lia).
  (* the magnitude of the second operand never exceeds the first *)
  assert (Hta : (t <= IZR (mag a))%R).
  { subst t. rewrite Pcc. destruct (Z.eq_dec cc 0) as [C0|C0].
    - rewrite C0. change (2 ^ 0) with 1. rewrite Rinv_1, Rmult_1_r. apply IZR_le. apply OM. lia.
    - assert (2 ^ 55 <= mag a) by lia. assert (2 <= 2 ^ cc) by (change 2 with (2 ^ 1) at 1; apply Z.pow_le_mono_r; lia).
      apply Rmult_le_reg_r with (IZR (2 ^ cc)); [lra|]. rewrite Rmult_assoc, Rinv_l by lra. rewrite Rmult_1_r, <- mult_IZR. apply IZR_le. nia. }
  assert (Htau : (0 <= tau)%R). { subst tau. destruct sg; [lra|]. assert (0 <= IZR (mag a))%R by (apply IZR_le; lia). lra. }
  assert (PR : (0 < powerRZ 2 (fexp a - 1078))%R) by apply p2_pos.
  (* signs *)
  assert (SIGN : forall r, (fsign r = fsign a) -> sum_sign a b r (val a + val b)).
  { intros r Fr. unfold sum_sign. rewrite Er, Fr.
    assert (A : fsign a = 0 \/ fsign a = 1) by lia.
    assert (PT : (0 <= tau * powerRZ 2 (fexp a - 1078))%R) by (apply Rmult_le_pos; lra).
    split; [|split].
    - intros H. destruct A as [A|A]; [exact A|]. exfalso. rewrite A in H. unfold sgn in H. cbn in H. lra.
    - intros H. destruct A as [A|A]; [|exact A]. exfalso. rewrite A in H. unfold sgn in H. cbn in H. lra.
    - intros H. destruct A as [A|A]; [rewrite A; reflexivity|]. rewrite A.
      assert (T0 : tau = 0%R). { rewrite A in H. unfold sgn in H. cbn in H. destruct (Req_dec tau 0) as [Z0|Z0]; [exact Z0|]. exfalso. assert (0 < tau * powerRZ 2 (fexp a - 1078))%R by (apply Rmult_lt_0_compat; lra). lra. }
      assert (B : fsign b = 0 \/ fsign b = 1) by lia. destruct B as [B|B]; [|rewrite B; reflexivity].
      exfalso. assert (G : sg = true) by (subst sg; rewrite A, B; reflexivity). subst tau. rewrite G in T0.
      assert (Tm : t = IZR (mag a)) by lra.
      destruct Ga as [[Ga Ga']|[Ga Ga']].
      + (* both zero *)
        assert (F0 : fmant a = 0) by (destruct (usable_cases a Ua) as (_ & [[C _]|(_ & C & _)]); lia).
        assert (F1 : fmant b = 0) by (destruct (usable_cases b Ub) as (_ & [[C _]|(_ & C & _)]); lia).
        assert (fexp b = 0) by lia. specialize (Hzero ltac:(lia) A). lia.
      + assert (CC0 : cc = 0).
        { apply Z.le_antisymm; [|lia]. apply Z.nlt_ge. intros C. assert (2 <= 2 ^ cc) by (change 2 with (2 ^ 1) at 1; apply Z.pow_le_mono_r; lia).
          assert (H1 : (IZR (mag b) = IZR (mag a) * IZR (2 ^ cc))%R). { rewrite <- Tm. unfold t. rewrite Pcc. rewrite Rmult_assoc, Rinv_l by lra. ring. }
          rewrite <- mult_IZR in H1. apply eq_IZR in H1. nia. }
        assert (ME : mag b = mag a). { apply eq_IZR. rewrite <- Tm. unfold t. rewrite CC0. cbn [Z.opp powerRZ]. ring. }
        assert (fexp a = fexp b) by lia. assert (fmant a = fmant b).
        { unfold mag in ME. replace (fexp a =? 0) with false in ME by (symmetry; apply Z.eqb_neq; lia). replace (fexp b =? 0) with false in ME by (symmetry; apply Z.eqb_neq; lia). lia. }
        specialize (Hzero ltac:(lia) A). lia. }
  destruct (Z.lt_ge_cases cc 60) as [Near|Far].
  - (* close exponents: nothing is lost but the sticky bit *)
    assert (Cc : c = cc) by (subst c; apply Z.mod_small; lia).
    assert (Yu : yu = mag b) by (subst yu; replace (cc - 60 <? 0) with true by (symmetry; apply Z.ltb_lt; lia); reflexivity).
    assert (St : sticky y2 t). { unfold t. rewrite Pcc. rewrite Yu, Cc in Sy. exact Sy. }
    assert (EV : Z.even (mag a) = true).
    { destruct Ga as [[-> _]|(_ & _ & Ga)]; [reflexivity|]. apply Z.mod_divide in Ga; [|lia]. destruct Ga as [k Hk]. rewrite Hk, Z.even_mul. apply orb_true_r. }
    assert (Sτ : sticky T tau) by (apply sticky_sum; assumption).
    assert (BT : 0 <= T < 2 ^ 64) by (subst T; destruct sg; lia).
    assert (Odd : Z.odd T = true -> tau = IZR T \/ (sticky T tau /\ 2 ^ 54 <= T)).
    { intros O. destruct St as [Ex|[Oy _]].
      - left. subst tau T. rewrite Ex. destruct sg; [rewrite minus_IZR | rewrite plus_IZR]; reflexivity.
      - right. split; [exact Sτ|].
        (* an odd aligned operand means at least four dropped positions *)
        assert (C3 : 3 <= cc).
        { apply Z.nlt_ge. intros C3.
          destruct Gb as [[Gb _]|(Gb & _ & G8)].
          - assert (y2 = 0) by (subst y2; rewrite Yu, Gb, Z.mod_0_l by lia; change (0 =? 0) with true; cbv iota; rewrite Z.lor_0_r, Z.div_0_l by lia; reflexivity). rewrite H in Oy. discriminate Oy.
          - apply Z.mod_divide in G8; [|lia]. destruct G8 as [k Hk].
            assert (Pk : 8 = 2 * 2 ^ (2 - cc) * 2 ^ cc).
            { rewrite <- Z.mul_assoc, <- pow_split by lia. replace (2 - cc + cc) with 2 by lia. reflexivity. }
            assert (y2 = 2 * (k * 2 ^ (2 - cc))).
            { subst y2. rewrite Yu, Cc, Hk, Pk. replace (k * (2 * 2 ^ (2 - cc) * 2 ^ cc)) with (2 * (k * 2 ^ (2 - cc)) * 2 ^ cc) by ring.
              rewrite Z.mod_mul, Z.div_mul by (apply Z.pow_nonzero; lia). change (0 =? 0) with true. cbv iota. apply Z.lor_0_r. }
            rewrite H, Z.odd_mul in Oy. discriminate Oy. }
        assert (8 <= 2 ^ c) by (rewrite Cc; change 8 with (2 ^ 3); apply Z.pow_le_mono_r; lia).
        assert (yu / 2 ^ c <= yu / 8) by (apply Z.div_le_compat_l; lia). assert (yu / 8 < 2 ^ 53) by (apply Z.div_lt_upper_bound; lia).
        assert (2 ^ 55 <= mag a) by lia. subst T. destruct sg; lia. }
    assert (FIN : tau = IZR T \/ (sticky T tau /\ 2 ^ 54 <= T)).
    { destruct Sτ as [Ex|[O _]]; [left; exact Ex | apply Odd; exact O]. }
    destruct (Z.eq_dec T 0) as [T0|TN].
    + assert (tau = 0%R). { destruct FIN as [->|[_ C]]; [rewrite T0; reflexivity | lia]. }
      rewrite T0, finish_zero by lia. rewrite Er, H, Rmult_0_r, Rmult_0_l. split; [apply rounded_zero; assumption|]. intros _.
      pose proof (SIGN (fsign a * 2 ^ 63) (sign_zero (fsign a) Sa)) as SG. rewrite Er, H, Rmult_0_r, Rmult_0_l in SG. exact SG.
    + destruct (finish_ok (fsign a) (fexp a - 1078) T tau Sa ltac:(lia) ltac:(lia) FIN) as [F1 F2]. rewrite <- Er in F1, F2.
      split; [exact F1|]. intros L. apply SIGN. apply F2. exact L.
  - (* far exponents: the second operand is dropped *)
    assert (Yu : yu = 0) by (subst yu; replace (cc - 60 <? 0) with false by (symmetry; apply Z.ltb_ge; lia); reflexivity).
    assert (Y2 : y2 = 0) by (subst y2; rewrite Yu, Z.mod_0_l, Z.div_0_l by lia; reflexivity).
    assert (ET : T = mag a) by (subst T; rewrite Y2; destruct sg; lia). rewrite ET.
    assert (Na : 2 ^ 55 <= mag a < 2 ^ 56 /\ 1 <= fexp a <= 2046) by lia.
    destruct (finish_ok (fsign a) (fexp a - 1078) (mag a) (IZR (mag a)) Sa ltac:(lia) ltac:(lia) (or_introl eq_refl)) as [F1 F2]. rewrite <- Va in F1, F2.
    assert (NA : normal a). { destruct Ua as [N|[-> | ->]]; [exact N| |]; exfalso; destruct Na as [_ [Na _]]; vm_compute in Na; apply Na; reflexivity. }
    assert (Ia : finish (fsign a) (fexp a - 1078) (mag a) = a).
    { unfold finish. destruct (norm64_ok (mag a) (fexp a - 1078) ltac:(lia)) as (n & m & -> & Hn & Em & Bm).
      assert (n = 8).
      { assert (n < 64) by (apply Z.nle_gt; intros C; assert (2 ^ 64 <= 2 ^ n) by (apply Z.pow_le_mono_r; lia); nia).
        destruct (Z.lt_total n 8) as [C|[C|C]]; [exfalso|exact C|exfalso].
        - assert (2 ^ n <= 2 ^ 7) by (apply Z.pow_le_mono_r; lia). nia.
        - assert (2 ^ 9 <= 2 ^ n) by (apply Z.pow_le_mono_r; lia). nia. }
      subst n. rewrite drop9 by lia. assert (MA : mag a = 8 * (2 ^ 52 + fmant a)) by (unfold mag; replace (fexp a =? 0) with false by (symmetry; apply Z.eqb_neq; lia); reflexivity).
      assert (Em' : m = (4 * (2 ^ 52 + fmant a)) * 2 ^ 9) by lia. rewrite Em'. rewrite Z.div_mul, Z.mod_mul by lia. change (0 =? 0) with true. cbv iota. rewrite Z.lor_0_r.
      assert (RN : rne (4 * (2 ^ 52 + fmant a)) = 2 ^ 52 + fmant a) by apply rne4.
      rewrite FPR_bits; rewrite ?RN; lia. }
    rewrite Ia. split; [|intros _; apply SIGN; reflexivity].
    intros L. split; [exact Ua|].
    assert (Bd : (Rabs (val b) < powerRZ 2 (fexp a - 1075) / 4)%R).
    { rewrite Vb. rewrite !Rabs_mult, sgn_abs, Rmult_1_l, (Rabs_right (powerRZ 2 _)) by (left; apply p2_pos). rewrite Rabs_right by (apply Rle_ge, IZR_le; lia).
      replace (fexp b - 1078) with (fexp a - 1075 - 3 + - cc) by lia. rewrite p2_add. rewrite Pcc.
      replace (fexp a - 1075 - 3) with (fexp a - 1075 + - (3)) by lia. rewrite p2_add. replace (powerRZ 2 (- (3))) with (/ 8)%R by (change (powerRZ 2 (- (3))) with (/ (2 ^ 3))%R; f_equal; ring).
      set (P := powerRZ 2 (fexp a - 1075)). assert (0 < P)%R by apply p2_pos.
      assert (H56 : (IZR (mag b) < IZR (2 ^ 56))%R) by (apply IZR_lt; lia).
      assert (H60 : (IZR (2 ^ 60) <= IZR (2 ^ cc))%R) by (apply IZR_le; apply Z.pow_le_mono_r; lia).
      assert (Hq : (IZR (mag b) * / IZR (2 ^ cc) < 1)%R).
      { apply Rmult_lt_reg_r with (IZR (2 ^ cc)); [lra|]. rewrite Rmult_assoc, Rinv_l by lra. assert (IZR (2 ^ 56) < IZR (2 ^ 60))%R by (apply IZR_lt; lia). lra. }
      replace (IZR (mag b) * (P * / 8 * / IZR (2 ^ cc)))%R with (IZR (mag b) * / IZR (2 ^ cc) * (P / 8))%R by (field; lra).
      apply Rlt_trans with (1 * (P / 8))%R; [apply Rmult_lt_compat_r; lra | lra]. }
    split.
    + intros _. apply nearest_far; [exact NA | lia | exact Bd].
    + intros C. exfalso. (* a normal operand plus a tiny one stays normal *)
      assert (A : (Rabs (val a) - Rabs (val b) <= Rabs (val a + val b))%R).
      { pose proof (Rabs_triang (val a + val b) (- val b)) as Q. replace (val a + val b + - val b)%R with (val a) in Q by ring. rewrite Rabs_Ropp in Q. lra. }
      assert (LA : (powerRZ 2 (fexp a - 1023) <= Rabs (val a))%R).
      { rewrite Va. rewrite !Rabs_mult, sgn_abs, Rmult_1_l, (Rabs_right (powerRZ 2 _)) by (left; apply p2_pos). rewrite Rabs_right by (apply Rle_ge, IZR_le; lia).
        replace (fexp a - 1023) with (55 + (fexp a - 1078)) by lia. rewrite p2_add, (p2_nat 55) by lia. apply Rmult_le_compat_r; [lra | apply IZR_le; lia]. }
      unfold smallest_normal in C. pose proof (p2_mono (-1022 + 1) (fexp a - 1023) ltac:(lia)) as Q. rewrite p2_add in Q. change (powerRZ 2 1) with (2 * 1)%R in Q.
      pose proof (p2_mono (fexp a - 1075) (fexp a - 1024) ltac:(lia)) as Q2.
      assert (Q3 : (powerRZ 2 (fexp a - 1023) = powerRZ 2 (fexp a - 1024) * 2)%R) by (replace (fexp a - 1023) with (fexp a - 1024 + 1) by lia; rewrite p2_add; change (powerRZ 2 1) with (2 * 1)%R; ring).
      pose proof (p2_pos (fexp a - 1075)). lra.
Qed.

Theorem add_rounded x y : usable x -> usable y ->
  rounded (val x + val y) (fpr_add x y) /\ ((Rabs (val x + val y) <= largest)%R -> sum_sign x y (fpr_add x y) (val x + val y)).
Proof.
  intros Ux Uy. destruct (swap_facts x y Ux Uy) as (a & b & E & Ua & Ub & V & S & O & Z). rewrite (add_is_core x y a b E).
  destruct (core_rounded a b Ua Ub O Z) as [C1 C2]. rewrite V. split; [exact C1|]. intros L. destruct (C2 L) as (P1 & P2 & P3).
  split; [exact P1|]. split; [exact P2|]. intros R0. rewrite S. apply P3. exact R0.
Qed.

(** negation flips the sign bit *)
Lemma neg_bits y : 0 <= y < 2 ^ 64 -> Z.lxor y (2 ^ 63) = (1 - fsign y) * 2 ^ 63 + (fexp y * 2 ^ 52 + fmant y).
Proof.
  intros H. destruct (fields y H) as (S & E & M & X). set (K := fexp y * 2 ^ 52 + fmant y) in *. assert (HK : 0 <= K < 2 ^ 63) by lia.
  rewrite X at 1. clearbody K. assert (C : fsign y = 0 \/ fsign y = 1) by lia.
  pose proof (lor_add 1 K 63 ltac:(lia) HK) as L1. rewrite Z.mul_1_l in L1.
  assert (N : Z.land (2 ^ 63) K = 0).
  { apply Z.bits_inj'. intros i Hi. rewrite Z.land_spec, Z.bits_0. destruct (Z.lt_ge_cases i 63) as [L|L].
    - rewrite Z.pow2_bits_false by lia. reflexivity.
    - rewrite (bits_above K 63 i) by assumption. apply andb_false_r. }
  assert (X1 : Z.lxor (2 ^ 63) K = 2 ^ 63 + K) by (rewrite Z.add_nocarry_lxor by exact N; reflexivity).
  destruct C as [-> | ->].
  - rewrite Z.mul_0_l, Z.add_0_l, Z.lxor_comm, X1. lia.
  - rewrite Z.mul_1_l, <- X1, (Z.lxor_comm (2 ^ 63) K), Z.lxor_assoc, Z.lxor_nilpotent, Z.lxor_0_r. lia.
Qed.
Lemma neg_ok y : usable y -> usable (fpr_neg y) /\ val (fpr_neg y) = (- val y)%R /\ fsign (fpr_neg y) = 1 - fsign y.
Proof.
  intros U. destruct (usable_cases y U) as (R & C). destruct (fields y R) as (S & E & M & X). unfold fpr_neg. rewrite (neg_bits y R).
  set (z := (1 - fsign y) * 2 ^ 63 + (fexp y * 2 ^ 52 + fmant y)).
  assert (F1 : fsign z = 1 - fsign y) by (apply field_sign; lia). assert (F2 : fexp z = fexp y) by (apply field_exp; lia). assert (F3 : fmant z = fmant y) by (apply field_mant; lia).
  split; [|split; [|exact F1]].
  - destruct C as [[C _]|(C1 & C2 & _)].
    + left. split; [split; [subst z; lia | rewrite F2; lia] | rewrite F2; lia].
    + right. subst z. rewrite C1, C2. assert (K : fsign y = 0 \/ fsign y = 1) by lia. destruct K as [-> | ->]; [right | left]; reflexivity.
  - unfold val. rewrite F1, F2, F3. assert (K : fsign y = 0 \/ fsign y = 1) by lia. 
    assert (SG : (sgn (1 - fsign y) = - sgn (fsign y))%R).
    { destruct K as [-> | ->]; [change (1 - 0) with 1 | change (1 - 1) with 0]; unfold sgn; [change (1 =? 1) with true; change (0 =? 1) with false | change (1 =? 1) with true; change (0 =? 1) with false]; cbv iota; ring. }
    rewrite SG. clear. set (a := sgn (fsign y)). set (b := IZR (fmant y)). set (c := IZR (2 ^ 52 + fmant y)). set (d := powerRZ 2 (-1074)). set (e := powerRZ 2 (fexp y - 1075)).
    clearbody a b c d e. destruct (fexp y =? 0); ring.
Qed.
Theorem sub_rounded x y : usable x -> usable y ->
  rounded (val x - val y) (fpr_sub x y) /\ ((Rabs (val x - val y) <= largest)%R -> sum_sign x (fpr_neg y) (fpr_sub x y) (val x - val y)).
Proof.
  intros Ux Uy. destruct (neg_ok y Uy) as (Un & Vn & _). pose proof (add_rounded x (fpr_neg y) Ux Un) as A. rewrite Vn in A. exact A.
Qed.
