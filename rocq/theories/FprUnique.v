(** The nearest double is unique (up to the sign of zero): [nearest] pins down one real number. *)
From Coq Require Import Reals Lra.
From Verif Require Import Base FprSpec FprBits FprRound.
Open Scope Z_scope.

Definition kmag (x : Z) : Z := fexp x * 2 ^ 52 + fmant x.
Definition dval (K : Z) : R := if K / 2 ^ 52 =? 0 then (IZR (K mod 2 ^ 52) * powerRZ 2 (-1074))%R else (IZR (2 ^ 52 + K mod 2 ^ 52) * powerRZ 2 (K / 2 ^ 52 - 1075))%R.
Lemma kmag_ok x : 0 <= x < 2 ^ 64 -> kmag x / 2 ^ 52 = fexp x /\ kmag x mod 2 ^ 52 = fmant x /\ 0 <= kmag x.
Proof.
  intros H. destruct (fields x H) as (S & E & M & X). unfold kmag. split; [symmetry; apply Z.div_unique_pos with (r := fmant x); lia|].
  split; [symmetry; apply Z.mod_unique_pos with (q := fexp x); lia | lia].
Qed.
Lemma val_dval x : 0 <= x < 2 ^ 64 -> val x = (sgn (fsign x) * dval (kmag x))%R.
Proof.
  intros H. destruct (kmag_ok x H) as (A & B & _). unfold val, dval. rewrite A, B. destruct (_ =? 0); ring.
Qed.
Lemma dval_step K : 0 <= K -> (dval K < dval (K + 1))%R.
Proof.
  intros H. pose proof (Z.div_mod K (2 ^ 52) ltac:(lia)) as D. pose proof (Z.mod_pos_bound K (2 ^ 52) ltac:(lia)) as B.
  assert (E0 : 0 <= K / 2 ^ 52) by (apply Z.div_pos; lia). unfold dval. set (E := K / 2 ^ 52) in *. set (M := K mod 2 ^ 52) in *.
  destruct (Z.eq_dec M (2 ^ 52 - 1)) as [C|C].
  - assert (D1 : (K + 1) / 2 ^ 52 = E + 1) by (symmetry; apply Z.div_unique_pos with (r := 0); lia).
    assert (D2 : (K + 1) mod 2 ^ 52 = 0) by (symmetry; apply Z.mod_unique_pos with (q := E + 1); lia). rewrite D1, D2.
    replace (E + 1 =? 0) with false by (symmetry; apply Z.eqb_neq; lia). destruct (Z.eqb_spec E 0) as [Z0|N0].
    + rewrite Z0, C. change (0 + 1 - 1075) with (-1074). apply Rmult_lt_compat_r; [apply p2_pos | apply IZR_lt; lia].
    + rewrite C. replace (E + 1 - 1075) with (1 + (E - 1075)) by lia. rewrite p2_add, <- Rmult_assoc. apply Rmult_lt_compat_r; [apply p2_pos|].
      rewrite (p2_nat 1), <- mult_IZR by lia. apply IZR_lt. lia.
  - assert (D1 : (K + 1) / 2 ^ 52 = E) by (symmetry; apply Z.div_unique_pos with (r := M + 1); lia).
    assert (D2 : (K + 1) mod 2 ^ 52 = M + 1) by (symmetry; apply Z.mod_unique_pos with (q := E); lia). rewrite D1, D2.
    destruct (E =? 0); (apply Rmult_lt_compat_r; [apply p2_pos | apply IZR_lt; lia]).
Qed.
Lemma dval_zero : dval 0 = 0%R.
Proof. unfold dval. change (0 / 2 ^ 52 =? 0) with true. cbv iota. change (0 mod 2 ^ 52) with 0. ring. Qed.

(** numbers in order: the position of a double is its magnitude with its sign *)
Definition pos (x : Z) : Z := if fsign x =? 1 then - kmag x else kmag x.
Definition pv (p : Z) : R := if p <? 0 then (- dval (- p))%R else dval p.
Lemma val_pos x : 0 <= x < 2 ^ 64 -> val x = pv (pos x).
Proof.
  intros H. rewrite val_dval by assumption. destruct (kmag_ok x H) as (_ & _ & K). unfold pos, pv, sgn. destruct (fsign x =? 1).
  - destruct (Z.ltb_spec (- kmag x) 0); [rewrite Z.opp_involutive; ring|]. assert (Z0 : kmag x = 0) by lia. rewrite Z0. change (- 0) with 0. rewrite dval_zero. ring.
  - destruct (Z.ltb_spec (kmag x) 0); [lia | ring].
Qed.
Lemma pv_step p : (pv p < pv (p + 1))%R.
Proof.
  unfold pv. destruct (Z.ltb_spec p 0), (Z.ltb_spec (p + 1) 0); try lia.
  - pose proof (dval_step (- (p + 1)) ltac:(lia)) as A. replace (- (p + 1) + 1) with (- p) in A by lia. lra.
  - assert (p = -1) by lia. subst p. change (- -1) with 1. change (-1 + 1) with 0. pose proof (dval_step 0 ltac:(lia)) as A. change (0 + 1) with 1 in A. rewrite dval_zero in *. lra.
  - apply dval_step. assumption.
Qed.
Lemma pv_mono_nat n : forall p, (pv p < pv (p + 1 + Z.of_nat n))%R.
Proof.
  induction n as [|n IH]; intros p; [rewrite Z.add_0_r; apply pv_step|].
  apply Rlt_trans with (1 := pv_step p). specialize (IH (p + 1)). replace (p + 1 + Z.of_nat (S n)) with (p + 1 + 1 + Z.of_nat n) by lia. exact IH.
Qed.
Lemma pv_mono p q : p < q -> (pv p < pv q)%R.
Proof. intros H. pose proof (pv_mono_nat (Z.to_nat (q - p - 1)) p) as A. replace (p + 1 + Z.of_nat (Z.to_nat (q - p - 1))) with q in A by lia. exact A. Qed.
Lemma pv_lt p q : (pv p < pv q)%R -> p < q.
Proof.
  intros H. apply Z.nle_gt. intros L. destruct (Z.eq_dec q p) as [->|N]; [lra|]. pose proof (pv_mono q p ltac:(lia)). lra.
Qed.
Definition dmax : Z := 2047 * 2 ^ 52.
Lemma pos_range x : double x -> - dmax < pos x < dmax.
Proof. intros [H E]. destruct (fields x H) as (S & E0 & M & X). unfold pos, kmag, dmax. destruct (_ =? 1); lia. Qed.
Lemma pos_exists p : - dmax < p < dmax -> exists w, double w /\ pos w = p.
Proof.
  intros H. unfold dmax in H. set (s := if p <? 0 then 1 else 0). set (K := Z.abs p). exists (s * 2 ^ 63 + (K / 2 ^ 52 * 2 ^ 52 + K mod 2 ^ 52)).
  pose proof (Z.div_mod K (2 ^ 52) ltac:(lia)) as D. pose proof (Z.mod_pos_bound K (2 ^ 52) ltac:(lia)) as B.
  assert (HK : 0 <= K < 2047 * 2 ^ 52) by (subst K; lia).
  assert (E0 : 0 <= K / 2 ^ 52 < 2047) by (split; [apply Z.div_pos; lia | apply Z.div_lt_upper_bound; lia]). assert (Hs : 0 <= s <= 1) by apply bit_range.
  assert (F1 : fexp (s * 2 ^ 63 + (K / 2 ^ 52 * 2 ^ 52 + K mod 2 ^ 52)) = K / 2 ^ 52) by (apply field_exp; lia).
  assert (F2 : fmant (s * 2 ^ 63 + (K / 2 ^ 52 * 2 ^ 52 + K mod 2 ^ 52)) = K mod 2 ^ 52) by (apply field_mant; lia).
  assert (F3 : fsign (s * 2 ^ 63 + (K / 2 ^ 52 * 2 ^ 52 + K mod 2 ^ 52)) = s) by (apply field_sign; lia).
  split; [split; [lia | rewrite F1; lia]|]. unfold pos, kmag. rewrite F1, F2, F3. subst s K. destruct (Z.ltb_spec p 0); [change (1 =? 1) with true | change (0 =? 1) with false]; cbv iota; lia.
Qed.
Lemma even_pos x : 0 <= x < 2 ^ 64 -> Z.even (fmant x) = Z.even (pos x).
Proof.
  intros H. assert (E : Z.even (kmag x) = Z.even (fmant x)).
  { unfold kmag. rewrite Z.even_add, Z.even_mul, Z.even_pow by lia. change (Z.even 2) with true. rewrite orb_true_r. destruct (Z.even (fmant x)); reflexivity. }
  unfold pos. destruct (_ =? 1); [rewrite Z.even_opp|]; symmetry; exact E.
Qed.
Lemma nearest_lt r x y : nearest r x -> nearest r y -> (val x < val y)%R -> False.
Proof.
  intros (Dx & Mx & Tx) (Dy & My & Ty) L. pose proof (Mx y Dy) as A. pose proof (My x Dx) as B.
  assert (EQ : Rabs (val x - r) = Rabs (val y - r)) by lra.
  assert (Mid : (r = (val x + val y) / 2)%R).
  { unfold Rabs in EQ. destruct (Rcase_abs (val x - r)), (Rcase_abs (val y - r)); lra. }
  pose proof Dx as [Rx _]. pose proof Dy as [Ry _].
  assert (P : pos x < pos y) by (apply pv_lt; rewrite <- !val_pos by assumption; exact L).
  pose proof (pos_range x Dx) as PX. pose proof (pos_range y Dy) as PY.
  destruct (Z.eq_dec (pos y) (pos x + 1)) as [S|S].
  - assert (Ex : Z.even (pos x) = true) by (rewrite <- even_pos by assumption; apply (Tx y Dy); [lra | symmetry; exact EQ]).
    assert (Ey : Z.even (pos y) = true) by (rewrite <- even_pos by assumption; apply (Ty x Dx); [lra | exact EQ]).
    rewrite S, Z.even_add, Ex in Ey. discriminate Ey.
  - destruct (pos_exists (pos x + 1) ltac:(lia)) as (w & Dw & Pw). pose proof (Mx w Dw) as C. pose proof Dw as [Rw _].
    assert (W1 : (val x < val w)%R) by (rewrite !val_pos, Pw by assumption; apply pv_step).
    assert (W2 : (val w < val y)%R) by (rewrite !val_pos, Pw by assumption; apply pv_mono; lia).
    clear - C W1 W2 Mid. unfold Rabs in C. destruct (Rcase_abs (val x - r)), (Rcase_abs (val w - r)); lra.
Qed.
Theorem nearest_unique r x y : nearest r x -> nearest r y -> val x = val y.
Proof.
  intros Hx Hy. destruct (Rtotal_order (val x) (val y)) as [L|[E|L]]; [exfalso; exact (nearest_lt r x y Hx Hy L) | exact E | exfalso; exact (nearest_lt r y x Hy Hx L)].
Qed.
(** a number of non-zero value is pinned down bit for bit *)
Theorem val_bits x y : double x -> double y -> val x = val y -> val x <> 0%R -> x = y.
Proof.
  intros [Rx Ex] [Ry Ey] E N. rewrite !val_pos in * by assumption.
  assert (P : pos x = pos y).
  { destruct (Z.lt_trichotomy (pos x) (pos y)) as [L|[L|L]]; [pose proof (pv_mono _ _ L); lra | exact L | pose proof (pv_mono _ _ L); lra]. }
  assert (P0 : pos x <> 0) by (intros Z0; rewrite Z0 in N; apply N; exact dval_zero).
  destruct (kmag_ok x Rx) as (_ & _ & K1). destruct (kmag_ok y Ry) as (_ & _ & K2). destruct (fields x Rx) as (S1 & _ & _ & X1). destruct (fields y Ry) as (S2 & _ & _ & X2).
  fold (kmag x) in X1. fold (kmag y) in X2. unfold pos in P, P0. rewrite X1, X2.
  assert (C1 : fsign x = 0 \/ fsign x = 1) by lia. assert (C2 : fsign y = 0 \/ fsign y = 1) by lia.
  destruct C1 as [C1|C1], C2 as [C2|C2]; rewrite C1, C2 in *; change (0 =? 1) with false in *; change (1 =? 1) with true in *; cbv iota in *; lia.
Qed.
