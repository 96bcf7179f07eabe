(** Comparison, halving, doubling and the constants of the C floating-point numbers. *)
From Coq Require Import Reals Lra.
From Verif Require Import Base FprModel FprSpec FprBits FprRound FprMul FprAdd FprConv.
Open Scope Z_scope.

(** ** Comparison *)
Definition kmag (x : Z) : Z := fexp x * 2 ^ 52 + fmant x.
Definition aval (x : Z) : R := if fexp x =? 0 then 0%R else (IZR (2 ^ 52 + fmant x) * powerRZ 2 (fexp x - 1075))%R.
Lemma usable_val x : usable x -> 0 <= x < 2 ^ 64 /\ 0 <= fsign x <= 1 /\ 0 <= kmag x < 2 ^ 63 /\ x = fsign x * 2 ^ 63 + kmag x /\
  val x = (sgn (fsign x) * aval x)%R /\ (0 <= aval x)%R /\ (kmag x = 0 <-> aval x = 0%R).
Proof.
  intros U. destruct (usable_cases x U) as (R & C). destruct (fields x R) as (S & E & M & X). split; [exact R|]. split; [exact S|].
  unfold kmag, aval. split; [lia|]. split; [exact X|]. destruct C as [[E1 V]|(E1 & M0 & V)].
  - replace (fexp x =? 0) with false by (symmetry; apply Z.eqb_neq; lia). rewrite V. split; [ring|].
    assert (P : (0 < IZR (2 ^ 52 + fmant x) * powerRZ 2 (fexp x - 1075))%R) by (apply Rmult_lt_0_compat; [apply IZR_lt; lia | apply p2_pos]).
    split; [lra|]. split; intros Q; [lia | lra].
  - rewrite E1, M0, V. change (0 =? 0) with true. cbv iota. split; [ring|]. split; [lra|]. split; reflexivity.
Qed.
Lemma aval_mono x y : usable x -> usable y -> kmag x < kmag y -> (aval x < aval y)%R.
Proof.
  intros Ux Uy L. destruct (usable_cases x Ux) as (Rx & Cx). destruct (usable_cases y Uy) as (Ry & Cy).
  destruct (fields x Rx) as (_ & Ex & Mx & _). destruct (fields y Ry) as (_ & Ey & My & _). unfold kmag in L. unfold aval.
  destruct Cy as [[E1 _]|(E1 & M1 & _)]; [|rewrite E1, M1 in L; lia]. replace (fexp y =? 0) with false by (symmetry; apply Z.eqb_neq; lia).
  destruct Cx as [[E2 _]|(E2 & M2 & _)].
  - replace (fexp x =? 0) with false by (symmetry; apply Z.eqb_neq; lia). assert (C : fexp x < fexp y \/ (fexp x = fexp y /\ fmant x < fmant y)) by lia.
    destruct C as [C|[C1 C2]].
    + apply Rlt_le_trans with (IZR (2 ^ 52) * powerRZ 2 (fexp x + 1 - 1075))%R.
      * replace (fexp x + 1 - 1075) with (1 + (fexp x - 1075)) by lia. rewrite p2_add, <- Rmult_assoc. apply Rmult_lt_compat_r; [apply p2_pos|].
        rewrite (p2_nat 1), <- mult_IZR by lia. apply IZR_lt. lia.
      * apply Rmult_le_compat; [apply IZR_le; lia | left; apply p2_pos | apply IZR_le; lia | apply p2_mono; lia].
    + rewrite C1. apply Rmult_lt_compat_r; [apply p2_pos | apply IZR_lt; lia].
  - rewrite E2. change (0 =? 0) with true. cbv iota. apply Rmult_lt_0_compat; [apply IZR_lt; lia | apply p2_pos].
Qed.
Lemma aval_inj x y : usable x -> usable y -> kmag x = kmag y -> aval x = aval y.
Proof.
  intros Ux Uy E. destruct (usable_cases x Ux) as (Rx & _). destruct (usable_cases y Uy) as (Ry & _).
  destruct (fields x Rx) as (_ & Ex & Mx & _). destruct (fields y Ry) as (_ & Ey & My & _). unfold kmag in E.
  assert (fexp x = fexp y /\ fmant x = fmant y) as [A B] by lia. unfold aval. rewrite A, B. reflexivity.
Qed.
Lemma s64_ok x : 0 <= x < 2 ^ 64 -> 0 <= fsign x <= 1 -> x = fsign x * 2 ^ 63 + kmag x -> 0 <= kmag x < 2 ^ 63 -> s64 x = kmag x - fsign x * 2 ^ 63.
Proof.
  intros H S X K. unfold s64. assert (C : fsign x = 0 \/ fsign x = 1) by lia. destruct C as [C|C]; rewrite C in *.
  - rewrite Z.mod_small by lia. lia.
  - replace (x + 2 ^ 63) with (kmag x + 1 * 2 ^ 64) by lia. rewrite Z.mod_add, Z.mod_small by lia. lia.
Qed.
Theorem lt_ok x y : usable x -> usable y -> (val x <> 0%R \/ val y <> 0%R) -> fpr_lt x y = if Rlt_dec (val x) (val y) then 1 else 0.
Proof.
  intros Ux Uy NZ. destruct (usable_val x Ux) as (Rx & Sx & Kx & Xx & Vx & Ax & Zx). destruct (usable_val y Uy) as (Ry & Sy & Ky & Xy & Vy & Ay & Zy).
  pose proof (aval_mono x y Ux Uy) as M1. pose proof (aval_mono y x Uy Ux) as M2. pose proof (aval_inj x y Ux Uy) as M3.
  cbv beta zeta delta [fpr_lt]. rewrite (s64_ok x), (s64_ok y) by assumption. rewrite Z.shiftr_land, !shiftr_div by lia. fold (fsign x) (fsign y). rewrite Vx, Vy in *.
  set (a := kmag x) in *. set (b := kmag y) in *. set (A := aval x) in *. set (B := aval y) in *. clearbody a b A B.
  assert (Cx : fsign x = 0 \/ fsign x = 1) by lia. assert (Cy : fsign y = 0 \/ fsign y = 1) by lia.
  assert (T : (a < b /\ (A < B)%R) \/ (b < a /\ (B < A)%R) \/ (a = b /\ A = B)).
  { destruct (Z.lt_trichotomy a b) as [C|[C|C]]; [left | right; right | right; left]; auto. }
  assert (ZA : A <> 0%R -> 0 < a) by (intros Q; assert (a <> 0) by (intros W; apply Q, Zx, W); lia).
  assert (ZB : B <> 0%R -> 0 < b) by (intros Q; assert (b <> 0) by (intros W; apply Q, Zy, W); lia).
  assert (NZ' : 0 < a \/ 0 < b).
  { destruct NZ as [Q|Q]; [left; apply ZA | right; apply ZB]; intros W; apply Q; rewrite W; ring. }
  assert (AB : (0 < A \/ 0 < B)%R).
  { destruct NZ' as [Q|Q]; [left | right]; [assert (A <> 0)%R by (intros W; apply Zx in W; lia) | assert (B <> 0)%R by (intros W; apply Zy in W; lia)]; lra. }
  clear Zx Zy NZ ZA ZB M1 M2 M3 Vx Vy Xx Xy.
  destruct Cx as [-> | ->], Cy as [-> | ->]; unfold sgn; change (0 =? 1) with false; change (1 =? 1) with true; cbv iota;
    destruct T as [[T1 T2]|[[T1 T2]|[T1 T2]]];
    repeat match goal with |- context [?u <? ?v] => destruct (Z.ltb_spec u v); try lia end;
    destruct (Rlt_dec _ _); try reflexivity; exfalso; lra.
Qed.
Theorem lt_zeros : fpr_lt (2 ^ 63) 0 = 1 /\ fpr_lt 0 (2 ^ 63) = 0 /\ fpr_lt 0 0 = 0 /\ fpr_lt (2 ^ 63) (2 ^ 63) = 0.
Proof. repeat split; vm_compute; reflexivity. Qed.

(** ** Halving and doubling *)
Lemma sub_exp x : 0 <= x < 2 ^ 64 -> 1 <= fexp x -> w64 (x - 2 ^ 52) = fsign x * 2 ^ 63 + ((fexp x - 1) * 2 ^ 52 + fmant x).
Proof. intros H E. destruct (fields x H) as (S & E0 & M & X). rewrite w64_id by lia. lia. Qed.
Lemma exp32 x : 0 <= x < 2 ^ 64 -> Z.land (w32 (Z.shiftr x 52)) 0x7FF = fexp x.
Proof.
  intros H. rewrite shiftr_div by lia. pose proof (div_range x 52 12 ltac:(lia) ltac:(lia) H). rewrite w32_id by lia. rewrite <- shiftr_div by lia. apply exp_ok.
Qed.
Theorem half_ok x : usable x -> val x = 0%R \/ 2 <= fexp x -> usable (fpr_half x) /\ val (fpr_half x) = (val x / 2)%R.
Proof.
  intros U H. destruct (normal_dec x) as [N|N].
  - pose proof N as [[R E] E1]. destruct (fields x R) as (S & E0 & M & X).
    assert (V : val x = (sgn (fsign x) * IZR (2 ^ 52 + fmant x) * powerRZ 2 (fexp x - 1075))%R).
    { unfold val. replace (fexp x =? 0) with false by (symmetry; apply Z.eqb_neq; lia). reflexivity. }
    destruct H as [H|H].
    { exfalso. rewrite V in H. pose proof (p2_pos (fexp x - 1075)) as P. assert (Q : (0 < IZR (2 ^ 52 + fmant x))%R) by (apply IZR_lt; lia).
      destruct (sgn_pm (fsign x)) as [W|W]; rewrite W in H; nra. }
    cbv beta zeta delta [fpr_half]. rewrite sub_exp by lia. set (z := fsign x * 2 ^ 63 + ((fexp x - 1) * 2 ^ 52 + fmant x)).
    assert (Rz : 0 <= z < 2 ^ 64) by (subst z; lia). rewrite exp32 by assumption.
    assert (F1 : fsign z = fsign x) by (apply field_sign; lia). assert (F2 : fexp z = fexp x - 1) by (apply field_exp; lia). assert (F3 : fmant z = fmant x) by (apply field_mant; lia).
    rewrite F2. rewrite shiftr_div by lia. rewrite (Z.div_small (fexp x - 1 + 1)) by lia. rewrite mask_pred by lia. change (0 =? 1) with false. cbv iota.
    split; [left; split; [split; [exact Rz|lia]|lia]|]. rewrite V. unfold val. rewrite F1, F2, F3. replace (fexp x - 1 =? 0) with false by (symmetry; apply Z.eqb_neq; lia).
    replace (fexp x - 1075) with (1 + (fexp x - 1 - 1075)) by lia. rewrite (p2_add 1). change (powerRZ 2 1) with (2 * 1)%R. field.
  - destruct (zero_exp x U N) as (C & _ & _ & V & _). rewrite V. assert (T : fpr_half x = 0) by (destruct C as [-> | ->]; vm_compute; reflexivity). rewrite T.
    destruct (val_zero 0 ltac:(lia)) as (V0 & U0 & _). change (0 * 2 ^ 63) with 0 in *. split; [exact U0 | rewrite V0; field].
Qed.
Theorem double_ok x : usable x -> fexp x <= 2045 -> usable (fpr_double x) /\ val (fpr_double x) = (2 * val x)%R /\ fsign (fpr_double x) = fsign x.
Proof.
  intros U H. destruct (usable_cases x U) as (R & C). destruct (fields x R) as (S & E0 & M & X). cbv beta delta [fpr_double]. rewrite exp32 by assumption. rewrite exp_flag by assumption.
  destruct C as [[E V]|(E & M0 & V)].
  - replace (fexp x =? 0) with false by (symmetry; apply Z.eqb_neq; lia). cbv iota. change (w64 (Z.shiftl 1 52)) with (2 ^ 52). rewrite w64_id by lia.
    set (z := x + 2 ^ 52). assert (Ez : z = fsign x * 2 ^ 63 + ((fexp x + 1) * 2 ^ 52 + fmant x)) by (subst z; lia).
    assert (F1 : fsign z = fsign x) by (rewrite Ez; apply field_sign; lia). assert (F2 : fexp z = fexp x + 1) by (rewrite Ez; apply field_exp; lia). assert (F3 : fmant z = fmant x) by (rewrite Ez; apply field_mant; lia).
    split; [left; split; [split; [subst z; lia | lia] | lia]|]. split; [|exact F1]. rewrite V. unfold val. rewrite F1, F2, F3. replace (fexp x + 1 =? 0) with false by (symmetry; apply Z.eqb_neq; lia).
    replace (fexp x + 1 - 1075) with (1 + (fexp x - 1075)) by lia. rewrite (p2_add 1). change (powerRZ 2 1) with (2 * 1)%R. ring.
  - rewrite E. change (0 =? 0) with true. cbv iota. change (w64 (Z.shiftl 0 52)) with 0. rewrite Z.add_0_r, w64_id by assumption. split; [exact U|]. split; [rewrite V; ring | reflexivity].
Qed.

(** ** Constants *)
Lemma exact_value x s e M : fsign x = s -> fexp x = e -> fmant x = M -> e <> 0 -> val x = (sgn s * IZR (2 ^ 52 + M) * powerRZ 2 (e - 1075))%R.
Proof. intros <- <- <- E. unfold val. replace (fexp x =? 0) with false by (symmetry; apply Z.eqb_neq; exact E). reflexivity. Qed.
(** the packed number with mantissa M and exponent field E is the double nearest to r when r = rho * 2^(E - 1075) and |M - rho| < 1/2 *)
Lemma near_const x E M r : x = E * 2 ^ 52 + (M - 2 ^ 52) -> 1 <= E <= 2046 -> 2 ^ 52 < M < 2 ^ 53 -> (Rabs (IZR M - r * powerRZ 2 (1075 - E)) < / 2)%R -> nearest r x.
Proof.
  intros X HE HM A. set (rho := (r * powerRZ 2 (1075 - E))%R) in *.
  pose proof (nearest_grid 0 (E - 1077) M rho ltac:(lia) ltac:(lia) ltac:(lia) ltac:(lia)) as G.
  assert (L : (IZR (2 ^ 52) <= rho)%R).
  { assert (IZR (2 ^ 52) + 1 <= IZR M)%R by (rewrite <- plus_IZR; apply IZR_le; lia). apply Rabs_def2 in A. lra. }
  specialize (G L ltac:(lra) ltac:(intros Q; lra)). replace (0 * 2 ^ 63 + ((E - 1077 + 1076) * 2 ^ 52 + M)) with x in G by lia.
  replace (sgn 0 * rho * powerRZ 2 (E - 1077 + 2))%R with r in G; [exact G|]. unfold sgn. change (0 =? 1) with false. cbv iota. subst rho.
  replace (E - 1077 + 2) with (- (1075 - E)) by lia. assert (P : (powerRZ 2 (1075 - E) * powerRZ 2 (- (1075 - E)) = 1)%R) by (rewrite <- p2_add, Z.add_opp_diag_r; reflexivity).
  rewrite Rmult_1_l, Rmult_assoc, P. ring.
Qed.
