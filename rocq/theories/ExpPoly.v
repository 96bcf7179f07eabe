(** The polynomial of approxexp against exp(-x), and the rounding of the integer evaluation. *)
From Coq Require Import Reals Lra Lia ZArith List Bool.
From Verif Require Import Base SamplerModel ExpBounds.
Import ListNotations.
Open Scope R_scope.

(** * integer polynomials at real points, lowest coefficient first *)
Definition pe (l : list Z) (x : R) : R := fold_right (fun c s => IZR c + x * s) 0 l.
Fixpoint padd (a b : list Z) : list Z := match a, b with [], _ => b | _, [] => a | x :: a', y :: b' => (x + y)%Z :: padd a' b' end.
Definition pscale (k : Z) (a : list Z) : list Z := map (Z.mul k) a.
Lemma pe_padd a : forall b x, pe (padd a b) x = pe a x + pe b x.
Proof.
  induction a as [|c a IH]; intros [|d b] x; cbn [padd]; [cbn; lra|cbn; lra|cbn; lra|]. unfold pe in *. cbn [fold_right]. rewrite IH, plus_IZR. ring.
Qed.
Lemma pe_pscale k a x : pe (pscale k a) x = IZR k * pe a x.
Proof. unfold pe, pscale. induction a as [|c a IH]; [cbn; ring|]. cbn [map fold_right]. rewrite IH, mult_IZR. ring. Qed.
Lemma pe_app a b x : pe (a ++ b) x = pe a x + x ^ length a * pe b x.
Proof. unfold pe. induction a as [|c a IH]; [cbn; ring|]. cbn [app fold_right length pow]. rewrite IH. ring. Qed.
(** l(s + t) as a polynomial in t *)
Fixpoint shiftp (l : list Z) (s : Z) : list Z :=
  match l with [] => [] | c :: t => let u := shiftp t s in padd (c :: u) (pscale s u) end.
Lemma pe_shiftp l s t : pe (shiftp l s) t = pe l (IZR s + t).
Proof.
  induction l as [|c l IH]; [reflexivity|]. cbn [shiftp]. rewrite pe_padd, pe_pscale. unfold pe in *. cbn [fold_right]. rewrite IH. ring.
Qed.
Definition sumabs (l : list Z) : Z := fold_right (fun c s => Z.abs c + s)%Z 0%Z l.
Lemma pe_sumabs l t : Rabs t <= 1 -> Rabs (pe l t) <= IZR (sumabs l).
Proof.
  intros Ht. induction l as [|c l IH]; [cbn; rewrite Rabs_R0; lra|]. unfold pe, sumabs in *. cbn [fold_right]. rewrite plus_IZR.
  eapply Rle_trans; [apply Rabs_triang|]. rewrite Rabs_mult, abs_IZR. apply Rplus_le_compat_l. pose proof (Rabs_pos t). pose proof (Rabs_pos (fold_right (fun c s => IZR c + t * s) 0 l)). nra.
Qed.
(** s^(len-1) l(x / s) *)
Fixpoint scalep (s : Z) (l : list Z) : list Z := match l with [] => [] | c :: t => (c * s ^ Z.of_nat (length t))%Z :: scalep s t end.
Lemma pe_scalep s l x : IZR s * pe (scalep s l) (IZR s * x) = IZR s ^ length l * pe l x.
Proof.
  induction l as [|c l IH]; [cbn; ring|]. unfold pe in *. cbn [scalep fold_right length pow]. rewrite mult_IZR.
  assert (E : IZR (s ^ Z.of_nat (length l)) = IZR s ^ length l) by (rewrite <- pow_IZR; reflexivity). rewrite E.
  replace (IZR s * (IZR c * IZR s ^ length l + IZR s * x * fold_right (fun c s0 => IZR c + IZR s * x * s0) 0 (scalep s l)))
    with (IZR s * (IZR c * IZR s ^ length l + x * (IZR s * fold_right (fun c s0 => IZR c + IZR s * x * s0) 0 (scalep s l)))) by ring.
  rewrite IH. ring.
Qed.
Fixpoint altp (l : list Z) : list Z := match l with [] => [] | c :: t => c :: map Z.opp (altp t) end.
Lemma pe_altp l x : pe (altp l) x = pe l (- x).
Proof.
  assert (O : forall m y, pe (map Z.opp m) y = - pe m y).
  { intros m y. unfold pe. induction m as [|c m IH]; [cbn; ring|]. cbn [map fold_right]. rewrite IH, opp_IZR. ring. }
  induction l as [|c l IH]; [reflexivity|]. cbn [altp]. unfold pe at 1. cbn [fold_right]. fold (pe (map Z.opp (altp l)) x). rewrite O, IH. unfold pe. cbn [fold_right]. ring.
Qed.
(** n! etay n *)
Fixpoint tcoef (n : nat) : list Z := match n with O => [1%Z] | S m => pscale (Z.of_nat n) (tcoef m) ++ [((-1) ^ Z.of_nat n)%Z] end.
Lemma tcoef_length n : length (tcoef n) = S n.
Proof. induction n as [|n IH]; [reflexivity|]. cbn [tcoef]. unfold pscale. rewrite app_length, map_length, IH. cbn. lia. Qed.
Lemma pe_tcoef n x : pe (tcoef n) x = INR (fact n) * etay n x.
Proof.
  induction n as [|n IH]; [cbn; lra|]. cbn [tcoef]. rewrite pe_app, pe_pscale, IH. unfold pscale. rewrite map_length, tcoef_length.
  cbn [etay]. rewrite fact_simpl, mult_INR. rewrite <- INR_IZR_INZ.
  assert (E : IZR ((-1) ^ Z.of_nat (S n)) = (-1) ^ S n) by (rewrite <- pow_IZR; reflexivity).
  unfold pe. cbn [fold_right]. rewrite E. replace ((- x) ^ S n) with ((-1) ^ S n * x ^ S n) by (rewrite <- Rpow_mult_distr; f_equal; ring).
  field. split; [apply INR_fact_neq_0|apply not_0_INR; lia].
Qed.

(** * the polynomial of the code: pe (rev expC) (-x) / 2^63 *)
Definition Pexp (x : R) : R := pe (rev expC) (- x) / 2 ^ 63.
Definition fact20 : Z := 2432902008176640000.
Lemma fact20_eq : INR (fact 20) = IZR fact20.
Proof.
  assert (F : forall n, Z.of_nat (fact n) = fold_left (fun a k => a * Z.of_nat k)%Z (seq 1 n) 1%Z).
  { induction n as [|n IH]; [reflexivity|]. rewrite seq_S, fold_left_app, <- IH. cbn [fold_left plus]. rewrite fact_simpl. lia. }
  rewrite INR_IZR_INZ, F. apply f_equal. vm_compute. reflexivity.
Qed.
Definition Dpoly : list Z := padd (pscale fact20 (altp (rev expC))) (pscale (- 2 ^ 63) (tcoef 20)).
Definition Epoly : list Z := scalep 256 Dpoly.
Lemma Dpoly_spec x : pe Dpoly x = IZR fact20 * 2 ^ 63 * (Pexp x - etay 20 x).
Proof.
  unfold Dpoly, Pexp. rewrite pe_padd, !pe_pscale, pe_altp, pe_tcoef, fact20_eq. replace (IZR (- 2 ^ 63)) with (- 2 ^ 63) by (cbn; lra). field.
Qed.
Lemma Dpoly_length : length Dpoly = 21%nat. Proof. vm_compute. reflexivity. Qed.
(** bound on the interval of centre (2 j - 1) / 256: 15/16 2^-50 *)
Definition Ebound : Z := (256 ^ 20 * fact20 * 2 ^ 13 * 15 / 16)%Z.
Definition Echeck (E : list Z) (B : Z) (j : nat) : bool := (sumabs (shiftp E (2 * Z.of_nat j - 1)) <=? B)%Z.
Lemma Echeck_all : forallb (Echeck Epoly Ebound) (seq 0 90) = true.
Proof. vm_cast_no_check (eq_refl true). Qed.
Lemma Echeck_gen E B n : forallb (Echeck E B) (seq 0 n) = true -> forall j, (j < n)%nat -> IZR (sumabs (shiftp E (2 * Z.of_nat j - 1))) <= IZR B.
Proof.
  intros C j Hj. rewrite forallb_forall in C. specialize (C j ltac:(apply in_seq; lia)). unfold Echeck in C. apply Z.leb_le in C. apply IZR_le, C.
Qed.
Lemma Echeck_at j : (j < 90)%nat -> IZR (sumabs (shiftp Epoly (2 * Z.of_nat j - 1))) <= IZR Ebound.
Proof. exact (Echeck_gen Epoly Ebound 90 Echeck_all j). Qed.
Lemma interval_of x : -1 / 2048 <= x <= 1421 / 2048 -> exists j, (j <= 89)%nat /\ Rabs (256 * x - IZR (2 * Z.of_nat j - 1)) <= 1.
Proof.
  intros Hx. set (X := 256 * x). destruct (archimed ((X + 2) / 2)) as [A1 A2]. set (k := up ((X + 2) / 2)) in *.
  assert (K0 : (0 < k)%Z) by (apply lt_IZR; unfold X in *; lra). assert (K1 : (k <= 90)%Z) by (apply Z.lt_succ_r, lt_IZR; unfold X in *; cbn; lra).
  exists (Z.to_nat (k - 1)). split; [lia|]. rewrite Z2Nat.id by lia. rewrite minus_IZR, mult_IZR, minus_IZR. apply Rabs_le. unfold X in *. lra.
Qed.
Lemma Ebound_le : IZR Ebound <= 256 ^ 20 * IZR fact20 * 2 ^ 13 * 15 / 16.
Proof.
  unfold Ebound. generalize fact20. intros f. pose proof (div_floor (256 ^ 20 * f * 2 ^ 13 * 15) 16 ltac:(lia)) as [F _]. eapply Rle_trans; [exact F|]. clear F.
  rewrite !mult_IZR. rewrite (pow_IZR 256 20), (pow_IZR 2 13). right. reflexivity.
Qed.
Lemma bound_arith A F d e : 0 < A -> 0 < F -> e = A * (F * 2 ^ 63) * d -> Rabs e <= A * F * 2 ^ 13 * 15 / 16 -> Rabs d <= 15 / 16 / 2 ^ 50.
Proof.
  intros HA HF E Bd. rewrite E, Rabs_mult in Bd. assert (P0 : 0 < A * (F * 2 ^ 63)) by (apply Rmult_lt_0_compat; [exact HA|apply Rmult_lt_0_compat; [exact HF|apply pow_lt; lra]]).
  rewrite (Rabs_right (A * (F * 2 ^ 63))) in Bd by lra. apply Rmult_le_reg_l with (A * (F * 2 ^ 63)); [exact P0|]. eapply Rle_trans; [exact Bd|]. right. field.
Qed.
Lemma Epoly_spec x : pe Epoly (IZR 256 * x) = 256 ^ 20 * (IZR fact20 * 2 ^ 63) * (Pexp x - etay 20 x).
Proof.
  pose proof (pe_scalep 256 Dpoly x) as S. fold Epoly in S. rewrite Dpoly_length, Dpoly_spec in S. 
  set (e := pe Epoly (IZR 256 * x)) in *. set (d := Pexp x - etay 20 x) in *. clearbody e d. generalize dependent (IZR fact20). intros f S.
  apply Rmult_eq_reg_l with (IZR 256); [|lra]. rewrite S. change (IZR 256 ^ 21) with (IZR 256 * IZR 256 ^ 20). generalize (IZR 256 ^ 20) (2 ^ 63). intros. ring.
Qed.
Lemma E_bound x : -1 / 2048 <= x <= 1421 / 2048 -> Rabs (Pexp x - etay 20 x) <= 15 / 16 / 2 ^ 50.
Proof.
  intros Hx. destruct (interval_of x Hx) as (j & Hj & Hd). pose proof (Echeck_at j ltac:(lia)) as C.
  pose proof (pe_sumabs (shiftp Epoly (2 * Z.of_nat j - 1)) _ Hd) as B. rewrite pe_shiftp in B.
  replace (IZR (2 * Z.of_nat j - 1) + (256 * x - IZR (2 * Z.of_nat j - 1))) with (IZR 256 * x) in B by ring.
  apply (bound_arith (256 ^ 20) (IZR fact20) _ (pe Epoly (IZR 256 * x))); [apply pow_lt; lra|apply (IZR_lt 0); reflexivity|apply Epoly_spec|].
  eapply Rle_trans; [exact B|]. eapply Rle_trans; [exact C|apply Ebound_le].
Qed.
Lemma rem_bound y : 0 <= y <= 1 -> 3 * y ^ 21 / INR (fact 21) <= 1 / 16 / 2 ^ 50.
Proof.
  intros Hy. assert (Y : y ^ 21 <= 1) by (rewrite <- (pow1 21); apply pow_incr; lra). assert (Y0 : 0 <= y ^ 21) by (apply pow_le; lra).
  rewrite fact_simpl, mult_INR, fact20_eq. assert (F : 0 < INR 21 * IZR fact20) by (apply Rmult_lt_0_compat; [apply lt_0_INR; lia|apply (IZR_lt 0); reflexivity]).
  apply Rmult_le_reg_r with (INR 21 * IZR fact20); [exact F|]. replace (3 * y ^ 21 / (INR 21 * IZR fact20) * (INR 21 * IZR fact20)) with (3 * y ^ 21) by (field; split; apply Rgt_not_eq; [apply (IZR_lt 0); reflexivity|apply lt_0_INR; lia]).
  apply Rle_trans with 3; [lra|]. replace (INR 21) with 21 by (cbn; lra). unfold fact20. lra.
Qed.
Theorem Pexp_accurate x : -1 / 2048 <= x <= 1421 / 2048 -> Rabs (Pexp x - exp (- x)) <= / 2 ^ 50.
Proof.
  intros Hx. pose proof (E_bound x Hx) as B. assert (R : Rabs (etay 20 x - exp (- x)) <= 1 / 16 / 2 ^ 50).
  { destruct (Rle_or_lt 0 x) as [H|H].
    - pose proof (exp_opp_bounds 10 x H) as [L U]. cbn [Nat.mul Nat.add] in L, U. change (etay 21 x) with (etay 20 x + (- x) ^ 21 / INR (fact 21)) in L.
      pose proof (rem_bound x ltac:(lra)) as Rb. replace ((- x) ^ 21) with (- x ^ 21) in L by ring. rewrite Rabs_right by lra.
      assert (0 <= x ^ 21 / INR (fact 21)) by (apply Rmult_le_pos; [apply pow_le; lra|left; apply Rinv_0_lt_compat, INR_fact_lt_0]). unfold Rdiv in *. lra.
    - pose proof (etay_neg 20 (- x) ltac:(lra)) as [L U]. rewrite Ropp_involutive in L, U. pose proof (rem_bound (- x) ltac:(lra)). rewrite Rabs_left1 by lra. lra. }
  replace (Pexp x - exp (- x)) with ((Pexp x - etay 20 x) + (etay 20 x - exp (- x))) by ring. eapply Rle_trans; [apply Rabs_triang|]. lra.
Qed.

(** * the integer evaluation *)
Definition hornerZ (z : Z) : Z := fold_left (fun y elt => (elt - Z.shiftr (z * y) 63)%Z) (tl expC) (hd 0%Z expC).
Lemma shiftr_floor a k : (0 <= k)%Z -> IZR (Z.shiftr a k) <= IZR a / IZR (2 ^ k) < IZR (Z.shiftr a k) + 1.
Proof. intros H. rewrite Z.shiftr_div_pow2 by exact H. apply div_floor. apply Z.pow_pos_nonneg; lia. Qed.
Lemma horner_step z l : forall y Y e, Rabs (IZR z / 2 ^ 63) <= 7 / 10 -> 0 <= e -> e <= 10 / 3 -> Rabs (IZR y - Y) <= e ->
  Rabs (IZR (fold_left (fun y elt => (elt - Z.shiftr (z * y) 63)%Z) l y) - fold_left (fun Y elt => IZR elt - IZR z / 2 ^ 63 * Y) l Y) <= 10 / 3.
Proof.
  induction l as [|c l IH]; intros y Y e Hz H0 He Hy; [cbn [fold_left]; lra|]. cbn [fold_left]. apply (IH _ _ (7 / 10 * e + 1)); [exact Hz|lra|lra|].
  rewrite minus_IZR. pose proof (shiftr_floor (z * y) 63 ltac:(lia)) as F. rewrite mult_IZR in F. replace (IZR (2 ^ 63)) with (2 ^ 63) in F by (cbn; lra).
  set (s := IZR (Z.shiftr (z * y) 63)) in *. set (x := IZR z / 2 ^ 63) in *. assert (E : IZR z * IZR y / 2 ^ 63 = x * IZR y) by (unfold x, Rdiv; ring). rewrite E in F.
  replace (IZR c - s - (IZR c - x * Y)) with (- (x * (IZR y - Y)) + (x * IZR y - s)) by ring.
  eapply Rle_trans; [apply Rabs_triang|]. rewrite Rabs_Ropp, Rabs_mult. pose proof (Rabs_pos x). pose proof (Rabs_pos (IZR y - Y)). rewrite (Rabs_right (x * IZR y - s)) by lra. nra.
Qed.
Lemma hornerR x : fold_left (fun Y elt => IZR elt - x * Y) (tl expC) (IZR (hd 0%Z expC)) = pe (rev expC) (- x).
Proof.
  assert (G : forall l, fold_left (fun Y elt => IZR elt - x * Y) l 0 = pe (rev l) (- x)).
  { intros l. rewrite <- (fold_left_rev_right (fun elt Y => IZR elt - x * Y)). unfold pe. induction (rev l) as [|c m IH]; [reflexivity|]. cbn [fold_right]. rewrite IH. ring. }
  rewrite <- G. assert (E : expC = hd 0%Z expC :: tl expC) by reflexivity. rewrite E at 3. cbn [fold_left]. f_equal. ring.
Qed.
Lemma horner_close z : Rabs (IZR z / 2 ^ 63) <= 7 / 10 -> Rabs (IZR (hornerZ z) - 2 ^ 63 * Pexp (IZR z / 2 ^ 63)) <= 10 / 3.
Proof.
  intros Hz. unfold Pexp. replace (2 ^ 63 * (pe (rev expC) (- (IZR z / 2 ^ 63)) / 2 ^ 63)) with (pe (rev expC) (- (IZR z / 2 ^ 63))) by field.
  rewrite <- hornerR. apply (horner_step z (tl expC) _ _ 0 Hz); [lra|lra|]. rewrite Rminus_diag_eq by reflexivity. rewrite Rabs_R0. lra.
Qed.
