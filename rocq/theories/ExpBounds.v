(** Enclosures of exp(-x) by partial sums of its series, with rational evaluation. *)
From Coq Require Import Reals Lra Lia ZArith List.
Import ListNotations.
Open Scope R_scope.

(** * a function that vanishes at 0 and has a derivative of constant sign on [0, b] *)
Lemma deriv_nonneg f f' b : (forall c, 0 <= c <= b -> derivable_pt_lim f c (f' c)) -> f 0 = 0 -> (forall c, 0 <= c <= b -> 0 <= f' c) -> forall x, 0 <= x <= b -> 0 <= f x.
Proof.
  intros D F0 P x [H0 Hb]. destruct (Req_dec x 0) as [->|N]; [rewrite F0; lra|].
  destruct (MVT_cor2 f f' 0 x ltac:(lra) ltac:(intros c Hc; apply D; lra)) as (c & E & Hc). rewrite F0, Rminus_0_r, Rminus_0_r in E. rewrite E.
  apply Rmult_le_pos; [apply P; lra|exact H0].
Qed.

(** * partial sums: etay n x = sum_(k <= n) (-x)^k / k! *)
Fixpoint etay (n : nat) (x : R) : R := match n with O => 1 | S m => etay m x + (- x) ^ n / INR (fact n) end.
Lemma etay_0 n : etay n 0 = 1.
Proof. induction n as [|n IH]; [reflexivity|]. cbn [etay]. rewrite IH, Ropp_0, pow_i by lia. field. apply INR_fact_neq_0. Qed.
Lemma pow_deriv k x : derivable_pt_lim (fun y => (- y) ^ S k / INR (fact (S k))) x (- ((- x) ^ k / INR (fact k))).
Proof.
  assert (D : derivable_pt_lim (comp (fun y => y ^ S k) (- id)%F) x (INR (S k) * (- id)%F x ^ Nat.pred (S k) * - (1))).
  { apply derivable_pt_lim_comp; [apply derivable_pt_lim_opp, derivable_pt_lim_id|apply derivable_pt_lim_pow]. }
  apply (derivable_pt_lim_scal _ (/ INR (fact (S k)))) in D.
  replace (- ((- x) ^ k / INR (fact k))) with (/ INR (fact (S k)) * (INR (S k) * (- id)%F x ^ Nat.pred (S k) * - (1))).
  - unfold derivable_pt_lim, mult_real_fct, comp, opp_fct, id in *. intros eps He. destruct (D eps He) as (d & Hd). exists d. intros h H1 H2.
    replace ((- (x + h)) ^ S k / INR (fact (S k))) with (/ INR (fact (S k)) * (- (x + h)) ^ S k) by (unfold Rdiv; ring).
    replace ((- x) ^ S k / INR (fact (S k))) with (/ INR (fact (S k)) * (- x) ^ S k) by (unfold Rdiv; ring). apply Hd; assumption.
  - unfold opp_fct, id. cbn [Nat.pred]. rewrite fact_simpl, mult_INR. field. split; [apply INR_fact_neq_0|apply not_0_INR; lia].
Qed.
Lemma etay_deriv n x : derivable_pt_lim (etay (S n)) x (- etay n x).
Proof.
  induction n as [|n IH].
  - pose proof (pow_deriv 0 x) as D. apply (derivable_pt_lim_plus (fct_cte 1) _ x 0 _ (derivable_pt_lim_const 1 x)) in D.
    cbn [etay]. replace (- (1)) with (0 + - ((- x) ^ 0 / INR (fact 0))) by (cbn; field). exact D.
  - pose proof (derivable_pt_lim_plus _ _ x _ _ IH (pow_deriv (S n) x)) as D.
    replace (- etay (S n) x) with (- etay n x + - ((- x) ^ S n / INR (fact (S n)))) by (cbn [etay]; ring). exact D.
Qed.
Lemma exp_opp_deriv x : derivable_pt_lim (fun y => exp (- y)) x (- exp (- x)).
Proof.
  pose proof (derivable_pt_lim_comp (- id)%F exp x (- (1)) (exp (- x)) (derivable_pt_lim_opp id x 1 (derivable_pt_lim_id x)) (derivable_pt_lim_exp (- x))) as D.
  replace (- exp (- x)) with (exp (- x) * - (1)) by ring. exact D.
Qed.
(** the differences alternate in sign *)
Definition sgn (n : nat) : R := (-1) ^ n.
Lemma etay_sign n : forall x, 0 <= x -> 0 <= sgn n * (etay n x - exp (- x)).
Proof.
  induction n as [|n IH]; intros x Hx.
  - unfold sgn. cbn. assert (exp (- x) <= 1); [|lra]. destruct (Req_dec x 0) as [->|N]; [rewrite Ropp_0, exp_0; lra|]. left. rewrite <- exp_0. apply exp_increasing. lra.
  - apply (deriv_nonneg (fun y => sgn (S n) * (etay (S n) y - exp (- y))) (fun y => sgn (S n) * (- etay n y - - exp (- y))) x).
    + intros c _. apply (derivable_pt_lim_scal (fun y => etay (S n) y - exp (- y))). apply derivable_pt_lim_minus; [apply etay_deriv|apply exp_opp_deriv].
    + rewrite etay_0, Ropp_0, exp_0. ring.
    + intros c Hc. unfold sgn in *. cbn [pow]. specialize (IH c (proj1 Hc)). lra.
    + lra.
Qed.
Lemma sgn_even m : sgn (2 * m) = 1.
Proof. unfold sgn. rewrite pow_mult. replace ((-1) ^ 2) with 1 by ring. apply pow1. Qed.
Theorem exp_opp_bounds m x : 0 <= x -> etay (2 * m + 1) x <= exp (- x) <= etay (2 * m) x.
Proof.
  intros Hx. pose proof (etay_sign (2 * m) x Hx) as A. pose proof (etay_sign (2 * m + 1) x Hx) as B.
  rewrite sgn_even in A. replace (2 * m + 1)%nat with (S (2 * m)) in * by lia. unfold sgn in B. cbn [pow] in B. fold (sgn (2 * m)) in B. rewrite sgn_even in B. lra.
Qed.
(** for a negative argument all terms are positive: exp y for y in [0, 1] *)
Lemma etay_neg n : forall y, 0 <= y <= 1 -> etay n (- y) <= exp y <= etay n (- y) + 3 * y ^ S n / INR (fact (S n)).
Proof.
  assert (E1 : forall y, 0 <= y <= 1 -> exp y <= 3).
  { intros y Hy. apply Rle_trans with (exp 1); [|apply exp_le_3]. destruct (Req_dec y 1) as [->|N]; [lra|]. left. apply exp_increasing. lra. }
  assert (D : forall n c, derivable_pt_lim (fun y => etay (S n) (- y)) c (etay n (- c))).
  { intros m c. pose proof (derivable_pt_lim_comp (- id)%F (etay (S m)) c (- (1)) (- etay m (- c)) (derivable_pt_lim_opp id c 1 (derivable_pt_lim_id c)) (etay_deriv m (- c))) as Q.
    replace (etay m (- c)) with (- etay m (- c) * - (1)) by ring. exact Q. }
  assert (DP : forall k c, derivable_pt_lim (fun y => 3 * y ^ S k / INR (fact (S k))) c (3 * c ^ k / INR (fact k))).
  { intros k c. pose proof (derivable_pt_lim_scal (fun y => y ^ S k) (3 / INR (fact (S k))) c _ (derivable_pt_lim_pow c (S k))) as Q. cbn [Nat.pred] in Q.
    replace (3 * c ^ k / INR (fact k)) with (3 / INR (fact (S k)) * (INR (S k) * c ^ k)) by (rewrite fact_simpl, mult_INR; field; split; [apply INR_fact_neq_0|apply not_0_INR; lia]).
    unfold derivable_pt_lim, mult_real_fct in *. intros eps He. destruct (Q eps He) as (d & Hd). exists d. intros h H1 H2. specialize (Hd h H1 H2).
    replace (3 * (c + h) ^ S k / INR (fact (S k))) with (3 / INR (fact (S k)) * (c + h) ^ S k) by (unfold Rdiv; ring).
    replace (3 * c ^ S k / INR (fact (S k))) with (3 / INR (fact (S k)) * c ^ S k) by (unfold Rdiv; ring). exact Hd. }
  induction n as [|n IH]; intros y Hy.
  - cbn [etay]. split.
    + apply Rle_trans with (exp 0); [rewrite exp_0; lra|]. destruct (Req_dec y 0) as [->|N]; [lra|]. left. apply exp_increasing. lra.
    + enough (0 <= 1 + 3 * y ^ 1 / INR (fact 1) - exp y) by lra.
      apply (deriv_nonneg (fun y => 1 + 3 * y ^ 1 / INR (fact 1) - exp y) (fun y => 0 + 3 * y ^ 0 / INR (fact 0) - exp y) 1); [| |intros c Hc; cbn; specialize (E1 c Hc); lra|exact Hy].
      * intros c _. apply (derivable_pt_lim_minus (fun y => 1 + 3 * y ^ 1 / INR (fact 1)) exp); [|apply derivable_pt_lim_exp].
        apply (derivable_pt_lim_plus (fct_cte 1)); [apply derivable_pt_lim_const|apply (DP 0%nat)].
      * cbn [pow]. rewrite exp_0. unfold Rdiv. ring.
  - split.
    + enough (0 <= exp y - etay (S n) (- y)) by lra.
      apply (deriv_nonneg (fun y => exp y - etay (S n) (- y)) (fun y => exp y - etay n (- y)) 1); [| |intros c Hc; specialize (IH c Hc); lra|exact Hy].
      * intros c _. apply derivable_pt_lim_minus; [apply derivable_pt_lim_exp|apply D].
      * rewrite Ropp_0, etay_0, exp_0. ring.
    + enough (0 <= etay (S n) (- y) + 3 * y ^ S (S n) / INR (fact (S (S n))) - exp y) by lra.
      apply (deriv_nonneg (fun y => etay (S n) (- y) + 3 * y ^ S (S n) / INR (fact (S (S n))) - exp y) (fun y => etay n (- y) + 3 * y ^ S n / INR (fact (S n)) - exp y) 1);
        [| |intros c Hc; specialize (IH c Hc); lra|exact Hy].
      * intros c _. apply (derivable_pt_lim_minus (fun y => etay (S n) (- y) + 3 * y ^ S (S n) / INR (fact (S (S n)))) exp); [|apply derivable_pt_lim_exp].
        apply (derivable_pt_lim_plus (fun y => etay (S n) (- y))); [apply D|apply DP].
      * rewrite Ropp_0, etay_0, exp_0, pow_i by lia. unfold Rdiv. ring.
Qed.

(** * rational evaluation: etay n (p / q) = num / den *)
Open Scope Z_scope.
(** (numerator, denominator, (-p)^k) *)
Fixpoint etayZ (n : nat) (p q : Z) : Z * Z * Z :=
  match n with
  | O => (1, 1, 1)
  | S m => let '(a, d, w) := etayZ m p q in let qk := q * Z.of_nat n in let w := w * - p in (a * qk + w, d * qk, w)
  end.
Open Scope R_scope.
Lemma etayZ_spec n p q : (0 < q)%Z -> let '(a, d, w) := etayZ n p q in
  (0 < d)%Z /\ IZR d = IZR q ^ n * INR (fact n) /\ IZR w = (- IZR p) ^ n /\ etay n (IZR p / IZR q) = IZR a / IZR d.
Proof.
  intros Hq. pose proof (IZR_lt _ _ Hq) as Hq'. induction n as [|n IH].
  - cbn [etayZ etay pow fact INR]. repeat split; try lia; try lra; cbn; field.
  - cbn [etayZ]. destruct (etayZ n p q) as [[a d] w]. destruct IH as (Hd & Ed & Ew & Ee).
    assert (Hn : 0 < INR (S n)) by (apply lt_0_INR; lia). assert (Hf := INR_fact_lt_0 n).
    assert (Ed' : IZR (d * (q * Z.of_nat (S n))) = IZR q ^ S n * INR (fact (S n))).
    { rewrite !mult_IZR, Ed, <- INR_IZR_INZ, fact_simpl, mult_INR. cbn [pow]. ring. }
    split; [nia|]. split; [exact Ed'|]. split.
    + rewrite mult_IZR, opp_IZR, Ew. cbn [pow]. ring.
    + cbn [etay]. rewrite Ee, Ed', plus_IZR, !mult_IZR, <- INR_IZR_INZ, opp_IZR, Ew. rewrite Ed.
      replace ((- (IZR p / IZR q)) ^ S n) with ((- IZR p) ^ S n / IZR q ^ S n).
      * rewrite fact_simpl, mult_INR. cbn [pow]. field. repeat split; try lra; try (apply Rgt_not_eq; lra). apply pow_nonzero. lra.
      * replace (- (IZR p / IZR q)) with (- IZR p * / IZR q) by (unfold Rdiv; ring). rewrite Rpow_mult_distr, pow_inv. reflexivity.
Qed.
(** enclosure at scale 2^N *)
Definition expLo (m : nat) (p q N : Z) : Z := let '(a, d, _) := etayZ (2 * m + 1) p q in (a * 2 ^ N / d)%Z.
Definition expHi (m : nat) (p q N : Z) : Z := let '(a, d, _) := etayZ (2 * m) p q in (a * 2 ^ N / d + 1)%Z.
Lemma div_floor a d : (0 < d)%Z -> IZR (a / d) <= IZR a / IZR d < IZR (a / d) + 1.
Proof.
  intros Hd. pose proof (IZR_lt _ _ Hd). pose proof (Z.div_mod a d ltac:(lia)) as E. pose proof (Z.mod_pos_bound a d Hd) as M.
  apply (f_equal IZR) in E. rewrite plus_IZR, mult_IZR in E. destruct M as [M1 M2]. apply IZR_le in M1. apply IZR_lt in M2.
  split; [apply Rmult_le_reg_r with (IZR d)|apply Rmult_lt_reg_r with (IZR d)]; try lra; unfold Rdiv; rewrite Rmult_assoc, Rinv_l by lra; lra.
Qed.
Lemma IZR_pow2 N : (0 <= N)%Z -> 0 < IZR (2 ^ N).
Proof. intros H. apply (IZR_lt 0). apply Z.pow_pos_nonneg; lia. Qed.
Theorem exp_enclosure m p q N : (0 < q)%Z -> (0 <= p)%Z -> (0 <= N)%Z ->
  IZR (expLo m p q N) <= IZR (2 ^ N) * exp (- (IZR p / IZR q)) <= IZR (expHi m p q N).
Proof.
  intros Hq Hp HN. pose proof (IZR_lt _ _ Hq) as Hq'. pose proof (IZR_le _ _ Hp) as Hp'. pose proof (IZR_pow2 N HN) as HP.
  assert (Hx : 0 <= IZR p / IZR q) by (apply Rmult_le_pos; [exact Hp'|left; now apply Rinv_0_lt_compat]).
  destruct (exp_opp_bounds m _ Hx) as [B1 B2]. unfold expLo, expHi.
  pose proof (etayZ_spec (2 * m + 1) p q Hq) as S1. pose proof (etayZ_spec (2 * m) p q Hq) as S2.
  destruct (etayZ (2 * m + 1) p q) as [[a d] w]. destruct (etayZ (2 * m) p q) as [[a' d'] w']. destruct S1 as (D1 & _ & _ & E1). destruct S2 as (D2 & _ & _ & E2).
  rewrite E1 in B1. rewrite E2 in B2. pose proof (div_floor (a * 2 ^ N) d D1) as F1. pose proof (div_floor (a' * 2 ^ N) d' D2) as F2.
  rewrite mult_IZR in F1, F2. rewrite plus_IZR.
  assert (G1 : IZR (2 ^ N) * (IZR a / IZR d) <= IZR (2 ^ N) * exp (- (IZR p / IZR q))) by (apply Rmult_le_compat_l; lra).
  assert (G2 : IZR (2 ^ N) * exp (- (IZR p / IZR q)) <= IZR (2 ^ N) * (IZR a' / IZR d')) by (apply Rmult_le_compat_l; lra).
  unfold Rdiv in *. split; lra.
Qed.
