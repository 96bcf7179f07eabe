(** Enclosures of Gaussian weights and sums; the two tables of the code. *)
From Coq Require Import Reals Lra Lia ZArith List Bool.
From Verif Require Import ExpBounds GaussSpec.
Import ListNotations.
Open Scope R_scope.

(** * sums *)
Fixpoint psum (f : nat -> R) (K : nat) : R := match K with O => 0 | S k => psum f k + f k end.
Lemma psum_sum f K : sum_f_R0 f K = psum f (S K).
Proof. induction K as [|K IH]; [cbn; lra|]. cbn [sum_f_R0]. rewrite IH. reflexivity. Qed.
Lemma psum_ge f K j : (forall k, 0 <= f k) -> psum f K <= psum f (K + j).
Proof. intros P. induction j as [|j IH]; [rewrite Nat.add_0_r; lra|]. rewrite Nat.add_succ_r. cbn [psum]. specialize (P (K + j)%nat). lra. Qed.
Lemma psum_tail f K c q : 0 <= q < 1 -> 0 <= c -> (forall j, f (K + j)%nat <= c * q ^ j) -> forall j, psum f (K + j) <= psum f K + c / (1 - q) * (1 - q ^ j).
Proof.
  intros Hq Hc H j. induction j as [|j IH]; [rewrite Nat.add_0_r; cbn; lra|]. rewrite Nat.add_succ_r. cbn [psum pow]. specialize (H j).
  replace (psum f K + c / (1 - q) * (1 - q * q ^ j)) with (psum f K + c / (1 - q) * (1 - q ^ j) + c * q ^ j) by (field; lra). lra.
Qed.
Lemma sum_bounds f K c q T : 0 <= q < 1 -> 0 <= c -> (forall k, 0 <= f k) -> (forall j, f (K + j)%nat <= c * q ^ j) -> infinite_sum f T -> psum f K <= T <= psum f K + c / (1 - q).
Proof.
  intros Hq Hc P H I.
  assert (Hcq : 0 <= c / (1 - q)) by (apply Rmult_le_pos; [lra|left; apply Rinv_0_lt_compat; lra]).
  assert (U : forall j, psum f (K + j) <= psum f K + c / (1 - q)).
  { intros j. pose proof (psum_tail f K c q Hq Hc H j) as B. assert (0 <= q ^ j) by (apply pow_le; lra). nra. }
  split.
  - destruct (Rle_or_lt (psum f K) T) as [L|L]; [exact L|]. exfalso. destruct (I (psum f K - T) ltac:(lra)) as (n & Hn). specialize (Hn (K + n)%nat ltac:(lia)).
    unfold R_dist in Hn. rewrite psum_sum in Hn. pose proof (psum_ge f K (S n) P) as G. replace (K + S n)%nat with (S (K + n)) in G by lia. rewrite Rabs_right in Hn by lra. lra.
  - destruct (Rle_or_lt T (psum f K + c / (1 - q))) as [L|L]; [exact L|]. exfalso. destruct (I (T - (psum f K + c / (1 - q))) ltac:(lra)) as (n & Hn). specialize (Hn (K + n)%nat ltac:(lia)).
    unfold R_dist in Hn. rewrite psum_sum in Hn. pose proof (U (S n)) as G. replace (K + S n)%nat with (S (K + n)) in G by lia. rewrite Rabs_left1 in Hn by lra. lra.
Qed.
Lemma sum_exists f c q : 0 <= q < 1 -> 0 <= c -> (forall k, 0 <= f k) -> (forall j, f j <= c * q ^ j) -> exists T, infinite_sum f T.
Proof.
  intros Hq Hc P H. assert (Hcq : 0 <= c / (1 - q)) by (apply Rmult_le_pos; [lra|left; apply Rinv_0_lt_compat; lra]).
  assert (G : Un_growing (fun n => sum_f_R0 f n)) by (intros n; cbn [sum_f_R0]; specialize (P (S n)); lra).
  destruct (growing_cv _ G) as (T & HT).
  - exists (c / (1 - q)). intros x (n & ->). rewrite psum_sum. pose proof (psum_tail f 0 c q Hq Hc H (S n)) as B. change (psum f 0) with 0 in B. change (0 + S n)%nat with (S n) in B.
    assert (0 <= q ^ S n) by (apply pow_le; lra). set (v := psum f (S n)) in *. clearbody v. nra.
  - exists T. intros eps He. destruct (HT eps He) as (n & Hn). exists n. intros m Hm. apply Hn. lia.
Qed.

Section Weights.
Variable a : R.
Hypothesis Ha : 0 < a.
Let r := exp (- a).
Definition rho (k : nat) : R := exp (- (INR k ^ 2 * a)).
Lemma r_range : 0 < r < 1.
Proof. split; [apply exp_pos|]. unfold r. rewrite <- exp_0. apply exp_increasing. lra. Qed.
Lemma exp_pow x n : exp x ^ n = exp (INR n * x).
Proof. induction n as [|n IH]; [cbn; now rewrite Rmult_0_l, exp_0|]. cbn [pow]. rewrite IH, <- exp_plus. f_equal. rewrite S_INR. ring. Qed.
Lemma rho_pow k : rho k = r ^ (k * k).
Proof. unfold rho, r. rewrite exp_pow, mult_INR. f_equal. ring. Qed.
Lemma rho_pos k : 0 < rho k. Proof. apply exp_pos. Qed.
Lemma pow_le_1 n : r ^ n <= 1.
Proof. pose proof r_range. rewrite <- (pow1 n). apply pow_incr. lra. Qed.
Lemma rho_shift m j : rho (m + j) <= rho m * r ^ j.
Proof.
  rewrite !rho_pow, <- pow_add. pose proof r_range. replace ((m + j) * (m + j))%nat with ((m * m + j) + (2 * m * j + (j * j - j)))%nat by nia.
  rewrite pow_add. rewrite <- (Rmult_1_r (r ^ (m * m + j))) at 2. apply Rmult_le_compat_l; [apply pow_le; lra|apply pow_le_1].
Qed.
Lemma rho_sum_exists m : exists T, infinite_sum (fun j => rho (m + j)) T.
Proof.
  pose proof r_range. apply (sum_exists _ (rho m) r); [lra|left; apply rho_pos|intros k; left; apply rho_pos|intros j; apply rho_shift].
Qed.
Lemma rho_sum_bounds m K T : infinite_sum (fun j => rho (m + j)) T -> psum (fun j => rho (m + j)) K <= T <= psum (fun j => rho (m + j)) K + rho (m + K) / (1 - r).
Proof.
  pose proof r_range. apply sum_bounds; [lra|left; apply rho_pos|intros k; left; apply rho_pos|]. intros j. rewrite Nat.add_assoc. apply rho_shift.
Qed.

(** * fixed point enclosures *)
Variable N : Z.
Hypothesis HN : (0 <= N)%Z.
Definition encl (x : R) (c : Z * Z) : Prop := (0 <= fst c)%Z /\ IZR (fst c) <= IZR (2 ^ N) * x <= IZR (snd c).
Definition emul (c d : Z * Z) : Z * Z := (fst c * fst d / 2 ^ N, snd c * snd d / 2 ^ N + 1)%Z.
Lemma P2 : 0 < IZR (2 ^ N). Proof. now apply IZR_pow2. Qed.
Lemma P2Z : (0 < 2 ^ N)%Z. Proof. apply Z.pow_pos_nonneg; lia. Qed.
Lemma encl_mul x y c d : 0 <= x -> 0 <= y -> encl x c -> encl y d -> encl (x * y) (emul c d).
Proof.
  intros Hx Hy (C0 & C1 & C2) (D0 & D1 & D2). pose proof P2 as P. pose proof P2Z as PZ. unfold emul. cbn [fst snd].
  split; [apply Z.div_pos; [nia|exact PZ]|]. apply IZR_le in C0. apply IZR_le in D0.
  pose proof (div_floor (fst c * fst d) (2 ^ N) PZ) as F1. pose proof (div_floor (snd c * snd d) (2 ^ N) PZ) as F2. cbn [fst snd]. rewrite plus_IZR. rewrite mult_IZR in F1, F2.
  assert (E : IZR (2 ^ N) * (x * y) = (IZR (2 ^ N) * x) * (IZR (2 ^ N) * y) / IZR (2 ^ N)) by (field; lra). rewrite E.
  assert (L : IZR (fst c) * IZR (fst d) <= IZR (2 ^ N) * x * (IZR (2 ^ N) * y)) by (apply Rmult_le_compat; lra).
  assert (U : IZR (2 ^ N) * x * (IZR (2 ^ N) * y) <= IZR (snd c) * IZR (snd d)) by (apply Rmult_le_compat; [apply Rmult_le_pos; lra|apply Rmult_le_pos; lra|lra|lra]).
  unfold Rdiv in *. pose proof (Rinv_0_lt_compat _ P) as I. split.
  - apply Rle_trans with (IZR (fst c) * IZR (fst d) * / IZR (2 ^ N)); [lra|]. apply Rmult_le_compat_r; lra.
  - apply Rle_trans with (IZR (snd c) * IZR (snd d) * / IZR (2 ^ N)); [|lra]. apply Rmult_le_compat_r; lra.
Qed.
(** the weights 0, 1, ..., n - 1: w = r^(k^2), u = r^(2k+1), r2 = r^2 *)
Fixpoint weights (n : nat) (w u r2 : Z * Z) : list (Z * Z) :=
  match n with O => [] | S n' => w :: weights n' (emul w u) (emul u r2) r2 end.
Lemma weights_spec n : forall k w u r2, encl (r ^ (k * k)) w -> encl (r ^ (2 * k + 1)) u -> encl (r ^ 2) r2 ->
  forall i, (i < n)%nat -> encl (rho (k + i)) (nth i (weights n w u r2) (0, 0)%Z).
Proof.
  pose proof r_range as R. induction n as [|n IH]; intros k w u r2 Hw Hu Hr i Hi; [lia|]. cbn [weights]. destruct i as [|i].
  - rewrite Nat.add_0_r, rho_pow. exact Hw.
  - cbn [nth]. rewrite Nat.add_succ_r. apply (IH (S k)); [| |exact Hr|lia].
    + replace (S k * S k)%nat with (k * k + (2 * k + 1))%nat by lia. rewrite pow_add. apply encl_mul; auto; apply pow_le; lra.
    + replace (2 * S k + 1)%nat with (2 * k + 1 + 2)%nat by lia. rewrite pow_add. apply encl_mul; auto; apply pow_le; lra.
Qed.
Definition esum (l : list (Z * Z)) : Z * Z := fold_right (fun c s => (fst c + fst s, snd c + snd s)%Z) (0, 0)%Z l.
Lemma encl_add x y c d : encl x c -> encl y d -> encl (x + y) (fst c + fst d, snd c + snd d)%Z.
Proof. intros (C0 & C1 & C2) (D0 & D1 & D2). split; cbn [fst snd]; [lia|]. rewrite !plus_IZR. lra. Qed.
Fixpoint fsum (f : nat -> R) (m K : nat) : R := match K with O => 0 | S k => f m + fsum f (S m) k end.
Lemma fsum_psum f : forall K m, fsum f m K = psum (fun j => f (m + j)%nat) K.
Proof.
  intros K. induction K as [|K IH]; intros m; [reflexivity|]. cbn [fsum]. rewrite IH.
  assert (Sh : forall k (g : nat -> R), psum g (S k) = g 0%nat + psum (fun j => g (S j)) k).
  { induction k as [|k IHk]; intros g; [cbn; lra|]. cbn [psum] in *. rewrite IHk. lra. }
  rewrite Sh. rewrite Nat.add_0_r. f_equal. clear. induction K as [|K IH]; [reflexivity|]. cbn [psum]. rewrite IH. do 2 f_equal. lia.
Qed.
Lemma encl_sum f : forall l m, (forall i, (i < length l)%nat -> encl (f (m + i)%nat) (nth i l (0, 0)%Z)) -> encl (fsum f m (length l)) (esum l).
Proof.
  induction l as [|c l IH]; intros m H.
  - split; cbn; [lia|lra].
  - cbn [length fsum esum fold_right]. apply encl_add; [specialize (H 0%nat ltac:(cbn; lia)); rewrite Nat.add_0_r in H; exact H|].
    apply IH. intros i Hi. specialize (H (S i) ltac:(cbn; lia)). rewrite Nat.add_succ_r in H. exact H.
Qed.
(** with the bound of the tail: the sum from m on, from the weights m .. m + K *)
Definition tail (r : Z * Z) (wK : Z * Z) : Z := (snd wK * 2 ^ N / (2 ^ N - snd r) + 1)%Z.
Definition tsum (rc : Z * Z) (l : list (Z * Z)) (wK : Z * Z) : Z * Z := let s := esum l in (fst s, snd s + tail rc wK)%Z.
Lemma tsum_spec rc l m T wK : encl r rc -> (snd rc < 2 ^ N)%Z -> encl (rho (m + length l)) wK -> (forall i, (i < length l)%nat -> encl (rho (m + i)) (nth i l (0, 0)%Z)) ->
  infinite_sum (fun j => rho (m + j)) T -> encl T (tsum rc l wK).
Proof.
  intros Hr Hlt Hw Hl HT. destruct (encl_sum rho l m Hl) as (S0 & S1 & S2). destruct (rho_sum_bounds m (length l) T HT) as [B1 B2]. rewrite <- (fsum_psum rho) in B1, B2.
  pose proof P2 as P. split; [exact S0|]. unfold tsum, tail. cbn [fst snd]. rewrite !plus_IZR.
  assert (Hd : (0 < 2 ^ N - snd rc)%Z) by lia. pose proof (div_floor (snd wK * 2 ^ N) _ Hd) as F. rewrite mult_IZR in F.
  assert (Q : IZR (2 ^ N) * (rho (m + length l) / (1 - r)) <= IZR (snd wK) * IZR (2 ^ N) / IZR (2 ^ N - snd rc)).
  { destruct Hr as (_ & _ & R2). destruct Hw as (_ & _ & W2). rewrite minus_IZR in *. apply IZR_lt in Hlt. pose proof r_range. pose proof (rho_pos (m + length l)).
    assert (D : 0 < IZR (2 ^ N) - IZR (snd rc)) by lra.
    apply Rmult_le_reg_r with ((IZR (2 ^ N) - IZR (snd rc)) * (1 - r)); [apply Rmult_lt_0_compat; lra|].
    replace (IZR (2 ^ N) * (rho (m + length l) / (1 - r)) * ((IZR (2 ^ N) - IZR (snd rc)) * (1 - r))) with (IZR (2 ^ N) * rho (m + length l) * (IZR (2 ^ N) - IZR (snd rc))) by (field; lra).
    replace (IZR (snd wK) * IZR (2 ^ N) / (IZR (2 ^ N) - IZR (snd rc)) * ((IZR (2 ^ N) - IZR (snd rc)) * (1 - r))) with (IZR (snd wK) * (IZR (2 ^ N) * (1 - r))) by (field; lra).
    apply Rmult_le_compat; [apply Rmult_le_pos; lra|lra|lra|lra]. }
  split; [apply Rle_trans with (IZR (2 ^ N) * fsum rho m (length l)); [exact S1|apply Rmult_le_compat_l; lra]|].
  apply Rle_trans with (IZR (2 ^ N) * (fsum rho m (length l) + rho (m + length l) / (1 - r))); [apply Rmult_le_compat_l; lra|]. rewrite Rmult_plus_distr_l. lra.
Qed.
End Weights.

(** the weights for a = p / q, all in one *)
Definition wtab (m : nat) (p q N : Z) (n : nat) : list (Z * Z) :=
  let rc := (expLo m p q N, expHi m p q N) in
  weights N n (2 ^ N, 2 ^ N)%Z rc (emul N rc rc).
Definition rcl (m : nat) (p q N : Z) : Z * Z := (expLo m p q N, expHi m p q N).
Lemma rcl_spec m p q N : (0 < p)%Z -> (0 < q)%Z -> (0 <= N)%Z -> (0 <= expLo m p q N)%Z -> encl N (exp (- (IZR p / IZR q))) (rcl m p q N).
Proof. intros Hp Hq HN H0. split; [exact H0|]. apply exp_enclosure; [exact Hq|lia|exact HN]. Qed.
Lemma wtab_spec m p q N n : (0 < p)%Z -> (0 < q)%Z -> (0 <= N)%Z -> (0 <= expLo m p q N)%Z ->
  forall i, (i < n)%nat -> encl N (rho (IZR p / IZR q) i) (nth i (wtab m p q N n) (0, 0)%Z).
Proof.
  intros Hp Hq HN H0 i Hi. pose proof (rcl_spec m p q N Hp Hq HN H0) as R.
  assert (Ha : 0 < IZR p / IZR q) by (apply Rmult_lt_0_compat; [now apply (IZR_lt 0)|apply Rinv_0_lt_compat; now apply (IZR_lt 0)]).
  apply (weights_spec (IZR p / IZR q) Ha N HN n 0); [| | |exact Hi].
  - split; cbn [fst snd]; [apply Z.pow_nonneg; lia|]. cbn. lra.
  - cbn [Nat.mul Nat.add]. rewrite pow_1. exact R.
  - cbn [pow]. rewrite Rmult_1_r. apply encl_mul; auto; left; apply exp_pos.
Qed.
Lemma weights_length N n : forall w u r2, length (weights N n w u r2) = n.
Proof. induction n as [|n IH]; intros; [reflexivity|]. cbn [weights length]. now rewrite IH. Qed.
Lemma wsum_spec m p q N n k T : (0 < p)%Z -> (0 < q)%Z -> (0 <= N)%Z -> (0 <= expLo m p q N)%Z -> (expHi m p q N < 2 ^ N)%Z -> (k <= n)%nat ->
  infinite_sum (fun j => rho (IZR p / IZR q) (k + j)) T ->
  let l := wtab m p q N (S n) in encl N T (tsum N (rcl m p q N) (firstn (n - k) (skipn k l)) (nth n l (0, 0)%Z)).
Proof.
  intros Hp Hq HN H0 H1 Hk HT l.
  assert (Ha : 0 < IZR p / IZR q) by (apply Rmult_lt_0_compat; [now apply (IZR_lt 0)|apply Rinv_0_lt_compat; now apply (IZR_lt 0)]).
  assert (Ll : length l = S n) by (apply weights_length).
  assert (Lf : length (firstn (n - k) (skipn k l)) = (n - k)%nat) by (rewrite firstn_length, skipn_length, Ll; lia).
  apply (tsum_spec (IZR p / IZR q) Ha N HN (rcl m p q N) (firstn (n - k) (skipn k l)) k T); [now apply rcl_spec|exact H1| | |]; rewrite ?Lf.
  - replace (k + (n - k))%nat with n by lia. apply wtab_spec; auto.
  - intros i Hi. replace (nth i (firstn (n - k) (skipn k l)) (0, 0)%Z) with (nth (k + i) l (0, 0)%Z); [apply wtab_spec; auto; lia|].
    rewrite <- (firstn_skipn k l) at 1. rewrite app_nth2 by (rewrite firstn_length; lia). rewrite firstn_length, Ll. replace (k + i - Nat.min k (S n))%nat with i by lia.
    rewrite <- (firstn_skipn (n - k) (skipn k l)) at 1. rewrite app_nth1 by (rewrite Lf; exact Hi). reflexivity.
  - exact HT.
Qed.

(** * checks *)
Open Scope Z_scope.
(** count_i = floor(2^72 w_i / T) for all i in l *)
Definition floor_check (K : Z) (ws : list (Z * Z)) (T : Z * Z) (cnt : nat -> Z) (l : list nat) : bool :=
  forallb (fun i => (0 <=? cnt i) && (cnt i * snd T <=? K * fst (nth i ws (0, 0))) && (K * snd (nth i ws (0, 0)) <? (cnt i + 1) * fst T)) l.
Open Scope R_scope.
Lemma floor_check_spec N K ws T Tc cnt l (w : nat -> R) : (0 <= N)%Z -> (0 < K)%Z -> encl N T Tc -> (0 < fst Tc)%Z ->
  (forall i, In i l -> encl N (w i) (nth i ws (0, 0)%Z)) -> floor_check K ws Tc cnt l = true ->
  forall i, In i l -> IZR (cnt i) <= IZR K * (w i / T) < IZR (cnt i) + 1.
Proof.
  intros HN HK (_ & T1 & T2) HT W C i Hi. apply IZR_lt in HK. apply IZR_lt in HT. unfold floor_check in C. rewrite forallb_forall in C. specialize (C i Hi).
  apply andb_prop in C. destruct C as [C C2]. apply andb_prop in C. destruct C as [C0 C1]. apply Z.leb_le in C0, C1. apply Z.ltb_lt in C2.
  destruct (W i Hi) as (W0 & W1 & W2). apply IZR_le in C0, C1, W0. apply IZR_lt in C2. rewrite !mult_IZR in C1, C2. rewrite plus_IZR in C2.
  pose proof (P2 N HN) as P. assert (TP : 0 < T) by nra.
  assert (E : forall x, x * T <= IZR K * w i -> x <= IZR K * (w i / T)).
  { intros x Hx. apply Rmult_le_reg_r with T; [exact TP|]. replace (IZR K * (w i / T) * T) with (IZR K * w i) by (field; lra). exact Hx. }
  assert (E' : forall x, IZR K * w i < x * T -> IZR K * (w i / T) < x).
  { intros x Hx. apply Rmult_lt_reg_r with T; [exact TP|]. replace (IZR K * (w i / T) * T) with (IZR K * w i) by (field; lra). exact Hx. }
  split.
  - apply E. apply Rmult_le_reg_l with (IZR (2 ^ N)); [exact P|].
    apply Rle_trans with (IZR (cnt i) * IZR (snd Tc)); [|apply Rle_trans with (IZR K * IZR (fst (nth i ws (0, 0)%Z)))]; [|exact C1|].
    + replace (IZR (2 ^ N) * (IZR (cnt i) * T)) with (IZR (cnt i) * (IZR (2 ^ N) * T)) by ring. apply Rmult_le_compat_l; lra.
    + replace (IZR (2 ^ N) * (IZR K * w i)) with (IZR K * (IZR (2 ^ N) * w i)) by ring. apply Rmult_le_compat_l; lra.
  - apply E'. apply Rmult_lt_reg_l with (IZR (2 ^ N)); [exact P|].
    apply Rle_lt_trans with (IZR K * IZR (snd (nth i ws (0, 0)%Z))); [|apply Rlt_le_trans with ((IZR (cnt i) + 1) * IZR (fst Tc))]; [|exact C2|].
    + replace (IZR (2 ^ N) * (IZR K * w i)) with (IZR K * (IZR (2 ^ N) * w i)) by ring. apply Rmult_le_compat_l; lra.
    + replace (IZR (2 ^ N) * ((IZR (cnt i) + 1) * T)) with ((IZR (cnt i) + 1) * (IZR (2 ^ N) * T)) by ring. apply Rmult_le_compat_l; lra.
Qed.
(** 2^64 U / T is within 1 of 2 t *)
Lemma near_check_spec N T Tc U Uc t : (0 <= N)%Z -> encl N T Tc -> encl N U Uc -> (0 < fst Tc)%Z -> (0 <= t)%Z ->
  ((2 * t - 1) * (if 0 <=? 2 * t - 1 then snd Tc else fst Tc) <=? 2 ^ 64 * fst Uc)%Z && (2 ^ 64 * snd Uc <=? (2 * t + 1) * fst Tc)%Z = true ->
  Rabs (IZR t - 2 ^ 63 * (U / T)) <= 1 / 2.
Proof.
  intros HN (_ & T1 & T2) (U0 & U1 & U2) HT Ht C. apply andb_prop in C. destruct C as [C1 C2]. apply Z.leb_le in C1, C2. apply IZR_le in C1, C2, Ht. apply IZR_lt in HT.
  pose proof (P2 N HN) as P. assert (TP : 0 < T) by nra. rewrite !mult_IZR, minus_IZR, mult_IZR in C1. rewrite !mult_IZR, plus_IZR, mult_IZR in C2.
  change (IZR (2 ^ 64)) with (IZR 18446744073709551616) in *.
  assert (A1 : (2 * IZR t - 1) * T <= 18446744073709551616 * U).
  { apply Rmult_le_reg_l with (IZR (2 ^ N)); [exact P|]. apply Rle_trans with (18446744073709551616 * IZR (fst Uc)); [|nra]. eapply Rle_trans; [|exact C1].
    replace (IZR (2 ^ N) * ((2 * IZR t - 1) * T)) with ((2 * IZR t - 1) * (IZR (2 ^ N) * T)) by ring.
    destruct (Z.leb_spec 0 (2 * t - 1)) as [L|L].
    - apply IZR_le in L. rewrite minus_IZR, mult_IZR in L. apply Rmult_le_compat_l; lra.
    - apply IZR_lt in L. rewrite minus_IZR, mult_IZR in L. nra. }
  assert (A2 : 18446744073709551616 * U <= (2 * IZR t + 1) * T).
  { apply Rmult_le_reg_l with (IZR (2 ^ N)); [exact P|]. apply Rle_trans with (18446744073709551616 * IZR (snd Uc)); [nra|]. eapply Rle_trans; [exact C2|].
    replace (IZR (2 ^ N) * ((2 * IZR t + 1) * T)) with ((2 * IZR t + 1) * (IZR (2 ^ N) * T)) by ring. apply Rmult_le_compat_l; lra. }
  assert (E : 2 ^ 63 * (U / T) = 18446744073709551616 * U / (2 * T)) by (field; lra). rewrite E.
  apply Rabs_le. split.
  - apply Rmult_le_reg_r with (2 * T); [lra|]. replace ((IZR t - 18446744073709551616 * U / (2 * T)) * (2 * T)) with (2 * T * IZR t - 18446744073709551616 * U) by (field; lra). lra.
  - apply Rmult_le_reg_r with (2 * T); [lra|]. replace ((IZR t - 18446744073709551616 * U / (2 * T)) * (2 * T)) with (2 * T * IZR t - 18446744073709551616 * U) by (field; lra). lra.
Qed.
