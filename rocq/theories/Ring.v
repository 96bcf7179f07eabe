(** The ring Z[x]/(x^n+1) (modulo m), on functions Z -> Z, with a [ring] structure. *)
From Verif Require Import Base RingSpec.
Require Import Coq.setoid_ring.Ring Coq.setoid_ring.Ring_theory Setoid Morphisms.

Definition sumz (n : nat) (f : Z -> Z) : Z := sum_to n (fun i => f (Z.of_nat i)).

Lemma sum_to_ext n f g : (forall i, (i < n)%nat -> f i = g i) -> sum_to n f = sum_to n g.
Proof. induction n as [|n IH]; intros H; auto. cbn [sum_to]. rewrite IH by auto. rewrite H by lia. reflexivity. Qed.
Lemma sum_to_shift n f : sum_to (S n) f = f 0%nat + sum_to n (fun i => f (S i)).
Proof. induction n as [|n IH]; [cbn; ring|]. change (sum_to (S (S n)) f) with (sum_to (S n) f + f (S n)). rewrite IH. cbn [sum_to]. ring. Qed.
Lemma sum_to_rev n f : sum_to n f = sum_to n (fun i => f (n - 1 - i)%nat).
Proof.
  revert f. induction n as [|n IH]; intros f; auto. rewrite sum_to_shift. cbn [sum_to].
  rewrite (IH (fun i => f (S i))). replace (S n - 1 - n)%nat with 0%nat by lia. rewrite Z.add_comm. f_equal.
  apply sum_to_ext. intros i Hi. f_equal. lia.
Qed.
Lemma sum_to_add n f g : sum_to n (fun i => f i + g i) = sum_to n f + sum_to n g.
Proof. induction n as [|n IH]; cbn [sum_to]; [reflexivity|]. rewrite IH. ring. Qed.
Lemma sum_to_scale n c f : sum_to n (fun i => c * f i) = c * sum_to n f.
Proof. induction n as [|n IH]; cbn [sum_to]; [ring|]. rewrite IH. ring. Qed.
Lemma sum_to_0 n f : (forall i, (i < n)%nat -> f i = 0) -> sum_to n f = 0.
Proof. induction n as [|n IH]; intros H; auto. cbn [sum_to]. rewrite IH by auto. rewrite H by lia. reflexivity. Qed.
Lemma sum_to_swap n k f : sum_to n (fun i => sum_to k (fun j => f i j)) = sum_to k (fun j => sum_to n (fun i => f i j)).
Proof.
  induction n as [|n IH]; cbn [sum_to]; [symmetry; apply sum_to_0; auto|]. rewrite IH, <- sum_to_add. reflexivity.
Qed.
Lemma sum_to_app a b f : sum_to (a + b) f = sum_to a f + sum_to b (fun i => f (a + i)%nat).
Proof.
  induction b as [|b IH]; [rewrite Nat.add_0_r; cbn; ring|].
  rewrite Nat.add_succ_r. cbn [sum_to]. rewrite IH. ring.
Qed.
Lemma sum_to_div m n f : (forall i, (i < n)%nat -> (m | f i)) -> (m | sum_to n f).
Proof.
  induction n as [|n IH]; intros H; cbn [sum_to]; [apply Z.divide_0_r|]. apply Z.divide_add_r; auto.
Qed.
Lemma sum_to_opp n f : sum_to n (fun i => - f i) = - sum_to n f.
Proof. induction n as [|n IH]; cbn [sum_to]; [ring|]. rewrite IH. ring. Qed.
Lemma sum_to_sub n f g : sum_to n (fun i => f i - g i) = sum_to n f - sum_to n g.
Proof. induction n as [|n IH]; cbn [sum_to]; [ring|]. rewrite IH. ring. Qed.
Lemma sum_to_single n f k : (k < n)%nat -> (forall i, (i < n)%nat -> i <> k -> f i = 0) -> sum_to n f = f k.
Proof.
  intros Hk H. induction n as [|n IH]; [lia|]. cbn [sum_to]. destruct (Nat.eq_dec k n) as [->|].
  - rewrite sum_to_0 by (intros; apply H; lia). lia.
  - rewrite IH by (try lia; intros; apply H; lia). rewrite (H n) by lia. lia.
Qed.

Lemma sumz_scale n c f : sumz n (fun i => c * f i) = c * sumz n f.
Proof. apply sum_to_scale. Qed.
Lemma even_of_nat k : Nat.even k = Z.even (Z.of_nat k).
Proof.
  induction k as [|k IH]; auto. rewrite Nat2Z.inj_succ, Z.even_succ, Nat.even_succ, <- Z.negb_even, <- Nat.negb_even, IH. reflexivity.
Qed.

(** windows of periodic functions *)
Section Window.
Variable n : nat.
Variable P : Z -> Z.
Hypothesis per : forall i, P (i + Z.of_nat n) = P i.
Lemma per_mul k i : P (i + Z.of_nat n * Z.of_nat k) = P i.
Proof. induction k as [|k IH]; [f_equal; lia|]. rewrite <- IH, <- (per (i + Z.of_nat n * Z.of_nat k)). f_equal. lia. Qed.
Lemma window1 s : sumz n (fun i => P (i + s + 1)) = sumz n (fun i => P (i + s)).
Proof.
  unfold sumz. destruct (Nat.eq_dec n 0) as [->|Hn]; auto.
  assert (E : exists k, n = S k) by (exists (n - 1)%nat; lia). destruct E as [k E].
  assert (per' : forall i, P (i + Z.of_nat (S k)) = P i) by (rewrite <- E; exact per).
  rewrite E, (sum_to_shift k (fun i => P (Z.of_nat i + s))). cbn [sum_to].
  rewrite Z.add_comm. f_equal.
  - rewrite <- (per' (Z.of_nat 0 + s)). f_equal. lia.
  - apply sum_to_ext. intros i _. f_equal. lia.
Qed.
Lemma window_nat s : sumz n (fun i => P (i + Z.of_nat s)) = sumz n P.
Proof.
  induction s as [|s IH].
  - apply sum_to_ext. intros. f_equal. lia.
  - rewrite <- IH, <- (window1 (Z.of_nat s)). apply sum_to_ext. intros. f_equal. lia.
Qed.
Lemma window s : (0 < n)%nat -> sumz n (fun i => P (i + s)) = sumz n P.
Proof.
  intros Hn. rewrite <- (window_nat (Z.to_nat (s + Z.of_nat n * Z.of_nat (Z.to_nat (Z.abs s))))).
  apply sum_to_ext. intros i _. rewrite <- (per_mul (Z.to_nat (Z.abs s)) (Z.of_nat i + s)). f_equal.
  assert (0 <= s + Z.of_nat n * Z.of_nat (Z.to_nat (Z.abs s))) by nia.
  remember (Z.of_nat n * Z.of_nat (Z.to_nat (Z.abs s))) as t. lia.
Qed.
Lemma window_rev c : (0 < n)%nat -> sumz n (fun i => P (c - i)) = sumz n P.
Proof.
  intros Hn. unfold sumz at 1. rewrite sum_to_rev. rewrite <- (window (c - (Z.of_nat n - 1)) Hn).
  apply sum_to_ext. intros i Hi. f_equal. lia.
Qed.
End Window.

Section R.
Variable n : nat.
Hypothesis npos : (0 < n)%nat.
Variable m : Z.
Notation N := (Z.of_nat n).

(** x^n = -1 *)
Definition ext (A : Z -> Z) (i : Z) : Z := (if Z.even (i / N) then 1 else -1) * A (i mod N).
Definition req (A B : Z -> Z) : Prop := forall i, 0 <= i < N -> (m | A i - B i).
Definition r0 (i : Z) : Z := 0.
Definition rc (c : Z) (i : Z) : Z := if i =? 0 then c else 0.
Definition r1 : Z -> Z := rc 1.
Definition radd (A B : Z -> Z) (i : Z) : Z := A i + B i.
Definition rsub (A B : Z -> Z) (i : Z) : Z := A i - B i.
Definition ropp (A : Z -> Z) (i : Z) : Z := - A i.
Definition rmul (A B : Z -> Z) (k : Z) : Z := sumz n (fun i => ext A i * ext B (k - i)).

Lemma ext_in A i : 0 <= i < N -> ext A i = A i.
Proof. intros H. unfold ext. rewrite Z.div_small, Z.mod_small by lia. change (Z.even 0) with true. cbv iota. ring. Qed.
Lemma ext_neg A i : ext A (i + N) = - ext A i.
Proof.
  unfold ext. replace (i + N) with (i + 1 * N) by lia. rewrite Z.div_add, Z.mod_add by lia.
  rewrite Z.even_add. change (Z.even 1) with false. destruct (Z.even (i / N)); cbn [Bool.eqb]; ring.
Qed.
Lemma ext_negm A i : ext A (i - N) = - ext A i.
Proof. replace (ext A i) with (ext A ((i - N) + N)) by (f_equal; lia). rewrite ext_neg. ring. Qed.
(** a function satisfying x^n = -1 is the extension of its window *)
Lemma ext_unique A C : (forall i, C (i + N) = - C i) -> (forall i, 0 <= i < N -> C i = A i) -> forall i, C i = ext A i.
Proof.
  intros H1 H2 i. unfold ext.
  assert (Hm : forall k j, C (j + N * Z.of_nat k) = (if Nat.even k then 1 else -1) * C j).
  { induction k as [|k IHk]; intros j; [replace (j + N * Z.of_nat 0) with j by lia; cbn [Nat.even]; ring|].
    replace (j + N * Z.of_nat (S k)) with ((j + N * Z.of_nat k) + N) by lia. rewrite H1, IHk, Nat.even_succ, <- Nat.negb_even.
    destruct (Nat.even k); cbn [negb]; ring. }
  assert (E : i = i mod N + N * (i / N)) by (pose proof (Z.div_mod i N ltac:(lia)); lia).
  assert (B : 0 <= i mod N < N) by (apply Z.mod_pos_bound; lia).
  destruct (Z_le_gt_dec 0 (i / N)) as [G|G].
  - rewrite E at 1. rewrite <- (Z2Nat.id (i / N)) at 1 by lia. rewrite Hm, H2 by auto.
    rewrite even_of_nat, Z2Nat.id by lia. reflexivity.
  - set (d := - (i / N)). assert (E2 : i mod N = i + N * Z.of_nat (Z.to_nat d)) by (rewrite Z2Nat.id by (unfold d; lia); unfold d; nia).
    rewrite <- H2 by auto. rewrite E2 at 1. rewrite Hm.
    replace (Z.even (i / N)) with (Nat.even (Z.to_nat d)).
    + destruct (Nat.even (Z.to_nat d)); ring.
    + replace (Z.even (i / N)) with (Z.even d) by (unfold d; apply Z.even_opp).
      rewrite even_of_nat, Z2Nat.id by (unfold d; lia). reflexivity.
Qed.

Lemma ext_mul A B k : ext (rmul A B) k = sumz n (fun i => ext A i * ext B (k - i)).
Proof.
  symmetry. apply (ext_unique (rmul A B) (fun k => sumz n (fun i => ext A i * ext B (k - i)))).
  - intros i. unfold sumz. rewrite <- sum_to_opp. apply sum_to_ext. intros j _.
    replace (i + N - Z.of_nat j) with (i - Z.of_nat j + N) by lia. rewrite ext_neg. ring.
  - reflexivity.
Qed.

Lemma rmul_comm_eq A B k : rmul A B k = rmul B A k.
Proof.
  unfold rmul. rewrite <- (window_rev n (fun i => ext B i * ext A (k - i)) ) with (c := k); auto.
  - apply sum_to_ext. intros i _. replace (k - (k - Z.of_nat i)) with (Z.of_nat i) by lia. ring.
  - intros i. replace (k - (i + N)) with (k - i - N) by lia. rewrite ext_neg, ext_negm. ring.
Qed.
Lemma rmul_assoc_eq A B C k : rmul A (rmul B C) k = rmul (rmul A B) C k.
Proof.
  unfold rmul at 1. transitivity (sumz n (fun i => sumz n (fun j => ext A i * (ext B (j - i) * ext C (k - j))))).
  - apply sum_to_ext. intros i _. rewrite ext_mul, sumz_scale. f_equal.
    rewrite <- (window n (fun j => ext B (j - Z.of_nat i) * ext C (k - j))) with (s := Z.of_nat i); auto.
    + apply sum_to_ext. intros j _. f_equal; f_equal; lia.
    + intros j. replace (j + N - Z.of_nat i) with (j - Z.of_nat i + N) by lia.
      replace (k - (j + N)) with (k - j - N) by lia. rewrite ext_neg, ext_negm. ring.
  - unfold sumz. rewrite sum_to_swap. apply sum_to_ext. intros j _. rewrite ext_mul. unfold sumz.
    rewrite (Z.mul_comm _ (ext C _)), <- sum_to_scale. apply sum_to_ext. intros i _. ring.
Qed.
Lemma ext_add A B i : ext (radd A B) i = ext A i + ext B i.
Proof. unfold ext, radd. ring. Qed.
Lemma rmul_distr_eq A B C k : rmul (radd A B) C k = rmul A C k + rmul B C k.
Proof. unfold rmul, sumz. rewrite <- sum_to_add. apply sum_to_ext. intros i _. rewrite ext_add. ring. Qed.
Lemma ext_rc c i : 0 <= i < N -> ext (rc c) i = if i =? 0 then c else 0.
Proof. intros H. now rewrite ext_in. Qed.
Lemma rmul_rc_eq c A k : 0 <= k < N -> rmul (rc c) A k = c * A k.
Proof.
  intros Hk. unfold rmul, sumz. rewrite (sum_to_single n _ 0%nat npos).
  - rewrite ext_rc by lia. change (Z.of_nat 0) with 0. cbn [Z.eqb]. replace (k - 0) with k by lia. now rewrite ext_in.
  - intros i Hi Hn. rewrite ext_rc by lia. destruct (Z.eqb_spec (Z.of_nat i) 0); [lia|ring].
Qed.

Lemma req_refl A : req A A.
Proof. intros i _. rewrite Z.sub_diag. apply Z.divide_0_r. Qed.
Lemma req_sym A B : req A B -> req B A.
Proof. intros H i Hi. replace (B i - A i) with (- (A i - B i)) by ring. apply Z.divide_opp_r. auto. Qed.
Lemma req_trans A B C : req A B -> req B C -> req A C.
Proof. intros H1 H2 i Hi. replace (A i - C i) with ((A i - B i) + (B i - C i)) by ring. apply Z.divide_add_r; auto. Qed.
Lemma req_eq A B : (forall i, 0 <= i < N -> A i = B i) -> req A B.
Proof. intros H i Hi. rewrite H by auto. rewrite Z.sub_diag. apply Z.divide_0_r. Qed.
Lemma ext_req A B : req A B -> forall i, (m | ext A i - ext B i).
Proof.
  intros H i. unfold ext. rewrite <- Z.mul_sub_distr_l. apply Z.divide_mul_r. apply H. apply Z.mod_pos_bound. lia.
Qed.
Global Instance req_equiv : Equivalence req.
Proof. split; [exact req_refl|exact req_sym|exact req_trans]. Qed.
Lemma radd_req : forall A A', req A A' -> forall B B', req B B' -> req (radd A B) (radd A' B').
Proof. intros A A' HA B B' HB i Hi. unfold radd. replace (_ - _) with ((A i - A' i) + (B i - B' i)) by ring. apply Z.divide_add_r; auto. Qed.
Lemma rsub_req : forall A A', req A A' -> forall B B', req B B' -> req (rsub A B) (rsub A' B').
Proof. intros A A' HA B B' HB i Hi. unfold rsub. replace (_ - _) with ((A i - A' i) - (B i - B' i)) by ring. apply Z.divide_sub_r; auto. Qed.
Lemma ropp_req : forall A A', req A A' -> req (ropp A) (ropp A').
Proof. intros A A' HA i Hi. unfold ropp. replace (_ - _) with (- (A i - A' i)) by ring. apply Z.divide_opp_r; auto. Qed.
Lemma rmul_req : forall A A', req A A' -> forall B B', req B B' -> req (rmul A B) (rmul A' B').
Proof.
  intros A A' HA B B' HB k Hk. unfold rmul, sumz.
  replace (_ - _) with (sum_to n (fun i => ext A (Z.of_nat i) * ext B (k - Z.of_nat i) - ext A' (Z.of_nat i) * ext B' (k - Z.of_nat i))).
  - apply sum_to_div. intros i Hi.
    replace (_ - _) with ((ext A (Z.of_nat i) - ext A' (Z.of_nat i)) * ext B (k - Z.of_nat i) + ext A' (Z.of_nat i) * (ext B (k - Z.of_nat i) - ext B' (k - Z.of_nat i))) by ring.
    apply Z.divide_add_r; [apply Z.divide_mul_l|apply Z.divide_mul_r]; apply ext_req; auto.
  - apply sum_to_sub.
Qed.
Global Instance radd_proper : Proper (req ==> req ==> req) radd.
Proof. intros A A' HA B B' HB. now apply radd_req. Qed.
Global Instance rsub_proper : Proper (req ==> req ==> req) rsub.
Proof. intros A A' HA B B' HB. now apply rsub_req. Qed.
Global Instance ropp_proper : Proper (req ==> req) ropp.
Proof. intros A A' HA. now apply ropp_req. Qed.
Global Instance rmul_proper : Proper (req ==> req ==> req) rmul.
Proof. intros A A' HA B B' HB. now apply rmul_req. Qed.

Lemma r_theory : ring_theory r0 r1 radd rmul rsub ropp req.
Proof.
  split.
  - intros A. apply req_eq. intros; unfold radd, r0; ring.
  - intros A B. apply req_eq. intros; unfold radd; ring.
  - intros A B C. apply req_eq. intros; unfold radd; ring.
  - intros A. apply req_eq. intros. unfold r1. rewrite rmul_rc_eq by auto. ring.
  - intros A B. apply req_eq. intros. apply rmul_comm_eq.
  - intros A B C. apply req_eq. intros. apply rmul_assoc_eq.
  - intros A B C. apply req_eq. intros. apply rmul_distr_eq.
  - intros A B. apply req_eq. intros. unfold rsub, radd, ropp. ring.
  - intros A. apply req_eq. intros. unfold radd, ropp, r0. ring.
Qed.
Lemma r_ext : ring_eq_ext radd rmul ropp req.
Proof. split; [exact radd_proper|exact rmul_proper|exact ropp_proper]. Qed.
End R.
Arguments ext n A i : simpl never.
