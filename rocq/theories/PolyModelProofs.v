(** Correctness of PolyModel.v against the ring specification. *)
From Verif Require Import Base HashModel KeccakModel RingSpec Ring NtruModel PolyProofs SolveProofs NttTables NttTables1024 NttModel NttProofs NttInst NttApi PolyModel.
From Coq Require Import Znumtheory.

(** * q is prime *)
Lemma no_small_factor : forallb (fun d => negb (12289 mod (Z.of_nat d) =? 0)) (seq 2 110) = true.
Proof. vm_compute. reflexivity. Qed.
Lemma prime_q : prime 12289.
Proof.
  apply prime_alt. split; [lia|]. intros d Hd [e He].
  assert (G : forall x, 1 < x < 112 -> (x | 12289) -> False).
  { intros x Hx [y Hy]. pose proof no_small_factor as H. rewrite forallb_forall in H.
    specialize (H (Z.to_nat x) ltac:(apply in_seq; lia)). rewrite Z2Nat.id in H by lia.
    assert (M : 12289 mod x = 0) by (rewrite Hy; apply Z.mod_mul; lia). rewrite M in H. discriminate. }
  destruct (Z.lt_ge_cases d 112).
  - apply (G d); [lia|]. exists e; lia.
  - apply (G e); [nia|]. exists d. lia.
Qed.
Lemma q_eq : q = 12289. Proof. reflexivity. Qed.
Lemma inv_q_ok x : x mod 12289 <> 0 -> (x * inv_q x) mod 12289 = 1.
Proof.
  intros Hx. unfold inv_q. rewrite q_eq. pose proof (xgcd_spec (x mod 12289) 12289) as S.
  destruct (xgcd (x mod 12289) 12289) as [[d u] v]. destruct S as (E & D).
  pose proof (Z.mod_pos_bound x 12289 ltac:(lia)) as B.
  assert (Gc : Z.gcd (x mod 12289) 12289 = 1).
  { apply Zgcd_1_rel_prime. apply rel_prime_le_prime; [exact prime_q|lia]. }
  rewrite Gc in D. cbn in D. subst d. rewrite Z.mul_mod_idemp_r by lia.
  rewrite <- Z.mul_mod_idemp_l by lia. replace (x mod 12289 * u) with (1 + (- v) * 12289) by lia.
  rewrite Z.mod_add by lia. reflexivity.
Qed.
Lemma inv_q_range x : 0 <= inv_q x < 12289.
Proof. unfold inv_q. destruct (xgcd _ _) as [[d u] v]. apply Z.mod_pos_bound. reflexivity. Qed.
Lemma q_domain x y : (x * y) mod 12289 = 0 -> x mod 12289 = 0 \/ y mod 12289 = 0.
Proof.
  intros H. apply Z.mod_divide in H; [|lia]. apply prime_mult in H; [|exact prime_q].
  destruct H as [H|H]; [left|right]; apply Z.mod_divide; auto; lia.
Qed.

(** * The table for sizes up to 1024 *)
Lemma py_tables : forall r, (1 <= r < 1024)%nat -> cgm qf (psip r * psip r) (zz psip r) /\ cgm qf (psip r * psiip r) 1.
Proof. apply (tree_b_ok psip psiip 1023). vm_cast_no_check (eq_refl true). Qed.
Lemma p10 : (2 ^ 10)%nat = 1024%nat. Proof. reflexivity. Qed.
Lemma pow_le_1024 k : (k <= 10)%nat -> (2 ^ k <= 1024)%nat.
Proof. intros H. rewrite <- p10. apply Nat.pow_le_mono_r; lia. Qed.
Lemma good_py k : (1 <= k <= 10)%nat -> good psip psiip k (inv_q (Z.of_nat (2 ^ k))).
Proof.
  intros Hk. pose proof (pow_le_1024 k ltac:(lia)) as Hp. constructor; [lia| | |].
  - intros r Hr. apply py_tables. split; [lia|]. eapply Nat.lt_le_trans; [apply Hr|exact Hp].
  - intros r Hr. apply py_tables. split; [lia|]. eapply Nat.lt_le_trans; [apply Hr|exact Hp].
  - constructor. apply inv_q_ok.
    assert (0 < 2 ^ k)%nat by apply pow_pos. rewrite Z.mod_small by lia. lia.
Qed.

Lemma good_pyn k n : (1 <= k <= 10)%nat -> n = (2 ^ k)%nat -> good psip psiip k (inv_q (Z.of_nat n)).
Proof. intros Hk ->. now apply good_py. Qed.

Section Py.
Variable k : nat.
Hypothesis Hk : (1 <= k <= 10)%nat.
Variable n : nat.
Hypothesis Hn : n = (2 ^ k)%nat.
Let G := good_pyn k n Hk Hn.
Lemma ntt_length a : length a = n -> length (ntt a) = n.
Proof. intros L. unfold ntt. rewrite L. exact (T_length _ _ _ _ G _ Hn a L). Qed.
Lemma ntt_canon a : length a = n -> canonq (ntt a).
Proof. intros L. unfold ntt. rewrite L. exact (T_canon _ _ _ _ G _ Hn a L). Qed.
Lemma intt_length a : length a = n -> canonq a -> length (intt a) = n.
Proof. intros L C. unfold intt. rewrite L. exact (I_length _ _ _ _ G _ Hn a L C). Qed.
Lemma intt_canon a : canonq (intt a).
Proof. unfold intt. apply I_canon. Qed.
Lemma intt_ntt a : length a = n -> intt (ntt a) = mod_q a.
Proof.
  intros L. unfold intt. rewrite (ntt_length a L). unfold ntt. rewrite L. exact (I_T _ _ _ _ G _ Hn a L).
Qed.
Lemma ntt_intt b : length b = n -> canonq b -> ntt (intt b) = mod_q b.
Proof.
  intros L C. unfold ntt. rewrite (intt_length b L C). unfold intt. rewrite L. exact (T_I _ _ _ _ G _ Hn b L C).
Qed.
Lemma ntt_negmul a b : length a = n -> length b = n -> ntt (negmul n a b) = vec_mul (ntt a) (ntt b).
Proof.
  intros La Lb. unfold vec_mul. rewrite (ntt_length a La). unfold ntt. rewrite La, Lb.
  replace (length (negmul n a b)) with n by (unfold negmul; now rewrite map_length, seq_length).
  exact (T_negmul _ _ _ _ G _ Hn a b La Lb).
Qed.
Lemma ntt_mod a : length a = n -> ntt (mod_q a) = ntt a.
Proof. intros L. unfold ntt. rewrite mod_q_length, L. exact (T_mod _ _ _ _ G _ Hn a L). Qed.
Lemma ntt_inj a b : length a = n -> length b = n -> ntt a = ntt b -> mod_q a = mod_q b.
Proof. intros La Lb E. rewrite <- !intt_ntt by auto. now rewrite E. Qed.
Lemma vec_mul_length a b : length (vec_mul a b) = length a.
Proof. unfold vec_mul. apply vecmul_len. Qed.
Lemma vec_mul_nth a b p : (p < length a)%nat -> nth p (vec_mul a b) 0 = (nth p a 0 * nth p b 0) mod 12289.
Proof. intros. unfold vec_mul. now apply vecmul_nth. Qed.
Lemma vec_mul_canon a b : canonq (vec_mul a b). Proof. unfold vec_mul. apply vecmul_can. Qed.

Theorem poly_mul_spec a b : length a = n -> length b = n -> poly_mul a b = mod_q (negmul n a b).
Proof.
  intros La Lb. unfold poly_mul. rewrite <- ntt_negmul by auto. apply intt_ntt. unfold negmul. now rewrite map_length, seq_length.
Qed.
Lemma poly_sub_spec a b : length a = n -> poly_sub a b = mod_q (psub n a b).
Proof.
  intros La. unfold poly_sub, mod_q, psub. rewrite map_map, La. reflexivity.
Qed.
Lemma canonq_eq a b : length a = length b -> canonq a -> canonq b -> (forall i, (i < length a)%nat -> nth i a 0 mod 12289 = nth i b 0 mod 12289) -> a = b.
Proof.
  intros L Ca Cb H. apply list_eq_nth; auto. intros i Hi. specialize (H i Hi).
  rewrite !Z.mod_small in H by (apply canonq_nth; auto). exact H.
Qed.
Lemma invertible_nth f : length f = n -> (invertible f = true <-> forall i, (i < n)%nat -> nth i (ntt f) 0 <> 0).
Proof.
  intros L. unfold invertible. rewrite forallb_forall. pose proof (ntt_length f L) as LT. pose proof (ntt_canon f L) as CT. split.
  - intros H i Hi E. specialize (H (nth i (ntt f) 0) ltac:(apply nth_In; lia)). rewrite E in H. discriminate.
  - intros H x Hx. apply (In_nth _ _ 0) in Hx. destruct Hx as (i & Hi & <-). rewrite q_eq, Z.mod_small by (apply canonq_nth; auto).
    specialize (H i ltac:(lia)). destruct (Z.eqb_spec (nth i (ntt f) 0) 0); auto.
Qed.
(** the quotient: h with h * b = a, when it exists for every a *)
Theorem poly_div_spec a b h : length a = n -> length b = n -> poly_div a b = Ok h ->
  length h = n /\ canonq h /\ mod_q (negmul n h b) = mod_q a.
Proof.
  intros La Lb E. unfold poly_div in E. destruct (invertible b) eqn:I; [|discriminate].
  assert (Eh : h = intt (vec_mul (ntt a) (map inv_q (ntt b)))) by congruence. clear E.
  pose proof (ntt_length a La) as LA. pose proof (ntt_length b Lb) as LB.
  assert (LV : length (vec_mul (ntt a) (map inv_q (ntt b))) = n) by (now rewrite vec_mul_length).
  assert (Lh : length h = n) by (rewrite Eh; apply intt_length; auto; apply vec_mul_canon).
  split; auto. split; [rewrite Eh; apply intt_canon|].
  apply ntt_inj; auto; [unfold negmul; now rewrite map_length, seq_length|]. rewrite ntt_negmul by auto.
  assert (Th : ntt h = vec_mul (ntt a) (map inv_q (ntt b))).
  { rewrite Eh, ntt_intt by (auto; apply vec_mul_canon). apply mod_q_id, vec_mul_canon. }
  apply canonq_eq; [rewrite vec_mul_length, ntt_length, LA; auto|apply vec_mul_canon|now apply ntt_canon|].
  intros i Hi. rewrite vec_mul_length, (ntt_length h Lh) in Hi. rewrite vec_mul_nth by (rewrite ntt_length; auto).
  rewrite Th, vec_mul_nth by lia. rewrite nth_map0 by lia.
  pose proof (proj1 (invertible_nth b Lb) I i Hi) as NZ. pose proof (canonq_nth _ i (ntt_canon b Lb)) as R.
  pose proof (inv_q_ok (nth i (ntt b) 0) ltac:(rewrite Z.mod_small; auto)) as U.
  rewrite Z.mod_mod, Z.mul_mod_idemp_l by lia.
  replace (nth i (ntt a) 0 * inv_q (nth i (ntt b) 0) * nth i (ntt b) 0) with (nth i (ntt a) 0 * (nth i (ntt b) 0 * inv_q (nth i (ntt b) 0))) by ring.
  rewrite <- Z.mul_mod_idemp_r, U, Z.mul_1_r by lia. reflexivity.
Qed.
(** cancellation: an invertible factor *)
Theorem cancel b x y : length b = n -> length x = n -> length y = n -> invertible b = true ->
  mod_q (negmul n x b) = mod_q (negmul n y b) -> mod_q x = mod_q y.
Proof.
  intros Lb Lx Ly I E. apply ntt_inj; auto.
  assert (E' : vec_mul (ntt x) (ntt b) = vec_mul (ntt y) (ntt b)).
  { rewrite <- !ntt_negmul by auto. rewrite <- (ntt_mod (negmul n x b)), <- (ntt_mod (negmul n y b)); [now rewrite E| |]; unfold negmul; now rewrite map_length, seq_length. }
  apply canonq_eq; try (now apply ntt_canon); [rewrite !ntt_length; auto|].
  intros i Hi. rewrite ntt_length in Hi by auto. apply (f_equal (fun l => nth i l 0)) in E'.
  rewrite !vec_mul_nth in E' by (rewrite ntt_length; auto).
  assert (D : ((nth i (ntt x) 0 - nth i (ntt y) 0) * nth i (ntt b) 0) mod 12289 = 0).
  { rewrite Z.mul_sub_distr_r. rewrite Zminus_mod, E', Z.sub_diag. reflexivity. }
  apply q_domain in D. destruct D as [D|D].
  - replace (nth i (ntt x) 0) with (nth i (ntt y) 0 + (nth i (ntt x) 0 - nth i (ntt y) 0)) by ring.
    rewrite <- Z.add_mod_idemp_r, D, Z.add_0_r by lia. reflexivity.
  - rewrite Z.mod_small in D by (apply canonq_nth, ntt_canon; auto). destruct (proj1 (invertible_nth b Lb) I i Hi D).
Qed.
Theorem poly_div_unique a b h h' : length a = n -> length b = n -> poly_div a b = Ok h ->
  length h' = n -> canonq h' -> mod_q (negmul n h' b) = mod_q a -> h' = h.
Proof.
  intros La Lb E Lh' Ch' E'. destruct (poly_div_spec a b h La Lb E) as (Lh & Ch & Eh).
  unfold poly_div in E. destruct (invertible b) eqn:I; [|discriminate].
  rewrite <- (mod_q_id h' Ch'), <- (mod_q_id h Ch). apply (cancel b); auto. congruence.
Qed.
(** invertible means: some polynomial u has f * u = 1 modulo (q, x^n + 1) *)
Lemma pconst_length c : length (pconst n c) = n.
Proof. unfold pconst. cbn [length]. rewrite repeat_length. pose proof (pow_pos k). rewrite <- Hn in H. lia. Qed.
Lemma ntt_one i : (i < n)%nat -> nth i (ntt (pconst n 1)) 0 = 1.
Proof.
  intros Hi. pose proof (T_eval _ _ _ _ G _ Hn (pconst n 1) i (pconst_length 1) Hi) as [E].
  unfold ntt. rewrite pconst_length. rewrite Z.mod_small in E by (apply canonq_nth; exact (T_canon _ _ _ _ G _ Hn _ (pconst_length 1))).
  etransitivity; [exact E|]. transitivity (1 mod qf); [|reflexivity]. apply (f_equal (fun z => z mod qf)). unfold evn.
  rewrite (sum_to_single n _ 0%nat); [|lia|].
  - reflexivity.
  - intros j Hj Hj0. unfold ln, pconst. destruct j as [|j]; [lia|]. cbn [nth]. rewrite nth_repeat. reflexivity.
Qed.
Theorem invertible_iff f : length f = n ->
  (invertible f = true <-> exists u, length u = n /\ mod_q (negmul n u f) = pconst n 1).
Proof.
  intros Lf. pose proof (pconst_length 1) as L1. split.
  - intros I. assert (E : exists u, poly_div (pconst n 1) f = Ok u) by (unfold poly_div; rewrite I; eauto). destruct E as [u E].
    destruct (poly_div_spec _ _ _ L1 Lf E) as (Lu & Cu & Eu). exists u. split; auto. rewrite Eu. apply mod_q_id.
    unfold pconst. constructor; [lia|]. apply Forall_forall. intros x Hx. apply repeat_spec in Hx. lia.
  - intros (u & Lu & E). apply invertible_nth; auto. intros i Hi Z0.
    assert (T1 : ntt (pconst n 1) = vec_mul (ntt u) (ntt f)).
    { rewrite <- E, ntt_mod, ntt_negmul; auto. unfold negmul. now rewrite map_length, seq_length. }
    apply (f_equal (fun l => nth i l 0)) in T1. rewrite ntt_one, vec_mul_nth in T1 by (rewrite ?ntt_length; auto).
    rewrite Z0, Z.mul_0_r in T1. discriminate.
Qed.
Theorem poly_div_raises a b : poly_div a b = Raise ZeroDivisionError <-> invertible b = false.
Proof. unfold poly_div. destruct (invertible b); split; intros; congruence. Qed.
Theorem poly_inverse_ntt b u : length b = n -> poly_inverse b = Ok u -> ntt u = map inv_q (ntt b).
Proof.
  intros Lb E. unfold poly_inverse in E. destruct (invertible b); [|discriminate].
  assert (Eu : u = intt (map inv_q (ntt b))) by congruence. subst u.
  assert (C : canonq (map inv_q (ntt b))) by (apply Forall_forall; intros x Hx; apply in_map_iff in Hx; destruct Hx as (y & <- & _); apply inv_q_range).
  rewrite ntt_intt; auto; [now apply mod_q_id|]. rewrite map_length. now apply ntt_length.
Qed.
End Py.
