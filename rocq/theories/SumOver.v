(** Sums over lists of integers, sums over all integers, and the statistical distance between normalised weights. *)
From Coq Require Import Reals Lra Lia ZArith List Bool.
From Verif Require Import GaussSpec.
Import ListNotations.
Open Scope R_scope.

Lemma sum_over_cons z l f : sum_over (z :: l) f = f z + sum_over l f. Proof. reflexivity. Qed.
Lemma sum_over_nil f : sum_over [] f = 0. Proof. reflexivity. Qed.
Lemma sum_over_app a b f : sum_over (a ++ b) f = sum_over a f + sum_over b f.
Proof. induction a as [|z a IH]; [cbn [app]; rewrite sum_over_nil; lra|]. cbn [app]. rewrite !sum_over_cons, IH. lra. Qed.
Lemma sum_over_ext l f g : (forall z, In z l -> f z = g z) -> sum_over l f = sum_over l g.
Proof. induction l as [|z l IH]; intros H; [reflexivity|]. rewrite !sum_over_cons. rewrite (H z (or_introl eq_refl)), IH; [reflexivity|]. intros y Hy. apply H. right. exact Hy. Qed.
Lemma sum_over_le l f g : (forall z, In z l -> f z <= g z) -> sum_over l f <= sum_over l g.
Proof.
  induction l as [|z l IH]; intros H; [cbn; lra|]. rewrite !sum_over_cons. pose proof (H z (or_introl eq_refl)).
  assert (sum_over l f <= sum_over l g) by (apply IH; intros y Hy; apply H; right; exact Hy). lra.
Qed.
Lemma sum_over_plus l f g : sum_over l (fun z => f z + g z) = sum_over l f + sum_over l g.
Proof. induction l as [|z l IH]; [cbn; lra|]. rewrite !sum_over_cons, IH. lra. Qed.
Lemma sum_over_scal l c f : sum_over l (fun z => c * f z) = c * sum_over l f.
Proof. induction l as [|z l IH]; [cbn; lra|]. rewrite !sum_over_cons, IH. lra. Qed.
Lemma sum_over_map l h f : sum_over (map h l) f = sum_over l (fun z => f (h z)).
Proof. induction l as [|z l IH]; [reflexivity|]. cbn [map]. rewrite !sum_over_cons, IH. reflexivity. Qed.
Lemma sum_over_nonneg l f : (forall z, In z l -> 0 <= f z) -> 0 <= sum_over l f.
Proof.
  induction l as [|z l IH]; intros H; [cbn; lra|]. rewrite sum_over_cons. pose proof (H z (or_introl eq_refl)).
  assert (0 <= sum_over l f) by (apply IH; intros y Hy; apply H; right; exact Hy). lra.
Qed.
Lemma sum_over_incl l : forall w f, NoDup l -> incl l w -> (forall z, 0 <= f z) -> sum_over l f <= sum_over w f.
Proof.
  induction l as [|z l IH]; intros w f N I P; [apply sum_over_nonneg; auto|]. inversion N as [|? ? Hz N']; subst.
  destruct (in_split z w (I z (or_introl eq_refl))) as (a & b & ->).
  assert (H : sum_over l f <= sum_over (a ++ b) f).
  { apply IH; auto. intros y Hy. pose proof (I y (or_intror Hy)) as Q. rewrite in_app_iff in *. cbn [In] in Q. destruct Q as [Q|[->|Q]]; [left; exact Q|contradiction|right; exact Q]. }
  rewrite !sum_over_app, !sum_over_cons in *. lra.
Qed.
Lemma sum_over_filter l q f : sum_over l f = sum_over (filter q l) f + sum_over (filter (fun z => negb (q z)) l) f.
Proof. induction l as [|z l IH]; [cbn; lra|]. cbn [filter]. rewrite sum_over_cons, IH. destruct (q z); cbn [negb]; rewrite sum_over_cons; lra. Qed.
Lemma sum_over_triangle l f g : Rabs (sum_over l f - sum_over l g) <= sum_over l (fun z => Rabs (f z - g z)).
Proof.
  induction l as [|z l IH]; [cbn; rewrite Rminus_diag_eq by lra; rewrite Rabs_R0; lra|]. rewrite !sum_over_cons.
  replace (f z + sum_over l f - (g z + sum_over l g)) with ((f z - g z) + (sum_over l f - sum_over l g)) by ring.
  pose proof (Rabs_triang (f z - g z) (sum_over l f - sum_over l g)). lra.
Qed.

Lemma zsum_ge f G l : zsum f G -> NoDup l -> sum_over l f <= G.
Proof. intros [U _] N. apply U. exists l. auto. Qed.
Lemma zsum_le f G B : zsum f G -> (forall l, NoDup l -> sum_over l f <= B) -> G <= B.
Proof. intros [_ L] H. apply L. intros s (l & N & ->). apply H, N. Qed.
Lemma zsum_exists f B : (forall l, NoDup l -> sum_over l f <= B) -> exists G, zsum f G.
Proof.
  intros H. destruct (completeness (fun s => exists l, NoDup l /\ s = sum_over l f)) as (G & HG).
  - exists B. intros s (l & N & ->). apply H, N.
  - exists 0. exists []. split; [constructor|reflexivity].
  - exists G. exact HG.
Qed.

Definition inb (w : list Z) (z : Z) : bool := existsb (Z.eqb z) w.
Lemma inb_true w z : inb w z = true <-> In z w.
Proof. unfold inb. rewrite existsb_exists. split; [intros (x & Hx & E); apply Z.eqb_eq in E; subst; exact Hx|]. intros H. exists z. split; [exact H|apply Z.eqb_refl]. Qed.
Lemma inb_false w z : negb (inb w z) = true <-> ~ In z w.
Proof. rewrite negb_true_iff, <- inb_true. destruct (inb w z); split; congruence. Qed.

(** W: weights supported on w; g: target weights; if W is K g up to E on w and g has mass at most tau outside w, the normalised weights are close *)
Lemma dist_generic (W g : Z -> R) w K G E tau : NoDup w -> (forall z, 0 <= W z) -> (forall z, ~ In z w -> W z = 0) -> (forall z, 0 <= g z) ->
  zsum g G -> sum_over w (fun z => Rabs (W z - K * g z)) <= E -> 0 < K -> 0 <= tau -> (forall l, NoDup l -> (forall z, In z l -> ~ In z w) -> sum_over l g <= tau) ->
  E + K * tau < K * G ->
  0 < sum_over w W /\ Rabs (sum_over w W - K * G) <= E + K * tau /\ forall l, NoDup l -> sum_over l (fun z => Rabs (W z / sum_over w W - g z / G)) <= (2 * E + 2 * K * tau) / (K * G).
Proof.
  intros Nw W0 Wo g0 HG HE HK Ht Hl HKG. set (S := sum_over w W). set (A := sum_over w g).
  assert (AG : A <= G) by (apply zsum_ge; assumption).
  assert (GA : G <= A + tau).
  { apply (zsum_le g G); [exact HG|]. intros l N. rewrite (sum_over_filter l (inb w)). apply Rplus_le_compat.
    - apply sum_over_incl; auto; [apply NoDup_filter, N|]. intros z Hz. apply filter_In in Hz. apply inb_true, Hz.
    - apply Hl; [apply NoDup_filter, N|]. intros z Hz. apply filter_In in Hz. apply inb_false, Hz. }
  assert (SA : Rabs (S - K * A) <= E).
  { unfold S, A. rewrite <- sum_over_scal. eapply Rle_trans; [apply sum_over_triangle|exact HE]. }
  assert (E0 : 0 <= E) by (eapply Rle_trans; [apply Rabs_pos|exact SA]).
  assert (SKG : Rabs (S - K * G) <= E + K * tau).
  { replace (S - K * G) with ((S - K * A) + (- (K * (G - A)))) by ring. eapply Rle_trans; [apply Rabs_triang|]. apply Rplus_le_compat; [exact SA|]. rewrite Rabs_Ropp, Rabs_pos_eq by nra. nra. }
  assert (Sp : 0 < S). { pose proof (Rle_abs (- (S - K * G))) as Q. rewrite Rabs_Ropp in Q. lra. }
  split; [exact Sp|]. split; [exact SKG|]. intros l N. rewrite (sum_over_filter l (inb w)).
  assert (KG0 : 0 < K * G) by nra. assert (G0 : 0 < G) by nra. assert (IS : 0 < / S) by now apply Rinv_0_lt_compat. assert (IKG : 0 < / (K * G)) by now apply Rinv_0_lt_compat.
  assert (H1 : sum_over (filter (inb w) l) (fun z => Rabs (W z / S - g z / G)) <= (2 * E + K * tau) / (K * G)).
  { eapply Rle_trans; [apply sum_over_incl with (w := w)|].
    - apply NoDup_filter, N.
    - intros z Hz. apply filter_In in Hz. apply inb_true, Hz.
    - intros z. apply Rabs_pos.
    - eapply Rle_trans.
      + apply sum_over_le with (g := fun z => (Rabs (S - K * G) / (S * (K * G))) * W z + / (K * G) * Rabs (W z - K * g z)). intros z _.
        replace (W z / S - g z / G) with (W z * ((K * G - S) / (S * (K * G))) + (W z - K * g z) * / (K * G)) by (field; lra).
        eapply Rle_trans; [apply Rabs_triang|]. rewrite !Rabs_mult. rewrite (Rabs_pos_eq (W z)) by apply W0. rewrite (Rabs_pos_eq (/ (K * G))) by lra.
        unfold Rdiv. rewrite Rabs_mult. rewrite (Rabs_pos_eq (/ (S * (K * G)))) by (left; apply Rinv_0_lt_compat; nra). rewrite (Rabs_minus_sym (K * G) S). lra.
      + rewrite sum_over_plus, !sum_over_scal. fold S. set (e := sum_over w _) in *. clearbody e.
        replace (Rabs (S - K * G) / (S * (K * G)) * S) with (Rabs (S - K * G) * / (K * G)) by (field; lra). unfold Rdiv. rewrite (Rmult_comm (/ (K * G)) e), <- Rmult_plus_distr_r. apply Rmult_le_compat_r; lra. }
  assert (H2 : sum_over (filter (fun z => negb (inb w z)) l) (fun z => Rabs (W z / S - g z / G)) <= tau / G).
  { eapply Rle_trans.
    - apply sum_over_le with (g := fun z => / G * g z). intros z Hz. apply filter_In in Hz. destruct Hz as [_ Hz]. apply inb_false in Hz. rewrite (Wo z Hz).
      replace (0 / S - g z / G) with (- (g z * / G)) by (field; lra). rewrite Rabs_Ropp, Rabs_pos_eq; [lra|]. pose proof (g0 z). pose proof (Rinv_0_lt_compat G G0). nra.
    - rewrite sum_over_scal. unfold Rdiv. rewrite Rmult_comm. apply Rmult_le_compat_r; [left; now apply Rinv_0_lt_compat|]. apply Hl; [apply NoDup_filter, N|]. intros z Hz. apply filter_In in Hz. apply inb_false, Hz. }
  replace ((2 * E + 2 * K * tau) / (K * G)) with ((2 * E + K * tau) / (K * G) + tau / G) by (field; lra). lra.
Qed.
