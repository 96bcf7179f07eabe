(** The LDL tree of a positive diagonal, and the norm of what ffsampling returns, in exact arithmetic. *)
From Coq Require Import Reals Lra Lia.
From Verif Require Import Base RingSpec FftModel FftSpec FftProofs FftAlg.
Import List.
Open Scope R_scope.

(** * Squared modulus, sums over lists *)
Definition cabs2 (z : CR) : R := fst z * fst z + snd z * snd z.
Lemma cabs2_mul x y : cabs2 (x *c y) = cabs2 x * cabs2 y.
Proof. destruct x, y. unfold cabs2, FftModel.cmul. cbn [fst snd RN nadd nsub nmul]. ring. Qed.
Lemma cabs2_nonneg x : 0 <= cabs2 x.
Proof. unfold cabs2. nra. Qed.
Lemma cabs2_unit w : unit w -> cabs2 w = 1. Proof. exact (fun H => H). Qed.
Lemma lsum_ext {A} (F G : A -> R) l : (forall x, In x l -> F x = G x) -> lsum F l = lsum G l.
Proof. induction l as [|x l IH]; intros H; [reflexivity|]. cbn [lsum]. rewrite H by now left. rewrite IH by (intros; apply H; now right). reflexivity. Qed.
Lemma lsum_le {A} (F G : A -> R) l : (forall x, In x l -> F x <= G x) -> lsum F l <= lsum G l.
Proof. induction l as [|x l IH]; intros H; [cbn; lra|]. cbn [lsum]. apply Rplus_le_compat; [apply H; now left|apply IH; intros; apply H; now right]. Qed.
Lemma lsum_add {A} (F G : A -> R) l : lsum (fun x => F x + G x) l = lsum F l + lsum G l.
Proof. induction l as [|x l IH]; cbn [lsum]; [ring|]. rewrite IH. ring. Qed.
Lemma lsum_scal {A} c (F : A -> R) l : lsum (fun x => c * F x) l = c * lsum F l.
Proof. induction l as [|x l IH]; cbn [lsum]; [ring|]. rewrite IH. ring. Qed.
Lemma lsum_map {A B} (F : B -> R) (g : A -> B) l : lsum F (map g l) = lsum (fun x => F (g x)) l.
Proof. induction l as [|x l IH]; [reflexivity|]. cbn [map lsum]. now rewrite IH. Qed.
Lemma lsum_rts k F : lsum F (rts (S k)) = lsum (fun z => F (usqrt z) + F (ropp (usqrt z))) (rts k).
Proof. cbn [rts]. induction (rts k) as [|z l IH]; [reflexivity|]. cbn [flat_map app lsum]. rewrite IH. ring. Qed.
Lemma rsq_split f : Nat.even (length f) = true -> rsq f = rsq (evens f) + rsq (odds f).
Proof. unfold rsq. induction f as [|a|a b f IH] using pair_ind; intros H; [cbn; lra|discriminate|]. cbn [evens odds lsum]. rewrite IH by exact H. ring. Qed.
(** parallelogram law *)
Lemma para a w b : unit w -> cabs2 (a +c w *c b) + cabs2 (a -c w *c b) = 2 * cabs2 a + 2 * cabs2 b.
Proof.
  intros U. assert (E : cabs2 (w *c b) = cabs2 b) by (rewrite cabs2_mul, (cabs2_unit w U); ring). rewrite <- E. destruct a, (w *c b). unfold cabs2, FftModel.cadd, FftModel.csub. cbn [fst snd RN nadd nsub]. ring.
Qed.
Theorem parseval k f : length f = (2 ^ k)%nat -> lsum (fun z => cabs2 (ev f z)) (rts k) = 2 ^ k * rsq f.
Proof.
  revert f. induction k as [|k IH]; intros f L.
  - cbn in L. destruct f as [|a [|]]; try discriminate L. unfold rsq, cabs2. cbn [rts lsum ev cmulx fst snd pow]. ring.
  - destruct (len2 f k L) as [L0 L1]. assert (EV : Nat.even (length f) = true) by (rewrite L; apply even_2).
    rewrite lsum_rts, (rsq_split f EV). rewrite (lsum_ext _ (fun z => 2 * cabs2 (ev (evens f) z) + 2 * cabs2 (ev (odds f) z))).
    + rewrite lsum_add, !lsum_scal, !IH by assumption. cbn [pow]. ring.
    + intros z Hz. pose proof (proj1 (Forall_forall _ _) (rts_unit k) z Hz) as U. destruct (ev_at_root f z EV U) as [-> ->]. apply para. now apply usqrt_unit.
Qed.

(** * The tree of a real positive diagonal *)
Section Means.
Variable D : CR -> R.
Definition amean (z : CR) : R := (D (usqrt z) + D (ropp (usqrt z))) / 2.
Definition hmean (z : CR) : R := D (usqrt z) * D (ropp (usqrt z)) / amean z.
(** the off-diagonal entry of the 2 x 2 matrix of multiplication by D *)
Definition off (z : CR) : CR := inj ((D (usqrt z) - D (ropp (usqrt z))) / 2) *c conj (usqrt z).
Definition lten (z : CR) : CR := rcdiv (conj (off z)) (inj (amean z)).
End Means.
Definition r0 : CR := usqrt (-1, 0).
Fixpoint dtree (k : nat) (D : CR -> R) : tree (T := R) :=
  match k with
  | O => Leaf (inj (D r0))
  | S k' => Node (map (lten D) (rts (S k'))) (dtree k' (amean D)) (dtree k' (hmean D))
  end.
Definition agree (k : nat) (D E : CR -> R) : Prop := forall z, In z (rts k) -> D z = E z.
Lemma rts_S k z : In z (rts k) -> In (usqrt z) (rts (S k)) /\ In (ropp (usqrt z)) (rts (S k)).
Proof. intros H. cbn [rts]. split; apply in_flat_map; exists z; (split; [exact H|]); [now left|right; now left]. Qed.
Lemma agree_mean k D E : agree (S k) D E -> agree k (amean D) (amean E) /\ agree k (hmean D) (hmean E).
Proof.
  intros H. assert (A : agree k (amean D) (amean E)). { intros z Hz. destruct (rts_S k z Hz). unfold amean. now rewrite !H by assumption. }
  split; [exact A|]. intros z Hz. unfold hmean. rewrite A by exact Hz. destruct (rts_S k z Hz). now rewrite !H by assumption.
Qed.
Lemma dtree_ext k D E : agree (S k) D E -> dtree k D = dtree k E.
Proof.
  revert D E. induction k as [|k IH]; intros D E H; cbn [dtree].
  - rewrite (H r0); [reflexivity|]. apply (rts_S 0). now left.
  - destruct (agree_mean (S k) D E H) as [A B]. rewrite (IH _ _ A), (IH _ _ B). f_equal. apply map_ext_in. intros z Hz. unfold lten, off. rewrite A by exact Hz.
    destruct (rts_S (S k) z Hz). now rewrite !H by assumption.
Qed.
Definition pos (k : nat) (D : CR -> R) : Prop := forall z, In z (rts k) -> 0 < D z.
Definition sym (k : nat) (D : CR -> R) : Prop := forall z, In z (rts k) -> D (conj z) = D z.
Lemma pos_mean k D : pos (S k) D -> pos k (amean D) /\ pos k (hmean D).
Proof.
  intros H. assert (A : pos k (amean D)). { intros z Hz. destruct (rts_S k z Hz) as [H1 H2]. apply H in H1. apply H in H2. unfold amean. lra. }
  split; [exact A|]. intros z Hz. specialize (A z Hz). destruct (rts_S k z Hz) as [H1 H2]. apply H in H1. apply H in H2. unfold hmean. apply Rdiv_lt_0_compat; [|exact A]. nra.
Qed.
Lemma sym_mean k D : sym (S (S k)) D -> sym (S k) (amean D) /\ sym (S k) (hmean D).
Proof.
  intros H. assert (A : sym (S k) (amean D)).
  { intros z Hz. unfold amean. rewrite (usqrt_conj z (root_nonreal k z Hz)), ropp_conj. destruct (rts_S (S k) z Hz). now rewrite !H by assumption. }
  split; [exact A|]. intros z Hz. unfold hmean. rewrite (A z Hz), (usqrt_conj z (root_nonreal k z Hz)), ropp_conj. destruct (rts_S (S k) z Hz). now rewrite !H by assumption.
Qed.

(** * ffldl_fft builds it *)
Lemma rcdiv_inj x a : rcdiv x (inj a) = (fst x / a, snd x / a) \/ a = 0.
Proof.
  destruct (Req_dec a 0) as [E|E]; [now right|left]. destruct x as [p r]. unfold rcdiv, inj. cbn [fst snd]. apply injective_projections; cbn [fst snd]; field; auto.
Qed.
Lemma ldl_map (l : list CR) F00 F01 F10 F11 :
  ldl_fft RN (map F00 l) F01 (map F10 l) (map F11 l) =
  Ok (map (fun z => rcdiv (F10 z) (F00 z)) l, map F00 l, map (fun z => F11 z -c rcdiv (F10 z) (F00 z) *c conj (rcdiv (F10 z) (F00 z)) *c F00 z) l).
Proof.
  unfold ldl_fft, div_fft, mul_fft, sub_fft, add_fft, adj_fft, pairwise. rewrite !map_length, Nat.eqb_refl. cbn [bind].
  rewrite combine_map. rewrite !map_map, !map_length, Nat.leb_refl. cbn [bind]. rewrite combine_map, map_length. rewrite Nat.leb_refl. cbn [bind].
  rewrite combine_map, !map_map, !map_length, Nat.eqb_refl. cbn [bind]. rewrite combine_map. reflexivity.
Qed.
Lemma split_map k F : split_fft (map F (rts (S k))) =
  (map (fun z => chalf (F (usqrt z) +c F (ropp (usqrt z)))) (rts k), map (fun z => chalf (F (usqrt z) -c F (ropp (usqrt z))) *c conj (usqrt z)) (rts k)).
Proof.
  unfold FftModel.split_fft. rewrite map_length, rts_length. unfold xroots. rewrite log2_pow, rts_evens.
  assert (E : map F (rts (S k)) = flat_map (fun z => [F (usqrt z); F (ropp (usqrt z))]) (rts k)).
  { cbn [rts]. induction (rts k) as [|z l IH]; [reflexivity|]. cbn [flat_map app map]. now rewrite IH. }
  rewrite E. destruct (flat_map_pair (fun z => F (usqrt z)) (fun z => F (ropp (usqrt z))) (rts k)) as [-> ->]. now rewrite combine_map, combine_map3.
Qed.
Lemma chalf_inj_add x y : chalf (inj x +c inj y) = inj ((x + y) / 2).
Proof. unfold FftModel.chalf, inj, FftModel.cadd. cbn [fst snd RN nadd nhalf]. apply injective_projections; cbn [fst snd]; field. Qed.
Lemma chalf_inj_sub x y : chalf (inj x -c inj y) = inj ((x - y) / 2).
Proof. unfold FftModel.chalf, inj, FftModel.csub. cbn [fst snd RN nsub nhalf]. apply injective_projections; cbn [fst snd]; field. Qed.
Lemma split_real k D : split_fft (map (fun z => inj (D z)) (rts (S k))) = (map (fun z => inj (amean D z)) (rts k), map (off D) (rts k)).
Proof. rewrite split_map. f_equal; apply map_ext; intros z; unfold off; now rewrite ?chalf_inj_add, ?chalf_inj_sub. Qed.
(** Schur complement *)
Lemma schur a e x : a <> 0 -> inj e -c rcdiv (conj x) (inj a) *c conj (rcdiv (conj x) (inj a)) *c inj a = inj ((a * e - cabs2 x) / a).
Proof.
  intros Ha. destruct (rcdiv_inj (conj x) a) as [->|]; [|contradiction]. destruct x as [p r]. unfold FftModel.conj, FftModel.cmul, FftModel.csub, inj, cabs2. cbn [fst snd RN nadd nsub nmul nopp].
  apply injective_projections; cbn [fst snd]; field; auto.
Qed.
Lemma off_det D z : unit z -> amean D z * amean D z - cabs2 (off D z) = D (usqrt z) * D (ropp (usqrt z)).
Proof.
  intros U. pose proof (usqrt_unit z U) as W. unfold off. rewrite cabs2_mul. assert (E : cabs2 (conj (usqrt z)) = 1).
  { unfold cabs2, FftModel.conj. cbn [fst snd RN nopp]. unfold unit in W. nra. }
  rewrite E. unfold amean, cabs2, inj. cbn [fst snd]. field.
Qed.
Theorem ffldl_dtree k : forall fuel d e (F01 : list CR) off01, (S k <= fuel)%nat -> pos (S k) d -> (forall z, In z (rts (S k)) -> 0 < d z * e z - cabs2 (off01 z)) ->
  ffldl_fft RN xroots fuel (map (fun z => inj (d z)) (rts (S k))) F01 (map (fun z => conj (off01 z)) (rts (S k))) (map (fun z => inj (e z)) (rts (S k))) =
  Ok (Node (map (fun z => rcdiv (conj (off01 z)) (inj (d z))) (rts (S k))) (dtree k d) (dtree k (fun z => (d z * e z - cabs2 (off01 z)) / d z))).
Proof.
  induction k as [|k IH]; intros [|fuel] d e F01 o Hf Pd Pe; try lia; cbn [ffldl_fft]; rewrite ldl_map; cbn [bind].
  - rewrite map_length, rts_length. change ((2 <? 2 ^ 1)%nat) with false. cbn iota. change (rts 1) with [r0; ropp r0]. cbn [map]. cbn [dtree].
    rewrite schur; [reflexivity|]. specialize (Pd r0 (proj1 (rts_S 0 (-1, 0) (or_introl eq_refl)))). lra.
  - rewrite map_length, rts_length, (proj2 (Nat.ltb_lt _ _) (pow_gt2 k)).
    rewrite (map_ext_in (fun z => inj (e z) -c rcdiv (conj (o z)) (inj (d z)) *c conj (rcdiv (conj (o z)) (inj (d z))) *c inj (d z)) (fun z => inj ((d z * e z - cabs2 (o z)) / d z)) (rts (S (S k)))) by (intros z Hz; apply schur; specialize (Pd z Hz); lra).
    rewrite !split_real. set (d' := fun z => (d z * e z - cabs2 (o z)) / d z).
    assert (Pd' : pos (S (S k)) d') by (intros z Hz; apply Rdiv_lt_0_compat; auto).
    assert (G : forall D, pos (S (S k)) D -> ffldl_fft RN xroots fuel (map (fun z => inj (amean D z)) (rts (S k))) (map (off D) (rts (S k))) (adj_fft RN (map (off D) (rts (S k)))) (map (fun z => inj (amean D z)) (rts (S k))) = Ok (dtree (S k) D)).
    { intros D PD. unfold adj_fft. rewrite map_map. destruct (pos_mean (S k) D PD) as [PA _].
      assert (OD : forall z, In z (rts (S k)) -> amean D z * amean D z - cabs2 (off D z) = D (usqrt z) * D (ropp (usqrt z))).
      { intros z Hz. apply off_det. exact (proj1 (Forall_forall _ _) (rts_unit (S k)) z Hz). }
      rewrite (IH fuel (amean D) (amean D) _ (off D)); [|lia|exact PA|].
      - cbn [dtree]. do 2 f_equal. apply dtree_ext. intros z Hz. unfold hmean. now rewrite OD.
      - intros z Hz. rewrite OD by exact Hz. destruct (rts_S (S k) z Hz) as [H1 H2]. apply PD in H1. apply PD in H2. nra. }
    rewrite (G d Pd). cbn [bind]. change (map (fun z => inj (amean (fun x => (d x * e x - cabs2 (o x)) / d x) z)) (rts (S k))) with (map (fun z => inj (amean d' z)) (rts (S k))).
    change (off (fun z => (d z * e z - cabs2 (o z)) / d z)) with (off d'). rewrite (G d' Pd'). reflexivity.
Qed.

(** * The leaves lie between the harmonic and the arithmetic mean *)
Lemma amean_sum k D : lsum (amean D) (rts k) = lsum D (rts (S k)) / 2.
Proof. rewrite lsum_rts. unfold amean. rewrite (lsum_ext _ (fun z => / 2 * (D (usqrt z) + D (ropp (usqrt z))))) by (intros; field). rewrite lsum_scal. field. Qed.
Lemma hmean_le k D z : pos (S k) D -> In z (rts k) -> 0 < hmean D z <= amean D z.
Proof.
  intros P Hz. destruct (pos_mean k D P) as [A H]. specialize (A z Hz). specialize (H z Hz). split; [exact H|]. destruct (rts_S k z Hz) as [H1 H2]. apply P in H1. apply P in H2.
  unfold hmean. apply Rmult_le_reg_r with (amean D z); [exact A|]. unfold Rdiv. rewrite Rmult_assoc, Rinv_l by lra. rewrite Rmult_1_r. unfold amean. pose proof (Rle_0_sqr (D (usqrt z) - D (ropp (usqrt z)))) as Q. unfold Rsqr in Q. lra.
Qed.
Lemma inv_hmean k D z : pos (S k) D -> In z (rts k) -> / hmean D z = (/ D (usqrt z) + / D (ropp (usqrt z))) / 2.
Proof.
  intros P Hz. destruct (rts_S k z Hz) as [H1 H2]. apply P in H1. apply P in H2. unfold hmean, amean. field. repeat split; lra.
Qed.
Lemma dtree_leaves k : forall D, pos (S k) D -> sym (S k) D ->
  Forall (fun x => snd x = 0 /\ 0 < fst x /\ fst x <= lsum D (rts (S k)) / 2 ^ S k /\ / fst x <= lsum (fun z => / D z) (rts (S k)) / 2 ^ S k) (leaves (dtree k D)).
Proof.
  induction k as [|k IH]; intros D P Sy; cbn [dtree leaves].
  - assert (R0 : In r0 (rts 1)) by (apply (rts_S 0); now left). specialize (Sy r0 R0). specialize (P r0 R0).
    assert (E : conj r0 = ropp r0).
    { unfold r0, usqrt, FftModel.conj, ropp. cbn [fst snd RN nopp]. replace ((1 + -1) / 2) with 0 by lra. rewrite sqrt_0. f_equal; ring. }
    constructor; [|constructor]. cbn [fst snd inj]. change (rts 1) with [r0; ropp r0]. rewrite <- E. cbn [lsum]. rewrite Sy. cbn [pow]. repeat split; try lra.
  - destruct (pos_mean _ D P) as [PA PH]. destruct (sym_mean _ D Sy) as [SA SH]. specialize (IH) as IH'.
    assert (Q : 0 < 2 ^ S k) by (apply pow_lt; lra). assert (Q2 : 2 ^ S (S k) = 2 * 2 ^ S k) by reflexivity.
    assert (HI : lsum (fun z => / hmean D z) (rts (S k)) = lsum (fun z => / D z) (rts (S (S k))) / 2).
    { rewrite (lsum_rts (S k)), (lsum_ext (fun z => / hmean D z) (fun z => / 2 * (/ D (usqrt z) + / D (ropp (usqrt z))))).
      - rewrite lsum_scal. unfold Rdiv. ring.
      - intros z Hz. rewrite (inv_hmean (S k)) by assumption. unfold Rdiv. ring. }
    apply Forall_app. split; eapply Forall_impl; try (apply IH; eassumption); cbn beta; intros x (X1 & X2 & X3 & X4); repeat split; auto.
    + rewrite amean_sum in X3. rewrite Q2. eapply Rle_trans; [exact X3|]. right. field. lra.
    + eapply Rle_trans; [exact X4|]. rewrite Q2. apply Rle_trans with (lsum (fun z => / hmean D z) (rts (S k)) / 2 ^ S k).
      * unfold Rdiv. apply Rmult_le_compat_r; [left; now apply Rinv_0_lt_compat|]. apply lsum_le. intros z Hz. destruct (hmean_le (S k) D z P Hz). now apply Rinv_le_contravar.
      * rewrite HI. right. field. lra.
    + eapply Rle_trans; [exact X3|]. rewrite Q2. apply Rle_trans with (lsum (amean D) (rts (S k)) / 2 ^ S k).
      * unfold Rdiv. apply Rmult_le_compat_r; [left; now apply Rinv_0_lt_compat|]. apply lsum_le. intros z Hz. now destruct (hmean_le (S k) D z P Hz).
      * rewrite amean_sum. right. field. lra.
    + rewrite HI in X4. rewrite Q2. eapply Rle_trans; [exact X4|]. right. field. lra.
Qed.
