(** ffsampling_fft, the key tree and sample_preimage in exact arithmetic. *)
From Coq Require Import Reals Lra Lia.
From Verif Require Import Base RingSpec FalconSpec FftModel FftSpec FftProofs FftAlg FftTree.
Import List.
Open Scope R_scope.

Notation ffsampling := (ffsampling_fft RN xroots).
Lemma rep0 a : rep 0 [a] = [inj a].
Proof. unfold rep, inj. cbn [rts map ev cmulx fst snd]. unfold cmulx. cbn [fst snd]. f_equal. f_equal; ring. Qed.
Lemma len1 {A} (l : list A) : length l = (2 ^ 0)%nat -> exists a, l = [a].
Proof. destruct l as [|a [|]]; try discriminate. eauto. Qed.

Section Sam.
Context {St : Type}.
Variable sam : R -> R -> St -> option (Z * St).

(** whatever the tree, the target and the sampler, what is returned represents integer polynomials *)
Theorem ffs_int : forall t k t0 t1 s z0 z1 s', length t0 = (2 ^ k)%nat -> length t1 = (2 ^ k)%nat ->
  ffsampling St sam t t0 t1 s = Some (Ok (z0, z1, s')) ->
  exists p0 p1, length p0 = (2 ^ k)%nat /\ length p1 = (2 ^ k)%nat /\ z0 = rep k (zr p0) /\ z1 = rep k (zr p1).
Proof.
  induction t as [x|l ta IHa tb IHb]; intros k t0 t1 s z0 z1 s' L0 L1 H; cbn [ffsampling_fft] in H.
  - destruct t0 as [|a [|]], t1 as [|b [|]]; try discriminate H. assert (k = 0)%nat.
    { destruct k; [reflexivity|]. cbn [length] in L0. pose proof (Nat.pow_nonzero 2 k ltac:(lia)). rewrite Nat.pow_succ_r' in L0. lia. }
    subst k. destruct (sam (fst a) (fst x) s) as [[y0 s1]|]; [|discriminate]. destruct (sam (fst b) (fst x) s1) as [[y1 s2]|]; [|discriminate].
    injection H as <- <- _. exists [y0], [y1]. cbn [map]. rewrite !rep0. repeat split.
  - destruct (1 <? length t0)%nat eqn:E1; [|discriminate]. apply Nat.ltb_lt in E1. destruct k as [|k]; [cbn in L0; lia|].
    destruct (split_length k t1 L1) as [Lu Lv]. destruct (split_fft t1) as [u v]. cbn [fst snd] in Lu, Lv.
    destruct (ffsampling St sam tb u v s) as [[[[a b] s1]|]|] eqn:Eb; try discriminate.
    destruct (IHb k u v s a b s1 Lu Lv Eb) as (p0 & p1 & Q0 & Q1 & -> & ->). rewrite merge_rep in H by (rewrite !map_length; congruence).
    set (Z1 := rep (S k) (merge (zr p0) (zr p1))) in *.
    assert (LZ : length Z1 = (2 ^ S k)%nat) by (unfold Z1; now rewrite rep_length).
    destruct (let! x := sub_fft RN t1 Z1 in let! x0 := mul_fft RN x l in add_fft RN t0 x0) as [t0b|] eqn:Et; [|discriminate].
    assert (Lt : length t0b = (2 ^ S k)%nat).
    { unfold sub_fft, add_fft at 1, mul_fft in Et. destruct (length t1 =? length (map copp Z1))%nat; [|discriminate]. cbn [bind] in Et.
      destruct (length (pairwise cadd t1 (map copp Z1)) <=? length l)%nat; [|discriminate]. cbn [bind] in Et. unfold add_fft in Et.
      destruct (length t0 =? length _)%nat eqn:El; [|discriminate]. apply Nat.eqb_eq in El. injection Et as <-. unfold pairwise at 1. rewrite map_length, combine_length, <- El. lia. }
    destruct (split_length k t0b Lt) as [Lu' Lv']. destruct (split_fft t0b) as [u' v']. cbn [fst snd] in Lu', Lv'.
    destruct (ffsampling St sam ta u' v' s1) as [[[[a' b'] s2]|]|] eqn:Ea; try discriminate.
    destruct (IHa k u' v' s1 a' b' s2 Lu' Lv' Ea) as (p0' & p1' & Q0' & Q1' & -> & ->). rewrite merge_rep in H by (rewrite !map_length; congruence).
    injection H as <- <- _. exists (merge p0' p1'), (merge p0 p1).
    assert (M : forall a b : list Z, length a = length b -> zr (merge a b) = merge (zr a) (zr b)).
    { intros a b. revert b. induction a as [|x a IH]; intros [|y b] L; try discriminate L; [reflexivity|]. cbn [merge map]. now rewrite IH by (cbn in L; lia). }
    rewrite !M by congruence. rewrite !merge_length by congruence. rewrite Q0, Q0', Nat.pow_succ_r'. repeat split; lia.
Qed.

(** * The norm *)
Notation logged := (logged sam).
Lemma lten_sym k D z : sym (S (S k)) D -> In z (rts (S k)) -> lten D (conj z) = conj (lten D z).
Proof.
  intros Sy Hz. destruct (sym_mean k D Sy) as [SA _]. unfold lten, off. rewrite SA by exact Hz. rewrite (usqrt_conj z (root_nonreal k z Hz)), ropp_conj.
  destruct (rts_S (S k) z Hz) as [H1 H2]. rewrite !Sy by assumption. rewrite conj_cdiv. f_equal.
  - rewrite !conj_mul, !conj_conj. f_equal. unfold inj, FftModel.conj. cbn [fst snd RN nopp]. f_equal; ring.
  - unfold inj, FftModel.conj. cbn [fst snd RN nopp]. f_equal; ring.
Qed.
(** a function commuting with conjugation represents a real polynomial *)
Lemma fun_rep k (F : CR -> CR) : (forall z, In z (rts (S k)) -> F (conj z) = conj (F z)) -> exists l, length l = (2 ^ S k)%nat /\ map F (rts (S k)) = rep (S k) l.
Proof.
  intros H. apply herm_rep; [now rewrite map_length, rts_length|]. destruct (rts_herm k) as [h E]. exists (map F h). rewrite E in *. rewrite map_app. f_equal. rewrite !map_map.
  apply map_ext_in. intros z Hz. apply H. apply in_or_app. now left.
Qed.
(** the identity behind the recursion: completing the square *)
Lemma square_step Dp Dm s e0 e1 : 0 < Dp -> 0 < Dm -> unit s ->
  let a := (Dp + Dm) / 2 in let l := rcdiv (conj (inj ((Dp - Dm) / 2) *c conj s)) (inj a) in
  Dp * cabs2 (e0 +c s *c e1) + Dm * cabs2 (e0 -c s *c e1) = 2 * (a * cabs2 (e0 +c e1 *c l) + Dp * Dm / a * cabs2 e1).
Proof.
  intros Pp Pm U a l. assert (Pa : 0 < a) by (unfold a; lra).
  assert (El : e1 *c l = inj ((Dp - Dm) / 2 / a) *c (s *c e1)).
  { unfold l. destruct (rcdiv_inj (conj (inj ((Dp - Dm) / 2) *c conj s)) a) as [->|]; [|lra]. destruct e1 as [p r], s as [u v].
    unfold FftModel.cmul, FftModel.conj, inj. cbn [fst snd RN nadd nsub nmul nopp]. apply injective_projections; cbn [fst snd]; field; lra. }
  rewrite El. assert (E1 : cabs2 e1 = cabs2 (s *c e1)) by (rewrite cabs2_mul, (cabs2_unit s U); ring). rewrite E1. clear El E1 l.
  destruct (s *c e1) as [p r], e0 as [x y]. unfold cabs2, FftModel.cmul, FftModel.cadd, FftModel.csub, inj. cbn [fst snd RN nadd nsub nmul]. unfold a. field. lra.
Qed.

Lemma rep_sub k f g : length f = length g -> pairwise cadd (rep k f) (map copp (rep k g)) = rep k (radd f (map Ropp g)).
Proof. intros L. rewrite rep_opp. apply rep_add. now rewrite map_length. Qed.
Lemma ev_sub f g x : length f = length g -> ev (radd f (map Ropp g)) x = ev f x -c ev g x.
Proof. intros L. rewrite ev_add by (now rewrite map_length). rewrite ev_opp. ring. Qed.

Definition norm_at (sigma : R) (k : nat) : Prop := forall D f0 f1 s c z0 z1 s' c', pos (S k) D -> sym (S k) D -> length f0 = (2 ^ k)%nat -> length f1 = (2 ^ k)%nat ->
  ffsampling (St * list (R * R * Z)) logged (normalize_tree RN sigma (dtree k D)) (rep k f0) (rep k f1) (s, c) = Some (Ok (z0, z1, (s', c'))) ->
  exists p0 p1, length p0 = (2 ^ k)%nat /\ length p1 = (2 ^ k)%nat /\ z0 = rep k (zr p0) /\ z1 = rep k (zr p1) /\
    lsum (fun z => D z * cabs2 (ev (merge f0 f1) z -c ev (merge (zr p0) (zr p1)) z)) (rts (S k)) = 2 ^ S k * (sigma * sigma) * (lsum dev c' - lsum dev c).
Lemma node_norm sigma k L D0 D1 : norm_at sigma k -> pos (S k) D0 -> sym (S k) D0 -> pos (S k) D1 -> sym (S k) D1 -> (forall z, In z (rts (S k)) -> L (conj z) = conj (L z)) ->
  forall f0 f1 s c z0 z1 s' c', length f0 = (2 ^ S k)%nat -> length f1 = (2 ^ S k)%nat ->
  ffsampling (St * list (R * R * Z)) logged (normalize_tree RN sigma (Node (map L (rts (S k))) (dtree k D0) (dtree k D1))) (rep (S k) f0) (rep (S k) f1) (s, c) = Some (Ok (z0, z1, (s', c'))) ->
  exists p0 p1, length p0 = (2 ^ S k)%nat /\ length p1 = (2 ^ S k)%nat /\ z0 = rep (S k) (zr p0) /\ z1 = rep (S k) (zr p1) /\
    lsum (fun z => D0 z * cabs2 ((ev f0 z -c ev (zr p0) z) +c (ev f1 z -c ev (zr p1) z) *c L z) + D1 z * cabs2 (ev f1 z -c ev (zr p1) z)) (rts (S k)) =
    2 ^ S k * (sigma * sigma) * (lsum dev c' - lsum dev c).
Proof.
  intros IH PA SA PH SH LS f0 f1 s c z0 z1 s' c' L0 L1 H. cbn [normalize_tree ffsampling_fft] in H.
    rewrite rep_length in H. assert (E1 : (1 <? 2 ^ S k)%nat = true) by (apply Nat.ltb_lt; rewrite Nat.pow_succ_r'; pose proof (Nat.pow_nonzero 2 k ltac:(lia)); lia). rewrite E1 in H.
    rewrite (split_rep k f1 L1) in H. destruct (len2 f1 k L1) as [L1e L1o].
    destruct (ffsampling _ logged (normalize_tree RN sigma (dtree k D1)) (rep k (evens f1)) (rep k (odds f1)) (s, c)) as [[[[a b] [s1 c1]]|]|] eqn:Eb; try discriminate.
    destruct (IH _ _ _ _ _ _ _ _ _ PH SH L1e L1o Eb) as (p0 & p1 & Q0 & Q1 & -> & -> & N1). clear Eb.
    rewrite merge_rep in H by (rewrite !map_length; congruence). rewrite merge_split in N1 by (rewrite L1; apply even_2).
    set (m1 := merge (zr p0) (zr p1)) in *. assert (Lm1 : length m1 = (2 ^ S k)%nat) by (unfold m1; rewrite merge_length, map_length, Q0, Nat.pow_succ_r' by (rewrite !map_length; congruence); lia).
    destruct (fun_rep k L LS) as (l & Ll & El). rewrite El in H.
    assert (Et : (let! x := sub_fft RN (rep (S k) f1) (rep (S k) m1) in let! x0 := mul_fft RN x (rep (S k) l) in add_fft RN (rep (S k) f0) x0) =
                 Ok (rep (S k) (radd f0 (rnegmul (2 ^ S k) (radd f1 (map Ropp m1)) l)))).
    { unfold sub_fft, add_fft at 1. rewrite map_length, !rep_length, Nat.eqb_refl. cbn [bind]. rewrite rep_sub by congruence. unfold mul_fft. rewrite !rep_length, Nat.leb_refl. cbn [bind].
      rewrite rep_mul by (auto; rewrite radd_length; rewrite ?map_length; congruence). unfold add_fft. rewrite !rep_length, Nat.eqb_refl. f_equal. apply rep_add. now rewrite rnegmul_length. }
    rewrite Et in H. set (f0b := radd f0 (rnegmul (2 ^ S k) (radd f1 (map Ropp m1)) l)) in *.
    assert (Lb : length f0b = (2 ^ S k)%nat) by (unfold f0b; rewrite radd_length; rewrite ?rnegmul_length; congruence).
    rewrite (split_rep k f0b Lb) in H. destruct (len2 f0b k Lb) as [L0e L0o].
    destruct (ffsampling _ logged (normalize_tree RN sigma (dtree k D0)) (rep k (evens f0b)) (rep k (odds f0b)) (s1, c1)) as [[[[a b] [s2 c2]]|]|] eqn:Ea; try discriminate.
    destruct (IH _ _ _ _ _ _ _ _ _ PA SA L0e L0o Ea) as (p0' & p1' & Q0' & Q1' & -> & -> & N0). clear Ea.
    rewrite merge_rep in H by (rewrite !map_length; congruence). rewrite merge_split in N0 by (rewrite Lb; apply even_2).
    set (m0 := merge (zr p0') (zr p1')) in *. assert (Lm0 : length m0 = (2 ^ S k)%nat) by (unfold m0; rewrite merge_length, map_length, Q0', Nat.pow_succ_r' by (rewrite !map_length; congruence); lia).
    injection H as <- <- _ <-. exists (merge p0' p1'), (merge p0 p1).
    assert (M : forall a b : list Z, length a = length b -> zr (merge a b) = merge (zr a) (zr b)).
    { intros a b. revert b. induction a as [|x a IHM]; intros [|y b] LL; try discriminate LL; [reflexivity|]. cbn [merge map]. now rewrite IHM by (cbn in LL; lia). }
    rewrite !M by congruence. rewrite !merge_length by congruence. fold m0 m1. rewrite Q0, Q0', Nat.pow_succ_r'. split; [lia|]. split; [lia|]. split; [reflexivity|]. split; [reflexivity|].
    rewrite <- (lsum_ext (fun z => D0 z * cabs2 (ev f0b z -c ev m0 z) + D1 z * cabs2 (ev f1 z -c ev m1 z))).
    + rewrite lsum_add, N0, N1. ring.
    + intros z Hz. do 2 f_equal. unfold f0b. rewrite ev_add by (rewrite rnegmul_length; congruence).
      rewrite ev_negmul; [|rewrite radd_length; rewrite ?map_length; congruence|exact Ll|exact (proj1 (Forall_forall _ _) (rts_root (S k)) z Hz)].
      rewrite ev_sub by congruence. replace (ev l z) with (L z); [f_equal; ring|]. unfold rep in El. apply (ext_in_map El z Hz).
Qed.
Theorem ffs_norm sigma : 0 < sigma -> forall k, norm_at sigma k.
Proof.
  intros Psg. induction k as [|k IH]; intros D f0 f1 s c z0 z1 s' c' P Sy L0 L1 H.
  - cbn [dtree normalize_tree ffsampling_fft] in H. destruct (len1 f0 L0) as [a ->], (len1 f1 L1) as [b ->]. rewrite !rep0 in H. unfold logged in H. cbn [fst snd inj RN ndiv nsqrt] in H.
    destruct (sam a (sigma / sqrt (D r0)) s) as [[y0 s1]|]; [|discriminate]. cbn [fst snd] in H. destruct (sam b (sigma / sqrt (D r0)) s1) as [[y1 s2]|]; [|discriminate].
    injection H as <- <- _ <-. exists [y0], [y1]. cbn [map]. rewrite !rep0. split; [reflexivity|]. split; [reflexivity|]. split; [reflexivity|]. split; [reflexivity|].
    assert (R0 : In r0 (rts 1)) by (apply (rts_S 0); now left). specialize (Sy r0 R0). specialize (P r0 R0).
    assert (Q : r0 = (0, 1)).
    { unfold r0, usqrt. cbn [fst snd]. replace ((1 + -1) / 2) with 0 by lra. replace ((1 - -1) / 2) with 1 by lra. rewrite sqrt_0, sqrt_1. destruct (Rle_dec 0 0); [reflexivity|lra]. }
    change (rts 1) with [r0; ropp r0]. assert (E : conj r0 = ropp r0) by (rewrite Q; unfold FftModel.conj, ropp; cbn [fst snd RN nopp]; f_equal; ring).
    rewrite <- E. cbn [lsum]. rewrite Sy. cbn [merge lsum dev].
    set (d := D r0) in *. rewrite Q. unfold FftModel.conj, FftModel.csub, cabs2. cbn [fst snd RN nopp nsub ev cmulx]. unfold cmulx. cbn [fst snd pow].
    assert (Sd : sqrt d * sqrt d = d) by (apply sqrt_sqrt; lra). assert (Ps : 0 < sqrt d) by now apply sqrt_lt_R0.
    replace (((IZR y0 - a) / (sigma / sqrt d)) * ((IZR y0 - a) / (sigma / sqrt d))) with ((IZR y0 - a) * (IZR y0 - a) * (sqrt d * sqrt d) / (sigma * sigma)) by (field; split; lra).
    replace (((IZR y1 - b) / (sigma / sqrt d)) * ((IZR y1 - b) / (sigma / sqrt d))) with ((IZR y1 - b) * (IZR y1 - b) * (sqrt d * sqrt d) / (sigma * sigma)) by (field; split; lra).
    rewrite Sd. field. lra.
  - destruct (pos_mean _ D P) as [PA PH]. destruct (sym_mean _ D Sy) as [SA SH]. cbn [dtree] in H.
    destruct (node_norm sigma k (lten D) (amean D) (hmean D) IH PA SA PH SH (fun z => lten_sym k D z Sy) f0 f1 s c z0 z1 s' c' L0 L1 H) as (p0 & p1 & Q0 & Q1 & E0 & E1 & N).
    exists p0, p1. repeat (split; [assumption|]). rewrite (lsum_rts (S k)). change (2 ^ S (S k)) with (2 * 2 ^ S k).
    transitivity (2 * (2 ^ S k * (sigma * sigma) * (lsum dev c' - lsum dev c))); [|ring]. rewrite <- N, <- lsum_scal. apply lsum_ext.
    intros z Hz. pose proof (proj1 (Forall_forall _ _) (rts_unit (S k)) z Hz) as U. pose proof (usqrt_unit z U) as W.
    assert (LM : forall x y : list R, length x = (2 ^ S k)%nat -> length y = (2 ^ S k)%nat -> Nat.even (length (merge x y)) = true) by (intros x y X Y; rewrite merge_length by congruence; apply even_2).
    assert (R0 : length (zr p0) = (2 ^ S k)%nat) by now rewrite map_length. assert (R1 : length (zr p1) = (2 ^ S k)%nat) by now rewrite map_length.
    destruct (ev_at_root (merge f0 f1) z (LM _ _ L0 L1) U) as [-> ->]. destruct (ev_at_root (merge (zr p0) (zr p1)) z (LM _ _ R0 R1) U) as [-> ->].
    destruct (evens_merge f0 f1 ltac:(congruence)) as [-> ->]. destruct (evens_merge (zr p0) (zr p1) ltac:(congruence)) as [-> ->].
    set (e0 := ev f0 z -c ev (zr p0) z). set (e1 := ev f1 z -c ev (zr p1) z). set (w := usqrt z) in *.
    replace (ev f0 z +c w *c ev f1 z -c (ev (zr p0) z +c w *c ev (zr p1) z)) with (e0 +c w *c e1) by (unfold e0, e1; ring).
    replace (ev f0 z -c w *c ev f1 z -c (ev (zr p0) z -c w *c ev (zr p1) z)) with (e0 -c w *c e1) by (unfold e0, e1; ring).
    destruct (rts_S (S k) z Hz) as [H1 H2]. apply P in H1. apply P in H2.
    exact (square_step (D w) (D (ropp w)) w e0 e1 H1 H2 W).
Qed.
End Sam.
