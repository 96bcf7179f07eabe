(** ffnp and ffnp_fft in exact arithmetic: the two formats agree, and the result is close to the target. *)
From Coq Require Import Reals Lra Lia.
From Verif Require Import Base RingSpec FalconSpec FftModel FftSpec FftProofs FftAlg FftTree FftSample FftKey FftGs FfnpModel.
Import List.
Open Scope R_scope.

Notation ffnp_r := (ffnp RN xroots). Notation ffnpf := (ffnp_fft RN xroots). Notation ct := (ctree (T := R)).
(** trees of the two formats *)
Fixpoint crel (k : nat) (c : ct) (t : tree (T := R)) : Prop :=
  match k, c, t with
  | O, CLeaf x, Leaf y => x = [fst y; 0] /\ snd y = 0
  | S k', CNode l a b, Node m u v => length l = (2 ^ S k')%nat /\ m = rep (S k') l /\ crel k' a u /\ crel k' b v
  | _, _, _ => False
  end.
Lemma zr_merge (a b : list Z) : length a = length b -> zr (merge a b) = merge (zr a) (zr b).
Proof. revert b. induction a as [|x a IH]; intros [|y b] L; try discriminate L; [reflexivity|]. cbn [merge map]. now rewrite IH by (cbn in L; lia). Qed.
Lemma pow1 k : (1 <? 2 ^ S k)%nat = true.
Proof. apply Nat.ltb_lt. rewrite Nat.pow_succ_r'. pose proof (Nat.pow_nonzero 2 k ltac:(lia)). lia. Qed.
Lemma sub_mul_add k f0 f1 m l : length f0 = (2 ^ S k)%nat -> length f1 = (2 ^ S k)%nat -> length m = (2 ^ S k)%nat -> length l = (2 ^ S k)%nat ->
  let f0b := radd f0 (rnegmul (2 ^ S k) (radd f1 (map Ropp m)) l) in length f0b = (2 ^ S k)%nat /\
  (let! x := sub_fft RN (rep (S k) f1) (rep (S k) m) in let! x0 := mul_fft RN x (rep (S k) l) in add_fft RN (rep (S k) f0) x0) = Ok (rep (S k) f0b) /\
  (let! x := subc RN f1 m in let! x0 := mul RN xroots x l in add RN f0 x0) = Ok f0b.
Proof.
  intros L0 L1 Lm Ll f0b. assert (LS : length (radd f1 (map Ropp m)) = (2 ^ S k)%nat) by (rewrite radd_length; rewrite ?map_length; congruence). split; [|split].
  - unfold f0b. rewrite radd_length; rewrite ?rnegmul_length; congruence.
  - unfold sub_fft, add_fft at 1. rewrite map_length, !rep_length, Nat.eqb_refl. cbn [bind]. rewrite rep_sub by congruence. unfold mul_fft. rewrite !rep_length, Nat.leb_refl. cbn [bind].
    rewrite rep_mul by assumption. unfold add_fft. rewrite !rep_length, Nat.eqb_refl. f_equal. apply rep_add. now rewrite rnegmul_length.
  - unfold subc, add at 1. cbn [RN nopp nadd]. rewrite map_length, L1, Lm, Nat.eqb_refl. cbn [bind]. fold (radd f1 (map Ropp m)).
    rewrite (mul_exact (S k)) by (auto; lia). cbn [bind]. unfold add. rewrite rnegmul_length, L0, Nat.eqb_refl. reflexivity.
Qed.
(** the two formats round to the same integers, without exception *)
Theorem formats_agree : forall k c t f0 f1, crel k c t -> length f0 = (2 ^ k)%nat -> length f1 = (2 ^ k)%nat ->
  exists p0 p1, length p0 = (2 ^ k)%nat /\ length p1 = (2 ^ k)%nat /\ ffnp_r c f0 f1 = Ok (p0, p1) /\ ffnpf t (rep k f0) (rep k f1) = Ok (rep k (zr p0), rep k (zr p1)).
Proof.
  induction k as [|k IH]; intros c t f0 f1 R L0 L1.
  - destruct (len1 f0 L0) as [a ->], (len1 f1 L1) as [b ->]. exists [rround a], [rround b]. rewrite !rep0. cbn [map]. rewrite !rep0.
    destruct c, t; cbn [crel] in R; try contradiction. split; [reflexivity|]. split; [reflexivity|]. split; reflexivity.
  - destruct c as [|l ca cb], t as [|m ta tb]; cbn [crel] in R; try contradiction. destruct R as (Ll & -> & Ra & Rb).
    destruct (len2 f1 k L1) as [L1e L1o]. destruct (IH cb tb _ _ Rb L1e L1o) as (p0 & p1 & Q0 & Q1 & E & EF).
    assert (Lz : length (zr (merge p0 p1)) = (2 ^ S k)%nat) by (rewrite map_length, merge_length, Q0, Nat.pow_succ_r' by congruence; lia).
    destruct (sub_mul_add k f0 f1 (zr (merge p0 p1)) l L0 L1 Lz Ll) as (Lb & Ef & Ec). set (f0b := radd f0 _) in *.
    destruct (len2 f0b k Lb) as [L0e L0o]. destruct (IH ca ta _ _ Ra L0e L0o) as (r0 & r1 & S0 & S1 & G & GF).
    exists (merge r0 r1), (merge p0 p1). split; [rewrite merge_length, S0, Nat.pow_succ_r' by congruence; lia|]. split; [rewrite <- Lz; now rewrite map_length|]. split.
    + cbn [ffnp]. rewrite L0, pow1, E. cbn [bind]. change (map (nofZ RN)) with (map IZR).
      change (bind (subc RN f1 (zr (merge p0 p1))) (fun x => bind (mul RN xroots x l) (fun x0 => bind (add RN f0 x0) (fun t0b => bind (ffnp RN xroots ca (evens t0b) (odds t0b)) (fun '(a, b) => Ok (merge a b, merge p0 p1))))) = Ok (merge r0 r1, merge p0 p1)).
      revert Ec. destruct (subc RN f1 (zr (merge p0 p1))) as [x|]; cbn [bind]; [|discriminate]. destruct (mul RN xroots x l) as [y|]; cbn [bind]; [|discriminate]. intros Ec. rewrite Ec. cbn [bind]. rewrite G. reflexivity.
    + cbn [ffnp_fft]. rewrite rep_length, pow1, (split_rep k f1 L1), EF. cbn [bind]. rewrite merge_rep by (rewrite !map_length; congruence). rewrite <- zr_merge by congruence.
      revert Ef. destruct (sub_fft RN (rep (S k) f1) (rep (S k) (zr (merge p0 p1)))) as [x|]; cbn [bind]; [|discriminate]. destruct (mul_fft RN x (rep (S k) l)) as [y|]; cbn [bind]; [|discriminate].
      intros Ef. rewrite Ef. cbn [bind]. rewrite (split_rep k f0b Lb), GF. cbn [bind]. rewrite merge_rep by (rewrite !map_length; congruence). now rewrite <- zr_merge by congruence.
Qed.
(** ffnp_fft is ffsampling_fft with samplerz replaced by rounding, whatever the normalisation of the tree *)
Lemma ffnp_sampling : forall t k sigma t0 t1 (s : Datatypes.unit), shape k t -> length t0 = (2 ^ k)%nat -> length t1 = (2 ^ k)%nat ->
  match ffnpf t t0 t1 with
  | Ok (z0, z1) => ffsampling Datatypes.unit (fun mu _ s => Some (rround mu, s)) (normalize_tree RN sigma t) t0 t1 s = Some (Ok (z0, z1, s))
  | Raise _ => True
  end.
Proof.
  induction t as [x|l ta IHa tb IHb]; intros k sigma t0 t1 s W L0 L1; cbn [normalize_tree ffsampling_fft].
  - destruct k; [|contradiction]. destruct (len1 t0 L0) as [a ->], (len1 t1 L1) as [b ->]. cbn. reflexivity.
  - destruct k as [|k]; [contradiction|]. destruct W as (Ll & Wa & Wb). cbn [ffnp_fft]. rewrite L0, pow1.
    destruct (split_length k t1 L1) as [Lu Lv]. destruct (split_fft t1) as [u v]. cbn [fst snd] in Lu, Lv. pose proof (IHb k sigma u v s Wb Lu Lv) as Hb.
    destruct (ffnpf tb u v) as [[a b]|]; cbn [bind]; [|exact I]. rewrite Hb. pose proof (ffs_int _ _ k u v s a b s Lu Lv Hb) as (p0 & p1 & Q0 & Q1 & -> & ->). rewrite merge_rep by (rewrite !map_length; congruence).
    destruct (sub_fft RN t1 _) as [x|] eqn:Ex; cbn [bind]; [|exact I]. destruct (mul_fft RN x l) as [y|] eqn:Ey; cbn [bind]; [|exact I].
    destruct (add_fft RN t0 y) as [t0b|] eqn:Et; cbn [bind]; [|exact I].
    assert (Lt : length t0b = (2 ^ S k)%nat).
    { unfold add_fft in Et. destruct (length t0 =? length y)%nat eqn:El; [|discriminate]. apply Nat.eqb_eq in El. injection Et as <-. unfold pairwise. rewrite map_length, combine_length, <- El. lia. }
    destruct (split_length k t0b Lt) as [Lu' Lv']. destruct (split_fft t0b) as [u' v']. cbn [fst snd] in Lu', Lv'. pose proof (IHa k sigma u' v' s Wa Lu' Lv') as Ha.
    destruct (ffnpf ta u' v') as [[a' b']|]; cbn [bind]; [|exact I]. now rewrite Ha.
Qed.

(** * The coefficient-format tree *)
Lemma rep_ev k f F : rep k f = map F (rts k) -> forall z, In z (rts k) -> ev f z = F z.
Proof. intros E z Hz. unfold rep in E. apply (ext_in_map E z Hz). Qed.
Lemma ev_rep k f F : (forall z, In z (rts k) -> ev f z = F z) -> rep k f = map F (rts k).
Proof. intros H. unfold rep. apply map_ext_in. exact H. Qed.
Lemma root_pow k z : In z (rts k) -> cpow z (2 ^ k) = copp c1. Proof. exact (proj1 (Forall_forall _ _) (rts_root k) z). Qed.
Lemma unit_of k z : In z (rts k) -> unit z. Proof. exact (proj1 (Forall_forall _ _) (rts_unit k) z). Qed.
Lemma ldl_exact k g00 g10 g11 d e o : length g00 = (2 ^ S k)%nat -> length g10 = (2 ^ S k)%nat -> length g11 = (2 ^ S k)%nat -> pos (S k) d ->
  rep (S k) g00 = map (fun z => inj (d z)) (rts (S k)) -> rep (S k) g10 = map (fun z => conj (o z)) (rts (S k)) -> rep (S k) g11 = map (fun z => inj (e z)) (rts (S k)) ->
  exists l d1, ldl RN xroots g00 g10 g11 = Ok (l, g00, d1) /\ length l = (2 ^ S k)%nat /\ length d1 = (2 ^ S k)%nat /\
    rep (S k) l = map (fun z => rcdiv (conj (o z)) (inj (d z))) (rts (S k)) /\ rep (S k) d1 = map (fun z => inj ((d z * e z - cabs2 (o z)) / d z)) (rts (S k)).
Proof.
  intros L00 L10 L11 Pd R00 R10 R11. assert (Hk : (1 <= S k)%nat) by lia.
  assert (NZ : forall z, In z (rts (S k)) -> ev g00 z <> c0).
  { intros z Hz E. rewrite (rep_ev _ _ _ R00 z Hz) in E. assert (E1 : d z = 0) by exact (f_equal fst E). specialize (Pd z Hz). lra. }
  destruct (div_exact (S k) g10 g00 Hk L10 L00 NZ) as (l & El & Ll & Ml).
  assert (Ev : forall z, In z (rts (S k)) -> ev l z = rcdiv (conj (o z)) (inj (d z))).
  { intros z Hz. assert (M : ev l z *c ev g00 z = ev g10 z) by (rewrite <- ev_negmul with (n := (2 ^ S k)%nat); auto using root_pow; now rewrite Ml).
    rewrite (rep_ev _ _ _ R00 z Hz), (rep_ev _ _ _ R10 z Hz) in M. rewrite <- M. pose proof (Pd z Hz) as P.
    destruct (rcdiv_inj (ev l z *c inj (d z)) (d z)) as [->|]; [|lra]. destruct (ev l z) as [x y]. unfold FftModel.cmul, inj. cbn [fst snd RN nadd nsub nmul]. f_equal; field; lra. }
  set (x := rnegmul (2 ^ S k) (rnegmul (2 ^ S k) l (radj l)) g00). exists l, (radd g11 (map Ropp x)).
  assert (Lx : length x = (2 ^ S k)%nat) by apply rnegmul_length. split; [|split; [exact Ll|split; [rewrite radd_length; rewrite ?map_length; congruence|split]]].
  - unfold ldl. rewrite El. cbn [bind]. rewrite (adj_exact (S k)) by assumption. cbn [bind]. rewrite (mul_exact (S k)) by (rewrite ?radj_length; assumption). cbn [bind].
    rewrite (mul_exact (S k)) by (rewrite ?rnegmul_length; auto). cbn [bind]. unfold subc, add. cbn [RN nopp nadd]. fold x. rewrite map_length, Lx, L11, Nat.eqb_refl. reflexivity.
  - apply ev_rep. exact Ev.
  - apply ev_rep. intros z Hz. rewrite ev_sub by congruence. unfold x. rewrite ev_negmul by (rewrite ?rnegmul_length; auto using root_pow).
    rewrite ev_negmul by (rewrite ?radj_length; auto using root_pow). rewrite (ev_adj (2 ^ S k)) by (eauto using root_pow, unit_of). rewrite (Ev z Hz), (rep_ev _ _ _ R00 z Hz), (rep_ev _ _ _ R11 z Hz).
    apply schur. specialize (Pd z Hz). lra.
Qed.
(** a polynomial of two coefficients whose values are real is constant *)
Lemma real_const a b D : rep 1 [a; b] = map (fun z => inj (D z)) (rts 1) -> inj (D r0) = inj a.
Proof.
  intros E. assert (R0 : In r0 (rts 1)) by (apply (rts_S 0); now left). pose proof (rep_ev _ _ _ E r0 R0) as E0.
  assert (Q : r0 = (0, 1)).
  { unfold r0, usqrt. cbn [fst snd]. replace ((1 + -1) / 2) with 0 by lra. replace ((1 - -1) / 2) with 1 by lra. rewrite sqrt_0, sqrt_1. destruct (Rle_dec 0 0); [reflexivity|lra]. }
  rewrite <- E0, Q. pose proof (f_equal snd E0) as S0. rewrite Q in S0. unfold inj in *. cbn [ev cmulx fst snd] in *. unfold cmulx in *. cbn [fst snd] in *. f_equal; lra.
Qed.
Lemma two {A} (l : list A) : length l = 2%nat -> exists a b, l = [a; b]. Proof. destruct l as [|a [|b [|]]]; try discriminate. eauto. Qed.
Theorem ffldl_crel k : forall fuel g00 g10 g11 d e o, (S k <= fuel)%nat -> length g00 = (2 ^ S k)%nat -> length g10 = (2 ^ S k)%nat -> length g11 = (2 ^ S k)%nat -> pos (S k) d ->
  (forall z, In z (rts (S k)) -> 0 < d z * e z - cabs2 (o z)) ->
  rep (S k) g00 = map (fun z => inj (d z)) (rts (S k)) -> rep (S k) g10 = map (fun z => conj (o z)) (rts (S k)) -> rep (S k) g11 = map (fun z => inj (e z)) (rts (S k)) ->
  exists c, ffldl RN xroots fuel g00 g10 g11 = Ok c /\
    crel (S k) c (Node (map (fun z => rcdiv (conj (o z)) (inj (d z))) (rts (S k))) (dtree k d) (dtree k (fun z => (d z * e z - cabs2 (o z)) / d z))).
Proof.
  induction k as [|k IH]; intros [|fuel] g00 g10 g11 d e o Hf L00 L10 L11 Pd Pe R00 R10 R11; try lia; cbn [ffldl];
    destruct (ldl_exact _ g00 g10 g11 d e o L00 L10 L11 Pd R00 R10 R11) as (l & d1 & -> & Ll & Ld & Rl & Rd); cbn [bind].
  - rewrite L00. change ((2 <? 2 ^ 1)%nat) with false. cbn iota. destruct (two g00 L00) as (a & a' & ->). destruct (two d1 Ld) as (b & b' & ->). eexists. split; [reflexivity|].
    cbn [crel dtree]. rewrite (real_const _ _ _ R00), (real_const _ _ (fun z => (d z * e z - cabs2 (o z)) / d z) Rd). unfold inj. cbn [fst snd RN nofZ]. auto.
  - rewrite L00, (proj2 (Nat.ltb_lt _ _) (pow_gt2 k)). set (d' := fun z => (d z * e z - cabs2 (o z)) / d z) in *.
    assert (Pd' : pos (S (S k)) d') by (intros z Hz; apply Rdiv_lt_0_compat; auto).
    assert (G : forall D g, pos (S (S k)) D -> length g = (2 ^ S (S k))%nat -> rep (S (S k)) g = map (fun z => inj (D z)) (rts (S (S k))) ->
      exists a c, adj RN xroots (odds g) = Ok a /\ ffldl RN xroots fuel (evens g) a (evens g) = Ok c /\ crel (S k) c (dtree (S k) D)).
    { intros D g PD Lg Rg. destruct (len2 g (S k) Lg) as [Le Lo]. pose proof (split_rep (S k) g Lg) as SR. rewrite Rg, split_real in SR.
      assert (RE : rep (S k) (evens g) = map (fun z => inj (amean D z)) (rts (S k))) by congruence. assert (RO : rep (S k) (odds g) = map (off D) (rts (S k))) by congruence.
      exists (radj (odds g)). destruct (pos_mean (S k) D PD) as [PA _].
      assert (OD : forall z, In z (rts (S k)) -> amean D z * amean D z - cabs2 (off D z) = D (usqrt z) * D (ropp (usqrt z))) by (intros z Hz; apply off_det; eauto using unit_of).
      destruct (IH fuel (evens g) (radj (odds g)) (evens g) (amean D) (amean D) (off D)) as (c & Ec & Rc); auto; try lia.
      - now rewrite radj_length.
      - intros z Hz. rewrite OD by exact Hz. destruct (rts_S (S k) z Hz) as [H1 H2]. apply PD in H1. apply PD in H2. nra.
      - rewrite <- rep_adj by exact Lo. now rewrite RO, map_map.
      - exists c. split; [apply (adj_exact (S k)); auto; lia|]. split; [exact Ec|]. cbn [dtree] in *. erewrite (dtree_ext k (hmean D)); [exact Rc|]. intros z Hz. unfold hmean. now rewrite OD. }
    destruct (G d g00 Pd L00 R00) as (a0 & c0 & -> & E0 & C0). cbn [bind]. destruct (G d' d1 Pd' Ld Rd) as (a1 & c1' & -> & E1 & C1). cbn [bind]. rewrite E0. cbn [bind]. rewrite E1. cbn [bind].
    eexists. split; [reflexivity|]. cbn [crel]. split; [exact Ll|]. split; [now rewrite Rl|]. split; [exact C0|exact C1].
Qed.
