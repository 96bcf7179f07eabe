(** Keys and preimage sampling in exact arithmetic. *)
From Coq Require Import Reals Lra Lia.
From Verif Require Import Base RingSpec FalconSpec FftModel FftSpec FftProofs FftAlg FftTree FftSample.
From Verif Require ChachaProofs.
Import List.
Open Scope R_scope.

(** * Well-shaped trees do not raise *)
Fixpoint shape (k : nat) (t : tree (T := R)) : Prop :=
  match t, k with
  | Leaf _, O => True
  | Node l a b, S k' => length l = (2 ^ k)%nat /\ shape k' a /\ shape k' b
  | _, _ => False
  end.
Lemma dtree_shape k D : shape k (dtree k D).
Proof. revert D. induction k as [|k IH]; intros D; cbn [dtree shape]; [exact I|]. rewrite map_length, rts_length. auto. Qed.
Lemma normalize_shape k s t : shape k t -> shape k (normalize_tree RN s t).
Proof. revert k. induction t as [x|l a IHa b IHb]; intros [|k] H; cbn [shape normalize_tree] in *; auto; try contradiction. destruct H as (A & B & C). auto. Qed.
Section NoRaise.
Context {St : Type}.
Variable sam : R -> R -> St -> option (Z * St).
Lemma ffs_returns : forall t k t0 t1 s, shape k t -> length t0 = (2 ^ k)%nat -> length t1 = (2 ^ k)%nat ->
  match ffsampling St sam t t0 t1 s with
  | Some (Ok (z0, z1, _)) => True
  | Some (Raise _) => False
  | None => exists mu sg s, sam mu sg s = None
  end.
Proof.
  induction t as [x|l ta IHa tb IHb]; intros k t0 t1 s W L0 L1; cbn [ffsampling_fft].
  - destruct k; [|contradiction]. destruct (len1 t0 L0) as [a ->], (len1 t1 L1) as [b ->].
    destruct (sam (fst a) (fst x) s) as [[y0 s1]|] eqn:E; [|eauto]. destruct (sam (fst b) (fst x) s1) as [[y1 s2]|] eqn:E'; eauto.
  - destruct k as [|k]; [contradiction|]. destruct W as (Ll & Wa & Wb).
    assert (E1 : (1 <? length t0)%nat = true) by (apply Nat.ltb_lt; rewrite L0, Nat.pow_succ_r'; pose proof (Nat.pow_nonzero 2 k ltac:(lia)); lia). rewrite E1.
    destruct (split_length k t1 L1) as [Lu Lv]. destruct (split_fft t1) as [u v]. cbn [fst snd] in Lu, Lv. pose proof (IHb k u v s Wb Lu Lv) as Hb.
    destruct (ffsampling St sam tb u v s) as [[[[a b] s1]|]|] eqn:Eb; auto.
    destruct (ffs_int sam tb k u v s a b s1 Lu Lv Eb) as (p0 & p1 & Q0 & Q1 & -> & ->). rewrite merge_rep by (rewrite !map_length; congruence).
    unfold sub_fft, add_fft at 1, mul_fft. rewrite map_length, rep_length, L1, Nat.eqb_refl. cbn [bind].
    assert (LL : length (pairwise cadd t1 (map copp (rep (S k) (merge (zr p0) (zr p1))))) = (2 ^ S k)%nat) by (unfold pairwise; rewrite map_length, combine_length, map_length, rep_length; lia).
    rewrite LL, Ll, Nat.leb_refl. cbn [bind]. unfold add_fft. rewrite L0.
    assert (LL2 : length (pairwise cmul (pairwise cadd t1 (map copp (rep (S k) (merge (zr p0) (zr p1))))) l) = (2 ^ S k)%nat) by (unfold pairwise at 1; rewrite map_length, combine_length; lia).
    rewrite LL2, Nat.eqb_refl.
    set (t0b := pairwise cadd t0 _). assert (Lt : length t0b = (2 ^ S k)%nat) by (unfold t0b; unfold pairwise at 1; rewrite map_length, combine_length; lia).
    destruct (split_length k t0b Lt) as [Lu' Lv']. destruct (split_fft t0b) as [u' v']. cbn [fst snd] in Lu', Lv'. pose proof (IHa k u' v' s1 Wa Lu' Lv') as Ha.
    destruct (ffsampling St sam ta u' v' s1) as [[[[a b] s2]|]|]; auto.
Qed.
(** every recorded call is a call of the sampler with the first component of a leaf as standard deviation; there are 2^(k+1) of them *)
Lemma ffs_calls : forall t k t0 t1 s c z0 z1 s' c', shape k t -> length t0 = (2 ^ k)%nat -> length t1 = (2 ^ k)%nat ->
  ffsampling (St * list (R * R * Z)) (logged sam) t t0 t1 (s, c) = Some (Ok (z0, z1, (s', c'))) ->
  exists new, c' = new ++ c /\ length new = (2 * 2 ^ k)%nat /\
    Forall (fun '(mu, sg, z) => (exists x, In x (leaves t) /\ sg = fst x) /\ exists r r', sam mu sg r = Some (z, r')) new.
Proof.
  induction t as [x|l ta IHa tb IHb]; intros k t0 t1 s c z0 z1 s' c' W L0 L1 H; cbn [ffsampling_fft] in H.
  - destruct k; [|contradiction]. destruct (len1 t0 L0) as [a ->], (len1 t1 L1) as [b ->]. unfold logged in H. cbn [fst snd] in H.
    destruct (sam (fst a) (fst x) s) as [[y0 s1]|] eqn:E; [|discriminate]. cbn [fst snd] in H. destruct (sam (fst b) (fst x) s1) as [[y1 s2]|] eqn:E'; [|discriminate].
    assert (Ec : c' = [(fst b, fst x, y1); (fst a, fst x, y0)] ++ c) by (cbn [app]; congruence). exists [(fst b, fst x, y1); (fst a, fst x, y0)]. split; [exact Ec|]. split; [reflexivity|].
    constructor; [|constructor; [|constructor]]; (split; [exists x; split; [now left|reflexivity]|eauto]).
  - destruct k as [|k]; [contradiction|]. destruct W as (Ll & Wa & Wb).
    destruct (1 <? length t0)%nat; [|discriminate].
    destruct (split_length k t1 L1) as [Lu Lv]. destruct (split_fft t1) as [u v]. cbn [fst snd] in Lu, Lv.
    destruct (ffsampling _ (logged sam) tb u v (s, c)) as [[[[a b] [s1 c1]]|]|] eqn:Eb; try discriminate.
    destruct (IHb k u v s c a b s1 c1 Wb Lu Lv Eb) as (nb & -> & Nb & Fb).
    destruct (ffs_int (logged sam) tb k u v (s, c) a b _ Lu Lv Eb) as (p0 & p1 & Q0 & Q1 & -> & ->). rewrite merge_rep in H by (rewrite !map_length; congruence).
    unfold sub_fft, add_fft at 1, mul_fft in H. rewrite map_length, rep_length, L1, Nat.eqb_refl in H. cbn [bind] in H.
    assert (LL : length (pairwise cadd t1 (map copp (rep (S k) (merge (zr p0) (zr p1))))) = (2 ^ S k)%nat) by (unfold pairwise; rewrite map_length, combine_length, map_length, rep_length; lia).
    rewrite LL, Ll, Nat.leb_refl in H. cbn [bind] in H. unfold add_fft in H. rewrite L0 in H.
    assert (LL2 : length (pairwise cmul (pairwise cadd t1 (map copp (rep (S k) (merge (zr p0) (zr p1))))) l) = (2 ^ S k)%nat) by (unfold pairwise at 1; rewrite map_length, combine_length; lia).
    rewrite LL2, Nat.eqb_refl in H.
    set (t0b := pairwise cadd t0 _) in H. assert (Lt : length t0b = (2 ^ S k)%nat) by (unfold t0b; unfold pairwise at 1; rewrite map_length, combine_length; lia).
    destruct (split_length k t0b Lt) as [Lu' Lv']. destruct (split_fft t0b) as [u' v']. cbn [fst snd] in Lu', Lv'.
    destruct (ffsampling _ (logged sam) ta u' v' (s1, nb ++ c)) as [[[[a' b'] [s2 c2]]|]|] eqn:Ea; try discriminate.
    destruct (IHa k u' v' s1 (nb ++ c) a' b' s2 c2 Wa Lu' Lv' Ea) as (na & -> & Na & Fa).
    assert (Ec : c' = na ++ nb ++ c) by congruence. exists (na ++ nb). rewrite <- app_assoc. split; [exact Ec|]. split; [rewrite app_length, Na, Nb, Nat.pow_succ_r'; lia|].
    cbn [leaves]. apply Forall_app. split; (eapply Forall_impl; [|eassumption]); intros [[mu sg] z] [(x & Hx & Ex) Hs]; (split; [exists x; split; [apply in_or_app; auto|exact Ex]|exact Hs]).
Qed.
(** recording the calls does not change the result *)
Lemma ffs_logged : forall t t0 t1 s c,
  match ffsampling (St * list (R * R * Z)) (logged sam) t t0 t1 (s, c) with
  | Some (Ok (z0, z1, (s', _))) => ffsampling St sam t t0 t1 s = Some (Ok (z0, z1, s'))
  | Some (Raise e) => ffsampling St sam t t0 t1 s = Some (Raise e)
  | None => ffsampling St sam t t0 t1 s = None
  end.
Proof.
  induction t as [x|l ta IHa tb IHb]; intros t0 t1 s c; cbn [ffsampling_fft].
  - destruct t0 as [|a [|]], t1 as [|b [|]]; auto. unfold logged. cbn [fst snd]. destruct (sam (fst a) (fst x) s) as [[y0 s1]|]; auto. cbn [fst snd]. destruct (sam (fst b) (fst x) s1) as [[y1 s2]|]; auto.
  - destruct (1 <? length t0)%nat; auto. destruct (split_fft t1) as [u v]. pose proof (IHb u v s c) as Hb.
    destruct (ffsampling _ (logged sam) tb u v (s, c)) as [[[[a b] [s1 c1]]|]|]; rewrite Hb; auto.
    destruct (let! x := _ in _) as [t0b|]; auto. destruct (split_fft t0b) as [u' v']. pose proof (IHa u' v' s1 c1) as Ha.
    destruct (ffsampling _ (logged sam) ta u' v' (s1, c1)) as [[[[a' b'] [s2 c2]]|]|]; rewrite Ha; auto.
Qed.
End NoRaise.

(** * Integer polynomials at the roots *)
Lemma ev_zconst n c z : (1 <= n)%nat -> ev (zr (pconst n c)) z = inj (IZR c).
Proof.
  intros _. unfold pconst. cbn [map]. rewrite ev_cons. assert (E : forall m, ev (zr (repeat 0%Z m)) z = c0).
  { induction m as [|m IH]; [reflexivity|]. cbn [repeat map]. rewrite ev_cons, IH. rewrite inj_0. ring. }
  rewrite E. ring.
Qed.
Lemma nth_opp i g : nth i (map Z.opp g) 0%Z = (- nth i g 0)%Z.
Proof. exact (map_nth Z.opp g 0%Z i). Qed.
Lemma zr_sub n f g : length f = n -> length g = n -> radd (zr f) (map Ropp (zr g)) = zr (psub n f g).
Proof.
  intros Lf Lg. rewrite zr_opp, (zr_add n) by (rewrite ?map_length; congruence). f_equal. unfold padd, psub. apply map_ext. intros i. unfold coef. rewrite nth_opp. lia.
Qed.
Lemma negmul_length n f g : length (negmul n f g) = n.
Proof. unfold negmul. now rewrite map_length, seq_length. Qed.
Lemma negmul_opp n f g : negmul n f (map Z.opp g) = map Z.opp (negmul n f g).
Proof.
  unfold negmul. rewrite map_map. apply map_ext. intros m.
  assert (P : forall j, pcoef f (map Z.opp g) j = (- pcoef f g j)%Z).
  { intros j. unfold pcoef. generalize (S j) as r. induction r as [|r IH]; [reflexivity|]. cbn [sum_to]. rewrite IH. unfold coef. rewrite nth_opp. lia. }
  rewrite !P. lia.
Qed.
(** fG - gF = q at every root *)
Lemma ntru_at k f g F G z : length f = (2 ^ k)%nat -> length g = (2 ^ k)%nat -> length F = (2 ^ k)%nat -> length G = (2 ^ k)%nat ->
  psub (2 ^ k) (negmul (2 ^ k) f G) (negmul (2 ^ k) g F) = pconst (2 ^ k) 12289 -> In z (rts k) ->
  ev (zr f) z *c ev (zr G) z -c ev (zr g) z *c ev (zr F) z = inj 12289.
Proof.
  intros Lf Lg LF LG E Hz. pose proof (proj1 (Forall_forall _ _) (rts_root k) z Hz) as R.
  rewrite <- (ev_zconst (2 ^ k) 12289 z) by (pose proof (Nat.pow_nonzero 2 k ltac:(lia)); lia). rewrite <- E, <- zr_sub by apply negmul_length.
  rewrite ev_sub by (rewrite !map_length, !negmul_length; reflexivity). rewrite <- !zr_negmul. rewrite !ev_negmul by (auto; now rewrite map_length). reflexivity.
Qed.

(** * The Gram matrix *)
Lemma cabs2_conj x : x *c conj x = inj (cabs2 x).
Proof. destruct x. unfold FftModel.cmul, FftModel.conj, inj, cabs2. cbn [fst snd RN nadd nsub nmul nopp]. apply injective_projections; cbn [fst snd]; ring. Qed.
Lemma gram_entry_exact k bi bj : (1 <= k)%nat -> length (fst bi) = (2 ^ k)%nat -> length (snd bi) = (2 ^ k)%nat -> length (fst bj) = (2 ^ k)%nat -> length (snd bj) = (2 ^ k)%nat ->
  exists x, gram_entry RN xroots (2 ^ k) bi bj = Ok x /\ length x = (2 ^ k)%nat /\
    rep k x = map (fun z => ev (fst bi) z *c conj (ev (fst bj) z) +c ev (snd bi) z *c conj (ev (snd bj) z)) (rts k).
Proof.
  intros Hk L1 L2 L3 L4. unfold gram_entry. rewrite (adj_exact k) by assumption. cbn [bind]. rewrite (mul_exact k) by (auto; now rewrite radj_length). cbn [bind].
  unfold FftModel.add at 1. rewrite repeat_length, rnegmul_length, Nat.eqb_refl. cbn [bind].
  rewrite (adj_exact k) by assumption. cbn [bind]. rewrite (mul_exact k) by (auto; now rewrite radj_length). cbn [bind].
  change (nadd RN) with Rplus. change (zero RN) with 0. unfold FftModel.add. fold (radd (repeat 0 (2 ^ k)) (rnegmul (2 ^ k) (fst bi) (radj (fst bj)))).
  rewrite radd_length, repeat_length, rnegmul_length by (now rewrite repeat_length, rnegmul_length). rewrite Nat.eqb_refl.
  eexists. split; [reflexivity|]. change (nadd RN) with Rplus. fold (radd (radd (repeat 0 (2 ^ k)) (rnegmul (2 ^ k) (fst bi) (radj (fst bj)))) (rnegmul (2 ^ k) (snd bi) (radj (snd bj)))).
  split; [rewrite !radd_length, ?repeat_length; rewrite ?radd_length; rewrite ?repeat_length, ?rnegmul_length; reflexivity|].
  unfold rep. apply map_ext_in. intros z Hz. pose proof (proj1 (Forall_forall _ _) (rts_root k) z Hz) as R. pose proof (proj1 (Forall_forall _ _) (rts_unit k) z Hz) as U.
  rewrite ev_add by (rewrite radd_length; rewrite ?repeat_length, ?rnegmul_length; reflexivity). rewrite ev_add by (now rewrite repeat_length, rnegmul_length).
  rewrite !ev_negmul by (auto; now rewrite radj_length). rewrite !(ev_adj (2 ^ k)) by assumption.
  assert (E : forall m, ev (repeat 0 m) z = c0). { induction m as [|m IH]; [reflexivity|]. cbn [repeat]. rewrite ev_cons, IH, inj_0. ring. }
  rewrite E. ring.
Qed.

Section Key.
Variables (k : nat) (f g F G : list Z).
Hypothesis (Lf : length f = (2 ^ S k)%nat) (Lg : length g = (2 ^ S k)%nat) (LF : length F = (2 ^ S k)%nat) (LG : length G = (2 ^ S k)%nat).
Hypothesis NT : psub (2 ^ S k) (negmul (2 ^ S k) f G) (negmul (2 ^ S k) g F) = pconst (2 ^ S k) 12289.
Let n := (2 ^ S k)%nat.
Let a z := ev (zr g) z. Let b z := ev (zr (map Z.opp f)) z. Let c z := ev (zr G) z. Let d z := ev (zr (map Z.opp F)) z.
(** |f|^2 + |g|^2 at a root: the squared length of the first row; and that of the second row's orthogonal part *)
Definition diag0 (z : CR) : R := cabs2 (a z) + cabs2 (b z).
Definition diag1 (z : CR) : R := 12289 * 12289 / diag0 z.
Definition off01 (z : CR) : CR := a z *c conj (c z) +c b z *c conj (d z).
Definition l10fun (z : CR) : CR := rcdiv (conj (off01 z)) (inj (diag0 z)).
Lemma det_at z : In z (rts (S k)) -> a z *c d z -c b z *c c z = inj 12289.
Proof.
  intros Hz. unfold a, b, c, d. rewrite <- !zr_opp, !ev_opp. rewrite <- (ntru_at (S k) f g F G z) by assumption. ring.
Qed.
(** Lagrange's identity *)
Lemma lagrange z : In z (rts (S k)) -> diag0 z * (cabs2 (c z) + cabs2 (d z)) - cabs2 (off01 z) = 12289 * 12289.
Proof.
  intros Hz. pose proof (det_at z Hz) as E. assert (Q : cabs2 (a z *c d z -c b z *c c z) = 12289 * 12289) by (rewrite E; unfold cabs2, inj; cbn [fst snd]; ring).
  rewrite <- Q. unfold diag0, off01. destruct (a z), (b z), (c z), (d z). unfold cabs2, FftModel.cmul, FftModel.csub, FftModel.cadd, FftModel.conj. cbn [fst snd RN nadd nsub nmul nopp]. ring.
Qed.
Lemma diag0_pos : pos (S k) diag0.
Proof.
  intros z Hz. pose proof (lagrange z Hz) as E. assert (A : 0 <= diag0 z) by (unfold diag0; pose proof (cabs2_nonneg (a z)); pose proof (cabs2_nonneg (b z)); lra).
  destruct (Req_dec (diag0 z) 0) as [Z|]; [|lra]. rewrite Z in E. pose proof (cabs2_nonneg (off01 z)). lra.
Qed.
Lemma diag1_pos : pos (S k) diag1.
Proof. intros z Hz. pose proof (diag0_pos z Hz). unfold diag1. apply Rdiv_lt_0_compat; lra. Qed.
Lemma cabs2_cj x : cabs2 (conj x) = cabs2 x.
Proof. unfold cabs2, FftModel.conj. cbn [fst snd RN nopp]. ring. Qed.
Lemma diag0_sym : sym (S k) diag0.
Proof. intros z _. unfold diag0, a, b. now rewrite !ev_conj, !cabs2_cj. Qed.
Lemma diag1_sym : sym (S k) diag1.
Proof. intros z Hz. unfold diag1. now rewrite diag0_sym. Qed.
Lemma l10_sym z : In z (rts (S k)) -> l10fun (conj z) = conj (l10fun z).
Proof.
  intros Hz. unfold l10fun. rewrite (diag0_sym z Hz), conj_cdiv. unfold off01, a, b, c, d. rewrite !ev_conj, !conj_add, !conj_mul, !conj_conj. f_equal.
  unfold inj, FftModel.conj. cbn [fst snd RN nopp]. f_equal; ring.
Qed.

Definition exact_tree : tree := Node (map l10fun (rts (S k))) (dtree k diag0) (dtree k diag1).
Definition exact_key (sigma : R) : fkey (T := R) := {| B_a := rep (S k) (zr g); B_b := rep (S k) (zr (map Z.opp f)); B_c := rep (S k) (zr G); B_d := rep (S k) (zr (map Z.opp F)); T_fft := normalize_tree RN sigma exact_tree |}.
Theorem init_key_exact sigma : init_key RN xroots sigma f g F G = Ok (exact_key sigma).
Proof.
  unfold init_key. change (tofl RN) with (map IZR). set (A := zr g). set (B := zr (map Z.opp f)). set (C := zr G). set (D := zr (map Z.opp F)).
  assert (LA : length A = (2 ^ S k)%nat) by (unfold A; now rewrite map_length). assert (LB : length B = (2 ^ S k)%nat) by (unfold B; now rewrite !map_length).
  assert (LC : length C = (2 ^ S k)%nat) by (unfold C; now rewrite map_length). assert (LD : length D = (2 ^ S k)%nat) by (unfold D; now rewrite !map_length).
  unfold gram. cbn [fst snd]. rewrite LA.
  destruct (gram_entry_exact (S k) (A, B) (A, B) ltac:(lia) LA LB LA LB) as (g00 & -> & L00 & R00). cbn [bind].
  destruct (gram_entry_exact (S k) (A, B) (C, D) ltac:(lia) LA LB LC LD) as (g01 & -> & L01 & R01). cbn [bind].
  destruct (gram_entry_exact (S k) (C, D) (A, B) ltac:(lia) LC LD LA LB) as (g10 & -> & L10 & R10). cbn [bind].
  destruct (gram_entry_exact (S k) (C, D) (C, D) ltac:(lia) LC LD LC LD) as (g11 & -> & L11 & R11). cbn [bind].
  rewrite !(fft_rep (S k)) by (auto; lia). cbn [bind]. rewrite R00, R10, R11. cbn [fst snd].
  rewrite (map_ext (fun z => ev A z *c conj (ev A z) +c ev B z *c conj (ev B z)) (fun z => inj (diag0 z))) by (intros z; rewrite !cabs2_conj, <- inj_add; reflexivity).
  rewrite (map_ext (fun z => ev C z *c conj (ev C z) +c ev D z *c conj (ev D z)) (fun z => inj (cabs2 (c z) + cabs2 (d z)))) by (intros z; rewrite !cabs2_conj, <- inj_add; reflexivity).
  rewrite (map_ext (fun z => ev C z *c conj (ev A z) +c ev D z *c conj (ev B z)) (fun z => conj (off01 z))) by (intros z; unfold off01; rewrite conj_add, !conj_mul, !conj_conj; fold (a z) (b z) (c z) (d z); unfold a, b, c, d; fold A B C D; ring).
  rewrite map_length, rts_length. rewrite (ffldl_dtree k (2 ^ S k) diag0 (fun z => cabs2 (c z) + cabs2 (d z)) _ off01).
  - cbn [bind]. unfold exact_key, exact_tree. do 3 f_equal. f_equal. apply dtree_ext. intros z Hz. unfold diag1. now rewrite lagrange.
  - clear. induction (S k) as [|m IH]; [cbn; lia|]. rewrite Nat.pow_succ_r'. pose proof (Nat.pow_nonzero 2 m ltac:(lia)). lia.
  - exact diag0_pos.
  - intros z Hz. rewrite lagrange by exact Hz. lra.
Qed.

(** * The target and the lattice point *)
Lemma ev_scal f0 r z : ev (map (fun x => x / r) f0) z = (fst (ev f0 z) / r, snd (ev f0 z) / r).
Proof.
  induction f0 as [|x l IH]; [cbn; unfold Rdiv; f_equal; ring|]. cbn [map]. rewrite !ev_cons, IH. destruct (ev l z), z. unfold FftModel.cadd, FftModel.cmul, inj. cbn [fst snd RN nadd nsub nmul].
  apply injective_projections; cbn [fst snd]; unfold Rdiv; ring.
Qed.
Definition tgt0 (point : list Z) : list R := map (fun x => x / 12289) (rnegmul n (zr point) (zr (map Z.opp F))).
Definition tgt1 (point : list Z) : list R := map (fun x => x / 12289) (rnegmul n (map Ropp (zr point)) (zr (map Z.opp f))).
Lemma target_rep X Y : length X = (2 ^ S k)%nat -> length Y = (2 ^ S k)%nat ->
  map (fun x => ncdiv RN x (cofZ RN 12289)) (pairwise cmul (rep (S k) X) (rep (S k) Y)) = rep (S k) (map (fun x => x / 12289) (rnegmul n X Y)).
Proof.
  intros LX LY. rewrite rep_mul by assumption. unfold rep. rewrite map_map. apply map_ext. intros z. rewrite ev_scal. cbn [RN ncdiv].
  change (cofZ RN 12289) with (inj 12289). destruct (rcdiv_inj (ev (rnegmul (2 ^ S k) X Y) z) 12289) as [E|]; [exact E|lra].
Qed.

Variable sigma : R.
Definition vec0 (p0 p1 : list Z) : list Z := padd n (negmul n p0 g) (negmul n p1 G).
Definition vec1 (p0 p1 : list Z) : list Z := psub n (psub n [] (negmul n p0 f)) (negmul n p1 F).
Lemma vec1_alt p0 p1 : vec1 p0 p1 = padd n (negmul n p0 (map Z.opp f)) (negmul n p1 (map Z.opp F)).
Proof.
  unfold vec1, psub at 1, padd. apply map_ext_in. intros i Hi. apply in_seq in Hi. rewrite !negmul_opp. unfold coef. rewrite !nth_opp.
  assert (E : nth i (psub n [] (negmul n p0 f)) 0%Z = (- nth i (negmul n p0 f) 0)%Z).
  { unfold psub. rewrite (ChachaProofs.nth_map_seq (fun j => coef [] j - coef (negmul n p0 f) j)%Z) by lia. unfold coef. destruct i; reflexivity. }
  rewrite E. lia.
Qed.
Lemma round_zr l : map (nround RN) (zr l) = l.
Proof. rewrite map_map. cbn [RN nround]. rewrite (map_ext _ (fun x => x)) by (intros; apply rround_IZR). apply map_id. Qed.
(** what is done with the integer combination *)
Lemma finish_exact {A} p0 p1 (s : A) : length p0 = n -> length p1 = n ->
  (let! x := mul_fft RN (rep (S k) (zr p0)) (B_a (exact_key sigma)) in let! y := mul_fft RN (rep (S k) (zr p1)) (B_c (exact_key sigma)) in let! v0_fft := add_fft RN x y in
   let! x := mul_fft RN (rep (S k) (zr p0)) (B_b (exact_key sigma)) in let! y := mul_fft RN (rep (S k) (zr p1)) (B_d (exact_key sigma)) in let! v1_fft := add_fft RN x y in
   let! r0 := ifft v0_fft in let! r1 := ifft v1_fft in Ok (map (nround RN) r0, map (nround RN) r1, s)) = Ok (vec0 p0 p1, vec1 p0 p1, s).
Proof.
  intros P0 P1. unfold exact_key. cbn [B_a B_b B_c B_d]. unfold mul_fft, add_fft. rewrite !rep_length, Nat.leb_refl. cbn [bind].
  assert (LL : forall x y, length x = n -> length y = n -> length (pairwise cmul (rep (S k) x) (rep (S k) y)) = n) by (intros; unfold pairwise; rewrite map_length, combine_length, !rep_length; unfold n; lia).
  rewrite !rep_mul by (rewrite ?map_length; assumption). rewrite !rep_length, Nat.eqb_refl. cbn [bind]. rewrite !rep_add by (now rewrite !rnegmul_length). rewrite !zr_negmul. fold n.
  rewrite !(zr_add n) by apply negmul_length. unfold vec0. rewrite vec1_alt.
  assert (LP : forall x y, length (zr (padd n x y)) = (2 ^ S k)%nat) by (intros; unfold padd; now rewrite !map_length, seq_length).
  rewrite !(ifft_rep (S k)) by (auto; lia). cbn [bind]. now rewrite !round_zr.
Qed.

Section Lat.
Context {St : Type}.
Variable sam : R -> R -> St -> option (Z * St).
Theorem sample_v_exact point s : length point = n ->
  sample_v RN xroots St sam (exact_key sigma) point s =
  match ffsampling St sam (normalize_tree RN sigma exact_tree) (rep (S k) (tgt0 point)) (rep (S k) (tgt1 point)) s with
  | None => None
  | Some (Raise e) => Some (Raise e)
  | Some (Ok (z0, z1, s)) =>
      Some (let! x := mul_fft RN z0 (B_a (exact_key sigma)) in let! y := mul_fft RN z1 (B_c (exact_key sigma)) in let! v0_fft := add_fft RN x y in
            let! x := mul_fft RN z0 (B_b (exact_key sigma)) in let! y := mul_fft RN z1 (B_d (exact_key sigma)) in let! v1_fft := add_fft RN x y in
            let! r0 := ifft v0_fft in let! r1 := ifft v1_fft in Ok (map (nround RN) r0, map (nround RN) r1, s))
  end.
Proof.
  intros Lp. unfold sample_v. change (tofl RN) with (map IZR). rewrite (fft_rep (S k)) by (rewrite ?map_length; auto; lia). cbn [bind].
  change (B_b (exact_key sigma)) with (rep (S k) (zr (map Z.opp f))). change (B_d (exact_key sigma)) with (rep (S k) (zr (map Z.opp F))). rewrite target_rep by (rewrite !map_length; assumption). rewrite rep_opp. rewrite target_rep by (rewrite !map_length; assumption). reflexivity.
Qed.

(** * Main results *)
Lemma tree_shape : shape (S k) (normalize_tree RN sigma exact_tree).
Proof. apply normalize_shape. unfold exact_tree. cbn [shape]. rewrite map_length, rts_length. repeat split; apply dtree_shape. Qed.
Lemma tgt_length point : length (tgt0 point) = n /\ length (tgt1 point) = n.
Proof. unfold tgt0, tgt1. now rewrite !map_length, !rnegmul_length. Qed.

(** the sampler returns an integer combination of the rows of the basis, or does not return at all because one of its calls does not *)
Theorem sample_v_lattice point s : length point = n ->
  match sample_v RN xroots St sam (exact_key sigma) point s with
  | Some (Ok (v0, v1, _)) => lattice_point n f g F G v0 v1
  | Some (Raise _) => False
  | None => exists mu sg s, sam mu sg s = None
  end.
Proof.
  intros Lp. rewrite sample_v_exact by exact Lp. destruct (tgt_length point) as [T0 T1].
  assert (R0 : length (rep (S k) (tgt0 point)) = (2 ^ S k)%nat) by apply rep_length. assert (R1 : length (rep (S k) (tgt1 point)) = (2 ^ S k)%nat) by apply rep_length.
  pose proof (ffs_returns sam _ (S k) _ _ s tree_shape R0 R1) as W.
  destruct (ffsampling St sam (normalize_tree RN sigma exact_tree) (rep (S k) (tgt0 point)) (rep (S k) (tgt1 point)) s) as [[[[z0 z1] s']|]|] eqn:E; auto.
  destruct (ffs_int sam _ (S k) _ _ s z0 z1 s' R0 R1 E) as (p0 & p1 & Q0 & Q1 & -> & ->).
  rewrite finish_exact by assumption. exists p0, p1. unfold vec0, vec1. auto.
Qed.

End Lat.
(** the quadratic form of the basis, completed *)
Lemma gram_square z e0 e1 : In z (rts (S k)) ->
  cabs2 (e0 *c a z +c e1 *c c z) + cabs2 (e0 *c b z +c e1 *c d z) = diag0 z * cabs2 (e0 +c e1 *c l10fun z) + diag1 z * cabs2 e1.
Proof.
  intros Hz. pose proof (diag0_pos z Hz) as P. unfold l10fun. destruct (rcdiv_inj (conj (off01 z)) (diag0 z)) as [->|]; [|lra].
  unfold diag1. rewrite <- (lagrange z Hz).
  assert (E : cabs2 (e0 *c a z +c e1 *c c z) + cabs2 (e0 *c b z +c e1 *c d z) =
    diag0 z * cabs2 e0 + (cabs2 (c z) + cabs2 (d z)) * cabs2 e1 + 2 * fst (e0 *c conj e1 *c off01 z)).
  { unfold diag0, off01. destruct (a z), (b z), (c z), (d z), e0, e1. unfold cabs2, FftModel.cmul, FftModel.cadd, FftModel.conj. cbn [fst snd RN nadd nsub nmul nopp]. ring. }
  rewrite E. destruct (off01 z) as [p r], e0 as [x0 y0], e1 as [x1 y1]. unfold cabs2, FftModel.cmul, FftModel.cadd, FftModel.conj. cbn [fst snd RN nadd nsub nmul nopp]. field. lra.
Qed.
(** t * B = (point, 0) *)
Lemma target_at point z : length point = n -> In z (rts (S k)) ->
  ev (tgt0 point) z *c a z +c ev (tgt1 point) z *c c z = ev (zr point) z /\ ev (tgt0 point) z *c b z +c ev (tgt1 point) z *c d z = c0.
Proof.
  intros Lp Hz. pose proof (det_at z Hz) as E. pose proof (proj1 (Forall_forall _ _) (rts_root (S k)) z Hz) as R. unfold tgt0, tgt1. rewrite !ev_scal.
  rewrite !ev_negmul by (rewrite ?map_length; try assumption; reflexivity). rewrite ev_opp. fold (d z) (b z).
  assert (S : forall x, (fst x / 12289, snd x / 12289) = inj (/ 12289) *c x).
  { intros [x y]. unfold inj, FftModel.cmul. cbn [fst snd RN nadd nsub nmul]. apply injective_projections; cbn [fst snd]; unfold Rdiv; ring. }
  rewrite !S. set (p := ev (zr point) z). split.
  - transitivity (inj (/ 12289) *c p *c (a z *c d z -c b z *c c z)); [ring|]. rewrite E. transitivity (p *c (inj (/ 12289) *c inj 12289)); [ring|]. rewrite <- inj_mul. rewrite Rinv_l by lra. change (inj 1) with c1. ring.
  - ring.
Qed.
Definition sqn (v : list Z) : R := rsq (zr v).

(** the squared norm of (point - v0, -v1) is sigma^2 times the sum of the squared deviations of the calls to samplerz, each relative to its own standard deviation *)
Theorem sample_v_norm {St} (sam : R -> R -> St -> option (Z * St)) point s calls : 0 < sigma -> length point = n ->
  match sample_v RN xroots (St * list (R * R * Z)) (logged sam) (exact_key sigma) point (s, calls) with
  | Some (Ok (v0, v1, (_, calls'))) => sqn (psub n point v0) + sqn v1 = sigma * sigma * (lsum dev calls' - lsum dev calls)
  | _ => True
  end.
Proof.
  intros Ps Lp. rewrite sample_v_exact by exact Lp. destruct (tgt_length point) as [T0 T1].
  destruct (ffsampling _ (logged sam) (normalize_tree RN sigma exact_tree) (rep (S k) (tgt0 point)) (rep (S k) (tgt1 point)) (s, calls)) as [[[[z0 z1] [s' calls']]|]|] eqn:E; auto.
  unfold exact_tree in E.
  destruct (node_norm sam sigma k l10fun diag0 diag1 (ffs_norm sam sigma Ps k) diag0_pos diag0_sym diag1_pos diag1_sym l10_sym _ _ s calls z0 z1 s' calls' T0 T1 E) as (p0 & p1 & Q0 & Q1 & -> & -> & N). clear E.
  rewrite finish_exact by assumption. cbn iota.
  assert (L0 : length (vec0 p0 p1) = n) by (unfold vec0, padd; now rewrite map_length, seq_length). assert (L1 : length (vec1 p0 p1) = n) by (unfold vec1, psub at 1; now rewrite map_length, seq_length).
  assert (LS : length (psub n point (vec0 p0 p1)) = n) by (unfold psub; now rewrite map_length, seq_length).
  assert (P : 0 < 2 ^ S k) by (apply pow_lt; lra).
  apply Rmult_eq_reg_l with (2 ^ S k); [|lra]. rewrite Rmult_plus_distr_l. unfold sqn.
  rewrite <- (parseval (S k) (zr (psub n point (vec0 p0 p1)))) by now rewrite map_length. rewrite <- (parseval (S k) (zr (vec1 p0 p1))) by now rewrite map_length.
  rewrite <- lsum_add, <- Rmult_assoc, <- N. apply lsum_ext. intros z Hz. rewrite <- gram_square by exact Hz. destruct (target_at point z Lp Hz) as [A B].
  pose proof (proj1 (Forall_forall _ _) (rts_root (S k)) z Hz) as R.
  assert (V0 : ev (zr (vec0 p0 p1)) z = ev (zr p0) z *c a z +c ev (zr p1) z *c c z).
  { unfold vec0. rewrite <- (zr_add n) by apply negmul_length. rewrite ev_add by (now rewrite !map_length, !negmul_length). rewrite <- !zr_negmul, !ev_negmul by (rewrite ?map_length; assumption). reflexivity. }
  assert (V1 : ev (zr (vec1 p0 p1)) z = ev (zr p0) z *c b z +c ev (zr p1) z *c d z).
  { rewrite vec1_alt. rewrite <- (zr_add n) by apply negmul_length. rewrite ev_add by (now rewrite !map_length, !negmul_length). rewrite <- !zr_negmul, !ev_negmul by (rewrite ?map_length; assumption). reflexivity. }
  f_equal.
  - f_equal. rewrite <- (zr_sub n) by assumption. rewrite ev_sub by (now rewrite !map_length; congruence). rewrite V0, <- A. ring.
  - transitivity (cabs2 (copp (ev (zr (vec1 p0 p1)) z))); [unfold cabs2, FftModel.copp; cbn [fst snd RN nopp]; ring|]. f_equal. rewrite V1. 
    transitivity (c0 -c (ev (zr p0) z *c b z +c ev (zr p1) z *c d z)); [ring|]. rewrite <- B. ring.
Qed.
End Key.
