(** Property C82: ldl, ffldl, ffnp (coefficient format) and ffnp_fft (FFT format) of ffsampling.py, in exact arithmetic: what test.py:80-121 samples. *)
From Coq Require Import Reals Lra Lia.
From Verif Require Import Base RingSpec FalconModel FalconSpec.
From Verif Require FftModel.
From Verif Require Import FftSpec FftProofs FftAlg FftTree FftSample FftKey FftGs FfnpModel FfnpProofs Props_Fft.
Import List.
Open Scope R_scope.

Section Key.
Variable k : nat.
Variables f g F G : list Z.
Notation n := (2 ^ S k)%nat.
Hypothesis Lf : length f = n. Hypothesis Lg : length g = n. Hypothesis LF : length F = n. Hypothesis LG : length G = n.
Hypothesis NT : psub n (negmul n f G) (negmul n g F) = pconst n 12289.
Lemma trees_exact : exists c, key_tree RN xroots f g F G = Ok c /\ key_tree_fft RN xroots f g F G = Ok (exact_tree k f g F G) /\ crel (S k) c (exact_tree k f g F G).
Proof.
  unfold key_tree, key_tree_fft, gram_of. change (FftModel.tofl RN) with (map IZR). set (A := map IZR g). set (B := map IZR (map Z.opp f)). set (C := map IZR G). set (D := map IZR (map Z.opp F)).
  assert (LA : length A = (2 ^ S k)%nat) by (unfold A; now rewrite map_length). assert (LB : length B = (2 ^ S k)%nat) by (unfold B; now rewrite !map_length).
  assert (LC : length C = (2 ^ S k)%nat) by (unfold C; now rewrite map_length). assert (LD : length D = (2 ^ S k)%nat) by (unfold D; now rewrite !map_length).
  unfold FftModel.gram. cbn [fst snd]. rewrite LA.
  destruct (gram_entry_exact (S k) (A, B) (A, B) ltac:(lia) LA LB LA LB) as (g00 & -> & L00 & R00). cbn [bind].
  destruct (gram_entry_exact (S k) (A, B) (C, D) ltac:(lia) LA LB LC LD) as (g01 & -> & L01 & R01). cbn [bind].
  destruct (gram_entry_exact (S k) (C, D) (A, B) ltac:(lia) LC LD LA LB) as (g10 & -> & L10 & R10). cbn [bind].
  destruct (gram_entry_exact (S k) (C, D) (C, D) ltac:(lia) LC LD LC LD) as (g11 & -> & L11 & R11). cbn [bind].
  rewrite !(fft_rep (S k)) by (auto; lia). cbn [bind]. cbn [fst snd] in *.
  set (cc := fun z => ev C z) in *. set (dd := fun z => ev D z) in *.
  rewrite (map_ext _ (fun z => inj (diag0 f g z))) in R00 by (intros z; rewrite !cabs2_conj, <- inj_add; reflexivity).
  rewrite (map_ext _ (fun z => inj (cabs2 (cc z) + cabs2 (dd z)))) in R11 by (intros z; rewrite !cabs2_conj, <- inj_add; reflexivity).
  rewrite (map_ext (fun z => FftModel.cadd RN (FftModel.cmul RN (ev C z) (FftModel.conj RN (ev A z))) (FftModel.cmul RN (ev D z) (FftModel.conj RN (ev B z)))) (fun z => FftModel.conj RN (off01 f g F G z))) in R10 by (intros z; unfold off01; rewrite conj_add, !conj_mul, !conj_conj; fold A B C D; ring).
  assert (Pf : (S k <= 2 ^ S k)%nat) by (clear; induction (S k) as [|m IH]; [cbn; lia|]; rewrite Nat.pow_succ_r'; pose proof (Nat.pow_nonzero 2 m ltac:(lia)); lia).
  assert (PD : pos (S k) (diag0 f g)) by exact (diag0_pos k f g F G Lf Lg LF LG NT).
  assert (LA' : forall z, In z (rts (S k)) -> diag0 f g z * (cabs2 (cc z) + cabs2 (dd z)) - cabs2 (off01 f g F G z) = 12289 * 12289) by exact (lagrange k f g F G Lf Lg LF LG NT).
  assert (DT : dtree k (fun z => (diag0 f g z * (cabs2 (cc z) + cabs2 (dd z)) - cabs2 (off01 f g F G z)) / diag0 f g z) = dtree k (diag1 f g)) by (apply dtree_ext; intros z Hz; unfold diag1; now rewrite LA').
  destruct (ffldl_crel k (2 ^ S k) g00 g10 g11 (diag0 f g) (fun z => cabs2 (cc z) + cabs2 (dd z)) (off01 f g F G) Pf L00 L10 L11 PD) as (c & Ec & Rc); auto.
  { intros z Hz. rewrite LA' by exact Hz. lra. }
  rewrite DT in Rc. exists c. rewrite L00. split; [exact Ec|]. split; [|exact Rc]. rewrite R00, R10, R11, map_length, rts_length.
  rewrite (ffldl_dtree k (2 ^ S k) (diag0 f g) (fun z => cabs2 (cc z) + cabs2 (dd z)) _ (off01 f g F G)); auto; [now rewrite DT|].
  intros z Hz. rewrite LA' by exact Hz. lra.
Qed.
End Key.

(** The two trees are built, and the two versions of the nearest-plane algorithm return the same integer vectors, for every target with real coefficients.
    (test.py:98-113 compares them on random targets, after rounding; here the inverse transform of the FFT result is exactly the integer vector.) *)
Theorem C82_formats_agree : forall k f g F G t0 t1, (1 <= k)%nat -> ntru_key (2 ^ k) f g F G -> length t0 = (2 ^ k)%nat -> length t1 = (2 ^ k)%nat ->
  exists T Tf u0 u1 z0 z1 w0 w1, key_tree RN xroots f g F G = Ok T /\ key_tree_fft RN xroots f g F G = Ok Tf /\
    FftModel.fft RN xroots t0 = Ok u0 /\ FftModel.fft RN xroots t1 = Ok u1 /\
    ffnp RN xroots T t0 t1 = Ok (z0, z1) /\ ffnp_fft RN xroots Tf u0 u1 = Ok (w0, w1) /\
    FftModel.ifft RN xroots w0 = Ok (map IZR z0) /\ FftModel.ifft RN xroots w1 = Ok (map IZR z1) /\ length z0 = (2 ^ k)%nat /\ length z1 = (2 ^ k)%nat.
Proof.
  intros [|k] f g F G t0 t1 Hk (Lf & Lg & LF & LG & E & _) L0 L1; [lia|].
  destruct (trees_exact k f g F G Lf Lg LF LG E) as (c & Ec & Ef & R). destruct (formats_agree (S k) c _ t0 t1 R L0 L1) as (p0 & p1 & Q0 & Q1 & En & Enf).
  exists c, (exact_tree k f g F G), (rep (S k) t0), (rep (S k) t1), p0, p1, (rep (S k) (map IZR p0)), (rep (S k) (map IZR p1)).
  split; [exact Ec|]. split; [exact Ef|]. split; [apply fft_rep; auto; lia|]. split; [apply fft_rep; auto; lia|]. split; [exact En|]. split; [exact Enf|].
  split; [apply ifft_rep; [lia|now rewrite map_length]|]. split; [apply ifft_rep; [lia|now rewrite map_length]|]. split; assumption.
Qed.
Print Assumptions C82_formats_agree.

Lemma exact_shape k f g F G : shape (S k) (exact_tree k f g F G).
Proof. unfold exact_tree. cbn [shape]. rewrite map_length, rts_length. repeat split; apply dtree_shape. Qed.
Lemma radd_nth a b i n : length a = n -> length b = n -> (i < n)%nat -> nth i (radd a b) 0 = nth i a 0 + nth i b 0.
Proof.
  revert b i n. induction a as [|x a IH]; intros [|y b] i n La Lb Hi; cbn in La, Lb; try lia. destruct i as [|i]; [reflexivity|]. apply (IH b i (length a)); cbn in *; lia.
Qed.
Lemma radd_zero n a : length a = n -> radd (repeat 0 n) a = a.
Proof. revert n. induction a as [|x a IH]; intros [|n] L; try discriminate L; [reflexivity|]. unfold radd, FftModel.pairwise in *. cbn [repeat combine map]. f_equal; [cbn; lra|apply IH; now injection L]. Qed.
Lemma rnegmul_opp_nth n a b i : nth i (rnegmul n a (map Ropp b)) 0 = - nth i (rnegmul n a b) 0.
Proof.
  unfold rnegmul. destruct (Nat.lt_ge_cases i n) as [Hi|Hi]; [|rewrite !nth_overflow by (rewrite map_length, seq_length; exact Hi); lra].
  assert (NM : forall h : nat -> R, nth i (map h (seq 0 n)) 0 = h i) by (intros h; rewrite (nth_indep _ 0 (h O)) by (now rewrite map_length, seq_length); rewrite map_nth, seq_nth by exact Hi; reflexivity).
  rewrite !NM. assert (O : forall j, rpcoef a (map Ropp b) j = - rpcoef a b j).
  { intros j. unfold rpcoef. generalize (S j) as m. induction m as [|m IH]; cbn [rsum]; [lra|]. rewrite IH. unfold rcoef. replace (nth (j - m) (map Ropp b) 0) with (- nth (j - m) b 0); [ring|].
    rewrite <- (map_nth Ropp). rewrite Ropp_0. reflexivity. }
  rewrite !O. ring.
Qed.
(** The lattice vector is close to the target: with e = t - z, the two polynomials of e * B = (e0 g + e1 G, - e0 f - e1 F) have together a squared norm of at most
    (n / 2) gs_norm(f, g, q). *)
Theorem C82_close : forall k f g F G t0 t1 T z0 z1 x, (1 <= k)%nat -> ntru_key (2 ^ k) f g F G -> length t0 = (2 ^ k)%nat -> length t1 = (2 ^ k)%nat ->
  FftModel.gs_norm RN xroots f g 12289 = Ok x -> key_tree RN xroots f g F G = Ok T -> ffnp RN xroots T t0 t1 = Ok (z0, z1) ->
  exists v0 v1, diffB RN xroots f g F G t0 t1 z0 z1 = Ok (v0, v1) /\
    (forall i, (i < 2 ^ k)%nat -> nth i v0 0 = nth i (rnegmul (2 ^ k) (radd t0 (map Ropp (map IZR z0))) (map IZR g)) 0 + nth i (rnegmul (2 ^ k) (radd t1 (map Ropp (map IZR z1))) (map IZR G)) 0) /\
    (forall i, (i < 2 ^ k)%nat -> nth i v1 0 = - nth i (rnegmul (2 ^ k) (radd t0 (map Ropp (map IZR z0))) (map IZR f)) 0 - nth i (rnegmul (2 ^ k) (radd t1 (map Ropp (map IZR z1))) (map IZR F)) 0) /\
    rsq v0 + rsq v1 <= 2 ^ k / 2 * x.
Proof.
  intros [|k] f g F G t0 t1 T z0 z1 x Hk (Lf & Lg & LF & LG & E & _) L0 L1 Hx HT HZ; [lia|].
  destruct (trees_exact k f g F G Lf Lg LF LG E) as (c & Ec & Ef & R). assert (Q : c = T) by congruence. subst c. clear Ec.
  destruct (formats_agree (S k) T _ t0 t1 R L0 L1) as (p0 & p1 & Q0 & Q1 & En & Enf). assert (Qz : p0 = z0 /\ p1 = z1) by (split; congruence). destruct Qz as [-> ->]. clear En HZ HT R T.
  set (sam := fun (mu _ : R) (s : Datatypes.unit) => Some (rround mu, s)).
  pose proof (ffnp_sampling (exact_tree k f g F G) (S k) 1 (rep (S k) t0) (rep (S k) t1) tt ltac:(apply (exact_shape k f g F G)) (rep_length _ _) (rep_length _ _)) as W. rewrite Enf in W. fold sam in W.
  pose proof (ffs_logged sam (FftModel.normalize_tree RN 1 (exact_tree k f g F G)) (rep (S k) t0) (rep (S k) t1) tt []) as WL.
  destruct (FftModel.ffsampling_fft RN xroots _ (logged sam) (FftModel.normalize_tree RN 1 (exact_tree k f g F G)) (rep (S k) t0) (rep (S k) t1) (tt, [])) as [[[[a b] [s1 c1]]|]|] eqn:EF; rewrite W in WL; try discriminate WL.
  assert (Qa : a = rep (S k) (map IZR z0) /\ b = rep (S k) (map IZR z1)) by (split; congruence). destruct Qa as [-> ->]. clear W WL Enf.
  destruct (ffs_calls sam _ (S k) _ _ tt [] _ _ s1 c1 (tree_shape k f g F G 1) (rep_length _ _) (rep_length _ _) EF) as (new & Ec & Ln & FC). rewrite app_nil_r in Ec. subst new.
  pose proof (leaves_range k f g F G Lf Lg LF LG E x x Hx (Rle_refl x)) as LR. rewrite leaves_normalize in FC.
  assert (Each : forall c, In c c1 -> dev c <= 1 / 4 * x).
  { intros [[mu sg] z] Hc. destruct (proj1 (Forall_forall _ _) FC _ Hc) as [(y & Hy & ->) (r & r' & Hr)]. apply in_map_iff in Hy. destruct Hy as (y0 & <- & Hy0). cbn [fst] in *.
    destruct (proj1 (Forall_forall _ _) LR y0 Hy0) as (_ & Py & _ & Yb). unfold dev. pose proof (sqrt_lt_R0 _ Py) as Pr. pose proof (sqrt_sqrt (fst y0) ltac:(lra)) as Sq. set (rr := sqrt (fst y0)) in *.
    replace ((IZR z - mu) / (1 / rr) * ((IZR z - mu) / (1 / rr))) with ((IZR z - mu) * (IZR z - mu) * (rr * rr)) by (field; lra). rewrite Sq.
    assert (Ez : z = rround mu) by (unfold sam in Hr; congruence). pose proof (rround_half mu) as Hz. rewrite <- Ez in Hz. assert (A : (IZR z - mu) * (IZR z - mu) <= 1 / 4).
    { pose proof (Rabs_pos (IZR z - mu)) as Pa. replace ((IZR z - mu) * (IZR z - mu)) with (Rabs (IZR z - mu) * Rabs (IZR z - mu)); [nra|]. unfold Rabs. destruct (Rcase_abs (IZR z - mu)); ring. }
    apply Rle_trans with (1 / 4 * fst y0); [apply Rmult_le_compat_r; lra|lra]. }
  assert (Sum : forall l : list (R * R * Z), (forall c, In c l -> dev c <= 1 / 4 * x) -> lsum dev l <= INR (length l) * (1 / 4 * x)).
  { induction l as [|c l IH]; intros Hl; [cbn; lra|]. change (length (c :: l)) with (S (length l)). rewrite S_INR. cbn [lsum]. specialize (IH (fun c0 Hc0 => Hl c0 (or_intror Hc0))). specialize (Hl c (or_introl eq_refl)). lra. }
  specialize (Sum c1 Each). rewrite Ln in Sum. assert (IN : INR (2 * 2 ^ S k) = 2 * 2 ^ S k) by (rewrite mult_INR, pow_INR; reflexivity). rewrite IN in Sum. clear Each FC LR Ln.
  unfold exact_tree in EF.
  destruct (node_norm sam 1 k (l10fun f g F G) (diag0 f g) (diag1 f g) (ffs_norm sam 1 Rlt_0_1 k) (diag0_pos k f g F G Lf Lg LF LG E) (diag0_sym k f g) (diag1_pos k f g F G Lf Lg LF LG E) (diag1_sym k f g) (l10_sym k f g F G)
    _ _ tt [] _ _ s1 c1 L0 L1 EF) as (q0 & q1 & M0 & M1 & Ea & Eb & N). clear EF.
  assert (Z0 : map IZR q0 = map IZR z0) by (apply (rep_inj (S k)); rewrite ?map_length; auto; lia).
  assert (Z1 : map IZR q1 = map IZR z1) by (apply (rep_inj (S k)); rewrite ?map_length; auto; lia).
  rewrite Z0, Z1 in N. clear Ea Eb Z0 Z1 M0 M1 q0 q1.
  set (e0 := radd t0 (map Ropp (map IZR z0))). set (e1 := radd t1 (map Ropp (map IZR z1))).
  assert (Le0 : length e0 = (2 ^ S k)%nat) by (unfold e0; rewrite radd_length; rewrite ?map_length; congruence). assert (Le1 : length e1 = (2 ^ S k)%nat) by (unfold e1; rewrite radd_length; rewrite ?map_length; congruence).
  set (v0 := radd (rnegmul (2 ^ S k) e0 (map IZR g)) (rnegmul (2 ^ S k) e1 (map IZR G))). set (v1 := radd (rnegmul (2 ^ S k) e0 (map IZR (map Z.opp f))) (rnegmul (2 ^ S k) e1 (map IZR (map Z.opp F)))).
  exists v0, v1. split; [|split; [|split]].
  - unfold diffB, subc, FftModel.add at 1 2. cbn [RN FftModel.nopp FftModel.nadd FftModel.nofZ]. rewrite !map_length, L0, L1, Q0, Q1, Nat.eqb_refl. cbn [bind]. fold (radd t0 (map Ropp (map IZR z0))) (radd t1 (map Ropp (map IZR z1))). fold e0 e1.
    unfold vecmatmul. change (FftModel.tofl RN) with (map IZR). rewrite Lg.
    rewrite !(mul_exact (S k)) by (rewrite ?map_length; auto; lia). cbn [bind]. unfold FftModel.add. cbn [RN FftModel.nadd FftModel.nofZ]. rewrite repeat_length, !rnegmul_length, Nat.eqb_refl. cbn [bind].
    fold (radd (repeat 0 (2 ^ S k)) (rnegmul (2 ^ S k) e0 (map IZR g))) (radd (repeat 0 (2 ^ S k)) (rnegmul (2 ^ S k) e0 (map IZR (map Z.opp f)))).
    rewrite !radd_zero by apply rnegmul_length. rewrite !rnegmul_length, Nat.eqb_refl. reflexivity.
  - intros i Hi. unfold v0. apply radd_nth with (n := (2 ^ S k)%nat); rewrite ?rnegmul_length; auto.
  - intros i Hi. unfold v1. rewrite radd_nth with (n := (2 ^ S k)%nat) by (rewrite ?rnegmul_length; auto). rewrite <- !zr_opp. rewrite !rnegmul_opp_nth. lra.
  - assert (P : 0 < 2 ^ S k) by (apply pow_lt; lra).
    assert (LV0 : length v0 = (2 ^ S k)%nat) by (unfold v0; rewrite radd_length; rewrite ?rnegmul_length; reflexivity). assert (LV1 : length v1 = (2 ^ S k)%nat) by (unfold v1; rewrite radd_length; rewrite ?rnegmul_length; reflexivity).
    assert (EQ : rsq v0 + rsq v1 = lsum dev c1).
    { apply Rmult_eq_reg_l with (2 ^ S k); [|lra]. rewrite Rmult_plus_distr_l. rewrite <- (parseval (S k) v0), <- (parseval (S k) v1) by assumption. rewrite <- lsum_add.
      cbn [lsum] in N. replace (2 ^ S k * lsum dev c1) with (2 ^ S k * (1 * 1) * (lsum dev c1 - 0)) by ring. rewrite <- N. apply lsum_ext. intros z Hz.
      rewrite <- (gram_square k f g F G Lf Lg LF LG E z (FftModel.csub RN (ev t0 z) (ev (map IZR z0) z)) (FftModel.csub RN (ev t1 z) (ev (map IZR z1) z)) Hz).
      pose proof (root_pow (S k) z Hz) as RP. unfold v0, v1. rewrite !ev_add by now rewrite !rnegmul_length. rewrite !ev_negmul by (rewrite ?map_length; auto).
      unfold e0, e1. rewrite !ev_sub by (rewrite map_length; congruence). reflexivity. }
    rewrite EQ. eapply Rle_trans; [exact Sum|]. right. field.
Qed.
Print Assumptions C82_close.

(** the hypotheses hold: the key of Props_Fft (n = 2), a target off the lattice; 16823 / 2 + 1 bounds (n / 2) gs_norm *)
Example C82_nontrivial : exists T z0 z1 v0 v1, key_tree RN xroots bf bg bF bG = Ok T /\ ffnp RN xroots T [1 / 3; 5 / 2] [10; -7 / 4] = Ok (z0, z1) /\
  diffB RN xroots bf bg bF bG [1 / 3; 5 / 2] [10; -7 / 4] z0 z1 = Ok (v0, v1) /\ rsq v0 + rsq v1 <= 16823.
Proof.
  destruct (C82_formats_agree 1 bf bg bF bG [1 / 3; 5 / 2] [10; -7 / 4] ltac:(lia) b_key eq_refl eq_refl) as (T & Tf & u0 & u1 & z0 & z1 & w0 & w1 & HT & _ & _ & _ & HZ & _).
  destruct C76_nontrivial as (x & Hx & Hb).
  destruct (C82_close 1 bf bg bF bG [1 / 3; 5 / 2] [10; -7 / 4] T z0 z1 x ltac:(lia) b_key eq_refl eq_refl Hx HT HZ) as (v0 & v1 & HD & _ & _ & N).
  exists T, z0, z1, v0, v1. split; [exact HT|]. split; [exact HZ|]. split; [exact HD|]. unfold dbl, FftModel.lit117 in Hb. cbn [fst snd pow] in *. lra.
Qed.
