(** Property theorems C74-C77: fft.py, ffsampling.py, the key tree and sample_preimage of falcon.py, gs_norm of ntrugen.py, in exact arithmetic.
    FftModel.v is generic in the kind of number; here the numbers are the real numbers ([RN], FftSpec.v) and the tables of roots of unity are the exact ones ([xroots]:
    roots_dict[n] obtained by taking principal square roots). 
    [rts k] are the 2^k roots, [ev f z] the value of f at z, [rnegmul n f g] the product modulo x^n + 1, [radj f] = f(1/x) modulo x^n + 1. *)
From Coq Require Import Reals Lra Lia.
From Verif Require Import Base HashModel RingSpec FalconModel FalconSpec FalconProofs RecoveryProofs Props_Falcon.
From Verif Require FftModel.
From Verif Require Import FftSpec FftProofs FftAlg FftTree FftSample FftKey FftGs.
Import List.
Open Scope R_scope.

(** * C74: the FFT *)
Lemma usqrt_inj z z' : unit z -> unit z' -> usqrt z = usqrt z' \/ usqrt z = ropp (usqrt z') -> z = z'.
Proof.
  intros U U' H. rewrite <- (usqrt_sq z U), <- (usqrt_sq z' U'). destruct H as [->| ->]; [reflexivity|]. rewrite ropp_copp. ring.
Qed.
Lemma usqrt_nz z : unit z -> usqrt z <> ropp (usqrt z).
Proof. intros U E. pose proof (usqrt_unit z U) as W. destruct (usqrt z) as [x y]. unfold ropp in E. cbn [fst snd] in E. injection E as E1 E2. unfold unit in W. cbn [fst snd] in W. nra. Qed.
(** the tables: 2^k distinct complex numbers whose 2^k-th power is -1 *)
Theorem C74_roots : forall k, length (rts k) = (2 ^ k)%nat /\ NoDup (rts k) /\ Forall (fun z => cpow z (2 ^ k) = (- 1, - 0)) (rts k).
Proof.
  intros k. split; [apply rts_length|]. split; [|exact (rts_root k)].
  induction k as [|k IH]; [constructor; [intros []|constructor]|]. cbn [rts]. pose proof (rts_unit k) as U. induction (rts k) as [|z l IHl]; [constructor|].
  apply NoDup_cons_iff in IH. destruct IH as [Hz Hl]. pose proof (Forall_inv U) as Uz. pose proof (Forall_inv_tail U) as Ul. cbn [flat_map app]. specialize (IHl Hl Ul).
  assert (N : forall w, w = usqrt z \/ w = ropp (usqrt z) -> ~ In w (flat_map (fun z => [usqrt z; ropp (usqrt z)]) l)).
  { intros w Hw Hin. apply in_flat_map in Hin. destruct Hin as (z' & Hz' & Hw'). apply Hz. replace z with z'; [exact Hz'|]. pose proof (proj1 (Forall_forall _ _) Ul z' Hz') as Uz'.
    apply usqrt_inj; auto. cbn [In] in Hw'. assert (RR : forall x, ropp (ropp x) = x) by (intros [p r]; unfold ropp; cbn [fst snd]; f_equal; ring).
    destruct Hw' as [Hw'|[Hw'|[]]]; destruct Hw as [Hw|Hw]; rewrite Hw in Hw'.
    - now left. - now right. - right. rewrite <- Hw', RR. reflexivity. - left. rewrite <- (RR (usqrt z')), Hw', RR. reflexivity. }
  constructor; [|constructor].
  - intros [E|Hin]; [symmetry in E; now apply usqrt_nz in E|]. apply (N (usqrt z)); auto.
  - apply N. now right.
  - exact IHl.
Qed.
Print Assumptions C74_roots.
(** fft lists the values at the roots, in the order of the table *)
Theorem C74_fft_evaluates : forall k f, (1 <= k)%nat -> length f = (2 ^ k)%nat -> FftModel.fft RN xroots f = Ok (map (ev f) (xroots (2 ^ k))).
Proof. intros k f Hk L. unfold xroots. rewrite log2_pow. exact (fft_rep k f Hk L). Qed.
Print Assumptions C74_fft_evaluates.
Theorem C74_ifft_fft : forall k f, (1 <= k)%nat -> length f = (2 ^ k)%nat -> bind (FftModel.fft RN xroots f) (FftModel.ifft RN xroots) = Ok f.
Proof. intros k f Hk L. rewrite (fft_rep k f Hk L). exact (ifft_rep k f Hk L). Qed.
Print Assumptions C74_ifft_fft.
(** conversely every vector which is conjugated by exchanging its two halves is the transform of what ifft returns *)
Theorem C74_fft_ifft : forall k h, length h = (2 ^ k)%nat -> exists f, FftModel.ifft RN xroots (h ++ map conj h) = Ok f /\ FftModel.fft RN xroots f = Ok (h ++ map conj h).
Proof.
  intros k h L. assert (LL : length (h ++ map conj h) = (2 ^ S k)%nat) by (rewrite app_length, map_length, L, Nat.pow_succ_r'; lia).
  destruct (herm_rep k (h ++ map conj h) LL (ex_intro _ h eq_refl)) as (f & Lf & E). exists f. rewrite E. split; [apply ifft_rep; auto; lia|apply fft_rep; auto; lia].
Qed.
Print Assumptions C74_fft_ifft.
Theorem C74_mul : forall k f g, (1 <= k)%nat -> length f = (2 ^ k)%nat -> length g = (2 ^ k)%nat -> FftModel.mul RN xroots f g = Ok (rnegmul (2 ^ k) f g).
Proof. exact mul_exact. Qed.
Print Assumptions C74_mul.
(** in particular on integer polynomials *)
Theorem C74_mul_integers : forall k f g, (1 <= k)%nat -> length f = (2 ^ k)%nat -> length g = (2 ^ k)%nat ->
  FftModel.mul RN xroots (map IZR f) (map IZR g) = Ok (map IZR (negmul (2 ^ k) f g)).
Proof. intros k f g Hk Lf Lg. rewrite (mul_exact k) by (rewrite ?map_length; auto). now rewrite zr_negmul. Qed.
Print Assumptions C74_mul_integers.
Theorem C74_div : forall k f g, (1 <= k)%nat -> length f = (2 ^ k)%nat -> length g = (2 ^ k)%nat -> (forall z, In z (rts k) -> ev g z <> (0, 0)) ->
  exists h, FftModel.div RN xroots f g = Ok h /\ length h = (2 ^ k)%nat /\ rnegmul (2 ^ k) h g = f.
Proof. exact div_exact. Qed.
Print Assumptions C74_div.
Theorem C74_adj : forall k f, (1 <= k)%nat -> length f = (2 ^ k)%nat -> FftModel.adj RN xroots f = Ok (radj f).
Proof. exact adj_exact. Qed.
Print Assumptions C74_adj.
(** splitfft and mergefft are the split into even and odd coefficients *)
Theorem C74_split_merge : forall k f, length f = (2 ^ S k)%nat ->
  FftModel.split_fft RN xroots (map (ev f) (rts (S k))) = (map (ev (FftModel.evens f)) (rts k), map (ev (FftModel.odds f)) (rts k)) /\
  FftModel.merge_fft RN xroots (map (ev (FftModel.evens f)) (rts k)) (map (ev (FftModel.odds f)) (rts k)) = map (ev f) (rts (S k)).
Proof.
  intros k f L. split; [exact (split_rep k f L)|]. destruct (len2 f k L) as [L0 L1]. pose proof (merge_rep k (FftModel.evens f) (FftModel.odds f) ltac:(congruence)) as M. unfold rep in M. rewrite M.
  rewrite merge_split; [reflexivity|]. rewrite L. apply even_2.
Qed.
Print Assumptions C74_split_merge.
(** the empty and the constant polynomial: the result variable is never assigned *)
Theorem C74_short : forall a, FftModel.fft_rec RN xroots 1 [] = Raise UnboundLocalError /\ FftModel.fft RN xroots [a] = Raise UnboundLocalError /\ FftModel.ifft_rec RN xroots 1 [] = Raise UnboundLocalError.
Proof. intros a. repeat split. Qed.
Example C74_nontrivial : FftModel.mul RN xroots [1; 2] [3; 4] = Ok [-5; 10].
Proof.
  assert (M : FftModel.mul RN xroots (map IZR [1; 2]%Z) (map IZR [3; 4]%Z) = Ok (map IZR (negmul (2 ^ 1) [1; 2]%Z [3; 4]%Z))) by (apply C74_mul_integers; [lia|reflexivity|reflexivity]).
  rewrite (eq_refl : negmul (2 ^ 1) [1; 2]%Z [3; 4]%Z = [-5; 10]%Z) in M. exact M.
Qed.

(** * C75: sampling and signing in exact arithmetic *)
(** __init__ succeeds on every solution of the NTRU equation *)
Theorem C75_key_succeeds : forall k f g F G sigma, (1 <= k)%nat -> ntru_key (2 ^ k) f g F G -> exists K, FftModel.init_key RN xroots sigma f g F G = Ok K.
Proof. intros [|k] f g F G sigma Hk (Lf & Lg & LF & LG & E & _); [lia|]. eexists. exact (init_key_exact k f g F G Lf Lg LF LG E sigma). Qed.
Print Assumptions C75_key_succeeds.
(** whatever the calls to samplerz return, the sampled vector is an integer combination of the rows of the basis: no exception is raised, and
    sampling fails to return only when one of these calls does not return *)
Theorem C75_sampling_exact : forall k f g F G sigma K St (sam : R -> R -> St -> option (Z * St)) point s, (1 <= k)%nat -> ntru_key (2 ^ k) f g F G ->
  FftModel.init_key RN xroots sigma f g F G = Ok K -> length point = (2 ^ k)%nat ->
  match FftModel.sample_v RN xroots St sam K point s with
  | Some (Ok (v0, v1, _)) => lattice_point (2 ^ k) f g F G v0 v1
  | Some (Raise _) => False
  | None => exists mu sg s, sam mu sg s = None
  end.
Proof.
  intros [|k] f g F G sigma K St sam point s Hk (Lf & Lg & LF & LG & E & _) HK Lp; [lia|].
  rewrite (init_key_exact k f g F G Lf Lg LF LG E sigma) in HK. assert (EK : exact_key k f g F G sigma = K) by congruence. subst K.
  exact (sample_v_lattice k f g F G Lf Lg LF LG sigma sam point s Lp).
Qed.
Print Assumptions C75_sampling_exact.
(** the sampling oracle of C27, C32, C34 computed this way: attempt i starts in state st i of the source of randomness *)
Definition computed_by {St} (K : FftModel.fkey (T := R)) (sam : R -> R -> St -> option (Z * St)) (st : nat -> St) (n : nat) (S : sampler) : Prop :=
  forall i c, length c = n -> exists s', FftModel.sample_v RN xroots St sam K c (st i) = Some (Ok (fst (S i c), snd (S i c), s')).
Lemma computed_lattice k f g F G sigma K St (sam : R -> R -> St -> option (Z * St)) st S : (1 <= k)%nat -> ntru_key (2 ^ k) f g F G ->
  FftModel.init_key RN xroots sigma f g F G = Ok K -> computed_by K sam st (2 ^ k) S -> forall i c, length c = (2 ^ k)%nat -> lattice_point (2 ^ k) f g F G (fst (S i c)) (snd (S i c)).
Proof.
  intros Hk NK HK HS i c Lc. pose proof (C75_sampling_exact k f g F G sigma K St sam c (st i) Hk NK HK Lc) as W. destruct (HS i c Lc) as [s' E]. now rewrite E in W.
Qed.
(** such an oracle exists as soon as the calls to samplerz return *)
Theorem C75_oracle_exists : forall k f g F G sigma K St (sam : R -> R -> St -> option (Z * St)) st, (1 <= k)%nat -> ntru_key (2 ^ k) f g F G ->
  FftModel.init_key RN xroots sigma f g F G = Ok K -> (forall mu sg s, sam mu sg s <> None) -> exists S, computed_by K sam st (2 ^ k) S.
Proof.
  intros k f g F G sigma K St sam st Hk NK HK Ht.
  exists (fun i c => match FftModel.sample_v RN xroots St sam K c (st i) with Some (Ok (v0, v1, _)) => (v0, v1) | _ => ([], []) end).
  intros i c Lc. pose proof (C75_sampling_exact k f g F G sigma K St sam c (st i) Hk NK HK Lc) as W.
  destruct (FftModel.sample_v RN xroots St sam K c (st i)) as [[[[v0 v1] s']|]|]; [exists s'; reflexivity|contradiction|]. destruct W as (mu & sg & s0 & E). now apply Ht in E.
Qed.
Print Assumptions C75_oracle_exists.
(** so every signature made with exact arithmetic verifies, in the three schemes *)
Lemma secret_pow n f g F G K : SecretKey n f g F G = Ok K -> exists k, (1 <= k)%nat /\ n = (2 ^ k)%nat.
Proof.
  unfold SecretKey. destruct (params n) as [[[b l] lg]|] eqn:E; [|discriminate]. intros _. destruct (params_facts _ _ _ _ E) as (k & Hk & Hn & _). exists k. split; [lia|exact Hn].
Qed.
Theorem C75_signatures_verify : forall n f g F G sigma SK P K St (sam : R -> R -> St -> option (Z * St)) st S fh fuel fv rb msg X sig,
  ntru_key n f g F G -> SecretKey n f g F G = Ok SK -> PublicKey n (sk_h SK) = Ok P ->
  FftModel.init_key RN xroots sigma f g F G = Ok K -> computed_by K sam st n S ->
  length (rb 40%nat) = 40%nat -> sign fh fuel SK S rb msg X = Fin (Ok sig) -> (fh <= fv)%nat -> verify fv P msg sig X = Fin (Ok true).
Proof.
  intros n f g F G sigma SK P K St sam st S fh fuel fv rb msg X sig NK HSK HP HK HS Hrb E Hf. destruct (secret_pow _ _ _ _ _ _ HSK) as (k & Hk & ->).
  eapply (C27_falcon_completeness (2 ^ k) f g F G SK P S); eauto. exact (computed_lattice k f g F G sigma K St sam st S Hk NK HK HS).
Qed.
Print Assumptions C75_signatures_verify.
Theorem C75_recovery_verifies : forall H n f g F G sigma SK P K St (sam : R -> R -> St -> option (Z * St)) st S fh fuel fv rb msg X sig,
  ntru_key n f g F G -> SecretKey n f g F G = Ok SK -> RecoveryModePublicKey n (rec_pk H SK) = Ok P ->
  FftModel.init_key RN xroots sigma f g F G = Ok K -> computed_by K sam st n S ->
  length (rb 40%nat) = 40%nat -> rec_sign fh fuel SK S rb msg X = Fin (Ok sig) -> (fh <= fv)%nat ->
  recover H fv P msg sig X = Fin (Ok (Some (rec_pk H SK))) /\ rec_verify H fv P msg sig X = Fin (Ok true).
Proof.
  intros H n f g F G sigma SK P K St sam st S fh fuel fv rb msg X sig NK HSK HP HK HS Hrb E Hf. destruct (secret_pow _ _ _ _ _ _ HSK) as (k & Hk & ->).
  eapply (C32_recovery_completeness H (2 ^ k) f g F G SK P S); eauto. exact (computed_lattice k f g F G sigma K St sam st S Hk NK HK HS).
Qed.
Print Assumptions C75_recovery_verifies.
Theorem C75_epervier_verifies : forall H n f g F G sigma SK P K St (sam : R -> R -> St -> option (Z * St)) st S fh fuel fv rb msg X sig,
  ntru_key n f g F G -> SecretKey n f g F G = Ok SK -> RecoveryModePublicKey n (ep_pk H SK) = Ok P ->
  FftModel.init_key RN xroots sigma f g F G = Ok K -> computed_by K sam st n S ->
  length (rb 40%nat) = 40%nat -> rec_sign fh fuel SK S rb msg X = Fin (Ok sig) -> (fh <= fv)%nat ->
  ep_recover H fv P msg sig X = Fin (Ok (Some (ep_pk H SK))) /\ ep_verify H fv P msg sig X = Fin (Ok true).
Proof.
  intros H n f g F G sigma SK P K St sam st S fh fuel fv rb msg X sig NK HSK HP HK HS Hrb E Hf. destruct (secret_pow _ _ _ _ _ _ HSK) as (k & Hk & ->).
  eapply (C34_epervier_completeness H (2 ^ k) f g F G SK P S); eauto. exact (computed_lattice k f g F G sigma K St sam st S Hk NK HK HS).
Qed.
Print Assumptions C75_epervier_verifies.
(** a key of the smallest parameter set whose two halves are balanced *)
Definition bf := [55; 54]%Z. Definition bg := [57; 56]%Z. Definition bF := [-75; 47]%Z. Definition bG := [36; -63]%Z.
Lemma b_key : ntru_key (2 ^ 1) bf bg bF bG.
Proof.
  unfold ntru_key. change (2 ^ 1)%nat with 2%nat. repeat split. exists [664; 1359]%Z. split; [reflexivity|].
  intros i Hi. destruct i as [|[|i]]; [exists (-3)%Z; vm_compute; reflexivity|exists 9%Z; vm_compute; reflexivity|lia].
Qed.
(** a sampler which always returns 3: its hypotheses hold, and the oracle exists *)
Example C75_nontrivial : exists K S, FftModel.init_key RN xroots 144 bf bg bF bG = Ok K /\ computed_by K (fun _ _ (s : Datatypes.unit) => Some (3%Z, s)) (fun _ => tt) 2 S.
Proof.
  destruct (C75_key_succeeds 1 bf bg bF bG 144 ltac:(lia) b_key) as [K HK]. exists K.
  destruct (C75_oracle_exists 1 bf bg bF bG 144 K Datatypes.unit (fun _ _ s => Some (3%Z, s)) (fun _ => tt) ltac:(lia) b_key HK ltac:(discriminate)) as [S HS]. exists S. split; [exact HK|exact HS].
Qed.

(** * C76: the standard deviations given to samplerz *)
(** the double precision numbers of the parameter table and of the test in ntru_gen, as real numbers *)
Definition dbl (x : Z * Z) : R := IZR (fst x) / IZR (snd x).
(** the numbers of the table: sigmin * 1.17 * sqrt q <= sigma, and sigma * 1.17 / sqrt q <= MAX_SIGMA *)
Lemma table_ok n sg sm : FftModel.params_float n = Some (sg, sm) ->
  0 < dbl sg /\ 1 < dbl sm /\ dbl sm * dbl sm * (dbl FftModel.lit117 * dbl FftModel.lit117 * 12289) <= dbl sg * dbl sg /\
  dbl sg * dbl sg * (dbl FftModel.lit117 * dbl FftModel.lit117 * 12289) <= dbl FftModel.max_sigma * dbl FftModel.max_sigma * (12289 * 12289).
Proof.
  unfold FftModel.params_float. intros H.
  repeat match type of H with (if ?b then _ else _) = _ => destruct b end; try discriminate H;
  injection H as <- <-; unfold dbl, FftModel.lit117, FftModel.max_sigma; cbn [fst snd]; repeat split; lra.
Qed.
(** For every key which passes the test of ntru_gen, gs_norm(f, g, q) <= 1.17^2 q, every leaf of the normalised tree is a real number in
    [sigmin, MAX_SIGMA], as samplerz requires of its standard deviation *)
Theorem C76_leaf_range : forall k f g F G sg sm K x, (1 <= k)%nat -> ntru_key (2 ^ k) f g F G -> FftModel.params_float (2 ^ k) = Some (sg, sm) ->
  FftModel.gs_norm RN xroots f g 12289 = Ok x -> x <= dbl FftModel.lit117 * dbl FftModel.lit117 * 12289 ->
  FftModel.init_key RN xroots (dbl sg) f g F G = Ok K ->
  Forall (fun y => snd y = 0 /\ dbl sm <= fst y <= dbl FftModel.max_sigma) (leaves (FftModel.T_fft K)).
Proof.
  intros [|k] f g F G sg sm K x Hk (Lf & Lg & LF & LG & E & _) HP Hg Hx HK; [lia|]. rewrite (init_key_exact k f g F G Lf Lg LF LG E (dbl sg)) in HK.
  assert (EK : exact_key k f g F G (dbl sg) = K) by congruence. subst K. destruct (table_ok _ _ _ HP) as (P1 & P2 & P3 & P4).
  apply (sigma_range k f g F G Lf Lg LF LG E (dbl sg) (dbl sm) (dbl FftModel.max_sigma) (dbl FftModel.lit117 * dbl FftModel.lit117 * 12289) x); auto; try lra.
  unfold dbl, FftModel.max_sigma. cbn [fst snd]. lra.
Qed.
Print Assumptions C76_leaf_range.
(** before normalisation: positive real numbers, for every solution of the NTRU equation (so the square roots and quotients are defined) *)
Theorem C76_leaves_positive : forall k f g F G sigma K, (1 <= k)%nat -> ntru_key (2 ^ k) f g F G -> 0 < sigma -> FftModel.init_key RN xroots sigma f g F G = Ok K ->
  exists t, FftModel.T_fft K = FftModel.normalize_tree RN sigma t /\ shape k t /\ Forall (fun y => snd y = 0 /\ 0 < fst y) (leaves t).
Proof.
  intros [|k] f g F G sigma K Hk (Lf & Lg & LF & LG & E & _) Hs HK; [lia|]. rewrite (init_key_exact k f g F G Lf Lg LF LG E sigma) in HK.
  assert (EK : exact_key k f g F G sigma = K) by congruence. subst K. exists (exact_tree k f g F G). split; [reflexivity|]. split.
  - unfold exact_tree. cbn [shape]. rewrite map_length, rts_length. repeat split; apply dtree_shape.
  - eapply Forall_impl; [|eapply (leaves_range k f g F G Lf Lg LF LG E); [apply (gs_norm_exact k f g F G Lf Lg LF LG E)|apply Rle_refl]]. cbn beta. tauto.
Qed.
Print Assumptions C76_leaves_positive.
(** what gs_norm computes: the larger of the two squared lengths, |(g, -f)|^2 and that of the orthogonal part of (G, -F) *)
Theorem C76_gs_norm : forall k f g F G, ntru_key (2 ^ S k) f g F G ->
  FftModel.gs_norm RN xroots f g 12289 =
  Ok (Rmax (IZR (sqnorm f) + IZR (sqnorm g)) (lsum (fun z => 12289 * 12289 / (cabs2 (ev (map IZR f) z) + cabs2 (ev (map IZR g) z))) (rts (S k)) / 2 ^ S k)).
Proof.
  intros k f g F G (Lf & Lg & LF & LG & E & _). rewrite (gs_norm_exact k f g F G Lf Lg LF LG E). f_equal.
  assert (SQ : forall v, sqn v = IZR (sqnorm v)).
  { intros v. unfold sqn, rsq. induction v as [|c v IH]; [reflexivity|]. cbn [map lsum sqnorm fold_right]. fold (sqnorm v). rewrite IH, plus_IZR. replace (c ^ 2)%Z with (c * c)%Z by ring. now rewrite mult_IZR. }
  f_equal; [rewrite (mean0 k f g Lf Lg); now rewrite !SQ|]. unfold mean. f_equal. apply lsum_ext. intros z _. unfold diag1. now rewrite (D0_ev f g z).
Qed.
Print Assumptions C76_gs_norm.
Example C76_nontrivial : exists x, FftModel.gs_norm RN xroots bf bg 12289 = Ok x /\ x <= dbl FftModel.lit117 * dbl FftModel.lit117 * 12289.
Proof.
  pose proof (C76_gs_norm 0 bf bg bF bG b_key) as E. eexists. split; [exact E|].
  assert (R0 : r0 = (0, 1)). { unfold r0, usqrt. cbn [fst snd]. replace ((1 + -1) / 2) with 0 by lra. replace ((1 - -1) / 2) with 1 by lra. rewrite sqrt_0, sqrt_1. destruct (Rle_dec 0 0); [reflexivity|lra]. }
  change (rts 1) with [r0; ropp r0]. rewrite R0. unfold bf, bg, cabs2, ropp, dbl, FftModel.lit117. cbn [lsum map ev fst snd pow]. unfold cmulx. cbn [fst snd]. apply Rmax_lub.
  - change (sqnorm [55; 54]%Z) with 5941%Z. change (sqnorm [57; 56]%Z) with 6385%Z. lra.
  - match goal with |- (12289 * 12289 / ?a + (12289 * 12289 / ?b + 0)) / _ <= _ => replace a with 12326 by ring; replace b with 12326 by ring end. lra.
Qed.

(** * C77: the norm of the sampled vector *)
(** The squared norm of s = (point, 0) - v is sigma^2 times the sum, over the 2n calls to samplerz, of the squared deviation of the result from the
    centre in units of the standard deviation of the call: a product of Gaussian weights exp(-((z - mu)/sg)^2/2) is exp(-|s|^2 / (2 sigma^2)) *)
Theorem C77_norm : forall k f g F G sigma K St (sam : R -> R -> St -> option (Z * St)) point s v0 v1 s' calls, (1 <= k)%nat -> ntru_key (2 ^ k) f g F G -> 0 < sigma ->
  FftModel.init_key RN xroots sigma f g F G = Ok K -> length point = (2 ^ k)%nat ->
  FftModel.sample_v RN xroots (St * list (R * R * Z)) (logged sam) K point (s, []) = Some (Ok (v0, v1, (s', calls))) ->
  IZR (sqnorm (psub (2 ^ k) point v0) + sqnorm v1) = sigma * sigma * lsum dev calls /\ length calls = (2 * 2 ^ k)%nat /\
  FftModel.sample_v RN xroots St sam K point s = Some (Ok (v0, v1, s')).
Proof.
  intros [|k] f g F G sigma K St sam point s v0 v1 s' calls Hk (Lf & Lg & LF & LG & E & _) Hs HK Lp H; [lia|]. rewrite (init_key_exact k f g F G Lf Lg LF LG E sigma) in HK.
  assert (EK : exact_key k f g F G sigma = K) by congruence. subst K. clear HK.
  assert (SQ : forall v, sqn v = IZR (sqnorm v)).
  { intros v. unfold sqn, rsq. induction v as [|c v IH]; [reflexivity|]. cbn [map lsum sqnorm fold_right]. fold (sqnorm v). rewrite IH, plus_IZR. replace (c ^ 2)%Z with (c * c)%Z by ring. now rewrite mult_IZR. }
  split; [|split].
  - pose proof (sample_v_norm k f g F G Lf Lg LF LG E sigma sam point s [] Hs Lp) as N. rewrite H in N. cbn [lsum] in N. rewrite plus_IZR, <- !SQ, N. ring.
  - rewrite (sample_v_exact k f g F G Lf Lg LF LG sigma (logged sam) point _ Lp) in H. destruct (tgt_length k f F point) as [T0 T1].
    destruct (FftModel.ffsampling_fft RN xroots _ (logged sam) (FftModel.normalize_tree RN sigma (exact_tree k f g F G)) (rep (S k) (tgt0 k F point)) (rep (S k) (tgt1 k f point)) (s, [])) as [[[[z0 z1] [s1 c1]]|]|] eqn:EF; try discriminate H.
    destruct (ffs_calls sam _ (S k) _ _ s [] z0 z1 s1 c1 (tree_shape k f g F G sigma) (rep_length _ _) (rep_length _ _) EF) as (new & Ec & Ln & _). rewrite app_nil_r in Ec. subst new.
    destruct (ffs_int (logged sam) _ (S k) _ _ _ z0 z1 _ (rep_length (S k) (tgt0 k F point)) (rep_length (S k) (tgt1 k f point)) EF) as (p0 & p1 & Q0 & Q1 & -> & ->).
    rewrite finish_exact in H by assumption. assert (Q : calls = c1) by congruence. rewrite Q. exact Ln.
  - rewrite (sample_v_exact k f g F G Lf Lg LF LG sigma (logged sam) point _ Lp) in H. rewrite (sample_v_exact k f g F G Lf Lg LF LG sigma sam point _ Lp).
    pose proof (ffs_logged sam (FftModel.normalize_tree RN sigma (exact_tree k f g F G)) (rep (S k) (tgt0 k F point)) (rep (S k) (tgt1 k f point)) s []) as W.
    destruct (FftModel.ffsampling_fft RN xroots _ (logged sam) (FftModel.normalize_tree RN sigma (exact_tree k f g F G)) (rep (S k) (tgt0 k F point)) (rep (S k) (tgt1 k f point)) (s, [])) as [[[[z0 z1] [s1 c1]]|]|] eqn:EF; try discriminate H.
    rewrite W. destruct (ffs_int (logged sam) _ (S k) _ _ _ z0 z1 _ (rep_length (S k) (tgt0 k F point)) (rep_length (S k) (tgt1 k f point)) EF) as (p0 & p1 & Q0 & Q1 & -> & ->).
    rewrite finish_exact in H by assumption. rewrite finish_exact by assumption. congruence.
Qed.
Print Assumptions C77_norm.
(** A sampler whose results stay within delta of the centre gives a vector of squared norm at most 2 n delta^2 B, where B bounds gs_norm *)
Theorem C77_norm_bound : forall k f g F G sigma K St (sam : R -> R -> St -> option (Z * St)) point s v0 v1 s' delta B x, (1 <= k)%nat -> ntru_key (2 ^ k) f g F G -> 0 < sigma ->
  FftModel.init_key RN xroots sigma f g F G = Ok K -> length point = (2 ^ k)%nat -> FftModel.gs_norm RN xroots f g 12289 = Ok x -> x <= B ->
  (forall mu sg r z r', sam mu sg r = Some (z, r') -> Rabs (IZR z - mu) <= delta) ->
  FftModel.sample_v RN xroots St sam K point s = Some (Ok (v0, v1, s')) ->
  IZR (sqnorm (psub (2 ^ k) point v0) + sqnorm v1) <= 2 * 2 ^ k * (delta * delta) * B.
Proof.
  intros [|k] f g F G sigma K St sam point s v0 v1 s' delta B x Hk NK Hs HK Lp Hg Hx Hd H; [lia|]. pose proof NK as (Lf & Lg & LF & LG & E & _).
  pose proof (init_key_exact k f g F G Lf Lg LF LG E sigma) as HK'. assert (EK : exact_key k f g F G sigma = K) by congruence. subst K. clear HK.
  (* the run with recorded calls *)
  pose proof (sample_v_exact k f g F G Lf Lg LF LG sigma sam point s Lp) as V. rewrite V in H. clear V.
  pose proof (sample_v_exact k f g F G Lf Lg LF LG sigma (logged sam) point (s, []) Lp) as VL.
  pose proof (ffs_logged sam (FftModel.normalize_tree RN sigma (exact_tree k f g F G)) (rep (S k) (tgt0 k F point)) (rep (S k) (tgt1 k f point)) s []) as W.
  destruct (FftModel.ffsampling_fft RN xroots _ (logged sam) (FftModel.normalize_tree RN sigma (exact_tree k f g F G)) (rep (S k) (tgt0 k F point)) (rep (S k) (tgt1 k f point)) (s, [])) as [[[[z0 z1] [s1 c1]]|]|] eqn:EF;
    rewrite W in H; try discriminate H.
  destruct (ffs_int (logged sam) _ (S k) _ _ _ z0 z1 _ (rep_length (S k) (tgt0 k F point)) (rep_length (S k) (tgt1 k f point)) EF) as (p0 & p1 & Q0 & Q1 & -> & ->).
  rewrite finish_exact in H, VL by assumption. assert (Ev : v0 = vec0 k g G p0 p1 /\ v1 = vec1 k f F p0 p1) by (split; congruence). destruct Ev as [-> ->].
  destruct (C77_norm (S k) f g F G sigma _ St sam point s _ _ s1 c1 Hk NK Hs HK' Lp VL) as (N & Ln & _). rewrite N.
  destruct (ffs_calls sam _ (S k) _ _ s [] _ _ s1 c1 (tree_shape k f g F G sigma) (rep_length _ _) (rep_length _ _) EF) as (new & Ec & _ & FC). rewrite app_nil_r in Ec. subst new.
  pose proof (leaves_range k f g F G Lf Lg LF LG E B x Hg Hx) as LR. rewrite leaves_normalize in FC.
  assert (Each : forall c, In c c1 -> dev c <= delta * delta * B / (sigma * sigma)).
  { intros [[mu sg] z] Hc. destruct (proj1 (Forall_forall _ _) FC _ Hc) as [(y & Hy & ->) (r & r' & Hr)]. apply in_map_iff in Hy. destruct Hy as (y0 & <- & Hy0). cbn [fst] in *.
    destruct (proj1 (Forall_forall _ _) LR y0 Hy0) as (_ & Py & _ & Yb). unfold dev. pose proof (sqrt_lt_R0 _ Py) as Pr. pose proof (sqrt_sqrt (fst y0) ltac:(lra)) as Sq. set (rr := sqrt (fst y0)) in *.
    replace ((IZR z - mu) / (sigma / rr) * ((IZR z - mu) / (sigma / rr))) with ((IZR z - mu) * (IZR z - mu) * (rr * rr) / (sigma * sigma)) by (field; split; lra). rewrite Sq.
    unfold Rdiv. apply Rmult_le_compat_r; [left; apply Rinv_0_lt_compat; nra|].
    pose proof (Hd _ _ _ _ _ Hr) as Hz. assert (A : (IZR z - mu) * (IZR z - mu) <= delta * delta).
    { rewrite <- (Rabs_mult_self (IZR z - mu)) || idtac. pose proof (Rabs_pos (IZR z - mu)) as Pa. replace ((IZR z - mu) * (IZR z - mu)) with (Rabs (IZR z - mu) * Rabs (IZR z - mu)); [nra|]. unfold Rabs. destruct (Rcase_abs (IZR z - mu)); ring. }
    nra. }
  assert (Sum : forall l : list (R * R * Z), (forall c, In c l -> dev c <= delta * delta * B / (sigma * sigma)) -> lsum dev l <= INR (length l) * (delta * delta * B / (sigma * sigma))).
  { induction l as [|c l IH]; intros Hl; [cbn; lra|]. change (length (c :: l)) with (S (length l)). rewrite S_INR. cbn [lsum]. specialize (IH (fun c0 Hc0 => Hl c0 (or_intror Hc0))). specialize (Hl c (or_introl eq_refl)). lra. }
  specialize (Sum c1 Each). rewrite Ln in Sum.
  assert (IN : INR (2 * 2 ^ S k) = 2 * 2 ^ S k) by (rewrite mult_INR, pow_INR; reflexivity). rewrite IN in Sum.
  apply Rle_trans with (sigma * sigma * (2 * 2 ^ S k * (delta * delta * B / (sigma * sigma)))); [apply Rmult_le_compat_l; [nra|exact Sum]|]. right. field. lra.
Qed.
Print Assumptions C77_norm_bound.
(** the hypotheses hold: a sampler which always rounds to the nearest integer, delta = 1/2, with the balanced key *)
Lemma rround_half x : Rabs (IZR (rround x) - x) <= 1 / 2.
Proof.
  unfold rround. destruct (base_Int_part x) as [B1 B2]. set (i := Int_part x) in *.
  repeat match goal with |- context[if ?b then _ else _] => destruct b end; rewrite ?plus_IZR; apply Rabs_le; split; try lra.
Qed.
Example C77_nontrivial : exists K v0 v1, FftModel.init_key RN xroots 144 bf bg bF bG = Ok K /\
  FftModel.sample_v RN xroots Datatypes.unit (fun mu _ s => Some (rround mu, s)) K [1000; 2000]%Z tt = Some (Ok (v0, v1, tt)) /\
  IZR (sqnorm (psub 2 [1000; 2000]%Z v0) + sqnorm v1) <= 16823.
Proof.
  destruct (C75_key_succeeds 1 bf bg bF bG 144 ltac:(lia) b_key) as [K HK]. exists K.
  pose proof (C75_sampling_exact 1 bf bg bF bG 144 K Datatypes.unit (fun mu _ s => Some (rround mu, s)) [1000; 2000]%Z tt ltac:(lia) b_key HK eq_refl) as W.
  destruct (FftModel.sample_v RN xroots Datatypes.unit (fun mu _ s => Some (rround mu, s)) K [1000; 2000]%Z tt) as [[[[v0 v1] []]|]|] eqn:E; [|contradiction|destruct W as (? & ? & ? & ?); discriminate].
  exists v0, v1. split; [exact HK|]. split; [reflexivity|]. destruct C76_nontrivial as (x & Hx & Hb).
  pose proof (C77_norm_bound 1 bf bg bF bG 144 K Datatypes.unit (fun mu _ s => Some (rround mu, s)) [1000; 2000]%Z tt v0 v1 tt (1 / 2) _ x ltac:(lia) b_key ltac:(lra) HK eq_refl Hx Hb) as N.
  change (2 ^ 1)%nat with 2%nat in N. eapply Rle_trans; [apply N; [|exact E]|].
  - intros mu sg r z r' H. assert (Ez : z = rround mu) by congruence. rewrite Ez. apply rround_half.
  - unfold dbl, FftModel.lit117. cbn [fst snd pow]. lra.
Qed.
