(** Proofs about the verifier contracts. *)

From Verif Require Import Base KeccakModel HashModel NttModel NttTables NttTables1024 NttProofs NttInst NttApi RingSpec Ring PolyProofs NtruProofs PolyModel PolyModelProofs EncodingModel
  FalconModel FalconSpec FalconProofs SolModel SolSpec PackProofs ChachaProofs.
Require Import Coq.setoid_ring.Ring Setoid Morphisms.

(** * Loops over byte offsets *)
Lemma for_lt_fold {A} (body : Z -> A -> A) m : forall fuel o lim a, (m <= fuel)%nat -> (forall i, (i < m)%nat -> o + 32 * Z.of_nat i < lim) ->
  (m = fuel \/ lim <= o + 32 * Z.of_nat m) ->
  for_lt fuel o lim 32 body a = fold_left (fun a i => body (o + 32 * Z.of_nat i) a) (seq 0 m) a.
Proof.
  induction m as [|m IH]; intros fuel o lim a Hf Hlt Hend.
  - destruct fuel; [reflexivity|]. cbn [for_lt seq fold_left]. destruct (Z.ltb_spec o lim); [lia|reflexivity].
  - destruct fuel as [|fuel]; [lia|]. cbn [for_lt]. pose proof (Hlt 0%nat ltac:(lia)) as H0.
    destruct (Z.ltb_spec o lim); [|lia]. rewrite (IH fuel (o + 32)).
    + cbn [seq fold_left]. rewrite <- seq_shift.
      replace (o + 32 * Z.of_nat 0) with o by lia.
      generalize (body o a). generalize (seq 0 m). intros l. induction l as [|x l IHl]; intros b; [reflexivity|].
      cbn [map fold_left]. rewrite IHl. f_equal. f_equal. lia.
    + lia.
    + intros i Hi. specialize (Hlt (S i) ltac:(lia)). lia.
    + destruct Hend; [left; lia|right; lia].
Qed.
Lemma for_lt_stop {A} fuel o lim step (body : Z -> A -> A) a : lim <= o -> for_lt fuel o lim step body a = a.
Proof. intros H. destruct fuel; [reflexivity|]. cbn [for_lt]. destruct (Z.ltb_spec o lim); [lia|reflexivity]. Qed.
Lemma at_off_nth a i : at_off a (32 + 32 * Z.of_nat i) = nth i a 0.
Proof.
  unfold at_off. f_equal. replace (32 + 32 * Z.of_nat i) with ((1 + Z.of_nat i) * 32) by lia. rewrite Z.div_mul by lia. lia.
Qed.

(** * The centred norm *)
Lemma csq_bound x : 0 <= x < 65536 -> 0 <= csq x < 2 ^ 32.
Proof. intros H. unfold csq. destruct (Z.ltb_spec 6144 x); nia. Qed.
Lemma norm_add_csq x norm : 0 <= x < 65536 -> 0 <= norm < 2 ^ 200 -> norm_add x norm = norm + csq x.
Proof.
  intros Hx Hn. unfold norm_add, evm_gt, qs1, csq. change qf with 12289.
  assert (P : 2 ^ 200 + 2 ^ 32 < two256) by (vm_compute; reflexivity).
  assert (P0 : 2 ^ 32 < two256) by (vm_compute; reflexivity).
  assert (B := csq_bound x Hx). unfold csq in B.
  destruct (Z.ltb_spec 6144 x) as [L|L].
  - unfold evm_add, evm_mul, evm_sub. change ((1 - 1) mod two256) with 0. rewrite Z.mul_1_l, Z.mul_0_l. change (0 mod two256) with 0.
    rewrite Z.add_0_r. rewrite !Z.mod_mod by lia.
    replace (((12289 - x) mod two256 * ((12289 - x) mod two256)) mod two256) with ((12289 - x) ^ 2).
    + apply Z.mod_small. lia.
    + rewrite <- Zmult_mod. rewrite Z.mod_small by lia. ring.
  - unfold evm_add, evm_mul, evm_sub. change ((1 - 0) mod two256) with 1. rewrite Z.mul_0_l. change (0 mod two256) with 0.
    rewrite Z.add_0_l, Z.mul_1_l. rewrite (Z.mod_small x) by lia. rewrite (Z.mod_small x) by lia. rewrite (Z.mod_small (x * x)) by lia.
    rewrite Z.mod_small by lia. ring.
Qed.
Lemma sum_csq_app a b : sum_csq (a ++ b) = sum_csq a + sum_csq b.
Proof. induction a; cbn [sum_csq fold_right app]; [unfold sum_csq; lia|]. unfold sum_csq in *. lia. Qed.
Lemma sum_csq_bound l : Forall dig l -> 0 <= sum_csq l <= Z.of_nat (length l) * 2 ^ 32.
Proof.
  induction 1 as [|x l Hx _ IH]; [cbn; lia|]. cbn [sum_csq fold_right length]. rewrite Nat2Z.inj_succ. pose proof (csq_bound x Hx). unfold sum_csq in IH. lia.
Qed.
Lemma norm_fold {B} (f : B -> Z) (g : B -> Z -> Z) l : (forall b n, In b l -> g b n = norm_add (f b) n) -> (forall b, In b l -> dig (f b)) ->
  Z.of_nat (length l) <= 2 ^ 20 -> forall n0, 0 <= n0 < 2 ^ 100 ->
  fold_left (fun a b => g b a) l n0 = n0 + sum_csq (map f l).
Proof.
  intros Hg Hd. assert (G : Z.of_nat (length l) <= 2 ^ 20 -> forall n0, 0 <= n0 < 2 ^ 199 - Z.of_nat (length l) * 2 ^ 32 ->
    fold_left (fun a b => g b a) l n0 = n0 + sum_csq (map f l)).
  { clear - Hg Hd. induction l as [|b l IH]; intros HL n0 H0; [cbn; lia|].
    cbn [length] in *. rewrite Nat2Z.inj_succ in *. cbn [fold_left map].
    pose proof (csq_bound (f b) (Hd b (or_introl eq_refl))) as C.
    assert (P : 2 ^ 199 < 2 ^ 200) by (vm_compute; reflexivity).
    rewrite Hg by (left; auto). rewrite norm_add_csq; [|apply Hd; left; auto|nia].
    rewrite IH; [cbn [sum_csq fold_right]; unfold sum_csq; lia|intros; apply Hg; right; auto|intros; apply Hd; right; auto|lia|lia]. }
  intros HL n0 H0. apply G; auto. assert (2 ^ 100 + 2 ^ 20 * 2 ^ 32 < 2 ^ 199) by (vm_compute; reflexivity). nia.
Qed.
Lemma csq_centre x : 0 <= x < 12289 -> csq x = centre x ^ 2.
Proof.
  intros H. unfold csq. rewrite centre_eq. destruct (Z.ltb_spec 6144 x).
  - replace (x + 6144) with ((x - 6145) + 1 * 12289) by lia. rewrite Z.mod_add by lia. rewrite Z.mod_small by lia. nia.
  - rewrite Z.mod_small by lia. nia.
Qed.
Lemma sum_csq_centre l : canonq l -> sum_csq l = sqnorm (map centre l).
Proof.
  induction 1 as [|x l Hx _ IH]; [reflexivity|]. cbn [sum_csq fold_right map]. unfold sqnorm. cbn [fold_right].
  rewrite csq_centre by auto. unfold sum_csq, sqnorm in IH. now rewrite IH.
Qed.
Lemma canonq_dig l : canonq l -> Forall dig l.
Proof. intros H. eapply Forall_impl; [|exact H]. cbn beta. unfold dig. intros; lia. Qed.

(** * The transform of the contracts is Python's *)
Lemma psip_psis i : (i < 512)%nat -> psip i = psis i.
Proof. intros H. unfold psip, psis, psip_table. apply app_nth1. rewrite (proj1 tables_length). exact H. Qed.
Lemma psiip_psiis i : (i < 512)%nat -> psiip i = psiis i.
Proof. intros H. unfold psiip, psiis, psiip_table. apply app_nth1. rewrite (proj2 tables_length). exact H. Qed.
Lemma ntt_chain a : length a = 512%nat -> NTTFW_vectorized a = ntt a.
Proof.
  intros L. rewrite vectorized_flat. unfold ntt. rewrite L. unfold nttfw. change q with qf.
  apply fw_loop_table; [intros i _ Hi; symmetry; apply psip_psis; auto|exists 9%nat; reflexivity].
Qed.
Lemma K9 : (1 <= 9 <= 10)%nat. Proof. lia. Qed.
Lemma N9 : 512%nat = (2 ^ 9)%nat. Proof. reflexivity. Qed.
Lemma inv512 : inv_q (Z.of_nat 512) = nm1modq. Proof. vm_compute. reflexivity. Qed.
Lemma intt_chain a : length a = 512%nat -> NTTINV_vectorized a = intt a.
Proof.
  intros L. rewrite vectorized_inv_flat. unfold intt. rewrite L, inv512. unfold nttinv. change q with qf.
  pose proof (inv_loop_table qf psiis psiip 512 512 1 9 a (fun i Hi => eq_sym (psiip_psiis i Hi)) (le_n 512)) as E.
  replace (2 ^ 9)%nat with 512%nat in E by reflexivity. rewrite E. reflexivity.
Qed.
Lemma VECMULMOD_cong a b b' : pcong 512 12289 b b' -> VECMULMOD a b = VECMULMOD a b'.
Proof.
  intros H. unfold VECMULMOD, vecmul, nf. apply map_ext_in. intros i Hi. apply in_seq in Hi.
  destruct (H i ltac:(lia)) as [c Hc]. unfold coef in Hc. change qf with 12289.
  replace (nth i a 0 * nth i b 0) with (nth i a 0 * nth i b' 0 + (nth i a 0 * c) * 12289) by (replace (nth i b 0) with (nth i b' 0 + c * 12289) by lia; ring).
  now rewrite Z.mod_add by lia.
Qed.

(** the product computed by the half multiplication *)
Theorem halfmul_spec s2w ntthw s2 nh h : length s2w = 32%nat -> length ntthw = 32%nat -> packed s2w s2 -> packed ntthw nh ->
  length h = 512%nat -> pcong 512 12289 nh (ntt h) -> Expand (HALFMUL_Compact s2w ntthw) = mod_q (negmul 512 s2 h).
Proof.
  intros L2 Ln P2 Pn Lh C. unfold HALFMUL_Compact. rewrite (Expand_packed s2w s2), (Expand_packed ntthw nh) by auto.
  assert (Ls : length s2 = 512%nat) by (destruct P2 as (E & _); rewrite L2 in E; exact E).
  rewrite (VECMULMOD_cong _ nh (ntt h)) by auto. rewrite (ntt_chain s2) by auto.
  assert (LV : length (VECMULMOD (ntt s2) (ntt h)) = 512%nat) by (unfold VECMULMOD; apply vecmul_len).
  rewrite intt_chain by auto.
  replace (intt (VECMULMOD (ntt s2) (ntt h))) with (poly_mul s2 h).
  - rewrite (poly_mul_spec 9 K9 512 N9) by auto. apply Expand_Compact; [rewrite mod_q_length; apply negmul_length|]. apply canonq_dig, mod_q_canon.
  - unfold poly_mul, vec_mul, VECMULMOD. rewrite (ntt_length 9 K9 512 N9) by auto. reflexivity.
Qed.

(** * falcon_core *)
Lemma sqnorm_firstn_le k v : sqnorm (firstn k v) <= sqnorm v.
Proof.
  rewrite <- (firstn_skipn k v) at 2. generalize (firstn k v) (skipn k v). intros a b. induction a as [|x a IH]; cbn [app]; [change (sqnorm []) with 0; apply sqnorm_nonneg|].
  unfold sqnorm in *. cbn [fold_right]. lia.
Qed.
Lemma normalize_spec s1ptr s1 s2 hashed : 16352 <= s1ptr -> length s1 = 512%nat -> length hashed = 512%nat -> canonq s1 ->
  falcon_normalize s1ptr s1 s2 hashed = (sqnorm (firstn 511 (map centre (poly_sub hashed s1))) <? 34034726).
Proof.
  intros Hp L1 Lh C1. unfold falcon_normalize. cbv zeta.
  rewrite (for_lt_fold _ 511 512 32) by (try lia; intros; lia).
  rewrite (for_lt_stop 512 (s1ptr + 32)) by lia.
  assert (LD : length (poly_sub hashed s1) = 512%nat) by (unfold poly_sub; rewrite map_length, seq_length; exact Lh).
  assert (CD : canonq (poly_sub hashed s1)).
  { unfold poly_sub. apply Forall_forall. intros x Hx. apply in_map_iff in Hx. destruct Hx as (i & <- & _). apply Z.mod_pos_bound. reflexivity. }
  rewrite (norm_fold (fun i => nth i (poly_sub hashed s1) 0)
    (fun i norm => norm_add ((at_off hashed (32 + 32 * Z.of_nat i) + evm_sub qf (at_off s1 (32 + 32 * Z.of_nat i))) mod qf) norm)).
  - rewrite Z.add_0_l. unfold sigBound. f_equal. rewrite firstn_map, <- sum_csq_centre by (apply Forall_firstn, CD). f_equal.
    apply list_eq_nth; [rewrite map_length, seq_length, firstn_length, LD; reflexivity|]. intros i Hi. rewrite map_length, seq_length in Hi.
    rewrite (nth_map_seq (fun i => nth i (poly_sub hashed s1) 0)) by auto. rewrite nth_firstn_lt by auto. reflexivity.
  - intros i n Hi. apply in_seq in Hi. f_equal. rewrite !at_off_nth. unfold poly_sub. rewrite Lh.
    rewrite (nth_map_seq (fun i => (nth i hashed 0 - nth i s1 0) mod q)) by lia. pose proof (canonq_nth s1 i C1) as R.
    unfold evm_sub. rewrite (Z.mod_small (qf - nth i s1 0)) by (unfold qf, two256; lia). change qf with 12289. change q with 12289.
    replace (nth i hashed 0 + (12289 - nth i s1 0)) with (nth i hashed 0 - nth i s1 0 + 1 * 12289) by lia. apply Z.mod_add. lia.
  - intros i Hi. pose proof (canonq_nth (poly_sub hashed s1) i CD). unfold dig. lia.
  - rewrite seq_length. lia.
  - lia.
Qed.
Theorem core_value fmp s2w ntthw s2 nh h hashed : 128 <= fmp -> length s2w = 32%nat -> length ntthw = 32%nat -> packed s2w s2 -> packed ntthw nh ->
  length h = 512%nat -> pcong 512 12289 nh (ntt h) -> length hashed = 512%nat ->
  falcon_core fmp s2w ntthw hashed = (sqnorm (firstn 511 (s0_of h hashed s2)) <? 34034726).
Proof.
  intros Hf L2 Ln P2 Pn Lh C LH. unfold falcon_core. rewrite LH, L2. cbn [negb Nat.eqb].
  assert (Ls : length s2 = 512%nat) by (destruct P2 as (E & _); rewrite L2 in E; exact E).
  rewrite (halfmul_spec s2w ntthw s2 nh h) by auto. rewrite normalize_spec.
  - unfold s0_of. rewrite (poly_mul_spec 9 K9 512 N9) by auto. reflexivity.
  - unfold core_s1ptr. lia.
  - rewrite mod_q_length. apply negmul_length.
  - exact LH.
  - apply mod_q_canon.
Qed.
Theorem core_iff fmp s2w ntthw s2 nh h hashed : 128 <= fmp -> length s2w = 32%nat -> length ntthw = 32%nat -> packed s2w s2 -> packed ntthw nh ->
  length h = 512%nat -> pcong 512 12289 nh (ntt h) -> length hashed = 512%nat ->
  (falcon_core fmp s2w ntthw hashed = true <-> exists s0, preimage 512 h hashed s0 s2 /\ sqnorm (firstn 511 s0) < 34034726).
Proof.
  intros Hf L2 Ln P2 Pn Lh C LH. rewrite (core_value fmp s2w ntthw s2 nh h hashed) by auto. rewrite Z.ltb_lt.
  assert (Ls : length s2 = 512%nat) by (destruct P2 as (E & _); rewrite L2 in E; exact E).
  destruct (s0_of_facts 9 512 h hashed s2 K9 N9 Lh Ls LH) as [PS RS]. split.
  - intros H. exists (s0_of h hashed s2). auto.
  - intros (s0 & P & B). eapply Z.le_lt_trans; [|exact B]. pose proof P as (L0 & _). pose proof PS as (LS & _).
    apply sqnorm_le; [rewrite !firstn_length; congruence|]. intros i Hi. rewrite firstn_length in Hi. rewrite !nth_firstn_lt by lia.
    apply preimage_s0 in P; auto; [|lia]. apply preimage_s0 in PS; auto; [|lia].
    pose proof (pcong_trans _ _ _ _ _ P (pcong_sym _ _ _ _ PS) i ltac:(lia)) as D. unfold coef in D.
    rewrite Forall_forall in RS. specialize (RS (nth i (s0_of h hashed s2) 0) ltac:(apply nth_In; lia)).
    rewrite (centre_unique (nth i s0 0) (nth i (s0_of h hashed s2) 0)); [apply centre_min|..].
    + exists 0. lia.
    + destruct D as [d Hd]. exists (- d). lia.
    + lia.
Qed.

(** every compact key is the transform of exactly one polynomial *)
Lemma key_exists nh : length nh = 512%nat -> let h := intt (mod_q nh) in length h = 512%nat /\ canonq h /\ pcong 512 12289 nh (ntt h).
Proof.
  intros L h. assert (LM : length (mod_q nh) = 512%nat) by (now rewrite mod_q_length).
  split; [apply (intt_length 9 K9 512 N9); [exact LM|apply mod_q_canon]|]. split; [apply intt_canon|].
  unfold h. rewrite (ntt_intt 9 K9 512 N9) by (auto; apply mod_q_canon). rewrite (mod_q_id (mod_q nh)) by apply mod_q_canon.
  apply pcong_sym, mod_q_pcong.
Qed.
Lemma key_unique nh h h' : length h = 512%nat -> length h' = 512%nat -> canonq h -> canonq h' -> pcong 512 12289 nh (ntt h) -> pcong 512 12289 nh (ntt h') -> h = h'.
Proof.
  intros L L' C C' P P'. rewrite <- (mod_q_id h C), <- (mod_q_id h' C'). apply (ntt_inj 9 K9 512 N9); auto.
  apply (pcong_canon 512); try apply (ntt_length 9 K9 512 N9); try apply (ntt_canon 9 K9 512 N9); auto.
  exact (pcong_trans _ _ _ _ _ (pcong_sym _ _ _ _ P) P').
Qed.
Section ForgeRing.
Variable n : nat.
Hypothesis npos : (0 < n)%nat.
Local Instance rmulP' : Proper (req n 12289 ==> req n 12289 ==> req n 12289) (rmul n) := rmul_proper n npos 12289.
Add Ring Rn : (r_theory n npos 12289) (setoid (req_equiv n 12289) (r_ext n npos 12289)).
Lemma forge_ring c u h : length c = n -> length u = n -> length h = n -> pcong n 12289 (negmul n u h) (pconst n 1) ->
  pcong n 12289 (negmul n (mod_q (negmul n c u)) h) c.
Proof.
  intros Lc Lu Lh U. rewrite pcong_req, fl_mul_req, fl_pconst in U by lia. assert (LN := negmul_length n c u). rewrite pcong_req, fl_mul_req by (rewrite ?mod_q_length; lia).
  pose proof (mod_q_pcong n (negmul n c u)) as M. rewrite pcong_req, fl_mul_req in M by lia. rewrite M.
  transitivity (rmul n (fl c) (rmul n (fl u) (fl h))); [ring|]. rewrite U. change (rc 1) with r1. ring.
Qed.
End ForgeRing.
(** the forged signature *)
Lemma forge h c : length h = 512%nat -> length c = 512%nat -> unit_mod 512 h ->
  exists s2, length s2 = 512%nat /\ canonq s2 /\ preimage 512 h c (repeat 0 512) s2.
Proof.
  intros Lh Lc (u & Lu & U). exists (mod_q (negmul 512 c u)). assert (LM := negmul_length 512 c u). split; [now rewrite mod_q_length|]. split; [apply mod_q_canon|].
  unfold preimage. rewrite repeat_length, mod_q_length. split; [reflexivity|]. split; [exact LM|].
  intros i Hi. unfold padd. unfold coef at 1. rewrite nth_map_seq by auto. unfold coef at 1. rewrite nth_repeat.
  replace (0 + coef (negmul 512 (mod_q (negmul 512 c u)) h) i) with (coef (negmul 512 (mod_q (negmul 512 c u)) h) i) by lia. revert i Hi.
  change (pcong 512 12289 (negmul 512 (mod_q (negmul 512 c u)) h) c).
  apply (forge_ring 512 ltac:(lia)); auto.
Qed.
