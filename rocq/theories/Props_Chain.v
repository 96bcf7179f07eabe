(** Property theorems C49, C52-C55, C59, C60, C70: the verifier contracts.
    Specification vocabulary: packed, csq, sum_csq, product, wrapped (SolSpec.v); preimage, unit_mod, sqnorm (FalconSpec.v); negmul, pcong (RingSpec.v).
    [fmp] is the free-memory pointer at the call: any value Solidity can give it (at least 128). *)
From Verif Require Import Base KeccakModel HashModel HashSpec HashProofs NttModel NttInst NttApi RingSpec NtruProofs PolyModel PolyModelProofs EncodingModel PrngModel
  FalconModel FalconSpec FalconProofs RecoveryProofs SolModel SolSpec PackProofs SolProofs ChainRecover ChainProofs ChainExtra Props_Hash ChachaProofs.

(** C49 *)
Theorem C49_roundtrip : forall a, length a = 512%nat -> Forall (fun d => 0 <= d < 65536) a ->
  exists ws, falcon_compact a = Ok ws /\ length ws = 32%nat /\ Forall (fun w => 0 <= w < 2 ^ 256) ws /\ packed ws a /\ Expand ws = a /\ Compact a = ws.
Proof.
  intros a L D. assert (M : (length a mod 16 = 0)%nat) by (rewrite L; reflexivity).
  destruct (falcon_compact_packed a M D) as (ws & E & P). destruct (Compact_packed a L D) as [PC LC]. exists ws.
  pose proof (packed_unique _ _ _ PC P) as EC. rewrite EC in LC. clear PC. split; [exact E|]. split; [exact LC|]. split.
  - apply Forall_forall. intros w Hw. destruct (In_nth _ _ 0 Hw) as (i & Hi & <-). apply (packed_word _ _ P). exact Hi.
  - split; [exact P|]. split; [exact (Expand_packed ws a LC P)|exact EC].
Qed.
Print Assumptions C49_roundtrip.
Theorem C49_other_lengths : forall a, (length a mod 16 = 0)%nat -> Forall (fun d => 0 <= d < 65536) a -> exists ws, falcon_compact a = Ok ws /\ packed ws a.
Proof. exact falcon_compact_packed. Qed.
Print Assumptions C49_other_lengths.
Theorem C49_words_roundtrip : forall ws, length ws = 32%nat -> Forall (fun w => 0 <= w < 2 ^ 256) ws ->
  Forall (fun d => 0 <= d < 65536) (Expand ws) /\ length (Expand ws) = 512%nat /\ packed ws (Expand ws) /\ Compact (Expand ws) = ws.
Proof. intros ws L F. split; [apply Expand_dig|]. split; [apply Expand_length|]. split; [now apply packed_Expand|now apply Compact_Expand]. Qed.
Print Assumptions C49_words_roundtrip.
Theorem C49_rejects : forall a, (length a mod 16 <> 0)%nat \/ (exists e, In e a /\ 65536 <= e) -> falcon_compact a = Raise AssertionError.
Proof.
  intros a [N|(e & I & He)]; unfold falcon_compact.
  - destruct (Nat.eqb_spec (length a mod 16) 0); [contradiction|]. reflexivity.
  - destruct (Nat.eqb (length a mod 16) 0); cbn [negb]; [|reflexivity].
    assert (F : forallb (fun e => e <? Z.shiftl 1 16) a = false).
    { apply not_true_is_false. intros T. rewrite forallb_forall in T. specialize (T e I). change (Z.shiftl 1 16) with 65536 in T. apply Z.ltb_lt in T. lia. }
    now rewrite F.
Qed.
Print Assumptions C49_rejects.
(** a negative coefficient is not rejected: a word that does not fit 256 bits comes out *)
Theorem C49_negative_refuted : exists a ws, length a = 16%nat /\ In (-1) a /\ falcon_compact a = Ok ws /\ ~ Forall (fun w => 0 <= w < 2 ^ 256) ws.
Proof.
  exists (-1 :: repeat 0 15), [-1]. split; [reflexivity|]. split; [now left|]. split; [vm_compute; reflexivity|]. intros F. inversion_clear F. lia.
Qed.
Print Assumptions C49_negative_refuted.
Example C49_nontrivial : falcon_compact (1 :: 65535 :: 3 :: repeat 0 13) = Ok [1 + 65536 * 65535 + 65536 ^ 2 * 3]. Proof. vm_compute. reflexivity. Qed.
(** Swap reverses a polynomial *)
Theorem C49_swap_reverses : forall p i, length p = 512%nat -> (i < 512)%nat -> nth i (Swap p) 0 = nth (511 - i) p 0.
Proof.
  intros p i L Hi. unfold Swap.
  assert (G : forall k, (k <= 512)%nat -> let m := fold_left (fun m i => upd m (511 - i) (nth i p 0)) (seq 0 k) (repeat 0 512) in
    length m = 512%nat /\ forall j, (512 - k <= j < 512)%nat -> nth j m 0 = nth (511 - j) p 0).
  { induction k as [|k IH]; intros Hk; cbv zeta; [split; [apply repeat_length|lia]|]. rewrite seq_S, fold_left_app. cbn [fold_left].
    destruct IH as [IL IH]; [lia|]. split; [now rewrite upd_length|]. intros j Hj. rewrite nth_upd by lia. destruct (Nat.eqb_spec j (511 - (0 + k))) as [->|].
    - f_equal. lia.
    - apply IH. lia. }
  apply (G 512%nat (Nat.le_refl _)). lia.
Qed.
Print Assumptions C49_swap_reverses.

(** C55 *)
Lemma range_loop_iff a : range_loop a = true <-> Forall (fun x => x <= 12289) a.
Proof.
  induction a as [|x a IH]; cbn [range_loop]; [split; auto|]. change qf with 12289. destruct (Z.ltb_spec 12289 x); split; intros E.
  - discriminate.
  - inversion_clear E. lia.
  - constructor; [lia|now apply IH].
  - apply IH. now inversion_clear E.
Qed.
Theorem C55_range_check : forall p l, length p = 32%nat -> packed p l ->
  (falcon_checkPolynomialRange p false = true <-> Forall (fun x => x <= 12289) l).
Proof. intros p l L P. unfold falcon_checkPolynomialRange. cbn [Bool.eqb]. rewrite (Expand_packed p l L P). apply range_loop_iff. Qed.
Print Assumptions C55_range_check.
Theorem C55_flag_true_checks_words : forall p, falcon_checkPolynomialRange p true = true <-> Forall (fun x => x <= 12289) p.
Proof. intros p. unfold falcon_checkPolynomialRange. cbn [Bool.eqb]. apply range_loop_iff. Qed.
Print Assumptions C55_flag_true_checks_words.
(** "true if all coefficients are valid (< q), false otherwise" *)
Theorem C55_documented_range_refuted : exists p l, length p = 32%nat /\ packed p l /\ ~ Forall (fun x => x < 12289) l /\ falcon_checkPolynomialRange p false = true.
Proof.
  exists (Compact (12289 :: repeat 0 511)), (12289 :: repeat 0 511).
  assert (D : Forall dig (12289 :: repeat 0 511)) by (constructor; [unfold dig; lia|]; apply Forall_forall; intros x Hx; apply repeat_spec in Hx; unfold dig; lia).
  assert (L : length (12289 :: repeat 0 511) = 512%nat) by (cbn [length]; now rewrite repeat_length).
  destruct (Compact_packed _ L D) as [PC LC]. split; [exact LC|]. split; [exact PC|]. split; [intros F; inversion_clear F; lia|].
  apply (C55_range_check _ _ LC PC). constructor; [lia|]. apply Forall_forall. intros x Hx. apply repeat_spec in Hx. lia.
Qed.
Print Assumptions C55_documented_range_refuted.
(** "is_compact If true, polynomial is in compacted format": a valid compact polynomial is refused with that flag *)
Theorem C55_documented_flag_refuted : exists p l, length p = 32%nat /\ packed p l /\ Forall (fun x => 0 <= x < 12289) l /\ falcon_checkPolynomialRange p true = false.
Proof.
  exists (Compact (repeat 1 512)), (repeat 1 512).
  assert (D : Forall dig (repeat 1 512)) by (apply Forall_forall; intros x Hx; apply repeat_spec in Hx; unfold dig; lia).
  destruct (Compact_packed _ (repeat_length _ _) D) as [PC LC]. split; [exact LC|]. split; [exact PC|].
  split; [apply Forall_forall; intros x Hx; apply repeat_spec in Hx; lia|]. vm_compute. reflexivity.
Qed.
Print Assumptions C55_documented_flag_refuted.

(** C52 *)
Lemma sq_ge x a : 0 <= a -> a <= x \/ x <= - a -> a * a <= x ^ 2.
Proof. intros A [H|H]; rewrite Z.pow_2_r; nia. Qed.
Theorem C52_core_accepts_iff : forall fmp s2w ntthw s2 nh h hashed, 128 <= fmp -> length s2w = 32%nat -> length ntthw = 32%nat -> packed s2w s2 -> packed ntthw nh ->
  length h = 512%nat -> pcong 512 12289 nh (ntt h) -> length hashed = 512%nat ->
  (falcon_core fmp s2w ntthw hashed = true <-> exists s0, preimage 512 h hashed s0 s2 /\ sqnorm (firstn 511 s0) < 34034726).
Proof. exact core_iff. Qed.
Print Assumptions C52_core_accepts_iff.
(** the hypotheses of the former hold of every key array, for one h *)
Theorem C52_every_key : forall ntthw, length ntthw = 32%nat -> Forall (fun w => 0 <= w < 2 ^ 256) ntthw ->
  exists nh h, packed ntthw nh /\ length h = 512%nat /\ Forall (fun x => 0 <= x < 12289) h /\ pcong 512 12289 nh (ntt h) /\
    forall nh' h', packed ntthw nh' -> length h' = 512%nat -> Forall (fun x => 0 <= x < 12289) h' -> pcong 512 12289 nh' (ntt h') -> nh' = nh /\ h' = h.
Proof.
  intros w L F. exists (Expand w), (intt (mod_q (Expand w))). destruct (key_exists (Expand w) (Expand_length w)) as (Lh & Ch & EK).
  split; [now apply packed_Expand|]. split; [exact Lh|]. split; [exact Ch|]. split; [exact EK|]. intros nh' h' P' Lh' Ch' EK'.
  assert (nh' = Expand w) by (symmetry; now apply Expand_packed). subst nh'. split; [reflexivity|]. exact (key_unique _ _ _ Lh' Lh Ch' Ch EK' EK).
Qed.
Print Assumptions C52_every_key.
Theorem C52_wrong_lengths : forall fmp s2w ntthw hashed, length hashed <> 512%nat \/ length s2w <> 32%nat -> falcon_core fmp s2w ntthw hashed = false.
Proof.
  intros fmp s2w ntthw hashed [N|N]; unfold falcon_core; destruct (Nat.eqb_spec (length hashed) 512); cbn [negb]; auto; [contradiction|].
  destruct (Nat.eqb_spec (length s2w) 32); [contradiction|reflexivity].
Qed.
Print Assumptions C52_wrong_lengths.
Lemma core_equal fmp w wo v : 128 <= fmp -> length v = 512%nat -> length w = 32%nat -> length wo = 32%nat -> packed w v -> packed wo (ntt one) -> falcon_core fmp w wo v = true.
Proof.
  intros Hf Lv Lw Lo P Po. apply (core_iff fmp w wo v (ntt one) one v Hf Lw Lo P Po one_length (pcong_refl _ _ _) Lv). exists (repeat 0 512). split; [|vm_compute; reflexivity].
  split; [apply repeat_length|]. split; [exact Lv|]. eapply pcong_trans; [|exact (pcong_zero_add v Lv)]. intros i Hi. unfold padd, coef. rewrite !nth_map_seq by auto.
  pose proof (proj2 (negmul_one v Lv) i Hi) as D. unfold coef in D. replace (_ - _) with (nth i (negmul 512 v one) 0 - nth i v 0) by ring. exact D.
Qed.
Lemma no_short_n : forall k (a b : list Z), length a = k -> length b = k -> (forall i, (i < k)%nat -> (12289 | nth i a 0 + nth i b 0 - 6000)) ->
  Z.of_nat k * 18000000 <= sqnorm a + sqnorm b.
Proof.
  induction k as [|k IH]; intros a b La Lb E; [destruct a, b; cbn in *; lia|]. destruct a as [|x a]; [discriminate|]. destruct b as [|y b]; [discriminate|].
  cbn [length] in La, Lb. assert (La' : length a = k) by lia. assert (Lb' : length b = k) by lia.
  specialize (IH a b La' Lb' (fun i Hi => E (S i) (proj1 (Nat.succ_lt_mono i k) Hi))). specialize (E 0%nat (Nat.lt_0_succ k)). cbn [nth] in E.
  unfold sqnorm in *. cbn [fold_right]. destruct E as [m Em]. assert (x + y = 6000 + 12289 * m) by lia.
  pose proof (sq_ge (x + y) 6000 ltac:(lia) ltac:(lia)). pose proof (Z.square_nonneg (x - y)). rewrite Nat2Z.inj_succ, !Z.pow_2_r in *.
  assert ((x + y) * (x + y) + (x - y) * (x - y) = 2 * (x * x + y * y)) by ring. lia.
Qed.
Lemma no_short_div v s0 s2 n : (0 < n)%nat -> (forall i, (i < n)%nat -> nth i v 0 = 6000) -> preimage n (pconst n 1) v s0 s2 -> forall i, (i < n)%nat -> (12289 | nth i s0 0 + nth i s2 0 - 6000).
Proof.
  intros np N (L0 & L2 & P) i Hi. specialize (P i Hi). unfold padd, coef in P. rewrite nth_map_seq, (N i Hi) in P by auto.
  pose proof (proj2 (negmul_one_n n np s2 L2) i Hi) as D. unfold coef in D.
  replace (_ - 6000) with (nth i s0 0 + nth i (negmul n s2 (pconst n 1)) 0 - 6000 - (nth i (negmul n s2 (pconst n 1)) 0 - nth i s2 0)) by ring. now apply Z.divide_sub_r.
Qed.
Lemma no_short v s0 s2 : (forall i, (i < 512)%nat -> nth i v 0 = 6000) -> preimage 512 one v s0 s2 -> 34034726 <= sqnorm s0 + sqnorm s2.
Proof.
  intros N P. pose proof (no_short_div v s0 s2 512 (Nat.lt_0_succ 511) N P) as E. destruct P as (L0 & L2 & _).
  pose proof (no_short_n 512 s0 s2 L0 L2 E) as G. eapply Z.le_trans; [|exact G]. vm_compute. discriminate.
Qed.
Lemma repeat_nth (x : Z) k i : (i < k)%nat -> nth i (repeat x k) 0 = x.
Proof. intros Hi. rewrite nth_indep with (d' := x) by (now rewrite repeat_length). apply nth_repeat. Qed.
Lemma repeat_dig x k : 0 <= x < 65536 -> Forall dig (repeat x k).
Proof. intros H. apply Forall_forall. intros y Hy. apply repeat_spec in Hy. unfold dig. lia. Qed.
(** "norm := ||s1||^2 + ||s2||^2 < sigBound": an accepted input where no choice of short representatives fulfils it *)
Theorem C52_documented_check_refuted : exists s2w ntthw s2 h hashed, length s2w = 32%nat /\ length ntthw = 32%nat /\ packed s2w s2 /\ packed ntthw (ntt h) /\
  length h = 512%nat /\ length hashed = 512%nat /\
  (forall fmp, 128 <= fmp -> falcon_core fmp s2w ntthw hashed = true) /\
  forall s0 s2', preimage 512 h hashed s0 s2' -> 34034726 <= sqnorm s0 + sqnorm s2'.
Proof.
  assert (X : exists v, length v = 512%nat /\ Forall dig v /\ forall i, (i < 512)%nat -> nth i v 0 = 6000).
  { exists (repeat 6000 512). split; [apply repeat_length|]. split; [apply repeat_dig; lia|]. intros i Hi. now apply repeat_nth. }
  destruct X as (v & Lv & Dv & Nv).
  destruct (compact_exists (ntt one)) as (wo & _ & Lo & Po); [exact (ntt_length 9 K9 512 N9 one one_length)|exact (ntt_canon 9 K9 512 N9 one one_length)|].
  assert (Y : exists w, length w = 32%nat /\ packed w v) by (destruct (Compact_packed v Lv Dv) as [PC LC]; exists (Compact v); split; [exact LC|exact PC]).
  destruct Y as (w & Lw & Pw).
  exists w, wo, v, one, v. split; [exact Lw|]. split; [exact Lo|]. split; [exact Pw|]. split; [exact Po|]. split; [exact one_length|]. split; [exact Lv|]. split.
  - intros fmp Hf. exact (core_equal fmp w wo v Hf Lv Lw Lo Pw Po).
  - intros s0 s2 P. exact (no_short v s0 s2 Nv P).
Qed.
Print Assumptions C52_documented_check_refuted.

(** C53: for every key invertible modulo q, every message and salt, an accepted "signature" made from public data *)
Theorem C53_forgery_core : forall fmp h ntthw c, 128 <= fmp -> length h = 512%nat -> length c = 512%nat -> unit_mod 512 h -> length ntthw = 32%nat -> packed ntthw (ntt h) ->
  exists s2w, length s2w = 32%nat /\ Forall (fun w => 0 <= w < 2 ^ 256) s2w /\ falcon_core fmp s2w ntthw c = true.
Proof. exact forge_core. Qed.
Print Assumptions C53_forgery_core.
Theorem C53_forgery_falcon : forall fmp h ntthw fuel msg salt c, 128 <= fmp -> length h = 512%nat -> unit_mod 512 h -> length ntthw = 32%nat -> packed ntthw (ntt h) ->
  length salt = 40%nat -> hashToPointNIST fuel salt msg = Some c ->
  exists s2w, contract_verify hashToPointNIST fmp fuel msg salt s2w ntthw = Fin (Ok true).
Proof.
  intros fmp h w fuel msg salt c Hf Lh U Lw P Ls E. destruct (NIST_len _ _ _ _ E) as [Lc _]. destruct (forge_core fmp h w c Hf Lh Lc U Lw P) as (s2w & L2 & _ & T).
  exists s2w. unfold contract_verify. rewrite Ls, L2, Lw, E, T. reflexivity.
Qed.
Print Assumptions C53_forgery_falcon.
Theorem C53_forgery_ethfalcon : forall H fmp h ntthw fuel msg salt c, 128 <= fmp -> length h = 512%nat -> unit_mod 512 h -> length ntthw = 32%nat -> packed ntthw (ntt h) ->
  length salt = 40%nat -> hashToPointEVM H fuel salt msg = Some c ->
  exists s2w, contract_verify (hashToPointEVM H) fmp fuel msg salt s2w ntthw = Fin (Ok true).
Proof.
  intros H fmp h w fuel msg salt c Hf Lh U Lw P Ls E. destruct (EVM_len _ _ _ _ _ E) as [Lc _]. destruct (forge_core fmp h w c Hf Lh Lc U Lw P) as (s2w & L2 & _ & T).
  exists s2w. unfold contract_verify. rewrite Ls, L2, Lw, E, T. reflexivity.
Qed.
Print Assumptions C53_forgery_ethfalcon.
(** a light hash for the examples *)
Definition toy (m : list Z) : list Z := map (fun i => (7 * last m 0 + i) mod 256) (map Z.of_nat (seq 0 32)).
Definition is_ok {A} (r : fres A) : bool := match r with Fin (Ok _) => true | _ => false end.
Lemma is_ok_ex {A} (r : fres A) : is_ok r = true -> exists c, r = Fin (Ok c).
Proof. destruct r as [[c|]|]; try discriminate. now exists c. Qed.
Lemma toy_run : exists c, hash_to_point 800 512 [1; 2; 3] (repeat 7 40) (KeccakPRNG toy) = Fin (Ok c).
Proof. apply is_ok_ex. vm_cast_no_check (eq_refl true). Qed.
Lemma toy32 m : length (toy m) = 32%nat. Proof. unfold toy. now rewrite !map_length, seq_length. Qed.
Lemma toy_bytes m : Forall (fun b => 0 <= b < 256) (toy m).
Proof. unfold toy. apply Forall_forall. intros x Hx. apply in_map_iff in Hx. destruct Hx as (i & <- & _). lia. Qed.
Lemma fuel_ok : (800 <= 16 * 51 - 1)%nat. Proof. lia. Qed.
Lemma len_ok : (length (repeat 7 40) + length [1; 2; 3] <= Z.to_nat 4096)%nat. Proof. vm_compute. lia. Qed.
Example C53_nontrivial : exists h ntthw c, length h = 512%nat /\ unit_mod 512 h /\ length ntthw = 32%nat /\ packed ntthw (ntt h) /\
  hashToPointEVM toy 52 (repeat 7 40) [1; 2; 3] = Some c.
Proof.
  destruct toy_run as [c E]. destruct (compact_exists (ntt one)) as (w & _ & Lw & Pw); [exact (ntt_length 9 K9 512 N9 one one_length)|exact (ntt_canon 9 K9 512 N9 one one_length)|].
  exists one, w, c. split; [reflexivity|]. split; [exact unit_one|]. split; [exact Lw|]. split; [exact Pw|].
  exact (C24_evm_equals_python toy toy32 toy_bytes (repeat 7 40) [1; 2; 3] len_ok 800 c E 51 fuel_ok).
Qed.

(** C54 *)
Theorem C54_honest_falcon : forall h P fuel msg sig fmp, PublicKey 512 h = Ok P -> length h = 512%nat -> Forall (fun b => 0 <= b < 256) sig -> Forall (fun b => 0 <= b < 256) msg ->
  128 <= fmp -> verify fuel P msg sig SHAKE = Fin (Ok true) ->
  exists s1 S2 PK, decompress (skipn 41 sig) 625 512 = Ok (Some s1) /\ onchain_falcon_args h sig = Ok (Some (S2, PK)) /\
    (s1 <> repeat 0 512 -> contract_verify hashToPointNIST fmp fuel msg (slice 1 41 sig) S2 PK = Fin (Ok true)).
Proof.
  intros h P fuel msg sig fmp HP Lh Bs Bm Hf V. apply (honest_accepted h P fuel msg sig SHAKE hashToPointNIST fmp fuel HP Lh V Hf).
  intros c E. apply C25_nist_equals_python; auto. unfold slice. now apply Forall_firstn, Forall_skipn.
Qed.
Print Assumptions C54_honest_falcon.
Theorem C54_honest_ethfalcon : forall H, (forall m, length (H m) = 32%nat) -> (forall m, Forall (fun b => 0 <= b < 256) (H m)) ->
  forall h P fuel msg sig fmp fuel', PublicKey 512 h = Ok P -> length h = 512%nat -> (40 + length msg <= Z.to_nat 4096)%nat ->
  128 <= fmp -> (fuel <= 16 * fuel' - 1)%nat -> verify fuel P msg sig (KeccakPRNG H) = Fin (Ok true) ->
  exists s1 S2 PK, decompress (skipn 41 sig) 625 512 = Ok (Some s1) /\ onchain_falcon_args h sig = Ok (Some (S2, PK)) /\
    (s1 <> repeat 0 512 -> contract_verify (hashToPointEVM H) fmp (S fuel') msg (slice 1 41 sig) S2 PK = Fin (Ok true)).
Proof.
  intros H H32 HB h P fuel msg sig fmp fuel' HP Lh Lm Hf Hfu V. apply (honest_accepted h P fuel msg sig (KeccakPRNG H) (hashToPointEVM H) fmp (S fuel') HP Lh V Hf).
  intros c E. apply (C24_evm_equals_python H H32 HB) with (fuel := fuel); auto. pose proof (firstn_le_length (41 - 1) (skipn 1 sig)) as A. unfold slice. lia.
Qed.
Print Assumptions C54_honest_ethfalcon.
(** wrong sizes revert, nothing else does *)
Theorem C54_contract_reverts_iff : forall h2p fmp fuel msg salt s2 ntth, contract_verify h2p fmp fuel msg salt s2 ntth = Fin (Raise Revert) <->
  length salt <> 40%nat \/ length s2 <> 32%nat \/ length ntth <> 32%nat.
Proof.
  intros. unfold contract_verify, falcon_S256. destruct (Nat.eqb_spec (length salt) 40), (Nat.eqb_spec (length s2) 32), (Nat.eqb_spec (length ntth) 32); cbn [negb];
    try (destruct (h2p _ _ _)); split; intros; try congruence; tauto.
Qed.
Print Assumptions C54_contract_reverts_iff.
Lemma skip_head (x : Z) (salt e : list Z) : length salt = 40%nat -> skipn 41 ([x] ++ salt ++ e) = e.
Proof. intros L. change (skipn 41 ([x] ++ salt ++ e)) with (skipn 40 (salt ++ e)). rewrite <- L, skipn_app, skipn_all, Nat.sub_diag. reflexivity. Qed.
Lemma one_not_zero : one <> repeat 0 512.
Proof. intros E. apply (f_equal (hd 0)) in E. discriminate. Qed.
Example C54_nontrivial : exists h P sig, PublicKey 512 h = Ok P /\ length h = 512%nat /\ (40 + length [1; 2; 3] <= Z.to_nat 4096)%nat /\
  verify 800 P [1; 2; 3] sig (KeccakPRNG toy) = Fin (Ok true) /\ decompress (skipn 41 sig) 625 512 = Ok (Some one) /\ one <> repeat 0 512.
Proof.
  destruct toy_run as [c E]. destruct (accepted_instance 800 [1; 2; 3] (repeat 7 40) (KeccakPRNG toy) c (repeat_length _ _) E) as (P & EP & Lc & V).
  exists c, P, ([41] ++ repeat 7 40 ++ enc_one). split; [exact EP|]. split; [exact Lc|]. split; [exact len_ok|]. split; [exact V|]. split.
  - rewrite (skip_head 41 (repeat 7 40) enc_one (repeat_length 7 40)). exact dec_one.
  - exact one_not_zero.
Qed.

(** C59 *)
Theorem C59_recover_iff_falcon : forall H fuel msgs salt cs1 cs2 s1 s2 hint a, length cs1 = 32%nat -> length cs2 = 32%nat -> packed cs1 s1 -> packed cs2 s2 ->
  (contract_recover H hashToPointNIST fuel msgs salt cs1 cs2 hint = Fin (Ok a) <->
   length salt = 40%nat /\ sum_csq (firstn 511 s1) + sum_csq (firstn 511 s2) <= 34034726 /\ (hint * product (ntt s2)) mod 12289 = 1 /\
   exists c h, hashToPointNIST fuel salt msgs = Some c /\ length h = 512%nat /\ Forall (fun x => 0 <= x < 12289) h /\ preimage 512 h c (map wrapped s1) s2 /\
     a = HashToAddress H (flat_map (to_be 32) (ntt h))).
Proof. intros. apply chain_recover_iff; auto. intros f sa m c E. exact (proj1 (NIST_len _ _ _ _ E)). Qed.
Print Assumptions C59_recover_iff_falcon.
Theorem C59_recover_iff_ethfalcon : forall H fuel msgs salt cs1 cs2 s1 s2 hint a, length cs1 = 32%nat -> length cs2 = 32%nat -> packed cs1 s1 -> packed cs2 s2 ->
  (contract_recover H (hashToPointEVM H) fuel msgs salt cs1 cs2 hint = Fin (Ok a) <->
   length salt = 40%nat /\ sum_csq (firstn 511 s1) + sum_csq (firstn 511 s2) <= 34034726 /\ (hint * product (ntt s2)) mod 12289 = 1 /\
   exists c h, hashToPointEVM H fuel salt msgs = Some c /\ length h = 512%nat /\ Forall (fun x => 0 <= x < 12289) h /\ preimage 512 h c (map wrapped s1) s2 /\
     a = HashToAddress H (flat_map (to_be 32) (ntt h))).
Proof. intros. apply chain_recover_iff; auto. intros f sa m c E. exact (proj1 (EVM_len _ _ _ _ _ E)). Qed.
Print Assumptions C59_recover_iff_ethfalcon.
(** the array built from the hint is the pointwise inverse of NTT(s2) *)
Theorem C59_inverse : forall s2 hint, length s2 = 512%nat -> Forall (fun x => 0 <= x < 12289) s2 -> (hint * product s2) mod 12289 = 1 ->
  let inv := ep_forward (ep_prefix s2) (ep_back s2 hint) in
  length inv = 512%nat /\ Forall (fun x => 0 <= x < 12289) inv /\ forall i, (i < 512)%nat -> (nth i s2 0 * nth i inv 0) mod 12289 = 1.
Proof.
  intros s2 hint L C E. cbv zeta. rewrite !ep_inv_eq. split; [now apply ep_inv_length|]. split; [now apply ep_inv_canon|]. intros i Hi.
  rewrite ep_inv_prod by auto. exact E.
Qed.
Print Assumptions C59_inverse.
Theorem C59_hint_check_iff : forall s2 hint, length s2 = 512%nat -> Forall (fun x => 0 <= x < 12289) s2 ->
  (ep_check s2 (ep_forward (ep_prefix s2) (ep_back s2 hint)) = 0 <-> (hint * product s2) mod 12289 = 1).
Proof. intros s2 hint L C. rewrite ep_inv_eq. now apply ep_check_zero. Qed.
Print Assumptions C59_hint_check_iff.
(** Python's recovery and the contract give the same address, through the arguments computed by sign_cli *)
Theorem C59_matches_python_epervier : forall H, (forall m, length (H m) = 32%nat) -> (forall m, Forall (fun b => 0 <= b < 256) (H m)) ->
  forall pk P fuel msg sig a, RecoveryModePublicKey 512 pk = Ok P -> Forall (fun b => 0 <= b < 256) sig -> Forall (fun b => 0 <= b < 256) msg ->
  ep_recover H fuel P msg sig SHAKE = Fin (Ok (Some a)) ->
  exists S1 S2 hint, onchain_epervier_args sig = Ok (Some (S1, S2, hint)) /\
    contract_recover H hashToPointNIST fuel msg (slice 1 41 sig) S1 S2 hint = Fin (Ok a).
Proof.
  intros H H32 HB pk P fuel msg sig a HP Bs Bm R. apply (ep_honest H pk P fuel msg sig SHAKE a hashToPointNIST fuel H32 HB HP R).
  - intros f sa m c E. exact (proj1 (NIST_len _ _ _ _ E)).
  - intros c E. apply C25_nist_equals_python; auto. unfold slice. now apply Forall_firstn, Forall_skipn.
Qed.
Print Assumptions C59_matches_python_epervier.
Theorem C59_matches_python_ethepervier : forall H, (forall m, length (H m) = 32%nat) -> (forall m, Forall (fun b => 0 <= b < 256) (H m)) ->
  forall pk P fuel msg sig a fuel', RecoveryModePublicKey 512 pk = Ok P -> (40 + length msg <= Z.to_nat 4096)%nat -> (fuel <= 16 * fuel' - 1)%nat ->
  ep_recover H fuel P msg sig (KeccakPRNG H) = Fin (Ok (Some a)) ->
  exists S1 S2 hint, onchain_epervier_args sig = Ok (Some (S1, S2, hint)) /\
    contract_recover H (hashToPointEVM H) (S fuel') msg (slice 1 41 sig) S1 S2 hint = Fin (Ok a).
Proof.
  intros H H32 HB pk P fuel msg sig a fuel' HP Lm Hfu R. apply (ep_honest H pk P fuel msg sig (KeccakPRNG H) a (hashToPointEVM H) (S fuel') H32 HB HP R).
  - intros f sa m c E. exact (proj1 (EVM_len _ _ _ _ _ E)).
  - intros c E. apply (C24_evm_equals_python H H32 HB) with (fuel := fuel); auto. pose proof (firstn_le_length (41 - 1) (skipn 1 sig)) as A. unfold slice. lia.
Qed.
Print Assumptions C59_matches_python_ethepervier.
Example C59_nontrivial : exists P sig a, RecoveryModePublicKey 512 0 = Ok P /\ ep_recover toy 800 P [1; 2; 3] sig (KeccakPRNG toy) = Fin (Ok (Some a)).
Proof.
  destruct toy_run as [c E]. destruct (recovered_instance toy 800 [1; 2; 3] (repeat 7 40) (KeccakPRNG toy) c (repeat_length _ _) E) as (P & EP & R).
  do 3 eexists. split; [exact EP|exact R].
Qed.

(** C60: the last coefficients of s1 and s2 are not looked at by the norm test *)
Theorem C60_norm_is_first_511 : forall s1 s2, length s1 = 512%nat -> length s2 = 512%nat -> Forall (fun d => 0 <= d < 65536) s1 -> Forall (fun d => 0 <= d < 65536) s2 ->
  epervier_norm s1 s2 = sum_csq (firstn 511 s1) + sum_csq (firstn 511 s2).
Proof. exact epervier_norm_spec. Qed.
Print Assumptions C60_norm_is_first_511.
(** any last coefficient of s1 can be put in an accepted signature *)
Theorem C60_last_s1_free : forall H h2p fuel msgs salt cs1 cs2 cs1' init x y s2 hint a,
  (forall f sa m c, h2p f sa m = Some c -> length c = 512%nat) -> length cs1 = 32%nat -> length cs1' = 32%nat -> length cs2 = 32%nat ->
  packed cs1 (init ++ [x]) -> packed cs1' (init ++ [y]) -> packed cs2 s2 ->
  contract_recover H h2p fuel msgs salt cs1 cs2 hint = Fin (Ok a) -> exists a', contract_recover H h2p fuel msgs salt cs1' cs2 hint = Fin (Ok a').
Proof.
  intros H h2p fuel msgs salt cs1 cs2 cs1' init x y s2 hint a Hl L1 L1' L2 P1 P1' P2 R.
  pose proof (Expand_len _ _ L1 P1) as N1. rewrite app_length in N1. cbn [length] in N1. assert (LI : length init = 511%nat) by lia.
  apply (chain_recover_iff H h2p fuel msgs salt cs1 cs2 (init ++ [x]) s2 hint a Hl L1 L2 P1 P2) in R. destruct R as (Ls & B & EH & c & h & Ec & Lh & Ch & PR & Ea).
  assert (F : forall z, firstn 511 (init ++ [z]) = init) by (intros z; rewrite <- LI, firstn_app, firstn_all, Nat.sub_diag; cbn [firstn]; apply app_nil_r). rewrite F in B.
  pose proof PR as (_ & LS2 & _). set (s1' := map wrapped (init ++ [y])). assert (Ls1 : length s1' = 512%nat) by (unfold s1'; rewrite map_length, app_length, LI; reflexivity).
  pose proof (Hl _ _ _ _ Ec) as Lc.
  (* the key recovered from the other s1 *)
  set (inv := ep_inv (ntt s2) hint). assert (LT := ntt_length 9 K9 512 N9 s2 LS2). assert (CT := ntt_canon 9 K9 512 N9 s2 LS2).
  assert (HO : hint_ok 512 inv s2).
  { split; [now apply ep_inv_length|]. intros i Hi. rewrite Z.mul_comm. unfold inv. rewrite ep_inv_prod by auto. exact EH. }
  destruct (recovered 9 512 c (psub 512 c s1') s1' s2 inv K9 N9 Lc Ls1 LS2 (psub_length _ _ _) (pcong_refl _ _ _) HO) as (Lh' & Ch' & Et & PR' & U).
  eexists. apply (chain_recover_iff H h2p fuel msgs salt cs1' cs2 (init ++ [y]) s2 hint _ Hl L1' L2 P1' P2). rewrite F. split; [exact Ls|]. split; [exact B|]. split; [exact EH|].
  exists c. eexists. split; [exact Ec|]. split; [exact Lh'|]. split; [exact Ch'|]. split; [exact PR'|reflexivity].
Qed.
Print Assumptions C60_last_s1_free.
Lemma dig_list s : Forall (fun d => 0 <= d < 65536) s -> length s = 512%nat -> exists w, length w = 32%nat /\ packed w s.
Proof. intros D L. destruct (Compact_packed s L D) as [P E]. exists (Compact s). split; [exact E|exact P]. Qed.
(** a key for s2 = 1 and any s1 *)
Lemma key_for_one c s : length c = 512%nat -> length s = 512%nat -> exists h, length h = 512%nat /\ canonq h /\ preimage 512 h c s one.
Proof.
  intros Lc Ls. exists (mod_q (psub 512 c s)). assert (L : length (mod_q (psub 512 c s)) = 512%nat) by (rewrite mod_q_length; apply psub_length).
  split; [exact L|]. split; [apply mod_q_canon|]. apply preimage_one; auto. intros i Hi. pose proof (mod_q_pcong 512 (psub 512 c s) i Hi) as M.
  unfold padd, psub, coef in *. rewrite nth_map_seq in * by auto. replace (_ - _) with (nth i (mod_q (map (fun k => nth k c 0 - nth k s 0) (seq 0 512))) 0 - (nth i c 0 - nth i s 0)) by ring.
  exact M.
Qed.
Lemma hint_one : (1 * product (ntt one)) mod 12289 = 1. Proof. rewrite ntt_one512, product_ones. reflexivity. Qed.
(** "norm of (s1, s2) at most sigBound": for every message and salt an accepted signature that misses it *)
Theorem C60_documented_bound_refuted : forall H h2p fuel msgs salt c,
  (forall f sa m c, h2p f sa m = Some c -> length c = 512%nat) -> length salt = 40%nat -> h2p fuel salt msgs = Some c ->
  exists cs1 cs2 s1 s2 hint a, packed cs1 s1 /\ packed cs2 s2 /\ contract_recover H h2p fuel msgs salt cs1 cs2 hint = Fin (Ok a) /\
    34034726 < sum_csq s1 + sum_csq s2.
Proof.
  intros H h2p fuel msgs salt c Hl Ls Ec. pose proof (Hl _ _ _ _ Ec) as Lc. set (s1 := repeat 0 511 ++ [6144]).
  assert (L1 : length s1 = 512%nat) by (unfold s1; rewrite app_length, repeat_length; reflexivity).
  assert (F1 : Forall (fun x => 0 <= x <= 12289) s1).
  { unfold s1. apply Forall_app. split; [apply Forall_forall; intros x Hx; apply repeat_spec in Hx; lia|]. constructor; [lia|constructor]. }
  destruct (dig_list s1) as (w1 & Lw1 & P1); [eapply Forall_impl; [|exact F1]; cbn; lia|exact L1|].
  destruct (dig_list one) as (w2 & Lw2 & P2); [apply canonq_dig, one_canon|reflexivity|]. destruct (key_for_one c s1 Lc L1) as (h & Lh & Ch & Pr).
  exists w1, w2, s1, one, 1. eexists. split; [exact P1|]. split; [exact P2|]. split; [|vm_compute; reflexivity].
  apply (chain_recover_iff H h2p fuel msgs salt w1 w2 s1 one 1 _ Hl Lw1 Lw2 P1 P2). split; [exact Ls|]. split; [vm_compute; discriminate|]. split; [exact hint_one|].
  exists c, h. split; [exact Ec|]. split; [exact Lh|]. split; [exact Ch|]. split; [|reflexivity].
  rewrite wrapped_le by (eapply Forall_impl; [|exact F1]; cbn; lia). exact Pr.
Qed.
Print Assumptions C60_documented_bound_refuted.
Lemma short_n : forall k (a : list Z), length a = k -> (forall i, (i < k)%nat -> (12289 | nth i a 0 + 996)) -> Z.of_nat k * 992016 <= sqnorm a.
Proof.
  induction k as [|k IH]; intros a La E; [destruct a; cbn in *; lia|]. destruct a as [|x a]; [discriminate|]. cbn [length] in La. assert (La' : length a = k) by lia.
  specialize (IH a La' (fun i Hi => E (S i) (proj1 (Nat.succ_lt_mono i k) Hi))). specialize (E 0%nat (Nat.lt_0_succ k)). cbn [nth] in E. unfold sqnorm in *. cbn [fold_right].
  destruct E as [m Em]. pose proof (sq_ge x 996 ltac:(lia) ltac:(lia)). rewrite Nat2Z.inj_succ. lia.
Qed.
Lemma s12290 : exists s1, length s1 = 512%nat /\ Forall (fun d => 0 <= d < 65536) s1 /\ (forall i, (i < 512)%nat -> nth i s1 0 = 12290) /\ sum_csq (firstn 511 s1) = 511 /\ sum_csq s1 = 512.
Proof.
  exists (repeat 12290 512). split; [apply repeat_length|]. split; [apply repeat_dig; lia|]. split; [intros i Hi; now apply repeat_nth|]. split; vm_compute; reflexivity.
Qed.
Lemma one_csq : sum_csq one = 1. Proof. vm_compute. reflexivity. Qed.
Lemma one_csq' : sum_csq (firstn 511 one) = 1. Proof. vm_compute. reflexivity. Qed.
Lemma wrapped_12290 : wrapped 12290 = -996 + 12289 * (-(2 ^ 256 / 12289) + 1). Proof. vm_compute. reflexivity. Qed.
Lemma shifted s1 s1' h c n : length s1 = n -> (forall i, (i < n)%nat -> nth i s1 0 = 12290) -> preimage n h c (map wrapped s1) (pconst n 1) -> preimage n h c s1' (pconst n 1) ->
  forall i, (i < n)%nat -> (12289 | nth i s1' 0 + 996).
Proof.
  intros L N (_ & _ & P) (_ & _ & P') i Hi. specialize (P' i Hi). specialize (P i Hi). unfold padd, coef in *. rewrite nth_map_seq in * by auto.
  change 0 with (wrapped 0) in P at 1. rewrite map_nth, (N i Hi), wrapped_12290 in P. destruct P' as [k1 K1]. destruct P as [k2 K2].
  exists (k1 - k2 + (-(2 ^ 256 / 12289) + 1)). lia.
Qed.
(** coefficients of s1 above q are not reduced modulo q: the recovered key is not the one of the signature equation.
    Each such coefficient enters the equation 997 lower, modulo q, than what the norm test counts. *)
Theorem C60_noncanonical_s1_refuted : forall H h2p fuel msgs salt c,
  (forall f sa m c, h2p f sa m = Some c -> length c = 512%nat) -> length salt = 40%nat -> h2p fuel salt msgs = Some c ->
  exists cs1 cs2 s1 s2 hint h, packed cs1 s1 /\ packed cs2 s2 /\ length h = 512%nat /\ Forall (fun x => 0 <= x < 12289) h /\
    contract_recover H h2p fuel msgs salt cs1 cs2 hint = Fin (Ok (HashToAddress H (flat_map (to_be 32) (ntt h)))) /\
    sum_csq s1 + sum_csq s2 = 513 /\ ~ preimage 512 h c s1 s2 /\
    (forall s1', preimage 512 h c s1' s2 -> 34034726 < sqnorm s1' + sqnorm s2).
Proof.
  intros H h2p fuel msgs salt c Hl Ls Ec. pose proof (Hl _ _ _ _ Ec) as Lc. destruct s12290 as (s1 & L1 & D1 & N1 & Q1 & Q1').
  destruct (dig_list s1 D1 L1) as (w1 & Lw1 & P1).
  destruct (dig_list one) as (w2 & Lw2 & P2); [apply canonq_dig, one_canon|reflexivity|].
  assert (LW : length (map wrapped s1) = 512%nat) by now rewrite map_length.
  destruct (key_for_one c (map wrapped s1) Lc LW) as (h & Lh & Ch & Pr).
  pose proof (fun s1' P' => shifted s1 s1' h c 512 L1 N1 Pr P') as G.
  exists w1, w2, s1, one, 1, h. split; [exact P1|]. split; [exact P2|]. split; [exact Lh|]. split; [exact Ch|]. split; [|split; [|split]].
  - apply (chain_recover_iff H h2p fuel msgs salt w1 w2 s1 one 1 _ Hl Lw1 Lw2 P1 P2). split; [exact Ls|]. split; [rewrite Q1, one_csq'; discriminate|]. split; [exact hint_one|].
    exists c, h. split; [exact Ec|]. split; [exact Lh|]. split; [exact Ch|]. split; [exact Pr|reflexivity].
  - rewrite Q1', one_csq. reflexivity.
  - intros P'. specialize (G s1 P' 0%nat (Nat.lt_0_succ 511)). rewrite (N1 0%nat (Nat.lt_0_succ 511)) in G. destruct G as [k Hk]. lia.
  - intros s' P'. specialize (G s' P'). destruct P' as (L' & _). pose proof (sqnorm_nonneg one) as H0. pose proof (short_n 512 s' L' G) as K.
    eapply Z.lt_le_trans; [|apply Z.add_le_mono; [exact K|exact H0]]. vm_compute. reflexivity.
Qed.
Print Assumptions C60_noncanonical_s1_refuted.

(** C70: other words for the same verdict *)
Theorem C70_core_malleable : forall fmp s2w ntthw c, 128 <= fmp -> length s2w = 32%nat -> length ntthw = 32%nat ->
  Forall (fun w => 0 <= w < 2 ^ 256) s2w -> Forall (fun w => 0 <= w < 2 ^ 256) ntthw -> length c = 512%nat ->
  exists s2w', s2w' <> s2w /\ length s2w' = 32%nat /\ Forall (fun w => 0 <= w < 2 ^ 256) s2w' /\ falcon_core fmp s2w' ntthw c = falcon_core fmp s2w ntthw c.
Proof. exact core_malleable. Qed.
Print Assumptions C70_core_malleable.
Theorem C70_verify_malleable : forall h2p fmp fuel msg salt s2w ntthw, 128 <= fmp -> Forall (fun w => 0 <= w < 2 ^ 256) s2w -> Forall (fun w => 0 <= w < 2 ^ 256) ntthw ->
  (forall f sa m c, h2p f sa m = Some c -> length c = 512%nat) ->
  contract_verify h2p fmp fuel msg salt s2w ntthw = Fin (Ok true) ->
  exists s2w', s2w' <> s2w /\ Forall (fun w => 0 <= w < 2 ^ 256) s2w' /\ contract_verify h2p fmp fuel msg salt s2w' ntthw = Fin (Ok true).
Proof.
  intros h2p fmp fuel msg salt s2w w Hf F2 Fw Hl V. unfold contract_verify, falcon_S256 in *.
  destruct (Nat.eqb_spec (length salt) 40); cbn [negb] in *; [|discriminate]. destruct (Nat.eqb_spec (length s2w) 32); cbn [negb] in *; [|discriminate].
  destruct (Nat.eqb_spec (length w) 32); cbn [negb] in *; [|discriminate]. destruct (h2p fuel salt msg) as [c|] eqn:E; [|discriminate].
  destruct (core_malleable fmp s2w w c) as (s' & N & L & F' & T); eauto. exists s'. rewrite L. cbn [Nat.eqb negb]. rewrite T. auto.
Qed.
Print Assumptions C70_verify_malleable.
Theorem C70_recover_malleable : forall H h2p fuel msgs salt cs1 cs2 hint k a, (forall f sa m c, h2p f sa m = Some c -> length c = 512%nat) ->
  Forall (fun w => 0 <= w < 2 ^ 256) cs1 -> Forall (fun w => 0 <= w < 2 ^ 256) cs2 ->
  contract_recover H h2p fuel msgs salt cs1 cs2 hint = Fin (Ok a) -> contract_recover H h2p fuel msgs salt cs1 cs2 (hint + 12289 * k) = Fin (Ok a).
Proof.
  intros H h2p fuel msgs salt w1 w2 hint k a Hl F1 F2 R.
  assert (L1 : length w1 = 32%nat). { unfold contract_recover in R. destruct (Nat.eqb_spec (length salt) 40); cbn [negb] in R; [|discriminate]. destruct (Nat.eqb_spec (length w1) 32); auto. discriminate. }
  assert (L2 : length w2 = 32%nat).
  { unfold contract_recover in R. destruct (Nat.eqb_spec (length salt) 40); cbn [negb] in R; [|discriminate]. destruct (Nat.eqb_spec (length w1) 32); cbn [negb] in R; [|discriminate].
    destruct (Nat.eqb_spec (length w2) 32); auto. discriminate. }
  pose proof (packed_Expand w1 L1 F1) as P1. pose proof (packed_Expand w2 L2 F2) as P2.
  apply (chain_recover_iff H h2p fuel msgs salt w1 w2 _ _ hint a Hl L1 L2 P1 P2) in R. destruct R as (A & B & C & D).
  apply (chain_recover_iff H h2p fuel msgs salt w1 w2 _ _ _ a Hl L1 L2 P1 P2). split; [exact A|]. split; [exact B|]. split; [|exact D].
  rewrite <- C. revert C. generalize (product (ntt (Expand w2))). intros z _.
  replace ((hint + 12289 * k) * z) with (hint * z + (k * z) * 12289) by ring. apply Z.mod_add. discriminate.
Qed.
Print Assumptions C70_recover_malleable.
