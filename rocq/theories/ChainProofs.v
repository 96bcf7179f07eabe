(** More proofs about the verifier contracts: honest signatures, forgeries, malleability. *)
From Verif Require Import Base KeccakModel HashModel HashSpec HashProofs NttModel NttProofs NttInst NttApi RingSpec Ring NtruProofs PolyProofs PolyModel PolyModelProofs EncodingModel EncodingSpec EncodingProofs PrngModel
  FalconModel FalconSpec FalconProofs RecoveryProofs SolModel SolSpec PackProofs SolProofs ChainRecover ChachaProofs.

(** the hashed point has 512 coefficients in [0, q) *)
Lemma nist_loop_len : forall fuel c tmp j out v, (length out <= 512)%nat -> canonq out -> nist_loop fuel c tmp j out = Some v -> length v = 512%nat /\ canonq v.
Proof.
  induction fuel as [|fuel IH]; intros c tmp j out v L C; cbn [nist_loop]; destruct (Nat.ltb_spec (length out) 512) as [Hl|Hl]; try discriminate;
    try (intros E; assert (out = v) by congruence; subst; split; auto; lia).
  destruct (j =? 136)%nat; [destruct (shakeSqueeze c 136) as [c' tmp']|]; intros E; apply IH in E; auto;
    match goal with |- context [if ?b then _ else _] => destruct b end; auto; try (rewrite app_length; cbn [length]; lia);
    apply Forall_app; split; auto; constructor; auto; apply Z.mod_pos_bound; reflexivity.
Qed.
Lemma evm_inner_len : forall fuel buffer j out, (length out < 512)%nat -> canonq out -> (length (evm_inner fuel buffer j out) <= 512)%nat /\ canonq (evm_inner fuel buffer j out).
Proof.
  induction fuel as [|fuel IH]; intros buffer j out L C; cbn [evm_inner]; destruct (j <? 666); auto with arith; try (split; [lia|auto]).
  cbv zeta. assert (C' : forall x, canonq (out ++ [x mod q])) by (intros x; apply Forall_app; split; auto; constructor; auto; apply Z.mod_pos_bound; reflexivity).
  destruct (_ <? kq); [|apply IH; auto]. match goal with |- context [if ?b then _ else _] => destruct b eqn:E end.
  - apply Nat.eqb_eq in E. split; [lia|apply C'].
  - apply Nat.eqb_neq in E. apply IH; [|apply C']. rewrite app_length in *. cbn [length] in *. lia.
Qed.
Lemma evm_loop_len H : forall fuel st ctr out v, (length out <= 512)%nat -> canonq out -> evm_loop H fuel st ctr out = Some v -> length v = 512%nat /\ canonq v.
Proof.
  induction fuel as [|fuel IH]; intros st ctr out v L C; cbn [evm_loop]; destruct (Nat.ltb_spec (length out) 512) as [Hl|Hl]; try discriminate;
    try (intros E; assert (out = v) by congruence; subst; split; auto; lia).
  cbv zeta. intros E. destruct (evm_inner_len 17 (be_int (H (st ++ be64 (ctr / 2 ^ 192)))) 240 out Hl C) as [A B]. apply IH in E; auto.
Qed.
Lemma NIST_len fuel salt msg v : hashToPointNIST fuel salt msg = Some v -> length v = 512%nat /\ canonq v.
Proof.
  unfold hashToPointNIST. destruct (shakeSqueeze _ 136) as [c tmp]. apply nist_loop_len; [cbn; lia|constructor].
Qed.
Lemma EVM_len H fuel salt msg v : hashToPointEVM H fuel salt msg = Some v -> length v = 512%nat /\ canonq v.
Proof. unfold hashToPointEVM. apply evm_loop_len; [cbn; lia|constructor]. Qed.

(** forging *)
Theorem forge_core fmp h ntthw c : 128 <= fmp -> length h = 512%nat -> length c = 512%nat -> unit_mod 512 h -> length ntthw = 32%nat -> packed ntthw (ntt h) ->
  exists s2w, length s2w = 32%nat /\ Forall (fun w => 0 <= w < 2 ^ 256) s2w /\ falcon_core fmp s2w ntthw c = true.
Proof.
  intros Hf Lh Lc U Ln Pn. destruct (forge h c Lh Lc U) as (s2 & L2 & C2 & P).
  destruct (Compact_packed s2 L2 (canonq_dig _ C2)) as [PC LC]. exists (Compact s2). split; [exact LC|]. split.
  - apply Forall_forall. intros w Hw. destruct (In_nth _ _ 0 Hw) as (i & Hi & <-). apply (packed_word _ _ PC). exact Hi.
  - apply (core_iff fmp (Compact s2) ntthw s2 (ntt h) h c); auto; [apply pcong_refl|]. exists (repeat 0 512). split; [exact P|]. vm_compute. reflexivity.
Qed.

(** the verdict depends on s2 modulo q only *)
Lemma poly_mul_cong s s' h : length s = 512%nat -> length s' = 512%nat -> pcong 512 12289 s s' -> poly_mul s h = poly_mul s' h.
Proof.
  intros L L' C. unfold poly_mul. apply (pcong_mod 512 _ _ L L') in C. rewrite <- (ntt_mod 9 K9 512 N9 s L), <- (ntt_mod 9 K9 512 N9 s' L'), C. reflexivity.
Qed.
Theorem core_cong fmp s2w s2w' ntthw s2 s2' c : 128 <= fmp -> length s2w = 32%nat -> length s2w' = 32%nat -> length ntthw = 32%nat ->
  Forall (fun w => 0 <= w < 2 ^ 256) ntthw -> length c = 512%nat ->
  packed s2w s2 -> packed s2w' s2' -> pcong 512 12289 s2 s2' -> falcon_core fmp s2w ntthw c = falcon_core fmp s2w' ntthw c.
Proof.
  intros Hf L L' Ln Fn Lc P P' C. pose proof (packed_Expand ntthw Ln Fn) as Pn. destruct (key_exists (Expand ntthw) (Expand_length _)) as (Lh & Ch & EK).
  rewrite (core_value fmp s2w ntthw s2 _ _ c Hf L Ln P Pn Lh EK Lc), (core_value fmp s2w' ntthw s2' _ _ c Hf L' Ln P' Pn Lh EK Lc).
  unfold s0_of. rewrite (poly_mul_cong s2 s2') by (eauto using Expand_len). reflexivity.
Qed.
(** another array of words for the same residues *)
Definition bump (l : list Z) : list Z := upd l 0 (if nth 0 l 0 <? 53247 then nth 0 l 0 + 12289 else nth 0 l 0 - 12289).
Lemma bump_facts l : length l = 512%nat -> Forall dig l -> length (bump l) = 512%nat /\ Forall dig (bump l) /\ pcong 512 12289 l (bump l) /\ bump l <> l.
Proof.
  intros L D. unfold bump. rewrite upd_length. split; [exact L|].
  assert (D0 : dig (nth 0 l 0)) by (rewrite Forall_forall in D; apply D, nth_In; lia). unfold dig in *.
  assert (N : forall i, nth i (upd l 0 (if nth 0 l 0 <? 53247 then nth 0 l 0 + 12289 else nth 0 l 0 - 12289)) 0 =
    if Nat.eqb i 0 then (if nth 0 l 0 <? 53247 then nth 0 l 0 + 12289 else nth 0 l 0 - 12289) else nth i l 0) by (intros i; rewrite nth_upd by lia; reflexivity).
  split; [|split].
  - apply Forall_forall. intros x Hx. destruct (In_nth _ _ 0 Hx) as (i & Hi & <-). rewrite upd_length in Hi. rewrite N. destruct (Nat.eqb_spec i 0).
    + destruct (Z.ltb_spec (nth 0 l 0) 53247); lia.
    + rewrite Forall_forall in D. apply D, nth_In. lia.
  - intros i Hi. unfold coef. rewrite N. destruct (Nat.eqb_spec i 0) as [->|]; [|exists 0; lia].
    destruct (nth 0 l 0 <? 53247); [exists (-1)|exists 1]; lia.
  - intros E. apply (f_equal (fun l => nth 0 l 0)) in E. rewrite N in E. cbn [Nat.eqb] in E. destruct (nth 0 l 0 <? 53247); lia.
Qed.
Theorem core_malleable fmp s2w ntthw c : 128 <= fmp -> length s2w = 32%nat -> length ntthw = 32%nat ->
  Forall (fun w => 0 <= w < 2 ^ 256) s2w -> Forall (fun w => 0 <= w < 2 ^ 256) ntthw -> length c = 512%nat ->
  exists s2w', s2w' <> s2w /\ length s2w' = 32%nat /\ Forall (fun w => 0 <= w < 2 ^ 256) s2w' /\ falcon_core fmp s2w' ntthw c = falcon_core fmp s2w ntthw c.
Proof.
  intros Hf L Ln F Fn Lc. pose proof (packed_Expand s2w L F) as P. destruct (bump_facts (Expand s2w) (Expand_length _) (Expand_dig _)) as (Lb & Db & Cb & Nb).
  destruct (Compact_packed (bump (Expand s2w)) Lb Db) as [PC LC]. exists (Compact (bump (Expand s2w))).
  split; [intros E; apply Nb; rewrite <- E at 2; symmetry; apply Expand_packed; auto|]. split; [exact LC|]. split.
  - apply Forall_forall. intros w Hw. destruct (In_nth _ _ 0 Hw) as (i & Hi & <-). apply (packed_word _ _ PC). exact Hi.
  - symmetry. exact (core_cong fmp s2w _ ntthw (Expand s2w) (bump (Expand s2w)) c Hf L LC Ln Fn Lc P PC Cb).
Qed.

(** honest signatures *)
Lemma mod_q_map v : map (fun e => e mod q) v = mod_q v. Proof. reflexivity. Qed.
Lemma compact_exists s : length s = 512%nat -> canonq s -> exists w, falcon_compact s = Ok w /\ length w = 32%nat /\ packed w s.
Proof.
  intros L C. destruct (falcon_compact_packed s) as (w & E & P); [rewrite L; reflexivity|now apply canonq_dig|]. exists w. split; auto. split; auto.
  destruct P as (E' & _). lia.
Qed.
Lemma mod512_compact : (512 mod 16 = 0)%nat. Proof. reflexivity. Qed.
Lemma sqnorm_zero v : sqnorm v <= 0 -> v = repeat 0 (length v).
Proof.
  induction v as [|x v IH]; intros H; [reflexivity|]. unfold sqnorm in *. cbn [fold_right length repeat] in *. pose proof (sqnorm_nonneg v) as N. unfold sqnorm in N.
  assert (x = 0) by nia. subst x. f_equal. apply IH. lia.
Qed.
Lemma decompress_nonempty l b n v : (0 < n)%nat -> decompress l b n = Ok (Some v) -> (0 < length l)%nat.
Proof.
  intros np E. apply decompress_accepts in E; [|auto]. destruct E as (_ & L & w & rest & EW & EB). destruct l; [|cbn; lia].
  cbn in EB. destruct w; [|discriminate]. exfalso. apply (encodes_all_nonempty v [] EW); [|reflexivity]. intros ->. cbn in L. lia.
Qed.
Theorem honest_accepted h P fuel msg sig X h2p fmp fuel' : PublicKey 512 h = Ok P -> length h = 512%nat -> verify fuel P msg sig X = Fin (Ok true) -> 128 <= fmp ->
  (forall c, hash_to_point fuel 512 msg (slice 1 41 sig) X = Fin (Ok c) -> h2p fuel' (slice 1 41 sig) msg = Some c) ->
  exists s1 S2 PK, decompress (skipn 41 sig) 625 512 = Ok (Some s1) /\ onchain_falcon_args h sig = Ok (Some (S2, PK)) /\
    (s1 <> repeat 0 512 -> contract_verify h2p fmp fuel' msg (slice 1 41 sig) S2 PK = Fin (Ok true)).
Proof.
  intros HP Lh V Hf HH. pose proof (verify_cases 512 h P fuel msg sig X HP Lh) as VC.
  destruct (PublicKey_facts 512 h P HP) as (b & l & lg & Hpar & EP).
  assert (HPar : params 512 = Ok (34034726, Z.to_nat 666, 9)) by (vm_compute; reflexivity). rewrite HPar in Hpar.
  assert (b = 34034726) by congruence. assert (l = Z.to_nat 666) by congruence. subst b l. rewrite EP in VC. cbn [pk_len pk_bound] in VC.
  change (Z.to_nat 666 - 41)%nat with 625%nat in VC. rewrite <- EP in VC. clear HPar.
  destruct (decompress (skipn 41 sig) 625 512) as [[s1|]|e] eqn:ED; [|rewrite V in VC; discriminate..].
  destruct (hash_to_point fuel 512 msg (slice 1 41 sig) X) as [[c|e]|] eqn:EH; [|rewrite V in VC; discriminate..].
  destruct VC as (bb & VE & Vt & _). assert (bb = true) by congruence. subst bb. destruct (proj1 Vt eq_refl) as (s0 & P0 & B0). clear Vt VE.
  pose proof (h2p_facts _ _ _ _ _ _ EH) as [Lc _]. pose proof P0 as (L0 & L1 & _).
  assert (Lsig : (41 < length sig)%nat) by (pose proof (decompress_nonempty _ _ _ _ (Nat.lt_0_succ 511) ED) as N; rewrite skipn_length in N; lia).
  destruct (compact_exists (mod_q s1)) as (S2 & E2 & LS2 & PS2); [now rewrite mod_q_length|apply mod_q_canon|].
  destruct (compact_exists (ntt h)) as (PK & EK & LK & PPK); [now apply (ntt_length 9 K9 512 N9)|now apply (ntt_canon 9 K9 512 N9)|].
  exists s1, S2, PK. split; [reflexivity|]. split.
  - unfold onchain_falcon_args. change (666 - HEAD_LEN - SALT_LEN)%nat with 625%nat. rewrite ED. cbn [bind]. rewrite mod_q_map, E2. cbn [bind]. rewrite EK. reflexivity.
  - intros NZ. unfold contract_verify. assert (LS : length (slice 1 41 sig) = 40%nat) by (unfold slice; rewrite firstn_length, skipn_length; lia).
    rewrite LS, LS2, LK. cbn [Nat.eqb negb falcon_S256]. rewrite (HH c eq_refl). do 2 f_equal.
    apply (core_iff fmp S2 PK (mod_q s1) (ntt h) h c); auto; [apply pcong_refl|]. exists s0. split.
    + apply preimage_s0; auto; [lia|now rewrite mod_q_length|]. apply preimage_s0 in P0; auto; [|lia]. eapply pcong_trans; [exact P0|].
      apply pcong_req. rewrite !psub_req. apply rsub_req; [reflexivity|]. apply pcong_req. apply eqm_pcong.
      apply (ntt_inj 9 K9 512 N9); try apply negmul_length. rewrite !(ntt_negmul 9 K9 512 N9) by (auto; now rewrite mod_q_length). now rewrite (ntt_mod 9 K9 512 N9).
    + pose proof (sqnorm_firstn_le 511 s0). pose proof (sqnorm_nonneg s1). destruct (Z.eq_dec (sqnorm s1) 0) as [Z0|]; [|lia].
      exfalso. apply NZ. rewrite <- L1. apply sqnorm_zero. lia.
Qed.

(** recover *)
Lemma product_inverse l : Forall (fun x => x mod 12289 <> 0) l -> forall a, (fold_left (fun hint e => (hint * e) mod q) (map inv_q l) a * product l) mod 12289 = a mod 12289.
Proof.
  induction 1 as [|x l Hx _ IH]; intros a; [unfold product; cbn [map fold_left fold_right]; now rewrite Z.mul_1_r|].
  unfold product in *. cbn [map fold_left fold_right]. change q with 12289 in *.
  rewrite Z.mul_comm, (Z.mul_comm x), <- Z.mul_assoc. rewrite (Z.mul_comm x), Z.mul_assoc, (Z.mul_comm (fold_right Z.mul 1 l)).
  rewrite <- Zmult_mod_idemp_l. rewrite IH. rewrite Z.mod_mod by lia. rewrite Zmult_mod_idemp_l.
  replace (a * inv_q x * x) with (a * (x * inv_q x)) by ring. rewrite <- Zmult_mod_idemp_r, inv_q_ok by auto. f_equal. ring.
Qed.
Lemma csq_mod x : csq (x mod 12289) <= x ^ 2.
Proof.
  rewrite csq_centre by (apply Z.mod_pos_bound; lia). apply centre_min. exists (x / 12289). rewrite Z.mod_eq by lia. ring.
Qed.
Lemma sum_csq_mod v : sum_csq (mod_q v) <= sqnorm v.
Proof. induction v as [|x v IH]; [cbn; lia|]. unfold sum_csq, sqnorm, mod_q in *. cbn [map fold_right]. pose proof (csq_mod x). lia. Qed.
Lemma csq_nonneg x : 0 <= csq x. Proof. unfold csq. destruct (_ <? _); rewrite Z.pow_2_r; apply Z.square_nonneg. Qed.
Lemma sum_csq_firstn k l : sum_csq (firstn k l) <= sum_csq l.
Proof.
  rewrite <- (firstn_skipn k l) at 2. rewrite sum_csq_app. assert (0 <= sum_csq (skipn k l)); [|lia].
  generalize (skipn k l). intros r. induction r as [|x r IH]; [cbn; lia|]. unfold sum_csq in *. cbn [fold_right]. pose proof (csq_nonneg x). lia.
Qed.

Lemma fold_hint_canon l : forall a, fold_left (fun hint e => (hint * e) mod q) (map inv_q l) a mod 12289 = fold_left (fun hint e => (hint * e) mod q) (map inv_q l) (a mod 12289) mod 12289.
Proof.
  destruct l as [|x l]; intros a; cbn [map fold_left]; [now rewrite Z.mod_mod|]. do 2 f_equal. change q with 12289. rewrite Zmult_mod_idemp_l. reflexivity.
Qed.
Lemma preimage_mod h c s0 s1 : preimage 512 h c s0 s1 -> length h = 512%nat -> preimage 512 h c (mod_q s0) (mod_q s1).
Proof.
  intros (L0 & L1 & P) Lh. split; [now rewrite mod_q_length|]. split; [now rewrite mod_q_length|]. eapply pcong_trans; [|exact P].
  assert (N : pcong 512 12289 (negmul 512 (mod_q s1) h) (negmul 512 s1 h)).
  { apply eqm_pcong. apply (ntt_inj 9 K9 512 N9); try apply negmul_length. rewrite !(ntt_negmul 9 K9 512 N9) by (auto; now rewrite mod_q_length).
    now rewrite (ntt_mod 9 K9 512 N9). }
  pose proof (mod_q_pcong 512 s0) as M. intros i Hi. specialize (N i Hi). specialize (M i Hi). unfold padd, coef in *. rewrite !nth_map_seq by auto.
  replace (_ - _) with (nth i (mod_q s0) 0 - nth i s0 0 + (nth i (negmul 512 (mod_q s1) h) 0 - nth i (negmul 512 s1 h) 0)) by ring.
  now apply Z.divide_add_r.
Qed.
Theorem ep_honest H pk P fuel msg sig X a h2p fuel' : (forall m, length (H m) = 32%nat) -> (forall m, bytes (H m)) ->
  RecoveryModePublicKey 512 pk = Ok P -> ep_recover H fuel P msg sig X = Fin (Ok (Some a)) ->
  (forall f sa m c, h2p f sa m = Some c -> length c = 512%nat) ->
  (forall c, hash_to_point fuel 512 msg (slice 1 41 sig) X = Fin (Ok c) -> h2p fuel' (slice 1 41 sig) msg = Some c) ->
  exists S1 S2 hint, onchain_epervier_args sig = Ok (Some (S1, S2, hint)) /\
    contract_recover H h2p fuel' msg (slice 1 41 sig) S1 S2 hint = Fin (Ok a).
Proof.
  intros H32 HB HP R Hlen HH. apply (proj2 (recover_iff H 512 pk P fuel msg sig X a HP)) in R.
  destruct R as (c & s0 & s1 & h & EH & (ED & BD & U & PR & Lh & Ch & HO) & ->).
  destruct (rp_facts _ _ _ HP) as (b & l & lg & Hpar & EP).
  assert (HPar : params 512 = Ok (34034726, Z.to_nat 666, 9)) by (vm_compute; reflexivity). rewrite HPar in Hpar.
  assert (b = 34034726) by congruence. assert (l = Z.to_nat 666) by congruence. subst b l. rewrite EP in *. cbn [rp_len rp_bound] in *. clear Hpar HPar EP.
  pose proof PR as (L0 & L1 & _).
  assert (Lsig : (41 < length sig)%nat).
  { pose proof (decompress_nonempty _ _ _ _ (Nat.lt_0_succ 1023) ED) as N. unfold slice in N. rewrite firstn_length, skipn_length in N. lia. }
  destruct (compact_exists (mod_q s0)) as (S1 & E1 & LS1 & PS1); [now rewrite mod_q_length|apply mod_q_canon|].
  destruct (compact_exists (mod_q s1)) as (S2 & E2 & LS2 & PS2); [now rewrite mod_q_length|apply mod_q_canon|].
  assert (Lm : length (mod_q s1) = 512%nat) by now rewrite mod_q_length.
  assert (N1 : ntt (mod_q s1) = ntt s1) by now apply (ntt_mod 9 K9 512 N9).
  assert (NZ : Forall (fun x => x mod 12289 <> 0) (ntt s1)).
  { apply Forall_forall. intros x Hx. destruct (In_nth _ _ 0 Hx) as (i & Hi & <-). rewrite (ntt_length 9 K9 512 N9 s1 L1) in Hi.
    intros E. destruct HO as [_ HO]. specialize (HO i Hi). rewrite <- Zmult_mod_idemp_r, E, Z.mul_0_r in HO. discriminate. }
  assert (I : invertible (mod_q s1) = true).
  { apply (proj1 (unit_iff 9 512 s1 K9 N9 L1)) in U. unfold invertible in *. rewrite N1. exact U. }
  assert (EI : poly_inverse (mod_q s1) = Ok (intt (map inv_q (ntt s1)))) by (unfold poly_inverse; rewrite I, N1; reflexivity).
  pose proof (poly_inverse_ntt 9 K9 512 N9 _ _ Lm EI) as NI. rewrite N1 in NI.
  set (hint := fold_left (fun hint e => (hint * e) mod q) (map inv_q (ntt s1)) 1).
  exists S1, S2, hint. split.
  - unfold onchain_epervier_args. replace (512 * 3)%nat with (3 * 512)%nat by reflexivity. replace (512 * 2)%nat with (2 * 512)%nat by reflexivity.
    replace (666 * 2 - HEAD_LEN - SALT_LEN)%nat with (2 * Z.to_nat 666 - 41)%nat by reflexivity. rewrite ED. cbn [bind].
    rewrite mod_q_map, app_length, L0, L1. replace ((512 + 512) / 2)%nat with 512%nat by reflexivity. cbv zeta.
    unfold mod_q. rewrite map_app. fold (mod_q s0). fold (mod_q s1).
    rewrite <- (mod_q_length s0) in L0. rewrite <- L0 at 1. rewrite firstn_app, firstn_all, Nat.sub_diag. cbn [firstn]. rewrite app_nil_r, E1. cbn [bind].
    rewrite <- L0, skipn_app, skipn_all, Nat.sub_diag. cbn [skipn app]. rewrite E2. cbn [bind]. rewrite EI. cbn [bind]. rewrite NI. reflexivity.
  - apply (chain_recover_iff H h2p fuel' msg (slice 1 41 sig) S1 S2 (mod_q s0) (mod_q s1) hint); auto.
    rewrite wrapped_le by (pose proof (mod_q_canon s0) as C; eapply Forall_impl; [|exact C]; cbn; lia).
    split; [unfold slice; rewrite firstn_length, skipn_length; lia|]. split; [|split].
    + pose proof (sum_csq_firstn 511 (mod_q s0)). pose proof (sum_csq_firstn 511 (mod_q s1)). pose proof (sum_csq_mod s0). pose proof (sum_csq_mod s1). lia.
    + rewrite N1. unfold hint. now rewrite product_inverse.
    + exists c, h. split; [auto|]. split; [exact Lh|]. split; [exact Ch|]. split; [now apply preimage_mod|]. symmetry. apply address_eq; auto.
Qed.
