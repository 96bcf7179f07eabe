(** Proofs about ZKNOX_epervier.recover. *)
From Verif Require Import Base KeccakModel HashModel NttModel NttProofs NttInst NttApi RingSpec PolyProofs PolyModel PolyModelProofs EncodingModel PrngModel
  FalconModel FalconSpec FalconProofs RecoveryProofs SolModel SolSpec PackProofs SolProofs ChachaProofs.

(** products *)
Fixpoint prodn (f : nat -> Z) (n : nat) : Z := match n with O => 1 | S k => prodn f k * f k end.
Fixpoint top (f : nat -> Z) (m : nat) : Z := match m with O => 1 | S k => top f k * f (511 - k)%nat end.
Lemma prod_top f m : (m <= 512)%nat -> prodn f (512 - m) * top f m = prodn f 512.
Proof.
  induction m as [|m IH]; intros Hm; [cbn [top]; rewrite Nat.sub_0_r; ring|]. rewrite <- IH by lia. cbn [top].
  replace (512 - m)%nat with (S (511 - m)) by lia. replace (512 - S m)%nat with (511 - m)%nat by lia. cbn [prodn]. ring.
Qed.
Lemma prodn_product l : prodn (fun i => nth i l 0) (length l) = product l.
Proof.
  assert (G : forall m, (m <= length l)%nat -> prodn (fun i => nth i l 0) m = product (firstn m l)).
  { assert (PA : forall a b, product (a ++ b) = product a * product b) by (intros a b; unfold product; induction a as [|x a IH]; cbn [app fold_right]; [lia|rewrite IH; ring]).
    induction m as [|m IH]; intros Hm; [reflexivity|]. cbn [prodn]. rewrite IH by lia. rewrite firstn_S_nth by lia. rewrite PA. unfold product at 3. cbn [fold_right]. ring. }
  rewrite G by lia. now rewrite firstn_all.
Qed.

Section Hint.
Variable s2 : list Z.
Hypothesis L2 : length s2 = 512%nat.
Hypothesis C2 : canonq s2.
Local Notation s := (fun i => nth i s2 0).

Lemma prefix_ok k : (k <= 511)%nat ->
  let p := fold_left (fun p i => upd p i ((nth (i - 1) p 0 * nth i s2 0) mod qf)) (seq 1 k) (upd (repeat 0 512) 0 (nth 0 s2 0)) in
  length p = 512%nat /\ forall i, (i <= k)%nat -> nth i p 0 = prodn s (S i) mod 12289.
Proof.
  induction k as [|k IH]; intros Hk; cbv zeta.
  - change (seq 1 0) with (@nil nat). cbn [fold_left]. rewrite upd_length, repeat_length. split; auto. intros i Hi. replace i with 0%nat by lia.
    rewrite nth_upd by (rewrite repeat_length; lia). cbn [Nat.eqb]. pose proof (canonq_nth s2 0 C2). cbn [prodn]. rewrite Z.mul_1_l. symmetry. apply Z.mod_small. lia.
  - rewrite seq_S, fold_left_app. change (1 + k)%nat with (S k). cbn [fold_left].
    destruct (IH ltac:(lia)) as [Lp Ep]. set (p := fold_left _ (seq 1 k) _) in *. rewrite upd_length. split; auto. intros i Hi.
    rewrite nth_upd by lia. destruct (Nat.eqb_spec i (S k)) as [->|]; [|apply Ep; lia].
    replace (S k - 1)%nat with k by lia. rewrite Ep by lia. change qf with 12289. rewrite Zmult_mod_idemp_l. reflexivity.
Qed.
Lemma back_ok hint k : (k <= 511)%nat ->
  let v := fold_left (fun v k => upd v (511 - k) ((nth (512 - k) v 0 * nth (512 - k) s2 0) mod qf)) (seq 1 k) (upd (repeat 0 512) 511 hint) in
  length v = 512%nat /\ nth 511 v 0 = hint /\ forall j, (1 <= j <= k)%nat -> nth (511 - j) v 0 = (hint * top s j) mod 12289.
Proof.
  induction k as [|k IH]; intros Hk; cbv zeta.
  - change (seq 1 0) with (@nil nat). cbn [fold_left]. rewrite upd_length, repeat_length. split; auto. split; [|intros; lia].
    rewrite nth_upd by (rewrite repeat_length; lia). reflexivity.
  - rewrite seq_S, fold_left_app. change (1 + k)%nat with (S k). cbn [fold_left].
    destruct (IH ltac:(lia)) as (Lv & E1 & Ev). set (v := fold_left _ (seq 1 k) _) in *. rewrite upd_length. split; auto. split.
    + rewrite nth_upd by lia. destruct (Nat.eqb_spec 511 (511 - S k)); [lia|exact E1].
    + intros j Hj. rewrite nth_upd by lia. destruct (Nat.eqb_spec (511 - j) (511 - S k)) as [E|]; [|apply Ev; lia].
      replace j with (S k) by lia. cbn [top]. replace (512 - S k)%nat with (511 - k)%nat by lia. change qf with 12289.
      destruct k as [|k]; [cbn [top]; rewrite Nat.sub_0_r, E1; f_equal; ring|].
      rewrite Ev by lia. rewrite Zmult_mod_idemp_l. f_equal. ring.
Qed.
Lemma forward_ok p v k : length v = 512%nat -> (k <= 511)%nat ->
  let w := fold_left (fun v i => upd v i ((nth (i - 1) p 0 * nth i v 0) mod qf)) (seq 1 k) v in
  length w = 512%nat /\ nth 0 w 0 = nth 0 v 0 /\ (forall i, (1 <= i <= k)%nat -> nth i w 0 = (nth (i - 1) p 0 * nth i v 0) mod 12289) /\
  (forall i, (k < i)%nat -> nth i w 0 = nth i v 0).
Proof.
  intros Lv. induction k as [|k IH]; intros Hk; cbv zeta.
  - change (seq 1 0) with (@nil nat). cbn [fold_left]. split; auto. split; auto. split; auto. intros; lia.
  - rewrite seq_S, fold_left_app. change (1 + k)%nat with (S k). cbn [fold_left].
    destruct (IH ltac:(lia)) as (Lw & E0 & Ew & Er). set (w := fold_left _ (seq 1 k) _) in *. rewrite upd_length. split; auto. split.
    + rewrite nth_upd by lia. destruct (Nat.eqb_spec 0 (S k)); [lia|exact E0].
    + split; intros i Hi; rewrite nth_upd by lia.
      * destruct (Nat.eqb_spec i (S k)) as [->|]; [|apply Ew; lia]. rewrite Er by lia. reflexivity.
      * destruct (Nat.eqb_spec i (S k)); [lia|]. apply Er. lia.
Qed.
Variable hint : Z.
Definition ep_inv := ep_forward (ep_prefix s2) (ep_back s2 hint).
Lemma ep_inv_length : length ep_inv = 512%nat.
Proof. apply (forward_ok _ _ 511); [apply (back_ok hint 511); lia|lia]. Qed.
Lemma ep_inv_nth i : (i < 512)%nat -> nth i ep_inv 0 = (prodn s i * (hint * top s (511 - i))) mod 12289.
Proof.
  intros Hi. unfold ep_inv, ep_forward, ep_prefix, ep_back.
  destruct (prefix_ok 511 ltac:(lia)) as [Lp Ep]. destruct (back_ok hint 511 ltac:(lia)) as (Lv & E1 & Ev).
  set (p := fold_left _ (seq 1 511) (upd (repeat 0 512) 0 _)) in *. set (v := fold_left _ (seq 1 511) (upd (repeat 0 512) 511 _)) in *.
  destruct (forward_ok p v 511 Lv ltac:(lia)) as (Lw & E0 & Ew & _). cbv zeta in *.
  destruct (Nat.eq_dec i 0) as [->|Hn].
  - rewrite E0. rewrite Nat.sub_0_r. cbn [prodn]. rewrite Z.mul_1_l. rewrite <- (Ev 511%nat) by lia. reflexivity.
  - rewrite Ew by lia. rewrite Ep by lia. replace (S (i - 1)) with i by lia.
    destruct (Nat.eq_dec i 511) as [->|].
    + rewrite E1, Nat.sub_diag. cbn [top]. rewrite Z.mul_1_r. now rewrite Zmult_mod_idemp_l.
    + assert (J1 : (1 <= 511 - i <= 511)%nat) by (clear - Hi Hn n; lia). assert (J2 : (511 - (511 - i) = i)%nat) by (clear - Hi; lia).
      specialize (Ev _ J1). rewrite J2 in Ev. rewrite Ev. rewrite <- Zmult_mod. reflexivity.
Qed.
Lemma ep_inv_canon : canonq ep_inv.
Proof.
  apply Forall_forall. intros x Hx. destruct (In_nth _ _ 0 Hx) as (i & Hi & <-). rewrite ep_inv_length in Hi. rewrite (ep_inv_nth i Hi). apply Z.mod_pos_bound. reflexivity.
Qed.
Lemma ep_inv_prod i : (i < 512)%nat -> (nth i s2 0 * nth i ep_inv 0) mod 12289 = (hint * product s2) mod 12289.
Proof.
  intros Hi. rewrite (ep_inv_nth i Hi). rewrite Zmult_mod_idemp_r. f_equal. rewrite <- prodn_product, L2.
  rewrite <- (prod_top s (512 - S i)) by lia. replace (512 - (512 - S i))%nat with (S i) by lia. replace (512 - S i)%nat with (511 - i)%nat by lia.
  cbn [prodn]. ring.
Qed.
Lemma ep_check_zero : ep_check s2 ep_inv = 0 <-> (hint * product s2) mod 12289 = 1.
Proof.
  unfold ep_check. rewrite (for_lt_fold _ 512 513 32) by (try lia; intros; lia).
  set (P := (hint * product s2) mod 12289). assert (HP : 0 <= P < 12289) by (apply Z.mod_pos_bound; lia).
  assert (G : forall m, (m <= 512)%nat -> fold_left (fun a i => evm_add a (evm_sub 1 ((at_off s2 (32 + 32 * Z.of_nat i) * at_off ep_inv (32 + 32 * Z.of_nat i)) mod qf))) (seq 0 m) 0
     = (Z.of_nat m * (1 - P)) mod two256).
  { induction m as [|m IH]; intros Hm; [reflexivity|]. rewrite seq_S, fold_left_app. cbn [fold_left Nat.add]. rewrite IH by lia.
    rewrite !at_off_nth. change qf with 12289. rewrite ep_inv_prod by lia. fold P. unfold evm_add, evm_sub. rewrite <- Zplus_mod. f_equal. lia. }
  rewrite G by lia. assert (two256 > 12289 * 513) by (vm_compute; reflexivity). split.
  - intros E. apply Z.mod_divide in E; [|lia]. destruct E as [d Hd]. assert (d = 0) by nia. subst d. lia.
  - intros ->. reflexivity.
Qed.
End Hint.

Lemma ep_inv_eq s2 hint : ep_forward (ep_prefix s2) (ep_back s2 hint) = ep_inv s2 hint. Proof. unfold ep_inv. reflexivity. Qed.
Lemma VECMULMOD_vec a b : length a = 512%nat -> VECMULMOD a b = vec_mul a b. Proof. intros L. unfold VECMULMOD, vec_mul. rewrite L. reflexivity. Qed.
Lemma Expand_len s w : length w = 32%nat -> packed w s -> length s = 512%nat.
Proof. intros L (E & _). rewrite L in E. exact E. Qed.
Lemma epervier_norm_spec s1 s2 : length s1 = 512%nat -> length s2 = 512%nat -> Forall dig s1 -> Forall dig s2 ->
  epervier_norm s1 s2 = sum_csq (firstn 511 s1) + sum_csq (firstn 511 s2).
Proof.
  intros L1 L2 D1 D2. unfold epervier_norm. rewrite (for_lt_fold _ 511 512 32) by (try lia; intros; lia).
  assert (DN : forall s i, Forall dig s -> length s = 512%nat -> (i < 512)%nat -> dig (nth i s 0)) by (intros s i D L Hi; rewrite Forall_forall in D; apply D, nth_In; lia).
  assert (G : forall m, (m <= 511)%nat -> fold_left (fun a i => norm_add (at_off s2 (32 + 32 * Z.of_nat i)) (norm_add (at_off s1 (32 + 32 * Z.of_nat i)) a)) (seq 0 m) 0
     = sum_csq (firstn m s1) + sum_csq (firstn m s2)).
  { induction m as [|m IH]; intros Hm; [reflexivity|]. rewrite seq_S, fold_left_app. cbn [fold_left Nat.add]. rewrite IH by lia. rewrite !at_off_nth.
    pose proof (sum_csq_bound (firstn m s1) (Forall_firstn _ _ _ D1)) as B1. pose proof (sum_csq_bound (firstn m s2) (Forall_firstn _ _ _ D2)) as B2.
    rewrite firstn_length_le in B1, B2 by lia. pose proof (DN s1 m D1 L1 ltac:(lia)) as d1. pose proof (DN s2 m D2 L2 ltac:(lia)) as d2.
    pose proof (csq_bound _ d1). assert (P : 2 * (512 * 2 ^ 32) + 2 ^ 32 < 2 ^ 200) by (vm_compute; reflexivity).
    assert (Z.of_nat m * 2 ^ 32 <= 512 * 2 ^ 32) by nia.
    rewrite (norm_add_csq (nth m s1 0)) by (auto; lia). rewrite norm_add_csq by (auto; lia).
    rewrite !firstn_S_nth by lia. rewrite !sum_csq_app. unfold sum_csq at 4 6. cbn [fold_right]. lia. }
  apply G. lia.
Qed.

Section Recover.
Variables (H : list Z -> list Z) (h2p : nat -> list Z -> list Z -> option (list Z)).
(** recover *)
Theorem chain_recover_iff fuel msgs salt cs1 cs2 s1 s2 hint a :
  (forall f sa m c, h2p f sa m = Some c -> length c = 512%nat) ->
  length cs1 = 32%nat -> length cs2 = 32%nat -> packed cs1 s1 -> packed cs2 s2 ->
  (contract_recover H h2p fuel msgs salt cs1 cs2 hint = Fin (Ok a) <->
   length salt = 40%nat /\ sum_csq (firstn 511 s1) + sum_csq (firstn 511 s2) <= 34034726 /\ (hint * product (ntt s2)) mod 12289 = 1 /\
   exists c h, h2p fuel salt msgs = Some c /\ length h = 512%nat /\ canonq h /\ preimage 512 h c (map wrapped s1) s2 /\ a = HashToAddress H (flat_map (to_be 32) (ntt h))).
Proof.
  intros Hlen Lc1 Lc2 P1 P2. pose proof (Expand_len s1 cs1 Lc1 P1) as L1. pose proof (Expand_len s2 cs2 Lc2 P2) as L2.
  unfold contract_recover. rewrite Lc1, Lc2. cbn [Nat.eqb negb]. destruct (Nat.eqb_spec (length salt) 40) as [Es|Es]; cbn [negb];
    [|split; [discriminate|intros (E & _); congruence]].
  rewrite (Expand_packed cs1 s1), (Expand_packed cs2 s2) by auto.
  assert (D1 : Forall dig s1) by apply P1. assert (D2 : Forall dig s2) by apply P2.
  rewrite epervier_norm_spec by auto. unfold sigBound.
  destruct (Z.ltb_spec 34034726 (sum_csq (firstn 511 s1) + sum_csq (firstn 511 s2))) as [B|B]; [split; [discriminate|intros (_ & E & _); lia]|].
  rewrite (ntt_chain s2) by auto. cbv zeta. rewrite !ep_inv_eq.
  assert (LT := ntt_length 9 K9 512 N9 s2 L2). assert (CT := ntt_canon 9 K9 512 N9 s2 L2).
  destruct (h2p fuel salt msgs) as [c|] eqn:EH; [|split; [discriminate|intros (_ & _ & _ & c & h & E & _); discriminate]].
  pose proof (Hlen _ _ _ _ EH) as Lc.
  destruct (Z.eqb_spec (ep_check (ntt s2) (ep_inv (ntt s2) hint)) 0) as [EC|EC]; cbn [negb].
  2:{ split; [discriminate|]. intros (_ & _ & E & _). exfalso. apply EC. apply ep_check_zero; auto. }
  assert (EP : (hint * product (ntt s2)) mod 12289 = 1) by (apply (ep_check_zero (ntt s2) LT CT hint); exact EC).
  assert (HO : hint_ok 512 (ep_inv (ntt s2) hint) s2).
  { split; [now apply ep_inv_length|]. intros i Hi. rewrite Z.mul_comm. rewrite ep_inv_prod by auto. exact EP. }
  assert (Ld : length (ep_sub c s1) = 512%nat) by (unfold ep_sub; now rewrite map_length, seq_length).
  assert (PD : pcong 512 12289 (ep_sub c s1) (psub 512 c (map wrapped s1))).
  { intros i Hi. unfold ep_sub, psub, coef. rewrite !nth_map_seq by auto. change 0 with (wrapped 0) at 4. rewrite map_nth.
    assert (D : dig (nth i s1 0)) by (rewrite Forall_forall in D1; apply D1, nth_In; lia). unfold dig in D.
    assert (E : exists k, evm_sub qf (nth i s1 0) = k * 12289 - wrapped (nth i s1 0)).
    { unfold evm_sub, wrapped, two256, qf. destruct (Z.ltb_spec 12289 (nth i s1 0)).
      - exists 1. rewrite <- (Z.mod_unique (12289 - nth i s1 0) (2 ^ 256) (-1) (12289 - nth i s1 0 + 2 ^ 256)); [ring|left; lia|ring].
      - exists 1. rewrite Z.mod_small by lia. ring. }
    destruct E as [k ->]. change qf with 12289. rewrite Z.mod_eq by lia.
    exists (k - (nth i c 0 + (k * 12289 - wrapped (nth i s1 0))) / 12289). ring. }
  destruct (recovered 9 512 c (ep_sub c s1) (map wrapped s1) s2 (ep_inv (ntt s2) hint) K9 N9 Lc ltac:(now rewrite map_length) L2 Ld PD HO) as (Lh & Ch & Et & PR & U).
  rewrite (ntt_chain (ep_sub c s1)) by auto.
  rewrite (VECMULMOD_vec (ntt (ep_sub c s1))) by (apply (ntt_length 9 K9 512 N9); exact Ld).
  set (t := vec_mul _ _) in *. split.
  - intros E. split; [exact Es|]. split; [exact B|]. split; [exact EP|]. exists c, (intt t). rewrite Et. split; [reflexivity|]. split; [exact Lh|]. split; [exact Ch|]. split; [exact PR|]. congruence.
  - intros (_ & _ & _ & c' & h & Ec & Lh' & Ch' & PR' & ->). assert (c' = c) by congruence. subst c'.
    assert (h = intt t) as -> by (apply (recovered_unique 512 c (map wrapped s1) s2); auto; lia). rewrite Et. reflexivity.
Qed.
End Recover.
Lemma wrapped_le s : Forall (fun x => x <= 12289) s -> map wrapped s = s.
Proof. induction 1 as [|x s Hx _ IH]; [reflexivity|]. cbn [map]. rewrite IH. f_equal. unfold wrapped. destruct (Z.ltb_spec 12289 x); lia. Qed.

(** the two computations of an address agree *)
Lemma be_int_mod l : forall k, bytes l -> (k <= length l)%nat -> be_int (skipn (length l - k) l) = be_int l mod 256 ^ Z.of_nat k.
Proof.
  induction l as [|x l IH] using rev_ind; intros k B Hk.
  - destruct k; [reflexivity|cbn in Hk; lia].
  - apply Forall_app in B. destruct B as [Bl Bx]. inversion_clear Bx as [|? ? Hx _]. rewrite app_length in *. cbn [length] in *.
    destruct k as [|k].
    + rewrite Nat.sub_0_r. replace (length l + 1)%nat with (length (l ++ [x])) by (rewrite app_length; reflexivity). rewrite skipn_all.
      change (256 ^ Z.of_nat 0) with 1. rewrite Z.mod_1_r. reflexivity.
    + replace (length l + 1 - S k)%nat with (length l - k)%nat by lia. rewrite skipn_app. replace (length l - k - length l)%nat with 0%nat by lia. cbn [skipn].
      rewrite !be_int_snoc. rewrite IH by (auto; lia). rewrite Nat2Z.inj_succ, Z.pow_succ_r by lia. unfold is_byte in Hx.
      assert (0 < 256 ^ Z.of_nat k) by (apply Z.pow_pos_nonneg; lia).
      rewrite (Z.mul_comm 256 (256 ^ Z.of_nat k)).
      set (M := 256 ^ Z.of_nat k) in *. pose proof (Z.div_mod (be_int l) M ltac:(lia)) as D. pose proof (Z.mod_pos_bound (be_int l) M ltac:(lia)) as R.
      apply (Z.mod_unique_pos _ _ (be_int l / M)); nia.
Qed.
Lemma address_eq H h : (forall m, length (H m) = 32%nat) -> (forall m, bytes (H m)) -> HashToAddress H (flat_map (to_be 32) h) = address H h.
Proof.
  intros L B. unfold HashToAddress, address. change (2 ^ 160) with (256 ^ Z.of_nat 20). rewrite <- (be_int_mod (H (flat_map (to_be 32) h)) 20) by (auto; rewrite L; lia). rewrite L. reflexivity.
Qed.
