(** complete_private, is_invertible, count_nttzero, the recovery functions and the hint of vrfy.c. *)
From Verif Require Import Base KeccakModel ChachaProofs RingSpec Ring NtruProofs PolyProofs NttModel NttProofs NttInst NttApi NtruModel EncodingModel HashModel PolyModel PolyModelProofs
  SolSpec FalconSpec FalconModel FalconProofs RecoveryProofs CTables CModel CNttProofs CKeyModel CKeyProofs.

(** * complete_private *)
Lemma tomonty_vec n A B : canonL n A -> canonL n B -> mq_poly_montymul_ntt (mq_poly_tomonty A) B = vec_mul A B.
Proof.
  intros [LA CA] [LB CB]. unfold mq_poly_montymul_ntt, mq_poly_tomonty. apply list_eq_nth.
  - rewrite map2_length, map_length, vec_mul_length by (rewrite map_length; congruence). reflexivity.
  - intros i Hi. rewrite map2_length, map_length in Hi by (rewrite map_length; congruence).
    rewrite (nth_map2 (fun x y => u16 (mq_montymul x y))) by (rewrite map_length; congruence). rewrite nth_map0 by lia. rewrite vec_mul_nth by lia.
    pose proof (canonq_nth A i CA) as Ra. pose proof (canonq_nth B i CB) as Rb. rewrite tomonty_nth by exact Ra.
    rewrite (Z.mul_comm (nth i A 0) (nth i B 0)). rewrite <- (montymul_cancel (nth i B 0) (nth i A 0) Rb Ra). f_equal.
    pose proof (mod_range (nth i A 0 * 65536)) as Rm. set (m := (nth i A 0 * 65536) mod 12289) in *. clearbody m. set (b := nth i B 0) in *. clearbody b. clear -Rm Rb.
    rewrite !mq_montymul_spec by (try lia; apply mul_small; lia). f_equal. ring.
Qed.
Lemma upd0_id (N0 : list Z) : canonq N0 -> upd N0 0 ((nth 0 N0 0 + q) mod q) = N0.
Proof.
  intros C. apply list_eq_nth; [apply upd_length|]. intros i Hi. rewrite upd_length in Hi. rewrite nth_upd by lia.
  destruct (Nat.eqb_spec i 0) as [->|]; [|reflexivity]. unfold q. rewrite <- (Z.mul_1_l 12289) at 1. rewrite Z.mod_add by lia. apply Z.mod_small. apply canonq_nth. exact C.
Qed.
Definition fits127 (G : list Z) : bool := forallb (fun x => (-127 <=? x) && (x <=? 127)) G.
Lemma small_centre w : 0 <= w < 12289 -> (c_small w = centre w) \/ (w = 6144 /\ c_small w = -6145 /\ centre w = 6144).
Proof.
  intros Hw. rewrite c_small_ok by exact Hw. rewrite centre_eq. destruct (Z.ltb_spec w 6144) as [L|L].
  - left. rewrite Z.mod_small by lia. lia.
  - destruct (Z.eq_dec w 6144) as [->|N]; [right; repeat split; reflexivity|]. left.
    replace ((w + 6144) mod 12289) with (w - 6145) by (apply Z.mod_unique_pos with 1; lia). lia.
Qed.
Lemma small_list G : canonq G ->
  (if existsb (fun gi => (gi <? -127) || (127 <? gi)) (map c_small G) then None else Some (map c_small G)) = if fits127 (map centre G) then Some (map centre G) else None.
Proof.
  intros C. assert (P : fits127 (map centre G) = negb (existsb (fun gi => (gi <? -127) || (127 <? gi)) (map c_small G)) /\
    (fits127 (map centre G) = true -> map c_small G = map centre G)).
  { induction C as [|w G Hw C IH]; [split; reflexivity|]. destruct IH as [IH1 IH2]. cbn [map fits127 forallb existsb]. fold (fits127 (map centre G)). rewrite IH1.
    destruct (small_centre w Hw) as [E|(-> & E1 & E2)].
    - rewrite E. split.
      + destruct (existsb _ (map c_small G)); [rewrite orb_true_r; apply andb_false_r|]. rewrite orb_false_r. cbn [negb]. rewrite andb_true_r.
        destruct (Z.leb_spec (-127) (centre w)), (Z.leb_spec (centre w) 127), (Z.ltb_spec (centre w) (-127)), (Z.ltb_spec 127 (centre w)); cbn; lia.
      + intros H. apply andb_prop in H. f_equal. apply IH2. rewrite IH1. apply H.
    - rewrite E1, E2. split; [reflexivity|]. cbn. discriminate. }
  destruct P as [P1 P2]. destruct (existsb _ _); cbn [negb] in P1; rewrite P1; [reflexivity|]. f_equal. exact (P2 P1).
Qed.
Theorem c_complete_private_py k f g F : (1 <= k <= 10)%nat -> length f = (2 ^ k)%nat -> length g = (2 ^ k)%nat -> length F = (2 ^ k)%nat -> smallq f -> smallq g -> smallq F ->
  c_complete_private k f g F = match complete_private f g F (2 ^ k) with Ok G => if fits127 G then Some G else None | Raise _ => None end.
Proof.
  intros Hk Lf Lg LF Sf Sg SF. unfold c_complete_private. cbv zeta. rewrite !lift_ntt by assumption.
  pose proof (ntt_canonL k g Hk Lg) as Cg. pose proof (ntt_canonL k F Hk LF) as CF. pose proof (ntt_canonL k f Hk Lf) as Cf.
  rewrite (tomonty_vec _ _ _ Cg CF). unfold complete_private. cbv zeta.
  assert (PM : poly_mul g F = mod_q (negmul (2 ^ k) g F)) by (apply (poly_mul_spec k Hk _ eq_refl); assumption).
  rewrite upd0_id by (rewrite PM; apply mod_q_canon).
  assert (LP : length (poly_mul g F) = (2 ^ k)%nat) by (rewrite PM, mod_q_length; apply negmul_length).
  assert (EV : vec_mul (ntt g) (ntt F) = ntt (poly_mul g F)).
  { rewrite PM, (ntt_mod k Hk _ eq_refl) by apply negmul_length. symmetry. apply (ntt_negmul k Hk _ eq_refl); assumption. }
  rewrite EV. unfold poly_div. pose proof (no_zero k f Hk Lf) as NZ. destruct (existsb _ (ntt f)) eqn:E.
  - destruct (invertible f); [|reflexivity]. discriminate (proj2 NZ eq_refl).
  - rewrite (proj1 NZ eq_refl). cbn [bind]. pose proof (ntt_canonL k _ Hk LP) as CP. rewrite (quot_inv _ _ _ CP Cf E).
    rewrite <- (quot_inv _ _ _ CP Cf E). rewrite mq_iNTT_intt; [|exact Hk|apply quot_canon; assumption]. rewrite (quot_inv _ _ _ CP Cf E).
    apply small_list. apply intt_canon.
Qed.

(** * Flags *)
Lemma flag_fold tt : canonq tt -> forall r, 0 <= r ->
  Z.shiftr (fold_left (fun r t => Z.lor r (u32 (t - 1))) tt r) 31 = Z.lor (Z.shiftr r 31) (if existsb (fun t => t =? 0) tt then 1 else 0).
Proof.
  induction 1 as [|t tt Ht C IH]; intros r Hr; cbn [fold_left existsb]; [rewrite Z.lor_0_r; reflexivity|].
  assert (R : 0 <= u32 (t - 1) < 2 ^ 32) by (apply Z.mod_pos_bound; lia).
  rewrite IH by (apply Z.lor_nonneg; lia). rewrite Z.shiftr_lor, <- Z.lor_assoc. f_equal.
  destruct (Z.eqb_spec t 0) as [->|N].
  - change (Z.shiftr (u32 (0 - 1)) 31) with 1. cbn [orb]. destruct (existsb _ tt); reflexivity.
  - rewrite u32_id by lia. rewrite (Z.shiftr_div_pow2 (t - 1)), Z.div_small by lia. cbn [orb]. apply Z.lor_0_l.
Qed.
Lemma zero_flag_ok tt : canonq tt -> Z.shiftr (zero_flag tt) 31 = if existsb (fun t => t =? 0) tt then 1 else 0.
Proof. intros C. unfold zero_flag. rewrite (flag_fold tt C) by lia. apply Z.lor_0_l. Qed.
Theorem is_invertible_py k s : (1 <= k <= 10)%nat -> length s = (2 ^ k)%nat -> smallq s -> is_invertible k s = if invertible s then 1 else 0.
Proof.
  intros Hk L S. unfold is_invertible. rewrite lift_ntt by assumption. rewrite zero_flag_ok by apply (ntt_canonL k s Hk L). pose proof (no_zero k s Hk L) as NZ.
  destruct (existsb _ (ntt s)) eqn:E; destruct (invertible s); try reflexivity; [discriminate (proj2 NZ eq_refl)|discriminate (proj1 NZ eq_refl)].
Qed.
Definition zeros (l : list Z) : nat := length (filter (fun t => t =? 0) l).
Lemma zeros_fold tt : canonq tt -> forall r, 0 <= r -> r + Z.of_nat (length tt) < 2 ^ 32 ->
  fold_left (fun r t => u32 (r + Z.shiftr (u32 (t - 1)) 31)) tt r = r + Z.of_nat (zeros tt).
Proof.
  induction 1 as [|t tt Ht C IH]; intros r Hr B; cbn [fold_left]; [unfold zeros; cbn; lia|]. cbn [length] in B. unfold zeros. cbn [filter].
  destruct (Z.eqb_spec t 0) as [->|N].
  - change (Z.shiftr (u32 (0 - 1)) 31) with 1. rewrite u32_id by lia. rewrite IH by lia. unfold zeros. cbn [length]. lia.
  - rewrite (u32_id (t - 1)) by lia. rewrite (Z.shiftr_div_pow2 (t - 1)), (Z.div_small (t - 1)) by lia. rewrite u32_id by lia. rewrite IH by lia. unfold zeros. lia.
Qed.
Theorem count_nttzero_py k s : (1 <= k <= 10)%nat -> length s = (2 ^ k)%nat -> smallq s -> count_nttzero k s = Z.of_nat (zeros (ntt s)).
Proof.
  intros Hk L S. unfold count_nttzero. rewrite lift_ntt by assumption. destruct (ntt_canonL k s Hk L) as [LT CT]. rewrite zeros_fold; [lia|exact CT|lia|].
  pose proof (CNttProofs.pow_le_1024 k (proj2 Hk)). rewrite LT. lia.
Qed.

(** * Recovery *)
Lemma short_small k s1 s2 : length s1 = length s2 -> i16s s1 -> i16s s2 -> is_short k s1 s2 = true -> smallq s1 /\ smallq s2.
Proof.
  intros L I1 I2 E. rewrite (is_short_exact k s1 s2 L I1 I2) in E. apply Z.leb_le in E. pose proof (l2bound_q k) as B.
  pose proof (CNttProofs.sqnorm_nonneg s1). pose proof (CNttProofs.sqnorm_nonneg s2).
  split; apply Forall_forall; intros x Hx; pose proof (sqnorm_big x _ Hx); nia.
Qed.
Lemma c_diff_ok n c0 s1 : canonL n c0 -> length s1 = n -> smallq s1 -> c_diff c0 s1 = mod_q (psub n c0 s1).
Proof.
  intros [Lc Cc] L1 S. unfold c_diff. apply list_eq_nth; [rewrite map2_length, mod_q_length, psub_length by congruence; exact Lc|].
  intros i Hi. rewrite map2_length in Hi by congruence.
  rewrite (nth_map2 (fun c s => let w := u32 s in u16 (mq_sub c (u32 (w + qmask w))))) by congruence. cbv zeta. unfold mod_q. rewrite nth_map0 by (rewrite psub_length; lia).
  unfold psub; rewrite nth_map_seq by lia; unfold coef. pose proof (canonq_nth c0 i Cc) as Rc. assert (Rs : -12289 <= nth i s1 0 < 12289) by (unfold smallq in S; rewrite Forall_forall in S; apply S, nth_In; lia).
  set (c := nth i c0 0) in *. set (s := nth i s1 0) in *. clearbody c s. clear -Rc Rs. rewrite cond_add by lia. set (w := if s <? 0 then s + 12289 else s).
  assert (Hw : 0 <= w < 12289) by (unfold w; destruct (Z.ltb_spec s 0); lia). rewrite mq_sub_spec by assumption. pose proof (mod_range (c - w)). rewrite u16_id by lia.
  unfold w. destruct (Z.ltb_spec s 0); [|reflexivity]. replace (c - (s + 12289)) with (c - s + (-1) * 12289) by ring. apply Z.mod_add. lia.
Qed.
Lemma recover_flag k s1 s2 : (1 <= k <= 10)%nat -> length s1 = (2 ^ k)%nat -> length s2 = (2 ^ k)%nat -> i16s s1 -> i16s s2 ->
  c_recover_ok k s1 s2 = if is_short k s1 s2 && invertible s2 then 1 else 0.
Proof.
  intros Hk L1 L2 I1 I2. unfold c_recover_ok. cbv zeta. destruct (is_short k s1 s2) eqn:E.
  - destruct (short_small k s1 s2 ltac:(congruence) I1 I2 E) as [S1 S2]. rewrite lift_ntt by assumption. rewrite Z.shiftr_land, Z.shiftr_lxor.
    rewrite zero_flag_ok by apply (ntt_canonL k s2 Hk L2). change (Z.shiftr (u32 (- (1))) 31) with 1. change (Z.shiftr 0xFFFFFFFF 31) with 1.
    pose proof (no_zero k s2 Hk L2) as NZ. destruct (existsb _ (ntt s2)) eqn:EX; destruct (invertible s2); try reflexivity; [discriminate (proj2 NZ eq_refl)|discriminate (proj1 NZ eq_refl)].
  - change (u32 (- 0)) with 0. rewrite Z.land_0_r. reflexivity.
Qed.
(** the quotient, when the flag is set: the transform of the only key under which (s1, s2) is a preimage of c0 *)
Theorem quot_preimage k c0 s1 s2 : (1 <= k <= 10)%nat -> canonL (2 ^ k) c0 -> length s1 = (2 ^ k)%nat -> length s2 = (2 ^ k)%nat -> smallq s1 -> smallq s2 -> invertible s2 = true ->
  exists h, canonL (2 ^ k) h /\ c_quot k c0 s1 s2 = ntt h /\ mq_iNTT k (c_quot k c0 s1 s2) = h /\ preimage (2 ^ k) h c0 s1 s2.
Proof.
  intros Hk Cc L1 L2 S1 S2 I. unfold c_quot. rewrite lift_ntt by assumption. rewrite (c_diff_ok _ c0 s1 Cc L1 S1).
  assert (Ld : length (mod_q (psub (2 ^ k) c0 s1)) = (2 ^ k)%nat) by (rewrite mod_q_length; apply psub_length).
  set (d := mod_q (psub (2 ^ k) c0 s1)) in *. assert (Cd : canonq d) by apply mod_q_canon.
  rewrite (mq_NTT_ntt k d Hk (conj Ld Cd)). pose proof (ntt_canonL k d Hk Ld) as CD. pose proof (ntt_canonL k s2 Hk L2) as C2.
  pose proof (proj2 (no_zero k s2 Hk L2) I) as NZ. rewrite (quot_inv _ _ _ CD C2 NZ).
  assert (HO : hint_ok (2 ^ k) (map inv_q (ntt s2)) s2).
  { split; [rewrite map_length; apply C2|]. intros i Hi. rewrite nth_map0 by (rewrite (proj1 C2); exact Hi). rewrite Z.mul_comm. apply inv_q_ok.
    rewrite Z.mod_small by (apply canonq_nth; apply C2). apply (proj1 (invertible_nth k Hk _ eq_refl s2 L2) I i Hi). }
  destruct (recovered k _ c0 d s1 s2 _ Hk eq_refl (proj1 Cc) L1 L2 Ld (mod_q_pcong _ _) HO) as (R1 & R2 & R3 & R4 & _).
  eexists. split; [exact (conj R1 R2)|]. split; [symmetry; exact R3|]. split; [|exact R4]. apply mq_iNTT_intt; [exact Hk|].
  split; [rewrite vec_mul_length; apply CD|apply vec_mul_canon].
Qed.

(** * The hint *)
Lemma hint_fold l : canonq l -> forall a, 0 <= a < 12289 ->
  fold_left (fun hint x => u16 (mq_montymul hint x)) (map (fun x => u16 (mq_montymul x CR2)) l) a = (a * product l) mod 12289.
Proof.
  induction 1 as [|x l Hx C IH]; intros a Ha; cbn [map fold_left product fold_right]; [rewrite Z.mul_1_r, Z.mod_small by lia; reflexivity|].
  rewrite tomonty_nth, montymul_cancel by assumption. pose proof (mod_range (a * x)). rewrite IH by assumption. fold (product l). rewrite Z.mul_mod_idemp_l by lia. f_equal. ring.
Qed.
Lemma product_mod_zero l : canonq l -> (product l mod 12289 = 0 <-> existsb (fun t => t =? 0) l = true).
Proof.
  induction 1 as [|x l Hx C IH]; cbn [product fold_right existsb]; [split; discriminate|]. fold (product l). rewrite orb_true_iff, <- IH, Z.eqb_eq. split.
  - intros E. destruct (q_domain _ _ E) as [Q|Q]; [left; rewrite Z.mod_small in Q by lia; exact Q|right; exact Q].
  - intros [->|E]; [reflexivity|]. rewrite <- Z.mul_mod_idemp_r, E, Z.mul_0_r by lia. reflexivity.
Qed.
Theorem hint_ok_c k s2 : (1 <= k <= 10)%nat -> length s2 = (2 ^ k)%nat -> smallq s2 ->
  0 <= hint_epervier k s2 < 12289 /\ (invertible s2 = true -> (hint_epervier k s2 * product (ntt s2)) mod 12289 = 1) /\ (invertible s2 = false -> hint_epervier k s2 = 0).
Proof.
  intros Hk L S. unfold hint_epervier. cbv zeta. rewrite lift_ntt by assumption. destruct (ntt_canonL k s2 Hk L) as [LT CT]. unfold mq_poly_tomonty.
  rewrite (hint_fold _ CT) by lia. rewrite Z.mul_1_l. pose proof (mod_range (product (ntt s2))) as R. pose proof (mq_div_range 1 _ ltac:(lia) R) as RD.
  rewrite u16_id by lia. split; [exact RD|]. pose proof (product_mod_zero _ CT) as PZ. pose proof (no_zero k s2 Hk L) as NZ. split; intros I.
  - assert (N0 : product (ntt s2) mod 12289 <> 0) by (intros Z0; apply PZ in Z0; rewrite (proj2 NZ I) in Z0; discriminate Z0).
    pose proof (mq_div_mul 1 (product (ntt s2) mod 12289) ltac:(lia) ltac:(lia)) as M. rewrite Z.mul_mod_idemp_r in M by lia. exact M.
  - destruct (existsb (fun t => t =? 0) (ntt s2)) eqn:E; [|rewrite (proj1 NZ eq_refl) in I; discriminate I]. rewrite (proj2 PZ eq_refl). apply mq_div_zero. lia.
Qed.
