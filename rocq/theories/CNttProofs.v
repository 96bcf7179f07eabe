(** The C arithmetic modulo q and its number-theoretic transforms (vrfy.c) compute the transforms of NttModel.v; verify_raw is the exact test. *)
From Verif Require Import Base KeccakModel ChachaProofs RingSpec Ring NtruProofs PolyProofs NttTables NttModel NttProofs NttInst NttApi FalconSpec FalconModel FalconProofs ExtVerify CTables CModel.

(** * Arithmetic *)
Lemma u16_id x : 0 <= x < 65536 -> u16 x = x.
Proof. intros. unfold u16. apply Z.mod_small. lia. Qed.
Lemma u32_id x : 0 <= x < 2 ^ 32 -> u32 x = x.
Proof. intros. unfold u32. apply Z.mod_small. lia. Qed.
Lemma qmask_hi d : 2 ^ 31 <= d < 2 ^ 32 -> qmask d = 12289.
Proof.
  intros H. unfold qmask. rewrite Z.shiftr_div_pow2 by lia. replace (d / 2 ^ 31) with 1 by (apply Z.div_unique_pos with (d - 2 ^ 31); lia). reflexivity.
Qed.
Lemma qmask_lo d : 0 <= d < 2 ^ 31 -> qmask d = 0.
Proof. intros H. unfold qmask. rewrite Z.shiftr_div_pow2, Z.div_small by lia. reflexivity. Qed.
(** d in [-q, 2^31): brought to d or d + q *)
Lemma cond_add d : - 2 ^ 31 <= d < 2 ^ 31 -> -12289 <= d -> u32 (u32 d + qmask (u32 d)) = if d <? 0 then d + 12289 else d.
Proof.
  intros H Hq. destruct (Z.ltb_spec d 0) as [L|L].
  - assert (E : u32 d = d + 2 ^ 32) by (unfold u32; symmetry; apply Z.mod_unique_pos with (-1); lia).
    rewrite E, qmask_hi by lia. unfold u32. symmetry. apply Z.mod_unique_pos with 1; lia.
  - rewrite (u32_id d), qmask_lo by lia. rewrite u32_id; lia.
Qed.
Lemma mq_add_spec x y : 0 <= x < 12289 -> 0 <= y < 12289 -> mq_add x y = (x + y) mod 12289.
Proof.
  intros. unfold mq_add, CQ. cbv zeta. rewrite cond_add by lia. destruct (Z.ltb_spec (x + y - 12289) 0).
  - symmetry. rewrite Z.mod_small; lia.
  - apply Z.mod_unique_pos with 1; lia.
Qed.
Lemma mq_sub_spec x y : 0 <= x < 12289 -> 0 <= y < 12289 -> mq_sub x y = (x - y) mod 12289.
Proof.
  intros. unfold mq_sub. cbv zeta. rewrite cond_add by lia. destruct (Z.ltb_spec (x - y) 0).
  - apply Z.mod_unique_pos with (-1); lia.
  - symmetry. rewrite Z.mod_small; lia.
Qed.
(** 2304 is the inverse of 2^16 modulo q; y may be any product bound by q * 2^16 *)
Lemma mq_montymul_spec x y : 0 <= x -> 0 <= y -> x * y < 12289 * 65536 -> mq_montymul x y = (x * y * 2304) mod 12289.
Proof.
  intros Hx Hy Hb. unfold mq_montymul, Q0I, CQ. cbv zeta. pose proof (Z.mul_nonneg_nonneg x y Hx Hy) as Hz. set (z := x * y) in *. clearbody z. clear x y Hx Hy.
  rewrite (u32_id z) by lia. rewrite land_ffff.
  set (k := u32 (z * 12287) mod 2 ^ 16). assert (Hk : 0 <= k < 65536) by (unfold k; apply Z.mod_pos_bound; lia).
  assert (Ek : k = (z * 12287) mod 65536).
  { unfold k, u32. change (2 ^ 32) with (65536 * 65536). change (2 ^ 16) with 65536. rewrite Z.rem_mul_r by lia.
    rewrite (Z.mul_comm 65536 (_ mod _)), Z.mod_add by lia. apply Z.mod_mod. lia. }
  rewrite (u32_id (k * 12289)) by lia. rewrite (u32_id (z + k * 12289)) by lia. rewrite Z.shiftr_div_pow2 by lia. change (2 ^ 16) with 65536.
  assert (D : (65536 | z + k * 12289)).
  { rewrite Ek, Z.mod_eq by lia. exists (2304 * z - 12289 * (z * 12287 / 65536)). ring. }
  destruct D as [t Ht]. rewrite Ht, Z.div_mul by lia. rewrite cond_add by lia.
  assert (M : (z * 2304) mod 12289 = t mod 12289).
  { replace (z * 2304) with (t * (65536 * 2304) - k * 2304 * 12289) by (replace z with (t * 65536 - k * 12289) by lia; ring).
    change (65536 * 2304) with (1 + 12287 * 12289). match goal with |- ?a mod _ = _ => replace a with (t + (t * 12287 - k * 2304) * 12289) by ring end.
    apply Z.mod_add. lia. }
  rewrite M. destruct (Z.ltb_spec (t - 12289) 0).
  - symmetry. rewrite Z.mod_small; lia.
  - apply Z.mod_unique_pos with 1; lia.
Qed.
Lemma mod_range x : 0 <= x mod 12289 < 12289. Proof. apply Z.mod_pos_bound. lia. Qed.

(** * The transforms *)
Definition psiC (i : nat) : Z := (nth i GMb 0 * 2304) mod 12289.
Definition psiiC (i : nat) : Z := (nth i iGMb 0 * 2304) mod 12289.
Lemma ctab_range : forall i, 0 <= nth i GMb 0 < 12289 /\ 0 <= nth i iGMb 0 < 12289.
Proof.
  assert (H : forallb (fun x => (0 <=? x) && (x <? 12289)) GMb && forallb (fun x => (0 <=? x) && (x <? 12289)) iGMb = true) by (vm_cast_no_check (eq_refl true)).
  apply andb_prop in H. destruct H as [H1 H2]. rewrite forallb_forall in H1, H2. intros i. split.
  - destruct (nth_in_or_default i GMb 0) as [H|E]; [specialize (H1 _ H); lia|rewrite E; lia].
  - destruct (nth_in_or_default i iGMb 0) as [H|E]; [specialize (H2 _ H); lia|rewrite E; lia].
Qed.
Lemma ctables : forall r, (1 <= r < S 1023)%nat -> cgm qf (psiC r * psiC r) (zz psiC r) /\ cgm qf (psiC r * psiiC r) 1.
Proof. apply (tree_b_ok psiC psiiC 1023). vm_cast_no_check (eq_refl true). Qed.
(** the tables of the contracts *)
Lemma ctables_contract : forall i, (i < 512)%nat -> psiC i = psis i /\ ((1 <= i)%nat -> psiiC i = psiis i).
Proof.
  assert (H : forallb (fun i => (psiC i =? psis i) && ((i =? 0)%nat || (psiiC i =? psiis i))) (seq 0 512) = true) by (vm_cast_no_check (eq_refl true)).
  intros i Hi. rewrite forallb_forall in H. specialize (H i ltac:(apply in_seq; lia)). apply andb_prop in H. destruct H as [H1 H2].
  split; [lia|]. intros. apply orb_prop in H2. destruct H2 as [H2|H2]; [apply Nat.eqb_eq in H2; lia|lia].
Qed.
Definition nm1C (k : nat) : Z := (c_ni k * 2304) mod 12289.
Lemma c_ni_facts : forall k, (k <= 10)%nat -> 0 <= c_ni k < 12289 /\ cgm qf (Z.of_nat (2 ^ k) * nm1C k) 1.
Proof.
  assert (H : forallb (fun k => (0 <=? c_ni k) && (c_ni k <? 12289) && ((2 ^ Z.of_nat k * nm1C k) mod 12289 =? 1)) (seq 0 11) = true) by (vm_cast_no_check (eq_refl true)).
  intros k Hk. rewrite forallb_forall in H. specialize (H k ltac:(apply in_seq; lia)).
  repeat (apply andb_prop in H; destruct H as [H ?]). split; [lia|]. constructor. rewrite Nat2Z.inj_pow. change (Z.of_nat 2) with 2.
  apply Z.eqb_eq in H0. exact H0.
Qed.
Lemma pow_le_1024 k : (k <= 10)%nat -> (2 ^ k <= 1024)%nat.
Proof. intros H. change 1024%nat with (2 ^ 10)%nat. apply Nat.pow_le_mono_r; lia. Qed.
Lemma goodC k : (1 <= k <= 10)%nat -> good psiC psiiC k (nm1C k).
Proof.
  intros Hk. pose proof (pow_le_1024 k ltac:(lia)) as Hp. constructor; [lia| | |].
  - intros r Hr. apply ctables. lia.
  - intros r Hr. apply ctables. lia.
  - apply c_ni_facts. lia.
Qed.

Lemma fold_inv_eq {A B} (f g : A -> B -> A) (P : A -> Prop) l :
  (forall a b, In b l -> P a -> f a b = g a b /\ P (g a b)) -> forall a, P a -> fold_left f l a = fold_left g l a /\ P (fold_left g l a).
Proof.
  induction l as [|b l IH]; intros H a Ha; cbn [fold_left]; auto.
  destruct (H a b ltac:(left; auto) Ha) as [E Ha']. rewrite E. apply IH; auto. intros; apply H; auto. right; auto.
Qed.
Lemma canonq_upd a i v : canonq a -> 0 <= v < 12289 -> (i < length a)%nat -> canonq (upd a i v).
Proof.
  intros C Hv Hi. apply Forall_forall. intros x Hx. destruct (In_nth _ _ 0 Hx) as (p & Hp & <-). rewrite upd_length in Hp.
  rewrite nth_upd by auto. destruct (Nat.eqb_spec p i); [auto|apply canonq_nth; auto].
Qed.
Definition canonL (n : nat) (a : list Z) : Prop := length a = n /\ canonq a.
Lemma mul_small x y : 0 <= x < 12289 -> 0 <= y < 12289 -> x * y < 12289 * 65536.
Proof. intros. assert (x * y <= 12289 * 12289) by (apply Z.mul_le_mono_nonneg; lia). lia. Qed.
Lemma wrap_q V : 0 <= V < 12289 -> (12289 - V) mod two256 = 12289 - V.
Proof. intros. apply Z.mod_small. split; [lia|]. unfold two256. apply Z.le_lt_trans with 12289; [lia|reflexivity]. Qed.
Lemma sub_add_q x V : (x + (12289 - V)) mod 12289 = (x - V) mod 12289.
Proof. replace (x + (12289 - V)) with (x - V + 1 * 12289) by ring. apply Z.mod_add. lia. Qed.

Lemma cfw_step_ok n i t a j : canonL n a -> (0 < t)%nat -> (j + t < n)%nat ->
  cfw_step (nth i GMb 0) t a j = fw_step qf (psiC i) t a j /\ canonL n (fw_step qf (psiC i) t a j).
Proof.
  intros [L C] Ht Hj. pose proof (canonq_nth a j C) as H1. pose proof (canonq_nth a (j + t) C) as H2. pose proof (proj1 (ctab_range i)) as Hs.
  unfold cfw_step, fw_step, qf.
  assert (EV : mq_montymul (nth (j + t) a 0) (nth i GMb 0) = (nth (j + t) a 0 * psiC i) mod 12289).
  { rewrite mq_montymul_spec by (try lia; apply mul_small; lia). unfold psiC. rewrite Z.mul_mod_idemp_r by lia. f_equal. ring. }
  rewrite EV. pose proof (mod_range (nth (j + t) a 0 * psiC i)) as HV. set (V := (nth (j + t) a 0 * psiC i) mod 12289) in *.
  rewrite mq_add_spec, mq_sub_spec by lia. rewrite wrap_q by lia. rewrite sub_add_q.
  pose proof (mod_range (nth j a 0 + V)). pose proof (mod_range (nth j a 0 - V)). rewrite !u16_id by lia. rewrite upd_comm by lia.
  split; [reflexivity|]. split; [now rewrite !upd_length|]. apply canonq_upd; [apply canonq_upd; auto; lia|lia|rewrite upd_length; lia].
Qed.
Lemma cinv_step_ok n i t a j : canonL n a -> (0 < t)%nat -> (j + t < n)%nat ->
  cinv_step (nth i iGMb 0) t a j = inv_step qf (psiiC i) t a j /\ canonL n (inv_step qf (psiiC i) t a j).
Proof.
  intros [L C] Ht Hj. pose proof (canonq_nth a j C) as H1. pose proof (canonq_nth a (j + t) C) as H2. pose proof (proj2 (ctab_range i)) as Hs.
  unfold cinv_step, inv_step, qf. rewrite mq_add_spec, mq_sub_spec by lia. rewrite wrap_q by lia. rewrite sub_add_q.
  pose proof (mod_range (nth j a 0 - nth (j + t) a 0)) as HD. set (D := (nth j a 0 - nth (j + t) a 0) mod 12289) in *.
  assert (EV : mq_montymul D (nth i iGMb 0) = (D * psiiC i) mod 12289).
  { rewrite mq_montymul_spec by (try lia; apply mul_small; lia). unfold psiiC. rewrite Z.mul_mod_idemp_r by lia. f_equal. ring. }
  rewrite EV. pose proof (mod_range (nth j a 0 + nth (j + t) a 0)). pose proof (mod_range (D * psiiC i)). rewrite !u16_id by lia. rewrite upd_comm by lia.
  split; [reflexivity|]. split; [now rewrite !upd_length|]. apply canonq_upd; [apply canonq_upd; auto; lia|lia|rewrite upd_length; lia].
Qed.
Lemma cfw_layer_ok n m t a : canonL n a -> (0 < t)%nat -> (2 * (m * t) = n)%nat ->
  cfw_layer m t a = fw_layer qf psiC m t a /\ canonL n (fw_layer qf psiC m t a).
Proof.
  intros C Ht Hn. unfold cfw_layer, fw_layer. apply (fold_inv_eq _ _ (canonL n)); auto. intros a' i Hi Ca. apply in_seq in Hi. unfold fw_group.
  replace (2 * (i * t))%nat with (i * (2 * t))%nat by lia.
  apply (fold_inv_eq _ _ (canonL n)); auto. intros a'' j Hj Ca'. apply in_seq in Hj. apply cfw_step_ok; auto. nia.
Qed.
Lemma cinv_layer_ok n m t a : canonL n a -> (0 < t)%nat -> (2 * (m * t) = n)%nat ->
  cinv_layer m t a = inv_layer qf psiiC m t a /\ canonL n (inv_layer qf psiiC m t a).
Proof.
  intros C Ht Hn. unfold cinv_layer, inv_layer. apply (fold_inv_eq _ _ (canonL n)); auto. intros a' i Hi Ca. apply in_seq in Hi. unfold inv_group.
  replace (2 * (i * t))%nat with (i * (2 * t))%nat by lia.
  apply (fold_inv_eq _ _ (canonL n)); auto. intros a'' j Hj Ca'. apply in_seq in Hj. apply cinv_step_ok; auto. nia.
Qed.
Lemma cfw_loop_ok n d : forall fuel m a, (m * 2 ^ d = n)%nat -> (1 <= m)%nat -> canonL n a ->
  cfw_loop fuel (2 ^ d) m n a = fw_loop qf psiC fuel (2 ^ d) m n a /\ canonL n (fw_loop qf psiC fuel (2 ^ d) m n a).
Proof.
  induction d as [|d IH]; intros fuel m a Hn Hm Ca.
  - change (2 ^ 0)%nat with 1%nat in *. destruct fuel; auto. cbn [cfw_loop fw_loop]. destruct (Nat.ltb_spec m n); [lia|auto].
  - destruct fuel as [|fuel]; [auto|]. cbn [cfw_loop fw_loop]. destruct (Nat.ltb_spec m n); auto. cbv zeta. rewrite half_pow.
    destruct (layer_size n d m Hn) as [H1 H2]. pose proof (pow_pos d). rewrite Nat.pow_succ_r' in Hn.
    destruct (cfw_layer_ok n m (2 ^ d) a Ca ltac:(lia) ltac:(lia)) as [E C]. rewrite E. apply IH; auto; lia.
Qed.
Lemma cinv_loop_ok n d : forall fuel t a, (2 ^ d * t = n)%nat -> (1 <= t)%nat -> canonL n a ->
  cinv_loop fuel t (2 ^ d) a = inv_loop qf psiiC fuel t (2 ^ d) a /\ canonL n (inv_loop qf psiiC fuel t (2 ^ d) a).
Proof.
  induction d as [|d IH]; intros fuel t a Hn Ht Ca.
  - change (2 ^ 0)%nat with 1%nat in *. destruct fuel; auto.
  - destruct fuel as [|fuel]; [auto|]. cbn [cinv_loop inv_loop]. pose proof (pow_pos d).
    destruct (Nat.ltb_spec 1 (2 ^ S d)); [|auto]. cbv zeta. rewrite half_pow. rewrite Nat.pow_succ_r' in Hn.
    destruct (cinv_layer_ok n (2 ^ d) t a Ca ltac:(lia) ltac:(lia)) as [E C]. rewrite E. apply IH; auto; lia.
Qed.
Theorem mq_NTT_ok k a : canonL (2 ^ k) a -> mq_NTT k a = nttfw qf psiC (2 ^ k) a.
Proof. intros C. unfold mq_NTT, nttfw. cbv zeta. apply cfw_loop_ok; auto. lia. Qed.
Theorem mq_iNTT_ok k a : (k <= 10)%nat -> canonL (2 ^ k) a -> mq_iNTT k a = nttinv qf psiiC (nm1C k) (2 ^ k) a.
Proof.
  intros Hk C. unfold mq_iNTT, nttinv. cbv zeta. destruct (cinv_loop_ok (2 ^ k) k (2 ^ k) 1 a ltac:(lia) ltac:(lia) C) as [E [_ C']].
  rewrite E. apply map_ext_in. intros x Hx. pose proof (proj1 (Forall_forall _ _) C' x Hx) as Hr. cbn beta in Hr. destruct (c_ni_facts k Hk) as [Hni _].
  rewrite mq_montymul_spec by (try lia; apply mul_small; lia). pose proof (mod_range (x * c_ni k * 2304)). rewrite u16_id by lia.
  unfold nm1C, qf. rewrite Z.mul_mod_idemp_r by lia. f_equal. ring.
Qed.
Lemma mq_NTT_canon k a : (1 <= k <= 10)%nat -> canonL (2 ^ k) a -> canonL (2 ^ k) (mq_NTT k a).
Proof. intros Hk C. rewrite (mq_NTT_ok k a C). split; [apply (T_length _ _ _ _ (goodC k Hk)); auto; apply C|apply (T_canon _ _ _ _ (goodC k Hk) _ eq_refl); apply C]. Qed.
(** to_ntt_monty multiplies the transform by 2^16 *)
Lemma tomonty_nth x : 0 <= x < 12289 -> u16 (mq_montymul x CR2) = (x * 65536) mod 12289.
Proof.
  intros. assert (E : mq_montymul x CR2 = (x * CR2 * 2304) mod 12289) by (apply mq_montymul_spec; unfold CR2; lia). rewrite E.
  rewrite u16_id by (pose proof (mod_range (x * CR2 * 2304)); lia). unfold CR2.
  replace (x * 10952 * 2304) with (x * 65536 + x * (10952 * 2304 - 65536)) by ring. change (10952 * 2304 - 65536) with (2048 * 12289).
  rewrite Z.mul_assoc. apply Z.mod_add. lia.
Qed.
(** the pointwise product of f with g * 2^16 is the plain product *)
Lemma montymul_cancel x y : 0 <= x < 12289 -> 0 <= y < 12289 -> u16 (mq_montymul x ((y * 65536) mod 12289)) = (x * y) mod 12289.
Proof.
  intros. pose proof (mod_range (y * 65536)). rewrite mq_montymul_spec by (try lia; apply mul_small; lia).
  rewrite u16_id by (pose proof (mod_range (x * ((y * 65536) mod 12289) * 2304)); lia).
  rewrite <- Z.mul_mod_idemp_l, Z.mul_mod_idemp_r, Z.mul_mod_idemp_l by lia.
  replace (x * (y * 65536) * 2304) with (x * y + x * y * (65536 * 2304 - 1)) by ring. change (65536 * 2304 - 1) with (12287 * 12289). rewrite Z.mul_assoc. apply Z.mod_add. lia.
Qed.
Lemma montymul_ntt n A B : canonL n A -> canonL n B -> mq_poly_montymul_ntt A (map (fun x => (x * 65536) mod 12289) B) = vecmul qf n A B.
Proof.
  intros [LA CA] [LB CB]. unfold mq_poly_montymul_ntt. apply list_eq_nth.
  - rewrite map_length, combine_length, map_length, vecmul_len. lia.
  - intros p Hp. rewrite map_length, combine_length, map_length in Hp. rewrite vecmul_nth by lia.
    rewrite (nth_indep _ 0 ((fun '(x, y) => u16 (mq_montymul x y)) (0, 0))) by (rewrite map_length, combine_length, map_length; lia).
    rewrite (map_nth (fun '(x, y) => u16 (mq_montymul x y)) _ (0, 0)), combine_nth by (rewrite map_length; lia).
    rewrite nth_map0 by lia. apply montymul_cancel; apply canonq_nth; auto.
Qed.

(** * is_short *)
Definition i16s (l : list Z) : Prop := Forall (fun x => -32768 <= x < 32768) l.
Definition short_inv (N : Z) (st : Z * Z) : Prop :=
  (N < 2 ^ 31 /\ fst st = N /\ 0 <= snd st < 2 ^ 31) \/ (2 ^ 31 <= N /\ 0 <= fst st < 2 ^ 32 /\ 2 ^ 31 <= snd st < 2 ^ 32).
Lemma lor_bound a b k : 0 <= k -> 0 <= a < 2 ^ k -> 0 <= b < 2 ^ k -> 0 <= Z.lor a b < 2 ^ k.
Proof.
  intros Hk Ha Hb. assert (H0 : 0 <= Z.lor a b) by (apply Z.lor_nonneg; lia). split; [exact H0|].
  destruct (Z.eq_dec (Z.lor a b) 0) as [E|E]; [rewrite E; apply Z.pow_pos_nonneg; lia|]. apply Z.log2_lt_pow2; [lia|]. rewrite Z.log2_lor by lia.
  destruct (Z.eq_dec a 0) as [->|]; destruct (Z.eq_dec b 0) as [->|]; try (exfalso; apply E; reflexivity).
  - change (Z.log2 0) with 0. pose proof (Z.log2_nonneg b). rewrite Z.max_r by lia. apply Z.log2_lt_pow2; lia.
  - change (Z.log2 0) with 0. pose proof (Z.log2_nonneg a). rewrite Z.max_l by lia. apply Z.log2_lt_pow2; lia.
  - apply Z.max_lub_lt; apply Z.log2_lt_pow2; lia.
Qed.
Lemma lor_ge_l a b : 0 <= a -> 0 <= b -> a <= Z.lor a b.
Proof.
  intros Ha Hb.
  assert (S : Z.lor a b = a + Z.ldiff b a).
  { rewrite Z.add_nocarry_lxor by (apply Z.bits_inj'; intros i Hi; rewrite Z.land_spec, Z.ldiff_spec, Z.bits_0; destruct (Z.testbit a i), (Z.testbit b i); reflexivity).
    apply Z.bits_inj'. intros i Hi. rewrite Z.lor_spec, Z.lxor_spec, Z.ldiff_spec. destruct (Z.testbit a i), (Z.testbit b i); reflexivity. }
  rewrite S. assert (0 <= Z.ldiff b a) by (apply Z.ldiff_nonneg; lia). lia.
Qed.
Lemma short_step_ok N st z : 0 <= N -> -32768 <= z < 32768 -> short_inv N st -> short_inv (N + z ^ 2) (short_step st z).
Proof.
  intros HN Hz I. assert (Hs : 0 <= z * z <= 2 ^ 30) by nia. replace (z ^ 2) with (z * z) by ring. unfold short_step. rewrite (u32_id (z * z)) by lia. cbv zeta. unfold short_inv. cbn [fst snd].
  set (w := z * z) in *. clearbody w. destruct I as [(HN1 & Es & Hg)|(HN1 & Hs1 & Hg)].
  - rewrite Es, u32_id by lia. destruct (Z.lt_ge_cases (N + w) (2 ^ 31)) as [L|L].
    + left. split; [exact L|]. split; [reflexivity|]. apply lor_bound; lia.
    + right. split; [exact L|]. split; [lia|]. split.
      * rewrite Z.lor_comm. pose proof (lor_ge_l (N + w) (snd st) ltac:(lia) ltac:(lia)). lia.
      * apply lor_bound; lia.
  - right. split; [lia|]. pose proof (Z.mod_pos_bound (fst st + w) (2 ^ 32) ltac:(lia)) as H. fold (u32 (fst st + w)) in H. split; [exact H|]. split.
    + pose proof (lor_ge_l (snd st) (u32 (fst st + w)) ltac:(lia) ltac:(lia)). lia.
    + apply lor_bound; lia.
Qed.
Lemma sqnorm_nonneg l : 0 <= sqnorm l.
Proof. induction l; cbn [sqnorm fold_right]; [lia|]. fold (sqnorm l). pose proof (Z.square_nonneg a). nia. Qed.
Lemma short_fold a : forall b N st, length a = length b -> i16s a -> i16s b -> 0 <= N -> short_inv N st ->
  short_inv (N + sqnorm a + sqnorm b) (fold_left (fun st '(x, y) => short_step (short_step st x) y) (combine a b) st).
Proof.
  induction a as [|x a IH]; intros [|y b] N st L Ha Hb HN I; try discriminate L.
  - cbn [combine fold_left sqnorm fold_right]. rewrite !Z.add_0_r. exact I.
  - cbn [combine fold_left sqnorm fold_right]. fold (sqnorm a) (sqnorm b). inversion Ha; inversion Hb; subst.
    replace (N + (x ^ 2 + sqnorm a) + (y ^ 2 + sqnorm b)) with (N + x ^ 2 + y ^ 2 + sqnorm a + sqnorm b) by ring.
    pose proof (Z.square_nonneg x). pose proof (Z.square_nonneg y). apply IH; auto; [nia|].
    apply short_step_ok; auto; [nia|]. apply short_step_ok; auto.
Qed.
Lemma l2bound_small k : 0 <= nth k l2bound 0 < 2 ^ 31.
Proof. do 11 (destruct k as [|k]; [cbn; lia|]). cbn. destruct k; lia. Qed.
Theorem is_short_exact k a b : length a = length b -> i16s a -> i16s b -> is_short k a b = (sqnorm a + sqnorm b <=? nth k l2bound 0).
Proof.
  intros L Ha Hb. unfold is_short. pose proof (l2bound_small k) as HB.
  pose proof (short_fold a b 0 (0, 0) L Ha Hb ltac:(lia)) as I. destruct (fold_left _ _ _) as [s ng].
  destruct I as [(HN1 & Es & Hg)|(HN1 & Hs1 & Hg)]; [left; cbn; lia| |]; cbn [fst snd] in *.
  - rewrite Z.shiftr_div_pow2, Z.div_small by lia. change (u32 (- 0)) with 0. rewrite Z.lor_0_r, Es. reflexivity.
  - rewrite Z.shiftr_div_pow2 by lia. replace (ng / 2 ^ 31) with 1 by (apply Z.div_unique_pos with (ng - 2 ^ 31); lia). change (u32 (- (1))) with (2 ^ 32 - 1).
    pose proof (lor_ge_l (2 ^ 32 - 1) s ltac:(lia) ltac:(lia)) as H. rewrite Z.lor_comm in H.
    destruct (Z.leb_spec (Z.lor s (2 ^ 32 - 1)) (nth k l2bound 0)); [lia|]. symmetry. apply Z.leb_gt. lia.
Qed.

(** * verify_raw *)
Lemma i16_range x : -32768 <= i16 x < 32768.
Proof. unfold i16. pose proof (Z.mod_pos_bound (x + 2 ^ 15) (2 ^ 16) ltac:(lia)). lia. Qed.
Lemma i16_id x : -32768 <= x < 32768 -> i16 x = x.
Proof. intros. unfold i16. rewrite Z.mod_small; lia. Qed.
Lemma c_lift_mod s : -12289 <= s < 12289 -> c_lift s = s mod 12289.
Proof.
  intros H. unfold c_lift. cbv zeta. rewrite cond_add by lia. destruct (Z.ltb_spec s 0).
  - rewrite u16_id by lia. apply Z.mod_unique_pos with (-1); lia.
  - rewrite u16_id by lia. symmetry. apply Z.mod_small. lia.
Qed.
Lemma c_centre_ok t : 0 <= t < 12289 -> c_centre t = centre t.
Proof.
  intros H. apply centre_unique.
  - unfold c_centre. change (Z.shiftr CQ 1) with 6144. fold (qmask (u32 (6144 - t))). destruct (Z.lt_ge_cases 6144 t).
    + rewrite qmask_hi by (assert (E : u32 (6144 - t) = 6144 - t + 2 ^ 32) by (unfold u32; symmetry; apply Z.mod_unique_pos with (-1); lia); lia).
      rewrite i16_id by lia. exists (-1). lia.
    + rewrite qmask_lo by (rewrite u32_id; lia). rewrite i16_id by lia. exists 0. lia.
  - unfold c_centre. change (Z.shiftr CQ 1) with 6144. fold (qmask (u32 (6144 - t))). destruct (Z.lt_ge_cases 6144 t).
    + rewrite qmask_hi by (assert (E : u32 (6144 - t) = 6144 - t + 2 ^ 32) by (unfold u32; symmetry; apply Z.mod_unique_pos with (-1); lia); lia).
      rewrite i16_id by lia. lia.
    + rewrite qmask_lo by (rewrite u32_id; lia). rewrite i16_id by lia. lia.
Qed.
Lemma fold_len {B} (f : list Z -> B -> list Z) l : (forall a b, length (f a b) = length a) -> forall a, length (fold_left f l a) = length a.
Proof. intros H. induction l as [|b l IH]; intros a; cbn [fold_left]; auto. now rewrite IH, H. Qed.
Lemma cfw_loop_length fuel : forall n m t a, length (cfw_loop fuel t m n a) = length a.
Proof.
  induction fuel as [|fuel IH]; intros n m t a; cbn [cfw_loop]; auto. destruct (m <? n)%nat; auto. cbv zeta. rewrite IH. unfold cfw_layer.
  apply fold_len. intros a' i. apply fold_len. intros a'' j. unfold cfw_step. now rewrite !upd_length.
Qed.
Lemma mq_NTT_length k a : length (mq_NTT k a) = length a. Proof. apply cfw_loop_length. Qed.
Lemma cinv_loop_length fuel : forall m t a, length (cinv_loop fuel t m a) = length a.
Proof.
  induction fuel as [|fuel IH]; intros m t a; cbn [cinv_loop]; auto. destruct (1 <? m)%nat; auto. cbv zeta. rewrite IH. unfold cinv_layer.
  apply fold_len. intros a' i. apply fold_len. intros a'' j. unfold cinv_step. now rewrite !upd_length.
Qed.
Lemma mq_iNTT_length k a : length (mq_iNTT k a) = length a. Proof. unfold mq_iNTT. rewrite map_length. apply cinv_loop_length. Qed.
Lemma nth_map_combine f (a b : list Z) i : length a = length b -> (i < length a)%nat -> nth i (map (fun '(x, y) => f x y : Z) (combine a b)) 0 = f (nth i a 0) (nth i b 0).
Proof.
  intros L Hi. rewrite (nth_indep _ 0 ((fun '(x, y) => f x y) (0, 0))) by (rewrite map_length, combine_length; lia).
  rewrite (map_nth (fun '(x, y) => f x y) _ (0, 0)), combine_nth by auto. reflexivity.
Qed.
Lemma sqnorm_big x l : In x l -> x ^ 2 <= sqnorm l.
Proof.
  induction l as [|y l IH]; [intros []|]. cbn [sqnorm fold_right]. fold (sqnorm l). intros [->|H].
  - pose proof (sqnorm_nonneg l). lia.
  - specialize (IH H). pose proof (Z.square_nonneg y). nia.
Qed.
Lemma l2bound_q k : nth k l2bound 0 < 12289 ^ 2.
Proof. do 11 (destruct k as [|k]; [cbn; lia|]). cbn. destruct k; lia. Qed.
Lemma sqnorm_map_opp l : sqnorm (map (fun x => centre x) (map Z.opp l)) = sqnorm (map centre l).
Proof.
  induction l as [|x l IH]; [reflexivity|]. cbn [map sqnorm fold_right] in *. f_equal; [|exact IH].
  rewrite <- (centre_unique (- x) (- centre x)); [ring| |pose proof (centre_range x); lia]. destruct (centre_cong x) as [d Hd]. exists (- d). lia.
Qed.

Lemma mq_poly_sub_len a b : length a = length b -> length (mq_poly_sub a b) = length a.
Proof. intros L. unfold mq_poly_sub. rewrite map_length, combine_length, L. lia. Qed.
Lemma i16s_centre l : i16s (map c_centre l).
Proof. apply Forall_forall. intros x Hx. apply in_map_iff in Hx. destruct Hx as (y & <- & _). apply i16_range. Qed.
(** the value computed before the test of the norm, for reduced s2 *)
Lemma raw_vector k h c s2 : (1 <= k <= 10)%nat -> canonL (2 ^ k) h -> canonL (2 ^ k) c -> length s2 = (2 ^ k)%nat -> Forall (fun x => -12289 <= x < 12289) s2 ->
  mq_poly_sub (mq_iNTT k (mq_poly_montymul_ntt (mq_NTT k (map c_lift s2)) (to_ntt_monty k h))) c =
  map (fun i => (nth i (negmul (2 ^ k) (mod_q s2) h) 0 - nth i c 0) mod 12289) (seq 0 (2 ^ k)).
Proof.
  intros Hk [Lh Ch] [Lc Cc] L2 R2.
  assert (EL : map c_lift s2 = mod_q s2) by (apply map_ext_in; intros x Hx; apply c_lift_mod, (proj1 (Forall_forall _ _) R2 x Hx)).
  rewrite EL. assert (C2 : canonL (2 ^ k) (mod_q s2)) by (split; [now rewrite mod_q_length|apply mod_q_canon]).
  unfold to_ntt_monty, mq_poly_tomonty. pose proof (mq_NTT_canon k h Hk (conj Lh Ch)) as CH. pose proof (mq_NTT_canon k _ Hk C2) as CS.
  rewrite (map_ext_in _ (fun x => (x * 65536) mod 12289) (mq_NTT k h)) by (intros x Hx; apply tomonty_nth, (proj1 (Forall_forall _ _) (proj2 CH) x Hx)).
  rewrite (montymul_ntt (2 ^ k)) by auto. rewrite mq_iNTT_ok; [|lia|split; [apply vecmul_len|apply vecmul_can]].
  rewrite !mq_NTT_ok by (auto; split; auto). rewrite (I_mul _ _ _ _ (goodC k Hk) _ eq_refl) by (auto; apply C2).
  apply list_eq_nth.
  - rewrite mq_poly_sub_len by (rewrite mod_q_length, negmul_length; lia). now rewrite mod_q_length, negmul_length, map_length, seq_length.
  - intros i Hi. rewrite mq_poly_sub_len in Hi by (rewrite mod_q_length, negmul_length; lia). rewrite mod_q_length, negmul_length in Hi.
    unfold mq_poly_sub. rewrite (nth_map_combine (fun x y => u16 (mq_sub x y))) by (rewrite mod_q_length, negmul_length; lia).
    rewrite (nth_map_seq (fun i => (nth i (negmul (2 ^ k) (mod_q s2) h) 0 - nth i c 0) mod 12289)) by exact Hi.
    rewrite mod_q_nth. pose proof (canonq_nth c i Cc). pose proof (mod_range (nth i (negmul (2 ^ k) (mod_q s2) h) 0)). rewrite mq_sub_spec by lia.
    rewrite u16_id by (pose proof (mod_range (nth i (negmul (2 ^ k) (mod_q s2) h) 0 mod 12289 - nth i c 0)); lia).
    rewrite Zminus_mod_idemp_l. reflexivity.
Qed.
Theorem verify_raw_exact k h c s2 : (1 <= k <= 10)%nat -> canonL (2 ^ k) h -> canonL (2 ^ k) c -> length s2 = (2 ^ k)%nat -> i16s s2 ->
  (verify_raw k c s2 (to_ntt_monty k h) = true <-> exists s1, preimage (2 ^ k) h c s1 s2 /\ sqnorm s1 + sqnorm s2 <= nth k l2bound 0).
Proof.
  intros Hk Ch Cc L2 R2. unfold verify_raw. cbv zeta.
  pose proof (proj1 Ch) as Lh. pose proof (proj1 Cc) as Lc. pose proof (pow_pos k) as np.
  assert (LT : length (to_ntt_monty k h) = (2 ^ k)%nat) by (unfold to_ntt_monty, mq_poly_tomonty; now rewrite map_length, mq_NTT_length).
  assert (LM : length (mq_iNTT k (mq_poly_montymul_ntt (mq_NTT k (map c_lift s2)) (to_ntt_monty k h))) = (2 ^ k)%nat).
  { rewrite mq_iNTT_length. unfold mq_poly_montymul_ntt. rewrite map_length, combine_length, mq_NTT_length, map_length, L2, LT. lia. }
  rewrite is_short_exact; [|rewrite map_length, mq_poly_sub_len by congruence; congruence|apply i16s_centre|exact R2].
  rewrite Z.leb_le. destruct (Forall_dec (fun x => -12289 <= x < 12289) (fun x => ltac:(destruct (Z_le_dec (-12289) x); [destruct (Z_lt_dec x 12289); [left; lia|right; lia]|right; lia])) s2) as [D|D].
  - rewrite (raw_vector k h c s2) by (auto; lia). set (W := negmul (2 ^ k) (mod_q s2) h).
    set (z := map (fun i => nth i c 0 - nth i W 0) (seq 0 (2 ^ k))).
    assert (EN : sqnorm (map c_centre (map (fun i => (nth i W 0 - nth i c 0) mod 12289) (seq 0 (2 ^ k)))) = sqnorm (map centre z)).
    { rewrite <- (sqnorm_map_opp z). f_equal. unfold z. rewrite !map_map. apply map_ext. intros i. rewrite c_centre_ok by apply mod_range.
      symmetry. apply centre_unique; [|apply centre_range]. destruct (centre_cong (- (nth i c 0 - nth i W 0))) as [d Hd]. exists (d + (nth i W 0 - nth i c 0) / 12289).
      rewrite Z.mod_eq by lia. lia. }
    rewrite EN. assert (Lz : length z = (2 ^ k)%nat) by (unfold z; now rewrite map_length, seq_length).
    assert (WM : pcong (2 ^ k) 12289 W (negmul (2 ^ k) s2 h)).
    { unfold W. apply pcong_req. rewrite !fl_mul_req by (rewrite ?mod_q_length; lia). apply (rmul_proper (2 ^ k) np 12289); [apply pcong_req, mod_q_pcong|reflexivity]. }
    assert (N0 : forall i, (i < 2 ^ k)%nat -> (12289 | nth i z 0 - (nth i c 0 - nth i W 0))).
    { intros i Hi. unfold z. rewrite (nth_map_seq (fun i => nth i c 0 - nth i W 0)) by exact Hi. exists 0. lia. }
    destruct (ExtVerify.pre_centre (fun x => x) (2 ^ k)%nat h c z s2 W np Lz L2 Lh N0 WM) as [P M]. split.
    + intros H. exists (map centre z). auto.
    + intros (s1 & P1 & H). pose proof (ExtVerify.min_norm (fun x => x) (2 ^ k)%nat z s1 Lz (proj1 P1) (M s1 P1)). lia.
  - assert (BIG : nth k l2bound 0 < sqnorm s2).
    { apply Exists_Forall_neg in D; [|intros x; destruct (Z_le_dec (-12289) x); [destruct (Z_lt_dec x 12289); [left; lia|right; lia]|right; lia]].
      apply Exists_exists in D. destruct D as (x & Hx & D). pose proof (sqnorm_big x s2 Hx). pose proof (l2bound_q k). assert (12289 ^ 2 <= x ^ 2) by nia. lia. }
    split; [intros H|intros (s1 & _ & H)].
    + pose proof (sqnorm_nonneg (map c_centre (mq_poly_sub (mq_iNTT k (mq_poly_montymul_ntt (mq_NTT k (map c_lift s2)) (to_ntt_monty k h))) c))). lia.
    + pose proof (sqnorm_nonneg s1). lia.
Qed.
