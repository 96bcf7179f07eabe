(** The key arithmetic of vrfy.c (division, public key, completion of the private key, recovery) is Python's. *)
From Coq Require Import Znumtheory Permutation FinFun.
From Verif Require Import Base KeccakModel ChachaProofs RingSpec Ring NtruProofs PolyProofs NttTables NttTables1024 NttModel NttProofs NttInst NttApi NtruModel PolyModel PolyModelProofs
  CodecSpec FalconSpec FalconModel FalconProofs RecoveryProofs CTables CModel CNttProofs CKeyModel.

(** * The transforms are those of Python *)
Lemma ctables_py : forall i, (i < 1024)%nat -> psiC i = psip i.
Proof.
  assert (H : forallb (fun i => psiC i =? psip i) (seq 0 1024) = true) by (vm_cast_no_check (eq_refl true)).
  intros i Hi. rewrite forallb_forall in H. specialize (H i ltac:(apply in_seq; lia)). lia.
Qed.
Lemma mq_NTT_ntt k a : (1 <= k <= 10)%nat -> canonL (2 ^ k) a -> mq_NTT k a = ntt a.
Proof.
  intros Hk C. rewrite (mq_NTT_ok k a C). unfold ntt. rewrite (proj1 C). unfold nttfw. pose proof (CNttProofs.pow_le_1024 k (proj2 Hk)) as Hp.
  apply fw_loop_table; [intros i _ Hi; apply ctables_py; lia|exists k; lia].
Qed.
Lemma mq_iNTT_intt k b : (1 <= k <= 10)%nat -> canonL (2 ^ k) b -> mq_iNTT k b = intt b.
Proof.
  intros Hk C. destruct C as [L Cb]. assert (C : canonL (2 ^ k) b) by (split; assumption).
  assert (LI : length (mq_iNTT k b) = (2 ^ k)%nat) by (rewrite mq_iNTT_length; exact L).
  assert (CI : canonq (mq_iNTT k b)) by (rewrite (mq_iNTT_ok k b (proj2 Hk) C); apply I_canon).
  assert (LP : length (intt b) = (2 ^ k)%nat) by (apply (intt_length k Hk _ eq_refl); assumption).
  assert (CP : canonq (intt b)) by apply intt_canon.
  rewrite <- (mod_q_id _ CI), <- (mod_q_id _ CP). apply (ntt_inj k Hk _ eq_refl); [exact LI|exact LP|].
  rewrite (ntt_intt k Hk _ eq_refl b L Cb). rewrite <- (mq_NTT_ntt k _ Hk (conj LI CI)).
  rewrite (mq_NTT_ok k _ (conj LI CI)), (mq_iNTT_ok k b (proj2 Hk) C). exact (T_I _ _ _ _ (goodC k Hk) _ eq_refl b L Cb).
Qed.

(** * Division *)
Notation ydiv := mq_inv_chain.
Lemma mq_div_ydiv x y : mq_div_12289 x y = mq_montymul (ydiv y) x. Proof. reflexivity. Qed.
(** Fermat's little theorem: multiplication by y permutes 1, ..., p - 1 *)
Section Fermat.
  Variable p : Z.
  Hypothesis Hp : prime p.
  Lemma p_gt1 : 1 < p. Proof. destruct Hp. lia. Qed.
  Definition prodl (l : list Z) : Z := fold_right Z.mul 1 l.
  Lemma prodl_perm a b : Permutation a b -> prodl a = prodl b.
  Proof. induction 1; unfold prodl in *; cbn [fold_right]; [reflexivity|rewrite IHPermutation; reflexivity|ring|congruence]. Qed.
  Lemma dom x y : (x * y) mod p = 0 -> x mod p = 0 \/ y mod p = 0.
  Proof.
    pose proof p_gt1. intros E. apply Z.mod_divide in E; [|lia]. apply prime_mult in E; [|exact Hp]. destruct E as [E|E]; [left|right]; apply Z.mod_divide; (lia || exact E).
  Qed.
  Lemma prodl_nz l : Forall (fun x => x mod p <> 0) l -> prodl l mod p <> 0.
  Proof.
    pose proof p_gt1. induction 1 as [|x l Hx F IH]; cbn [prodl fold_right]; [rewrite Z.mod_small; lia|]. intros E. apply dom in E. destruct E as [E|E]; [exact (Hx E)|exact (IH E)].
  Qed.
  Lemma prodl_scale y l : prodl (map (fun i => (y * i) mod p) l) mod p = (y ^ Z.of_nat (length l) * prodl l) mod p.
  Proof.
    pose proof p_gt1. induction l as [|x l IH]; [reflexivity|]. cbn [map prodl fold_right length]. fold (prodl (map (fun i => (y * i) mod p) l)). fold (prodl l).
    rewrite Z.mul_mod_idemp_l, <- Z.mul_mod_idemp_r, IH, Z.mul_mod_idemp_r by lia. rewrite Nat2Z.inj_succ, Z.pow_succ_r by lia. f_equal. ring.
  Qed.
  Theorem fermat_gen y : 0 < y < p -> y ^ (p - 1) mod p = 1.
  Proof.
    pose proof p_gt1 as P1. intros Hy. set (L := map Z.of_nat (seq 1 (Z.to_nat (p - 1)))).
    assert (LL : length L = Z.to_nat (p - 1)) by (unfold L; rewrite map_length, seq_length; reflexivity).
    assert (InL : forall x, In x L <-> 0 < x < p).
    { intros x. unfold L. rewrite in_map_iff. split; [intros (k & <- & K); apply in_seq in K; lia|]. intros Hx. exists (Z.to_nat x). split; [lia|]. apply in_seq. lia. }
    assert (ND : NoDup L) by (unfold L; apply FinFun.Injective_map_NoDup; [intros a b; apply Nat2Z.inj|apply seq_NoDup]).
    assert (NZ : forall x, 0 < x < p -> x mod p <> 0) by (intros x Hx; rewrite Z.mod_small; lia).
    assert (PM : Permutation (map (fun i => (y * i) mod p) L) L).
    { apply NoDup_Permutation_bis; [|rewrite map_length; lia|].
      - assert (G : forall l, incl l L -> NoDup l -> NoDup (map (fun i => (y * i) mod p) l)).
        { induction l as [|x l IH]; intros I N; cbn [map]; constructor.
          - intros C. apply in_map_iff in C. destruct C as (z & E & Iz). inversion_clear N as [|? ? N1 N2]. apply N1. assert (Hx : 0 < x < p) by (apply InL, I; left; reflexivity).
            assert (Hz : 0 < z < p) by (apply InL, I; right; exact Iz). assert (D : (y * (z - x)) mod p = 0) by (rewrite Z.mul_sub_distr_l, Zminus_mod, E, Z.sub_diag; apply Z.mod_0_l; lia).
            apply dom in D. destruct D as [D|D]; [destruct (NZ y Hy D)|]. apply Z.mod_divide in D; [|lia]. destruct D as [k D]. assert (k = 0) by nia. subst k. assert (x = z) by lia. subst z. exact Iz.
          - inversion_clear N. apply IH; [intros a Ha; apply I; right; exact Ha|assumption]. }
        apply G; [intros a Ha; exact Ha|exact ND].
      - intros z Iz. apply in_map_iff in Iz. destruct Iz as (x & <- & Ix). apply InL in Ix. apply InL. pose proof (Z.mod_pos_bound (y * x) p ltac:(lia)).
        assert ((y * x) mod p <> 0) by (intros C; apply dom in C; destruct C as [C|C]; [exact (NZ y Hy C)|exact (NZ x Ix C)]). lia. }
    apply prodl_perm in PM. pose proof (prodl_scale y L) as S. rewrite PM, LL, Z2Nat.id in S by lia.
    assert (NP : prodl L mod p <> 0) by (apply prodl_nz, Forall_forall; intros x Hx; apply NZ, InL; exact Hx).
    set (P := prodl L) in *. clearbody P. set (A := y ^ (p - 1)) in *. clearbody A. clear - S NP P1 Hp.
    assert (D : ((A - 1) * P) mod p = 0) by (rewrite Z.mul_sub_distr_r, Z.mul_1_l, Zminus_mod, <- S, Z.sub_diag; apply Z.mod_0_l; lia).
    apply dom in D. destruct D as [D|D]; [|contradiction]. apply Z.mod_divide in D; [|lia]. destruct D as [k D]. replace A with (1 + k * p) by lia. rewrite Z.mod_add by lia. apply Z.mod_small. lia.
  Qed.
End Fermat.
Lemma fermat y : 0 < y < 12289 -> y ^ 12288 mod 12289 = 1.
Proof. exact (fermat_gen 12289 prime_q y). Qed.
Section Chain.
  Variable y : Z.
  Definition repr (e v : Z) : Prop := 0 <= e /\ v = (y ^ e * 4091) mod 12289.
  Lemma repr_range e v : repr e v -> 0 <= v < 12289.
  Proof. intros [_ ->]. apply mod_range. Qed.
  Lemma repr_mul a b v w : repr a v -> repr b w -> repr (a + b) (mq_montymul v w).
  Proof.
    intros Ha Hb. pose proof (repr_range _ _ Ha) as Rv. pose proof (repr_range _ _ Hb) as Rw. rewrite mq_montymul_spec by (try lia; apply mul_small; lia).
    destruct Ha as [Pa Ea], Hb as [Pb Eb]. split; [lia|]. rewrite Ea, Eb. rewrite Z.pow_add_r by lia. set (p := y ^ a). set (r := y ^ b). clearbody p r. clear.
    rewrite <- Z.mul_mod_idemp_l by lia. rewrite <- Z.mul_mod by lia. rewrite Z.mul_mod_idemp_l by lia.
    replace (p * 4091 * (r * 4091) * 2304) with (p * r * (4091 * (4091 * 2304))) by ring. rewrite <- Z.mul_mod_idemp_r by lia. reflexivity.
  Qed.
  Lemma repr_sqr a v : repr a v -> repr (a + a) (mq_montysqr v).
  Proof. intros H. unfold mq_montysqr. exact (repr_mul a a v v H H). Qed.
  Lemma let_repr e e' v (b : Z -> Z) : repr e v -> (forall w, repr e w -> repr e' (b w)) -> repr e' (let x := v in b x).
  Proof. intros H1 H2. exact (H2 v H1). Qed.
  Ltac step := lazymatch goal with |- repr ?e' (let x := ?v in @?b x) => eapply (let_repr _ e' v b); [lazymatch v with mq_montysqr _ => eapply repr_sqr; eassumption | _ => eapply repr_mul; eassumption end|intros ? ?] end.
  Lemma chain_repr : 0 <= y < 12289 -> repr 12287 (mq_inv_chain y).
  Proof.
    intros Hy. cbv beta delta [mq_inv_chain].
    lazymatch goal with |- repr ?e' (let x := ?v in @?b x) => apply (let_repr 1 e' v b) end.
    { split; [lia|]. unfold CR2. rewrite mq_montymul_spec by (try lia; apply mul_small; lia). rewrite Z.pow_1_r, <- Z.mul_assoc. rewrite <- Z.mul_mod_idemp_r by lia. reflexivity. }
    intros ? ?. do 17 step.
    match goal with |- repr _ (mq_montymul ?a ?b) => match goal with A : repr ?e a, B : repr ?e2 b |- _ => exact (repr_mul e e2 a b A B) end end.
  Qed.
End Chain.
Lemma inv_aux p y d : d = (p * 4091) mod 12289 -> (p * y) mod 12289 = 1 -> (d * y * 2304) mod 12289 = 1.
Proof.
  intros -> Fm. rewrite <- Z.mul_assoc, Z.mul_mod_idemp_l by lia.
  replace (p * 4091 * (y * 2304)) with (p * y * (4091 * 2304)) by ring. rewrite <- Z.mul_mod_idemp_l, Fm by lia. reflexivity.
Qed.
Lemma pow_succ_l y e : 0 <= e -> y ^ (e + 1) = y ^ e * y.
Proof. intros H. rewrite Z.pow_add_r, Z.pow_1_r by lia. reflexivity. Qed.
Lemma ydiv_facts y : 0 <= y < 12289 -> 0 <= ydiv y < 12289 /\ (y = 0 -> ydiv y = 0) /\ (y <> 0 -> (ydiv y * y * 2304) mod 12289 = 1).
Proof.
  intros Hy. pose proof (chain_repr y Hy) as C. pose proof (repr_range _ _ _ C) as R. split; [exact R|]. split.
  - intros E. rewrite (proj2 C), E, Z.pow_0_l by lia. reflexivity.
  - intros N. exact (inv_aux _ _ _ (proj2 C) (eq_trans (f_equal (fun v => v mod 12289) (eq_sym (pow_succ_l y 12287 ltac:(lia)))) (fermat y ltac:(lia)))).
Qed.
Global Opaque mq_inv_chain.
Lemma mq_div_range x y : 0 <= x < 12289 -> 0 <= y < 12289 -> 0 <= mq_div_12289 x y < 12289.
Proof.
  intros Hx Hy. rewrite mq_div_ydiv. destruct (ydiv_facts y Hy) as (R & _). set (d := mq_inv_chain y) in *. clearbody d.
  rewrite mq_montymul_spec by (try lia; apply mul_small; lia). apply mod_range.
Qed.
Lemma mq_div_mul x y : 0 <= x < 12289 -> 0 < y < 12289 -> (mq_div_12289 x y * y) mod 12289 = x.
Proof.
  intros Hx Hy. rewrite mq_div_ydiv. destruct (ydiv_facts y ltac:(lia)) as (R & _ & P). specialize (P ltac:(lia)). set (d := mq_inv_chain y) in *. clearbody d.
  rewrite mq_montymul_spec by (try lia; apply mul_small; lia).
  rewrite Z.mul_mod_idemp_l by lia. replace (d * x * 2304 * y) with (x * (d * y * 2304)) by ring. rewrite <- Z.mul_mod_idemp_r, P, Z.mul_1_r by lia. apply Z.mod_small. lia.
Qed.
Lemma mq_div_zero x : 0 <= x < 12289 -> mq_div_12289 x 0 = 0.
Proof. intros Hx. rewrite mq_div_ydiv. destruct (ydiv_facts 0 ltac:(lia)) as (_ & Z0 & _). rewrite (Z0 eq_refl), mq_montymul_spec by lia. reflexivity. Qed.
Lemma mq_div_inv x y : 0 <= x < 12289 -> 0 < y < 12289 -> mq_div_12289 x y = (x * inv_q y) mod 12289.
Proof.
  intros Hx Hy. pose proof (mq_div_range x y Hx ltac:(lia)) as R. pose proof (mq_div_mul x y Hx Hy) as M. pose proof (inv_q_ok y ltac:(rewrite Z.mod_small; lia)) as I.
  set (d := mq_div_12289 x y) in *. clearbody d. rewrite <- (Z.mod_small d 12289) by lia. rewrite <- M, Z.mul_mod_idemp_l by lia.
  replace (d * y * inv_q y) with (d * (y * inv_q y)) by ring. rewrite <- (Z.mul_mod_idemp_r d), I, Z.mul_1_r by lia. reflexivity.
Qed.

(** * Small coefficients *)
Definition smallq (l : list Z) : Prop := Forall (fun x => -12289 <= x < 12289) l.
Lemma map_lift l : smallq l -> map c_lift l = mod_q l.
Proof. intros F. unfold mod_q. apply map_ext_in. intros x Hx. apply c_lift_mod. unfold smallq in F. rewrite Forall_forall in F. exact (F x Hx). Qed.
Lemma lift_canon l : smallq l -> canonL (length l) (map c_lift l).
Proof. intros F. rewrite map_lift by exact F. split; [apply mod_q_length|apply mod_q_canon]. Qed.
Lemma lift_ntt k l : (1 <= k <= 10)%nat -> length l = (2 ^ k)%nat -> smallq l -> mq_NTT k (map c_lift l) = ntt l.
Proof.
  intros Hk L F. pose proof (lift_canon l F) as C. rewrite L in C. rewrite (mq_NTT_ntt k _ Hk C), map_lift by exact F. apply (ntt_mod k Hk _ eq_refl). exact L.
Qed.
Lemma no_zero k l : (1 <= k <= 10)%nat -> length l = (2 ^ k)%nat -> (existsb (fun t => t =? 0) (ntt l) = false <-> invertible l = true).
Proof.
  intros Hk L. rewrite (invertible_nth k Hk _ eq_refl l L). pose proof (ntt_length k Hk _ eq_refl l L) as LT. split.
  - intros E i Hi Z0. assert (T : existsb (fun t => t =? 0) (ntt l) = true) by (apply existsb_exists; exists (nth i (ntt l) 0); split; [apply nth_In; lia|apply Z.eqb_eq; exact Z0]). congruence.
  - intros H. destruct (existsb _ _) eqn:E; [|reflexivity]. apply existsb_exists in E. destruct E as (x & Hx & Z0). apply (In_nth _ _ 0) in Hx. destruct Hx as (i & Hi & <-).
    exfalso. apply (H i ltac:(lia)). apply Z.eqb_eq. exact Z0.
Qed.
Lemma nth_map2 f (a b : list Z) i : length a = length b -> (i < length a)%nat -> nth i (map (fun '(x, y) => f x y : Z) (combine a b)) 0 = f (nth i a 0) (nth i b 0).
Proof. apply nth_map_combine. Qed.
Lemma map2_length f (a b : list Z) : length a = length b -> length (map (fun '(x, y) => f x y : Z) (combine a b)) = length a.
Proof. intros L. rewrite map_length, combine_length. lia. Qed.
(** the pointwise quotient *)
Lemma quot_canon n a b : canonL n a -> canonL n b -> canonL n (map (fun '(x, t) => u16 (mq_div_12289 x t)) (combine a b)).
Proof.
  intros [La Ca] [Lb Cb]. split; [rewrite map2_length; congruence|]. apply Forall_forall. intros y Hy. apply (In_nth _ _ 0) in Hy. destruct Hy as (i & Hi & <-).
  rewrite map2_length in Hi by congruence. rewrite (nth_map2 (fun x t => u16 (mq_div_12289 x t))) by congruence.
  pose proof (mq_div_range (nth i a 0) (nth i b 0) (canonq_nth a i Ca) (canonq_nth b i Cb)). rewrite u16_id; lia.
Qed.
Lemma quot_inv n a b : canonL n a -> canonL n b -> existsb (fun t => t =? 0) b = false ->
  map (fun '(x, t) => u16 (mq_div_12289 x t)) (combine a b) = vec_mul a (map inv_q b).
Proof.
  intros [La Ca] [Lb Cb] NZ. apply list_eq_nth; [rewrite map2_length, vec_mul_length; congruence|]. intros i Hi. rewrite map2_length in Hi by congruence.
  rewrite (nth_map2 (fun x t => u16 (mq_div_12289 x t))) by congruence. rewrite vec_mul_nth by exact Hi. rewrite nth_map0 by lia.
  pose proof (canonq_nth a i Ca) as Ra. pose proof (canonq_nth b i Cb) as Rb.
  assert (N0 : nth i b 0 <> 0). { intros Z0. assert (T : existsb (fun t => t =? 0) b = true) by (apply existsb_exists; exists (nth i b 0); split; [apply nth_In; lia|apply Z.eqb_eq; exact Z0]). congruence. }
  pose proof (mq_div_range (nth i a 0) (nth i b 0) Ra Rb). rewrite u16_id by lia. apply mq_div_inv; lia.
Qed.
Lemma ntt_canonL k l : (1 <= k <= 10)%nat -> length l = (2 ^ k)%nat -> canonL (2 ^ k) (ntt l).
Proof. intros Hk L. split; [apply (ntt_length k Hk _ eq_refl); exact L|apply (ntt_canon k Hk _ eq_refl); exact L]. Qed.

Theorem compute_public_py k f g : (1 <= k <= 10)%nat -> length f = (2 ^ k)%nat -> length g = (2 ^ k)%nat -> smallq f -> smallq g ->
  compute_public k f g = match poly_div g f with Ok h => Some h | Raise _ => None end.
Proof.
  intros Hk Lf Lg Sf Sg. unfold compute_public, poly_div. cbv zeta. rewrite !lift_ntt by assumption. pose proof (no_zero k f Hk Lf) as NZ.
  destruct (existsb _ (ntt f)) eqn:E.
  - destruct (invertible f); [|reflexivity]. destruct NZ as [_ NZ]. discriminate (NZ eq_refl).
  - rewrite (proj1 NZ eq_refl). f_equal. pose proof (ntt_canonL k g Hk Lg) as Cg. pose proof (ntt_canonL k f Hk Lf) as Cf.
    rewrite mq_iNTT_intt; [|exact Hk|apply quot_canon; assumption]. f_equal. exact (quot_inv _ _ _ Cg Cf E).
Qed.

Lemma c_small_ok w : 0 <= w < 12289 -> c_small w = if w <? 6144 then w else w - 12289.
Proof.
  intros Hw. unfold c_small, CQ. cbv zeta. change (Z.shiftr 12289 1) with 6144. destruct (Z.ltb_spec w 6144) as [L|L].
  - assert (E : u32 (w - 6144) = w - 6144 + 2 ^ 32) by (unfold u32; symmetry; apply Z.mod_unique_pos with (-1); lia). rewrite E.
    rewrite Z.shiftr_div_pow2 by lia. replace ((w - 6144 + 2 ^ 32) / 2 ^ 31) with 1 by (apply Z.div_unique_pos with (w - 6144 + 2 ^ 31); lia).
    change (u32 (- (1))) with 0xFFFFFFFF. change (Z.lxor 0xFFFFFFFF 0xFFFFFFFF) with 0. change (Z.land 12289 0) with 0. rewrite Z.sub_0_r, u32_id by lia.
    destruct (Z.ltb_spec w (2 ^ 31)); lia.
  - rewrite (u32_id (w - 6144)) by lia. rewrite Z.shiftr_div_pow2, Z.div_small by lia. change (u32 (- 0)) with 0. change (Z.lxor 0xFFFFFFFF 0) with 0xFFFFFFFF.
    change (Z.land 12289 0xFFFFFFFF) with 12289. assert (E : u32 (w - 12289) = w - 12289 + 2 ^ 32) by (unfold u32; symmetry; apply Z.mod_unique_pos with (-1); lia). rewrite E.
    destruct (Z.ltb_spec (w - 12289 + 2 ^ 32) (2 ^ 31)); lia.
Qed.
