(** Property theorems C50, C51: the number-theoretic transforms of the contracts.
    [negmul 512 a b] is the product of a and b modulo x^512 + 1 (RingSpec). *)
From Verif Require Import Base RingSpec Ring PolyProofs NttTables NttModel NttProofs NttInst NttApi.

Lemma e9 : 512%nat = (2 ^ 9)%nat. Proof. reflexivity. Qed.

(** NTT of Solidity's vectorized library: multiplication modulo (q, x^512 + 1), for any 512 input words. *)
Theorem C50_ntt_multiplies : forall a b, length a = 512%nat -> length b = 512%nat ->
  NTTINV_vectorized (VECMULMOD (NTTFW_vectorized a) (NTTFW_vectorized b)) = mod_q (negmul 512 a b).
Proof.
  intros a b La Lb. rewrite vectorized_inv_flat, (vectorized_flat a), (vectorized_flat b). exact (I_mul _ _ _ _ good512 _ e9 a b La Lb).
Qed.
Print Assumptions C50_ntt_multiplies.
(** what each output means: the values of the polynomial at 512 distinct roots of x^512 + 1 *)
Definition root (i : nat) : Z := zz psis (512 + i) mod 12289.
Theorem C50_ntt_evaluates : forall a i, length a = 512%nat -> (i < 512)%nat ->
  nth i (NTTFW_vectorized a) 0 = (sum_to 512 (fun j => coef a j * root i ^ Z.of_nat j)) mod 12289.
Proof.
  intros a i La Hi. rewrite vectorized_flat.
  pose proof (T_canon _ _ _ _ good512 _ e9 a La) as C.
  pose proof (T_eval _ _ _ _ good512 _ e9 a i La Hi) as E.
  destruct E as [E]. rewrite Z.mod_small in E by (apply canonq_nth; auto). rewrite E.
  apply (cgm_eq qf). unfold evn. apply sum_eqm. intros j Hj. apply cgm_mul; [reflexivity|]. apply pow_eqm; auto.
  unfold root. symmetry. apply (eqm_mod qf).
Qed.
Print Assumptions C50_ntt_evaluates.
Fixpoint nodupb (l : list Z) : bool := match l with [] => true | x :: l => negb (existsb (Z.eqb x) l) && nodupb l end.
Lemma nodupb_ok l : nodupb l = true -> NoDup l.
Proof.
  induction l as [|x l IH]; intros H; constructor; cbn [nodupb] in H; apply andb_prop in H; destruct H as [H1 H2]; auto.
  intros I. apply negb_true_iff in H1. assert (E : existsb (Z.eqb x) l = true) by (apply existsb_exists; exists x; split; auto; apply Z.eqb_refl). congruence.
Qed.
Theorem C50_roots : forall i j, (i < 512)%nat -> (j < 512)%nat ->
  (root i ^ 512) mod 12289 = 12288 /\ (root i = root j -> i = j).
Proof.
  intros i j Hi Hj. split.
  - pose proof (root_n qf psis 512 ltac:(intros r Hr; apply flat_tables; exact Hr) 9 i eq_refl Hi) as [E].
    change (-1 mod qf) with 12288 in E. rewrite <- E. apply (cgm_eq qf). change (Z.of_nat 512) with 512. apply pow_eqm; auto.
    unfold root. apply (eqm_mod qf).
  - assert (H : nodupb (map root (seq 0 512)) = true) by (vm_cast_no_check (eq_refl true)).
    apply nodupb_ok in H. rewrite (NoDup_nth _ 0) in H. intros E. apply H.
    + rewrite map_length, seq_length. exact Hi.
    + rewrite map_length, seq_length. exact Hj.
    + rewrite !ChachaProofs.nth_map_seq by assumption. exact E.
Qed.
Print Assumptions C50_roots.
(** The checked version in contract ZKNOX_NTT, for every size 2^k up to 512, provided the storage value is the inverse of the size:
    same product, never reverts (HALFMUL expects its second argument already transformed). *)
Theorem C50_stateless_multiplies : forall k nm1 a b tb, (1 <= k <= 9)%nat -> (2 ^ Z.of_nat k * nm1) mod 12289 = 1 ->
  length a = (2 ^ k)%nat -> length b = (2 ^ k)%nat ->
  mul_NTTPoly 12289 nm1 a b = Ok (mod_q (negmul (2 ^ k) a b)) /\
  (NTTFW_stateless 12289 psi_rev_table b = Ok tb ->
   NTT_HALFMUL_stateless 12289 nm1 a tb = Ok (mod_q (negmul (2 ^ k) a b))).
Proof. exact stateless_multiplies. Qed.
Print Assumptions C50_stateless_multiplies.
(** non-trivial instance: (x^511 + 2) * (3 x + 12288) *)
Definition xa : list Z := 2 :: repeat 0 510 ++ [1].
Definition xb : list Z := 12288 :: 3 :: repeat 0 510.
Example C50_example :
  NTTINV_vectorized (VECMULMOD (NTTFW_vectorized xa) (NTTFW_vectorized xb)) = 12284 :: 6 :: repeat 0 509 ++ [12288].
Proof. vm_cast_no_check (eq_refl (12284 :: 6 :: repeat 0 509 ++ [12288])). Qed.

Theorem C51_inverse_of_forward : forall a, length a = 512%nat -> NTTINV_vectorized (NTTFW_vectorized a) = mod_q a.
Proof.
  intros a La. rewrite vectorized_inv_flat, (vectorized_flat a). exact (I_T _ _ _ _ good512 _ e9 a La).
Qed.
Print Assumptions C51_inverse_of_forward.
Theorem C51_forward_of_inverse : forall b, length b = 512%nat -> Forall (fun x => 0 <= x <= 12289) b ->
  NTTFW_vectorized (NTTINV_vectorized b) = mod_q b.
Proof.
  intros b Lb Hb. rewrite vectorized_inv_flat, (vectorized_flat (nttinv _ _ _ _ b)). exact (T_I_le _ _ _ _ good512 _ e9 b Lb Hb).
Qed.
Print Assumptions C51_forward_of_inverse.
(** outputs are canonical *)
Theorem C51_canonical : forall a, length a = 512%nat ->
  Forall (fun x => 0 <= x < 12289) (NTTFW_vectorized a) /\ length (NTTFW_vectorized a) = 512%nat /\
  Forall (fun x => 0 <= x < 12289) (NTTINV_vectorized a) /\ length (NTTINV_vectorized a) = 512%nat.
Proof.
  intros a La. pose proof (T_canon _ _ _ _ good512 _ e9 a La) as C. pose proof (T_length _ _ _ _ good512 _ e9 a La) as L.
  rewrite (vectorized_flat a). split; [exact C|]. split; [exact L|]. split.
  - exact (I_canon (packed_at packed_psiinvrev) nm1modq nf a).
  - unfold NTTINV_vectorized, nttinv. rewrite map_length. unfold nf. generalize 512%nat at 1. intros fuel.
    assert (G : forall fuel t m x, length (inv_loop qf (packed_at packed_psiinvrev) fuel t m x) = length x).
    { induction fuel0 as [|f IH]; intros; auto. cbn [inv_loop]. destruct (1 <? m)%nat; auto. cbv zeta. now rewrite IH, inv_layer_length. }
    rewrite G. auto.
Qed.
Print Assumptions C51_canonical.
(** the forward transform is one-to-one on canonical vectors *)
Theorem C51_injective : forall a b, length a = 512%nat -> length b = 512%nat ->
  Forall (fun x => 0 <= x < 12289) a -> Forall (fun x => 0 <= x < 12289) b ->
  NTTFW_vectorized a = NTTFW_vectorized b -> a = b.
Proof.
  intros a b La Lb Ca Cb E. assert (H : mod_q a = mod_q b) by (rewrite <- (C51_inverse_of_forward a La), <- (C51_inverse_of_forward b Lb), E; reflexivity).
  rewrite (mod_q_id a Ca), (mod_q_id b Cb) in H. exact H.
Qed.
Print Assumptions C51_injective.
(** the three tables of the repository are the same, and inverse tables match *)
Theorem C51_tables_agree : forall i, (i < 512)%nat ->
  packed_at packed_psirev i = nth i psi_rev_table 0 /\ packed_at packed_psiinvrev i = nth i psi_inv_rev_table 0 /\
  nth i deploy_psi_rev 0 = nth i psi_rev_table 0 /\ nth i deploy_psi_inv_rev 0 = nth i psi_inv_rev_table 0 /\
  (nth i psi_rev_table 0 * nth i psi_inv_rev_table 0) mod 12289 = 1.
Proof.
  intros i Hi. destruct (same_tables i Hi) as [E1 E2]. destruct deploy_tables as [D1 D2]. rewrite D1, D2. repeat split; auto.
  destruct i as [|i]; [reflexivity|]. destruct (flat_tables (S i) ltac:(lia)) as [_ [E]]. exact E.
Qed.
Print Assumptions C51_tables_agree.
Example C51_example : NTTFW_vectorized xb <> xb /\ NTTINV_vectorized (NTTFW_vectorized xb) = xb.
Proof.
  split; [|vm_cast_no_check (eq_refl xb)].
  intros H. apply (f_equal (fun l => nth 5 l 0)) in H. revert H.
  assert (E : nth 5 (NTTFW_vectorized xb) 0 =? nth 5 xb 0 = false) by (vm_cast_no_check (eq_refl false)). lia.
Qed.
