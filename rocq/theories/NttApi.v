(** The facts of NttProofs.v under one hypothesis: a good table for size 2^k. *)
From Verif Require Import Base RingSpec Ring PolyProofs NttTables NttModel NttProofs NttInst.

Record good (psi psii : nat -> Z) (k : nat) (nm1 : Z) : Prop := Good {
  g_k : (1 <= k)%nat;
  g_tree : forall r, (1 <= r < 2 ^ k)%nat -> cgm qf (psi r * psi r) (zz psi r);
  g_unit : forall r, (1 <= r < 2 ^ k)%nat -> cgm qf (psi r * psii r) 1;
  g_nm1 : cgm qf (Z.of_nat (2 ^ k) * nm1) 1 }.

Lemma p9 : (2 ^ 9)%nat = 512%nat. Proof. reflexivity. Qed.
Lemma good512 : good psis psiis 9 nm1modq.
Proof.
  constructor; [lia| | |exact nm1_512]; intros r Hr; rewrite p9 in Hr; apply flat_tables; exact Hr.
Qed.
Definition mod_q (a : list Z) : list Z := map (fun x => x mod 12289) a.
Definition canonq (a : list Z) : Prop := Forall (fun x => 0 <= x < 12289) a.

Lemma mod_q_length a : length (mod_q a) = length a. Proof. apply map_length. Qed.
Lemma mod_q_id a : canonq a -> mod_q a = a.
Proof. induction 1 as [|y l Hy _ IH]; auto. unfold mod_q in *. cbn [map]. rewrite Z.mod_small by lia. f_equal. exact IH. Qed.
Lemma mod_q_canon a : canonq (mod_q a).
Proof. apply Forall_forall. intros x Hx. apply in_map_iff in Hx. destruct Hx as (y & <- & _). apply Z.mod_pos_bound. lia. Qed.
Lemma mod_q_nth a i : nth i (mod_q a) 0 = nth i a 0 mod 12289.
Proof. unfold mod_q. change 0 with (0 mod 12289) at 1. apply (map_nth (fun x => x mod 12289)). Qed.
Lemma canonq_nth a i : canonq a -> 0 <= nth i a 0 < 12289.
Proof.
  intros C. destruct (Nat.lt_ge_cases i (length a)) as [H|H]; [|rewrite nth_overflow by auto; lia].
  unfold canonq in C. rewrite Forall_forall in C. apply C, nth_In, H.
Qed.
Lemma vecmul_len n a b : length (vecmul qf n a b) = n.
Proof. unfold vecmul. now rewrite map_length, seq_length. Qed.
Lemma vecmul_nth n a b p : (p < n)%nat -> nth p (vecmul qf n a b) 0 = (nth p a 0 * nth p b 0) mod 12289.
Proof. intros. unfold vecmul. now rewrite ChachaProofs.nth_map_seq. Qed.
Lemma vecmul_can n a b : canonq (vecmul qf n a b).
Proof.
  unfold vecmul. apply Forall_forall. intros x Hx. apply in_map_iff in Hx. destruct Hx as (y & <- & _). apply (modQ qf qf_ok).
Qed.

Section Api.
Variables (psi psii : nat -> Z) (k : nat) (nm1 : Z).
Hypothesis G : good psi psii k nm1.
Variable n : nat.
Hypothesis Hn : n = (2 ^ k)%nat.
Notation T := (nttfw qf psi n).
Notation I := (nttinv qf psii nm1 n).
Lemma T_length a : length a = n -> length (T a) = n.
Proof. intros L. rewrite Hn in *. apply (nttfw_facts qf qf_ok psi psii k (g_k _ _ _ _ G) (g_tree _ _ _ _ G) (g_unit _ _ _ _ G) a L). Qed.
Lemma T_canon a : length a = n -> canonq (T a).
Proof. intros L. rewrite Hn in *. apply (nttfw_facts qf qf_ok psi psii k (g_k _ _ _ _ G) (g_tree _ _ _ _ G) (g_unit _ _ _ _ G) a L). Qed.
Lemma I_length b : length b = n -> canonq b -> length (I b) = n.
Proof.
  intros L C. rewrite Hn in *. apply (nttinv_facts qf qf_ok psi psii k nm1 (g_k _ _ _ _ G) (g_tree _ _ _ _ G) (g_unit _ _ _ _ G)); auto.
  eapply Forall_impl; [|exact C]. cbn beta. unfold qf. intros; lia.
Qed.
Lemma I_canon b : canonq (I b).
Proof. unfold nttinv. apply Forall_forall. intros x Hx. apply in_map_iff in Hx. destruct Hx as (y & <- & _). apply (modQ qf qf_ok). Qed.
Lemma I_T a : length a = n -> I (T a) = mod_q a.
Proof. intros L. rewrite Hn in *. exact (nttinv_nttfw qf qf_ok psi psii k nm1 (g_k _ _ _ _ G) (g_tree _ _ _ _ G) (g_unit _ _ _ _ G) (g_nm1 _ _ _ _ G) a L). Qed.
Lemma T_I b : length b = n -> canonq b -> T (I b) = mod_q b.
Proof.
  intros L C. rewrite Hn in *. apply (nttfw_nttinv qf qf_ok psi psii k nm1 (g_k _ _ _ _ G) (g_tree _ _ _ _ G) (g_unit _ _ _ _ G) (g_nm1 _ _ _ _ G) b L).
  eapply Forall_impl; [|exact C]. cbn beta. unfold qf. intros; lia.
Qed.
Lemma T_I_le b : length b = n -> Forall (fun x => 0 <= x <= 12289) b -> T (I b) = mod_q b.
Proof.
  intros L C. rewrite Hn in *. exact (nttfw_nttinv qf qf_ok psi psii k nm1 (g_k _ _ _ _ G) (g_tree _ _ _ _ G) (g_unit _ _ _ _ G) (g_nm1 _ _ _ _ G) b L C).
Qed.
Lemma T_negmul a b : length a = n -> length b = n -> T (negmul n a b) = vecmul qf n (T a) (T b).
Proof.
  intros La Lb. rewrite Hn in *.
  exact (nttfw_negmul qf qf_ok psi psii k (g_k _ _ _ _ G) (g_tree _ _ _ _ G) (g_unit _ _ _ _ G) a b La Lb).
Qed.
Lemma I_mul a b : length a = n -> length b = n -> I (vecmul qf n (T a) (T b)) = mod_q (negmul n a b).
Proof.
  intros La Lb. rewrite Hn in *.
  exact (ntt_mul qf qf_ok psi psii k nm1 (g_k _ _ _ _ G) (g_tree _ _ _ _ G) (g_unit _ _ _ _ G) (g_nm1 _ _ _ _ G) a b La Lb).
Qed.
Lemma T_eval a i : length a = n -> (i < n)%nat -> cgm qf (nth i (T a) 0) (evn n (ln a) (zz psi (n + i))).
Proof.
  intros La Hi. rewrite Hn in *.
  exact (nttfw_eval qf qf_ok psi psii k (g_k _ _ _ _ G) (g_tree _ _ _ _ G) (g_unit _ _ _ _ G) a i La Hi).
Qed.
(** the transform of the residues is the transform *)
Lemma T_mod a : length a = n -> T (mod_q a) = T a.
Proof.
  intros La. assert (E : T (I (T a)) = mod_q (T a)) by (apply T_I; [apply T_length|apply T_canon]; auto).
  rewrite I_T in E by auto. rewrite E. apply mod_q_id, T_canon; auto.
Qed.
Lemma T_inj a b : length a = n -> length b = n -> T a = T b -> mod_q a = mod_q b.
Proof. intros La Lb E. rewrite <- !I_T by auto. now rewrite E. Qed.
End Api.

(** * The stateless contract, for every size up to 512 *)
Lemma pow_le_512 k : (k <= 9)%nat -> (2 ^ k <= 512)%nat.
Proof. intros H. rewrite <- p9. apply Nat.pow_le_mono_r; lia. Qed.
Lemma good_k k nm1 : (1 <= k <= 9)%nat -> (2 ^ Z.of_nat k * nm1) mod 12289 = 1 -> good psis psiis k nm1.
Proof.
  intros Hk Hn. pose proof (pow_le_512 k ltac:(lia)) as Hp. constructor; [lia| | |].
  - intros r Hr. apply flat_tables. split; [lia|]. eapply Nat.lt_le_trans; [apply Hr|exact Hp].
  - intros r Hr. apply flat_tables. split; [lia|]. eapply Nat.lt_le_trans; [apply Hr|exact Hp].
  - constructor. rewrite Nat2Z.inj_pow. exact Hn.
Qed.
Section Tail.
Variables (Q : Z) (HQ : 1 < Q < two256) (tbl : list Z) (n k : nat) (Hn : n = (2 ^ k)%nat).
Lemma stateless_tail nm1 A B : length A = n -> length B = n -> (n <= length tbl)%nat ->
  (let! p := ZKNOX_VECMULMOD Q A B in NTTINV_stateless Q tbl nm1 p) = Ok (nttinv Q (fun i => nth i tbl 0) nm1 n (vecmul Q n A B)).
Proof.
  intros LA LB LT. unfold ZKNOX_VECMULMOD. rewrite (vop_ok _ (fun x y => (x * y) mod Q)) by (auto; congruence). cbn [bind].
  rewrite LA. fold (vecmul Q n A B). assert (LV : length (vecmul Q n A B) = n) by (unfold vecmul; now rewrite map_length, seq_length).
  rewrite (NTTINV_stateless_ok Q HQ tbl k); [now rewrite Hn|now rewrite LV|now rewrite <- Hn|].
  intros p Hp. rewrite LV in Hp. unfold vecmul. rewrite ChachaProofs.nth_map_seq by auto. pose proof (modQ Q HQ (nth p A 0 * nth p B 0)). lia.
Qed.
End Tail.
Theorem stateless_multiplies : forall k nm1 a b tb, (1 <= k <= 9)%nat -> (2 ^ Z.of_nat k * nm1) mod 12289 = 1 ->
  length a = (2 ^ k)%nat -> length b = (2 ^ k)%nat ->
  mul_NTTPoly 12289 nm1 a b = Ok (mod_q (negmul (2 ^ k) a b)) /\
  (NTTFW_stateless 12289 psi_rev_table b = Ok tb ->
   NTT_HALFMUL_stateless 12289 nm1 a tb = Ok (mod_q (negmul (2 ^ k) a b))).
Proof.
  intros k nm1 a b tb Hk Hnm La Lb. pose proof (good_k k nm1 Hk Hnm) as Hg.
  assert (T1 : (2 ^ k <= length psi_rev_table)%nat) by (rewrite (proj1 tables_length); apply pow_le_512; lia).
  assert (T2 : (2 ^ k <= length psi_inv_rev_table)%nat) by (rewrite (proj2 tables_length); apply pow_le_512; lia).
  assert (FW : forall x, length x = (2 ^ k)%nat -> NTTFW_stateless 12289 psi_rev_table x = Ok (nttfw qf psis (2 ^ k) x))
    by (intros x Lx; apply (NTTFW_stateless_ok qf qf_ok psi_rev_table k x Lx T1)).
  pose proof (T_length _ _ _ _ Hg _ eq_refl a La) as LA. pose proof (T_length _ _ _ _ Hg _ eq_refl b Lb) as LB.
  assert (Main : (let! p := ZKNOX_VECMULMOD 12289 (nttfw qf psis (2 ^ k) a) (nttfw qf psis (2 ^ k) b) in NTTINV_stateless 12289 psi_inv_rev_table nm1 p) = Ok (mod_q (negmul (2 ^ k) a b))).
  { rewrite <- (I_mul _ _ _ _ Hg _ eq_refl a b La Lb). apply (stateless_tail qf qf_ok psi_inv_rev_table (2 ^ k) k eq_refl nm1 _ _ LA LB T2). }
  split.
  - unfold mul_NTTPoly. rewrite (FW a La), (FW b Lb). cbn [bind]. exact Main.
  - intros E. rewrite (FW b Lb) in E. assert (Et : tb = nttfw qf psis (2 ^ k) b) by congruence. subst tb.
    unfold NTT_HALFMUL_stateless. rewrite (FW a La). cbn [bind]. exact Main.
Qed.
