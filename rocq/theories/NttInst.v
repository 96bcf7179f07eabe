(** The concrete tables satisfy the hypotheses of NttProofs.v; the three Solidity versions agree. *)
From Verif Require Import Base KeccakModel ChachaProofs RingSpec Ring NtruModel PolyProofs NttTables NttModel NttProofs.

Lemma qf_ok : 1 < qf < two256. Proof. unfold qf, two256. lia. Qed.

(** boolean check of the tables, by computation *)
Definition tree_b (psi psii : nat -> Z) (r : nat) : bool :=
  ((psi r * psi r) mod qf =? zz psi r mod qf) && ((psi r * psii r) mod qf =? 1).
Lemma tree_b_ok psi psii n : forallb (tree_b psi psii) (seq 1 n) = true ->
  forall r, (1 <= r < S n)%nat -> cgm qf (psi r * psi r) (zz psi r) /\ cgm qf (psi r * psii r) 1.
Proof.
  intros H r Hr. rewrite forallb_forall in H. specialize (H r ltac:(apply in_seq; lia)). unfold tree_b in H.
  apply andb_prop in H. destruct H as [H1 H2]. apply Z.eqb_eq in H1. apply Z.eqb_eq in H2. split; constructor; auto.
Qed.
Definition psiv := packed_at packed_psirev.
Definition psiiv := packed_at packed_psiinvrev.
Definition psis (i : nat) : Z := nth i psi_rev_table 0.
Definition psiis (i : nat) : Z := nth i psi_inv_rev_table 0.
Lemma packed_tables : forall r, (1 <= r < 512)%nat -> cgm qf (psiv r * psiv r) (zz psiv r) /\ cgm qf (psiv r * psiiv r) 1.
Proof. apply (tree_b_ok psiv psiiv 511). vm_cast_no_check (eq_refl true). Qed.
Lemma flat_tables : forall r, (1 <= r < 512)%nat -> cgm qf (psis r * psis r) (zz psis r) /\ cgm qf (psis r * psiis r) 1.
Proof. apply (tree_b_ok psis psiis 511). vm_cast_no_check (eq_refl true). Qed.
Lemma same_tables : forall i, (i < 512)%nat -> psiv i = psis i /\ psiiv i = psiis i.
Proof.
  assert (H : forallb (fun i => (psiv i =? psis i) && (psiiv i =? psiis i)) (seq 0 512) = true) by (vm_cast_no_check (eq_refl true)).
  intros i Hi. rewrite forallb_forall in H. specialize (H i ltac:(apply in_seq; lia)). lia.
Qed.
Lemma deploy_tables : deploy_psi_rev = psi_rev_table /\ deploy_psi_inv_rev = psi_inv_rev_table.
Proof. split; reflexivity. Qed.
Lemma tables_length : length psi_rev_table = 512%nat /\ length psi_inv_rev_table = 512%nat.
Proof. split; reflexivity. Qed.
Lemma nm1_512 : cgm qf (Z.of_nat (2 ^ 9) * nm1modq) 1. Proof. constructor. reflexivity. Qed.

(** * The transforms only read the table at indices 1..n-1 *)
Lemma fold_left_ext {A B} (f g : A -> B -> A) l : (forall a b, In b l -> f a b = g a b) -> forall a, fold_left f l a = fold_left g l a.
Proof. induction l as [|b l IH]; intros H a; cbn [fold_left]; auto. rewrite H by (left; auto). apply IH. intros; apply H; right; auto. Qed.
Lemma fw_loop_table Q psi psi' fuel : forall t m n a, (forall i, (i < 2 * n)%nat -> (i < n)%nat -> psi i = psi' i) ->
  (exists d, n = (m * 2 ^ d)%nat) -> fw_loop Q psi fuel t m n a = fw_loop Q psi' fuel t m n a.
Proof.
  induction fuel as [|fuel IH]; intros t m n a H (d & Hn); auto. cbn [fw_loop]. destruct (Nat.ltb_spec m n); auto. cbv zeta.
  destruct d as [|d]; [cbn in Hn; lia|]. rewrite Nat.pow_succ_r' in Hn. pose proof (pow_pos d).
  replace (fw_layer Q psi m (t / 2) a) with (fw_layer Q psi' m (t / 2) a).
  - apply IH; auto. exists d. lia.
  - unfold fw_layer. apply fold_left_ext. intros a' i Hi. apply in_seq in Hi. unfold fw_group. rewrite H by nia. reflexivity.
Qed.
Lemma inv_loop_table Q psi psi' n fuel : forall t d a, (forall i, (i < n)%nat -> psi i = psi' i) ->
  (2 ^ d <= n)%nat -> inv_loop Q psi fuel t (2 ^ d) a = inv_loop Q psi' fuel t (2 ^ d) a.
Proof.
  induction fuel as [|fuel IH]; intros t d a H Hn; auto. cbn [inv_loop]. destruct (Nat.ltb_spec 1 (2 ^ d)); auto. cbv zeta.
  destruct d as [|d]; [cbn in *; lia|]. rewrite half_pow. rewrite Nat.pow_succ_r' in Hn. pose proof (pow_pos d).
  replace (inv_layer Q psi (2 ^ d) t a) with (inv_layer Q psi' (2 ^ d) t a).
  - apply IH; auto. lia.
  - unfold inv_layer. apply fold_left_ext. intros a' i Hi. apply in_seq in Hi. unfold inv_group. rewrite H by nia. reflexivity.
Qed.
Lemma vectorized_flat a : NTTFW_vectorized a = nttfw qf psis 512 a.
Proof.
  unfold NTTFW_vectorized, nttfw, nf. apply fw_loop_table; [intros i _ Hi; apply same_tables; auto|exists 9%nat; reflexivity].
Qed.
Lemma vectorized_inv_flat a : NTTINV_vectorized a = nttinv qf psiis nm1modq 512 a.
Proof.
  pose proof (inv_loop_table qf psiiv psiis 512 512 1 9 a (fun i Hi => proj2 (same_tables i Hi)) (le_n 512)) as E.
  replace (2 ^ 9)%nat with 512%nat in E by reflexivity.
  unfold NTTINV_vectorized, nttinv, nf. rewrite <- E. reflexivity.
Qed.

(** * The stateless (checked) version *)
Lemma rd_ok a i : (i < length a)%nat -> rd a i = Ok (nth i a 0).
Proof. intros H. unfold rd. rewrite (nth_error_nth' a 0 H). reflexivity. Qed.
Lemma wr_ok a i v : (i < length a)%nat -> wr a i v = Ok (upd a i v).
Proof. intros H. unfold wr. destruct (Nat.ltb_spec i (length a)); [auto|lia]. Qed.
Lemma rfold_ok {A B} (f : A -> B -> res A) (g : A -> B -> A) (P : A -> Prop) l :
  (forall a b, In b l -> P a -> f a b = Ok (g a b) /\ P (g a b)) -> forall a, P a -> rfold f l a = Ok (fold_left g l a) /\ P (fold_left g l a).
Proof.
  induction l as [|b l IH]; intros H a Ha; cbn [rfold fold_left]; auto.
  destruct (H a b ltac:(left; auto) Ha) as [E Ha']. rewrite E. cbn [bind]. apply IH; auto. intros; apply H; auto. right; auto.
Qed.
Lemma upd_comm (a : list Z) i j v w : (i < length a)%nat -> (j < length a)%nat -> i <> j -> upd (upd a i v) j w = upd (upd a j w) i v.
Proof.
  intros Hi Hj Hn. apply list_eq_nth; [now rewrite !upd_length|]. intros p _. rewrite !nth_upd by (rewrite ?upd_length; auto).
  destruct (Nat.eqb_spec p j), (Nat.eqb_spec p i); auto. lia.
Qed.
Section S.
Variable Q : Z.
Hypothesis HQ : 1 < Q < two256.
Variable tbl : list Z.
Let psi (i : nat) : Z := nth i tbl 0.
Lemma sfw_step_ok w t a j : (0 < t)%nat -> (j + t < length a)%nat -> sfw_step Q w t a j = Ok (fw_step Q w t a j).
Proof.
  intros Ht Hj. unfold sfw_step, fw_step. rewrite !rd_ok by lia. cbn [bind]. rewrite wr_ok by lia. cbn [bind].
  unfold csub. pose proof (modQ Q HQ (nth (j + t) a 0 * w)) as HV.
  destruct (Z.ltb_spec Q ((nth (j + t) a 0 * w) mod Q)); [lia|]. cbn [bind]. rewrite wr_ok by (rewrite upd_length; lia).
  rewrite wrap_sub by (auto; lia). rewrite upd_comm by lia. reflexivity.
Qed.
Lemma fw_step_length w t a j : length (fw_step Q w t a j) = length a.
Proof. unfold fw_step. now rewrite !upd_length. Qed.
Lemma sfw_layer_ok m t a : (0 < t)%nat -> (2 * (m * t) = length a)%nat -> (2 * m <= length tbl)%nat ->
  rfold (sfw_group Q tbl m t) (seq 0 m) a = Ok (fw_layer Q psi m t a).
Proof.
  intros Ht Hl Hm. refine (proj1 (rfold_ok _ (fw_group Q psi m t) (fun x => length x = length a) _ _ a eq_refl)).
  intros a' i Hi La. apply in_seq in Hi. unfold sfw_group, fw_group.
  destruct (Nat.eqb_spec (2 * (i * t) + t) 0); [lia|]. rewrite rd_ok by lia. cbn [bind].
  apply (rfold_ok _ (fw_step Q (psi (m + i)%nat) t) (fun x => length x = length a)); auto.
  intros a'' j Hj La'. apply in_seq in Hj. split; [apply sfw_step_ok; auto; nia|now rewrite fw_step_length].
Qed.
Lemma sfw_loop_ok d : forall fuel m n a, (m * 2 ^ d = n)%nat -> (1 <= m)%nat -> length a = n -> (d <= fuel)%nat -> (n <= length tbl)%nat ->
  sfw_loop Q tbl fuel (2 ^ d) m n a = Ok (fw_loop Q psi fuel (2 ^ d) m n a).
Proof.
  induction d as [|d IH]; intros fuel m n a Hn Hm La Hf Ht.
  - change (2 ^ 0)%nat with 1%nat in *. destruct fuel; auto. cbn [sfw_loop fw_loop]. destruct (Nat.ltb_spec m n); [lia|auto].
  - destruct fuel as [|fuel]; [lia|]. cbn [sfw_loop fw_loop]. destruct (Nat.ltb_spec m n); auto. cbv zeta. rewrite half_pow.
    destruct (layer_size n d m Hn) as [H1 H2]. pose proof (pow_pos d).
    rewrite sfw_layer_ok by nia. cbn [bind]. apply IH; auto; try lia. now rewrite fw_layer_length.
Qed.
Theorem NTTFW_stateless_ok k a : length a = (2 ^ k)%nat -> (2 ^ k <= length tbl)%nat ->
  NTTFW_stateless Q tbl a = Ok (nttfw Q psi (2 ^ k) a).
Proof.
  intros La Ht. unfold NTTFW_stateless, nttfw. rewrite La. apply sfw_loop_ok; auto; try lia. pose proof (pow2_gt k). lia.
Qed.
Definition leQ (a : list Z) : Prop := forall p, (p < length a)%nat -> 0 <= nth p a 0 <= Q.
Lemma sinv_step_ok w t a j : (0 < t)%nat -> (j + t < length a)%nat -> leQ a ->
  sinv_step Q w t a j = Ok (inv_step Q w t a j) /\ length (inv_step Q w t a j) = length a /\ leQ (inv_step Q w t a j).
Proof.
  intros Ht Hj Hc. unfold sinv_step, inv_step. rewrite !rd_ok by lia. cbn [bind]. rewrite wr_ok by lia. cbn [bind].
  unfold csub. pose proof (Hc (j + t)%nat ltac:(lia)) as HV.
  destruct (Z.ltb_spec Q (nth (j + t) a 0)); [lia|]. cbn [bind]. rewrite wr_ok by (rewrite upd_length; lia).
  rewrite wrap_sub by (auto; lia). rewrite upd_comm by lia. split; [reflexivity|]. split; [now rewrite !upd_length|].
  intros p Hp. rewrite !upd_length in Hp. rewrite !nth_upd by (rewrite ?upd_length; lia).
  destruct (Nat.eqb_spec p j); [pose proof (modQ Q HQ (nth j a 0 + nth (j + t) a 0)); lia|].
  destruct (Nat.eqb_spec p (j + t)); [pose proof (modQ Q HQ ((nth j a 0 + (Q - nth (j + t) a 0)) mod Q * w)); lia|]. auto.
Qed.
Lemma sinv_layer_ok h t a : (0 < t)%nat -> (2 * (h * t) = length a)%nat -> (2 * h <= length tbl)%nat -> leQ a ->
  rfold (sinv_group Q tbl h t) (seq 0 h) a = Ok (inv_layer Q psi h t a) /\
  (length (inv_layer Q psi h t a) = length a /\ leQ (inv_layer Q psi h t a)).
Proof.
  intros Ht Hl Hm Hc. apply (rfold_ok _ (inv_group Q psi h t) (fun x => length x = length a /\ leQ x)); auto.
  intros a' i Hi [La Hc']. apply in_seq in Hi. unfold sinv_group, inv_group. rewrite rd_ok by lia. cbn [bind].
  apply (rfold_ok _ (inv_step Q (psi (h + i)%nat) t) (fun x => length x = length a /\ leQ x)); auto.
  intros a'' j Hj [La'' Hc'']. apply in_seq in Hj. destruct (sinv_step_ok (psi (h + i)%nat) t a'' j Ht) as (E & L & C); auto; [nia|].
  split; auto. split; [congruence|auto].
Qed.
Lemma sinv_loop_ok d : forall fuel t n a, (2 ^ d * t = n)%nat -> (1 <= t)%nat -> length a = n -> (d <= fuel)%nat -> (n <= length tbl)%nat -> leQ a ->
  sinv_loop Q tbl fuel t (2 ^ d) a = Ok (inv_loop Q psi fuel t (2 ^ d) a).
Proof.
  induction d as [|d IH]; intros fuel t n a Hn Ht La Hf Hb Hc.
  - change (2 ^ 0)%nat with 1%nat in *. destruct fuel; auto.
  - destruct fuel as [|fuel]; [lia|]. cbn [sinv_loop inv_loop]. pose proof (pow_pos d).
    destruct (Nat.ltb_spec 1 (2 ^ S d)); [|auto]. cbv zeta. rewrite half_pow. rewrite Nat.pow_succ_r' in Hn.
    assert (Hn' : (2 ^ d * (2 * t) = n)%nat) by lia.
    destruct (sinv_layer_ok (2 ^ d) t a) as (E & L & C); auto; try nia. rewrite E. cbn [bind]. apply (IH fuel (2 * t)%nat n); auto; lia.
Qed.
Theorem NTTINV_stateless_ok k nm1 a : length a = (2 ^ k)%nat -> (2 ^ k <= length tbl)%nat -> leQ a ->
  NTTINV_stateless Q tbl nm1 a = Ok (nttinv Q psi nm1 (2 ^ k) a).
Proof.
  intros La Ht Hc. unfold NTTINV_stateless, nttinv. rewrite La.
  rewrite (sinv_loop_ok k (2 ^ k) 1 (2 ^ k)); auto; try lia. pose proof (pow2_gt k). lia.
Qed.
End S.
Lemma vop_ok f (g : Z -> Z -> Z) : forall a b, length a = length b -> (forall i, (i < length a)%nat -> f (nth i a 0) (nth i b 0) = Ok (g (nth i a 0) (nth i b 0))) ->
  vop f a b = Ok (map (fun i => g (nth i a 0) (nth i b 0)) (seq 0 (length a))).
Proof.
  induction a as [|x a IH]; intros [|y b] L H; try discriminate; auto.
  change (vop f (x :: a) (y :: b)) with (let! z := f x y in let! r := vop f a b in Ok (z :: r)).
  pose proof (H 0%nat ltac:(cbn; lia)) as H0. cbn [nth] in H0. rewrite H0. cbn [bind]. rewrite IH.
  - cbn [bind length seq map nth]. f_equal. f_equal. rewrite <- seq_shift, map_map. reflexivity.
  - cbn in L. lia.
  - intros i Hi. apply (H (S i)). cbn. lia.
Qed.
Lemma vop_len f : forall a b, length a <> length b -> (forall x y, exists z, f x y = Ok z \/ f x y = Raise Revert) -> vop f a b = Raise Revert.
Proof.
  induction a as [|x a IH]; intros [|y b] L H; try (now cbn in L); try reflexivity.
  change (vop f (x :: a) (y :: b)) with (let! z := f x y in let! r := vop f a b in Ok (z :: r)).
  destruct (H x y) as (z & [E|E]); rewrite E; cbn [bind]; auto. rewrite IH; auto; try (cbn in L; lia).
Qed.
