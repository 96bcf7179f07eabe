(** Proofs about the compact representation (Compact, falcon_compact, Expand). *)
From Verif Require Import Base KeccakModel NttModel SolModel SolSpec ChachaProofs PolyProofs.

Definition dig (d : Z) := 0 <= d < 65536.
Lemma word16s_range ds : Forall dig ds -> 0 <= word16s ds < 65536 ^ Z.of_nat (length ds).
Proof.
  induction 1 as [|d l Hd _ IH]; [cbn; lia|]. unfold word16s in *. cbn [fold_right length].
  rewrite Nat2Z.inj_succ, Z.pow_succ_r by lia. unfold dig in Hd. lia.
Qed.
Lemma word16s_app a b : word16s (a ++ b) = word16s a + 65536 ^ Z.of_nat (length a) * word16s b.
Proof.
  induction a as [|x a IH]; [cbn [length app]; change (65536 ^ Z.of_nat 0) with 1; unfold word16s at 2; cbn [fold_right]; lia|].
  cbn [app length]. rewrite Nat2Z.inj_succ, Z.pow_succ_r by lia. unfold word16s in *. cbn [fold_right]. rewrite IH. ring.
Qed.
Lemma pow16 j : 65536 ^ Z.of_nat j = 2 ^ (16 * Z.of_nat j).
Proof. change 65536 with (2 ^ 16). rewrite <- Z.pow_mul_r by lia. reflexivity. Qed.
(** digit extraction *)
Lemma word16s_digit ds : Forall dig ds -> forall j, Z.land (Z.shiftr (word16s ds) (16 * Z.of_nat j)) 0xffff = nth j ds 0.
Proof.
  intros F. change 0xffff with (Z.ones 16).
  induction F as [|d l Hd F IH]; intros j.
  - rewrite Z.shiftr_0_l. destruct j; reflexivity.
  - unfold word16s in *. cbn [fold_right]. unfold dig in Hd. destruct j as [|j].
    + change (16 * Z.of_nat 0) with 0. rewrite Z.shiftr_0_r, Z.land_ones by lia. cbn [nth].
      change (2 ^ 16) with 65536. rewrite Z.add_comm, Z.mul_comm, Z_mod_plus_full || rewrite Z.add_comm, Z.mul_comm. 
      rewrite Z.add_comm, Z_mod_plus_full. apply Z.mod_small. lia.
    + cbn [nth]. rewrite <- IH. f_equal. replace (16 * Z.of_nat (S j)) with (16 + 16 * Z.of_nat j) by lia.
      rewrite <- Z.shiftr_shiftr by lia. f_equal. rewrite Z.shiftr_div_pow2 by lia. change (2 ^ 16) with 65536.
      rewrite Z.mul_comm, Z.div_add by lia. rewrite Z.div_small by lia. lia.
Qed.
Lemma testbit_high x k m : 0 <= x < 2 ^ k -> k <= m -> Z.testbit x m = false.
Proof.
  intros Hx Hm. destruct (Z.eq_dec x 0) as [->|Hn]; [apply Z.testbit_0_l|].
  apply Z.bits_above_log2; [lia|]. assert (0 <= k) by (destruct (Z.ltb_spec k 0); [rewrite Z.pow_neg_r in Hx by lia; lia|lia]).
  apply Z.log2_lt_pow2; [lia|]. eapply Z.lt_le_trans; [apply Hx|]. apply Z.pow_le_mono_r; lia.
Qed.
Lemma or_disjoint x d k : 0 <= k -> 0 <= x < 2 ^ k -> Z.lor x (Z.shiftl d k) = x + 2 ^ k * d /\ Z.lxor x (Z.shiftl d k) = x + 2 ^ k * d.
Proof.
  intros Hk Hx. assert (A : Z.land x (Z.shiftl d k) = 0).
  { apply Z.bits_inj'. intros m Hm. rewrite Z.land_spec, Z.bits_0. destruct (Z.lt_ge_cases m k).
    - rewrite Z.shiftl_spec_low by lia. apply andb_false_r.
    - rewrite (testbit_high x k m) by lia. reflexivity. }
  assert (E : Z.shiftl d k = 2 ^ k * d) by (rewrite Z.shiftl_mul_pow2 by lia; ring).
  split; [rewrite <- Z.lxor_lor by exact A|]; rewrite <- Z.add_nocarry_lxor by exact A; lia.
Qed.

Lemma firstn_S_nth (l : list Z) j : (j < length l)%nat -> firstn (S j) l = firstn j l ++ [nth j l 0].
Proof.
  revert j. induction l as [|x l IH]; intros j Hj; cbn [length] in Hj; [lia|].
  destruct j as [|j]; [reflexivity|]. cbn [firstn app nth]. f_equal. apply IH. lia.
Qed.
Lemma nth_firstn_lt (l : list Z) k i : (i < k)%nat -> nth i (firstn k l) 0 = nth i l 0.
Proof.
  revert k i. induction l as [|x l IH]; intros k i H; [now rewrite firstn_nil|]. destruct k; [lia|]. destruct i; cbn [firstn nth]; auto. apply IH. lia.
Qed.
Lemma nth_skipn (l : list Z) k i : nth i (skipn k l) 0 = nth (k + i) l 0.
Proof. revert k. induction l as [|x l IH]; intros k; [rewrite skipn_nil; now destruct i, k|]. destruct k; cbn [skipn Nat.add nth]; auto. Qed.
Lemma Forall_firstn {A} (P : A -> Prop) k l : Forall P l -> Forall P (firstn k l).
Proof. intros F. revert k. induction F; intros [|k]; cbn [firstn]; auto. Qed.
Lemma Forall_skipn {A} (P : A -> Prop) k l : Forall P l -> Forall P (skipn k l).
Proof. intros F. revert k. induction F; intros [|k]; cbn [skipn]; auto. Qed.

Definition blk (l : list Z) (i : nat) : list Z := firstn 16 (skipn (16 * i) l).
Lemma blk_length l i M : length l = (16 * M)%nat -> (i < M)%nat -> length (blk l i) = 16%nat.
Proof. intros L H. unfold blk. rewrite firstn_length, skipn_length. lia. Qed.
Lemma blk_nth l i j : (j < 16)%nat -> nth j (blk l i) 0 = nth (16 * i + j) l 0.
Proof. intros H. unfold blk. rewrite nth_firstn_lt by auto. apply nth_skipn. Qed.

(** the packing loop, for xor and or, and both shifts *)
Definition good_op (op : Z -> Z -> Z) (sh : Z -> Z -> Z) : Prop :=
  forall x d j, (j < 16)%nat -> 0 <= x < 2 ^ (16 * Z.of_nat j) -> dig d ->
    op x (sh (16 * Z.of_nat j) d) = x + 2 ^ (16 * Z.of_nat j) * d.
Lemma good_xor : good_op Z.lxor evm_shl.
Proof.
  intros x d j Hj Hx Hd. unfold evm_shl. rewrite Z.mod_small; [apply or_disjoint; [lia|exact Hx]|].
  rewrite Z.shiftl_mul_pow2 by lia. unfold dig in Hd. unfold two256.
  assert (2 ^ (16 * Z.of_nat j) <= 2 ^ 240) by (apply Z.pow_le_mono_r; lia).
  assert (0 < 2 ^ (16 * Z.of_nat j)) by (apply Z.pow_pos_nonneg; lia).
  change (2 ^ 256) with (65536 * 2 ^ 240). nia.
Qed.
Lemma good_or : good_op Z.lor (fun s x => Z.shiftl x s).
Proof. intros x d j Hj Hx Hd. apply or_disjoint; [lia|exact Hx]. Qed.

Lemma pack_loop op sh a M : good_op op sh -> length a = (16 * M)%nat -> Forall dig a ->
  forall k, (k <= 16 * M)%nat ->
  let b := fold_left (compact_step op sh a) (seq 0 k) (repeat 0 M) in
  length b = M /\ forall r, (r < M)%nat -> nth r b 0 = word16s (firstn (k - 16 * r) (blk a r)).
Proof.
  intros G La Fa. induction k as [|k IH]; intros Hk; cbv zeta.
  - cbn [seq fold_left]. rewrite repeat_length. split; auto. intros r Hr. cbn [Nat.sub firstn]. rewrite nth_repeat. reflexivity.
  - rewrite seq_S, fold_left_app. cbn [fold_left Nat.add].
    set (b := fold_left _ (seq 0 k) _) in *. destruct (IH ltac:(lia)) as [Lb Eb]. fold b in Lb, Eb.
    unfold compact_step. rewrite upd_length. split; auto. intros r Hr.
    pose proof (Nat.div_mod k 16 ltac:(lia)) as D. pose proof (Nat.mod_upper_bound k 16 ltac:(lia)) as U.
    set (qk := (k / 16)%nat) in *. set (rk := (k mod 16)%nat) in *.
    rewrite nth_upd by lia. destruct (Nat.eqb_spec r qk) as [->|Hne].
    + rewrite Eb by lia. replace (k - 16 * qk)%nat with rk by lia. replace (S k - 16 * qk)%nat with (S rk) by lia.
      pose proof (blk_length a qk M La ltac:(lia)) as LB.
      rewrite firstn_S_nth by lia. rewrite word16s_app. rewrite firstn_length_le by lia. rewrite pow16.
      rewrite blk_nth by lia. replace (16 * qk + rk)%nat with k by lia.
      pose proof (word16s_range (firstn rk (blk a qk))) as R.
      rewrite firstn_length_le in R by lia. rewrite pow16 in R.
      rewrite G; [|lia| |].
      * unfold word16s at 3. cbn [fold_right]. ring.
      * apply R. apply Forall_firstn. unfold blk. apply Forall_firstn, Forall_skipn, Fa.
      * rewrite Forall_forall in Fa. apply Fa, nth_In. lia.
    + rewrite Eb by lia. destruct (Nat.lt_ge_cases r qk).
      * rewrite !firstn_all2 by (rewrite (blk_length a r M); lia). reflexivity.
      * replace (S k - 16 * r)%nat with 0%nat by lia. replace (k - 16 * r)%nat with 0%nat by lia. reflexivity.
Qed.
Lemma pack_packed op sh a M : good_op op sh -> length a = (16 * M)%nat -> Forall dig a ->
  packed (fold_left (compact_step op sh a) (seq 0 (16 * M)) (repeat 0 M)) a.
Proof.
  intros G La Fa. destruct (pack_loop op sh a M G La Fa (16 * M) ltac:(lia)) as [L E]. split; [rewrite L; auto|]. split; [exact Fa|].
  intros i Hi. rewrite L in Hi. rewrite E by auto. fold (blk a i). rewrite firstn_all2; auto. rewrite (blk_length a i M); lia.
Qed.
Theorem Compact_packed a : length a = 512%nat -> Forall dig a -> packed (Compact a) a /\ length (Compact a) = 32%nat.
Proof.
  intros L F. pose proof (pack_packed Z.lxor evm_shl a 32 good_xor L F) as P. change (16 * 32)%nat with 512%nat in P. split; [exact P|].
  pose proof (proj1 (pack_loop Z.lxor evm_shl a 32 good_xor L F 512 (le_n _))). exact H.
Qed.
Theorem falcon_compact_packed a : (length a mod 16 = 0)%nat -> Forall dig a -> exists b, falcon_compact a = Ok b /\ packed b a.
Proof.
  intros L F. unfold falcon_compact. rewrite (proj2 (Nat.eqb_eq _ _) L). cbn [negb].
  replace (forallb (fun e => e <? Z.shiftl 1 16) a) with true.
  2:{ symmetry. apply forallb_forall. intros x Hx. rewrite Forall_forall in F. specialize (F x Hx). unfold dig in F. change (Z.shiftl 1 16) with 65536. lia. }
  cbn [negb]. eexists. split; [reflexivity|].
  pose proof (Nat.div_mod (length a) 16 ltac:(lia)) as D. rewrite L, Nat.add_0_r in D.
  pose proof (pack_packed Z.lor (fun s x => Z.shiftl x s) a (length a / 16) good_or D F) as P. rewrite <- D in P. exact P.
Qed.
Lemma packed_unique ws ws' l : packed ws l -> packed ws' l -> ws = ws'.
Proof.
  intros (L & _ & E) (L' & _ & E'). apply list_eq_nth; [lia|]. intros i Hi. rewrite E, E' by lia. reflexivity.
Qed.
Lemma packed_word ws l : packed ws l -> forall i, (i < length ws)%nat -> 0 <= nth i ws 0 < 2 ^ 256.
Proof.
  intros (L & F & E) i Hi. rewrite E by auto. fold (blk l i).
  pose proof (word16s_range (blk l i)) as R. rewrite (blk_length l i (length ws)) in R by auto. apply R.
  apply Forall_firstn, Forall_skipn, F.
Qed.
Lemma Expand_length a : length (Expand a) = 512%nat. Proof. reflexivity. Qed.
Lemma nth_flat_map_const (f : nat -> list Z) w : (forall i, length (f i) = w) -> forall M i j, (i < M)%nat -> (j < w)%nat ->
  nth (w * i + j) (flat_map f (seq 0 M)) 0 = nth j (f i) 0.
Proof.
  intros W M. induction M as [|M IH]; intros i j Hi Hj; [lia|]. rewrite seq_S, flat_map_app. cbn [flat_map Nat.add]. rewrite app_nil_r.
  assert (LM : length (flat_map f (seq 0 M)) = (w * M)%nat).
  { clear - W. induction M; [cbn; lia|]. rewrite seq_S, flat_map_app, app_length, IHM. cbn [flat_map]. rewrite app_nil_r, W. lia. }
  destruct (Nat.eq_dec i M) as [->|].
  - rewrite app_nth2 by lia. rewrite LM. f_equal. lia.
  - rewrite app_nth1 by (rewrite LM; nia). apply IH; lia.
Qed.
Lemma Expand_nth a i j : (i < 32)%nat -> (j < 16)%nat ->
  nth (16 * i + j) (Expand a) 0 = Z.land (Z.shiftr (nth i a 0) (16 * Z.of_nat j)) 0xffff.
Proof.
  intros Hi Hj. unfold Expand. rewrite (nth_flat_map_const _ 16) by (auto; intros; now rewrite map_length, seq_length).
  now rewrite (nth_map_seq (fun j => Z.land (Z.shiftr (nth i a 0) (16 * Z.of_nat j)) 0xffff)).
Qed.
Theorem Expand_packed ws l : length ws = 32%nat -> packed ws l -> Expand ws = l.
Proof.
  intros L32 (L & F & E). rewrite L32 in L. apply list_eq_nth; [rewrite Expand_length; lia|].
  intros p Hp. rewrite Expand_length in Hp. pose proof (Nat.div_mod p 16 ltac:(lia)) as D.
  pose proof (Nat.mod_upper_bound p 16 ltac:(lia)). assert (p / 16 < 32)%nat by (apply Nat.div_lt_upper_bound; lia).
  rewrite D. rewrite Expand_nth by auto. rewrite E by lia. fold (blk l (p / 16)).
  rewrite word16s_digit by (apply Forall_firstn, Forall_skipn, F). apply blk_nth. auto.
Qed.
(** every array of 32 words is the compact form of its expansion *)
Lemma Expand_dig a : Forall dig (Expand a).
Proof.
  unfold Expand. apply Forall_forall. intros x Hx. apply in_flat_map in Hx. destruct Hx as (i & _ & Hx).
  apply in_map_iff in Hx. destruct Hx as (j & <- & _). change 0xffff with (Z.ones 16). rewrite Z.land_ones by lia. apply Z.mod_pos_bound. lia.
Qed.
Lemma word_digits m : forall w, 0 <= w < 2 ^ (16 * Z.of_nat m) ->
  word16s (map (fun j => Z.land (Z.shiftr w (16 * Z.of_nat j)) 0xffff) (seq 0 m)) = w.
Proof.
  change 0xffff with (Z.ones 16). induction m as [|m IH]; intros w Hw; [cbn in *; lia|].
  cbn [seq map]. unfold word16s in *. cbn [fold_right]. change (16 * Z.of_nat 0) with 0. rewrite Z.shiftr_0_r, Z.land_ones by lia.
  rewrite <- seq_shift, map_map. change (2 ^ 16) with 65536.
  replace (2 ^ (16 * Z.of_nat (S m))) with (65536 * 2 ^ (16 * Z.of_nat m)) in Hw
    by (replace (16 * Z.of_nat (S m)) with (16 + 16 * Z.of_nat m) by lia; rewrite Z.pow_add_r by lia; reflexivity).
  specialize (IH (w / 65536) ltac:(split; [apply Z.div_pos; lia|apply Z.div_lt_upper_bound; lia])).
  replace (map (fun x => Z.land (Z.shiftr w (16 * Z.of_nat (S x))) (Z.ones 16)) (seq 0 m))
    with (map (fun j => Z.land (Z.shiftr (w / 65536) (16 * Z.of_nat j)) (Z.ones 16)) (seq 0 m)).
  - rewrite IH. pose proof (Z.div_mod w 65536 ltac:(lia)). lia.
  - apply map_ext. intros j. f_equal. replace (16 * Z.of_nat (S j)) with (16 + 16 * Z.of_nat j) by lia.
    rewrite <- Z.shiftr_shiftr by lia. f_equal. rewrite (Z.shiftr_div_pow2 w 16) by lia. reflexivity.
Qed.
Theorem packed_Expand ws : length ws = 32%nat -> Forall (fun w => 0 <= w < 2 ^ 256) ws -> packed ws (Expand ws).
Proof.
  intros L F. split; [rewrite L; reflexivity|]. split; [apply Expand_dig|]. intros i Hi. rewrite L in Hi. fold (blk (Expand ws) i).
  rewrite <- (word_digits 16 (nth i ws 0)) at 1 by (rewrite Forall_forall in F; apply F, nth_In; lia).
  f_equal. apply list_eq_nth; [rewrite map_length, seq_length; symmetry; apply (blk_length _ _ 32); auto|].
  intros j Hj. rewrite map_length, seq_length in Hj. rewrite blk_nth, Expand_nth by auto.
  now rewrite (nth_map_seq (fun j => Z.land (Z.shiftr (nth i ws 0) (16 * Z.of_nat j)) 0xffff)).
Qed.
Lemma Expand_Compact a : length a = 512%nat -> Forall dig a -> Expand (Compact a) = a.
Proof. intros L F. destruct (Compact_packed a L F). apply Expand_packed; auto. Qed.
Lemma Compact_Expand ws : length ws = 32%nat -> Forall (fun w => 0 <= w < 2 ^ 256) ws -> Compact (Expand ws) = ws.
Proof.
  intros L F. apply (packed_unique _ _ (Expand ws)); [apply Compact_packed; [reflexivity|apply Expand_dig]|apply packed_Expand; auto].
Qed.
