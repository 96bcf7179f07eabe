(** Lists as elements of the ring of Ring.v; karatsuba, karamul, galois_conjugate, field_norm, lift. *)
From Verif Require Import Base KeccakModel HashModel RingSpec Ring NtruModel ChachaProofs.
Require Import Coq.setoid_ring.Ring Setoid Morphisms.

Definition fl (a : list Z) (i : Z) : Z := coef a (Z.to_nat i).
(** coefficients at all integer positions, 0 outside *)
Definition cz (a : list Z) (i : Z) : Z := if i <? 0 then 0 else coef a (Z.to_nat i).

Lemma tab_length n f : length (tab n f) = n.
Proof. unfold tab. now rewrite map_length, seq_length. Qed.
Lemma tab_nth n f i : (i < n)%nat -> nth i (tab n f) 0 = f i.
Proof. intros H. unfold tab. now rewrite nth_map_seq. Qed.
Lemma list_eq_nth (a b : list Z) : length a = length b -> (forall i, (i < length a)%nat -> nth i a 0 = nth i b 0) -> a = b.
Proof. intros L H. apply (nth_ext a b 0 0); auto. Qed.
Lemma coef_over a i : (length a <= i)%nat -> coef a i = 0.
Proof. intros. unfold coef. now apply nth_overflow. Qed.
Lemma cz_neg a i : i < 0 -> cz a i = 0.
Proof. intros. unfold cz. destruct (Z.ltb_spec i 0); lia. Qed.
Lemma cz_over a i : Z.of_nat (length a) <= i -> cz a i = 0.
Proof. intros. unfold cz. destruct (Z.ltb_spec i 0); auto. apply coef_over. lia. Qed.
Lemma cz_nat a i : cz a (Z.of_nat i) = coef a i.
Proof. unfold cz. destruct (Z.ltb_spec (Z.of_nat i) 0); [lia|]. now rewrite Nat2Z.id. Qed.
Lemma cz_in a i : 0 <= i -> cz a i = coef a (Z.to_nat i).
Proof. intros. unfold cz. destruct (Z.ltb_spec i 0); [lia|]. auto. Qed.

(** coefficient k of the product, k any integer; [n] >= length a *)
Definition C (n : nat) (a b : list Z) (k : Z) : Z := sum_to n (fun i => coef a i * cz b (k - Z.of_nat i)).

Lemma C_pcoef n a b k : (length a <= n)%nat -> C n a b (Z.of_nat k) = pcoef a b k.
Proof.
  intros L. unfold C, pcoef.
  assert (E : forall t, (S k <= t)%nat -> sum_to t (fun i => coef a i * cz b (Z.of_nat k - Z.of_nat i)) = sum_to (S k) (fun i => coef a i * coef b (k - i))).
  { intros t Ht. replace t with (S k + (t - S k))%nat by lia. rewrite sum_to_app.
    rewrite (sum_to_0 (t - S k)) by (intros i Hi; rewrite cz_neg by lia; ring).
    rewrite Z.add_0_r. apply sum_to_ext. intros i Hi. rewrite cz_in by lia. do 2 f_equal. lia. }
  rewrite <- (E (Nat.max n (S k))) by lia.
  replace (Nat.max n (S k)) with (n + (Nat.max n (S k) - n))%nat by lia. rewrite sum_to_app.
  rewrite (sum_to_0 (Nat.max n (S k) - n)) by (intros i Hi; rewrite coef_over by lia; ring). ring.
Qed.
Lemma C_out n a b k : length b = n -> (k < 0 \/ 2 * Z.of_nat n - 1 <= k) -> C n a b k = 0.
Proof.
  intros L Hk. apply sum_to_0. intros i Hi. destruct Hk; [rewrite cz_neg by lia|rewrite cz_over by lia]; ring.
Qed.

Lemma negmul_length n a b : length (negmul n a b) = n.
Proof. unfold negmul. now rewrite map_length, seq_length. Qed.
Lemma negmul_C n a b i : (i < n)%nat -> (length a <= n)%nat ->
  coef (negmul n a b) i = C n a b (Z.of_nat i) - C n a b (Z.of_nat (i + n)).
Proof. intros H L. unfold negmul, coef. rewrite nth_map_seq by auto. now rewrite !C_pcoef. Qed.

Lemma fl_negmul n a b k : (length a <= n)%nat -> (length b <= n)%nat -> 0 <= k < Z.of_nat n ->
  fl (negmul n a b) k = rmul n (fl a) (fl b) k.
Proof.
  intros La Lb Hk. unfold fl at 1. rewrite negmul_C by lia. unfold C, rmul, sumz. rewrite <- sum_to_sub.
  apply sum_to_ext. intros i Hi. rewrite (ext_in n ltac:(lia) (fl a)) by lia. unfold fl at 1. rewrite Nat2Z.id.
  rewrite <- Z.mul_sub_distr_l. f_equal. rewrite Nat2Z.inj_add, Z2Nat.id by lia.
  destruct (Z_le_gt_dec (Z.of_nat i) k).
  - rewrite (ext_in n ltac:(lia) (fl b)) by lia. unfold fl. rewrite cz_in by lia.
    rewrite (cz_over b) by lia. ring.
  - replace (k - Z.of_nat i) with ((k + Z.of_nat n - Z.of_nat i) - Z.of_nat n) at 2 by lia.
    rewrite (ext_negm n ltac:(lia) (fl b)). rewrite (ext_in n ltac:(lia) (fl b)) by lia. rewrite cz_neg by lia.
    unfold fl. rewrite cz_in by lia. ring.
Qed.

(** ** folds of additive updates *)
Lemma add_at_length l i v : length (add_at l i v) = length l.
Proof. apply upd_length. Qed.
Lemma nth_add_at l i v j : (i < length l)%nat -> nth j (add_at l i v) 0 = nth j l 0 + if (j =? i)%nat then v else 0.
Proof. intros H. unfold add_at. rewrite nth_upd by auto. destruct (Nat.eqb_spec j i); subst; lia. Qed.
Section Fold.
Variable step : list Z -> nat -> list Z.
Variable L : nat.
Variable d : nat -> nat -> Z.
Variable n : nat.
Hypothesis step_len : forall l i, length l = L -> length (step l i) = L.
Hypothesis step_nth : forall l i j, length l = L -> (i < n)%nat -> nth j (step l i) 0 = nth j l 0 + d i j.
Lemma fold_add_spec l : length l = L -> length (fold_left step (seq 0 n) l) = L /\
  forall j, nth j (fold_left step (seq 0 n) l) 0 = nth j l 0 + sum_to n (fun i => d i j).
Proof.
  intros Hl. assert (G : forall k s l, length l = L -> (s + k <= n)%nat -> length (fold_left step (seq s k) l) = L /\
     forall j, nth j (fold_left step (seq s k) l) 0 = nth j l 0 + sum_to k (fun i => d (s + i)%nat j)).
  { induction k as [|k IH]; intros s l0 H0 Hs; [split; [exact H0|intros; cbn; ring]|].
    cbn [seq fold_left]. destruct (IH (S s) (step l0 s)) as [I1 I2]; [auto|lia|]. split; [exact I1|].
    intros j. rewrite I2, step_nth by (auto; lia). rewrite sum_to_shift. rewrite Nat.add_0_r, Z.add_assoc. f_equal.
    apply sum_to_ext. intros i _. f_equal. lia. }
  apply (G n 0%nat l Hl). lia.
Qed.
End Fold.

Lemma sum_delta n f c j : sum_to n (fun i => if (j =? i + c)%nat then f i else 0) =
  if ((c <=? j) && (j <? c + n))%nat then f (j - c)%nat else 0.
Proof.
  destruct (Nat.leb_spec c j); cbn [andb].
  - destruct (Nat.ltb_spec j (c + n)).
    + rewrite (sum_to_single n _ (j - c)%nat) by (try lia; intros i Hi Hn; destruct (Nat.eqb_spec j (i + c)); lia).
      destruct (Nat.eqb_spec j (j - c + c)); [reflexivity|lia].
    + apply sum_to_0. intros i Hi. destruct (Nat.eqb_spec j (i + c)); lia.
  - apply sum_to_0. intros i Hi. destruct (Nat.eqb_spec j (i + c)); lia.
Qed.
Lemma sum_delta0 n f j : sum_to n (fun i => if (j =? i)%nat then f i else 0) = if (j <? n)%nat then f j else 0.
Proof.
  pose proof (sum_delta n f 0 j) as E. cbn [Nat.leb andb plus] in E. rewrite Nat.sub_0_r in E. rewrite <- E.
  apply sum_to_ext. intros i _. now rewrite Nat.add_0_r.
Qed.

(** ** karatsuba *)
Lemma coef_app_l a b i : (i < length a)%nat -> coef (a ++ b) i = coef a i.
Proof. intros. unfold coef. now apply app_nth1. Qed.
Lemma coef_app_r a b i : coef (a ++ b) (length a + i) = coef b i.
Proof. unfold coef. rewrite app_nth2 by lia. f_equal. lia. Qed.
Lemma cz_app a b i : cz (a ++ b) i = cz a i + cz b (i - Z.of_nat (length a)).
Proof.
  destruct (Z_lt_ge_dec i 0); [rewrite !cz_neg by lia; ring|].
  destruct (Z_lt_ge_dec i (Z.of_nat (length a))).
  - rewrite (cz_neg b) by lia. rewrite !cz_in by lia. rewrite coef_app_l by lia. ring.
  - rewrite (cz_over a) by lia. rewrite !cz_in by lia.
    replace (Z.to_nat i) with (length a + Z.to_nat (i - Z.of_nat (length a)))%nat by lia. rewrite coef_app_r. ring.
Qed.
Lemma C_split h a0 a1 b0 b1 k : length a0 = h -> length a1 = h -> length b0 = h -> length b1 = h ->
  C (2 * h) (a0 ++ a1) (b0 ++ b1) k =
  C h a0 b0 k + C h a0 b1 (k - Z.of_nat h) + C h a1 b0 (k - Z.of_nat h) + C h a1 b1 (k - 2 * Z.of_nat h).
Proof.
  intros A0 A1 B0 B1. unfold C. replace (2 * h)%nat with (h + h)%nat by lia. rewrite sum_to_app.
  rewrite <- !sum_to_add. apply sum_to_ext; intros i Hi.
  rewrite coef_app_l by lia. replace (coef (a0 ++ a1) (h + i)) with (coef a1 i) by (rewrite <- A0, coef_app_r; reflexivity). rewrite !cz_app, B0.
  replace (k - Z.of_nat i - Z.of_nat h) with (k - Z.of_nat h - Z.of_nat i) by lia.
  replace (k - Z.of_nat (h + i)) with (k - Z.of_nat h - Z.of_nat i) by lia.
  replace (k - Z.of_nat h - Z.of_nat i - Z.of_nat h) with (k - 2 * Z.of_nat h - Z.of_nat i) by lia. ring.
Qed.
Lemma cz_tab_add h a b i : length a = h -> length b = h -> cz (tab h (fun i => nth i a 0 + nth i b 0)) i = cz a i + cz b i.
Proof.
  intros A B. destruct (Z_lt_ge_dec i 0); [rewrite !cz_neg by lia; ring|].
  destruct (Z_lt_ge_dec i (Z.of_nat h)).
  - rewrite !cz_in by lia. unfold coef. now rewrite tab_nth by lia.
  - rewrite !cz_over; try lia. rewrite tab_length. lia.
Qed.
Lemma C_cross h a0 a1 b0 b1 k : length a0 = h -> length a1 = h -> length b0 = h -> length b1 = h ->
  C h (tab h (fun i => nth i a0 0 + nth i a1 0)) (tab h (fun i => nth i b0 0 + nth i b1 0)) k =
  C h a0 b0 k + C h a0 b1 k + C h a1 b0 k + C h a1 b1 k.
Proof.
  intros A0 A1 B0 B1. unfold C. rewrite <- !sum_to_add. apply sum_to_ext. intros i Hi.
  rewrite cz_tab_add by auto. unfold coef. rewrite tab_nth by auto. ring.
Qed.

Lemma karatsuba_spec : forall k fuel a b, (k <= fuel)%nat -> length a = (2 ^ k)%nat -> length b = (2 ^ k)%nat ->
  length (karatsuba fuel a b (2 ^ k)) = (2 * 2 ^ k)%nat /\
  forall j, (j < 2 * 2 ^ k)%nat -> nth j (karatsuba fuel a b (2 ^ k)) 0 = C (2 ^ k) a b (Z.of_nat j).
Proof.
  induction k as [|k IH]; intros fuel a b Hf La Lb.
  - assert (E : karatsuba fuel a b (2 ^ 0) = [nth 0 a 0 * nth 0 b 0; 0]) by (destruct fuel; reflexivity).
    rewrite E. split; [reflexivity|]. intros j Hj. change (2 ^ 0)%nat with 1%nat in *. unfold C. cbn [sum_to].
    destruct j as [|[|j]]; [| |lia].
    + cbn [nth]. change (Z.of_nat 0 - Z.of_nat 0) with 0. rewrite cz_in by lia. change (Z.to_nat 0) with 0%nat. unfold coef. ring.
    + rewrite cz_over by (rewrite Lb; lia). cbn [nth]. ring.
  - destruct fuel as [|fuel]; [lia|]. set (h := (2 ^ k)%nat) in *.
    assert (Hh : (1 <= h)%nat) by (unfold h; apply Nat.neq_0_lt_0, Nat.pow_nonzero; lia).
    assert (E2 : (2 ^ S k = 2 * h)%nat) by reflexivity. rewrite E2 in *.
    cbn [karatsuba]. destruct (Nat.eqb_spec (2 * h) 1); [lia|].
    replace (2 * h / 2)%nat with h by (rewrite Nat.mul_comm, Nat.div_mul; lia).
    set (a0 := firstn h a). set (a1 := skipn h a). set (b0 := firstn h b). set (b1 := skipn h b).
    assert (A0 : length a0 = h) by (unfold a0; rewrite firstn_length; lia).
    assert (A1 : length a1 = h) by (unfold a1; rewrite skipn_length; lia).
    assert (B0 : length b0 = h) by (unfold b0; rewrite firstn_length; lia).
    assert (B1 : length b1 = h) by (unfold b1; rewrite skipn_length; lia).
    set (ax := tab h (fun i => nth i a0 0 + nth i a1 0)). set (bx := tab h (fun i => nth i b0 0 + nth i b1 0)).
    destruct (IH fuel a0 b0) as [L00 N00]; [lia|auto|auto|]. destruct (IH fuel a1 b1) as [L11 N11]; [lia|auto|auto|].
    destruct (IH fuel ax bx) as [Lx Nx]; [lia|apply tab_length|apply tab_length|].
    set (p00 := karatsuba fuel a0 b0 h) in *. set (p11 := karatsuba fuel a1 b1 h) in *. set (px := karatsuba fuel ax bx h) in *.
    destruct (fold_add_spec (fun l i => add_at l i (- (nth i p00 0 + nth i p11 0))) (2 * h)
       (fun i j => if (j =? i)%nat then - (nth i p00 0 + nth i p11 0) else 0) (2 * h)) with (l := px) as [Lm Nm];
      [intros; now rewrite add_at_length|intros; apply nth_add_at; lia|exact Lx|].
    set (pm := fold_left _ (seq 0 (2 * h)) px) in *.
    destruct (fold_add_spec (fun ab i => add_at (add_at (add_at ab i (nth i p00 0)) (i + 2 * h) (nth i p11 0)) (i + h) (nth i pm 0)) (2 * (2 * h))
       (fun i j => (if (j =? i)%nat then nth i p00 0 else 0) + (if (j =? i + 2 * h)%nat then nth i p11 0 else 0) + (if (j =? i + h)%nat then nth i pm 0 else 0)) (2 * h))
       with (l := repeat 0 (2 * (2 * h))) as [Lr Nr];
      [intros; now rewrite !add_at_length|intros; rewrite !nth_add_at by (rewrite ?add_at_length; lia); ring|apply repeat_length|].
    split; [exact Lr|]. intros j Hj. rewrite Nr. rewrite nth_repeat, !sum_to_add, !sum_delta, sum_delta0.
    assert (Eab : C (2 * h) a b (Z.of_nat j) = C (2 * h) (a0 ++ a1) (b0 ++ b1) (Z.of_nat j)).
    { unfold a0, a1, b0, b1. now rewrite !firstn_skipn. }
    rewrite Eab, C_split by auto.
    assert (Ex : forall t, (t < 2 * h)%nat -> nth t pm 0 = C h a0 b1 (Z.of_nat t) + C h a1 b0 (Z.of_nat t)).
    { intros t Ht. rewrite Nm, sum_delta0. destruct (Nat.ltb_spec t (2 * h)); [|lia].
      rewrite Nx, N00, N11 by lia. unfold ax, bx. rewrite C_cross by auto. ring. }
    assert (T1 : (if (j <? 2 * h)%nat then nth j p00 0 else 0) = C h a0 b0 (Z.of_nat j)).
    { destruct (Nat.ltb_spec j (2 * h)); [apply N00; lia|symmetry; apply C_out; [exact B0|lia]]. }
    assert (T2 : (if ((2 * h <=? j) && (j <? 2 * h + 2 * h))%nat then nth (j - 2 * h) p11 0 else 0) = C h a1 b1 (Z.of_nat j - 2 * Z.of_nat h)).
    { destruct (Nat.leb_spec (2 * h) j); cbn [andb].
      - destruct (Nat.ltb_spec j (2 * h + 2 * h)); [|lia]. rewrite N11 by lia. f_equal. lia.
      - symmetry; apply C_out; [exact B1|lia]. }
    assert (T3 : (if ((h <=? j) && (j <? h + 2 * h))%nat then nth (j - h) pm 0 else 0) =
                 C h a0 b1 (Z.of_nat j - Z.of_nat h) + C h a1 b0 (Z.of_nat j - Z.of_nat h)).
    { destruct (Nat.leb_spec h j); cbn [andb].
      - destruct (Nat.ltb_spec j (h + 2 * h)).
        + rewrite Ex by lia. replace (Z.of_nat (j - h)) with (Z.of_nat j - Z.of_nat h) by lia. reflexivity.
        + rewrite !C_out by (auto; lia). reflexivity.
      - rewrite !C_out by (auto; lia). reflexivity. }
    rewrite T1, T2, T3. ring.
Qed.

Lemma pow2_gt k : (k < 2 ^ k)%nat.
Proof. apply Nat.pow_gt_lin_r. lia. Qed.

Theorem karamul_spec k a b : length a = (2 ^ k)%nat -> length b = (2 ^ k)%nat -> karamul a b = negmul (2 ^ k) a b.
Proof.
  intros La Lb. unfold karamul. rewrite La. pose proof (pow2_gt k) as Hk.
  destruct (karatsuba_spec k (2 ^ k) a b) as [L N]; [lia|auto|auto|].
  apply list_eq_nth; [now rewrite tab_length, negmul_length|]. rewrite tab_length. intros i Hi.
  rewrite tab_nth by auto. rewrite !N by lia. change (nth i (negmul (2 ^ k) a b) 0) with (coef (negmul (2 ^ k) a b) i).
  rewrite negmul_C by lia. reflexivity.
Qed.
