(** ntrugen.py: norms, lifts, xgcd, reduce, ntru_solve. *)
From Verif Require Import Base KeccakModel HashModel RingSpec Ring NtruModel ChachaProofs PolyProofs.
Require Import Coq.setoid_ring.Ring Setoid Morphisms.

Lemma req0_iff n A B : req n 0 A B <-> forall i, 0 <= i < Z.of_nat n -> A i = B i.
Proof.
  split; intros H i Hi; specialize (H i Hi).
  - apply Z.divide_0_l in H. lia.
  - rewrite H, Z.sub_diag. apply Z.divide_0_r.
Qed.
Lemma list_eq_req n a b : length a = n -> length b = n -> req n 0 (fl a) (fl b) -> a = b.
Proof.
  intros La Lb H. apply list_eq_nth; [congruence|]. intros i Hi.
  pose proof (proj1 (req0_iff _ _ _) H (Z.of_nat i) ltac:(lia)) as E. unfold fl, coef in E. now rewrite !Nat2Z.id in E.
Qed.
Lemma fl_mul_req n m a b : (length a <= n)%nat -> (length b <= n)%nat -> req n m (fl (negmul n a b)) (rmul n (fl a) (fl b)).
Proof. intros. apply req_eq. intros i Hi. now apply fl_negmul. Qed.
Lemma fl_tab n f i : 0 <= i < Z.of_nat n -> fl (tab n f) i = f (Z.to_nat i).
Proof. intros. unfold fl, coef. apply tab_nth. lia. Qed.
Lemma fl_pconst n m c : (0 < n)%nat -> req n m (fl (pconst n c)) (rc c).
Proof.
  intros Hn. apply req_eq. intros i Hi. unfold fl, coef, pconst, rc. destruct (Z.eqb_spec i 0) as [->|].
  - reflexivity.
  - destruct (Z.to_nat i) as [|t] eqn:E; [lia|]. cbn [nth]. apply nth_repeat.
Qed.
Lemma psub_req n m a b : req n m (fl (psub n a b)) (rsub (fl a) (fl b)).
Proof. apply req_eq. intros i Hi. unfold psub, rsub. unfold fl at 1, coef at 1. rewrite nth_map_seq by lia. reflexivity. Qed.
Lemma padd_req n m a b : req n m (fl (padd n a b)) (radd (fl a) (fl b)).
Proof. apply req_eq. intros i Hi. unfold padd, radd. unfold fl at 1, coef at 1. rewrite nth_map_seq by lia. reflexivity. Qed.
Lemma psub_length n a b : length (psub n a b) = n.
Proof. unfold psub. now rewrite map_length, seq_length. Qed.
Lemma padd_length n a b : length (padd n a b) = n.
Proof. unfold padd. now rewrite map_length, seq_length. Qed.
Lemma pconst_length n c : (0 < n)%nat -> length (pconst n c) = n.
Proof. intros. unfold pconst. cbn [length]. rewrite repeat_length. lia. Qed.

(** ** multiplication by x *)
Definition sh (n : nat) (A : Z -> Z) (k : Z) : Z := ext n A (k - 1).
Lemma ext_sh n A k : (0 < n)%nat -> ext n (sh n A) k = ext n A (k - 1).
Proof.
  intros Hn. symmetry. apply (ext_unique n Hn (sh n A) (fun k => ext n A (k - 1))); [|reflexivity].
  intros i. replace (i + Z.of_nat n - 1) with (i - 1 + Z.of_nat n) by lia. now apply ext_neg.
Qed.
Lemma rmul_sh n A B k : (0 < n)%nat -> rmul n (sh n A) B k = sh n (rmul n A B) k.
Proof.
  intros Hn. unfold sh at 2. rewrite ext_mul by auto. unfold rmul.
  rewrite <- (window n (fun i => ext n A i * ext n B (k - 1 - i))) with (s := -1); auto.
  - apply sum_to_ext. intros i _. rewrite ext_sh by auto. f_equal; f_equal; lia.
  - intros i. replace (k - 1 - (i + Z.of_nat n)) with (k - 1 - i - Z.of_nat n) by lia.
    rewrite ext_neg, ext_negm by auto. ring.
Qed.
Lemma sh_req n m A B : (0 < n)%nat -> req n m A B -> req n m (sh n A) (sh n B).
Proof. intros Hn H i Hi. unfold sh. now apply ext_req. Qed.

(** ** the lift A(x) -> A(x^2) *)
Definition Lf (A : Z -> Z) (i : Z) : Z := if Z.even i then A (i / 2) else 0.
Lemma sumz_pairs h f : sumz (2 * h) f = sumz h (fun j => f (2 * j) + f (2 * j + 1)).
Proof.
  unfold sumz. induction h as [|h IH]; [reflexivity|].
  replace (2 * S h)%nat with (S (S (2 * h))) by lia. cbn [sum_to]. rewrite IH.
  replace (Z.of_nat (2 * h)) with (2 * Z.of_nat h) by lia. replace (Z.of_nat (S (2 * h))) with (2 * Z.of_nat h + 1) by lia. ring.
Qed.
Lemma ext_Lf h A i : (0 < h)%nat -> ext (2 * h) (Lf A) i = if Z.even i then ext h A (i / 2) else 0.
Proof.
  intros Hh. unfold ext, Lf. replace (Z.of_nat (2 * h)) with (2 * Z.of_nat h) by lia.
  assert (E1 : Z.even (i mod (2 * Z.of_nat h)) = Z.even i).
  { rewrite Z.mod_eq by lia. rewrite Z.even_sub, <- Z.mul_assoc, Z.even_mul. change (Z.even 2) with true. cbn [orb].
    destruct (Z.even i); reflexivity. }
  rewrite E1. destruct (Z.even i); [|ring]. rewrite <- Z.div_div by lia. f_equal.
  f_equal. rewrite (Z.mod_eq i), (Z.mod_eq (i / 2)) by lia. rewrite <- Z.div_div by lia.
  set (u := i / 2 / Z.of_nat h). replace (i - 2 * Z.of_nat h * u) with (i + (- (Z.of_nat h * u)) * 2) by ring.
  rewrite Z.div_add by lia. ring.
Qed.
Lemma Lf_mul h A B k : (0 < h)%nat -> rmul (2 * h) (Lf A) (Lf B) k = if Z.even k then rmul h A B (k / 2) else 0.
Proof.
  intros Hh. unfold rmul. rewrite sumz_pairs. unfold sumz. destruct (Z.even k) eqn:Ek.
  - apply sum_to_ext. intros j _. rewrite !ext_Lf by auto.
    rewrite Z.even_add, Z.even_mul. change (Z.even 2) with true. change (Z.even 1) with false. cbn [orb Bool.eqb].
    rewrite Z.even_sub, Z.even_mul, Ek. change (Z.even 2) with true. cbn [orb Bool.eqb].
    replace (2 * Z.of_nat j / 2) with (Z.of_nat j) by (rewrite Z.mul_comm, Z.div_mul; lia).
    replace ((k - 2 * Z.of_nat j) / 2) with (k / 2 - Z.of_nat j) by (replace (k - 2 * Z.of_nat j) with (k + (- Z.of_nat j) * 2) by ring; rewrite Z.div_add by lia; ring).
    ring.
  - apply sum_to_0. intros j _. rewrite !ext_Lf by auto.
    rewrite Z.even_add, Z.even_mul. change (Z.even 2) with true. change (Z.even 1) with false. cbn [orb Bool.eqb].
    rewrite Z.even_sub, Z.even_mul, Ek. change (Z.even 2) with true. cbn [orb Bool.eqb]. ring.
Qed.
Lemma half_bound h i : 0 <= i < Z.of_nat (2 * h) -> 0 <= i / 2 < Z.of_nat h.
Proof. intros. split; [apply Z.div_pos; lia|apply Z.div_lt_upper_bound; lia]. Qed.
Lemma Lf_mul_req h m A B : (0 < h)%nat -> req (2 * h) m (rmul (2 * h) (Lf A) (Lf B)) (Lf (rmul h A B)).
Proof. intros Hh. apply req_eq. intros i _. rewrite Lf_mul by auto. reflexivity. Qed.
Lemma Lf_req h m A B : req h m A B -> req (2 * h) m (Lf A) (Lf B).
Proof.
  intros H i Hi. unfold Lf. destruct (Z.even i); [|rewrite Z.sub_diag; apply Z.divide_0_r]. apply H, half_bound, Hi.
Qed.
Lemma Lf_sub h m A B : req (2 * h) m (Lf (rsub A B)) (rsub (Lf A) (Lf B)).
Proof. apply req_eq. intros i _. unfold Lf, rsub. destruct (Z.even i); lia. Qed.
Lemma Lf_rc h m c : req (2 * h) m (Lf (rc c)) (rc c).
Proof.
  apply req_eq. intros i Hi. unfold Lf, rc. destruct (Z.eqb_spec i 0) as [->|]; [reflexivity|].
  destruct (Z.even i) eqn:E; auto. destruct (Z.eqb_spec (i / 2) 0) as [E0|]; auto.
  apply Z.div_small_iff in E0; [|lia]. assert (i = 1) by lia. subst. discriminate.
Qed.
Lemma Lf_sh h m A : (0 < h)%nat -> req (2 * h) m (Lf (sh h A)) (sh (2 * h) (sh (2 * h) (Lf A))).
Proof.
  intros Hh. apply req_eq. intros i Hi. unfold sh at 2. rewrite ext_sh, ext_Lf by lia. unfold Lf, sh.
  replace (i - 1 - 1) with (i - 2) by lia. rewrite Z.even_sub. change (Z.even 2) with true.
  replace ((i - 2) / 2) with (i / 2 - 1) by (replace (i - 2) with (i + (-1) * 2) by ring; rewrite Z.div_add by lia; ring).
  destruct (Z.even i); reflexivity.
Qed.

(** ** field_norm *)
Section Norm.
Variables k h n : nat.
Hypothesis hdef : h = (2 ^ k)%nat.
Hypothesis hpos : (0 < h)%nat.
Hypothesis ndef : n = (2 * h)%nat.
Hypothesis npos : (0 < n)%nat.

Lemma field_norm_spec a : length a = n ->
  length (field_norm a) = h /\
  req h 0 (fl (field_norm a))
    (rsub (rmul h (fun i => fl a (2 * i)) (fun i => fl a (2 * i)))
          (sh h (rmul h (fun i => fl a (2 * i + 1)) (fun i => fl a (2 * i + 1))))).
Proof.
  intros La. unfold field_norm. rewrite La. replace (n / 2)%nat with h by (rewrite ndef, Nat.mul_comm, Nat.div_mul; lia).
  set (ae := tab h (fun i => nth (2 * i) a 0)). set (ao := tab h (fun i => nth (2 * i + 1) a 0)).
  assert (Le : length ae = h) by apply tab_length. assert (Lo : length ao = h) by apply tab_length.
  rewrite !(karamul_spec k) by congruence. rewrite <- hdef.
  destruct (fold_add_spec (fun l i => add_at l (i + 1) (- nth i (negmul h ao ao) 0)) h
     (fun i j => if (j =? i + 1)%nat then - nth i (negmul h ao ao) 0 else 0) (h - 1)) with (l := negmul h ae ae) as [Lf Nf];
    [intros; now rewrite add_at_length|intros; apply nth_add_at; lia|apply negmul_length|].
  split; [now rewrite add_at_length|]. apply req0_iff. intros i Hi. unfold fl at 1, coef.
  rewrite nth_add_at by lia. rewrite Nf, sum_delta. unfold rsub.
  assert (Ee : nth (Z.to_nat i) (negmul h ae ae) 0 = rmul h (fun i => fl a (2 * i)) (fun i => fl a (2 * i)) i).
  { change (nth (Z.to_nat i) (negmul h ae ae) 0) with (fl (negmul h ae ae) i). rewrite fl_negmul by lia.
    assert (R : req h 0 (fl ae) (fun i => fl a (2 * i))).
    { apply req_eq. intros j Hj. unfold ae. rewrite fl_tab by lia. unfold fl, coef. f_equal. lia. }
    apply (proj1 (req0_iff h _ _) (rmul_req h hpos 0 _ _ R _ _ R)). auto. }
  assert (Eo : forall j, 0 <= j < Z.of_nat h -> nth (Z.to_nat j) (negmul h ao ao) 0 = rmul h (fun i => fl a (2 * i + 1)) (fun i => fl a (2 * i + 1)) j).
  { intros j Hj. change (nth (Z.to_nat j) (negmul h ao ao) 0) with (fl (negmul h ao ao) j). rewrite fl_negmul by lia.
    assert (R : req h 0 (fl ao) (fun i => fl a (2 * i + 1))).
    { apply req_eq. intros t Ht. unfold ao. rewrite fl_tab by lia. unfold fl, coef. f_equal. lia. }
    apply (proj1 (req0_iff h _ _) (rmul_req h hpos 0 _ _ R _ _ R)). auto. }
  rewrite Ee. unfold sh.
  destruct (Z.eq_dec i 0) as [->|Hn].
  - change (Z.to_nat 0) with 0%nat. cbn [Nat.leb andb Nat.eqb].
    replace (0 - 1) with (Z.of_nat h - 1 - Z.of_nat h) by lia. rewrite ext_negm, ext_in by lia.
    rewrite <- Eo by lia. replace (Z.to_nat (Z.of_nat h - 1)) with (h - 1)%nat by lia. ring.
  - destruct (Nat.leb_spec 1 (Z.to_nat i)); [|lia]. destruct (Nat.ltb_spec (Z.to_nat i) (1 + (h - 1))); [|lia].
    cbn [andb]. destruct (Nat.eqb_spec (Z.to_nat i) 0); [lia|]. rewrite ext_in by lia. rewrite <- Eo by lia.
    replace (Z.to_nat (i - 1)) with (Z.to_nat i - 1)%nat by lia. ring.
Qed.

Lemma even_odd_split a m : req n m (fl a) (radd (Lf (fun i => fl a (2 * i))) (sh n (Lf (fun i => fl a (2 * i + 1))))).
Proof.
  apply req_eq. intros i Hi. unfold radd, sh. rewrite ndef, ext_Lf by auto. unfold Lf.
  rewrite Z.even_sub. change (Z.even 1) with false. destruct (Z.even i) eqn:E; cbn [Bool.eqb].
  - apply Z.even_spec in E. destruct E as [c ->]. rewrite (Z.mul_comm 2 c), Z.div_mul by lia. rewrite Z.mul_comm. ring.
  - rewrite <- Z.negb_odd in E. apply negb_false_iff, Z.odd_spec in E. destruct E as [c ->].
    replace (2 * c + 1 - 1) with (c * 2) by ring. rewrite Z.div_mul by lia. rewrite ?ext_in by lia. ring.
Qed.
Lemma galois_split a m : length a = n ->
  req n m (fl (galois_conjugate a)) (rsub (Lf (fun i => fl a (2 * i))) (sh n (Lf (fun i => fl a (2 * i + 1))))).
Proof.
  intros La. apply req_eq. intros i Hi. unfold galois_conjugate. rewrite La, fl_tab by auto. rewrite Z2Nat.id by lia.
  change (nth (Z.to_nat i) a 0) with (fl a i).
  pose proof (proj1 (req0_iff n _ _) (even_odd_split a 0) i Hi) as E. rewrite E. unfold radd, rsub, sh. rewrite ndef, ext_Lf by auto. unfold Lf.
  rewrite Z.even_sub. change (Z.even 1) with false. destruct (Z.even i) eqn:Ev; cbn [Bool.eqb].
  - apply Z.even_spec in Ev. destruct Ev as [c ->]. rewrite Z.pow_mul_r by lia. change ((-1) ^ 2) with 1. rewrite Z.pow_1_l by lia. ring.
  - rewrite <- Z.negb_odd in Ev. apply negb_false_iff, Z.odd_spec in Ev. destruct Ev as [c ->].
    rewrite Z.pow_add_r, Z.pow_mul_r by lia. change ((-1) ^ 2) with 1. rewrite Z.pow_1_l by lia. ring.
Qed.
Lemma galois_length a : length (galois_conjugate a) = length a.
Proof. apply tab_length. Qed.
Lemma lift_spec a : length a = h -> length (lift a) = n /\ forall m, req n m (fl (lift a)) (Lf (fl a)).
Proof.
  intros La. unfold lift. rewrite La. rewrite <- ndef.
  assert (G : forall t s l, length l = n -> (s + t <= h)%nat ->
    length (fold_left (fun l i => upd l (2 * i) (nth i a 0)) (seq s t) l) = n /\
  forall j, nth j (fold_left (fun l i => upd l (2 * i) (nth i a 0)) (seq s t) l) 0 =
      if (Nat.even j && (s <=? j / 2) && (j / 2 <? s + t))%nat then nth (j / 2) a 0 else nth j l 0).
  { induction t as [|t IH]; intros s l Ll Hs.
    - cbn [seq fold_left]. split; [exact Ll|]. intros j.
      destruct (Nat.leb_spec s (j / 2)), (Nat.ltb_spec (j / 2) (s + 0)); rewrite ?andb_false_r; auto; lia.
    - cbn [seq fold_left]. destruct (IH (S s) (upd l (2 * s) (nth s a 0))) as [I1 I2]; [now rewrite upd_length|lia|].
      split; [exact I1|]. intros j. rewrite I2. rewrite nth_upd by lia.
      destruct (Nat.eqb_spec j (2 * s)) as [->|Hne].
      + replace (2 * s / 2)%nat with s by (rewrite Nat.mul_comm, Nat.div_mul; lia).
        destruct (Nat.leb_spec (S s) s), (Nat.leb_spec s s), (Nat.ltb_spec s (s + S t)); try lia.
        rewrite Nat.even_mul. cbn [Nat.even orb andb]. reflexivity.
      + destruct (Nat.even j) eqn:E; cbn [andb]; auto.
        apply Nat.even_spec in E. destruct E as [c ->]. rewrite (Nat.mul_comm 2 c), Nat.div_mul by lia.
        destruct (Nat.leb_spec (S s) c), (Nat.leb_spec s c), (Nat.ltb_spec c (S s + t)), (Nat.ltb_spec c (s + S t)); cbn [andb]; auto; lia. }
  destruct (G h 0%nat (repeat 0 n)) as [L N]; [apply repeat_length|lia|]. split; [exact L|].
  intros m. apply req_eq. intros i Hi. unfold fl at 1, coef at 1. rewrite N, nth_repeat. unfold Lf, fl, coef.
  cbn [Nat.leb]. rewrite even_of_nat, Z2Nat.id by lia.
  assert (E : (Z.to_nat i / 2)%nat = Z.to_nat (i / 2)).
  { apply Nat2Z.inj. rewrite Nat2Z.inj_div, !Z2Nat.id; [reflexivity|apply Z.div_pos; lia|lia]. }
  rewrite E. pose proof (half_bound h i ltac:(lia)).
  destruct (Z.even i); cbn [andb]; auto. destruct (Nat.ltb_spec (Z.to_nat (i / 2)) (0 + h)); [auto|lia].
Qed.

Variable m : Z.
Local Instance rmulP : Proper (req n m ==> req n m ==> req n m) (rmul n) := rmul_proper n npos m.
Add Ring Rn : (r_theory n npos m) (setoid (req_equiv n m) (r_ext n npos m)).

Lemma sh_mul A : req n m (sh n A) (rmul n (sh n r1) A).
Proof.
  apply req_eq. intros i Hi. rewrite rmul_sh by auto. unfold sh.
  assert (R : req n 0 A (rmul n r1 A)).
  { apply req_eq. intros j Hj. unfold r1. rewrite rmul_rc_eq by auto. ring. }
  pose proof (ext_req n npos 0 _ _ R (i - 1)) as D. apply Z.divide_0_l in D. lia.
Qed.
Lemma norm_identity a : length a = n ->
  req n m (Lf (fl (field_norm a))) (rmul n (fl a) (fl (galois_conjugate a))).
Proof.
  intros La. destruct (field_norm_spec a La) as [_ E].
  assert (E' : req h m (fl (field_norm a)) _) by (apply req_eq; apply (proj1 (req0_iff _ _ _) E)).
  apply (Lf_req h m) in E'. rewrite <- ndef in E'. rewrite E'.
  pose proof (galois_split a m La) as Eg. pose proof (even_odd_split a m) as Es.
  remember (fun i : Z => fl a (2 * i)) as ae. remember (fun i : Z => fl a (2 * i + 1)) as ao. rewrite Eg, Es.
  assert (E4 : req n m (Lf (rsub (rmul h ae ae) (sh h (rmul h ao ao)))) (rsub (Lf (rmul h ae ae)) (sh n (sh n (Lf (rmul h ao ao)))))).
  { rewrite ndef. rewrite Lf_sub, Lf_sh by auto. reflexivity. }
  rewrite E4.
  assert (E1 : req n m (Lf (rmul h ae ae)) (rmul n (Lf ae) (Lf ae))) by (rewrite ndef; symmetry; now apply Lf_mul_req).
  assert (E2 : req n m (Lf (rmul h ao ao)) (rmul n (Lf ao) (Lf ao))) by (rewrite ndef; symmetry; now apply Lf_mul_req).
  rewrite E1. assert (E3 : req n m (sh n (sh n (Lf (rmul h ao ao)))) (rmul n (sh n r1) (rmul n (sh n r1) (rmul n (Lf ao) (Lf ao))))).
  { rewrite (sh_mul (sh n _)), (sh_mul (Lf (rmul h ao ao))), E2. reflexivity. }
  rewrite E3. rewrite (sh_mul (Lf ao)). ring.
Qed.
End Norm.
