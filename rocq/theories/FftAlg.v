(** Evaluation at the roots turns products modulo x^n + 1 into products; characterisation of the vectors which represent real polynomials. *)
From Coq Require Import Reals Lra Lia.
From Verif Require Import Base RingSpec FftModel FftSpec FftProofs.
Import List.
Open Scope R_scope.

(** * Finite sums of complex numbers *)
Fixpoint csum (n : nat) (F : nat -> CR) : CR := match n with O => c0 | S k => csum k F +c F k end.
Lemma csum_ext n F G : (forall i, (i < n)%nat -> F i = G i) -> csum n F = csum n G.
Proof. induction n as [|n IH]; intros H; [reflexivity|]. cbn [csum]. rewrite IH by (intros; apply H; lia). now rewrite H by lia. Qed.
Lemma csum_zero n F : (forall i, (i < n)%nat -> F i = c0) -> csum n F = c0.
Proof. induction n as [|n IH]; intros H; [reflexivity|]. cbn [csum]. rewrite IH by (intros; apply H; lia). rewrite H by lia. ring. Qed.
Lemma csum_add n F G : csum n (fun i => F i +c G i) = csum n F +c csum n G.
Proof. induction n as [|n IH]; cbn [csum]; [ring|]. rewrite IH. ring. Qed.
Lemma csum_scal n a F : csum n (fun i => a *c F i) = a *c csum n F.
Proof. induction n as [|n IH]; cbn [csum]; [ring|]. rewrite IH. ring. Qed.
Lemma csum_scal_r n a F : csum n (fun i => F i *c a) = csum n F *c a.
Proof. induction n as [|n IH]; cbn [csum]; [ring|]. rewrite IH. ring. Qed.
Lemma csum_app n m F : csum (n + m) F = csum n F +c csum m (fun i => F (n + i)%nat).
Proof. induction m as [|m IH]; [rewrite Nat.add_0_r; cbn [csum]; ring|]. rewrite Nat.add_succ_r. cbn [csum]. rewrite IH. ring. Qed.
Lemma csum_S_first n F : csum (S n) F = F 0%nat +c csum n (fun i => F (S i)).
Proof. change (S n) with (1 + n)%nat. rewrite csum_app. cbn [csum]. replace (c0 +c F 0%nat) with (F 0%nat) by ring. reflexivity. Qed.
Lemma csum_S n F : csum (S n) F = csum n F +c F n. Proof. reflexivity. Qed.
Lemma csum_triangle N h : csum N (fun i => csum (N - i) (fun j => h i j)) = csum N (fun k => csum (S k) (fun i => h i (k - i)%nat)).
Proof.
  induction N as [|N IH]; [reflexivity|]. rewrite (csum_S N (fun i => csum (S N - i) _)). replace (S N - N)%nat with 1%nat by lia.
  rewrite (csum_ext N _ (fun i => csum (N - i) (fun j => h i j) +c h i (N - i)%nat)).
  2:{ intros i Hi. replace (S N - i)%nat with (S (N - i)) by lia. reflexivity. }
  rewrite csum_add, IH. rewrite (csum_S N (fun k => csum (S k) _)), (csum_S N (fun i => h i (N - i)%nat)). cbn [csum]. replace (N - N)%nat with 0%nat by lia. ring.
Qed.

Lemma inj_add x y : inj (x + y) = inj x +c inj y.
Proof. unfold inj, FftModel.cadd. cbn [fst snd RN nadd]. apply injective_projections; cbn [fst snd]; ring. Qed.
Lemma inj_sub x y : inj (x - y) = inj x -c inj y.
Proof. unfold inj, FftModel.csub. cbn [fst snd RN nsub]. apply injective_projections; cbn [fst snd]; ring. Qed.
Lemma inj_mul x y : inj (x * y) = inj x *c inj y.
Proof. unfold inj, FftModel.cmul. cbn [fst snd RN nadd nsub nmul]. apply injective_projections; cbn [fst snd]; ring. Qed.
Lemma inj_0 : inj 0 = c0. Proof. reflexivity. Qed.
Lemma inj_sum n F : inj (rsum n F) = csum n (fun i => inj (F i)).
Proof. induction n as [|n IH]; [reflexivity|]. cbn [rsum csum]. now rewrite inj_add, IH. Qed.
Lemma ev_sum f x : ev f x = csum (length f) (fun i => inj (rcoef f i) *c cpow x i).
Proof.
  induction f as [|a f IH]; [reflexivity|]. rewrite ev_cons, IH. cbn [length]. rewrite csum_S_first. cbn [rcoef nth cpow].
  rewrite <- csum_scal. f_equal; [ring|]. apply csum_ext. intros i _. unfold rcoef. cbn [nth]. ring.
Qed.
Lemma ev_sum_le n f x : (length f <= n)%nat -> ev f x = csum n (fun i => inj (rcoef f i) *c cpow x i).
Proof.
  intros L. rewrite ev_sum. replace n with (length f + (n - length f))%nat by lia. rewrite csum_app. rewrite (csum_zero (n - length f)); [ring|].
  intros i Hi. unfold rcoef. rewrite nth_overflow by lia. rewrite inj_0. ring.
Qed.
Lemma rcoef_map F n i : (i < n)%nat -> rcoef (map F (seq 0 n)) i = F i.
Proof. intros Hi. unfold rcoef. rewrite nth_indep with (d' := F 0%nat) by (rewrite map_length, seq_length; lia). rewrite map_nth, seq_nth by lia. reflexivity. Qed.

Theorem ev_negmul n f g x : length f = n -> length g = n -> cpow x n = copp c1 -> ev (rnegmul n f g) x = ev f x *c ev g x.
Proof.
  intros Lf Lg R.
  rewrite (ev_sum_le n f), (ev_sum_le n g), (ev_sum_le n (rnegmul n f g)) by (unfold rnegmul; rewrite ?map_length, ?seq_length; lia).
  set (h := fun i j => inj (rcoef f i) *c cpow x i *c (inj (rcoef g j) *c cpow x j)).
  assert (Z : forall i j, (n <= i)%nat \/ (n <= j)%nat -> h i j = c0).
  { intros i j [Hi|Hj]; unfold h, rcoef; [rewrite (nth_overflow f) by lia|rewrite (nth_overflow g) by lia]; rewrite inj_0; ring. }
  assert (A : csum (n + n) (fun i => csum (n + n - i) (fun j => h i j)) = csum n (fun i => inj (rcoef f i) *c cpow x i) *c csum n (fun j => inj (rcoef g j) *c cpow x j)).
  { rewrite csum_app. rewrite (csum_zero n (fun i => csum (n + n - (n + i)) _)).
    2:{ intros i Hi. apply csum_zero. intros j Hj. apply Z. lia. }
    rewrite <- csum_scal_r.
    replace (csum n (fun i => csum (n + n - i) (fun j => h i j)) +c c0) with (csum n (fun i => csum (n + n - i) (fun j => h i j))) by ring.
    apply csum_ext. intros i Hi. replace (n + n - i)%nat with (n + (n - i))%nat by lia. rewrite csum_app, (csum_zero (n - i)) by (intros; apply Z; lia).
    rewrite <- csum_scal. unfold h. ring. }
  rewrite <- A, csum_triangle, csum_app, <- csum_add. apply csum_ext. intros k Hk. unfold rnegmul. rewrite rcoef_map by exact Hk.
  assert (P : forall m, csum (S m) (fun i => h i (m - i)%nat) = inj (rpcoef f g m) *c cpow x m).
  { intros m. unfold rpcoef. rewrite inj_sum, <- csum_scal_r. apply csum_ext. intros i Hi. unfold h. rewrite inj_mul. replace (cpow x m) with (cpow x (i + (m - i))) by (f_equal; lia).
    rewrite cpow_add. ring. }
  rewrite !P, inj_sub, Nat.add_comm. rewrite cpow_add, R. rewrite Nat.add_comm. ring.
Qed.

(** * Pointwise operations on representations *)
Definition radd (f g : list R) : list R := pairwise Rplus f g.
Lemma pairwise_map {A B D} (op : B -> B -> D) (F G : A -> B) (l : list A) : map (fun '(a, b) => op a b) (combine (map F l) (map G l)) = map (fun x => op (F x) (G x)) l.
Proof. apply (combine_map F G (fun '(a, b) => op a b)). Qed.
Lemma rep_mul k f g : length f = (2 ^ k)%nat -> length g = (2 ^ k)%nat -> pairwise cmul (rep k f) (rep k g) = rep k (rnegmul (2 ^ k) f g).
Proof.
  intros Lf Lg. unfold pairwise, rep. rewrite pairwise_map. apply map_ext_in. intros z Hz. symmetry. apply ev_negmul; auto.
  exact (proj1 (Forall_forall _ _) (rts_root k) z Hz).
Qed.
Lemma ev_add f g x : length f = length g -> ev (radd f g) x = ev f x +c ev g x.
Proof.
  revert g. induction f as [|a f IH]; intros [|b g] L; try discriminate L; [rewrite !ev_nil; ring|].
  unfold radd, pairwise. cbn [combine map]. change (map _ (combine f g)) with (radd f g). rewrite !ev_cons, IH by (cbn in L; lia). rewrite inj_add. ring.
Qed.
Lemma rep_add k f g : length f = length g -> pairwise cadd (rep k f) (rep k g) = rep k (radd f g).
Proof. intros L. unfold pairwise, rep. rewrite pairwise_map. apply map_ext. intros z. now rewrite ev_add. Qed.
Lemma ev_opp f x : ev (map Ropp f) x = copp (ev f x).
Proof. induction f as [|a f IH]; [rewrite !ev_nil; ring|]. cbn [map]. rewrite !ev_cons, IH. replace (inj (- a)) with (copp (inj a)); [ring|]. unfold inj, FftModel.copp. cbn [fst snd RN nopp]. apply injective_projections; cbn [fst snd]; ring. Qed.
Lemma rep_opp k f : map copp (rep k f) = rep k (map Ropp f).
Proof. unfold rep. rewrite map_map. apply map_ext. intros z. now rewrite ev_opp. Qed.
Lemma radd_length f g : length f = length g -> length (radd f g) = length f.
Proof. intros L. unfold radd, pairwise. rewrite map_length, combine_length. lia. Qed.
Lemma rnegmul_length n f g : length (rnegmul n f g) = n.
Proof. unfold rnegmul. now rewrite map_length, seq_length. Qed.
(** the representation determines the polynomial *)
Lemma rep_inj k f g : (1 <= k)%nat -> length f = (2 ^ k)%nat -> length g = (2 ^ k)%nat -> rep k f = rep k g -> f = g.
Proof. intros Hk Lf Lg E. pose proof (ifft_rep k f Hk Lf) as A. rewrite E, (ifft_rep k g Hk Lg) in A. congruence. Qed.

(** * Multiplication *)
Theorem mul_exact k f g : (1 <= k)%nat -> length f = (2 ^ k)%nat -> length g = (2 ^ k)%nat ->
  mul RN xroots f g = Ok (rnegmul (2 ^ k) f g).
Proof.
  intros Hk Lf Lg. unfold mul. rewrite (fft_rep k f), (fft_rep k g) by assumption. cbn [bind]. unfold mul_fft. rewrite !rep_length, Nat.leb_refl. cbn [bind].
  rewrite rep_mul by assumption. apply ifft_rep; auto. apply rnegmul_length.
Qed.

(** * Vectors representing real polynomials: the second half is the conjugate of the first *)
Definition herm (v : list CR) : Prop := exists h, v = h ++ map conj h.
Lemma conj_mul x y : conj (x *c y) = conj x *c conj y.
Proof. destruct x, y. unfold FftModel.conj, FftModel.cmul. cbn [fst snd RN nopp nadd nsub nmul]. apply injective_projections; cbn [fst snd]; ring. Qed.
Lemma conj_add x y : conj (x +c y) = conj x +c conj y.
Proof. destruct x, y. unfold FftModel.conj, FftModel.cadd. cbn [fst snd RN nopp nadd nsub nmul]. apply injective_projections; cbn [fst snd]; ring. Qed.
Lemma conj_sub x y : conj (x -c y) = conj x -c conj y.
Proof. destruct x, y. unfold FftModel.conj, FftModel.csub. cbn [fst snd RN nopp nadd nsub nmul]. apply injective_projections; cbn [fst snd]; ring. Qed.
Lemma conj_opp x : conj (copp x) = copp (conj x).
Proof. destruct x. unfold FftModel.conj, FftModel.copp. cbn [fst snd RN nopp nadd nsub nmul]. reflexivity. Qed.
Lemma conj_half x : conj (chalf x) = chalf (conj x).
Proof. destruct x. unfold FftModel.conj, FftModel.chalf. cbn [fst snd RN nopp nhalf]. apply injective_projections; cbn [fst snd]; field. Qed.
Lemma conj_conj x : conj (conj x) = x.
Proof. destruct x. unfold FftModel.conj. cbn [fst snd RN nopp]. apply injective_projections; cbn [fst snd]; ring. Qed.
Lemma conj_cdiv x y : conj (rcdiv x y) = rcdiv (conj x) (conj y).
Proof.
  destruct x as [a b], y as [c d]. unfold FftModel.conj, rcdiv. cbn [fst snd RN nopp]. replace (- d * - d) with (d * d) by ring.
  apply injective_projections; cbn [fst snd]; unfold Rdiv; ring.
Qed.
Lemma ev_conj f x : ev f (conj x) = conj (ev f x).
Proof. induction f as [|a f IH]; [rewrite !ev_nil; unfold FftModel.conj, c0; cbn [fst snd RN nopp]; f_equal; ring|]. rewrite !ev_cons, IH, conj_add, conj_mul. f_equal. unfold inj, FftModel.conj. cbn [fst snd RN nopp]. f_equal; ring. Qed.

Lemma root_nonreal k z : In z (rts (S k)) -> snd z <> 0.
Proof.
  intros Hz E. pose proof (proj1 (Forall_forall _ _) (rts_root (S k)) z Hz) as P. pose proof (proj1 (Forall_forall _ _) (rts_unit (S k)) z Hz) as U.
  rewrite Nat.pow_succ_r', cpow_sq in P. destruct z as [x y]. unfold unit in U. cbn [fst snd] in *. subst y.
  assert (Q : (x, 0) *c (x, 0) = c1) by (unfold FftModel.cmul, c1; cbn [fst snd RN nadd nsub nmul]; apply injective_projections; cbn [fst snd]; lra).
  rewrite Q in P. assert (W : forall m, cpow c1 m = c1) by (induction m as [|m IH]; [reflexivity|cbn [cpow]; rewrite IH; ring]). rewrite W in P.
  unfold c1, FftModel.copp in P. cbn [fst snd RN nopp] in P. injection P. lra.
Qed.
Lemma usqrt_conj z : snd z <> 0 -> usqrt (conj z) = conj (usqrt z).
Proof.
  destruct z as [x y]. intros H. cbn [snd] in H. unfold usqrt, FftModel.conj. cbn [fst snd RN nopp]. destruct (Rle_dec 0 (- y)), (Rle_dec 0 y); try lra; f_equal; ring.
Qed.
Lemma ropp_conj z : ropp (conj z) = conj (ropp z).
Proof. reflexivity. Qed.
Lemma rts_herm k : herm (rts (S k)).
Proof.
  induction k as [|k IH].
  - exists [usqrt (-1, 0)]. cbn [rts flat_map app map]. f_equal. f_equal. unfold usqrt, ropp, FftModel.conj. cbn [fst snd RN nopp].
    replace ((1 + -1) / 2) with 0 by lra. rewrite sqrt_0. destruct (Rle_dec 0 0); [|lra]. f_equal; ring.
  - pose proof (root_nonreal k) as NR. destruct IH as [h E]. change (rts (S (S k))) with (flat_map (fun z => [usqrt z; ropp (usqrt z)]) (rts (S k))).
    rewrite E in *. clear E.
    exists (flat_map (fun z => [usqrt z; ropp (usqrt z)]) h). rewrite flat_map_app. f_equal.
    assert (NRh : forall z, In z h -> snd z <> 0) by (intros; apply NR, in_or_app; now left). clear NR.
    induction h as [|z h IH]; [reflexivity|]. cbn [map flat_map app]. rewrite IH by (intros; apply NRh; now right).
    rewrite (usqrt_conj z) by (apply NRh; now left). now rewrite ropp_conj.
Qed.
Lemma rep_herm k f : herm (rep (S k) f).
Proof.
  destruct (rts_herm k) as [h E]. exists (map (ev f) h). unfold rep. rewrite E, map_app. f_equal. rewrite !map_map. apply map_ext. intros z. apply ev_conj.
Qed.
Lemma evens_app {A} (a b : list A) : Nat.even (length a) = true -> evens (a ++ b) = evens a ++ evens b /\ odds (a ++ b) = odds a ++ odds b.
Proof.
  induction a as [|x|x y a IH] using pair_ind; intros H; [now split|discriminate|]. cbn [app evens odds]. destruct (IH H) as [-> ->]. now split.
Qed.
Lemma evens_map {A B} (F : A -> B) (l : list A) : evens (map F l) = map F (evens l) /\ odds (map F l) = map F (odds l).
Proof. induction l as [|x|x y l [IH1 IH2]] using pair_ind; [now split|now split|]. cbn [map evens odds]. now rewrite IH1, IH2. Qed.
Lemma combine_app {A B} (a a' : list A) (b b' : list B) : length a = length b -> combine (a ++ a') (b ++ b') = combine a b ++ combine a' b'.
Proof. revert b. induction a as [|x a IH]; intros [|y b] L; try discriminate L; [reflexivity|]. cbn [app combine]. now rewrite IH by (cbn in L; lia). Qed.
Lemma herm_evens v m : length v = (4 * m)%nat -> herm v -> herm (evens v) /\ herm (odds v).
Proof.
  intros L [h ->]. rewrite app_length, map_length in L. assert (H : Nat.even (length h) = true) by (replace (length h) with (2 * m)%nat by lia; apply even_2).
  destruct (evens_app h (map conj h) H) as [-> ->]. destruct (evens_map conj h) as [-> ->]. split; eexists; reflexivity.
Qed.
Lemma herm_zip (op : CR -> CR -> CR) (a b : list CR) : (forall x y, conj (op x y) = op (conj x) (conj y)) -> length a = length b ->
  herm a -> herm b -> herm (map (fun '(x, y) => op x y) (combine a b)).
Proof.
  intros C L [h ->] [g ->]. rewrite !app_length, !map_length in L. rewrite combine_app by lia. rewrite map_app.
  exists (map (fun '(x, y) => op x y) (combine h g)). f_equal. assert (L' : length h = length g) by lia. clear L. revert g L'.
  induction h as [|x h IH]; intros [|y g] L'; try discriminate L'; [reflexivity|]. cbn [map combine]. rewrite C. f_equal. apply IH. cbn in L'. lia.
Qed.
Lemma herm_map (F : CR -> CR) a : (forall x, conj (F x) = F (conj x)) -> herm a -> herm (map F a).
Proof. intros C [h ->]. exists (map F h). rewrite map_app, !map_map. f_equal. apply map_ext. intros x. now rewrite C. Qed.

Lemma map_combine3 {A B C D} (F : A -> B -> D) (G : D -> C -> A) (a : list A) (b : list B) (w : list C) :
  map (fun '((x, y), z) => G (F x y) z) (combine (combine a b) w) = map (fun '(x, y) => G x y) (combine (map (fun '(x, y) => F x y) (combine a b)) w).
Proof. revert b w. induction a as [|x a IH]; intros [|y b] [|z w]; try reflexivity. cbn [combine map]. now rewrite IH. Qed.

Lemma herm_split k v : length v = (2 ^ S (S k))%nat -> herm v -> herm (fst (split_fft v)) /\ herm (snd (split_fft v)).
Proof.
  intros L H. destruct (herm_evens v (2 ^ k) ltac:(rewrite L, !Nat.pow_succ_r'; lia) H) as [H0 H1]. destruct (len2 v (S k) L) as [L0 L1].
  unfold FftModel.split_fft. cbn [fst snd]. split.
  - apply (herm_zip (fun a b => chalf (a +c b))); auto; [|congruence]. intros. now rewrite conj_half, conj_add.
  - rewrite (map_combine3 (fun a b => chalf (a -c b)) (fun x w => x *c conj w)). apply (herm_zip (fun x w => x *c conj w)).
    + intros. now rewrite conj_mul.
    + rewrite map_length, combine_length, L0, L1, L. unfold xroots. rewrite log2_pow, rts_evens, map_length, rts_length. lia.
    + apply (herm_zip (fun a b => chalf (a -c b))); auto; [|congruence]. intros. now rewrite conj_half, conj_sub.
    + rewrite L. unfold xroots. rewrite log2_pow, rts_evens. destruct (rts_herm k) as [h E]. pose proof (root_nonreal k) as NR. rewrite E in *. exists (map usqrt h). rewrite map_app. f_equal. rewrite !map_map.
      apply map_ext_in. intros z Hz. apply usqrt_conj, NR, in_or_app. now left.
Qed.
Lemma split_length k v : length v = (2 ^ S k)%nat -> length (fst (split_fft v)) = (2 ^ k)%nat /\ length (snd (split_fft v)) = (2 ^ k)%nat.
Proof.
  intros L. destruct (len2 v k L) as [L0 L1]. unfold FftModel.split_fft. cbn [fst snd]. rewrite !map_length, !combine_length, L0, L1, L.
  unfold xroots. rewrite log2_pow, rts_evens, map_length, rts_length. split; lia.
Qed.
(** splitting then merging gives the vector back *)
Lemma merge_split_fft k v : length v = (2 ^ S k)%nat -> merge_fft (fst (split_fft v)) (snd (split_fft v)) = v.
Proof.
  intros L. pose proof (split_length k v L) as [S0 S1]. destruct (len2 v k L) as [L0 L1].
  unfold FftModel.merge_fft. rewrite S0. unfold FftModel.split_fft. cbn [fst snd]. rewrite L. change (2 * 2 ^ k)%nat with (2 ^ S k)%nat. unfold xroots. rewrite log2_pow, rts_evens.
  assert (U : Forall (fun w => unit w) (map usqrt (rts k))).
  { apply Forall_forall. intros w Hw. apply in_map_iff in Hw. destruct Hw as (z & <- & Hz). apply usqrt_unit. exact (proj1 (Forall_forall _ _) (rts_unit k) z Hz). }
  assert (LW : length (map usqrt (rts k)) = (2 ^ k)%nat) by (rewrite map_length, rts_length; reflexivity).
  assert (EV : Nat.even (length v) = true) by (rewrite L, Nat.pow_succ_r'; apply even_2).
  transitivity (merge (evens v) (odds v)); [|now apply merge_split].
  revert L0 L1 LW U. generalize (evens v) (odds v) (map usqrt (rts k)) (2 ^ k)%nat. clear. intros a b w. revert b w.
  induction a as [|x a IH]; intros [|y b] [|z w] [|m] L0 L1 LW U; cbn in L0, L1, LW; try discriminate; [reflexivity|].
  cbn [combine map merge]. rewrite (IH b w m) by (try congruence; now inversion U). apply Forall_inv in U. pose proof (conj_unit z U) as CU.
  replace (z *c (chalf (x -c y) *c conj z)) with (chalf (x -c y)).
  - f_equal; [|f_equal]; destruct x, y; unfold FftModel.chalf, FftModel.cadd, FftModel.csub; cbn [fst snd RN nadd nsub nhalf]; apply injective_projections; cbn [fst snd]; field.
  - transitivity (chalf (x -c y) *c (z *c conj z)); [rewrite CU; ring|ring].
Qed.
Lemma herm_rep k v : length v = (2 ^ S k)%nat -> herm v -> exists f, length f = (2 ^ S k)%nat /\ v = rep (S k) f.
Proof.
  revert v. induction k as [|k IH]; intros v L H.
  - destruct H as [h E]. subst v. rewrite app_length, map_length in L. destruct h as [|[a b] [|y h]]; cbn in L; try lia. exists [a; b]. split; [reflexivity|].
    pose proof (fft_rep_rec 0 1 [a; b] ltac:(lia) eq_refl) as F. cbn [fft_rec length] in F. change ((2 <? 2)%nat) with false in F. cbn iota in F.
    cbn [RN nopp] in F. cbn [map app]. unfold FftModel.conj. cbn [fst snd RN nopp]. congruence.
  - destruct (herm_split k v L H) as [H0 H1]. destruct (split_length (S k) v L) as [L0 L1].
    destruct (IH _ L0 H0) as (f0 & F0 & E0). destruct (IH _ L1 H1) as (f1 & F1 & E1). exists (merge f0 f1). split; [rewrite merge_length by congruence; rewrite F0, (Nat.pow_succ_r' 2 (S k)); lia|].
    rewrite <- (merge_split_fft (S k) v L), E0, E1. apply merge_rep. congruence.
Qed.

(** * Division *)
Lemma cdiv_mul x y : y <> c0 -> rcdiv x y *c y = x.
Proof.
  intros Hy. destruct x as [a b], y as [c d]. unfold rcdiv, FftModel.cmul. cbn [fst snd RN nadd nsub nmul].
  assert (c * c + d * d <> 0). { intros E. apply Hy. unfold c0. f_equal; nra. }
  apply injective_projections; cbn [fst snd]; field; auto.
Qed.
Theorem div_exact k f g : (1 <= k)%nat -> length f = (2 ^ k)%nat -> length g = (2 ^ k)%nat -> (forall z, In z (rts k) -> ev g z <> c0) ->
  exists h, div RN xroots f g = Ok h /\ length h = (2 ^ k)%nat /\ rnegmul (2 ^ k) h g = f.
Proof.
  intros Hk Lf Lg NZ. destruct k as [|k]; [lia|]. unfold div. rewrite (fft_rep (S k) f), (fft_rep (S k) g) by assumption. cbn [bind]. unfold div_fft. rewrite !rep_length, Nat.eqb_refl. cbn [bind].
  set (v := pairwise (ncdiv RN) (rep (S k) f) (rep (S k) g)).
  assert (Hv : herm v). { unfold v, pairwise. apply (herm_zip); [exact conj_cdiv|now rewrite !rep_length|apply rep_herm|apply rep_herm]. }
  assert (Lv : length v = (2 ^ S k)%nat). { unfold v, pairwise. rewrite map_length, combine_length, !rep_length. lia. }
  destruct (herm_rep k v Lv Hv) as (h & Lh & E). exists h. rewrite E, ifft_rep by (auto; lia). split; [reflexivity|]. split; [exact Lh|].
  apply (rep_inj (S k)); auto; [apply rnegmul_length|]. rewrite <- rep_mul by assumption. rewrite <- E. unfold v, pairwise, rep.
  rewrite pairwise_map. rewrite pairwise_map. apply map_ext_in. intros z Hz. apply cdiv_mul; auto.
Qed.

(** * Adjoint *)
(** f(1/x) modulo x^n + 1: f0 - f_{n-1} x - ... - f_1 x^{n-1} *)
Definition radj (f : list R) : list R := match f with [] => [] | a :: f' => a :: map Ropp (rev f') end.
Lemma radj_length f : length (radj f) = length f.
Proof. destruct f; [reflexivity|]. cbn [radj length]. now rewrite map_length, rev_length. Qed.
Lemma ev_rev_aux f x y : x *c y = c1 -> ev (rev f) x = cpow x (length f) *c (y *c ev f y).
Proof.
  intros XY. induction f as [|a f IH]; [cbn [rev]; rewrite !ev_nil; ring|]. cbn [rev length cpow]. rewrite ev_cons.
  assert (A : forall l b, ev (l ++ [b]) x = ev l x +c inj b *c cpow x (length l)).
  { induction l as [|c l IHl]; intros b; cbn [app length cpow]; rewrite ?ev_cons, ?ev_nil; [ring|]. rewrite IHl. ring. }
  rewrite A, IH, rev_length. transitivity (cpow x (length f) *c ((x *c y) *c (inj a +c y *c ev f y))); [rewrite XY|]; ring.
Qed.
Lemma ev_adj n f x : length f = n -> unit x -> cpow x n = copp c1 -> ev (radj f) x = conj (ev f x).
Proof.
  intros L U R. rewrite <- ev_conj. destruct f as [|a f]; [reflexivity|]. cbn [radj]. rewrite !ev_cons. f_equal. rewrite ev_opp.
  pose proof (conj_unit x U) as XY. rewrite (ev_rev_aux f x (conj x) XY). subst n. cbn [length cpow] in R.
  transitivity (copp (x *c cpow x (length f)) *c (conj x *c ev f (conj x))); [ring|]. rewrite R. ring.
Qed.
Lemma rep_adj k f : length f = (2 ^ k)%nat -> map conj (rep k f) = rep k (radj f).
Proof.
  intros L. unfold rep. rewrite map_map. apply map_ext_in. intros z Hz. symmetry. eapply ev_adj; [exact L| |].
  - exact (proj1 (Forall_forall _ _) (rts_unit k) z Hz).
  - exact (proj1 (Forall_forall _ _) (rts_root k) z Hz).
Qed.
Theorem adj_exact k f : (1 <= k)%nat -> length f = (2 ^ k)%nat -> adj RN xroots f = Ok (radj f).
Proof. intros Hk L. unfold adj. rewrite (fft_rep k f) by assumption. cbn [bind]. unfold adj_fft. rewrite rep_adj by exact L. apply ifft_rep; auto. now rewrite radj_length. Qed.

(** * Integer polynomials *)
Notation zr := (map IZR).
Lemma zr_coef f i : rcoef (zr f) i = IZR (coef f i).
Proof. unfold rcoef, coef. change 0 with (IZR 0). apply map_nth. Qed.
Lemma rsum_IZR n F : rsum n (fun i => IZR (F i)) = IZR (sum_to n F).
Proof. induction n as [|n IH]; [reflexivity|]. cbn [rsum sum_to]. now rewrite plus_IZR, IH. Qed.
Lemma rsum_ext n F G : (forall i, F i = G i) -> rsum n F = rsum n G.
Proof. intros H. induction n as [|n IH]; [reflexivity|]. cbn [rsum]. now rewrite IH, H. Qed.
Lemma zr_negmul n f g : rnegmul n (zr f) (zr g) = zr (negmul n f g).
Proof.
  unfold rnegmul, negmul. rewrite map_map. apply map_ext. intros k. rewrite minus_IZR.
  assert (P : forall m, rpcoef (zr f) (zr g) m = IZR (pcoef f g m)).
  { intros m. unfold rpcoef, pcoef. rewrite <- rsum_IZR. apply rsum_ext. intros i. now rewrite !zr_coef, mult_IZR. }
  now rewrite !P.
Qed.
Lemma zr_opp f : map Ropp (zr f) = zr (map Z.opp f).
Proof. rewrite !map_map. apply map_ext. intros x. now rewrite opp_IZR. Qed.
Lemma zr_add n f g : length f = n -> length g = n -> radd (zr f) (zr g) = zr (padd n f g).
Proof.
  intros <-. unfold padd. revert g. induction f as [|a f IH]; intros [|b g] L; try discriminate L; [reflexivity|].
  cbn [length seq map]. unfold radd, pairwise. cbn [combine map]. f_equal; [unfold coef; cbn [nth]; now rewrite plus_IZR|].
  change (map _ (combine (zr f) (zr g))) with (radd (zr f) (zr g)). rewrite IH by (cbn in L; lia). rewrite <- seq_shift, !map_map. apply map_ext. intros i. reflexivity.
Qed.
(** rounding recovers an integer from any approximation closer than 1/2 *)
Lemma rround_near x z : Rabs (x - IZR z) < 1 / 2 -> rround x = z.
Proof.
  intros H. apply Rabs_def2 in H. destruct H as [H1 H2]. unfold rround. destruct (base_Int_part x) as [B1 B2]. set (k := Int_part x) in *.
  assert (K : (k = z \/ k = z - 1)%Z).
  { assert (A1 : IZR k < IZR z + 1) by lra. assert (A2 : IZR z - 1 - 1 / 2 < IZR k) by lra.
    assert ((k < z + 1)%Z) by (apply lt_IZR; rewrite plus_IZR; lra). assert ((z - 2 < k)%Z) by (apply lt_IZR; rewrite minus_IZR; lra). lia. }
  destruct K as [K|K].
  - rewrite K in *. destruct (Rlt_dec (x - IZR z) (1 / 2)); [reflexivity|lra].
  - rewrite K in *. rewrite minus_IZR in *. destruct (Rlt_dec (x - (IZR z - 1)) (1 / 2)); [lra|]. destruct (Rlt_dec (1 / 2) (x - (IZR z - 1))); [lia|lra].
Qed.
Lemma rround_IZR z : rround (IZR z) = z.
Proof. apply rround_near. replace (IZR z - IZR z) with 0 by ring. rewrite Rabs_R0. lra. Qed.
