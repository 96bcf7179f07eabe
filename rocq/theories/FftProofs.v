(** Exactness of the FFT, of the sampling tree and of the preimage sampler when the arithmetic is exact. *)
From Coq Require Import Reals Lra Lia.
From Verif Require Import Base RingSpec FftModel FftSpec.
Import List.
Open Scope R_scope.

Notation cadd := (cadd RN). Notation csub := (csub RN). Notation cmul := (cmul RN). Notation copp := (copp RN). Notation conj := (conj RN). Notation chalf := (chalf RN).
Definition c0 : CR := (0, 0). Definition c1 : CR := (1, 0).
Ltac cx := repeat match goal with x : (R * R)%type |- _ => destruct x end; cbn [fst snd FftModel.cadd FftModel.csub FftModel.cmul FftModel.copp FftModel.conj FftModel.chalf RN nadd nsub nmul nopp nhalf c0 c1 fst snd].
Lemma c_ring : ring_theory c0 c1 cadd cmul csub copp eq.
Proof.
  constructor; intros; cx; unfold c0, c1, FftModel.cadd, FftModel.csub, FftModel.cmul, FftModel.copp; cbn [fst snd nadd nsub nmul nopp RN]; apply injective_projections; cbn [fst snd]; ring.
Qed.
Add Ring CRing : c_ring.
Ltac cring := ring.
Notation "x +c y" := (cadd x y) (at level 50, left associativity).
Notation "x -c y" := (csub x y) (at level 50, left associativity).
Notation "x *c y" := (cmul x y) (at level 40, left associativity).
Definition inj (r : R) : CR := (r, 0).

Lemma ropp_copp z : ropp z = copp z. Proof. reflexivity. Qed.
Lemma ev_cons a f x : ev (a :: f) x = inj a +c x *c ev f x.
Proof. cbn [ev]. destruct x as [x y], (ev f (x, y)) as [u v]. unfold inj, cmulx, FftModel.cadd, FftModel.cmul. cbn [fst snd RN nadd nsub nmul]. apply injective_projections; cbn [fst snd]; cring. Qed.
Lemma ev_nil x : ev [] x = c0. Proof. reflexivity. Qed.

(** * Lists *)
Lemma pair_ind {A} (P : list A -> Prop) : P [] -> (forall a, P [a]) -> (forall a b l, P l -> P (a :: b :: l)) -> forall l, P l.
Proof.
  intros H0 H1 H2 l. assert (X : forall n l, (length l <= n)%nat -> P l).
  { induction n as [|n IH]; intros l' L; [destruct l'; [auto|cbn in L; lia]|]. destruct l' as [|a [|b l']]; auto. apply H2, IH. cbn in L. lia. }
  apply (X (length l)). lia.
Qed.
Lemma evens_merge {A} (f0 f1 : list A) : length f0 = length f1 -> evens (merge f0 f1) = f0 /\ odds (merge f0 f1) = f1.
Proof. revert f1. induction f0 as [|a f0 IH]; intros [|b f1] L; cbn in L; try discriminate; [now split|]. cbn [merge evens odds]. destruct (IH f1 (eq_add_S _ _ L)) as [-> ->]. now split. Qed.
Lemma merge_split {A} (f : list A) : Nat.even (length f) = true -> merge (evens f) (odds f) = f.
Proof. induction f as [|a|a b f IH] using pair_ind; intros H; [reflexivity|discriminate|]. cbn [evens odds merge]. now rewrite IH. Qed.
Lemma evens_length {A} (f : list A) : length (evens f) = (length f / 2)%nat /\ length (odds f) = (length f / 2)%nat.
Proof.
  induction f as [|a|a b f [IH1 IH2]] using pair_ind; [now split|now split|]. cbn [evens odds length]. rewrite IH1, IH2.
  replace (S (S (length f))) with (length f + 1 * 2)%nat by lia. rewrite Nat.div_add by lia. split; lia.
Qed.
Lemma merge_length {A} (f0 f1 : list A) : length f0 = length f1 -> length (merge f0 f1) = (2 * length f0)%nat.
Proof. revert f1. induction f0 as [|a f0 IH]; intros [|b f1] L; cbn in L; try discriminate; [reflexivity|]. cbn [merge length]. rewrite IH by lia. lia. Qed.
Lemma even_2 m : Nat.even (2 * m) = true. Proof. rewrite Nat.even_mul. reflexivity. Qed.
Lemma combine_map {A B D E} (f : A -> B) (g : A -> D) (h : B * D -> E) l : map h (combine (map f l) (map g l)) = map (fun x => h (f x, g x)) l.
Proof. induction l as [|x l IH]; [reflexivity|]. cbn [map combine]. now rewrite IH. Qed.
Lemma combine_map3 {A B D E G} (f : A -> B) (g : A -> D) (k : A -> E) (h : B * D * E -> G) l :
  map h (combine (combine (map f l) (map g l)) (map k l)) = map (fun x => h (f x, g x, k x)) l.
Proof. induction l as [|x l IH]; [reflexivity|]. cbn [map combine]. now rewrite IH. Qed.
Lemma merge_map {A B} (f g : A -> B) l : merge (map f l) (map g l) = flat_map (fun x => [f x; g x]) l.
Proof. induction l as [|x l IH]; [reflexivity|]. cbn [map merge flat_map app]. now rewrite IH. Qed.
Lemma flat_map_pair {A} (f g : A -> CR) l : evens (flat_map (fun x => [f x; g x]) l) = map f l /\ odds (flat_map (fun x => [f x; g x]) l) = map g l.
Proof. induction l as [|x l [IH1 IH2]]; [now split|]. cbn [flat_map app evens odds map]. now rewrite IH1, IH2. Qed.

(** * Roots *)
Definition unit (z : CR) : Prop := fst z * fst z + snd z * snd z = 1.
Lemma unit_bounds z : unit z -> -1 <= fst z <= 1.
Proof. unfold unit. intros H. split; nra. Qed.
Lemma usqrt_unit z : unit z -> unit (usqrt z).
Proof.
  intros H. pose proof (unit_bounds z H). unfold unit, usqrt. cbn [fst snd].
  assert (A : sqrt ((1 + fst z) / 2) * sqrt ((1 + fst z) / 2) = (1 + fst z) / 2) by (apply sqrt_sqrt; lra).
  assert (B : sqrt ((1 - fst z) / 2) * sqrt ((1 - fst z) / 2) = (1 - fst z) / 2) by (apply sqrt_sqrt; lra).
  destruct (Rle_dec 0 (snd z)); nra.
Qed.
Lemma usqrt_sq z : unit z -> usqrt z *c usqrt z = z.
Proof.
  intros H. pose proof (unit_bounds z H). destruct z as [x y]. unfold usqrt, FftModel.cmul. cbn [fst snd RN nadd nsub nmul] in *.
  assert (A : sqrt ((1 + x) / 2) * sqrt ((1 + x) / 2) = (1 + x) / 2) by (apply sqrt_sqrt; lra).
  assert (B : sqrt ((1 - x) / 2) * sqrt ((1 - x) / 2) = (1 - x) / 2) by (apply sqrt_sqrt; lra).
  set (a := sqrt ((1 + x) / 2)) in *. set (b := sqrt ((1 - x) / 2)) in *.
  assert (Pa : 0 <= a) by apply sqrt_pos. assert (Pb : 0 <= b) by apply sqrt_pos. unfold unit in H. cbn [fst snd] in H.
  assert (Q : (2 * (a * b)) * (2 * (a * b)) = y * y) by nra.
  assert (P : 0 <= 2 * (a * b)) by nra.
  destruct (Rle_dec 0 y) as [Hy|Hy]; apply injective_projections; cbn [fst snd]; try lra.
  - assert (2 * (a * b) = y) by (apply Rsqr_inj; unfold Rsqr; lra). lra.
  - assert (2 * (a * b) = - y) by (apply Rsqr_inj; unfold Rsqr; lra). lra.
Qed.
Lemma rts_unit k : Forall unit (rts k).
Proof.
  induction k as [|k IH]; cbn [rts]; [constructor; [unfold unit; cbn [fst snd]; lra|constructor]|]. apply Forall_flat_map. eapply Forall_impl; [|exact IH]. intros z Hz.
  pose proof (usqrt_unit z Hz) as U. constructor; [exact U|]. constructor; [|constructor]. unfold unit, ropp in *. cbn [fst snd]. lra.
Qed.
Lemma rts_length k : length (rts k) = (2 ^ k)%nat.
Proof. induction k as [|k IH]; [reflexivity|]. cbn [rts]. rewrite Nat.pow_succ_r', <- IH. generalize (rts k). induction l as [|x l IHl]; [reflexivity|]. cbn [flat_map app length]. lia. Qed.
Fixpoint cpow (x : CR) (n : nat) : CR := match n with O => c1 | S k => x *c cpow x k end.
Lemma cpow_add x a b : cpow x (a + b) = cpow x a *c cpow x b.
Proof. induction a as [|a IH]; cbn [Nat.add cpow]; [cring|]. rewrite IH. cring. Qed.
Lemma cpow_sq x n : cpow x (2 * n) = cpow (x *c x) n.
Proof. induction n as [|n IH]; [reflexivity|]. replace (2 * S n)%nat with (S (S (2 * n))) by lia. cbn [cpow]. rewrite IH. cring. Qed.
Lemma rts_root k : Forall (fun z => cpow z (2 ^ k) = copp c1) (rts k).
Proof.
  induction k as [|k IH].
  - constructor; [|constructor]. cbn [Nat.pow cpow]. unfold c1, FftModel.cmul, FftModel.copp. cbn [fst snd RN nadd nsub nmul nopp]. apply injective_projections; cbn [fst snd]; cring.
  - cbn [rts]. apply Forall_flat_map. apply Forall_forall. intros z Hz. pose proof (proj1 (Forall_forall _ _) IH z Hz) as E. pose proof (proj1 (Forall_forall _ _) (rts_unit k) z Hz) as U.
    rewrite Nat.pow_succ_r'. constructor; [|constructor; [|constructor]]; rewrite cpow_sq.
    + now rewrite usqrt_sq.
    + rewrite ropp_copp. replace (copp (usqrt z) *c copp (usqrt z)) with (usqrt z *c usqrt z) by cring. now rewrite usqrt_sq.
Qed.
Lemma rts_evens k : evens (rts (S k)) = map usqrt (rts k).
Proof. cbn [rts]. apply (proj1 (flat_map_pair usqrt (fun z => ropp (usqrt z)) (rts k))). Qed.
Lemma log2_pow k : Nat.log2 (2 ^ k) = k. Proof. apply Nat.log2_pow2. lia. Qed.
Lemma conj_unit w : unit w -> w *c conj w = c1.
Proof. unfold unit. intros H. destruct w as [x y]. unfold FftModel.cmul, FftModel.conj, c1. cbn [fst snd RN nadd nsub nmul nopp] in *. apply injective_projections; cbn [fst snd]; lra. Qed.

(** * Evaluation *)
Lemma ev_split f x : Nat.even (length f) = true -> ev f x = ev (evens f) (x *c x) +c x *c ev (odds f) (x *c x).
Proof.
  induction f as [|a|a b f IH] using pair_ind; intros H; [rewrite !ev_nil; cring|discriminate|]. cbn [evens odds]. rewrite !ev_cons, IH by exact H. cring.
Qed.
Lemma ev_at_root f z : Nat.even (length f) = true -> unit z ->
  ev f (usqrt z) = ev (evens f) z +c usqrt z *c ev (odds f) z /\ ev f (ropp (usqrt z)) = ev (evens f) z -c usqrt z *c ev (odds f) z.
Proof.
  intros H U. split; rewrite ev_split by exact H; rewrite ?ropp_copp.
  - now rewrite usqrt_sq.
  - replace (copp (usqrt z) *c copp (usqrt z)) with (usqrt z *c usqrt z) by cring. rewrite usqrt_sq by exact U. cring.
Qed.

Notation merge_fft := (merge_fft RN xroots). Notation split_fft := (split_fft RN xroots). Notation fft := (fft RN xroots). Notation ifft := (ifft RN xroots).
(** the FFT representation of a polynomial of length 2^k *)
Definition rep (k : nat) (f : list R) : list CR := map (ev f) (rts k).
Lemma rep_length k f : length (rep k f) = (2 ^ k)%nat.
Proof. unfold rep. now rewrite map_length, rts_length. Qed.

Theorem merge_rep k f0 f1 : length f0 = length f1 -> merge_fft (rep k f0) (rep k f1) = rep (S k) (merge f0 f1).
Proof.
  intros L. unfold FftModel.merge_fft. rewrite rep_length. change (2 * 2 ^ k)%nat with (2 ^ S k)%nat. unfold xroots. rewrite log2_pow, rts_evens. unfold rep.
  rewrite !combine_map3, merge_map. cbn [rts]. rewrite flat_map_concat_map, flat_map_concat_map, concat_map, map_map. f_equal. apply map_ext_in. intros z Hz.
  pose proof (proj1 (Forall_forall _ _) (rts_unit k) z Hz) as U. cbn [map].
  assert (EL : Nat.even (length (merge f0 f1)) = true) by (rewrite merge_length by exact L; apply even_2).
  destruct (ev_at_root (merge f0 f1) z EL U) as [-> ->]. destruct (evens_merge f0 f1 L) as [-> ->]. reflexivity.
Qed.
Theorem split_rep k f : length f = (2 ^ S k)%nat -> split_fft (rep (S k) f) = (rep k (evens f), rep k (odds f)).
Proof.
  intros L. assert (EL : Nat.even (length f) = true) by (rewrite L; apply even_2).
  unfold FftModel.split_fft. rewrite rep_length. unfold xroots. rewrite log2_pow, rts_evens. unfold rep. cbn [rts].
  assert (E : map (ev f) (flat_map (fun z => [usqrt z; ropp (usqrt z)]) (rts k)) = flat_map (fun z => [ev (evens f) z +c usqrt z *c ev (odds f) z; ev (evens f) z -c usqrt z *c ev (odds f) z]) (rts k)).
  { rewrite !flat_map_concat_map, concat_map, map_map. f_equal. apply map_ext_in. intros z Hz. pose proof (proj1 (Forall_forall _ _) (rts_unit k) z Hz) as U.
    cbn [map]. destruct (ev_at_root f z EL U) as [-> ->]. reflexivity. }
  rewrite E. destruct (flat_map_pair (fun z => ev (evens f) z +c usqrt z *c ev (odds f) z) (fun z => ev (evens f) z -c usqrt z *c ev (odds f) z) (rts k)) as [-> ->].
  rewrite combine_map, combine_map3. f_equal; apply map_ext_in; intros z Hz.
  - destruct (ev (evens f) z) as [a b]. destruct (usqrt z *c ev (odds f) z) as [c d]. unfold FftModel.chalf, FftModel.cadd, FftModel.csub. cbn [fst snd RN nadd nsub nhalf]. apply injective_projections; cbn [fst snd]; field.
  - pose proof (usqrt_unit z (proj1 (Forall_forall _ _) (rts_unit k) z Hz)) as U. pose proof (conj_unit _ U) as CU. set (w := usqrt z) in *. set (e := ev (odds f) z). set (d := ev (evens f) z).
    replace (chalf (d +c w *c e -c (d -c w *c e))) with (w *c e).
    + replace (w *c e *c conj w) with (e *c (w *c conj w)) by cring. rewrite CU. cring.
    + destruct (w *c e) as [p r], d as [s t]. unfold FftModel.chalf, FftModel.cadd, FftModel.csub. cbn [fst snd RN nadd nsub nhalf]. apply injective_projections; cbn [fst snd]; field.
Qed.

Lemma len2 {A} (f : list A) k : length f = (2 ^ S k)%nat -> length (evens f) = (2 ^ k)%nat /\ length (odds f) = (2 ^ k)%nat.
Proof. intros L. destruct (evens_length f) as [-> ->]. rewrite L, Nat.pow_succ_r'. rewrite Nat.mul_comm, Nat.div_mul by lia. now split. Qed.
Lemma pow_gt2 k : (2 < 2 ^ S (S k))%nat.
Proof. pose proof (Nat.pow_le_mono_r 2 0 k ltac:(lia) ltac:(lia)). rewrite !Nat.pow_succ_r'. cbn [Nat.pow] in H. lia. Qed.
Theorem fft_rep_rec k : forall fuel f, (S k <= fuel)%nat -> length f = (2 ^ S k)%nat -> fft_rec RN xroots fuel f = Ok (rep (S k) f).
Proof.
  induction k as [|k IH]; intros [|fuel] f Hf L; try lia; cbn [fft_rec].
  - rewrite L. change ((2 <? 2 ^ 1)%nat) with false. cbn iota. destruct f as [|a [|b [|c f]]]; cbn in L; try lia. f_equal.
    pose proof (merge_rep 0 [a] [b] eq_refl) as M. cbn [merge] in M. rewrite <- M. unfold FftModel.merge_fft, rep, xroots. rewrite map_length. cbn [rts length map].
    change (Nat.log2 (2 * 1)) with 1%nat. rewrite rts_evens. cbn [rts map combine merge].
    assert (Q : usqrt (-1, 0) = (0, 1)).
    { unfold usqrt. cbn [fst snd]. replace ((1 + -1) / 2) with 0 by lra. replace ((1 - -1) / 2) with 1 by lra. rewrite sqrt_0, sqrt_1. destruct (Rle_dec 0 0); [reflexivity|lra]. }
    rewrite Q. unfold FftModel.cadd, FftModel.csub, FftModel.cmul, cmulx. cbn [ev fst snd RN nadd nsub nmul nopp]. unfold cmulx; cbn [fst snd]. f_equal; [|f_equal]; apply injective_projections; cbn [fst snd]; cring.
  - rewrite L. rewrite (proj2 (Nat.ltb_lt _ _) (pow_gt2 k)). destruct (len2 f (S k) L) as [L0 L1]. rewrite !IH by (auto; lia). cbn [bind]. f_equal.
    rewrite merge_rep by congruence. rewrite merge_split; [reflexivity|]. rewrite L. apply even_2.
Qed.
Theorem fft_rep k f : (1 <= k)%nat -> length f = (2 ^ k)%nat -> fft f = Ok (rep k f).
Proof.
  intros Hk L. destruct k as [|k]; [lia|]. unfold FftModel.fft. apply fft_rep_rec; auto. rewrite L. clear. induction (S k) as [|m IH]; [cbn; lia|]. rewrite Nat.pow_succ_r'. pose proof (Nat.pow_nonzero 2 m ltac:(lia)). lia.
Qed.
Theorem ifft_rep_rec k : forall fuel f, (S k <= fuel)%nat -> length f = (2 ^ S k)%nat -> ifft_rec RN xroots fuel (rep (S k) f) = Ok f.
Proof.
  induction k as [|k IH]; intros [|fuel] f Hf L; try lia; cbn [ifft_rec]; rewrite rep_length.
  - change ((2 <? 2 ^ 1)%nat) with false. cbn iota. destruct f as [|a [|b [|c f]]]; cbn in L; try lia.
    pose proof (fft_rep_rec 0 1 [a; b] ltac:(lia) eq_refl) as E. cbn [fft_rec length] in E. change ((2 <? 2)%nat) with false in E. cbn iota in E.
    assert (Q : rep 1 [a; b] = [(a, b); (a, - b)]) by (cbn [RN nopp] in E; congruence). rewrite Q. reflexivity.
  - rewrite (proj2 (Nat.ltb_lt _ _) (pow_gt2 k)). rewrite split_rep by exact L. destruct (len2 f (S k) L) as [L0 L1]. rewrite !IH by (auto; lia). cbn [bind]. f_equal.
    apply merge_split. rewrite L. apply even_2.
Qed.
Theorem ifft_rep k f : (1 <= k)%nat -> length f = (2 ^ k)%nat -> ifft (rep k f) = Ok f.
Proof.
  intros Hk L. destruct k as [|k]; [lia|]. unfold FftModel.ifft. apply ifft_rep_rec; auto. rewrite rep_length. clear. induction (S k) as [|m IH]; [cbn; lia|]. rewrite Nat.pow_succ_r'. pose proof (Nat.pow_nonzero 2 m ltac:(lia)). lia.
Qed.
