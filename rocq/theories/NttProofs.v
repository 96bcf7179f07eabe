(** Proofs about the NTT model. *)
From Verif Require Import Base KeccakModel ChachaProofs RingSpec Ring NtruModel PolyProofs NttTables NttModel.
From Coq Require Import Setoid Morphisms Zdiv Ring.

Section Layers.
Variable Q : Z.
Hypothesis HQ : 1 < Q < two256.

(** A layer on functions (no reduction) *)
Definition fwF (psi : nat -> Z) (m t : nat) (A : nat -> Z) (p : nat) : Z :=
  let i := (p / (2 * t))%nat in
  if (p mod (2 * t) <? t)%nat then A p + A (p + t)%nat * psi (m + i)%nat
  else A (p - t)%nat - A p * psi (m + i)%nat.
Definition invF (psi : nat -> Z) (h t : nat) (A : nat -> Z) (p : nat) : Z :=
  let i := (p / (2 * t))%nat in
  if (p mod (2 * t) <? t)%nat then A p + A (p + t)%nat
  else (A (p - t)%nat - A p) * psi (h + i)%nat.

(** A butterfly network on a group: any in-place operation on the pairs (j, j+t). *)
Section Group.
Variable t : nat.
Variables fu fv : Z -> Z -> Z.
Variable step : list Z -> nat -> list Z.
Hypothesis step_def : forall a j, step a j = upd (upd a (j + t) (fv (nth j a 0) (nth (j + t) a 0))) j (fu (nth j a 0) (nth (j + t) a 0)).
Lemma group_length l : forall a, length (fold_left step l a) = length a.
Proof. induction l as [|j l IH]; intros a; cbn [fold_left]; auto. rewrite IH, step_def, !upd_length. reflexivity. Qed.
Lemma group_nth s a : (0 < t)%nat -> (s + 2 * t <= length a)%nat -> forall k, (k <= t)%nat -> forall p,
  nth p (fold_left step (seq s k) a) 0 =
  if ((s <=? p) && (p <? s + k))%nat then fu (nth p a 0) (nth (p + t) a 0)
  else if ((s + t <=? p) && (p <? s + t + k))%nat then fv (nth (p - t) a 0) (nth p a 0)
  else nth p a 0.
Proof.
  intros Ht Hl. induction k as [|k IH]; intros Hk p.
  - cbn [seq fold_left]. repeat match goal with |- context [if ?b then _ else _] => destruct b eqn:?; try lia end.
  - rewrite seq_S, fold_left_app. cbn [fold_left]. rewrite step_def.
    set (a' := fold_left step (seq s k) a) in *.
    assert (La : length a' = length a) by apply group_length.
    assert (E1 : nth (s + k) a' 0 = nth (s + k) a 0).
    { rewrite IH by lia. repeat match goal with |- context [if ?b then _ else _] => destruct b eqn:?; try lia end. }
    assert (E2 : nth (s + k + t) a' 0 = nth (s + k + t) a 0).
    { rewrite IH by lia. repeat match goal with |- context [if ?b then _ else _] => destruct b eqn:?; try lia end. }
    rewrite E1, E2. rewrite nth_upd by (rewrite upd_length; lia). rewrite nth_upd by lia.
    destruct (Nat.eqb_spec p (s + k)) as [->|].
    + repeat match goal with |- context [if ?b then _ else _] => destruct b eqn:?; try lia end.
    + destruct (Nat.eqb_spec p (s + k + t)) as [->|].
      * repeat match goal with |- context [if ?b then _ else _] => destruct b eqn:?; try lia end.
        replace (s + k + t - t)%nat with (s + k)%nat by lia. reflexivity.
      * rewrite IH by lia. repeat match goal with |- context [if ?b then _ else _] => destruct b eqn:?; try lia end.
Qed.
End Group.

Lemma wrap_sub V : 0 <= V <= Q -> (Q - V) mod two256 = Q - V.
Proof. intros. apply Z.mod_small. lia. Qed.

(** One layer, list version *)
Section Layer.
Variables (m t : nat).
Variables fu fv : nat -> Z -> Z -> Z.
Variable group : list Z -> nat -> list Z.
Hypothesis tpos : (0 < t)%nat.
Hypothesis group_len : forall a i, length (group a i) = length a.
Hypothesis group_def : forall a i, (2 * (i * t) + 2 * t <= length a)%nat -> forall p, nth p (group a i) 0 =
  if ((2 * (i * t) <=? p) && (p <? 2 * (i * t) + t))%nat then fu i (nth p a 0) (nth (p + t) a 0)
  else if ((2 * (i * t) + t <=? p) && (p <? 2 * (i * t) + t + t))%nat then fv i (nth (p - t) a 0) (nth p a 0)
  else nth p a 0.
Lemma layer_length l : forall a, length (fold_left group l a) = length a.
Proof. induction l as [|j l IH]; intros a; cbn [fold_left]; auto. rewrite IH. apply group_len. Qed.
Lemma layer_nth a k : (2 * (k * t) <= length a)%nat -> forall p,
  nth p (fold_left group (seq 0 k) a) 0 =
  if (p <? 2 * (k * t))%nat then
    let i := (p / (2 * t))%nat in
    if (p mod (2 * t) <? t)%nat then fu i (nth p a 0) (nth (p + t) a 0) else fv i (nth (p - t) a 0) (nth p a 0)
  else nth p a 0.
Proof.
  induction k as [|k IH]; intros Hk p; [reflexivity|].
  rewrite seq_S, fold_left_app. cbn [fold_left]. rewrite Nat.add_0_l.
  set (a' := fold_left group (seq 0 k) a) in *.
  assert (La : length a' = length a) by apply layer_length.
  rewrite group_def by nia.
  assert (Out : forall x, (2 * (k * t) <= x)%nat -> nth x a' 0 = nth x a 0).
  { intros x Hx. unfold a'. rewrite IH by nia. destruct (Nat.ltb_spec x (2 * (k * t))); [lia|reflexivity]. }
  destruct ((2 * (k * t) <=? p) && (p <? 2 * (k * t) + t))%nat eqn:E1; [|destruct ((2 * (k * t) + t <=? p) && (p <? 2 * (k * t) + t + t))%nat eqn:E2].
  - assert (Hd : (p / (2 * t) = k)%nat) by (symmetry; apply (Nat.div_unique _ _ _ (p - 2 * (k * t))); nia).
    assert (Hm : (p mod (2 * t) = p - 2 * (k * t))%nat) by (symmetry; apply (Nat.mod_unique _ _ k); nia).
    destruct (Nat.ltb_spec p (2 * (S k * t))); [|nia]. cbv zeta. rewrite Hd, Hm.
    destruct (Nat.ltb_spec (p - 2 * (k * t)) t); [|lia]. rewrite !Out by lia. reflexivity.
  - assert (Hd : (p / (2 * t) = k)%nat) by (symmetry; apply (Nat.div_unique _ _ _ (p - 2 * (k * t))); nia).
    assert (Hm : (p mod (2 * t) = p - 2 * (k * t))%nat) by (symmetry; apply (Nat.mod_unique _ _ k); nia).
    destruct (Nat.ltb_spec p (2 * (S k * t))); [|nia]. cbv zeta. rewrite Hd, Hm.
    destruct (Nat.ltb_spec (p - 2 * (k * t)) t); [lia|]. rewrite !Out by lia. reflexivity.
  - unfold a'. rewrite IH by nia. destruct (Nat.ltb_spec p (2 * (k * t))).
    + destruct (Nat.ltb_spec p (2 * (S k * t))); [reflexivity|nia].
    + destruct (Nat.ltb_spec p (2 * (S k * t))); [|reflexivity].
      assert (2 * (S k * t) = 2 * (k * t) + t + t)%nat by nia. lia.
Qed.
End Layer.

Definition ln (a : list Z) (p : nat) : Z := nth p a 0.
Lemma fw_layer_length psi m t a : length (fw_layer Q psi m t a) = length a.
Proof.
  unfold fw_layer. apply layer_length. intros a' i. unfold fw_group.
  apply (group_length t (fun U x => (U + (x * psi (m + i)%nat) mod Q) mod Q)
    (fun U x => (U + (Q - (x * psi (m + i)%nat) mod Q) mod two256) mod Q)). reflexivity.
Qed.
Lemma inv_layer_length psi m t a : length (inv_layer Q psi m t a) = length a.
Proof.
  unfold inv_layer. apply layer_length. intros a' i. unfold inv_group.
  apply (group_length t (fun U x => (U + x) mod Q) (fun U V => ((U + (Q - V) mod two256) mod Q * psi (m + i)%nat) mod Q)). reflexivity.
Qed.
Lemma fw_layer_nth psi m t a p : (0 < t)%nat -> (2 * (m * t) = length a)%nat -> (p < length a)%nat ->
  ln (fw_layer Q psi m t a) p = fwF psi m t (ln a) p mod Q.
Proof.
  intros Ht Hl Hp. unfold ln at 1, fw_layer.
  rewrite (layer_nth t (fun i U x => (U + (x * psi (m + i)%nat) mod Q) mod Q)
    (fun i U x => (U + (Q - (x * psi (m + i)%nat) mod Q) mod two256) mod Q)); auto; try lia.
  - destruct (Nat.ltb_spec p (2 * (m * t))); [|lia]. cbv zeta. unfold fwF, ln. cbv zeta.
    destruct (p mod (2 * t) <? t)%nat.
    + rewrite Z.add_mod_idemp_r by lia. reflexivity.
    + rewrite wrap_sub by (pose proof (Z.mod_pos_bound (nth p a 0 * psi (m + p / (2 * t))%nat) Q); lia).
      replace (nth (p - t) a 0 + (Q - (nth p a 0 * psi (m + p / (2 * t))%nat) mod Q))
        with (nth (p - t) a 0 - (nth p a 0 * psi (m + p / (2 * t))%nat) mod Q + 1 * Q) by ring.
      rewrite Z.mod_add, Zminus_mod_idemp_r by lia. reflexivity.
  - intros a' i. unfold fw_group.
    apply (group_length t (fun U x => (U + (x * psi (m + i)%nat) mod Q) mod Q)
      (fun U x => (U + (Q - (x * psi (m + i)%nat) mod Q) mod two256) mod Q)). reflexivity.
  - intros a' i Hi q0. unfold fw_group.
    apply (group_nth t (fun U x => (U + (x * psi (m + i)%nat) mod Q) mod Q) (fun U x => (U + (Q - (x * psi (m + i)%nat) mod Q) mod two256) mod Q)); auto.
Qed.
Lemma inv_layer_nth psi h t a p : (0 < t)%nat -> (2 * (h * t) = length a)%nat -> (p < length a)%nat ->
  (forall x, (x < length a)%nat -> 0 <= ln a x <= Q) ->
  ln (inv_layer Q psi h t a) p = invF psi h t (ln a) p mod Q.
Proof.
  intros Ht Hl Hp Hr. unfold ln at 1, inv_layer.
  rewrite (layer_nth t (fun i U x => (U + x) mod Q) (fun i U V => ((U + (Q - V) mod two256) mod Q * psi (h + i)%nat) mod Q)); auto; try lia.
  - destruct (Nat.ltb_spec p (2 * (h * t))); [|lia]. cbv zeta. unfold invF, ln. cbv zeta.
    destruct (p mod (2 * t) <? t)%nat; [reflexivity|].
    rewrite wrap_sub by (apply Hr; lia).
    replace (nth (p - t) a 0 + (Q - nth p a 0)) with (nth (p - t) a 0 - nth p a 0 + 1 * Q) by ring.
    rewrite Z.mod_add, Z.mul_mod_idemp_l by lia. reflexivity.
  - intros a' i. unfold inv_group.
    apply (group_length t (fun U x => (U + x) mod Q) (fun U V => ((U + (Q - V) mod two256) mod Q * psi (h + i)%nat) mod Q)). reflexivity.
  - intros a' i Hi q0. unfold inv_group. apply (group_nth t (fun U x => (U + x) mod Q) (fun U V => ((U + (Q - V) mod two256) mod Q * psi (h + i)%nat) mod Q)); auto.
Qed.
End Layers.

(** * The transforms as functions, modulo Q *)
Section Mod.
Variable Q : Z.
Record cgm (x y : Z) : Prop := Cgm { cgm_eq : x mod Q = y mod Q }.
Notation "x == y" := (cgm x y) (at level 70).
Global Instance cgm_equiv : Equivalence cgm.
Proof. split; [constructor; auto|intros x y []; constructor; auto|intros x y z [] []; constructor; congruence]. Qed.
Global Instance cgm_add : Proper (cgm ==> cgm ==> cgm) Z.add.
Proof. intros x y [H] x' y' [H']. constructor. now apply Zplus_eqm. Qed.
Global Instance cgm_mul : Proper (cgm ==> cgm ==> cgm) Z.mul.
Proof. intros x y [H] x' y' [H']. constructor. now apply Zmult_eqm. Qed.
Global Instance cgm_opp : Proper (cgm ==> cgm) Z.opp.
Proof. intros x y [H]. constructor. now apply Zopp_eqm. Qed.
Global Instance cgm_sub : Proper (cgm ==> cgm ==> cgm) Z.sub.
Proof. intros x y [H] x' y' [H']. constructor. now apply Zminus_eqm. Qed.
Ltac rr := first [ring | constructor; f_equal; ring].
Global Instance pow_eqm : Proper (cgm ==> eq ==> cgm) Z.pow.
Proof.
  intros x y H e e' <-. destruct (Z.le_gt_cases 0 e) as [He|He]; [|rewrite !Z.pow_neg_r by lia; reflexivity].
  revert e He. apply natlike_ind; [reflexivity|]. intros e He IH. rewrite !Z.pow_succ_r by lia. apply cgm_mul; auto.
Qed.
Lemma sum_eqm n f g : (forall i, (i < n)%nat -> f i == g i) -> sum_to n f == sum_to n g.
Proof. induction n as [|n IH]; intros H; [reflexivity|]. cbn [sum_to]. rewrite IH by auto. rewrite H by lia. reflexivity. Qed.
Lemma eqm_mod x : x mod Q == x. Proof. constructor. apply Zmod_eqm. Qed.

(** equality of vectors of length n, modulo Q *)
Definition veq (n : nat) (A B : nat -> Z) : Prop := forall p, (p < n)%nat -> A p == B p.
Lemma fwF_veq psi m t n A B : (0 < t)%nat -> (2 * (m * t) = n)%nat -> veq n A B -> veq n (fwF psi m t A) (fwF psi m t B).
Proof.
  intros Ht Hn H p Hp. unfold fwF. cbv zeta.
  assert (p = 2 * t * (p / (2 * t)) + p mod (2 * t))%nat by (apply Nat.div_mod; lia).
  assert (p / (2 * t) < m)%nat by (apply Nat.div_lt_upper_bound; nia).
  destruct (Nat.ltb_spec (p mod (2 * t)) t).
  - rewrite (H p), (H (p + t)%nat) by nia. reflexivity.
  - rewrite (H p), (H (p - t)%nat) by lia. reflexivity.
Qed.
Lemma invF_veq psi m t n A B : (0 < t)%nat -> (2 * (m * t) = n)%nat -> veq n A B -> veq n (invF psi m t A) (invF psi m t B).
Proof.
  intros Ht Hn H p Hp. unfold invF. cbv zeta.
  assert (p = 2 * t * (p / (2 * t)) + p mod (2 * t))%nat by (apply Nat.div_mod; lia).
  assert (p / (2 * t) < m)%nat by (apply Nat.div_lt_upper_bound; nia).
  destruct (Nat.ltb_spec (p mod (2 * t)) t).
  - rewrite (H p), (H (p + t)%nat) by nia. reflexivity.
  - rewrite (H p), (H (p - t)%nat) by lia. reflexivity.
Qed.
Definition scale (c : Z) (A : nat -> Z) (p : nat) : Z := c * A p.
Lemma fwF_scale psi m t c A p : fwF psi m t (scale c A) p = scale c (fwF psi m t A) p.
Proof. unfold fwF, scale. cbv zeta. destruct (_ <? _)%nat; rr. Qed.
Lemma invF_scale psi m t c A p : invF psi m t (scale c A) p = scale c (invF psi m t A) p.
Proof. unfold invF, scale. cbv zeta. destruct (_ <? _)%nat; rr. Qed.
Lemma pos_split p t : (0 < t)%nat -> exists i o, (p = 2 * t * i + o /\ o < 2 * t /\ p / (2 * t) = i /\ p mod (2 * t) = o)%nat.
Proof.
  intros. exists (p / (2 * t))%nat, (p mod (2 * t))%nat. repeat split; auto. - apply Nat.div_mod; lia. - apply Nat.mod_upper_bound; lia.
Qed.
Lemma pos_div t i o : (o < 2 * t)%nat -> ((2 * t * i + o) / (2 * t) = i)%nat.
Proof. intros. symmetry. apply (Nat.div_unique _ _ _ o); auto. Qed.
Lemma pos_mod t i o : (o < 2 * t)%nat -> ((2 * t * i + o) mod (2 * t) = o)%nat.
Proof. intros. symmetry. apply (Nat.mod_unique _ _ i); auto. Qed.
(** forward then inverse layer, and conversely: multiplication by 2 *)
Lemma inv_fw_layer psi psii m t A p : (0 < t)%nat -> (forall i, (i < m)%nat -> psi (m + i)%nat * psii (m + i)%nat == 1) ->
  (p < 2 * (m * t))%nat -> invF psii m t (fwF psi m t A) p == 2 * A p.
Proof.
  intros Ht Hi Hp. destruct (pos_split p t Ht) as (i & o & E & Ho & Hd & Hm). assert (i < m)%nat by nia. specialize (Hi i H).
  unfold invF. cbv zeta. rewrite Hd, Hm. destruct (Nat.ltb_spec o t).
  - unfold fwF. cbv zeta. replace (p + t)%nat with (2 * t * i + (o + t))%nat by lia. rewrite E. rewrite !pos_div, !pos_mod by lia.
    destruct (Nat.ltb_spec o t), (Nat.ltb_spec (o + t) t); try lia.
    replace (2 * t * i + (o + t) - t)%nat with (2 * t * i + o)%nat by lia.
    replace (2 * t * i + o + t)%nat with (2 * t * i + (o + t))%nat by lia.
    rr.
  - unfold fwF. cbv zeta. replace (p - t)%nat with (2 * t * i + (o - t))%nat by lia. rewrite E. rewrite !pos_div, !pos_mod by lia.
    destruct (Nat.ltb_spec o t), (Nat.ltb_spec (o - t) t); try lia.
    replace (2 * t * i + (o - t) + t)%nat with (2 * t * i + o)%nat by lia.
    replace (2 * t * i + o - t)%nat with (2 * t * i + (o - t))%nat by lia.
    transitivity (2 * A (2 * t * i + o)%nat * (psi (m + i)%nat * psii (m + i)%nat)); [rr|]. rewrite Hi. rr.
Qed.
Lemma fw_inv_layer psi psii m t A p : (0 < t)%nat -> (forall i, (i < m)%nat -> psi (m + i)%nat * psii (m + i)%nat == 1) ->
  (p < 2 * (m * t))%nat -> fwF psi m t (invF psii m t A) p == 2 * A p.
Proof.
  intros Ht Hi Hp. destruct (pos_split p t Ht) as (i & o & E & Ho & Hd & Hm). assert (i < m)%nat by nia. specialize (Hi i H).
  unfold fwF. cbv zeta. rewrite Hd, Hm. destruct (Nat.ltb_spec o t).
  - unfold invF. cbv zeta. replace (p + t)%nat with (2 * t * i + (o + t))%nat by lia. rewrite E. rewrite !pos_div, !pos_mod by lia.
    destruct (Nat.ltb_spec o t), (Nat.ltb_spec (o + t) t); try lia.
    replace (2 * t * i + (o + t) - t)%nat with (2 * t * i + o)%nat by lia.
    replace (2 * t * i + o + t)%nat with (2 * t * i + (o + t))%nat by lia.
    transitivity (A (2 * t * i + o)%nat + A (2 * t * i + (o + t))%nat + (A (2 * t * i + o)%nat - A (2 * t * i + (o + t))%nat) * (psi (m + i)%nat * psii (m + i)%nat)); [rr|]. rewrite Hi. rr.
  - unfold invF. cbv zeta. replace (p - t)%nat with (2 * t * i + (o - t))%nat by lia. rewrite E. rewrite !pos_div, !pos_mod by lia.
    destruct (Nat.ltb_spec o t), (Nat.ltb_spec (o - t) t); try lia.
    replace (2 * t * i + (o - t) + t)%nat with (2 * t * i + o)%nat by lia.
    replace (2 * t * i + o - t)%nat with (2 * t * i + (o - t))%nat by lia.
    transitivity (A (2 * t * i + (o - t))%nat + A (2 * t * i + o)%nat - (A (2 * t * i + (o - t))%nat - A (2 * t * i + o)%nat) * (psi (m + i)%nat * psii (m + i)%nat)); [rr|]. rewrite Hi. rr.
Qed.

(** d layers from (m, t): after them the block size is t / 2^d *)
Fixpoint runF psi (d m t : nat) (A : nat -> Z) : nat -> Z :=
  match d with O => A | S d => runF psi d (2 * m) (t / 2) (fwF psi m (t / 2) A) end.
Fixpoint runI psi (d m t : nat) (A : nat -> Z) : nat -> Z :=
  match d with O => A | S d => invF psi m (t / 2) (runI psi d (2 * m) (t / 2) A) end.
Lemma half_pow d : (2 ^ S d / 2 = 2 ^ d)%nat.
Proof. rewrite Nat.pow_succ_r'. rewrite Nat.mul_comm. apply Nat.div_mul. lia. Qed.
Lemma pow_pos d : (0 < 2 ^ d)%nat. Proof. pose proof (Nat.pow_nonzero 2 d). lia. Qed.

Lemma layer_size n d m : (m * 2 ^ S d = n)%nat -> (2 * (m * 2 ^ d) = n)%nat /\ (2 * m * 2 ^ d = n)%nat.
Proof. rewrite Nat.pow_succ_r'. nia. Qed.
Section Run.
Variables psi : nat -> Z.
Variable n : nat.
Lemma runF_veq d : forall m A B, (m * 2 ^ d = n)%nat -> veq n A B -> veq n (runF psi d m (2 ^ d) A) (runF psi d m (2 ^ d) B).
Proof.
  induction d as [|d IH]; intros m A B Hn H; auto. cbn [runF]. rewrite half_pow. apply layer_size in Hn.
  apply IH; [tauto|]. apply fwF_veq; auto using pow_pos. tauto.
Qed.
Lemma runI_veq d : forall m A B, (m * 2 ^ d = n)%nat -> veq n A B -> veq n (runI psi d m (2 ^ d) A) (runI psi d m (2 ^ d) B).
Proof.
  induction d as [|d IH]; intros m A B Hn H; auto. cbn [runI]. rewrite half_pow. apply layer_size in Hn.
  apply invF_veq; auto using pow_pos; [tauto|]. apply IH; tauto.
Qed.
Lemma fwF_ext ps m t A B : (forall p, A p = B p) -> forall p, fwF ps m t A p = fwF ps m t B p.
Proof. intros H p. unfold fwF. cbv zeta. now rewrite !H. Qed.
Lemma invF_ext ps m t A B : (forall p, A p = B p) -> forall p, invF ps m t A p = invF ps m t B p.
Proof. intros H p. unfold invF. cbv zeta. now rewrite !H. Qed.
Lemma runF_ext ps d : forall m t A B, (forall p, A p = B p) -> forall p, runF ps d m t A p = runF ps d m t B p.
Proof. induction d as [|d IH]; intros m t A B H p; cbn [runF]; auto. apply IH. apply fwF_ext, H. Qed.
Lemma runI_ext ps d : forall m t A B, (forall p, A p = B p) -> forall p, runI ps d m t A p = runI ps d m t B p.
Proof. induction d as [|d IH]; intros m t A B H p; cbn [runI]; auto. apply invF_ext. intros. apply IH, H. Qed.
Lemma runF_scale ps d : forall m t c A p, runF ps d m t (scale c A) p = scale c (runF ps d m t A) p.
Proof.
  induction d as [|d IH]; intros m t c A p; cbn [runF]; auto. rewrite <- IH. apply runF_ext. intros. apply fwF_scale.
Qed.
Lemma runI_scale ps d : forall m t c A p, runI ps d m t (scale c A) p = scale c (runI ps d m t A) p.
Proof.
  induction d as [|d IH]; intros m t c A p; cbn [runI]; auto. rewrite <- invF_scale. apply invF_ext. intros. apply IH.
Qed.
End Run.
(** the last inverse layer first *)
Lemma runI_snoc ps d : forall m t A p, runI ps (S d) m t A p = runI ps d m t (invF ps (2 ^ d * m) (t / 2 ^ S d) A) p.
Proof.
  induction d as [|d IH]; intros m t A p.
  - cbn [runI]. rewrite Nat.mul_1_l. change (2 ^ 1)%nat with 2%nat. reflexivity.
  - change (runI ps (S (S d)) m t A p) with (invF ps m (t / 2) (runI ps (S d) (2 * m) (t / 2) A) p).
    rewrite (invF_ext ps m (t / 2) _ _ (IH (2 * m)%nat (t / 2)%nat A)).
    cbn [runI]. f_equal. f_equal.
    rewrite Nat.div_div by (try lia; pose proof (pow_pos (S d)); lia). rewrite <- Nat.pow_succ_r'. f_equal. rewrite Nat.pow_succ_r'. lia.
Qed.
Section RunInv.
Variables psi psii : nat -> Z.
Variable n : nat.
Hypothesis unit_ok : forall r, (1 <= r < n)%nat -> psi r * psii r == 1.
Lemma runI_runF d : forall m A, (m * 2 ^ d = n)%nat -> (1 <= m)%nat ->
  veq n (runI psii d m (2 ^ d) (runF psi d m (2 ^ d) A)) (scale (2 ^ Z.of_nat d) A).
Proof.
  induction d as [|d IH]; intros m A Hn Hm; [intros p Hp; unfold scale; cbn [runI runF]; change (2 ^ Z.of_nat 0) with 1; rr|].
  cbn [runI runF]. rewrite half_pow. pose proof (layer_size n d m Hn) as [Hn1 Hn2]. pose proof (pow_pos d).
  assert (HI : veq n (runI psii d (2 * m) (2 ^ d) (runF psi d (2 * m) (2 ^ d) (fwF psi m (2 ^ d) A))) (scale (2 ^ Z.of_nat d) (fwF psi m (2 ^ d) A)))
    by (apply IH; lia).
  intros p Hp. pose proof (invF_veq psii m (2 ^ d) n _ _ (pow_pos d) Hn1 HI p Hp) as HJ. rewrite HJ.
  rewrite invF_scale. unfold scale. rewrite inv_fw_layer with (psi := psi); auto; [|intros i Hi; apply unit_ok; nia|lia].
  rewrite Nat2Z.inj_succ, Z.pow_succ_r by lia. rr.
Qed.
Lemma runF_runI d : forall m A, (m * 2 ^ d = n)%nat -> (1 <= m)%nat ->
  veq n (runF psi d m (2 ^ d) (runI psii d m (2 ^ d) A)) (scale (2 ^ Z.of_nat d) A).
Proof.
  induction d as [|d IH]; intros m A Hn Hm; [intros p Hp; unfold scale; cbn [runI runF]; change (2 ^ Z.of_nat 0) with 1; rr|].
  cbn [runI runF]. rewrite half_pow. pose proof (layer_size n d m Hn) as [Hn1 Hn2]. pose proof (pow_pos d).
  intros p Hp. 
  assert (HI : veq n (fwF psi m (2 ^ d) (invF psii m (2 ^ d) (runI psii d (2 * m) (2 ^ d) A))) (scale 2 (runI psii d (2 * m) (2 ^ d) A))).
  { intros x Hx. rewrite fw_inv_layer with (psii := psii); auto; [reflexivity|intros i Hi; apply unit_ok; nia|lia]. }
  pose proof (runF_veq psi n d (2 * m) _ _ Hn2 HI p Hp) as HJ. rewrite HJ.
  rewrite runF_scale. unfold scale at 1. rewrite (IH (2 * m)%nat A Hn2 ltac:(lia) p Hp). unfold scale.
  rewrite Nat2Z.inj_succ, Z.pow_succ_r by lia. rr.
Qed.
End RunInv.

(** * Evaluation *)
Section Eval.
Variable psi : nat -> Z.
Variable n : nat.
(** the roots of the product tree: z_1 = -1, and block r splits as x^(2t) - z_r = (x^t - z_2r)(x^t - z_2r+1) *)
Definition zz (r : nat) : Z := if (r =? 1)%nat then -1 else if Nat.even r then psi (r / 2)%nat else - psi (r / 2)%nat.
Hypothesis tree : forall r, (1 <= r < n)%nat -> psi r * psi r == zz r.
Definition evn (N : nat) (A : nat -> Z) (w : Z) : Z := sum_to N (fun i => A i * w ^ Z.of_nat i).
Lemma zz_even r : (1 <= r)%nat -> zz (2 * r) = psi r.
Proof.
  intros. unfold zz. destruct (Nat.eqb_spec (2 * r) 1); [lia|]. rewrite Nat.even_mul. cbn [Nat.even orb].
  rewrite Nat.mul_comm, Nat.div_mul by lia. reflexivity.
Qed.
Lemma zz_odd r : (1 <= r)%nat -> zz (2 * r + 1) = - psi r.
Proof.
  intros. unfold zz. destruct (Nat.eqb_spec (2 * r + 1) 1); [lia|]. rewrite Nat.even_add, Nat.even_mul. cbn [Nat.even orb Bool.eqb].
  replace ((2 * r + 1) / 2)%nat with r; auto. apply (Nat.div_unique _ _ _ 1); lia.
Qed.
Lemma zz_sq r : (2 <= r < 2 * n)%nat -> zz r * zz r == zz (r / 2).
Proof.
  intros Hr. destruct (Nat.even r) eqn:E.
  - apply Nat.even_spec in E. destruct E as [k ->]. rewrite zz_even by lia. rewrite (Nat.mul_comm 2 k), Nat.div_mul by lia. apply tree. lia.
  - assert (O : Nat.odd r = true) by (rewrite <- Nat.negb_even, E; auto). apply Nat.odd_spec in O. destruct O as [k ->].
    rewrite zz_odd by lia. replace ((2 * k + 1) / 2)%nat with k by (apply (Nat.div_unique _ _ _ 1); lia).
    rewrite <- tree by lia. rr.
Qed.
Lemma zz_pow d : forall r, (2 ^ d <= r < 2 * n)%nat -> zz r ^ (2 ^ Z.of_nat d) == zz (r / 2 ^ d).
Proof.
  induction d as [|d IH]; intros r Hr; [rewrite Nat.div_1_r; change (2 ^ Z.of_nat 0) with 1; rewrite Z.pow_1_r; reflexivity|].
  rewrite Nat.pow_succ_r' in *. pose proof (pow_pos d). rewrite Nat2Z.inj_succ, Z.pow_succ_r by lia. rewrite Z.pow_mul_r by lia.
  replace (zz r ^ 2) with (zz r * zz r) by rr. rewrite zz_sq by lia. rewrite IH.
  - rewrite Nat.div_div by lia. reflexivity.
  - split; [apply Nat.div_le_lower_bound; lia|]. apply Nat.div_lt_upper_bound; lia.
Qed.
Lemma evn_split t A w : evn (t + t) A w = evn t A w + w ^ Z.of_nat t * evn t (fun i => A (t + i)%nat) w.
Proof.
  unfold evn. rewrite sum_to_app. f_equal. rewrite <- sum_to_scale. apply sum_to_ext. intros i Hi.
  rewrite Nat2Z.inj_add, Z.pow_add_r by lia. rr.
Qed.
(** the invariant: block i of the current vector represents the polynomial modulo x^t - z_(m+i) *)
Lemma runF_eval d : forall m A w r, (m * 2 ^ d = n)%nat -> (1 <= m)%nat -> (m <= r < 2 * m)%nat ->
  forall i, (i < 2 ^ d)%nat -> w == zz (2 ^ d * r + i) ->
  runF psi d m (2 ^ d) A (2 ^ d * (r - m) + i)%nat == evn (2 ^ d) (fun o => A (2 ^ d * (r - m) + o)%nat) w.
Proof.
  induction d as [|d IH]; intros m A w r Hn Hm Hr i Hi Hw.
  - cbn [runF]. change (2 ^ 0)%nat with 1%nat in *. unfold evn. cbn [sum_to]. replace i with 0%nat by lia. change (Z.of_nat 0) with 0. rewrite Z.pow_0_r. rr.
  - pose proof (layer_size n d m Hn) as [Hn1 Hn2]. pose proof (pow_pos d) as Hp. cbn [runF]. rewrite half_pow.
    rewrite Nat.pow_succ_r' in *.
    assert (Hbit : exists b i', (b < 2 /\ i' < 2 ^ d /\ i = 2 ^ d * b + i')%nat).
    { destruct (Nat.lt_ge_cases i (2 ^ d)); [exists 0%nat, i|exists 1%nat, (i - 2 ^ d)%nat]; lia. }
    destruct Hbit as (b & i' & Hb & Hi' & ->).
    assert (Hw' : w == zz (2 ^ d * (2 * r + b) + i')) by (rewrite Hw; replace (2 * 2 ^ d * r + (2 ^ d * b + i'))%nat with (2 ^ d * (2 * r + b) + i')%nat by lia; reflexivity).
    replace (2 * 2 ^ d * (r - m) + (2 ^ d * b + i'))%nat with (2 ^ d * ((2 * r + b) - 2 * m) + i')%nat by nia.
    rewrite (IH (2 * m)%nat _ w (2 * r + b)%nat) by (auto; lia).
    (* w^(2^d) = z_(2r+b) = +- psi_r *)
    assert (Ew : w ^ Z.of_nat (2 ^ d) == zz (2 * r + b)).
    { rewrite Hw'. rewrite Nat2Z.inj_pow. change (Z.of_nat 2) with 2. rewrite zz_pow.
      - replace ((2 ^ d * (2 * r + b) + i') / 2 ^ d)%nat with (2 * r + b)%nat by (apply (Nat.div_unique _ _ _ i'); lia). reflexivity.
      - split; [nia|]. assert (2 * r + b < 4 * m)%nat by lia. nia. }
    replace (2 * 2 ^ d)%nat with (2 ^ d + 2 ^ d)%nat by lia. rewrite evn_split.
    unfold evn. rewrite <- sum_to_scale. rewrite <- sum_to_add. apply sum_eqm. intros o Ho.
    unfold fwF. cbv zeta.
    replace (2 ^ d * (2 * r + b - 2 * m) + o)%nat with (2 * 2 ^ d * (r - m) + (2 ^ d * b + o))%nat by nia.
    rewrite pos_div, pos_mod by nia. replace (m + (r - m))%nat with r by lia.
    destruct b as [|[|]]; [| |lia].
    + destruct (Nat.ltb_spec (2 ^ d * 0 + o) (2 ^ d)); [|lia].
      rewrite Nat.add_0_r, zz_even in Ew by lia. rewrite Ew.
      replace (2 * 2 ^ d * (r - m) + (2 ^ d * 0 + o))%nat with ((2 ^ d + 2 ^ d) * (r - m) + o)%nat by nia.
      replace ((2 ^ d + 2 ^ d) * (r - m) + o + 2 ^ d)%nat with ((2 ^ d + 2 ^ d) * (r - m) + (2 ^ d + o))%nat by lia. rr.
    + destruct (Nat.ltb_spec (2 ^ d * 1 + o) (2 ^ d)); [lia|].
      rewrite zz_odd in Ew by lia. rewrite Ew.
      replace (2 * 2 ^ d * (r - m) + (2 ^ d * 1 + o))%nat with ((2 ^ d + 2 ^ d) * (r - m) + (2 ^ d + o))%nat by nia.
      replace ((2 ^ d + 2 ^ d) * (r - m) + (2 ^ d + o) - 2 ^ d)%nat with ((2 ^ d + 2 ^ d) * (r - m) + o)%nat by (generalize ((2 ^ d + 2 ^ d) * (r - m))%nat; clear; intros; lia). rr.
Qed.
Lemma root_n k i : (n = 2 ^ k)%nat -> (i < n)%nat -> zz (n + i) ^ Z.of_nat n == -1.
Proof.
  intros Hn Hi. rewrite Hn at 2. rewrite Nat2Z.inj_pow. change (Z.of_nat 2) with 2. rewrite zz_pow by lia.
  replace ((n + i) / 2 ^ k)%nat with 1%nat by (apply (Nat.div_unique _ _ _ i); lia). reflexivity.
Qed.
End Eval.

(** evaluation at w with w^n = -1 is multiplicative on polynomials modulo x^n + 1 *)
Section Hom.
Variables (n : nat) (w : Z).
Hypothesis npos : (0 < n)%nat.
Hypothesis wn : w ^ Z.of_nat n == -1.
Definition ev (A : Z -> Z) : Z := sumz n (fun i => A i * w ^ i).
Definition W (i : Z) : Z := ext n (fun i => w ^ i) i.
Lemma W_succ j : W (j + 1) == w * W j.
Proof.
  unfold W, ext. set (N := Z.of_nat n). assert (0 < N) by lia.
  pose proof (Z.mod_pos_bound j N ltac:(lia)) as Hb. pose proof (Z.div_mod j N ltac:(lia)) as Hd.
  destruct (Z.eq_dec (j mod N) (N - 1)) as [E|E].
  - assert (E1 : (j + 1) mod N = 0) by (symmetry; apply (Z.mod_unique _ _ (j / N + 1)); lia).
    assert (E2 : (j + 1) / N = j / N + 1) by (symmetry; apply (Z.div_unique _ _ _ 0); lia).
    rewrite E1, E2, E, Z.pow_0_r, Z.even_add. change (Z.even 1) with false.
    assert (w * w ^ (N - 1) == -1) by (rewrite <- Z.pow_succ_r by lia; replace (Z.succ (N - 1)) with N by lia; exact wn).
    transitivity ((if Z.even (j / N) then 1 else -1) * (w * w ^ (N - 1))); [|rr]. rewrite H0.
    destruct (Z.even (j / N)); cbn [Bool.eqb]; rr.
  - assert (E1 : (j + 1) mod N = j mod N + 1) by (symmetry; apply (Z.mod_unique _ _ (j / N)); lia).
    assert (E2 : (j + 1) / N = j / N) by (symmetry; apply (Z.div_unique _ _ _ (j mod N + 1)); lia).
    rewrite E1, E2, Z.add_1_r, Z.pow_succ_r by lia. rr.
Qed.
Lemma W_add j i : W (j + Z.of_nat i) == w ^ Z.of_nat i * W j.
Proof.
  induction i as [|i IH]; [rewrite Z.add_0_r; change (Z.of_nat 0) with 0; rewrite Z.pow_0_r; rr|].
  rewrite Nat2Z.inj_succ, Z.pow_succ_r by lia. replace (j + Z.succ (Z.of_nat i)) with (j + Z.of_nat i + 1) by lia.
  rewrite W_succ, IH. rr.
Qed.
Lemma ev_W A : ev A = sumz n (fun i => ext n A i * W i).
Proof. unfold ev. apply sum_to_ext. intros i Hi. unfold W. rewrite !ext_in by lia. reflexivity. Qed.
Lemma ev_mul A B : ev (rmul n A B) == ev A * ev B.
Proof.
  rewrite ev_W. unfold sumz.
  transitivity (sum_to n (fun k => sum_to n (fun i => ext n A (Z.of_nat i) * (ext n B (Z.of_nat k - Z.of_nat i) * W (Z.of_nat k))))).
  { apply sum_eqm. intros k Hk. rewrite ext_mul by auto. unfold sumz. rewrite Z.mul_comm, <- sum_to_scale. apply sum_eqm. intros i Hi. rr. }
  rewrite sum_to_swap.
  transitivity (sum_to n (fun i => ev B * (A (Z.of_nat i) * w ^ Z.of_nat i))).
  2:{ rewrite sum_to_scale. unfold ev, sumz. rr. }
  apply sum_eqm. intros i Hi. rewrite sum_to_scale.
  assert (E : sum_to n (fun k => ext n B (Z.of_nat k - Z.of_nat i) * W (Z.of_nat k)) == w ^ Z.of_nat i * ev B).
  { transitivity (sumz n (fun k => ext n B (k + Z.of_nat i - Z.of_nat i) * W (k + Z.of_nat i))).
    - rewrite (window n (fun k => ext n B (k - Z.of_nat i) * W k)); auto; [reflexivity|].
      intros k. replace (k + Z.of_nat n - Z.of_nat i) with (k - Z.of_nat i + Z.of_nat n) by lia. unfold W. rewrite !ext_neg by auto. rr.
    - rewrite ev_W. unfold sumz. rewrite <- sum_to_scale. apply sum_eqm. intros k Hk. rewrite W_add.
      replace (Z.of_nat k + Z.of_nat i - Z.of_nat i) with (Z.of_nat k) by lia. rr. }
  rewrite E. rewrite ext_in by lia. rr.
Qed.
End Hom.
End Mod.

(** * The loops of the model *)
Section Loops.
Variable Q : Z.
Hypothesis HQ : 1 < Q < two256.
Notation "x == y" := (cgm Q x y) (at level 70).
Lemma modQ x : 0 <= x mod Q < Q. Proof. apply Z.mod_pos_bound. lia. Qed.
Definition canon (a : list Z) : Prop := Forall (fun x => 0 <= x < Q) a.
Lemma canon_nth a : canon a -> forall p, (p < length a)%nat -> 0 <= ln a p < Q.
Proof. intros H p Hp. unfold canon in H. rewrite Forall_forall in H. apply H. apply nth_In. auto. Qed.
Lemma nth_canon a : (forall p, (p < length a)%nat -> 0 <= ln a p < Q) -> canon a.
Proof.
  intros H. apply Forall_forall. intros x Hx. apply (In_nth _ _ 0) in Hx. destruct Hx as (p & Hp & <-). apply H. auto.
Qed.
Lemma fw_loop_spec psi d : forall fuel m n a, (m * 2 ^ d = n)%nat -> (1 <= m)%nat -> length a = n -> (d <= fuel)%nat ->
  length (fw_loop Q psi fuel (2 ^ d) m n a) = n /\
  veq Q n (ln (fw_loop Q psi fuel (2 ^ d) m n a)) (runF psi d m (2 ^ d) (ln a)) /\
  ((1 <= d)%nat \/ canon a -> canon (fw_loop Q psi fuel (2 ^ d) m n a)).
Proof.
  induction d as [|d IH]; intros fuel m n a Hn Hm Ha Hf.
  - change (2 ^ 0)%nat with 1%nat in *. replace (fw_loop Q psi fuel 1 m n a) with a.
    + split; auto. split; [|intros [|]; [lia|auto]]. intros p Hp. cbn [runF]. reflexivity.
    + destruct fuel; auto. cbn [fw_loop]. destruct (Nat.ltb_spec m n); [lia|auto].
  - destruct fuel as [|fuel]; [lia|]. cbn [fw_loop runF]. pose proof (pow_pos d) as Hp0.
    destruct (Nat.ltb_spec m n); [|rewrite Nat.pow_succ_r' in Hn; nia]. cbv zeta. rewrite half_pow.
    destruct (layer_size n d m Hn) as [H1 H2].
    destruct (IH fuel (2 * m)%nat n (fw_layer Q psi m (2 ^ d) a) ltac:(lia) ltac:(lia)) as (L & V & C); [now rewrite fw_layer_length|lia|].
    assert (E : forall p, (p < n)%nat -> ln (fw_layer Q psi m (2 ^ d) a) p = fwF psi m (2 ^ d) (ln a) p mod Q)
      by (intros p Hp; apply fw_layer_nth; auto; lia).
    split; [auto|split].
    + intros p Hp. rewrite (V p Hp). apply (runF_veq Q psi n d (2 * m)); auto. intros x Hx. rewrite E by auto. apply eqm_mod.
    + intros _. apply C. right. apply nth_canon. rewrite fw_layer_length. intros p Hp. rewrite E by lia. apply modQ.
Qed.
Lemma half_pow_mul d t : (2 ^ S d * t / 2 = 2 ^ d * t)%nat.
Proof. rewrite Nat.pow_succ_r'. replace (2 * 2 ^ d * t)%nat with (2 ^ d * t * 2)%nat by lia. apply Nat.div_mul. lia. Qed.
Lemma runI_veq_gen psi n t (Ht : (0 < t)%nat) d : forall m A B, (m * (2 ^ d * t) = n)%nat -> veq Q n A B ->
  veq Q n (runI psi d m (2 ^ d * t) A) (runI psi d m (2 ^ d * t) B).
Proof.
  induction d as [|d IH]; intros m A B Hn H; auto. cbn [runI]. rewrite half_pow_mul. pose proof (pow_pos d).
  rewrite Nat.pow_succ_r' in Hn. apply invF_veq; [nia|nia|]. apply IH; auto. nia.
Qed.
Lemma inv_loop_spec psi d : forall fuel t n a, (2 ^ d * t = n)%nat -> (1 <= t)%nat -> length a = n -> (d <= fuel)%nat ->
  Forall (fun x => 0 <= x <= Q) a ->
  length (inv_loop Q psi fuel t (2 ^ d) a) = n /\
  veq Q n (ln (inv_loop Q psi fuel t (2 ^ d) a)) (runI psi d 1 n (ln a)).
Proof.
  induction d as [|d IH]; intros fuel t n a Hn Ht Ha Hf Hc.
  - change (2 ^ 0)%nat with 1%nat in *. replace (inv_loop Q psi fuel t 1 a) with a by (destruct fuel; auto).
    split; auto. intros p Hp. reflexivity.
  - destruct fuel as [|fuel]; [lia|]. pose proof (pow_pos d) as Hp0. cbn [inv_loop].
    destruct (Nat.ltb_spec 1 (2 ^ S d)); [|rewrite Nat.pow_succ_r' in *; lia]. cbv zeta. rewrite half_pow.
    assert (Hs : (2 * (2 ^ d * t) = n)%nat) by (rewrite Nat.pow_succ_r' in Hn; lia).
    assert (E : forall p, (p < n)%nat -> ln (inv_layer Q psi (2 ^ d) t a) p = invF psi (2 ^ d) t (ln a) p mod Q).
    { intros p Hp. apply inv_layer_nth; auto; try lia. rewrite Forall_forall in Hc. intros x Hx. apply Hc. apply nth_In. auto. }
    destruct (IH fuel (2 * t)%nat n (inv_layer Q psi (2 ^ d) t a)) as (L & V); try lia; [now rewrite inv_layer_length| |].
    { assert (C : canon (inv_layer Q psi (2 ^ d) t a)).
      { apply nth_canon. rewrite inv_layer_length. intros p Hp. rewrite E by lia. apply modQ. }
      eapply Forall_impl; [|exact C]. cbn beta. intros. lia. }
    split; auto. intros p Hp. rewrite (V p Hp). rewrite runI_snoc. rewrite Nat.mul_1_r.
    replace (n / 2 ^ S d)%nat with t by (rewrite <- Hn, Nat.mul_comm, Nat.div_mul; auto; pose proof (pow_pos (S d)); lia).
    assert (Ht2 : (0 < 2 * t)%nat) by lia. assert (Hn2 : (1 * (2 ^ d * (2 * t)) = n)%nat) by lia.
    assert (HV : veq Q n (ln (inv_layer Q psi (2 ^ d) t a)) (invF psi (2 ^ d) t (ln a))) by (intros x Hx; rewrite E by auto; apply eqm_mod).
    pose proof (runI_veq_gen psi n (2 * t) Ht2 d 1 _ _ Hn2 HV p Hp) as R. rewrite Nat.mul_1_l in Hn2. rewrite Hn2 in R. exact R.
Qed.
End Loops.

Lemma nth_map0 (f : Z -> Z) l p : (p < length l)%nat -> nth p (map f l) 0 = f (nth p l 0).
Proof. intros H. rewrite (nth_indep _ 0 (f 0)) by (rewrite map_length; lia). apply map_nth. Qed.
Section Final.
Variable Q : Z.
Hypothesis HQ : 1 < Q < two256.
Notation "x == y" := (cgm Q x y) (at level 70).
Variables (psi psii : nat -> Z) (k : nat) (nm1 : Z).
Let n := (2 ^ k)%nat.
Hypothesis k1 : (1 <= k)%nat.
Hypothesis tree : forall r, (1 <= r < n)%nat -> psi r * psi r == zz psi r.
Hypothesis unit_ok : forall r, (1 <= r < n)%nat -> psi r * psii r == 1.
Hypothesis nm1_ok : Z.of_nat n * nm1 == 1.

Lemma kn : (k <= n)%nat. Proof. unfold n. pose proof (pow2_gt k). lia. Qed.
Lemma nttfw_facts a : length a = n -> length (nttfw Q psi n a) = n /\ canon Q (nttfw Q psi n a) /\
  veq Q n (ln (nttfw Q psi n a)) (runF psi k 1 n (ln a)).
Proof.
  intros Ha. unfold nttfw. pose proof (fw_loop_spec Q HQ psi k n 1 n a ltac:(unfold n; lia) ltac:(lia) Ha kn) as (L & V & C).
  fold n in L, V, C. split; auto.
Qed.
Lemma canon_eq a b : length a = n -> length b = n -> canon Q a -> canon Q b -> veq Q n (ln a) (ln b) -> a = b.
Proof.
  intros La Lb Ca Cb H. apply list_eq_nth; [congruence|]. rewrite La. intros p Hp. specialize (H p Hp). destruct H as [H].
  rewrite !Z.mod_small in H; auto; apply canon_nth; auto; lia.
Qed.
(** each output of the forward transform is the value of the polynomial at a root of x^n + 1 *)
Theorem nttfw_eval a i : length a = n -> (i < n)%nat -> ln (nttfw Q psi n a) i == evn n (ln a) (zz psi (n + i)).
Proof.
  intros La Hi. destruct (nttfw_facts a La) as (L & C & V). rewrite (V i Hi).
  pose proof (runF_eval Q psi n tree k 1 (ln a) (zz psi (n + i)) 1 ltac:(unfold n; lia) ltac:(lia) ltac:(lia) i Hi) as H.
  rewrite Nat.sub_diag, Nat.mul_0_r, !Nat.add_0_l, Nat.mul_1_r in H. apply H. reflexivity.
Qed.
Lemma nttinv_facts b : length b = n -> Forall (fun x => 0 <= x <= Q) b ->
  length (nttinv Q psii nm1 n b) = n /\ canon Q (nttinv Q psii nm1 n b) /\
  veq Q n (ln (nttinv Q psii nm1 n b)) (scale nm1 (runI psii k 1 n (ln b))).
Proof.
  intros Lb Hb. pose proof (inv_loop_spec Q HQ psii k n 1 n b ltac:(unfold n; lia) ltac:(lia) Lb kn Hb) as (L & V). fold n in L, V.
  unfold nttinv. rewrite map_length. split; auto. split.
  - apply Forall_forall. intros x Hx. apply in_map_iff in Hx. destruct Hx as (y & <- & _). apply modQ, HQ.
  - intros p Hp. unfold ln at 1. rewrite nth_map0 by lia.
    fold (ln (inv_loop Q psii n 1 n b) p). rewrite eqm_mod, (V p Hp). unfold scale. constructor. f_equal. ring.
Qed.
Definition red (a : list Z) : list Z := map (fun x => x mod Q) a.
Lemma red_length a : length (red a) = length a. Proof. apply map_length. Qed.
Lemma red_canon a : canon Q (red a).
Proof. apply Forall_forall. intros x Hx. apply in_map_iff in Hx. destruct Hx as (y & <- & _). apply modQ, HQ. Qed.
Lemma red_ln a p : (p < length a)%nat -> ln (red a) p = ln a p mod Q.
Proof. intros Hp. unfold ln, red. now rewrite nth_map0. Qed.
Lemma canon_le a : canon Q a -> Forall (fun x => 0 <= x <= Q) a.
Proof. intros H. eapply Forall_impl; [|exact H]. cbn beta. intros; lia. Qed.
Lemma two_k : 2 ^ Z.of_nat k = Z.of_nat n. Proof. unfold n. rewrite Nat2Z.inj_pow. reflexivity. Qed.

Theorem nttinv_nttfw a : length a = n -> nttinv Q psii nm1 n (nttfw Q psi n a) = red a.
Proof.
  intros La. destruct (nttfw_facts a La) as (L & C & V).
  destruct (nttinv_facts _ L (canon_le _ C)) as (L' & C' & V').
  apply canon_eq; auto; [now rewrite red_length|apply red_canon|].
  intros p Hp. rewrite (V' p Hp). unfold scale.
  assert (H1 : runI psii k 1 n (ln (nttfw Q psi n a)) p == runI psii k 1 n (runF psi k 1 n (ln a)) p)
    by (apply (runI_veq Q psii n k 1); auto; unfold n; lia).
  rewrite H1. assert (H2 : (1 * 2 ^ k = n)%nat) by (unfold n; lia). pose proof (runI_runF Q psi psii n unit_ok k 1 (ln a) H2 (le_n 1) p Hp) as H3. fold n in H3. rewrite H3. unfold scale.
  rewrite red_ln by lia. rewrite eqm_mod, two_k.
  transitivity (Z.of_nat n * nm1 * ln a p); [constructor; f_equal; ring|]. rewrite nm1_ok. constructor. f_equal. ring.
Qed.
Theorem nttfw_nttinv b : length b = n -> Forall (fun x => 0 <= x <= Q) b -> nttfw Q psi n (nttinv Q psii nm1 n b) = red b.
Proof.
  intros Lb Hb. destruct (nttinv_facts b Lb Hb) as (L & C & V).
  destruct (nttfw_facts _ L) as (L' & C' & V').
  apply canon_eq; auto; [now rewrite red_length|apply red_canon|].
  intros p Hp. rewrite (V' p Hp).
  assert (H1 : runF psi k 1 n (ln (nttinv Q psii nm1 n b)) p == runF psi k 1 n (scale nm1 (runI psii k 1 n (ln b))) p)
    by (apply (runF_veq Q psi n k 1); auto; unfold n; lia).
  rewrite H1, runF_scale. unfold scale at 1. assert (H2 : (1 * 2 ^ k = n)%nat) by (unfold n; lia). pose proof (runF_runI Q psi psii n unit_ok k 1 (ln b) H2 (le_n 1) p Hp) as H3. fold n in H3. rewrite H3. unfold scale.
  rewrite red_ln by lia. rewrite eqm_mod, two_k.
  transitivity (Z.of_nat n * nm1 * ln b p); [constructor; f_equal; ring|]. rewrite nm1_ok. constructor. f_equal. ring.
Qed.
Lemma vecmul_length a b : length (vecmul Q n a b) = n.
Proof. unfold vecmul. now rewrite map_length, seq_length. Qed.
Lemma vecmul_ln a b p : (p < n)%nat -> ln (vecmul Q n a b) p = (ln a p * ln b p) mod Q.
Proof. intros. unfold vecmul, ln at 1. now rewrite nth_map_seq. Qed.
Lemma vecmul_canon a b : canon Q (vecmul Q n a b).
Proof. apply nth_canon. rewrite vecmul_length. intros p Hp. rewrite vecmul_ln by auto. apply modQ, HQ. Qed.
Lemma evn_ev A w : evn n A w = ev n w (fun i => A (Z.to_nat i)).
Proof. unfold evn, ev, sumz. apply sum_to_ext. intros i Hi. now rewrite Nat2Z.id. Qed.
Lemma negmul_len a b : length (negmul n a b) = n.
Proof. unfold negmul. now rewrite map_length, seq_length. Qed.
Theorem nttfw_negmul a b : length a = n -> length b = n ->
  nttfw Q psi n (negmul n a b) = vecmul Q n (nttfw Q psi n a) (nttfw Q psi n b).
Proof.
  intros La Lb. pose proof (negmul_len a b) as Lm. destruct (nttfw_facts _ Lm) as (L & C & _).
  apply canon_eq; auto; [apply vecmul_length|apply vecmul_canon|].
  intros p Hp. rewrite nttfw_eval, vecmul_ln by auto. rewrite eqm_mod. rewrite !nttfw_eval by auto.
  rewrite !evn_ev. change (fun i : Z => ln a (Z.to_nat i)) with (fl a). change (fun i : Z => ln b (Z.to_nat i)) with (fl b).
  change (fun i : Z => ln (negmul n a b) (Z.to_nat i)) with (fl (negmul n a b)).
  rewrite <- ev_mul.
  - unfold ev, sumz. apply sum_eqm. intros i Hi. rewrite fl_negmul by lia. reflexivity.
  - pose proof kn. lia.
  - apply (root_n Q psi n tree k); auto.
Qed.
Theorem ntt_mul a b : length a = n -> length b = n ->
  nttinv Q psii nm1 n (vecmul Q n (nttfw Q psi n a) (nttfw Q psi n b)) = red (negmul n a b).
Proof. intros La Lb. rewrite <- nttfw_negmul by auto. apply nttinv_nttfw. apply negmul_len. Qed.
End Final.
