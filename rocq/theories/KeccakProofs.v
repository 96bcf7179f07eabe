(** The permutation: python = solidity = FIPS 202. *)
From Verif Require Import Base KeccakModel KeccakSpec.

Definition u64 (x : Z) : Prop := 0 <= x < 2 ^ 64.

Lemma u64_testbit x z : u64 x -> 64 <= z -> Z.testbit x z = false.
Proof.
  intros [H0 H1] Hz. destruct (Z.eq_dec x 0) as [->|]; [apply Z.bits_0|].
  apply Z.bits_above_log2; [lia|]. apply Z.log2_lt_pow2; [lia|].
  apply Z.lt_le_trans with (2^64); [lia|]. apply Z.pow_le_mono_r; lia.
Qed.
Lemma testbit_u64 x : 0 <= x -> (forall z, 64 <= z -> Z.testbit x z = false) -> u64 x.
Proof.
  intros H0 H. split; auto. destruct (Z.eq_dec x 0) as [->|]; [lia|].
  apply Z.log2_lt_pow2; [lia|]. destruct (Z_lt_le_dec (Z.log2 x) 64); auto.
  specialize (H (Z.log2 x) l). rewrite Z.bit_log2 in H by lia. discriminate.
Qed.
Lemma u64_lxor a b : u64 a -> u64 b -> u64 (Z.lxor a b).
Proof.
  intros Ha Hb. apply testbit_u64.
  - apply Z.lxor_nonneg. destruct Ha, Hb. lia.
  - intros z Hz. rewrite Z.lxor_spec, !u64_testbit; auto.
Qed.
Lemma u64_land a b : u64 a -> u64 b -> u64 (Z.land a b).
Proof.
  intros Ha Hb. apply testbit_u64.
  - apply Z.land_nonneg. destruct Ha; auto.
  - intros z Hz. rewrite Z.land_spec, !u64_testbit; auto.
Qed.
Lemma u64_mask : u64 mask64. Proof. unfold u64, mask64. lia. Qed.
Lemma u64_0 : u64 0. Proof. unfold u64. lia. Qed.
Lemma u64_lnot a : u64 a -> u64 (lnot64 a).
Proof. intros. apply u64_lxor; auto using u64_mask. Qed.
Lemma u64_shr a s : 0 <= s -> u64 a -> u64 (Z.shiftr a s).
Proof.
  intros Hs [H0 H1]. rewrite Z.shiftr_div_pow2 by lia. split.
  - apply Z.div_pos; auto. apply Z.pow_pos_nonneg; lia.
  - apply Z.le_lt_trans with a; auto. apply Z.div_le_upper_bound; [apply Z.pow_pos_nonneg; lia|].
    assert (1 <= 2 ^ s) by (apply (Z.pow_le_mono_r 2 0 s); lia). nia.
Qed.
Lemma u64_rol a s : 0 <= s <= 64 -> u64 a -> u64 (rol a s).
Proof.
  intros Hs Ha. apply u64_lxor.
  - apply Z.mod_pos_bound. lia.
  - apply u64_shr; auto. lia.
Qed.
#[export] Hint Resolve u64_lxor u64_land u64_mask u64_0 u64_lnot : u64.

Lemma mask_testbit z : 0 <= z < 64 -> Z.testbit mask64 z = true.
Proof. intros H. change mask64 with (Z.ones 64). apply Z.ones_spec_low. lia. Qed.

Lemma rol_testbit x s z : u64 x -> 0 < s < 64 -> 0 <= z < 64 ->
  Z.testbit (rol x s) z = Z.testbit x ((z - s) mod 64).
Proof.
  intros Hx Hs Hz. unfold rol. rewrite Z.lxor_spec, Z.mod_pow2_bits_low by lia.
  rewrite Z.shiftr_spec by lia.
  destruct (Z_lt_le_dec z s).
  - rewrite Z.shiftl_spec_low by lia. rewrite xorb_false_l. f_equal.
    apply Z.mod_unique with (-1); lia.
  - rewrite Z.shiftl_spec by lia. rewrite (u64_testbit x (z + (64 - s))) by (auto; lia).
    rewrite xorb_false_r. f_equal. symmetry. apply Z.mod_small. lia.
Qed.

(** ** 25-lane states *)
Definition ok25 (s : list Z) : Prop := length s = 25%nat /\ Forall u64 s.

Ltac explode s H :=
  let L := fresh "L" in let F := fresh "F" in
  destruct H as [L F];
  do 25 (let a := fresh "a" in destruct s as [|a s]; [discriminate L|]);
  destruct s; [|discriminate L]; clear L;
  repeat match goal with Hf : Forall u64 (_ :: _) |- _ => inversion Hf; clear Hf; subst end;
  repeat match goal with Hf : Forall u64 [] |- _ => clear Hf end.

Definition bits (s : list Z) : bitstate := fun x y z => Z.testbit (nth (x + 5 * y) s 0) z.

Definition agree (A B : bitstate) : Prop :=
  forall x y z, (x < 5)%nat -> (y < 5)%nat -> 0 <= z < 64 -> A x y z = B x y z.

Lemma case5 (x : nat) : (x < 5)%nat -> x = 0%nat \/ x = 1%nat \/ x = 2%nat \/ x = 3%nat \/ x = 4%nat.
Proof. lia. Qed.

Ltac cases5 H := apply case5 in H; destruct H as [H|[H|[H|[H|H]]]]; subst.

Lemma mod5 a : (a mod 5 < 5)%nat. Proof. apply Nat.mod_upper_bound. lia. Qed.

Lemma theta_ext A B : agree A B -> agree (theta A) (theta B).
Proof.
  intros H x y z Hx Hy Hz. unfold theta, column.
  assert (0 <= (z - 1) mod 64 < 64) by (apply Z.mod_pos_bound; lia).
  rewrite !H by (auto using mod5; lia). reflexivity.
Qed.
Lemma rho_ext A B : agree A B -> agree (rho A) (rho B).
Proof. intros H x y z Hx Hy Hz. unfold rho. apply H; auto. apply Z.mod_pos_bound; lia. Qed.
Lemma pi_ext A B : agree A B -> agree (pi A) (pi B).
Proof. intros H x y z Hx Hy Hz. unfold pi. apply H; auto using mod5. Qed.
Lemma chi_ext A B : agree A B -> agree (chi A) (chi B).
Proof. intros H x y z Hx Hy Hz. unfold chi. rewrite !H by auto using mod5. reflexivity. Qed.
Lemma iota_ext i A B : agree A B -> agree (iota i A) (iota i B).
Proof. intros H x y z Hx Hy Hz. unfold iota. destruct x, y; rewrite H by lia; reflexivity. Qed.

Lemma theta_ok s : ok25 s -> ok25 (theta_step s) /\ agree (bits (theta_step s)) (theta (bits s)).
Proof.
  intros H. explode s H.
  cbv [theta_step parity lane fold_left map nth plus upd Nat.modulo Nat.divmod Nat.sub fst snd].
  rewrite !Z.lxor_0_l.
  split.
  - split; [reflexivity|]. repeat apply Forall_cons; try apply Forall_nil;
      repeat ((apply u64_rol; [lia|]) || apply u64_lxor || assumption).
  - intros x y z Hx Hy Hz. unfold theta, column, bits.
    cases5 Hx; cases5 Hy;
    cbv [nth plus mult Nat.modulo Nat.divmod Nat.sub fst snd];
    rewrite !Z.lxor_spec, rol_testbit by (auto with u64; lia);
    rewrite ?Z.lxor_spec; 
    repeat rewrite xorb_assoc; reflexivity.
Qed.

Definition rho_red (x y : nat) : Z := rho_offset x y mod 64.
Lemma rho_reduce A : agree (rho A) (fun x y z => A x y ((z - rho_red x y) mod 64)).
Proof.
  intros x y z _ _ _. unfold rho, rho_red. f_equal. rewrite Zminus_mod_idemp_r. reflexivity.
Qed.

Lemma rho_pi_ok s : ok25 s -> ok25 (rho_pi_step s) /\ agree (bits (rho_pi_step s)) (pi (rho (bits s))).
Proof.
  intros H. explode s H.
  cbv [rho_pi_step lane fold_left seq nth upd fst KECCAK_PI KECCAK_RHO].
  split.
  - split; [reflexivity|]. repeat apply Forall_cons; try apply Forall_nil;
      repeat ((apply u64_rol; [lia|]) || assumption).
  - intros x y z Hx Hy Hz. rewrite (pi_ext _ _ (rho_reduce _)) by auto. unfold pi, bits.
    cases5 Hx; cases5 Hy;
    match goal with |- context [rho_red ?a ?b] =>
      let v := eval vm_compute in (rho_red a b) in change (rho_red a b) with v end;
    cbv [nth plus mult Nat.modulo Nat.divmod Nat.sub fst snd];
    (rewrite rol_testbit by (auto; lia); reflexivity) ||
    (f_equal; symmetry; rewrite Z.sub_0_r; apply Z.mod_small; lia).
Qed.

Lemma chi_ok s : ok25 s -> ok25 (chi_step s) /\ agree (bits (chi_step s)) (chi (bits s)).
Proof.
  intros H. explode s H.
  cbv [chi_step lane fold_left map nth plus upd Nat.modulo Nat.divmod Nat.sub fst snd].
  split.
  - split; [reflexivity|]. repeat apply Forall_cons; try apply Forall_nil; auto with u64.
  - intros x y z Hx Hy Hz. unfold chi, bits.
    cases5 Hx; cases5 Hy;
    cbv [nth plus mult Nat.modulo Nat.divmod Nat.sub fst snd];
    unfold lnot64; rewrite !Z.lxor_spec, Z.land_spec, Z.lxor_spec, mask_testbit, xorb_true_r by lia; reflexivity.
Qed.

Lemma iota_ok i s : (i < 24)%nat -> ok25 s ->
  ok25 (iota_step (nth i KECCAK_RC 0) s) /\ agree (bits (iota_step (nth i KECCAK_RC 0) s)) (iota i (bits s)).
Proof.
  intros Hi H.
  assert (HU : u64 (nth i KECCAK_RC 0)).
  { assert (G : forallb (fun i => (0 <=? nth i KECCAK_RC 0) && (nth i KECCAK_RC 0 <? 2^64)) (seq 0 24) = true)
      by (vm_compute; reflexivity).
    rewrite forallb_forall in G. specialize (G i). rewrite in_seq in G.
    specialize (G ltac:(lia)). unfold u64. lia. }
  assert (HB : forall z, 0 <= z < 64 -> Z.testbit (nth i KECCAK_RC 0) z = RC i z).
  { intros z Hz.
    assert (G : forallb (fun i => forallb (fun k => Bool.eqb (Z.testbit (nth i KECCAK_RC 0) (Z.of_nat k)) (RC i (Z.of_nat k)))
       (seq 0 64)) (seq 0 24) = true) by (vm_compute; reflexivity).
    rewrite forallb_forall in G. specialize (G i). rewrite in_seq in G. specialize (G ltac:(lia)).
    rewrite forallb_forall in G. specialize (G (Z.to_nat z)). rewrite in_seq in G. specialize (G ltac:(lia)).
    rewrite Z2Nat.id in G by lia. now apply Bool.eqb_prop. }
  explode s H. set (r := nth i KECCAK_RC 0) in *. clearbody r.
  cbv [iota_step lane nth upd].
  split.
  - split; [reflexivity|]. repeat apply Forall_cons; try apply Forall_nil; auto with u64.
  - intros x y z Hx Hy Hz. unfold iota, bits.
    cases5 Hx; cases5 Hy; cbv [nth plus mult]; try reflexivity.
    rewrite Z.lxor_spec, HB by auto. reflexivity.
Qed.

Lemma agree_trans A B C : agree A B -> agree B C -> agree A C.
Proof. intros H1 H2 x y z Hx Hy Hz. rewrite H1 by auto. auto. Qed.

Lemma round_ok i s : (i < 24)%nat -> ok25 s ->
  ok25 (round s (nth i KECCAK_RC 0)) /\ agree (bits (round s (nth i KECCAK_RC 0))) (Rnd (bits s) i).
Proof.
  intros Hi H. unfold round, Rnd.
  destruct (theta_ok s H) as [O1 A1].
  destruct (rho_pi_ok _ O1) as [O2 A2].
  destruct (chi_ok _ O2) as [O3 A3].
  destruct (iota_ok i _ Hi O3) as [O4 A4].
  split; auto.
  eapply agree_trans; [exact A4|]. apply iota_ext.
  eapply agree_trans; [exact A3|]. apply chi_ext.
  eapply agree_trans; [exact A2|]. apply pi_ext, rho_ext. exact A1.
Qed.

Lemma Rnd_ext i A B : agree A B -> agree (Rnd A i) (Rnd B i).
Proof. intros H. apply iota_ext, chi_ext, pi_ext, rho_ext, theta_ext, H. Qed.

Lemma fold_left_cons {A B} (f : A -> B -> A) a l s : fold_left f (a :: l) s = fold_left f l (f s a).
Proof. reflexivity. Qed.
Lemma seq_cons i n : seq i (S n) = i :: seq (S i) n.
Proof. reflexivity. Qed.
Lemma length_cons {A} (a : A) l : length (a :: l) = S (length l).
Proof. reflexivity. Qed.

Lemma rounds_ok rcs : forall s A i, (i + length rcs <= 24)%nat ->
  (forall j, (j < length rcs)%nat -> nth j rcs 0 = nth (i + j) KECCAK_RC 0) ->
  ok25 s -> agree (bits s) A ->
  ok25 (fold_left round rcs s) /\
  agree (bits (fold_left round rcs s)) (fold_left Rnd (seq i (length rcs)) A).
Proof.
  induction rcs as [|r rcs IH]; intros s A i Hi Hn Hs HA; [split; assumption|].
  cbn [length] in Hi, Hn.
  assert (Er : r = nth i KECCAK_RC 0).
  { specialize (Hn 0%nat). rewrite Nat.add_0_r in Hn. apply Hn. lia. }
  destruct (round_ok i s) as [O1 A1]; [lia|exact Hs|]. rewrite <- Er in O1, A1.
  rewrite length_cons, seq_cons, !fold_left_cons.
  apply IH.
  - lia.
  - intros j Hj. specialize (Hn (S j)). rewrite <- Nat.add_succ_comm in Hn. apply Hn. lia.
  - exact O1.
  - apply (agree_trans _ _ _ A1). apply Rnd_ext. exact HA.
Qed.

Theorem F1600_fips s : ok25 s -> ok25 (F1600 s) /\ agree (bits (F1600 s)) (keccak_f1600 (bits s)).
Proof.
  intros H. unfold F1600, keccak_f1600. change 24%nat with (length KECCAK_RC).
  apply rounds_ok.
  - cbn. lia.
  - intros j _. reflexivity.
  - exact H.
  - intros x y z _ _ _. reflexivity.
Qed.

(** ** Solidity permutation *)
Lemma sol_rol x s : u64 x -> 0 < s < 64 ->
  Z.land mask64 (Z.lxor (evm_shl s x) (evm_shr (64 - s) x)) = rol x s.
Proof.
  intros Hx Hs. unfold evm_shl, evm_shr, rol.
  rewrite (Z.mod_small (Z.shiftl x s) (2^256)).
  2:{ rewrite Z.shiftl_mul_pow2 by lia. destruct Hx as [H0 H1]. split; [nia|].
      assert (2 ^ s <= 2 ^ 63) by (apply Z.pow_le_mono_r; lia).
      assert (0 < 2 ^ s) by (apply Z.pow_pos_nonneg; lia).
      apply Z.lt_le_trans with (2^64 * 2^63); [nia|lia]. }
  rewrite Z.land_comm. change mask64 with (Z.ones 64). rewrite Z.land_ones by lia.
  apply Z.bits_inj'. intros z Hz.
  destruct (Z_lt_le_dec z 64).
  - rewrite Z.mod_pow2_bits_low, !Z.lxor_spec, Z.mod_pow2_bits_low by lia. reflexivity.
  - rewrite Z.mod_pow2_bits_high, Z.lxor_spec, Z.mod_pow2_bits_high by lia.
    rewrite u64_testbit; auto. apply u64_shr; auto. lia.
Qed.

Lemma land_mask x : u64 x -> Z.land x mask64 = x.
Proof. intros H. change mask64 with (Z.ones 64). rewrite Z.land_ones by lia. apply Z.mod_small. exact H. Qed.

Lemma sol_round_eq s r : ok25 s -> u64 r -> sol_round s r = round s r.
Proof.
  intros H Hr. unfold sol_round, round.
  assert (E1 : fold_left (sol_theta_col (sol_bc s)) [0; 1; 2; 3; 4]%nat s = theta_step s).
  { explode s H.
    cbv [sol_theta_col sol_bc theta_step parity lane fold_left map nth plus upd Nat.modulo Nat.divmod Nat.sub fst snd].
    change 63 with (64 - 1). rewrite !Z.lxor_0_l, !sol_rol by (auto with u64; lia). reflexivity. }
  rewrite E1. destruct (theta_ok s H) as [O1 _]. clear E1 H. revert O1.
  generalize (theta_step s). clear s. intros s H.
  assert (E2 : sol_rho_pi s = rho_pi_step s).
  { explode s H.
    cbv [sol_rho_pi rho_pi_step lane fold_left seq nth upd fst KECCAK_PI KECCAK_RHO].
    rewrite !sol_rol by (auto; lia). reflexivity. }
  rewrite E2. destruct (rho_pi_ok s H) as [O2 _]. clear E2 H. revert O2.
  generalize (rho_pi_step s). clear s. intros s H. explode s H.
  cbv [sol_chi_row0 sol_chi_row iota_step chi_step lane fold_left map nth plus upd Nat.modulo Nat.divmod Nat.sub fst snd].
  rewrite land_mask by auto with u64. reflexivity.
Qed.

Lemma RC_u64 : Forall u64 KECCAK_RC.
Proof. repeat apply Forall_cons; try apply Forall_nil; unfold u64; lia. Qed.

Lemma sol_rounds rcs : forall s i, (i + length rcs <= 24)%nat ->
  (forall j, (j < length rcs)%nat -> nth j rcs 0 = nth (i + j) KECCAK_RC 0) -> ok25 s ->
  fold_left sol_round rcs s = fold_left round rcs s.
Proof.
  induction rcs as [|r rcs IH]; intros s i Hi Hn Hs; [reflexivity|].
  cbn [length] in Hi, Hn.
  assert (Er : r = nth i KECCAK_RC 0).
  { specialize (Hn 0%nat). rewrite Nat.add_0_r in Hn. apply Hn. lia. }
  assert (Ur : u64 r).
  { rewrite Er. pose proof RC_u64 as F. rewrite Forall_forall in F. apply F. apply nth_In. cbn. lia. }
  rewrite !fold_left_cons.
  rewrite (sol_round_eq s r Hs Ur). apply (IH _ (S i)).
  - lia.
  - intros j Hj. specialize (Hn (S j)). rewrite <- Nat.add_succ_comm in Hn. apply Hn. lia.
  - rewrite Er. apply round_ok; [lia|exact Hs].
Qed.

Theorem f1600_sol_eq s : ok25 s -> f1600_sol s = F1600 s.
Proof.
  intros H. unfold f1600_sol, F1600. apply (sol_rounds _ _ 0).
  - cbn. lia.
  - intros j _. reflexivity.
  - exact H.
Qed.
