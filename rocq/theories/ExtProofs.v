From Verif Require Import Base HashModel ExtTables ExtModel RingSpec Ring PolyProofs NttProofs.
From Coq Require Import Setoid Morphisms.
Set Default Goal Selector "!".
Notation "x == y" := (cgm 12289 x y) (at level 70).
Ltac rr := first [ring | constructor; f_equal; ring].

(** * the tables *)
Definition tab_ok (k : nat) : bool :=
  let N := (2 ^ k)%nat in
  (length (wt N) =? N)%nat &&
  forallb (fun i => let a := nth (2 * i) (wt N) 0 in let b := nth (2 * i + 1) (wt N) 0 in
    (0 <=? a) && (a <? 12289) && ((a + b) mod 12289 =? 0) && ((a * a - (if (k =? 1)%nat then -1 else nth i (wt (N / 2)) 0)) mod 12289 =? 0) && ((a * nth (Z.to_nat a) inv_mod_q 0) mod 12289 =? 1)) (seq 0 (N / 2)).
Lemma tabs_ok : forallb tab_ok (seq 1 9) = true. Proof. vm_cast_no_check (eq_refl true). Qed.
Lemma inv_length : length inv_mod_q = Z.to_nat 12289. Proof. vm_cast_no_check (eq_refl (Z.to_nat 12289)). Qed.
Lemma tab k : (1 <= k <= 9)%nat -> tab_ok k = true.
Proof. intros Hk. pose proof tabs_ok as T. rewrite forallb_forall in T. apply T, in_seq. lia. Qed.
Lemma half k : (2 ^ S k / 2 = 2 ^ k)%nat.
Proof. rewrite Nat.pow_succ_r', Nat.mul_comm. apply Nat.div_mul. lia. Qed.
Lemma dvd_cgm x : (12289 | x) -> x == 0.
Proof. intros (y & ->). constructor. rewrite Z.mod_mul by lia. reflexivity. Qed.
Lemma tab_len k : (1 <= k <= 9)%nat -> length (wt (2 ^ k)) = (2 ^ k)%nat.
Proof. intros Hk. pose proof (tab k Hk) as T. unfold tab_ok in T. apply andb_prop in T. apply Nat.eqb_eq, T. Qed.
Lemma tab_at k i : (k <= 8)%nat -> (i < 2 ^ k)%nat -> let a := nth (2 * i) (wt (2 ^ S k)) 0 in let b := nth (2 * i + 1) (wt (2 ^ S k)) 0 in
  0 <= a < 12289 /\ b == - a /\ a * a == (if (k =? 0)%nat then -1 else nth i (wt (2 ^ k)) 0) /\ a * nth (Z.to_nat a) inv_mod_q 0 == 1.
Proof.
  intros Hk Hi. pose proof (tab (S k) ltac:(lia)) as T. unfold tab_ok in T. apply andb_prop in T. destruct T as [_ T]. rewrite half in T. rewrite forallb_forall in T.
  specialize (T i ltac:(apply in_seq; lia)). cbv zeta in *. change (S k =? 1)%nat with (k =? 0)%nat in T. set (a := nth (2 * i) (wt (2 ^ S k)) 0) in *. set (b := nth (2 * i + 1) (wt (2 ^ S k)) 0) in *. set (c := if (k =? 0)%nat then _ else _) in *. set (d := nth (Z.to_nat a) inv_mod_q 0) in *. clearbody a b c d.
  repeat (apply andb_prop in T; destruct T as [T ?]). apply Z.leb_le in T. apply Z.ltb_lt in H2. apply Z.eqb_eq in H, H0, H1.
  split; [lia|]. split; [|split].
  - assert (E : b == (a + b) - a) by rr. rewrite E. assert (E2 : a + b == 0) by (constructor; rewrite H1; reflexivity). rewrite E2. rr.
  - assert (E : a * a == (a * a - c) + c) by rr. rewrite E. assert (E2 : a * a - c == 0) by (constructor; rewrite H0; reflexivity). rewrite E2. rr.
  - constructor. rewrite H. reflexivity.
Qed.
Lemma root_pow k : (k <= 8)%nat -> forall i, (i < 2 ^ S k)%nat -> nth i (wt (2 ^ S k)) 0 ^ (2 ^ Z.of_nat (S k)) == -1.
Proof.
  induction k as [|k IH]; intros Hk i Hi.
  - change (2 ^ 1)%nat with 2%nat in *. change (2 ^ Z.of_nat 1) with 2. constructor. assert (C : i = 0%nat \/ i = 1%nat) by lia. destruct C as [-> | ->]; reflexivity.
  - assert (Hq : exists j, (j < 2 ^ S k)%nat /\ (i = 2 * j \/ i = 2 * j + 1)%nat).
    { exists (i / 2)%nat. rewrite (Nat.pow_succ_r' 2 (S k)) in Hi. pose proof (Nat.div_mod i 2 ltac:(lia)). pose proof (Nat.mod_upper_bound i 2 ltac:(lia)). split; [|lia]. apply Nat.div_lt_upper_bound; lia. }
    destruct Hq as (j & Hj & Ei). destruct (tab_at (S k) j ltac:(lia) Hj) as (_ & Hb & Ha & _). cbn [Nat.eqb] in Ha.
    rewrite (Nat2Z.inj_succ (S k)), Z.pow_succ_r, Z.pow_mul_r by lia.
    assert (E : nth i (wt (2 ^ S (S k))) 0 ^ 2 == nth j (wt (2 ^ S k)) 0).
    { rewrite <- Ha. rewrite Z.pow_2_r. destruct Ei as [-> | ->]; [reflexivity|]. rewrite Hb. rr. }
    rewrite E. apply IH; [lia|exact Hj].
Qed.

(** * lists *)
Lemma mapr_ok {A B} (f : A -> res B) (g : A -> B) l : (forall x, In x l -> f x = Ok (g x)) -> mapr f l = Ok (map g l).
Proof.
  induction l as [|x l IH]; intros Hf; [reflexivity|]. cbn [mapr map]. rewrite (Hf x (or_introl eq_refl)). cbn [bind]. rewrite IH; [reflexivity|]. intros y Hy. apply Hf. right. exact Hy.
Qed.
Lemma idx_ok l i : (i < length l)%nat -> idx l i = Ok (nth i l 0).
Proof. intros Hi. unfold idx. destruct (Nat.ltb_spec i (length l)); [reflexivity|lia]. Qed.
Lemma csub_ok a b : b <= a -> csub a b = Ok (a - b).
Proof. intros Hb. unfold csub. destruct (Z.ltb_spec a b); [lia|reflexivity]. Qed.
Lemma sp0_length p m : length p = (2 * m)%nat -> length (sp0 p) = m.
Proof. intros L. unfold sp0. rewrite map_length, seq_length, L, Nat.mul_comm. apply Nat.div_mul. lia. Qed.
Lemma sp1_length p m : length p = (2 * m)%nat -> length (sp1 p) = m.
Proof. intros L. unfold sp1. rewrite map_length, seq_length, L, Nat.mul_comm. apply Nat.div_mul. lia. Qed.
Lemma nth_map_seq' {A} (f : nat -> A) m i d : (i < m)%nat -> nth i (map f (seq 0 m)) d = f i.
Proof. intros Hi. rewrite (nth_indep _ d (f 0%nat)) by (rewrite map_length, seq_length; exact Hi). rewrite map_nth, seq_nth by exact Hi. reflexivity. Qed.
Lemma sp0_nth p m i : length p = (2 * m)%nat -> (i < m)%nat -> nth i (sp0 p) 0 = nth (2 * i) p 0.
Proof. intros L Hi. unfold sp0. rewrite nth_map_seq'; [reflexivity|]. rewrite L, Nat.mul_comm, Nat.div_mul by lia. exact Hi. Qed.
Lemma sp1_nth p m i : length p = (2 * m)%nat -> (i < m)%nat -> nth i (sp1 p) 0 = nth (2 * i + 1) p 0.
Proof. intros L Hi. unfold sp1. rewrite nth_map_seq'; [reflexivity|]. rewrite L, Nat.mul_comm, Nat.div_mul by lia. exact Hi. Qed.
Lemma concat_pairs (f g : nat -> Z) m : concat (map (fun i => [f i; g i]) (seq 0 m)) = map (fun j => if Nat.even j then f (j / 2)%nat else g (j / 2)%nat) (seq 0 (2 * m)).
Proof.
  induction m as [|m IH]; [reflexivity|]. rewrite seq_S, map_app, concat_app, IH. replace (2 * S m)%nat with (S (S (2 * m))) by lia. rewrite !seq_S, !map_app. cbn [map concat app Nat.add]. rewrite <- app_assoc. f_equal. cbn [app].
  assert (E1 : Nat.even (2 * m) = true) by (apply Nat.even_spec; exists m; reflexivity). assert (E2 : Nat.even (S (2 * m)) = false) by (rewrite Nat.even_succ, <- Nat.negb_even, E1; reflexivity).
  rewrite E1, E2. assert (D1 : (2 * m / 2 = m)%nat) by (rewrite Nat.mul_comm; apply Nat.div_mul; lia). assert (D2 : (S (2 * m) / 2 = m)%nat) by (symmetry; apply (Nat.div_unique _ _ _ 1); lia). rewrite D1, D2. reflexivity.
Qed.
Lemma map_seq_pairs (h : nat -> Z) m : map h (seq 0 (2 * m)) = concat (map (fun i => [h (2 * i)%nat; h (2 * i + 1)%nat]) (seq 0 m)).
Proof.
  rewrite (concat_pairs (fun i => h (2 * i)%nat) (fun i => h (2 * i + 1)%nat)). apply map_ext_in. intros j Hj. pose proof (Nat.div_mod j 2 ltac:(lia)) as D. destruct (Nat.even j) eqn:E.
  - f_equal. apply Nat.even_spec in E. destruct E as (t & ->). rewrite Nat.mul_comm, Nat.div_mul by lia. lia.
  - f_equal. assert (O : Nat.odd j = true) by (rewrite <- Nat.negb_even, E; reflexivity). apply Nat.odd_spec in O. destruct O as (t & ->). rewrite <- (Nat.div_unique (2 * t + 1) 2 t 1) by lia. reflexivity.
Qed.

(** * evaluation *)
Definition E (p : list Z) (z : Z) : Z := evn (length p) (ln p) z.
Lemma sum_pairs m f : sum_to (2 * m) f = sum_to m (fun i => f (2 * i)%nat) + sum_to m (fun i => f (2 * i + 1)%nat).
Proof. induction m as [|m IH]; [reflexivity|]. replace (2 * S m)%nat with (S (S (2 * m))) by lia. cbn [sum_to]. rewrite IH. replace (2 * m + 1)%nat with (S (2 * m)) by lia. ring. Qed.
Lemma E_split p m z : length p = (2 * m)%nat -> E p z = E (sp0 p) (z * z) + z * E (sp1 p) (z * z).
Proof.
  intros L. unfold E, evn. rewrite L, sum_pairs, (sp0_length p m L), (sp1_length p m L), <- sum_to_scale. f_equal.
  - apply sum_to_ext. intros i Hi. unfold ln. rewrite (sp0_nth p m i L Hi). rewrite <- Z.pow_2_r, <- Z.pow_mul_r by lia. do 2 f_equal. lia.
  - apply sum_to_ext. intros i Hi. unfold ln. rewrite (sp1_nth p m i L Hi). rewrite <- Z.pow_2_r, <- Z.pow_mul_r by lia. replace (Z.of_nat (2 * i + 1)) with (Z.succ (2 * Z.of_nat i)) by lia. rewrite Z.pow_succ_r by lia. ring.
Qed.
Lemma E_cgm p z z' : z == z' -> E p z == E p z'.
Proof. intros Hz. unfold E, evn. apply sum_eqm. intros i _. rewrite Hz. reflexivity. Qed.
Definition T (p : list Z) (k : nat) : list Z := map (fun j => E p (nth j (wt (2 ^ k)) 0) mod 12289) (seq 0 (2 ^ k)).
Lemma T_length p k : length (T p k) = (2 ^ k)%nat. Proof. unfold T. rewrite map_length, seq_length. reflexivity. Qed.
Lemma T_nth p k j : (j < 2 ^ k)%nat -> nth j (T p k) 0 = E p (nth j (wt (2 ^ k)) 0) mod 12289.
Proof. intros Hj. unfold T. exact (nth_map_seq' (fun j => E p (nth j (wt (2 ^ k)) 0) mod 12289) _ j 0 Hj). Qed.
Lemma cgm_mod x y : x == y -> x mod 12289 = y mod 12289. Proof. intros [H]. exact H. Qed.
Lemma q_minus x : 12289 - x == - x. Proof. constructor. rewrite <- (Z_mod_plus_full (- x) 1 12289). f_equal. ring. Qed.
Lemma two_small j : (j < 2)%nat -> j = 0%nat \/ j = 1%nat. Proof. lia. Qed.

Lemma E_pair p k i : (1 <= k <= 8)%nat -> length p = (2 ^ S k)%nat -> (i < 2 ^ k)%nat -> let a := nth (2 * i) (wt (2 ^ S k)) 0 in
  E p a == E (sp0 p) (nth i (wt (2 ^ k)) 0) + a * E (sp1 p) (nth i (wt (2 ^ k)) 0) /\
  E p (nth (2 * i + 1) (wt (2 ^ S k)) 0) == E (sp0 p) (nth i (wt (2 ^ k)) 0) - a * E (sp1 p) (nth i (wt (2 ^ k)) 0).
Proof.
  intros Hk L Hi. cbv zeta. destruct (tab_at k i ltac:(lia) Hi) as (_ & Hb & Ha & _). replace (k =? 0)%nat with false in Ha by (symmetry; apply Nat.eqb_neq; lia).
  rewrite Nat.pow_succ_r' in L. set (a := nth (2 * i) (wt (2 ^ S k)) 0) in *. set (b := nth (2 * i + 1) (wt (2 ^ S k)) 0) in *. set (c := nth i (wt (2 ^ k)) 0) in *. clearbody a b c. split.
  - rewrite (E_split p _ a L). rewrite (E_cgm (sp0 p) (a * a) c Ha), (E_cgm (sp1 p) (a * a) c Ha). reflexivity.
  - rewrite (E_cgm p b (- a) Hb). rewrite (E_split p _ (- a) L). assert (Ha' : - a * - a == c) by (rewrite <- Ha; rr). rewrite (E_cgm (sp0 p) _ c Ha'), (E_cgm (sp1 p) _ c Ha'). rr.
Qed.
Lemma E2 p z : length p = 2%nat -> E p z = nth 0 p 0 + nth 1 p 0 * z.
Proof. intros L. unfold E, evn. rewrite L. cbn [sum_to]. unfold ln. change (Z.of_nat 0) with 0. change (Z.of_nat 1) with 1. rewrite Z.pow_0_r, Z.pow_1_r. ring. Qed.
Theorem nTT_eval k : (1 <= k <= 9)%nat -> forall fuel p, (k <= fuel)%nat -> length p = (2 ^ k)%nat -> nTT fuel p = Fin (Ok (T p k)).
Proof.
  induction k as [|k IH]; [lia|]. intros Hk [|fuel] p Hf L; [lia|]. cbn [nTT]. destruct k as [|k].
  - change (2 ^ 1)%nat with 2%nat in L. rewrite L. cbn [Nat.ltb Nat.leb]. rewrite !idx_ok by lia. cbn [bind]. rewrite csub_ok by (unfold mulmod, q; lia). cbn [bind]. unfold T. change (seq 0 (2 ^ 1)) with [0; 1]%nat. cbn [map].
    change (nth 0 (wt (2 ^ 1)) 0) with 1479. change (nth 1 (wt (2 ^ 1)) 0) with 10810. rewrite !E2 by exact L. set (x := nth 0 p 0). set (y := nth 1 p 0). clearbody x y. do 2 f_equal. unfold addmod, mulmod, q, sqr1. f_equal; [|f_equal].
    + apply cgm_mod. rewrite eqm_mod. reflexivity.
    + apply cgm_mod. assert (Q : 12289 - (y * 1479) mod 12289 == - (y * 1479)) by (rewrite q_minus, eqm_mod; reflexivity). rewrite Q.
      assert (W : 10810 == - 1479) by (constructor; reflexivity). rewrite W. rr.
  - assert (P2 : (2 <= 2 ^ S k)%nat) by (rewrite Nat.pow_succ_r'; pose proof (Nat.pow_nonzero 2 k); lia).
    assert (L2 : length p = (2 * 2 ^ S k)%nat) by (rewrite L; apply Nat.pow_succ_r').
    destruct (Nat.ltb_spec 2 (length p)) as [_|C]; [|lia]. rewrite (IH ltac:(lia) fuel (sp0 p) ltac:(lia) (sp0_length p _ L2)). cbn [fbind]. rewrite (IH ltac:(lia) fuel (sp1 p) ltac:(lia) (sp1_length p _ L2)). cbn [fbind].
    f_equal. unfold mergeNTT. rewrite T_length. replace (2 ^ S k * 2)%nat with (2 ^ S (S k))%nat by (rewrite (Nat.pow_succ_r' 2 (S k)); lia).
    set (m := (2 ^ S k)%nat) in *. erewrite (mapr_ok _ (fun i => [E p (nth (2 * i) (wt (2 ^ S (S k))) 0) mod 12289; E p (nth (2 * i + 1) (wt (2 ^ S (S k))) 0) mod 12289])).
    + cbn [bind]. f_equal. unfold T. rewrite (Nat.pow_succ_r' 2 (S k)). fold m. symmetry. apply map_seq_pairs with (h := fun j => E p (nth j (wt (2 * m)) 0) mod 12289).
    + intros i Hi. apply in_seq in Hi. assert (Hi' : (i < m)%nat) by lia. rewrite !idx_ok; [|rewrite T_length; exact Hi'|rewrite tab_len by lia; rewrite Nat.pow_succ_r'; fold m; lia|rewrite T_length; exact Hi'].
      cbn [bind]. rewrite csub_ok by (unfold mulmod, q; lia). cbn [bind]. rewrite !T_nth by exact Hi'. fold m.
      destruct (E_pair p (S k) i ltac:(lia) L Hi') as [E1 E2']. fold m in E1, E2'. set (a := nth (2 * i) (wt (2 ^ S (S k))) 0) in *. set (b := nth (2 * i + 1) _ 0) in *. set (c := nth i (wt m) 0) in *. clearbody a b c.
      unfold addmod, mulmod, q. f_equal. f_equal; [|f_equal].
      * apply cgm_mod. rewrite E1, !eqm_mod. reflexivity.
      * apply cgm_mod. rewrite E2', q_minus, !eqm_mod. rr.
Qed.
Definition red (p : list Z) : list Z := map (fun x => x mod 12289) p.
Lemma interleave_split p m : length p = (2 * m)%nat -> interleave (red (sp0 p)) (red (sp1 p)) = red p.
Proof.
  intros L. unfold interleave. assert (L0 : length (red (sp0 p)) = m) by (unfold red; rewrite map_length; apply sp0_length, L). rewrite L0. rewrite flat_map_concat_map.
  assert (Er : red p = map (fun j => nth j p 0 mod 12289) (seq 0 (2 * m))).
  { apply (nth_ext _ _ 0 0); [unfold red; rewrite !map_length, seq_length; exact L|]. intros j Hj. unfold red in *. rewrite map_length in Hj. rewrite nth_map_seq' by lia. rewrite nth_map0 by exact Hj. reflexivity. }
  rewrite Er, map_seq_pairs. f_equal. apply map_ext_in. intros i Hi. apply in_seq in Hi. unfold red. rewrite !nth_map0 by (rewrite ?(sp0_length p m L), ?(sp1_length p m L); lia). rewrite (sp0_nth p m i L), (sp1_nth p m i L) by lia. reflexivity.
Qed.
Lemma half_sum x y : 6145 * (x + y + (x - y)) == x. Proof. assert (W : 6145 * 2 == 1) by (constructor; reflexivity). assert (A : 6145 * (x + y + (x - y)) == 6145 * 2 * x) by rr. rewrite A, W. rr. Qed.
Theorem iNTT_eval k : (1 <= k <= 9)%nat -> forall fuel p, (k <= fuel)%nat -> length p = (2 ^ k)%nat -> iNTT fuel (T p k) = Fin (Ok (red p)).
Proof.
  assert (W2 : 6145 * 2 == 1) by (constructor; reflexivity).
  induction k as [|k IH]; [lia|]. intros Hk [|fuel] p Hf L; [lia|]. cbn [iNTT]. rewrite T_length. destruct k as [|k].
  - change (2 ^ 1)%nat with 2%nat in *. cbn [Nat.ltb Nat.leb]. rewrite !idx_ok by (rewrite ?T_length, ?inv_length; change (2 ^ 1)%nat with 2%nat; unfold sqr1; lia). cbn [bind]. rewrite !T_nth by (change (2 ^ 1)%nat with 2%nat; lia).
    rewrite csub_ok by (unfold q; lia). cbn [bind]. change (nth 0 (wt (2 ^ 1)) 0) with 1479. change (nth 1 (wt (2 ^ 1)) 0) with 10810. rewrite !E2 by exact L.
    assert (WI : nth (Z.to_nat sqr1) inv_mod_q 0 * 1479 == 1) by (constructor; vm_compute; reflexivity). set (iv := nth (Z.to_nat sqr1) inv_mod_q 0) in *. clearbody iv.
    assert (WR : 10810 == - 1479) by (constructor; reflexivity). destruct p as [|x [|y [|]]]; try discriminate. cbn [nth red map]. unfold addmod, mulmod, q, i2. do 2 f_equal. f_equal; [|f_equal].
    + apply cgm_mod. rewrite !eqm_mod. rewrite WR. assert (A : 6145 * (x + y * 1479 + (x + y * - (1479))) == 6145 * 2 * x) by rr. rewrite A, W2. rr.
    + apply cgm_mod. rewrite ?eqm_mod, ?q_minus, ?eqm_mod. rewrite WR. assert (A : 6145 * iv * (x + y * 1479 + - (x + y * - (1479))) == 6145 * 2 * (iv * 1479) * y) by rr. rewrite A, W2, WI. rr.
  - assert (P2 : (2 <= 2 ^ S k)%nat) by (rewrite Nat.pow_succ_r'; pose proof (Nat.pow_nonzero 2 k); lia).
    set (m := (2 ^ S k)%nat) in *. assert (Lm : (2 ^ S (S k) = 2 * m)%nat) by (apply Nat.pow_succ_r'). assert (L2 : length p = (2 * m)%nat) by (rewrite L; exact Lm).
    destruct (Nat.ltb_spec 2 (2 ^ S (S k))) as [_|C]; [|lia].
    assert (ES : splitNTT (T p (S (S k))) = Ok (T (sp0 p) (S k), T (sp1 p) (S k))).
    { unfold splitNTT. rewrite T_length. cbv zeta. replace (2 ^ S (S k) / 2)%nat with m by (rewrite Lm, (Nat.mul_comm 2 m), Nat.div_mul by lia; reflexivity).
      erewrite (mapr_ok _ (fun i => (nth i (T (sp0 p) (S k)) 0, nth i (T (sp1 p) (S k)) 0))).
      - cbn [bind]. f_equal. rewrite !map_map. cbn [fst snd]. f_equal; (apply (nth_ext _ _ 0 0); [rewrite map_length, seq_length, T_length; reflexivity|]; intros j Hj; rewrite map_length, seq_length in Hj; rewrite nth_map_seq' by exact Hj; reflexivity).
      - intros i Hi. apply in_seq in Hi. assert (Hi' : (i < m)%nat) by lia. destruct (tab_at (S k) i ltac:(lia) Hi') as (Ra & _ & _ & Iv). cbv zeta in Ra, Iv.
        rewrite (idx_ok (T p (S (S k)))) by (rewrite T_length, Lm; lia). cbn [bind]. rewrite (idx_ok (T p (S (S k)))) by (rewrite T_length, Lm; lia). cbn [bind].
        rewrite !(T_nth p (S (S k))) by (rewrite Lm; lia). rewrite csub_ok by (unfold q; lia). cbn [bind]. rewrite (idx_ok (wt _)) by (rewrite tab_len by lia; rewrite Lm; lia). cbn [bind].
        rewrite (idx_ok inv_mod_q) by (rewrite inv_length; lia). cbn [bind]. rewrite !T_nth by exact Hi'. fold m.
        destruct (E_pair p (S k) i ltac:(lia) L Hi') as [E1 E2']. fold m in E1, E2'. set (a := nth (2 * i) (wt (2 ^ S (S k))) 0) in *. set (b := nth (2 * i + 1) _ 0) in *. set (c := nth i (wt m) 0) in *. set (iv := nth (Z.to_nat a) inv_mod_q 0) in *. clearbody a b c iv.
        unfold addmod, mulmod, q, i2. f_equal. f_equal.
        + apply cgm_mod. rewrite !eqm_mod, E1, E2'. apply half_sum.
        + apply cgm_mod. rewrite ?eqm_mod, ?q_minus, ?eqm_mod, E1, E2'. set (u := E (sp0 p) c). set (v := E (sp1 p) c). assert (A : 6145 * (u + a * v + - (u - a * v)) * iv == 6145 * 2 * (a * iv) * v) by rr. rewrite A, W2, Iv. rr. }
    rewrite ES. cbn [fbind]. rewrite (IH ltac:(lia) fuel (sp0 p) ltac:(lia) (sp0_length p _ L2)). cbn [fbind]. rewrite (IH ltac:(lia) fuel (sp1 p) ltac:(lia) (sp1_length p _ L2)). cbn [fbind].
    rewrite (interleave_split p m L2). reflexivity.
Qed.
Lemma evn_ev' n A w : evn n A w = ev n w (fun i => A (Z.to_nat i)).
Proof. unfold evn, ev, sumz. apply sum_to_ext. intros i Hi. rewrite Nat2Z.id. reflexivity. Qed.
Lemma E_mul k a b z : (k <= 9)%nat -> length a = (2 ^ k)%nat -> length b = (2 ^ k)%nat -> z ^ (2 ^ Z.of_nat k) == -1 -> E (negmul (2 ^ k) a b) z == E a z * E b z.
Proof.
  intros Hk La Lb Hz. unfold E. rewrite negmul_length, La, Lb. set (n := (2 ^ k)%nat) in *. assert (np : (0 < n)%nat) by (unfold n; pose proof (Nat.pow_nonzero 2 k); lia).
  rewrite !evn_ev'. change (fun i : Z => ln a (Z.to_nat i)) with (fl a). change (fun i : Z => ln b (Z.to_nat i)) with (fl b). change (fun i : Z => ln (negmul n a b) (Z.to_nat i)) with (fl (negmul n a b)).
  rewrite <- (ev_mul 12289 n z np).
  - unfold ev, sumz. apply sum_eqm. intros i Hi. rewrite fl_negmul by lia. reflexivity.
  - unfold n. rewrite Nat2Z.inj_pow. exact Hz.
Qed.
Theorem mulZQ_ok k fuel a b : (1 <= k <= 9)%nat -> (k <= fuel)%nat -> length a = (2 ^ k)%nat -> length b = (2 ^ k)%nat ->
  mulZQ fuel a b = Fin (Ok (red (negmul (2 ^ k) a b))) /\ mulZQ_opt fuel a (T b k) = Fin (Ok (red (negmul (2 ^ k) a b))).
Proof.
  intros Hk Hf La Lb. unfold mulZQ, mulZQ_opt. rewrite (nTT_eval k Hk fuel a Hf La), (nTT_eval k Hk fuel b Hf Lb). cbn [fbind].
  assert (M : mulNTT (T a k) (T b k) = Ok (T (negmul (2 ^ k) a b) k)).
  { unfold mulNTT. rewrite !T_length, Nat.eqb_refl. f_equal. unfold T at 3. apply map_ext_in. intros j Hj. apply in_seq in Hj. rewrite !T_nth by lia. unfold mulmod, q. apply cgm_mod. rewrite !eqm_mod. symmetry.
    apply E_mul; [lia|exact La|exact Lb|]. destruct k as [|k]; [lia|]. apply root_pow; lia. }
  rewrite M. cbn [fbind]. rewrite (iNTT_eval k Hk fuel _ Hf (negmul_length _ _ _)). split; reflexivity.
Qed.
