From Verif Require Import Base KeccakModel ChachaModel BlakeModel BlakeSpec.
From Verif Require ChachaProofs.
Notation u32 := ChachaProofs.u32.

Lemma rot_spec x n : u32 x -> 0 < n < 32 -> right_rot x n = rotr x n /\ u32 (rotr x n).
Proof.
  intros Hx Hn. unfold right_rot, rotr. unfold ChachaProofs.u32 in *. rewrite (land_ones_mod x n) by lia. rewrite Z.shiftr_div_pow2 by lia.
  pose proof (Z.mod_pos_bound x (2 ^ n) ltac:(apply Z.pow_pos_nonneg; lia)) as Hm.
  assert (P : 2 ^ 32 = 2 ^ n * 2 ^ (32 - n)) by (rewrite <- Z.pow_add_r by lia; f_equal; lia).
  assert (Hd : 0 <= x / 2 ^ n < 2 ^ (32 - n)). { split; [apply Z.div_pos; [lia|apply Z.pow_pos_nonneg; lia]|]. apply Z.div_lt_upper_bound; [apply Z.pow_pos_nonneg; lia|]. lia. }
  rewrite Z.lor_comm, lor_shiftl_add by lia. split; [ring|]. nia.
Qed.

(** list state and function state *)
Definition rep (k : nat) (st : list Z) (s : vec) : Prop := length st = k /\ forall i, (i < k)%nat -> nth i st 0 = s i /\ u32 (s i).
Lemma mod32 a : u32 (a mod 2 ^ 32). Proof. apply ChachaProofs.u32_mod. Qed.
Lemma mix_rep st s a b c d x y : rep 16 st s -> ChachaProofs.distinct4 a b c d -> rep 16 (mix_at st a b c d x y) (G s a b c d x y).
Proof.
  intros [L R] Hd. unfold ChachaProofs.distinct4 in Hd. destruct Hd as (N1 & N2 & N3 & N4 & N5 & N6 & Ha & Hb & Hc & Hdd).
  destruct (R a Ha) as [Ea Ua]. destruct (R b Hb) as [Eb Ub]. destruct (R c Hc) as [Ec Uc]. destruct (R d Hdd) as [Ed Ud].
  assert (Eq : forall i j, i <> j -> (i =? j)%nat = false) by (intros; now apply Nat.eqb_neq).
  unfold mix_at, mix. rewrite Ea, Eb, Ec, Ed.
  set (a1 := (s a + s b + x) mod 2 ^ 32). assert (Ua1 : u32 a1) by apply mod32.
  destruct (rot_spec (Z.lxor (s d) a1) 16 (ChachaProofs.u32_lxor _ _ Ud Ua1) ltac:(lia)) as [-> Ud1]. set (d1 := rotr (Z.lxor (s d) a1) 16) in *.
  set (c1 := (s c + d1) mod 2 ^ 32). assert (Uc1 : u32 c1) by apply mod32.
  destruct (rot_spec (Z.lxor (s b) c1) 12 (ChachaProofs.u32_lxor _ _ Ub Uc1) ltac:(lia)) as [-> Ub1]. set (b1 := rotr (Z.lxor (s b) c1) 12) in *.
  set (a2 := (a1 + b1 + y) mod 2 ^ 32). assert (Ua2 : u32 a2) by apply mod32.
  destruct (rot_spec (Z.lxor d1 a2) 8 (ChachaProofs.u32_lxor _ _ Ud1 Ua2) ltac:(lia)) as [-> Ud2]. set (d2 := rotr (Z.lxor d1 a2) 8) in *.
  set (c2 := (c1 + d2) mod 2 ^ 32). assert (Uc2 : u32 c2) by apply mod32.
  destruct (rot_spec (Z.lxor b1 c2) 7 (ChachaProofs.u32_lxor _ _ Ub1 Uc2) ltac:(lia)) as [-> Ub2]. set (b2 := rotr (Z.lxor b1 c2) 7) in *.
  assert (GG : forall i, G s a b c d x y i = if (i =? d)%nat then d2 else if (i =? c)%nat then c2 else if (i =? b)%nat then b2 else if (i =? a)%nat then a2 else s i).
  { intros i. unfold G, vset. cbv zeta. rewrite ?Nat.eqb_refl, ?(Eq a b), ?(Eq a c), ?(Eq a d), ?(Eq b a), ?(Eq b c), ?(Eq b d), ?(Eq c a), ?(Eq c b), ?(Eq c d), ?(Eq d a), ?(Eq d b), ?(Eq d c) by lia.
    fold a1. fold d1. fold c1. fold b1. fold a2. fold d2. fold c2. fold b2.
    destruct (Nat.eqb_spec i d), (Nat.eqb_spec i c), (Nat.eqb_spec i b), (Nat.eqb_spec i a); subst; try lia; reflexivity. }
  split; [now rewrite !ChachaProofs.upd_length|]. intros i Hi. destruct (R i Hi) as [Ei Ui]. rewrite GG.
  rewrite !ChachaProofs.nth_upd by (rewrite ?ChachaProofs.upd_length; lia). rewrite Ei.
  destruct (Nat.eqb_spec i d), (Nat.eqb_spec i c), (Nat.eqb_spec i b), (Nat.eqb_spec i a); subst; try lia; auto.
Qed.
(** G reads the message words only through their values *)
Lemma round_rep st s m mm sg : rep 16 st s -> rep 16 m mm -> length sg = 16%nat -> Forall (fun k => (k < 16)%nat) sg -> rep 16 (blake_round st m sg) (round mm s sg).
Proof.
  intros H [Lm Hm] Ls Hs.
  assert (W : forall i, (i < 16)%nat -> nth (nth i sg 0%nat) m 0 = mm (nth i sg 0%nat)).
  { intros i Hi. apply Hm. rewrite Forall_forall in Hs. apply Hs, nth_In. lia. }
  unfold blake_round, round. rewrite !W by lia.
  repeat (apply mix_rep; [|unfold ChachaProofs.distinct4; lia]). exact H.
Qed.
Lemma SIGMA_sched : SIGMA = sched. Proof. reflexivity. Qed.
Lemma sched_ok : Forall (fun sg => length sg = 16%nat /\ Forall (fun k => (k < 16)%nat) sg) sched.
Proof. repeat constructor. Qed.
Lemma fold_sim {A B S} (f : A -> S -> A) (g : B -> S -> B) (R : A -> B -> Prop) (P : S -> Prop) :
  (forall a b x, P x -> R a b -> R (f a x) (g b x)) -> forall l, Forall P l -> forall a b, R a b -> R (fold_left f l a) (fold_left g l b).
Proof. intros H l Hl. induction Hl as [|x l Hx _ IH]; intros a b Hab; [exact Hab|]. cbn [fold_left]. auto. Qed.
Definition good_sched (sg : list nat) : Prop := length sg = 16%nat /\ Forall (fun k => (k < 16)%nat) sg.
Lemma step_rep m mm : rep 16 m mm -> forall st s sg, good_sched sg -> rep 16 st s -> rep 16 (blake_round st m sg) (round mm s sg).
Proof. intros Hm st s sg [L1 L2] Hs. exact (round_rep st s m mm sg Hs Hm L1 L2). Qed.
Definition rounds_rep m mm (Hm : rep 16 m mm) st s (Hs : rep 16 st s) :
  rep 16 (fold_left (fun state sigma => blake_round state m sigma) sched st) (fold_left (round mm) sched s) :=
  fold_sim (fun state sigma => blake_round state m sigma) (round mm) (rep 16) good_sched (step_rep m mm Hm) sched sched_ok st s Hs.

Lemma iv_IV : map iv (seq 0 8) = IV. Proof. vm_compute. reflexivity. Qed.
Lemma nth_iv i : (i < 8)%nat -> nth i IV 0 = iv i.
Proof. intros H. rewrite <- iv_IV. now rewrite (ChachaProofs.nth_map_seq iv 0 8 i H). Qed.
Lemma iv_u32 i : u32 (iv i). Proof. apply mod32. Qed.
Lemma rep_16 x0 x1 x2 x3 x4 x5 x6 x7 x8 x9 x10 x11 x12 x13 x14 x15 (s : vec) :
  Forall (fun '(x, i) => x = s i /\ u32 (s i)) (combine [x0; x1; x2; x3; x4; x5; x6; x7; x8; x9; x10; x11; x12; x13; x14; x15] (seq 0 16)) ->
  rep 16 [x0; x1; x2; x3; x4; x5; x6; x7; x8; x9; x10; x11; x12; x13; x14; x15] s.
Proof.
  intros H. split; [reflexivity|]. intros i Hi. cbn [seq combine] in H. repeat (apply Forall_cons_iff in H; destruct H as [? H]).
  do 16 (destruct i as [|i]; [assumption|]). lia.
Qed.
Lemma compress_rep_gen h hh m mm t f0 last : rep 8 h hh -> rep 16 m mm -> 0 <= t < 2 ^ 64 -> f0 = (if last : bool then 0xFFFFFFFF else 0) ->
  rep 8 (blake2s_compress h m (t mod 2 ^ 32) (t / 2 ^ 32) f0 0) (F hh mm t last).
Proof.
  intros [Lh Hh] Hm Ht Hf. unfold blake2s_compress, F. rewrite SIGMA_sched.
  set (st := (h ++ firstn 4 IV ++ _)). set (v := if last then _ else _).
  assert (R : rep 16 st v).
  { do 9 (destruct h as [|? h]; try discriminate Lh).
    assert (X : forall a b, u32 a -> u32 b -> Z.lxor a b mod 2 ^ 32 = Z.lxor a b) by (intros a b A B; apply Z.mod_small, (ChachaProofs.u32_lxor a b A B)).
    assert (U : u32 (t mod 2 ^ 32)) by apply mod32. assert (U' : u32 (t / 2 ^ 32)) by (unfold ChachaProofs.u32; split; [apply Z.div_pos; lia|apply Z.div_lt_upper_bound; lia]). assert (U0 : u32 0) by (unfold ChachaProofs.u32; lia). assert (U1 : u32 0xFFFFFFFF) by (unfold ChachaProofs.u32; lia).
    assert (Ev : forall i, (i < 16)%nat -> i <> 12%nat -> i <> 13%nat -> i <> 14%nat -> v i = if (i <? 8)%nat then hh i else iv (i - 8)).
    { intros i Hi N1 N2 N3. unfold v, vset. destruct last; rewrite ?(proj2 (Nat.eqb_neq i 12) N1), ?(proj2 (Nat.eqb_neq i 13) N2), ?(proj2 (Nat.eqb_neq i 14) N3); reflexivity. }
    assert (E12 : v 12%nat = Z.lxor (iv 4) (t mod 2 ^ 32)). { unfold v, vset. destruct last; cbn [Nat.eqb Nat.ltb Nat.leb Nat.sub]; reflexivity. }
    assert (E13 : v 13%nat = Z.lxor (iv 5) (t / 2 ^ 32)). { unfold v, vset. destruct last; cbn [Nat.eqb Nat.ltb Nat.leb Nat.sub]; reflexivity. }
    assert (E14 : v 14%nat = Z.lxor (iv 6) f0). { unfold v, vset. rewrite Hf. destruct last; cbn [Nat.eqb Nat.ltb Nat.leb Nat.sub]; [reflexivity|symmetry; apply Z.lxor_0_r]. }
    assert (Uf : u32 f0) by (rewrite Hf; destruct last; assumption).
    assert (I4 : firstn 4 IV = [iv 0; iv 1; iv 2; iv 3]) by (vm_compute; reflexivity).
    unfold st. rewrite I4. cbn [map]. rewrite !nth_iv by lia. rewrite !X by auto using iv_u32. rewrite !Z.lxor_0_r. cbn [app].
    assert (Hn : forall i, (i < 8)%nat -> v i = hh i /\ u32 (hh i)). { intros i Hi. rewrite Ev by lia. rewrite (proj2 (Nat.ltb_lt i 8) Hi). split; [reflexivity|apply Hh, Hi]. }
    pose proof (fun i Hi => proj1 (Hh i Hi)) as Hc.
    apply rep_16. cbn [seq combine].
    pose proof (Hc 0%nat ltac:(lia)) as C0. pose proof (Hc 1%nat ltac:(lia)) as C1. pose proof (Hc 2%nat ltac:(lia)) as C2. pose proof (Hc 3%nat ltac:(lia)) as C3.
    pose proof (Hc 4%nat ltac:(lia)) as C4. pose proof (Hc 5%nat ltac:(lia)) as C5. pose proof (Hc 6%nat ltac:(lia)) as C6. pose proof (Hc 7%nat ltac:(lia)) as C7. cbn [nth] in C0, C1, C2, C3, C4, C5, C6, C7.
    assert (Lo : forall x i, (i < 8)%nat -> x = hh i -> x = v i /\ u32 (v i)) by (intros x i Hi ->; destruct (Hn i Hi) as [-> ?]; auto).
    assert (Hi : forall i, (8 <= i < 12 \/ i = 15)%nat -> iv (i - 8) = v i /\ u32 (v i)).
    { intros i Hi. rewrite Ev by lia. rewrite (proj2 (Nat.ltb_ge i 8)) by lia. auto using iv_u32. }
    do 8 (apply Forall_cons; [apply Lo; [lia|assumption]|]). apply Forall_cons; [apply (Hi 8%nat); lia|]. apply Forall_cons; [apply (Hi 9%nat); lia|]. apply Forall_cons; [apply (Hi 10%nat); lia|]. apply Forall_cons; [apply (Hi 11%nat); lia|].
    apply Forall_cons; [split; [symmetry; exact E12|rewrite E12; apply ChachaProofs.u32_lxor; [apply iv_u32|exact U]]|]. apply Forall_cons; [split; [symmetry; exact E13|rewrite E13; apply ChachaProofs.u32_lxor; [apply iv_u32|exact U']]|].
    apply Forall_cons; [split; [symmetry; exact E14|rewrite E14; apply ChachaProofs.u32_lxor; [apply iv_u32|exact Uf]]|]. apply Forall_cons; [apply (Hi 15%nat); lia|constructor]. }
  pose proof (rounds_rep m mm Hm st v R) as [L' R'].
  set (st' := fold_left _ sched st) in *. set (v' := fold_left _ sched v) in *. clearbody st' v'.
  split. { rewrite map_length, !combine_length, firstn_length, skipn_length. lia. }
  intros i Hi. destruct (Hh i Hi) as [E1 U1]. destruct (R' i ltac:(lia)) as [E2 U2]. destruct (R' (i + 8)%nat ltac:(lia)) as [E3 U3].
  split; [|auto using ChachaProofs.u32_lxor].
  assert (MN : forall (g : Z * (Z * Z) -> Z) l d, (i < length l)%nat -> nth i (map g l) 0 = g (nth i l d)).
  { intros g l d Hl. rewrite (nth_indep _ 0 (g d)) by (now rewrite map_length). apply map_nth. }
  rewrite (MN _ _ (0, (0, 0))) by (rewrite !combine_length, firstn_length, skipn_length; lia). rewrite !combine_nth by (rewrite ?combine_length, ?firstn_length, ?skipn_length; lia).
  rewrite E1, <- E2, <- E3. f_equal; [f_equal|].
  - rewrite <- (firstn_skipn 8 st') at 2. symmetry. apply app_nth1. rewrite firstn_length. lia.
  - rewrite <- (firstn_skipn 8 st') at 2. rewrite app_nth2 by (rewrite firstn_length; lia). f_equal. rewrite firstn_length. lia.
Qed.
Lemma compress_rep h hh m mm t f0 last : rep 8 h hh -> rep 16 m mm -> 0 <= t < 2 ^ 32 -> f0 = (if last : bool then 0xFFFFFFFF else 0) ->
  rep 8 (blake2s_compress h m t 0 f0 0) (F hh mm t last).
Proof.
  intros Hh Hm Ht Hf. pose proof (compress_rep_gen h hh m mm t f0 last Hh Hm ltac:(lia) Hf) as R. rewrite Z.mod_small, Z.div_small in R by exact Ht. exact R.
Qed.

(** * the chain over the blocks *)
Lemma rep_ext k st s s' : rep k st s -> (forall i, (i < k)%nat -> s i = s' i) -> rep k st s'.
Proof. intros [L R] E. split; [exact L|]. intros i Hi. rewrite <- E by exact Hi. apply R, Hi. Qed.
Lemma le4_value x : u32 x -> let b j := (x / 256 ^ Z.of_nat j) mod 256 in b 0%nat + 256 * b 1%nat + 65536 * b 2%nat + 16777216 * b 3%nat = x.
Proof. unfold ChachaProofs.u32. intros H. cbv zeta. change (256 ^ Z.of_nat 0) with 1. change (256 ^ Z.of_nat 1) with 256. change (256 ^ Z.of_nat 2) with 65536. change (256 ^ Z.of_nat 3) with 16777216. change (2 ^ 32) with 4294967296 in H. Z.div_mod_to_equations. lia. Qed.
Lemma flat_nth ws k : (k < 4 * length ws)%nat -> nth k (flat_map le4 ws) 0 = (nth (k / 4) ws 0 / 256 ^ Z.of_nat (k mod 4)) mod 256.
Proof. exact (ChachaProofs.flat_le4_nth (repeat 0 56) eq_refl ws k). Qed.
Lemma flat_length ws : length (flat_map le4 ws) = (4 * length ws)%nat.
Proof. exact (ChachaProofs.flat_le4_length (repeat 0 56) eq_refl ws). Qed.
Lemma block_words words k i : Forall u32 words -> (i < 16)%nat -> block (flat_map le4 words) k i = nth (16 * k + i) words 0.
Proof.
  intros U Hi. unfold block. destruct (Nat.ltb_spec (16 * k + i) (length words)) as [L|L].
  - rewrite !flat_nth by lia.
    assert (D : forall j, (j < 4)%nat -> ((64 * k + 4 * i + j) / 4 = 16 * k + i /\ (64 * k + 4 * i + j) mod 4 = j)%nat).
    { intros j Hj. replace (64 * k + 4 * i + j)%nat with (j + (16 * k + i) * 4)%nat by lia. rewrite Nat.div_add, Nat.mod_add, Nat.div_small, Nat.mod_small by lia. split; lia. }
    destruct (D 0%nat ltac:(lia)) as [-> ->], (D 1%nat ltac:(lia)) as [-> ->], (D 2%nat ltac:(lia)) as [-> ->], (D 3%nat ltac:(lia)) as [-> ->].
    apply (le4_value (nth (16 * k + i) words 0)). rewrite Forall_forall in U. apply U, nth_In, L.
  - rewrite (nth_overflow words) by lia. rewrite !nth_overflow by (rewrite flat_length; lia). reflexivity.
Qed.
Lemma nth_u32 words i : Forall u32 words -> u32 (nth i words 0).
Proof. intros U. destruct (nth_in_or_default i words 0) as [H| ->]; [rewrite Forall_forall in U; auto|unfold ChachaProofs.u32; lia]. Qed.
Lemma nth_skipn {A} (l : list A) d : forall k i, nth i (skipn k l) d = nth (k + i) l d.
Proof. induction l as [|x l IH]; intros [|k] i; cbn [skipn nth Nat.add]; auto; now destruct i. Qed.
Lemma skipn_skipn {A} (l : list A) : forall a b, skipn a (skipn b l) = skipn (b + a) l.
Proof. induction l as [|x l IH]; intros a [|b]; cbn [skipn Nat.add]; auto; now destruct a. Qed.
Lemma padded words k : Forall u32 words ->
  rep 16 (let b := firstn 16 (skipn (16 * k) words) in if (length b <? 16)%nat then b ++ repeat 0 (16 - length b) else b) (block (flat_map le4 words) k).
Proof.
  intros U. cbv zeta. set (b := firstn 16 (skipn (16 * k) words)). assert (Lb : (length b <= 16)%nat) by (unfold b; rewrite firstn_length; lia).
  assert (N : forall i, (i < 16)%nat -> nth i (if (length b <? 16)%nat then b ++ repeat 0 (16 - length b) else b) 0 = nth (16 * k + i) words 0).
  { intros i Hi. assert (Nb : nth i b 0 = nth (16 * k + i) words 0).
    { rewrite <- nth_skipn. unfold b. rewrite <- (firstn_skipn 16 (skipn (16 * k) words)) at 2. destruct (Nat.ltb_spec i (length b)) as [H|H].
      - symmetry. apply app_nth1, H.
      - rewrite nth_overflow by exact H. symmetry. apply nth_overflow. rewrite app_length. unfold b in H. rewrite firstn_length in H. rewrite firstn_length. rewrite (skipn_length 16). lia. }
    destruct (Nat.ltb_spec (length b) 16); [|exact Nb]. destruct (Nat.ltb_spec i (length b)); [now rewrite app_nth1|]. rewrite app_nth2, nth_repeat by lia. rewrite <- Nb. now rewrite nth_overflow. }
  split.
  - destruct (Nat.ltb_spec (length b) 16); [rewrite app_length, repeat_length; lia|lia].
  - intros i Hi. rewrite block_words by assumption. split; [apply N, Hi|now apply nth_u32].
Qed.
Section Chain.
Variable words : list Z.
Hypothesis U : Forall u32 words.
Let d := flat_map le4 words.
Let total := 4 * Z.of_nat (length words).
Hypothesis Small : total < 2 ^ 32.
Lemma d_length : Z.of_nat (length d) = total. Proof. unfold d, total. rewrite flat_length. lia. Qed.
Lemma blocks_words : blocks d = ((Nat.max (length words) 1 + 15) / 16)%nat.
Proof.
  unfold blocks, d. rewrite flat_length. destruct words as [|w ws] eqn:E; [reflexivity|].
  rewrite (Nat.max_l (length (w :: ws)) 1) by (cbn [length]; lia). set (n := length (w :: ws)). assert (1 <= n)%nat by (unfold n; cbn [length]; lia).
  replace ((4 * n + 63) / 64)%nat with ((n + 15) / 16)%nat.
  - apply Nat.max_r. apply (Nat.div_le_mono 16 (n + 15) 16); lia.
  - pose proof (Nat.div_mod (n + 15) 16 ltac:(lia)). pose proof (Nat.mod_upper_bound (n + 15) 16 ltac:(lia)). pose proof (Nat.div_mod (4 * n + 63) 64 ltac:(lia)). pose proof (Nat.mod_upper_bound (4 * n + 63) 64 ltac:(lia)). lia.
Qed.
(** the loop from block k on; [todo] blocks are left *)
Definition spec_from (k todo : nat) (h : vec) : vec :=
  let h := fold_left (fun h k => F h (block d k) (64 * Z.of_nat (k + 1)) false) (seq k (todo - 1)) h in
  F h (block d (k + (todo - 1))) (Z.of_nat (length d)) true.
Lemma loop_rep : forall todo k st h, (1 <= todo)%nat -> (k + todo = blocks d)%nat -> rep 8 st h ->
  rep 8 (felt_blocks todo (skipn (16 * k) words) total (64 * Z.of_nat k) st) (spec_from k todo h).
Proof.
  assert (BL : (blocks d = 1 /\ length words <= 16 \/ 16 * (blocks d - 1) < length words <= 16 * blocks d)%nat).
  { rewrite blocks_words. set (n := length words). destruct (Nat.eq_dec n 0) as [->|]; [left; split; [reflexivity|lia]|]. right. rewrite Nat.max_l by lia.
    pose proof (Nat.div_mod (n + 15) 16 ltac:(lia)). pose proof (Nat.mod_upper_bound (n + 15) 16 ltac:(lia)). lia. }
  induction todo as [|todo IH]; intros k st h Ht Hk Hr; [lia|]. cbn [felt_blocks].
  assert (E : (if (length (firstn 16 (skipn (16 * k) words)) <? 16)%nat then firstn 16 (skipn (16 * k) words) ++ repeat 0 (16 - length (firstn 16 (skipn (16 * k) words))) else firstn 16 (skipn (16 * k) words)) =
              (let b := firstn 16 (skipn (16 * k) words) in if (length b <? 16)%nat then b ++ repeat 0 (16 - length b) else b)) by reflexivity.
  pose proof (padded words k U) as P. rewrite <- E in P. clear E. set (blk := if (length (firstn 16 (skipn (16 * k) words)) <? 16)%nat then _ else _) in *.
  assert (SK : forall l : list Z, skipn 16 (skipn (16 * k) l) = skipn (16 * (k + 1)) l) by (intros l; rewrite skipn_skipn; f_equal; lia). rewrite SK.
  destruct todo as [|todo].
  - (* the last block *)
    cbn [felt_blocks]. assert (SE : 64 * Z.of_nat k + Z.min 64 (total - 64 * Z.of_nat k) = total) by (unfold total; lia). rewrite SE, Z.eqb_refl.
    unfold spec_from. cbn [Nat.sub seq fold_left]. rewrite Nat.add_0_r, d_length. apply compress_rep; auto. split; [unfold total; lia|exact Small].
  - assert (SE : 64 * Z.of_nat k + Z.min 64 (total - 64 * Z.of_nat k) = 64 * Z.of_nat (k + 1)) by (unfold total; lia). rewrite SE.
    assert (NE : (64 * Z.of_nat (k + 1) =? total) = false) by (apply Z.eqb_neq; unfold total; lia). rewrite NE.
    assert (ST : spec_from k (S (S todo)) h = spec_from (k + 1) (S todo) (F h (block d k) (64 * Z.of_nat (k + 1)) false)).
    { unfold spec_from. replace (S (S todo) - 1)%nat with (S (S todo - 1))%nat by lia. cbn [seq fold_left]. rewrite Nat.add_1_r. replace (k + S (S todo - 1))%nat with (S k + (S todo - 1))%nat by lia. reflexivity. }
    rewrite ST. apply IH; [lia|lia|]. apply compress_rep; auto. unfold total in *. lia.
Qed.
End Chain.

Lemma h0_rep : rep 8 H0 h0.
Proof.
  split; [reflexivity|]. intros i Hi. assert (E : H0 = map h0 (seq 0 8)) by (vm_compute; reflexivity). rewrite E, (ChachaProofs.nth_map_seq h0 0 8 i Hi). split; [reflexivity|].
  unfold h0. destruct (Nat.eqb i 0); [apply ChachaProofs.u32_lxor; [apply iv_u32|unfold ChachaProofs.u32; lia]|apply iv_u32].
Qed.
Lemma lor_add a b k : 0 <= k -> 0 <= a < 2 ^ k -> Z.lor a (Z.shiftl b k) = a + b * 2 ^ k.
Proof. intros Hk Ha. rewrite Z.lor_comm, lor_shiftl_add by assumption. ring. Qed.
(** the digest as a number *)
Fixpoint words_value (l : list Z) : Z := match l with [] => 0 | x :: l' => x + 2 ^ 32 * words_value l' end.
Lemma words_value_bound l : Forall u32 l -> 0 <= words_value l < 2 ^ (32 * Z.of_nat (length l)).
Proof.
  induction 1 as [|x l Hx _ IH]; [cbn; lia|]. cbn [words_value length]. rewrite Nat2Z.inj_succ. replace (32 * Z.succ (Z.of_nat (length l))) with (32 + 32 * Z.of_nat (length l)) by lia.
  rewrite Z.pow_add_r by lia. unfold ChachaProofs.u32 in Hx. nia.
Qed.
Lemma words_value_app a b : words_value (a ++ b) = words_value a + 2 ^ (32 * Z.of_nat (length a)) * words_value b.
Proof.
  induction a as [|x a IH]; cbn [app words_value length]; [change (32 * Z.of_nat 0) with 0; rewrite Z.pow_0_r; ring|]. rewrite IH, Nat2Z.inj_succ. replace (32 * Z.succ (Z.of_nat (length a))) with (32 + 32 * Z.of_nat (length a)) by lia. rewrite Z.pow_add_r by lia. ring.
Qed.
Lemma felt_value st p : Forall u32 st -> blake_state_into_felt st p = words_value st mod p.
Proof.
  intros U. unfold blake_state_into_felt. f_equal.
  assert (Gen : forall l a k, Forall u32 l -> 0 <= a < 2 ^ (32 * Z.of_nat k) ->
    fold_left (fun di '(idx, w) => Z.lor di (Z.shiftl (Z.land w 0xFFFFFFFF) (32 * Z.of_nat idx))) (combine (seq k (length l)) l) a = a + 2 ^ (32 * Z.of_nat k) * words_value l).
  { induction l as [|x l IH]; intros a k Ul Ha; cbn [length seq combine fold_left words_value]; [ring|]. apply Forall_cons_iff in Ul. destruct Ul as [Ux Ul].
    rewrite ChachaProofs.land32, Z.mod_small, lor_add by (try exact Ux; lia || assumption). unfold ChachaProofs.u32 in Ux.
    assert (P : 2 ^ (32 * Z.of_nat (S k)) = 2 ^ 32 * 2 ^ (32 * Z.of_nat k)) by (rewrite <- Z.pow_add_r by lia; f_equal; lia).
    rewrite IH by (auto; rewrite P; nia). rewrite P. ring. }
  rewrite Gen by (auto; cbn; lia). change (2 ^ (32 * Z.of_nat 0)) with 1. ring.
Qed.
Lemma le_value_le4 x r : u32 x -> le_value (map (fun j => (x / 256 ^ Z.of_nat j) mod 256) (seq 0 4) ++ r) = x + 2 ^ 32 * le_value r.
Proof. intros U. pose proof (le4_value x U) as E. cbv zeta in E. cbn [seq map app le_value]. change (2 ^ 32) with 4294967296. etransitivity; [|exact (f_equal (fun y => y + 4294967296 * le_value r) E)]. cbv beta. ring. Qed.
Lemma le_value_words (h : vec) l : (forall i, In i l -> u32 (h i)) ->
  le_value (flat_map (fun i => map (fun j => (h i / 256 ^ Z.of_nat j) mod 256) (seq 0 4)) l) = words_value (map h l).
Proof.
  induction l as [|i l IH]; intros H; [reflexivity|]. cbn [flat_map]. rewrite le_value_le4 by (apply H; now left). rewrite IH by (intros; apply H; now right). reflexivity.
Qed.
Lemma felt_words_u32 e le p x : Forall u32 (felt_words e le p x).
Proof. unfold felt_words. apply Forall_forall. intros w Hw. apply in_map_iff in Hw. destruct Hw as (s & <- & _). rewrite ChachaProofs.land32. apply mod32. Qed.
Lemma felts_words_u32 d e le p : Forall u32 (felts_words d e le p).
Proof. unfold felts_words. induction d as [|x d IH]; [constructor|]. cbn [flat_map]. apply Forall_app. split; [apply felt_words_u32|exact IH]. Qed.

Theorem felts_blake2s data e le p : 4 * Z.of_nat (length (felts_words data e le p)) < 2 ^ 32 ->
  calculate_blake2s_hash_from_felt252s data e le p = le_value (blake2s (flat_map le4 (felts_words data e le p))) mod p.
Proof.
  intros Hs. unfold calculate_blake2s_hash_from_felt252s. set (words := felts_words data e le p) in *.
  assert (U : Forall u32 words) by apply felts_words_u32.
  pose proof (blocks_words words U Hs) as B. assert (B1 : (1 <= blocks (flat_map le4 words))%nat) by (unfold blocks; lia).
  pose proof (loop_rep words U Hs (blocks (flat_map le4 words)) 0 H0 h0 B1 eq_refl h0_rep) as R. change (skipn (16 * 0) words) with words in R. change (64 * Z.of_nat 0) with 0 in R.
  rewrite B in R. unfold spec_from in R. rewrite <- B in R at 2 3. cbn [Nat.add] in R. unfold blake2s.
  set (st := felt_blocks _ words _ 0 H0) in *. set (h := F _ _ _ true) in *. clearbody st h. destruct R as [L R].
  assert (Est : st = map h (seq 0 8)).
  { apply nth_ext with (d := 0) (d' := 0); [rewrite map_length, seq_length; exact L|]. intros i Hi. rewrite L in Hi. rewrite (ChachaProofs.nth_map_seq h 0 8 i Hi). apply R, Hi. }
  rewrite felt_value.
  - f_equal. rewrite le_value_words; [now rewrite Est|]. intros i Hi. apply in_seq in Hi. apply R. lia.
  - rewrite Est. apply Forall_forall. intros w Hw. apply in_map_iff in Hw. destruct Hw as (i & <- & Hi). apply in_seq in Hi. apply R. lia.
Qed.

(** * the encoding of the field elements *)
Definition W (v : Z) (k : nat) : Z := Z.land (Z.shiftr v (32 * Z.of_nat k)) 0xFFFFFFFF.
Lemma W_spec v k : W v k = (v / 2 ^ (32 * Z.of_nat k)) mod 2 ^ 32.
Proof. unfold W. now rewrite ChachaProofs.land32, Z.shiftr_div_pow2 by lia. Qed.
Lemma W_value n : forall v, 0 <= v < 2 ^ (32 * Z.of_nat n) -> words_value (map (W v) (seq 0 n)) = v.
Proof.
  assert (Gen : forall n s v, 0 <= v -> words_value (map (W v) (seq s n)) = (v / 2 ^ (32 * Z.of_nat s)) mod 2 ^ (32 * Z.of_nat n)).
  { induction n0 as [|n0 IH]; intros s v Hv; [cbn; now rewrite Z.mod_1_r|]. cbn [seq map words_value]. rewrite IH, W_spec by exact Hv.
    set (y := v / 2 ^ (32 * Z.of_nat s)). assert (Ey : v / 2 ^ (32 * Z.of_nat (S s)) = y / 2 ^ 32).
    { unfold y. rewrite Z.div_div by (try apply Z.pow_pos_nonneg; lia || (apply Z.pow_nonzero; lia)). f_equal. rewrite <- Z.pow_add_r by lia. f_equal. lia. }
    rewrite Ey. assert (PP : 2 ^ (32 * Z.of_nat (S n0)) = 2 ^ 32 * 2 ^ (32 * Z.of_nat n0)) by (clear; rewrite <- Z.pow_add_r by lia; f_equal; lia). rewrite PP.
    assert (P : 0 < 2 ^ (32 * Z.of_nat n0)) by (clear; apply Z.pow_pos_nonneg; lia). rewrite (Z.rem_mul_r y (2 ^ 32) (2 ^ (32 * Z.of_nat n0)) ltac:(clear; lia) P). ring. }
  intros v Hv. rewrite Gen by lia. change (2 ^ (32 * Z.of_nat 0)) with 1. rewrite Z.div_1_r. now apply Z.mod_small.
Qed.
Definition le_words (e : bool) (p x : Z) : list Z := felt_words e true p x.
Lemma felt_words_le e p x : felt_words e true p x =
  let v := x mod p in if e then if v <? 2 ^ 63 then map (W v) (seq 0 2) else map (W (v + 2 ^ 255)) (seq 0 8) else map (W v) (seq 0 8).
Proof. unfold felt_words. cbv zeta. change (Z.shiftl 1 63) with (2 ^ 63). destruct e; cbn [andb]; [destruct (x mod p <? 2 ^ 63)|]; cbn [Nat.eqb]; rewrite map_map; reflexivity. Qed.
Lemma felt_words_be e p x : felt_words e false p x = rev (felt_words e true p x).
Proof. unfold felt_words. cbv zeta. now rewrite map_rev. Qed.
(** the last word in little endian order tells the two forms apart *)
Lemma le_last e p x : 0 < p <= 2 ^ 255 -> e = true -> let v := x mod p in
  (v < 2 ^ 63 /\ exists a b, felt_words e true p x = [a; b] /\ b < 2 ^ 31 /\ words_value [a; b] = v) \/
  (2 ^ 63 <= v /\ exists l b, felt_words e true p x = l ++ [b] /\ length l = 7%nat /\ 2 ^ 31 <= b /\ words_value (l ++ [b]) = v + 2 ^ 255).
Proof.
  intros Hp ->. cbv zeta. rewrite felt_words_le. cbv zeta. pose proof (Z.mod_pos_bound x p ltac:(lia)) as Hv. set (v := x mod p) in *. clearbody v.
  destruct (Z.ltb_spec v (2 ^ 63)) as [H|H]; [left|right]; (split; [assumption|]).
  - exists (W v 0), (W v 1). split; [reflexivity|]. split; [|exact (W_value 2 v ltac:(change (2 ^ (32 * Z.of_nat 2)) with (2 ^ 64); lia))].
    rewrite W_spec. change (32 * Z.of_nat 1) with 32. rewrite Z.mod_small; [apply Z.div_lt_upper_bound; lia|]. split; [apply Z.div_pos; lia|apply Z.div_lt_upper_bound; lia].
  - exists (map (W (v + 2 ^ 255)) (seq 0 7)), (W (v + 2 ^ 255) 7). split; [reflexivity|]. split; [reflexivity|]. split.
    + rewrite W_spec. change (32 * Z.of_nat 7) with 224. rewrite Z.mod_small; [apply Z.div_le_lower_bound; lia|]. split; [apply Z.div_pos; lia|apply Z.div_lt_upper_bound; lia].
    + exact (W_value 8 (v + 2 ^ 255) ltac:(change (2 ^ (32 * Z.of_nat 8)) with (2 ^ 256); lia)).
Qed.
(** a felt is determined by the end of the word list; the reversed code is a prefix code *)
Lemma le_decode e p x y u v : 0 < p <= 2 ^ 255 \/ e = false /\ 0 < p <= 2 ^ 256 -> u ++ felt_words e true p x = v ++ felt_words e true p y -> u = v /\ x mod p = y mod p.
Proof.
  assert (TL : forall (a b c d : list Z), length b = length d -> a ++ b = c ++ d -> a = c /\ b = d).
  { intros a b c d L E. assert (La : length a = length c) by (apply (f_equal (@length _)) in E; rewrite !app_length in E; lia).
    split; [apply (f_equal (firstn (length a))) in E|apply (f_equal (skipn (length a))) in E].
    - rewrite La in E at 2. rewrite !firstn_app, !Nat.sub_diag, !firstn_all, !firstn_O, !app_nil_r in E. exact E.
    - rewrite La in E at 2. rewrite !skipn_app, !Nat.sub_diag, !skipn_all in E. exact E. }
  intros Hp E. destruct e.
  - assert (Hp' : 0 < p <= 2 ^ 255) by (destruct Hp as [|[? _]]; [assumption|discriminate]). clear Hp.
    destruct (le_last true p x Hp' eq_refl) as [(Bx & a & b & Ex & Bb & Vx)|(Bx & l & b & Ex & Lx & Bb & Vx)]; destruct (le_last true p y Hp' eq_refl) as [(By & c & d & Ey & Bd & Vy)|(By & m & d & Ey & Ly & Bd & Vy)]; rewrite Ex, Ey in E.
    + apply TL in E; [|reflexivity]. destruct E as [-> E]. split; [reflexivity|]. rewrite <- Vx, <- Vy. now rewrite E.
    + exfalso. change [a; b] with ([a] ++ [b]) in E. rewrite !app_assoc in E. apply app_inj_tail in E. destruct E as [_ E]. lia.
    + exfalso. change [c; d] with ([c] ++ [d]) in E. rewrite !app_assoc in E. apply app_inj_tail in E. destruct E as [_ E]. lia.
    + apply TL in E; [|rewrite !app_length; cbn [length]; lia]. destruct E as [-> E]. split; [reflexivity|]. rewrite E in Vx. lia.
  - assert (Hp' : 0 < p <= 2 ^ 256) by (destruct Hp as [|[_ ?]]; lia). rewrite !felt_words_le in E. cbv zeta in E. apply TL in E; [|now rewrite !map_length]. destruct E as [-> E]. split; [reflexivity|].
    apply (f_equal words_value) in E. rewrite !W_value in E; [exact E|..]; change (2 ^ (32 * Z.of_nat 8)) with (2 ^ 256); pose proof (Z.mod_pos_bound x p ltac:(lia)); pose proof (Z.mod_pos_bound y p ltac:(lia)); lia.
Qed.
Lemma felt_words_nonempty e le p x : felt_words e le p x <> [].
Proof. intros E. apply (f_equal (@length _)) in E. unfold felt_words in E. cbv zeta in E. rewrite map_length in E. destruct le; rewrite ?rev_length, map_length, seq_length in E; destruct (e && _); discriminate. Qed.
Theorem felts_inj e le p : 0 < p <= 2 ^ 255 \/ e = false /\ 0 < p <= 2 ^ 256 -> forall d1 d2, felts_words d1 e le p = felts_words d2 e le p -> map (fun x => x mod p) d1 = map (fun x => x mod p) d2.
Proof.
  intros Hp. destruct le.
  - (* little endian: from the end *)
    intros d1. induction d1 as [|x d1 IH] using rev_ind; intros d2; unfold felts_words in *.
    + destruct d2 as [|y d2]; [reflexivity|]. cbn [flat_map]. intros E. symmetry in E. apply app_eq_nil in E. destruct (felt_words_nonempty _ _ _ _ (proj1 E)).
    + destruct d2 as [|y d2 _] using rev_ind.
      * rewrite flat_map_app. cbn [flat_map]. rewrite app_nil_r. intros E. apply app_eq_nil in E. destruct (felt_words_nonempty _ _ _ _ (proj2 E)).
      * rewrite !flat_map_app, !map_app. cbn [flat_map map]. rewrite !app_nil_r. intros E. apply le_decode in E; [|exact Hp]. destruct E as [E1 E2]. now rewrite (IH _ E1), E2.
  - (* big endian: from the beginning *)
    intros d1. induction d1 as [|x d1 IH]; intros [|y d2]; unfold felts_words in *; cbn [flat_map map]; intros E; [reflexivity|..].
    + symmetry in E. apply app_eq_nil in E. destruct (felt_words_nonempty _ _ _ _ (proj1 E)).
    + apply app_eq_nil in E. destruct (felt_words_nonempty _ _ _ _ (proj1 E)).
    + rewrite !felt_words_be in E. apply (f_equal (@rev _)) in E. rewrite !rev_app_distr, !rev_involutive in E. apply le_decode in E; [|exact Hp]. destruct E as [E1 E2].
      apply (f_equal (@rev _)) in E1. rewrite !rev_involutive in E1. now rewrite (IH _ E1), E2.
Qed.
Lemma flat_le4_inj a : forall b, Forall u32 a -> Forall u32 b -> flat_map le4 a = flat_map le4 b -> a = b.
Proof.
  induction a as [|x a IH]; intros [|y b] Ua Ub E; [reflexivity|discriminate|discriminate|]. apply Forall_cons_iff in Ua, Ub. destruct Ua as [Ux Ua], Ub as [Uy Ub].
  cbn [flat_map] in E. pose proof (f_equal (firstn 4) E) as E1. pose proof (f_equal (skipn 4) E) as E2.
  assert (F4 : forall z l, firstn 4 (le4 z ++ l) = le4 z) by reflexivity. assert (S4 : forall z l, skipn 4 (le4 z ++ l) = l) by reflexivity.
  rewrite !F4 in E1. rewrite !S4 in E2. f_equal; [|now apply IH].
  pose proof (f_equal (fun l => le_value (l ++ [])) E1) as V. cbv beta in V. unfold le4 in V. rewrite !le_value_le4 in V by assumption. cbn [le_value] in V. lia.
Qed.
