From Verif Require Import Base KeccakModel KeccakProofs SpongeProofs ChachaModel ChachaSpec.

Definition u32 (x : Z) : Prop := 0 <= x < 2 ^ 32.

Lemma land32 a : Z.land a 0xffffffff = a mod 2 ^ 32.
Proof. apply (land_ones_mod a 32). lia. Qed.
Lemma u32_mod a : u32 (a mod 2 ^ 32).
Proof. unfold u32. apply Z.mod_pos_bound. lia. Qed.

Lemma u32_lxor a b : u32 a -> u32 b -> u32 (Z.lxor a b).
Proof.
  unfold u32. intros Ha Hb. split; [apply Z.lxor_nonneg; lia|].
  destruct (Z.eq_dec (Z.lxor a b) 0) as [->|]; [lia|].
  apply Z.log2_lt_pow2. { assert (0 <= Z.lxor a b) by (apply Z.lxor_nonneg; lia). lia. }
  pose proof (Z.log2_lxor a b ltac:(lia) ltac:(lia)) as Hl.
  assert (forall x, 0 <= x < 2 ^ 32 -> Z.log2 x < 32).
  { intros x Hx. destruct (Z.eq_dec x 0) as [->|]; [cbn; lia|]. apply Z.log2_lt_pow2; lia. }
  pose proof (H a Ha). pose proof (H b Hb). lia.
Qed.

(** value of a list of bits, low bit first *)
Lemma testbit_fold (f : nat -> bool) n : forall k s, (k < n)%nat ->
  Z.testbit (fold_right (fun i acc => (if f i then 1 else 0) + 2 * acc) 0 (seq s n)) (Z.of_nat k) = f (s + k)%nat.
Proof.
  induction n as [|n IH]; intros k s H; [lia|]. cbn [seq fold_right]. destruct k as [|k].
  - rewrite Nat.add_0_r. destruct (f s).
    + rewrite Z.add_comm. apply Z.testbit_odd_0.
    + rewrite Z.add_0_l. apply Z.testbit_even_0.
  - rewrite Nat2Z.inj_succ.
    replace (f (s + S k)%nat) with (f (S s + k)%nat) by (f_equal; lia).
    rewrite <- (IH k (S s)) by lia. destruct (f s).
    + rewrite Z.add_comm. apply Z.testbit_odd_succ. lia.
    + rewrite Z.add_0_l. apply Z.testbit_even_succ. lia.
Qed.
Lemma fold_bits_bound (f : nat -> bool) n : forall s,
  0 <= fold_right (fun i acc => (if f i then 1 else 0) + 2 * acc) 0 (seq s n) < 2 ^ Z.of_nat n.
Proof.
  induction n as [|n IH]; intros s; [cbn; lia|]. cbn [seq fold_right].
  specialize (IH (S s)). rewrite Nat2Z.inj_succ, Z.pow_succ_r by lia. destruct (f s); lia.
Qed.

Lemma u32_rotl x n : u32 (rotl32 x n).
Proof. apply (fold_bits_bound (fun i => Z.testbit x ((Z.of_nat i - n) mod 32)) 32 0). Qed.

Lemma roll_rotl x n : u32 x -> 0 < n < 32 -> roll x n = rotl32 x n.
Proof.
  intros Hx Hn. unfold roll. rewrite land32.
  assert (D : Z.land (Z.shiftl x n mod 2 ^ 32) (Z.shiftr x (32 - n)) = 0).
  { apply Z.bits_inj'. intros i Hi. rewrite Z.land_spec, Z.bits_0.
    destruct (Z.ltb_spec i n).
    - rewrite Z.mod_pow2_bits_low by lia. rewrite Z.shiftl_spec_low by lia. reflexivity.
    - rewrite Z.shiftr_spec by lia. replace x with (x mod 2 ^ 32) at 2 by (apply Z.mod_small, Hx).
      rewrite (Z.mod_pow2_bits_high x) by lia. apply andb_false_r. }
  rewrite Z.add_nocarry_lxor, Z.lxor_lor by exact D.
  apply Z.bits_inj'. intros i Hi. rewrite Z.lor_spec.
  destruct (Z.ltb_spec i 32).
  - unfold rotl32.
    pose proof (testbit_fold (fun i => Z.testbit x ((Z.of_nat i - n) mod 32)) 32 (Z.to_nat i) 0 ltac:(lia)) as E.
    cbn [plus] in E. rewrite Z2Nat.id in E by lia. rewrite E.
    rewrite Z.mod_pow2_bits_low by lia. destruct (Z.ltb_spec i n).
    + rewrite Z.shiftl_spec_low, Z.shiftr_spec by lia. cbn [orb].
      replace ((i - n) mod 32) with (i + (32 - n)); [reflexivity|].
      replace (i - n) with ((i + (32 - n)) + (-1) * 32) by lia. rewrite Z.mod_add, Z.mod_small by lia. lia.
    + rewrite Z.shiftl_spec_high, Z.shiftr_spec by lia. rewrite (Z.mod_small (i - n)) by lia.
      replace x with (x mod 2 ^ 32) at 2 by (apply Z.mod_small, Hx).
      rewrite (Z.mod_pow2_bits_high x) by lia. apply orb_false_r.
  - rewrite Z.mod_pow2_bits_high by lia. rewrite Z.shiftr_spec by lia.
    replace x with (x mod 2 ^ 32) at 1 by (apply Z.mod_small, Hx).
    rewrite Z.mod_pow2_bits_high by lia.
    replace (rotl32 x n) with (rotl32 x n mod 2 ^ 32) by (apply Z.mod_small, u32_rotl).
    rewrite Z.mod_pow2_bits_high by lia. reflexivity.
Qed.

(** list state vs function state *)
Definition rep (st : list Z) (s : nat -> Z) : Prop :=
  length st = 16%nat /\ forall i, (i < 16)%nat -> nth i st 0 = s i /\ u32 (s i).

Lemma upd_length {A} (l : list A) : forall i v, length (upd l i v) = length l.
Proof. induction l as [|a l IH]; intros [|i] v; cbn; auto. Qed.
Lemma nth_upd (l : list Z) : forall i v j, (i < length l)%nat ->
  nth j (upd l i v) 0 = if Nat.eqb j i then v else nth j l 0.
Proof.
  induction l as [|a l IH]; intros [|i] v [|j] H; cbn [length upd nth] in *; try lia; auto.
  rewrite IH by lia. reflexivity.
Qed.

Definition distinct4 (x y z w : nat) : Prop :=
  (x <> y /\ x <> z /\ x <> w /\ y <> z /\ y <> w /\ z <> w /\ x < 16 /\ y < 16 /\ z < 16 /\ w < 16)%nat.

Lemma qround_rep st s x y z w : rep st s -> distinct4 x y z w ->
  rep (qround st x y z w) (QUARTERROUND s x y z w).
Proof.
  intros [L R] Hd. unfold distinct4 in Hd. destruct Hd as (N1 & N2 & N3 & N4 & N5 & N6 & Hx & Hy & Hz & Hw).
  destruct (R x Hx) as [Ex Ux]. destruct (R y Hy) as [Ey Uy]. destruct (R z Hz) as [Ez Uz]. destruct (R w Hw) as [Ew Uw].
  unfold qround. rewrite Ex, Ey, Ez, Ew. unfold QUARTERROUND, quarter.
  rewrite !land32. unfold add32.
  set (a1 := (s x + s y) mod 2 ^ 32). assert (Ua1 : u32 a1) by apply u32_mod.
  rewrite (roll_rotl (Z.lxor (s w) a1)) by (auto using u32_lxor; lia).
  set (d1 := rotl32 (Z.lxor (s w) a1) 16). assert (Ud1 : u32 d1) by apply u32_rotl.
  set (c1 := (s z + d1) mod 2 ^ 32). assert (Uc1 : u32 c1) by apply u32_mod.
  rewrite (roll_rotl (Z.lxor (s y) c1)) by (auto using u32_lxor; lia).
  set (b1 := rotl32 (Z.lxor (s y) c1) 12). assert (Ub1 : u32 b1) by apply u32_rotl.
  set (a2 := (a1 + b1) mod 2 ^ 32). assert (Ua2 : u32 a2) by apply u32_mod.
  rewrite (roll_rotl (Z.lxor d1 a2)) by (auto using u32_lxor; lia).
  set (d2 := rotl32 (Z.lxor d1 a2) 8). assert (Ud2 : u32 d2) by apply u32_rotl.
  set (c2 := (c1 + d2) mod 2 ^ 32). assert (Uc2 : u32 c2) by apply u32_mod.
  rewrite (roll_rotl (Z.lxor b1 c2)) by (auto using u32_lxor; lia).
  set (b2 := rotl32 (Z.lxor b1 c2) 7). assert (Ub2 : u32 b2) by apply u32_rotl.
  clearbody a2 b2 c2 d2. clear a1 d1 c1 b1 Ua1 Ud1 Uc1 Ub1.
  split; [now rewrite !upd_length|]. intros i Hi. destruct (R i Hi) as [Ei Ui].
  rewrite !nth_upd by (rewrite ?upd_length; lia). rewrite Ei.
  destruct (Nat.eqb_spec i w), (Nat.eqb_spec i z), (Nat.eqb_spec i y), (Nat.eqb_spec i x); subst; try lia; auto.
Qed.

Lemma double_round_rep st s : rep st s -> rep (double_round st) (inner_block s).
Proof.
  intros H. unfold double_round, inner_block. cbn [fold_left].
  repeat (apply qround_rep; [|unfold distinct4; lia]). exact H.
Qed.

Lemma rounds_rep n : forall st s, rep st s -> rep (Nat.iter n double_round st) (Nat.iter n inner_block s).
Proof.
  induction n as [|n IH]; intros st s H; [exact H|].
  change (rep (double_round (Nat.iter n double_round st)) (inner_block (Nat.iter n inner_block s))).
  apply double_round_rep. auto.
Qed.

Lemma nth_map_seq {A} (f : nat -> A) (d : A) n i : (i < n)%nat -> nth i (map f (seq 0 n)) d = f i.
Proof.
  intros H. rewrite (nth_indep _ d (f 0%nat)) by (rewrite map_length, seq_length; lia).
  rewrite map_nth, seq_nth by lia. reflexivity.
Qed.

Section G.
Variable seed : list Z.
Hypothesis Hlen : length seed = 56%nat.
Hypothesis Hbytes : bytes seed.

Definition swords : list Z := map (seed_word seed) (seq 0 14).

Lemma nth_byte k : is_byte (nth k seed 0).
Proof.
  destruct (Nat.ltb_spec k (length seed)).
  - unfold bytes in Hbytes. rewrite Forall_forall in Hbytes. apply Hbytes, nth_In. auto.
  - rewrite nth_overflow by lia. unfold is_byte; lia.
Qed.
Lemma seed_word_u32 i : u32 (seed_word seed i).
Proof.
  unfold seed_word, u32. pose proof (nth_byte (4 * i + 0)). pose proof (nth_byte (4 * i + 1)).
  pose proof (nth_byte (4 * i + 2)). pose proof (nth_byte (4 * i + 3)). unfold is_byte in *.
  change (2 ^ 32) with 4294967296. cbv zeta. lia.
Qed.

Lemma chacha_new_words : cs (chacha_new seed) = swords /\ cctr (chacha_new seed) = seed_counter seed /\
  chex (chacha_new seed) = [].
Proof.
  assert (E : map (fun i => of_le (slice (4 * i) (4 * (i + 1)) seed)) (seq 0 14) = swords).
  { apply map_ext_in. intros i Hi. apply in_seq in Hi.
    replace (4 * (i + 1))%nat with (4 * i + 4)%nat by lia. rewrite slice_nth by lia.
    replace (seq (4 * i) 4) with [4 * i + 0; 4 * i + 1; 4 * i + 2; 4 * i + 3]%nat.
    2:{ cbn [seq]. repeat (apply f_equal2; [lia|]). reflexivity. }
    cbn [map of_le fold_right]. unfold seed_word. ring. }
  unfold chacha_new. rewrite E. cbn [cs cctr chex]. split; [reflexivity|]. split; [|reflexivity].
  unfold seed_counter, swords. rewrite !nth_map_seq by lia. rewrite Z.shiftl_mul_pow2 by lia. ring.
Qed.

Lemma matrix_rep ctr : 0 <= ctr < 2 ^ 64 -> rep (chacha_matrix swords ctr) (falcon_matrix seed ctr).
Proof.
  intros Hc. split; [reflexivity|]. intros i Hi.
  assert (U : u32 (falcon_matrix seed ctr i)).
  { assert (C : forall x, seed_word seed x = seed_word seed x /\ u32 (seed_word seed x)) by (split; auto using seed_word_u32).
    do 14 (destruct i as [|i]; [cbn [falcon_matrix]; first [apply seed_word_u32 | (unfold u32; lia)]|]).
    destruct i as [|i]; [cbn [falcon_matrix]; apply u32_lxor; [apply seed_word_u32|apply u32_mod]|].
    destruct i as [|i]; [cbn [falcon_matrix]; apply u32_lxor; [apply seed_word_u32|]|lia].
    unfold u32. split; [apply Z.div_pos; lia|]. apply Z.div_lt_upper_bound; lia. }
  split; [|exact U]. clear U.
  unfold chacha_matrix. rewrite land32, Z.shiftr_div_pow2 by lia.
  do 16 (destruct i as [|i]; [reflexivity|]). lia.
Qed.

Lemma update_words g : cs g = swords -> 0 <= cctr g < 2 ^ 64 ->
  chacha_update g = (mk_chacha swords (cctr g + 1) (chex g),
                     map (chacha20_words (falcon_matrix seed (cctr g))) (seq 0 16)).
Proof.
  intros Hs Hc. unfold chacha_update. rewrite Hs. f_equal. apply map_ext_in. intros i Hi. apply in_seq in Hi.
  pose proof (matrix_rep (cctr g) Hc) as RM. pose proof (rounds_rep 10 _ _ RM) as RR.
  destruct RM as [_ RM]. destruct RR as [_ RR].
  rewrite (proj1 (RM i ltac:(lia))), (proj1 (RR i ltac:(lia))). apply land32.
Qed.

Lemma set_stride_length b w i : length (set_stride b w i) = length b.
Proof.
  unfold set_stride. generalize (seq 0 16). intros l. revert b.
  induction l as [|j l IH]; intros b; auto. cbn [fold_left]. rewrite IH. apply upd_length.
Qed.
Lemma nth_set_stride b w i k : length b = 128%nat -> (i < 8)%nat -> (k < 128)%nat ->
  nth k (set_stride b w i) 0 = if Nat.eqb (k mod 8) i then nth (k / 8) w 0 else nth k b 0.
Proof.
  intros Lb Hi Hk. unfold set_stride.
  assert (G : forall n s b, length b = 128%nat -> (s + n <= 16)%nat ->
     nth k (fold_left (fun b j => upd b (i + 8 * j) (nth j w 0)) (seq s n) b) 0 =
     if (Nat.eqb (k mod 8) i && Nat.leb s (k / 8) && Nat.ltb (k / 8) (s + n))%bool then nth (k / 8) w 0 else nth k b 0).
  { clear b Lb. induction n as [|n IH]; intros s b Lb Hs.
    - cbn [seq fold_left]. destruct (Nat.leb_spec s (k / 8)); destruct (Nat.ltb_spec (k / 8) (s + 0)); try lia;
        rewrite ?andb_false_r; auto.
    - cbn [seq fold_left]. rewrite IH by (rewrite ?upd_length; lia).
      rewrite nth_upd by (rewrite Lb; lia).
      pose proof (Nat.div_mod k 8 ltac:(lia)). pose proof (Nat.mod_upper_bound k 8 ltac:(lia)).
      destruct (Nat.eqb_spec (k mod 8) i); cbn [andb].
      + destruct (Nat.leb_spec (S s) (k / 8)); destruct (Nat.ltb_spec (k / 8) (S s + n)); destruct (Nat.leb_spec s (k / 8));
          destruct (Nat.ltb_spec (k / 8) (s + S n)); cbn [andb]; try lia; auto;
          destruct (Nat.eqb_spec k (i + 8 * s)); auto; try lia.
        f_equal. lia.
      + destruct (Nat.eqb_spec k (i + 8 * s)) as [E|]; auto. exfalso. apply n0. rewrite E.
        rewrite Nat.mul_comm, Nat.mod_add by lia. apply Nat.mod_small. lia. }
  rewrite G by (auto; lia). assert (k / 8 < 16)%nat by (apply Nat.div_lt_upper_bound; lia).
  destruct (Nat.ltb_spec (k / 8) (0 + 16)); [|lia]. cbn [Nat.leb]. now rewrite !andb_true_r.
Qed.

Definition refill (ctr : Z) : list Z :=
  map (fun j => let w := (j / 4)%nat in
    (chacha20_words (falcon_matrix seed (ctr + Z.of_nat (w mod 8))) (w / 8)%nat / 256 ^ Z.of_nat (j mod 4)) mod 256)
    (seq 0 512).

Lemma flat_le4_nth ws k : (k < 4 * length ws)%nat ->
  nth k (flat_map le4 ws) 0 = (nth (k / 4) ws 0 / 256 ^ Z.of_nat (k mod 4)) mod 256.
Proof.
  revert k. induction ws as [|a ws IH]; intros k H; [cbn in H; lia|]. cbn [flat_map].
  assert (L4 : length (le4 a) = 4%nat) by reflexivity.
  destruct (Nat.ltb_spec k 4).
  - rewrite app_nth1 by lia. rewrite Nat.div_small, Nat.mod_small by lia. cbn [nth].
    unfold le4. rewrite (nth_map_seq (fun i => (a / 256 ^ Z.of_nat i) mod 256)) by lia. reflexivity.
  - rewrite app_nth2 by lia. rewrite L4. cbn [length] in H. rewrite IH by lia.
    replace k with ((k - 4) + 1 * 4)%nat at 3 4 by lia. rewrite Nat.div_add, Nat.mod_add by lia.
    rewrite Nat.add_1_r. reflexivity.
Qed.
Lemma flat_le4_length ws : length (flat_map le4 ws) = (4 * length ws)%nat.
Proof. induction ws as [|a ws IH]; auto. cbn [flat_map length]. rewrite app_length, IH. change (length (le4 a)) with 4%nat. lia. Qed.

Lemma block_update_spec g : cs g = swords -> 0 <= cctr g -> cctr g + 8 <= 2 ^ 64 ->
  block_update g = (mk_chacha swords (cctr g + 8) (chex g), refill (cctr g)).
Proof.
  destruct g as [gs gc gx]. cbn [cs cctr chex]. intros -> Hc0 Hc. unfold block_update.
  assert (G : forall n i b, (i + n <= 8)%nat -> length b = 128%nat ->
    exists b', fold_left (fun (st : chacha * list Z) i =>
      let (g, block) := st in let (g, w) := chacha_update g in (g, set_stride block w i)) (seq i n)
       (mk_chacha swords (gc + Z.of_nat i) (gx), b)
     = (mk_chacha swords (gc + Z.of_nat (i + n)) (gx), b') /\ length b' = 128%nat /\
     forall k, (k < 128)%nat -> nth k b' 0 =
       if (Nat.leb i (k mod 8) && Nat.ltb (k mod 8) (i + n))%bool
       then chacha20_words (falcon_matrix seed (gc + Z.of_nat (k mod 8))) (k / 8)%nat else nth k b 0).
  { induction n as [|n IH]; intros i b Hi Lb.
    - exists b. rewrite Nat.add_0_r. split; [reflexivity|]. split; auto. intros k Hk.
      destruct (Nat.leb_spec i (k mod 8)); destruct (Nat.ltb_spec (k mod 8) i); try lia; reflexivity.
    - cbn [seq fold_left]. rewrite update_words by (cbn [cs cctr]; auto; lia). cbn [cctr chex].
      set (ws := map (chacha20_words (falcon_matrix seed (gc + Z.of_nat i))) (seq 0 16)).
      destruct (IH (S i) (set_stride b ws i)) as (b' & E & L' & N'); [lia|now rewrite set_stride_length|].
      exists b'. replace (gc + Z.of_nat i + 1) with (gc + Z.of_nat (S i)) by lia.
      rewrite E. replace (S i + n)%nat with (i + S n)%nat by lia. split; [reflexivity|]. split; auto.
      intros k Hk. rewrite N' by auto. rewrite nth_set_stride by (auto; lia).
      assert (k / 8 < 16)%nat by (apply Nat.div_lt_upper_bound; lia).
      destruct (Nat.eqb_spec (k mod 8) i) as [->|].
      + unfold ws. rewrite (nth_map_seq (chacha20_words _)) by auto.
        destruct (Nat.leb_spec (S i) i); destruct (Nat.leb_spec i i); destruct (Nat.ltb_spec i (i + S n)); try lia; reflexivity.
      + destruct (Nat.leb_spec (S i) (k mod 8)); destruct (Nat.leb_spec i (k mod 8)); destruct (Nat.ltb_spec (k mod 8) (S i + n));
          destruct (Nat.ltb_spec (k mod 8) (i + S n)); cbn [andb]; try lia; reflexivity. }
  destruct (G 8%nat 0%nat (repeat 0 128) ltac:(lia) (repeat_length _ _)) as (b' & E & L' & N').
  change (Z.of_nat 0) with 0 in E. rewrite Z.add_0_r in E.
  rewrite E. f_equal. apply (nth_ext _ _ 0 0).
  - rewrite flat_le4_length, L'. unfold refill. now rewrite map_length, seq_length.
  - rewrite flat_le4_length, L'. intros k Hk. rewrite flat_le4_nth by lia. unfold refill.
    rewrite nth_map_seq by lia. assert (k / 4 < 128)%nat by (apply Nat.div_lt_upper_bound; lia).
    rewrite N' by auto. pose proof (Nat.mod_upper_bound (k / 4) 8 ltac:(lia)).
    destruct (Nat.ltb_spec ((k / 4) mod 8) (0 + 8)); [|lia]. reflexivity.
Qed.

Lemma unreverse (l : list Z) : forall k, (length l <= k)%nat ->
  rev (flat_map (fun i => slice i (i + 1) l) (rev (seq 0 k))) = l.
Proof.
  intros k Hk.
  assert (S1 : forall i (l : list Z), (i < length l)%nat -> slice i (i + 1) l = [nth i l 0]).
  { intros i l0 H. rewrite slice_nth by lia. reflexivity. }
  assert (S2 : forall i (l : list Z), (length l <= i)%nat -> slice i (i + 1) l = []).
  { intros i l0 H. unfold slice. rewrite skipn_all2 by lia. apply firstn_nil. }
  assert (G : forall m, (m <= k)%nat -> rev (flat_map (fun i => slice i (i + 1) l) (rev (seq 0 m))) = firstn m l).
  { induction m as [|m IH]; intros Hm; [reflexivity|].
    rewrite seq_S, rev_app_distr. cbn [rev app flat_map plus]. rewrite rev_app_distr, IH by lia.
    destruct (Nat.ltb_spec m (length l)).
    - rewrite S1 by auto. cbn [rev app]. 
      assert (E : forall (l : list Z) m, (m < length l)%nat -> firstn m l ++ [nth m l 0] = firstn (S m) l).
      { clear. induction l as [|a l IH]; intros [|m] H; cbn [length] in H; try lia; auto.
        cbn [firstn nth app]. f_equal. apply IH. lia. }
      apply E. auto.
    - rewrite S2 by auto. cbn [rev app]. rewrite app_nil_r. rewrite !firstn_all2 by lia. reflexivity. }
  rewrite G by lia. apply firstn_all2. lia.
Qed.

Fixpoint requests (g : chacha) (ks : list nat) : list (list Z) :=
  match ks with [] => [] | k :: ks' => let (g', o) := randombytes g k in o :: requests g' ks' end.

Lemma refill_bytes r : refill (seed_counter seed + 8 * Z.of_nat r) = map (refill_byte seed r) (seq 0 512).
Proof. reflexivity. Qed.

Lemma firstn_map_seq (f : nat -> Z) p n k : firstn k (map f (seq p n)) = map f (seq p (Nat.min k n)).
Proof.
  rewrite firstn_map. f_equal. revert p k. induction n as [|n IH]; intros p [|k]; cbn [Nat.min seq firstn]; auto.
  f_equal. apply IH.
Qed.
Lemma skipn_map_seq (f : nat -> Z) p n k : skipn k (map f (seq p n)) = map f (seq (p + k) (n - k)).
Proof.
  rewrite skipn_map. f_equal. revert p k. induction n as [|n IH]; intros p k; [now destruct k|].
  destruct k as [|k]; cbn [seq skipn Nat.sub]; [now rewrite Nat.add_0_r|]. rewrite IH. f_equal. lia.
Qed.

Lemma requests_spec ks : forall r p g, cs g = swords -> cctr g = seed_counter seed + 8 * Z.of_nat r ->
  0 <= seed_counter seed -> seed_counter seed + 8 * Z.of_nat (r + length ks) <= 2 ^ 64 ->
  (p <= 512)%nat -> chex g = map (refill_byte seed (r - 1)) (seq p (512 - p)) ->
  requests g ks = answers seed r p ks.
Proof.
  induction ks as [|k ks IH]; intros r p g Hs Hc H0 Hb Hp Hx; auto.
  cbn [requests answers length] in *. unfold randombytes.
  assert (Lx : length (chex g) = (512 - p)%nat) by (rewrite Hx, map_length, seq_length; reflexivity).
  rewrite Lx. destruct (Nat.leb_spec (p + k) 512).
  - destruct (Nat.ltb_spec (512 - p) k); [lia|]. cbv zeta beta iota.
    rewrite unreverse by (rewrite firstn_length; lia).
    rewrite Hx, firstn_map_seq, skipn_map_seq. replace (Nat.min k (512 - p)) with k by lia.
    f_equal. apply IH; cbn [cs cctr chex]; [exact Hs|exact Hc|exact H0|lia|lia|]. f_equal. f_equal. lia.
  - destruct (Nat.ltb_spec (512 - p) k); [|lia].
    rewrite block_update_spec by (auto; lia). cbn [cs cctr chex].
    rewrite unreverse by (rewrite firstn_length; lia).
    rewrite Hc, refill_bytes, firstn_map_seq, skipn_map_seq.
    f_equal. apply IH; cbn [cs cctr chex]; [reflexivity|lia|exact H0|lia|lia|].
    replace (S r - 1)%nat with r by lia. cbn [plus].
    destruct (Nat.leb_spec k 512).
    + now replace (Nat.min k 512) with k by lia.
    + replace (Nat.min k 512) with 512%nat by lia. replace (512 - k)%nat with 0%nat by lia. reflexivity.
Qed.

Theorem chacha_answers ks : seed_counter seed + 8 * Z.of_nat (length ks) <= 2 ^ 64 ->
  requests (chacha_new seed) ks = answers seed 0 512 ks.
Proof.
  intros H. destruct chacha_new_words as (E1 & E2 & E3). apply requests_spec; auto.
  - rewrite E2. lia.
  - unfold seed_counter. pose proof (seed_word_u32 12). pose proof (seed_word_u32 13). unfold u32 in *. lia.
Qed.
End G.

Lemma answers_length seed ks : forall r p, (p <= 512)%nat ->
  map (@length Z) (answers seed r p ks) = map (fun k => Nat.min k 512) ks.
Proof.
  induction ks as [|k ks IH]; intros r p Hp; auto. cbn [answers map]. destruct (Nat.leb_spec (p + k) 512).
  - cbn [map]. rewrite map_length, seq_length, IH by lia. f_equal. lia.
  - cbn [map]. rewrite map_length, seq_length, IH by lia. reflexivity.
Qed.
