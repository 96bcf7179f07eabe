From Verif Require Import Base KeccakModel KeccakProofs ChachaModel ChachaSpec ChachaProofs CRngModel CRngSpec.

Lemma c_rotl_rotl x n : u32 x -> 0 < n < 32 -> c_rotl x n = rotl32 x n.
Proof.
  intros Hx Hn. rewrite <- roll_rotl by auto. unfold roll, c_rotl, m32. rewrite land32. symmetry.
  rewrite <- Z.lxor_lor, <- Z.add_nocarry_lxor; auto; apply Z.bits_inj'; intros i Hi; rewrite Z.land_spec, Z.bits_0;
  (destruct (Z.ltb_spec i n);
    [rewrite Z.mod_pow2_bits_low by lia; rewrite Z.shiftl_spec_low by lia; reflexivity|
     rewrite (Z.shiftr_spec x) by lia; replace x with (x mod 2 ^ 32) at 2 by (apply Z.mod_small, Hx);
     rewrite (Z.mod_pow2_bits_high x) by lia; apply andb_false_r]).
Qed.

Section Q.
Variables (s : nat -> Z) (x y z w : nat).
Hypothesis D : distinct4 x y z w.
(** the state after some updates of the four positions *)
Definition quad (st : list Z) (a b c d : Z) : Prop :=
  length st = 16%nat /\ nth x st 0 = a /\ nth y st 0 = b /\ nth z st 0 = c /\ nth w st 0 = d /\
  forall i, (i < 16)%nat -> i <> x -> i <> y -> i <> z -> i <> w -> nth i st 0 = s i.
Ltac quad_tac :=
  let H := fresh in intros (L & Ea & Eb & Ec & Ed & H);
  destruct D as (N1 & N2 & N3 & N4 & N5 & N6 & Hx & Hy & Hz & Hw);
  unfold quad; rewrite upd_length; split; [exact L|];
  rewrite !nth_upd by lia;
  repeat match goal with |- context [Nat.eqb ?a ?b] =>
    first [rewrite (proj2 (Nat.eqb_neq a b)) by lia | rewrite (Nat.eqb_refl a)] end;
  repeat (split; [auto; fail|]);
  intros i Hi N1' N2' N3' N4'; rewrite nth_upd by lia;
  match goal with |- context [Nat.eqb ?a ?b] => rewrite (proj2 (Nat.eqb_neq a b)) by lia end; auto.
Lemma quad_x st a b c d v : quad st a b c d -> quad (upd st x v) v b c d.
Proof. quad_tac. Qed.
Lemma quad_y st a b c d v : quad st a b c d -> quad (upd st y v) a v c d.
Proof. quad_tac. Qed.
Lemma quad_z st a b c d v : quad st a b c d -> quad (upd st z v) a b v d.
Proof. quad_tac. Qed.
Lemma quad_w st a b c d v : quad st a b c d -> quad (upd st w v) a b c v.
Proof. quad_tac. Qed.
End Q.

Lemma c_qround_rep st s x y z w : rep st s -> distinct4 x y z w ->
  rep (c_qround st x y z w) (QUARTERROUND s x y z w).
Proof.
  intros R D. pose proof (qround_rep st s x y z w R D) as [_ Q].
  assert (U : forall i, (i < 16)%nat -> u32 (QUARTERROUND s x y z w i)) by (intros i Hi; apply Q; auto). clear Q.
  pose proof R as [L R']. pose proof D as (N1 & N2 & N3 & N4 & N5 & N6 & Hx & Hy & Hz & Hw).
  destruct (R' x Hx) as [Ex Ux]. destruct (R' y Hy) as [Ey Uy]. destruct (R' z Hz) as [Ez Uz]. destruct (R' w Hw) as [Ew Uw].
  assert (Q0 : quad s x y z w st (s x) (s y) (s z) (s w)).
  { unfold quad. repeat (split; [assumption|]). intros i Hi _ _ _ _. apply R'. auto. }
  revert U. unfold QUARTERROUND, quarter, add32. cbv beta iota.
  set (a1 := (s x + s y) mod 2 ^ 32). assert (Ua1 : u32 a1) by apply u32_mod.
  set (d1 := rotl32 (Z.lxor (s w) a1) 16). assert (Ud1 : u32 d1) by apply u32_rotl.
  set (c1 := (s z + d1) mod 2 ^ 32). assert (Uc1 : u32 c1) by apply u32_mod.
  set (b1 := rotl32 (Z.lxor (s y) c1) 12). assert (Ub1 : u32 b1) by apply u32_rotl.
  set (a2 := (a1 + b1) mod 2 ^ 32). assert (Ua2 : u32 a2) by apply u32_mod.
  set (d2 := rotl32 (Z.lxor d1 a2) 8). assert (Ud2 : u32 d2) by apply u32_rotl.
  set (c2 := (c1 + d2) mod 2 ^ 32). assert (Uc2 : u32 c2) by apply u32_mod.
  set (b2 := rotl32 (Z.lxor b1 c2) 7).
  intros U. unfold c_qround, m32.
  (* a += b *)
  set (t1 := upd st x _). assert (Q1 : quad s x y z w t1 a1 (s y) (s z) (s w)).
  { unfold t1. destruct Q0 as (? & E1 & E2 & E3 & E4 & ?). rewrite E1, E2. eapply quad_x; eauto. repeat split; eauto. }
  clearbody t1. clear Q0.
  set (t2 := upd t1 w _). assert (Q2 : quad s x y z w t2 a1 (s y) (s z) (Z.lxor (s w) a1)).
  { unfold t2. pose proof Q1 as (? & E1 & E2 & E3 & E4 & ?). rewrite E1, E4. eapply quad_w; eauto. }
  clearbody t2. clear Q1.
  set (t3 := upd t2 w _). assert (Q3 : quad s x y z w t3 a1 (s y) (s z) d1).
  { unfold t3. pose proof Q2 as (? & E1 & E2 & E3 & E4 & ?). rewrite E4, c_rotl_rotl by (auto using u32_lxor; lia). eapply quad_w; eauto. }
  clearbody t3. clear Q2.
  set (t4 := upd t3 z _). assert (Q4 : quad s x y z w t4 a1 (s y) c1 d1).
  { unfold t4. pose proof Q3 as (? & E1 & E2 & E3 & E4 & ?). rewrite E3, E4. eapply quad_z; eauto. }
  clearbody t4. clear Q3.
  set (t5 := upd t4 y _). assert (Q5 : quad s x y z w t5 a1 (Z.lxor (s y) c1) c1 d1).
  { unfold t5. pose proof Q4 as (? & E1 & E2 & E3 & E4 & ?). rewrite E2, E3. eapply quad_y; eauto. }
  clearbody t5. clear Q4.
  set (t6 := upd t5 y _). assert (Q6 : quad s x y z w t6 a1 b1 c1 d1).
  { unfold t6. pose proof Q5 as (? & E1 & E2 & E3 & E4 & ?). rewrite E2, c_rotl_rotl by (auto using u32_lxor; lia). eapply quad_y; eauto. }
  clearbody t6. clear Q5.
  set (t7 := upd t6 x _). assert (Q7 : quad s x y z w t7 a2 b1 c1 d1).
  { unfold t7. pose proof Q6 as (? & E1 & E2 & E3 & E4 & ?). rewrite E1, E2. eapply quad_x; eauto. }
  clearbody t7. clear Q6.
  set (t8 := upd t7 w _). assert (Q8 : quad s x y z w t8 a2 b1 c1 (Z.lxor d1 a2)).
  { unfold t8. pose proof Q7 as (? & E1 & E2 & E3 & E4 & ?). rewrite E1, E4. eapply quad_w; eauto. }
  clearbody t8. clear Q7.
  set (t9 := upd t8 w _). assert (Q9 : quad s x y z w t9 a2 b1 c1 d2).
  { unfold t9. pose proof Q8 as (? & E1 & E2 & E3 & E4 & ?). rewrite E4, c_rotl_rotl by (auto using u32_lxor; lia). eapply quad_w; eauto. }
  clearbody t9. clear Q8.
  set (t10 := upd t9 z _). assert (Q10 : quad s x y z w t10 a2 b1 c2 d2).
  { unfold t10. pose proof Q9 as (? & E1 & E2 & E3 & E4 & ?). rewrite E3, E4. eapply quad_z; eauto. }
  clearbody t10. clear Q9.
  set (t11 := upd t10 y _). assert (Q11 : quad s x y z w t11 a2 (Z.lxor b1 c2) c2 d2).
  { unfold t11. pose proof Q10 as (? & E1 & E2 & E3 & E4 & ?). rewrite E2, E3. eapply quad_y; eauto. }
  clearbody t11. clear Q10.
  set (t12 := upd t11 y _). assert (Q12 : quad s x y z w t12 a2 b2 c2 d2).
  { unfold t12. pose proof Q11 as (? & E1 & E2 & E3 & E4 & ?). rewrite E2, c_rotl_rotl by (auto using u32_lxor; lia). eapply quad_y; eauto. }
  clearbody t12. clear Q11. destruct Q12 as (L12 & E1 & E2 & E3 & E4 & E5).
  split; [exact L12|]. intros i Hi. split; [|apply U; auto].
  clearbody a2 b2 c2 d2.
  destruct (Nat.eqb_spec i x); [subst; auto|]. destruct (Nat.eqb_spec i y); [subst; auto|].
  destruct (Nat.eqb_spec i z); [subst; auto|]. destruct (Nat.eqb_spec i w); [subst; auto|]. auto.
Qed.

Lemma c_double_round_rep st s : rep st s -> rep (c_double_round st) (inner_block s).
Proof.
  intros H. unfold c_double_round, inner_block. cbn [fold_left].
  repeat (apply c_qround_rep; [|unfold distinct4; lia]). exact H.
Qed.
Lemma c_rounds_rep n : forall st s, rep st s -> rep (Nat.iter n c_double_round st) (Nat.iter n inner_block s).
Proof.
  induction n as [|n IH]; intros st s H; [exact H|].
  change (rep (c_double_round (Nat.iter n c_double_round st)) (inner_block (Nat.iter n inner_block s))).
  apply c_double_round_rep. auto.
Qed.

Lemma upd_range (f : nat -> Z -> Z) (l : list Z) : forall n s st, (s + n <= length st)%nat ->
  length (fold_left (fun st v => upd st v (f v (nth v st 0))) (seq s n) st) = length st /\
  forall i, nth i (fold_left (fun st v => upd st v (f v (nth v st 0))) (seq s n) st) 0 =
    if (Nat.leb s i && Nat.ltb i (s + n))%bool then f i (nth i st 0) else nth i st 0.
Proof.
  induction n as [|n IH]; intros s st H; cbn [seq fold_left].
  - split; auto. intros i. destruct (Nat.leb_spec s i), (Nat.ltb_spec i (s + 0)); try lia; reflexivity.
  - destruct (IH (S s) (upd st s (f s (nth s st 0)))) as [L N]; [rewrite upd_length; lia|].
    rewrite L, upd_length. split; auto. intros i. rewrite N, nth_upd by lia.
    destruct (Nat.eqb_spec i s) as [->|].
    + destruct (Nat.leb_spec (S s) s), (Nat.leb_spec s s), (Nat.ltb_spec s (s + S n)); try lia; reflexivity.
    + destruct (Nat.leb_spec (S s) i), (Nat.leb_spec s i), (Nat.ltb_spec i (S s + n)), (Nat.ltb_spec i (s + S n)); try lia; reflexivity.
Qed.
Lemma nth_ext_16 (l : list Z) f : length l = 16%nat -> (forall i, (i < 16)%nat -> nth i l 0 = f i) -> l = map f (seq 0 16).
Proof.
  intros L H. apply (nth_ext _ _ 0 0); [rewrite map_length, seq_length; auto|]. rewrite L. intros i Hi.
  rewrite nth_map_seq by auto. auto.
Qed.

Lemma le8 b0 b1 b2 b3 b4 b5 b6 b7 : 0 <= b0 < 256 -> 0 <= b1 < 256 -> 0 <= b2 < 256 -> 0 <= b3 < 256 ->
  0 <= b4 < 256 -> 0 <= b5 < 256 -> 0 <= b6 < 256 -> 0 <= b7 < 256 ->
  Z.lor (Z.lor (Z.lor (Z.lor (Z.lor (Z.lor (Z.lor (Z.lor 0 (Z.shiftl b0 (8 * Z.of_nat 0))) (Z.shiftl b1 (8 * Z.of_nat 1))) (Z.shiftl b2 (8 * Z.of_nat 2)))
    (Z.shiftl b3 (8 * Z.of_nat 3))) (Z.shiftl b4 (8 * Z.of_nat 4))) (Z.shiftl b5 (8 * Z.of_nat 5))) (Z.shiftl b6 (8 * Z.of_nat 6))) (Z.shiftl b7 (8 * Z.of_nat 7)) =
  b0 + 256 * (b1 + 256 * (b2 + 256 * (b3 + 256 * (b4 + 256 * (b5 + 256 * (b6 + 256 * (b7 + 256 * 0))))))).
Proof.
  intros.
  assert (LA : forall a b n, 0 <= n -> 0 <= a < 2 ^ n -> Z.lor a (Z.shiftl b n) = a + b * 2 ^ n).
  { clear. intros a b n Hn Ha. rewrite <- Z.lxor_lor, <- Z.add_nocarry_lxor; rewrite ?Z.shiftl_mul_pow2 by lia; auto;
      rewrite <- Z.shiftl_mul_pow2 by lia; apply Z.bits_inj'; intros k Hk; rewrite Z.land_spec, Z.bits_0;
      (destruct (Z.ltb_spec k n); [rewrite Z.shiftl_spec_low by lia; apply andb_false_r|
        replace a with (a mod 2 ^ n) by (apply Z.mod_small, Ha); rewrite Z.mod_pow2_bits_high by lia; reflexivity]). }
  change (8 * Z.of_nat 0) with 0. change (8 * Z.of_nat 1) with 8. change (8 * Z.of_nat 2) with 16. change (8 * Z.of_nat 3) with 24.
  change (8 * Z.of_nat 4) with 32. change (8 * Z.of_nat 5) with 40. change (8 * Z.of_nat 6) with 48. change (8 * Z.of_nat 7) with 56.
  rewrite Z.lor_0_l, Z.shiftl_0_r.
  rewrite (LA b0) by lia. change (2 ^ 8) with 256. rewrite (LA _ b2) by lia. change (2 ^ 16) with 65536. rewrite (LA _ b3) by lia. change (2 ^ 24) with 16777216.
  rewrite (LA _ b4) by lia. change (2 ^ 32) with 4294967296. rewrite (LA _ b5) by lia. change (2 ^ 40) with 1099511627776.
  rewrite (LA _ b6) by lia. change (2 ^ 48) with 281474976710656. rewrite (LA _ b7) by lia. change (2 ^ 56) with 72057594037927936. lia.
Qed.

Section G.
Variable seed : list Z.
Hypothesis Hlen : length seed = 56%nat.
Hypothesis Hbytes : bytes seed.

Definition cw : list Z := map (seed_word seed) (seq 0 12).

Lemma c_matrix_rep cc : 0 <= cc < 2 ^ 64 ->
  rep (upd (upd (c_CW ++ cw) 14 (Z.lxor (nth 14 (c_CW ++ cw) 0) (m32 cc))) 15
    (Z.lxor (nth 15 (upd (c_CW ++ cw) 14 (Z.lxor (nth 14 (c_CW ++ cw) 0) (m32 cc))) 0) (m32 (Z.shiftr cc 32)))) (falcon_matrix seed cc).
Proof.
  intros Hc. destruct (matrix_rep seed Hlen Hbytes cc Hc) as [_ R]. split; [reflexivity|]. intros i Hi. destruct (R i Hi) as [_ U]. split; [|exact U].
  unfold m32. rewrite Z.shiftr_div_pow2 by lia. rewrite (Z.mod_small (cc / 2 ^ 32)).
  2:{ split; [apply Z.div_pos; lia|]. apply Z.div_lt_upper_bound; lia. }
  clear R U. do 16 (destruct i as [|i]; [reflexivity|]). lia.
Qed.

Lemma c_block_words cc : 0 <= cc < 2 ^ 64 -> c_block cw cc = map (chacha20_words (falcon_matrix seed cc)) (seq 0 16).
Proof.
  intros Hc. unfold c_block. cbv zeta. pose proof (c_matrix_rep cc Hc) as RM.
  set (m := upd (upd _ _ _) _ _) in *. clearbody m.
  pose proof (c_rounds_rep 10 _ _ RM) as [L R].
  set (st := Nat.iter 10 c_double_round m) in *. clearbody st. clear RM.
  pose proof (upd_range (fun v x => m32 (x + nth v c_CW 0)) [] 4 0 st ltac:(lia)) as [L1 N1].
  set (st1 := fold_left _ (seq 0 4) st) in *. clearbody st1.
  pose proof (upd_range (fun v x => m32 (x + nth (v - 4) cw 0)) [] 10 4 st1 ltac:(lia)) as [L2 N2].
  set (st2 := fold_left _ (seq 4 10) st1) in *. clearbody st2.
  apply nth_ext_16; [rewrite !upd_length; lia|].
  intros i Hi. rewrite !nth_upd by (rewrite ?upd_length; lia). rewrite !N2, !N1.
  unfold chacha20_words, add32. destruct (R i Hi) as [<- _].
  assert (Hs : Z.shiftr cc 32 mod 2 ^ 32 = cc / 2 ^ 32).
  { rewrite Z.shiftr_div_pow2 by lia. apply Z.mod_small. split; [apply Z.div_pos; lia|]. apply Z.div_lt_upper_bound; lia. }
  unfold m32. rewrite Hs. clear R N1 N2.
  do 16 (destruct i as [|i]; [reflexivity|]). lia.
Qed.

Lemma c_store_length buf u st : length (c_store buf u st) = length buf.
Proof.
  unfold c_store. generalize (seq 0 16). intros l. revert buf. induction l as [|v l IH]; intros buf; auto.
  cbn [fold_left]. rewrite IH. cbv zeta. now rewrite !upd_length.
Qed.
Lemma nth_c_store buf u st j : length buf = 512%nat -> (u < 8)%nat -> (j < 512)%nat ->
  nth j (c_store buf u st) 0 =
  if Nat.eqb ((j / 4) mod 8) u then (nth (j / 32) st 0 / 256 ^ Z.of_nat (j mod 4)) mod 256 else nth j buf 0.
Proof.
  intros Lb Hu Hj. unfold c_store.
  assert (G : forall n s b, length b = 512%nat -> (s + n <= 16)%nat ->
    nth j (fold_left (fun buf v =>
      let i := (4 * u + 32 * v)%nat in
      let x := nth v st 0 in
      let buf := upd buf (i + 0) (x mod 256) in
      let buf := upd buf (i + 1) (Z.shiftr x 8 mod 256) in
      let buf := upd buf (i + 2) (Z.shiftr x 16 mod 256) in
      upd buf (i + 3) (Z.shiftr x 24 mod 256)) (seq s n) b) 0 =
    if (Nat.eqb ((j / 4) mod 8) u && Nat.leb s (j / 32) && Nat.ltb (j / 32) (s + n))%bool
    then (nth (j / 32) st 0 / 256 ^ Z.of_nat (j mod 4)) mod 256 else nth j b 0).
  { clear buf Lb. induction n as [|n IH]; intros s b Lb Hs.
    - cbn [seq fold_left]. destruct (Nat.leb_spec s (j / 32)); destruct (Nat.ltb_spec (j / 32) (s + 0)); try lia;
        rewrite ?andb_false_r; auto.
    - cbn [seq fold_left]. rewrite IH by (cbv zeta; rewrite ?upd_length; lia). cbv zeta.
      rewrite !nth_upd by (rewrite ?upd_length; lia).
      assert (D : j = (32 * (j / 32) + 4 * ((j / 4) mod 8) + j mod 4)%nat).
      { clear. pose proof (Nat.div_mod j 4 ltac:(lia)). pose proof (Nat.div_mod (j / 4) 8 ltac:(lia)).
        rewrite Nat.div_div in H0 by lia. change (4 * 8)%nat with 32%nat in H0. lia. }
      pose proof (Nat.mod_upper_bound (j / 4) 8 ltac:(lia)) as B1. pose proof (Nat.mod_upper_bound j 4 ltac:(lia)) as B2.
      set (q := (j / 32)%nat) in *. set (m := ((j / 4) mod 8)%nat) in *. set (k := (j mod 4)%nat) in *.
      clearbody q m k. 
      destruct (Nat.eqb_spec m u) as [->|Hm]; cbn [andb].
      2:{ rewrite !(proj2 (Nat.eqb_neq _ _)) by lia. reflexivity. }
      destruct (Nat.eq_dec q s) as [->|Hq].
      2:{ rewrite !(proj2 (Nat.eqb_neq _ _)) by lia.
          destruct (Nat.leb_spec (S s) q), (Nat.leb_spec s q), (Nat.ltb_spec q (S s + n)), (Nat.ltb_spec q (s + S n)); try lia; reflexivity. }
      destruct (Nat.leb_spec (S s) s), (Nat.leb_spec s s), (Nat.ltb_spec s (s + S n)); try lia. cbn [andb].
      assert (K : (k = 0 \/ k = 1 \/ k = 2 \/ k = 3)%nat) by lia. subst j.
      destruct K as [->|[->|[->| ->]]];
        repeat match goal with |- context [Nat.eqb ?a ?b] => destruct (Nat.eqb_spec a b); try lia end;
        rewrite ?Z.shiftr_div_pow2 by lia; cbn [Z.of_nat]; rewrite ?Z.pow_0_r, ?Z.div_1_r; reflexivity. }
  rewrite G by (auto; lia). assert (j / 32 < 16)%nat by (apply Nat.div_lt_upper_bound; lia).
  destruct (Nat.ltb_spec (j / 32) (0 + 16)); [|lia]. cbn [Nat.leb]. now rewrite !andb_true_r.
Qed.

(** [inv r p g]: the generator has made refills 0..r and stands at position p of refill r *)
Definition inv (r p : nat) (g : prng) : Prop :=
  pw g = cw /\ pctr g = (seed_counter seed + 8 * Z.of_nat (S r)) mod 2 ^ 64 /\
  pbuf g = map (crefill_byte seed r) (seq 0 512) /\ pptr g = p.

Lemma refill_spec r g : pw g = cw -> pctr g = (seed_counter seed + 8 * Z.of_nat r) mod 2 ^ 64 -> length (pbuf g) = 512%nat ->
  inv r 0 (prng_refill g).
Proof.
  intros Hw Hc Hb. unfold prng_refill.
  assert (G : forall n i cc b, (i + n = 8)%nat -> cc = (seed_counter seed + 8 * Z.of_nat r + Z.of_nat i) mod 2 ^ 64 -> length b = 512%nat ->
    exists b', fold_left (fun '(cc, buf) u => (m64 (cc + 1), c_store buf u (c_block (pw g) cc))) (seq i n) (cc, b) =
      ((seed_counter seed + 8 * Z.of_nat (S r)) mod 2 ^ 64, b') /\ length b' = 512%nat /\
      forall j, (j < 512)%nat -> nth j b' 0 = if Nat.leb i ((j / 4) mod 8) then crefill_byte seed r j else nth j b 0).
  { induction n as [|n IH]; intros i cc b Hi Ec Lb.
    - exists b. cbn [seq fold_left]. split; [f_equal; rewrite Ec; f_equal; lia|]. split; auto. intros j Hj.
      pose proof (Nat.mod_upper_bound (j / 4) 8 ltac:(lia)). destruct (Nat.leb_spec i ((j / 4) mod 8)); [lia|reflexivity].
    - cbn [seq fold_left]. destruct (IH (S i) (m64 (cc + 1)) (c_store b i (c_block (pw g) cc))) as (b' & E & L' & N'); [lia| | |].
      + unfold m64. rewrite Ec, Z.add_mod_idemp_l by lia. f_equal. lia.
      + now rewrite c_store_length.
      + exists b'. split; [exact E|]. split; auto. intros j Hj. rewrite N', nth_c_store by (auto; lia).
        rewrite Hw, c_block_words by (rewrite Ec; apply Z.mod_pos_bound; lia).
        destruct (Nat.eqb_spec ((j / 4) mod 8) i) as [Em|].
        * destruct (Nat.leb_spec (S i) ((j / 4) mod 8)); [lia|]. destruct (Nat.leb_spec i ((j / 4) mod 8)); [|lia].
          assert (j / 32 < 16)%nat by (apply Nat.div_lt_upper_bound; lia).
          rewrite (nth_map_seq (chacha20_words _)) by auto. unfold crefill_byte. cbv zeta. rewrite Em, Ec.
          rewrite Nat.div_div by lia. reflexivity.
        * destruct (Nat.leb_spec (S i) ((j / 4) mod 8)), (Nat.leb_spec i ((j / 4) mod 8)); try lia; reflexivity. }
  destruct (G 8%nat 0%nat (pctr g) (pbuf g) eq_refl ltac:(rewrite Hc; f_equal; lia) Hb) as (b' & E & L' & N').
  rewrite E. unfold inv. cbn [pw pctr pbuf pptr]. split; [exact Hw|]. split; [reflexivity|]. split; [|reflexivity].
  apply (nth_ext _ _ 0 0); [rewrite map_length, seq_length; auto|]. rewrite L'. intros j Hj. rewrite N', nth_map_seq by auto. reflexivity.
Qed.
Lemma inv_length r p g : inv r p g -> length (pbuf g) = 512%nat.
Proof. intros (_ & _ & -> & _). now rewrite map_length, seq_length. Qed.

Lemma refill_inv r p g : inv r p g -> inv (S r) 0 (prng_refill g).
Proof. intros H. pose proof (inv_length _ _ _ H). destruct H as (Hw & Hc & Hb & Hp). apply refill_spec; auto. Qed.
Lemma inv_move r p g q : inv r p g -> inv r q (mk_prng (pw g) (pctr g) (pbuf g) q).
Proof. intros (Hw & Hc & Hb & Hp). unfold inv. auto. Qed.

Lemma init_words : map (fun i => Z.lor (Z.lor (Z.lor (nth (4 * i) seed 0) (Z.shiftl (nth (4 * i + 1) seed 0) 8)) (Z.shiftl (nth (4 * i + 2) seed 0) 16)) (Z.shiftl (nth (4 * i + 3) seed 0) 24)) (seq 0 14) = map (seed_word seed) (seq 0 14).
Proof.
  apply map_ext. intros i. unfold seed_word. cbv zeta. rewrite Nat.add_0_r.
  pose proof (nth_byte seed Hlen Hbytes (4 * i)) as B0. pose proof (nth_byte seed Hlen Hbytes (4 * i + 1)) as B1.
  pose proof (nth_byte seed Hlen Hbytes (4 * i + 2)) as B2. pose proof (nth_byte seed Hlen Hbytes (4 * i + 3)) as B3.
  set (b0 := nth (4 * i) seed 0) in *. set (b1 := nth (4 * i + 1) seed 0) in *. set (b2 := nth (4 * i + 2) seed 0) in *. set (b3 := nth (4 * i + 3) seed 0) in *.
  clearbody b0 b1 b2 b3. unfold is_byte in *.
  assert (LA : forall a b n, 0 <= n -> 0 <= a < 2 ^ n -> Z.lor a (Z.shiftl b n) = a + b * 2 ^ n).
  { intros a b n Hn Ha. rewrite <- Z.lxor_lor, <- Z.add_nocarry_lxor; rewrite ?Z.shiftl_mul_pow2 by lia; auto;
      rewrite <- Z.shiftl_mul_pow2 by lia; apply Z.bits_inj'; intros k Hk; rewrite Z.land_spec, Z.bits_0;
      (destruct (Z.ltb_spec k n); [rewrite Z.shiftl_spec_low by lia; apply andb_false_r|
        replace a with (a mod 2 ^ n) by (apply Z.mod_small, Ha); rewrite Z.mod_pow2_bits_high by lia; reflexivity]). }
  rewrite (LA b0 b1 8) by lia. change (2 ^ 8) with 256.
  rewrite (LA _ b2 16) by lia. change (2 ^ 16) with 65536.
  rewrite (LA _ b3 24) by lia. change (2 ^ 24) with 16777216. lia.
Qed.
Lemma init_inv junk : length junk = 512%nat -> inv 0 0 (prng_init junk seed).
Proof.
  intros Hj. unfold prng_init. cbv zeta.
  set (w := fun i : nat => Z.lor _ _).
  assert (W : forall i, (i < 14)%nat -> w i = seed_word seed i).
  { intros i Hi. pose proof init_words as E. fold w in E.
    rewrite <- (nth_map_seq w 0 14 i Hi).
    rewrite E. apply nth_map_seq. auto. }
  change (Z.lor (Z.lor (Z.lor (nth (4 * 12) seed 0) (Z.shiftl (nth (4 * 12 + 1) seed 0) 8)) (Z.shiftl (nth (4 * 12 + 2) seed 0) 16)) (Z.shiftl (nth (4 * 12 + 3) seed 0) 24)) with (w 12%nat).
  change (Z.lor (Z.lor (Z.lor (nth (4 * 13) seed 0) (Z.shiftl (nth (4 * 13 + 1) seed 0) 8)) (Z.shiftl (nth (4 * 13 + 2) seed 0) 16)) (Z.shiftl (nth (4 * 13 + 3) seed 0) 24)) with (w 13%nat).
  apply refill_spec; cbn [pw pctr pbuf]; auto.
  - unfold cw. apply map_ext_in. intros i Hi. apply in_seq in Hi. apply W. lia.
  - rewrite !W by lia. unfold m64, seed_counter. rewrite Z.shiftl_mul_pow2 by lia. f_equal. lia.
Qed.

Lemma u64_step r p g : inv r p g -> (p <= 511)%nat ->
  let '(r', q) := if (p + 9 <? 512)%nat then (r, p) else (S r, 0%nat) in
  inv r' (q + 8) (fst (prng_get_u64 g)) /\ snd (prng_get_u64 g) = le_value (crefill_byte seed r') q 8.
Proof.
  intros H Hp. unfold prng_get_u64.
  assert (K : let '(r', q) := if (p + 9 <? 512)%nat then (r, p) else (S r, 0%nat) in
     inv r' q (if (512 - 9 <=? pptr g)%nat then prng_refill g else g) /\ (q + 8 <= 512)%nat).
  { destruct H as (Hw & Hc & Hb & Hq) eqn:EH. rewrite Hq. destruct (Nat.ltb_spec (p + 9) 512), (Nat.leb_spec (512 - 9) p); try lia; split; try lia; auto.
    eapply refill_inv; eauto. }
  destruct (if (p + 9 <? 512)%nat then (r, p) else (S r, 0%nat)) as [r' q]. destruct K as [K Hq].
  set (g' := if (512 - 9 <=? pptr g)%nat then prng_refill g else g) in *. clearbody g'. cbv zeta. cbn [fst snd].
  split; [destruct K as (Hw & Hc & Hb & Hq'); unfold inv; cbn [pw pctr pbuf pptr]; rewrite Hq'; repeat (split; [assumption|]); reflexivity|].
  destruct K as (Hw & Hc & Hb & Hq'). rewrite Hb, Hq'.
  assert (N : forall k, (k < 8)%nat -> nth (q + k) (map (crefill_byte seed r') (seq 0 512)) 0 = crefill_byte seed r' (q + k)) by (intros k Hk; apply nth_map_seq; lia).
  assert (B : forall k, 0 <= crefill_byte seed r' k < 256) by (intros k; unfold crefill_byte; cbv zeta; apply Z.mod_pos_bound; lia).
  set (L := map _ _) in *. set (f := crefill_byte seed r') in *. clearbody L f. clear - N B.
  change (seq 0 8) with [0; 1; 2; 3; 4; 5; 6; 7]%nat. cbn [fold_left].
  rewrite (N 0%nat), (N 1%nat), (N 2%nat), (N 3%nat), (N 4%nat), (N 5%nat), (N 6%nat), (N 7%nat) by lia.
  unfold le_value. replace (seq q 8) with [q + 0; q + 1; q + 2; q + 3; q + 4; q + 5; q + 6; q + 7]%nat.
  2:{ cbn [seq]. repeat (apply f_equal2; [lia|]). reflexivity. }
  cbn [fold_right].
  apply le8; apply B.
Qed.

Lemma u8_step r p g : inv r p g -> (p <= 511)%nat ->
  (if (p + 1 =? 512)%nat then inv (S r) 0 (fst (prng_get_u8 g)) else inv r (p + 1) (fst (prng_get_u8 g))) /\
  snd (prng_get_u8 g) = crefill_byte seed r p.
Proof.
  intros H Hp. pose proof H as (Hw & Hc & Hb & Hq). unfold prng_get_u8. cbv zeta. cbn [fst snd pptr]. rewrite Hq. split.
  - pose proof (inv_move r p g (p + 1) H) as H'. destruct (Nat.eqb_spec (p + 1) 512); auto. eapply refill_inv; eauto.
  - rewrite Hb. apply nth_map_seq. lia.
Qed.
End G.
