(** Proofs about the samplers and key generation. *)
From Verif Require Import Base HashModel PrngModel FalconModel RecoveryProofs SolWorldProofs NtruModel PolyModel PolyModelProofs RingSpec Ring NtruProofs SolveProofs FalconSpec FalconProofs SamplerModel.
Set Default Goal Selector "!".

Definition stream (b : nat -> Z) : Prop := forall i, 0 <= b i < 256.
Lemma draw_bytes b pos k : stream b -> bytes (draw b pos k).
Proof. intros H. apply Forall_forall. intros x Hx. apply in_map_iff in Hx. destruct Hx as (i & <- & _). apply H. Qed.
Lemma draw_length b pos k : length (draw b pos k) = k.
Proof. unfold draw. rewrite map_length, seq_length. reflexivity. Qed.
Lemma draw_S b pos k : draw b pos (S k) = b pos :: draw b (S pos) k.
Proof. reflexivity. Qed.
Lemma le_int_bound l : bytes l -> 0 <= le_int l < 256 ^ Z.of_nat (length l).
Proof.
  induction l as [|x l IH]; intros B; [cbn; lia|]. inversion B as [|? ? Hx Hl]; subst. specialize (IH Hl). unfold is_byte in Hx.
  cbn [le_int length]. rewrite Nat2Z.inj_succ, Z.pow_succ_r by lia. lia.
Qed.
Lemma le_int_inj l : forall l', length l = length l' -> bytes l -> bytes l' -> le_int l = le_int l' -> l = l'.
Proof.
  induction l as [|x l IH]; intros [|y l'] L B B' E; try discriminate; [reflexivity|]. inversion B as [|? ? Hx Hl]; subst. inversion B' as [|? ? Hy Hl']; subst.
  unfold is_byte in *. cbn [le_int] in E. injection L as L. assert (x = y) by lia. subst. f_equal. apply IH; auto. lia.
Qed.
Lemma le_int_onto k : forall v, 0 <= v < 256 ^ Z.of_nat k -> exists l, bytes l /\ length l = k /\ le_int l = v.
Proof.
  induction k; intros v Hv.
  - exists []. split; [constructor|]. split; [reflexivity|]. cbn in *. lia.
  - rewrite Nat2Z.inj_succ, Z.pow_succ_r in Hv by lia. destruct (IHk (v / 256)) as (l & B & L & E); [split; [apply Z.div_pos; lia|apply Z.div_lt_upper_bound; lia]|].
    exists (v mod 256 :: l). split; [constructor; [apply Z.mod_pos_bound; lia|exact B]|]. split; [cbn [length]; lia|]. cbn [le_int]. rewrite E. lia.
Qed.

(** * basesampler *)
Definition cnt (u : Z) (L : list Z) : Z := fold_left (fun z0 elt => z0 + (if u <? elt then 1 else 0)) L 0.
Lemma cnt_acc u L : forall a, fold_left (fun z0 elt => z0 + (if u <? elt then 1 else 0)) L a = a + cnt u L.
Proof.
  unfold cnt. induction L as [|x L IH]; intros a; cbn [fold_left]; [lia|]. rewrite IH, (IH (0 + _)). lia.
Qed.
Lemma cnt_cons u x L : cnt u (x :: L) = (if u <? x then 1 else 0) + cnt u L.
Proof. unfold cnt at 1. cbn [fold_left]. rewrite cnt_acc. lia. Qed.
Fixpoint decreasing (L : list Z) : bool := match L with x :: (y :: _) as L' => (y <? x) && decreasing L' | _ => true end.
Lemma decreasing_le x L : decreasing (x :: L) = true -> Forall (fun y => y < x) L /\ decreasing L = true.
Proof.
  revert x. induction L as [|y L IH]; intros x H; [split; [constructor|reflexivity]|]. cbn [decreasing] in H. apply andb_prop in H. destruct H as [H1 H2].
  split; [|exact H2]. constructor; [lia|]. destruct (IH y H2) as [H3 _]. apply Forall_impl with (2 := H3). intros. lia.
Qed.
Lemma cnt_zero u L : Forall (fun y => y <= u) L -> cnt u L = 0.
Proof. induction 1 as [|x L H _ IH]; [reflexivity|]. rewrite cnt_cons, IH. destruct (Z.ltb_spec u x); lia. Qed.
Lemma cnt_bound u L : 0 <= cnt u L <= Z.of_nat (length L).
Proof. induction L as [|x L IH]; [cbn; lia|]. rewrite cnt_cons. cbn [length]. destruct (u <? x); lia. Qed.
Lemma cnt_gt u L : decreasing L = true -> forall k, (k < length L)%nat -> (Z.of_nat k < cnt u L <-> u < nth k L 0).
Proof.
  induction L as [|x L IH]; intros D k Hk; [cbn in Hk; lia|]. destruct (decreasing_le x L D) as [Hx D']. rewrite cnt_cons.
  destruct (Z.ltb_spec u x) as [H|H].
  - destruct k as [|k]; cbn [nth].
    + pose proof (cnt_bound u L). lia.
    + rewrite <- (IH D' k) by (cbn [length] in Hk; lia). lia.
  - rewrite cnt_zero by (apply Forall_impl with (2 := Hx); intros; lia). split; [lia|]. intros Hn. exfalso.
    destruct k as [|k]; cbn [nth] in Hn; [lia|]. rewrite Forall_forall in Hx.
    assert (In (nth k L 0) L) by (apply nth_In; cbn [length] in Hk; lia). specialize (Hx _ H0). lia.
Qed.

(** * berexp *)
Fixpoint shifts (k : nat) : list Z := match k with O => [] | S k' => 8 * Z.of_nat k' :: shifts k' end.
Lemma land255 x : Z.land x 255 = x mod 256.
Proof. change 255 with (Z.ones 8). rewrite Z.land_ones by lia. reflexivity. Qed.
Lemma land1 x : Z.land x 1 = x mod 2.
Proof. change 1 with (Z.ones 1). rewrite Z.land_ones by lia. reflexivity. Qed.
(** number of bytes read: up to and including the first one that differs from the digit of z *)
Fixpoint reads (digits bs : list Z) : nat :=
  match digits, bs with
  | d :: digits, x :: bs => if x =? d then S (reads digits bs) else 1%nat
  | _, _ => 0%nat
  end.
Lemma berexp_loop_ok b z k : stream b -> forall pos,
  berexp_loop b z (shifts (S k)) pos = (be_int (draw b pos (S k)) <? z mod 256 ^ Z.of_nat (S k), (pos + reads (to_be (S k) z) (draw b pos (S k)))%nat).
Proof.
  intros Hb. assert (TB : forall k, to_be (S k) z = (z / 256 ^ Z.of_nat k) mod 256 :: to_be k z).
  { clear. intros k. apply (nth_ext _ _ 0 0); [cbn [length]; rewrite !to_be_length; reflexivity|].
    intros i Hi. rewrite to_be_length in Hi. rewrite to_be_nth by exact Hi. destruct i as [|i]; cbn [nth].
    - replace (Z.of_nat (S k) - 1 - Z.of_nat 0) with (Z.of_nat k) by lia. reflexivity.
    - rewrite to_be_nth by lia. f_equal. f_equal. f_equal. lia. }
  induction k as [|k IH]; intros pos.
  - cbn [shifts berexp_loop]. rewrite land255. change (8 * Z.of_nat 0) with 0. rewrite Z.shiftr_0_r. rewrite TB. rewrite (draw_S b pos 0).
    change (draw b (S pos) 0) with (@nil Z). change (to_be 0 z) with (@nil Z). cbn [reads]. change (256 ^ Z.of_nat 0) with 1. change (256 ^ Z.of_nat 1) with 256. rewrite Z.div_1_r.
    unfold be_int. cbn [fold_left]. change (draw b pos 1) with [b pos]. cbn [le_int]. pose proof (Hb pos).
    destruct (Z.eqb_spec (b pos + 256 * 0 - z mod 256) 0), (Z.eqb_spec (b pos) (z mod 256)); try lia; f_equal; lia.
  - change (shifts (S (S k))) with (8 * Z.of_nat (S k) :: shifts (S k)). cbn [berexp_loop]. rewrite land255, Z.shiftr_div_pow2 by lia.
    rewrite (TB (S k)), (draw_S b pos (S k)). cbn [reads]. change (draw b pos 1) with [b pos]. cbn [le_int].
    set (P := 256 ^ Z.of_nat (S k)).
    assert (EP : 2 ^ (8 * Z.of_nat (S k)) = P) by (unfold P; rewrite Z.pow_mul_r by lia; reflexivity). rewrite EP.
    assert (PP : 0 < P) by (unfold P; lia).
    assert (E1 : 256 ^ Z.of_nat (S (S k)) = P * 256) by (unfold P; rewrite (Nat2Z.inj_succ (S k)), Z.pow_succ_r by lia; lia). rewrite E1.
    rewrite (Z.rem_mul_r z P 256) by lia.
    assert (E2 : be_int (b pos :: draw b (S pos) (S k)) = b pos * P + be_int (draw b (S pos) (S k))).
    { pose proof (be_app [b pos] (draw b (S pos) (S k))) as E. rewrite draw_length in E. exact E. }
    rewrite E2. pose proof (be_bound (draw b (S pos) (S k)) (draw_bytes b _ _ Hb)) as B2. rewrite draw_length in B2. fold P in B2.
    pose proof (Z.mod_pos_bound z P PP) as Bz. set (d := (z / P) mod 256) in *. pose proof (Hb pos) as Bb.
    destruct (Z.eqb_spec (b pos + 256 * 0 - d) 0) as [E|E].
    + destruct (Z.eqb_spec (b pos) d) as [E'|E']; [|lia]. rewrite <- E'. change (shifts (S k)) with (8 * Z.of_nat k :: shifts k) at 1. cbv iota. rewrite IH. f_equal.
      * assert (Q : forall x y, (x <? y) = (b pos * P + x <? y + P * b pos)) by (intros; lia). apply Q.
      * lia.
    + destruct (Z.eqb_spec (b pos) d) as [E'|E']; [lia|]. f_equal; [|lia].
      destruct (Z.ltb_spec (b pos + 256 * 0 - d) 0) as [L|L]; symmetry.
      * apply Z.ltb_lt. pose proof (Z.mul_le_mono_nonneg_r (b pos + 1) d P ltac:(lia) ltac:(lia)) as M. rewrite Z.mul_add_distr_r in M. lia.
      * apply Z.ltb_ge. pose proof (Z.mul_le_mono_nonneg_r (d + 1) (b pos) P ltac:(lia) ltac:(lia)) as M. rewrite Z.mul_add_distr_r in M. lia.
Qed.

(** * approxexp *)
Lemma horner_range zx : 0 <= zx <= 2 ^ 63 -> forall L y c, 0 <= y <= c -> decreasing (rev (c :: L)) = true ->
  0 <= fold_left (fun y elt => elt - Z.shiftr (zx * y) 63) L y <= last L c.
Proof.
  intros Hz. assert (S1 : forall (L : list Z) e a c, last (e :: L) c = last (e :: L) a) by (induction L as [|e' L IH]; intros e a c; [reflexivity|exact (IH e' a c)]).
  assert (Hstep : forall y c e, 0 <= y <= c -> c <= e -> 0 <= e - Z.shiftr (zx * y) 63 <= e).
  { intros y c e Hy Hc. rewrite Z.shiftr_div_pow2 by lia. assert (0 <= zx * y / 2 ^ 63 <= y).
    - split; [apply Z.div_pos; [nia|reflexivity]|]. apply Z.div_le_upper_bound; [reflexivity|]. nia.
    - lia. }
  assert (Hd : forall L c, decreasing (rev (c :: L)) = true -> match L with [] => True | e :: L' => c < e /\ decreasing (rev (e :: L')) = true end).
  { intros L c. destruct L as [|e L']; [trivial|]. cbn [rev]. rewrite <- app_assoc. cbn [app].
    generalize (rev L') as R. induction R as [|x R IH]; cbn [app decreasing].
    - intros H. apply andb_prop in H. destruct H as [H _]. split; [lia|reflexivity].
    - destruct (R ++ [e; c]) as [|a T] eqn:E1; [destruct R; discriminate|]. intros H. apply andb_prop in H. destruct H as [H1 H2].
      destruct (IH H2) as [I1 I2]. split; [exact I1|].
      destruct (R ++ [e]) as [|a' T'] eqn:E2; [reflexivity|].
      assert (a = a') by (destruct R; cbn in E1, E2; congruence). subst a'. rewrite H1. exact I2. }
  induction L as [|e L IH]; intros y c Hy D; cbn [fold_left last]; [exact Hy|].
  destruct (Hd (e :: L) c D) as [H1 H2]. specialize (IH (e - Z.shiftr (zx * y) 63) e (Hstep y c e Hy ltac:(lia)) H2).
  destruct L as [|e' L]; [exact IH|]. rewrite (S1 L e' e c). exact IH.
Qed.
Lemma approxexp_range zx zc : 0 <= zx <= 2 ^ 63 -> 0 <= zc <= 2 ^ 63 -> 0 <= approxexp zx zc <= 2 * zc.
Proof.
  intros Hx Hc. unfold approxexp. set (y := fold_left _ _ _).
  assert (Hy : 0 <= y <= 2 ^ 63).
  { pose proof (horner_range zx Hx (tl expC) (hd 0 expC) (hd 0 expC)) as H. apply H; [split; [discriminate|reflexivity || (apply Z.le_refl)]|reflexivity]. }
  rewrite Z.shiftl_mul_pow2, Z.shiftr_div_pow2 by lia. change (2 ^ 1) with 2. split.
  - apply Z.div_pos; [nia|reflexivity].
  - apply Z.div_le_upper_bound; [reflexivity|]. nia.
Qed.
Lemma approxexp_low zx zc : 0 <= zx <= 7 * 2 ^ 60 -> 2 ^ 62 <= zc <= 2 ^ 63 -> 2 ^ 59 <= approxexp zx zc.
Proof.
  intros Hx Hc. unfold approxexp. set (y := fold_left _ _ _).
  assert (Hy : 2 ^ 60 - 1 <= y).
  { assert (E : y = 0x8000000000000000 - Z.shiftr (zx * fold_left (fun y elt => elt - Z.shiftr (zx * y) 63) (removelast (tl expC)) (hd 0 expC)) 63) by reflexivity.
    pose proof (horner_range zx ltac:(split; [lia|]; eapply Z.le_trans; [apply Hx|discriminate]) (removelast (tl expC)) (hd 0 expC) (hd 0 expC)) as H.
    set (y' := fold_left _ (removelast (tl expC)) _) in *.
    assert (H' : 0 <= y' <= 2 ^ 63). { specialize (H ltac:(split; [discriminate|apply Z.le_refl]) eq_refl). split; [apply H|]. eapply Z.le_trans; [apply H|]. discriminate. }
    rewrite E, Z.shiftr_div_pow2 by lia. assert (zx * y' / 2 ^ 63 <= 7 * 2 ^ 60); [|change 0x8000000000000000 with (8 * 2 ^ 60); lia].
    apply Z.div_le_upper_bound; [reflexivity|]. nia. }
  rewrite Z.shiftl_mul_pow2, Z.shiftr_div_pow2 by lia. change (2 ^ 1) with 2. apply Z.div_le_lower_bound; [reflexivity|].
  change (2 ^ 63 * 2 ^ 59) with (2 ^ 62 * 2 * (2 ^ 59)). assert (2 ^ 59 <= y) by (change (2 ^ 60) with (2 * 2 ^ 59) in Hy; assert (1 <= 2 ^ 59) by discriminate; lia). nia.
Qed.

(** * samplerz *)
Lemma cnt_eq u L : fold_left (fun z0 elt => z0 + (if u <? elt then 1 else 0)) L 0 = cnt u L.
Proof. reflexivity. Qed.
Lemma basesampler_value b pos : basesampler b pos = (cnt (le_int (draw b pos 9)) RCDT, (pos + 9)%nat).
Proof. unfold basesampler. cbv zeta. rewrite cnt_eq. reflexivity. Qed.
Lemma basesampler_range b pos : 0 <= fst (basesampler b pos) <= 18.
Proof.
  rewrite basesampler_value. set (u := le_int (draw b pos 9)). clearbody u. cbn [fst]. pose proof (cnt_bound u RCDT) as H.
  change (Z.of_nat (length RCDT)) with 18 in H. exact H.
Qed.
Lemma samplerz_range b thr fl fuel : forall pos z pos', samplerz b fuel fl thr pos = Some (z, pos') -> fl - 18 <= z <= fl + 19 /\ (pos + 11 <= pos')%nat.
Proof.
  induction fuel as [|fuel IH]; intros pos z pos' E; [discriminate|]. cbn [samplerz] in E.
  pose proof (basesampler_range b pos) as Hz. destruct (basesampler b pos) as [z0 p1] eqn:E1. cbn [fst] in Hz.
  assert (P1 : p1 = (pos + 9)%nat) by (rewrite basesampler_value in E1; congruence).
  set (bb := Z.land (le_int (draw b p1 1)) 1) in E. assert (Hb : 0 <= bb <= 1) by (unfold bb; rewrite land1; pose proof (Z.mod_pos_bound (le_int (draw b p1 1)) 2 ltac:(lia)); lia).
  destruct (berexp_cmp b (thr (bb + (2 * bb - 1) * z0) z0) (p1 + 1)) as [acc p2] eqn:E2.
  assert (P2 : (p1 + 2 <= p2)%nat).
  { unfold berexp_cmp in E2. assert (G : forall z l x p r p', berexp_loop b z (x :: l) p = (r, p') -> (S p <= p')%nat).
    { clear. intros z l. induction l as [|y l IH]; intros x p r p' E; cbn [berexp_loop] in E.
      - destruct (_ =? 0); injection E as _ <-; lia.
      - destruct (_ =? 0); [|injection E as _ <-; lia]. specialize (IH y (S p) r p' E). lia. }
    specialize (G _ _ _ _ _ _ E2). lia. }
  destruct acc.
  - injection E as <- <-. split; [|lia]. clearbody bb. assert (C : bb = 0 \/ bb = 1) by lia. destruct C as [-> | ->]; lia.
  - specialize (IH _ _ _ E). split; [apply IH|lia].
Qed.
Lemma samples_ok b fuel thr : forall k pos l pos', samples b fuel k thr pos = Some (l, pos') -> length l = k /\ Forall (fun z => -18 <= z <= 19) l.
Proof.
  induction k as [|k IH]; intros pos l pos' E; cbn [samples] in E; [injection E as <- <-; split; constructor|].
  destruct (samplerz b fuel 0 thr pos) as [[z p]|] eqn:E1; [|discriminate]. destruct (samples b fuel k thr p) as [[l' p']|] eqn:E2; [|discriminate].
  injection E as <- <-. destruct (IH _ _ _ E2) as [L F]. destruct (samplerz_range _ _ _ _ _ _ _ E1) as [R _]. split; [cbn [length]; lia|].
  constructor; [lia|exact F].
Qed.
Lemma sum_list_acc l : forall a, fold_left Z.add l a = a + sum_list l.
Proof. unfold sum_list. induction l as [|x l IH]; intros a; cbn [fold_left]; [lia|]. rewrite IH, (IH (0 + x)). lia. Qed.
Lemma sum_list_cons x l : sum_list (x :: l) = x + sum_list l.
Proof. unfold sum_list at 1. cbn [fold_left]. rewrite sum_list_acc. lia. Qed.
Lemma sum_list_range lo hi l : lo <= 0 <= hi -> Forall (fun z => lo <= z <= hi) l -> Z.of_nat (length l) * lo <= sum_list l <= Z.of_nat (length l) * hi.
Proof. intros H. induction 1 as [|x l Hx _ IH]; [cbn; lia|]. rewrite sum_list_cons. cbn [length]. rewrite Nat2Z.inj_succ. nia. Qed.
Lemma nth_in_range lo hi (l : list Z) i : lo <= 0 <= hi -> Forall (fun z => lo <= z <= hi) l -> lo <= nth i l 0 <= hi.
Proof.
  intros H F. destruct (Nat.lt_ge_cases i (length l)) as [Hi|Hi]; [|rewrite nth_overflow by exact Hi; exact H].
  rewrite Forall_forall in F. apply F, nth_In, Hi.
Qed.
Lemma gen_poly_ok b fuel n thr pos f pos' : gen_poly b fuel n thr pos = Fin (Ok (f, pos')) ->
  length f = n /\ Forall (fun c => -18 * Z.of_nat (4096 / n) <= c <= 19 * Z.of_nat (4096 / n)) f.
Proof.
  unfold gen_poly. change 4096%nat with (64 * 64)%nat. generalize (64 * 64)%nat as N. intros N. destruct (N <=? n)%nat; [discriminate|].
  destruct (samples b fuel N thr pos) as [[f0 p]|] eqn:E; [|discriminate]. cbv zeta. set (k := (N / n)%nat). intros E2.
  assert (Ef : f = map (fun i => sum_list (map (fun j => nth (i * k + j) f0 0) (seq 0 k))) (seq 0 n)) by congruence.
  destruct (samples_ok _ _ _ _ _ _ _ E) as [_ F]. rewrite Ef. split; [rewrite map_length, seq_length; reflexivity|].
  apply Forall_forall. intros x Hx. apply in_map_iff in Hx. destruct Hx as (i & <- & _).
  pose proof (sum_list_range (-18) 19 (map (fun j => nth (i * k + j) f0 0) (seq 0 k)) ltac:(lia)) as S.
  rewrite map_length, seq_length in S. assert (HF : Forall (fun z => -18 <= z <= 19) (map (fun j => nth (i * k + j) f0 0) (seq 0 k))).
  { apply Forall_forall. intros y Hy. apply in_map_iff in Hy. destruct Hy as (j & <- & _). apply nth_in_range; [lia|exact F]. }
  specialize (S HF). lia.
Qed.

(** * mkgauss *)
Lemma low63' r : 0 <= r < 2 ^ 64 -> Z.land r (Z.lnot (Z.shiftl 1 63)) = r mod 2 ^ 63.
Proof.
  intros H. rewrite <- (Z.mod_small r (2 ^ 64) H). rewrite <- !Z.land_ones by lia. apply Z.bits_inj'. intros i Hi.
  rewrite !Z.land_spec, Z.lnot_spec, Z.shiftl_spec by lia. destruct (Z.lt_ge_cases i 63) as [H'|H'].
  - rewrite (Z.ones_spec_low 64), (Z.ones_spec_low 63) by lia. rewrite (Z.testbit_neg_r 1) by lia. cbn [negb]. rewrite !andb_true_r. reflexivity.
  - rewrite (Z.ones_spec_high 63) by lia. rewrite andb_false_r. destruct (Z.eq_dec i 63) as [->|Hn].
    + change (Z.testbit 1 (63 - 63)) with true. cbn [negb]. apply andb_false_r.
    + rewrite (Z.ones_spec_high 64) by lia. rewrite andb_false_r. reflexivity.
Qed.
Lemma below r T : 0 <= r < 2 ^ 63 -> 0 <= T < 2 ^ 63 -> Z.land (Z.shiftr (r - T) 63) 1 = if r <? T then 1 else 0.
Proof.
  intros Hr HT. rewrite Z.shiftr_div_pow2 by lia. destruct (Z.ltb_spec r T).
  - replace ((r - T) / 2 ^ 63) with (-1); [reflexivity|]. apply Z.div_unique with (r := r - T + 2 ^ 63); [left|]; lia.
  - rewrite Z.div_small by lia. reflexivity.
Qed.
Lemma gtab_range k : 0 <= gtab k < 2 ^ 63.
Proof.
  unfold gtab. assert (F : Forall (fun z => 0 <= z < 2 ^ 63) gauss_1024_12289).
  { apply Forall_forall. intros x Hx. assert (H : forallb (fun z => (0 <=? z) && (z <? 2 ^ 63)) gauss_1024_12289 = true) by reflexivity.
    rewrite forallb_forall in H. specialize (H x Hx). lia. }
  destruct (Nat.lt_ge_cases k (length gauss_1024_12289)) as [Hi|Hi]; [|rewrite nth_overflow by exact Hi; split; [lia|reflexivity]].
  rewrite Forall_forall in F. apply F, nth_In, Hi.
Qed.
Definition gstep (r : Z) (vf : Z * Z) (k : nat) : Z * Z :=
  let '(v, f) := vf in
  let t := Z.lxor (Z.land (Z.shiftr (r - gtab k) 63) 1) 1 in
  (Z.lor v (Z.land (Z.of_nat k) (- (Z.land t (Z.lxor f 1)))), Z.lor f t).
Lemma gstep_done r v k : 0 <= r < 2 ^ 63 -> gstep r (v, 1) k = (v, 1).
Proof.
  intros Hr. unfold gstep. rewrite below by (auto; apply gtab_range). destruct (r <? gtab k).
  - change (Z.lxor 1 1) with 0. change (Z.land 0 0) with 0. rewrite Z.land_0_r, Z.lor_0_r. reflexivity.
  - change (Z.lxor 1 1) with 0. change (Z.lxor 0 1) with 1. change (Z.land 1 0) with 0. rewrite Z.land_0_r, Z.lor_0_r. reflexivity.
Qed.
Lemma gstep_open r k : 0 <= r < 2 ^ 63 -> gstep r (0, 0) k = if gtab k <=? r then (Z.of_nat k, 1) else (0, 0).
Proof.
  intros Hr. unfold gstep. rewrite below by (auto; apply gtab_range). destruct (Z.ltb_spec r (gtab k)), (Z.leb_spec (gtab k) r); try lia.
  - change (Z.lxor 1 1) with 0. change (Z.lxor 0 1) with 1. change (Z.land 0 1) with 0. rewrite Z.land_0_r. reflexivity.
  - change (Z.lxor 0 1) with 1. change (Z.land 1 1) with 1. change (-1) with (-1). rewrite Z.land_m1_r, Z.lor_0_l. reflexivity.
Qed.
Lemma gfold_done r ks v : 0 <= r < 2 ^ 63 -> fold_left (gstep r) ks (v, 1) = (v, 1).
Proof. intros Hr. induction ks as [|k ks IH]; [reflexivity|]. cbn [fold_left]. rewrite gstep_done by exact Hr. exact IH. Qed.
Lemma gfold_open r ks : 0 <= r < 2 ^ 63 -> fold_left (gstep r) ks (0, 0) =
  match find (fun k => gtab k <=? r) ks with Some k => (Z.of_nat k, 1) | None => (0, 0) end.
Proof.
  intros Hr. induction ks as [|k ks IH]; [reflexivity|]. cbn [fold_left find]. rewrite gstep_open by exact Hr.
  destruct (gtab k <=? r); [apply gfold_done; exact Hr|exact IH].
Qed.
(** magnitude: 0 if the first draw is below entry 0, otherwise the first index whose entry is at most the second draw *)
Definition magnitude (r1 r2 : Z) : Z :=
  if r1 <? gtab 0 then 0 else match find (fun k => gtab k <=? r2) (seq 1 26) with Some k => Z.of_nat k | None => 0 end.
Lemma magnitude_range r1 r2 : 0 <= r2 -> 0 <= magnitude r1 r2 <= 26.
Proof.
  intros H. unfold magnitude. destruct (r1 <? gtab 0); [lia|]. destruct (find _ _) eqn:E; [|lia]. apply find_some in E. destruct E as [E _]. apply in_seq in E. lia.
Qed.
Lemma sign_table : forallb (fun neg => forallb (fun v =>
   let v' := Z.land (Z.lxor v (Z.land (- neg) 0xFFFFFFFF) + neg) 0xFFFFFFFF in
   (if 0x80000000 <=? v' then v' - 0x100000000 else v') =? (if neg =? 0 then v else - v)) (map Z.of_nat (seq 0 27))) [0; 1] = true.
Proof. reflexivity. Qed.
Lemma mkgauss1_value b pos : stream b -> let r1 := le_int (draw b pos 8) in let r2 := le_int (draw b (pos + 8) 8) in
  mkgauss1 b pos = (if r1 <? 2 ^ 63 then 1 else -1) * magnitude (r1 mod 2 ^ 63) (r2 mod 2 ^ 63).
Proof.
  intros Hb r1 r2.
  assert (R1 : 0 <= r1 < 2 ^ 64) by (pose proof (le_int_bound _ (draw_bytes b pos 8 Hb)) as H; rewrite draw_length in H; exact H).
  assert (R2 : 0 <= r2 < 2 ^ 64) by (pose proof (le_int_bound _ (draw_bytes b (pos + 8) 8 Hb)) as H; rewrite draw_length in H; exact H).
  unfold mkgauss1. unfold get_rng_u64. fold r1. fold r2. rewrite (low63' r1 R1), (low63' r2 R2).
  assert (M1 : 0 <= r1 mod 2 ^ 63 < 2 ^ 63) by (apply Z.mod_pos_bound; reflexivity). assert (M2 : 0 <= r2 mod 2 ^ 63 < 2 ^ 63) by (apply Z.mod_pos_bound; reflexivity).
  rewrite (below (r1 mod 2 ^ 63) (gtab 0) M1 (gtab_range 0)). cbv zeta.
  assert (E : fold_left (fun '(v, f) k => let t := Z.lxor (Z.land (Z.shiftr (r2 mod 2 ^ 63 - gtab k) 63) 1) 1 in
      (Z.lor v (Z.land (Z.of_nat k) (- Z.land t (Z.lxor f 1))), Z.lor f t)) (seq 1 26) (0, if r1 mod 2 ^ 63 <? gtab 0 then 1 else 0)
    = fold_left (gstep (r2 mod 2 ^ 63)) (seq 1 26) (0, if r1 mod 2 ^ 63 <? gtab 0 then 1 else 0)) by reflexivity.
  cbv zeta in E. rewrite E.
  assert (F : exists f, fold_left (gstep (r2 mod 2 ^ 63)) (seq 1 26) (0, if r1 mod 2 ^ 63 <? gtab 0 then 1 else 0) = (magnitude (r1 mod 2 ^ 63) (r2 mod 2 ^ 63), f)).
  { unfold magnitude. destruct (r1 mod 2 ^ 63 <? gtab 0).
    - exists 1. apply gfold_done. exact M2.
    - rewrite gfold_open by exact M2. destruct (find _ _); eexists; reflexivity. }
  destruct F as [f ->].
  pose proof (magnitude_range (r1 mod 2 ^ 63) (r2 mod 2 ^ 63) ltac:(apply M2)) as HM. set (v := magnitude _ _) in *. clearbody v.
  pose proof sign_table as T. rewrite forallb_forall in T.
  assert (Hneg : Z.shiftr r1 63 = if r1 <? 2 ^ 63 then 0 else 1).
  { rewrite Z.shiftr_div_pow2 by lia. destruct (Z.ltb_spec r1 (2 ^ 63)); [apply Z.div_small; lia|]. symmetry. apply Z.div_unique with (r := r1 - 2 ^ 63); [left|]; lia. }
  rewrite Hneg. set (neg := if r1 <? 2 ^ 63 then 0 else 1).
  assert (Hin : In neg [0; 1]) by (unfold neg; destruct (r1 <? 2 ^ 63); [left|right; left]; reflexivity).
  specialize (T neg Hin). rewrite forallb_forall in T. specialize (T v). apply Z.eqb_eq in T.
  - cbv zeta in T. rewrite T. unfold neg. destruct (r1 <? 2 ^ 63); cbn [Z.eqb]; lia.
  - apply in_map_iff. exists (Z.to_nat v). split; [lia|]. apply in_seq. lia.
Qed.
(** which pairs of draws give magnitude k *)
Definition upper (k : nat) : Z := if (k =? 1)%nat then 2 ^ 63 else gtab (k - 1).
Lemma gtab_decreasing i j : (1 <= i < j)%nat -> (j <= 26)%nat -> gtab j < gtab i.
Proof.
  intros Hi Hj. assert (H : forallb (fun i => forallb (fun j => (j <=? i)%nat || (gtab j <? gtab i)) (seq 1 26)) (seq 1 26) = true) by reflexivity.
  rewrite forallb_forall in H. specialize (H i ltac:(apply in_seq; lia)). rewrite forallb_forall in H. specialize (H j ltac:(apply in_seq; lia)).
  apply orb_prop in H. destruct H as [H|H]; [apply Nat.leb_le in H; lia|lia].
Qed.
Lemma find_first (P : nat -> bool) n : forall s k, find P (seq s n) = Some k <-> (s <= k < s + n)%nat /\ P k = true /\ forall j, (s <= j < k)%nat -> P j = false.
Proof.
  induction n as [|n IH]; intros s k; cbn [seq find].
  - split; [discriminate|]. lia.
  - destruct (P s) eqn:E.
    + split.
      * intros H. injection H as <-. split; [lia|]. split; [exact E|]. lia.
      * intros (H1 & H2 & H3). f_equal. destruct (Nat.eq_dec s k); [exact e|]. specialize (H3 s ltac:(lia)). congruence.
    + rewrite IH. split; intros (H1 & H2 & H3); (split; [|split; [exact H2|]]).
      * lia.
      * intros j Hj. destruct (Nat.eq_dec j s) as [->|]; [exact E|]. apply H3. lia.
      * destruct (Nat.eq_dec k s) as [->|]; [congruence|lia].
      * intros j Hj. apply H3. lia.
Qed.
Lemma magnitude_is r1 r2 k : 0 <= r2 < 2 ^ 63 -> (1 <= k <= 26)%nat -> (magnitude r1 r2 = Z.of_nat k <-> gtab 0 <= r1 /\ gtab k <= r2 < upper k).
Proof.
  intros Hr Hk. unfold magnitude. destruct (Z.ltb_spec r1 (gtab 0)); [split; lia|].
  assert (E : match find (fun k => gtab k <=? r2) (seq 1 26) with Some k => Z.of_nat k | None => 0 end = Z.of_nat k <-> find (fun k => gtab k <=? r2) (seq 1 26) = Some k).
  { destruct (find _ _) as [k'|]; split; intros H'; try lia; try discriminate; [f_equal; lia|injection H' as ->; reflexivity]. }
  rewrite E, find_first. split.
  - intros (H1 & H2 & H3). split; [lia|]. split; [lia|]. unfold upper. destruct (Nat.eqb_spec k 1); [lia|]. specialize (H3 (k - 1)%nat ltac:(lia)). lia.
  - intros (_ & H2 & H3). split; [lia|]. split; [lia|]. intros j Hj. unfold upper in H3. destruct (Nat.eqb_spec k 1); [lia|].
    destruct (Nat.eq_dec j (k - 1)) as [->|]; [lia|]. pose proof (gtab_decreasing j (k - 1) ltac:(lia) ltac:(lia)). lia.
Qed.
Lemma magnitude_zero r1 r2 : 0 <= r2 < 2 ^ 63 -> (magnitude r1 r2 = 0 <-> r1 < gtab 0).
Proof.
  intros Hr. unfold magnitude. destruct (Z.ltb_spec r1 (gtab 0)); [split; lia|].
  assert (E : exists k, find (fun k => gtab k <=? r2) (seq 1 26) = Some k).
  { destruct (find (fun k => gtab k <=? r2) (seq 1 26)) eqn:E; [eexists; reflexivity|]. pose proof (find_none _ _ E 26%nat ltac:(apply in_seq; lia)) as H'. cbv beta in H'. change (gtab 26) with 0 in H'. apply Z.leb_gt in H'. lia. }
  destruct E as [k E]. rewrite E. apply find_first in E. destruct E as [E _]. split; lia.
Qed.
Lemma mkgauss1_range b pos : stream b -> -26 <= mkgauss1 b pos <= 26.
Proof.
  intros Hb. rewrite mkgauss1_value by exact Hb. cbv zeta. pose proof (magnitude_range (le_int (draw b pos 8) mod 2 ^ 63) (le_int (draw b (pos + 8) 8) mod 2 ^ 63) ltac:(apply Z.mod_pos_bound; reflexivity)) as H.
  set (v := magnitude _ _) in *. clearbody v. destruct (_ <? _); lia.
Qed.
Lemma mkgauss_sum b logn pos : mkgauss b logn pos =
  (sum_list (map (fun i => mkgauss1 b (pos + 16 * i)) (seq 0 (2 ^ (10 - logn)))), (pos + 16 * 2 ^ (10 - logn))%nat).
Proof.
  unfold mkgauss. f_equal. unfold sum_list. generalize (seq 0 (2 ^ (10 - logn))) as l, 0 as a. induction l as [|i l IH]; intros a; [reflexivity|]. cbn [fold_left map]. apply IH.
Qed.
Lemma mkgauss_range b logn pos : stream b -> Z.abs (fst (mkgauss b logn pos)) <= 26 * 2 ^ Z.of_nat (10 - logn).
Proof.
  intros Hb. rewrite mkgauss_sum. cbn [fst]. set (l := map _ _).
  assert (L : length l = (2 ^ (10 - logn))%nat) by (unfold l; rewrite map_length, seq_length; reflexivity).
  pose proof (sum_list_range (-26) 26 l ltac:(lia)) as S. rewrite L, Nat2Z.inj_pow in S. change (Z.of_nat 2) with 2 in S.
  assert (F : Forall (fun z => -26 <= z <= 26) l) by (apply Forall_forall; intros x Hx; apply in_map_iff in Hx; destruct Hx as (i & <- & _); apply mkgauss1_range; exact Hb).
  specialize (S F). lia.
Qed.

(** * poly_small_mkgauss *)
Lemma xor_parity m s : 0 <= m <= 1 -> 0 <= Z.lxor m (Z.land s 1) <= 1 /\ Z.lxor m (Z.land s 1) = (m + s) mod 2.
Proof.
  intros Hm. rewrite land1.
  assert (C : m = 0 \/ m = 1) by lia. pose proof (Z.mod_pos_bound s 2 ltac:(lia)).
  assert (D : s mod 2 = 0 \/ s mod 2 = 1) by lia. destruct C as [-> | ->], D as [D|D]; rewrite D.
  - split; [cbn; lia|]. change (Z.lxor 0 0) with 0. lia.
  - split; [cbn; lia|]. change (Z.lxor 0 1) with 1. lia.
  - split; [cbn; lia|]. change (Z.lxor 1 0) with 1. lia.
  - split; [cbn; lia|]. change (Z.lxor 1 1) with 0. lia.
Qed.
Lemma small_coef_ok b fuel logn last m : 0 <= m <= 1 -> forall pos s m' pos', small_coef b fuel logn last m pos = Some (s, m', pos') ->
  -127 <= s <= 127 /\ if last then (m + s) mod 2 = 1 else 0 <= m' <= 1 /\ m' = (m + s) mod 2.
Proof.
  intros Hm. induction fuel as [|fuel IH]; intros pos s m' pos' E; [discriminate|]. cbn [small_coef] in E.
  destruct (mkgauss b logn pos) as [s0 p]. destruct (Z.ltb_spec s0 (-127)); [exact (IH _ _ _ _ E)|]. destruct (Z.ltb_spec 127 s0); [exact (IH _ _ _ _ E)|]. cbn [orb] in E.
  destruct (xor_parity m s0 Hm) as [X1 X2]. destruct last.
  - destruct (Z.eqb_spec (Z.lxor m (Z.land s0 1)) 0); [exact (IH _ _ _ _ E)|]. injection E as <- <- <-. split; [lia|]. lia.
  - injection E as <- <- <-. split; [lia|]. split; [exact X1|exact X2].
Qed.
Lemma small_coefs_ok b fuel logn n : forall k u m pos l pos', (u + k = n)%nat -> 0 <= m <= 1 -> small_coefs b fuel logn n u k m pos = Some (l, pos') ->
  length l = k /\ Forall (fun c => -127 <= c <= 127) l /\ ((0 < k)%nat -> (m + sum_list l) mod 2 = 1).
Proof.
  induction k as [|k IH]; intros u m pos l pos' Hu Hm E; cbn [small_coefs] in E; [injection E as <- <-; repeat split; [constructor|lia]|].
  destruct (small_coef b fuel logn (u =? n - 1)%nat m pos) as [[[s m'] p]|] eqn:E1; [|discriminate].
  destruct (small_coefs b fuel logn n (S u) k m' p) as [[l' p']|] eqn:E2; [|discriminate]. injection E as <- <-.
  destruct (small_coef_ok _ _ _ _ _ Hm _ _ _ _ E1) as [R P]. rewrite sum_list_cons.
  destruct (Nat.eqb_spec u (n - 1)) as [Hl|Hl].
  - assert (k = 0%nat) by lia. subst k. cbn [small_coefs] in E2. injection E2 as <- <-. split; [reflexivity|]. split; [constructor; [exact R|constructor]|].
    intros _. change (sum_list []) with 0. replace (m + (s + 0)) with (m + s) by lia. exact P.
  - destruct P as [P1 P2]. destruct (IH (S u) m' p l' p' ltac:(lia) P1 E2) as (L & F & Q). split; [cbn [length]; lia|]. split; [constructor; [exact R|exact F]|].
    intros _. specialize (Q ltac:(lia)). rewrite P2 in Q. rewrite Zplus_mod_idemp_l in Q. rewrite <- Q. f_equal. lia.
Qed.
Theorem poly_small_ok b fuel n logn pos f pos' : (0 < n)%nat -> poly_small_mkgauss b fuel n logn pos = Some (f, pos') ->
  length f = n /\ Forall (fun c => -127 <= c <= 127) f /\ sum_list f mod 2 = 1.
Proof.
  intros Hn E. destruct (small_coefs_ok b fuel logn n n 0 0 pos f pos' ltac:(lia) ltac:(lia) E) as (L & F & Q). split; [exact L|]. split; [exact F|]. exact (Q Hn).
Qed.

(** * ntru_gen *)
Lemma gen_one_ok b thr fuel n logn pos f pos' : (0 < n)%nat -> gen_one b thr fuel n logn pos = Fin (Ok (f, pos')) ->
  length f = n /\ match logn with
                  | Some _ => Forall (fun c => -127 <= c <= 127) f /\ sum_list f mod 2 = 1
                  | None => Forall (fun c => -18 * Z.of_nat (4096 / n) <= c <= 19 * Z.of_nat (4096 / n)) f
                  end.
Proof.
  intros Hn E. destruct logn as [lg|]; cbn [gen_one] in E.
  - destruct (poly_small_mkgauss b fuel n lg pos) as [[f' p]|] eqn:E1; [|discriminate]. assert (f' = f) by congruence. subst f'.
    destruct (poly_small_ok _ _ _ _ _ _ _ Hn E1) as (L & F & S). auto.
  - exact (gen_poly_ok _ _ _ _ _ _ _ E).
Qed.
Theorem ntru_gen_ok b gs quotient thr k n logn inner fuel : (1 <= k <= 10)%nat -> n = (2 ^ k)%nat ->
  (forall i t f g F G c, quotient i t f g F G = Ok c -> length c = length f) ->
  forall pos f g F G, ntru_gen b gs quotient thr fuel inner n logn pos = Fin (Ok (f, g, F, G)) ->
  ntru_key n f g F G /\
  match logn with
  | Some _ => Forall (fun c => -127 <= c <= 127) (f ++ g) /\ sum_list f mod 2 = 1 /\ sum_list g mod 2 = 1
  | None => Forall (fun c => -18 * Z.of_nat (4096 / n) <= c <= 19 * Z.of_nat (4096 / n)) (f ++ g)
  end.
Proof.
  intros Hk Hn Hq. assert (Np : (0 < n)%nat) by (subst n; pose proof (Nat.pow_nonzero 2 k); lia).
  induction fuel as [|fuel IH]; intros pos f g F G E; [discriminate|]. cbn [ntru_gen] in E.
  destruct (gen_one b thr inner n logn pos) as [[[f0 p1]|e]|] eqn:E1; try discriminate.
  destruct (gen_one b thr inner n logn p1) as [[[g0 p2]|e]|] eqn:E2; try discriminate.
  destruct (negb (gs (S fuel) f0 g0)); [exact (IH _ _ _ _ _ E)|].
  destruct (existsb (fun elem => elem =? 0) (ntt f0)) eqn:EX; [exact (IH _ _ _ _ _ E)|].
  destruct (ntru_solve (quotient (S fuel)) 12 inner f0 g0) as [[[F0 G0]|e]|] eqn:E3; [|destruct e; try discriminate; exact (IH _ _ _ _ _ E)|discriminate].
  injection E as <- <- <- <-. destruct (gen_one_ok _ _ _ _ _ _ _ _ Np E1) as [Lf Bf]. destruct (gen_one_ok _ _ _ _ _ _ _ _ Np E2) as [Lg Bg].
  rewrite Hn in Lf, Lg. destruct (ntru_solve_spec (quotient (S fuel)) (Hq (S fuel)) k 12 inner f0 g0 F0 G0 Lf Lg E3) as (LF & LG & Eq).
  rewrite <- Hn in *. split.
  - repeat split; auto. apply (proj2 (unit_iff k n f0 Hk Hn Lf)). apply (proj2 (invertible_nth k Hk n Hn f0 Lf)).
    intros i Hi Z0. assert (X : existsb (fun elem => elem =? 0) (ntt f0) = true); [|congruence]. apply existsb_exists. exists 0. split; [|reflexivity].
    rewrite <- Z0. apply nth_In. rewrite (ntt_length k Hk n Hn f0 Lf). exact Hi.
  - destruct logn as [lg|].
    + destruct Bf as [Bf Sf], Bg as [Bg Sg]. split; [apply Forall_app; split; assumption|]. split; assumption.
    + apply Forall_app. split; assumption.
Qed.

(** * split and merge *)
Section SM.
Context {A : Type} (d : A).
Lemma split_lengths f : length (fst (split d f)) = (length f / 2)%nat /\ length (snd (split d f)) = (length f / 2)%nat.
Proof. unfold split. cbn [fst snd]. rewrite !map_length, seq_length. split; reflexivity. Qed.
Lemma nth_tab (g : nat -> A) n i : (i < n)%nat -> nth i (map g (seq 0 n)) d = g i.
Proof.
  intros Hi. rewrite (nth_indep _ d (g 0%nat)) by (rewrite map_length, seq_length; exact Hi). rewrite map_nth, seq_nth by exact Hi. reflexivity.
Qed.
Theorem merge_split f : Nat.even (length f) = true -> merge d (fst (split d f)) (snd (split d f)) = Ok f.
Proof.
  intros He. unfold merge. destruct (split_lengths f) as [L0 L1]. rewrite L0, L1, Nat.ltb_irrefl. f_equal.
  apply Nat.even_spec in He. destruct He as [m Hm]. assert (Hh : (length f / 2 = m)%nat) by (rewrite Hm, Nat.mul_comm; apply Nat.div_mul; lia).
  apply (nth_ext _ _ d d); [rewrite map_length, seq_length; lia|]. intros i Hi. rewrite map_length, seq_length in Hi. rewrite nth_tab by exact Hi.
  rewrite Hh in *. pose proof (Nat.div_mod i 2 ltac:(lia)) as Di. assert (i / 2 < m)%nat by (apply Nat.div_lt_upper_bound; lia).
  unfold split. cbn [fst snd]. rewrite Hh. destruct (Nat.even i) eqn:E.
  - rewrite nth_tab by exact H. f_equal. apply Nat.even_spec in E. destruct E as [j Ej]. subst i. rewrite (Nat.mul_comm 2 j), Nat.div_mul by lia. lia.
  - rewrite nth_tab by exact H. f_equal. assert (O : Nat.odd i = true) by (rewrite <- Nat.negb_even, E; reflexivity). apply Nat.odd_spec in O. destruct O as [j Ej]. subst i.
    replace ((2 * j + 1) / 2)%nat with j by (apply (Nat.div_unique _ 2 j 1); lia). reflexivity.
Qed.
Theorem split_merge f0 f1 : length f0 = length f1 -> exists f, merge d f0 f1 = Ok f /\ split d f = (f0, f1).
Proof.
  intros L. unfold merge. rewrite <- L, Nat.ltb_irrefl. eexists. split; [reflexivity|]. unfold split. rewrite map_length, seq_length.
  assert (H2 : (2 * length f0 / 2 = length f0)%nat) by (rewrite Nat.mul_comm; apply Nat.div_mul; lia). rewrite H2. f_equal.
  - apply (nth_ext _ _ d d); [rewrite map_length, seq_length; reflexivity|]. intros i Hi. rewrite map_length, seq_length in Hi. rewrite !nth_tab by lia.
    replace (Nat.even (2 * i)) with true by (symmetry; rewrite Nat.even_mul; reflexivity). f_equal. rewrite Nat.mul_comm. apply Nat.div_mul. lia.
  - apply (nth_ext _ _ d d); [rewrite map_length, seq_length; exact L|]. intros i Hi. rewrite map_length, seq_length in Hi. rewrite !nth_tab by lia.
    replace (Nat.even (2 * i + 1)) with false by (symmetry; rewrite Nat.even_add, Nat.even_mul; reflexivity). f_equal. symmetry. apply (Nat.div_unique _ 2 i 1); lia.
Qed.
End SM.
