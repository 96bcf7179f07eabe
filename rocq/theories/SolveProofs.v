(** ntrugen.py: bitsize, xgcd, reduce, ntru_solve. *)
From Verif Require Import Base KeccakModel HashModel RingSpec Ring NtruModel ChachaProofs PolyProofs NtruProofs.
Require Import Coq.setoid_ring.Ring Setoid Morphisms.

(** ** bitsize *)
Lemma bitsize_loop_spec : forall fuel val res, 0 <= val -> val < 2 ^ (8 * Z.of_nat fuel) -> 0 <= res ->
  exists k, bitsize_loop fuel val res = res + 8 * Z.of_nat k /\ val < 2 ^ (8 * Z.of_nat k) /\
            (k = 0%nat \/ 2 ^ (8 * (Z.of_nat k - 1)) <= val).
Proof.
  induction fuel as [|fuel IH]; intros val res Hv Hb Hr.
  - change (2 ^ (8 * Z.of_nat 0)) with 1 in Hb. assert (val = 0) by lia. subst. exists 0%nat. cbn. split; [ring|]. split; [lia|auto].
  - cbn [bitsize_loop]. destruct (Z.eqb_spec val 0) as [->|Hn].
    + exists 0%nat. cbn. split; [ring|]. split; [lia|auto].
    + rewrite Z.shiftr_div_pow2 by lia. change (2 ^ 8) with 256.
      destruct (IH (val / 256) (res + 8)) as (k & E & B1 & B2).
      * apply Z.div_pos; lia.
      * apply Z.div_lt_upper_bound; [lia|]. replace (8 * Z.of_nat (S fuel)) with (8 + 8 * Z.of_nat fuel) in Hb by lia.
        rewrite Z.pow_add_r in Hb by lia. exact Hb.
      * lia.
      * exists (S k). rewrite E. split; [lia|].
        assert (E2 : 2 ^ (8 * Z.of_nat (S k)) = 256 * 2 ^ (8 * Z.of_nat k)).
        { replace (8 * Z.of_nat (S k)) with (8 + 8 * Z.of_nat k) by lia. rewrite Z.pow_add_r by lia. reflexivity. }
        split.
        -- rewrite E2. apply Z.nle_gt. intros C. pose proof (Z.div_le_lower_bound val 256 (2 ^ (8 * Z.of_nat k)) ltac:(lia) C). lia.
        -- right. replace (Z.of_nat (S k) - 1) with (Z.of_nat k) by lia. destruct B2 as [->|B2].
           ++ change (2 ^ (8 * Z.of_nat 0)) with 1. lia.
           ++ destruct k as [|k]; [change (2 ^ (8 * Z.of_nat 0)) with 1; lia|].
              replace (8 * Z.of_nat (S k)) with (8 + 8 * (Z.of_nat (S k) - 1)) by lia. rewrite Z.pow_add_r by lia.
              change (2 ^ 8) with 256. pose proof (Z.mul_div_le val 256 ltac:(lia)). lia.
Qed.
Theorem bitsize_spec a : exists k, 0 <= k /\ bitsize a = 8 * k /\ Z.abs a < 2 ^ (8 * k) /\ (k = 0 \/ 2 ^ (8 * (k - 1)) <= Z.abs a).
Proof.
  unfold bitsize. destruct (bitsize_loop_spec (S (Z.to_nat (Z.log2 (Z.abs a)))) (Z.abs a) 0) as (k & E & B1 & B2); try lia.
  - destruct (Z.eq_dec (Z.abs a) 0) as [->|]; [apply Z.pow_pos_nonneg; lia|].
    pose proof (Z.log2_spec (Z.abs a) ltac:(lia)) as [_ L]. eapply Z.lt_le_trans; [exact L|].
    apply Z.pow_le_mono_r; [lia|]. pose proof (Z.log2_nonneg (Z.abs a)). lia.
  - exists (Z.of_nat k). split; [lia|]. split; [exact E|]. split; [exact B1|]. destruct B2; [left; lia|auto].
Qed.

(** ** xgcd *)
Lemma xgcd_loop_spec B N : forall t fuel b n x0 x1 y0 y1, (2 * t <= fuel)%nat -> Z.abs n < 2 ^ Z.of_nat t ->
  b = x0 * B + y0 * N -> n = x1 * B + y1 * N ->
  let '(d, u, v) := xgcd_loop fuel b n x0 x1 y0 y1 in
  d = u * B + v * N /\ d = (if n =? 0 then b else Z.sgn n * Z.gcd b n).
Proof.
  induction t as [|t IH]; intros fuel b n x0 x1 y0 y1 Hf Hn Hb Hc.
  - change (2 ^ Z.of_nat 0) with 1 in Hn. assert (En : n = 0) by lia. rewrite En.
    destruct fuel; cbn [xgcd_loop Z.eqb]; auto.
  - destruct fuel as [|[|fuel]]; [lia|lia|]. cbn [xgcd_loop].
    destruct (Z.eqb_spec n 0) as [En|Hn0]; [auto|].
    destruct (Z.eqb_spec (b mod n) 0) as [Em|Hm0].
    + split; [exact Hc|]. rewrite Z.gcd_comm, <- (Z.gcd_mod b n) by auto. rewrite Em, Z.gcd_0_l. rewrite Z.abs_sgn || idtac. lia.
    + set (n1 := b mod n) in *. set (n2 := n mod n1).
      assert (E1 : b = n * (b / n) + n1) by (apply Z.div_mod; auto).
      assert (E2 : n = n1 * (n / n1) + n2) by (apply Z.div_mod; auto).
      assert (S1 : (0 < n /\ 0 < n1 < n) \/ (n < 0 /\ n < n1 < 0)).
      { destruct (Z_lt_ge_dec 0 n).
        - left. pose proof (Z.mod_pos_bound b n ltac:(lia)). unfold n1 in *. lia.
        - right. pose proof (Z.mod_neg_bound b n ltac:(lia)). unfold n1 in *. lia. }
      assert (S2 : (0 < n /\ 0 <= n2 < n1) \/ (n < 0 /\ n1 < n2 <= 0)).
      { destruct S1 as [[S S1]|[S S1]].
        - left. pose proof (Z.mod_pos_bound n n1 ltac:(lia)). unfold n2. lia.
        - right. pose proof (Z.mod_neg_bound n n1 ltac:(lia)). unfold n2. lia. }
      assert (Q1 : 1 <= n / n1) by (clearbody n2; set (qq := n / n1) in *; nia).
      assert (Hh : Z.abs n2 < 2 ^ Z.of_nat t).
      { rewrite Nat2Z.inj_succ, Z.pow_succ_r in Hn by lia. assert (2 * Z.abs n2 < Z.abs n); [|lia].
        clearbody n1 n2. set (qq := n / n1) in *. clearbody qq. nia. }
      specialize (IH fuel n1 n2 (x0 - b / n * x1) (x1 - n / n1 * (x0 - b / n * x1)) (y0 - b / n * y1) (y1 - n / n1 * (y0 - b / n * y1))).
      destruct (xgcd_loop fuel n1 n2 _ _ _ _) as [[d u] v].
      assert (C1 : n1 = (x0 - b / n * x1) * B + (y0 - b / n * y1) * N).
      { replace n1 with (b - n * (b / n)) by lia. rewrite Hb at 1. rewrite Hc at 1. ring. }
      destruct IH as [I1 I2]; [lia|exact Hh|exact C1| |].
      { replace n2 with (n - n1 * (n / n1)) by lia. rewrite C1 at 1. rewrite Hc at 1. ring. }
      split; [exact I1|]. rewrite I2.
      assert (G1 : Z.gcd b n = Z.gcd n n1) by (unfold n1; rewrite (Z.gcd_comm n), Z.gcd_mod by auto; apply Z.gcd_comm).
      assert (G2 : Z.gcd n n1 = Z.gcd n1 n2) by (unfold n2; rewrite (Z.gcd_comm n1 (n mod n1)), Z.gcd_mod by auto; apply Z.gcd_comm).
      rewrite G1, G2. destruct (Z.eqb_spec n2 0) as [Z2|Z2].
      * rewrite Z2, Z.gcd_0_r. lia.
      * replace (Z.sgn n) with (Z.sgn n2) by lia. reflexivity.
Qed.
Theorem xgcd_spec b n : let '(d, u, v) := xgcd b n in
  d = u * b + v * n /\ d = (if n =? 0 then b else Z.sgn n * Z.gcd b n).
Proof.
  unfold xgcd.
  assert (L : 0 <= Z.log2 (Z.abs n)) by apply Z.log2_nonneg.
  apply (xgcd_loop_spec b n (S (Z.to_nat (Z.log2 (Z.abs n))))); [lia| |ring|ring].
  destruct (Z.eq_dec (Z.abs n) 0) as [->|]; [apply Z.pow_pos_nonneg; lia|].
  rewrite Nat2Z.inj_succ, Z2Nat.id by lia. apply Z.log2_spec. lia.
Qed.

(** ** reduce *)
Lemma fold_sub_spec n L s l : length l = n -> 
  length (fold_left (fun l i => add_at l i (- Z.shiftl (nth i L 0) s)) (seq 0 n) l) = n /\
  forall j, nth j (fold_left (fun l i => add_at l i (- Z.shiftl (nth i L 0) s)) (seq 0 n) l) 0 =
            if (j <? n)%nat then nth j l 0 - Z.shiftl (nth j L 0) s else 0.
Proof.
  intros Ll. destruct (fold_add_spec (fun l i => add_at l i (- Z.shiftl (nth i L 0) s)) n
    (fun i j => if (j =? i)%nat then - Z.shiftl (nth i L 0) s else 0) n) with (l := l) as [L1 N1];
   [intros; now rewrite add_at_length|intros; apply nth_add_at; lia|exact Ll|].
  split; [exact L1|]. intros j. destruct (Nat.ltb_spec j n).
  - rewrite N1, sum_delta0. destruct (Nat.ltb_spec j n); [ring|lia].
  - apply nth_overflow. lia.
Qed.

Section Reduce.
Variable quotient : nat -> list Z -> list Z -> list Z -> list Z -> res (list Z).
Hypothesis quotient_len : forall t f g F G k, quotient t f g F G = Ok k -> length k = length f.
Variable e : nat.
Variable n : nat.
Hypothesis ndef : n = (2 ^ e)%nat.
Hypothesis npos : (0 < n)%nat.
Local Instance rmulP0 : Proper (req n 0 ==> req n 0 ==> req n 0) (rmul n) := rmul_proper n npos 0.
Add Ring Rn0 : (r_theory n npos 0) (setoid (req_equiv n 0) (r_ext n npos 0)).

Definition scale (c : Z) (l : list Z) : list Z := map (fun x => c * x) l.
Lemma nth_scale c l i : nth i (scale c l) 0 = c * nth i l 0.
Proof. unfold scale. replace 0 with (c * 0) at 1 by ring. apply map_nth. Qed.
Lemma scale_req c l : req n 0 (fl (scale c l)) (rmul n (rc c) (fl l)).
Proof. apply req_eq. intros i Hi. rewrite rmul_rc_eq by auto. unfold fl, coef. apply nth_scale. Qed.

(** one update: F - (f*k << s) *)
Lemma update_req f k F s : length f = n -> length k = n -> length F = n -> 0 <= s ->
  let F' := fold_left (fun l i => add_at l i (- Z.shiftl (nth i (karamul f k) 0) s)) (seq 0 n) F in
  length F' = n /\ req n 0 (fl F') (rsub (fl F) (rmul n (rmul n (rc (2 ^ s)) (fl k)) (fl f))).
Proof.
  intros Lf Lk LF Hs. cbv zeta. destruct (fold_sub_spec n (karamul f k) s F LF) as [L1 N1]. split; [exact L1|].
  assert (E : req n 0 (rmul n (rmul n (rc (2 ^ s)) (fl k)) (fl f)) (rmul n (rc (2 ^ s)) (rmul n (fl f) (fl k)))) by ring.
  rewrite E. apply req0_iff. intros i Hi. unfold fl at 1, coef. rewrite N1.
  destruct (Nat.ltb_spec (Z.to_nat i) n); [|lia]. unfold rsub. rewrite rmul_rc_eq by auto.
  rewrite (karamul_spec e) by congruence. rewrite <- ndef. rewrite Z.shiftl_mul_pow2 by auto.
  change (nth (Z.to_nat i) (negmul n f k) 0) with (fl (negmul n f k) i). rewrite fl_negmul by lia.
  unfold fl, coef. ring.
Qed.

Lemma max_size_ge f g : 53 <= max_size f g.
Proof. unfold max_size. lia. Qed.

Lemma adjust_length s l : length (adjust s l) = length l.
Proof. apply map_length. Qed.

Lemma reduce_loop_spec : forall fuel size f g F G F' G', length f = n -> length g = n -> length F = n -> length G = n ->
  reduce_loop quotient fuel size f g F G = Fin (Ok (F', G')) ->
  length F' = n /\ length G' = n /\ exists k, length k = n /\
    req n 0 (fl F') (rsub (fl F) (rmul n (fl k) (fl f))) /\ req n 0 (fl G') (rsub (fl G) (rmul n (fl k) (fl g))).
Proof.
  assert (Z0 : forall (F f : list Z), req n 0 (fl F) (rsub (fl F) (rmul n (fl (repeat 0 n)) (fl f)))).
  { intros F f. assert (E : req n 0 (fl (repeat 0 n)) r0) by (apply req_eq; intros i Hi; unfold fl, coef, r0; apply nth_repeat).
    rewrite E. ring. }
  assert (D : forall F G, length F = n -> length G = n -> forall f g, length F = n /\ length G = n /\ exists k, length k = n /\
    req n 0 (fl F) (rsub (fl F) (rmul n (fl k) (fl f))) /\ req n 0 (fl G) (rsub (fl G) (rmul n (fl k) (fl g)))).
  { intros F G LF LG f g. split; [exact LF|]. split; [exact LG|]. exists (repeat 0 n). split; [apply repeat_length|]. split; apply Z0. }
  induction fuel as [|fuel IH]; intros size f g F G F' G' Lf Lg LF LG; cbn [reduce_loop]; cbv zeta.
  - destruct (max_size F G <? size) eqn:Es; [|discriminate]. intros E. assert (F' = F /\ G' = G) as [-> ->] by (split; congruence).
    now apply D.
  - destruct (Z.ltb_spec (max_size F G) size) as [Es|Es]; intros E.
    { assert (F' = F /\ G' = G) as [-> ->] by (split; congruence). now apply D. }
    destruct (quotient (S fuel) _ _ _ _) as [k|x] eqn:Eq; [|discriminate].
    apply quotient_len in Eq. rewrite adjust_length in Eq.
    destruct (forallb (fun x => x =? 0) k). { assert (F' = F /\ G' = G) as [-> ->] by (split; congruence). now apply D. }
    rewrite Lf in E, Eq.
    destruct (update_req f k F (max_size F G - size) Lf Eq LF ltac:(lia)) as [L1 R1].
    destruct (update_req g k G (max_size F G - size) Lg Eq LG ltac:(lia)) as [L2 R2].
    destruct (IH _ _ _ _ _ _ _ Lf Lg L1 L2 E) as (L3 & L4 & k2 & Lk2 & R3 & R4).
    split; [exact L3|]. split; [exact L4|].
    set (c := scale (2 ^ (max_size F G - size)) k). assert (Lc : length c = n) by (unfold c, scale; now rewrite map_length).
    exists (padd n c k2). split; [apply padd_length|]. rewrite R3, R4, R1, R2, (padd_req n 0 c k2). unfold c.
    rewrite (scale_req (2 ^ (max_size F G - size)) k). split; ring.
Qed.

Theorem reduce_spec fuel f g F G F' G' : length f = n -> length g = n -> length F = n -> length G = n ->
  reduce quotient fuel f g F G = Fin (Ok (F', G')) ->
  length F' = n /\ length G' = n /\
  (exists k, length k = n /\ F' = psub n F (negmul n k f) /\ G' = psub n G (negmul n k g)) /\
  psub n (negmul n f G') (negmul n g F') = psub n (negmul n f G) (negmul n g F).
Proof.
  intros Lf Lg LF LG E. unfold reduce in E. destruct (reduce_loop_spec _ _ _ _ _ _ _ _ Lf Lg LF LG E) as (L1 & L2 & k & Lk & R1 & R2).
  split; [exact L1|]. split; [exact L2|]. split.
  - exists k. split; [exact Lk|]. split; apply (list_eq_req n); auto using psub_length;
      rewrite psub_req, fl_mul_req by lia; assumption.
  - apply (list_eq_req n); auto using psub_length. rewrite !psub_req, !fl_mul_req by lia. rewrite R1, R2. ring.
Qed.
End Reduce.

(** ** ntru_solve *)
Section Solve.
Variable quotient : nat -> list Z -> list Z -> list Z -> list Z -> res (list Z).
Hypothesis quotient_len : forall t f g F G k, quotient t f g F G = Ok k -> length k = length f.

Lemma solve_step (k h n : nat) f g Fp Gp : h = (2 ^ k)%nat -> n = (2 * h)%nat -> (0 < h)%nat ->
  length f = n -> length g = n -> length Fp = h -> length Gp = h ->
  psub h (negmul h (field_norm f) Gp) (negmul h (field_norm g) Fp) = pconst h q ->
  let F := karamul (lift Fp) (galois_conjugate g) in
  let G := karamul (lift Gp) (galois_conjugate f) in
  length F = n /\ length G = n /\ psub n (negmul n f G) (negmul n g F) = pconst n q.
Proof.
  intros Hh Hn hpos Hf Hg LF LG E. cbv zeta. assert (npos : (0 < n)%nat) by lia.
  assert (Hn2 : n = (2 ^ S k)%nat) by (cbn [Nat.pow]; lia).
  destruct (lift_spec k h n Hh hpos Hn npos Fp LF) as [L1 R1]. destruct (lift_spec k h n Hh hpos Hn npos Gp LG) as [L2 R2].
  destruct (field_norm_spec k h n Hh hpos Hn npos f Hf) as [L3 _]. destruct (field_norm_spec k h n Hh hpos Hn npos g Hg) as [L4 _].
  assert (Lcf : length (galois_conjugate f) = n) by (now rewrite galois_length).
  assert (Lcg : length (galois_conjugate g) = n) by (now rewrite galois_length).
  rewrite !(karamul_spec (S k)) by congruence. rewrite <- Hn2.
  split; [apply negmul_length|]. split; [apply negmul_length|].
  apply (list_eq_req n); [apply psub_length|now apply pconst_length|].
  assert (S0 : req h 0 (rsub (rmul h (fl (field_norm f)) (fl Gp)) (rmul h (fl (field_norm g)) (fl Fp))) (rc q)).
  { rewrite <- (fl_pconst h 0 q hpos), <- E. rewrite psub_req, !fl_mul_req by lia. reflexivity. }
  apply (Lf_req h 0) in S0. rewrite <- Hn in S0.
  pose proof (norm_identity k h n Hh hpos Hn npos 0 f Hf) as Nf. pose proof (norm_identity k h n Hh hpos Hn npos 0 g Hg) as Ng.
  set (PR := rmul_proper n npos 0 : Proper (req n 0 ==> req n 0 ==> req n 0) (rmul n)).
  rewrite (fl_pconst n 0 q npos). rewrite psub_req, !fl_mul_req by (rewrite ?negmul_length; lia).
  rewrite (R1 0), (R2 0).
  assert (T : req n 0 (rc q) (rsub (rmul n (rmul n (fl f) (fl (galois_conjugate f))) (Lf (fl Gp))) (rmul n (rmul n (fl g) (fl (galois_conjugate g))) (Lf (fl Fp))))).
  { rewrite <- Nf, <- Ng.
    assert (M : forall A B, req n 0 (rmul n (Lf A) (Lf B)) (Lf (rmul h A B))) by (intros; rewrite Hn; now apply Lf_mul_req).
    rewrite !M. assert (Eq : req n 0 (Lf (rc q)) (rc q)) by (rewrite Hn; apply Lf_rc).
    assert (E1 : req n 0 (rsub (Lf (rmul h (fl (field_norm f)) (fl Gp))) (Lf (rmul h (fl (field_norm g)) (fl Fp)))) (Lf (rc q))).
    { rewrite <- S0. rewrite Hn. symmetry. apply Lf_sub. }
    rewrite E1. symmetry. exact Eq. }
  rewrite T. apply req0_iff. intros i Hi. unfold rsub.
  f_equal; rewrite <- rmul_assoc_eq by auto; apply (proj1 (req0_iff n _ _)); auto; apply rmul_req; auto; try reflexivity;
    apply req_eq; intros; apply rmul_comm_eq; auto.
Qed.

Theorem ntru_solve_spec : forall k depth fuel f g F G, length f = (2 ^ k)%nat -> length g = (2 ^ k)%nat ->
  ntru_solve quotient depth fuel f g = Fin (Ok (F, G)) ->
  length F = (2 ^ k)%nat /\ length G = (2 ^ k)%nat /\
  psub (2 ^ k) (negmul (2 ^ k) f G) (negmul (2 ^ k) g F) = pconst (2 ^ k) q.
Proof.
  induction k as [|k IH]; intros depth fuel f g F G Lf Lg E.
  - assert (E' : (let '(d, u, v) := xgcd (nth 0 f 0) (nth 0 g 0) in
      if negb (d =? 1) then Fin (Raise ValueError) else Fin (Ok ([- q * v], [q * u]))) = Fin (Ok (F, G)))
      by (destruct depth; cbn [ntru_solve] in E; rewrite Lf in E; exact E). clear E.
    pose proof (xgcd_spec (nth 0 f 0) (nth 0 g 0)) as X. destruct (xgcd (nth 0 f 0) (nth 0 g 0)) as [[d u] v].
    destruct X as [X _]. destruct (Z.eqb_spec d 1) as [->|]; cbn [negb] in E'; [|discriminate].
    assert (F = [- q * v] /\ G = [q * u]) as [-> ->] by (split; congruence).
    destruct f as [|f0 [|]]; try discriminate Lf. destruct g as [|g0 [|]]; try discriminate Lg. cbn [nth] in X.
    split; [reflexivity|]. split; [reflexivity|].
    change (2 ^ 0)%nat with 1%nat. unfold psub, negmul, pconst, pcoef, coef. cbn [seq map sum_to nth repeat Nat.sub plus].
    f_equal. transitivity (q * (u * f0 + v * g0)); [ring|]. rewrite <- X. ring.
  - assert (hpos : (0 < 2 ^ k)%nat) by (apply Nat.neq_0_lt_0, Nat.pow_nonzero; lia).
    destruct depth as [|depth]; cbn [ntru_solve] in E; rewrite Lf in E; destruct (Nat.eqb_spec (2 ^ S k) 1) as [Ebad|_];
      try (cbn [Nat.pow] in Ebad; lia); [discriminate|].
    destruct (ntru_solve quotient depth fuel (field_norm f) (field_norm g)) as [[[Fp Gp]|x]|] eqn:Er; try discriminate.
    assert (npos : (0 < 2 ^ S k)%nat) by (cbn [Nat.pow]; lia).
    destruct (field_norm_spec k (2 ^ k) (2 ^ S k) eq_refl hpos eq_refl npos f Lf) as [L3 _].
    destruct (field_norm_spec k (2 ^ k) (2 ^ S k) eq_refl hpos eq_refl npos g Lg) as [L4 _].
    destruct (IH depth fuel _ _ _ _ L3 L4 Er) as (LFp & LGp & Ep).
    destruct (solve_step k (2 ^ k) (2 ^ S k) f g Fp Gp eq_refl eq_refl hpos Lf Lg LFp LGp Ep) as (LF & LG & E3).
    destruct (reduce_spec quotient quotient_len (S k) (2 ^ S k) eq_refl npos fuel f g _ _ F G Lf Lg LF LG E) as (L1 & L2 & _ & E4).
    split; [exact L1|]. split; [exact L2|]. rewrite E4. exact E3.
Qed.
End Solve.
