(** Property theorems C38-C42, C44: ntrugen.py (integer arithmetic of key generation).
    [negmul n a b] is the product modulo x^n+1 of RingSpec. *)
From Verif Require Import Base HashModel RingSpec Ring NtruModel PolyProofs NtruProofs SolveProofs.

Theorem C38_karamul : forall k a b, length a = (2 ^ k)%nat -> length b = (2 ^ k)%nat ->
  karamul a b = negmul (2 ^ k) a b.
Proof. exact karamul_spec. Qed.
Print Assumptions C38_karamul.
(** the unreduced product too *)
Theorem C38_karatsuba : forall k a b, length a = (2 ^ k)%nat -> length b = (2 ^ k)%nat ->
  length (karatsuba (2 ^ k) a b (2 ^ k)) = (2 * 2 ^ k)%nat /\
  forall j, (j < 2 * 2 ^ k)%nat -> coef (karatsuba (2 ^ k) a b (2 ^ k)) j = pcoef a b j.
Proof.
  intros k a b La Lb. destruct (karatsuba_spec k (2 ^ k) a b) as [L N]; auto; [pose proof (pow2_gt k); lia|].
  split; [exact L|]. intros j Hj. unfold coef at 1. rewrite N by exact Hj. apply C_pcoef. lia.
Qed.
Print Assumptions C38_karatsuba.
Example C38_example : karamul [1; 2; 3; 4] [5; -6; 7; 8] = negmul 4 [1; 2; 3; 4] [5; -6; 7; 8] /\
  karamul [1; 2; 3; 4] [5; -6; 7; 8] = [-8; -48; -22; 24].
Proof. split; vm_compute; reflexivity. Qed.

(** The quotient oracle stands for the floating-point computation: it may return any integer
    polynomial of the right length, or raise. *)
Theorem C39_ntru_solve_equation : forall quotient,
  (forall t f g F G k, quotient t f g F G = Ok k -> length k = length f) ->
  forall k depth fuel f g F G, length f = (2 ^ k)%nat -> length g = (2 ^ k)%nat ->
  ntru_solve quotient depth fuel f g = Fin (Ok (F, G)) ->
  length F = (2 ^ k)%nat /\ length G = (2 ^ k)%nat /\
  psub (2 ^ k) (negmul (2 ^ k) f G) (negmul (2 ^ k) g F) = pconst (2 ^ k) 12289.
Proof. exact ntru_solve_spec. Qed.
Print Assumptions C39_ntru_solve_equation.
(** a run with a non-zero quotient chosen by the oracle *)
Example C39_example : exists F G,
  ntru_solve (fun t f _ _ _ => if Nat.eqb t 3 then Ok (map (fun i => Z.of_nat i - 1) (seq 0 (length f))) else Ok (repeat 0 (length f)))
    2 3 [2; 1; -1; 3] [1; 0; 4; -2] = Fin (Ok (F, G)) /\
  psub 4 (negmul 4 [2; 1; -1; 3] G) (negmul 4 [1; 0; 4; -2] F) = pconst 4 12289.
Proof. eexists. eexists. split; [vm_compute; reflexivity|vm_compute; reflexivity]. Qed.

Theorem C40_reduce : forall quotient,
  (forall t f g F G k, quotient t f g F G = Ok k -> length k = length f) ->
  forall k fuel f g F G F' G',
  length f = (2 ^ k)%nat -> length g = (2 ^ k)%nat -> length F = (2 ^ k)%nat -> length G = (2 ^ k)%nat ->
  reduce quotient fuel f g F G = Fin (Ok (F', G')) ->
  length F' = (2 ^ k)%nat /\ length G' = (2 ^ k)%nat /\
  (exists c, length c = (2 ^ k)%nat /\ F' = psub (2 ^ k) F (negmul (2 ^ k) c f) /\ G' = psub (2 ^ k) G (negmul (2 ^ k) c g)) /\
  psub (2 ^ k) (negmul (2 ^ k) f G') (negmul (2 ^ k) g F') = psub (2 ^ k) (negmul (2 ^ k) f G) (negmul (2 ^ k) g F).
Proof.
  intros quotient Hq k fuel f g F G F' G' Lf Lg LF LG E.
  assert (npos : (0 < 2 ^ k)%nat) by (apply Nat.neq_0_lt_0, Nat.pow_nonzero; lia).
  exact (reduce_spec quotient Hq k (2 ^ k) eq_refl npos fuel f g F G F' G' Lf Lg LF LG E).
Qed.
Print Assumptions C40_reduce.
Example C40_example : exists F' G',
  reduce (fun t f _ _ _ => if Nat.eqb t 2 then Ok [1; -1] else Ok [0; 0]) 2 [3; 1] [1; -2] [2 ^ 60; 5] [7; 9] = Fin (Ok (F', G')) /\
  F' <> [2 ^ 60; 5].
Proof. eexists. eexists. split; [vm_compute; reflexivity|discriminate]. Qed.

Theorem C41_xgcd : forall b n, let '(d, u, v) := xgcd b n in
  d = u * b + v * n /\ Z.abs d = Z.gcd b n /\ d = (if n =? 0 then b else Z.sgn n * Z.gcd b n).
Proof.
  intros b n. pose proof (xgcd_spec b n) as H. destruct (xgcd b n) as [[d u] v]. destruct H as [H1 H2].
  split; [exact H1|]. split; [|exact H2]. rewrite H2. destruct (Z.eqb_spec n 0) as [->|Hn].
  - rewrite Z.gcd_0_r. reflexivity.
  - rewrite Z.abs_mul. rewrite (Z.abs_eq (Z.gcd b n)) by apply Z.gcd_nonneg. destruct n; cbn [Z.sgn Z.abs]; lia.
Qed.
Print Assumptions C41_xgcd.
(** hence: in degree 0 ntru_solve raises ValueError exactly when gcd(f,g) <> 1 or g < 0 or (f,g) = (-1,0) *)
Theorem C41_ntru_solve_degree0 : forall quotient depth fuel f g,
  ntru_solve quotient depth fuel [f] [g] = Fin (Raise ValueError) <->
  Z.gcd f g <> 1 \/ g < 0 \/ (f = -1 /\ g = 0).
Proof.
  intros quotient depth fuel f g.
  assert (E : ntru_solve quotient depth fuel [f] [g] = let '(d, u, v) := xgcd f g in
     if negb (d =? 1) then Fin (Raise ValueError) else Fin (Ok ([- q * v], [q * u]))) by (destruct depth; reflexivity).
  rewrite E. pose proof (xgcd_spec f g) as H. destruct (xgcd f g) as [[d u] v]. destruct H as [_ H].
  destruct (Z.eqb_spec g 0) as [->|Hg].
  - rewrite Z.gcd_0_r. destruct (Z.eqb_spec d 1); cbn [negb]; split; intros; try discriminate; auto; lia.
  - pose proof (Z.gcd_nonneg f g). destruct (Z.eqb_spec d 1) as [Hd|Hd]; cbn [negb].
    + split; [discriminate|]. intros D. exfalso. destruct (Z.sgn_spec g) as [[? Es]|[[? Es]|[? Es]]]; rewrite Es in H; lia.
    + split; [|reflexivity]. intros _. destruct (Z.sgn_spec g) as [[? Es]|[[? Es]|[? Es]]]; rewrite Es in H; lia.
Qed.
Print Assumptions C41_ntru_solve_degree0.
(** ... so a solvable instance is refused: 1*G - (-1)*F = q has a solution *)
Theorem C41_solvable_refused_refuted : exists f g F G,
  psub 1 (negmul 1 [f] [G]) (negmul 1 [g] [F]) = pconst 1 12289 /\
  forall quotient depth fuel, ntru_solve quotient depth fuel [f] [g] = Fin (Raise ValueError).
Proof.
  exists 1, (-1), 12289, 0. split; [reflexivity|]. intros. apply C41_ntru_solve_degree0. right. left. lia.
Qed.
Print Assumptions C41_solvable_refused_refuted.

Theorem C42_field_norm : forall k a, length a = (2 ^ S k)%nat ->
  length (field_norm a) = (2 ^ k)%nat /\
  lift (field_norm a) = negmul (2 ^ S k) a (galois_conjugate a).
Proof.
  intros k a La. assert (hpos : (0 < 2 ^ k)%nat) by (apply Nat.neq_0_lt_0, Nat.pow_nonzero; lia).
  assert (npos : (0 < 2 ^ S k)%nat) by (cbn [Nat.pow]; lia).
  destruct (field_norm_spec k (2 ^ k) (2 ^ S k) eq_refl hpos eq_refl npos a La) as [L _]. split; [exact L|].
  destruct (lift_spec k (2 ^ k) (2 ^ S k) eq_refl hpos eq_refl npos _ L) as [L2 R2].
  apply (list_eq_req (2 ^ S k)); [exact L2|apply negmul_length|].
  rewrite (R2 0), fl_mul_req by (rewrite ?galois_length; lia).
  exact (norm_identity k (2 ^ k) (2 ^ S k) eq_refl hpos eq_refl npos 0 a La).
Qed.
Print Assumptions C42_field_norm.
(** galois_conjugate is a(-x), lift is a(x^2) *)
Theorem C42_galois_and_lift_coefficients : forall a,
  length (galois_conjugate a) = length a /\
  (forall i, (i < length a)%nat -> coef (galois_conjugate a) i = (-1) ^ Z.of_nat i * coef a i).
Proof.
  intros a. split; [apply galois_length|]. intros i Hi. unfold galois_conjugate, coef. now apply tab_nth.
Qed.
Print Assumptions C42_galois_and_lift_coefficients.
Theorem C42_lift_coefficients : forall k a, length a = (2 ^ k)%nat ->
  length (lift a) = (2 * 2 ^ k)%nat /\
  forall i, (i < 2 ^ k)%nat -> coef (lift a) (2 * i) = coef a i /\ coef (lift a) (2 * i + 1) = 0.
Proof.
  intros k a La. assert (hpos : (0 < 2 ^ k)%nat) by (apply Nat.neq_0_lt_0, Nat.pow_nonzero; lia).
  destruct (lift_spec k (2 ^ k) (2 * 2 ^ k) eq_refl hpos eq_refl ltac:(lia) a La) as [L R]. split; [exact L|].
  intros i Hi. pose proof (proj1 (req0_iff _ _ _) (R 0)) as E. split.
  - specialize (E (Z.of_nat (2 * i)) ltac:(lia)). unfold fl, Lf in E. rewrite Nat2Z.id in E. rewrite E.
    replace (Z.of_nat (2 * i)) with (2 * Z.of_nat i) by lia. rewrite Z.even_mul. cbn [Z.even orb].
    rewrite Z.mul_comm, Z.div_mul, Nat2Z.id by lia. reflexivity.
  - specialize (E (Z.of_nat (2 * i + 1)) ltac:(lia)). unfold fl, Lf in E. rewrite Nat2Z.id in E. rewrite E.
    replace (Z.of_nat (2 * i + 1)) with (2 * Z.of_nat i + 1) by lia. rewrite Z.even_add, Z.even_mul. reflexivity.
Qed.
Print Assumptions C42_lift_coefficients.
Example C42_example : length [1; 2; 3; 4] = (2 ^ 2)%nat /\ field_norm [1; 2; 3; 4] = [8; 18].
Proof. split; vm_compute; reflexivity. Qed.

(** the bit length of |a| is 0 for 0 and log2|a| + 1 otherwise *)
Theorem C44_bitsize : forall a,
  let bitlen := if a =? 0 then 0 else Z.log2 (Z.abs a) + 1 in
  (8 | bitsize a) /\ bitlen <= bitsize a /\ forall r, (8 | r) -> bitlen <= r -> bitsize a <= r.
Proof.
  intros a bitlen. assert (Eb : bitlen = if a =? 0 then 0 else Z.log2 (Z.abs a) + 1) by reflexivity. clearbody bitlen.
  destruct (bitsize_spec a) as (k & Hk & E & B1 & B2). rewrite E. split; [exists k; ring|].
  assert (Hb : bitlen <= 8 * k /\ (k = 0 \/ 8 * (k - 1) < bitlen)).
  { rewrite Eb. destruct (Z.eqb_spec a 0) as [->|Hn].
    - split; [lia|]. destruct B2 as [->|B2]; [auto|]. change (Z.abs 0) with 0 in B2.
      destruct (Z.eq_dec k 0); [auto|]. pose proof (Z.pow_pos_nonneg 2 (8 * (k - 1)) ltac:(lia) ltac:(lia)). lia.
    - assert (Ha : 0 < Z.abs a) by lia. split.
      + apply Z.log2_lt_pow2 in B1; lia.
      + destruct B2 as [B2|B2]; [auto|]. destruct (Z.eq_dec k 0); [auto|]. right. apply Z.log2_le_pow2 in B2; lia. }
  assert (0 <= bitlen) by (rewrite Eb; pose proof (Z.log2_nonneg (Z.abs a)); destruct (a =? 0); lia).
  split; [lia|]. intros r [c ->] Hr. lia.
Qed.
Print Assumptions C44_bitsize.
Example C44_example : bitsize (-256) = 16 /\ bitsize 255 = 8 /\ bitsize 0 = 0.
Proof. repeat split; vm_compute; reflexivity. Qed.
