(** The integer sampler of the C code against the models of the Python one. *)
From Coq Require Import Reals Lra.
From Verif Require Import Base HashModel SamplerModel SamplerProofs FprModel FprSpec FprBits FprRound FprMul FprAdd FprConv CSamplerModel.
Open Scope Z_scope.

(** * The base sampler *)
Lemma borrow3 v0 v1 v2 w0 w1 w2 : 0 <= v0 < 2 ^ 24 -> 0 <= v1 < 2 ^ 24 -> 0 <= v2 < 2 ^ 24 -> 0 <= w0 < 2 ^ 24 -> 0 <= w1 < 2 ^ 24 -> 0 <= w2 < 2 ^ 24 ->
  Z.shiftr (w32 (v2 - w2 - Z.shiftr (w32 (v1 - w1 - Z.shiftr (w32 (v0 - w0)) 31)) 31)) 31 =
  if v0 + 2 ^ 24 * v1 + 2 ^ 48 * v2 <? w0 + 2 ^ 24 * w1 + 2 ^ 48 * w2 then 1 else 0.
Proof.
  intros. rewrite (neg32 (v0 - w0)) by lia.
  set (c0 := if v0 - w0 <? 0 then 1 else 0). assert (B0 : c0 = 1 /\ v0 < w0 \/ c0 = 0 /\ w0 <= v0) by (unfold c0; destruct (Z.ltb_spec (v0 - w0) 0); lia). clearbody c0.
  rewrite (neg32 (v1 - w1 - c0)) by lia.
  set (c1 := if v1 - w1 - c0 <? 0 then 1 else 0). assert (B1 : c1 = 1 /\ v1 - c0 < w1 \/ c1 = 0 /\ w1 <= v1 - c0) by (unfold c1; destruct (Z.ltb_spec (v1 - w1 - c0) 0); lia). clearbody c1.
  rewrite (neg32 (v2 - w2 - c1)) by lia.
  destruct (Z.ltb_spec (v2 - w2 - c1) 0), (Z.ltb_spec (v0 + 2 ^ 24 * v1 + 2 ^ 48 * v2) (w0 + 2 ^ 24 * w1 + 2 ^ 48 * w2)); try reflexivity; exfalso; lia.
Qed.
Lemma dist_rows : map (fun '(w2, w1, w0) => w0 + 2 ^ 24 * w1 + 2 ^ 48 * w2) c_dist = RCDT /\
  forallb (fun '(w2, w1, w0) => (0 <=? w0) && (w0 <? 2 ^ 24) && (0 <=? w1) && (w1 <? 2 ^ 24) && (0 <=? w2) && (w2 <? 2 ^ 24)) c_dist = true.
Proof. split; vm_compute; reflexivity. Qed.
Lemma limbs24 lo hi : 0 <= lo < 2 ^ 64 -> 0 <= hi < 256 ->
  let v0 := Z.land (w32 lo) 0xFFFFFF in let v1 := Z.land (w32 (Z.shiftr lo 24)) 0xFFFFFF in let v2 := Z.lor (w32 (Z.shiftr lo 48)) (w32 (Z.shiftl hi 16)) in
  0 <= v0 < 2 ^ 24 /\ 0 <= v1 < 2 ^ 24 /\ 0 <= v2 < 2 ^ 24 /\ v0 + 2 ^ 24 * v1 + 2 ^ 48 * v2 = lo + 2 ^ 64 * hi.
Proof.
  intros Hl Hh v0 v1 v2. unfold v0, v1, v2. change 0xFFFFFF with (2 ^ 24 - 1). rewrite !land_low, !shiftr_div, shiftl_mul by lia. unfold w32.
  assert (M : forall x, (x mod 2 ^ 32) mod 2 ^ 24 = x mod 2 ^ 24).
  { intros x. symmetry. apply Z.mod_unique_pos with (q := x / 2 ^ 24 - 256 * (x / 2 ^ 32)); [apply Z.mod_pos_bound; lia|]. pose proof (Z.div_mod x (2 ^ 32) ltac:(lia)). pose proof (Z.div_mod x (2 ^ 24) ltac:(lia)).
    pose proof (Z.div_mod (x mod 2 ^ 32) (2 ^ 24) ltac:(lia)). pose proof (Z.mod_pos_bound x (2 ^ 32) ltac:(lia)). pose proof (Z.mod_pos_bound x (2 ^ 24) ltac:(lia)). lia. }
  rewrite !M. assert (D48 : 0 <= lo / 2 ^ 48 < 2 ^ 16) by (split; [apply Z.div_pos; lia | apply Z.div_lt_upper_bound; lia]).
  rewrite (Z.mod_small (lo / 2 ^ 48)), (Z.mod_small (hi * 2 ^ 16)) by lia. rewrite Z.lor_comm, lor_add by lia.
  assert (E : lo / 2 ^ 24 / 2 ^ 24 = lo / 2 ^ 48) by (rewrite Z.div_div by lia; reflexivity).
  pose proof (Z.div_mod lo (2 ^ 24) ltac:(lia)). pose proof (Z.div_mod (lo / 2 ^ 24) (2 ^ 24) ltac:(lia)). rewrite E in *.
  pose proof (Z.mod_pos_bound lo (2 ^ 24) ltac:(lia)). pose proof (Z.mod_pos_bound (lo / 2 ^ 24) (2 ^ 24) ltac:(lia)).
  set (d := lo / 2 ^ 48) in *. set (m0 := lo mod 2 ^ 24) in *. set (m1 := (lo / 2 ^ 24) mod 2 ^ 24) in *. set (q := lo / 2 ^ 24) in *. clearbody d m0 m1 q. lia.
Qed.
Theorem gaussian0_cnt lo hi : 0 <= lo < 2 ^ 64 -> 0 <= hi < 256 -> gaussian0_of lo hi = cnt (lo + 2 ^ 64 * hi) RCDT.
Proof.
  intros Hl Hh. destruct (limbs24 lo hi Hl Hh) as (B0 & B1 & B2 & E). unfold gaussian0_of. cbv zeta. rewrite <- cnt_eq.
  set (v0 := Z.land (w32 lo) 0xFFFFFF) in *. set (v1 := Z.land (w32 (Z.shiftr lo 24)) 0xFFFFFF) in *. set (v2 := Z.lor (w32 (Z.shiftr lo 48)) (w32 (Z.shiftl hi 16))) in *. rewrite <- E. clearbody v0 v1 v2. destruct dist_rows as [<- F].
  match goal with |- fold_left ?f _ 0 = fold_left ?g _ 0 => enough (Gen : forall L a, forallb (fun '(w2, w1, w0) => (0 <=? w0) && (w0 <? 2 ^ 24) && (0 <=? w1) && (w1 <? 2 ^ 24) && (0 <=? w2) && (w2 <? 2 ^ 24)) L = true ->
    fold_left f L a = fold_left g (map (fun '(w2, w1, w0) => w0 + 2 ^ 24 * w1 + 2 ^ 48 * w2) L) a) by exact (Gen c_dist 0 F) end.
  clear F. intros L. induction L as [|[[w2 w1] w0] L IH]; intros a F; [reflexivity|]. cbn [forallb map fold_left] in *. apply andb_prop in F. destruct F as [F1 F2].
  repeat (apply andb_prop in F1; destruct F1 as [F1 ?]). rewrite borrow3 by lia. apply IH. exact F2.
Qed.

(** * The exponential *)
Lemma umulh_ok z y : 0 <= z < 2 ^ 64 -> 0 <= y < 2 ^ 64 -> c_umulh z y = z * y / 2 ^ 64.
Proof.
  intros Hz Hy. unfold c_umulh. cbv zeta. rewrite !(shiftr_div _ 32) by lia.
  assert (Dz : 0 <= z / 2 ^ 32 < 2 ^ 32) by (split; [apply Z.div_pos; lia | apply Z.div_lt_upper_bound; lia]).
  assert (Dy : 0 <= y / 2 ^ 32 < 2 ^ 32) by (split; [apply Z.div_pos; lia | apply Z.div_lt_upper_bound; lia]).
  rewrite (w32_id (z / 2 ^ 32)), (w32_id (y / 2 ^ 32)) by assumption.
  pose proof (Z.div_mod z (2 ^ 32) ltac:(lia)) as Ez. pose proof (Z.div_mod y (2 ^ 32) ltac:(lia)) as Ey.
  pose proof (w32_range z) as Mz. pose proof (w32_range y) as My. fold (w32 z) in Ez. fold (w32 y) in Ey.
  set (z0 := w32 z) in *. set (y0 := w32 y) in *. set (z1 := z / 2 ^ 32) in *. set (y1 := y / 2 ^ 32) in *. clearbody z0 y0 z1 y1. subst z y. clear Hz Hy.
  assert (P : forall a b, 0 <= a < 2 ^ 32 -> 0 <= b < 2 ^ 32 -> 0 <= a * b <= (2 ^ 32 - 1) * (2 ^ 32 - 1)) by (intros a b Ha Hb; split; [apply Z.mul_nonneg_nonneg; lia | apply Z.mul_le_mono_nonneg; lia]).
  pose proof (P z0 y0 Mz My) as P00. pose proof (P z0 y1 Mz Dy) as P01. pose proof (P z1 y0 Dz My) as P10. pose proof (P z1 y1 Dz Dy) as P11. clear P.
  rewrite (w64_id (z0 * y0)), (w64_id (z0 * y1)), (w64_id (z1 * y0)), (w64_id (z1 * y1)) by lia.
  replace ((2 ^ 32 * z1 + z0) * (2 ^ 32 * y1 + y0)) with (2 ^ 64 * (z1 * y1) + 2 ^ 32 * (z0 * y1) + 2 ^ 32 * (z1 * y0) + z0 * y0) by ring.
  set (p00 := z0 * y0) in *. set (p01 := z0 * y1) in *. set (p10 := z1 * y0) in *. set (p11 := z1 * y1) in *. clearbody p00 p01 p10 p11. clear - P00 P01 P10 P11.
  pose proof (Z.div_mod p00 (2 ^ 32) ltac:(lia)) as E0. pose proof (Z.mod_pos_bound p00 (2 ^ 32) ltac:(lia)). set (q0 := p00 / 2 ^ 32) in *. set (r0 := p00 mod 2 ^ 32) in *. clearbody q0 r0.
  assert (Q0 : 0 <= q0 <= 2 ^ 32 - 2) by lia. rewrite (w64_id (p01 + q0)) by lia. set (a := p01 + q0) in *. assert (Ba : 0 <= a < 2 ^ 64) by lia.
  unfold w32. pose proof (Z.div_mod a (2 ^ 32) ltac:(lia)) as Ea. pose proof (Z.mod_pos_bound a (2 ^ 32) ltac:(lia)). pose proof (Z.div_mod p10 (2 ^ 32) ltac:(lia)) as Eb. pose proof (Z.mod_pos_bound p10 (2 ^ 32) ltac:(lia)).
  set (qa := a / 2 ^ 32) in *. set (ra := a mod 2 ^ 32) in *. set (qb := p10 / 2 ^ 32) in *. set (rb := p10 mod 2 ^ 32) in *. assert (Ea' : p01 + q0 = 2 ^ 32 * qa + ra) by exact Ea. clearbody a qa ra qb rb.
  assert (Qa : 0 <= qa < 2 ^ 32) by lia. assert (Qb : 0 <= qb < 2 ^ 32) by lia.
  rewrite (w64_id (ra + rb)), (w64_id (qa + qb)) by lia. pose proof (Z.div_mod (ra + rb) (2 ^ 32) ltac:(lia)) as Ec. pose proof (Z.mod_pos_bound (ra + rb) (2 ^ 32) ltac:(lia)).
  set (qc := (ra + rb) / 2 ^ 32) in *. set (rc := (ra + rb) mod 2 ^ 32) in *. clearbody qc rc. assert (Qc : 0 <= qc <= 1) by lia.
  rewrite (w64_id (qa + qb + qc)) by lia. 
  assert (F : 2 ^ 64 * p11 + 2 ^ 32 * p01 + 2 ^ 32 * p10 + p00 = 2 ^ 64 * (qa + qb + qc + p11) + (2 ^ 32 * rc + r0)) by lia.
  rewrite F. rewrite w64_id by lia. apply Z.div_unique_pos with (r := 2 ^ 32 * rc + r0); lia.
Qed.

(** an increasing list starting above c, below 2^64 *)
Fixpoint incr (c : Z) (L : list Z) : bool := match L with [] => true | e :: L => (c <=? e) && (e <? 2 ^ 64) && incr e L end.
Lemma horner_same zx : 0 <= zx < 2 ^ 63 -> forall L y c, 0 <= y <= c -> c < 2 ^ 64 -> incr c L = true ->
  fold_left (fun y elt => w64 (elt - c_umulh (2 * zx) y)) L y = fold_left (fun y elt => elt - Z.shiftr (zx * y) 63) L y /\
  0 <= fold_left (fun y elt => elt - Z.shiftr (zx * y) 63) L y <= last L c.
Proof.
  intros Hz. assert (S1' : forall (L : list Z) e c, last (e :: L) c = last L e) by (induction L as [|e' L IH]; intros e c; [reflexivity|]; change (last (e :: e' :: L) c) with (last (e' :: L) c); rewrite !IH; reflexivity).
  induction L as [|e L IH]; intros y c Hy Hc D; [split; [reflexivity|exact Hy]|]. cbn [fold_left incr] in *. apply andb_prop in D. destruct D as [D1 D2]. apply andb_prop in D1. destruct D1 as [D0 D1].
  assert (E : c_umulh (2 * zx) y = Z.shiftr (zx * y) 63).
  { rewrite umulh_ok, shiftr_div by lia. replace (2 * zx * y) with (zx * y * 2) by ring. change (2 ^ 64) with (2 ^ 63 * 2). apply Z.div_mul_cancel_r; lia. }
  rewrite E. assert (Hs : 0 <= Z.shiftr (zx * y) 63 <= y).
  { rewrite shiftr_div by lia. split; [apply Z.div_pos; [apply Z.mul_nonneg_nonneg; lia | lia]|]. apply Z.div_le_upper_bound; [lia|]. apply Z.mul_le_mono_nonneg_r; lia. }
  rewrite w64_id by lia. destruct (IH (e - Z.shiftr (zx * y) 63) e ltac:(lia) ltac:(lia) D2) as [I1 I2]. split; [exact I1|].
  rewrite (S1' L e c). exact I2.
Qed.
(** the two scaled integers of the Python code *)
Definition expm_int (zx zc : Z) : Z :=
  c_umulh (2 * zc) (fold_left (fun y elt => w64 (elt - c_umulh (2 * zx) y)) (tl c_expC) (hd 0 c_expC)).
Lemma expm_int_ok zx zc : 0 <= zx < 2 ^ 63 -> 0 <= zc < 2 ^ 63 -> expm_int zx zc = approxexp zx zc / 2 /\ 0 <= approxexp zx zc <= 2 * zc.
Proof.
  intros Hx Hc. unfold expm_int. change c_expC with expC.
  destruct (horner_same zx Hx (tl expC) (hd 0 expC) (hd 0 expC) ltac:(vm_compute; split; discriminate) ltac:(vm_compute; reflexivity) ltac:(vm_compute; reflexivity)) as [E B].
  rewrite E. pose proof (approxexp_range zx zc ltac:(lia) ltac:(lia)) as AR. split; [|exact AR]. unfold approxexp in *. change (last (tl expC) (hd 0 expC)) with (2 ^ 63) in B.
  set (y := fold_left _ _ _) in *. clearbody y. clear E. rewrite umulh_ok by lia. rewrite !shiftr_div, shiftl_mul by lia. change (2 ^ 1) with 2. replace (zc * 2) with (2 * zc) by ring.
  rewrite Z.div_div by lia. reflexivity.
Qed.

(** multiplication by 2^63 is exact, so the C code truncates the same number *)
Lemma p63_exact x : usable x -> (0 <= val x < 1)%R -> usable (fpr_mul x fpr_ptwo63) /\ val (fpr_mul x fpr_ptwo63) = (val x * powerRZ 2 63)%R.
Proof.
  intros U L. assert (U63 : usable fpr_ptwo63) by (left; split; [split; [vm_compute; split; [discriminate|reflexivity]|vm_compute; discriminate]|vm_compute; discriminate]).
  assert (V63 : val fpr_ptwo63 = powerRZ 2 63).
  { unfold val. change (fexp fpr_ptwo63) with 1086. change (fmant fpr_ptwo63) with 0. change (fsign fpr_ptwo63) with 0. change (1086 =? 0) with false. cbv iota. change (sgn 0) with 1%R.
    change (1086 - 1075) with 11. rewrite Z.add_0_r, Rmult_1_l. rewrite p2_scale by lia. reflexivity. }
  destruct (mul_rounded x fpr_ptwo63 U U63) as [Rd _]. rewrite V63 in Rd.
  assert (P63 : (0 < powerRZ 2 63)%R) by apply p2_pos.
  destruct (normal_dec x) as [N|N].
  - destruct (m63_val x N) as [E V]. { rewrite Rabs_right by lra. apply Rlt_trans with 1%R; [lra|]. change 1%R with (powerRZ 2 0). rewrite p2_nat, p2_nat by lia. apply IZR_lt. reflexivity. }
    pose proof N as [[R E2] E1]. destruct (fields x R) as (S & _ & M & X).
    assert (Vx : val x = (sgn (fsign x) * IZR (2 ^ 52 + fmant x) * powerRZ 2 (fexp x - 1075))%R) by (unfold val; replace (fexp x =? 0) with false by (symmetry; apply Z.eqb_neq; lia); reflexivity).
    set (y := fsign x * 2 ^ 63 + ((fexp x + 63) * 2 ^ 52 + fmant x)).
    assert (Fy : fsign y = fsign x /\ fexp y = fexp x + 63 /\ fmant y = fmant x).
    { unfold y. split; [apply field_sign; lia|]. split; [apply field_exp; lia|apply field_mant; lia]. }
    destruct Fy as (Fs & Fe & Fm).
    assert (Dy : double y) by (split; [unfold y; lia | lia]).
    assert (Vy : val y = (val x * powerRZ 2 63)%R).
    { unfold val at 1. rewrite Fs, Fe, Fm. replace (fexp x + 63 =? 0) with false by (symmetry; apply Z.eqb_neq; lia). rewrite Vx. replace (fexp x + 63 - 1075) with ((fexp x - 1075) + 63) by lia. rewrite p2_add. ring. }
    assert (Q : (smallest_normal <= Rabs (val x))%R).
    { rewrite Vx, !Rabs_mult, sgn_abs, Rmult_1_l, (Rabs_right (powerRZ 2 _)) by (left; apply p2_pos). rewrite <- abs_IZR, Z.abs_eq by lia. unfold smallest_normal.
      apply Rle_trans with (IZR (2 ^ 52) * powerRZ 2 (-1074))%R; [rewrite p2_scale by lia; apply p2_mono; lia|].
      apply Rmult_le_compat; [apply IZR_le; lia | left; apply p2_pos | apply IZR_le; lia | apply p2_mono; lia]. }
    rewrite Rabs_right in Q by lra.
    assert (P1 : (1 <= powerRZ 2 63)%R) by (change 1%R with (powerRZ 2 0); apply p2_mono; lia).
    assert (Hi : (Rabs (val x * powerRZ 2 63) <= largest)%R).
    { rewrite Rabs_right by (apply Rle_ge, Rmult_le_pos; lra). apply Rle_trans with (1 * powerRZ 2 63)%R; [apply Rmult_le_compat_r; lra|]. rewrite Rmult_1_l. unfold largest.
      apply Rle_trans with (1 * powerRZ 2 971)%R; [rewrite Rmult_1_l; apply p2_mono; lia|]. apply Rmult_le_compat_r; [left; apply p2_pos | apply (IZR_le 1); lia]. }
    destruct (Rd Hi) as (Um & Nr & _). split; [exact Um|]. apply (nearest_exact _ _ y); [|exact Dy|exact Vy]. apply Nr.
    rewrite Rabs_right by (apply Rle_ge, Rmult_le_pos; lra). apply Rle_trans with (val x); [exact Q|]. rewrite <- (Rmult_1_r (val x)) at 1. apply Rmult_le_compat_l; lra.
  - destruct (zero_exp x U N) as (_ & _ & _ & V & _). rewrite V, Rmult_0_l in *. destruct Rd as (Um & _ & Z0).
    + rewrite Rabs_R0. unfold largest. apply Rmult_le_pos; [apply (IZR_le 0); lia | left; apply p2_pos].
    + split; [exact Um|]. apply Z0. rewrite Rabs_R0. unfold smallest_normal. apply p2_pos.
Qed.
Lemma trunc63 x : usable x -> (0 <= val x < 1)%R -> let z := fpr_trunc (fpr_mul x fpr_ptwo63) in
  0 <= z < 2 ^ 63 /\ (IZR z <= val x * powerRZ 2 63 < IZR z + 1)%R.
Proof.
  intros U L z. destruct (p63_exact x U L) as [Um V]. assert (P63 : (0 < powerRZ 2 63)%R) by apply p2_pos.
  assert (B : (0 <= val x * powerRZ 2 63 < powerRZ 2 63)%R).
  { split; [apply Rmult_le_pos; lra|]. rewrite <- (Rmult_1_l (powerRZ 2 63)) at 2. apply Rmult_lt_compat_r; lra. }
  destruct (trunc_ok (fpr_mul x fpr_ptwo63) Um) as [T1 T2]; rewrite V, ?Rabs_right in * by lra; [lra|]. fold z in T1, T2.
  assert (Z0 : 0 <= z).
  { destruct (Z_lt_ge_dec z 0) as [C|C]; [exfalso|lia]. assert (IZR z < 0)%R by (apply (IZR_lt _ 0); exact C).
    assert (1 <= IZR (Z.abs z))%R by (apply (IZR_le 1); lia). assert (0 < val x * powerRZ 2 63)%R by lra. nra. }
  rewrite Z.abs_eq in T1 by exact Z0. split; [|exact T1]. split; [exact Z0|]. apply lt_IZR. rewrite <- p2_nat by lia. lra.
Qed.
Theorem expm_ok x ccs : usable x -> usable ccs -> (0 <= val x < 1)%R -> (0 <= val ccs < 1)%R ->
  let zx := fpr_trunc (fpr_mul x fpr_ptwo63) in let zc := fpr_trunc (fpr_mul ccs fpr_ptwo63) in
  fpr_expm_p63 x ccs = approxexp zx zc / 2 /\ 0 <= approxexp zx zc <= 2 * zc.
Proof.
  intros Ux Uc Lx Lc zx zc. destruct (trunc63 x Ux Lx) as [Bx _]. destruct (trunc63 ccs Uc Lc) as [Bc _]. fold zx in Bx. fold zc in Bc.
  rewrite <- (proj1 (expm_int_ok zx zc Bx Bc)). split; [|exact (proj2 (expm_int_ok zx zc Bx Bc))]. unfold fpr_expm_p63, expm_int. cbv zeta. fold zx zc.
  rewrite (w64_id zx), (w64_id zc), !shiftl_mul by lia. change (2 ^ 1) with 2. rewrite (w64_id (zx * 2)), (w64_id (zc * 2)) by lia. rewrite (Z.mul_comm zx 2), (Z.mul_comm zc 2). reflexivity.
Qed.
