(** C95, C96: the integer sampler of the C signer (falcon/nistfalcon/src/sign.c:989-1198, fpr.c:514-598).
    The bytes of the generator are an arbitrary stream; [su64] and [su8] read it little-endian, as C94 shows the generator does. *)
From Coq Require Import Reals Lra.
From Verif Require Import Base PrngModel HashModel FalconModel RecoveryProofs SamplerModel SamplerProofs Props_Sampler FprModel FprSpec FprBits FprRound FprConv FprMisc Props_Fpr CSamplerModel CSamplerProofs.
From Verif Require CSamplerReal.
Open Scope Z_scope.

Definition su64 (b : nat -> Z) (pos : nat) : nat * Z := ((pos + 8)%nat, le_int (draw b pos 8)).
Definition su8 (b : nat -> Z) (pos : nat) : nat * Z := (S pos, b pos).
Definition swap {A B} (p : A * B) : B * A := (snd p, fst p).

(** * C95: the same sampler as the Python one *)
Theorem C95_c_base_sampler_is_the_python_one b pos : stream b -> gaussian0_sampler (su64 b) (su8 b) pos = swap (basesampler b pos).
Proof.
  intros Hb. unfold gaussian0_sampler, su64, su8, swap. rewrite basesampler_value. cbn [fst snd].
  pose proof (le_int_bound _ (draw_bytes b pos 8 Hb)) as B8. rewrite draw_length in B8. change (256 ^ Z.of_nat 8) with (2 ^ 64) in B8. pose proof (Hb (pos + 8)%nat) as B1.
  rewrite (gaussian0_cnt _ _ B8 B1). assert (E : le_int (draw b pos 9) = le_int (draw b pos 8) + 2 ^ 64 * b (pos + 8)%nat).
  { assert (A : forall l x, le_int (l ++ [x]) = le_int l + 256 ^ Z.of_nat (length l) * x).
    { induction l as [|y l IH]; intros x; [cbn [app le_int length]; change (256 ^ Z.of_nat 0) with 1; lia|]. cbn [app le_int length]. rewrite IH, Nat2Z.inj_succ, Z.pow_succ_r by lia. ring. }
    unfold draw. rewrite (seq_S 8 pos), map_app. cbn [map]. rewrite A, map_length, seq_length. reflexivity. }
  rewrite E. f_equal. lia.
Qed.
Lemma byte_digit z i : Z.land (w32 (Z.shiftr z i)) 0xFF = Z.land (Z.shiftr z i) 0xFF.
Proof.
  unfold w32. rewrite !land255. symmetry. set (x := Z.shiftr z i). clearbody x.
  apply Z.mod_unique_pos with (q := x / 256 - 2 ^ 24 * (x / 2 ^ 32)); [apply Z.mod_pos_bound; lia|].
  pose proof (Z.div_mod x 256 ltac:(lia)). pose proof (Z.div_mod x (2 ^ 32) ltac:(lia)). pose proof (Z.div_mod (x mod 2 ^ 32) 256 ltac:(lia)). 
  pose proof (Z.mod_pos_bound x 256 ltac:(lia)). pose proof (Z.mod_pos_bound x (2 ^ 32) ltac:(lia)). lia.
Qed.
Theorem C95_c_comparison_is_the_python_one b z pos : stream b ->
  berexp_bytes (su8 b) z [56; 48; 40; 32; 24; 16; 8; 0] pos = (snd (berexp_cmp b z pos), if fst (berexp_cmp b z pos) then 1 else 0).
Proof.
  intros Hb. unfold berexp_cmp. change [56; 48; 40; 32; 24; 16; 8; 0] with (shifts 8).
  assert (G : forall k pos, berexp_bytes (su8 b) z (shifts (S k)) pos = (snd (berexp_loop b z (shifts (S k)) pos), if fst (berexp_loop b z (shifts (S k)) pos) then 1 else 0)); [|exact (G 7%nat pos)].
  induction k as [|k IH]; intros p.
  - change (shifts 1) with [0]. cbn [berexp_bytes berexp_loop su8]. change (draw b p 1) with [b p]. cbn [le_int]. rewrite byte_digit. set (d := Z.land (Z.shiftr z 0) 255).
    assert (Bd : 0 <= d < 256) by (unfold d; rewrite land255; apply Z.mod_pos_bound; lia). clearbody d. pose proof (Hb p) as B.
    change (0 <? 0) with false. rewrite andb_false_r, neg32 by lia. destruct (Z.eqb_spec (b p + 256 * 0 - d) 0), (Z.ltb_spec (b p - d) 0), (Z.ltb_spec (b p + 256 * 0 - d) 0); try lia; reflexivity.
  - change (shifts (S (S k))) with (8 * Z.of_nat (S k) :: shifts (S k)). remember (shifts (S k)) as L eqn:EL. cbn [berexp_bytes berexp_loop su8]. change (draw b p 1) with [b p]. cbn [le_int].
    rewrite byte_digit. set (i := 8 * Z.of_nat (S k)). set (d := Z.land (Z.shiftr z i) 255).
    assert (Bd : 0 <= d < 256) by (unfold d; rewrite land255; apply Z.mod_pos_bound; lia). clearbody d. pose proof (Hb p) as B. assert (Hi : (0 <? i) = true) by (unfold i; lia). rewrite Hi, andb_true_r.
    rewrite neg32 by lia. replace (b p + 256 * 0 - d) with (b p - d) by ring. destruct (Z.eqb_spec (b p - d) 0) as [E|E].
    + rewrite E. change (w32 0 =? 0) with true. cbv iota. destruct L as [|l0 L']; [discriminate EL|]. apply IH.
    + assert (W : w32 (b p - d) =? 0 = false).
      { apply Z.eqb_neq. unfold w32. intros C. destruct (Z_lt_ge_dec (b p - d) 0) as [L0|L0]; [|rewrite Z.mod_small in C by lia; lia].
        assert (M : (b p - d) mod 2 ^ 32 = b p - d + 2 ^ 32) by (symmetry; apply Z.mod_unique_pos with (q := -1); lia). lia. }
      rewrite W. destruct (b p - d <? 0); reflexivity.
Qed.
(** it answers whether the next eight bytes, big-endian, are below the threshold *)
Theorem C95_c_acceptance b x ccs pos : stream b -> 0 <= c_threshold x ccs < 2 ^ 64 ->
  snd (BerExp (su8 b) pos x ccs) = if be_int (draw b pos 8) <? c_threshold x ccs then 1 else 0.
Proof.
  intros Hb Ht. unfold BerExp. rewrite C95_c_comparison_is_the_python_one by exact Hb. cbn [snd]. rewrite C46_lazy_comparison by assumption. reflexivity.
Qed.
Theorem C95_c_rejection_loop_is_the_python_one b s r dss ccs : stream b -> forall fuel pos,
  sampler_loop (su64 b) (su8 b) fuel s r dss ccs pos = option_map swap (samplerz b fuel s (fun z z0 => c_threshold (c_x r dss z z0) ccs) pos).
Proof.
  intros Hb. induction fuel as [|fuel IH]; intros pos; [reflexivity|]. cbn [sampler_loop samplerz].
  rewrite C95_c_base_sampler_is_the_python_one by exact Hb. destruct (basesampler b pos) as [z0 p]. unfold swap at 1. cbn [fst snd]. unfold su8 at 1.
  change (draw b p 1) with [b p]. cbn [le_int]. replace (b p + 256 * 0) with (b p) by ring. replace (p + 1)%nat with (S p) by lia.
  set (bb := Z.land (b p) 1). rewrite shiftl_mul by lia. change (2 ^ 1) with 2. replace (bb * 2) with (2 * bb) by ring. set (z := bb + (2 * bb - 1) * z0).
  unfold BerExp. rewrite C95_c_comparison_is_the_python_one by exact Hb. destruct (berexp_cmp b (c_threshold (c_x r dss z z0) ccs) (S p)) as [acc p']. cbn [fst snd].
  destruct acc; cbn [Z.eqb]; [|exact (IH p')]. cbn [option_map]. unfold swap. cbn [fst snd]. rewrite (Z.add_comm s z). reflexivity.
Qed.
(** a sample lies within [-18, +19] of the floor of its centre *)
Theorem C95_c_sample_range b fuel sigma_min mu isigma pos pos' z : stream b -> usable mu -> mu <> 2 ^ 63 -> (- IZR (2 ^ 31) <= val mu < IZR (2 ^ 31))%R ->
  sampler (su64 b) (su8 b) fuel sigma_min mu isigma pos = Some (pos', z) ->
  (IZR z - 19 <= val mu < IZR z + 19)%R /\ (pos + 11 <= pos')%nat.
Proof.
  intros Hb U N R E. unfold sampler in E. cbv zeta in E. rewrite C95_c_rejection_loop_is_the_python_one in E by exact Hb.
  destruct (floor_ok mu U N) as [F1 F2]. { rewrite p2_nat by lia. apply Rle_lt_trans with (IZR (2 ^ 31)); [apply Rabs_le; lra | apply IZR_lt; reflexivity]. }
  assert (S : s32 (fpr_floor mu) = fpr_floor mu).
  { assert (- 2 ^ 31 <= fpr_floor mu < 2 ^ 31).
    { split; [|apply lt_IZR; lra]. assert (- 2 ^ 31 - 1 < fpr_floor mu); [|lia]. apply lt_IZR. rewrite minus_IZR, opp_IZR. lra. }
    unfold s32. rewrite Z.mod_small by lia. lia. }
  rewrite S in E. set (fl := fpr_floor mu) in *. set (r := fpr_sub mu _) in E. set (dss := fpr_half _) in E. set (ccs := fpr_mul _ _) in E. clearbody r dss ccs.
  destruct (samplerz b fuel fl _ pos) as [[z' p']|] eqn:E1; [|discriminate]. cbn [option_map] in E. unfold swap in E. cbn [fst snd] in E. injection E as <- <-.
  destruct (samplerz_range _ _ _ _ _ _ _ E1) as [B P]. split; [|exact P].
  assert (IZR fl - 18 <= IZR z' <= IZR fl + 19)%R by (rewrite <- minus_IZR, <- plus_IZR; split; apply IZR_le; lia). lra.
Qed.
(** which threshold: the polynomial of approxexp, evaluated in 64-bit arithmetic, on the same 63-bit integers *)
Theorem C95_c_exponential_is_the_python_polynomial x ccs : usable x -> usable ccs -> (0 <= val x < 1)%R -> (0 <= val ccs < 1)%R ->
  exists zx zc, (IZR zx <= val x * IZR (2 ^ 63) < IZR zx + 1)%R /\ (IZR zc <= val ccs * IZR (2 ^ 63) < IZR zc + 1)%R /\ fpr_expm_p63 x ccs = approxexp zx zc / 2.
Proof.
  intros Ux Uc Hx Hc. destruct (trunc63 x Ux Hx) as [_ V1]. destruct (trunc63 ccs Uc Hc) as [_ V2]. rewrite p2_nat in V1, V2 by lia.
  exists (fpr_trunc (fpr_mul x fpr_ptwo63)), (fpr_trunc (fpr_mul ccs fpr_ptwo63)). split; [exact V1|]. split; [exact V2|]. exact (proj1 (expm_ok x ccs Ux Uc Hx Hc)).
Qed.
(** * C96: the acceptance probability: threshold / 2^64 is ccs exp(-x), to 2^-46, for all doubles x up to 10^6 *)
Theorem C96_c_threshold_is_accurate x ccs : usable x -> usable ccs -> (0 <= val x <= 1000000)%R -> (1 / 2 <= val ccs < 1)%R ->
  0 <= c_threshold x ccs < 2 ^ 64 /\ (Rabs (IZR (c_threshold x ccs) / 2 ^ 64 - val ccs * exp (- val x)) <= / 2 ^ 46)%R.
Proof. exact (CSamplerReal.c_threshold_accurate x ccs). Qed.
(** range reduction never leaves a negative remainder (a negative one would be converted to a huge unsigned number) and saturates at 63 *)
Theorem C96_c_range_reduction x : usable x -> (0 <= val x <= 1000000)%R -> exists s r, c_reduce x = (s, r) /\ 0 <= s /\ c_saturate s = Z.min s 63 /\
  (- / 2 ^ 29 <= val x - IZR s * ln 2 < 6935 / 10000)%R /\ (s <= 63 -> usable r /\ (0 <= val r < 6936 / 10000)%R /\ (Rabs (val r - (val x - IZR s * ln 2)) <= / 2 ^ 45)%R).
Proof.
  intros U H. destruct (CSamplerReal.reduce_ok x U H) as (s & r & E & S0 & R1 & R2). exists s, r. split; [exact E|]. split; [lia|]. split; [apply CSamplerReal.saturate_ok; lia|].
  split; [exact R1|]. intros L. destruct (R2 L) as (U1 & B & A). split; [exact U1|]. split; [exact B|]. eapply Rle_trans; [exact A|].
  assert (0 <= IZR s <= 63)%R by (split; apply IZR_le; lia). destruct (s =? 0); lra.
Qed.
(** the bound on ccs is sharp: at ccs = 1 the product overflows 63 bits, the exponential is 0, and the threshold is the largest possible,
    whatever the remainder; Python's approxexp accepts ccs = 1 *)
Theorem C96_c_scale_factor_one_is_wrong x : fpr_expm_p63 x fpr_one = 0 /\
  c_threshold x fpr_one = Z.shiftr (2 ^ 64 - 1) (c_saturate (fst (c_reduce x))).
Proof.
  assert (E : forall x, fpr_expm_p63 x fpr_one = 0).
  { intros y. unfold fpr_expm_p63. cbv zeta. set (f := fold_left _ _ _). assert (Z0 : w64 (Z.shiftl (w64 (fpr_trunc (fpr_mul fpr_one fpr_ptwo63))) 1) = 0) by (vm_compute; reflexivity). rewrite Z0.
    unfold c_umulh. cbv zeta. change (w32 0) with 0. change (w32 (Z.shiftr 0 32)) with 0. rewrite !Z.mul_0_l. reflexivity. }
  split; [apply E|]. unfold c_threshold. destruct (c_reduce x) as [s r]. rewrite E. reflexivity.
Qed.
(** 0.7 exp(-0.1) 2^64 = 1.1683912995e19, 0.7 exp(-3) 2^64 = 6.428865158e17, 0.7 exp(-60) 2^64 < 1; and a whole sample of centre 0.3, after
    one rejection *)
Definition d07 : Z := 4604480259023595110.
Definition ramp (a c : Z) (i : nat) : Z := (Z.of_nat i * a + c) mod 256.
Example C95_witness : usable d01 /\ usable d07 /\ c_threshold d01 d07 = 11683912995177846765 /\ c_threshold d3 d07 = 642886515853586276 /\ c_threshold (fpr_of 60) d07 = 0 /\
  sampler (su64 (ramp 100 5)) (su8 (ramp 100 5)) 20 (fpr_of 1) d03 (fpr_div (fpr_of 10) (fpr_of 13)) 0%nat = Some (22%nat, 2).
Proof. repeat (split; [apply usable_check; vm_compute; reflexivity|]). repeat split; vm_compute; reflexivity. Qed.
Lemma stream_ramp a c : stream (ramp a c).
Proof. intros i. apply Z.mod_pos_bound. reflexivity. Qed.
Example C96_witness : usable d01 /\ (0 <= val d01 <= 1000000)%R /\ usable d07 /\ (1 / 2 <= val d07 < 1)%R.
Proof.
  split; [apply usable_check; vm_compute; reflexivity|]. split; [|split; [apply usable_check; vm_compute; reflexivity|]].
  - rewrite (exact_value d01 0 1019 2702159776422298) by (try (vm_compute; reflexivity); lia). unfold FprSpec.sgn. change (0 =? 1) with false. cbv iota. rewrite Rmult_1_l.
    change (1019 - 1075) with (- (56)). rewrite CSamplerReal.p2_opp by lia. replace (IZR (2 ^ 56)) with 72057594037927936%R by (vm_compute; reflexivity). replace (IZR (2 ^ 52 + 2702159776422298)) with 7205759403792794%R by (vm_compute; reflexivity). lra.
  - rewrite (exact_value d07 0 1022 1801439850948198) by (try (vm_compute; reflexivity); lia). unfold FprSpec.sgn. change (0 =? 1) with false. cbv iota. rewrite Rmult_1_l.
    change (1022 - 1075) with (- (53)). rewrite CSamplerReal.p2_opp by lia. replace (IZR (2 ^ 53)) with 9007199254740992%R by (vm_compute; reflexivity). replace (IZR (2 ^ 52 + 1801439850948198)) with 6305039478318694%R by (vm_compute; reflexivity). lra.
Qed.
