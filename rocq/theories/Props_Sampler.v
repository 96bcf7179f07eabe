(** C43, C45, C46, C47, C48, C72: samplers and key generation.
    The randomness is an arbitrary stream of bytes. *)
From Verif Require Import Base PrngModel HashModel FalconModel RecoveryProofs NtruModel PolyModel RingSpec FalconSpec FalconProofs SolWorldProofs SamplerModel SamplerProofs.
Set Default Goal Selector "!".

(** * C45: basesampler *)
(** Nine bytes are read; as a number u below 2^72 (each u comes from exactly one string of nine bytes) ... *)
Theorem C45_reads_nine_bytes : forall b pos, stream b ->
  snd (basesampler b pos) = (pos + 9)%nat /\ 0 <= le_int (draw b pos 9) < 2 ^ 72 /\ 0 <= fst (basesampler b pos) <= 18.
Proof.
  intros b pos Hb. split; [rewrite basesampler_value; reflexivity|]. split; [|apply basesampler_range].
  pose proof (le_int_bound _ (draw_bytes b pos 9 Hb)) as H. rewrite draw_length in H. exact H.
Qed.
Print Assumptions C45_reads_nine_bytes.
Theorem C45_bytes_are_numbers : forall k, (forall v, 0 <= v < 256 ^ Z.of_nat k -> exists l, bytes l /\ length l = k /\ le_int l = v) /\
  (forall l l', length l = k -> length l' = k -> bytes l -> bytes l' -> le_int l = le_int l' -> l = l').
Proof. intros k. split; [apply le_int_onto|]. intros l l' L L'. apply le_int_inj. congruence. Qed.
Print Assumptions C45_bytes_are_numbers.
(** ... the result exceeds k exactly for the RCDT[k] numbers u below RCDT[k]: P(z0 > k) = RCDT[k] / 2^72. *)
Theorem C45_distribution : forall b pos k, (k < 18)%nat ->
  (Z.of_nat k < fst (basesampler b pos) <-> le_int (draw b pos 9) < nth k RCDT 0) /\ 0 < nth k RCDT 0 < 2 ^ 72.
Proof.
  intros b pos k Hk. split.
  - rewrite basesampler_value. set (u := le_int (draw b pos 9)). clearbody u. cbn [fst]. exact (cnt_gt u RCDT eq_refl k Hk).
  - assert (H : forallb (fun x => (0 <? x) && (x <? 2 ^ 72)) RCDT = true) by reflexivity. rewrite forallb_forall in H.
    specialize (H (nth k RCDT 0) ltac:(apply nth_In; exact Hk)). apply andb_prop in H. destruct H as [H1 H2]. apply Z.ltb_lt in H1. apply Z.ltb_lt in H2. split; assumption.
Qed.
Print Assumptions C45_distribution.
(** the two extremes are reached *)
Example C45_extremes : fst (basesampler (fun _ => 0) 0) = 18 /\ fst (basesampler (fun _ => 255) 0) = 0. Proof. split; vm_compute; reflexivity. Qed.

(** * C46: berexp *)
(** The lazy comparison answers whether the 64-bit number formed by the next 8 bytes is below the threshold ... *)
Theorem C46_lazy_comparison : forall b pos z, stream b -> 0 <= z < 2 ^ 64 ->
  fst (berexp_cmp b z pos) = (be_int (draw b pos 8) <? z).
Proof.
  intros b pos z Hb Hz. unfold berexp_cmp. change [56; 48; 40; 32; 24; 16; 8; 0] with (shifts 8). rewrite berexp_loop_ok by exact Hb.
  cbn [fst]. change (256 ^ Z.of_nat 8) with (2 ^ 64). rewrite Z.mod_small by exact Hz. reflexivity.
Qed.
Print Assumptions C46_lazy_comparison.
(** ... reading j bytes, 1 <= j <= 8, such that the first j-1 equal those of the threshold, and the j-th differs unless j = 8. *)
Theorem C46_bytes_read : forall b pos z, stream b -> exists j, (1 <= j <= 8)%nat /\ snd (berexp_cmp b z pos) = (pos + j)%nat /\
  (forall i, (i < j - 1)%nat -> b (pos + i)%nat = nth i (to_be 8 z) 0) /\
  ((j < 8)%nat -> b (pos + (j - 1))%nat <> nth (j - 1) (to_be 8 z) 0).
Proof.
  intros b pos z Hb. exists (reads (to_be 8 z) (draw b pos 8)). unfold berexp_cmp. change [56; 48; 40; 32; 24; 16; 8; 0] with (shifts 8). rewrite berexp_loop_ok by exact Hb.
  cbn [snd]. assert (G : forall k ds pos, length ds = S k -> let j := reads ds (draw b pos (S k)) in (1 <= j <= S k)%nat /\
     (forall i, (i < j - 1)%nat -> b (pos + i)%nat = nth i ds 0) /\ ((j < S k)%nat -> b (pos + (j - 1))%nat <> nth (j - 1) ds 0)).
  { clear. induction k as [|k IH]; intros [|d ds] pos L; try discriminate; cbv zeta; rewrite draw_S; cbn [reads].
    - destruct ds; [|discriminate]. destruct (Z.eqb_spec (b pos) d) as [E|E].
      + split; [cbn; lia|]. split; [cbn; lia|]. cbn. lia.
      + split; [lia|]. split; [lia|]. lia.
    - injection L as L. destruct (Z.eqb_spec (b pos) d) as [E|E].
      + destruct (IH ds (S pos) L) as (H1 & H2 & H3). set (j := reads ds (draw b (S pos) (S k))) in *. clearbody j. split; [lia|]. split.
        * intros i Hi. destruct i as [|i]; [rewrite Nat.add_0_r; exact E|]. cbn [nth]. rewrite <- H2 by lia. f_equal. lia.
        * intros Hj. specialize (H3 ltac:(lia)). destruct j as [|j]; [lia|]. replace (S (S j) - 1)%nat with (S j) by lia. cbn [nth]. replace (S j - 1)%nat with j in H3 by lia.
          replace (pos + S j)%nat with (S pos + j)%nat by lia. exact H3.
      + split; [lia|]. split; [lia|]. intros _. rewrite Nat.sub_diag, Nat.add_0_r. exact E. }
  destruct (G 7%nat (to_be 8 z) pos (to_be_length 8 z)) as (H1 & H2 & H3). split; [exact H1|]. split; [reflexivity|]. split; assumption.
Qed.
Print Assumptions C46_bytes_read.
(** The threshold computed by approxexp is in that range for 0 <= r <= 7/8 and 1/2 <= ccs <= 1 (r < ln 2 and ccs > 0.7 in the signer). *)
Theorem C46_threshold_range : forall zr zc s, 0 <= zr <= 7 * 2 ^ 60 -> 2 ^ 62 <= zc <= 2 ^ 63 -> 0 <= s -> 0 <= berexp_z zr zc s < 2 ^ 64.
Proof.
  intros zr zc s Hr Hc Hs. unfold berexp_z. rewrite Z.shiftr_div_pow2 by exact Hs.
  pose proof (approxexp_low zr zc Hr Hc) as L. pose proof (approxexp_range zr zc ltac:(split; [lia|]; eapply Z.le_trans; [apply Hr|discriminate]) ltac:(split; [eapply Z.le_trans; [|apply Hc]; discriminate|apply Hc])) as [_ U].
  assert (0 < 2 ^ s) by (apply Z.pow_pos_nonneg; lia). assert (1 <= 2 ^ 59) by discriminate. split.
  - apply Z.div_pos; lia.
  - apply Z.div_lt_upper_bound; [assumption|]. change (2 ^ 64) with (2 * 2 ^ 63). nia.
Qed.
Print Assumptions C46_threshold_range.
(** A zero approximation would be accepted almost always instead of never: threshold -1 compares as 2^64 - 1. *)
Theorem C46_zero_underflows : forall b pos s, stream b -> 0 <= s -> fst (berexp_cmp b (berexp_z 0 0 s) pos) = (be_int (draw b pos 8) <? 2 ^ 64 - 1).
Proof.
  intros b pos s Hb Hs. replace (berexp_z 0 0 s) with (-1).
  - unfold berexp_cmp. change [56; 48; 40; 32; 24; 16; 8; 0] with (shifts 8). rewrite berexp_loop_ok by exact Hb. reflexivity.
  - unfold berexp_z. change (approxexp 0 0 - 1) with (-1). symmetry. rewrite Z.shiftr_div_pow2 by exact Hs. symmetry.
    apply Z.div_unique with (r := 2 ^ s - 1); [left|]; pose proof (Z.pow_pos_nonneg 2 s ltac:(lia) Hs); lia.
Qed.
Print Assumptions C46_zero_underflows.
Example C46_example : berexp_cmp (fun i => nth i [0x12; 0x34; 0x55] 0) 0x1234560000000000 0 = (true, 3%nat). Proof. reflexivity. Qed.
Example C46_equal : berexp_cmp (fun i => nth i [0x12; 0x34; 0x56] 0) 0x1234560000000000 0 = (false, 8%nat). Proof. reflexivity. Qed.

(** * C72: samplerz *)
(** Whatever the floating point computations give, the sample is within [-18, 19] of floor(mu). *)
Theorem C72_samplerz_range : forall b thr fl fuel pos z pos', samplerz b fuel fl thr pos = Some (z, pos') -> fl - 18 <= z <= fl + 19 /\ (pos + 11 <= pos')%nat.
Proof. intros b thr fl fuel pos z pos' E. exact (samplerz_range b thr fl fuel pos z pos' E). Qed.
Print Assumptions C72_samplerz_range.
(** both ends are reached *)
Example C72_ends : samplerz (fun i => if (i =? 9)%nat then 1 else 0) 1 100 (fun _ _ => 1) 0 = Some (119, 18%nat) /\
                   samplerz (fun i => 0) 1 100 (fun _ _ => 1) 0 = Some (82, 18%nat).
Proof. split; vm_compute; reflexivity. Qed.

(** * C47: mkgauss *)
(** One sample reads two 64-bit numbers.  Its sign is the top bit of the first; it is zero exactly when the 63 low bits of the first are below
    the table's entry 0, and of magnitude k exactly when they are not and the 63 low bits of the second lie between entry k and entry k-1
    (2^63 for k = 1): probabilities T0/2^63 and (1 - T0/2^63) (T[k-1] - T[k])/2^63. *)
Theorem C47_sample_zero : forall b pos, stream b ->
  (mkgauss1 b pos = 0 <-> le_int (draw b pos 8) mod 2 ^ 63 < gtab 0).
Proof.
  intros b pos Hb. rewrite mkgauss1_value by exact Hb. cbv zeta. rewrite <- (magnitude_zero _ (le_int (draw b (pos + 8) 8) mod 2 ^ 63)) by (apply Z.mod_pos_bound; reflexivity).
  set (v := magnitude _ _). clearbody v. destruct (_ <? _); lia.
Qed.
Print Assumptions C47_sample_zero.
Theorem C47_sample_magnitude : forall b pos k, stream b -> (1 <= k <= 26)%nat ->
  (Z.abs (mkgauss1 b pos) = Z.of_nat k <->
   gtab 0 <= le_int (draw b pos 8) mod 2 ^ 63 /\ gtab k <= le_int (draw b (pos + 8) 8) mod 2 ^ 63 < (if (k =? 1)%nat then 2 ^ 63 else gtab (k - 1))).
Proof.
  intros b pos k Hb Hk. rewrite mkgauss1_value by exact Hb. cbv zeta.
  pose proof (magnitude_range (le_int (draw b pos 8) mod 2 ^ 63) (le_int (draw b (pos + 8) 8) mod 2 ^ 63) ltac:(apply Z.mod_pos_bound; reflexivity)) as R.
  rewrite <- (magnitude_is _ _ k ltac:(apply Z.mod_pos_bound; reflexivity) Hk). set (v := magnitude _ _) in *. clearbody v. destruct (_ <? _); lia.
Qed.
Print Assumptions C47_sample_magnitude.
Theorem C47_sample_sign : forall b pos, stream b -> mkgauss1 b pos <> 0 ->
  (mkgauss1 b pos < 0 <-> 2 ^ 63 <= le_int (draw b pos 8)) /\ Z.abs (mkgauss1 b pos) <= 26.
Proof.
  intros b pos Hb. pose proof (mkgauss1_range b pos Hb) as B. rewrite mkgauss1_value in * by exact Hb. cbv zeta in *.
  pose proof (magnitude_range (le_int (draw b pos 8) mod 2 ^ 63) (le_int (draw b (pos + 8) 8) mod 2 ^ 63) ltac:(apply Z.mod_pos_bound; reflexivity)) as R.
  set (v := magnitude _ _) in *. clearbody v. destruct (Z.ltb_spec (le_int (draw b pos 8)) (2 ^ 63)); lia.
Qed.
Print Assumptions C47_sample_sign.
(** mkgauss adds 2^(10-logn) samples, read one after the other, 16 bytes each. *)
Theorem C47_mkgauss : forall b logn pos, stream b ->
  mkgauss b logn pos = (sum_list (map (fun i => mkgauss1 b (pos + 16 * i)) (seq 0 (2 ^ (10 - logn)))), (pos + 16 * 2 ^ (10 - logn))%nat) /\
  Z.abs (fst (mkgauss b logn pos)) <= 26 * 2 ^ Z.of_nat (10 - logn).
Proof. intros b logn pos Hb. split; [apply mkgauss_sum|apply mkgauss_range; exact Hb]. Qed.
Print Assumptions C47_mkgauss.
(** The key polynomials have coefficients in [-127, 127] and an odd sum. *)
Theorem C47_poly_small : forall b fuel n logn pos f pos', (0 < n)%nat -> poly_small_mkgauss b fuel n logn pos = Some (f, pos') ->
  length f = n /\ Forall (fun c => -127 <= c <= 127) f /\ sum_list f mod 2 = 1.
Proof. exact poly_small_ok. Qed.
Print Assumptions C47_poly_small.
Example C47_extremes : mkgauss1 (fun i => if (i =? 7)%nat then 0xff else 0) 0 = -26 /\ mkgauss1 (fun _ => 0x7f) 0 = 1 /\ mkgauss1 (fun _ => 0) 0 = 0.
Proof. repeat split; vm_compute; reflexivity. Qed.

(** * C43: key generation *)
(** Whatever the randomness and the floating point computations, a key that is returned satisfies f*G - g*F = q and f is invertible modulo q
    ([ntru_key]), so that a SecretKey can be built from it; its coefficients are bounded. *)
Theorem C43_ntru_gen : forall b gs_ok quotient thr k n logn inner fuel pos f g F G, (1 <= k <= 10)%nat -> n = (2 ^ k)%nat ->
  (forall i t f g F G c, quotient i t f g F G = Ok c -> length c = length f) ->
  ntru_gen b gs_ok quotient thr fuel inner n logn pos = Fin (Ok (f, g, F, G)) ->
  ntru_key n f g F G /\
  match logn with
  | Some _ => Forall (fun c => -127 <= c <= 127) (f ++ g) /\ sum_list f mod 2 = 1 /\ sum_list g mod 2 = 1
  | None => Forall (fun c => -18 * Z.of_nat (4096 / n) <= c <= 19 * Z.of_nat (4096 / n)) (f ++ g)
  end.
Proof. intros b gs quotient thr k n logn inner fuel pos f g F G Hk Hn Hq. exact (ntru_gen_ok b gs quotient thr k n logn inner fuel Hk Hn Hq pos f g F G). Qed.
Print Assumptions C43_ntru_gen.
Theorem C43_makes_secret_key : forall b gs_ok quotient thr n logn inner fuel pos f g F G bd len lg, params n = Ok (bd, len, lg) ->
  (forall i t f g F G c, quotient i t f g F G = Ok c -> length c = length f) ->
  ntru_gen b gs_ok quotient thr fuel inner n logn pos = Fin (Ok (f, g, F, G)) -> exists K, SecretKey n f g F G = Ok K.
Proof.
  intros b gs quotient thr n logn inner fuel pos f g F G bd len lg Hp Hq E. destruct (params_facts _ _ _ _ Hp) as (k & Hk & Hn & _).
  destruct (C43_ntru_gen b gs quotient thr k n logn inner fuel pos f g F G Hk Hn Hq E) as [(Lf & Lg & LF & LG & _ & U) _].
  exact (proj1 (SecretKey_cases n f g F G bd len lg Hp Lf Lg LF LG) U).
Qed.
Print Assumptions C43_makes_secret_key.
(** a run: n = 2, f = 1, g = x *)
Definition demo_stream (i : nat) : Z := if (i mod 16 =? 15)%nat then 127 else if (i =? 7)%nat || (i =? 55)%nat then 127 else 0.
Example C43_example : ntru_gen demo_stream (fun _ _ _ => true) (fun _ _ f _ _ _ => Ok (repeat 0 (length f))) (fun _ _ => 0) 1 5 2 (Some 10%nat) 0
  = Fin (Ok ([1; 0], [0; 1], [0; 12289], [0; 0])).
Proof. vm_compute. reflexivity. Qed.

(** * C48: split and merge *)
Theorem C48_merge_split : forall A (d : A) f, Nat.even (length f) = true -> merge d (fst (split d f)) (snd (split d f)) = Ok f.
Proof. intros A d f. apply merge_split. Qed.
Print Assumptions C48_merge_split.
Theorem C48_split_merge : forall A (d : A) f0 f1, length f0 = length f1 -> exists f, merge d f0 f1 = Ok f /\ split d f = (f0, f1).
Proof. intros A d f0 f1. apply split_merge. Qed.
Print Assumptions C48_split_merge.
(** split of an odd number of coefficients loses the last one *)
Example C48_odd : split 0 [1; 2; 3] = ([1], [2]). Proof. reflexivity. Qed.
