(** katrng.c is AES-256 (FIPS 197) and its generator is the Python one. *)
From Verif Require Import Base PrngModel HashModel FalconModel RecoveryProofs DrbgModel DrbgSpec DrbgProofs Aes PackProofs CKatModel.
From Verif Require FprBits.

Definition W (a b c d : Z) : Z := 2 ^ 24 * a + (2 ^ 16 * b + (2 ^ 8 * c + d)).
Definition isb (a : Z) : Prop := 0 <= a < 256.
Lemma hi_lor h x k : 0 <= k -> 0 <= x < 2 ^ k -> Z.lor (Z.shiftl h k) x = 2 ^ k * h + x.
Proof. intros Hk Hx. rewrite Z.lor_comm. rewrite (proj1 (or_disjoint x h k Hk Hx)). lia. Qed.
Lemma word_lor a b c d : isb a -> isb b -> isb c -> isb d ->
  Z.lor (Z.lor (Z.lor (Z.shiftl a 24) (Z.shiftl b 16)) (Z.shiftl c 8)) d = W a b c d.
Proof.
  unfold isb. intros Ha Hb Hc Hd. rewrite (hi_lor a (Z.shiftl b 16) 24) by (rewrite ?Z.shiftl_mul_pow2; lia). rewrite Z.shiftl_mul_pow2 by lia.
  replace (2 ^ 24 * a + b * 2 ^ 16) with (Z.shiftl (256 * a + b) 16) by (rewrite Z.shiftl_mul_pow2; lia). rewrite hi_lor by (rewrite ?Z.shiftl_mul_pow2; lia). rewrite Z.shiftl_mul_pow2 by lia.
  replace (2 ^ 16 * (256 * a + b) + c * 2 ^ 8) with (Z.shiftl (2 ^ 16 * a + 2 ^ 8 * b + c) 8) by (rewrite Z.shiftl_mul_pow2; lia). rewrite hi_lor by lia. unfold W. lia.
Qed.
Lemma lxor_split a b x y k : 0 <= k -> 0 <= x < 2 ^ k -> 0 <= y < 2 ^ k -> Z.lxor (2 ^ k * a + x) (2 ^ k * b + y) = 2 ^ k * Z.lxor a b + Z.lxor x y.
Proof.
  intros Hk Hx Hy. pose proof (proj2 (or_disjoint x a k Hk Hx)) as E1. pose proof (proj2 (or_disjoint y b k Hk Hy)) as E2.
  replace (2 ^ k * a + x) with (Z.lxor x (Z.shiftl a k)) by lia. replace (2 ^ k * b + y) with (Z.lxor y (Z.shiftl b k)) by lia.
  pose proof (proj2 (or_disjoint (Z.lxor x y) (Z.lxor a b) k Hk (FprBits.lxor_range x y k Hk Hx Hy))) as E3.
  replace (2 ^ k * Z.lxor a b + Z.lxor x y) with (Z.lxor (Z.lxor x y) (Z.shiftl (Z.lxor a b) k)) by lia. rewrite Z.shiftl_lxor.
  apply Z.bits_inj'. intros n _. rewrite !Z.lxor_spec. destruct (Z.testbit x n), (Z.testbit y n), (Z.testbit (Z.shiftl a k) n), (Z.testbit (Z.shiftl b k) n); reflexivity.
Qed.
Lemma isb_lxor a b : isb a -> isb b -> isb (Z.lxor a b).
Proof. intros. apply (FprBits.lxor_range a b 8); unfold isb in *; change (2 ^ 8) with 256; lia. Qed.
Ltac isbs := repeat match goal with |- isb (Z.lxor _ _) => apply isb_lxor end; assumption.
Lemma W_lxor a b c d a' b' c' d' : isb b -> isb c -> isb d -> isb b' -> isb c' -> isb d' ->
  Z.lxor (W a b c d) (W a' b' c' d') = W (Z.lxor a a') (Z.lxor b b') (Z.lxor c c') (Z.lxor d d').
Proof. unfold W, isb. intros. rewrite (lxor_split a a') by lia. rewrite (lxor_split b b') by lia. rewrite (lxor_split c c') by lia. reflexivity. Qed.
Lemma W_byte a b c d : isb a -> isb b -> isb c -> isb d ->
  Z.shiftr (W a b c d) 24 = a /\ Z.land (Z.shiftr (W a b c d) 16) 0xFF = b /\ Z.land (Z.shiftr (W a b c d) 8) 0xFF = c /\ Z.land (W a b c d) 0xFF = d.
Proof.
  unfold W, isb. intros. change 0xFF with (Z.ones 8). rewrite !Z.land_ones, !Z.shiftr_div_pow2 by lia. change (2 ^ 24) with 16777216. change (2 ^ 16) with 65536. change (2 ^ 8) with 256.
  repeat split; try (symmetry; apply Z.div_unique_pos with (r := 65536 * b + (256 * c + d)); lia).
  - replace ((16777216 * a + (65536 * b + (256 * c + d))) / 65536) with (256 * a + b) by (apply Z.div_unique_pos with (r := 256 * c + d); lia). symmetry. apply Z.mod_unique_pos with (q := a); lia.
  - replace ((16777216 * a + (65536 * b + (256 * c + d))) / 256) with (65536 * a + 256 * b + c) by (apply Z.div_unique_pos with (r := d); lia). symmetry. apply Z.mod_unique_pos with (q := 256 * a + b); lia.
  - symmetry. apply Z.mod_unique_pos with (q := 65536 * a + 256 * b + c); lia.
Qed.
Lemma W_enc a b c d : isb a -> isb b -> isb c -> isb d -> enc32be (W a b c d) = [a; b; c; d].
Proof.
  intros Ha Hb Hc Hd. destruct (W_byte a b c d Ha Hb Hc Hd) as (E1 & E2 & E3 & E4). change 0xFF with (Z.ones 8) in *. rewrite Z.land_ones in E2, E3, E4 by lia. change (2 ^ 8) with 256 in *.
  unfold enc32be. rewrite E1, E2, E3, E4, Z.mod_small by exact Ha. reflexivity.
Qed.
Lemma W_rot a b c d n x y : isb a -> isb b -> isb c -> isb d -> 0 <= n <= 32 -> W a b c d = 2 ^ n * x + y -> 0 <= y < 2 ^ n -> 0 <= x < 2 ^ (32 - n) -> rotr (W a b c d) n = 2 ^ (32 - n) * y + x.
Proof.
  intros Ha Hb Hc Hd Hn E Hy Hx. unfold rotr, k32. rewrite E. rewrite Z.shiftl_mul_pow2 by lia. rewrite Z.shiftr_div_pow2 by lia.
  replace ((2 ^ n * x + y) / 2 ^ n) with x by (apply Z.div_unique_pos with (r := y); lia).
  assert (P : 2 ^ n * 2 ^ (32 - n) = 2 ^ 32) by (rewrite <- Z.pow_add_r by lia; f_equal; lia). assert (0 < 2 ^ (32 - n)) by (apply Z.pow_pos_nonneg; lia).
  replace (((2 ^ n * x + y) * 2 ^ (32 - n)) mod 2 ^ 32) with (y * 2 ^ (32 - n)) by (apply Z.mod_unique_pos with (q := x); nia).
  rewrite <- Z.shiftl_mul_pow2 by lia. apply hi_lor; lia.
Qed.
Lemma rot8 a b c d : isb a -> isb b -> isb c -> isb d -> rotr (W a b c d) 8 = W d a b c.
Proof. intros. rewrite (W_rot a b c d 8 (2 ^ 16 * a + 2 ^ 8 * b + c) d) by (unfold W, isb in *; lia). unfold W. lia. Qed.
Lemma rot16 a b c d : isb a -> isb b -> isb c -> isb d -> rotr (W a b c d) 16 = W c d a b.
Proof. intros. rewrite (W_rot a b c d 16 (2 ^ 8 * a + b) (2 ^ 8 * c + d)) by (unfold W, isb in *; lia). unfold W. lia. Qed.
Lemma rot24 a b c d : isb a -> isb b -> isb c -> isb d -> rotr (W a b c d) 24 = W b c d a.
Proof. intros. rewrite (W_rot a b c d 24 a (2 ^ 16 * b + 2 ^ 8 * c + d)) by (unfold W, isb in *; lia). unfold W. lia. Qed.
Lemma rotl8_word a b c d : isb a -> isb b -> isb c -> isb d -> Z.lor (k32 (Z.shiftl (W a b c d) 8)) (Z.shiftr (W a b c d) 24) = W b c d a.
Proof. intros H H0 H1 H2. exact (rot24 a b c d H H0 H1 H2). Qed.
(** the tables *)
Lemma S_is_sbox x : S_at x = sbox x.
Proof. unfold S_at, sbox. f_equal. Qed.
Lemma Ssm0_check : forallb (fun i => let x := Z.of_nat i in let s := sbox x in (nth i Ssm0 0 =? W (gmul 2 s) s s (gmul 3 s)) && (0 <=? s) && (s <? 256) && (0 <=? gmul 2 s) && (gmul 2 s <? 256) && (0 <=? gmul 3 s) && (gmul 3 s <? 256)) (seq 0 256) = true.
Proof. vm_compute. reflexivity. Qed.
Lemma Ssm0_ok x : isb x -> SboxExt0 x = W (gmul 2 (sbox x)) (sbox x) (sbox x) (gmul 3 (sbox x)) /\ isb (sbox x) /\ isb (gmul 2 (sbox x)) /\ isb (gmul 3 (sbox x)).
Proof.
  unfold isb. intros Hx. pose proof Ssm0_check as C. rewrite forallb_forall in C. specialize (C (Z.to_nat x) ltac:(apply in_seq; lia)). cbv beta zeta in C. rewrite Z2Nat.id in C by lia.
  unfold SboxExt0. set (s := sbox x) in *. set (g2 := gmul 2 s) in *. set (g3 := gmul 3 s) in *. rewrite !andb_true_iff in C. destruct C as ((((((C1 & C2) & C3) & C4) & C5) & C6) & C7). apply Z.eqb_eq in C1. lia.
Qed.
Lemma SubWord_ok a b c d : isb a -> isb b -> isb c -> isb d -> SubWord (W a b c d) = W (sbox a) (sbox b) (sbox c) (sbox d).
Proof.
  intros Ha Hb Hc Hd. destruct (W_byte a b c d Ha Hb Hc Hd) as (E1 & E2 & E3 & E4). unfold SubWord. rewrite E1, E2, E3, E4, !S_is_sbox. apply word_lor; apply Ssm0_ok; assumption.
Qed.
Ltac xorring := apply Z.bits_inj'; intros ?n _; rewrite !Z.lxor_spec; repeat match goal with |- context [Z.testbit ?a ?m] => destruct (Z.testbit a m) end; reflexivity.
Definition mixc (s t u v : Z) : Z := Z.lxor (Z.lxor (gmul 2 s) (gmul 3 t)) (Z.lxor u v).
Lemma isb_mix s t u v : isb (gmul 2 s) -> isb (gmul 3 t) -> isb u -> isb v -> isb (mixc s t u v).
Proof. intros. unfold mixc. apply isb_lxor; apply isb_lxor; assumption. Qed.
Definition isw (w : Z * Z * Z * Z) : Prop := let '(a, b, c, d) := w in isb a /\ isb b /\ isb c /\ isb d.
Lemma mix_word_ok a0 a1 a2 a3 b0 b1 b2 b3 c0 c1 c2 c3 d0 d1 d2 d3 : isw (a0, a1, a2, a3) -> isw (b0, b1, b2, b3) -> isw (c0, c1, c2, c3) -> isw (d0, d1, d2, d3) ->
  mix_word (W a0 a1 a2 a3) (W b0 b1 b2 b3) (W c0 c1 c2 c3) (W d0 d1 d2 d3) =
  W (mixc (sbox a0) (sbox b1) (sbox c2) (sbox d3)) (mixc (sbox b1) (sbox c2) (sbox d3) (sbox a0)) (mixc (sbox c2) (sbox d3) (sbox a0) (sbox b1)) (mixc (sbox d3) (sbox a0) (sbox b1) (sbox c2)).
Proof.
  intros (A0 & A1 & A2 & A3) (B0 & B1 & B2 & B3) (C0 & C1 & C2 & C3) (D0 & D1 & D2 & D3). unfold mix_word.
  rewrite (proj1 (W_byte a0 a1 a2 a3 A0 A1 A2 A3)), (proj1 (proj2 (W_byte b0 b1 b2 b3 B0 B1 B2 B3))), (proj1 (proj2 (proj2 (W_byte c0 c1 c2 c3 C0 C1 C2 C3)))), (proj2 (proj2 (proj2 (W_byte d0 d1 d2 d3 D0 D1 D2 D3)))).
  destruct (Ssm0_ok a0 A0) as (-> & Sa & Ga & Ta). unfold SboxExt1, SboxExt2, SboxExt3. destruct (Ssm0_ok b1 B1) as (-> & Sb & Gb & Tb). destruct (Ssm0_ok c2 C2) as (-> & Sc & Gc & Tc). destruct (Ssm0_ok d3 D3) as (-> & Sd & Gd & Td).
  rewrite rot8, rot16, rot24 by assumption. rewrite !W_lxor by isbs. unfold mixc. f_equal; xorring.
Qed.
Lemma last_word_ok a0 a1 a2 a3 b0 b1 b2 b3 c0 c1 c2 c3 d0 d1 d2 d3 : isw (a0, a1, a2, a3) -> isw (b0, b1, b2, b3) -> isw (c0, c1, c2, c3) -> isw (d0, d1, d2, d3) ->
  last_word (W a0 a1 a2 a3) (W b0 b1 b2 b3) (W c0 c1 c2 c3) (W d0 d1 d2 d3) = W (sbox a0) (sbox b1) (sbox c2) (sbox d3).
Proof.
  intros (A0 & A1 & A2 & A3) (B0 & B1 & B2 & B3) (C0 & C1 & C2 & C3) (D0 & D1 & D2 & D3). unfold last_word.
  rewrite (proj1 (W_byte a0 a1 a2 a3 A0 A1 A2 A3)), (proj1 (proj2 (W_byte b0 b1 b2 b3 B0 B1 B2 B3))), (proj1 (proj2 (proj2 (W_byte c0 c1 c2 c3 C0 C1 C2 C3)))), (proj2 (proj2 (proj2 (W_byte d0 d1 d2 d3 D0 D1 D2 D3)))).
  rewrite !S_is_sbox. apply word_lor; apply Ssm0_ok; assumption.
Qed.
Lemma mix_explicit x0 x1 x2 x3 x4 x5 x6 x7 x8 x9 x10 x11 x12 x13 x14 x15 : flat_map mix_column (chunk4 (shift_rows (map sbox [x0; x1; x2; x3; x4; x5; x6; x7; x8; x9; x10; x11; x12; x13; x14; x15]))) =
  [mixc (sbox x0) (sbox x5) (sbox x10) (sbox x15); mixc (sbox x5) (sbox x10) (sbox x15) (sbox x0); mixc (sbox x10) (sbox x15) (sbox x0) (sbox x5); mixc (sbox x15) (sbox x0) (sbox x5) (sbox x10); mixc (sbox x4) (sbox x9) (sbox x14) (sbox x3); mixc (sbox x9) (sbox x14) (sbox x3) (sbox x4); mixc (sbox x14) (sbox x3) (sbox x4) (sbox x9); mixc (sbox x3) (sbox x4) (sbox x9) (sbox x14); mixc (sbox x8) (sbox x13) (sbox x2) (sbox x7); mixc (sbox x13) (sbox x2) (sbox x7) (sbox x8); mixc (sbox x2) (sbox x7) (sbox x8) (sbox x13); mixc (sbox x7) (sbox x8) (sbox x13) (sbox x2); mixc (sbox x12) (sbox x1) (sbox x6) (sbox x11); mixc (sbox x1) (sbox x6) (sbox x11) (sbox x12); mixc (sbox x6) (sbox x11) (sbox x12) (sbox x1); mixc (sbox x11) (sbox x12) (sbox x1) (sbox x6)].
Proof. unfold mixc. cbv -[Z.lxor gmul sbox]. reflexivity. Qed.
Lemma shift_explicit x0 x1 x2 x3 x4 x5 x6 x7 x8 x9 x10 x11 x12 x13 x14 x15 : shift_rows (map sbox [x0; x1; x2; x3; x4; x5; x6; x7; x8; x9; x10; x11; x12; x13; x14; x15]) =
  [sbox x0; sbox x5; sbox x10; sbox x15; sbox x4; sbox x9; sbox x14; sbox x3; sbox x8; sbox x13; sbox x2; sbox x7; sbox x12; sbox x1; sbox x6; sbox x11].
Proof. reflexivity. Qed.

(** the key schedule *)
Definition Wl (l : list Z) : Z := W (nth 0 l 0) (nth 1 l 0) (nth 2 l 0) (nth 3 l 0).
Definition wb (l : list Z) : Prop := length l = 4%nat /\ Forall isb l.
Lemma wb4 l : wb l -> exists a b c d, l = [a; b; c; d] /\ isb a /\ isb b /\ isb c /\ isb d.
Proof.
  intros [L F]. destruct l as [|a [|b [|c [|d [|e l]]]]]; cbn [length] in L; try lia. exists a, b, c, d. rewrite !Forall_cons_iff in F. tauto.
Qed.
Lemma wb_intro a b c d : isb a -> isb b -> isb c -> isb d -> wb [a; b; c; d].
Proof. intros. split; [reflexivity|]. rewrite !Forall_cons_iff. auto. Qed.
Definition rc (k : nat) : Z := Nat.iter k xtime 1.
Lemma rc_ok k : (k <= 7)%nat -> nth k Rcon 0 = W (rc k) 0 0 0 /\ isb (rc k).
Proof. intros H. unfold isb. do 8 (destruct k as [|k]; [vm_compute; intuition congruence|]). lia. Qed.
Lemma isb0 : isb 0. Proof. unfold isb. lia. Qed.
Lemma xors_wb o t : wb o -> wb t -> wb (xors o t) /\ Wl (xors o t) = Z.lxor (Wl o) (Wl t).
Proof.
  intros Ho Ht. destruct (wb4 o Ho) as (a & b & c & d & -> & A & B & C & D). destruct (wb4 t Ht) as (a' & b' & c' & d' & -> & A' & B' & C' & D').
  unfold Wl. cbn [xors map combine fst snd nth]. split; [apply wb_intro; apply isb_lxor; assumption|]. symmetry. now apply W_lxor.
Qed.
Lemma isb_sbox a : isb a -> isb (sbox a). Proof. intros H. apply (Ssm0_ok a H). Qed.
Lemma sub_wb t : wb t -> wb (map sbox t) /\ Wl (map sbox t) = SubWord (Wl t).
Proof.
  intros Ht. destruct (wb4 t Ht) as (a' & b' & c' & d' & -> & A' & B' & C' & D').
  unfold Wl. cbn [map nth]. split; [apply wb_intro; now apply isb_sbox|]. symmetry. now apply SubWord_ok.
Qed.
Lemma rot_wb t : wb t -> wb (tl t ++ firstn 1 t) /\ Wl (tl t ++ firstn 1 t) = Z.lor (k32 (Z.shiftl (Wl t) 8)) (Z.shiftr (Wl t) 24).
Proof.
  intros Ht. destruct (wb4 t Ht) as (a' & b' & c' & d' & -> & A' & B' & C' & D').
  unfold Wl. cbn [tl firstn app nth]. split; [now apply wb_intro|]. symmetry. now apply rotl8_word.
Qed.
Lemma nth_rev_w ws i : (i < length ws)%nat -> nth (length ws - S i) (map Wl (rev ws)) 0 = Wl (nth i ws []).
Proof. intros H. change 0 with (Wl []) at 1. rewrite map_nth. rewrite rev_nth by lia. f_equal. f_equal. lia. Qed.
Lemma wb_nth ws i : Forall wb ws -> (i < length ws)%nat -> wb (nth i ws []).
Proof. intros F H. rewrite Forall_forall in F. apply F. now apply nth_In. Qed.
Lemma mod8 i : (i = 8 * (i / 8) + i mod 8 /\ i mod 8 < 8)%nat.
Proof. split; [apply Nat.div_mod; lia|apply Nat.mod_upper_bound; lia]. Qed.
Lemma divmod8 i q r : (i = 8 * q + r -> r < 8 -> i / 8 = q /\ i mod 8 = r)%nat.
Proof. intros E H. split; symmetry; [apply (Nat.div_unique i 8 q r)|apply (Nat.mod_unique i 8 q r)]; lia. Qed.
Lemma keysched_ok n : forall ws, Forall wb ws -> (8 <= length ws)%nat -> (length ws + n <= 60)%nat ->
  keysched_loop n (length ws mod 8) (length ws / 8 - 1) (map Wl (rev ws)) = map Wl (rev (expand n (length ws) (rc ((length ws + 7) / 8 - 1)) ws)) /\
  Forall wb (expand n (length ws) (rc ((length ws + 7) / 8 - 1)) ws) /\ length (expand n (length ws) (rc ((length ws + 7) / 8 - 1)) ws) = (length ws + n)%nat.
Proof.
  induction n as [|n IH]; intros ws F L8 L60; cbn [keysched_loop expand]; [repeat split; auto; lia|].
  rewrite map_length, rev_length. rewrite (nth_rev_w ws 0) by lia. replace (length ws - 8)%nat with (length ws - S 7)%nat by lia. rewrite (nth_rev_w ws 7) by lia.
  pose proof (wb_nth ws 0 F ltac:(lia)) as T. pose proof (wb_nth ws 7 F ltac:(lia)) as O. set (t := nth 0 ws []) in *. set (o := nth 7 ws []) in *.
  destruct (mod8 (length ws)) as [E8 M8]. set (q := (length ws / 8)%nat) in *. set (m := (length ws mod 8)%nat) in *.
  assert (G : forall w, wb w ->
    (if (S m =? 8)%nat then keysched_loop n 0 (S (q - 1)) (map Wl (rev ws) ++ [Wl w]) else keysched_loop n (S m) (q - 1) (map Wl (rev ws) ++ [Wl w])) =
      map Wl (rev (expand n (S (length ws)) (rc ((S (length ws) + 7) / 8 - 1)) (w :: ws))) /\
    Forall wb (expand n (S (length ws)) (rc ((S (length ws) + 7) / 8 - 1)) (w :: ws)) /\ length (expand n (S (length ws)) (rc ((S (length ws) + 7) / 8 - 1)) (w :: ws)) = (length ws + S n)%nat).
  { intros w Hw. destruct (IH (w :: ws) ltac:(now constructor) ltac:(cbn [length]; lia) ltac:(cbn [length]; lia)) as (I1 & I2 & I3). cbn [length] in *.
    split; [|split; [exact I2|rewrite I3; lia]]. rewrite <- I1. cbn [rev]. rewrite map_app. cbn [map]. destruct (Nat.eqb_spec (S m) 8) as [S8|S8].
    - destruct (divmod8 (S (length ws)) (S q) 0 ltac:(lia) ltac:(lia)) as [-> ->]. f_equal. lia.
    - destruct (divmod8 (S (length ws)) q (S m) ltac:(lia) ltac:(lia)) as [-> ->]. reflexivity. }
  destruct (Nat.eqb_spec m 0) as [M0|M0].
  - destruct (rc_ok (q - 1) ltac:(lia)) as [R1 R2]. destruct (divmod8 (length ws + 7) q 7 ltac:(lia) ltac:(lia)) as [-> _].
    destruct (divmod8 (S (length ws) + 7) (S q) 0 ltac:(lia) ltac:(lia)) as [Q1 _]. rewrite Q1 in G. replace (S q - 1)%nat with (S (q - 1)) in G by lia. cbn [rc Nat.iter nat_rect] in G. fold (rc (q - 1)) in G.
    destruct (rot_wb t T) as [T1 T2]. destruct (sub_wb _ T1) as [T3 T4]. pose proof (wb_intro (rc (q - 1)) 0 0 0 R2 isb0 isb0 isb0) as T5.
    destruct (xors_wb _ _ T3 T5) as [T6 T7]. destruct (xors_wb _ _ O T6) as [T8 T9]. rewrite R1, <- T2, <- T4. specialize (G _ T8). rewrite T9, T7 in G. exact G.
  - destruct (divmod8 (length ws + 7) (S q) (m - 1) ltac:(lia) ltac:(lia)) as [-> _]. destruct (divmod8 (S (length ws) + 7) (S q) m ltac:(lia) ltac:(lia)) as [Q1 _]. rewrite Q1 in G.
    destruct (Nat.eqb_spec m 4) as [M4|M4].
    + destruct (sub_wb t T) as [T3 T4]. destruct (xors_wb _ _ O T3) as [T8 T9]. rewrite <- T4, <- T9. apply G, T8.
    + destruct (xors_wb _ _ O T) as [T8 T9]. rewrite <- T9. apply G, T8.
Qed.

(** the encryption *)
Lemma nth_cut (l : list Z) n k : (k < 4)%nat -> nth k (firstn 4 (skipn n l)) 0 = nth (n + k) l 0.
Proof.
  intros H. destruct (le_lt_dec (length l) (n + k)) as [L|L].
  - rewrite !nth_overflow; [reflexivity|lia|]. rewrite firstn_length, skipn_length. lia.
  - rewrite <- (firstn_skipn n l) at 2. rewrite app_nth2 by (rewrite firstn_length; lia). rewrite firstn_length. replace (n + k - Nat.min n (length l))%nat with k by lia.
    rewrite <- (firstn_skipn 4 (skipn n l)) at 2. rewrite app_nth1; [reflexivity|]. rewrite firstn_length, skipn_length. lia.
Qed.
Lemma isb_nth l i : Forall isb l -> isb (nth i l 0).
Proof. intros F. destruct (nth_in_or_default i l 0) as [H| ->]; [|exact isb0]. rewrite Forall_forall in F. now apply F. Qed.
Lemma k32_byte a n : isb a -> 0 <= n <= 24 -> k32 (Z.shiftl a n) = Z.shiftl a n.
Proof. intros Ha Hn. unfold k32, isb in *. rewrite Z.shiftl_mul_pow2 by lia. assert (0 < 2 ^ n <= 2 ^ 24) by (split; [apply Z.pow_pos_nonneg|apply Z.pow_le_mono_r]; lia). apply Z.mod_small. change (2 ^ 24) with 16777216 in *. change (2 ^ 32) with 4294967296. nia. Qed.
Lemma dec_ok l n : Forall isb l -> dec32be l n = Wl (firstn 4 (skipn n l)).
Proof.
  intros F. unfold Wl. rewrite !nth_cut by lia. rewrite Nat.add_0_r. unfold dec32be. rewrite !k32_byte by (try lia; now apply isb_nth). apply word_lor; now apply isb_nth.
Qed.
Lemma cut_wb l n : Forall isb l -> (n + 4 <= length l)%nat -> wb (firstn 4 (skipn n l)).
Proof.
  intros F L. split; [rewrite firstn_length, skipn_length; lia|]. rewrite Forall_forall in *. intros x Hx. apply F.
  rewrite <- (firstn_skipn n l). apply in_app_iff. right. rewrite <- (firstn_skipn 4 (skipn n l)). apply in_app_iff. now left.
Qed.
Definition words_of (key : list Z) : list (list Z) := rev (expand 52 8 1 (rev (chunk4 key))).
Lemma words_ok key : length key = 32%nat -> Forall isb key -> aes256_keysched key = map Wl (words_of key) /\ Forall wb (words_of key) /\ length (words_of key) = 60%nat.
Proof.
  intros L F. assert (Lc : length (rev (chunk4 key)) = 8%nat) by (rewrite rev_length; unfold chunk4; rewrite map_length, seq_length, L; reflexivity).
  assert (Fc : Forall wb (rev (chunk4 key))). { apply Forall_rev. unfold chunk4. rewrite L. apply Forall_map, Forall_forall. intros i Hi. apply in_seq in Hi. change (32 / 4)%nat with 8%nat in Hi. apply cut_wb; [exact F|lia]. }
  pose proof (keysched_ok 52 (rev (chunk4 key)) Fc) as K. rewrite Lc in K. specialize (K ltac:(lia) ltac:(lia)).
  change (8 mod 8)%nat with 0%nat in K. change (8 / 8 - 1)%nat with 0%nat in K. change ((8 + 7) / 8 - 1)%nat with 0%nat in K. change (rc 0) with 1 in K.
  unfold words_of. unfold aes256_keysched. generalize dependent (expand 52 8 1 (rev (chunk4 key))). intros e K. destruct K as (K1 & K2 & K3). rewrite rev_involutive in K1. split; [|split; [now apply Forall_rev|now rewrite rev_length]].
  rewrite <- K1. f_equal. unfold chunk4. rewrite map_map, L. change (32 / 4)%nat with 8%nat. apply map_ext. intros i. now apply dec_ok.
Qed.
Lemma rk_cut (ws : list (list Z)) r : Forall wb ws -> length ws = 60%nat -> (r < 15)%nat -> exists w0 w1 w2 w3, wb w0 /\ wb w1 /\ wb w2 /\ wb w3 /\
  firstn 4 (skipn (4 * r) ws) = [w0; w1; w2; w3] /\ nth (4 * r) (map Wl ws) 0 = Wl w0 /\ nth (4 * r + 1) (map Wl ws) 0 = Wl w1 /\ nth (4 * r + 2) (map Wl ws) 0 = Wl w2 /\ nth (4 * r + 3) (map Wl ws) 0 = Wl w3.
Proof.
  intros F L H. rewrite <- (firstn_skipn (4 * r) ws) in *. set (h := firstn (4 * r) ws) in *. set (t := skipn (4 * r) ws) in *.
  assert (Lh : length h = (4 * r)%nat) by (unfold h; rewrite firstn_length; rewrite app_length in L; unfold h, t in L; rewrite firstn_length, skipn_length in L; lia).
  rewrite app_length in L. apply Forall_app in F. destruct F as [_ F]. rewrite skipn_app, Lh, Nat.sub_diag. rewrite skipn_all2 by lia. cbn [skipn app]. clearbody h t.
  destruct t as [|w0 [|w1 [|w2 [|w3 t]]]]; cbn [length] in L; try lia. rewrite !Forall_cons_iff in F. exists w0, w1, w2, w3.
  rewrite map_app. rewrite !app_nth2 by (rewrite map_length; lia). rewrite map_length, Lh, Nat.sub_diag.
  replace (4 * r + 1 - 4 * r)%nat with 1%nat by lia. replace (4 * r + 2 - 4 * r)%nat with 2%nat by lia. replace (4 * r + 3 - 4 * r)%nat with 3%nat by lia. cbn [map nth firstn]. tauto.
Qed.
Lemma Wl4 a b c d : Wl [a; b; c; d] = W a b c d. Proof. reflexivity. Qed.
Definition rel (s : list Z) (c : words4) : Prop := exists w0 w1 w2 w3, wb w0 /\ wb w1 /\ wb w2 /\ wb w3 /\ s = w0 ++ w1 ++ w2 ++ w3 /\ c = (Wl w0, Wl w1, Wl w2, Wl w3).
Lemma rel_intro p0 p1 p2 p3 q0 q1 q2 q3 r0 r1 r2 r3 t0 t1 t2 t3 : isb p0 -> isb p1 -> isb p2 -> isb p3 -> isb q0 -> isb q1 -> isb q2 -> isb q3 -> isb r0 -> isb r1 -> isb r2 -> isb r3 -> isb t0 -> isb t1 -> isb t2 -> isb t3 ->
  rel ([p0; p1; p2; p3] ++ [q0; q1; q2; q3] ++ [r0; r1; r2; r3] ++ [t0; t1; t2; t3]) (W p0 p1 p2 p3, W q0 q1 q2 q3, W r0 r1 r2 r3, W t0 t1 t2 t3).
Proof. intros. exists [p0; p1; p2; p3], [q0; q1; q2; q3], [r0; r1; r2; r3], [t0; t1; t2; t3]. repeat (split; [now apply wb_intro|]). split; reflexivity. Qed.
Section Enc.
Variable ws : list (list Z).
Hypothesis Hw : Forall wb ws.
Hypothesis Hl : length ws = 60%nat.
Let rkey (r : nat) : list Z := concat (firstn 4 (skipn (4 * r) ws)).
Lemma add_key_ok s c r : (r < 15)%nat -> rel s c -> rel (xors s (rkey r)) (c_add_key (map Wl ws) r c).
Proof.
  intros Hr (x0 & x1 & x2 & x3 & X0 & X1 & X2 & X3 & -> & ->). destruct (rk_cut ws r Hw Hl Hr) as (k0 & k1 & k2 & k3 & K0 & K1 & K2 & K3 & E & E0 & E1 & E2 & E3).
  exists (xors x0 k0), (xors x1 k1), (xors x2 k2), (xors x3 k3). repeat (split; [now apply xors_wb|]). split.
  - unfold rkey. rewrite E. cbn [concat]. rewrite app_nil_r.
    destruct (wb4 _ X0) as (? & ? & ? & ? & -> & _), (wb4 _ X1) as (? & ? & ? & ? & -> & _), (wb4 _ X2) as (? & ? & ? & ? & -> & _), (wb4 _ X3) as (? & ? & ? & ? & -> & _).
    destruct (wb4 _ K0) as (? & ? & ? & ? & -> & _), (wb4 _ K1) as (? & ? & ? & ? & -> & _), (wb4 _ K2) as (? & ? & ? & ? & -> & _), (wb4 _ K3) as (? & ? & ? & ? & -> & _). reflexivity.
  - unfold c_add_key. rewrite E0, E1, E2, E3, !(fun a b Ha Hb => proj2 (xors_wb a b Ha Hb)) by assumption. reflexivity.
Qed.
Lemma isb_mixc a b c d : isb a -> isb b -> isb c -> isb d -> isb (mixc (sbox a) (sbox b) (sbox c) (sbox d)).
Proof. intros A B C D. destruct (Ssm0_ok a A) as (_ & ? & ? & ?), (Ssm0_ok b B) as (_ & ? & ? & ?), (Ssm0_ok c C) as (_ & ? & ? & ?), (Ssm0_ok d D) as (_ & ? & ? & ?). now apply isb_mix. Qed.
Ltac explode H := let a := fresh "x" in let b := fresh "x" in let c := fresh "x" in let d := fresh "x" in destruct (wb4 _ H) as (a & b & c & d & -> & ? & ? & ? & ?).
Lemma round_ok s c r : (r < 15)%nat -> rel s c -> rel (aes_round false s (rkey r)) (c_aes_round (map Wl ws) c r).
Proof.
  intros Hr (x0 & x1 & x2 & x3 & X0 & X1 & X2 & X3 & -> & ->).
  destruct (wb4 _ X0) as (a0 & a1 & a2 & a3 & -> & A0 & A1 & A2 & A3), (wb4 _ X1) as (b0 & b1 & b2 & b3 & -> & B0 & B1 & B2 & B3), (wb4 _ X2) as (c0 & c1 & c2 & c3 & -> & C0 & C1 & C2 & C3), (wb4 _ X3) as (d0 & d1 & d2 & d3 & -> & D0 & D1 & D2 & D3).
  unfold c_aes_round. rewrite !Wl4. rewrite !mix_word_ok by (unfold isw; auto).
  match goal with |- rel _ (c_add_key _ _ (W ?p0 ?p1 ?p2 ?p3, W ?q0 ?q1 ?q2 ?q3, W ?r0 ?r1 ?r2 ?r3, W ?t0 ?t1 ?t2 ?t3)) =>
    assert (R : rel ([p0; p1; p2; p3] ++ [q0; q1; q2; q3] ++ [r0; r1; r2; r3] ++ [t0; t1; t2; t3]) (W p0 p1 p2 p3, W q0 q1 q2 q3, W r0 r1 r2 r3, W t0 t1 t2 t3)) end.
  { apply rel_intro; now apply isb_mixc. }
  apply (add_key_ok _ _ r Hr) in R. unfold aes_round. cbv zeta iota. cbn [app] in *. rewrite mix_explicit. exact R.
Qed.
Lemma last_ok s c r : (r < 15)%nat -> rel s c -> rel (aes_round true s (rkey r)) (c_add_key (map Wl ws) r (let '(s0, s1, s2, s3) := c in (last_word s0 s1 s2 s3, last_word s1 s2 s3 s0, last_word s2 s3 s0 s1, last_word s3 s0 s1 s2))).
Proof.
  intros Hr (x0 & x1 & x2 & x3 & X0 & X1 & X2 & X3 & -> & ->).
  destruct (wb4 _ X0) as (a0 & a1 & a2 & a3 & -> & A0 & A1 & A2 & A3), (wb4 _ X1) as (b0 & b1 & b2 & b3 & -> & B0 & B1 & B2 & B3), (wb4 _ X2) as (c0 & c1 & c2 & c3 & -> & C0 & C1 & C2 & C3), (wb4 _ X3) as (d0 & d1 & d2 & d3 & -> & D0 & D1 & D2 & D3).
  rewrite !Wl4. rewrite !last_word_ok by (unfold isw; auto).
  match goal with |- rel _ (c_add_key _ _ (W ?p0 ?p1 ?p2 ?p3, W ?q0 ?q1 ?q2 ?q3, W ?r0 ?r1 ?r2 ?r3, W ?t0 ?t1 ?t2 ?t3)) =>
    assert (R : rel ([p0; p1; p2; p3] ++ [q0; q1; q2; q3] ++ [r0; r1; r2; r3] ++ [t0; t1; t2; t3]) (W p0 p1 p2 p3, W q0 q1 q2 q3, W r0 r1 r2 r3, W t0 t1 t2 t3)) end.
  { apply rel_intro; now apply isb_sbox. }
  apply (add_key_ok _ _ r Hr) in R. unfold aes_round. cbv zeta iota. cbn [app] in *. rewrite shift_explicit. exact R.
Qed.
Lemma rounds_ok l : forall s c, Forall (fun r => r < 15)%nat l -> rel s c -> rel (fold_left (aes_round false) (map rkey l) s) (fold_left (c_aes_round (map Wl ws)) l c).
Proof. induction l as [|r l IH]; intros s c F R; cbn [map fold_left]; [exact R|]. inversion F; subst. apply IH; [assumption|]. now apply round_ok. Qed.
End Enc.
Lemma enc_rel s s0 s1 s2 s3 : rel s (s0, s1, s2, s3) -> enc32be s0 ++ enc32be s1 ++ enc32be s2 ++ enc32be s3 = norm16 s.
Proof.
  intros (x0 & x1 & x2 & x3 & X0 & X1 & X2 & X3 & -> & E). injection E as -> -> -> ->.
  destruct (wb4 _ X0) as (a0 & a1 & a2 & a3 & -> & A0 & A1 & A2 & A3), (wb4 _ X1) as (b0 & b1 & b2 & b3 & -> & B0 & B1 & B2 & B3), (wb4 _ X2) as (c0 & c1 & c2 & c3 & -> & C0 & C1 & C2 & C3), (wb4 _ X3) as (d0 & d1 & d2 & d3 & -> & D0 & D1 & D2 & D3).
  rewrite !Wl4. rewrite !W_enc by assumption. unfold norm16. cbn [map seq nth app]. unfold isb in *. rewrite !Z.mod_small by assumption. reflexivity.
Qed.
Theorem AES256_ok key v : length key = 32%nat -> bytes key -> length v = 16%nat -> bytes v -> AES256_ECB key v = aes256 key v.
Proof.
  intros Lk Bk Lv Bv. assert (Fk : Forall isb key) by exact Bk. assert (Fv : Forall isb v) by exact Bv. destruct (words_ok key Lk Fk) as (E & F & L).
  assert (RK : round_keys key = map (fun r => concat (firstn 4 (skipn (4 * r) (words_of key)))) (seq 0 15)) by (unfold round_keys, words_of; reflexivity).
  unfold AES256_ECB, aes256_encrypt, aes256. rewrite E, RK. clear E RK. generalize dependent (words_of key). intros ws F L. rewrite !dec_ok by assumption.
  assert (R : rel v (Wl (firstn 4 (skipn 0 v)), Wl (firstn 4 (skipn 4 v)), Wl (firstn 4 (skipn 8 v)), Wl (firstn 4 (skipn 12 v)))).
  { exists (firstn 4 (skipn 0 v)), (firstn 4 (skipn 4 v)), (firstn 4 (skipn 8 v)), (firstn 4 (skipn 12 v)). do 4 (split; [apply cut_wb; [exact Fv|rewrite Lv; lia]|]). split; [|reflexivity].
    do 16 (destruct v as [|? v]; [cbn [length] in Lv; lia|]). destruct v; [reflexivity|cbn [length] in Lv; lia]. }
  apply (add_key_ok _ F L _ _ 0%nat ltac:(lia)) in R. apply (rounds_ok _ F L (seq 1 13)) in R; [|apply Forall_forall; intros r Hr; apply in_seq in Hr; lia].
  apply (last_ok _ F L _ _ 14%nat ltac:(lia)) in R.
  cbn [seq map nth skipn firstn] in *. cbv zeta.
  match type of R with context [fold_left (c_aes_round ?a) ?b ?c] => destruct (fold_left (c_aes_round a) b c) as [[[s0 s1] s2] s3] end.
  match type of R with context [c_add_key ?a 14%nat ?c] => destruct (c_add_key a 14%nat c) as [[[t0 t1] t2] t3] end.
  exact (enc_rel _ _ _ _ _ R).
Qed.

(** the counter *)
Definition le_int (l : list Z) : Z := fold_right (fun b a => b + 256 * a) 0 l.
Lemma be_rev l : be_int (rev l) = le_int l.
Proof. unfold be_int, le_int. rewrite <- fold_left_rev_right, rev_involutive. induction l as [|b l IH]; cbn [fold_right]; [reflexivity|]. rewrite IH. lia. Qed.
Lemma le_bnd l : bytes l -> 0 <= le_int l < 256 ^ Z.of_nat (length l).
Proof. intros B. rewrite <- be_rev. rewrite <- (rev_length l). apply be_bnd. now apply Forall_rev. Qed.
Lemma incr_rev_ok l : bytes l -> length (incr_rev l) = length l /\ bytes (incr_rev l) /\ le_int (incr_rev l) = (le_int l + 1) mod 256 ^ Z.of_nat (length l).
Proof.
  induction l as [|v l IH]; intros B; cbn [incr_rev]; [repeat split; constructor|]. inversion B as [|? ? Bv Bl]; subst. destruct (IH Bl) as (I1 & I2 & I3). pose proof (le_bnd l Bl) as Hb.
  assert (P : 256 ^ Z.of_nat (length (v :: l)) = 256 * 256 ^ Z.of_nat (length l)) by (cbn [length]; rewrite Nat2Z.inj_succ, Z.pow_succ_r by lia; reflexivity). rewrite P.
  unfold is_byte in Bv. destruct (Z.eqb_spec v 0xff) as [E|E].
  - cbn [length]. rewrite I1. split; [reflexivity|split; [constructor; [unfold is_byte; lia|exact I2]|]]. cbn [le_int fold_right]. fold (le_int (incr_rev l)). fold (le_int l). rewrite I3, E.
    replace (255 + 256 * le_int l + 1) with (256 * (le_int l + 1)) by lia. rewrite Z.mul_mod_distr_l by lia. lia.
  - cbn [length]. split; [reflexivity|split; [constructor; [unfold is_byte; apply Z.mod_pos_bound; lia|exact Bl]|]]. cbn [le_int fold_right]. fold (le_int l).
    rewrite (Z.mod_small (v + 1)) by lia. rewrite Z.mod_small by lia. lia.
Qed.
Lemma incr_V_ok V : bytes V -> length V = 16%nat -> incr_V V = increment_counter V /\ bytes (incr_V V) /\ length (incr_V V) = 16%nat.
Proof.
  intros B L. destruct (incr_rev_ok (rev V) ltac:(now apply Forall_rev)) as (I1 & I2 & I3). rewrite rev_length, L in *.
  assert (Bi : bytes (incr_V V)) by (unfold incr_V; now apply Forall_rev). assert (Li : length (incr_V V) = 16%nat) by (unfold incr_V; now rewrite rev_length).
  split; [|split; assumption]. unfold increment_counter. rewrite <- (to_be_be (incr_V V) Bi), Li. f_equal. unfold incr_V. rewrite be_rev, I3. rewrite <- be_rev, rev_involutive. reflexivity.
Qed.
Lemma cipher_ok_aes : cipher_ok aes256. Proof. intros k v _ _. apply aes256_block. Qed.
Lemma xors48 a b : length a = 48%nat -> length b = 48%nat -> map (fun i => Z.lxor (nth i a 0) (nth i b 0)) (seq 0 48) = xor_bytes a b.
Proof. intros La Lb. rewrite xor_bytes_spec by lia. unfold xorb. now rewrite La. Qed.
Definition kv (K V : list Z) : Prop := length K = 32%nat /\ bytes K /\ length V = 16%nat /\ bytes V.
Lemma temp_ok K V : kv K V -> exists V' t, c_temp K V = (V', t) /\
  update_loop aes256 4 K V [] = Some (V', t) /\ length t = 48%nat /\ bytes t.
Proof.
  intros (LK & BK & LV & BV). destruct (incr_V_ok V BV LV) as (E1 & B1 & L1). destruct (incr_V_ok _ B1 L1) as (E2 & B2 & L2). destruct (incr_V_ok _ B2 L2) as (E3 & B3 & L3).
  unfold c_temp. cbn [seq fold_left]. cbv zeta. rewrite !AES256_ok by assumption. rewrite E3, E2, E1. set (V1 := increment_counter V) in *. set (V2 := increment_counter V1) in *. set (V3 := increment_counter V2) in *.
  destruct (aes256_block K V1) as [a1 b1], (aes256_block K V2) as [a2 b2], (aes256_block K V3) as [a3 b3].
  exists V3, (([] ++ aes256 K V1) ++ aes256 K V2 ++ aes256 K V3). split; [now rewrite app_assoc|]. split; [|split].
  - rewrite update_step by (cbn [length]; lia). fold V1. rewrite update_step by (rewrite app_length; cbn [length]; lia). fold V2. rewrite update_step by (rewrite !app_length; cbn [length]; lia). fold V3.
    rewrite update_done by (rewrite !app_length; cbn [length]; lia). now rewrite !app_assoc.
  - rewrite !app_length. cbn [length]. lia.
  - apply Forall_app. split; [exact b1|]. apply Forall_app. split; [exact b2|exact b3].
Qed.
Lemma xor_zeros t : forall n, length t = n -> xor_bytes t (repeat 0 n) = t.
Proof. induction t as [|b t IH]; intros n <-; [reflexivity|]. unfold xor_bytes in *. cbn [length repeat combine map fst snd]. rewrite Z.lxor_0_r. now rewrite (IH (length t)). Qed.
Definition given (p : option (list Z)) : list Z := match p with Some d => d | None => repeat 0 48 end.
Lemma c_update_ok p K V : kv K V -> length (given p) = 48%nat -> bytes (given p) ->
  ctr_drbg_update aes256 (given p) K V = Some (c_update p K V) /\ kv (fst (c_update p K V)) (snd (c_update p K V)).
Proof.
  intros H Lp Bp. destruct (temp_ok K V H) as (V' & t & E1 & E2 & Lt & Bt). unfold c_update, ctr_drbg_update. rewrite E1, E2. rewrite (firstn_all2 (n := seed_length)) by (unfold seed_length; lia).
  assert (E : match p with None => t | Some d => map (fun i => Z.lxor (nth i t 0) (nth i d 0)) (seq 0 48) end = xor_bytes t (given p)).
  { destruct p as [d|]; cbn [given] in *; [now apply xors48|]. symmetry. now apply xor_zeros. }
  rewrite E. set (u := xor_bytes t (given p)). assert (Lu : length u = 48%nat) by (unfold u, xor_bytes; rewrite map_length, combine_length; lia).
  assert (Bu : bytes u) by (unfold u; rewrite xor_bytes_spec by lia; apply xorb_bytes; assumption).
  assert (L2 : length (skipn 32 u) = 16%nat) by (rewrite skipn_length; lia). rewrite (firstn_all2 (n := 16)) by lia. split; [reflexivity|].
  unfold kv. cbn [fst snd]. rewrite firstn_length. repeat split; [lia|now apply bytes_firstn|exact L2|now apply bytes_skipn].
Qed.
Lemma collect_done f K V t num : num <= Z.of_nat (length t) -> collect aes256 f K V t num = Some (V, t).
Proof. intros H. destruct f; cbn [collect]; destruct (Z.ltb_spec (Z.of_nat (length t)) num); try lia; reflexivity. Qed.
Lemma c_random_ok K : forall fuel xlen V x f, kv K V -> (xlen <= fuel)%nat -> (xlen <= f)%nat ->
  exists V' t, collect aes256 f K V x (Z.of_nat (length x + xlen)) = Some (V', t) /\ c_random_loop fuel xlen K V x = (V', firstn (length x + xlen) t) /\ kv K V'.
Proof.
  induction fuel as [|fuel IH]; intros xlen V x f H Hl Hf.
  - assert (xlen = 0)%nat as -> by lia. exists V, x. rewrite collect_done by lia. cbn [c_random_loop]. rewrite firstn_all2 by lia. auto.
  - destruct xlen as [|xl]; [exists V, x; rewrite collect_done by lia; cbn [c_random_loop]; rewrite firstn_all2 by lia; auto|].
    cbn [c_random_loop]. destruct H as (LK & BK & LV & BV). destruct (incr_V_ok V BV LV) as (E1 & B1 & L1). rewrite AES256_ok by assumption. rewrite E1 in *. set (V1 := increment_counter V) in *.
    destruct (aes256_block K V1) as [La Ba]. destruct f as [|f]; [lia|]. cbn [collect]. destruct (Z.ltb_spec (Z.of_nat (length x)) (Z.of_nat (length x + S xl))); [|lia]. cbv zeta. fold V1.
    destruct (Nat.ltb_spec 15 (S xl)) as [C|C].
    + rewrite (firstn_all2 (n := 16)) by lia. destruct (IH (S xl - 16)%nat V1 (x ++ aes256 K V1) f ltac:(now repeat split) ltac:(lia) ltac:(lia)) as (V' & t & F1 & F2 & F3).
      rewrite app_length, La in F1, F2. replace (length x + 16 + (S xl - 16))%nat with (length x + S xl)%nat in * by lia. exists V', t. auto.
    + rewrite collect_done by (rewrite app_length; lia). exists V1, (x ++ aes256 K V1). split; [reflexivity|]. split; [|now repeat split].
      rewrite firstn_app. rewrite (firstn_all2 x) by lia. replace (length x + S xl - length x)%nat with (S xl) by lia. reflexivity.
Qed.
Lemma randombytes_ok n K V c : kv K V -> c < 2 ^ 48 -> let '(K', V', x) := randombytes (K, V) n in
  random_bytes aes256 (mk_drbg K V c) (Z.of_nat n) None = Some (mk_drbg K' V' (c + 1), Ok x) /\ kv K' V'.
Proof.
  intros H Hc. unfold randombytes. destruct (c_random_ok K n n V [] n H (le_n _) (le_n _)) as (V1 & t & E1 & E2 & H1). rewrite E2. cbn [length Nat.add] in *.
  destruct (c_update_ok None K V1 H1 eq_refl (bytes_zeros 48)) as [U1 U2]. cbn [given] in U1. destruct (c_update None K V1) as [K' V']. cbn [fst snd] in U2.
  split; [|exact U2]. unfold random_bytes, reseed_interval. cbn [d_ctr d_key d_V]. destruct (Z.leb_spec (2 ^ 48) c); [lia|]. rewrite Nat2Z.id, E1. unfold seed_length. rewrite U1. reflexivity.
Qed.
