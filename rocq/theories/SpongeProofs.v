(** The sponge: python KeccakHash = FIPS 202 sponge. *)
From Verif Require Import Base KeccakModel KeccakSpec KeccakProofs.

(** ** Bytes and lanes *)
Lemma le8_length x : length (le8 x) = 8%nat.
Proof. reflexivity. Qed.
Lemma le8_bytes x : bytes (le8 x).
Proof. unfold bytes, le8. apply Forall_map, Forall_forall. intros i _. apply Z.mod_pos_bound. lia. Qed.

Lemma of_le_le8 x : u64 x -> of_le (le8 x) = x.
Proof.
  intros [H0 H1]. unfold le8, of_le. cbn [seq map fold_right Z.of_nat Pos.of_succ_nat Pos.succ].
  change (256 ^ 0) with 1. change (256 ^ 1) with 256.
  change (256 ^ 2) with (256 * 256). change (256 ^ 3) with (256 * 256 * 256).
  change (256 ^ 4) with (256 * 256 * 256 * 256). change (256 ^ 5) with (256 * 256 * 256 * 256 * 256).
  change (256 ^ 6) with (256 * 256 * 256 * 256 * 256 * 256).
  change (256 ^ 7) with (256 * 256 * 256 * 256 * 256 * 256 * 256).
  rewrite <- !Z.div_div by lia. rewrite Z.div_1_r.
  set (x1 := x / 256). set (x2 := x1 / 256). set (x3 := x2 / 256). set (x4 := x3 / 256).
  set (x5 := x4 / 256). set (x6 := x5 / 256). set (x7 := x6 / 256).
  assert (x7 < 256) by (unfold x7, x6, x5, x4, x3, x2, x1; rewrite !Z.div_div by lia;
                        apply Z.div_lt_upper_bound; lia).
  assert (0 <= x7) by (unfold x7, x6, x5, x4, x3, x2, x1; rewrite !Z.div_div by lia; apply Z.div_pos; lia).
  rewrite (Z.mod_small x7) by lia.
  assert (E : forall y, y = 256 * (y / 256) + y mod 256) by (intros; apply Z.div_mod; lia).
  rewrite (E x) at 2. fold x1. rewrite (E x1) at 2. fold x2. rewrite (E x2) at 2. fold x3.
  rewrite (E x3) at 2. fold x4. rewrite (E x4) at 2. fold x5. rewrite (E x5) at 2. fold x6.
  rewrite (E x6) at 2. fold x7.
  generalize (x mod 256) (x1 mod 256) (x2 mod 256) (x3 mod 256) (x4 mod 256) (x5 mod 256) (x6 mod 256).
  clearbody x7 x6 x5 x4 x3 x2 x1. clear. intros. ring.
Qed.

Lemma of_le_u64 l : length l = 8%nat -> bytes l -> u64 (of_le l).
Proof.
  intros L B. assert (G : forall l, bytes l -> 0 <= of_le l < 256 ^ Z.of_nat (length l)).
  { clear. induction 1 as [|b l Hb Hl IH]; [cbn; lia|]. cbn [of_le fold_right length]. fold (of_le l).
    unfold is_byte in Hb. rewrite Nat2Z.inj_succ, Z.pow_succ_r by lia. lia. }
  specialize (G l B). rewrite L in G. exact G.
Qed.

Lemma le8_of_le l : length l = 8%nat -> bytes l -> le8 (of_le l) = l.
Proof.
  intros L B. do 8 (destruct l as [|? l]; [discriminate L|]). destruct l; [|discriminate L].
  unfold bytes in B.
  repeat match goal with H : Forall _ (_ :: _) |- _ => inversion H; clear H; subst end.
  unfold is_byte in *. unfold le8, of_le. cbn [seq map fold_right Z.of_nat Pos.of_succ_nat Pos.succ].
  change (256 ^ 0) with 1. change (256 ^ 1) with 256.
  change (256 ^ 2) with (256 * 256). change (256 ^ 3) with (256 * 256 * 256).
  change (256 ^ 4) with (256 * 256 * 256 * 256). change (256 ^ 5) with (256 * 256 * 256 * 256 * 256).
  change (256 ^ 6) with (256 * 256 * 256 * 256 * 256 * 256).
  change (256 ^ 7) with (256 * 256 * 256 * 256 * 256 * 256 * 256).
  rewrite <- !Z.div_div by lia. rewrite Z.div_1_r.
  assert (D : forall b a, 0 <= b < 256 -> (b + 256 * a) / 256 = a) by (clear; intros; lia).
  assert (M : forall b a, 0 <= b < 256 -> (b + 256 * a) mod 256 = b) by (clear; intros; lia).
  repeat rewrite D by assumption. repeat rewrite M by assumption. reflexivity.
Qed.

Lemma bytes_of_lanes_length s : length (bytes_of_lanes s) = (8 * length s)%nat.
Proof. induction s as [|a s IH]; auto. unfold bytes_of_lanes in *. cbn [flat_map]. rewrite app_length, IH, le8_length. cbn. lia. Qed.
Lemma bytes_of_lanes_bytes s : bytes (bytes_of_lanes s).
Proof. induction s as [|a s IH]; [constructor|]. unfold bytes_of_lanes in *. cbn [flat_map]. apply bytes_app. split; auto using le8_bytes. Qed.

Lemma lanes_of_bytes_n_inv s : Forall u64 s -> lanes_of_bytes_n (length s) (bytes_of_lanes s) = s.
Proof.
  induction 1 as [|a s Ha Hs IH]; auto. unfold bytes_of_lanes. cbn [length lanes_of_bytes_n flat_map].
  rewrite firstn_app_exact, skipn_app_exact by reflexivity. fold (bytes_of_lanes s).
  rewrite IH, of_le_le8; auto.
Qed.
Lemma lanes_of_bytes_inv s : ok25 s -> lanes_of_bytes (bytes_of_lanes s) = s.
Proof. intros [L F]. unfold lanes_of_bytes. rewrite <- L. now apply lanes_of_bytes_n_inv. Qed.

Lemma lanes_of_bytes_n_length k b : length (lanes_of_bytes_n k b) = k.
Proof. revert b; induction k; intros; cbn; auto. Qed.
Lemma lanes_of_bytes_n_u64 k : forall b, length b = (8 * k)%nat -> bytes b -> Forall u64 (lanes_of_bytes_n k b).
Proof.
  induction k as [|k IH]; intros b L B; cbn [lanes_of_bytes_n]; constructor.
  - apply of_le_u64; [rewrite firstn_length; lia|now apply bytes_firstn].
  - apply IH; [rewrite skipn_length; lia|now apply bytes_skipn].
Qed.
Lemma lanes_of_bytes_ok b : length b = 200%nat -> bytes b -> ok25 (lanes_of_bytes b).
Proof. intros L B. split; [apply lanes_of_bytes_n_length|]. apply lanes_of_bytes_n_u64; auto. Qed.

Lemma bytes_of_lanes_inv_n k : forall b, length b = (8 * k)%nat -> bytes b ->
  bytes_of_lanes (lanes_of_bytes_n k b) = b.
Proof.
  induction k as [|k IH]; intros b L B.
  - destruct b; [reflexivity|cbn in L; lia].
  - unfold bytes_of_lanes. cbn [lanes_of_bytes_n flat_map].
    fold (bytes_of_lanes (lanes_of_bytes_n k (skipn 8 b))).
    rewrite IH by (try apply bytes_skipn; auto; rewrite skipn_length; lia).
    rewrite le8_of_le by (try apply bytes_firstn; auto; rewrite firstn_length; lia).
    apply firstn_skipn.
Qed.
Lemma bytes_of_lanes_inv b : length b = 200%nat -> bytes b -> bytes_of_lanes (lanes_of_bytes b) = b.
Proof. intros. apply bytes_of_lanes_inv_n; auto. Qed.

(** ** xor *)
Lemma xorl_length a b : length (xorl a b) = length a.
Proof. revert b; induction a as [|x a IH]; intros [|y b]; cbn; auto. Qed.
Lemma xorl_ok a b : length b = length a -> Forall u64 a -> Forall u64 b -> Forall u64 (xorl a b).
Proof.
  revert b; induction a as [|x a IH]; intros [|y b] L Ha Hb; cbn in *; auto; try discriminate.
  inversion Ha; inversion Hb; subst. constructor; auto using u64_lxor.
Qed.

Lemma le8_lxor a b : le8 (Z.lxor a b) = xor_bytes (le8 a) (le8 b).
Proof.
  unfold xor_bytes, le8.
  assert (G : forall i, (Z.lxor a b / 256 ^ i) mod 256 = Z.lxor ((a / 256 ^ i) mod 256) ((b / 256 ^ i) mod 256)
              \/ i < 0).
  { intros i. destruct (Z_lt_le_dec i 0) as [|Hi]; [now right|]. left.
    change 256 with (2 ^ 8). rewrite <- !Z.pow_mul_r by lia.
    rewrite <- !Z.shiftr_div_pow2 by lia. rewrite Z.shiftr_lxor.
    apply Z.bits_inj'. intros z Hz. rewrite Z.lxor_spec.
    destruct (Z_lt_le_dec z 8).
    - rewrite !Z.mod_pow2_bits_low, Z.lxor_spec by lia. reflexivity.
    - rewrite !Z.mod_pow2_bits_high by lia. reflexivity. }
  cbn [seq map combine fst snd].
  repeat (apply f_equal2; [match goal with |- context [256 ^ Z.of_nat ?i] => destruct (G (Z.of_nat i)) as [E|E]; [exact E|lia] end|]).
  reflexivity.
Qed.

Lemma combine_app {A B} (a1 a2 : list A) (b1 b2 : list B) : length a1 = length b1 ->
  combine (a1 ++ a2) (b1 ++ b2) = combine a1 b1 ++ combine a2 b2.
Proof. revert b1; induction a1 as [|x a1 IH]; intros [|y b1] L; cbn in *; auto; try discriminate. f_equal. auto. Qed.

Lemma xor_bytes_app a1 a2 b1 b2 : length a1 = length b1 ->
  xor_bytes (a1 ++ a2) (b1 ++ b2) = xor_bytes a1 b1 ++ xor_bytes a2 b2.
Proof. intros. unfold xor_bytes. now rewrite combine_app, map_app. Qed.

Lemma bytes_of_lanes_xor a : forall b, length b = length a ->
  bytes_of_lanes (xorl a b) = xor_bytes (bytes_of_lanes a) (bytes_of_lanes b).
Proof.
  induction a as [|x a IH]; intros [|y b] L; cbn [length] in L; try discriminate; auto.
  unfold bytes_of_lanes. cbn [xorl flat_map]. rewrite xor_bytes_app by reflexivity.
  rewrite le8_lxor. f_equal. apply IH. lia.
Qed.

Lemma xorl_zero d : forall k, (length d <= k)%nat -> xorl (repeat 0 k) d = d ++ repeat 0 (k - length d).
Proof.
  induction d as [|x d IH]; intros k Hk; cbn [length app] in *.
  - rewrite Nat.sub_0_r. destruct k; reflexivity.
  - destruct k as [|k]; [lia|]. cbn [repeat xorl]. rewrite Z.lxor_0_l. f_equal. rewrite IH by lia. reflexivity.
Qed.

Lemma xor_at_rest rest d k : (length d <= k)%nat ->
  xor_at (length rest) d (rest ++ repeat 0 k) = (rest ++ d) ++ repeat 0 (k - length d).
Proof.
  intros H. unfold xor_at. rewrite firstn_app_exact, skipn_app_exact by reflexivity.
  rewrite xorl_zero by auto. apply app_assoc.
Qed.

Lemma bytes_repeat0 k : bytes (repeat 0 k).
Proof. apply Forall_forall. intros x Hx. apply repeat_spec in Hx. subst. unfold is_byte. lia. Qed.

Lemma lxor_byte a b : is_byte a -> is_byte b -> is_byte (Z.lxor a b).
Proof.
  unfold is_byte. intros Ha Hb. split; [apply Z.lxor_nonneg; lia|].
  destruct (Z.eq_dec (Z.lxor a b) 0) as [->|]; [lia|]. change 256 with (2^8).
  apply Z.log2_lt_pow2. { assert (0 <= Z.lxor a b) by (apply Z.lxor_nonneg; lia). lia. }
  pose proof (Z.log2_lxor a b ltac:(lia) ltac:(lia)) as Hl.
  assert (forall x, 0 <= x < 256 -> Z.log2 x < 8).
  { intros x Hx. destruct (Z.eq_dec x 0) as [->|]; [cbn; lia|]. apply Z.log2_lt_pow2; lia. }
  pose proof (H a Ha). pose proof (H b Hb). lia.
Qed.

Lemma xor_bytes_zero a : xor_bytes a (repeat 0 (length a)) = a.
Proof.
  induction a as [|x a IH]; auto. unfold xor_bytes in *. cbn [length repeat combine map fst snd].
  rewrite Z.lxor_0_r. f_equal. exact IH.
Qed.

Lemma slice_nth i w l : (i + w <= length l)%nat -> slice i (i + w) l = map (fun j => nth j l 0) (seq i w).
Proof.
  intros H. unfold slice. replace (i + w - i)%nat with w by lia. revert i l H.
  induction w as [|w IH]; intros i l H; auto. cbn [seq map].
  rewrite <- (IH (S i) l) by lia.
  assert (E : skipn i l = nth i l 0 :: skipn (S i) l).
  { clear -H. revert l H. induction i as [|i IHi]; intros [|a l] H; cbn [length] in H; try lia; auto.
    cbn [skipn nth]. rewrite IHi by lia. reflexivity. }
  rewrite E. reflexivity.
Qed.

Lemma xorl_nil a : xorl a [] = a. Proof. destruct a; reflexivity. Qed.

Section S.
Variable F : list Z -> list Z.
Variable rate : nat.
Variable ds : Z.
Hypothesis F_ok : forall s, ok25 s -> ok25 (F s).
Hypothesis rate_pos : (1 <= rate <= 199)%nat.
Hypothesis ds_byte : is_byte ds.

(** the permutation on byte states *)
Definition Pb (b : list Z) : list Z := bytes_of_lanes (F (lanes_of_bytes b)).

Lemma permute_Pb st buf i : ok25 st -> length buf = 200%nat -> bytes buf ->
  let s' := permute F (mk_khash st buf i) in
  ok25 (kstate s') /\ kbuf s' = repeat 0 200 /\ ki s' = 0%nat /\
  bytes_of_lanes (kstate s') = Pb (xor_bytes (bytes_of_lanes st) buf).
Proof.
  intros Hs L B. cbv zeta. unfold permute. cbn [kstate kbuf ki]. pose proof (lanes_of_bytes_ok buf L B) as [L1 F1]. destruct Hs as [Ls Fs].
  assert (OK : ok25 (xorl st (lanes_of_bytes buf))).
  { split; [now rewrite xorl_length|]. apply xorl_ok; auto; congruence. }
  repeat split; try (apply F_ok; exact OK).
  unfold Pb. do 2 f_equal. rewrite <- (lanes_of_bytes_inv _ OK). f_equal.
  rewrite bytes_of_lanes_xor by congruence. now rewrite bytes_of_lanes_inv.
Qed.

(** ** Absorbing *)
Definition Abs (m : list Z) (s : khash) : Prop :=
  exists bl rest, m = concat bl ++ rest /\ Forall (fun b => length b = rate) bl /\
    (length rest < rate)%nat /\ ki s = length rest /\ kbuf s = rest ++ repeat 0 (200 - length rest) /\
    ok25 (kstate s) /\
    bytes_of_lanes (kstate s) = fold_left (absorb_block Pb rate) bl (repeat 0 200).

Lemma Abs_new : Abs [] khash_new.
Proof.
  exists [], []. cbn [khash_new ki kbuf kstate concat app length fold_left]. repeat split; auto.
  - lia.
  - apply Forall_forall. intros x Hx. apply repeat_spec in Hx. subst. apply u64_0.
Qed.

Lemma absorb_loop_spec fuel : forall b m s, (length b <= fuel)%nat -> bytes m -> bytes b ->
  Abs m s -> Abs (m ++ b) (absorb_loop F rate fuel s b).
Proof.
  induction fuel as [|fuel IH]; intros b m s Hf Bm Bb HA.
  - destruct b; [|cbn in Hf; lia]. rewrite app_nil_r. exact HA.
  - destruct b as [|b0 b']; [rewrite app_nil_r; exact HA|]. set (b := b0 :: b') in *.
    assert (Lb : (0 < length b)%nat) by (cbn; lia).
    destruct HA as (bl & rest & Em & Fb & Lr & Ei & Ebuf & Ok & Est).
    cbn [absorb_loop]. fold b. rewrite Ei, Ebuf.
    set (w := Nat.min (rate - length rest) (length b)).
    assert (Lw : length (firstn w b) = w) by (rewrite firstn_length; lia).
    rewrite xor_at_rest by lia. rewrite Lw.
    replace (200 - length rest - w)%nat with (200 - length (rest ++ firstn w b))%nat
      by (rewrite app_length; lia).
    set (rest' := rest ++ firstn w b).
    assert (Lr' : length rest' = (length rest + w)%nat) by (unfold rest'; rewrite app_length; lia).
    assert (Brest : bytes rest) by (rewrite Em in Bm; apply bytes_app in Bm; tauto).
    assert (Br' : bytes rest') by (apply bytes_app; split; [exact Brest|apply bytes_firstn; exact Bb]).
    cbn [ki]. rewrite <- Lr'.
    replace (m ++ b) with ((m ++ firstn w b) ++ skipn w b) by (rewrite <- app_assoc, firstn_skipn; reflexivity).
    destruct (Nat.eqb_spec (length rest') rate) as [E|NE]; (apply IH; [rewrite skipn_length; lia| |apply bytes_skipn; exact Bb|]);
      try (apply bytes_app; split; [exact Bm|apply bytes_firstn; exact Bb]).
    + destruct (permute_Pb (kstate s) (rest' ++ repeat 0 (200 - length rest')) (length rest') Ok)
        as (O & Eb & Ei' & Es').
      { rewrite app_length, repeat_length. lia. }
      { apply bytes_app. split; [exact Br'|apply bytes_repeat0]. }
      exists (bl ++ [rest']), []. split.
      { rewrite concat_app. cbn [concat]. rewrite !app_nil_r, Em. unfold rest'. now rewrite <- !app_assoc. }
      split. { apply Forall_app. split; [exact Fb|]. constructor; [exact E|constructor]. }
      split; [cbn; lia|]. split; [exact Ei'|]. split; [exact Eb|]. split; [exact O|].
      rewrite Es', Est, fold_left_app. unfold absorb_block at 2. cbn [fold_left].
      unfold absorb_block at 2. do 3 f_equal. congruence.
    + exists bl, rest'. split; [rewrite Em; unfold rest'; now rewrite <- app_assoc|].
      split; [exact Fb|]. split; [lia|]. cbn [ki kbuf kstate]. repeat split; auto; apply Ok.
Qed.

Lemma absorb_spec m s b : bytes m -> bytes b -> Abs m s -> Abs (m ++ b) (absorb F rate s b).
Proof. intros. apply absorb_loop_spec; auto. Qed.

(** ** Padding *)
Lemma blocks_concat bl tail : Forall (fun b => length b = rate) bl ->
  blocks rate (length bl) (concat bl ++ tail) = bl.
Proof.
  induction 1 as [|b bl Hb Hbl IH]; auto. cbn [length blocks concat].
  rewrite <- app_assoc. rewrite firstn_app_exact, skipn_app_exact by auto. now rewrite IH.
Qed.

Lemma pad_spec m s : bytes m -> Abs m s ->
  let s' := pad F rate ds s in
  ok25 (kstate s') /\ kbuf s' = repeat 0 200 /\ ki s' = 0%nat /\
  bytes_of_lanes (kstate s') = sponge_absorb Pb rate ds m.
Proof.
  intros Bm (bl & rest & Em & Fb & Lr & Ei & Ebuf & Ok & Est).
  assert (Brest : bytes rest) by (rewrite Em in Bm; apply bytes_app in Bm; tauto).
  (* the padded tail *)
  set (tail := match (rate - length rest)%nat with
               | O => [] | 1%nat => rest ++ [Z.lxor ds 0x80] | S (S k) => rest ++ ds :: repeat 0 k ++ [0x80] end).
  assert (Lt : length tail = rate).
  { unfold tail. destruct (rate - length rest)%nat as [|[|k]] eqn:Ek; [lia| |];
      rewrite ?app_length; cbn [length]; rewrite ?app_length, ?repeat_length; cbn [length]; lia. }
  assert (Bt : bytes tail).
  { assert (B80 : is_byte 128) by (unfold is_byte; lia).
    unfold tail. destruct (rate - length rest)%nat as [|[|k]]; [constructor| |].
    - apply bytes_app. split; auto. repeat constructor; try apply lxor_byte; auto.
    - apply bytes_app. split; auto. constructor; auto. apply bytes_app. split; [apply bytes_repeat0|].
      constructor; auto. }
  assert (Ebuf' : xor_at (rate - 1) [0x80] (xor_at (length rest) [ds] (rest ++ repeat 0 (200 - length rest)))
                  = tail ++ repeat 0 (200 - rate)).
  { rewrite xor_at_rest by (cbn [length]; lia). cbn [length]. unfold tail.
    destruct (rate - length rest)%nat as [|[|k]] eqn:Ek; [lia| |].
    - replace (rate - 1)%nat with (length rest) by lia. unfold xor_at.
      rewrite <- app_assoc. rewrite firstn_app_exact, skipn_app_exact by reflexivity.
      cbn [app xorl]. rewrite xorl_nil, <- app_assoc. cbn [app]. do 3 f_equal. lia.
    - unfold xor_at.
      replace (200 - length rest - 1)%nat with (k + S (200 - rate))%nat by lia.
      rewrite repeat_app. cbn [repeat].
      replace ((rest ++ [ds]) ++ repeat 0 k ++ 0 :: repeat 0 (200 - rate))
        with (((rest ++ [ds]) ++ repeat 0 k) ++ 0 :: repeat 0 (200 - rate)) by (now rewrite <- app_assoc).
      rewrite firstn_app_exact, skipn_app_exact by (rewrite !app_length, repeat_length; cbn; lia).
      cbn [xorl]. rewrite xorl_nil, Z.lxor_0_l. rewrite <- !app_assoc. cbn [app]. do 2 f_equal.
      rewrite <- app_assoc. reflexivity. }
  unfold pad. rewrite Ei, Ebuf, Ebuf'.
  destruct (permute_Pb (kstate s) (tail ++ repeat 0 (200 - rate)) (length rest) Ok) as (O & Eb & Ei' & Es').
  { rewrite app_length, repeat_length. lia. }
  { apply bytes_app. split; [exact Bt|apply bytes_repeat0]. }
  cbv zeta. split; [exact O|]. split; [exact Eb|]. split; [exact Ei'|].
  rewrite Es'. unfold sponge_absorb.
  assert (Lm : (length m mod rate = length rest)%nat).
  { rewrite Em, app_length.
    assert (LC : length (concat bl) = (length bl * rate)%nat).
    { clear -Fb. induction Fb as [|b bl Hb Hbl IH]; auto. cbn [concat length]. rewrite app_length, IH, Hb. lia. }
    rewrite LC, Nat.add_comm, Nat.mod_add by lia. apply Nat.mod_small. exact Lr. }
  assert (Ep : sponge_pad rate ds m = concat (bl ++ [tail])).
  { unfold sponge_pad. rewrite Lm. rewrite concat_app. cbn [concat]. rewrite app_nil_r. unfold tail.
    destruct (rate - length rest)%nat as [|[|k]] eqn:Ek; [lia| |]; rewrite Em, <- app_assoc; reflexivity. }
  rewrite Ep.
  assert (Fb' : Forall (fun b => length b = rate) (bl ++ [tail])).
  { apply Forall_app. split; [exact Fb|]. constructor; [exact Lt|constructor]. }
  assert (LC : length (concat (bl ++ [tail])) = (length (bl ++ [tail]) * rate)%nat).
  { clear -Fb'. induction Fb' as [|b l Hb Hbl IH]; auto. cbn [concat length]. rewrite app_length, IH, Hb. lia. }
  rewrite LC, Nat.div_mul by lia. rewrite <- (app_nil_r (concat (bl ++ [tail]))).
  rewrite blocks_concat by exact Fb'. rewrite fold_left_app, <- Est. reflexivity.
Qed.

(** ** Squeezing *)
Definition Sq (S0 : list Z) (pos : nat) (s : khash) : Prop :=
  ok25 (kstate s) /\ kbuf s = repeat 0 200 /\ ki s = (pos mod rate)%nat /\
  bytes_of_lanes (kstate s) = Nat.iter (pos / rate) Pb S0.

Definition out_slice (S0 : list Z) (pos k : nat) : list Z :=
  map (fun j => nth (j mod rate) (Nat.iter (j / rate) Pb S0) 0) (seq pos k).

Lemma squeeze_loop_spec fuel : forall S0 pos s k out, (k <= fuel)%nat -> Sq S0 pos s ->
  exists s', squeeze_loop F rate fuel s k out = (s', out ++ out_slice S0 pos k) /\ Sq S0 (pos + k) s'.
Proof.
  induction fuel as [|fuel IH]; intros S0 pos s k out Hf HS.
  - assert (k = 0%nat) by lia. subst k. exists s. cbn. rewrite app_nil_r, Nat.add_0_r. auto.
  - destruct k as [|k'].
    { exists s. cbn. rewrite app_nil_r, Nat.add_0_r. auto. }
    set (k := S k') in *.
    destruct HS as (Ok & Eb & Ei & Es). cbn [squeeze_loop]. fold k. rewrite Ei.
    pose proof (Nat.mod_upper_bound pos rate ltac:(lia)) as Hm.
    set (i := (pos mod rate)%nat) in *.
    set (w := Nat.min (rate - i) k). assert (Hw : (1 <= w)%nat) by (unfold w, k; lia).
    assert (Hwr : (i + w <= rate)%nat) by (unfold w; lia).
    assert (Hwk : (w <= k)%nat) by (unfold w; lia).
    pose proof (Nat.div_mod pos rate ltac:(lia)) as Dp. fold i in Dp.
    assert (Eo : slice i (i + w) (bytes_of_lanes (kstate s)) = out_slice S0 pos w).
    { rewrite slice_nth.
      2:{ rewrite bytes_of_lanes_length. destruct Ok as [-> _]. lia. }
      rewrite Es. unfold out_slice.
      replace (seq pos w) with (map (fun j => (j + rate * (pos / rate))%nat) (seq i w)).
      2:{ assert (Sh : forall a ww i, map (fun j => (j + a)%nat) (seq i ww) = seq (a + i) ww).
          { clear. intros a. induction ww as [|ww IH]; intros i; auto. cbn [seq map]. rewrite IH.
            f_equal; [lia|]. f_equal. lia. }
          rewrite Sh, <- Dp. reflexivity. }
      rewrite map_map. apply map_ext_in. intros j Hj. apply in_seq in Hj.
      rewrite (Nat.mul_comm rate), Nat.mod_add, Nat.div_add by lia.
      rewrite (Nat.mod_small j), (Nat.div_small j) by lia. reflexivity. }
    rewrite Eo. cbn [ki kstate kbuf].
    assert (Eout : forall X, (out ++ out_slice S0 pos w) ++ X = out ++ (out_slice S0 pos w ++ X))
      by (intros; now rewrite app_assoc).
    assert (Eslice : out_slice S0 pos k = out_slice S0 pos w ++ out_slice S0 (pos + w) (k - w)).
    { unfold out_slice. replace k with (w + (k - w))%nat at 1 by lia. now rewrite seq_app, map_app. }
    destruct (Nat.eqb_spec (i + w) rate) as [E|NE].
    + destruct (permute_Pb (kstate s) (kbuf s) (i + w) Ok) as (O & Eb' & Ei' & Es').
      { rewrite Eb. apply repeat_length. }
      { rewrite Eb. apply bytes_repeat0. }
      assert (Dq : ((pos + w) / rate = S (pos / rate))%nat /\ ((pos + w) mod rate = 0)%nat).
      { replace (pos + w)%nat with (0 + S (pos / rate) * rate)%nat by lia.
        rewrite Nat.div_add, Nat.mod_add by lia. rewrite Nat.div_small, Nat.mod_small by lia. auto. }
      destruct (IH S0 (pos + w)%nat (permute F (mk_khash (kstate s) (kbuf s) (i + w))) (k - w)%nat
                   (out ++ out_slice S0 pos w)) as (s' & E1 & S1).
      { lia. }
      { split; [exact O|]. split; [exact Eb'|]. destruct Dq as [-> ->]. split; [exact Ei'|].
        rewrite Es', Es, Eb. change (Nat.iter (S (pos / rate)) Pb S0) with (Pb (Nat.iter (pos / rate) Pb S0)). f_equal.
        pose proof (bytes_of_lanes_length (kstate s)) as LL. rewrite (proj1 Ok), Es in LL.
        change 200%nat with (8 * 25)%nat. rewrite <- LL. apply xor_bytes_zero. }
      exists s'. rewrite E1, Eout, <- Eslice. split; auto.
      replace (pos + k)%nat with (pos + w + (k - w))%nat by lia. exact S1.
    + assert (Dq : ((pos + w) / rate = pos / rate)%nat /\ ((pos + w) mod rate = i + w)%nat).
      { replace (pos + w)%nat with ((i + w) + (pos / rate) * rate)%nat by lia.
        rewrite Nat.div_add, Nat.mod_add by lia. rewrite Nat.div_small, Nat.mod_small by lia. auto. }
      destruct (IH S0 (pos + w)%nat (mk_khash (kstate s) (kbuf s) (i + w)) (k - w)%nat
                   (out ++ out_slice S0 pos w)) as (s' & E1 & S1).
      { lia. }
      { split; [exact Ok|]. cbn [kbuf ki kstate]. split; [exact Eb|]. destruct Dq as [-> ->]. auto. }
      exists s'. rewrite E1, Eout, <- Eslice. split; auto.
      replace (pos + k)%nat with (pos + w + (k - w))%nat by lia. exact S1.
Qed.

Lemma squeeze_spec S0 pos s k : Sq S0 pos s ->
  exists s', squeeze F rate s k = (s', out_slice S0 pos k) /\ Sq S0 (pos + k) s'.
Proof. intros H. apply (squeeze_loop_spec k S0 pos s k [] (le_n k) H). Qed.

Lemma pad_Sq m s : bytes m -> Abs m s -> Sq (sponge_absorb Pb rate ds m) 0 (pad F rate ds s).
Proof.
  intros Bm HA. destruct (pad_spec m s Bm HA) as (O & Eb & Ei & Es).
  split; [exact O|]. split; [exact Eb|]. rewrite Nat.mod_small, Nat.div_small by lia. auto.
Qed.

Lemma absorbs_spec ds' : forall m s, bytes m -> Forall bytes ds' -> Abs m s ->
  Abs (m ++ concat ds') (fold_left (absorb F rate) ds' s).
Proof.
  induction ds' as [|d ds' IH]; intros m s Bm Bd HA; cbn [fold_left concat].
  - now rewrite app_nil_r.
  - inversion Bd; subst. rewrite app_assoc. apply IH; auto.
    + apply bytes_app; auto.
    + apply absorb_spec; auto.
Qed.

Fixpoint squeezes (s : khash) (ks : list nat) : list (list Z) :=
  match ks with [] => [] | k :: ks' => let (s', o) := squeeze F rate s k in o :: squeezes s' ks' end.

Lemma squeezes_spec S0 ks : forall pos s, Sq S0 pos s ->
  squeezes s ks = map (fun i => out_slice S0 (pos + list_sum (firstn i ks)) (nth i ks 0%nat)) (seq 0 (length ks)).
Proof.
  induction ks as [|k ks IH]; intros pos s HS; auto. cbn [squeezes].
  destruct (squeeze_spec S0 pos s k HS) as (s' & E & S'). rewrite E. cbn [length seq map firstn nth].
  f_equal; [f_equal; cbn; lia|]. rewrite (IH _ _ S'), <- seq_shift, map_map. apply map_ext. intros i.
  cbn [firstn nth]. change (list_sum (k :: firstn i ks)) with (k + list_sum (firstn i ks))%nat. f_equal. lia.
Qed.

Theorem sponge_correct inputs ks : Forall bytes inputs ->
  squeezes (pad F rate ds (fold_left (absorb F rate) inputs khash_new)) ks =
  map (fun i => map (sponge_byte Pb rate ds (concat inputs)) (seq (list_sum (firstn i ks)) (nth i ks 0%nat)))
      (seq 0 (length ks)).
Proof.
  intros HB. pose proof (absorbs_spec inputs [] khash_new (Forall_nil _) HB Abs_new) as HA.
  cbn [app] in HA.
  assert (BC : bytes (concat inputs)).
  { clear -HB. induction HB as [|d l Hd Hl IH]; [constructor|]. cbn. apply bytes_app; auto. }
  rewrite (squeezes_spec _ ks 0 _ (pad_Sq _ _ BC HA)). reflexivity.
Qed.
End S.

(** ** The byte-level permutation of FIPS 202 *)
Lemma testbit_byte_split x z : 0 <= z -> 0 <= x -> Z.testbit ((x / 256 ^ (z / 8)) mod 256) (z mod 8) = Z.testbit x z.
Proof.
  intros Hz Hx. change 256 with (2 ^ 8). rewrite <- Z.pow_mul_r by lia.
  rewrite Z.mod_pow2_bits_low by lia. rewrite <- Z.shiftr_div_pow2 by lia.
  rewrite Z.shiftr_spec by lia. f_equal. lia.
Qed.

Lemma nth_le8 x i : (i < 8)%nat -> nth i (le8 x) 0 = (x / 256 ^ Z.of_nat i) mod 256.
Proof.
  intros H. unfold le8. rewrite (nth_indep _ 0 ((x / 256 ^ Z.of_nat 0) mod 256)) by (rewrite map_length, seq_length; lia).
  rewrite (map_nth (fun i => (x / 256 ^ Z.of_nat i) mod 256)). now rewrite seq_nth by lia.
Qed.

Lemma nth_bytes_of_lanes s : forall k j, (j < 8)%nat -> nth (8 * k + j) (bytes_of_lanes s) 0 = nth j (le8 (nth k s 0)) 0 \/ (length s <= k)%nat.
Proof.
  induction s as [|a s IH]; intros k j Hj; [right; cbn; lia|].
  unfold bytes_of_lanes. cbn [flat_map]. fold (bytes_of_lanes s). destruct k as [|k].
  - left. rewrite Nat.mul_0_r. cbn [plus nth]. rewrite app_nth1; auto.
  - destruct (IH k j Hj) as [E|E]; [left|right; cbn; lia].
    rewrite app_nth2 by (rewrite le8_length; lia). rewrite le8_length.
    replace (8 * S k + j - 8)%nat with (8 * k + j)%nat by lia. exact E.
Qed.

Lemma bits_state_of_bytes s : ok25 s -> agree (state_of_bytes (bytes_of_lanes s)) (bits s).
Proof.
  intros [L FU] x y z Hx Hy Hz. unfold state_of_bytes, bits.
  destruct (nth_bytes_of_lanes s (5 * y + x) (Z.to_nat (z / 8))) as [E|E]; [lia| |lia].
  rewrite E, nth_le8 by lia. rewrite Z2Nat.id by lia.
  replace (5 * y + x)%nat with (x + 5 * y)%nat by lia.
  apply testbit_byte_split; [lia|].
  rewrite Forall_forall in FU. apply FU, nth_In. lia.
Qed.

Lemma bits_byte_sum (f : nat -> bool) b : is_byte b -> (forall t, (t < 8)%nat -> f t = Z.testbit b (Z.of_nat t)) ->
  fold_right (fun t acc => (if f t then 1 else 0) + 2 * acc) 0 (seq 0 8) = b.
Proof.
  intros Hb Hf. cbn [seq fold_right]. rewrite !Hf by lia.
  assert (G : forallb (fun k => let b := Z.of_nat k in
     ((if Z.testbit b (Z.of_nat 0) then 1 else 0) + 2 * ((if Z.testbit b (Z.of_nat 1) then 1 else 0) +
      2 * ((if Z.testbit b (Z.of_nat 2) then 1 else 0) + 2 * ((if Z.testbit b (Z.of_nat 3) then 1 else 0) +
      2 * ((if Z.testbit b (Z.of_nat 4) then 1 else 0) + 2 * ((if Z.testbit b (Z.of_nat 5) then 1 else 0) +
      2 * ((if Z.testbit b (Z.of_nat 6) then 1 else 0) + 2 * ((if Z.testbit b (Z.of_nat 7) then 1 else 0) + 2 * 0))))))) =? b))
     (seq 0 256) = true) by (vm_compute; reflexivity).
  rewrite forallb_forall in G. unfold is_byte in Hb. specialize (G (Z.to_nat b)). rewrite in_seq in G.
  specialize (G ltac:(lia)). cbv zeta in G. rewrite Z2Nat.id in G by lia. apply Z.eqb_eq in G. exact G.
Qed.

Lemma bytes_of_state_lanes s A : ok25 s -> agree (bits s) A -> bytes_of_state A = bytes_of_lanes s.
Proof.
  intros Ok HA. pose proof Ok as [L FU].
  assert (LB : length (bytes_of_lanes s) = 200%nat) by (rewrite bytes_of_lanes_length, L; reflexivity).
  assert (E : bytes_of_lanes s = map (fun i => nth i (bytes_of_lanes s) 0) (seq 0 200)).
  { rewrite <- LB. rewrite <- slice_nth by lia. unfold slice. rewrite Nat.add_0_l, Nat.sub_0_r.
    cbn [skipn]. symmetry. apply firstn_all. }
  rewrite E. unfold bytes_of_state. apply map_ext_in. intros k Hk. apply in_seq in Hk. cbv zeta.
  pose proof (Nat.div_mod k 8 ltac:(lia)) as Dk. pose proof (Nat.mod_upper_bound k 8 ltac:(lia)) as Mk.
  assert (Kl : (k / 8 < 25)%nat) by (apply Nat.div_lt_upper_bound; lia).
  set (l := (k / 8)%nat) in *. set (j := (k mod 8)%nat) in *.
  destruct (nth_bytes_of_lanes s l j Mk) as [En|En]; [|lia].
  rewrite <- Dk in En.
  assert (Ul : u64 (nth l s 0)) by (rewrite Forall_forall in FU; apply FU, nth_In; lia).
  apply bits_byte_sum.
  - rewrite En. pose proof (le8_bytes (nth l s 0)) as B. unfold bytes in B. rewrite Forall_forall in B.
    apply B, nth_In. rewrite le8_length. exact Mk.
  - intros t Ht. 
    pose proof (Nat.div_mod l 5 ltac:(lia)) as Dl. pose proof (Nat.mod_upper_bound l 5 ltac:(lia)) as Ml.
    assert (Kl5 : (l / 5 < 5)%nat) by (apply Nat.div_lt_upper_bound; lia).
    rewrite <- HA by lia. unfold bits. replace (l mod 5 + 5 * (l / 5))%nat with l by lia.
    rewrite En, nth_le8 by exact Mk.
    rewrite <- (testbit_byte_split (nth l s 0) (8 * Z.of_nat j + Z.of_nat t)) by (try apply Ul; lia).
    f_equal; [do 3 f_equal|]; lia.
Qed.

Lemma keccak_f_ext A B : agree A B -> agree (keccak_f1600 A) (keccak_f1600 B).
Proof.
  intros H. unfold keccak_f1600. revert A B H. generalize (seq 0 24). intros l.
  induction l as [|i l IH]; intros A B H; auto. rewrite !fold_left_cons. apply IH. apply Rnd_ext, H.
Qed.

Theorem keccak_p_F1600 b : length b = 200%nat -> bytes b ->
  keccak_p b = bytes_of_lanes (F1600 (lanes_of_bytes b)).
Proof.
  intros L B. unfold keccak_p. pose proof (lanes_of_bytes_ok b L B) as OkL.
  destruct (F1600_fips _ OkL) as [OkF AF].
  apply bytes_of_state_lanes; [exact OkF|]. apply (agree_trans _ _ _ AF). apply keccak_f_ext.
  intros x y z Hx Hy Hz. rewrite <- (bits_state_of_bytes _ OkL) by auto.
  now rewrite bytes_of_lanes_inv.
Qed.
