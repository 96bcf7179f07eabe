(** The C decoders and encoders of codec.c, in terms of CodecSpec.v and EncodingSpec.v. *)
From Verif Require Import Base CodecModel CodecSpec CodecProofs EncodingModel EncodingSpec EncodingProofs CModel.

(** * Bits of the accumulators *)
Lemma u32_bits x i : 0 <= i < 32 -> Z.testbit (u32 x) i = Z.testbit x i.
Proof. intros H. unfold u32. apply Z.mod_pow2_bits_low. lia. Qed.
Lemma zb_push k j acc b : (k + j <= 32)%nat -> 0 <= b < 2 ^ Z.of_nat j ->
  zbits (k + j) (Z.lor (u32 (Z.shiftl acc (Z.of_nat j))) b) = zbits k acc ++ zbits j b.
Proof.
  intros Hk Hb. rewrite <- zbits_add_pow by exact Hb. rewrite <- lor_shiftl_add by lia. apply zbits_ext. intros i Hi.
  rewrite !Z.lor_spec, u32_bits by lia. reflexivity.
Qed.
Lemma zb_push8 k acc b : (k <= 24)%nat -> is_byte b -> zbits (k + 8) (Z.lor (u32 (Z.shiftl acc 8)) b) = zbits k acc ++ zbits 8 b.
Proof. intros Hk Hb. apply (zb_push k 8); [lia|exact Hb]. Qed.
Lemma bit_land a i : 0 <= i -> (Z.land (Z.shiftr a i) 1 =? 0) = negb (Z.testbit a i).
Proof.
  intros Hi. change 1 with (2 ^ 1 - 1). rewrite land_ones_mod by lia. change (2 ^ 1) with 2. rewrite Zmod_odd. replace (Z.testbit a i) with (Z.odd (Z.shiftr a i)).
  - destruct (Z.odd _); reflexivity.
  - rewrite <- Z.bit0_odd, Z.shiftr_spec by lia. reflexivity.
Qed.
Lemma low_zero acc l : (l <= 31)%nat -> (Z.land acc (u32 (Z.shiftl 1 (Z.of_nat l)) - 1) =? 0) = true <-> zbits l acc = repeat false l.
Proof.
  intros Hl. rewrite Z.shiftl_mul_pow2, Z.mul_1_l by lia.
  assert (2 ^ Z.of_nat l <= 2 ^ 31) by (apply Z.pow_le_mono_r; lia). assert (0 < 2 ^ Z.of_nat l) by (apply Z.pow_pos_nonneg; lia).
  replace (u32 (2 ^ Z.of_nat l)) with (2 ^ Z.of_nat l) by (unfold u32; rewrite Z.mod_small; lia). rewrite land_ones_mod by lia. rewrite <- of_bits_zbits, Z.eqb_eq.
  rewrite of_bits_zero_iff, zbits_length. reflexivity.
Qed.

(** * Fixed width *)
Lemma cfixed_field width acc acc' l : (l + 8 <= 32)%nat -> (width <= l + 8)%nat -> (forall i, 0 <= i < 32 -> Z.testbit acc i = Z.testbit acc' i) ->
  Z.land (Z.shiftr acc (Z.of_nat (l + 8 - width))) (2 ^ Z.of_nat width - 1) = Z.land (Z.shiftr acc' (Z.of_nat (l + 8 - width))) (2 ^ Z.of_nat width - 1).
Proof.
  intros Hl Hw H. rewrite !land_ones_mod by lia. apply Z.bits_inj'. intros i Hi. destruct (Z.lt_ge_cases i (Z.of_nat width)).
  - rewrite !Z.mod_pow2_bits_low, !Z.shiftr_spec by lia. apply H. lia.
  - rewrite !Z.mod_pow2_bits_high by lia. reflexivity.
Qed.
Definition of_gloop (r : res (list Z * Z * nat)) : cdec (list Z) :=
  match r with
  | Raise IndexError => Beyond
  | Raise _ => Bad
  | Ok (y, A, L) => if Z.land A (Z.shiftl 1 (Z.of_nat L) - 1) =? 0 then Dec y 0 else Bad
  end.
Lemma ginner_stop conv width todo acc l x : (l < width)%nat -> ginner conv width todo acc l x = Ok (todo, l, x).
Proof. intros H. destruct todo; cbn [ginner]; auto. destruct (Nat.leb_spec width l); [lia|reflexivity]. Qed.
Lemma cfixed_loop_eq width conv : (8 <= width <= 16)%nat -> forall data todo acc acc' l x, (l < width)%nat -> (forall i, 0 <= i < 32 -> Z.testbit acc i = Z.testbit acc' i) ->
  cfixed_loop width conv todo data acc l x = of_gloop (gloop conv width todo data acc' l x).
Proof.
  intros Hw. induction data as [|b data IH]; intros [|todo] acc acc' l x Hl HA.
  1, 3: cbn [cfixed_loop gloop of_gloop]; rewrite Z.shiftl_mul_pow2, Z.mul_1_l by lia;
    (assert (2 ^ Z.of_nat l <= 2 ^ 31) by (apply Z.pow_le_mono_r; lia)); (assert (0 < 2 ^ Z.of_nat l) by (apply Z.pow_pos_nonneg; lia));
    replace (u32 (2 ^ Z.of_nat l)) with (2 ^ Z.of_nat l) by (unfold u32; rewrite Z.mod_small; lia); rewrite !land_ones_mod by lia;
    rewrite <- !of_bits_zbits; rewrite (zbits_ext l acc acc') by (intros; apply HA; lia); reflexivity.
  - reflexivity.
  - cbn [cfixed_loop gloop]. cbv zeta. cbn [ginner].
    assert (HA' : forall i, 0 <= i < 32 -> Z.testbit (Z.lor (u32 (Z.shiftl acc 8)) b) i = Z.testbit (Z.lor (Z.shiftl acc' 8) b) i).
    { intros i Hi. rewrite !Z.lor_spec, u32_bits by lia. f_equal. destruct (Z.lt_ge_cases i 8).
      - rewrite !Z.shiftl_spec_low by lia. reflexivity.
      - rewrite !Z.shiftl_spec by lia. apply HA. lia. }
    destruct (Nat.leb_spec width (l + 8)) as [L|L].
    + rewrite (cfixed_field width _ _ l ltac:(lia) L HA').
      destruct (conv _) as [w|]; [|reflexivity]. rewrite ginner_stop by lia. cbn [bind]. apply IH; [lia|exact HA'].
    + cbn [bind]. apply IH; [lia|exact HA'].
Qed.
Lemma cfixed_loop_len width conv : forall data todo acc l (x : list Z) y u, cfixed_loop width conv todo data acc l x = Dec y u -> (todo * width <= l + 8 * length data)%nat.
Proof.
  induction data as [|b data IH]; intros [|todo] acc l x y u E; cbn [cfixed_loop] in E; try (cbn; lia); [discriminate|]. cbv zeta in E. cbn [length].
  destruct (Nat.leb_spec width (l + 8)).
  - destruct (conv _); [|discriminate]. apply IH in E. lia.
  - apply IH in E. lia.
Qed.
(** acceptance: the fields, packed, in the first ceil(n * width / 8) bytes *)
Theorem cfixed_iff width conv k max data x u : (8 <= width <= 16)%nat -> bytes data ->
  (cfixed width conv k max data = Dec x u <->
   u = ceil8 (2 ^ k * width) /\ (u <= max)%nat /\ (u <= length data)%nat /\ gdecode conv width data (2 ^ k) = Ok x).
Proof.
  intros Hw Hb. unfold cfixed. cbv zeta. fold (ceil8 (2 ^ k * width)). set (n := (2 ^ k)%nat). clearbody n.
  destruct (Nat.ltb_spec max (ceil8 (n * width))) as [L|L]; [split; [discriminate|intros (-> & ? & _); lia]|].
  rewrite (cfixed_loop_eq width conv Hw data n 0 0 0 []) by (auto; lia).
  unfold gdecode. destruct (Nat.ltb_spec (length data) (ceil8 (n * width))) as [L'|L'].
  - split; [|intros (_ & _ & _ & E); discriminate]. intros E. destruct (of_gloop _) as [y v| |] eqn:EG; try discriminate.
    exfalso. rewrite <- (cfixed_loop_eq width conv Hw data n 0 0 0 []) in EG by (auto; lia). apply cfixed_loop_len in EG. unfold ceil8 in L'. lia.
  - destruct (gloop conv width n data 0 0 []) as [[[y A] l]|e]; cbn [of_gloop bind].
    + destruct (_ =? 0); cbn [negb]; split; try discriminate.
      * intros E. assert (y = x /\ ceil8 (n * width) = u) as [-> <-] by (split; congruence). auto.
      * intros (-> & _ & _ & E). assert (y = x) by congruence. congruence.
      * intros (_ & _ & _ & E). discriminate.
    + destruct e; (split; [discriminate|intros (_ & _ & _ & E); discriminate]).
Qed.
(** reading past the end of the buffer only when it is shorter than announced *)
Theorem cfixed_beyond width (conv : Z -> option Z) k max data : (8 <= width <= 16)%nat -> bytes data -> cfixed width conv k max data = Beyond -> (length data < ceil8 (2 ^ k * width) <= max)%nat.
Proof.
  intros Hw Hb. unfold cfixed. cbv zeta. fold (ceil8 (2 ^ k * width)). set (n := (2 ^ k)%nat). clearbody n.
  destruct (Nat.ltb_spec max (ceil8 (n * width))) as [L|L]; [discriminate|]. intros E. split; [|exact L].
  destruct (Nat.lt_ge_cases (length data) (ceil8 (n * width))) as [|L']; auto. exfalso.
  rewrite (cfixed_loop_eq width conv Hw data n 0 0 0 []) in E by (auto; lia).
  pose proof (gdecode_raise conv width ltac:(lia) data n) as R. unfold gdecode in R. destruct (Nat.ltb_spec (length data) (ceil8 (n * width))); [lia|].
  destruct (gloop conv width n data 0 0 []) as [[[y A] l]|e]; cbn [of_gloop bind] in *.
  - destruct (_ =? 0); discriminate.
  - specialize (R e Hb eq_refl). subst e. discriminate.
Qed.

(** * Compressed signatures: decoding *)
Lemma cbits_cons b r : bytes_bits (b :: r) = zbits 8 b ++ bytes_bits r. Proof. reflexivity. Qed.
(** one tested bit *)
Definition ustep (f : nat) (m acc : Z) (l : nat) (data : list Z) : option (Z * Z * nat * list Z) :=
  if Z.testbit acc (Z.of_nat l) then Some (m, acc, l, data)
  else if 2047 <? m + 128 then None else comp_unary f (m + 128) acc l data.
Lemma comp_unary_S f m acc l data : comp_unary (S f) m acc l data =
  match l, data with
  | S l', _ => ustep f m acc l' data
  | O, [] => None
  | O, b :: d => ustep f m (Z.lor (u32 (Z.shiftl acc 8)) b) 7 d
  end.
Proof.
  assert (G : forall acc l d, (if Z.land (Z.shiftr acc (Z.of_nat l)) 1 =? 0 then if 2047 <? m + 128 then None else comp_unary f (m + 128) acc l d else Some (m, acc, l, d)) = ustep f m acc l d).
  { intros. unfold ustep. rewrite bit_land by lia. destruct (Z.testbit acc0 (Z.of_nat l0)); reflexivity. }
  destruct l as [|l']; [destruct data as [|b d]|]; cbn [comp_unary]; cbv zeta; [reflexivity| |].
  - exact (G _ 7%nat d).
  - replace (S l' - 1)%nat with l' by lia. apply G.
Qed.
Lemma unary_sound f : forall m acc l data m' acc' l' data', bytes data -> (l <= 8)%nat -> m <= 2047 -> comp_unary f m acc l data = Some (m', acc', l', data') ->
  exists h pre, data = pre ++ data' /\ zbits l acc ++ bytes_bits pre = repeat false h ++ true :: zbits l' acc' /\ m' = m + 128 * Z.of_nat h /\ m' <= 2047 /\ (l' < 8)%nat.
Proof.
  induction f as [|f IH]; [discriminate|]. intros m acc l data m' acc' l' data' Hb Hl Hm E. rewrite comp_unary_S in E.
  assert (G : forall A L D, bytes D -> (L < 8)%nat -> ustep f m A L D = Some (m', acc', l', data') ->
    exists h pre, D = pre ++ data' /\ zbits (S L) A ++ bytes_bits pre = repeat false h ++ true :: zbits l' acc' /\ m' = m + 128 * Z.of_nat h /\ m' <= 2047 /\ (l' < 8)%nat).
  { clear l acc data Hl Hb E. intros A L D HD HL E. unfold ustep in E. rewrite zbits_S_testbit. destruct (Z.testbit A (Z.of_nat L)).
    - exists 0%nat, []. assert (m = m' /\ A = acc' /\ L = l' /\ D = data') as (-> & -> & -> & ->) by (repeat split; congruence). cbn [repeat app]. repeat split; auto; [now rewrite app_nil_r|lia].
    - destruct (Z.ltb_spec 2047 (m + 128)) as [|Hm']; [discriminate|]. apply IH in E; [|auto|lia|lia]. destruct E as (h & pre & E1 & E2 & E3 & E4 & E5).
      exists (S h), pre. cbn [repeat app]. rewrite E2. repeat split; auto. lia. }
  destruct l as [|l0]; [destruct data as [|b d]; [discriminate|]|].
  - inversion Hb; subst. apply G in E; [|auto|lia]. destruct E as (h & pre & E1 & E2 & E3). exists h, (b :: pre). split; [cbn; now rewrite E1|]. split; [|exact E3].
    rewrite cbits_cons. cbn [zbits app]. change (zbits 8 (Z.lor (u32 (Z.shiftl acc 8)) b)) with (zbits (0 + 8) (Z.lor (u32 (Z.shiftl acc 8)) b)) in E2. rewrite zb_push8 in E2 by (auto; lia). cbn [zbits app] in E2. exact E2.
  - apply G in E; [|auto|lia]. exact E.
Qed.
Lemma unary_complete h : forall f m acc l pre rest R, (h < f)%nat -> bytes pre -> (l <= 8)%nat -> zbits l acc ++ bytes_bits pre = repeat false h ++ true :: R -> m + 128 * Z.of_nat h <= 2047 ->
  exists acc' l' pre', comp_unary f m acc l (pre ++ rest) = Some (m + 128 * Z.of_nat h, acc', l', pre' ++ rest) /\ zbits l' acc' ++ bytes_bits pre' = R /\ (l' < 8)%nat /\ bytes pre'.
Proof.
  induction h as [|h IH]; intros [|f] m acc l pre rest R Hf Hb Hl Q Hm; try lia; rewrite comp_unary_S.
  - assert (G : forall A L P, bytes P -> (L < 8)%nat -> zbits (S L) A ++ bytes_bits P = true :: R ->
      exists acc' l' pre', ustep f m A L (P ++ rest) = Some (m + 128 * Z.of_nat 0, acc', l', pre' ++ rest) /\ zbits l' acc' ++ bytes_bits pre' = R /\ (l' < 8)%nat /\ bytes pre').
    { intros A L P HP HL E. rewrite zbits_S_testbit in E. cbn [app] in E. injection E as E1 E2. exists A, L, P. unfold ustep. rewrite E1. rewrite Z.add_0_r. auto. }
    cbn [repeat app] in Q. destruct l as [|l0]; [destruct pre as [|b d]; [discriminate Q|]|]; [|apply G; auto; lia].
    inversion Hb; subst. cbn [app]. apply G; [auto|lia|]. change (zbits 8 ?x) with (zbits (0 + 8) x). rewrite zb_push8 by (auto; lia). exact Q.
  - assert (G : forall A L P, bytes P -> (L < 8)%nat -> zbits (S L) A ++ bytes_bits P = repeat false (S h) ++ true :: R ->
      exists acc' l' pre', ustep f m A L (P ++ rest) = Some (m + 128 * Z.of_nat (S h), acc', l', pre' ++ rest) /\ zbits l' acc' ++ bytes_bits pre' = R /\ (l' < 8)%nat /\ bytes pre').
    { intros A L P HP HL E. rewrite zbits_S_testbit in E. cbn [repeat app] in E. injection E as E1 E2. unfold ustep. rewrite E1.
      destruct (Z.ltb_spec 2047 (m + 128)); [lia|]. destruct (IH f (m + 128) A L P rest R ltac:(lia) HP ltac:(lia) E2 ltac:(lia)) as (a' & l' & p' & E3 & E4).
      exists a', l', p'. split; [|exact E4]. rewrite E3. f_equal. f_equal. f_equal. f_equal. lia. }
    destruct l as [|l0]; [destruct pre as [|b d]; [discriminate Q|]|]; [|apply G; auto; lia].
    inversion Hb; subst. cbn [app]. apply G; [auto|lia|]. change (zbits 8 ?x) with (zbits (0 + 8) x). rewrite zb_push8 by (auto; lia). exact Q.
Qed.
(** the eight bits in front of the queue *)
Lemma head8 l acc b : (l < 8)%nat -> is_byte b -> let a := Z.lor (u32 (Z.shiftl acc 8)) b in
  zbits l acc ++ zbits 8 b = Z.testbit (Z.shiftr a (Z.of_nat l)) 7 :: zbits 7 (Z.shiftr a (Z.of_nat l)) ++ zbits l a.
Proof.
  intros Hl Hb a. rewrite <- zb_push8 by (auto; lia). fold a. rewrite Nat.add_comm, zbits_app. rewrite Z.shiftr_div_pow2 by lia. reflexivity.
Qed.
Lemma land128 b : (Z.land b 128 =? 0) = negb (Z.testbit b 7).
Proof.
  destruct (Z.testbit b 7) eqn:E; cbn [negb]; [apply Z.eqb_neq|apply Z.eqb_eq].
  - intros H. apply (f_equal (fun z => Z.testbit z 7)) in H. rewrite Z.land_spec, E in H. discriminate.
  - apply Z.bits_inj'. intros i Hi. rewrite Z.land_spec, Z.bits_0. change 128 with (2 ^ 7). rewrite Z.pow2_bits_eqb by lia. destruct (Z.eqb_spec 7 i) as [<-|]; [now rewrite E|now rewrite andb_false_r].
Qed.
Lemma land127 b : Z.land b 127 = of_bits (zbits 7 b).
Proof. rewrite of_bits_zbits. change 127 with (2 ^ 7 - 1). apply land_ones_mod. lia. Qed.
Lemma i16_small x : -2047 <= x <= 2047 -> i16 x = x.
Proof. intros. unfold i16. rewrite Z.mod_small; lia. Qed.
Definition small (v : list Z) : Prop := Forall (fun c => -2047 <= c <= 2047) v.
Lemma comp_loop_sound todo : forall acc l data x y rest, bytes data -> (l < 8)%nat -> comp_loop todo acc l data x = Some (y, rest) ->
  exists v w pre pad, y = x ++ v /\ length v = todo /\ encodes_all v w /\ small v /\ data = pre ++ rest /\ zbits l acc ++ bytes_bits pre = w ++ repeat false pad /\ (pad < 8)%nat.
Proof.
  induction todo as [|todo IH]; intros acc l data x y rest Hb Hl E; cbn [comp_loop] in E.
  - destruct (_ =? 0) eqn:EZ; [|discriminate]. apply low_zero in EZ; [|lia]. assert (x = y /\ data = rest) as [-> ->] by (split; congruence).
    exists [], [], [], l. rewrite app_nil_r. cbn [app bytes_bits flat_map]. rewrite app_nil_r. split; [reflexivity|]. split; [reflexivity|]. split; [constructor|]. split; [constructor|]. auto.
  - destruct data as [|b data]; [discriminate|]. inversion Hb as [|? ? Hb0 Hbd]; subst. cbv zeta in E. pose proof (head8 l acc b Hl Hb0) as Q. cbv zeta in Q.
    set (a := Z.lor (u32 (Z.shiftl acc 8)) b) in *. set (bb := Z.shiftr a (Z.of_nat l)) in *. rewrite land128, land127, negb_involutive in E.
    pose proof (of_bits_bound (zbits 7 bb)) as HM. rewrite zbits_length in HM. change (2 ^ Z.of_nat 7) with 128 in HM.
    destruct (comp_unary 17 (of_bits (zbits 7 bb)) a l data) as [[[[m acc'] l'] data']|] eqn:EU; [|discriminate].
    apply unary_sound in EU; [|auto|lia|lia]. destruct EU as (h & pre & E1 & E2 & E3 & E4 & E5). subst data.
    destruct (Z.testbit bb 7 && (m =? 0)) eqn:EN; [discriminate|].
    apply bytes_app in Hbd. destruct Hbd as [Hb1 Hb2]. apply IH in E; [|auto|auto]. destruct E as (v & w & pre' & pad & Ey & Lv & EV & SV & ED & EQ & EP).
    set (c := if Z.testbit bb 7 then - m else m) in *. assert (Hc : -2047 <= c <= 2047) by (unfold c; destruct (Z.testbit bb 7); lia).
    exists (c :: v), ((Z.testbit bb 7 :: zbits 7 bb ++ repeat false h ++ [true]) ++ w), (b :: pre ++ pre'), pad.
    split; [rewrite Ey, i16_small, <- app_assoc by exact Hc; reflexivity|]. split; [cbn; auto|]. split; [|split; [|split; [|split; [|exact EP]]]].
    + constructor; [|exact EV]. exists (Z.testbit bb 7), (zbits 7 bb), h. split; [apply zbits_length|]. split; [reflexivity|]. split; [unfold c; destruct (Z.testbit bb 7); lia|].
      intros [T Z]. unfold c in Z. rewrite T in *. cbn [andb] in EN. apply Z.eqb_neq in EN. lia.
    + constructor; auto.
    + rewrite ED. cbn. now rewrite app_assoc.
    + rewrite cbits_cons, bytes_bits_app, app_assoc. rewrite Q. cbn [app]. f_equal. rewrite <- !app_assoc. f_equal. rewrite (app_assoc (zbits l a)). rewrite E2. rewrite <- !app_assoc. f_equal. cbn [app]. f_equal. exact EQ.
Qed.
Lemma cons_inj {A} (a b : A) x y : a :: x = b :: y -> a = b /\ x = y. Proof. intros E. injection E. auto. Qed.
Lemma encodes_len c w : encodes c w -> (9 <= length w)%nat.
Proof. intros (s & low & h & HL & -> & _). cbn [length]. rewrite !app_length, repeat_length. cbn [length]. lia. Qed.
Lemma comp_loop_complete v w : encodes_all v w -> small v -> forall acc l pre rest pad x, bytes pre -> (l < 8)%nat -> zbits l acc ++ bytes_bits pre = w ++ repeat false pad -> (pad < 8)%nat ->
  comp_loop (length v) acc l (pre ++ rest) x = Some (x ++ v, rest).
Proof.
  induction 1 as [|c v w1 w2 Hc HV IH]; intros SV acc l pre rest pad x Hb Hl Q Hp.
  - cbn [app] in Q. assert (L : (l + 8 * length pre = pad)%nat) by (apply (f_equal (@length _)) in Q; rewrite app_length, zbits_length, bytes_bits_length, repeat_length in Q; exact Q).
    destruct pre; [|cbn [length] in L; lia]. cbn [length app comp_loop]. cbn [bytes_bits flat_map] in Q. rewrite app_nil_r in Q. replace pad with l in Q by (cbn in L; lia).
    apply low_zero in Q; [|lia]. rewrite Q, app_nil_r. reflexivity.
  - inversion SV as [|? ? Hs SV']; subst. pose proof (encodes_len c w1 Hc) as L9. destruct Hc as (s & low & h & HL & Ew & Ec & Ez).
    destruct pre as [|b pre]; [exfalso; apply (f_equal (@length _)) in Q; rewrite !app_length, zbits_length in Q; cbn [bytes_bits flat_map length] in Q; lia|].
    pose proof (Forall_inv Hb) as Hb0. pose proof (Forall_inv_tail Hb) as Hbd. cbn [length app comp_loop]. cbv zeta. pose proof (head8 l acc b Hl Hb0) as Q8. cbv zeta in Q8.
    set (a := Z.lor (u32 (Z.shiftl acc 8)) b) in *. set (bb := Z.shiftr a (Z.of_nat l)) in *. rewrite land128, land127, negb_involutive.
    rewrite cbits_cons, app_assoc, Q8, Ew in Q. rewrite <- !app_comm_cons in Q. apply cons_inj in Q. destruct Q as [Q1 Q2]. rewrite <- !app_assoc in Q2.
    apply app_inv_length in Q2; [|rewrite zbits_length; auto]. destruct Q2 as [Q2 Q3]. rewrite Q1, Q2.
    pose proof (of_bits_bound low) as HM. rewrite HL in HM. change (2 ^ Z.of_nat 7) with 128 in HM.
    assert (HB : of_bits low + 128 * Z.of_nat h <= 2047) by (destruct s; lia).
    cbn [app] in Q3. destruct (unary_complete h 17 (of_bits low) a l pre rest _ ltac:(lia) Hbd ltac:(lia) Q3 HB) as (a' & l' & p' & E1 & E2 & E3 & E4). rewrite E1.
    assert (EN : s && (of_bits low + 128 * Z.of_nat h =? 0) = false).
    { destruct s; [|reflexivity]. cbn [andb]. apply Z.eqb_neq. intros Z. apply Ez. split; [reflexivity|lia]. }
    rewrite EN. rewrite (IH SV' a' l' p' rest pad) by auto. rewrite <- app_assoc. cbn [app]. f_equal. f_equal. f_equal. f_equal.
    replace (if s then - (of_bits low + 128 * Z.of_nat h) else of_bits low + 128 * Z.of_nat h) with c by (destruct s; lia). apply i16_small. exact Hs.
Qed.
(** the encodings the C decoder accepts: fewest bytes, zero bits at the end *)
Definition c_encoding (v enc : list Z) : Prop := bytes enc /\ exists w pad, encodes_all v w /\ (pad < 8)%nat /\ bytes_bits enc = w ++ repeat false pad.
Theorem c_comp_decode_iff k data v u : bytes data ->
  (c_comp_decode k data = Some (v, u) <->
   length v = (2 ^ k)%nat /\ small v /\ (u <= length data)%nat /\ c_encoding v (firstn u data)).
Proof.
  intros Hb. unfold c_comp_decode. generalize (2 ^ k)%nat as n. intros n. split.
  - destruct (comp_loop n 0 0 data []) as [[y rest]|] eqn:E; [|discriminate]. intros H. assert (y = v /\ (length data - length rest)%nat = u) as [-> <-] by (split; congruence).
    apply comp_loop_sound in E; [|auto|lia]. destruct E as (v' & w & pre & pad & -> & L & EV & SV & -> & EQ & HP). cbn [app] in *.
    rewrite app_length. replace (length pre + length rest - length rest)%nat with (length pre) by lia. rewrite firstn_app_exact by reflexivity.
    split; [exact L|]. split; [exact SV|]. split; [lia|]. apply bytes_app in Hb. split; [apply Hb|]. exists w, pad. auto.
  - intros (L & SV & HU & HB & w & pad & EV & HP & EQ). rewrite <- L. rewrite <- (firstn_skipn u data) at 1.
    rewrite (comp_loop_complete v w EV SV 0 0 (firstn u data) (skipn u data) pad []) by (auto; lia). cbn [app]. f_equal. f_equal. rewrite skipn_length. lia.
Qed.
Lemma c_encoding_unique v e e' : c_encoding v e -> c_encoding v e' -> e = e'.
Proof.
  intros (B & w & p & E & HP & Q) (B' & w' & p' & E' & HP' & Q'). assert (w' = w) by (rewrite (encodes_all_unique _ _ E), (encodes_all_unique _ _ E'); reflexivity). subst w'.
  apply bytes_bits_inj; auto. rewrite Q, Q'. f_equal. f_equal.
  apply (f_equal (@length _)) in Q. apply (f_equal (@length _)) in Q'. rewrite bytes_bits_length, app_length, repeat_length in Q, Q'. lia.
Qed.

(** * Compressed signatures: encoding *)
Lemma mod256_byte x : is_byte (x mod 256). Proof. apply Z.mod_pos_bound. lia. Qed.
Lemma bits_mod256 x : zbits 8 (x mod 256) = zbits 8 x. Proof. exact (zbits_mod 8 x). Qed.
Lemma bytes_snoc out b : bytes out -> is_byte b -> bytes (out ++ [b]). Proof. intros. apply bytes_app. split; [auto|]. constructor; auto. Qed.
Lemma cflush_spec max acc fuel : forall l out, (l <= fuel)%nat -> bytes out -> (length out <= max)%nat ->
  (cflush fuel max acc l out = None /\ (8 * max < 8 * length out + l)%nat) \/
  exists l' out', cflush fuel max acc l out = Some (l', out') /\ (l' < 8)%nat /\ bytes out' /\ (length out' <= max)%nat /\ bytes_bits out' ++ zbits l' acc = bytes_bits out ++ zbits l acc.
Proof.
  induction fuel as [|fuel IH]; intros l out Hf Hb HL; cbn [cflush].
  - destruct (Nat.leb_spec 8 l); [lia|]. right. exists l, out. auto.
  - destruct (Nat.leb_spec 8 l) as [L|L]; [|right; exists l, out; auto].
    destruct (Nat.leb_spec max (length out)) as [M|M]; [left; split; [reflexivity|lia]|].
    set (b := Z.shiftr acc (Z.of_nat (l - 8)) mod 256).
    destruct (IH (l - 8)%nat (out ++ [b])) as [[E B]|(l' & out' & E1 & E2 & E3 & E4 & E5)].
    + lia.
    + apply bytes_snoc; auto. apply mod256_byte.
    + rewrite app_length. cbn. lia.
    + left. split; [exact E|]. rewrite app_length in B. cbn in B. lia.
    + right. exists l', out'. repeat split; auto. rewrite E5. rewrite bytes_bits_app, <- app_assoc. f_equal. cbn [bytes_bits flat_map]. rewrite app_nil_r.
      transitivity (zbits (8 + (l - 8)) acc); [|f_equal; lia]. rewrite zbits_app. f_equal. unfold b. rewrite bits_mod256, Z.shiftr_div_pow2 by lia. reflexivity.
Qed.
Lemma zbits_one w : zbits (w + 1) 1 = repeat false w ++ [true].
Proof.
  rewrite zbits_app. f_equal. change (1 / 2 ^ Z.of_nat 1) with 0. induction w as [|w IH]; [reflexivity|]. cbn [zbits repeat]. rewrite Z.testbit_0_l, IH. reflexivity.
Qed.
Lemma zbits_zero w : zbits w 0 = repeat false w.
Proof. induction w as [|w IH]; [reflexivity|]. cbn [zbits repeat]. rewrite Z.testbit_0_l, IH. reflexivity. Qed.
(** the accumulator after one coefficient *)
Lemma enc_acc l acc t : (l < 8)%nat -> -2047 <= t <= 2047 ->
  let a1 := u32 (Z.shiftl acc 1) in let a2 := if t <? 0 then Z.lor a1 1 else a1 in
  let a3 := Z.lor (u32 (Z.shiftl a2 7)) (Z.land (Z.abs t) 127) in let w := Z.shiftr (Z.abs t) 7 in
  zbits (l + 8 + Z.to_nat (w + 1)) (Z.lor (u32 (Z.shiftl a3 (w + 1))) 1) = zbits l acc ++ compress_coef t.
Proof.
  intros Hl Ht a1 a2 a3 w. assert (Hw : 0 <= w <= 15).
  { unfold w. rewrite shiftr7. split; [apply Z.div_pos; lia|]. apply Z.lt_succ_r, Z.div_lt_upper_bound; lia. }
  assert (E2 : zbits (l + 1) a2 = zbits l acc ++ [t <? 0]).
  { unfold a2, a1. destruct (t <? 0).
    - exact (zb_push l 1 acc 1 ltac:(lia) ltac:(cbn; lia)).
    - rewrite <- (Z.lor_0_r (u32 (Z.shiftl acc 1))). exact (zb_push l 1 acc 0 ltac:(lia) ltac:(cbn; lia)). }
  assert (HM : Z.land (Z.abs t) 127 = Z.abs t mod 2 ^ 7) by (change 127 with (2 ^ 7 - 1); apply land_ones_mod; lia).
  assert (E3 : zbits (l + 8) a3 = zbits l acc ++ (t <? 0) :: zbits 7 (Z.abs t mod 2 ^ 7)).
  { unfold a3. rewrite HM. replace (l + 8)%nat with ((l + 1) + 7)%nat by lia.
    rewrite (zb_push (l + 1) 7 a2 (Z.abs t mod 2 ^ 7) ltac:(lia) ltac:(apply (Z.mod_pos_bound _ (2 ^ 7)); lia) : zbits (l + 1 + 7) (Z.lor (u32 (Z.shiftl a2 7)) (Z.abs t mod 2 ^ 7)) = _). rewrite E2, <- app_assoc. reflexivity. }
  replace (w + 1) with (Z.of_nat (Z.to_nat (w + 1))) at 2 by lia. rewrite zb_push.
  - rewrite E3, <- app_assoc. f_equal. unfold compress_coef. cbn [app]. f_equal. f_equal. fold w. replace (Z.to_nat (w + 1)) with (Z.to_nat w + 1)%nat by lia. apply zbits_one.
  - lia.
  - split; [lia|]. apply Z.pow_gt_1; lia.
Qed.
Lemma comp_enc_loop_spec max v : small v -> forall acc l out, (l < 8)%nat -> bytes out -> (length out <= max)%nat ->
  (comp_enc_loop max v acc l out = None /\ (8 * max < 8 * length out + l + length (compress_bits v))%nat) \/
  exists acc' l' out', comp_enc_loop max v acc l out = Some (acc', l', out') /\ (l' < 8)%nat /\ bytes out' /\ (length out' <= max)%nat /\
    bytes_bits out' ++ zbits l' acc' = bytes_bits out ++ zbits l acc ++ compress_bits v.
Proof.
  induction v as [|t v IH]; intros SV acc l out Hl Hb HL; cbn [comp_enc_loop].
  - right. exists acc, l, out. cbn [compress_bits flat_map]. rewrite app_nil_r. auto.
  - pose proof (Forall_inv SV) as Ht. cbn beta in Ht. pose proof (Forall_inv_tail SV) as SV'. cbv zeta. pose proof (enc_acc l acc t Hl Ht) as EA. cbv zeta in EA.
    set (A := Z.lor (u32 (Z.shiftl (Z.lor (u32 (Z.shiftl (if t <? 0 then Z.lor (u32 (Z.shiftl acc 1)) 1 else u32 (Z.shiftl acc 1)) 7)) (Z.land (Z.abs t) 127)) (Z.shiftr (Z.abs t) 7 + 1))) 1) in *.
    set (L := (l + 8 + Z.to_nat (Z.shiftr (Z.abs t) 7 + 1))%nat) in *.
    assert (LL : L = (l + length (compress_coef t))%nat) by (rewrite <- (zbits_length L A), EA, app_length, zbits_length; reflexivity).
    cbn [compress_bits flat_map]. fold (compress_bits v). rewrite app_length.
    destruct (cflush_spec max A L L out (le_n _) Hb HL) as [[E B]|(l' & out' & E1 & E2 & E3 & E4 & E5)].
    + left. rewrite E. split; [reflexivity|lia].
    + rewrite E1. assert (LB : (8 * length out' + l' = 8 * length out + L)%nat) by (apply (f_equal (@length _)) in E5; rewrite !app_length, !bytes_bits_length, !zbits_length in E5; exact E5).
      destruct (IH SV' A l' out' E2 E3 E4) as [[E B]|(a2 & l2 & o2 & F1 & F2 & F3 & F4 & F5)].
      * left. split; [exact E|lia].
      * right. exists a2, l2, o2. repeat split; auto. rewrite F5, app_assoc, E5, EA. rewrite <- !app_assoc. reflexivity.
Qed.
Lemma small_dec v : forallb (fun t => (-2047 <=? t) && (t <=? 2047)) v = true <-> small v.
Proof. unfold small. rewrite forallb_forall, Forall_forall. split; intros H x Hx; specialize (H x Hx); lia. Qed.
Lemma c_comp_encode_cases max v : small v ->
  (c_comp_encode max v = None /\ 8 * Z.of_nat max < total_cost v) \/ exists out, c_comp_encode max v = Some out /\ (length out <= max)%nat /\ c_encoding v out.
Proof.
  intros SV. unfold c_comp_encode. rewrite (proj2 (small_dec v) SV). rewrite <- compress_bits_length.
  destruct (comp_enc_loop_spec max v SV 0 0 [] ltac:(lia) ltac:(constructor) ltac:(cbn; lia)) as [[E B]|(acc & l & out & E1 & E2 & E3 & E4 & E5)].
  - left. rewrite E. split; [reflexivity|]. cbn in B. lia.
  - rewrite E1. cbn [bytes_bits flat_map zbits app] in E5. fold (bytes_bits out) in E5.
    assert (LB : (8 * length out + l = length (compress_bits v))%nat) by (apply (f_equal (@length _)) in E5; rewrite !app_length, bytes_bits_length, zbits_length in E5; exact E5).
    destruct (Nat.ltb_spec 0 l) as [L|L].
    + destruct (Nat.leb_spec max (length out)) as [M|M]; [left; split; [reflexivity|lia]|]. right. eexists. split; [reflexivity|]. split; [rewrite app_length; cbn; lia|].
      split; [apply bytes_snoc; auto; apply mod256_byte|]. exists (compress_bits v), (8 - l)%nat. split; [apply compress_bits_encodes|]. split; [lia|].
      rewrite bytes_bits_app. cbn [bytes_bits flat_map]. fold (bytes_bits out). rewrite app_nil_r, bits_mod256, <- E5, <- app_assoc. f_equal.
      replace (8 - Z.of_nat l) with (Z.of_nat (8 - l)) by lia. replace 8%nat with (l + (8 - l))%nat at 1 by lia.
      rewrite <- (Z.lor_0_r (u32 _)). rewrite zb_push; [rewrite zbits_zero; reflexivity|lia|]. split; [lia|apply Z.pow_pos_nonneg; lia].
    + right. exists out. split; [reflexivity|]. split; [exact E4|]. split; [exact E3|]. exists (compress_bits v), 0%nat. split; [apply compress_bits_encodes|]. split; [lia|].
      replace l with 0%nat in E5 by lia. cbn [repeat zbits] in *. rewrite app_nil_r in *. exact E5.
Qed.
Theorem c_comp_encode_iff max v out : c_comp_encode max v = Some out <-> small v /\ (length out <= max)%nat /\ c_encoding v out.
Proof.
  split.
  - intros E. assert (SV : small v). { apply small_dec. unfold c_comp_encode in E. destruct (forallb _ v); [reflexivity|discriminate]. }
    destruct (c_comp_encode_cases max v SV) as [[E' _]|(o & E' & L & C)]; [congruence|]. assert (o = out) by congruence. subst o. auto.
  - intros (SV & L & C). destruct (c_comp_encode_cases max v SV) as [[_ B]|(o & E' & _ & C')].
    + exfalso. destruct C as (_ & w & pad & EV & HP & Q). rewrite (encodes_all_unique _ _ EV) in Q. apply (f_equal (@length _)) in Q.
      rewrite app_length, bytes_bits_length in Q. pose proof (compress_bits_length v). lia.
    + rewrite E'. f_equal. exact (c_encoding_unique v o out C' C).
Qed.
(** number of bytes *)
Lemma c_encoding_length v enc : c_encoding v enc -> Z.of_nat (length enc) = (total_cost v + 7) / 8.
Proof.
  intros (_ & w & pad & EV & HP & Q). rewrite (encodes_all_unique _ _ EV) in Q. apply (f_equal (@length _)) in Q. rewrite app_length, bytes_bits_length, repeat_length in Q.
  pose proof (compress_bits_length v). lia.
Qed.
