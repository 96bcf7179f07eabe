(** The fixed-width encoders and the secret-key codec of codec.c are Python's. *)
From Verif Require Import Base CodecModel CodecSpec CodecProofs EncodingModel EncodingSpec EncodingProofs CModel CCodecProofs CKeyModel.

(** * Encoders *)
Lemma cput_spec acc fuel : forall l out, (l <= fuel)%nat -> bytes out ->
  exists l' out', cput fuel acc l out = (l', out') /\ (l' < 8)%nat /\ bytes out' /\ bytes_bits out' ++ zbits l' acc = bytes_bits out ++ zbits l acc.
Proof.
  induction fuel as [|fuel IH]; intros l out Hf Hb; cbn [cput].
  - destruct (Nat.leb_spec 8 l); [lia|]. exists l, out. auto.
  - destruct (Nat.leb_spec 8 l) as [L|L]; [|exists l, out; auto].
    set (b := Z.shiftr acc (Z.of_nat (l - 8)) mod 256).
    destruct (IH (l - 8)%nat (out ++ [b])) as (l' & out' & E1 & E2 & E3 & E5).
    + lia.
    + apply bytes_snoc; auto. apply mod256_byte.
    + exists l', out'. repeat split; auto. rewrite E5. rewrite bytes_bits_app, <- app_assoc. f_equal. cbn [bytes_bits flat_map]. rewrite app_nil_r.
      transitivity (zbits (8 + (l - 8)) acc); [|f_equal; lia]. rewrite zbits_app. f_equal. unfold b. rewrite bits_mod256, Z.shiftr_div_pow2 by lia. reflexivity.
Qed.
Lemma last_bits l acc : (0 < l < 8)%nat -> zbits 8 (u32 (Z.shiftl acc (8 - Z.of_nat l)) mod 256) = zbits l acc ++ repeat false (8 - l).
Proof.
  intros Hl. rewrite bits_mod256. rewrite (zbits_ext 8 _ (Z.lor (u32 (Z.shiftl acc (Z.of_nat (8 - l)))) 0)).
  - transitivity (zbits (l + (8 - l)) (Z.lor (u32 (Z.shiftl acc (Z.of_nat (8 - l)))) 0)); [f_equal; lia|].
    rewrite zb_push; [|lia|split; [lia|apply Z.pow_pos_nonneg; lia]]. f_equal. apply zbits_zero.
  - intros i Hi. rewrite Z.lor_0_r. repeat f_equal. lia.
Qed.
Lemma cpack_loop_spec width : (width <= 24)%nat -> forall fields acc l out, (l < 8)%nat -> bytes out -> okfields width fields ->
  exists pad, (pad < 8)%nat /\ bytes (cpack_loop width fields acc l out) /\
    bytes_bits (cpack_loop width fields acc l out) = bytes_bits out ++ zbits l acc ++ flat_map (zbits width) fields ++ repeat false pad.
Proof.
  intros Hw. induction fields as [|w fields IH]; intros acc l out Hl Hb HF; cbn [cpack_loop flat_map].
  - destruct (Nat.ltb_spec 0 l) as [L|L].
    + exists (8 - l)%nat. split; [lia|]. split; [apply bytes_snoc; [exact Hb|apply mod256_byte]|]. rewrite bytes_bits_app. cbn [bytes_bits flat_map app]. rewrite app_nil_r.
      f_equal. apply last_bits. lia.
    + exists 0%nat. assert (l = 0%nat) by lia. subst l. cbn. split; [lia|]. split; [exact Hb|]. rewrite app_nil_r. reflexivity.
  - inversion_clear HF as [|? ? Hr HF']. set (acc' := Z.lor (u32 (Z.shiftl acc (Z.of_nat width))) w).
    destruct (cput_spec acc' (l + width) (l + width) out (le_n _) Hb) as (l' & out' & E1 & E2 & E3 & E4). rewrite E1.
    destruct (IH acc' l' out' E2 E3 HF') as (pad & P1 & P2 & P3). exists pad. split; [exact P1|]. split; [exact P2|]. rewrite P3, app_assoc, E4. unfold acc'.
    rewrite zb_push by (try lia; exact Hr). rewrite <- !app_assoc. reflexivity.
Qed.
(** a coded vector: [ws] are the fields of [x] *)
Theorem cpack_iff width field max x d : (width <= 24)%nat -> (forall c w, field c = Some w -> 0 <= w < 2 ^ Z.of_nat width) ->
  (cpack width field max x = Some d <-> (ceil8 (length x * width) <= max)%nat /\ exists ws, map field x = map Some ws /\ packs width ws d).
Proof.
  intros Hw HR. unfold cpack. fold (ceil8 (length x * width)).
  assert (C : (existsb (fun v => match field v with None => true | _ => false end) x = true /\ (forall ws, map field x <> map Some ws)) \/
    (existsb (fun v => match field v with None => true | _ => false end) x = false /\ map field x = map Some (map (fun v => match field v with Some w => w | None => 0 end) x))).
  { induction x as [|v x [[IH1 IH2]|[IH1 IH2]]]; cbn [existsb map]; [right; split; reflexivity|left|].
    - split; [rewrite IH1; apply orb_true_r|]. intros [|w ws] E; [discriminate E|]. cbn [map] in E. apply cons_inj in E. exact (IH2 ws (proj2 E)).
    - destruct (field v) as [w|] eqn:E.
      + right. split; [exact IH1|]. rewrite IH2 at 1. reflexivity.
      + left. split; [reflexivity|]. intros [|w ws] E'; [discriminate E'|]. cbn [map] in E'. apply cons_inj in E'. discriminate (proj1 E'). }
  destruct C as [[-> C]|[-> C]]; [split; [discriminate|intros (_ & ws & E & _); destruct (C ws E)]|].
  set (ws := map (fun v => match field v with Some w => w | None => 0 end) x) in *.
  assert (OK : okfields width ws).
  { clearbody ws. clear -C HR. revert ws C. induction x as [|v x IH]; intros [|w ws] E; try discriminate E; constructor; cbn [map] in E; apply cons_inj in E; [apply (HR v w); apply E|apply IH; apply E]. }
  destruct (Nat.ltb_spec max (ceil8 (length x * width))) as [L|L]; [split; [discriminate|intros [L2 _]; lia]|].
  destruct (cpack_loop_spec width Hw ws 0 0 [] ltac:(lia) ltac:(constructor) OK) as (pad & P1 & P2 & P3). cbn [zbits bytes_bits flat_map app] in P3.
  assert (PK : packs width ws (cpack_loop width ws 0 0 [])) by (split; [exact P2|exists pad; split; [exact P1|exact P3]]). split.
  - intros E. apply Some_inj in E. subst d. split; [exact L|]. exists ws. split; [exact C|exact PK].
  - intros (_ & ws' & E & PK'). f_equal. assert (ws' = ws) by (rewrite C in E; clear -E; revert ws' E; induction ws as [|a ws IH]; intros [|b ws'] E; try discriminate E; [reflexivity|]; cbn [map] in E;
      apply cons_inj in E; destruct E as [E1 E2]; apply Some_inj in E1; subst; f_equal; apply IH; exact E2). subst ws'. exact (packs_unique_data _ _ _ _ PK PK').
Qed.
Lemma cmodq_field_range width c w : (14 <= width)%nat -> 0 <= c -> cmodq_field c = Some w -> 0 <= w < 2 ^ Z.of_nat width.
Proof.
  intros Hw Hc. unfold cmodq_field. destruct (Z.leb_spec 12289 c); [discriminate|]. intros E. apply Some_inj in E. subst w. assert (2 ^ 14 <= 2 ^ Z.of_nat width) by (apply Z.pow_le_mono_r; lia). lia.
Qed.
Lemma cpack_ext width f g max x : (forall v, In v x -> f v = g v) -> cpack width f max x = cpack width g max x.
Proof.
  intros H. unfold cpack. assert (E1 : existsb (fun v => match f v with None => true | _ => false end) x = existsb (fun v => match g v with None => true | _ => false end) x).
  { induction x as [|v x IH]; [reflexivity|]. cbn [existsb]. rewrite (H v) by (left; reflexivity). rewrite IH by (intros; apply H; right; assumption). reflexivity. }
  rewrite E1. rewrite (map_ext_in (fun v => match f v with Some w => w | None => 0 end) (fun v => match g v with Some w => w | None => 0 end)); [reflexivity|].
  intros v Hv. rewrite (H v Hv). reflexivity.
Qed.
Lemma field_self (f : Z -> option Z) P x : (forall c, f c = Some c <-> P c) -> (forall c w, f c = Some w -> w = c) -> forall ws, map f x = map Some ws <-> ws = x /\ Forall P x.
Proof.
  intros HP HS. induction x as [|c x IH]; intros [|w ws]; cbn [map].
  - split; [split; [reflexivity|constructor]|reflexivity].
  - split; [discriminate|intros [E _]; discriminate E].
  - split; [discriminate|intros [E _]; discriminate E].
  - split.
    + intros E. apply cons_inj in E. destruct E as [E1 E2]. pose proof (HS c w E1). subst w. apply IH in E2. destruct E2 as [-> F]. split; [reflexivity|constructor; [apply HP; exact E1|exact F]].
    + intros [E F]. apply cons_inj in E. destruct E as [-> ->]. inversion_clear F. f_equal; [apply HP; assumption|apply IH; auto].
Qed.
Theorem c_modq_encode_gen width max h d : (14 <= width <= 24)%nat -> Forall (fun c => 0 <= c) h ->
  (cpack width cmodq_field max h = Some d <-> (ceil8 (length h * width) <= max)%nat /\ Forall in_zq h /\ packs width h d).
Proof.
  intros Hw HN. rewrite (cpack_ext width _ modq_field).
  - rewrite cpack_iff; [|lia|].
    + split; intros (L & R); (split; [exact L|]).
      * destruct R as (ws & E & P). apply (field_self modq_field in_zq) in E; [destruct E as [-> F]; split; assumption| |].
        -- intros c. destruct (modq_field c) eqn:E'; [|split; [discriminate|intros Q; exfalso; apply (proj1 (modq_field_none c) E' Q)]].
           assert (z = c) by (unfold modq_field in E'; destruct (_ || _); congruence). subst z. split; [intros _|reflexivity].
           destruct (in_zq_dec c); [assumption|]. apply modq_field_none in n. congruence.
        -- intros c w E'. unfold modq_field in E'; destruct (_ || _); congruence.
      * destruct R as (F & P). exists h. split; [|exact P]. apply (field_self modq_field in_zq); [| |split; [reflexivity|exact F]].
        -- intros c. destruct (modq_field c) eqn:E'; [|split; [discriminate|intros Q; exfalso; apply (proj1 (modq_field_none c) E' Q)]].
           assert (z = c) by (unfold modq_field in E'; destruct (_ || _); congruence). subst z. split; [intros _|reflexivity].
           destruct (in_zq_dec c); [assumption|]. apply modq_field_none in n. congruence.
        -- intros c w E'. unfold modq_field in E'; destruct (_ || _); congruence.
    + intros c w E. pose proof (modq_field_range c w E). assert (2 ^ 14 <= 2 ^ Z.of_nat width) by (apply Z.pow_le_mono_r; lia). change (2 ^ Z.of_nat 14) with (2 ^ 14) in *. lia.
  - intros v Hv. rewrite Forall_forall in HN. specialize (HN v Hv). unfold cmodq_field, modq_field. destruct (Z.ltb_spec v 0); [lia|]. cbn [orb].
    destruct (Z.leb_spec 12289 v); destruct (Z.leb_spec q v); unfold q in *; try reflexivity; lia.
Qed.

(** * Secret coefficients *)
Definition int8 (v : Z) : Prop := -128 <= v < 128.
Lemma ctrim_field_eq bits v : (1 <= bits <= 8)%nat -> int8 v -> ctrim_field bits v = trim_field bits v.
Proof.
  intros Hb Hv. unfold int8 in Hv.
  assert (H : forallb (fun b => forallb (fun i => match ctrim_field b (Z.of_nat i - 128), trim_field b (Z.of_nat i - 128) with Some x, Some y => x =? y | None, None => true | _, _ => false end) (seq 0 256)) (seq 1 8) = true)
    by (vm_compute; reflexivity).
  rewrite forallb_forall in H. specialize (H bits ltac:(apply in_seq; lia)). cbv beta in H. rewrite forallb_forall in H. specialize (H (Z.to_nat (v + 128)) ltac:(apply in_seq; lia)).
  replace (Z.of_nat (Z.to_nat (v + 128)) - 128) with v in H by lia. destruct (ctrim_field bits v), (trim_field bits v); try discriminate H; [apply Z.eqb_eq in H; subst; reflexivity|reflexivity].
Qed.
Lemma ctrim_conv_eq bits w : (1 <= bits <= 8)%nat -> 0 <= w < 2 ^ Z.of_nat bits -> ctrim_conv bits w = trim_chk bits w.
Proof.
  intros Hb Hw.
  assert (H : forallb (fun b => forallb (fun i => match ctrim_conv b (Z.of_nat i), trim_chk b (Z.of_nat i) with Some x, Some y => x =? y | None, None => true | _, _ => false end) (seq 0 (2 ^ b))) (seq 1 8) = true)
    by (vm_compute; reflexivity).
  rewrite forallb_forall in H. specialize (H bits ltac:(apply in_seq; lia)). cbv beta in H. rewrite forallb_forall in H.
  assert (P : (Z.to_nat w < 2 ^ bits)%nat) by (apply Nat2Z.inj_lt; rewrite Nat2Z.inj_pow, Z2Nat.id by lia; change (Z.of_nat 2) with 2; lia).
  specialize (H (Z.to_nat w) ltac:(apply in_seq; lia)).
  rewrite Z2Nat.id in H by lia. destruct (ctrim_conv bits w), (trim_chk bits w); try discriminate H; [apply Z.eqb_eq in H; subst; reflexivity|reflexivity].
Qed.
Theorem c_trim_encode_py bits max x : (1 <= bits <= 8)%nat -> Forall int8 x ->
  c_trim_i8_encode bits max x = if (max <? ceil8 (length x * bits))%nat then None else match trim_i8_encode x (length x) bits with Ok d => Some d | Raise _ => None end.
Proof.
  intros Hb HI. unfold c_trim_i8_encode. rewrite (cpack_ext bits _ (trim_field bits)) by (intros v Hv; apply ctrim_field_eq; [exact Hb|rewrite Forall_forall in HI; exact (HI v Hv)]).
  destruct (cpack bits (trim_field bits) max x) as [d|] eqn:E.
  - apply cpack_iff in E; [|lia|apply trim_field_range; lia]. destruct E as (L & ws & EW & P). destruct (Nat.ltb_spec max (ceil8 (length x * bits))); [lia|].
    destruct (encode_gen_spec (trim_field bits) bits ltac:(apply trim_field_range; lia) x (length x) ws eq_refl EW) as (d' & E & _ & P'). unfold trim_i8_encode. fold (trim_field bits). 
    change (encode_gen _ bits x (length x)) with (encode_gen (trim_field bits) bits x (length x)). rewrite E. f_equal. exact (packs_unique_data _ _ _ _ P P').
  - destruct (Nat.ltb_spec max (ceil8 (length x * bits))) as [L|L]; [reflexivity|]. destruct (trim_i8_encode x (length x) bits) as [d|] eqn:E'; [|reflexivity]. exfalso.
    destruct (Forall_Exists_dec (in_trim bits) (in_trim_dec bits ltac:(lia)) x) as [F|F].
    + destruct (trim_encode_ok bits ltac:(lia) x (length x) eq_refl F) as (d' & E1 & _ & P).
      assert (C : cpack bits (trim_field bits) max x = Some d'); [|congruence]. apply cpack_iff; [lia|apply trim_field_range; lia|]. split; [exact L|]. eexists. split; [|exact P].
      clear -F Hb. induction F as [|c x Hc F IH]; [reflexivity|]. cbn [map]. f_equal; [|exact IH]. rewrite trim_field_val, pow_bits by lia. unfold in_trim in Hc.
      destruct ((- (2 ^ (Z.of_nat bits - 1) - 1) <=? c) && (c <=? 2 ^ (Z.of_nat bits - 1) - 1)) eqn:E; [reflexivity|lia].
    + assert (R : trim_i8_encode x (length x) bits = Raise ValueError) by (apply trim_encode_raise_iff; [lia|reflexivity|split; [reflexivity|exact F]]). congruence.
Qed.

(** * Decoding of secret coefficients *)
Definition agree (a b : Z) : Prop := forall i, 0 <= i < 32 -> Z.testbit a i = Z.testbit b i.
Lemma ctrim_inner_eq bits : (1 <= bits <= 8)%nat -> forall todo acc acc' l x, (l <= 32)%nat -> agree acc acc' ->
  ctrim_inner bits todo acc l x = match ginner (trim_chk bits) bits todo acc' l x with Ok r => Some r | Raise _ => None end.
Proof.
  intros Hb. induction todo as [|todo IH]; intros acc acc' l x Hl HA; cbn [ctrim_inner ginner]; [reflexivity|].
  destruct (Nat.leb_spec bits l) as [L|L]; [|reflexivity]. rewrite Z.shiftl_1_l.
  assert (E : Z.land (Z.shiftr acc (Z.of_nat (l - bits))) (2 ^ Z.of_nat bits - 1) = Z.land (Z.shiftr acc' (Z.of_nat (l - bits))) (2 ^ Z.of_nat bits - 1)).
  { rewrite !land_ones_mod by lia. apply Z.bits_inj'. intros i Hi. destruct (Z.lt_ge_cases i (Z.of_nat bits)).
    - rewrite !Z.mod_pow2_bits_low, !Z.shiftr_spec by lia. apply HA. lia.
    - rewrite !Z.mod_pow2_bits_high by lia. reflexivity. }
  rewrite E. rewrite ctrim_conv_eq by (try exact Hb; rewrite land_ones_mod by lia; apply Z.mod_pos_bound, Z.pow_pos_nonneg; lia).
  destruct (trim_chk bits _) as [w|]; [|reflexivity]. apply IH; [lia|exact HA].
Qed.
Lemma ginner_left chk bits : (1 <= bits)%nat -> forall todo acc l x t l' y, ginner chk bits todo acc l x = Ok (t, l', y) -> (l' <= l)%nat /\ (t = O \/ (l' < bits)%nat).
Proof.
  intros Hb. induction todo as [|todo IH]; intros acc l x t l' y E; cbn [ginner] in E.
  - injection E as <- <- <-. split; [lia|left; reflexivity].
  - destruct (Nat.leb_spec bits l) as [L|L].
    + destruct (chk _); [|discriminate E]. apply IH in E. destruct E as [E1 E2]. split; [lia|exact E2].
    + injection E as <- <- <-. split; [lia|right; exact L].
Qed.
Lemma ginner_raise chk bits todo : forall acc l x e, ginner chk bits todo acc l x = Raise e -> e = ValueError.
Proof.
  induction todo as [|todo IH]; intros acc l x e E; cbn [ginner] in E; [discriminate E|]. destruct (Nat.leb_spec bits l); [|discriminate E].
  destruct (chk _); [exact (IH _ _ _ _ E)|congruence].
Qed.
Lemma ctrim_loop_eq bits : (1 <= bits <= 8)%nat -> forall data todo acc acc' l x, (l <= 24)%nat -> (todo = O \/ (l < bits)%nat) -> agree acc acc' ->
  ctrim_loop bits todo data acc l x = of_gloop (gloop (trim_chk bits) bits todo data acc' l x).
Proof.
  intros Hb. induction data as [|b data IH]; intros [|todo] acc acc' l x Hl Hs HA.
  1, 3: cbn [ctrim_loop gloop of_gloop]; rewrite Z.shiftl_mul_pow2, Z.mul_1_l by lia;
    (assert (2 ^ Z.of_nat l <= 2 ^ 31) by (apply Z.pow_le_mono_r; lia)); (assert (0 < 2 ^ Z.of_nat l) by (apply Z.pow_pos_nonneg; lia));
    replace (u32 (2 ^ Z.of_nat l)) with (2 ^ Z.of_nat l) by (unfold u32; rewrite Z.mod_small; lia); rewrite !land_ones_mod by lia;
    rewrite <- !of_bits_zbits; rewrite (zbits_ext l acc acc') by (intros; apply HA; lia); reflexivity.
  - reflexivity.
  - destruct Hs as [Hs|Hs]; [discriminate Hs|]. cbn [ctrim_loop gloop]. cbv zeta.
    assert (HA' : agree (Z.lor (u32 (Z.shiftl acc 8)) b) (Z.lor (Z.shiftl acc' 8) b)).
    { intros i Hi. rewrite !Z.lor_spec, u32_bits by lia. f_equal. destruct (Z.lt_ge_cases i 8).
      - rewrite !Z.shiftl_spec_low by lia. reflexivity.
      - rewrite !Z.shiftl_spec by lia. apply HA. lia. }
    rewrite (ctrim_inner_eq bits Hb (S todo) _ _ (l + 8) x ltac:(lia) HA').
    destruct (ginner (trim_chk bits) bits (S todo) _ (l + 8) x) as [[[t l'] y]|e] eqn:E; cbn [bind].
    + apply ginner_left in E; [|lia]. apply IH; [lia|apply E|exact HA'].
    + apply ginner_raise in E. subst e. reflexivity.
Qed.
Lemma ctrim_loop_len bits : (1 <= bits <= 8)%nat -> forall data todo acc acc' l x y u, (l <= 24)%nat -> (todo = O \/ (l < bits)%nat) -> agree acc acc' ->
  ctrim_loop bits todo data acc l x = Dec y u -> (todo * bits <= l + 8 * length data)%nat.
Proof.
  intros Hb. assert (G : forall todo acc l x t l' y, ginner (trim_chk bits) bits todo acc l x = Ok (t, l', y) -> (todo * bits + l' = t * bits + l)%nat).
  { induction todo as [|todo IH]; intros acc l x t l' y E; cbn [ginner] in E; [injection E as <- <- <-; lia|]. destruct (Nat.leb_spec bits l).
    - destruct (trim_chk bits _); [|discriminate E]. apply IH in E. lia.
    - injection E as <- <- <-. lia. }
  induction data as [|b data IH]; intros [|todo] acc acc' l x y u Hl Hs HA E; try (cbn; lia); [discriminate E|].
  destruct Hs as [Hs|Hs]; [discriminate Hs|]. cbn [ctrim_loop] in E. cbv zeta in E. set (acc1 := Z.lor (u32 (Z.shiftl acc 8)) b) in *.
  rewrite (ctrim_inner_eq bits Hb (S todo) acc1 acc1 (l + 8) x ltac:(lia)) in E by (intros i Hi; reflexivity).
  destruct (ginner (trim_chk bits) bits (S todo) acc1 (l + 8) x) as [[[t l'] z]|e] eqn:E'; [|discriminate E].
  pose proof (G _ _ _ _ _ _ _ E') as Q. apply ginner_left in E'; [|lia]. apply (IH _ acc1 acc1) in E; [|lia|apply E'|intros i Hi; reflexivity]. cbn [length]. lia.
Qed.
Theorem c_trim_decode_iff bits k max data x u : (1 <= bits <= 8)%nat -> bytes data ->
  (c_trim_i8_decode bits k max data = Dec x u <->
   u = ceil8 (2 ^ k * bits) /\ (u <= max)%nat /\ (u <= length data)%nat /\ trim_i8_decode data (2 ^ k) bits = Ok x).
Proof.
  intros Hb Hd. rewrite trim_decode_eq. unfold c_trim_i8_decode. cbv zeta. fold (ceil8 (2 ^ k * bits)). set (n := (2 ^ k)%nat). clearbody n.
  destruct (Nat.ltb_spec max (ceil8 (n * bits))) as [L|L]; [split; [discriminate|intros (-> & ? & _); lia]|].
  pose proof (ctrim_loop_eq bits Hb data n 0 0 0 [] ltac:(lia) ltac:(right; lia) ltac:(intros i Hi; reflexivity)) as EQ. rewrite EQ.
  unfold gdecode. destruct (Nat.ltb_spec (length data) (ceil8 (n * bits))) as [L'|L'].
  - split; [|intros (_ & _ & _ & E); discriminate E]. intros E. destruct (of_gloop _) as [y v| |] eqn:EG; try discriminate E.
    exfalso. apply (ctrim_loop_len bits Hb data n 0 0 0 [] y v) in EQ; [unfold ceil8 in L'; lia|lia|right; lia|intros i Hi; reflexivity].
  - destruct (gloop (trim_chk bits) bits n data 0 0 []) as [[[y A] l]|e]; cbn [of_gloop bind].
    + destruct (_ =? 0); cbn [negb]; split; try discriminate.
      * intros E. assert (y = x /\ ceil8 (n * bits) = u) as [-> <-] by (split; congruence). auto.
      * intros (-> & _ & _ & E). assert (y = x) by congruence. congruence.
      * intros (_ & _ & _ & E). discriminate E.
    + destruct e; (split; [discriminate|intros (_ & _ & _ & E); discriminate E]).
Qed.
Theorem c_trim_beyond bits k max data : (1 <= bits <= 8)%nat -> bytes data -> c_trim_i8_decode bits k max data = Beyond -> (length data < ceil8 (2 ^ k * bits) <= max)%nat.
Proof.
  intros Hw Hb. unfold c_trim_i8_decode. cbv zeta. fold (ceil8 (2 ^ k * bits)). set (n := (2 ^ k)%nat). clearbody n.
  destruct (Nat.ltb_spec max (ceil8 (n * bits))) as [L|L]; [discriminate|]. intros E. split; [|exact L].
  destruct (Nat.lt_ge_cases (length data) (ceil8 (n * bits))) as [|L']; auto. exfalso.
  rewrite (ctrim_loop_eq bits Hw data n 0 0 0 []) in E by (try lia; intros i Hi; reflexivity).
  pose proof (gdecode_raise (trim_chk bits) bits ltac:(lia) data n) as R. unfold gdecode in R. destruct (Nat.ltb_spec (length data) (ceil8 (n * bits))); [lia|].
  destruct (gloop (trim_chk bits) bits n data 0 0 []) as [[[y A] l]|e]; cbn [of_gloop bind] in *.
  - destruct (_ =? 0); discriminate E.
  - specialize (R e Hb eq_refl). subst e. discriminate E.
Qed.
