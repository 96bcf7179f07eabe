(** zknox_crypto_sign_open: 16-bit words. *)
From Verif Require Import Base CodecModel CodecSpec CodecProofs EncodingModel EncodingSpec EncodingProofs RingSpec FalconSpec NttModel NttProofs NttInst NttApi SolModel CTables CModel CNttProofs CCodecProofs CHashProofs COpenSpec Props_CCodec COpenProofs.

Lemma comp16_conv_iff w x : 0 <= w < 65536 -> (comp16_conv w = Some x <-> word_of x w).
Proof.
  intros Hw. unfold comp16_conv, word_of. cbv zeta. destruct (Z_lt_le_dec w 32768) as [L|L].
  - rewrite (i16_id w) by lia. destruct (Z.leb_spec 12289 w).
    + split; [discriminate|]. lia.
    + destruct (Z_lt_le_dec w 2047) as [M|M].
      * replace (Z.shiftr (w - 2047) 31) with (-1) by (rewrite Z.shiftr_div_pow2 by lia; apply Z.div_unique_pos with (w - 2047 + 2 ^ 31); lia).
        change (Z.land 12289 (Z.lnot (-1))) with 0. rewrite Z.sub_0_r, i16_id by lia. split; [intros E; assert (w = x) by congruence; lia|intros; f_equal; lia].
      * replace (Z.shiftr (w - 2047) 31) with 0 by (rewrite Z.shiftr_div_pow2 by lia; symmetry; apply Z.div_small; lia).
        change (Z.land 12289 (Z.lnot 0)) with 12289. rewrite i16_id by lia. split; [intros E; assert (w - 12289 = x) by congruence; lia|intros; f_equal; lia].
  - assert (Ei : i16 w = w - 65536) by (unfold i16; change (2 ^ 15) with 32768; change (2 ^ 16) with 65536; replace ((w + 32768) mod 65536) with (w - 32768) by (apply Z.mod_unique_pos with 1; lia); lia).
    rewrite Ei. destruct (Z.leb_spec 12289 (w - 65536)); [lia|].
    replace (Z.shiftr (w - 65536 - 2047) 31) with (-1) by (rewrite Z.shiftr_div_pow2 by lia; apply Z.div_unique_pos with (w - 65536 - 2047 + 2 ^ 31); lia).
    change (Z.land 12289 (Z.lnot (-1))) with 0. rewrite Z.sub_0_r, i16_id by lia. split; [intros E; assert (w - 65536 = x) by congruence; lia|intros; f_equal; lia].
Qed.
Lemma chk16 ws : forall vs, Forall (fun w => 0 <= w < 65536) ws -> (chk_all comp16_conv ws = Some vs <-> Forall2 word_of vs ws).
Proof.
  induction ws as [|w ws IH]; intros vs F; cbn [chk_all].
  - split; [intros E; assert (vs = []) by congruence; subst; constructor|intros H; inversion H; reflexivity].
  - inversion F as [|? ? Fw Fs]; subst. destruct (comp16_conv w) as [y|] eqn:Ey.
    + apply comp16_conv_iff in Ey; [|exact Fw]. destruct (chk_all comp16_conv ws) as [t|] eqn:Et.
      * split; [intros E; assert (vs = y :: t) by congruence; subst; constructor; [exact Ey|apply IH; auto]|].
        intros H. inversion H as [|x ? vs' ? Hx Hs]; subst. f_equal. f_equal.
        -- assert (E : comp16_conv w = Some x) by (apply comp16_conv_iff; assumption). assert (E2 : comp16_conv w = Some y) by (apply comp16_conv_iff; assumption). congruence.
        -- apply IH in Hs; [congruence|exact Fs].
      * split; [discriminate|]. intros H. inversion H as [|x ? vs' ? Hx Hs]; subst. apply IH in Hs; [congruence|exact Fs].
    + split; [discriminate|]. intros H. inversion H as [|x ? vs' ? Hx Hs]; subst. apply comp16_conv_iff in Hx; [congruence|exact Fw].
Qed.
Lemma word_of_range x w : word_of x w -> 0 <= w < 65536 /\ -32768 <= x < 32768.
Proof. unfold word_of. lia. Qed.
Lemma F2_length {A B} (R : A -> B -> Prop) x y : Forall2 R x y -> length x = length y.
Proof. induction 1; cbn [length]; congruence. Qed.
Lemma pow16 : 2 ^ Z.of_nat 16 = 65536. Proof. reflexivity. Qed.
Lemma ceil16 : ceil8 (2 ^ 9 * 16) = Z.to_nat 1024. Proof. vm_compute. reflexivity. Qed.
Lemma sig16 enc s2 : bytes enc -> (c_comp_decode16 9 (length enc) enc = Dec s2 (length enc) <-> words16 s2 enc).
Proof.
  intros Hb. unfold c_comp_decode16, words16. rewrite cfixed_iff by (auto; lia). rewrite ceil16. change (2 ^ 9)%nat with 512%nat. rewrite (gdecode_ok_iff comp16_conv 16 ltac:(lia) enc 512 s2 Hb).
  change (512 * 16)%nat with (2 ^ 9 * 16)%nat. rewrite ceil16. split.
  - intros (A & _ & _ & _ & ws & Lw & Ok & Ch & P). apply chk16 in Ch; [|exact Ok]. split; [rewrite <- Lw; exact (F2_length _ _ _ Ch)|]. split; [exact A|]. exists ws. split; [exact Ch|].
    rewrite <- A, firstn_all in P. exact P.
  - intros (L2 & LE & ws & F2 & P). split; [exact LE|]. split; [lia|]. split; [lia|]. split; [lia|]. exists ws.
    assert (Ok : Forall (fun w => 0 <= w < 65536) ws) by (clear -F2; induction F2; constructor; auto; eapply word_of_range; eauto).
    split; [rewrite <- L2; symmetry; exact (F2_length _ _ _ F2)|]. split; [exact Ok|]. split; [apply chk16; assumption|]. rewrite <- LE, firstn_all. exact P.
Qed.
Lemma pk16 pk' h used : bytes pk' -> (c_modq_decode16 9 (Z.to_nat 1024) pk' = Dec h used <-> used = Z.to_nat 1024 /\ public_key16 (9 :: pk') h).
Proof.
  intros Hb. rewrite C83_modq16_iff by exact Hb. assert (E1024 : (2 * 2 ^ 9)%nat = Z.to_nat 1024) by (vm_compute; reflexivity). rewrite E1024. change (2 ^ 9)%nat with 512%nat. split.
  - intros (A & _ & C & L & F & P). split; [exact A|]. split; [split; assumption|]. exists (firstn used pk'), (skipn used pk').
    split; [f_equal; symmetry; apply firstn_skipn|]. split; [rewrite firstn_length; lia|exact P].
  - intros (A & (L & F) & body & rest & E & Lb & P). assert (pk' = body ++ rest) by congruence. subst pk'. split; [exact A|]. split; [lia|]. split; [rewrite app_length; lia|].
    split; [exact L|]. split; [exact F|]. rewrite A, firstn_app_exact by auto. exact P.
Qed.
(** the transformed key *)
Lemma canonL_point h : point h -> canonL (2 ^ 9) h. Proof. intros (L & F). split; [exact L|exact F]. Qed.
Lemma inverse_key hN : point hN -> point (mq_iNTT 9 hN) /\ mq_NTT 9 (mq_iNTT 9 hN) = hN.
Proof.
  intros (L & F). pose proof (canonL_point hN (conj L F)) as C. rewrite (mq_iNTT_ok 9 hN ltac:(lia) C).
  pose proof (I_canon psiiC (nm1C 9) (2 ^ 9) hN) as IC.
  assert (IL : length (nttinv qf psiiC (nm1C 9) (2 ^ 9) hN) = (2 ^ 9)%nat) by (rewrite <- (mq_iNTT_ok 9 hN ltac:(lia) C); rewrite mq_iNTT_length; exact L).
  split; [split; [exact IL|exact IC]|]. rewrite (mq_NTT_ok 9 _ (conj IL IC)).
  rewrite (T_I_le _ _ _ _ (goodC 9 ltac:(lia)) _ eq_refl hN L).
  - apply mod_q_id. exact F.
  - apply Forall_impl with (P := in_zq); [|exact F]. intros x Hx. unfold in_zq in Hx. lia.
Qed.
Lemma to_monty_key h : point h -> to_monty (mq_NTT 9 h) = to_ntt_monty 9 h.
Proof.
  intros Ph. pose proof (mq_NTT_canon 9 h ltac:(lia) (canonL_point h Ph)) as [_ C]. unfold to_monty, to_ntt_monty, mq_poly_tomonty. apply map_ext_in. intros x Hx.
  unfold canonq in C. rewrite Forall_forall in C. specialize (C x Hx). rewrite tomonty_nth by exact C. rewrite u32_id by lia. pose proof (mod_range (x * 4091)) as MR. rewrite (u16_id (_ mod _)) by (clear -MR; lia).
  replace (x * 65536) with (x * 4091 + x * 5 * 12289) by ring. symmetry. apply Z_mod_plus_full.
Qed.
Lemma pk16_len : (Z.to_nat 1025 - 1)%nat = Z.to_nat 1024. Proof. lia. Qed.
Theorem open16_iff hash sm pk m : (forall x c, hash x = Some c -> point c) -> bytes sm -> bytes pk ->
  (zknox_crypto_sign_open hash sm pk = CRet m <->
   exists nonce enc s2 h c s1, signed_message sm nonce m enc /\ words16 s2 enc /\ point h /\ public_key16 pk (NTTFW_vectorized h) /\ hash (nonce ++ m) = Some c /\
     preimage 512 h c s1 s2 /\ sqnorm s1 + sqnorm s2 <= 34034726).
Proof.
  intros HH Hsm Hpk. unfold zknox_crypto_sign_open. rewrite sign_open_core. rewrite pk16_len. split.
  - destruct pk as [|p0 pk']; [discriminate|]. destruct (bytes_cons _ _ Hpk) as [_ Bp]. destruct (Z.eqb_spec p0 9) as [->|]; [|discriminate]. cbn [negb].
    destruct (c_modq_decode16 9 (Z.to_nat 1024) pk') as [hN used| |] eqn:ED; try discriminate. destruct (Nat.eqb_spec used (Z.to_nat 1024)) as [->|]; [|discriminate]. cbn [negb].
    intros E. apply open_core_iff in E; [|exact Hsm]. destruct E as (nonce & enc & sig & hm & SM & ES & EH & EV).
    destruct (signed_bytes _ _ _ _ Hsm SM) as (Bn & Bm & Be). apply sig16 in ES; [|exact Be]. apply pk16 in ED; [|exact Bp]. destruct ED as [_ PK].
    destruct (inverse_key hN (proj1 PK)) as [Ph EN']. set (h := mq_iNTT 9 hN) in *. rewrite <- EN', (to_monty_key h Ph) in EV.
    pose proof ES as (L2 & LE & ws & F2 & P). assert (I2 : Forall (fun x => -32768 <= x < 32768) sig) by (clear -F2; induction F2; constructor; auto; eapply word_of_range; eauto).
    apply raw14 in EV; [|exact Ph|exact (HH _ _ EH)|exact L2|exact I2]. destruct EV as (s1 & EP & EN). exists nonce, enc, sig, h, hm, s1.
    assert (EN2 : NTTFW_vectorized h = hN) by (rewrite <- (C84_same_transform_as_contract h (proj1 Ph) (proj2 Ph)); exact EN').
    rewrite EN2. repeat (split; [assumption|]). assumption.
  - intros (nonce & enc & s2 & h & c & s1 & SM & CS & Ph & PK & EH & EP & EN). destruct pk as [|p0 pk']; [destruct PK as (_ & body & rest & E & _); discriminate E|].
    destruct (bytes_cons _ _ Hpk) as [_ Bp]. assert (p0 = 9) by (destruct PK as (_ & body & rest & E & _); congruence). subst p0. change (negb (9 =? 9)) with false. cbv iota.
    rewrite (proj2 (pk16 pk' _ (Z.to_nat 1024) Bp) (conj eq_refl PK)). rewrite Nat.eqb_refl. cbn [negb].
    destruct (signed_bytes _ _ _ _ Hsm SM) as (Bn & Bm & Be). pose proof CS as (L2 & LE & ws & F2 & P).
    apply open_core_iff; [exact Hsm|]. exists nonce, enc, s2, c. split; [exact SM|]. split; [apply sig16; assumption|]. split; [exact EH|].
    rewrite <- (C84_same_transform_as_contract h (proj1 Ph) (proj2 Ph)), (to_monty_key h Ph).
    apply raw14; [exact Ph|exact (HH _ _ EH)|exact L2| |exists s1; auto]. clear -F2; induction F2; constructor; auto; eapply word_of_range; eauto.
Qed.
Theorem open16_no_undef hash sm pk : bytes sm -> bytes pk -> (Z.to_nat 1025 <= length pk)%nat -> zknox_crypto_sign_open hash sm pk <> CUndef.
Proof.
  intros Hsm Hpk HL E. unfold zknox_crypto_sign_open in E. rewrite sign_open_core, pk16_len in E. destruct pk as [|p0 pk']; [cbn [length] in HL; lia|]. destruct (bytes_cons _ _ Hpk) as [_ Bp].
  cbn [length] in HL. destruct (negb (p0 =? 9)); [discriminate E|]. destruct (c_modq_decode16 9 (Z.to_nat 1024) pk') as [h used| |] eqn:ED; [|discriminate E|].
  - destruct (negb (used =? Z.to_nat 1024)%nat); [discriminate E|].
    destruct (open_core_cases hash (fun d => c_comp_decode16 9 (length d) d) (to_monty h) sm Hsm) as [E'|(hi & lo & nonce & m & enc & Bhi & Blo & -> & Ln & El)]; [congruence|].
    rewrite open_core_frame in E by assumption. change (negb (41 =? 41)) with false in E. cbv iota beta in E.
    destruct (signed_bytes _ nonce m enc Hsm) as (_ & _ & Be); [exists hi, lo; auto|].
    destruct (c_comp_decode16 9 (length enc) enc) as [sig u| |] eqn:ES; [|discriminate E|].
    + destruct (negb _); [discriminate E|]. destruct (hash _); [|discriminate E]. destruct (verify_raw 9 _ _ _); discriminate E.
    + unfold c_comp_decode16 in ES. apply cfixed_beyond in ES; [|lia|exact Be]. lia.
  - unfold c_modq_decode16 in ED. apply cfixed_beyond in ED; [|lia|exact Bp]. rewrite ceil16 in ED. lia.
Qed.
(** the encoder of the 16-bit format *)
Lemma encode16_word t : -12289 < t < 12289 -> let w := u32 (t + Z.land (Z.shiftr t 31) 12289) in w = t mod 12289 /\ [Z.shiftr w 8 mod 256; w mod 256] = [w / 256; w mod 256].
Proof.
  intros Ht. cbv zeta. assert (E : u32 (t + Z.land (Z.shiftr t 31) 12289) = t mod 12289).
  { destruct (Z_lt_le_dec t 0).
    - replace (Z.shiftr t 31) with (-1) by (rewrite Z.shiftr_div_pow2 by lia; apply Z.div_unique_pos with (t + 2 ^ 31); lia). rewrite Z.land_m1_l. rewrite u32_id by lia.
      apply Z.mod_unique_pos with (-1); lia.
    - replace (Z.shiftr t 31) with 0 by (rewrite Z.shiftr_div_pow2 by lia; symmetry; apply Z.div_small; lia). rewrite Z.land_0_l, Z.add_0_r, u32_id by lia. symmetry. apply Z.mod_small. lia. }
  rewrite E. split; [reflexivity|]. pose proof (mod_range t). rewrite Z.shiftr_div_pow2 by lia. change (2 ^ 8) with 256. rewrite (Z.mod_small (t mod 12289 / 256)); [reflexivity|]. split; [apply Z.div_pos; lia|apply Z.div_lt_upper_bound; lia].
Qed.
Lemma word_bits w : 0 <= w < 65536 -> bytes_bits [w / 256; w mod 256] = zbits 16 w.
Proof.
  intros Hw. cbn [bytes_bits flat_map]. rewrite app_nil_r. change 16%nat with (8 + 8)%nat. rewrite zbits_app. f_equal. change (w mod 256) with (w mod 2 ^ Z.of_nat 8). apply zbits_mod.
Qed.
Lemma encode16_packs v enc : c_comp_encode16 v = Some enc <-> Forall (fun t => -12289 < t < 12289) v /\ length enc = (2 * length v)%nat /\ packs 16 (map (fun t => t mod 12289) v) enc.
Proof.
  assert (G : Forall (fun t => -12289 < t < 12289) v ->
    let e := flat_map (fun t => let w := u32 (t + Z.land (Z.shiftr t 31) 12289) in [Z.shiftr w 8 mod 256; w mod 256]) v in
    c_comp_encode16 v = Some e /\ length e = (2 * length v)%nat /\ packs 16 (map (fun t => t mod 12289) v) e).
  { intros F e. split; [|].
    - unfold c_comp_encode16. replace (existsb _ v) with false; [reflexivity|]. symmetry. apply not_true_is_false. intros E. apply existsb_exists in E. destruct E as (t & I & B). rewrite Forall_forall in F. specialize (F t I). lia.
    - unfold e. clear e. induction F as [|t v Ht F IH]; [split; [reflexivity|]; split; [constructor|exists 0%nat; split; [lia|reflexivity]]|].
      cbn [flat_map map]. cbv zeta in *. destruct (encode16_word t Ht) as [E1 E2]. cbv zeta in E1, E2. rewrite E2, E1. destruct IH as (L & B & p & Hp & Q). pose proof (mod_range t) as MR.
      split; [rewrite app_length, L; cbn [length]; lia|]. split.
      + apply bytes_app. split; [|exact B]. constructor; [unfold is_byte; split; [apply Z.div_pos; lia|apply Z.div_lt_upper_bound; lia]|constructor; [apply Z.mod_pos_bound; lia|constructor]].
      + exists 0%nat. split; [lia|]. rewrite bytes_bits_app, word_bits by lia. cbn [flat_map]. rewrite <- app_assoc. f_equal. rewrite Q.
        assert (p = 0%nat) as -> by (apply (f_equal (@length _)) in Q; rewrite bytes_bits_length, L, app_length, repeat_length, flat_map_zbits_length, map_length in Q; lia). reflexivity. }
  split.
  - intros E. assert (F : Forall (fun t => -12289 < t < 12289) v).
    { unfold c_comp_encode16 in E. destruct (existsb _ v) eqn:EX; [discriminate E|]. apply Forall_forall. intros t I.
      assert (N : (12289 <=? t) || (t <=? -12289) = false) by (apply not_true_is_false; intros T; assert (existsb (fun t => (12289 <=? t) || (t <=? -12289)) v = true) by (apply existsb_exists; exists t; auto); congruence). lia. }
    destruct (G F) as (E' & L & P). rewrite E' in E. assert (EE : flat_map (fun t => let w := u32 (t + Z.land (Z.shiftr t 31) 12289) in [Z.shiftr w 8 mod 256; w mod 256]) v = enc) by congruence. rewrite <- EE. auto.
  - intros (F & L & P). destruct (G F) as (E' & L' & P'). cbv zeta in *. rewrite E'. f_equal. exact (packs_unique_data 16 _ _ _ P' P).
Qed.
