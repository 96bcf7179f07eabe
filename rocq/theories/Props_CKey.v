(** Property C89: key arithmetic and secret keys of the C implementation (vrfy.c, codec.c, nist.c, nist16.c). *)
From Verif Require Import Base CodecModel CodecSpec CodecProofs EncodingModel EncodingSpec EncodingProofs RingSpec FalconSpec FalconModel FalconProofs RecoveryProofs NttModel NttApi
  ChachaProofs TextModel TextProofs KatModel PolyModel PolyModelProofs CTables CModel CNttProofs CCodecProofs COpenSpec COpenProofs COpen16Proofs CKeySpec CKeyModel CKeyProofs CKeyProofs2 CKeyCodec CKeyFrame.
Notation small := (Forall (fun x => -12289 <= x < 12289)) (only parsing).

(** * Division modulo q: the addition chain computes the quotient, for every pair *)
Theorem C89_division : forall x y, 0 <= x < 12289 -> 0 <= y < 12289 ->
  0 <= mq_div_12289 x y < 12289 /\ (y <> 0 -> (mq_div_12289 x y * y) mod 12289 = x) /\ (y = 0 -> mq_div_12289 x y = 0).
Proof.
  intros x y Hx Hy. split; [exact (mq_div_range x y Hx Hy)|]. split; [intros N; apply mq_div_mul; lia|intros ->; apply mq_div_zero; exact Hx].
Qed.
Print Assumptions C89_division.

(** * compute_public: 1 with the public key when f is invertible, 0 otherwise; the same as Python *)
Lemma poly_div_cases k f g : (1 <= k <= 10)%nat -> length f = (2 ^ k)%nat -> length g = (2 ^ k)%nat ->
  (exists h, poly_div g f = Ok h) <-> unit_mod (2 ^ k) f.
Proof.
  intros Hk Lf Lg. rewrite (unit_iff k _ f Hk eq_refl Lf). unfold poly_div. destruct (invertible f); split; [reflexivity| |intros (h & E); discriminate E|discriminate]. intros _. eexists. reflexivity.
Qed.
Theorem C89_compute_public_iff : forall k f g h, (1 <= k <= 10)%nat -> length f = (2 ^ k)%nat -> length g = (2 ^ k)%nat -> small f -> small g ->
  (compute_public k f g = Some h <-> unit_mod (2 ^ k) f /\ public_of (2 ^ k) f g h).
Proof.
  intros k f g h Hk Lf Lg Sf Sg. rewrite (compute_public_py k f g Hk Lf Lg Sf Sg). pose proof (poly_div_cases k f g Hk Lf Lg) as C. split.
  - destruct (poly_div g f) as [h'|] eqn:E; [|discriminate]. intros E'. apply Some_inj in E'. subst h'. split; [apply C; exists h; reflexivity|]. exact (proj1 (div_public k _ f g h Hk eq_refl Lf Lg E)).
  - intros [U P]. destruct (proj2 C U) as (h' & E). rewrite E. f_equal. symmetry. exact (proj2 (div_public k _ f g h' Hk eq_refl Lf Lg E) h P).
Qed.
Print Assumptions C89_compute_public_iff.
Theorem C89_compute_public_as_python : forall k f g, (1 <= k <= 10)%nat -> length f = (2 ^ k)%nat -> length g = (2 ^ k)%nat -> small f -> small g ->
  compute_public k f g = match poly_div g f with Ok h => Some h | Raise _ => None end.
Proof. exact compute_public_py. Qed.
Print Assumptions C89_compute_public_as_python.

(** * complete_private: the G of the NTRU equation, when f is invertible and G fits 8 bits; Python has no such bound *)
Theorem C89_complete_private_iff : forall k f g F G, (1 <= k <= 10)%nat -> length f = (2 ^ k)%nat -> length g = (2 ^ k)%nat -> length F = (2 ^ k)%nat -> small f -> small g -> small F ->
  (c_complete_private k f g F = Some G <->
   unit_mod (2 ^ k) f /\ length G = (2 ^ k)%nat /\ Forall (fun x => -127 <= x <= 127) G /\ pcong (2 ^ k) 12289 (negmul (2 ^ k) f G) (negmul (2 ^ k) g F)).
Proof. exact c_complete_iff. Qed.
Print Assumptions C89_complete_private_iff.
Lemma ntru_cong n f g F G : (0 < n)%nat -> ntru_key n f g F G -> pcong n 12289 (negmul n f G) (negmul n g F) /\ unit_mod n f.
Proof.
  intros np (Lf & Lg & LF & LG & E & U). split; [|exact U]. intros i Hi. apply (f_equal (fun l => nth i l 0)) in E. unfold psub, pconst, coef in *.
  rewrite nth_map_seq in E by exact Hi. destruct i as [|i].
  - cbn [nth] in E. exists 1. lia.
  - cbn [nth] in E. rewrite nth_repeat in E. exists 0. lia.
Qed.
Theorem C89_recovers_basis : forall k f g F G, (1 <= k <= 10)%nat -> ntru_key (2 ^ k) f g F G -> small f -> small g -> small F -> Forall (fun x => -127 <= x <= 127) G ->
  c_complete_private k f g F = Some G.
Proof.
  intros k f g F G Hk NK Sf Sg SF HG. pose proof NK as (Lf & Lg & LF & LG & _). apply c_complete_iff; try assumption.
  destruct (ntru_cong (2 ^ k) f g F G (pow_pos' k _ eq_refl) NK) as [C U]. split; [exact U|]. split; [exact LG|]. split; [exact HG|exact C].
Qed.
Print Assumptions C89_recovers_basis.

(** * is_invertible and count_nttzero *)
Theorem C89_is_invertible : forall k s, (1 <= k <= 10)%nat -> length s = (2 ^ k)%nat -> small s ->
  (unit_mod (2 ^ k) s -> is_invertible k s = 1) /\ (~ unit_mod (2 ^ k) s -> is_invertible k s = 0).
Proof.
  intros k s Hk L S. rewrite (is_invertible_py k s Hk L S), (unit_iff k _ s Hk eq_refl L). destruct (invertible s); split; intros H; try reflexivity; [destruct (H eq_refl)|discriminate H].
Qed.
Print Assumptions C89_is_invertible.
Theorem C89_count_nttzero : forall k s, (1 <= k <= 10)%nat -> length s = (2 ^ k)%nat -> small s ->
  count_nttzero k s = Z.of_nat (length (filter (fun t => t =? 0) (ntt s))) /\ (count_nttzero k s = 0 <-> unit_mod (2 ^ k) s).
Proof.
  intros k s Hk L S. rewrite (count_nttzero_py k s Hk L S). unfold zeros. split; [reflexivity|]. rewrite (unit_iff k _ s Hk eq_refl L), <- (no_zero k s Hk L).
  generalize (ntt s). intros l. induction l as [|x l IH]; cbn [filter existsb]; [split; reflexivity|]. destruct (x =? 0); cbn [length orb]; [split; [lia|discriminate]|exact IH].
Qed.
Print Assumptions C89_count_nttzero.

(** * verify_recover: the key comes back exactly for short signatures with s2 invertible; s1, s2 are int16_t *)
Theorem C89_verify_recover_iff : forall k c0 s1 s2 h, (1 <= k <= 10)%nat -> length c0 = (2 ^ k)%nat -> Forall in_zq c0 -> length s1 = (2 ^ k)%nat -> length s2 = (2 ^ k)%nat ->
  Forall (fun x => -32768 <= x < 32768) s1 -> Forall (fun x => -32768 <= x < 32768) s2 ->
  (verify_recover k c0 s1 s2 = (h, 1) <->
   sqnorm s1 + sqnorm s2 <= nth k l2bound 0 /\ unit_mod (2 ^ k) s2 /\ length h = (2 ^ k)%nat /\ Forall in_zq h /\ preimage (2 ^ k) h c0 s1 s2).
Proof.
  intros k c0 s1 s2 h Hk Lc Cc L1 L2 I1 I2. unfold verify_recover. rewrite (recover_flag k s1 s2 Hk L1 L2 I1 I2), (unit_iff k _ s2 Hk eq_refl L2).
  rewrite <- (Z.leb_le (sqnorm s1 + _)), <- (is_short_exact k s1 s2 ltac:(congruence) I1 I2).
  assert (CC : canonL (2 ^ k) c0) by (split; [exact Lc|exact Cc]).
  destruct (is_short k s1 s2) eqn:ES; cbn [andb]; [|split; [intros E; discriminate (f_equal snd E)|intros (E & _); discriminate E]].
  destruct (short_small k s1 s2 ltac:(congruence) I1 I2 ES) as [S1 S2].
  destruct (invertible s2) eqn:EI; [|split; [intros E; discriminate (f_equal snd E)|intros (_ & E & _); discriminate E]].
  destruct (quot_preimage k c0 s1 s2 Hk CC L1 L2 S1 S2 EI) as (h' & (Lh & Ch) & _ & E & P). rewrite E. clear E. split.
  - intros E'. apply (f_equal fst) in E'. cbn [fst] in E'. subst h'. split; [reflexivity|]. split; [reflexivity|]. split; [exact Lh|]. split; [exact Ch|exact P].
  - intros (_ & _ & Lh1 & Ch1 & P1). f_equal. apply (recovered_unique (2 ^ k) c0 s1 s2 h' h (pow_pos' k _ eq_refl)); try assumption. apply (unit_iff k _ s2 Hk eq_refl L2). exact EI.
Qed.
Print Assumptions C89_verify_recover_iff.
(** the bounds are those of Python *)
Theorem C89_bounds : nth 9 l2bound 0 = 34034726 /\ nth 10 l2bound 0 = 70265242. Proof. split; reflexivity. Qed.

(** * Secret keys *)
Theorem C89_decode_iff : forall sk f g F G, Forall (fun b => 0 <= b < 256) sk ->
  (decode_sk sk = CRet (f, g, F, G) <->
   secret_key sk f g F /\ unit_mod 512 f /\ length G = 512%nat /\ Forall (fun x => -127 <= x <= 127) G /\ pcong 512 12289 (negmul 512 f G) (negmul 512 g F)).
Proof.
  intros sk f g F G B. rewrite (decode_sk_iff sk f g F G B). split.
  - intros [S C]. split; [exact S|]. destruct S as (Lf & Lg & LF & Tf & Tg & TF & _).
    apply (c_complete_iff 9) in C; [exact C|lia|exact Lf|exact Lg|exact LF|eapply in_trim_small; [|exact Tf]; lia|eapply in_trim_small; [|exact Tg]; lia|eapply in_trim_small; [|exact TF]; lia].
  - intros [S C]. split; [exact S|]. destruct S as (Lf & Lg & LF & Tf & Tg & TF & _).
    apply (c_complete_iff 9); [lia|exact Lf|exact Lg|exact LF|eapply in_trim_small; [|exact Tf]; lia|eapply in_trim_small; [|exact Tg]; lia|eapply in_trim_small; [|exact TF]; lia|exact C].
Qed.
Print Assumptions C89_decode_iff.
(** nothing is read after the 1281 bytes of the buffer *)
Theorem C89_decode_defined : forall sk, Forall (fun b => 0 <= b < 256) sk -> length sk = Z.to_nat 1281 -> decode_sk sk <> CUndef.
Proof. intros sk B L. apply decode_sk_no_undef; [exact B|lia]. Qed.
Print Assumptions C89_decode_defined.
Theorem C89_encode_iff : forall f g F sk, length f = 512%nat -> length g = 512%nat -> length F = 512%nat ->
  Forall (fun x => -128 <= x < 128) f -> Forall (fun x => -128 <= x < 128) g -> Forall (fun x => -128 <= x < 128) F ->
  (encode_sk f g F = Some sk <-> secret_key sk f g F /\ length sk = Z.to_nat 1281).
Proof. exact encode_sk_iff. Qed.
Print Assumptions C89_encode_iff.
(** a key that keygen accepts (f, g on 6 bits, F and G on 8 bits) is written and read back *)
Theorem C89_roundtrip : forall f g F G, ntru_key 512 f g F G -> Forall (fun x => -31 <= x <= 31) f -> Forall (fun x => -31 <= x <= 31) g -> Forall (fun x => -127 <= x <= 127) F ->
  Forall (fun x => -127 <= x <= 127) G -> exists sk, encode_sk f g F = Some sk /\ length sk = Z.to_nat 1281 /\ decode_sk sk = CRet (f, g, F, G).
Proof.
  intros f g F G NK Hf Hg HF HG. pose proof NK as (Lf & Lg & LF & LG & _).
  assert (I : forall l b, (b <= 127) -> Forall (fun x => - b <= x <= b) l -> Forall int8 l) by (intros l b Hb H; eapply Forall_impl; [|exact H]; intros x Hx; unfold int8; cbn in Hx; lia).
  assert (T6 : forall l, length l = 512%nat -> Forall (fun x => -31 <= x <= 31) l -> Forall (in_trim 6) l) by (intros l _ H; eapply Forall_impl; [|exact H]; intros x Hx; unfold in_trim; cbn in Hx |- *; lia).
  assert (T8 : Forall (in_trim 8) F) by (eapply Forall_impl; [|exact HF]; intros x Hx; unfold in_trim; cbn in Hx |- *; lia).
  assert (P : forall bits l, (1 <= bits)%nat -> length l = 512%nat -> Forall (in_trim bits) l -> exists d, length d = ceil8 (512 * bits) /\ packs bits (map (fun c => c mod 2 ^ Z.of_nat bits) l) d).
  { intros bits l Hb L H. destruct (trim_encode_ok bits Hb l 512 L H) as (d & _ & LD & PD). exists d. split; assumption. }
  destruct (P 6%nat f ltac:(lia) Lf (T6 f Lf Hf)) as (ef & Lef & Pf). destruct (P 6%nat g ltac:(lia) Lg (T6 g Lg Hg)) as (eg & Leg & Pg). destruct (P 8%nat F ltac:(lia) LF T8) as (eF & LeF & PF).
  change (ceil8 (512 * 6)) with 384%nat in *. change (ceil8 (512 * 8)) with 512%nat in *.
  assert (S : secret_key (0x59 :: ef ++ eg ++ eF) f g F).
  { split; [exact Lf|]. split; [exact Lg|]. split; [exact LF|]. split; [exact (T6 f Lf Hf)|]. split; [exact (T6 g Lg Hg)|]. split; [exact T8|]. exists ef, eg, eF, []. rewrite app_nil_r.
    split; [reflexivity|]. split; [exact Lef|]. split; [exact Leg|]. split; [exact LeF|]. split; [exact Pf|]. split; [exact Pg|exact PF]. }
  assert (LS : length (0x59 :: ef ++ eg ++ eF) = Z.to_nat 1281) by (cbn [length]; rewrite !app_length, Lef, Leg, LeF; reflexivity).
  exists (0x59 :: ef ++ eg ++ eF). split; [|split; [exact LS|]].
  - apply encode_sk_iff; [exact Lf|exact Lg|exact LF|exact (I f 31 ltac:(lia) Hf)|exact (I g 31 ltac:(lia) Hg)|exact (I F 127 ltac:(lia) HF)|]. split; [exact S|exact LS].
  - apply C89_decode_iff; [exact (secret_key_bytes _ _ _ _ S LS)|]. split; [exact S|]. destruct (ntru_cong 512 f g F G ltac:(lia) NK) as [C U]. split; [exact U|]. split; [exact LG|]. split; [exact HG|exact C].
Qed.
Print Assumptions C89_roundtrip.

(** * The Python decoder of the KAT generator accepts the same keys, with the same (f, g, F, G), except that it does not bound G *)
Lemma trim_exact bits d x : (1 <= bits)%nat -> length d = ceil8 (512 * bits) -> bytes d ->
  (trim_i8_decode d 512 bits = Ok x <-> length x = 512%nat /\ Forall (in_trim bits) x /\ packs bits (map (fun c => c mod 2 ^ Z.of_nat bits) x) d).
Proof.
  intros Hb L B. split.
  - intros E. apply trim_canonical in E; [|exact Hb|exact B]. destruct E as (Lx & F & E). split; [exact Lx|]. split; [exact F|].
    destruct (trim_encode_ok bits Hb x 512 Lx F) as (d' & E' & _ & P). rewrite <- L, firstn_all in E. assert (d' = d) by congruence. subst d'. exact P.
  - intros (Lx & F & P). destruct (trim_encode_ok bits Hb x 512 Lx F) as (d' & E' & LD & P'). rewrite (packs_unique_data _ _ _ _ P P'). rewrite <- (app_nil_r d').
    apply trim_roundtrip; [exact Hb|exact Lx|exact E'|constructor].
Qed.
Lemma py_sk_iff sk f g F G : bytes sk -> length sk = Z.to_nat 1281 ->
  (decode_secret_key_nist (hex sk) 512 = Ok (f, g, F, G) <-> secret_key sk f g F /\ complete_private f g F 512 = Ok G).
Proof.
  intros B L. destruct sk as [|h0 sk]; [discriminate L|]. cbn [length] in L.
  destruct (first_skip sk 384 ltac:(lia)) as (df & r1 & -> & Lf). rewrite app_length, Lf in L.
  destruct (first_skip r1 384 ltac:(lia)) as (dg & r2 & -> & Lg). rewrite app_length, Lg in L.
  destruct (first_skip r2 512 ltac:(lia)) as (dF & r3 & -> & LF). rewrite app_length, LF in L. assert (r3 = []) by (destruct r3; [reflexivity|cbn [length] in L; lia]). subst r3. clear L.
  unfold decode_secret_key_nist. rewrite fromhex_hex by exact B. cbn [bind]. cbv zeta.
  destruct (bytes_cons _ _ B) as [B0 B1]. apply bytes_app in B1. destruct B1 as [Bf B1]. apply bytes_app in B1. destruct B1 as [Bg B1]. apply bytes_app in B1. destruct B1 as [BF _].
  assert (E0 : (h0 - 80 <? 1) || (10 <? h0 - 80) = true \/ (Z.of_nat 512 =? Z.shiftl 1 (h0 - 80)) = false \/ h0 = 0x59).
  { destruct (Z.ltb_spec (h0 - 80) 1); [left; reflexivity|]. destruct (Z.ltb_spec 10 (h0 - 80)); [left; reflexivity|]. right.
    assert (C : h0 = 81 \/ h0 = 82 \/ h0 = 83 \/ h0 = 84 \/ h0 = 85 \/ h0 = 86 \/ h0 = 87 \/ h0 = 88 \/ h0 = 89 \/ h0 = 90) by lia.
    repeat destruct C as [->|C]; try (left; reflexivity); [right; reflexivity|subst h0; left; reflexivity]. }
  destruct (Z.eq_dec h0 0x59) as [->|N].
  2: { split.
    - destruct E0 as [->|[->|E0]]; [discriminate| |contradiction]. destruct (_ || _); discriminate.
    - intros [(_ & _ & _ & _ & _ & _ & ef & eg & eF & rest & E & _) _]. exfalso. apply N. exact (f_equal (hd 0) E). }
  change ((89 - 80 <? 1) || (10 <? 89 - 80)) with false. change (Z.of_nat 512 =? Z.shiftl 1 (89 - 80)) with true. cbn [negb].
  change (MAX_FG_BITS (89 - 80)) with 6%nat. change (MAX_FG_BITS_FG (89 - 80)) with 8%nat. change ((512 * 6 + 7) / 8)%nat with 384%nat. change ((512 * 8 + 7) / 8)%nat with 512%nat.
  assert (S1 : slice 1 (1 + 384) (89 :: df ++ dg ++ dF ++ []) = df) by (exact (COpenProofs.slice_mid [89] df (dg ++ dF ++ []) 1 (1 + 384) eq_refl ltac:(rewrite Lf; reflexivity))).
  assert (S2 : slice (1 + 384) (1 + 384 + 384) (89 :: df ++ dg ++ dF ++ []) = dg).
  { apply (COpenProofs.slice_mid (89 :: df) dg (dF ++ [])); cbn [length]; lia. }
  assert (S3 : slice (1 + 384 + 384) (1 + 384 + 384 + 512) (89 :: df ++ dg ++ dF ++ []) = dF).
  { replace (89 :: df ++ dg ++ dF ++ []) with ((89 :: df ++ dg) ++ dF ++ []) by (cbn [app]; rewrite <- app_assoc; reflexivity). apply (COpenProofs.slice_mid (89 :: df ++ dg) dF []); cbn [length]; rewrite app_length; lia. }
  rewrite S1, S2, S3. clear S1 S2 S3.
  pose proof (trim_exact 6 df) as Tf. pose proof (trim_exact 6 dg) as Tg. pose proof (trim_exact 8 dF) as TF.
  split.
  - intros E. destruct (trim_i8_decode df 512 6) as [f'|] eqn:E1; cbn [bind] in E; [|discriminate E]. destruct (trim_i8_decode dg 512 6) as [g'|] eqn:E2; cbn [bind] in E; [|discriminate E].
    destruct (trim_i8_decode dF 512 8) as [F'|] eqn:E3; cbn [bind] in E; [|discriminate E]. destruct (complete_private f' g' F' 512) as [G'|] eqn:E4; cbn [bind] in E; [|discriminate E].
    assert (f' = f /\ g' = g /\ F' = F /\ G' = G) as (-> & -> & -> & ->) by (repeat split; congruence).
    destruct (proj1 (Tf f ltac:(lia) Lf Bf) eq_refl) as (A1 & A2 & A3). destruct (proj1 (Tg g ltac:(lia) Lg Bg) eq_refl) as (C1 & C2 & C3). destruct (proj1 (TF F ltac:(lia) LF BF) eq_refl) as (D1 & D2 & D3).
    split; [|exact E4]. split; [exact A1|]. split; [exact C1|]. split; [exact D1|]. split; [exact A2|]. split; [exact C2|]. split; [exact D2|].
    exists df, dg, dF, []. split; [reflexivity|]. split; [exact Lf|]. split; [exact Lg|]. split; [exact LF|]. split; [exact A3|]. split; [exact C3|exact D3].
  - intros [(A1 & C1 & D1 & A2 & C2 & D2 & ef & eg & eF & rest & E & Le & Lg' & LF' & A3 & C3 & D3) E4].
    apply (f_equal (@tl Z)) in E. cbn [tl] in E.
    assert (df = ef /\ dg = eg /\ dF = eF) as (<- & <- & <-).
    { assert (X : forall (a b c d : list Z), length a = length c -> a ++ b = c ++ d -> a = c /\ b = d).
      { intros a. induction a as [|x a IH]; intros b [|y c] d HL HE; cbn in HL; try discriminate HL; [split; [reflexivity|exact HE]|]. cbn [app] in HE.
        destruct (cons_inj _ _ _ _ HE) as [-> HE']. destruct (IH b c d ltac:(lia) HE') as [-> ->]. split; reflexivity. }
      destruct (X df _ ef _ ltac:(congruence) E) as [-> E']. destruct (X dg _ eg _ ltac:(congruence) E') as [-> E'']. destruct (X dF _ eF _ ltac:(congruence) E'') as [-> _]. repeat split. }
    rewrite (proj2 (Tf f ltac:(lia) Lf Bf)) by (split; [exact A1|split; [exact A2|exact A3]]). cbn [bind]. rewrite (proj2 (Tg g ltac:(lia) Lg Bg)) by (split; [exact C1|split; [exact C2|exact C3]]). cbn [bind].
    rewrite (proj2 (TF F ltac:(lia) LF BF)) by (split; [exact D1|split; [exact D2|exact D3]]). cbn [bind]. rewrite E4. reflexivity.
Qed.
Theorem C89_decode_as_python : forall sk f g F G, Forall (fun b => 0 <= b < 256) sk -> length sk = Z.to_nat 1281 ->
  (decode_sk sk = CRet (f, g, F, G) <-> decode_secret_key_nist (hex sk) 512 = Ok (f, g, F, G) /\ Forall (fun x => -127 <= x <= 127) G).
Proof.
  intros sk f g F G B L. rewrite (decode_sk_iff sk f g F G B), (py_sk_iff sk f g F G B L).
  assert (H : secret_key sk f g F -> c_complete_private 9 f g F = match complete_private f g F 512 with Ok G => if fits127 G then Some G else None | Raise _ => None end).
  { intros (Lf & Lg & LF & Tf & Tg & TF & _).
    apply (c_complete_private_py 9); [lia|exact Lf|exact Lg|exact LF|eapply in_trim_small; [|exact Tf]; lia|eapply in_trim_small; [|exact Tg]; lia|eapply in_trim_small; [|exact TF]; lia]. }
  assert (FT : forall l, fits127 l = true <-> Forall (fun x => -127 <= x <= 127) l).
  { intros l. unfold fits127. rewrite forallb_forall, Forall_forall. split; intros Q x Hx; specialize (Q x Hx); [rewrite andb_true_iff, !Z.leb_le in Q|rewrite andb_true_iff, !Z.leb_le]; lia. }
  split.
  - intros [S C]. rewrite (H S) in C. destruct (complete_private f g F 512) as [G'|]; [|discriminate C]. destruct (fits127 G') eqn:T; [|discriminate C]. apply Some_inj in C. subst G'.
    split; [split; [exact S|reflexivity]|]. apply FT. exact T.
  - intros [[S C] T]. split; [exact S|]. rewrite (H S), C. apply FT in T. rewrite T. reflexivity.
Qed.
Print Assumptions C89_decode_as_python.

(** * Key pairs: what crypto_sign_keypair writes from the (f, g, F, h) of the generator; h is the uint16_t array of the public key *)
Theorem C89_keypair : forall f g F h pk sk, length f = 512%nat -> length g = 512%nat -> length F = 512%nat ->
  Forall (fun x => -128 <= x < 128) f -> Forall (fun x => -128 <= x < 128) g -> Forall (fun x => -128 <= x < 128) F -> length h = 512%nat -> Forall (fun c => 0 <= c) h ->
  (keypair_frame f g F h = Some (pk, sk) <-> secret_key sk f g F /\ length sk = Z.to_nat 1281 /\ public_key14 pk h /\ length pk = 897%nat).
Proof.
  intros f g F h pk sk Lf Lg LF If Ig IF Lh Hh. unfold keypair_frame. pose proof (encode_sk_iff f g F) as ES. split.
  - intros E. destruct (encode_sk f g F) as [sk'|] eqn:E1; [|discriminate E]. destruct (c_modq_encode 896 h) as [e|] eqn:E2; [|discriminate E].
    assert (pk = 9 :: e /\ sk' = sk) as [-> ->] by (split; congruence). apply (encode_sk_iff f g F sk) in E1; try assumption. apply pack14 in E2; try assumption.
    split; [apply E1|]. split; [apply E1|]. split; [apply E2|]. cbn [length]. rewrite (proj2 E2). reflexivity.
  - intros (S & LS & P & LP). rewrite (proj2 (ES sk Lf Lg LF If Ig IF) (conj S LS)). destruct pk as [|p0 e]; [discriminate LP|].
    assert (p0 = 9) by (destruct P as (_ & body & rest & E & _); exact (f_equal (hd 0) E)). subst p0. rewrite (proj2 (pack14 h e Lh Hh)); [reflexivity|]. split; [exact P|]. cbn [length] in LP. lia.
Qed.
Print Assumptions C89_keypair.
(** the 16-bit variant writes the transform of h, which is the one of the contracts and of Python (C84, C50) *)
Theorem C89_zknox_keypair : forall f g F h pk sk, length f = 512%nat -> length g = 512%nat -> length F = 512%nat ->
  Forall (fun x => -128 <= x < 128) f -> Forall (fun x => -128 <= x < 128) g -> Forall (fun x => -128 <= x < 128) F -> point h ->
  (zknox_keypair_frame f g F h = Some (pk, sk) <-> secret_key sk f g F /\ length sk = Z.to_nat 1281 /\ public_key16 pk (ntt h) /\ length pk = Z.to_nat 1025).
Proof.
  intros f g F h pk sk Lf Lg LF If Ig IF [Lh Hh]. unfold zknox_keypair_frame. pose proof (encode_sk_iff f g F) as ES.
  rewrite (mq_NTT_ntt 9 h ltac:(lia) (conj Lh Hh)). destruct (ntt_canonL 9 h ltac:(lia) Lh) as [LN CN].
  assert (HN : Forall (fun c => 0 <= c) (ntt h)) by (eapply Forall_impl; [|exact CN]; intros x Hx; apply Hx).
  set (T := ntt h) in *. clearbody T. change (2 ^ 9)%nat with 512%nat in LN. split.
  - intros E. destruct (encode_sk f g F) as [sk'|] eqn:E1; [|discriminate E]. destruct (c_modq_encode16 (Z.to_nat 1024) T) as [e|] eqn:E2; [|discriminate E].
    assert (pk = 9 :: e /\ sk' = sk) as [-> ->] by (split; congruence). apply (encode_sk_iff f g F sk) in E1; try assumption. apply pack16 in E2; try assumption.
    split; [apply E1|]. split; [apply E1|]. split; [apply E2|]. cbn [length]. rewrite (proj2 E2). reflexivity.
  - intros (S & LS & P & LP). rewrite (proj2 (ES sk Lf Lg LF If Ig IF) (conj S LS)). destruct pk as [|p0 e]; [discriminate LP|].
    assert (p0 = 9) by (destruct P as (_ & body & rest & E & _); exact (f_equal (hd 0) E)). subst p0. rewrite (proj2 (pack16 T e LN HN)); [reflexivity|]. split; [exact P|]. cbn [length] in LP. lia.
Qed.
Print Assumptions C89_zknox_keypair.

(** * Examples. Polynomials a + b x^m modulo x^2m + 1, that is, Gaussian integers *)
Section Gaussian.
  Variable m : nat.
  Hypothesis mpos : (0 < m)%nat.
  Definition gi (a b : Z) : list Z := map (fun i => if (i =? 0)%nat then a else if (i =? m)%nat then b else 0) (seq 0 (m + m)).
  Lemma coef_gi a b i : coef (gi a b) i = if (i =? 0)%nat then a else if (i =? m)%nat then b else 0.
  Proof.
    unfold coef, gi. destruct (Nat.lt_ge_cases i (m + m)) as [H|H]; [rewrite nth_map_seq by exact H; reflexivity|].
    rewrite nth_overflow by (rewrite map_length, seq_length; exact H). destruct (Nat.eqb_spec i 0); [lia|]. destruct (Nat.eqb_spec i m); [lia|reflexivity].
  Qed.
  Lemma sum_two N f : (forall i, i <> O -> i <> m -> f i = 0) -> sum_to N f = (if (0 <? N)%nat then f O else 0) + (if (m <? N)%nat then f m else 0).
  Proof.
    intros H. induction N as [|N IH]; [reflexivity|]. cbn [sum_to]. rewrite IH. destruct (Nat.eq_dec N 0) as [->|N0].
    - rewrite (proj2 (Nat.ltb_ge m 0)), (proj2 (Nat.ltb_ge m 1)) by lia. change (0 <? 0)%nat with false. change (0 <? 1)%nat with true. cbv iota. lia.
    - rewrite !(proj2 (Nat.ltb_lt 0 _)) by lia. destruct (Nat.eq_dec N m) as [->|Nm].
      + rewrite Nat.ltb_irrefl, (proj2 (Nat.ltb_lt m (S m))) by lia. cbv iota. lia.
      + rewrite (H N N0 Nm). destruct (Nat.ltb_spec m N); destruct (Nat.ltb_spec m (S N)); lia.
  Qed.
  Lemma pcoef_gi a b y k : pcoef (gi a b) y k = a * coef y k + (if (m <=? k)%nat then b * coef y (k - m) else 0).
  Proof.
    unfold pcoef. rewrite sum_two.
    - rewrite !coef_gi, Nat.sub_0_r. change (0 <? S k)%nat with true. change (0 =? 0)%nat with true. cbv iota. rewrite Nat.eqb_refl. destruct (Nat.eqb_spec m 0); [lia|].
      destruct (Nat.ltb_spec m (S k)); destruct (Nat.leb_spec m k); lia.
    - intros i H0 Hm. rewrite coef_gi. destruct (Nat.eqb_spec i 0); [contradiction|]. destruct (Nat.eqb_spec i m); [contradiction|]. lia.
  Qed.
  Lemma negmul_gi a b c d : negmul (m + m) (gi a b) (gi c d) = gi (a * c - b * d) (a * d + b * c).
  Proof.
    unfold negmul. unfold gi at 5. apply map_ext_in. intros k Hk. apply in_seq in Hk. rewrite !pcoef_gi, !coef_gi.
    destruct (Nat.eqb_spec k 0) as [->|K0].
    - destruct (Nat.leb_spec m 0); [lia|]. destruct (Nat.leb_spec m (0 + (m + m))); [|lia]. destruct (Nat.eqb_spec (0 + (m + m)) 0); [lia|]. destruct (Nat.eqb_spec (0 + (m + m)) m); [lia|].
      destruct (Nat.eqb_spec (0 + (m + m) - m) 0); [lia|]. destruct (Nat.eqb_spec (0 + (m + m) - m) m); lia.
    - destruct (Nat.eqb_spec (k + (m + m)) 0); [lia|]. destruct (Nat.eqb_spec (k + (m + m)) m); [lia|]. destruct (Nat.leb_spec m (k + (m + m))); [|lia].
      destruct (Nat.eqb_spec (k + (m + m) - m) 0); [lia|]. destruct (Nat.eqb_spec (k + (m + m) - m) m); [lia|].
      destruct (Nat.eqb_spec k m) as [->|Km].
      + rewrite Nat.leb_refl, Nat.sub_diag. change (0 =? 0)%nat with true. cbv iota. lia.
      + destruct (Nat.leb_spec m k); [|lia]. destruct (Nat.eqb_spec (k - m) 0); [lia|]. destruct (Nat.eqb_spec (k - m) m); lia.
  Qed.
  Lemma psub_gi a b c d : psub (m + m) (gi a b) (gi c d) = gi (a - c) (b - d).
  Proof.
    unfold psub. unfold gi at 3. apply map_ext_in. intros k Hk. rewrite !coef_gi. destruct (k =? 0)%nat; [reflexivity|]. destruct (k =? m)%nat; reflexivity.
  Qed.
  Lemma gi_const c : gi c 0 = pconst (m + m) c.
  Proof.
    apply (nth_ext _ _ 0 0); [unfold gi, pconst; cbn [length]; rewrite map_length, seq_length, repeat_length; lia|]. intros i Hi. fold (coef (gi c 0) i). rewrite coef_gi. unfold pconst.
    destruct i as [|i]; [reflexivity|]. cbn [nth]. rewrite nth_repeat. change (S i =? 0)%nat with false. cbv iota. destruct (S i =? m)%nat; reflexivity.
  Qed.
  Lemma gi_length a b : length (gi a b) = (m + m)%nat. Proof. unfold gi. rewrite map_length, seq_length. reflexivity. Qed.
  Lemma gi_Forall (P : Z -> Prop) a b : P 0 -> P a -> P b -> Forall P (gi a b).
  Proof. intros P0 Pa Pb. apply Forall_forall. intros x Hx. unfold gi in Hx. apply in_map_iff in Hx. destruct Hx as (i & <- & _). destruct (i =? 0)%nat; [exact Pa|]. destruct (i =? m)%nat; assumption. Qed.
  Lemma gi_unit a b t : (t * (a * a + b * b)) mod 12289 = 1 -> unit_mod (m + m) (gi a b).
  Proof.
    intros Ht. exists (gi (t * a) (- (t * b))). split; [apply gi_length|]. rewrite negmul_gi, <- gi_const. intros i _. rewrite !coef_gi.
    pose proof (Z.div_mod (t * (a * a + b * b)) 12289 ltac:(lia)) as D. rewrite Ht in D.
    destruct (i =? 0)%nat; [exists ((t * (a * a + b * b)) / 12289); rewrite <- Z.mul_comm; lia|]. destruct (i =? m)%nat; exists 0; ring.
  Qed.
  Lemma gi_ntru a b c d e f g h t : a * g - b * h - (c * e - d * f) = 12289 -> a * h + b * g - (c * f + d * e) = 0 -> (t * (a * a + b * b)) mod 12289 = 1 ->
    ntru_key (m + m) (gi a b) (gi c d) (gi e f) (gi g h).
  Proof.
    intros E1 E2 T. split; [apply gi_length|]. split; [apply gi_length|]. split; [apply gi_length|]. split; [apply gi_length|]. split.
    - rewrite !negmul_gi, psub_gi, E1, E2. apply gi_const.
    - exact (gi_unit a b t T).
  Qed.
End Gaussian.
(** a key of the size of the real ones, with every coefficient in range: f = 31 + 30 x^256, ... *)
Definition kf := gi 256 31 30.
Definition kg := gi 256 (-31) (-31).
Definition kF := gi 256 108 (-118).
Definition kG := gi 256 93 (-80).
Lemma k_ntru : ntru_key 512 kf kg kF kG.
Proof. apply (gi_ntru 256 ltac:(lia) 31 30 (-31) (-31) 108 (-118) 93 (-80) 383); reflexivity. Qed.
Example C89_nontrivial : exists sk, encode_sk kf kg kF = Some sk /\ length sk = Z.to_nat 1281 /\ decode_sk sk = CRet (kf, kg, kF, kG).
Proof. apply C89_roundtrip; [exact k_ntru|..]; apply gi_Forall; lia. Qed.
(** and the public key of (f, g) comes out of compute_public *)
Example C89_public_nontrivial : exists h, compute_public 9 kf kg = Some h /\ public_of 512 kf kg h.
Proof.
  assert (P : 512%nat = (2 ^ 9)%nat) by reflexivity. assert (Lf : length kf = (2 ^ 9)%nat) by (apply gi_length). assert (Lg : length kg = (2 ^ 9)%nat) by (apply gi_length).
  assert (Sf : Forall (fun x => -12289 <= x < 12289) kf) by (apply gi_Forall; lia). assert (Sg : Forall (fun x => -12289 <= x < 12289) kg) by (apply gi_Forall; lia).
  destruct (proj2 (poly_div_cases 9 kf kg ltac:(lia) Lf Lg)) as (h & E); [exact (gi_unit 256 ltac:(lia) 31 30 383 eq_refl)|]. exists h.
  assert (C : compute_public 9 kf kg = Some h) by (rewrite (compute_public_py 9 kf kg ltac:(lia) Lf Lg Sf Sg), E; reflexivity). split; [exact C|].
  apply (C89_compute_public_iff 9 kf kg h ltac:(lia) Lf Lg Sf Sg) in C. exact (proj2 C).
Qed.
(** The decoder does not check the NTRU equation: f G - g F is only 0 modulo q. It takes f = g = 1, F = G for a secret key. *)
Theorem C89_equation_checked_refuted : exists sk f g F G, Forall (fun b => 0 <= b < 256) sk /\ length sk = Z.to_nat 1281 /\ decode_sk sk = CRet (f, g, F, G) /\ ~ ntru_key 512 f g F G.
Proof.
  set (u := gi 256 1 0). set (v := gi 256 5 7).
  assert (I : forall a b, -128 <= a < 128 -> -128 <= b < 128 -> Forall (fun x => -128 <= x < 128) (gi 256 a b)) by (intros a b Ha Hb; apply gi_Forall; lia).
  assert (P : forall bits l, (1 <= bits)%nat -> length l = 512%nat -> Forall (in_trim bits) l -> exists d, length d = ceil8 (512 * bits) /\ packs bits (map (fun c => c mod 2 ^ Z.of_nat bits) l) d).
  { intros bits l Hb L H. destruct (trim_encode_ok bits Hb l 512 L H) as (d & _ & LD & PD). exists d. split; assumption. }
  assert (Lu : length u = 512%nat) by (apply gi_length). assert (Lv : length v = 512%nat) by (apply gi_length).
  assert (Tu : Forall (in_trim 6) u) by (apply gi_Forall; unfold in_trim; cbn; lia). assert (Tv : Forall (in_trim 8) v) by (apply gi_Forall; unfold in_trim; cbn; lia).
  destruct (P 6%nat u ltac:(lia) Lu Tu) as (e & Le & Pe). destruct (P 8%nat v ltac:(lia) Lv Tv) as (e' & Le' & Pe'). change (ceil8 (512 * 6)) with 384%nat in Le. change (ceil8 (512 * 8)) with 512%nat in Le'.
  assert (LS : length (0x59 :: e ++ e ++ e') = Z.to_nat 1281) by (cbn [length]; rewrite !app_length, Le, Le'; reflexivity).
  assert (S : secret_key (0x59 :: e ++ e ++ e') u u v).
  { split; [exact Lu|]. split; [exact Lu|]. split; [exact Lv|]. split; [exact Tu|]. split; [exact Tu|]. split; [exact Tv|]. exists e, e, e', []. rewrite app_nil_r.
    split; [reflexivity|]. split; [exact Le|]. split; [exact Le|]. split; [exact Le'|]. split; [exact Pe|]. split; [exact Pe|exact Pe']. }
  pose proof (secret_key_bytes _ _ _ _ S LS) as B. exists (0x59 :: e ++ e ++ e'), u, u, v, v. split; [exact B|]. split; [exact LS|]. split.
  - apply C89_decode_iff; [exact B|]. split; [exact S|]. split; [exact (gi_unit 256 ltac:(lia) 1 0 1 eq_refl)|]. split; [exact Lv|]. split; [apply gi_Forall; lia|].
    intros i _. exists 0. lia.
  - intros (_ & _ & _ & _ & E & _). unfold u, v in E. change 512%nat with (256 + 256)%nat in E. rewrite (negmul_gi 256) in E by lia. rewrite psub_gi in E by lia.
    apply (f_equal (fun l => coef l 0)) in E. rewrite coef_gi in E by lia. unfold pconst, coef in E. cbn [nth] in E. change (0 =? 0)%nat with true in E. cbv iota in E. lia.
Qed.
Print Assumptions C89_equation_checked_refuted.
