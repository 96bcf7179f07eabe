(** zknox_crypto_sign_open_epervier and zknox_crypto_sign_epervier (epervier16.c). *)
From Verif Require Import Base CodecModel CodecSpec CodecProofs EncodingModel EncodingSpec EncodingProofs RingSpec FalconSpec FalconModel FalconProofs RecoveryProofs PolyModel PolyModelProofs NttModel NttProofs NttInst NttApi SolModel SolSpec
  CTables CModel CNttProofs CCodecProofs CHashProofs COpenSpec Props_CCodec COpenProofs COpen16Proofs CKeySpec CKeyModel CKeyProofs CKeyProofs2 CKeyCodec CKeyFrame.

Section Open.
Variable hash : list Z -> option (list Z).
(** what is done with the signature, once the message is framed *)
Definition ep_verify (h nonce m s1 s2 : list Z) : cres (list Z) :=
  match hash (nonce ++ m) with
  | None => CRunning
  | Some hm =>
    let (h2, ok) := verify_recover_epervier 9 hm s1 s2 in
    if ok =? 0 then CErr else if zlist_eqb h h2 then CRet m else CErr
  end.
Definition ep_tail (h nonce m esig : list Z) : cres (list Z) :=
  if (length esig <? 1)%nat || negb (nth 0 esig 0 =? 0x20 + 9) then CErr else
  if (length esig <=? Z.to_nat 1025)%nat then CUndef else
  if negb (nth (Z.to_nat 1025) esig 0 =? 0x20 + 9) then CErr else
  match c_comp_decode16 9 (Z.to_nat 1024) (skipn 1 esig) with
  | Beyond => CUndef | Bad => CErr
  | Dec s1 used1 =>
    if negb (used1 =? Z.to_nat 1024)%nat then CErr else
    match c_comp_decode16 9 (Z.to_nat 1024) (skipn (Z.to_nat 1026) esig) with
    | Beyond => CUndef | Bad => CErr
    | Dec s2 used2 => if negb (used2 =? Z.to_nat 1024)%nat then CErr else ep_verify h nonce m s1 s2
    end
  end.
Definition ep_core (h sm : list Z) : cres (list Z) :=
  if (length sm <? 2 + 40)%nat then CErr else
  let sig_len := Z.lor (Z.shiftl (nth 0 sm 0) 8) (nth 1 sm 0) in
  if Z.of_nat (length sm) - 2 - 40 <? sig_len then CErr else
  let sig_len := Z.to_nat sig_len in
  let msg_len := (length sm - 2 - 40 - sig_len)%nat in
  let esig := skipn (2 + 40 + msg_len) sm in
  if (sig_len <? 1)%nat || negb (nth 0 esig 0 =? 0x20 + 9) then CErr else
  if (length esig <=? Z.to_nat 1025)%nat then CUndef else
  if negb (nth (Z.to_nat 1025) esig 0 =? 0x20 + 9) then CErr else
  match c_comp_decode16 9 (Z.to_nat 1024) (skipn 1 esig) with
  | Beyond => CUndef | Bad => CErr
  | Dec s1 used1 =>
    if negb (used1 =? Z.to_nat 1024)%nat then CErr else
    match c_comp_decode16 9 (Z.to_nat 1024) (skipn (Z.to_nat 1026) esig) with
    | Beyond => CUndef | Bad => CErr
    | Dec s2 used2 =>
      if negb (used2 =? Z.to_nat 1024)%nat then CErr else
      match hash (slice 2 (2 + 40 + msg_len) sm) with
      | None => CRunning
      | Some hm =>
        let (h2, ok) := verify_recover_epervier 9 hm s1 s2 in
        if ok =? 0 then CErr
        else if zlist_eqb h h2 then CRet (slice (2 + 40) (2 + 40 + msg_len) sm) else CErr
      end
    end
  end.
Lemma ep_open_core sm pk : zknox_crypto_sign_open_epervier hash sm pk =
  match pk with
  | [] => CUndef
  | p0 :: pk' => if negb (p0 =? 9) then CErr else
    match c_modq_decode16 9 (Z.to_nat 1024) pk' with
    | Beyond => CUndef
    | Bad => CErr
    | Dec h used => if negb (used =? Z.to_nat 1024)%nat then CErr else ep_core h sm
    end
  end.
Proof. destruct pk; reflexivity. Qed.
Lemma ep_core_frame h hi lo nonce m esig : is_byte hi -> is_byte lo -> length nonce = 40%nat -> 256 * hi + lo = Z.of_nat (length esig) ->
  ep_core h (hi :: lo :: nonce ++ m ++ esig) = ep_tail h nonce m esig.
Proof.
  intros Hhi Hlo Ln El. unfold ep_core. cbv zeta. change (nth 0 (hi :: _) 0) with hi. change (nth 1 (hi :: lo :: _) 0) with lo. rewrite lor_word by assumption. rewrite El.
  set (L := length (hi :: lo :: nonce ++ m ++ esig)). assert (EL : L = (42 + length m + length esig)%nat) by (unfold L; cbn [length]; rewrite !app_length; lia).
  destruct (Nat.ltb_spec L (2 + 40)); [lia|]. destruct (Z.ltb_spec (Z.of_nat L - 2 - 40) (Z.of_nat (length esig))); [lia|]. rewrite Nat2Z.id.
  replace (L - 2 - 40 - length esig)%nat with (length m) by lia. clear L EL H H0.
  replace (skipn (2 + 40 + length m) (hi :: lo :: nonce ++ m ++ esig)) with esig
    by (change (hi :: lo :: nonce ++ m ++ esig) with ([hi; lo] ++ nonce ++ m ++ esig); rewrite !app_assoc; rewrite skipn_app_exact; [reflexivity|rewrite !app_length; cbn [length]; lia]).
  replace (slice 2 (2 + 40 + length m) (hi :: lo :: nonce ++ m ++ esig)) with (nonce ++ m)
    by (symmetry; change (hi :: lo :: nonce ++ m ++ esig) with ([hi; lo] ++ nonce ++ m ++ esig); rewrite (app_assoc nonce); apply slice_mid; [reflexivity|rewrite app_length; cbn [length]; lia]).
  replace (slice (2 + 40) (2 + 40 + length m) (hi :: lo :: nonce ++ m ++ esig)) with m
    by (symmetry; change (hi :: lo :: nonce ++ m ++ esig) with (([hi; lo] ++ nonce) ++ m ++ esig); apply slice_mid; rewrite app_length; cbn [length]; lia).
  reflexivity.
Qed.
Lemma ep_core_cases h sm : bytes sm -> ep_core h sm = CErr \/
  exists hi lo nonce m esig, is_byte hi /\ is_byte lo /\ sm = hi :: lo :: nonce ++ m ++ esig /\ length nonce = 40%nat /\ 256 * hi + lo = Z.of_nat (length esig).
Proof.
  intros Hb. destruct (Nat.ltb_spec (length sm) (2 + 40)) as [L|L]; [left; unfold ep_core; apply Nat.ltb_lt in L; rewrite L; reflexivity|].
  destruct sm as [|hi [|lo rest]]; [cbn [length] in L; lia..|].
  inversion Hb as [|? ? Bhi Hb1]; subst. inversion Hb1 as [|? ? Blo Hb2]; subst. cbn [length] in L.
  destruct (Z.ltb_spec (Z.of_nat (length (hi :: lo :: rest)) - 2 - 40) (256 * hi + lo)) as [L2|L2].
  - left. unfold ep_core. cbv zeta. change (nth 0 (hi :: _) 0) with hi. change (nth 1 (hi :: lo :: _) 0) with lo. rewrite lor_word by assumption.
    apply Z.ltb_lt in L2. rewrite L2. destruct (length (hi :: lo :: rest) <? 2 + 40)%nat; reflexivity.
  - right. cbn [length] in L2. unfold is_byte in *. set (k := (length rest - 40 - Z.to_nat (256 * hi + lo))%nat).
    exists hi, lo, (firstn 40 rest), (firstn k (skipn 40 rest)), (skipn k (skipn 40 rest)). split; [assumption|]. split; [assumption|].
    split; [f_equal; f_equal; rewrite !firstn_skipn; reflexivity|]. split; [rewrite firstn_length; lia|]. rewrite !skipn_length. unfold k. lia.
Qed.
End Open.

(** * The signature *)
Lemma sig16p d s u : bytes d -> (c_comp_decode16 9 (Z.to_nat 1024) d = Dec s u <-> u = Z.to_nat 1024 /\ (Z.to_nat 1024 <= length d)%nat /\ words16 s (firstn (Z.to_nat 1024) d)).
Proof.
  intros Hb. unfold c_comp_decode16, words16. rewrite cfixed_iff by (auto; lia). rewrite ceil16. change (2 ^ 9)%nat with 512%nat. rewrite (gdecode_ok_iff comp16_conv 16 ltac:(lia) d 512 s Hb).
  change (512 * 16)%nat with (2 ^ 9 * 16)%nat. rewrite ceil16. split.
  - intros (A & _ & B & _ & ws & Lw & Ok & Ch & P). apply chk16 in Ch; [|exact Ok]. split; [exact A|]. split; [lia|]. split; [rewrite <- Lw; exact (F2_length _ _ _ Ch)|].
    split; [rewrite firstn_length; lia|]. exists ws. split; [exact Ch|exact P].
  - intros (A & B & L2 & LE & ws & F2 & P). split; [exact A|]. split; [lia|]. split; [lia|]. split; [lia|]. exists ws.
    assert (Ok : Forall (fun w => 0 <= w < 65536) ws) by (clear -F2; induction F2; constructor; auto; eapply word_of_range; eauto).
    split; [rewrite <- L2; symmetry; exact (F2_length _ _ _ F2)|]. split; [exact Ok|]. split; [apply chk16; assumption|exact P].
Qed.
Lemma sig16_beyond d : bytes d -> c_comp_decode16 9 (Z.to_nat 1024) d = Beyond -> (length d < Z.to_nat 1024)%nat.
Proof. intros Hb E. unfold c_comp_decode16 in E. apply cfixed_beyond in E; [|lia|exact Hb]. rewrite ceil16 in E. lia. Qed.
Lemma ep_tail_iff hash h nonce m esig r : bytes esig ->
  (ep_tail hash h nonce m esig = CRet r <-> exists e1 e2 rest s1 s2, esig = 0x29 :: e1 ++ 0x29 :: e2 ++ rest /\ words16 s1 e1 /\ words16 s2 e2 /\ ep_verify hash h nonce m s1 s2 = CRet r).
Proof.
  intros Hb. split.
  - unfold ep_tail. destruct esig as [|t d]; [discriminate|]. change (length (t :: d) <? 1)%nat with false. cbn [orb]. change (nth 0 (t :: d) 0) with t. change (0x20 + 9) with 0x29.
    destruct (Z.eqb_spec t 0x29) as [->|]; [|discriminate]. cbn [negb]. destruct (Nat.leb_spec (length (0x29 :: d)) (Z.to_nat 1025)) as [|L]; [discriminate|]. cbn [length] in L.
    destruct (bytes_cons _ _ Hb) as [_ Bd]. destruct (first_skip d (Z.to_nat 1024)) as (e1 & d2 & -> & L1); [lia|]. rewrite app_length in L.
    destruct d2 as [|t2 d2]; [cbn [length] in L; lia|]. change (skipn 1 (0x29 :: e1 ++ t2 :: d2)) with (e1 ++ t2 :: d2).
    replace (nth (Z.to_nat 1025) (0x29 :: e1 ++ t2 :: d2) 0) with t2
      by (replace (Z.to_nat 1025) with (S (Z.to_nat 1024)) by lia; change (nth (S (Z.to_nat 1024)) (0x29 :: e1 ++ t2 :: d2) 0) with (nth (Z.to_nat 1024) (e1 ++ t2 :: d2) 0); rewrite app_nth2 by lia; rewrite L1, Nat.sub_diag; reflexivity).
    destruct (Z.eqb_spec t2 0x29) as [->|]; [|discriminate]. cbn [negb].
    replace (skipn (Z.to_nat 1026) (0x29 :: e1 ++ 0x29 :: d2)) with d2
      by (symmetry; change (0x29 :: e1 ++ 0x29 :: d2) with ([0x29] ++ e1 ++ [0x29] ++ d2); rewrite !app_assoc; apply skip_app; rewrite !app_length; cbn [length]; lia).
    destruct (c_comp_decode16 9 (Z.to_nat 1024) (e1 ++ 0x29 :: d2)) as [s1 u1| |] eqn:E1; try discriminate. apply sig16p in E1; [|exact Bd]. destruct E1 as (-> & _ & W1).
    rewrite first_app in W1 by exact L1. rewrite Nat.eqb_refl. cbn [negb]. apply bytes_app in Bd. destruct Bd as [_ Bd]. destruct (bytes_cons _ _ Bd) as [_ Bd2].
    destruct (c_comp_decode16 9 (Z.to_nat 1024) d2) as [s2 u2| |] eqn:E2; try discriminate. apply sig16p in E2; [|exact Bd2]. destruct E2 as (-> & L2 & W2). rewrite Nat.eqb_refl. cbn [negb].
    intros E. exists e1, (firstn (Z.to_nat 1024) d2), (skipn (Z.to_nat 1024) d2), s1, s2. split; [rewrite firstn_skipn; reflexivity|]. split; [exact W1|]. split; [exact W2|exact E].
  - intros (e1 & e2 & rest & s1 & s2 & -> & W1 & W2 & E). pose proof W1 as (_ & L1 & _). pose proof W2 as (_ & L2 & _).
    destruct (bytes_cons _ _ Hb) as [_ Bd]. pose proof Bd as Bd'. apply bytes_app in Bd'. destruct Bd' as [_ Bd']. destruct (bytes_cons _ _ Bd') as [_ Bd2].
    unfold ep_tail. set (E0 := 0x29 :: e1 ++ 0x29 :: e2 ++ rest) at 1. change (length E0 <? 1)%nat with false. clear E0. cbn [orb]. change (nth 0 (0x29 :: e1 ++ 0x29 :: e2 ++ rest) 0) with 0x29. change (negb (0x29 =? 0x20 + 9)) with false. cbv iota.
    destruct (Nat.leb_spec (length (0x29 :: e1 ++ 0x29 :: e2 ++ rest)) (Z.to_nat 1025)) as [L|_]; [cbn [length] in L; rewrite app_length in L; cbn [length] in L; rewrite app_length in L; lia|].
    replace (nth (Z.to_nat 1025) (0x29 :: e1 ++ 0x29 :: e2 ++ rest) 0) with 0x29
      by (replace (Z.to_nat 1025) with (S (Z.to_nat 1024)) by lia; change (nth (S (Z.to_nat 1024)) (0x29 :: e1 ++ 0x29 :: e2 ++ rest) 0) with (nth (Z.to_nat 1024) (e1 ++ 0x29 :: e2 ++ rest) 0); rewrite app_nth2 by lia; rewrite L1, Nat.sub_diag; reflexivity).
    change (negb (0x29 =? 0x20 + 9)) with false. cbv iota. change (skipn 1 (0x29 :: e1 ++ 0x29 :: e2 ++ rest)) with (e1 ++ 0x29 :: e2 ++ rest).
    replace (skipn (Z.to_nat 1026) (0x29 :: e1 ++ 0x29 :: e2 ++ rest)) with (e2 ++ rest)
      by (symmetry; change (0x29 :: e1 ++ 0x29 :: e2 ++ rest) with ([0x29] ++ e1 ++ [0x29] ++ (e2 ++ rest)); rewrite !app_assoc; rewrite <- (app_assoc _ e2 rest); apply skip_app; rewrite !app_length; cbn [length]; lia).
    rewrite (proj2 (sig16p (e1 ++ 0x29 :: e2 ++ rest) s1 (Z.to_nat 1024) Bd)) by (split; [reflexivity|]; split; [rewrite app_length; lia|rewrite first_app by exact L1; exact W1]).
    rewrite (proj2 (sig16p (e2 ++ rest) s2 (Z.to_nat 1024) Bd2)) by (split; [reflexivity|]; split; [rewrite app_length; lia|rewrite first_app by exact L2; exact W2]).
    rewrite Nat.eqb_refl. cbn [negb]. exact E.
Qed.
Lemma words16_i16 s e : words16 s e -> Forall (fun x => -32768 <= x < 32768) s.
Proof. intros (_ & _ & ws & F2 & _). clear -F2. induction F2; constructor; auto. eapply word_of_range; eauto. Qed.
Lemma zlist_eqb_eq a b : zlist_eqb a b = true <-> a = b.
Proof. unfold zlist_eqb. destruct (list_eq_dec Z.eq_dec a b); split; congruence. Qed.
(** the comparison of the recovered key *)
Lemma ep_verify_iff hash hN nonce m s1 s2 r : (forall x c, hash x = Some c -> point c) -> point hN -> length s1 = 512%nat -> length s2 = 512%nat ->
  Forall (fun x => -32768 <= x < 32768) s1 -> Forall (fun x => -32768 <= x < 32768) s2 ->
  (ep_verify hash hN nonce m s1 s2 = CRet r <->
   r = m /\ exists c h, hash (nonce ++ m) = Some c /\ point h /\ NTTFW_vectorized h = hN /\ unit_mod 512 s2 /\ preimage 512 h c s1 s2 /\ sqnorm s1 + sqnorm s2 <= 34034726).
Proof.
  intros HH PN L1 L2 I1 I2. unfold ep_verify. destruct (hash (nonce ++ m)) as [c|] eqn:EH; [|split; [discriminate|intros (_ & c & h & E & _); discriminate E]].
  pose proof (HH _ _ EH) as Pc. unfold verify_recover_epervier. change 512%nat with (2 ^ 9)%nat in L1, L2. rewrite (recover_flag 9 s1 s2 ltac:(lia) L1 L2 I1 I2).
  assert (B : is_short 9 s1 s2 = (sqnorm s1 + sqnorm s2 <=? 34034726)) by exact (is_short_exact 9 s1 s2 ltac:(congruence) I1 I2).
  pose proof (unit_iff 9 _ s2 ltac:(lia) eq_refl L2) as U.
  destruct (is_short 9 s1 s2) eqn:ES; cbn [andb].
  2: { split; [discriminate|]. intros (_ & c' & h & _ & _ & _ & _ & _ & N). apply Z.leb_le in N. rewrite N in B. discriminate B. }
  destruct (invertible s2) eqn:EI.
  2: { split; [discriminate|]. intros (_ & c' & h & _ & _ & _ & N & _). apply U in N. discriminate N. }
  change (1 =? 0) with false. cbv iota. destruct (short_small 9 s1 s2 ltac:(congruence) I1 I2 ES) as [S1 S2].
  destruct (quot_preimage 9 c s1 s2 ltac:(lia) (canonL_point c Pc) L1 L2 S1 S2 EI) as (h & (Lh & Ch) & EQ & _ & P). 
  assert (Ph : point h) by (split; [exact Lh|exact Ch]).
  assert (EN : c_quot 9 c s1 s2 = NTTFW_vectorized h) by (rewrite <- (C84_same_transform_as_contract h Lh Ch), (mq_NTT_ntt 9 h ltac:(lia) (conj Lh Ch)); exact EQ). rewrite EN. split.
  - destruct (zlist_eqb hN (NTTFW_vectorized h)) eqn:EZ; [|discriminate]. intros E. assert (r = m) by congruence. subst r. split; [reflexivity|].
    apply zlist_eqb_eq in EZ. exists c, h. split; [reflexivity|]. split; [exact Ph|]. split; [symmetry; exact EZ|]. split; [apply U; reflexivity|]. split; [exact P|]. apply Z.leb_le. symmetry. exact B.
  - intros (-> & c' & h' & E & Ph' & EN' & UN & P' & _). assert (c' = c) by congruence. subst c'.
    assert (h' = h) by exact (recovered_unique (2 ^ 9) c s1 s2 h' h (pow_pos' 9 _ eq_refl) (proj1 Ph') Lh (proj2 Ph') Ch P' P UN). subst h'.
    rewrite (proj2 (zlist_eqb_eq _ _)) by (symmetry; exact EN'). reflexivity.
Qed.
Lemma ep_bytes sm nonce m e1 e2 rest : bytes sm -> ep_message sm nonce m e1 e2 rest -> bytes nonce /\ bytes m /\ bytes e1 /\ bytes e2 /\ bytes rest.
Proof.
  intros Hb (hi & lo & -> & _). apply bytes_cons in Hb. destruct Hb as [_ Hb]. apply bytes_cons in Hb. destruct Hb as [_ Hb]. apply bytes_app in Hb. destruct Hb as [A Hb]. apply bytes_app in Hb. destruct Hb as [B Hb].
  apply bytes_cons in Hb. destruct Hb as [_ Hb]. apply bytes_app in Hb. destruct Hb as [C Hb]. apply bytes_cons in Hb. destruct Hb as [_ Hb]. apply bytes_app in Hb. destruct Hb as [D E]. auto.
Qed.
Theorem ep_open_iff hash sm pk m : (forall x c, hash x = Some c -> point c) -> bytes sm -> bytes pk ->
  (zknox_crypto_sign_open_epervier hash sm pk = CRet m <->
   exists nonce e1 e2 rest s1 s2 h c, ep_message sm nonce m e1 e2 rest /\ words16 s1 e1 /\ words16 s2 e2 /\ point h /\ public_key16 pk (NTTFW_vectorized h) /\ hash (nonce ++ m) = Some c /\
     unit_mod 512 s2 /\ preimage 512 h c s1 s2 /\ sqnorm s1 + sqnorm s2 <= 34034726).
Proof.
  intros HH Hsm Hpk. rewrite ep_open_core. split.
  - destruct pk as [|p0 pk']; [discriminate|]. destruct (bytes_cons _ _ Hpk) as [_ Bp]. destruct (Z.eqb_spec p0 9) as [->|]; [|discriminate]. cbn [negb].
    destruct (c_modq_decode16 9 (Z.to_nat 1024) pk') as [hN used| |] eqn:ED; try discriminate. destruct (Nat.eqb_spec used (Z.to_nat 1024)) as [->|]; [|discriminate]. cbn [negb].
    apply pk16 in ED; [|exact Bp]. destruct ED as [_ PK]. intros E.
    destruct (ep_core_cases hash hN sm Hsm) as [E'|(hi & lo & nonce & m' & esig & Bhi & Blo & -> & Ln & El)]; [rewrite E' in E; discriminate E|].
    rewrite ep_core_frame in E by assumption.
    assert (Be : bytes esig) by (apply bytes_cons in Hsm; destruct Hsm as [_ Hsm]; apply bytes_cons in Hsm; destruct Hsm as [_ Hsm]; apply bytes_app in Hsm; destruct Hsm as [_ Hsm]; apply bytes_app in Hsm; apply Hsm).
    apply ep_tail_iff in E; [|exact Be]. destruct E as (e1 & e2 & rest & s1 & s2 & -> & W1 & W2 & E).
    apply ep_verify_iff in E; [|exact HH|exact (proj1 PK)|exact (proj1 W1)|exact (proj1 W2)|exact (words16_i16 _ _ W1)|exact (words16_i16 _ _ W2)].
    destruct E as (-> & c & h & EH & Ph & EN & U & P & N). exists nonce, e1, e2, rest, s1, s2, h, c. rewrite EN. split; [|repeat (split; [assumption|]); assumption].
    exists hi, lo. split; [reflexivity|]. split; [exact Ln|]. split; [exact (proj1 (proj2 W1))|]. split; [exact (proj1 (proj2 W2))|]. rewrite El. cbn [length]. rewrite app_length. cbn [length]. rewrite app_length.
    rewrite (proj1 (proj2 W1)), (proj1 (proj2 W2)). lia.
  - intros (nonce & e1 & e2 & rest & s1 & s2 & h & c & SM & W1 & W2 & Ph & PK & EH & U & P & N). destruct pk as [|p0 pk']; [destruct PK as (_ & body & rest' & E & _); discriminate E|].
    destruct (bytes_cons _ _ Hpk) as [_ Bp]. assert (p0 = 9) by (destruct PK as (_ & body & rest' & E & _); congruence). subst p0. change (negb (9 =? 9)) with false. cbv iota.
    rewrite (proj2 (pk16 pk' _ (Z.to_nat 1024) Bp) (conj eq_refl PK)). rewrite Nat.eqb_refl. cbn [negb].
    destruct SM as (hi & lo & -> & Ln & L1 & L2 & El). pose proof Hsm as Hb. apply bytes_cons in Hb. destruct Hb as [Bhi Hb]. apply bytes_cons in Hb. destruct Hb as [Blo Hb].
    apply bytes_app in Hb. destruct Hb as [_ Hb]. apply bytes_app in Hb. destruct Hb as [_ Hb].
    rewrite ep_core_frame; [|exact Bhi|exact Blo|exact Ln|cbn [length]; rewrite app_length; cbn [length]; rewrite app_length, L1, L2; lia].
    apply ep_tail_iff; [exact Hb|]. exists e1, e2, rest, s1, s2. split; [reflexivity|]. split; [exact W1|]. split; [exact W2|].
    apply ep_verify_iff; [exact HH|exact (proj1 PK)|exact (proj1 W1)|exact (proj1 W2)|exact (words16_i16 _ _ W1)|exact (words16_i16 _ _ W2)|].
    split; [reflexivity|]. exists c, h. split; [exact EH|]. split; [exact Ph|]. split; [reflexivity|]. split; [exact U|]. split; [exact P|exact N].
Qed.
(** reads past the buffer *)
Lemma ep_verify_undef hash h nonce m s1 s2 : ep_verify hash h nonce m s1 s2 <> CUndef.
Proof.
  unfold ep_verify. destruct (hash _) as [hm|]; [|discriminate]. destruct (verify_recover_epervier 9 hm s1 s2) as [h2 ok]. destruct (ok =? 0); [discriminate|]. destruct (zlist_eqb h h2); discriminate.
Qed.
Lemma ep_tail_undef hash h nonce m esig : bytes esig -> 2050 <= Z.of_nat (length esig) -> ep_tail hash h nonce m esig <> CUndef.
Proof.
  intros Be HS E. unfold ep_tail in E. destruct (_ || _); [discriminate E|]. destruct (Nat.leb_spec (length esig) (Z.to_nat 1025)) as [L|L]; [lia|].
  destruct (negb _); [discriminate E|]. destruct (c_comp_decode16 9 (Z.to_nat 1024) (skipn 1 esig)) as [s1 u1| |] eqn:E1; [|discriminate E|].
  2: { apply sig16_beyond in E1; [|apply bytes_skipn; exact Be]. rewrite skipn_length in E1. lia. }
  destruct (negb _); [discriminate E|]. destruct (c_comp_decode16 9 (Z.to_nat 1024) (skipn (Z.to_nat 1026) esig)) as [s2 u2| |] eqn:E2; [|discriminate E|].
  2: { apply sig16_beyond in E2; [|apply bytes_skipn; exact Be]. rewrite skipn_length in E2. lia. }
  destruct (negb _); [discriminate E|]. exact (ep_verify_undef _ _ _ _ _ _ E).
Qed.
Theorem ep_no_undef hash sm pk : bytes sm -> bytes pk -> (Z.to_nat 1025 <= length pk)%nat -> 2050 <= 256 * nth 0 sm 0 + nth 1 sm 0 -> zknox_crypto_sign_open_epervier hash sm pk <> CUndef.
Proof.
  intros Hsm Hpk HL HS E. rewrite ep_open_core in E. destruct pk as [|p0 pk']; [cbn [length] in HL; lia|]. destruct (bytes_cons _ _ Hpk) as [_ Bp].
  cbn [length] in HL. destruct (negb (p0 =? 9)); [discriminate E|]. destruct (c_modq_decode16 9 (Z.to_nat 1024) pk') as [h used| |] eqn:ED; [|discriminate E|].
  2: { unfold c_modq_decode16 in ED. apply cfixed_beyond in ED; [|lia|exact Bp]. rewrite ceil16 in ED. lia. }
  destruct (negb (used =? Z.to_nat 1024)%nat); [discriminate E|].
  destruct (ep_core_cases hash h sm Hsm) as [E'|(hi & lo & nonce & m' & esig & Bhi & Blo & -> & Ln & El)]; [rewrite E' in E; discriminate E|].
  rewrite ep_core_frame in E by assumption. change (nth 0 (hi :: _) 0) with hi in HS. change (nth 1 (hi :: lo :: _) 0) with lo in HS.
  assert (Be : bytes esig) by (apply bytes_cons in Hsm; destruct Hsm as [_ Hsm]; apply bytes_cons in Hsm; destruct Hsm as [_ Hsm]; apply bytes_app in Hsm; destruct Hsm as [_ Hsm]; apply bytes_app in Hsm; apply Hsm).
  apply (ep_tail_undef hash h nonce m' esig Be); [lia|exact E].
Qed.
Theorem ep_short_undef hash hi lo nonce m esig pk h : bytes pk -> public_key16 pk h -> is_byte hi -> is_byte lo -> length nonce = 40%nat ->
  256 * hi + lo = 1 + Z.of_nat (length esig) -> 256 * hi + lo <= 1025 -> zknox_crypto_sign_open_epervier hash (hi :: lo :: nonce ++ m ++ 0x29 :: esig) pk = CUndef.
Proof.
  intros Hpk PK Bhi Blo Ln El HS. rewrite ep_open_core. destruct pk as [|p0 pk']; [destruct PK as (_ & body & rest' & E & _); discriminate E|].
  destruct (bytes_cons _ _ Hpk) as [_ Bp]. assert (p0 = 9) by (destruct PK as (_ & body & rest' & E & _); congruence). subst p0. change (negb (9 =? 9)) with false. cbv iota.
  rewrite (proj2 (pk16 pk' _ (Z.to_nat 1024) Bp) (conj eq_refl PK)). rewrite Nat.eqb_refl. cbn [negb].
  rewrite ep_core_frame; [|exact Bhi|exact Blo|exact Ln|cbn [length]; lia]. unfold ep_tail. set (E0 := 0x29 :: esig) at 1. change (length E0 <? 1)%nat with false. clear E0. cbn [orb].
  change (nth 0 (0x29 :: esig) 0) with 0x29. change (negb (0x29 =? 0x20 + 9)) with false. cbv iota. destruct (Nat.leb_spec (length (0x29 :: esig)) (Z.to_nat 1025)) as [L|L]; [reflexivity|]. cbn [length] in L. lia.
Qed.
