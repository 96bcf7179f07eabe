(** crypto_sign_open and zknox_crypto_sign_open. *)
From Verif Require Import Base CodecModel CodecSpec CodecProofs EncodingModel EncodingSpec EncodingProofs RingSpec FalconSpec NttModel NttProofs NttInst NttApi CTables CModel CNttProofs CCodecProofs CHashProofs COpenSpec Props_CCodec.

Lemma slice_mid {A} (a b c : list A) i j : length a = i -> (length a + length b = j)%nat -> slice i j (a ++ b ++ c) = b.
Proof. intros <- <-. unfold slice. rewrite skipn_app_exact by reflexivity. replace (length a + length b - length a)%nat with (length b) by lia. apply firstn_app_exact. reflexivity. Qed.
Lemma slice_end {A} a b (l : list A) : (a <= b <= length l)%nat -> length (slice a b l) = (b - a)%nat.
Proof. intros. unfold slice. rewrite firstn_length, skipn_length. lia. Qed.

Section Open.
Variable hash : list Z -> option (list Z).
Variable sigdec : list Z -> cdec (list Z).
(** what sign_open does once the key is decoded *)
Definition open_core (h sm : list Z) : cres (list Z) :=
  if (length sm <? 2 + 40)%nat then CErr else
  let sig_len := Z.lor (Z.shiftl (nth 0 sm 0) 8) (nth 1 sm 0) in
  if Z.of_nat (length sm) - 2 - 40 <? sig_len then CErr else
  let sig_len := Z.to_nat sig_len in
  let msg_len := (length sm - 2 - 40 - sig_len)%nat in
  let esig := skipn (2 + 40 + msg_len) sm in
  if (sig_len <? 1)%nat || negb (nth 0 esig 0 =? 0x20 + 9) then CErr else
  match sigdec (skipn 1 esig) with
  | Beyond => CUndef
  | Bad => CErr
  | Dec sig used =>
    if negb (used =? sig_len - 1)%nat then CErr else
    match hash (slice 2 (2 + 40 + msg_len) sm) with
    | None => CRunning
    | Some hm => if verify_raw 9 hm sig h then CRet (slice (2 + 40) (2 + 40 + msg_len) sm) else CErr
    end
  end.
Lemma sign_open_core pklen pkdec tomonty sm pk : sign_open hash pklen pkdec tomonty sigdec sm pk =
  match pk with
  | [] => CUndef
  | p0 :: pk' => if negb (p0 =? 9) then CErr else
    match pkdec (pklen - 1)%nat pk' with
    | Beyond => CUndef
    | Bad => CErr
    | Dec h used => if negb (used =? pklen - 1)%nat then CErr else open_core (tomonty h) sm
    end
  end.
Proof. destruct pk; reflexivity. Qed.
(** a framed message *)
Lemma open_core_frame h hi lo nonce m t enc : is_byte hi -> is_byte lo -> length nonce = 40%nat -> 256 * hi + lo = 1 + Z.of_nat (length enc) ->
  open_core h (hi :: lo :: nonce ++ m ++ t :: enc) =
  if negb (t =? 0x29) then CErr else
  match sigdec enc with
  | Beyond => CUndef
  | Bad => CErr
  | Dec sig used =>
    if negb (used =? length enc)%nat then CErr else
    match hash (nonce ++ m) with
    | None => CRunning
    | Some hm => if verify_raw 9 hm sig h then CRet m else CErr
    end
  end.
Proof.
  intros Hhi Hlo Ln El. unfold open_core. cbv zeta. change (nth 0 (hi :: _) 0) with hi. change (nth 1 (hi :: lo :: _) 0) with lo. rewrite lor_word by assumption. rewrite El.
  set (L := length (hi :: lo :: nonce ++ m ++ t :: enc)). assert (EL : L = (43 + length m + length enc)%nat) by (unfold L; cbn [length]; rewrite !app_length; cbn [length]; lia).
  destruct (Nat.ltb_spec L (2 + 40)); [lia|]. destruct (Z.ltb_spec (Z.of_nat L - 2 - 40) (1 + Z.of_nat (length enc))); [lia|].
  replace (Z.to_nat (1 + Z.of_nat (length enc))) with (S (length enc)) by lia.
  replace (L - 2 - 40 - S (length enc))%nat with (length m) by lia. clear L EL H H0.
  change (S (length enc) <? 1)%nat with false. cbn [orb].
  replace (skipn (2 + 40 + length m) (hi :: lo :: nonce ++ m ++ t :: enc)) with (t :: enc)
    by (change (hi :: lo :: nonce ++ m ++ t :: enc) with ([hi; lo] ++ nonce ++ m ++ t :: enc); rewrite !app_assoc; rewrite skipn_app_exact; [reflexivity|rewrite !app_length; cbn [length]; lia]).
  change (nth 0 (t :: enc) 0) with t. change (0x20 + 9) with 0x29. change (skipn 1 (t :: enc)) with enc. replace (S (length enc) - 1)%nat with (length enc) by lia.
  replace (slice 2 (2 + 40 + length m) (hi :: lo :: nonce ++ m ++ t :: enc)) with (nonce ++ m)
    by (symmetry; change (hi :: lo :: nonce ++ m ++ t :: enc) with ([hi; lo] ++ nonce ++ m ++ t :: enc); rewrite (app_assoc nonce); apply slice_mid; [reflexivity|rewrite app_length; cbn [length]; lia]).
  replace (slice (2 + 40) (2 + 40 + length m) (hi :: lo :: nonce ++ m ++ t :: enc)) with m
    by (symmetry; change (hi :: lo :: nonce ++ m ++ t :: enc) with (([hi; lo] ++ nonce) ++ m ++ t :: enc); apply slice_mid; rewrite app_length; cbn [length]; lia).
  reflexivity.
Qed.
(** every other input is refused *)
Lemma open_core_cases h sm : bytes sm -> open_core h sm = CErr \/
  exists hi lo nonce m enc, is_byte hi /\ is_byte lo /\ sm = hi :: lo :: nonce ++ m ++ 0x29 :: enc /\ length nonce = 40%nat /\ 256 * hi + lo = 1 + Z.of_nat (length enc).
Proof.
  intros Hb. unfold open_core. cbv zeta. destruct (Nat.ltb_spec (length sm) (2 + 40)) as [|L]; [auto|].
  destruct sm as [|hi [|lo rest]]; [cbn [length] in L; lia..|]. change (nth 0 (hi :: _) 0) with hi. change (nth 1 (hi :: lo :: _) 0) with lo.
  inversion Hb as [|? ? Bhi Hb1]; subst. inversion Hb1 as [|? ? Blo Hb2]; subst. rewrite lor_word by assumption.
  assert (Hs : 0 <= 256 * hi + lo) by (unfold is_byte in *; lia). set (sl := 256 * hi + lo) in *. cbn [length] in *.
  destruct (Z.ltb_spec (Z.of_nat (S (S (length rest))) - 2 - 40) sl) as [|L2]; [auto|].
  destruct (Nat.ltb_spec (Z.to_nat sl) 1) as [|L3]; [cbn [orb]; auto|]. cbn [orb].
  set (k := (S (S (length rest)) - 2 - 40 - Z.to_nat sl)%nat). change (skipn (2 + 40 + k) (hi :: lo :: rest)) with (skipn (40 + k) rest).
  destruct (skipn (40 + k) rest) as [|t enc] eqn:EQ; [apply (f_equal (@length _)) in EQ; rewrite skipn_length in EQ; cbn [length] in EQ; unfold k in EQ; lia|].
  change (nth 0 (t :: enc) 0) with t. destruct (Z.eqb_spec t (0x20 + 9)) as [->|]; [|left; reflexivity].
  right. exists hi, lo, (firstn 40 rest), (slice 40 (40 + k) rest), enc. split; [exact Bhi|]. split; [exact Blo|].
  assert (LE : length enc = (length rest - (40 + k) - 1)%nat) by (apply (f_equal (@length _)) in EQ; rewrite skipn_length in EQ; cbn [length] in EQ; lia).
  split; [|split; [rewrite firstn_length; lia|unfold sl, k in *; lia]]. f_equal. f_equal.
  rewrite <- (firstn_skipn 40 rest) at 1. f_equal. rewrite <- (firstn_skipn k (skipn 40 rest)) at 1. unfold slice. replace (40 + k - 40)%nat with k by lia. f_equal.
  change 0x29 with (0x20 + 9). rewrite <- EQ. rewrite EncodingProofs.skipn_skipn. f_equal. lia.
Qed.
Lemma open_core_iff h sm m : bytes sm ->
  (open_core h sm = CRet m <-> exists nonce enc sig hm, signed_message sm nonce m enc /\ sigdec enc = Dec sig (length enc) /\ hash (nonce ++ m) = Some hm /\ verify_raw 9 hm sig h = true).
Proof.
  intros Hb. split.
  - intros E. destruct (open_core_cases h sm Hb) as [E'|(hi & lo & nonce & m' & enc & Bhi & Blo & -> & Ln & El)]; [congruence|].
    rewrite open_core_frame in E by assumption. change (negb (41 =? 41)) with false in E. cbv iota in E.
    destruct (sigdec enc) as [sig used| |] eqn:ES; try discriminate E. destruct (Nat.eqb_spec used (length enc)) as [->|]; [|discriminate E]. cbn [negb] in E.
    destruct (hash (nonce ++ m')) as [hm|] eqn:EH; [|discriminate E]. destruct (verify_raw 9 hm sig h) eqn:EV; [|discriminate E].
    assert (m' = m) by congruence. subst m'. exists nonce, enc, sig, hm. split; [exists hi, lo; auto|]. auto.
  - intros (nonce & enc & sig & hm & (hi & lo & -> & Ln & El) & ES & EH & EV).
    inversion Hb as [|? ? Bhi Hb1]; subst. inversion Hb1 as [|? ? Blo Hb2]; subst.
    rewrite open_core_frame by assumption. change (negb (41 =? 41)) with false. cbv iota. rewrite ES, Nat.eqb_refl. cbn [negb]. rewrite EH, EV. reflexivity.
Qed.
End Open.

(** * The 14-bit public key and the compressed signature *)
Lemma pk14 pk' h used : bytes pk' -> (c_modq_decode 9 896 pk' = Dec h used <-> used = 896%nat /\ public_key14 (9 :: pk') h).
Proof.
  intros Hb. rewrite C83_modq_same_as_python by exact Hb. change (ceil8 (2 ^ 9 * 14)) with 896%nat. split.
  - intros (E1 & _ & D). split; [exact E1|]. apply modq_decode_accepts_iff in D; [|exact Hb]. destruct D as (L & Lh & F & P). change (2 ^ 9)%nat with 512%nat in Lh.
    split; [split; assumption|]. exists (firstn 896 pk'), (skipn 896 pk'). split; [f_equal; symmetry; apply firstn_skipn|].
    change (ceil8 (2 ^ 9 * 14)) with 896%nat in *. split; [rewrite firstn_length; lia|exact P].
  - intros (E1 & (Lh & F) & body & rest & E & Lb & P). assert (pk' = body ++ rest) by congruence. subst pk'. split; [exact E1|]. split; [lia|].
    apply modq_decode_accepts_iff; [exact Hb|]. change (ceil8 (2 ^ 9 * 14)) with 896%nat. split; [rewrite app_length; lia|]. split; [exact Lh|]. split; [exact F|]. rewrite firstn_app_exact by auto. exact P.
Qed.
Lemma sig14 enc s2 : bytes enc -> (dec_of (c_comp_decode 9 enc) = Dec s2 (length enc) <-> compressed s2 enc).
Proof.
  intros Hb. unfold compressed. transitivity (c_comp_decode 9 enc = Some (s2, length enc)).
  - unfold dec_of. destruct (c_comp_decode 9 enc) as [[x v]|]; split; intros E; try discriminate E; congruence.
  - rewrite C83_decode_iff by exact Hb. change (2 ^ 9)%nat with 512%nat. rewrite firstn_all. split.
    + intros (A & B & _ & D). auto.
    + intros (A & B & D). auto.
Qed.
Lemma compressed_enc s2 enc : bytes enc -> compressed s2 enc -> length s2 = 512%nat /\ small s2 /\ c_encoding s2 enc.
Proof. intros Hb (A & B & C). split; [exact A|]. split; [exact B|]. split; [exact Hb|exact C]. Qed.
Lemma signed_bytes sm nonce m enc : bytes sm -> signed_message sm nonce m enc -> bytes nonce /\ bytes m /\ bytes enc.
Proof.
  intros Hb (hi & lo & -> & _). inversion Hb as [|? ? ? Hb1]; subst. inversion Hb1 as [|? ? ? Hb2]; subst. apply bytes_app in Hb2. destruct Hb2 as [A B]. apply bytes_app in B.
  destruct B as [B C]. inversion C; subst. auto.
Qed.
(** the public key and the signature are those of a preimage *)
Lemma raw14 h c s2 : point h -> point c -> length s2 = 512%nat -> Forall (fun x => -32768 <= x < 32768) s2 ->
  (verify_raw 9 c s2 (to_ntt_monty 9 h) = true <-> exists s1, preimage 512 h c s1 s2 /\ sqnorm s1 + sqnorm s2 <= 34034726).
Proof. intros (Lh & Fh) (Lc & Fc) L2 F2. exact (C84_verify_raw_iff 9 h c s2 ltac:(lia) Lh Fh Lc Fc L2 F2). Qed.
Lemma small_i16 s2 : small s2 -> Forall (fun x => -32768 <= x < 32768) s2.
Proof. intros S. apply Forall_impl with (P := fun c => -2047 <= c <= 2047); [intros; lia|exact S]. Qed.
Lemma bytes_cons b l : bytes (b :: l) -> is_byte b /\ bytes l. Proof. intros H. inversion H; auto. Qed.

Theorem open14_iff hash sm pk m : (forall x c, hash x = Some c -> point c) -> bytes sm -> bytes pk ->
  (crypto_sign_open hash sm pk = CRet m <->
   exists nonce enc s2 h c s1, signed_message sm nonce m enc /\ compressed s2 enc /\ public_key14 pk h /\ hash (nonce ++ m) = Some c /\
     preimage 512 h c s1 s2 /\ sqnorm s1 + sqnorm s2 <= 34034726).
Proof.
  intros HH Hsm Hpk. unfold crypto_sign_open. rewrite sign_open_core. split.
  - destruct pk as [|p0 pk']; [discriminate|]. destruct (bytes_cons _ _ Hpk) as [_ Bp]. destruct (Z.eqb_spec p0 9) as [->|]; [|discriminate]. cbn [negb].
    change (897 - 1)%nat with 896%nat. destruct (c_modq_decode 9 896 pk') as [h used| |] eqn:ED; try discriminate. destruct (Nat.eqb_spec used 896) as [->|]; [|discriminate]. cbn [negb].
    intros E. apply open_core_iff in E; [|exact Hsm]. destruct E as (nonce & enc & sig & hm & SM & ES & EH & EV).
    destruct (signed_bytes _ _ _ _ Hsm SM) as (Bn & Bm & Be). apply sig14 in ES; [|exact Be]. apply pk14 in ED; [|exact Bp]. destruct ED as [_ PK].
    destruct (compressed_enc _ _ Be ES) as (L2 & S2 & _). apply raw14 in EV; [|exact (proj1 PK)|exact (HH _ _ EH)|exact L2|exact (small_i16 _ S2)].
    destruct EV as (s1 & EP & EN). exists nonce, enc, sig, h, hm, s1. repeat (split; [assumption|]). assumption.
  - intros (nonce & enc & s2 & h & c & s1 & SM & CS & PK & EH & EP & EN). destruct pk as [|p0 pk']; [destruct PK as (_ & body & rest & E & _); discriminate E|].
    destruct (bytes_cons _ _ Hpk) as [_ Bp]. assert (p0 = 9) by (destruct PK as (_ & body & rest & E & _); congruence). subst p0. change (negb (9 =? 9)) with false. cbv iota.
    change (897 - 1)%nat with 896%nat. rewrite (proj2 (pk14 pk' h 896 Bp) (conj eq_refl PK)). rewrite Nat.eqb_refl. cbn [negb].
    destruct (signed_bytes _ _ _ _ Hsm SM) as (Bn & Bm & Be). destruct (compressed_enc _ _ Be CS) as (L2 & S2 & _).
    apply open_core_iff; [exact Hsm|]. exists nonce, enc, s2, c. split; [exact SM|]. split; [apply sig14; assumption|]. split; [exact EH|].
    apply raw14; [exact (proj1 PK)|exact (HH _ _ EH)|exact L2|exact (small_i16 _ S2)|]. exists s1. auto.
Qed.
Theorem open14_no_undef hash sm pk : bytes pk -> (897 <= length pk)%nat -> crypto_sign_open hash sm pk <> CUndef.
Proof.
  intros Hpk HL E. unfold crypto_sign_open in E. rewrite sign_open_core in E. destruct pk as [|p0 pk']; [cbn [length] in HL; lia|]. destruct (bytes_cons _ _ Hpk) as [_ Bp].
  cbn [length] in HL. destruct (negb (p0 =? 9)); [discriminate E|]. change (897 - 1)%nat with 896%nat in E. destruct (c_modq_decode 9 896 pk') as [h used| |] eqn:ED; [|discriminate E|].
  - destruct (negb (used =? 896)%nat); [discriminate E|]. unfold open_core in E. cbv zeta in E. destruct (_ <? _)%nat; [discriminate E|]. destruct (_ <? _); [discriminate E|].
    destruct (_ || _)%bool; [discriminate E|]. unfold dec_of in E. destruct (c_comp_decode 9 _) as [[x v]|]; [|discriminate E]. destruct (negb _); [discriminate E|].
    destruct (hash _); [|discriminate E]. destruct (verify_raw 9 _ _ _); discriminate E.
  - unfold c_modq_decode in ED. apply cfixed_beyond in ED; [|lia|exact Bp]. change (ceil8 (2 ^ 9 * 14)) with 896%nat in ED. lia.
Qed.
