(** Property C90: the Epervier functions of the C implementation (epervier16.c), always hashed with SHAKE256. *)
From Verif Require Import Base KeccakModel KeccakSpec HashModel HashSpec HashProofs CodecModel CodecSpec CodecProofs EncodingModel EncodingSpec EncodingProofs RingSpec Ring PolyProofs ChachaProofs FalconSpec FalconModel FalconProofs RecoveryProofs
  PolyModel PolyModelProofs NttModel NttInst NttApi SolModel SolSpec Props_Ntt ChainExtra CTables CModel CNttProofs CCodecProofs CHashProofs COpenSpec Props_CCodec COpenProofs COpen16Proofs Props_CVerify
  CKeySpec CKeyModel CKeyProofs CKeyProofs2 CKeyCodec CKeyFrame CEpProofs Props_CKey.
Definition shake_point (fuel : nat) (x c : list Z) : Prop :=
  exists N, first_accepted (word16 (shake256_byte x)) 512 N c /\ (N <= fuel)%nat.

Lemma shake_hash_point fuel x c : bytes x -> shake_hash fuel x = Some c -> point c.
Proof. intros Hx E. apply shake_hash_iff in E; [|exact Hx]. destruct E as (N & F & _). exact (first_accepted_point _ _ _ F). Qed.
Lemma is_byte_dec b : {is_byte b} + {~ is_byte b}.
Proof. unfold is_byte. destruct (Z_le_dec 0 b); [destruct (Z_lt_dec b 256); [left; lia|right; lia]|right; lia]. Qed.
Lemma ep_hash_ext h1 sm pk m : bytes sm -> bytes pk -> (forall x c, bytes x -> h1 x = Some c -> point c) ->
  (zknox_crypto_sign_open_epervier h1 sm pk = CRet m <->
   exists nonce e1 e2 rest s1 s2 h c, ep_message sm nonce m e1 e2 rest /\ words16 s1 e1 /\ words16 s2 e2 /\ point h /\ public_key16 pk (NTTFW_vectorized h) /\ h1 (nonce ++ m) = Some c /\
     unit_mod 512 s2 /\ preimage 512 h c s1 s2 /\ sqnorm s1 + sqnorm s2 <= 34034726).
Proof.
  intros Hsm Hpk HP. set (h2 := fun x => if Forall_dec is_byte is_byte_dec x then h1 x else None).
  assert (E2 : forall x, bytes x -> h2 x = h1 x) by (intros x Hx; unfold h2; destruct (Forall_dec _ _ x) as [|N]; [reflexivity|contradiction]).
  assert (P2 : forall x c, h2 x = Some c -> point c) by (intros x c E; unfold h2 in E; destruct (Forall_dec _ _ x) as [B|]; [exact (HP x c B E)|discriminate E]).
  assert (EO : zknox_crypto_sign_open_epervier h1 sm pk = zknox_crypto_sign_open_epervier h2 sm pk).
  { rewrite !ep_open_core. destruct pk as [|p0 pk']; [reflexivity|]. destruct (negb (p0 =? 9)); [reflexivity|]. generalize (c_modq_decode16 9 (Z.to_nat 1024) pk'). intros [h used| |]; [|reflexivity|reflexivity].
    destruct (negb _); [reflexivity|]. unfold ep_core. cbv zeta. rewrite E2; [reflexivity|]. unfold slice. apply bytes_firstn, bytes_skipn. exact Hsm. }
  rewrite EO, (ep_open_iff h2 sm pk m P2 Hsm Hpk). split; intros (nonce & e1 & e2 & rest & s1 & s2 & h & c & SM & R); exists nonce, e1, e2, rest, s1, s2, h, c;
    (split; [exact SM|]); destruct (ep_bytes _ _ _ _ _ _ Hsm SM) as (Bn & Bm & _); rewrite E2 in * by (apply bytes_app; auto); exact R.
Qed.
(** the message comes out iff the input has the format, s2 is invertible and (s1, s2) is a short preimage of the hash of nonce and message, under the key whose transform is in pk *)
Theorem C90_open_iff : forall fuel sm pk m, Forall (fun b => 0 <= b < 256) sm -> Forall (fun b => 0 <= b < 256) pk ->
  (zknox_crypto_sign_open_epervier (shake_hash fuel) sm pk = CRet m <->
   exists nonce e1 e2 rest s1 s2 h c, ep_message sm nonce m e1 e2 rest /\ words16 s1 e1 /\ words16 s2 e2 /\ point h /\ public_key16 pk (NTTFW_vectorized h) /\
     shake_point fuel (nonce ++ m) c /\ unit_mod 512 s2 /\ preimage 512 h c s1 s2 /\ sqnorm s1 + sqnorm s2 <= 34034726).
Proof.
  intros fuel sm pk m Hsm Hpk. rewrite (ep_hash_ext (shake_hash fuel) sm pk m Hsm Hpk (shake_hash_point fuel)).
  split; intros (nonce & e1 & e2 & rest & s1 & s2 & h & c & SM & W1 & W2 & Ph & PK & EH & R); exists nonce, e1, e2, rest, s1, s2, h, c;
    destruct (ep_bytes _ _ _ _ _ _ Hsm SM) as (Bn & Bm & _); repeat (split; [assumption|]); (split; [|exact R]); apply shake_hash_iff; try assumption; apply bytes_app; auto.
Qed.
Print Assumptions C90_open_iff.
(** ** Reads outside the signed message *)
Theorem C90_defined : forall hash sm pk, Forall (fun b => 0 <= b < 256) sm -> Forall (fun b => 0 <= b < 256) pk -> (Z.to_nat 1025 <= length pk)%nat ->
  2050 <= 256 * nth 0 sm 0 + nth 1 sm 0 -> zknox_crypto_sign_open_epervier hash sm pk <> CUndef.
Proof. exact ep_no_undef. Qed.
Print Assumptions C90_defined.
(** with a shorter announced length, the first byte alone leads the verifier past the end of its input, whatever the key *)
Theorem C90_overread_refuted : forall hash nonce m pk h, Forall (fun b => 0 <= b < 256) pk -> public_key16 pk h -> length nonce = 40%nat ->
  zknox_crypto_sign_open_epervier hash (0 :: 1 :: nonce ++ m ++ [0x29]) pk = CUndef.
Proof.
  intros hash nonce m pk h Hpk PK Ln. apply (ep_short_undef hash 0 1 nonce m [] pk h); [exact Hpk|exact PK|unfold is_byte; lia|unfold is_byte; lia|exact Ln|reflexivity|lia].
Qed.
Print Assumptions C90_overread_refuted.

(** ** Uniqueness of the parts *)
Lemma ep_message_parts sm nonce m e1 e2 rest nonce' m' e1' e2' rest' : ep_message sm nonce m e1 e2 rest -> ep_message sm nonce' m' e1' e2' rest' -> nonce' = nonce /\ m' = m /\ e1' = e1 /\ e2' = e2 /\ rest' = rest.
Proof.
  intros (hi & lo & E & Ln & L1 & L2 & EL) (hi' & lo' & E' & Ln' & L1' & L2' & EL'). rewrite E in E'. apply cons_inj in E'. destruct E' as [<- E']. apply cons_inj in E'. destruct E' as [<- E'].
  apply app_inv_length in E'; [|congruence]. destruct E' as [<- E']. assert (LR : length rest = length rest') by lia.
  assert (LM : length m = length m') by (apply (f_equal (@length _)) in E'; rewrite !app_length in E'; cbn [length] in E'; rewrite !app_length in E'; cbn [length] in E'; rewrite !app_length in E'; lia).
  apply app_inv_length in E'; [|exact LM]. destruct E' as [<- E']. apply cons_inj in E'. destruct E' as [_ E']. apply app_inv_length in E'; [|congruence]. destruct E' as [<- E'].
  apply cons_inj in E'. destruct E' as [_ E']. apply app_inv_length in E'; [|congruence]. destruct E' as [<- <-]. auto.
Qed.
Lemma words16_unique s s' e : bytes e -> words16 s e -> words16 s' e -> s' = s.
Proof. intros Be W W'. apply (sig16 e _ Be) in W. apply (sig16 e _ Be) in W'. rewrite W in W'. congruence. Qed.
Lemma pk16_unique pk x y : bytes pk -> public_key16 pk x -> public_key16 pk y -> y = x.
Proof.
  intros B P Q. destruct pk as [|p0 pk']; [destruct P as (_ & body & rest' & E & _); discriminate E|]. destruct (bytes_cons _ _ B) as [_ Bp].
  assert (p0 = 9) by (destruct P as (_ & body & rest' & E & _); congruence). subst p0.
  pose proof (proj2 (pk16 pk' x (Z.to_nat 1024) Bp) (conj eq_refl P)) as D1. pose proof (proj2 (pk16 pk' y (Z.to_nat 1024) Bp) (conj eq_refl Q)) as D2. rewrite D1 in D2. congruence.
Qed.
(** ** The hint is not checked *)
Theorem C90_hint_ignored : forall fuel sm pk m nonce e1 e2 rest rest' sm', Forall (fun b => 0 <= b < 256) sm -> Forall (fun b => 0 <= b < 256) sm' -> Forall (fun b => 0 <= b < 256) pk ->
  ep_message sm nonce m e1 e2 rest -> ep_message sm' nonce m e1 e2 rest' ->
  zknox_crypto_sign_open_epervier (shake_hash fuel) sm pk = CRet m -> zknox_crypto_sign_open_epervier (shake_hash fuel) sm' pk = CRet m.
Proof.
  intros fuel sm pk m nonce e1 e2 rest rest' sm' Hsm Hsm' Hpk SM SM' E. apply (ep_hash_ext (shake_hash fuel) sm pk m Hsm Hpk (shake_hash_point fuel)) in E.
  destruct E as (n0 & f1 & f2 & r0 & s1 & s2 & h & c & SM0 & R). destruct (ep_message_parts _ _ _ _ _ _ _ _ _ _ _ SM SM0) as (-> & _ & -> & -> & _).
  apply (ep_hash_ext (shake_hash fuel) sm' pk m Hsm' Hpk (shake_hash_point fuel)). exists nonce, e1, e2, rest', s1, s2, h, c. split; [exact SM'|exact R].
Qed.
Print Assumptions C90_hint_ignored.

(** ** Signing *)
(** the loop stops at the first sample whose s2 is invertible *)
Theorem C90_first_invertible : forall fuel smp s1 s2, (forall i, length (snd (smp i)) = 512%nat /\ Forall (fun x => -12289 <= x < 12289) (snd (smp i))) ->
  (ep_attempts fuel 0 smp = Some (s1, s2) <-> exists i, (i < fuel)%nat /\ smp i = (s1, s2) /\ unit_mod 512 s2 /\ forall j, (j < i)%nat -> ~ unit_mod 512 (snd (smp j))).
Proof.
  intros fuel smp s1 s2 HS.
  assert (D : forall i, (is_invertible 9 (snd (smp i)) =? 0) = true <-> ~ unit_mod 512 (snd (smp i))).
  { intros i. destruct (HS i) as [L S]. rewrite (is_invertible_py 9 (snd (smp i)) ltac:(lia) L S). pose proof (unit_iff 9 512 (snd (smp i)) ltac:(lia) eq_refl L) as U.
    destruct (invertible (snd (smp i))); split; intros H; try reflexivity; [discriminate H|exfalso; apply H, U; reflexivity|intros N; apply U in N; discriminate N]. }
  assert (G : forall fuel k, ep_attempts fuel k smp = Some (s1, s2) <-> exists i, (k <= i < k + fuel)%nat /\ smp i = (s1, s2) /\ unit_mod 512 s2 /\ forall j, (k <= j < i)%nat -> ~ unit_mod 512 (snd (smp j))).
  { clear fuel. induction fuel as [|fuel IH]; intros k; cbn [ep_attempts]; [split; [discriminate|intros (i & H & _); lia]|].
    destruct (smp k) as [t1 t2] eqn:EK. pose proof (D k) as DK. rewrite EK in DK. cbn [snd] in DK. destruct (is_invertible 9 t2 =? 0).
    - rewrite IH. split; intros (i & Hi & Es & U & Hj).
      + exists i. split; [lia|]. split; [exact Es|]. split; [exact U|]. intros j Hj'. destruct (Nat.eq_dec j k) as [->|]; [rewrite EK; apply DK; reflexivity|apply Hj; lia].
      + exists i. assert (i <> k) by (intros ->; rewrite EK in Es; assert (t2 = s2) by congruence; subst t2; exact (proj1 DK eq_refl U)). split; [lia|]. split; [exact Es|]. split; [exact U|]. intros j Hj'. apply Hj. lia.
    - assert (UK : unit_mod 512 t2).
      { pose proof (proj1 (HS k)) as L. rewrite EK in L. cbn [snd] in L. apply (unit_iff 9 512 t2 ltac:(lia) eq_refl L). pose proof (unit_iff 9 512 t2 ltac:(lia) eq_refl L) as U. destruct (invertible t2); [reflexivity|].
        exfalso. assert (X : false = true) by (apply DK; intros N; apply U in N; discriminate N). discriminate X. }
      split.
      + intros E. assert (t1 = s1 /\ t2 = s2) as [-> ->] by (split; congruence). exists k. split; [lia|]. split; [exact EK|]. split; [exact UK|]. intros j Hj. lia.
      + intros (i & Hi & Es & U & Hj). destruct (Nat.eq_dec i k) as [->|]; [congruence|]. exfalso. apply (Hj k ltac:(lia)). rewrite EK. exact UK. }
  rewrite (G fuel O). split; intros (i & Hi & Es & U & Hj); exists i; (split; [lia|]); (split; [exact Es|]); (split; [exact U|]); intros j Hj'; apply Hj; lia.
Qed.
Print Assumptions C90_first_invertible.
Lemma packs_words v e : length v = 512%nat -> Forall (fun t => -10242 <= t <= 2046) v -> c_comp_encode16 v = Some e -> words16 v e.
Proof.
  intros L R E. pose proof (proj1 (encode16_packs v e) E) as (_ & LE & P & _). pose proof (C86_encode_then_decode v e L E) as (_ & _ & D). apply (sig16 e v P). apply D. exact R.
Qed.
Lemma hint_facts s2 : length s2 = 512%nat -> Forall (fun t => -12289 < t < 12289) s2 ->
  0 <= hint_epervier 9 s2 < 12289 /\ (unit_mod 512 s2 -> (hint_epervier 9 s2 * product (NTTFW_vectorized (map (fun t => t mod 12289) s2))) mod 12289 = 1) /\ (~ unit_mod 512 s2 -> hint_epervier 9 s2 = 0).
Proof.
  intros L F. assert (S : smallq s2) by (eapply Forall_impl; [|exact F]; intros x Hx; cbv beta in Hx; lia).
  destruct (hint_ok_c 9 s2 ltac:(lia) L S) as (R & A & B). pose proof (unit_iff 9 512 s2 ltac:(lia) eq_refl L) as U.
  assert (LM : length (map (fun t => t mod 12289) s2) = 512%nat) by (rewrite map_length; exact L).
  assert (CM : Forall in_zq (map (fun t => t mod 12289) s2)) by (apply Forall_forall; intros x Hx; apply in_map_iff in Hx; destruct Hx as (t & <- & _); apply Z.mod_pos_bound; lia).
  assert (E : NTTFW_vectorized (map (fun t => t mod 12289) s2) = ntt s2).
  { rewrite <- (C84_same_transform_as_contract _ LM CM), <- (lift_ntt 9 s2 ltac:(lia) L S), (map_lift s2 S). reflexivity. }
  rewrite E. split; [exact R|]. split; [intros X; apply A, U; exact X|]. intros X. apply B. destruct (invertible s2); [exfalso; apply X, U; reflexivity|reflexivity].
Qed.
Lemma inverse_unique p a b : 0 <= a < 12289 -> 0 <= b < 12289 -> (a * p) mod 12289 = 1 -> (b * p) mod 12289 = 1 -> a = b.
Proof.
  intros Ra Rb A B. assert (X1 : (a * (b * p)) mod 12289 = a) by (rewrite <- Z.mul_mod_idemp_r, B, Z.mul_1_r by lia; apply Z.mod_small; exact Ra).
  assert (X2 : (b * (a * p)) mod 12289 = b) by (rewrite <- Z.mul_mod_idemp_r, A, Z.mul_1_r by lia; apply Z.mod_small; exact Rb).
  replace (b * (a * p)) with (a * (b * p)) in X2 by ring. congruence.
Qed.
Definition framed (nonce m e1 e2 : list Z) (hint : Z) : list Z := 8 :: 4 :: nonce ++ m ++ 0x29 :: e1 ++ 0x29 :: e2 ++ [hint / 256; hint mod 256].
Lemma frame_some nonce m s1 s2 e1 e2 : length s1 = 512%nat -> length s2 = 512%nat -> c_comp_encode16 s1 = Some e1 -> c_comp_encode16 s2 = Some e2 -> 0 <= hint_epervier 9 s2 < 12289 ->
  ep_frame nonce m s1 s2 = Some (framed nonce m e1 e2 (hint_epervier 9 s2)).
Proof.
  intros L1 L2 E1 E2 R. unfold ep_frame. rewrite E1, E2. cbv zeta. set (hint := hint_epervier 9 s2) in *. clearbody hint.
  assert (SL : Z.of_nat (length e1 + 1 + length e2 + 1 + 2) = 2052) by (apply encode16_packs in E1; apply encode16_packs in E2; lia). rewrite SL.
  replace (Z.shiftr hint 8 mod 256) with (hint / 256) by (rewrite Z.shiftr_div_pow2 by lia; change (2 ^ 8) with 256; symmetry; apply Z.mod_small; split; [apply Z.div_pos; lia|apply Z.div_lt_upper_bound; lia]).
  clear. unfold framed. f_equal.
Qed.
Lemma frame_none nonce m s1 s2 sm : ep_frame nonce m s1 s2 = Some sm -> (exists e1, c_comp_encode16 s1 = Some e1) /\ exists e2, c_comp_encode16 s2 = Some e2.
Proof. unfold ep_frame. destruct (c_comp_encode16 s1) as [e1|]; [|discriminate]. destruct (c_comp_encode16 s2) as [e2|]; [|discriminate]. intros _. split; eexists; reflexivity. Qed.
(** what the signer writes: the format, the coefficients modulo q on 16 bits, and as hint the inverse of the product of the transform of s2, which is what the contract checks (C59) *)
Theorem C90_signature_format : forall nonce m s1 s2 sm, length nonce = 40%nat -> length s1 = 512%nat -> length s2 = 512%nat ->
  (ep_frame nonce m s1 s2 = Some sm <-> Forall (fun t => -12289 < t < 12289) s1 /\ Forall (fun t => -12289 < t < 12289) s2 /\
   exists e1 e2 hint, ep_message sm nonce m e1 e2 [hint / 256; hint mod 256] /\ nth 0 sm 0 = 8 /\ nth 1 sm 0 = 4 /\
     packs 16 (map (fun t => t mod 12289) s1) e1 /\ packs 16 (map (fun t => t mod 12289) s2) e2 /\ 0 <= hint < 12289 /\
     (unit_mod 512 s2 -> (hint * product (NTTFW_vectorized (map (fun t => t mod 12289) s2))) mod 12289 = 1) /\ (~ unit_mod 512 s2 -> hint = 0)).
Proof.
  intros nonce m s1 s2 sm Ln L1 L2. pose proof (unit_iff 9 512 s2 ltac:(lia) eq_refl L2) as U. split.
  - intros E. destruct (frame_none _ _ _ _ _ E) as ((e1 & E1) & e2 & E2). pose proof (proj1 (encode16_packs _ _) E1) as (F1 & M1 & P1). pose proof (proj1 (encode16_packs _ _) E2) as (F2 & M2 & P2).
    destruct (hint_facts s2 L2 F2) as (R & A & B). rewrite (frame_some nonce m s1 s2 e1 e2 L1 L2 E1 E2 R) in E. apply Some_inj in E. subst sm. set (hint := hint_epervier 9 s2) in *. clearbody hint.
    split; [exact F1|]. split; [exact F2|]. exists e1, e2, hint. split; [exists 8, 4; split; [reflexivity|]; split; [exact Ln|]; split; [lia|]; split; [lia|reflexivity]|].
    split; [reflexivity|]. split; [reflexivity|]. split; [exact P1|]. split; [exact P2|]. split; [exact R|]. split; [exact A|exact B].
  - intros (F1 & F2 & e1 & e2 & hint & (hi & lo & Esm & _ & M1 & M2 & EL) & H0 & H1 & P1 & P2 & R & A & B). rewrite Esm in H0, H1. cbn [nth] in H0, H1. subst hi lo.
    assert (E1 : c_comp_encode16 s1 = Some e1) by (apply encode16_packs; split; [exact F1|]; split; [lia|exact P1]). assert (E2 : c_comp_encode16 s2 = Some e2) by (apply encode16_packs; split; [exact F2|]; split; [lia|exact P2]).
    destruct (hint_facts s2 L2 F2) as (R' & A' & B'). rewrite (frame_some nonce m s1 s2 e1 e2 L1 L2 E1 E2 R'). rewrite Esm. clear E1 E2 Esm EL.
    assert (DU : unit_mod 512 s2 \/ ~ unit_mod 512 s2) by (clear -U; destruct (invertible s2); [left; apply U; reflexivity|right; intros X; apply U in X; discriminate X]).
    assert (EH : hint_epervier 9 s2 = hint) by (destruct DU as [X|X]; [exact (inverse_unique _ _ _ R' R (A' X) (A X))|rewrite (B X), (B' X); reflexivity]). rewrite EH. reflexivity.
Qed.
Print Assumptions C90_signature_format.
(** when sign_dyn gives short preimages with coefficients that the format can hold, the signed message is opened with the key h *)
Theorem C90_sign_then_open : forall hf fuel sign_dyn nonce m sk f g F G h pk sm, Forall (fun b => 0 <= b < 256) nonce -> length nonce = 40%nat -> Forall (fun b => 0 <= b < 256) m -> Forall (fun b => 0 <= b < 256) pk ->
  point h -> public_key16 pk (NTTFW_vectorized h) -> decode_sk sk = CRet (f, g, F, G) ->
  (forall c i s1 s2, shake_point hf (nonce ++ m) c -> sign_dyn (f, g, F, G) c i = (s1, s2) -> length s1 = 512%nat /\ length s2 = 512%nat /\ Forall (fun t => -10242 <= t <= 2046) s1 /\ Forall (fun t => -10242 <= t <= 2046) s2 /\
     preimage 512 h c s1 s2 /\ sqnorm s1 + sqnorm s2 <= 34034726) ->
  zknox_crypto_sign_epervier (fun r x => c_hash_shake hf 9 [r; x]) sign_dyn fuel nonce m sk = CRet sm ->
  Forall (fun b => 0 <= b < 256) sm /\ length sm = (2094 + length m)%nat /\ zknox_crypto_sign_open_epervier (shake_hash hf) sm pk = CRet m.
Proof.
  intros hf fuel sign_dyn nonce m sk f g F G h pk sm Bn Ln Bm Hpk Ph PK EK HS E. unfold zknox_crypto_sign_epervier in E. rewrite EK in E.
  destruct (c_hash_shake hf 9 [nonce; m]) as [c|] eqn:EH; [|discriminate E].
  assert (EH2 : shake_hash hf (nonce ++ m) = Some c).
  { apply shake_hash_iff; [apply bytes_app; auto|]. apply c_hash_shake_iff in EH; [|constructor; [exact Bn|constructor; [exact Bm|constructor]]]. cbn [concat] in EH. rewrite app_nil_r in EH. exact EH. }
  assert (Pc : point c) by (apply (shake_hash_point hf (nonce ++ m)); [apply bytes_app; auto|exact EH2]).
  pose proof (proj1 (shake_hash_iff hf (nonce ++ m) c (proj2 (bytes_app nonce m) (conj Bn Bm))) EH2) as SP.
  destruct (ep_attempts fuel 0 (sign_dyn (f, g, F, G) c)) as [[s1 s2]|] eqn:EA; [|discriminate E]. destruct (ep_frame nonce m s1 s2) as [sm'|] eqn:EF; [|discriminate E]. assert (sm' = sm) by congruence. subst sm'.
  apply C90_first_invertible in EA.
  2: { intros i. destruct (sign_dyn (f, g, F, G) c i) as [t1 t2] eqn:ET. cbn [snd]. destruct (HS c i t1 t2 SP ET) as (_ & L2 & _ & R2 & _). split; [exact L2|]. eapply Forall_impl; [|exact R2]. intros x Hx. cbv beta in Hx. lia. }
  destruct EA as (i & _ & Es & U2 & _). destruct (HS c i s1 s2 SP Es) as (L1 & L2 & R1 & R2 & P & N).
  pose proof EF as EF'. apply C90_signature_format in EF; [|exact Ln|exact L1|exact L2]. destruct EF as (_ & _ & e1 & e2 & hint & SM & _ & _ & P1 & P2 & RH & _).
  assert (Bsm : bytes sm).
  { destruct SM as (hi & lo & -> & _ & M1 & M2 & EL). unfold ep_frame in EF'. destruct (c_comp_encode16 s1) as [x1|]; [|discriminate EF']. destruct (c_comp_encode16 s2) as [x2|]; [|discriminate EF']. cbv zeta in EF'.
    apply Some_inj in EF'. cbn [app] in EF'. apply cons_inj in EF'. destruct EF' as [Ehi EF']. apply cons_inj in EF'. destruct EF' as [Elo _]. cbn [length] in EL.
    constructor; [rewrite <- Ehi; apply Z.mod_pos_bound; lia|]. constructor; [rewrite <- Elo; apply Z.mod_pos_bound; lia|]. apply bytes_app. split; [exact Bn|]. apply bytes_app. split; [exact Bm|].
    constructor; [unfold is_byte; lia|]. apply bytes_app. split; [apply P1|]. constructor; [unfold is_byte; lia|]. apply bytes_app. split; [apply P2|].
    constructor; [unfold is_byte; split; [apply Z.div_pos; lia|apply Z.div_lt_upper_bound; lia]|]. constructor; [apply Z.mod_pos_bound; lia|constructor]. }
  assert (LS : length sm = (2094 + length m)%nat).
  { destruct SM as (hi & lo & -> & _ & M1 & M2 & _). cbn [length]. rewrite !app_length. cbn [length]. rewrite app_length. cbn [length]. rewrite app_length, Ln, M1, M2. cbn [length]. lia. }
  split; [exact Bsm|]. split; [exact LS|]. apply (ep_hash_ext (shake_hash hf) sm pk m Bsm Hpk (shake_hash_point hf)).
  exists nonce, e1, e2, [hint / 256; hint mod 256], s1, s2, h, c. split; [exact SM|].
  assert (W : forall v e, length v = 512%nat -> Forall (fun t => -10242 <= t <= 2046) v -> packs 16 (map (fun t => t mod 12289) v) e -> length e = Z.to_nat 1024 -> words16 v e).
  { intros v e L R Q LE. apply packs_words; [exact L|exact R|]. apply encode16_packs. split; [eapply Forall_impl; [|exact R]; intros x Hx; cbv beta in Hx; lia|]. split; [lia|exact Q]. }
  destruct SM as (hi & lo & _ & _ & M1 & M2 & _). split; [exact (W s1 e1 L1 R1 P1 M1)|]. split; [exact (W s2 e2 L2 R2 P2 M2)|]. split; [exact Ph|]. split; [exact PK|]. split; [exact EH2|]. split; [exact U2|]. split; [exact P|exact N].
Qed.
Print Assumptions C90_sign_then_open.

(** ** zknox_pk_epervier *)
Theorem C90_pk_iff : forall pk pk', Forall (fun b => 0 <= b < 256) pk ->
  (zknox_pk_epervier pk = CRet pk' <-> exists h body body' rest, point h /\ pk = 9 :: body ++ rest /\ pk' = 9 :: body' ++ rest /\ length body = Z.to_nat 1024 /\ length body' = Z.to_nat 1024 /\
     packs 16 h body /\ packs 16 (NTTFW_vectorized h) body').
Proof.
  intros pk pk' Hb. unfold zknox_pk_epervier.
  assert (T : forall h, point h -> mq_NTT 9 h = NTTFW_vectorized h /\ length (mq_NTT 9 h) = 512%nat /\ Forall in_zq (mq_NTT 9 h) /\ Forall (fun c => 0 <= c) (mq_NTT 9 h)).
  { intros h [L C]. split; [exact (C84_same_transform_as_contract h L C)|]. destruct (mq_NTT_canon 9 h ltac:(lia) (conj L C)) as [A B]. split; [exact A|]. split; [exact B|]. eapply Forall_impl; [|exact B]. intros x Hx. apply Hx. }
  split.
  - destruct pk as [|p0 d]; [discriminate|]. destruct (bytes_cons _ _ Hb) as [_ Bd]. destruct (Z.eqb_spec p0 9) as [->|]; [|discriminate]. cbn [negb].
    destruct (c_modq_decode16 9 (Z.to_nat 1024) d) as [h used| |] eqn:ED; try discriminate. apply pk16 in ED; [|exact Bd]. destruct ED as (-> & Ph & body & rest & E & LB & P). apply cons_inj in E. destruct E as [_ ->].
    rewrite Nat.eqb_refl. cbn [negb]. destruct (T h Ph) as (ET & LT & CT & NT). destruct (c_modq_encode16 (Z.to_nat 1024) (mq_NTT 9 h)) as [e|] eqn:EE; [|discriminate].
    apply pack16 in EE; [|exact LT|exact NT]. destruct EE as ((_ & body' & rest' & E & LB' & P') & LE). apply cons_inj in E. destruct E as [_ E].
    assert (rest' = []) by (apply (f_equal (@length _)) in E; rewrite app_length in E; destruct rest'; [reflexivity|cbn [length] in E; lia]). subst rest'. rewrite app_nil_r in E. subst e.
    rewrite (skip_app body rest _ LB). intros E. assert (pk' = 9 :: body' ++ rest) by congruence. exists h, body, body', rest. rewrite <- ET. repeat (split; [first [assumption|reflexivity]|]). assumption.
  - intros (h & body & body' & rest & Ph & -> & -> & LB & LB' & P & P'). destruct (bytes_cons _ _ Hb) as [_ Bd]. change (negb (9 =? 9)) with false. cbv iota.
    rewrite (proj2 (pk16 (body ++ rest) h (Z.to_nat 1024) Bd)) by (split; [reflexivity|]; split; [exact Ph|]; exists body, rest; split; [reflexivity|]; split; [exact LB|exact P]).
    rewrite Nat.eqb_refl. cbn [negb]. destruct (T h Ph) as (ET & LT & CT & NT). rewrite (proj2 (pack16 (mq_NTT 9 h) body' LT NT)).
    + rewrite (skip_app body rest _ LB). reflexivity.
    + split; [|exact LB']. split; [split; assumption|]. exists body', []. rewrite app_nil_r. split; [reflexivity|]. split; [exact LB'|]. rewrite ET. exact P'.
Qed.
Print Assumptions C90_pk_iff.
(** ** The keys of the KAT generator *)
(** KAT/PQCgenKAT_sign_epervier_zknox.c calls zknox_crypto_sign_keypair, which already writes the transform of h, then zknox_pk_epervier. A message that opens with the key of h opens with that one only if h is its own transform. *)
Theorem C90_kat_key_refuses : forall fuel f g F h pk sk pk' sm m, Forall (fun x => -128 <= x < 128) f -> Forall (fun x => -128 <= x < 128) g -> Forall (fun x => -128 <= x < 128) F ->
  length f = 512%nat -> length g = 512%nat -> length F = 512%nat -> point h -> Forall (fun b => 0 <= b < 256) sm ->
  zknox_keypair_frame f g F h = Some (pk, sk) -> zknox_pk_epervier pk = CRet pk' ->
  zknox_crypto_sign_open_epervier (shake_hash fuel) sm pk = CRet m -> NTTFW_vectorized h <> h -> forall m', zknox_crypto_sign_open_epervier (shake_hash fuel) sm pk' <> CRet m'.
Proof.
  intros fuel f g F h pk sk pk' sm m If Ig IF Lf Lg LF Ph Hsm EK EP EO NF m' EO'.
  pose proof (proj1 (C89_zknox_keypair f g F h pk sk Lf Lg LF If Ig IF Ph) EK) as (_ & _ & PK & LP).
  assert (ET : ntt h = NTTFW_vectorized h) by (rewrite <- (C84_same_transform_as_contract h (proj1 Ph) (proj2 Ph)); symmetry; apply (mq_NTT_ntt 9 h ltac:(lia)); exact Ph). rewrite ET in PK.
  assert (Bpk : bytes pk).
  { destruct PK as (_ & body & rest & -> & LB & PB). cbn [length] in LP. rewrite app_length in LP. assert (rest = []) by (destruct rest; [reflexivity|cbn [length] in LP; lia]). subst rest.
    constructor; [unfold is_byte; lia|]. rewrite app_nil_r. apply PB. }
  pose proof (proj1 (C90_pk_iff pk pk' Bpk) EP) as (hN & body & body' & rest & PhN & E1 & E2 & LB & LB' & P & P').
  assert (PKN : public_key16 pk hN) by (split; [exact PhN|]; exists body, rest; split; [exact E1|]; split; [exact LB|exact P]). pose proof (pk16_unique pk _ _ Bpk PK PKN) as EN. subst hN.
  assert (PhNN : point (NTTFW_vectorized (NTTFW_vectorized h))) by (destruct (C51_canonical (NTTFW_vectorized h) (proj1 PhN)) as (A & B & _); split; assumption).
  assert (PK' : public_key16 pk' (NTTFW_vectorized (NTTFW_vectorized h))) by (split; [exact PhNN|]; exists body', rest; split; [exact E2|]; split; [exact LB'|exact P']).
  assert (Bpk' : bytes pk').
  { rewrite E2. constructor; [unfold is_byte; lia|]. apply bytes_app. split; [apply P'|]. rewrite E1 in Bpk. destruct (bytes_cons _ _ Bpk) as [_ B]. apply bytes_app in B. apply B. }
  apply (ep_hash_ext (shake_hash fuel) sm pk m Hsm Bpk (shake_hash_point fuel)) in EO. destruct EO as (nonce & e1 & e2 & r0 & s1 & s2 & h1 & c & SM & W1 & W2 & Ph1 & PK1 & EH & U & PI & _).
  apply (ep_hash_ext (shake_hash fuel) sm pk' m' Hsm Bpk' (shake_hash_point fuel)) in EO'. destruct EO' as (nonce' & e1' & e2' & r0' & s1' & s2' & h2 & c' & SM' & W1' & W2' & Ph2 & PK2 & EH' & U' & PI' & _).
  destruct (ep_message_parts _ _ _ _ _ _ _ _ _ _ _ SM SM') as (-> & -> & -> & -> & _). destruct (ep_bytes _ _ _ _ _ _ Hsm SM) as (_ & _ & B1 & B2 & _).
  pose proof (words16_unique _ _ _ B1 W1 W1'). pose proof (words16_unique _ _ _ B2 W2 W2'). subst s1' s2'. assert (c' = c) by congruence. subst c'.
  pose proof (pk16_unique pk _ _ Bpk PK PK1) as Q1. pose proof (pk16_unique pk' _ _ Bpk' PK' PK2) as Q2.
  apply C51_injective in Q1; [|apply Ph1|apply Ph|apply Ph1|apply Ph]. apply C51_injective in Q2; [|apply Ph2|apply PhN|apply Ph2|apply PhN]. subst h1 h2.
  apply NF. exact (recovered_unique 512 c s1 s2 _ _ ltac:(lia) (proj1 PhN) (proj1 Ph) (proj2 PhN) (proj2 Ph) PI' PI U).
Qed.
Print Assumptions C90_kat_key_refuses.

(** ** Examples *)
(** one of h and h - 1 is not its own transform *)
Lemma not_both x y t : length t = 511%nat -> (x - y - 1) mod 12289 = 0 -> NTTFW_vectorized (x :: t) = x :: t -> NTTFW_vectorized (y :: t) = y :: t -> False.
Proof.
  intros L D E1 E2. assert (LX : forall z, length (z :: t) = 512%nat) by (intros z; cbn [length]; rewrite L; reflexivity).
  pose proof (C50_ntt_evaluates (x :: t) 1 (LX x) ltac:(lia)) as A. pose proof (C50_ntt_evaluates (y :: t) 1 (LX y) ltac:(lia)) as B. rewrite E1 in A. rewrite E2 in B. cbn [nth] in A, B. rewrite A in B. clear A E1 E2.
  assert (SH : forall z r, sum_to 512 (fun j => coef (z :: t) j * r ^ Z.of_nat j) = z + sum_to 511 (fun j => coef t j * r ^ Z.of_nat (S j))) by (intros z r; change 512%nat with (S 511); rewrite (sum_to_shift 511); unfold coef; f_equal; cbn [nth]; rewrite Z.pow_0_r; ring).
  rewrite !SH in B. clear SH. set (S0 := sum_to 511 _) in *. clearbody S0.
  pose proof (Z.div_mod (x + S0) 12289 ltac:(lia)). pose proof (Z.div_mod (y + S0) 12289 ltac:(lia)). pose proof (Z.div_mod (x - y - 1) 12289 ltac:(lia)). lia.
Qed.
Lemma zeros_words : words16 (repeat 0 512) (repeat 0 (Z.to_nat 1024)).
Proof.
  split; [apply repeat_length|]. split; [apply repeat_length|]. exists (repeat 0 512). split.
  - generalize 512%nat. intros n. induction n as [|n IH]; cbn [repeat]; constructor; [|exact IH]. left. lia.
  - split; [apply Forall_forall; intros x Hx; apply repeat_spec in Hx; subst; unfold is_byte; lia|]. exists 0%nat. split; [lia|]. vm_compute. reflexivity.
Qed.
Lemma ones_words : exists e, words16 one e.
Proof.
  assert (R : Forall (fun t => -10242 <= t <= 2046) one) by (unfold one, pconst; constructor; [lia|]; apply Forall_forall; intros x Hx; apply repeat_spec in Hx; lia).
  destruct (c_comp_encode16 one) as [e|] eqn:E; [|vm_compute in E; discriminate E]. exists e. apply packs_words; [reflexivity|exact R|exact E].
Qed.
Lemma ep_build fuel nonce m c h s1 e1 : bytes nonce -> length nonce = 40%nat -> bytes m -> shake_hash fuel (nonce ++ m) = Some c -> point h -> words16 s1 e1 -> preimage 512 h c s1 one -> sqnorm s1 + sqnorm one <= 34034726 ->
  exists sm, bytes sm /\ forall pk, bytes pk -> public_key16 pk (NTTFW_vectorized h) -> zknox_crypto_sign_open_epervier (shake_hash fuel) sm pk = CRet m.
Proof.
  intros Bn Ln Bm EH Ph W1 PI N. destruct ones_words as (e2 & W2). pose proof W1 as (_ & L1 & ws1 & _ & P1). pose proof W2 as (_ & L2 & ws2 & _ & P2).
  set (sm := 8 :: 2 :: nonce ++ m ++ 0x29 :: e1 ++ 0x29 :: e2 ++ []). assert (SM : ep_message sm nonce m e1 e2 []) by (exists 8, 2; split; [reflexivity|]; split; [exact Ln|]; split; [exact L1|]; split; [exact L2|reflexivity]).
  assert (Bsm : bytes sm).
  { constructor; [unfold is_byte; lia|]. constructor; [unfold is_byte; lia|]. apply bytes_app. split; [exact Bn|]. apply bytes_app. split; [exact Bm|]. constructor; [unfold is_byte; lia|].
    apply bytes_app. split; [apply P1|]. constructor; [unfold is_byte; lia|]. apply bytes_app. split; [apply P2|constructor]. }
  exists sm. split; [exact Bsm|]. intros pk Bpk PK. apply (ep_hash_ext (shake_hash fuel) sm pk m Bsm Bpk (shake_hash_point fuel)). exists nonce, e1, e2, [], s1, one, h, c.
  split; [exact SM|]. split; [exact W1|]. split; [exact W2|]. split; [exact Ph|]. split; [exact PK|]. split; [exact EH|]. split; [exact unit_one|]. split; [exact PI|exact N].
Qed.
Lemma kat_keys h : point h -> exists pk sk pk', zknox_keypair_frame kf kg kF h = Some (pk, sk) /\ zknox_pk_epervier pk = CRet pk' /\ bytes pk /\ public_key16 pk (NTTFW_vectorized h).
Proof.
  intros Ph. assert (PT : forall x, point x -> point (NTTFW_vectorized x)) by (intros x Px; destruct (C51_canonical x (proj1 Px)) as (A & B & _); split; assumption).
  assert (PB : forall x, point x -> exists b, length b = Z.to_nat 1024 /\ packs 16 x b).
  { intros x Px. assert (NN : Forall (fun c => 0 <= c) x) by (eapply Forall_impl; [|exact (proj2 Px)]; intros z Hz; apply Hz).
    assert (F16 : Forall (fun t => -12289 < t < 12289) x) by (eapply Forall_impl; [|exact (proj2 Px)]; intros z Hz; unfold in_zq in Hz; lia).
    destruct (c_comp_encode16 x) as [b|] eqn:E.
    - apply encode16_packs in E. destruct E as (_ & L & P). exists b. split; [rewrite (proj1 Px) in L; lia|]. rewrite (map_ext_in _ (fun t => t)), map_id in P; [exact P|].
      intros z Hz. apply Z.mod_small. pose proof (proj2 Px) as C. rewrite Forall_forall in C. exact (C z Hz).
    - exfalso. unfold c_comp_encode16 in E. destruct (existsb _ x) eqn:EX; [|discriminate E]. apply existsb_exists in EX. destruct EX as (t & I & B). rewrite Forall_forall in F16. specialize (F16 t I). lia. }
  destruct (PB _ (PT _ Ph)) as (b1 & L1 & P1). destruct (PB _ (PT _ (PT _ Ph))) as (b2 & L2 & P2).
  destruct C89_nontrivial as (sk & ES & LS & _). exists (9 :: b1), sk, (9 :: b2).
  assert (PK : public_key16 (9 :: b1) (NTTFW_vectorized h)) by (split; [exact (PT _ Ph)|]; exists b1, []; rewrite app_nil_r; split; [reflexivity|]; split; [exact L1|exact P1]).
  assert (Bpk : bytes (9 :: b1)) by (constructor; [unfold is_byte; lia|apply P1]).
  assert (ET : ntt h = NTTFW_vectorized h) by (rewrite <- (C84_same_transform_as_contract h (proj1 Ph) (proj2 Ph)); symmetry; apply (mq_NTT_ntt 9 h ltac:(lia)); exact Ph).
  assert (R : forall a b, -128 <= a < 128 -> -128 <= b < 128 -> Forall (fun x => -128 <= x < 128) (gi 256 a b)) by (intros a b Ha Hb; apply gi_Forall; lia).
  assert (Rf := R 31 30 ltac:(lia) ltac:(lia)). assert (Rg := R (-31) (-31) ltac:(lia) ltac:(lia)). assert (RF := R 108 (-118) ltac:(lia) ltac:(lia)).
  split; [|split; [|split; [exact Bpk|exact PK]]].
  - apply C89_zknox_keypair; [apply gi_length|apply gi_length|apply gi_length|exact Rf|exact Rg|exact RF|exact Ph|]. rewrite ET.
    split; [|split; [exact LS|split; [exact PK|cbn [length]; lia]]]. apply (C89_encode_iff kf kg kF sk (gi_length 256 31 30) (gi_length 256 (-31) (-31)) (gi_length 256 108 (-118)) Rf Rg RF). exact ES.
  - apply C90_pk_iff; [exact Bpk|]. exists (NTTFW_vectorized h), b1, b2, []. rewrite !app_nil_r. split; [exact (PT _ Ph)|]. split; [reflexivity|]. split; [reflexivity|]. split; [exact L1|]. split; [exact L2|]. split; [exact P1|exact P2].
Qed.
(** For every hashed message there is a key pair, of which zknox_crypto_sign_keypair writes the transform, and a message that opens with it and not with the key of the KAT generator *)
Theorem C90_kat_key_refuted : forall fuel nonce m c, Forall (fun b => 0 <= b < 256) nonce -> length nonce = 40%nat -> Forall (fun b => 0 <= b < 256) m -> shake_point fuel (nonce ++ m) c ->
  exists h pk sk pk' sm, point h /\ zknox_keypair_frame kf kg kF h = Some (pk, sk) /\ zknox_pk_epervier pk = CRet pk' /\ Forall (fun b => 0 <= b < 256) sm /\
    zknox_crypto_sign_open_epervier (shake_hash fuel) sm pk = CRet m /\ forall m', zknox_crypto_sign_open_epervier (shake_hash fuel) sm pk' <> CRet m'.
Proof.
  intros fuel nonce m c Bn Ln Bm SP. assert (Bnm : bytes (nonce ++ m)) by (apply bytes_app; auto). pose proof (proj2 (shake_hash_iff fuel (nonce ++ m) c Bnm) SP) as EH.
  pose proof (shake_hash_point fuel _ c Bnm EH) as Pc. destruct Pc as [Lc Cc].
  assert (K : forall h s1 e1, point h -> words16 s1 e1 -> preimage 512 h c s1 one -> sqnorm s1 + sqnorm one <= 34034726 -> NTTFW_vectorized h <> h ->
    exists h pk sk pk' sm, point h /\ zknox_keypair_frame kf kg kF h = Some (pk, sk) /\ zknox_pk_epervier pk = CRet pk' /\ Forall (fun b => 0 <= b < 256) sm /\
    zknox_crypto_sign_open_epervier (shake_hash fuel) sm pk = CRet m /\ forall m', zknox_crypto_sign_open_epervier (shake_hash fuel) sm pk' <> CRet m').
  { intros h s1 e1 Ph W1 PI N NF. destruct (ep_build fuel nonce m c h s1 e1 Bn Ln Bm EH Ph W1 PI N) as (sm & Bsm & HO). destruct (kat_keys h Ph) as (pk & sk & pk' & EK & EP & Bpk & PK).
    exists h, pk, sk, pk', sm. split; [exact Ph|]. split; [exact EK|]. split; [exact EP|]. split; [exact Bsm|]. pose proof (HO pk Bpk PK) as O. split; [exact O|].
    apply (C90_kat_key_refuses fuel kf kg kF h pk sk pk' sm m); try assumption; [apply gi_Forall; lia|apply gi_Forall; lia|apply gi_Forall; lia|apply gi_length|apply gi_length|apply gi_length]. }
  destruct (list_eq_dec Z.eq_dec (NTTFW_vectorized c) c) as [EQ|NE].
  2: { apply (K c (repeat 0 512) (repeat 0 (Z.to_nat 1024))); [split; assumption|exact zeros_words|exact (preimage_one c c (repeat 0 512) Lc (repeat_length _ _) (pcong_zero_add c Lc))|vm_compute; discriminate|exact NE]. }
  destruct c as [|x t]; [discriminate Lc|]. assert (Lt : length t = 511%nat) by (cbn [length] in Lc; lia). set (y := (x - 1) mod 12289). destruct ones_words as (e1 & W1).
  apply (K (y :: t) one e1); [|exact W1| |vm_compute; discriminate|].
  - split; [cbn [length]; rewrite Lt; reflexivity|]. inversion Cc; subst. constructor; [apply Z.mod_pos_bound; lia|assumption].
  - apply preimage_one; [cbn [length]; rewrite Lt; reflexivity|reflexivity|]. intros i Hi. unfold padd, coef. rewrite nth_map_seq by exact Hi. unfold one, pconst. destruct i as [|i]; cbn [nth].
    + unfold y. exists (- ((x - 1) / 12289)). pose proof (Z.div_mod (x - 1) 12289 ltac:(lia)). lia.
    + rewrite nth_repeat. exists 0. lia.
  - intros E2. apply (not_both x y t Lt); [|exact EQ|exact E2]. unfold y. rewrite <- Zminus_mod_idemp_l, Zminus_mod_idemp_r, Zminus_mod_idemp_l. replace (x - (x - 1) - 1) with 0 by ring. reflexivity.
Qed.
Print Assumptions C90_kat_key_refuted.
Example C90_nontrivial : exists c, shake_point 700 (repeat 7 40 ++ [1; 2; 3]) c.
Proof.
  destruct C85_nontrivial as (c & E). exists c. apply shake_hash_iff in E; [exact E|]. apply bytes_app. split; [apply Forall_forall; intros x Hx; apply repeat_spec in Hx; subst; unfold is_byte; lia|].
  repeat constructor; unfold is_byte; lia.
Qed.
