(** C85-C88: the C verifiers, the Go wrapper and the precompile. *)
From Verif Require Import Base KeccakModel KeccakSpec PrngModel PrngSpec HashModel HashSpec HashProofs CodecModel CodecSpec CodecProofs EncodingModel EncodingSpec EncodingProofs RingSpec FalconSpec FalconModel FalconProofs
  NttModel NttInst NttApi SolModel ChainExtra CTables CModel CNttProofs CCodecProofs CHashProofs COpenSpec Props_CCodec COpenProofs COpen16Proofs.

(** * C85: crypto_sign_open with SHAKE256 *)
Definition shake_hash (fuel : nat) (x : list Z) : option (list Z) := c_hash_shake fuel 9 [x].
Lemma first_accepted_point w N v : first_accepted w 512 N v -> point v.
Proof. intros (E & L & _). split; [exact L|]. rewrite E. apply accepted_range. Qed.
Lemma shake_hash_iff fuel x c : bytes x -> (shake_hash fuel x = Some c <-> exists N, first_accepted (word16 (shake256_byte x)) 512 N c /\ (N <= fuel)%nat).
Proof. intros Hx. unfold shake_hash. rewrite c_hash_shake_iff by (constructor; [exact Hx|constructor]). cbn [concat]. rewrite app_nil_r. reflexivity. Qed.
Lemma open_hash_ext h1 sm pk m : bytes sm -> bytes pk ->
  (forall x c, bytes x -> h1 x = Some c -> point c) ->
  (crypto_sign_open h1 sm pk = CRet m <->
   exists nonce enc s2 h c s1, signed_message sm nonce m enc /\ compressed s2 enc /\ public_key14 pk h /\ h1 (nonce ++ m) = Some c /\ preimage 512 h c s1 s2 /\ sqnorm s1 + sqnorm s2 <= 34034726).
Proof.
  intros Hsm Hpk HP. set (h2 := fun x => if Forall_dec is_byte (fun b => match Z_le_dec 0 b, Z_lt_dec b 256 with left A, left B => left (conj A B) | right A, _ => right (fun H => A (proj1 H)) | _, right B => right (fun H => B (proj2 H)) end) x then h1 x else None).
  assert (E2 : forall x, bytes x -> h2 x = h1 x) by (intros x Hx; unfold h2; destruct (Forall_dec _ _ x) as [|N]; [reflexivity|contradiction]).
  assert (P2 : forall x c, h2 x = Some c -> point c) by (intros x c E; unfold h2 in E; destruct (Forall_dec _ _ x) as [B|]; [exact (HP x c B E)|discriminate E]).
  assert (EO : crypto_sign_open h1 sm pk = crypto_sign_open h2 sm pk).
  { unfold crypto_sign_open. rewrite !sign_open_core. destruct pk as [|p0 pk']; [reflexivity|]. destruct (negb (p0 =? 9)); [reflexivity|]. destruct (c_modq_decode 9 (897 - 1) pk') as [h used| |]; try reflexivity.
    destruct (negb _); [reflexivity|]. unfold open_core. cbv zeta. rewrite E2; [reflexivity|]. unfold slice. apply bytes_firstn, bytes_skipn. exact Hsm. }
  rewrite EO, (open14_iff h2 sm pk m P2 Hsm Hpk). split; intros (nonce & enc & s2 & h & c & s1 & SM & R); exists nonce, enc, s2, h, c, s1;
    (split; [exact SM|]); destruct (signed_bytes _ _ _ _ Hsm SM) as (Bn & Bm & _); rewrite E2 in * by (apply bytes_app; auto); exact R.
Qed.
(** a signed message is opened iff it has the format, and its signature is a short preimage of the hash of nonce and message *)
Theorem C85_open_iff : forall fuel sm pk m, bytes sm -> bytes pk ->
  (crypto_sign_open (shake_hash fuel) sm pk = CRet m <->
   exists nonce enc s2 h c s1 N, signed_message sm nonce m enc /\ compressed s2 enc /\ public_key14 pk h /\
     first_accepted (word16 (shake256_byte (nonce ++ m))) 512 N c /\ (N <= fuel)%nat /\
     preimage 512 h c s1 s2 /\ sqnorm s1 + sqnorm s2 <= 34034726).
Proof.
  intros fuel sm pk m Hsm Hpk. rewrite (open_hash_ext (shake_hash fuel) sm pk m Hsm Hpk).
  - split.
    + intros (nonce & enc & s2 & h & c & s1 & SM & CS & PK & EH & R). destruct (signed_bytes _ _ _ _ Hsm SM) as (Bn & Bm & _). apply shake_hash_iff in EH; [|apply bytes_app; auto].
      destruct EH as (N & F & B). exists nonce, enc, s2, h, c, s1, N. repeat (split; [assumption|]). exact R.
    + intros (nonce & enc & s2 & h & c & s1 & N & SM & CS & PK & F & B & R). destruct (signed_bytes _ _ _ _ Hsm SM) as (Bn & Bm & _). exists nonce, enc, s2, h, c, s1.
      repeat (split; [assumption|]). split; [apply shake_hash_iff; [apply bytes_app; auto|exists N; auto]|exact R].
  - intros x c Hx E. apply shake_hash_iff in E; [|exact Hx]. destruct E as (N & F & _). exact (first_accepted_point _ _ _ F).
Qed.
Print Assumptions C85_open_iff.
(** format and coefficients determine the bytes: a signed message cannot be altered without changing nonce, message or coefficients *)
Theorem C85_unique : forall sm sm' nonce m enc enc' s2, bytes sm -> bytes sm' ->
  signed_message sm nonce m enc -> compressed s2 enc -> signed_message sm' nonce m enc' -> compressed s2 enc' -> sm = sm'.
Proof.
  intros sm sm' nonce m enc enc' s2 Hb Hb' SM CS SM' CS'. destruct (signed_bytes _ _ _ _ Hb SM) as (_ & _ & Be). destruct (signed_bytes _ _ _ _ Hb' SM') as (_ & _ & Be').
  pose proof (c_encoding_unique s2 enc enc' (proj2 (proj2 (compressed_enc _ _ Be CS))) (proj2 (proj2 (compressed_enc _ _ Be' CS')))). subst enc'.
  destruct SM as (hi & lo & -> & _ & E). destruct SM' as (hi' & lo' & -> & _ & E'). destruct (bytes_cons _ _ Hb) as [A B]. destruct (bytes_cons _ _ B) as [C _].
  destruct (bytes_cons _ _ Hb') as [A' B']. destruct (bytes_cons _ _ B') as [C' _]. unfold is_byte in *. assert (hi = hi' /\ lo = lo') as [-> ->] by lia. reflexivity.
Qed.
Print Assumptions C85_unique.
(** with a public key of 897 bytes the call never leaves its buffers *)
Theorem C85_no_undefined : forall hash sm pk, bytes pk -> (897 <= length pk)%nat -> crypto_sign_open hash sm pk <> CUndef.
Proof. exact open14_no_undef. Qed.
Print Assumptions C85_no_undefined.
(** with a shorter one it can *)
Theorem C85_short_key_refuted : forall hash sm k, (k < 896)%nat -> crypto_sign_open hash sm (9 :: repeat 0 k) = CUndef.
Proof.
  intros hash sm k Hk. unfold crypto_sign_open. rewrite sign_open_core. change (negb (9 =? 9)) with false. cbv iota. change (897 - 1)%nat with 896%nat.
  unfold c_modq_decode, cfixed. cbv zeta. fold (ceil8 (2 ^ 9 * 14)). change (ceil8 (2 ^ 9 * 14)) with 896%nat. change (896 <? 896)%nat with false. cbv iota.
  assert (G : forall k todo l x, (8 * k + l < 14 * todo)%nat -> (l < 14)%nat -> cfixed_loop 14 modq_conv todo (repeat 0 k) 0 l x = Beyond).
  { clear. induction k as [|k IH]; intros todo l x H L; (destruct todo as [|todo]; [lia|]); cbn [repeat cfixed_loop]; [reflexivity|]. cbv zeta.
    change (Z.lor (u32 (Z.shiftl 0 8)) 0) with 0. destruct (Nat.leb_spec 14 (l + 8)).
    - rewrite Z.shiftr_0_l, Z.land_0_l. change (modq_conv 0) with (Some 0). cbv iota. apply IH; lia.
    - apply IH; lia. }
  rewrite G; [reflexivity|change (2 ^ 9)%nat with 512%nat; lia|lia].
Qed.
Print Assumptions C85_short_key_refuted.

(** ** Python *)
Lemma hash_python fuel nonce m c : bytes nonce -> bytes m -> (shake_hash fuel (nonce ++ m) = Some c <-> hash_to_point fuel 512 m nonce SHAKE = Fin (Ok c)).
Proof. intros Bn Bm. rewrite shake_hash_iff by (apply bytes_app; auto). symmetry. apply SHAKE_h2p; assumption. Qed.
Lemma head_split (header : Z) nonce enc : length nonce = 40%nat -> slice 1 41 (header :: nonce ++ enc) = nonce /\ skipn 41 (header :: nonce ++ enc) = enc.
Proof.
  intros L. split.
  - change (header :: nonce ++ enc) with ([header] ++ nonce ++ enc). apply slice_mid; [reflexivity|cbn [length]; lia].
  - change (skipn 41 (header :: nonce ++ enc)) with (skipn 40 (nonce ++ enc)). apply skipn_app_exact. symmetry. exact L.
Qed.
Lemma python_pub h P : PublicKey 512 h = Ok P -> pk_len P = Z.to_nat 666 /\ pk_bound P = 34034726.
Proof.
  intros E. assert (E2 : PublicKey 512 h = Ok {| pk_n := 512; pk_h := h; pk_bound := 34034726; pk_len := Z.to_nat 666 |}) by reflexivity. rewrite E2 in E. apply Ok_inj in E. rewrite <- E. split; reflexivity.
Qed.
(** what C opens, the Python verifier accepts, when the compressed signature fits in its 625 bytes *)
Theorem C85_python_accepts : forall fuel sm pk h P nonce m enc header, bytes sm -> bytes pk -> PublicKey 512 h = Ok P -> public_key14 pk h ->
  signed_message sm nonce m enc -> (length enc <= 625)%nat -> crypto_sign_open (shake_hash fuel) sm pk = CRet m ->
  verify fuel P m (header :: nonce ++ enc) SHAKE = Fin (Ok true).
Proof.
  intros fuel sm pk h P nonce m enc header Hsm Hpk HP PK SM LE E. destruct (python_pub h P HP) as [EL EB]. destruct (signed_bytes _ _ _ _ Hsm SM) as (Bn & Bm & Be).
  apply (open_hash_ext (shake_hash fuel) sm pk m Hsm Hpk) in E; [|intros x c Hx E'; apply shake_hash_iff in E'; [|exact Hx]; destruct E' as (N & F & _); exact (first_accepted_point _ _ _ F)].
  destruct E as (nonce' & enc' & s2 & h' & c & s1 & SM' & CS & PK' & EH & EP & EN).
  assert (nonce' = nonce /\ enc' = enc) as [-> ->].
  { destruct SM as (hi & lo & E1 & L1 & F1). destruct SM' as (hi' & lo' & E2 & L2 & F2). rewrite E1 in E2. injection E2 as -> -> E2. apply app_inv_length in E2; [|congruence]. destruct E2 as [-> E2].
    apply app_inv_head in E2. injection E2 as ->. auto. }
  assert (h' = h).
  { destruct PK as ((Lh & Fh) & body & rest & E1 & L1 & P1). destruct PK' as ((Lh' & Fh') & body' & rest' & E2 & L2 & P2). rewrite E1 in E2. injection E2 as E2. apply app_inv_length in E2; [|congruence]. destruct E2 as [-> _].
    destruct P1 as (_ & p1 & Hp1 & Q1). destruct P2 as (_ & p2 & Hp2 & Q2). rewrite Q1 in Q2. apply app_inv_length in Q2; [|rewrite !flat_map_zbits_length; congruence]. destruct Q2 as [Q2 _].
    symmetry. apply flat_map_zbits_inj in Q2; [exact Q2|..]; try congruence; (eapply Forall_impl; [|eassumption]); intros x Hx; unfold in_zq in Hx; change (2 ^ Z.of_nat 14) with 16384; lia. }
  subst h'. destruct (proj1 PK) as [Lh _]. assert (Ln : length nonce = 40%nat) by (destruct SM as (hi & lo & _ & L & _); exact L).
  destruct (head_split header nonce enc Ln) as [S1 S2]. pose proof (verify_cases 512 h P fuel m (header :: nonce ++ enc) SHAKE HP Lh) as V. rewrite S1, S2, EL, EB in V.
  destruct (compressed_enc _ _ Be CS) as (L2 & S2' & _ & w & pad & EV & Hpad & Q).
  assert (D : decompress enc (Z.to_nat 666 - 41) 512 = Ok (Some s2)) by (apply decompress_accepts; [lia|]; split; [lia|]; split; [exact L2|]; exists w, (repeat false pad); auto).
  rewrite D in V. apply hash_python in EH; [|exact Bn|exact Bm]. rewrite EH in V. destruct V as (b & V & Vt & _). rewrite V. do 2 f_equal. apply Vt. exists s1. auto.
Qed.
Print Assumptions C85_python_accepts.
(** what the Python verifier accepts, C opens after re-encoding, when no coefficient exceeds 2047 *)
Theorem C85_from_python : forall fuel pk h P m sig s2, bytes sig -> bytes pk -> bytes m -> PublicKey 512 h = Ok P -> public_key14 pk h -> (41 <= length sig)%nat ->
  verify fuel P m sig SHAKE = Fin (Ok true) -> decompress (skipn 41 sig) 625 512 = Ok (Some s2) -> Forall (fun c => -2047 <= c <= 2047) s2 ->
  exists sm enc, bytes sm /\ signed_message sm (slice 1 41 sig) m enc /\ compressed s2 enc /\ crypto_sign_open (shake_hash fuel) sm pk = CRet m.
Proof.
  intros fuel pk h P m sig s2 Hs Hpk Bm HP PK LS V D S2. destruct (python_pub h P HP) as [EL EB]. destruct (proj1 PK) as [Lh _].
  pose proof (verify_cases 512 h P fuel m sig SHAKE HP Lh) as VC. rewrite EL, EB in VC. change (Z.to_nat 666 - 41)%nat with 625%nat in VC. rewrite D in VC.
  destruct (hash_to_point fuel 512 m (slice 1 41 sig) SHAKE) as [[c|e]|] eqn:EH; [|congruence|congruence]. destruct VC as (b & V' & Vt & _). assert (b = true) by congruence. subst b.
  destruct (proj1 Vt eq_refl) as (s0 & EP & EN). apply decompress_accepts in D; [|lia]. destruct D as (LD & L2 & w & rest & EV & Q).
  assert (Bn : bytes (slice 1 41 sig)) by (unfold slice; apply bytes_firstn, bytes_skipn; exact Hs). assert (Ln : length (slice 1 41 sig) = 40%nat) by (apply slice_end; lia).
  set (nonce := slice 1 41 sig) in *.
  destruct (c_comp_encode_cases 625 s2 S2) as [[_ B]|(enc & _ & LE & CE)].
  { exfalso. rewrite <- compress_bits_length, <- (encodes_all_unique _ _ EV) in B. apply (f_equal (@length _)) in Q. rewrite bytes_bits_length, app_length in Q. lia. }
  destruct CE as (Be & CE). set (l := 1 + Z.of_nat (length enc)). assert (Hl : 0 <= l < 65536) by (unfold l; lia).
  exists (l / 256 :: l mod 256 :: nonce ++ m ++ 0x29 :: enc), enc.
  assert (SM : signed_message (l / 256 :: l mod 256 :: nonce ++ m ++ 0x29 :: enc) nonce m enc) by (exists (l / 256), (l mod 256); split; [reflexivity|]; split; [exact Ln|]; unfold l; lia).
  assert (Hsm : bytes (l / 256 :: l mod 256 :: nonce ++ m ++ 0x29 :: enc)).
  { constructor; [unfold is_byte; lia|]. constructor; [unfold is_byte; lia|]. apply bytes_app. split; [exact Bn|]. apply bytes_app. split; [exact Bm|]. constructor; [unfold is_byte; lia|exact Be]. }
  assert (CS : compressed s2 enc) by (split; [exact L2|]; split; [exact S2|exact CE]).
  split; [exact Hsm|]. split; [exact SM|]. split; [exact CS|].
  apply (open_hash_ext (shake_hash fuel) _ pk m Hsm Hpk); [intros x c' Hx E'; apply shake_hash_iff in E'; [|exact Hx]; destruct E' as (N & F & _); exact (first_accepted_point _ _ _ F)|].
  exists nonce, enc, s2, h, c, s0. split; [exact SM|]. split; [exact CS|]. split; [exact PK|]. split; [apply hash_python; assumption|]. auto.
Qed.
Print Assumptions C85_from_python.

(** ** signing *)
(** If sign_dyn returns short preimages, what crypto_sign returns is opened; [sk_sign] and [nonce] are arbitrary *)
Theorem C85_sign_then_open : forall fuel sk_sign nonce m sk sm pk h, bytes nonce -> length nonce = 40%nat -> bytes m -> bytes pk -> public_key14 pk h ->
  (forall c s2, sk_sign sk c = Some s2 -> point c -> length s2 = 512%nat /\ exists s1, preimage 512 h c s1 s2 /\ sqnorm s1 + sqnorm s2 <= 34034726) ->
  crypto_sign (fun r x => c_hash_shake fuel 9 [r; x]) sk_sign nonce m sk = CRet sm ->
  bytes sm /\ (length sm <= 2 + 40 + length m + 1 + 647)%nat /\ crypto_sign_open (shake_hash fuel) sm pk = CRet m.
Proof.
  intros fuel sk_sign nonce m sk sm pk h Bn Ln Bm Hpk PK HS E. unfold crypto_sign in E. destruct (c_hash_shake fuel 9 [nonce; m]) as [c|] eqn:EH; [|discriminate E].
  assert (EH2 : shake_hash fuel (nonce ++ m) = Some c).
  { apply shake_hash_iff; [apply bytes_app; auto|]. apply c_hash_shake_iff in EH; [|constructor; [exact Bn|constructor; [exact Bm|constructor]]]. cbn [concat] in EH. rewrite app_nil_r in EH. exact EH. }
  assert (Pc : point c) by (apply shake_hash_iff in EH2; [|apply bytes_app; auto]; destruct EH2 as (N & F & _); exact (first_accepted_point _ _ _ F)).
  destruct (sk_sign sk c) as [s2|] eqn:ES; [|discriminate E]. destruct (HS c s2 ES Pc) as (L2 & s1 & EP & EN).
  unfold sign_frame in E. destruct (c_comp_encode 647 s2) as [enc|] eqn:EE; [|discriminate E]. apply C83_encode_iff in EE. destruct EE as (S2 & LE & Be & CE).
  cbv zeta in E. set (l := Z.of_nat (length enc + 1)) in *. assert (Hl : 1 <= l <= 648) by (unfold l; lia).
  assert (Q8 : Z.shiftr l 8 mod 256 = l / 256) by (rewrite Z.shiftr_div_pow2 by lia; change (2 ^ 8) with 256; apply Z.mod_small; lia).
  assert (Esm : sm = l / 256 :: l mod 256 :: nonce ++ m ++ 0x29 :: enc) by (cbn [app] in E; change (0x20 + 9) with 0x29 in E; rewrite Q8 in E; congruence).
  assert (SM : signed_message sm nonce m enc) by (exists (l / 256), (l mod 256); split; [exact Esm|]; split; [exact Ln|]; unfold l; lia).
  assert (Hsm : bytes sm).
  { rewrite Esm. constructor; [unfold is_byte; lia|]. constructor; [unfold is_byte; lia|]. apply bytes_app. split; [exact Bn|]. apply bytes_app. split; [exact Bm|]. constructor; [unfold is_byte; lia|exact Be]. }
  split; [exact Hsm|]. split; [rewrite Esm; cbn [length]; rewrite !app_length; cbn [length]; lia|].
  apply (open_hash_ext (shake_hash fuel) _ pk m Hsm Hpk); [intros x c' Hx E'; apply shake_hash_iff in E'; [|exact Hx]; destruct E' as (N & F & _); exact (first_accepted_point _ _ _ F)|].
  exists nonce, enc, s2, h, c, s1. split; [exact SM|]. split; [split; [exact L2|]; split; [exact S2|exact CE]|]. split; [exact PK|]. split; [exact EH2|]. auto.
Qed.
Print Assumptions C85_sign_then_open.

(** ** the hypotheses are met: for every nonce and message there are a key and a signed message that opens (the key is the hashed point, s2 = 1) *)
Lemma one_small : small one. Proof. unfold one, pconst. constructor; [lia|]. apply Forall_forall. intros x Hx. apply repeat_spec in Hx. lia. Qed.
Lemma rogue hash nonce m c : (forall x c, bytes x -> hash x = Some c -> point c) -> bytes nonce -> length nonce = 40%nat -> bytes m -> hash (nonce ++ m) = Some c ->
  exists pk sm enc, bytes pk /\ length pk = 897%nat /\ bytes sm /\ signed_message sm nonce m enc /\ length enc = 576%nat /\ public_key14 pk c /\ compressed one enc /\ crypto_sign_open hash sm pk = CRet m.
Proof.
  intros HH Bn Ln Bm EH. pose proof (HH _ _ (proj2 (bytes_app nonce m) (conj Bn Bm)) EH) as Pc. destruct Pc as [Lc Fc].
  destruct (modq_encode_ok c 512 Lc Fc) as (body & _ & Lb & P). change (ceil8 (512 * 14)) with 896%nat in Lb.
  destruct (c_comp_encode_cases 647 one one_small) as [[_ B]|(enc & _ & LE & CE)]; [exfalso; vm_compute in B; discriminate B|].
  pose proof (c_encoding_length one enc CE) as LE2. change ((total_cost one + 7) / 8) with 576 in LE2. destruct CE as (Be & CE).
  assert (PK : public_key14 (9 :: body) c) by (split; [split; assumption|]; exists body, []; split; [now rewrite app_nil_r|]; split; [exact Lb|exact P]).
  assert (CS : compressed one enc) by (split; [reflexivity|]; split; [exact one_small|exact CE]).
  assert (SM : signed_message (2 :: 65 :: nonce ++ m ++ 0x29 :: enc) nonce m enc) by (exists 2, 65; split; [reflexivity|]; split; [exact Ln|lia]).
  assert (Hpk : bytes (9 :: body)) by (constructor; [unfold is_byte; lia|exact (proj1 P)]).
  assert (Hsm : bytes (2 :: 65 :: nonce ++ m ++ 0x29 :: enc)).
  { constructor; [unfold is_byte; lia|]. constructor; [unfold is_byte; lia|]. apply bytes_app. split; [exact Bn|]. apply bytes_app. split; [exact Bm|]. constructor; [unfold is_byte; lia|exact Be]. }
  exists (9 :: body), (2 :: 65 :: nonce ++ m ++ 0x29 :: enc), enc. split; [exact Hpk|]. split; [cbn [length]; lia|]. split; [exact Hsm|]. split; [exact SM|]. split; [lia|]. split; [exact PK|]. split; [exact CS|].
  apply (open_hash_ext hash _ _ m Hsm Hpk HH). exists nonce, enc, one, c, c, (repeat 0 512). split; [exact SM|]. split; [exact CS|]. split; [exact PK|]. split; [exact EH|].
  split; [exact (preimage_one c c (repeat 0 512) Lc (repeat_length _ _) (pcong_zero_add c Lc))|]. vm_compute. discriminate.
Qed.
Theorem C85_any_message_opens : forall fuel nonce m N c, bytes nonce -> length nonce = 40%nat -> bytes m -> first_accepted (word16 (shake256_byte (nonce ++ m))) 512 N c -> (N <= fuel)%nat ->
  exists pk sm, bytes pk /\ length pk = 897%nat /\ bytes sm /\ crypto_sign_open (shake_hash fuel) sm pk = CRet m.
Proof.
  intros fuel nonce m N c Bn Ln Bm F HN. destruct (rogue (shake_hash fuel) nonce m c) as (pk & sm & enc & A & B & C & _ & _ & _ & _ & D); auto.
  - intros x c' Hx E'. apply shake_hash_iff in E'; [|exact Hx]. destruct E' as (N' & F' & _). exact (first_accepted_point _ _ _ F').
  - apply shake_hash_iff; [apply bytes_app; auto|]. exists N. auto.
  - exists pk, sm. auto.
Qed.
Print Assumptions C85_any_message_opens.
Example C85_nontrivial : exists c, shake_hash 700 (repeat 7 40 ++ [1; 2; 3]) = Some c.
Proof.
  destruct (shake_hash 700 (repeat 7 40 ++ [1; 2; 3])) as [c|] eqn:E; [exists c; reflexivity|]. exfalso.
  assert (T : match shake_hash 700 (repeat 7 40 ++ [1; 2; 3]) with Some _ => true | None => false end = true) by (vm_cast_no_check (eq_refl true)). rewrite E in T. discriminate T.
Qed.

(** * C86: the 16-bit variant *)
Theorem C86_open_iff : forall hash sm pk m, (forall x c, hash x = Some c -> point c) -> bytes sm -> bytes pk ->
  (zknox_crypto_sign_open hash sm pk = CRet m <->
   exists nonce enc s2 h c s1, signed_message sm nonce m enc /\ words16 s2 enc /\ point h /\ public_key16 pk (NTTFW_vectorized h) /\ hash (nonce ++ m) = Some c /\
     preimage 512 h c s1 s2 /\ sqnorm s1 + sqnorm s2 <= 34034726).
Proof. exact open16_iff. Qed.
Print Assumptions C86_open_iff.
Theorem C86_no_undefined : forall hash sm pk, bytes sm -> bytes pk -> (Z.to_nat 1025 <= length pk)%nat -> zknox_crypto_sign_open hash sm pk <> CUndef.
Proof. exact open16_no_undef. Qed.
Print Assumptions C86_no_undefined.
(** decoding after encoding: words from 2047 on are read as negative, so the round trip holds iff every coefficient is between -10242 and 2046 *)
Theorem C86_encode_then_decode : forall v enc, length v = 512%nat -> c_comp_encode16 v = Some enc ->
  Forall (fun t => -12289 < t < 12289) v /\
  c_comp_decode16 9 (length enc) enc = Dec (map (fun t => if t mod 12289 <? 2047 then t mod 12289 else t mod 12289 - 12289) v) (length enc) /\
  (c_comp_decode16 9 (length enc) enc = Dec v (length enc) <-> Forall (fun t => -10242 <= t <= 2046) v).
Proof.
  intros v enc Lv E. apply encode16_packs in E. destruct E as (F & LE & P). split; [exact F|].
  set (g := fun t => if t mod 12289 <? 2047 then t mod 12289 else t mod 12289 - 12289).
  assert (D : c_comp_decode16 9 (length enc) enc = Dec (map g v) (length enc)).
  { apply sig16; [exact (proj1 P)|]. split; [rewrite map_length; exact Lv|]. split; [lia|]. exists (map (fun t => t mod 12289) v). split; [|exact P].
    clear. induction v as [|t v IH]; [constructor|]. cbn [map]. constructor; [|exact IH]. pose proof (mod_range t). unfold word_of, g. destruct (Z.ltb_spec (t mod 12289) 2047); lia. }
  split; [exact D|]. rewrite D.
  assert (GI : forall t, -12289 < t < 12289 -> (g t = t <-> -10242 <= t <= 2046)).
  { intros t Ht. unfold g. assert (MM : t mod 12289 = if t <? 0 then t + 12289 else t) by (destruct (Z.ltb_spec t 0); symmetry; [apply Z.mod_unique_pos with (-1)|apply Z.mod_unique_pos with 0]; lia).
    rewrite MM. destruct (Z.ltb_spec t 0); [destruct (Z.ltb_spec (t + 12289) 2047)|destruct (Z.ltb_spec t 2047)]; lia. }
  transitivity (map g v = v); [split; intros H; [congruence|now rewrite H]|].
  clear -F GI. induction F as [|t v Ht F IH]; [split; [constructor|reflexivity]|]. cbn [map]. split.
  - intros H. injection H as H1 H2. constructor; [apply GI; assumption|apply IH; exact H2].
  - intros H. inversion H; subst. f_equal; [apply GI; assumption|apply IH; assumption].
Qed.
Print Assumptions C86_encode_then_decode.
Example C86_misread : forall enc, c_comp_encode16 (2047 :: repeat 0 511) = Some enc -> c_comp_decode16 9 (length enc) enc = Dec (-10242 :: repeat 0 511) (length enc).
Proof. intros enc E. apply C86_encode_then_decode in E; [|reflexivity]. destruct E as (_ & D & _). rewrite D. f_equal. Qed.
(** a message with a negative coefficient has a second signed form: replace the word x + q by x + 2^16, or conversely *)
Theorem C86_malleable : forall hash sm pk m nonce enc s2, (forall x c, hash x = Some c -> point c) -> bytes sm -> bytes pk ->
  zknox_crypto_sign_open hash sm pk = CRet m -> signed_message sm nonce m enc -> words16 s2 enc -> Exists (fun x => x < 0) s2 ->
  exists sm' enc', sm' <> sm /\ length sm' = length sm /\ bytes sm' /\ signed_message sm' nonce m enc' /\ words16 s2 enc' /\ zknox_crypto_sign_open hash sm' pk = CRet m.
Proof.
  intros hash sm pk m nonce enc s2 HH Hsm Hpk E SM W NEG. destruct (signed_bytes _ _ _ _ Hsm SM) as (Bn & Bm & Be).
  apply (open16_iff hash sm pk m HH Hsm Hpk) in E. destruct E as (nonce' & enc' & s2' & h & c & s1 & SM' & W' & Ph & PK & EH & EP & EN).
  assert (nonce' = nonce /\ enc' = enc) as [-> ->].
  { destruct SM as (hi & lo & E1 & L1 & F1). destruct SM' as (hi' & lo' & E2 & L2 & F2). rewrite E1 in E2. injection E2 as -> -> E2. apply app_inv_length in E2; [|congruence]. destruct E2 as [-> E2].
    apply app_inv_head in E2. injection E2 as ->. auto. }
  assert (s2' = s2).
  { pose proof (proj2 (sig16 enc s2' Be) W') as D1. pose proof (proj2 (sig16 enc s2 Be) W) as D2. rewrite D1 in D2. congruence. }
  subst s2'. clear W' SM'.
  (* norm: a negative coefficient is above -10242 *)
  assert (SMALL : Forall (fun x => -5834 < x) s2).
  { apply Forall_forall. intros x Hx. pose proof (sqnorm_big x s2 Hx). pose proof (sqnorm_nonneg s1). nia. }
  destruct W as (L2 & LE & ws & F2 & P).
  assert (G : exists ws', ws' <> ws /\ Forall2 word_of s2 ws').
  { clear -F2 NEG SMALL. induction F2 as [|x w s2 ws Hx F2 IH]; [inversion NEG|]. inversion SMALL as [|? ? S1 S2]; subst. inversion NEG as [? ? N|? ? N]; subst.
    - exists ((if w <? 32768 then x + 65536 else x + 12289) :: ws). unfold word_of in Hx. split.
      + intros E. injection E as E. destruct (Z.ltb_spec w 32768); lia.
      + constructor; [|exact F2]. unfold word_of. destruct (Z.ltb_spec w 32768); lia.
    - destruct (IH N S2) as (ws' & NE & F'). exists (w :: ws'). split; [congruence|]. constructor; assumption. }
  destruct G as (ws' & NE & F2'). assert (Lw' : length ws' = 512%nat) by (rewrite <- L2; symmetry; exact (F2_length _ _ _ F2')).
  assert (EX : exists enc', bytes enc' /\ length enc' = Z.to_nat 1024 /\ packs 16 ws' enc').
  { exists (flat_map (fun w => [w / 256; w mod 256]) ws'). assert (R : Forall (fun w => 0 <= w < 65536) ws') by (clear -F2'; induction F2'; constructor; auto; eapply word_of_range; eauto).
    assert (GG : bytes (flat_map (fun w => [w / 256; w mod 256]) ws') /\ length (flat_map (fun w => [w / 256; w mod 256]) ws') = (2 * length ws')%nat /\ bytes_bits (flat_map (fun w => [w / 256; w mod 256]) ws') = flat_map (zbits 16) ws').
    { clear -R. induction R as [|w ws Hw R (IH1 & IH2 & IH3)]; [split; [constructor|split; reflexivity]|]. cbn [flat_map]. split; [|split].
      - apply bytes_app. split; [|exact IH1]. constructor; [unfold is_byte; lia|]. constructor; [unfold is_byte; lia|constructor].
      - rewrite app_length, IH2. cbn [length]. lia.
      - rewrite bytes_bits_app, word_bits, IH3 by exact Hw. reflexivity. }
    destruct GG as (G1 & G2 & G3). split; [exact G1|]. split; [lia|]. split; [exact G1|]. exists 0%nat. split; [lia|]. rewrite G3. symmetry. apply app_nil_r. }
  destruct EX as (enc' & Be' & LE' & P').
  assert (NEE : enc' <> enc).
  { intros ->. apply NE. destruct P as (_ & p & Hp & Q). destruct P' as (_ & p' & Hp' & Q'). rewrite Q in Q'. assert (Lw : length ws = 512%nat) by (rewrite <- L2; symmetry; exact (F2_length _ _ _ F2)).
    apply app_inv_length in Q'; [|rewrite !flat_map_zbits_length; congruence]. destruct Q' as [Q' _]. symmetry. apply flat_map_zbits_inj in Q'; [exact Q'|..]; try congruence.
    - clear -F2. induction F2; constructor; auto. rewrite pow16. eapply word_of_range; eauto.
    - clear -F2'. induction F2'; constructor; auto. rewrite pow16. eapply word_of_range; eauto. }
  pose proof SM as (hi & lo & -> & Ln & El). destruct (bytes_cons _ _ Hsm) as [Bhi Hsm1]. destruct (bytes_cons _ _ Hsm1) as [Blo _].
  assert (SM' : signed_message (hi :: lo :: nonce ++ m ++ 0x29 :: enc') nonce m enc') by (exists hi, lo; split; [reflexivity|]; split; [exact Ln|lia]).
  assert (Hsm' : bytes (hi :: lo :: nonce ++ m ++ 0x29 :: enc')).
  { constructor; [exact Bhi|]. constructor; [exact Blo|]. apply bytes_app. split; [exact Bn|]. apply bytes_app. split; [exact Bm|]. constructor; [unfold is_byte; lia|exact Be']. }
  assert (W' : words16 s2 enc') by (split; [exact L2|]; split; [exact LE'|]; exists ws'; auto).
  exists (hi :: lo :: nonce ++ m ++ 0x29 :: enc'), enc'. split; [|split; [|split; [exact Hsm'|split; [exact SM'|split; [exact W'|]]]]].
  - intros EE. injection EE as EE. apply app_inv_head in EE. apply app_inv_head in EE. injection EE as EE. exact (NEE EE).
  - cbn [length]. rewrite !app_length. cbn [length]. lia.
  - apply (open16_iff hash _ pk m HH Hsm' Hpk). exists nonce, enc', s2, h, c, s1. repeat (split; [assumption|]). assumption.
Qed.
Print Assumptions C86_malleable.
(** the two variants agree: same nonce, message and coefficients, public key h and its transform *)
Theorem C86_same_verdict : forall hash sm sm' pk pk' nonce m enc enc' s2 h, (forall x c, hash x = Some c -> point c) -> bytes sm -> bytes sm' -> bytes pk -> bytes pk' ->
  signed_message sm nonce m enc -> compressed s2 enc -> signed_message sm' nonce m enc' -> words16 s2 enc' -> public_key14 pk h -> public_key16 pk' (NTTFW_vectorized h) ->
  (crypto_sign_open hash sm pk = CRet m <-> zknox_crypto_sign_open hash sm' pk' = CRet m).
Proof.
  intros hash sm sm' pk pk' nonce m enc enc' s2 h HH Hsm Hsm' Hpk Hpk' SM CS SM' W PK PK'. destruct (signed_bytes _ _ _ _ Hsm SM) as (_ & _ & Be). destruct (signed_bytes _ _ _ _ Hsm' SM') as (_ & _ & Be').
  rewrite (open14_iff hash sm pk m HH Hsm Hpk), (open16_iff hash sm' pk' m HH Hsm' Hpk').
  assert (FU : forall sm nonce' enc0 enc1, signed_message sm nonce m enc0 -> signed_message sm nonce' m enc1 -> nonce' = nonce /\ enc1 = enc0).
  { clear. intros sm nonce' enc0 enc1 (hi & lo & E1 & L1 & F1) (hi' & lo' & E2 & L2 & F2). rewrite E1 in E2. injection E2 as -> -> E2. apply app_inv_length in E2; [|congruence]. destruct E2 as [-> E2].
    apply app_inv_head in E2. injection E2 as ->. auto. }
  assert (K14 : forall h', public_key14 pk h' -> h' = h).
  { intros h' PKh. assert (X : exists pk0, pk = 9 :: pk0) by (destruct PK as (_ & body & rest & E & _); eauto). destruct X as (pk0 & ->). destruct (bytes_cons _ _ Hpk) as [_ B0].
    pose proof (proj2 (pk14 pk0 h 896 B0) (conj eq_refl PK)) as D1. pose proof (proj2 (pk14 pk0 h' 896 B0) (conj eq_refl PKh)) as D2. congruence. }
  assert (K16 : forall h', public_key16 pk' h' -> h' = NTTFW_vectorized h).
  { intros h' PKh. assert (X : exists pk0, pk' = 9 :: pk0) by (destruct PK' as (_ & body & rest & E & _); eauto). destruct X as (pk0 & ->). destruct (bytes_cons _ _ Hpk') as [_ B0].
    pose proof (proj2 (pk16 pk0 _ _ B0) (conj eq_refl PK')) as D1. pose proof (proj2 (pk16 pk0 h' _ B0) (conj eq_refl PKh)) as D2. congruence. }
  split.
  - intros (nonce1 & enc1 & s & h1 & c & s1 & SM1 & CS1 & PK1 & EH & EP & EN). destruct (FU _ _ _ _ SM SM1) as [-> ->]. rewrite (K14 _ PK1) in *.
    assert (s = s2) by (pose proof (proj2 (sig14 enc s Be) CS1); pose proof (proj2 (sig14 enc s2 Be) CS); congruence). subst s.
    exists nonce, enc', s2, h, c, s1. pose proof (proj1 PK) as Ph. repeat (split; [assumption|]). assumption.
  - intros (nonce1 & enc1 & s & h1 & c & s1 & SM1 & W1 & Ph1 & PK1 & EH & EP & EN). destruct (FU _ _ _ _ SM' SM1) as [-> ->].
    assert (h1 = h).
    { pose proof (K16 _ PK1) as EK. rewrite <- (C84_same_transform_as_contract h1 (proj1 Ph1) (proj2 Ph1)), <- (C84_same_transform_as_contract h (proj1 (proj1 PK)) (proj2 (proj1 PK))) in EK.
      rewrite <- (C84_inverse 9 h1 ltac:(lia) (proj1 Ph1) (proj2 Ph1)), EK. apply C84_inverse; [lia|apply (proj1 PK)|apply (proj1 PK)]. }
    subst h1. assert (s = s2) by (pose proof (proj2 (sig16 enc' s Be') W1); pose proof (proj2 (sig16 enc' s2 Be') W); congruence). subst s.
    exists nonce, enc, s2, h, c, s1. repeat (split; [assumption|]). assumption.
Qed.
Print Assumptions C86_same_verdict.

(** * C87: the build with -DETHFALCON (Keccak-256 in counter mode) *)
Section Eth.
Variable H : list Z -> list Z.
Hypothesis H32 : forall m, length (H m) = 32%nat.
Hypothesis Hb : forall m, bytes (H m).
Definition eth_hash (fuel : nat) (x : list Z) : option (list Z) := c_hash_keccak H fuel 9 [x].
Lemma eth_point fuel x c : Z.of_nat fuel < 2 ^ 64 -> eth_hash fuel x = Some c -> point c.
Proof. intros Hf E. apply (c_hash_keccak_iff H H32 Hb fuel 9 [x] c Hf) in E. destruct E as (N & F & _). exact (first_accepted_point _ _ _ F). Qed.
(** signer, verifier and Python hash a nonce and a message of at most 4096 bytes to the same point *)
Theorem C87_same_point : forall fuel nonce m c, Z.of_nat fuel < 2 ^ 64 -> (length nonce + length m <= Z.to_nat 4096)%nat ->
  (eth_hash fuel (nonce ++ m) = Some c <-> hash_to_point fuel 512 m nonce (KeccakPRNG H) = Fin (Ok c)) /\
  (c_hash_keccak H fuel 9 [nonce; m] = Some c <-> hash_to_point fuel 512 m nonce (KeccakPRNG H) = Fin (Ok c)).
Proof.
  intros fuel nonce m c Hf HL. rewrite (KeccakPRNG_h2p H H32 512 m nonce HL fuel c). unfold eth_hash. rewrite !(c_hash_keccak_iff H H32 Hb fuel 9 _ c Hf). change (2 ^ 9)%nat with 512%nat.
  assert (A1 : fold_left absorbed1 [nonce ++ m] [] = nonce ++ m).
  { cbn [fold_left]. unfold absorbed1. cbn [length]. rewrite app_length. destruct (Nat.leb_spec (0 + (length nonce + length m)) (Z.to_nat 4096)); [reflexivity|lia]. }
  assert (A2 : fold_left absorbed1 [nonce; m] [] = nonce ++ m).
  { cbn [fold_left]. unfold absorbed1 at 2. cbn [length]. destruct (Nat.leb_spec (0 + length nonce) (Z.to_nat 4096)); [|lia]. cbn [app]. unfold absorbed1. destruct (Nat.leb_spec (length nonce + length m) (Z.to_nat 4096)); [reflexivity|lia]. }
  rewrite A1, A2. split; (split; intros (N & F & B); exists N; [split; [exact F|]; split; [exact B|lia]|destruct B; auto]).
Qed.
(** beyond, the verifier hashes nothing at all and the signer only the nonce: the failure of inject is not looked at *)
Theorem C87_long_input_dropped : forall fuel nonce m, length nonce = 40%nat -> (Z.to_nat 4096 < 40 + length m)%nat ->
  eth_hash fuel (nonce ++ m) = eth_hash fuel [] /\ c_hash_keccak H fuel 9 [nonce; m] = c_hash_keccak H fuel 9 [nonce].
Proof.
  intros fuel nonce m Ln HL. assert (R0 := PrngProofs.rel_new (Z.to_nat 4096) H). split.
  - unfold eth_hash, c_hash_keccak. cbn [fold_left]. rewrite (c_inject_over H H32 Hb _ (nonce ++ m) [] R0) by (cbn [length]; rewrite app_length; lia). cbn [fst]. reflexivity.
  - unfold c_hash_keccak. cbn [fold_left]. rewrite (c_inject_over H H32 Hb _ m nonce) by (try lia; apply (c_inject_ok H H32 _ nonce [] R0); cbn [length]; lia). reflexivity.
Qed.
(** so a signature that opens one message of more than 4056 bytes opens every other, under any nonce *)
Theorem C87_long_messages_interchangeable : forall fuel sm pk m nonce enc, Z.of_nat fuel < 2 ^ 64 -> bytes sm -> bytes pk -> (4056 < Z.of_nat (length m)) ->
  signed_message sm nonce m enc -> crypto_sign_open (eth_hash fuel) sm pk = CRet m ->
  forall sm' nonce' m', bytes sm' -> 4056 < Z.of_nat (length m') -> signed_message sm' nonce' m' enc -> crypto_sign_open (eth_hash fuel) sm' pk = CRet m'.
Proof.
  intros fuel sm pk m nonce enc Hf Hsm Hpk Lm SM E sm' nonce' m' Hsm' Lm' SM'.
  apply (open14_iff (eth_hash fuel) sm pk m (fun x c => eth_point fuel x c Hf) Hsm Hpk) in E. destruct E as (nonce1 & enc1 & s2 & h & c & s1 & SM1 & CS & PK & EH & EP & EN).
  assert (enc1 = enc /\ length nonce1 = 40%nat) as [-> L1].
  { destruct SM as (hi & lo & E1 & L1 & F1). destruct SM1 as (hi' & lo' & E2 & L2 & F2). split; [|exact L2]. rewrite E1 in E2. injection E2 as -> -> E2. apply app_inv_length in E2; [|congruence]. destruct E2 as [-> E2].
    apply app_inv_head in E2. injection E2 as ->. reflexivity. }
  apply (open14_iff (eth_hash fuel) sm' pk m' (fun x c => eth_point fuel x c Hf) Hsm' Hpk). exists nonce', enc, s2, h, c, s1.
  assert (L' : length nonce' = 40%nat) by (destruct SM' as (hi & lo & _ & L & _); exact L).
  rewrite (proj1 (C87_long_input_dropped fuel nonce1 m L1 ltac:(lia))) in EH.
  rewrite (proj1 (C87_long_input_dropped fuel nonce' m' L' ltac:(lia))). repeat (split; [assumption|]). assumption.
Qed.
(** a first one exists as soon as the empty string hashes to a point *)
Theorem C87_forgery_for_every_long_message : forall fuel c nonce m, Z.of_nat fuel < 2 ^ 64 -> eth_hash fuel [] = Some c -> bytes nonce -> length nonce = 40%nat -> bytes m -> 4056 < Z.of_nat (length m) ->
  exists pk enc, length pk = 897%nat /\ forall sm' nonce' m', bytes sm' -> 4056 < Z.of_nat (length m') -> signed_message sm' nonce' m' enc -> crypto_sign_open (eth_hash fuel) sm' pk = CRet m'.
Proof.
  intros fuel c nonce m Hf EH Bn Ln Bm Lm. destruct (rogue (eth_hash fuel) nonce m c) as (pk & sm & enc & A & B & C & SM & _ & _ & _ & D); auto.
  - intros x c' _ E'. exact (eth_point fuel x c' Hf E').
  - rewrite (proj1 (C87_long_input_dropped fuel nonce m Ln ltac:(lia))). exact EH.
  - exists pk, enc. split; [exact B|]. exact (C87_long_messages_interchangeable fuel sm pk m nonce enc Hf C A Lm SM D).
Qed.
End Eth.
Print Assumptions C87_same_point.
Print Assumptions C87_long_input_dropped.
Print Assumptions C87_long_messages_interchangeable.
Print Assumptions C87_forgery_for_every_long_message.
(** a toy digest (the message's length in every byte) for which the hypotheses hold *)
Definition toyH (m : list Z) : list Z := repeat (Z.of_nat (length m) mod 128) 32.
Example C87_nontrivial : (forall m, length (toyH m) = 32%nat) /\ (forall m, bytes (toyH m)) /\ exists c, eth_hash toyH 600 [] = Some c.
Proof.
  split; [intros; apply repeat_length|]. split; [intros m; apply Forall_forall; intros x Hx; apply repeat_spec in Hx; subst; unfold is_byte; pose proof (Z.mod_pos_bound (Z.of_nat (length m)) 128 eq_refl); lia|].
  destruct (eth_hash toyH 600 []) as [c|] eqn:E; [exists c; reflexivity|]. exfalso.
  assert (T : match eth_hash toyH 600 [] with Some _ => true | None => false end = true) by (vm_cast_no_check (eq_refl true)). rewrite E in T. discriminate T.
Qed.

(** * C88: the Go wrapper and the precompile *)
Lemma zlist_eqb_iff a b : zlist_eqb a b = true <-> a = b.
Proof. unfold zlist_eqb. destruct (list_eq_dec Z.eq_dec a b); split; congruence. Qed.
(** true only for a signed message that opens to the message, and then without error *)
Theorem C88_true_iff : forall hash signature message pk err,
  (VerifySignature hash signature message pk = GoRet (true, err) <-> err = false /\ crypto_sign_open hash signature pk = CRet message /\ signature <> [] /\ (length message <= 1024)%nat).
Proof.
  intros hash signature message pk err. unfold VerifySignature. destruct signature as [|s0 s]; [split; [discriminate|intros (_ & _ & N & _); congruence]|].
  destruct pk as [|p0 p]; [split; [discriminate|]; intros (_ & E & _); unfold crypto_sign_open in E; rewrite sign_open_core in E; discriminate E|].
  destruct (crypto_sign_open hash (s0 :: s) (p0 :: p)) as [m| | |].
  - destruct (Nat.ltb_spec 1024 (length m)) as [L|L].
    + split; [discriminate|]. intros (_ & E & _ & L'). assert (m = message) by congruence. subst. lia.
    + split.
      * intros E. assert (E1 : zlist_eqb m message = true) by congruence. apply zlist_eqb_iff in E1. subst m. split; [congruence|]. split; [reflexivity|]. split; [discriminate|exact L].
      * intros (-> & E & _). assert (m = message) by congruence. subst m. rewrite (proj2 (zlist_eqb_iff message message) eq_refl). reflexivity.
  - split; [discriminate|]. intros (_ & E & _). discriminate E.
  - split; [discriminate|]. intros (_ & E & _). discriminate E.
  - split; [discriminate|]. intros (_ & E & _). discriminate E.
Qed.
Print Assumptions C88_true_iff.
(** the wrapper panics exactly on empty signatures and keys *)
Theorem C88_panics_iff : forall hash signature message pk, VerifySignature hash signature message pk = GoPanic <-> signature = [] \/ pk = [].
Proof.
  intros hash signature message pk. unfold VerifySignature. destruct signature as [|s0 s]; [split; auto|]. destruct pk as [|p0 p]; [split; auto|].
  destruct (crypto_sign_open hash (s0 :: s) (p0 :: p)) as [m| | |]; [destruct (1024 <? length m)%nat|..]; (split; [discriminate|intros [E|E]; discriminate E]).
Qed.
Print Assumptions C88_panics_iff.
(** memory is overrun for any message of more than 1024 bytes, under a key anyone can make *)
Theorem C88_overflow_reachable : forall fuel nonce m N c message, bytes nonce -> length nonce = 40%nat -> bytes m -> (1024 < length m)%nat ->
  first_accepted (word16 (shake256_byte (nonce ++ m))) 512 N c -> (N <= fuel)%nat ->
  exists signature pk, length pk = 897%nat /\ VerifySignature (shake_hash fuel) signature message pk = GoUndef /\ falconvrfy_run (shake_hash fuel) signature message pk = GoUndef.
Proof.
  intros fuel nonce m N c message Bn Ln Bm Lm F HN. destruct (C85_any_message_opens fuel nonce m N c Bn Ln Bm F HN) as (pk & sm & Hpk & Lpk & Hsm & E). exists sm, pk. split; [exact Lpk|].
  assert (V : VerifySignature (shake_hash fuel) sm message pk = GoUndef).
  { unfold VerifySignature. destruct sm as [|s0 s].
    - exfalso. apply (C85_open_iff fuel [] pk m Hsm Hpk) in E. destruct E as (n0 & e0 & x1 & x2 & x3 & x4 & x5 & (hi & lo & E & _) & _). discriminate E.
    - destruct pk as [|p0 p]; [cbn [length] in Lpk; lia|]. rewrite E. destruct (Nat.ltb_spec 1024 (length m)); [reflexivity|lia]. }
  split; [exact V|]. unfold falconvrfy_run. rewrite V. reflexivity.
Qed.
Print Assumptions C88_overflow_reachable.
(** a key of fewer than 897 bytes makes it read outside its buffer *)
Theorem C88_short_key_refuted : forall hash signature message k, signature <> [] -> (k < 896)%nat -> falconvrfy_run hash signature message (9 :: repeat 0 k) = GoUndef.
Proof.
  intros hash signature message k NE Hk. unfold falconvrfy_run, VerifySignature. destruct signature as [|s0 s]; [congruence|]. rewrite (C85_short_key_refuted hash (s0 :: s) k Hk). reflexivity.
Qed.
Print Assumptions C88_short_key_refuted.
(** otherwise it is safe *)
Theorem C88_safe : forall hash signature message pk, bytes pk -> (897 <= length pk)%nat -> signature <> [] -> (forall m, crypto_sign_open hash signature pk = CRet m -> (length m <= 1024)%nat) ->
  VerifySignature hash signature message pk <> GoUndef /\ VerifySignature hash signature message pk <> GoPanic.
Proof.
  intros hash signature message pk Hpk HL NE Hm. unfold VerifySignature. destruct signature as [|s0 s]; [congruence|]. destruct pk as [|p0 p]; [cbn [length] in HL; lia|].
  pose proof (C85_no_undefined hash (s0 :: s) (p0 :: p) Hpk HL) as NU. destruct (crypto_sign_open hash (s0 :: s) (p0 :: p)) as [m| | |]; [|split; discriminate|congruence|split; discriminate].
  specialize (Hm m eq_refl). destruct (Nat.ltb_spec 1024 (length m)); [lia|split; discriminate].
Qed.
Print Assumptions C88_safe.
(** the precompile returns 32 bytes, the last one 1 iff the signed message opens to the message (errors are reported as 0) *)
Theorem C88_precompile : forall hash sig msg pub out, falconvrfy_run hash sig msg pub = GoRet out ->
  length out = 32%nat /\ (out = repeat 0 31 ++ [1] <-> crypto_sign_open hash sig pub = CRet msg) /\ (out = repeat 0 32 <-> crypto_sign_open hash sig pub <> CRet msg).
Proof.
  intros hash sig msg pub out E. unfold falconvrfy_run in E. destruct (VerifySignature hash sig msg pub) as [[ok err]| | |] eqn:V; try discriminate E.
  assert (EO : out = repeat 0 31 ++ [if ok then 1 else 0]) by congruence. split; [rewrite EO; reflexivity|].
  assert (OK : ok = true <-> crypto_sign_open hash sig pub = CRet msg).
  { split.
    - intros ->. apply C88_true_iff in V. apply V.
    - intros EO2. unfold VerifySignature in V. destruct sig as [|s0 s]; [discriminate V|]. destruct pub as [|p0 p]; [discriminate V|]. rewrite EO2 in V. destruct (1024 <? length msg)%nat; [discriminate V|].
      rewrite (proj2 (zlist_eqb_iff msg msg) eq_refl) in V. congruence. }
  rewrite <- OK, EO. destruct ok; split; (split; intros T; try reflexivity; try congruence; try discriminate T; try (exfalso; exact (T eq_refl))).
Qed.
Print Assumptions C88_precompile.
(** SignMessage writes past its 1330 bytes for long messages: with a signature of e compressed bytes, when the message has more than 1287 - e *)
Theorem C88_sign_overflow_iff : forall hash2 sk_sign nonce message sk c s2 enc, length nonce = 40%nat -> message <> [] -> sk <> [] ->
  hash2 nonce message = Some c -> sk_sign sk c = Some s2 -> c_comp_encode 647 s2 = Some enc ->
  (SignMessage hash2 sk_sign nonce message sk = GoUndef <-> 1287 < Z.of_nat (length message + length enc)).
Proof.
  intros hash2 sk_sign nonce message sk c s2 enc Ln NM NS EH ES EE. unfold SignMessage, crypto_sign, sign_frame. rewrite EH, ES, EE. destruct message as [|m0 m]; [congruence|]. destruct sk as [|k0 k]; [congruence|].
  cbv zeta. match goal with |- context [(1330 <? ?L)%nat] => set (LL := L) end.
  assert (EL : LL = (43 + length (m0 :: m) + length enc)%nat) by (unfold LL; rewrite !app_length; cbn [length]; lia).
  destruct (Nat.ltb_spec 1330 LL); split; intros; try lia; try reflexivity; discriminate.
Qed.
Print Assumptions C88_sign_overflow_iff.
Theorem C88_sign_panics_iff : forall hash2 sk_sign nonce message sk, SignMessage hash2 sk_sign nonce message sk = GoPanic <-> message = [] \/ sk = [].
Proof.
  intros hash2 sk_sign nonce message sk. unfold SignMessage. destruct message as [|m0 m]; [split; auto|]. destruct sk as [|k0 k]; [split; auto|].
  destruct (crypto_sign hash2 sk_sign nonce (m0 :: m) (k0 :: k)) as [sm| | |]; [destruct (1330 <? length sm)%nat|..]; (split; [discriminate|intros [E|E]; discriminate E]).
Qed.
Print Assumptions C88_sign_panics_iff.
