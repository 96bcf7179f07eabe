(** Property C81: sig_sol.py, the signer that the Solidity tests call (ZKNOX_PythonSigner.sol). *)
From Coq Require Import String.
From Verif Require Import Base PrngModel KeccakModel HashModel EncodingModel EncodingProofs PolyModel FalconModel FalconSpec FalconProofs RecoveryProofs
  TextModel TextProofs SolModel CliModel CliProofs ShakeProofs CliSignProofs PackProofs NttModel NttInst NttApi NttProofs PolyModelProofs SolSpec SolProofs ChainRecover ChainProofs ChainExtra Props_Falcon Props_Chain Props_Cli SigSolModel.
Import List.

(** What abi.decode(result, (uint256[32], bytes, uint256[32])) reads (PythonSigner.sol:50): 32 words, the offset of the byte string, 32 words; at the offset, the length and
    the bytes. *)
Definition abi_words (p : list Z) (start : Z) (k : nat) : list Z := map (fun i => abi_word p (start + 32 * Z.of_nat i)) (seq 0 k).
Definition abi_decode_sig (p : list Z) : list Z * list Z * list Z :=
  let offset := abi_word p 1024 in
  (abi_words p 0 32, firstn (Z.to_nat (abi_word p offset)) (skipn (Z.to_nat offset + 32) p), abi_words p 1056 32).

Lemma word_at (a c : list Z) x i : length a = Z.to_nat i -> 0 <= x < 2 ^ 256 -> abi_word (a ++ to_be 32 x ++ c) i = x.
Proof.
  intros La Hx. unfold abi_word. rewrite <- La. rewrite skipn_app, skipn_all, Nat.sub_diag. cbn [app skipn].
  rewrite firstn_app, to_be_length, Nat.sub_diag, firstn_O, app_nil_r. rewrite firstn_all2 by (rewrite to_be_length; apply le_n).
  change (2 ^ 256) with (256 ^ Z.of_nat 32) in Hx. apply be_int_to_be, Hx.
Qed.
Lemma flat_be_length ws : length (flat_map (to_be 32) ws) = (32 * length ws)%nat.
Proof. induction ws as [|w ws IH]; [reflexivity|]. cbn [flat_map length]. rewrite app_length, to_be_length, IH. lia. Qed.
Lemma words_at : forall ws (a c : list Z) i, 0 <= i -> length a = Z.to_nat i -> Forall (fun w => 0 <= w < 2 ^ 256) ws ->
  abi_words (a ++ flat_map (to_be 32) ws ++ c) i (length ws) = ws.
Proof.
  induction ws as [|w ws IH]; intros a c i Hi La F; [reflexivity|]. inversion F as [|? ? Hw Hws]; subst.
  unfold abi_words. cbn [length seq map flat_map]. f_equal.
  - rewrite <- app_assoc. apply word_at; [rewrite Z.mul_0_r, Z.add_0_r; exact La|exact Hw].
  - rewrite <- seq_shift, map_map. rewrite <- (IH (a ++ to_be 32 w) c (i + 32)) at 2; [|lia|rewrite app_length, to_be_length; lia|exact Hws].
    unfold abi_words. rewrite <- !app_assoc. apply map_ext. intros j. f_equal. lia.
Qed.
Theorem C81_decodes : forall pk salt s2 p, Z.of_nat (length salt) < 2 ^ 256 -> abi_encode_sig pk salt s2 = Ok p -> abi_decode_sig p = (pk, salt, s2).
Proof.
  intros pk salt s2 p L E. unfold abi_encode_sig in E. destruct (_ && _ && _ && _) eqn:C; [|discriminate E]. rewrite !Bool.andb_true_iff, !Nat.eqb_eq, !forallb_forall in C.
  destruct C as (((L1 & L2) & C1) & C2).
  assert (F : forall l, (forall x, In x l -> word_ok x = true) -> Forall (fun w => 0 <= w < 2 ^ 256) l).
  { intros l Hl. apply Forall_forall. intros x Hx. specialize (Hl x Hx). unfold word_ok in Hl. rewrite Bool.andb_true_iff, Z.leb_le, Z.ltb_lt in Hl. exact Hl. }
  apply F in C1, C2. clear F.
  apply (f_equal (fun r => match r with Ok x => x | Raise _ => [] end)) in E. cbn beta iota in E. subst p. set (z := repeat 0 _).
  set (p := flat_map (to_be 32) pk ++ _).
  assert (P1 : length (flat_map (to_be 32) pk) = Z.to_nat 1024) by (rewrite flat_be_length, L1; reflexivity).
  assert (P2 : p = (flat_map (to_be 32) pk ++ to_be 32 2080) ++ flat_map (to_be 32) s2 ++ to_be 32 (Z.of_nat (length salt)) ++ salt ++ z) by (unfold p; rewrite <- !app_assoc; reflexivity).
  assert (Q2 : length (flat_map (to_be 32) pk ++ to_be 32 2080) = Z.to_nat 1056) by (rewrite app_length, to_be_length, P1; reflexivity).
  assert (P3 : p = ((flat_map (to_be 32) pk ++ to_be 32 2080) ++ flat_map (to_be 32) s2) ++ to_be 32 (Z.of_nat (length salt)) ++ salt ++ z) by (rewrite P2, <- !app_assoc; reflexivity).
  assert (Q3 : length ((flat_map (to_be 32) pk ++ to_be 32 2080) ++ flat_map (to_be 32) s2) = Z.to_nat 2080) by (rewrite app_length, Q2, flat_be_length, L2; reflexivity).
  assert (W0 : abi_words p 0 32 = pk). { unfold p. pose proof (words_at pk [] (to_be 32 2080 ++ flat_map (to_be 32) s2 ++ to_be 32 (Z.of_nat (length salt)) ++ salt ++ z) 0 ltac:(lia) eq_refl C1) as W. rewrite L1 in W. exact W. }
  assert (W1 : abi_word p 1024 = 2080). { unfold p. apply word_at; [exact P1|]. split; [discriminate|reflexivity]. }
  assert (W2 : abi_words p 1056 32 = s2). { rewrite P2. pose proof (words_at s2 (flat_map (to_be 32) pk ++ to_be 32 2080) (to_be 32 (Z.of_nat (length salt)) ++ salt ++ z) 1056 ltac:(lia) Q2 C2) as W. rewrite L2 in W. exact W. }
  assert (W3 : abi_word p 2080 = Z.of_nat (length salt)) by (rewrite P3; apply word_at; [exact Q3|lia]).
  unfold abi_decode_sig. rewrite W0, W1, W2, W3. do 2 f_equal. rewrite Nat2Z.id, P3, app_assoc.
  set (hd := _ ++ to_be 32 (Z.of_nat (length salt))). assert (Lh : length hd = (Z.to_nat 2080 + 32)%nat) by (unfold hd; rewrite app_length, Q3, to_be_length; reflexivity).
  rewrite <- Lh. rewrite skipn_app, skipn_all, Nat.sub_diag. cbn [app skipn]. rewrite firstn_app, Nat.sub_diag, firstn_O, app_nil_r. apply firstn_all.
Qed.
Print Assumptions C81_decodes.

(** * Facts about the pieces *)
Lemma unhex_range a x : unhex a = Some x -> 0 <= x < 16.
Proof.
  unfold unhex, is_digit. destruct ((48 <=? a) && (a <=? 57)) eqn:A; [intros E; injection E as <-; rewrite Bool.andb_true_iff, !Z.leb_le in A; lia|].
  destruct ((97 <=? a) && (a <=? 102)) eqn:B; [intros E; injection E as <-; rewrite Bool.andb_true_iff, !Z.leb_le in B; lia|].
  destruct ((65 <=? a) && (a <=? 70)) eqn:C; [intros E; injection E as <-; rewrite Bool.andb_true_iff, !Z.leb_le in C; lia|]. discriminate.
Qed.
Lemma fromhex_bytes : forall m s r, (length s <= m)%nat -> fromhex s = Ok r -> bytes r.
Proof.
  induction m as [|m IH]; intros [|a s] r Hm E; cbn [length] in Hm; try lia; try (cbn in E; injection E as <-; constructor).
  cbn [fromhex] in E. destruct (is_ascii_space a); [apply (IH s); [lia|exact E]|]. destruct s as [|b s]; [discriminate|]. cbn [length] in Hm.
  destruct (unhex a) as [x|] eqn:A; [|discriminate]. destruct (unhex b) as [y|] eqn:B; [|discriminate].
  destruct (fromhex s) as [r'|] eqn:R; cbn [bind] in E; [|discriminate]. assert (r = 16 * x + y :: r') by congruence. subst r. constructor; [|apply (IH s); [lia|exact R]].
  apply unhex_range in A, B. unfold is_byte. lia.
Qed.
Lemma fromhex_hex_nl b : bytes b -> fromhex (hex b ++ [c_nl]) = Ok b.
Proof.
  induction b as [|x b IH]; intros H; [reflexivity|]. inversion H as [|? ? Hx Hb]; subst. unfold is_byte in Hx. unfold hex in *. cbn [flat_map app].
  destruct (unhex_hexdigit (x / 16)) as [A A']; [split; [apply Z.div_pos; lia|apply Z.div_lt_upper_bound; lia]|].
  destruct (unhex_hexdigit (x mod 16)) as [B _]; [apply Z.mod_pos_bound; lia|].
  rewrite (fromhex2 _ _ _ _ _ b A' A B (IH Hb)). do 2 f_equal. pose proof (Z.div_mod x 16). lia.
Qed.
Lemma salt_facts seed : bytes seed -> length (ss_salt seed) = 40%nat /\ bytes (ss_salt seed).
Proof.
  intros B. unfold ss_salt, sign_prng.
  assert (B' : bytes (seed ++ chars "_sign")) by (apply bytes_app; split; [exact B|vm_compute; repeat constructor; discriminate]).
  destruct (shakeUpdate_eq shake_new _ okh_new B') as [_ O1]. destruct (shakePad_eq _ false O1) as [_ O2].
  destruct (read_ok _ FalconModel.SALT_LEN O2) as (s' & o & E & L & _ & Bo). rewrite E. split; [exact L|exact Bo].
Qed.
Lemma abi_bytes pk salt s2 p : bytes salt -> abi_encode_sig pk salt s2 = Ok p -> bytes p.
Proof.
  intros B E. unfold abi_encode_sig in E. destruct (_ && _ && _ && _); [|discriminate]. apply (f_equal (fun r => match r with Ok x => x | Raise _ => [] end)) in E. cbn beta iota in E. subst p.
  assert (W : forall x, bytes (to_be 32 x)) by (intros x; pose proof (flat_be_bytes 32 [x]) as F; cbn [flat_map] in F; rewrite app_nil_r in F; exact F).
  apply bytes_cat; [apply flat_be_bytes|]. apply bytes_cat; [apply W|]. apply bytes_cat; [apply flat_be_bytes|]. apply bytes_cat; [apply W|]. apply bytes_cat; [exact B|]. apply Forall_forall. intros x Hx. apply repeat_spec in Hx. subst. unfold is_byte. lia.
Qed.

(** * What a run that prints has done *)
Definition printed_run Hk gen smp fh fuel fv arg1 arg2 arg3 out :=
  exists msg seed f g F G K P X sig S2 PK p,
    fromhex (skipn 2 arg1) = Ok msg /\ fromhex arg3 = Ok seed /\ gen seed = Fin (Ok (f, g, F, G)) /\ SecretKey 512 f g F G = Ok K /\ PublicKey 512 (sk_h K) = Ok P /\
    ss_xof Hk arg2 = Ok X /\ sign fh fuel K (fun i point => smp K (ss_attempt_seed seed i) point) (fun _ => ss_salt seed) msg X = Fin (Ok sig) /\
    onchain_falcon_args (sk_h K) sig = Ok (Some (S2, PK)) /\ verify fv P msg sig X = Fin (Ok true) /\
    abi_encode_sig PK (slice HEAD_LEN (HEAD_LEN + FalconModel.SALT_LEN) sig) S2 = Ok p /\ out = hex p ++ [c_nl].
Lemma run_inv Hk gen smp fh fuel fv arg1 arg2 arg3 out : sig_sol Hk gen smp fh fuel fv arg1 arg2 arg3 = Fin (Ok out) <-> printed_run Hk gen smp fh fuel fv arg1 arg2 arg3 out.
Proof.
  unfold sig_sol, printed_run. split.
  - destruct (fromhex (skipn 2 arg1)) as [msg|] eqn:E1; cbn [lift fbind]; [|discriminate]. destruct (fromhex arg3) as [seed|] eqn:E2; cbn [lift fbind]; [|discriminate].
    destruct (gen seed) as [[[[[f g] F] G]|]|] eqn:E3; cbn [fbind]; try discriminate. destruct (SecretKey 512 f g F G) as [K|] eqn:E4; cbn [lift fbind]; [|discriminate].
    destruct (PublicKey 512 (sk_h K)) as [P|] eqn:E5; cbn [lift fbind]; [|discriminate]. destruct (ss_xof Hk arg2) as [X|] eqn:E6; cbn [lift fbind]; [|discriminate].
    destruct (sign _ _ _ _ _ _ _) as [[sig|]|] eqn:E7; cbn [fbind]; try discriminate. destruct (onchain_falcon_args (sk_h K) sig) as [[[S2 PK]|]|] eqn:E8; cbn [lift fbind]; try discriminate.
    destruct (verify fv P msg sig X) as [[[]|]|] eqn:E9; cbn [fbind]; try discriminate. destruct (abi_encode_sig _ _ _) as [p|] eqn:E10; cbn [lift fbind]; [|discriminate].
    intros E. exists msg, seed, f, g, F, G, K, P, X, sig, S2, PK, p. repeat (split; [first [assumption | reflexivity]|]). congruence.
  - intros (msg & seed & f & g & F & G & K & P & X & sig & S2 & PK & p & E1 & E2 & E3 & E4 & E5 & E6 & E7 & E8 & E9 & E10 & ->).
    rewrite E1, E2. cbn [lift fbind]. rewrite E3. cbn [fbind]. rewrite E4. cbn [lift fbind]. rewrite E5, E6. cbn [lift fbind]. rewrite E7. cbn [fbind]. rewrite E8. cbn [lift fbind].
    rewrite E9. cbn [fbind]. rewrite E10. reflexivity.
Qed.
Lemma SecretKey_h512 f g F G K : SecretKey 512 f g F G = Ok K -> length (sk_h K) = 512%nat.
Proof.
  intros E. destruct (SecretKey_facts _ _ _ _ _ _ E) as (b & l & lg & h & _ & Lf & Lg & _ & _ & D & ->). cbn [sk_h]. pose proof (div_public 9 512 f g h ltac:(lia) eq_refl Lf Lg D) as [(Lh & _) _]. exact Lh.
Qed.
Lemma seqb_true a b : seqb a b = true -> a = b.
Proof. unfold seqb. destruct (list_eq_dec Z.eq_dec a b); [auto|discriminate]. Qed.
Lemma xof_nist Hk : ss_xof Hk (chars "NIST") = Ok SHAKE. Proof. reflexivity. Qed.
Lemma xof_eth Hk : ss_xof Hk (chars "ETH") = Ok (KeccakPRNG Hk). Proof. reflexivity. Qed.
Lemma zero_compact : falcon_compact (map (fun e => e mod q) (repeat 0 512)) = Ok (repeat 0 32). Proof. vm_compute. reflexivity. Qed.
Lemma zero_s2 h sig s1 S2 PK : decompress (skipn 41 sig) 625 512 = Ok (Some s1) -> onchain_falcon_args h sig = Ok (Some (S2, PK)) -> S2 <> repeat 0 32 -> s1 <> repeat 0 512.
Proof.
  intros D E N ->. apply N. unfold onchain_falcon_args in E. change (666 - HEAD_LEN - FalconModel.SALT_LEN)%nat with 625%nat in E. rewrite D in E. cbn [bind] in E.
  rewrite zero_compact in E. cbn [bind] in E. destruct (falcon_compact (ntt h)); cbn [bind] in E; [|discriminate]. congruence.
Qed.
Lemma args_pk h sig S2 PK : onchain_falcon_args h sig = Ok (Some (S2, PK)) -> falcon_compact (ntt h) = Ok PK.
Proof.
  unfold onchain_falcon_args. generalize (decompress (skipn 41 sig) (666 - HEAD_LEN - FalconModel.SALT_LEN) 512). intros [[s1|]|] E; cbn [bind] in E; [|discriminate E|discriminate E].
  revert E. generalize (falcon_compact (map (fun e => e mod q) s1)) as A. generalize (falcon_compact (ntt h)) as B. intros [B|] [A|] E; cbn [bind] in E; try discriminate E. congruence.
Qed.
(** the salt read in the signature, and the bytes *)
Lemma sig_salt f g F G K smp fh fuel seed msg X sig : SecretKey 512 f g F G = Ok K -> bytes seed ->
  sign fh fuel K smp (fun _ => ss_salt seed) msg X = Fin (Ok sig) -> slice 1 41 sig = ss_salt seed /\ bytes sig.
Proof.
  intros HK B E. destruct (salt_facts seed B) as [LS BS]. eapply C29_signature_format in E; [|exact HK|exact LS].
  destruct E as (k & b & l & enc & j & c & s0 & s1 & Hn & Hp & -> & _ & Be & _). destruct (params_facts _ _ _ _ Hp) as (k' & Hk' & Hn' & Hl & _). split.
  - apply slice_app_1. exact LS.
  - apply bytes_cat; [apply byte1; lia|]. apply bytes_cat; [exact BS|exact Be].
Qed.

(** * The printed line is a signature that the contract accepts *)
(** mode NIST: ZKNOX_falcon.verify. The hexadecimal digits that vm.ffi decodes (fromhex out), decoded by abi.decode, are the three arguments. *)
Theorem C81_accepted_on_chain_nist : forall Hk gen smp fh fuel fv arg1 arg3 out fmp, 128 <= fmp ->
  sig_sol Hk gen smp fh fuel fv arg1 (chars "NIST") arg3 = Fin (Ok out) ->
  exists msg p pk salt s2, fromhex (skipn 2 arg1) = Ok msg /\ fromhex out = Ok p /\ abi_decode_sig p = (pk, salt, s2) /\ length salt = 40%nat /\
    (s2 <> repeat 0 32 -> contract_verify hashToPointNIST fmp fv msg salt s2 pk = Fin (Ok true)).
Proof.
  intros Hk gen smp fh fuel fv arg1 arg3 out fmp Hf R. apply run_inv in R.
  destruct R as (msg & seed & f & g & F & G & K & P & X & sig & S2 & PK & p & E1 & E2 & E3 & E4 & E5 & E6 & E7 & E8 & E9 & E10 & ->).
  rewrite xof_nist in E6. assert (X = SHAKE) by congruence. subst X. pose proof (fromhex_bytes _ _ _ (le_n _) E1) as Bm. pose proof (fromhex_bytes _ _ _ (le_n _) E2) as Bs.
  destruct (sig_salt _ _ _ _ _ _ _ _ _ _ _ _ E4 Bs E7) as [ES BS]. change (slice HEAD_LEN (HEAD_LEN + FalconModel.SALT_LEN) sig) with (slice 1 41 sig) in E10. rewrite ES in E10.
  destruct (salt_facts seed Bs) as [LS BSs]. exists msg, p, PK, (ss_salt seed), S2. split; [exact E1|]. split; [apply fromhex_hex_nl; eapply abi_bytes; eassumption|].
  split; [apply C81_decodes; [rewrite LS; reflexivity|exact E10]|]. split; [exact LS|]. intros N.
  destruct (C54_honest_falcon (sk_h K) P fv msg sig fmp E5 (SecretKey_h512 _ _ _ _ _ E4) BS Bm Hf E9) as (s1 & S2' & PK' & D & E8' & A).
  rewrite E8 in E8'. assert (S2' = S2 /\ PK' = PK) as [-> ->] by (split; congruence). rewrite ES in A. apply A. eapply zero_s2; eassumption.
Qed.
Print Assumptions C81_accepted_on_chain_nist.
(** mode ETH: ZKNOX_ethfalcon.verify, for messages that fit the buffer of hashToPointEVM *)
Theorem C81_accepted_on_chain_eth : forall Hk, (forall m, length (Hk m) = 32%nat) -> (forall m, Forall (fun b => 0 <= b < 256) (Hk m)) ->
  forall gen smp fh fuel fv fuel' arg1 arg3 out fmp, 128 <= fmp -> (fv <= 16 * fuel' - 1)%nat ->
  sig_sol Hk gen smp fh fuel fv arg1 (chars "ETH") arg3 = Fin (Ok out) ->
  exists msg p pk salt s2, fromhex (skipn 2 arg1) = Ok msg /\ fromhex out = Ok p /\ abi_decode_sig p = (pk, salt, s2) /\ length salt = 40%nat /\
    ((40 + length msg <= Z.to_nat 4096)%nat -> s2 <> repeat 0 32 -> contract_verify (hashToPointEVM Hk) fmp (S fuel') msg salt s2 pk = Fin (Ok true)).
Proof.
  intros Hk H32 HB gen smp fh fuel fv fuel' arg1 arg3 out fmp Hf Hfu R. apply run_inv in R.
  destruct R as (msg & seed & f & g & F & G & K & P & X & sig & S2 & PK & p & E1 & E2 & E3 & E4 & E5 & E6 & E7 & E8 & E9 & E10 & ->).
  rewrite xof_eth in E6. assert (X = KeccakPRNG Hk) by congruence. subst X. pose proof (fromhex_bytes _ _ _ (le_n _) E1) as Bm. pose proof (fromhex_bytes _ _ _ (le_n _) E2) as Bs.
  destruct (sig_salt _ _ _ _ _ _ _ _ _ _ _ _ E4 Bs E7) as [ES BS]. change (slice HEAD_LEN (HEAD_LEN + FalconModel.SALT_LEN) sig) with (slice 1 41 sig) in E10. rewrite ES in E10.
  destruct (salt_facts seed Bs) as [LS BSs]. exists msg, p, PK, (ss_salt seed), S2. split; [exact E1|]. split; [apply fromhex_hex_nl; eapply abi_bytes; eassumption|].
  split; [apply C81_decodes; [rewrite LS; reflexivity|exact E10]|]. split; [exact LS|]. intros Lm N.
  destruct (C54_honest_ethfalcon Hk H32 HB (sk_h K) P fv msg sig fmp fuel' E5 (SecretKey_h512 _ _ _ _ _ E4) Lm Hf Hfu E9) as (s1 & S2' & PK' & D & E8' & A).
  rewrite E8 in E8'. assert (S2' = S2 /\ PK' = PK) as [-> ->] by (split; congruence). rewrite ES in A. apply A. eapply zero_s2; eassumption.
Qed.
Print Assumptions C81_accepted_on_chain_eth.

(** * The script always prints once signing has returned: the assertion and the encodings never fail *)
Theorem C81_complete : forall Hk gen smp fh fuel fv arg1 arg2 arg3 msg seed f g F G K X sig,
  fromhex (skipn 2 arg1) = Ok msg -> fromhex arg3 = Ok seed ->
  (arg2 = chars "NIST" /\ X = SHAKE) \/ (arg2 = chars "ETH" /\ X = KeccakPRNG Hk) ->
  gen seed = Fin (Ok (f, g, F, G)) -> ntru_key 512 f g F G -> SecretKey 512 f g F G = Ok K ->
  (forall sd c, length c = 512%nat -> lattice_point 512 f g F G (fst (smp K sd c)) (snd (smp K sd c))) ->
  sign fh fuel K (fun i point => smp K (ss_attempt_seed seed i) point) (fun _ => ss_salt seed) msg X = Fin (Ok sig) -> (fh <= fv)%nat ->
  exists out, sig_sol Hk gen smp fh fuel fv arg1 arg2 arg3 = Fin (Ok out).
Proof.
  intros Hk gen smp fh fuel fv arg1 arg2 arg3 msg seed f g F G K X sig E1 E2 HX E3 NK E4 HS E7 Hf.
  pose proof (fromhex_bytes _ _ _ (le_n _) E1) as Bm. pose proof (fromhex_bytes _ _ _ (le_n _) E2) as Bs. destruct (salt_facts seed Bs) as [LS _].
  assert (EX : ss_xof Hk arg2 = Ok X) by (destruct HX as [[-> ->]|[-> ->]]; reflexivity).
  assert (EP : exists P, PublicKey 512 (sk_h K) = Ok P /\ pk_len P = Z.to_nat 666) by (unfold PublicKey; eexists; split; reflexivity). destruct EP as (P & EP & EL).
  assert (V : verify fv P msg sig X = Fin (Ok true)).
  { eapply C27_falcon_completeness with (rb := fun _ => ss_salt seed); [exact NK|exact E4|exact EP| |exact LS|exact E7|exact Hf]. intros i c Lc. apply HS. exact Lc. }
  pose proof (SecretKey_h512 _ _ _ _ _ E4) as Lh.
  pose proof (verify_cases 512 (sk_h K) P fv msg sig X EP Lh) as C. rewrite EL in C. change (Z.to_nat 666 - 41)%nat with 625%nat in C.
  assert (D : exists s1, decompress (skipn 41 sig) 625 512 = Ok (Some s1) /\ length s1 = 512%nat).
  { destruct (decompress (skipn 41 sig) 625 512) as [[s1|]|] eqn:D; try congruence. exists s1. split; [reflexivity|]. apply (decompress_accepts (skipn 41 sig) 625 512 s1) in D; [tauto|lia]. }
  destruct D as (s1 & D & L1).
  assert (W : forall a, length a = 512%nat -> canonq a -> exists w, falcon_compact a = Ok w /\ length w = 32%nat /\ Forall (fun w => 0 <= w < 2 ^ 256) w).
  { intros a La Ca. destruct (C49_roundtrip a La (canonq_dig _ Ca)) as (w & Ew & Lw & Fw & _). exists w. split; [exact Ew|]. split; [exact Lw|exact Fw]. }
  destruct (W (map (fun e => e mod q) s1)) as (S2 & ES2 & LS2 & FS2).
  { rewrite map_length. exact L1. } { apply Forall_forall. intros x Hx. apply in_map_iff in Hx. destruct Hx as (y & <- & _). apply Z.mod_pos_bound. reflexivity. }
  destruct (W (ntt (sk_h K)) (ntt_length 9 K9 512 N9 _ Lh) (ntt_canon 9 K9 512 N9 _ Lh)) as (PK & EPK & LPK & FPK).
  assert (A : onchain_falcon_args (sk_h K) sig = Ok (Some (S2, PK))).
  { unfold onchain_falcon_args. change (666 - HEAD_LEN - FalconModel.SALT_LEN)%nat with 625%nat. rewrite D. cbn [bind]. rewrite ES2. cbn [bind]. rewrite EPK. reflexivity. }
  assert (O : forall l, Forall (fun w => 0 <= w < 2 ^ 256) l -> forallb word_ok l = true).
  { intros l Fl. apply forallb_forall. intros x Hx. rewrite Forall_forall in Fl. specialize (Fl x Hx). unfold word_ok. rewrite Bool.andb_true_iff, Z.leb_le, Z.ltb_lt. exact Fl. }
  assert (B : exists p, abi_encode_sig PK (slice HEAD_LEN (HEAD_LEN + FalconModel.SALT_LEN) sig) S2 = Ok p).
  { unfold abi_encode_sig. rewrite LPK, LS2, (O _ FPK), (O _ FS2). cbn [Nat.eqb andb]. eexists. reflexivity. }
  destruct B as (p & B). exists (hex p ++ [c_nl]). apply run_inv. exists msg, seed, f, g, F, G, K, P, X, sig, S2, PK, p. repeat (split; [assumption|]). reflexivity.
Qed.
Print Assumptions C81_complete.

(** * Hazards *)
(** the salt and the key depend on the seed alone: two messages signed with one seed, in any modes, carry the same salt *)
Theorem C81_salt_reused : forall Hk gen smp fh fuel fv fh' fuel' fv' arg1 arg1' arg2 arg2' seed out out' p p' pk pk' salt salt' s2 s2',
  sig_sol Hk gen smp fh fuel fv arg1 arg2 seed = Fin (Ok out) -> sig_sol Hk gen smp fh' fuel' fv' arg1' arg2' seed = Fin (Ok out') ->
  fromhex out = Ok p -> fromhex out' = Ok p' -> abi_decode_sig p = (pk, salt, s2) -> abi_decode_sig p' = (pk', salt', s2') -> pk = pk' /\ salt = salt'.
Proof.
  assert (Q : forall Hk gen smp fh fuel fv arg1 arg2 arg3 out p pk salt s2, sig_sol Hk gen smp fh fuel fv arg1 arg2 arg3 = Fin (Ok out) -> fromhex out = Ok p ->
    abi_decode_sig p = (pk, salt, s2) -> exists seed f g F G K, fromhex arg3 = Ok seed /\ gen seed = Fin (Ok (f, g, F, G)) /\ SecretKey 512 f g F G = Ok K /\
      falcon_compact (ntt (sk_h K)) = Ok pk /\ salt = ss_salt seed).
  { intros Hk gen smp fh fuel fv arg1 arg2 arg3 out p pk salt s2 R EP ED. apply run_inv in R.
    destruct R as (msg & seed & f & g & F & G & K & P & X & sig & S2 & PK & p' & E1 & E2 & E3 & E4 & E5 & E6 & E7 & E8 & E9 & E10 & ->).
    pose proof (fromhex_bytes _ _ _ (le_n _) E2) as Bs. destruct (sig_salt _ _ _ _ _ _ _ _ _ _ _ _ E4 Bs E7) as [ES BS].
    change (slice HEAD_LEN (HEAD_LEN + FalconModel.SALT_LEN) sig) with (slice 1 41 sig) in E10. rewrite ES in E10. destruct (salt_facts seed Bs) as [LS BSs].
    rewrite (fromhex_hex_nl _ (abi_bytes _ _ _ _ BSs E10)) in EP. assert (p' = p) by congruence. subst p'.
    assert (L : Z.of_nat (length (ss_salt seed)) < 2 ^ 256) by (rewrite LS; reflexivity). rewrite (C81_decodes _ _ _ _ L E10) in ED.
    assert (EPK : pk = PK) by congruence. assert (Esalt : salt = ss_salt seed) by congruence. subst pk salt.
    exists seed, f, g, F, G, K. repeat (split; [assumption|]). split; [|reflexivity].
    exact (args_pk _ _ _ _ E8). }
  intros Hk gen smp fh fuel fv fh' fuel' fv' arg1 arg1' arg2 arg2' arg3 out out' p p' pk pk' salt salt' s2 s2' R R' EP EP' ED ED'.
  destruct (Q _ _ _ _ _ _ _ _ _ _ _ _ _ _ R EP ED) as (seed & f & g & F & G & K & A1 & A2 & A3 & A4 & A5).
  destruct (Q _ _ _ _ _ _ _ _ _ _ _ _ _ _ R' EP' ED') as (seed' & f' & g' & F' & G' & K' & B1 & B2 & B3 & B4 & B5).
  assert (seed' = seed) by congruence. subst seed'. rewrite A2 in B2. assert (f' = f /\ g' = g /\ F' = F /\ G' = G) as (-> & -> & -> & ->) by (repeat split; congruence).
  rewrite A3 in B3. assert (K' = K) by congruence. subst K'. split; congruence.
Qed.
Print Assumptions C81_salt_reused.
(** the first two characters of the message argument are dropped, whatever they are: with the 0x forgotten, the first byte is not signed *)
Theorem C81_prefix_ignored : forall Hk gen smp fh fuel fv a b rest arg2 arg3,
  sig_sol Hk gen smp fh fuel fv (a :: b :: rest) arg2 arg3 = sig_sol Hk gen smp fh fuel fv (chars "0x" ++ rest) arg2 arg3.
Proof. reflexivity. Qed.
(** nothing is printed for any other mode, in whatever case it is written *)
Theorem C81_other_modes : forall Hk gen smp fh fuel fv arg1 arg2 arg3 out, arg2 <> chars "ETH" -> arg2 <> chars "NIST" ->
  sig_sol Hk gen smp fh fuel fv arg1 arg2 arg3 <> Fin (Ok out).
Proof.
  intros Hk gen smp fh fuel fv arg1 arg2 arg3 out N1 N2 R. apply run_inv in R.
  destruct R as (msg & seed & f & g & F & G & K & P & X & sig & S2 & PK & p & E1 & E2 & E3 & E4 & E5 & E6 & _).
  unfold ss_xof in E6. destruct (seqb arg2 (chars "ETH")) eqn:A; [apply N1; now apply seqb_true|]. destruct (seqb arg2 (chars "NIST")) eqn:B; [apply N2; now apply seqb_true|]. discriminate.
Qed.
Print Assumptions C81_other_modes.

(** * A run: the key f = 1, g = 0, F = 0, G = q, the zero of the lattice shifted by one, a hash whose words are all small *)
Definition x_gen (seed : list Z) : fres (list Z * list Z * list Z * list Z) := Fin (Ok (1 :: repeat 0 511, repeat 0 512, repeat 0 512, 12289 :: repeat 0 511)).
Definition x_smp (K : seckey) (sd c : list Z) : list Z * list Z := (repeat 0 512, -1 :: repeat 0 511).
Definition prints (r : fres (list Z)) : bool :=
  match r with Fin (Ok o) => match fromhex o with Ok p => match abi_decode_sig p with (_, _, s) => negb (hd 0 s =? 0) end | _ => false end | _ => false end.
Lemma x_run : prints (sig_sol ex_Hk x_gen x_smp 600 5 600 (chars "0x0102") (chars "ETH") (chars "00ff")) = true.
Proof. vm_cast_no_check (eq_refl true). Qed.
Lemma ex_Hk32 m : length (ex_Hk m) = 32%nat. Proof. reflexivity. Qed.
Lemma ex_Hk_bytes m : Forall (fun b => 0 <= b < 256) (ex_Hk m).
Proof. unfold ex_Hk. apply Forall_forall. intros x Hx. apply in_flat_map in Hx. destruct Hx as (i & _ & [<-|[<-|[]]]); lia. Qed.
Example C81_nontrivial : exists out p pk salt s2, sig_sol ex_Hk x_gen x_smp 600 5 600 (chars "0x0102") (chars "ETH") (chars "00ff") = Fin (Ok out) /\
  fromhex out = Ok p /\ abi_decode_sig p = (pk, salt, s2) /\ s2 <> repeat 0 32 /\ contract_verify (hashToPointEVM ex_Hk) 128 40 [1; 2] salt s2 pk = Fin (Ok true).
Proof.
  pose proof x_run as R. destruct (sig_sol _ _ _ _ _ _ _ _ _) as [[out|]|] eqn:E; try discriminate R.
  destruct (C81_accepted_on_chain_eth ex_Hk ex_Hk32 ex_Hk_bytes x_gen x_smp 600 5 600 39 _ _ out 128 ltac:(lia) ltac:(lia) E) as (msg & p & pk & salt & s2 & E1 & E2 & E3 & _ & A).
  exists out, p, pk, salt, s2. split; [reflexivity|]. split; [exact E2|]. split; [exact E3|].
  assert (N : s2 <> repeat 0 32).
  { intros ->. unfold prints in R. rewrite E2, E3 in R. discriminate R. }
  split; [exact N|]. assert (msg = [1; 2]) by (vm_compute in E1; congruence). subst msg. apply A; [vm_compute; lia|exact N].
Qed.
