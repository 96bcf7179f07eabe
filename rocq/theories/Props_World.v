(** C61, C67, C68, C71: storage, code storage, the packed entry point and the stateful NTT contract. *)
From Verif Require Import Base KeccakModel PrngModel HashModel FalconModel RingSpec Ring NttTables NttModel NttProofs NttInst NttApi Props_Hash SolModel SolSpec PackProofs SolWorldModel SolWorldProofs.
Set Default Goal Selector "!".

(** * C61: the "antifuse" of ZKNOX_NTT *)
(** the calls that anyone can make after deployment *)
Inductive ntt_call := Update (psi_rev psi_inv_rev q nm1 : Z) | MakeImmutable.
Definition ntt_step (s : ntt_state) (c : ntt_call) : ntt_state :=
  match c with Update a b q n => ntt_update a b q n s | MakeImmutable => ntt_make_immutable s end.
Definition ntt_reachable (s : ntt_state) : Prop :=
  exists a b q n calls, s = fold_left ntt_step calls (ntt_constructor a b q n).

Lemma reachable_flag s : ntt_reachable s -> is_immutable s = 1.
Proof.
  intros (a & b & q & n & calls & ->). assert (G : forall l s, is_immutable s = 1 -> is_immutable (fold_left ntt_step l s) = 1).
  { induction l as [|c l IH]; intros s0 H; [exact H|]. cbn [fold_left]. apply IH. destruct c; cbn [ntt_step].
    - unfold ntt_update. rewrite H. reflexivity.
    - reflexivity. }
  apply G. reflexivity.
Qed.
(** Whatever has been called before, including make_immutable, update replaces everything ... *)
Theorem C61_update_always_works : forall s a b q n, ntt_reachable s ->
  let s' := ntt_step s (Update a b q n) in o_psirev s' = a /\ o_psi_inv_rev s' = b /\ storage_q s' = q /\ storage_nm1modq s' = n.
Proof. intros s a b q n H. pose proof (reachable_flag s H) as E. cbn [ntt_step]. unfold ntt_update. rewrite E. repeat split. Qed.
Print Assumptions C61_update_always_works.
(** ... and make_immutable changes nothing. *)
Theorem C61_make_immutable_is_noop : forall s, ntt_reachable s -> ntt_step s MakeImmutable = s.
Proof. intros s H. pose proof (reachable_flag s H) as E. destruct s. cbn in *. subst. reflexivity. Qed.
Print Assumptions C61_make_immutable_is_noop.
(** The documented property "by calling this function, the contract storage variables cannot be modified" is false. *)
Theorem C61_freezes_refuted : ~ (forall s c, ntt_reachable s ->
  let s' := ntt_step s MakeImmutable in storage_q (ntt_step s' c) = storage_q s').
Proof.
  intros H. specialize (H (ntt_constructor 1 2 12289 12265) (Update 0 0 1 0)).
  specialize (H (ex_intro _ 1 (ex_intro _ 2 (ex_intro _ 12289 (ex_intro _ 12265 (ex_intro _ [] eq_refl)))))). discriminate H.
Qed.
Print Assumptions C61_freezes_refuted.
(** Effect on the users of the contract: one call by anybody makes every later product (until the next update) zero. *)
Theorem C61_anyone_breaks_products : forall s codes a b r, ntt_reachable s ->
  let s' := ntt_step (ntt_step s MakeImmutable) (Update (o_psirev s) (o_psi_inv_rev s) 1 (storage_nm1modq s)) in
  (NTT_MUL_stateful codes s' a b = Ok r -> Forall (fun x => x = 0) r) /\
  (NTT_HALFMUL_stateful codes s' a b = Ok r -> Forall (fun x => x = 0) r).
Proof.
  intros s codes a b r H. rewrite (C61_make_immutable_is_noop s H).
  destruct (C61_update_always_works s (o_psirev s) (o_psi_inv_rev s) 1 (storage_nm1modq s) H) as (_ & _ & Hq & _).
  cbv zeta in *. set (s' := ntt_step s _) in *. split.
  - unfold NTT_MUL_stateful, NTTINV_stateful. rewrite Hq. destruct (ZKNOX_VECMULMOD 1 _ _); [|intros E; discriminate E].
    cbn [bind]. intros E. assert (Er : r = nttinv 1 (code_table (codes (o_psi_inv_rev s'))) (storage_nm1modq s') (length a0) a0) by congruence.
    rewrite Er. apply nttinv_q1.
  - unfold NTT_HALFMUL_stateful, NTTINV_stateful. rewrite Hq. destruct (ZKNOX_VECMULMOD 1 _ _); [|intros E; discriminate E].
    cbn [bind]. intros E. assert (Er : r = nttinv 1 (code_table (codes (o_psi_inv_rev s'))) (storage_nm1modq s') (length a0) a0) by congruence.
    rewrite Er. apply nttinv_q1.
Qed.
Print Assumptions C61_anyone_breaks_products.

(** * C67: code storage *)
(** SSTORE2 stores and reads back any bytes up to 24575, and reverts above *)
Theorem C67_write_read : forall data, bytes data ->
  (Z.of_nat (length data) <= 24575 -> exists code, sstore2_write data = Ok code /\ sstore2_read code = Ok data) /\
  (24575 < Z.of_nat (length data) -> sstore2_write data = Raise Revert).
Proof.
  intros data _. split.
  - intros H. exists (0 :: data). split; [apply sstore2_write_ok; exact H|]. apply sstore2_read_stop.
    eapply Z.le_lt_trans; [exact H|reflexivity].
  - apply sstore2_write_big.
Qed.
Print Assumptions C67_write_read.
(** The ABI-encoded public key comes back from storage as the same words. *)
Theorem C67_key_roundtrip : forall ntth, Forall (fun w => 0 <= w < 2 ^ 256) ntth -> (length ntth <= 765)%nat ->
  exists code, sstore2_write (abi_encode_words ntth) = Ok code /\ (let! d := sstore2_read code in abi_decode_words d) = Ok ntth.
Proof.
  intros l W Hl. assert (Ln : Z.of_nat (length (abi_encode_words l)) = 64 + 32 * Z.of_nat (length l)).
  { unfold abi_encode_words. rewrite be32_len. cbn [length]. lia. }
  exists (0 :: abi_encode_words l). split; [apply sstore2_write_ok; rewrite Ln; lia|].
  rewrite sstore2_read_stop by (rewrite Ln; eapply Z.le_lt_trans with 24575; [lia|reflexivity]). cbn [bind].
  rewrite <- (app_nil_r (abi_encode_words l)). apply abi_roundtrip; [exact W|]. eapply Z.le_lt_trans with 765; [lia|reflexivity].
Qed.
Print Assumptions C67_key_roundtrip.
(** bytes stored after the encoding are ignored by the decoder *)
Theorem C67_decoder_ignores_tail : forall ntth tail, Forall (fun w => 0 <= w < 2 ^ 256) ntth -> Z.of_nat (length ntth) < 2 ^ 64 ->
  abi_decode_words (abi_encode_words ntth ++ tail) = Ok ntth.
Proof. exact abi_roundtrip. Qed.
Print Assumptions C67_decoder_ignores_tail.
(** DeployPolynomial puts exactly the words at the new address, unless they are too long or the first byte is 0xEF, when it reverts *)
Theorem C67_deploy_polynomial : forall l, Forall (fun w => 0 <= w < 2 ^ 256) l ->
  DeployPolynomial l = if (Z.of_nat (length l) <=? 768) && negb (hd 0 l / 2 ^ 248 =? 0xEF) then Ok (flat_map (to_be 32) l) else Raise Revert.
Proof.
  intros l W. assert (E0 : code_byte (flat_map (to_be 32) l) 0 = hd 0 l / 2 ^ 248).
  { destruct l as [|w l]; [reflexivity|]. cbn [flat_map hd]. unfold code_byte. rewrite app_nth1 by (rewrite RecoveryProofs.to_be_length; lia).
    rewrite to_be_nth by lia. change (256 ^ (Z.of_nat 32 - 1 - Z.of_nat 0)) with (2 ^ 248). inversion W as [|? ? Hw _]; subst.
    apply Z.mod_small. split; [apply Z.div_pos; [lia|reflexivity]|]. apply Z.div_lt_upper_bound; [reflexivity|].
    change (2 ^ 248 * 256) with (2 ^ 256). lia. }
  unfold DeployPolynomial. pose proof (be32_len l) as L.
  destruct (Z.leb_spec (Z.of_nat (length l)) 768).
  - destruct (Z.eqb_spec (hd 0 l / 2 ^ 248) 239) as [Ee|Ee]; cbn [andb negb].
    + rewrite create_fails; [reflexivity|]. intros [_ C]. congruence.
    + rewrite create_ok; [reflexivity|]. split; [rewrite L; lia|congruence].
  - cbn [andb]. rewrite create_fails; [reflexivity|]. intros [C _]. rewrite L in C. lia.
Qed.
Print Assumptions C67_deploy_polynomial.
(** so DeployPolynomial can revert on a valid word array, though never on packed residues modulo 12289 *)
Theorem C67_deploys_packed_residues : forall l, Forall (fun w => 0 <= w < 12289 * 2 ^ 240) l -> (length l = 32)%nat ->
  DeployPolynomial l = Ok (flat_map (to_be 32) l).
Proof.
  intros l W L. rewrite C67_deploy_polynomial.
  - rewrite L. change (Z.of_nat 32 <=? 768) with true. destruct l as [|w l]; [discriminate|]. cbn [hd]. inversion W as [|? ? Hw _]; subst.
    destruct (Z.eqb_spec (w / 2 ^ 248) 239) as [E|_]; [|reflexivity]. exfalso.
    assert (w / 2 ^ 248 < 239); [|lia]. apply Z.div_lt_upper_bound; [reflexivity|]. eapply Z.lt_trans; [apply Hw|reflexivity].
  - apply Forall_impl with (2 := W). intros x Hx. split; [lia|]. eapply Z.lt_trans; [apply Hx|reflexivity].
Qed.
Print Assumptions C67_deploys_packed_residues.
Example C67_ef_refused : DeployPolynomial [0xEF * 2 ^ 248] = Raise Revert. Proof. reflexivity. Qed.
Example C67_example : sstore2_write [1; 2; 3] = Ok [0; 1; 2; 3]. Proof. reflexivity. Qed.

(** * C68: the packed entry point *)
(** Parsing specification: 40 bytes of salt, then big endian words of 32 bytes, an incomplete last word being dropped. *)
Definition parsed_salt (sig : list Z) : list Z := firstn 40 sig.
Definition parsed_s2 (sig : list Z) : list Z := s2_words sig.

Section Packed.
(** value returned on success; hash to point; environment of the inner call *)
Variables (selector : Z) (h2p : nat -> list Z -> list Z -> option (list Z)) (fmp : Z) (fuel : nat) (codes : Z -> list Z).
Hypothesis selector_ok : selector <> 0xFFFFFFFF.

(** What the 20 bytes of the public key point to *)
Definition stored_key (pk32 : list Z) : res (list Z) :=
  let! d := sstore2_read (codes (be_int (firstn 20 pk32))) in abi_decode_words d.

Lemma address_of pk32 : bytes pk32 -> length pk32 = 32%nat -> Z.shiftr (be_int pk32) 96 = be_int (firstn 20 pk32).
Proof.
  intros B L. rewrite <- (firstn_skipn 20 pk32) at 1. rewrite be_app, Z.shiftr_div_pow2 by lia.
  assert (L2 : length (skipn 20 pk32) = 12%nat) by (rewrite skipn_length, L; reflexivity).
  pose proof (be_bound (skipn 20 pk32) (bytes_skipn 20 pk32 B)) as Hb. rewrite L2 in *. change (256 ^ Z.of_nat 12) with (2 ^ 96) in *.
  symmetry. apply Z.div_unique with (r := be_int (skipn 20 pk32)); [left; exact Hb|]. ring.
Qed.

(** Exact result, for every public key, digest, signature bytes and memory state holding the signature. *)
Theorem C68_result : forall pk32 digest sig m sigp, bytes pk32 -> length pk32 = 32%nat -> in_memory m sigp sig ->
  Z.of_nat (length sig) < 2 ^ 255 ->
  packed_verify selector h2p fmp fuel codes pk32 digest m sigp =
  match stored_key pk32 with
  | Raise e => Fin (Raise e)
  | Ok ntth =>
    if (1064 <=? length sig)%nat && (length sig <=? 1095)%nat then
      match contract_verify h2p fmp fuel digest (parsed_salt sig) (parsed_s2 sig) ntth with
      | NoFuel => NoFuel
      | Fin (Raise e) => Fin (Raise e)
      | Fin (Ok b) => Fin (Ok (if b then selector else 0xFFFFFFFF))
      end
    else Fin (Raise Revert)
  end.
Proof.
  intros pk32 digest sig m sigp Bp Lp Hm Hbig. unfold packed_verify. rewrite address_of by assumption. fold (stored_key pk32).
  destruct (stored_key pk32) as [ntth|e]; [|reflexivity].
  destruct (Nat.lt_ge_cases (length sig) 40) as [Hs|Hs].
  - pose proof (split_sig_short m sigp sig Hm Hs) as Hw. destruct (split_sig m sigp) as [[m' saltp] s2p].
    assert (B : ((1064 <=? length sig) && (length sig <=? 1095))%nat = false) by (destruct (Nat.leb_spec 1064 (length sig)); [lia|reflexivity]).
    rewrite B.
    assert (Lw : length (mem_words m' s2p) = Z.to_nat (mload m' s2p)) by (unfold mem_words; rewrite map_length, seq_length; reflexivity).
    unfold contract_verify. destruct (length (mem_bytes m' saltp) =? 40)%nat; [cbn [negb]|reflexivity].
    assert (N : (length (mem_words m' s2p) =? falcon_S256)%nat = false).
    { rewrite Lw. apply Nat.eqb_neq. intros E. assert (mload m' s2p = 32) by (unfold falcon_S256 in E; lia).
      assert (2 ^ 250 <= 32) by (rewrite <- H; apply Hw). apply H0. reflexivity. }
    rewrite N. reflexivity.
  - pose proof (split_sig_spec m sigp sig Hm Hbig Hs) as Hw. destruct (split_sig m sigp) as [[m' saltp] s2p]. destruct Hw as [E1 E2].
    rewrite E1, E2. fold (parsed_salt sig). fold (parsed_s2 sig).
    destruct ((1064 <=? length sig)%nat && (length sig <=? 1095)%nat) eqn:B.
    + destruct (contract_verify h2p fmp fuel digest (parsed_salt sig) (parsed_s2 sig) ntth) as [[[|]|e]|]; reflexivity.
    + assert (Lw : length (parsed_s2 sig) = ((length sig - 40) / 32)%nat) by (unfold parsed_s2, s2_words; rewrite map_length, seq_length; reflexivity).
      unfold contract_verify. destruct (length (parsed_salt sig) =? 40)%nat; [cbn [negb]|reflexivity].
      assert (N : (length (parsed_s2 sig) =? falcon_S256)%nat = false).
      { rewrite Lw. apply Nat.eqb_neq. unfold falcon_S256. intros E.
        pose proof (Nat.div_mod (length sig - 40) 32 ltac:(lia)). pose proof (Nat.mod_upper_bound (length sig - 40) 32 ltac:(lia)).
        apply andb_false_iff in B. destruct B as [B|B]; apply Nat.leb_gt in B; lia. }
      rewrite N. reflexivity.
Qed.

(** The selector is returned exactly for signatures of 1064 to 1095 bytes whose parts the inner verify accepts. *)
Theorem C68_accepts_iff : forall pk32 digest sig m sigp, bytes pk32 -> length pk32 = 32%nat -> in_memory m sigp sig ->
  Z.of_nat (length sig) < 2 ^ 255 ->
  (packed_verify selector h2p fmp fuel codes pk32 digest m sigp = Fin (Ok selector) <->
   exists ntth, stored_key pk32 = Ok ntth /\ (1064 <= length sig <= 1095)%nat /\
     contract_verify h2p fmp fuel digest (parsed_salt sig) (parsed_s2 sig) ntth = Fin (Ok true)).
Proof.
  intros pk32 digest sig m sigp Bp Lp Hm Hbig. rewrite (C68_result pk32 digest sig m sigp Bp Lp Hm Hbig).
  destruct (stored_key pk32) as [ntth|e].
  - destruct ((1064 <=? length sig)%nat && (length sig <=? 1095)%nat) eqn:B.
    + apply andb_prop in B. destruct B as [B1 B2]. apply Nat.leb_le in B1. apply Nat.leb_le in B2. split.
      * intros E. exists ntth. split; [reflexivity|]. split; [lia|].
        destruct (contract_verify h2p fmp fuel digest (parsed_salt sig) (parsed_s2 sig) ntth) as [[[|]|e]|].
        -- reflexivity.
        -- exfalso. apply selector_ok. congruence.
        -- discriminate E.
        -- discriminate E.
      * intros (n & En & _ & E). assert (n = ntth) by congruence. subst n. rewrite E. reflexivity.
    + split; [intros E; discriminate E|]. intros (n & En & Hl & E). apply andb_false_iff in B. destruct B as [B|B]; apply Nat.leb_gt in B; lia.
  - split; [intros E; discriminate E|]. intros (n & En & _). discriminate En.
Qed.

(** Two signatures with the same first 1064 bytes, of any lengths up to 1095, get the same answer: up to 31 trailing bytes are not authenticated,
    nor are the bytes after the 20th of the public key. *)
Theorem C68_trailing_bytes_ignored : forall pk32 pk32' digest sig extra m sigp m' sigp', bytes pk32 -> length pk32 = 32%nat ->
  bytes pk32' -> length pk32' = 32%nat -> firstn 20 pk32 = firstn 20 pk32' ->
  length sig = 1064%nat -> (length extra <= 31)%nat -> in_memory m sigp sig -> in_memory m' sigp' (sig ++ extra) ->
  packed_verify selector h2p fmp fuel codes pk32' digest m' sigp' = packed_verify selector h2p fmp fuel codes pk32 digest m sigp.
Proof.
  intros pk32 pk32' digest sig extra m sigp m' sigp' B L B' L' Ep Ls Le Hm Hm'.
  assert (Ll : (length (sig ++ extra) <= 1095)%nat) by (rewrite app_length; lia).
  assert (Ll' : (1064 <= length (sig ++ extra))%nat) by (rewrite app_length; lia).
  rewrite (C68_result pk32 digest sig m sigp B L Hm) by (rewrite Ls; reflexivity).
  rewrite (C68_result pk32' digest (sig ++ extra) m' sigp' B' L' Hm') by (eapply Z.le_lt_trans with 1095; [lia|reflexivity]).
  unfold stored_key. rewrite Ep. destruct (let! d := _ in _) as [ntth|e]; [|reflexivity].
  replace ((1064 <=? length (sig ++ extra)) && (length (sig ++ extra) <=? 1095))%nat with true
    by (symmetry; apply andb_true_iff; split; apply Nat.leb_le; assumption).
  rewrite Ls. change ((1064 <=? 1064)%nat && (1064 <=? 1095)%nat) with true. cbv iota.
  assert (E1 : parsed_salt (sig ++ extra) = parsed_salt sig).
  { unfold parsed_salt. rewrite firstn_app, Ls. change (40 - 1064)%nat with 0%nat. rewrite firstn_O. apply app_nil_r. }
  assert (E2 : parsed_s2 (sig ++ extra) = parsed_s2 sig).
  { unfold parsed_s2, s2_words. rewrite app_length, Ls.
    replace ((1064 + length extra - 40) / 32)%nat with 32%nat by (apply (Nat.div_unique _ 32 32 (length extra)); lia).
    replace ((1064 - 40) / 32)%nat with 32%nat by reflexivity. apply map_ext_in. intros i Hi. apply in_seq in Hi. f_equal.
    rewrite skipn_app, firstn_app, skipn_length, Ls.
    replace (32 - (1064 - (40 + 32 * i)))%nat with 0%nat by lia. cbn [firstn]. apply app_nil_r. }
  rewrite E1, E2. reflexivity.
Qed.

(** What the packing helper produces parses back. *)
Theorem C68_pack_parses : forall salt s2 sig, length salt = 40%nat -> length s2 = 32%nat -> Forall (fun w => 0 <= w < 2 ^ 256) s2 ->
  packSignature salt s2 = Ok sig -> length sig = 1064%nat /\ parsed_salt sig = salt /\ parsed_s2 sig = s2.
Proof.
  intros salt s2 sig Ls L2 W E. unfold packSignature in E. rewrite Ls in E. change (40 <? 40)%nat with false in E. cbv iota in E.
  rewrite firstn_all2 in E by lia. assert (Es : sig = salt ++ flat_map (to_be 32) s2) by congruence. rewrite Es.
  assert (L : length (salt ++ flat_map (to_be 32) s2) = 1064%nat) by (rewrite app_length, be32_len, Ls, L2; reflexivity).
  split; [exact L|]. split.
  - unfold parsed_salt. rewrite firstn_app, Ls, Nat.sub_diag, firstn_O, app_nil_r. apply firstn_all2. lia.
  - unfold parsed_s2, s2_words. rewrite L. replace ((1064 - 40) / 32)%nat with (length s2) by (rewrite L2; reflexivity).
    apply map_seq_nth. intros i Hi. rewrite firstn_skipn_nth by (rewrite L; lia).
    rewrite <- (word_at_words salt s2 [] i W Hi), app_nil_r. unfold word_at. f_equal.
    change (code_byte (salt ++ flat_map (to_be 32) s2)) with (fun j => nth j (salt ++ flat_map (to_be 32) s2) 0).
    rewrite Ls. assert (G : forall k s a, map (fun i0 => nth (a + i0) (salt ++ flat_map (to_be 32) s2) 0) (seq s k) =
      map (fun j => nth j (salt ++ flat_map (to_be 32) s2) 0) (seq (a + s) k)).
    { induction k; intros s a; [reflexivity|]. cbn [seq map]. f_equal. rewrite IHk, Nat.add_succ_r. reflexivity. }
    rewrite G, Nat.add_0_r. reflexivity.
Qed.

(** End to end: key stored with setKey(abi.encode(ntth)), signature packed with the helper: the entry point answers as verify does. *)
Theorem C68_end_to_end : forall ntth salt s2 sig code pk32 digest m sigp, length salt = 40%nat -> length s2 = 32%nat -> length ntth = 32%nat ->
  Forall (fun w => 0 <= w < 2 ^ 256) s2 -> Forall (fun w => 0 <= w < 2 ^ 256) ntth ->
  sstore2_write (abi_encode_words ntth) = Ok code -> bytes pk32 -> length pk32 = 32%nat -> codes (be_int (firstn 20 pk32)) = code ->
  packSignature salt s2 = Ok sig -> in_memory m sigp sig ->
  packed_verify selector h2p fmp fuel codes pk32 digest m sigp =
  match contract_verify h2p fmp fuel digest salt s2 ntth with
  | NoFuel => NoFuel
  | Fin (Raise e) => Fin (Raise e)
  | Fin (Ok b) => Fin (Ok (if b then selector else 0xFFFFFFFF))
  end.
Proof.
  intros ntth salt s2 sig code pk32 digest m sigp Ls L2 Ln W2 Wn Ec Bp Lp Ea Ep Hm.
  destruct (C68_pack_parses salt s2 sig Ls L2 W2 Ep) as (L & E1 & E2).
  rewrite (C68_result pk32 digest sig m sigp Bp Lp Hm) by (rewrite L; reflexivity).
  destruct (C67_key_roundtrip ntth Wn ltac:(lia)) as (code' & Ec' & Ed). assert (code' = code) by congruence. subst code'.
  unfold stored_key. rewrite Ea, Ed, L, E1, E2. reflexivity.
Qed.
End Packed.
Print Assumptions C68_result.
Print Assumptions C68_accepts_iff.
Print Assumptions C68_trailing_bytes_ignored.
Print Assumptions C68_pack_parses.
Print Assumptions C68_end_to_end.

(** hypotheses are met: a memory holding a given signature at 0x80, and the real selector of verify(bytes,bytes32,bytes) *)
Definition memory_with (sig : list Z) : memory_t :=
  mstore (mstore (fun a => nth (Z.to_nat (a - 0xa0)) sig 0) 0x80 (Z.of_nat (length sig))) 0x40 (0xa0 + Z.of_nat (length sig)).
Theorem C68_memory_exists : forall sig, bytes sig -> Z.of_nat (length sig) < 2 ^ 255 -> in_memory (memory_with sig) 0x80 sig.
Proof.
  intros sig B Hl. unfold memory_with. set (m0 := fun a => nth (Z.to_nat (a - 160)) sig 0).
  assert (B0 : forall a, 0 <= m0 a < 256).
  { intros a. unfold m0. destruct (Nat.lt_ge_cases (Z.to_nat (a - 160)) (length sig)) as [H|H].
    - unfold bytes in B. rewrite Forall_forall in B. apply B. apply nth_In. exact H.
    - rewrite nth_overflow by exact H. lia. }
  pose proof (eq_refl : 2 ^ 256 = 2 * 2 ^ 255) as P.
  split; [intros a; apply mstore_byte; intros b; apply mstore_byte; exact B0|].
  split; [rewrite mload_mstore_out by lia; apply mload_mstore; lia|]. split; [|split; [lia|]].
  - intros i Hi. rewrite !mstore_out by lia. unfold m0. f_equal. lia.
  - rewrite mload_mstore; [lia|]. split; [lia|]. assert (160 < 2 ^ 255) by reflexivity. lia.
Qed.
Print Assumptions C68_memory_exists.

(** the selector is the first four bytes of keccak256("verify(bytes,bytes32,bytes)") *)
Example C68_selector : firstn 4 (Props_Hash.keccak256_impl
    [118; 101; 114; 105; 102; 121; 40; 98; 121; 116; 101; 115; 44; 98; 121; 116; 101; 115; 51; 50; 44; 98; 121; 116; 101; 115; 41]) = [0x02; 0x4a; 0xd3; 0x18].
Proof. vm_compute. reflexivity. Qed.

(** * C71: the stateful multiplication *)
(** With table contracts holding one 32-byte word per entry, it multiplies ... *)
Theorem C71_word_tables_multiply : forall k codes s a b ext1 ext2, (1 <= k <= 9)%nat -> storage_q s = 12289 ->
  (2 ^ Z.of_nat k * storage_nm1modq s) mod 12289 = 1 ->
  codes (o_psirev s) = flat_map (to_be 32) psi_rev_table ++ ext1 -> codes (o_psi_inv_rev s) = flat_map (to_be 32) psi_inv_rev_table ++ ext2 ->
  length a = (2 ^ k)%nat -> length b = (2 ^ k)%nat ->
  NTT_MUL_stateful codes s a b = Ok (mod_q (negmul (2 ^ k) a b)) /\
  NTT_HALFMUL_stateful codes s a (NTTFW_stateful codes s b (o_psirev s)) = Ok (mod_q (negmul (2 ^ k) a b)).
Proof.
  intros k codes s a b ext1 ext2 Hk Hq Hnm C1 C2 La Lb.
  assert (Tb : forall tbl ext i, words tbl -> (i < length tbl)%nat -> code_table (flat_map (to_be 32) tbl ++ ext) i = nth i tbl 0).
  { intros tbl ext i W Hi. unfold code_table. exact (word_at_words [] tbl ext i W Hi). }
  assert (Wt : words psi_rev_table /\ words psi_inv_rev_table).
  { split; unfold words; apply Forall_forall; intros x Hx.
    - assert (H : forallb (fun x => (0 <=? x) && (x <? 2 ^ 256)) psi_rev_table = true) by (vm_cast_no_check (eq_refl true)).
      rewrite forallb_forall in H. specialize (H x Hx). apply andb_prop in H. destruct H as [H1 H2]. apply Z.leb_le in H1. apply Z.ltb_lt in H2. split; assumption.
    - assert (H : forallb (fun x => (0 <=? x) && (x <? 2 ^ 256)) psi_inv_rev_table = true) by (vm_cast_no_check (eq_refl true)).
      rewrite forallb_forall in H. specialize (H x Hx). apply andb_prop in H. destruct H as [H1 H2]. apply Z.leb_le in H1. apply Z.ltb_lt in H2. split; assumption. }
  destruct Wt as [W1 W2]. destruct tables_length as [T1 T2].
  assert (P2 : (2 ^ k <= 512)%nat) by (apply pow_le_512; lia).
  assert (FW : forall x, length x = (2 ^ k)%nat -> NTTFW_stateful codes s x (o_psirev s) = nttfw qf psis (2 ^ k) x).
  { intros x Lx. unfold NTTFW_stateful. rewrite Hq, C1, Lx. unfold nttfw. apply fw_loop_table; [|exists k; lia].
    intros i _ Hi. apply Tb; [exact W1|lia]. }
  assert (IV : forall x, length x = (2 ^ k)%nat -> NTTINV_stateful codes s x (o_psi_inv_rev s) = nttinv qf psiis (storage_nm1modq s) (2 ^ k) x).
  { intros x Lx. unfold NTTINV_stateful. rewrite Hq, C2, Lx. unfold nttinv.
    rewrite (inv_loop_table 12289 _ psiis (2 ^ k) (2 ^ k) 1 k x); [reflexivity| |lia]. intros i Hi. apply Tb; [exact W2|lia]. }
  pose proof (good_k k (storage_nm1modq s) Hk Hnm) as Hg.
  pose proof (T_length _ _ _ _ Hg _ eq_refl a La) as LA. pose proof (T_length _ _ _ _ Hg _ eq_refl b Lb) as LB.
  assert (VM : forall n A B, length A = n -> length B = n -> ZKNOX_VECMULMOD 12289 A B = Ok (vecmul 12289 n A B)).
  { clear. induction n; intros A B HA HB; destruct A as [|x A], B as [|y B]; try discriminate.
    - reflexivity.
    - unfold ZKNOX_VECMULMOD. cbn [vop]. cbn [bind]. injection HA as HA. injection HB as HB.
      fold (ZKNOX_VECMULMOD 12289). change (vop (fun x y : Z => Ok ((x * y) mod 12289)) A B) with (ZKNOX_VECMULMOD 12289 A B).
      rewrite (IHn A B HA HB). cbn [bind]. unfold vecmul. cbn [seq map nth]. rewrite <- seq_shift, map_map. reflexivity. }
  assert (Main : (let! p := ZKNOX_VECMULMOD 12289 (nttfw qf psis (2 ^ k) a) (nttfw qf psis (2 ^ k) b) in Ok (NTTINV_stateful codes s p (o_psi_inv_rev s))) = Ok (mod_q (negmul (2 ^ k) a b))).
  { rewrite (VM (2 ^ k)%nat _ _ LA LB). cbn [bind]. rewrite IV by apply vecmul_len. f_equal. exact (I_mul _ _ _ _ Hg _ eq_refl a b La Lb). }
  split.
  - unfold NTT_MUL_stateful. rewrite Hq, (FW a La), (FW b Lb). exact Main.
  - unfold NTT_HALFMUL_stateful. rewrite Hq, (FW a La), (FW b Lb). exact Main.
Qed.
Print Assumptions C71_word_tables_multiply.

(** ... but the tables that the repository's Deploy creates are packed, 16 entries per word: every entry read from 32 on is zero, *)
Theorem C71_deployed_entries : forall ca cb i, Deploy = Ok (ca, cb) -> (32 <= i)%nat -> code_table ca i = 0 /\ code_table cb i = 0.
Proof.
  intros ca cb i E Hi.
  assert (Z0 : forall code, (length code <=? 1024)%nat = true -> code_table code i = 0).
  { intros code L. apply Nat.leb_le in L. unfold code_table, word_at.
    assert (G : map (code_byte code) (seq (32 * i) 32) = repeat 0 32).
    { apply (nth_ext _ _ 0 0); [rewrite map_length, seq_length, repeat_length; reflexivity|]. intros j Hj. rewrite map_length, seq_length in Hj.
      rewrite (nth_indep _ 0 (code_byte code 0)) by (rewrite map_length, seq_length; exact Hj). rewrite map_nth, seq_nth by exact Hj.
      unfold code_byte. rewrite nth_overflow by lia. rewrite nth_repeat. reflexivity. }
    rewrite G. reflexivity. }
  assert (D : match Deploy with Ok (x, y) => ((length x <=? 1024) && (length y <=? 1024))%nat | Raise _ => false end = true) by (vm_cast_no_check (eq_refl true)).
  rewrite E in D. apply andb_prop in D. destruct D as [D1 D2]. split; apply Z0; assumption.
Qed.
Print Assumptions C71_deployed_entries.
(** and the stateful contract initialised with them does not even compute x * 1 = x *)
Definition one512 : list Z := 1 :: repeat 0 511.
Definition x512 : list Z := 0 :: 1 :: repeat 0 510.
Theorem C71_deployed_tables_multiply_refuted : forall ca cb, Deploy = Ok (ca, cb) ->
  ~ (forall codes s a b, storage_q s = 12289 -> storage_nm1modq s = 12265 -> codes (o_psirev s) = ca -> codes (o_psi_inv_rev s) = cb ->
     length a = 512%nat -> length b = 512%nat -> NTT_MUL_stateful codes s a b = Ok (mod_q (negmul 512 a b))).
Proof.
  intros ca cb E H.
  specialize (H (fun x => if x =? 1 then ca else cb) (ntt_constructor 1 2 12289 12265) x512 one512 eq_refl eq_refl eq_refl eq_refl eq_refl eq_refl).
  assert (D : match Deploy with
              | Ok (x, y) => match NTT_MUL_stateful (fun z => if z =? 1 then x else y) (ntt_constructor 1 2 12289 12265) x512 one512 with
                             | Ok r => if list_eq_dec Z.eq_dec r (mod_q (negmul 512 x512 one512)) then false else true
                             | Raise _ => true end
              | Raise _ => false end = true) by (vm_cast_no_check (eq_refl true)).
  rewrite E, H in D. destruct (list_eq_dec Z.eq_dec _ _) as [_|N]; [discriminate D|]. apply N. reflexivity.
Qed.
Print Assumptions C71_deployed_tables_multiply_refuted.
(** Deploy itself succeeds *)
Theorem C71_deploy_succeeds : exists ca cb, Deploy = Ok (ca, cb) /\ length ca = 1024%nat /\ length cb = 1024%nat.
Proof.
  assert (D : match Deploy with Ok (x, y) => ((length x =? 1024) && (length y =? 1024))%nat | Raise _ => false end = true) by (vm_cast_no_check (eq_refl true)).
  destruct Deploy as [[ca cb]|e]; [|discriminate D]. apply andb_prop in D. destruct D as [D1 D2]. apply Nat.eqb_eq in D1. apply Nat.eqb_eq in D2.
  exists ca, cb. auto.
Qed.
Print Assumptions C71_deploy_succeeds.
(** the layout of the tables that Deploy creates: entry i in bytes 2i and 2i+1 of the code, big endian, in order; for the whole code of any table
    of 512 16-bit entries *)
Lemma lxor_add_shift a b k : 0 <= k -> 0 <= a < 2 ^ k -> 0 <= b -> Z.lxor a (Z.shiftl b k) = a + b * 2 ^ k.
Proof.
  intros Hk Ha Hb. rewrite <- Z.add_nocarry_lxor; [now rewrite Z.shiftl_mul_pow2|].
  apply Z.bits_inj'. intros m Hm. rewrite Z.land_spec, Z.bits_0. destruct (Z.ltb_spec m k) as [L|L].
  - rewrite Z.shiftl_spec_low by exact L. apply andb_false_r.
  - replace (Z.testbit a m) with false; [reflexivity|]. symmetry. destruct (Z.eq_dec a 0) as [->|N]; [apply Z.bits_0|]. apply Z.bits_above_log2; [lia|].
    apply Z.lt_le_trans with k; [|exact L]. apply Z.log2_lt_pow2; lia.
Qed.
Lemma Swap16_reverses ds : length ds = 16%nat -> Forall dig ds -> Swap16 (word16s ds) = word16s (rev ds).
Proof.
  intros L F. assert (Fr : Forall dig (rev ds)) by (now apply Forall_rev).
  assert (G : forall m, (m <= 16)%nat ->
    fold_left (fun outw i => Z.lxor outw (Z.shiftl (Z.land (Z.shiftr (word16s ds) (240 - i)) 0xffff) i mod two256)) (map (fun k => 16 * Z.of_nat k) (seq 0 m)) 0 = word16s (firstn m (rev ds))).
  { induction m as [|m IH]; intros Hm; [reflexivity|]. rewrite seq_S, map_app, fold_left_app, IH by lia. cbn [map fold_left plus].
    replace (240 - 16 * Z.of_nat m) with (16 * Z.of_nat (15 - m)) by lia. rewrite word16s_digit by exact F.
    replace (nth (15 - m) ds 0) with (nth m (rev ds) 0) by (rewrite rev_nth by lia; f_equal; lia).
    set (x := nth m (rev ds) 0). assert (Dx : dig x) by (apply (proj1 (Forall_forall _ _) Fr), nth_In; rewrite rev_length; lia). unfold dig in Dx.
    assert (Fm : Forall dig (firstn m (rev ds))) by (now apply Forall_firstn).
    pose proof (word16s_range _ Fm) as R. rewrite firstn_length, rev_length, L, Nat.min_l in R by lia.
    assert (P : 65536 ^ Z.of_nat m = 2 ^ (16 * Z.of_nat m)) by (rewrite Z.pow_mul_r by lia; reflexivity).
    rewrite Z.mod_small.
    - rewrite lxor_add_shift by lia. rewrite firstn_S_nth by (rewrite rev_length; lia). fold x.
      rewrite word16s_app, firstn_length, rev_length, L, Nat.min_l by lia. rewrite <- P. unfold word16s at 3. cbn [fold_right]. ring.
    - rewrite Z.shiftl_mul_pow2 by lia. split; [apply Z.mul_nonneg_nonneg; [lia|apply Z.pow_nonneg; lia]|]. unfold two256.
      apply Z.lt_le_trans with (2 ^ 16 * 2 ^ (16 * Z.of_nat m)); [apply Z.mul_lt_mono_pos_r; [apply Z.pow_pos_nonneg; lia|lia]|].
      rewrite <- Z.pow_add_r by lia. apply Z.pow_le_mono_r; lia. }
  unfold Swap16. rewrite (G 16%nat (le_n _)). rewrite firstn_all2 by (rewrite rev_length; lia). reflexivity.
Qed.
Lemma to_be_word16s ds : Forall dig ds -> to_be (2 * length ds) (word16s ds) = flat_map (to_be 2) (rev ds).
Proof.
  induction 1 as [|d l Hd _ IH]; [reflexivity|]. cbn [rev]. rewrite flat_map_app, <- IH. cbn [word16s fold_right flat_map length]. fold (word16s l). rewrite app_nil_r.
  replace (2 * S (length l))%nat with (S (S (2 * length l))) by lia. cbn [to_be]. unfold dig in Hd. rewrite <- app_assoc. cbn [app].
  assert (E1 : (d + 65536 * word16s l) mod 256 = d mod 256) by (replace (d + 65536 * word16s l) with (d + 256 * word16s l * 256) by ring; apply Z.mod_add; lia).
  assert (E2 : (d + 65536 * word16s l) / 256 = d / 256 + 256 * word16s l) by (replace (d + 65536 * word16s l) with (d + 256 * word16s l * 256) by ring; apply Z.div_add; lia).
  rewrite E1, E2. assert (E3 : (d / 256 + 256 * word16s l) / 256 = word16s l) by (rewrite Z.mul_comm, Z.div_add, (Z.div_small (d / 256)); [reflexivity| |lia]; split; [apply Z.div_pos; lia|apply Z.div_lt_upper_bound; lia]).
  assert (E4 : (d / 256 + 256 * word16s l) mod 256 = d / 256 mod 256) by (rewrite Z.mul_comm; apply Z.mod_add; lia). rewrite E3, E4. reflexivity.
Qed.
Theorem C71_deployed_layout : forall a, length a = 512%nat -> Forall (fun d => 0 <= d < 65536) a ->
  flat_map (to_be 32) (deploy_Compact a) = flat_map (to_be 2) a.
Proof.
  intros a L F. destruct (Compact_packed a L F) as [(_ & _ & P) LC]. unfold deploy_Compact.
  assert (G : forall m, (m <= 32)%nat -> flat_map (to_be 32) (map Swap16 (firstn m (Compact a))) = flat_map (to_be 2) (firstn (16 * m) a)).
  { induction m as [|m IH]; intros Hm; [reflexivity|].
    assert (E1 : firstn (S m) (Compact a) = firstn m (Compact a) ++ [nth m (Compact a) 0]) by (apply firstn_S_nth; lia).
    assert (E2 : firstn (16 * S m) a = firstn (16 * m) a ++ firstn 16 (skipn (16 * m) a)).
    { rewrite <- (firstn_skipn (16 * m) a) at 1. rewrite firstn_app, firstn_firstn, firstn_length, L. f_equal; f_equal; lia. }
    rewrite E1, E2, map_app, !flat_map_app, IH by lia. f_equal. cbn [map flat_map]. rewrite app_nil_r, (P m) by lia.
    set (ds := firstn 16 (skipn (16 * m) a)). assert (Ld : length ds = 16%nat) by (unfold ds; rewrite firstn_length, skipn_length; lia).
    assert (Fd : Forall dig ds) by (apply Forall_firstn, Forall_skipn, F). rewrite Swap16_reverses by auto.
    pose proof (to_be_word16s (rev ds) ltac:(now apply Forall_rev)) as T. rewrite rev_length, Ld, rev_involutive in T. exact T. }
  specialize (G 32%nat (le_n _)). rewrite firstn_all2 in G by lia. rewrite firstn_all2 in G by lia. exact G.
Qed.
Print Assumptions C71_deployed_layout.
(** so the code of the two contracts is the two tables, entry after entry *)
Theorem C71_deployed_code : Deploy = Ok (flat_map (to_be 2) deploy_psi_rev, flat_map (to_be 2) deploy_psi_inv_rev).
Proof.
  assert (D : match Deploy with Ok (x, y) => if list_eq_dec Z.eq_dec x (flat_map (to_be 2) deploy_psi_rev) then if list_eq_dec Z.eq_dec y (flat_map (to_be 2) deploy_psi_inv_rev) then true else false else false | Raise _ => false end = true) by (vm_cast_no_check (eq_refl true)).
  destruct Deploy as [[x y]|]; [|discriminate D]. destruct (list_eq_dec _ x _) as [->|]; [|discriminate D]. destruct (list_eq_dec _ y _) as [->|]; [|discriminate D]. reflexivity.
Qed.
Print Assumptions C71_deployed_code.
