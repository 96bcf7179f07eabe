(** Properties C62-C65, C73: the command line tool. *)
From Coq Require Import String.
From Verif Require Import Base PrngModel KeccakModel HashModel EncodingModel EncodingProofs PolyModel FalconModel FalconSpec FalconProofs RecoveryProofs
  TextModel TextProofs SolModel CliModel CliProofs ShakeProofs CliSignProofs Props_Falcon.
Import List.

(** * C62: files *)
Definition supported (v : list Z) (c : version_class) : Prop :=
  (v = chars "falcon" /\ c = Vfalcon) \/ (v = chars "ethfalcon" /\ c = Vfalcon) \/ (v = chars "falconrec" /\ c = Vrec) \/ (v = chars "epervier" /\ c = Vep).
Lemma supported_plain v c : supported v c -> plain v /\ starts_blank v = false /\ vclass v = c /\ c <> Vunsupported.
Proof. intros [(->&->)|[(->&->)|[(->&->)|(->&->)]]]; repeat split; try discriminate; concrete. Qed.

(** whatever the value of the key (a list of integers of any size and sign, or an integer): the same n, key and version come back, in the class of the version *)
Theorem C62_public_key_file : forall v c n b l lg pk, supported v c -> params n = Ok (b, l, lg) ->
  load_pk (save_pk (Z.of_nat n) pk v) = Ok (Some (c, Z.of_nat n, pk, v)).
Proof.
  intros v c n b l lg pk Hv Hp. destruct (supported_plain v c Hv) as (P & B & E & U). unfold load_pk. rewrite load_pk_args_save, E by auto.
  destruct c; try congruence; cbn [bind]; rewrite (params_build _ _ _ _ Hp); reflexivity.
Qed.
Print Assumptions C62_public_key_file.
(** the private key file rebuilds the very key that was written *)
Theorem C62_private_key_file : forall v c n f g F G K, supported v c -> SecretKey n f g F G = Ok K ->
  load_sk (save_sk (Z.of_nat n) f g F G v) = Ok (Some (c, K, v)).
Proof.
  intros v c n f g F G K Hv HK. destruct (supported_plain v c Hv) as (P & B & E & U). destruct (SecretKey_facts _ _ _ _ _ _ HK) as (b & l & lg & h & Hp & _).
  rewrite load_sk_save, E by auto. rewrite (params_build _ _ _ _ Hp), Nat2Z.id. cbn [bind]. destruct c; try congruence; rewrite HK; reflexivity.
Qed.
Print Assumptions C62_private_key_file.
(** whatever the file: the signature is recovered *)
Theorem C62_signature_file : forall s, Forall (fun x => 0 <= x < 256) s -> load_signature (save_signature s) = Ok s.
Proof. intros s H. apply fromhex_hex. exact H. Qed.
Print Assumptions C62_signature_file.
(** two keys with the same file are equal: nothing is lost *)
Theorem C62_files_determine_keys : forall v c v' c' n n' pk pk' b l lg b' l' lg', supported v c -> supported v' c' -> params n = Ok (b, l, lg) -> params n' = Ok (b', l', lg') ->
  save_pk (Z.of_nat n) pk v = save_pk (Z.of_nat n') pk' v' -> n = n' /\ pk = pk' /\ v = v'.
Proof.
  intros v c v' c' n n' pk pk' b l lg b' l' lg' Hv Hv' Hp Hp' E.
  pose proof (C62_public_key_file v c n b l lg pk Hv Hp) as A. rewrite E, (C62_public_key_file v' c' n' b' l' lg' pk' Hv' Hp') in A.
  assert (X : (c', Z.of_nat n', pk', v') = (c, Z.of_nat n, pk, v)) by congruence. repeat split; [|congruence|congruence]. apply Nat2Z.inj. congruence.
Qed.
Print Assumptions C62_files_determine_keys.
(** any other version name without line breaks or "=" signs gives no key; a version with a "=" sign cannot be read back *)
Theorem C62_other_versions : forall v n pk, plain v -> starts_blank v = false -> (forall c, ~ supported v c) -> load_pk (save_pk n pk v) = Ok None.
Proof.
  intros v n pk P B H. unfold load_pk. rewrite load_pk_args_save by auto.
  assert (E : vclass v = Vunsupported); [|now rewrite E].
  unfold vclass, seqb. destruct (list_eq_dec Z.eq_dec v (chars "ethfalcon")) as [E|_]; [exfalso; eapply H; right; left; eauto|].
  destruct (list_eq_dec Z.eq_dec v (chars "falcon")) as [E|_]; [exfalso; eapply H; left; eauto|].
  destruct (list_eq_dec Z.eq_dec v (chars "falconrec")) as [E|_]; [exfalso; eapply H; right; right; left; eauto|].
  destruct (list_eq_dec Z.eq_dec v (chars "epervier")) as [E|_]; [exfalso; eapply H; right; right; right; eauto|]. reflexivity.
Qed.
Print Assumptions C62_other_versions.
Example C62_nontrivial :
  save_pk 2 (PList [7375; -2458]) (chars "falcon") = chars "# public key" ++ [10] ++ chars "n = 2" ++ [10] ++ chars "pk = [7375, -2458]" ++ [10] ++ chars "version = falcon" ++ [10] /\
  load_pk (save_pk 2 (PList [7375; -2458]) (chars "falcon")) = Ok (Some (Vfalcon, 2, PList [7375; -2458], chars "falcon")) /\
  load_sk (save_sk 2 ex_f ex_g ex_F ex_G (chars "epervier")) = Ok (Some (Vep, ex_K, chars "epervier")) /\
  save_signature [0; 255; 26] = chars "00ff1a" /\ load_signature (chars "00ff1a") = Ok [0; 255; 26] /\
  load_pk (save_pk 2 (PInt 5) (chars "dilithium")) = Ok None /\
  load_pk (save_pk 2 (PInt 5) (chars "v=1")) = Raise ValueError /\
  load_pk (save_pk 3 (PInt 5) (chars "falcon")) = Raise KeyError.
Proof. repeat split; vm_compute; reflexivity. Qed.

(** * C63: the randomness of the command line signature *)
(** the salt in the signature is a function of the public key and of the message, and so is the seed handed to the sampler *)
Theorem C63_salt_is_public : forall Hk smp fh fuel c K data v sig, bytes data -> cli_signature Hk smp fh fuel c K data v = Fin (Ok sig) ->
  slice 1 41 sig = cli_salt (sk_h K) data.
Proof.
  intros Hk smp fh fuel c K data v sig B E. pose proof (cli_salt_length (sk_h K) data B) as LS.
  assert (X : forall a rest, slice 1 41 ([a] ++ cli_salt (sk_h K) data ++ rest) = cli_salt (sk_h K) data).
  { intros a rest. unfold slice. cbn [app skipn]. rewrite firstn_app, LS. change (41 - 1 - 40)%nat with 0%nat. rewrite firstn_O, app_nil_r. apply firstn_all2. lia. }
  assert (Y : forall rb hd, fbind (hash_to_point fh (sk_n K) data (rb SALT_LEN) (cli_xof Hk v)) (fun hashed => rec_sign_loop fuel K (fun i point => smp K (cli_attempt_seed c (sk_h K) data i) point) 0 hd (rb SALT_LEN) hashed) = Fin (Ok sig) ->
     exists rest, sig = hd ++ rb SALT_LEN ++ rest).
  { intros rb hd E'. destruct (hash_to_point _ _ _ _ _) as [[p|]|]; cbn [fbind] in E'; try discriminate.
    apply rec_sign_loop_result in E'. destruct E' as (j & s0 & s1 & enc & inv & _ & _ & _ & _ & _ & _ & ->). eauto. }
  destruct c; cbn [cli_signature] in E; [|apply Y in E; destruct E as (rest & ->); apply X ..].
  unfold sign in E. destruct (hash_to_point _ _ _ _ _) as [[p|]|]; cbn [fbind] in E; try discriminate.
  apply sign_loop_result in E. destruct E as (j & s0 & s1 & enc & _ & _ & _ & _ & ->). apply X.
Qed.
Print Assumptions C63_salt_is_public.

(** Everything the signer draws (salt, seed of every attempt) *)
Definition same_randomness (c : version_class) (h data data' : list Z) : Prop :=
  cli_salt h data = cli_salt h data' /\ forall i, cli_attempt_seed c h data i = cli_attempt_seed c h data' i.

(** the message is absorbed after 33 + 2n bytes; what lies beyond the last full block of 136 bytes has no influence on the first bytes read *)
Definition absorbed_blocks (h data : list Z) : nat := ((33 + 2 * length h + length data) / 136)%nat.
Definition beyond (h data : list Z) : nat := ((33 + 2 * length h + length data) mod 136)%nat.
Lemma blocks_agree h data data' : length data = length data' ->
  firstn (136 * absorbed_blocks h data - (33 + 2 * length h)) data = firstn (136 * absorbed_blocks h data - (33 + 2 * length h)) data' ->
  unpadded_state (absorbed h data) = unpadded_state (absorbed h data').
Proof.
  intros L E. apply unpadded_prefix; [now rewrite !absorbed_length, L|]. rewrite absorbed_length.
  change ((33 + 2 * length h + length data) / 136)%nat with (absorbed_blocks h data). set (k := (136 * absorbed_blocks h data)%nat) in *.
  unfold absorbed. rewrite !app_assoc. set (p := (repeat 1 32 ++ [0]) ++ flat_map (to_be 2) h).
  assert (Lp : length p = (33 + 2 * length h)%nat) by (unfold p; rewrite !app_length, repeat_length, flat_be_length; cbn [length]; lia).
  rewrite !firstn_app, Lp, E. reflexivity.
Qed.
Theorem C63_trailing_bytes_ignored_by_salt : forall h data data', bytes data -> bytes data' -> length data = length data' -> (beyond h data <= 96)%nat ->
  firstn (136 * absorbed_blocks h data - (33 + 2 * length h)) data = firstn (136 * absorbed_blocks h data - (33 + 2 * length h)) data' ->
  cli_salt h data = cli_salt h data'.
Proof.
  intros h data data' B B' L I E. unfold beyond in I. rewrite (cli_salt_unpadded h data B) by (rewrite absorbed_length; exact I).
  rewrite (cli_salt_unpadded h data' B') by (rewrite absorbed_length, <- L; exact I).
  rewrite (blocks_agree h data data' L E), !absorbed_length, L. reflexivity.
Qed.
Print Assumptions C63_trailing_bytes_ignored_by_salt.
Theorem C63_trailing_bytes_ignored : forall h data data', bytes data -> bytes data' -> length data = length data' -> (beyond h data <= 48)%nat ->
  firstn (136 * absorbed_blocks h data - (33 + 2 * length h)) data = firstn (136 * absorbed_blocks h data - (33 + 2 * length h)) data' ->
  same_randomness Vfalcon h data data'.
Proof.
  intros h data data' B B' L I E. split; [apply C63_trailing_bytes_ignored_by_salt; auto; lia|]. intros i. cbn [cli_attempt_seed].
  assert (Q : cli_seed h data 0 = cli_seed h data' 0); [|rewrite Q; reflexivity].
  unfold beyond in I. rewrite (cli_seed0_unpadded h data B) by (rewrite absorbed_length; exact I).
  rewrite (cli_seed0_unpadded h data' B') by (rewrite absorbed_length, <- L; exact I).
  rewrite (blocks_agree h data data' L E), !absorbed_length, L. reflexivity.
Qed.
Print Assumptions C63_trailing_bytes_ignored.
(** For Falcon-512 and a message of 32 bytes (a transaction hash), the last byte plays no role: the 256 hashes with the same first 31 bytes are signed
    with the same salt and the same sampler randomness *)
Theorem C63_falcon512_hashes : forall h m x y, Z.of_nat (length h) = 512 -> length m = 31%nat -> bytes m -> 0 <= x < 256 -> 0 <= y < 256 ->
  same_randomness Vfalcon h (m ++ [x]) (m ++ [y]).
Proof.
  intros h m x y Lh Lm Bm Hx Hy. assert (Bx : forall z, 0 <= z < 256 -> bytes (m ++ [z])) by (intros; apply bytes_app; split; auto; constructor; [exact H|constructor]).
  assert (Q : Z.of_nat (33 + 2 * length h + length (m ++ [x])) = 1089) by (rewrite app_length, Lm; cbn [length]; lia).
  assert (Qd : absorbed_blocks h (m ++ [x]) = 8%nat). { unfold absorbed_blocks. apply Nat2Z.inj. rewrite Nat2Z.inj_div, Q. reflexivity. }
  assert (Qm : beyond h (m ++ [x]) = 1%nat). { unfold beyond. apply Nat2Z.inj. rewrite Nat2Z.inj_mod, Q. reflexivity. }
  apply C63_trailing_bytes_ignored; auto; [now rewrite !app_length|rewrite Qm; lia|]. rewrite Qd.
  replace (136 * 8 - (33 + 2 * length h))%nat with 31%nat by lia. rewrite !firstn_app, Lm. rewrite !firstn_all2 by lia. reflexivity.
Qed.
Print Assumptions C63_falcon512_hashes.
(** whatever the key, a message of fewer than 136 - (33 + 2n) bytes (n <= 32) is signed with a constant salt: n = 2 here *)
Theorem C63_small_key_constant_salt : forall h data data', length h = 2%nat -> bytes data -> bytes data' -> length data = length data' -> (length data <= 11)%nat ->
  same_randomness Vfalcon h data data'.
Proof.
  intros h data data' Lh B B' L S. assert (Qd : absorbed_blocks h data = 0%nat) by (unfold absorbed_blocks; apply Nat.div_small; lia).
  apply C63_trailing_bytes_ignored; auto; [unfold beyond; rewrite Nat.mod_small by lia; lia|]. now rewrite Qd.
Qed.
Print Assumptions C63_small_key_constant_salt.
(** a longer, different message does get another salt *)
Example C63_nontrivial : cli_salt [1; 2] [3] = repeat 0 40 /\ cli_salt [1; 2] [4] = repeat 0 40 /\ cli_salt [1; 2] (repeat 3 99) <> cli_salt [1; 2] (4 :: repeat 3 98).
Proof. split; [vm_compute; reflexivity|]. split; [vm_compute; reflexivity|]. vm_compute. discriminate. Qed.

(** * C64: from the key file to the verdict *)
Lemma salt_bytes h data : bytes data -> bytes (cli_salt h data).
Proof.
  intros B. destruct (det_sponge_state h data B) as (_ & _ & Ok). unfold cli_salt. destruct (read_ok _ FalconModel.SALT_LEN Ok) as (s' & o & E & _ & _ & Bo). rewrite E. exact Bo.
Qed.
Lemma bytes_cat a b : bytes a -> bytes b -> bytes (a ++ b).
Proof. intros. apply bytes_app. now split. Qed.
Lemma byte1 x : 0 <= x < 256 -> bytes [x].
Proof. intros. constructor; [assumption|constructor]. Qed.

(** A signature file made with the private key file of a key is declared valid with the public key file of that key: versions falcon and ethfalcon *)
Theorem C64_falcon_end_to_end : forall v Hk smp n f g F G K fh fuel fv data sigfile,
  v = chars "falcon" \/ v = chars "ethfalcon" ->
  ntru_key n f g F G -> SecretKey n f g F G = Ok K ->
  (forall seed c, length c = n -> lattice_point n f g F G (fst (smp K seed c)) (snd (smp K seed c))) ->
  bytes data ->
  cmd_sign Hk smp fh fuel (save_sk (Z.of_nat n) f g F G v) (hex data) = Fin (Ok sigfile) -> (fh <= fv)%nat ->
  cmd_verify Hk fv (save_pk (Z.of_nat n) (PList (sk_h K)) v) (hex data) sigfile = Fin (Ok true).
Proof.
  intros v Hk smp n f g F G K fh fuel fv data sigfile Hv NK HK HS B E Hf.
  assert (SV : supported v Vfalcon) by (destruct Hv; [left|right; left]; auto).
  unfold cmd_sign in E. rewrite (C62_private_key_file v Vfalcon n f g F G K SV HK) in E. cbn [lift fbind] in E. rewrite fromhex_hex in E by exact B. cbn [fbind] in E.
  destruct (cli_signature Hk smp fh fuel Vfalcon K data v) as [[sig|]|] eqn:ES; cbn [fbind] in E; try discriminate.
  assert (sigfile = hex sig) by (unfold save_signature in E; congruence). subst sigfile. clear E.
  destruct (SecretKey_facts _ _ _ _ _ _ HK) as (b & l & lg & h & Hp & _).
  assert (BS : bytes sig).
  { cbn [cli_signature] in ES. pose proof ES as ES'. eapply C29_signature_format with (rb := fun _ => cli_salt (sk_h K) data) in ES'; [|exact HK|apply cli_salt_length; exact B].
    destruct ES' as (k & b' & l' & enc & j & c & s0 & s1 & Hn & Hp' & -> & _ & Be & _). destruct (params_facts _ _ _ _ Hp') as (k' & Hk' & Hn' & Hl & _).
    apply bytes_cat; [apply byte1; lia|]. apply bytes_cat; [apply salt_bytes; exact B|exact Be]. }
  unfold cmd_verify. rewrite (C62_public_key_file v Vfalcon n b l lg _ SV Hp). cbn [lift fbind]. unfold load_signature. rewrite fromhex_hex by exact BS. cbn [fbind].
  rewrite fromhex_hex by exact B. cbn [fbind].
  assert (EP : exists P, PublicKey n (sk_h K) = Ok P). { unfold PublicKey. rewrite Hp. cbn [bind]. eauto. } destruct EP as (P & EP).
  assert (W : forall X, X = cli_xof Hk v -> pk_verify Hk fv Vfalcon (Z.of_nat n) (PList (sk_h K)) data sig X = Fin (Ok true)).
  { intros X ->. cbn [pk_verify]. rewrite Nat2Z.id, EP. cbn [lift fbind]. cbn [cli_signature] in ES.
    eapply C27_falcon_completeness with (rb := fun _ => cli_salt (sk_h K) data); [exact NK|exact HK|exact EP| |apply cli_salt_length; exact B|exact ES|exact Hf].
    intros i c Lc. apply HS. exact Lc. }
  destruct Hv as [-> | ->]; apply W; reflexivity.
Qed.
Print Assumptions C64_falcon_end_to_end.

Theorem C64_epervier_end_to_end : forall Hk smp n f g F G K fh fuel fv data sigfile,
  ntru_key n f g F G -> SecretKey n f g F G = Ok K ->
  (forall seed c, length c = n -> lattice_point n f g F G (fst (smp K seed c)) (snd (smp K seed c))) ->
  bytes data ->
  cmd_sign Hk smp fh fuel (save_sk (Z.of_nat n) f g F G (chars "epervier")) (hex data) = Fin (Ok sigfile) -> (fh <= fv)%nat ->
  cmd_verify Hk fv (save_pk (Z.of_nat n) (PInt (ep_pk Hk K)) (chars "epervier")) (hex data) sigfile = Fin (Ok true).
Proof.
  intros Hk smp n f g F G K fh fuel fv data sigfile NK HK HS B E Hf. set (v := chars "epervier") in *.
  assert (SV : supported v Vep) by (right; right; right; auto).
  unfold cmd_sign in E. rewrite (C62_private_key_file v Vep n f g F G K SV HK) in E. cbn [lift fbind] in E. rewrite fromhex_hex in E by exact B. cbn [fbind] in E.
  destruct (cli_signature Hk smp fh fuel Vep K data v) as [[sig|]|] eqn:ES; cbn [fbind] in E; try discriminate.
  assert (sigfile = hex sig) by (unfold save_signature in E; congruence). subst sigfile. clear E.
  destruct (SecretKey_facts _ _ _ _ _ _ HK) as (b & l & lg & h & Hp & _ & _ & _ & _ & _ & EK).
  assert (BS : bytes sig).
  { cbn [cli_signature] in ES. unfold rec_sign in ES. destruct (hash_to_point _ _ _ _ _) as [[c|]|]; cbn [fbind] in ES; try discriminate.
    apply rec_sign_loop_result in ES. destruct ES as (j & s0 & s1 & enc & inv & _ & _ & _ & _ & EC & _ & ->).
    destruct (params_facts _ _ _ _ Hp) as (k & Hk' & Hn & Hl & _). rewrite EK. cbn [sk_logn].
    apply bytes_cat; [apply byte1; lia|]. apply bytes_cat; [apply salt_bytes; exact B|]. apply bytes_cat; [|apply flat_be_bytes].
    exact (proj1 (compress_some_bits _ _ _ EC)). }
  unfold cmd_verify. rewrite (C62_public_key_file v Vep n b l lg _ SV Hp). cbn [lift fbind]. unfold load_signature. rewrite fromhex_hex by exact BS. cbn [fbind].
  rewrite fromhex_hex by exact B. cbn [fbind].
  assert (EP : exists P, RecoveryModePublicKey n (ep_pk Hk K) = Ok P). { unfold RecoveryModePublicKey. rewrite Hp. cbn [bind]. eauto. } destruct EP as (P & EP).
  change (cli_verify Hk (pk_verify Hk fv Vep (Z.of_nat n) (PInt (ep_pk Hk K)) data sig) v) with (pk_verify Hk fv Vep (Z.of_nat n) (PInt (ep_pk Hk K)) data sig SHAKE).
  cbn [pk_verify]. rewrite Nat2Z.id, EP. cbn [lift fbind]. cbn [cli_signature] in ES.
  eapply C34_epervier_completeness with (rb := fun _ => cli_salt (sk_h K) data); [exact NK|exact HK|exact EP| |apply cli_salt_length; exact B|exact ES|exact Hf].
  intros i c Lc. apply HS. exact Lc.
Qed.
Print Assumptions C64_epervier_end_to_end.

(** falconrec: no signature file is ever declared valid or invalid, whatever the key and the message *)
Theorem C64_falconrec_never_verifies : forall Hk fv n b l lg pk data sig, params n = Ok (b, l, lg) -> bytes data -> bytes sig ->
  cmd_verify Hk fv (save_pk (Z.of_nat n) pk (chars "falconrec")) (hex data) (hex sig) = Fin (Raise UnboundLocalError).
Proof.
  intros Hk fv n b l lg pk data sig Hp B BS. unfold cmd_verify. rewrite (C62_public_key_file _ Vrec n b l lg pk) by (auto; right; right; left; auto). cbn [lift fbind].
  unfold load_signature. rewrite !fromhex_hex by assumption. reflexivity.
Qed.
Print Assumptions C64_falconrec_never_verifies.

(** a run through the files, with the (exact) sampler of the example *)
Definition ex_smp (K : seckey) (seed c : list Z) : list Z * list Z := (ex_g, [-2; -1]).
Definition ex_Hk (b : list Z) : list Z := flat_map (fun _ => [0; 5]) (seq 0 16).
Definition ex_sigfile : list Z := chars "21" ++ repeat 48 80 ++ chars "0280c0".
Example C64_nontrivial : cmd_sign ex_Hk ex_smp 5 5 (save_sk 2 ex_f ex_g ex_F ex_G (chars "ethfalcon")) (hex [1; 2; 3]) = Fin (Ok ex_sigfile) /\
  cmd_verify ex_Hk 5 (save_pk 2 (PList [7375; 2458]) (chars "ethfalcon")) (hex [1; 2; 3]) ex_sigfile = Fin (Ok true) /\
  cmd_verify ex_Hk 5 (save_pk 2 (PList [1000; 2458]) (chars "ethfalcon")) (hex [1; 2; 3]) ex_sigfile = Fin (Ok false).
Proof. repeat split; vm_compute; reflexivity. Qed.

(** * C65: transactions *)
Definition in_range (nonce to value : Z) (data : list Z) : Prop :=
  0 <= nonce < 2 ^ 256 /\ 0 <= to < 2 ^ 160 /\ 0 <= value < 2 ^ 256 /\ Z.of_nat (length data) < 2 ^ 256.
Lemma to_be_inj32 x y : 0 <= x < 2 ^ 256 -> 0 <= y < 2 ^ 256 -> to_be 32 x = to_be 32 y -> x = y.
Proof.
  intros Hx Hy E. apply (f_equal be_int) in E. change (2 ^ 256) with (256 ^ Z.of_nat 32) in *. rewrite !be_int_to_be in E by assumption. exact E.
Qed.
Lemma app_inj_len {A} (a b c d : list A) : length a = length b -> a ++ c = b ++ d -> a = b /\ c = d.
Proof.
  revert b. induction a as [|x a IH]; intros [|y b] L E; cbn in L; try discriminate; [now split|]. cbn [app] in E.
  assert (E1 : a ++ c = b ++ d) by congruence. assert (x = y) by congruence. destruct (IH b (eq_add_S _ _ L) E1). now subst.
Qed.
Theorem C65_encoding_injective : forall n t d v n' t' d' v' p,
  Z.of_nat (length d) < 2 ^ 256 -> Z.of_nat (length d') < 2 ^ 256 ->
  abi_encode_tx n t d v = Ok p -> abi_encode_tx n' t' d' v' = Ok p -> n = n' /\ t = t' /\ d = d' /\ v = v'.
Proof.
  intros n t d v n' t' d' v' p L L' E E'. unfold abi_encode_tx in E, E'.
  destruct ((0 <=? n) && _ && _ && _ && _ && _) eqn:C; [|discriminate]. destruct ((0 <=? n') && _ && _ && _ && _ && _) eqn:C'; [|discriminate].
  rewrite !Bool.andb_true_iff, !Z.leb_le, !Z.ltb_lt in C, C'.
  apply (f_equal (fun r => match r with Ok x => x | Raise _ => [] end)) in E, E'. cbn beta iota in E, E'. rewrite <- E in E'. clear E p.
  assert (P160 : 2 ^ 160 < 2 ^ 256) by (vm_compute; reflexivity).
  apply app_inj_len in E'; [|now rewrite !to_be_length]. destruct E' as [E1 E']. apply app_inj_len in E'; [|now rewrite !to_be_length]. destruct E' as [E2 E'].
  apply app_inj_len in E'; [|now rewrite !to_be_length]. destruct E' as [_ E']. apply app_inj_len in E'; [|now rewrite !to_be_length]. destruct E' as [E3 E'].
  apply app_inj_len in E'; [|now rewrite !to_be_length]. destruct E' as [E4 E']. apply to_be_inj32 in E1, E2, E3, E4; try lia.
  apply app_inj_len in E'; [|lia]. destruct E' as [E5 _]. repeat split; congruence.
Qed.
Print Assumptions C65_encoding_injective.
(** so two different transactions with the same hash are a collision of the hash function, exhibited *)
Theorem C65_equal_hashes_are_collisions : forall Hk n t d v n' t' d' v' x,
  Z.of_nat (length d) < 2 ^ 256 -> Z.of_nat (length d') < 2 ^ 256 ->
  transaction_hash Hk n t d v = Ok x -> transaction_hash Hk n' t' d' v' = Ok x -> (n, t, d, v) <> (n', t', d', v') ->
  exists p p', abi_encode_tx n t d v = Ok p /\ abi_encode_tx n' t' d' v' = Ok p' /\ p <> p' /\ Hk p = Hk p'.
Proof.
  intros Hk n t d v n' t' d' v' x L L' E E' D. unfold transaction_hash in E, E'.
  destruct (abi_encode_tx n t d v) as [p|] eqn:A; cbn [bind] in E; [|discriminate]. destruct (abi_encode_tx n' t' d' v') as [p'|] eqn:A'; cbn [bind] in E'; [|discriminate].
  exists p, p'. repeat split; [|congruence]. intros ->. destruct (C65_encoding_injective n t d v n' t' d' v' p' L L' A A') as (-> & -> & -> & ->). now apply D.
Qed.
Print Assumptions C65_equal_hashes_are_collisions.
(** a transaction is encoded exactly when its numbers are in range, in a whole number of 32-byte words *)
Theorem C65_encoded_iff_in_range : forall n t d v,
  (exists p, abi_encode_tx n t d v = Ok p) <-> 0 <= n < 2 ^ 256 /\ 0 <= t < 2 ^ 160 /\ 0 <= v < 2 ^ 256.
Proof.
  intros n t d v. unfold abi_encode_tx. split.
  - intros (p & E). destruct ((0 <=? n) && _ && _ && _ && _ && _) eqn:C; [|discriminate]. rewrite !Bool.andb_true_iff, !Z.leb_le, !Z.ltb_lt in C. lia.
  - intros H. replace ((0 <=? n) && _ && _ && _ && _ && _) with true; [eauto|]. symmetry. rewrite !Bool.andb_true_iff, !Z.leb_le, !Z.ltb_lt. lia.
Qed.
Theorem C65_whole_words : forall n t d v p, abi_encode_tx n t d v = Ok p -> (length p mod 32 = 0)%nat /\ (160 + length d <= length p < 160 + length d + 32)%nat.
Proof.
  intros n t d v p E. unfold abi_encode_tx in E. destruct ((0 <=? n) && _ && _ && _ && _ && _); [|discriminate].
  apply (f_equal (fun r => match r with Ok x => length x | Raise _ => 0%nat end)) in E. cbn beta iota in E. rewrite !app_length, !to_be_length, repeat_length in E.
  pose proof (Nat.div_mod (length d) 32 ltac:(lia)) as D. pose proof (Nat.mod_upper_bound (length d) 32 ltac:(lia)) as M.
  set (r := (length d mod 32)%nat) in *. set (k := (length d / 32)%nat) in *. rewrite <- E. clear E. destruct (Nat.eq_dec r 0) as [R|R].
  - rewrite R in *. change ((32 - 0) mod 32)%nat with 0%nat. split; [|lia]. replace (32 + _)%nat with ((k + 5) * 32)%nat by lia. apply Nat.mod_mul. lia.
  - rewrite (Nat.mod_small (32 - r)) by lia. split; [|lia]. replace (32 + _)%nat with ((k + 6) * 32)%nat by lia. apply Nat.mod_mul. lia.
Qed.
(** a standard ABI decoder of (uint256 nonce, address to, bytes data, uint256 value): four head words, the third one the offset of the data *)
Definition abi_word (p : list Z) (i : Z) : Z := be_int (firstn 32 (skipn (Z.to_nat i) p)).
Definition abi_decode_tx (p : list Z) : Z * Z * list Z * Z :=
  let offset := abi_word p 64 in
  (abi_word p 0, abi_word p 32, firstn (Z.to_nat (abi_word p offset)) (skipn (Z.to_nat offset + 32) p), abi_word p 96).
(** gives back the fields, in this order *)
Theorem C65_decodes : forall n t d v p, Z.of_nat (length d) < 2 ^ 256 -> abi_encode_tx n t d v = Ok p -> abi_decode_tx p = (n, t, d, v).
Proof.
  intros n t d v p L E. unfold abi_encode_tx in E. destruct ((0 <=? n) && _ && _ && _ && _ && _) eqn:C; [|discriminate E].
  rewrite !Bool.andb_true_iff, !Z.leb_le, !Z.ltb_lt in C.
  assert (P160 : 2 ^ 160 < 2 ^ 256) by (vm_compute; reflexivity).
  apply (f_equal (fun r => match r with Ok x => x | Raise _ => [] end)) in E. cbn beta iota in E. subst p.
  assert (W : forall (a b c : list Z) x i, length a = Z.to_nat i -> 0 <= x < 2 ^ 256 -> b = to_be 32 x -> abi_word (a ++ b ++ c) i = x).
  { intros a b c x i La Hx ->. unfold abi_word. rewrite <- La. rewrite skipn_app, skipn_all, Nat.sub_diag. cbn [app skipn].
    rewrite firstn_app, to_be_length, Nat.sub_diag, firstn_O, app_nil_r. rewrite firstn_all2 by (rewrite to_be_length; apply le_n).
    change (2 ^ 256) with (256 ^ Z.of_nat 32) in Hx. apply be_int_to_be, Hx. }
  set (p := to_be 32 n ++ _). set (z := repeat 0 _) in p.
  assert (W0 : abi_word p 0 = n). { apply (W [] (to_be 32 n)); [reflexivity|lia|reflexivity]. }
  assert (W1 : abi_word p 32 = t). { apply (W (to_be 32 n) (to_be 32 t)); [apply to_be_length|lia|reflexivity]. }
  assert (W2 : abi_word p 64 = 128).
  { unfold p. rewrite (app_assoc (to_be 32 n)). apply (W (to_be 32 n ++ to_be 32 t) (to_be 32 128)); [rewrite app_length, !to_be_length; reflexivity|vm_compute; split; [discriminate|reflexivity]|reflexivity]. }
  assert (W3 : abi_word p 96 = v).
  { unfold p. rewrite (app_assoc (to_be 32 n)), (app_assoc (to_be 32 n ++ _)). apply (W ((to_be 32 n ++ to_be 32 t) ++ to_be 32 128) (to_be 32 v)); [rewrite !app_length, !to_be_length; reflexivity|lia|reflexivity]. }
  assert (P4 : p = (((to_be 32 n ++ to_be 32 t) ++ to_be 32 128) ++ to_be 32 v) ++ to_be 32 (Z.of_nat (length d)) ++ d ++ z) by (unfold p; rewrite <- !app_assoc; reflexivity).
  assert (L4 : length (((to_be 32 n ++ to_be 32 t) ++ to_be 32 128) ++ to_be 32 v) = Z.to_nat 128) by (rewrite !app_length, !to_be_length; reflexivity).
  assert (W4 : abi_word p 128 = Z.of_nat (length d)) by (rewrite P4; apply W; [exact L4|lia|reflexivity]).
  unfold abi_decode_tx. rewrite W0, W1, W2, W3, W4. do 2 f_equal. rewrite Nat2Z.id, P4, app_assoc.
  set (hd := _ ++ to_be 32 (Z.of_nat (length d))). assert (Lh : length hd = (Z.to_nat 128 + 32)%nat) by (unfold hd; rewrite app_length, L4, to_be_length; reflexivity).
  rewrite <- Lh. rewrite skipn_app, skipn_all, Nat.sub_diag. cbn [app skipn]. rewrite firstn_app, Nat.sub_diag, firstn_O, app_nil_r. apply firstn_all.
Qed.
Print Assumptions C65_decodes.
Example C65_nontrivial : exists p, abi_encode_tx 7 (2 ^ 159) [1; 2; 3] 5 = Ok p /\ length p = 192%nat /\ abi_encode_tx 7 (2 ^ 160) [1; 2; 3] 5 = Raise OtherException.
Proof. eexists. split; [vm_compute; reflexivity|]. split; vm_compute; reflexivity. Qed.

(** * C73: commands that cannot succeed *)
(** sign_tx: every run, on any private key file, ends with an exception (or does not end): the signature is never checked nor written *)
Theorem C73_sign_tx_never_completes : forall Hk smp fh fuel fv privkey nonce to data value version,
  match cmd_sign_tx Hk smp fh fuel fv privkey nonce to data value version with Fin (Ok _) => False | _ => True end.
Proof.
  intros. unfold cmd_sign_tx. destruct (transaction_hash Hk nonce to data value) as [tx|e]; cbn [lift fbind]; [|exact I].
  destruct (load_sk privkey) as [[[[c K] v]|]|e]; cbn [fbind]; try exact I. destruct (PublicKey 512 (sk_h K)) as [P|e]; cbn [fbind]; [|exact I].
  destruct (cli_signature Hk smp fh fuel c K tx version) as [[sig|e]|]; cbn [fbind]; exact I.
Qed.
Print Assumptions C73_sign_tx_never_completes.
(** ... and it is a TypeError whenever the signature was produced *)
Theorem C73_sign_tx_type_error : forall Hk smp fh fuel fv v c n f g F G K nonce to data value tx sig version,
  supported v c -> SecretKey n f g F G = Ok K -> transaction_hash Hk nonce to data value = Ok tx -> cli_signature Hk smp fh fuel c K tx version = Fin (Ok sig) ->
  cmd_sign_tx Hk smp fh fuel fv (save_sk (Z.of_nat n) f g F G v) nonce to data value version = Fin (Raise TypeError).
Proof.
  intros Hk smp fh fuel fv v c n f g F G K nonce to data value tx sig version Hv HK Ht Hs. unfold cmd_sign_tx. rewrite Ht. cbn [lift fbind].
  rewrite (C62_private_key_file v c n f g F G K Hv HK). cbn [fbind].
  assert (E : exists P, PublicKey 512 (sk_h K) = Ok P) by (unfold PublicKey; eexists; vm_compute (params 512); reflexivity).
  destruct E as (P & ->). cbn [fbind]. rewrite Hs. reflexivity.
Qed.
Print Assumptions C73_sign_tx_type_error.
(** the command line of recover_on_chain_with_transaction is never built: the template has 8 fields and 7 values are given *)
Theorem C73_recover_transaction_never_sent : forall data sig address rpc key version r, recover_send_command data sig address rpc key version <> Ok r.
Proof.
  intros. unfold recover_send_command. destruct (seqb version (chars "epervier")); [|discriminate].
  destruct (onchain_epervier_args sig) as [[[[S1 S2] hint]|]|e]; cbn [bind]; [|discriminate..].
  set (a3 := hex0x data). set (a4 := hex0x _). set (a5 := str_list S2). set (a6 := str_int hint). clearbody a3 a4 a5 a6.
  intros E. apply (f_equal (fun r => match r with Ok _ => true | Raise _ => false end)) in E. revert E. vm_compute. discriminate.
Qed.
Print Assumptions C73_recover_transaction_never_sent.
Theorem C73_recover_transaction_index_error : forall data sig address rpc key S1 S2 hint, onchain_epervier_args sig = Ok (Some (S1, S2, hint)) ->
  recover_send_command data sig address rpc key (chars "epervier") = Raise IndexError.
Proof.
  intros data sig address rpc key S1 S2 hint E. unfold recover_send_command. rewrite E. cbn [bind].
  change (seqb (chars "epervier") (chars "epervier")) with true. cbn iota.
  set (a3 := hex0x data). set (a4 := hex0x _). set (a5 := str_list S2). set (a6 := str_int hint). clearbody a3 a4 a5 a6. reflexivity.
Qed.
Print Assumptions C73_recover_transaction_index_error.
(** the sibling command for falcon and ethfalcon is built, with each value in its place *)
Theorem C73_verify_transaction_command : forall h data sig address rpc key version S2 PK, version = chars "falcon" \/ version = chars "ethfalcon" ->
  onchain_falcon_args h sig = Ok (Some (S2, PK)) ->
  verify_send_command h data sig address rpc key version =
    Ok (chars "cast send --private-key " ++ key ++ chars " " ++ address ++ chars " ""verify(bytes,bytes,uint256[],uint256[])"" 0x" ++ hex data ++ chars " 0x" ++
        hex (slice 1 41 sig) ++ chars " """ ++ str_list S2 ++ chars """ """ ++ str_list PK ++ chars """ --rpc-url " ++ rpc).
Proof.
  intros h data sig address rpc key version S2 PK Hv E. unfold verify_send_command. rewrite E. cbn [bind].
  replace (seqb version (chars "falcon") || seqb version (chars "ethfalcon")) with true by (destruct Hv as [-> | ->]; reflexivity). cbn iota.
  change (slice HEAD_LEN (HEAD_LEN + FalconModel.SALT_LEN) sig) with (slice 1 41 sig).
  set (a5 := str_list S2). set (a6 := str_list PK). unfold hex0x. set (a3 := hex data). set (a4 := hex _). clearbody a3 a4 a5 a6.
  match goal with |- context [py_format ?t ?l] => let x := eval vm_compute in (py_format t l) in change (py_format t l) with x end.
  f_equal. rewrite <- (app_nil_r rpc) at 2. rewrite <- ?app_assoc. reflexivity.
Qed.
Print Assumptions C73_verify_transaction_command.
