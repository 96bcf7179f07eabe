(** Proofs about contract creation, code storage, ABI coding and the packed entry point. *)
From Verif Require Import Base KeccakModel PrngModel HashModel HashProofs FalconModel RecoveryProofs NttTables NttModel SolModel ChainRecover SolWorldModel.
Set Default Goal Selector "!".

(** * running the creation code *)
Lemma map_code_byte p c q : map (code_byte (p ++ c ++ q)) (seq (length p) (length c)) = c.
Proof.
  revert p. induction c as [|x c IH]; intros p; [reflexivity|]. cbn [length seq map]. f_equal.
  - unfold code_byte. rewrite app_nth2, Nat.sub_diag by lia. reflexivity.
  - specialize (IH (p ++ [x])). rewrite app_length in IH. cbn [length] in IH. rewrite <- app_assoc in IH. cbn [app] in IH. rewrite Nat.add_1_r in IH. exact IH.
Qed.
Lemma map_code_from p c : forall k, k = length c -> map (fun i => code_byte (p ++ c) (length p + i)) (seq 0 k) = c.
Proof.
  intros k ->. pose proof (map_code_byte p c []) as E. rewrite app_nil_r in E. etransitivity; [|exact E].
  assert (G : forall k s, map (fun i => code_byte (p ++ c) (length p + i)) (seq s k) = map (code_byte (p ++ c)) (seq (length p + s) k)).
  { induction k; intros s; [reflexivity|]. cbn [seq map]. f_equal. rewrite IHk. rewrite Nat.add_succ_r. reflexivity. }
  rewrite G, Nat.add_0_r. reflexivity.
Qed.

Lemma create_prefix_len code : length (creationCodeFor code) = (14 + length code)%nat.
Proof. unfold creationCodeFor. rewrite !app_length, to_be_length. cbn [length]. lia. Qed.

Lemma exec_push1 f code pc st m : code_byte code pc = 0x60 -> exec (S f) code pc st m = exec f code (pc + 2) (code_byte code (pc + 1) :: st) m.
Proof. intros E. cbn [exec]. rewrite E. reflexivity. Qed.
Lemma exec_push4 f code pc st m : code_byte code pc = 0x63 ->
  exec (S f) code pc st m = exec f code (pc + 5) (be_int (map (code_byte code) (seq (pc + 1) 4)) :: st) m.
Proof. intros E. cbn [exec]. rewrite E. reflexivity. Qed.
Lemma exec_dup1 f code pc x st m : code_byte code pc = 0x80 -> exec (S f) code pc (x :: st) m = exec f code (pc + 1) (x :: x :: st) m.
Proof. intros E. cbn [exec]. rewrite E. reflexivity. Qed.
Lemma exec_codecopy f code pc dst off size st m : code_byte code pc = 0x39 -> exec (S f) code pc (dst :: off :: size :: st) m =
  exec f code (pc + 1) st (fun a => if (dst <=? a) && (a <? dst + size) then code_byte code (Z.to_nat (off + (a - dst))) else m a).
Proof. intros E. cbn [exec]. rewrite E. reflexivity. Qed.
Lemma exec_return f code pc off size st m : code_byte code pc = 0xF3 ->
  exec (S f) code pc (off :: size :: st) m = Some (map (fun i => m (off + Z.of_nat i)) (seq 0 (Z.to_nat size))).
Proof. intros E. cbn [exec]. rewrite E. reflexivity. Qed.

Lemma exec_creation code : Z.of_nat (length code) < 2 ^ 32 -> exec 20 (creationCodeFor code) 0 [] (fun _ => 0) = Some code.
Proof.
  intros Hl. unfold creationCodeFor. rewrite Z.mod_small by lia.
  pose proof (be_int_to_be 4 (Z.of_nat (length code)) ltac:(change (256 ^ Z.of_nat 4) with (2 ^ 32); lia)) as E.
  destruct (to_be 4 (Z.of_nat (length code))) as [|a [|b [|c [|d [|]]]]] eqn:T;
    try (pose proof (to_be_length 4 (Z.of_nat (length code))) as L; rewrite T in L; discriminate).
  set (pre := [0x63; a; b; c; d; 0x80; 0x60; 0x0E; 0x60; 0x00; 0x39; 0x60; 0x00; 0xF3]).
  change ([99] ++ [a; b; c; d] ++ [128; 96; 14; 96; 0; 57; 96; 0; 243] ++ code) with (pre ++ code).
  assert (P : forall i, (i < 14)%nat -> code_byte (pre ++ code) i = nth i pre 0) by (intros; unfold code_byte; apply app_nth1; exact H).
  rewrite exec_push4 by (rewrite P by lia; reflexivity). cbn [Nat.add seq map]. rewrite (P 1%nat), (P 2%nat), (P 3%nat), (P 4%nat) by lia.
  change (be_int [nth 1 pre 0; nth 2 pre 0; nth 3 pre 0; nth 4 pre 0]) with (be_int [a; b; c; d]). rewrite E.
  rewrite exec_dup1 by (rewrite P by lia; reflexivity). cbn [Nat.add].
  rewrite exec_push1 by (rewrite P by lia; reflexivity). cbn [Nat.add]. rewrite (P 7%nat) by lia. change (nth 7 pre 0) with 14.
  rewrite exec_push1 by (rewrite P by lia; reflexivity). cbn [Nat.add]. rewrite (P 9%nat) by lia. change (nth 9 pre 0) with 0.
  rewrite exec_codecopy by (rewrite P by lia; reflexivity). cbn [Nat.add].
  rewrite exec_push1 by (rewrite P by lia; reflexivity). cbn [Nat.add]. rewrite (P 12%nat) by lia. change (nth 12 pre 0) with 0.
  rewrite exec_return by (rewrite P by lia; reflexivity).
  f_equal. rewrite Nat2Z.id.
  etransitivity; [|exact (map_code_from pre code _ eq_refl)].
  apply map_ext_in. intros i Hi. apply in_seq in Hi.
  assert (B : (0 <=? 0 + Z.of_nat i) && (0 + Z.of_nat i <? 0 + Z.of_nat (length code)) = true) by lia.
  rewrite B. f_equal. change (length pre) with 14%nat. lia.
Qed.

Definition storable (code : list Z) : Prop := (Z.of_nat (length code) <= 24576) /\ code_byte code 0 <> 0xEF.
Lemma create_ok code : storable code -> create (creationCodeFor code) = Some code.
Proof.
  intros [Hl He]. unfold create. rewrite create_prefix_len. destruct (Z.ltb_spec 49152 (Z.of_nat (14 + length code))); [lia|].
  rewrite exec_creation by lia. destruct (Z.ltb_spec 24576 (Z.of_nat (length code))); [lia|].
  destruct (Z.eqb_spec (code_byte code 0) 239); [contradiction|]. reflexivity.
Qed.
Lemma create_fails code : ~ storable code -> create (creationCodeFor code) = None.
Proof.
  intros Hs. unfold create. rewrite create_prefix_len. destruct (Z.ltb_spec 49152 (Z.of_nat (14 + length code))); [reflexivity|].
  rewrite exec_creation by lia. destruct (Z.ltb_spec 24576 (Z.of_nat (length code))); [reflexivity|].
  destruct (Z.eqb_spec (code_byte code 0) 239); [reflexivity|]. exfalso. apply Hs. split; auto.
Qed.

Lemma sstore2_write_ok data : (Z.of_nat (length data) <= 24575) -> sstore2_write data = Ok (0 :: data).
Proof. intros H. unfold sstore2_write. rewrite create_ok; [reflexivity|]. split; [cbn [length]; lia|]. cbn. discriminate. Qed.
Lemma sstore2_write_big data : 24575 < Z.of_nat (length data) -> sstore2_write data = Raise Revert.
Proof. intros H. unfold sstore2_write. rewrite create_fails; [reflexivity|]. intros [C _]. cbn [length] in C. lia. Qed.
Lemma sstore2_read_stop x data : Z.of_nat (length data) < 2 ^ 255 -> sstore2_read (x :: data) = Ok data.
Proof.
  intros Hd. unfold sstore2_read, codeAt. cbn [length].
  destruct (Z.eqb_spec (Z.of_nat (S (length data))) 0); [lia|]. destruct (Z.ltb_spec (Z.of_nat (S (length data))) 1); [lia|].
  destruct (Z.ltb_spec (2 ^ 256 - 1) 1); [lia|].
  assert (S2 : (Z.of_nat (S (length data)) - 1 <? 2 ^ 256 - 1 - 1) = true) by (pose proof (eq_refl : 2 ^ 256 = 2 * 2 ^ 255); lia).
  rewrite S2. f_equal. replace (Z.to_nat (Z.of_nat (S (length data)) - 1)) with (length data) by lia. exact (map_code_from [x] data _ eq_refl).
Qed.

(** * big endian words *)
Lemma zeros_bytes : forall m : list Z, bytes ((fun _ => repeat 0 32) m).
Proof. intros m. apply Forall_forall. intros x Hx. apply repeat_spec in Hx. subst. split; [reflexivity || discriminate|reflexivity]. Qed.
Definition be_app := be_int_app (fun _ => repeat 0 32) (fun _ => repeat_length 0 32) zeros_bytes.
Definition be_bound := be_int_bound (fun _ => repeat 0 32) (fun _ => repeat_length 0 32) zeros_bytes.
Lemma word_at_app p w q : length w = 32%nat -> word_at (p ++ w ++ q) (length p) = be_int w.
Proof. intros L. unfold word_at. rewrite <- L, map_code_byte. reflexivity. Qed.
Lemma be32_len l : length (flat_map (to_be 32) l) = (32 * length l)%nat.
Proof. induction l; [reflexivity|]. cbn [flat_map length]. rewrite app_length, to_be_length, IHl. lia. Qed.
Definition words (l : list Z) : Prop := Forall (fun w => 0 <= w < 2 ^ 256) l.
Lemma be_int_to_be32 w : 0 <= w < 2 ^ 256 -> be_int (to_be 32 w) = w.
Proof. intros H. apply be_int_to_be. change (256 ^ Z.of_nat 32) with (2 ^ 256). exact H. Qed.
Lemma word_at_words p l q i : words l -> (i < length l)%nat -> word_at (p ++ flat_map (to_be 32) l ++ q) (length p + 32 * i) = nth i l 0.
Proof.
  intros W Hi. destruct (nth_split l 0 Hi) as (l1 & l2 & E & L1).
  rewrite E at 1. rewrite flat_map_app. cbn [flat_map]. rewrite <- !app_assoc, app_assoc.
  replace (length p + 32 * i)%nat with (length (p ++ flat_map (to_be 32) l1)) by (rewrite app_length, be32_len; lia).
  rewrite word_at_app by apply to_be_length. apply be_int_to_be32. unfold words in W. rewrite Forall_forall in W. apply W. apply nth_In. exact Hi.
Qed.
Lemma map_seq_nth (l : list Z) f : (forall i, (i < length l)%nat -> f i = nth i l 0) -> map f (seq 0 (length l)) = l.
Proof.
  intros H. apply (nth_ext _ _ 0 0); [rewrite map_length, seq_length; reflexivity|].
  intros i Hi. rewrite map_length, seq_length in Hi. rewrite (nth_indep _ 0 (f 0%nat)) by (rewrite map_length, seq_length; exact Hi).
  rewrite map_nth, seq_nth by exact Hi. apply H. exact Hi.
Qed.
Lemma abi_roundtrip l tail : words l -> Z.of_nat (length l) < 2 ^ 64 -> abi_decode_words (abi_encode_words l ++ tail) = Ok l.
Proof.
  intros W Hl. unfold abi_encode_words.
  assert (Ln : Z.of_nat (length (flat_map (to_be 32) (32 :: Z.of_nat (length l) :: l) ++ tail)) = 64 + 32 * Z.of_nat (length l) + Z.of_nat (length tail)).
  { rewrite app_length, be32_len. cbn [length]. lia. }
  assert (W2 : words (32 :: Z.of_nat (length l) :: l)).
  { constructor; [split; reflexivity || discriminate|]. constructor; [|exact W]. split; [lia|]. eapply Z.lt_trans; [exact Hl|reflexivity]. }
  pose proof (fun i => word_at_words [] (32 :: Z.of_nat (length l) :: l) tail i W2) as A. cbn [app length Nat.add] in A.
  set (d := flat_map (to_be 32) (32 :: Z.of_nat (length l) :: l) ++ tail) in *.
  unfold abi_decode_words. rewrite Ln.
  destruct (Z.ltb_spec (64 + 32 * Z.of_nat (length l) + Z.of_nat (length tail)) 32); [lia|].
  pose proof (A 0%nat ltac:(lia)) as A0. change (word_at d 0 = 32) in A0. rewrite A0.
  destruct (Z.ltb_spec (2 ^ 64 - 1) 32); [lia|].
  destruct (Z.leb_spec (64 + 32 * Z.of_nat (length l) + Z.of_nat (length tail)) (32 + 31)); [lia|].
  pose proof (A 1%nat ltac:(lia)) as A1. change (word_at d 32 = Z.of_nat (length l)) in A1. change (Z.to_nat 32) with 32%nat. rewrite A1.
  destruct (Z.ltb_spec (2 ^ 64 - 1) (Z.of_nat (length l))); [lia|].
  destruct (Z.ltb_spec (64 + 32 * Z.of_nat (length l) + Z.of_nat (length tail)) (32 + 32 + 32 * Z.of_nat (length l))); [lia|].
  f_equal. rewrite Nat2Z.id. apply map_seq_nth. intros i Hi.
  replace (32 + 32 + 32 * i)%nat with (32 * (2 + i))%nat by lia. rewrite A by lia. reflexivity.
Qed.

(** * memory *)
Lemma to_be_nth k : forall v i, (i < k)%nat -> nth i (to_be k v) 0 = (v / 256 ^ (Z.of_nat k - 1 - Z.of_nat i)) mod 256.
Proof.
  induction k; intros v i Hi; [lia|]. cbn [to_be]. destruct (Nat.eq_dec i k) as [->|Hn].
  - rewrite app_nth2 by (rewrite to_be_length; lia). rewrite to_be_length, Nat.sub_diag. cbn [nth].
    replace (Z.of_nat (S k) - 1 - Z.of_nat k) with 0 by lia. rewrite Z.pow_0_r, Z.div_1_r. reflexivity.
  - rewrite app_nth1 by (rewrite to_be_length; lia). rewrite IHk by lia.
    replace (Z.of_nat (S k) - 1 - Z.of_nat i) with (1 + (Z.of_nat k - 1 - Z.of_nat i)) by lia.
    rewrite Z.pow_add_r, Z.pow_1_r, <- Z.div_div by lia. reflexivity.
Qed.
Lemma mstore_in m p v i : (i < 32)%nat -> mstore m p v (p + Z.of_nat i) = nth i (to_be 32 v) 0.
Proof.
  intros Hi. unfold mstore. assert (B : (p <=? p + Z.of_nat i) && (p + Z.of_nat i <? p + 32) = true) by lia. rewrite B.
  rewrite to_be_nth by exact Hi. do 2 f_equal. f_equal. lia.
Qed.
Lemma mstore_out m p v a : a < p \/ p + 32 <= a -> mstore m p v a = m a.
Proof. intros H. unfold mstore. assert (B : (p <=? a) && (a <? p + 32) = false) by lia. rewrite B. reflexivity. Qed.
Lemma mload_ext m m' p : (forall a, p <= a < p + 32 -> m a = m' a) -> mload m p = mload m' p.
Proof. intros H. unfold mload. f_equal. apply map_ext_in. intros i Hi. apply in_seq in Hi. apply H. lia. Qed.
Lemma mload_mstore m p v : 0 <= v < 2 ^ 256 -> mload (mstore m p v) p = v.
Proof.
  intros Hv. unfold mload. etransitivity; [|exact (be_int_to_be32 v Hv)]. f_equal. rewrite <- (to_be_length 32 v) at 1.
  apply map_seq_nth. intros i Hi. rewrite to_be_length in Hi. apply mstore_in. exact Hi.
Qed.
Lemma mload_mstore_out m p v a : a + 32 <= p \/ p + 32 <= a -> mload (mstore m p v) a = mload m a.
Proof. intros H. apply mload_ext. intros x Hx. apply mstore_out. lia. Qed.
(** mstore of mload copies the bytes *)
Lemma mload_bytes m p : (forall a, 0 <= m a < 256) -> forall i, (i < 32)%nat -> nth i (to_be 32 (mload m p)) 0 = m (p + Z.of_nat i).
Proof.
  intros B i Hi. unfold mload. set (l := map (fun i => m (p + Z.of_nat i)) (seq 0 32)).
  assert (L : length l = 32%nat) by (unfold l; rewrite map_length, seq_length; reflexivity).
  assert (Bl : bytes l). { unfold l, bytes. rewrite Forall_forall. intros x Hx. apply in_map_iff in Hx. destruct Hx as (j & <- & _). apply B. }
  assert (E : forall k l, length l = k -> bytes l -> to_be k (be_int l) = l).
  { clear. induction k; intros l L B; [destruct l; [reflexivity|discriminate]|].
    destruct (exists_last (l:=l) ltac:(destruct l; discriminate)) as (l' & x & ->). rewrite be_int_snoc. cbn [to_be].
    apply bytes_app in B. destruct B as [B1 B2]. inversion B2 as [|? ? Bx _]; subst. unfold is_byte in Bx.
    rewrite app_length in L. cbn [length] in L.
    replace ((256 * be_int l' + x) / 256) with (be_int l') by lia. replace ((256 * be_int l' + x) mod 256) with x by lia. rewrite IHk by (auto; lia). reflexivity. }
  rewrite (E 32%nat l L Bl). unfold l. rewrite (nth_indep _ 0 ((fun i => m (p + Z.of_nat i)) 0%nat)) by (rewrite map_length, seq_length; exact Hi).
  rewrite (map_nth (fun i => m (p + Z.of_nat i))), seq_nth by exact Hi. reflexivity.
Qed.
Lemma copy32 m src dst a : (forall a, 0 <= m a < 256) -> dst <= a < dst + 32 -> mstore m dst (mload m src) a = m (src + (a - dst)).
Proof.
  intros B H. replace a with (dst + Z.of_nat (Z.to_nat (a - dst))) by lia. rewrite mstore_in by lia. rewrite mload_bytes by (auto; lia).
  f_equal. lia.
Qed.
Lemma mstore_byte m p v : (forall a, 0 <= m a < 256) -> forall a, 0 <= mstore m p v a < 256.
Proof. intros B a. unfold mstore. destruct ((p <=? a) && (a <? p + 32)); [apply Z.mod_pos_bound; lia|apply B]. Qed.

(** * the packed entry point *)
(** sig in memory: length word at sigp, then the bytes *)
Definition in_memory (m : memory_t) (sigp : Z) (sig : list Z) : Prop :=
  (forall a, 0 <= m a < 256) /\ mload m sigp = Z.of_nat (length sig) /\
  (forall i, (i < length sig)%nat -> m (sigp + 32 + Z.of_nat i) = nth i sig 0) /\
  0x60 <= sigp /\ sigp + 32 + Z.of_nat (length sig) <= mload m 0x40.
Definition s2_words (sig : list Z) : list Z := map (fun i => be_int (firstn 32 (skipn (40 + 32 * i) sig))) (seq 0 ((length sig - 40) / 32)).

Lemma firstn_skipn_nth (l : list Z) a k : (a + k <= length l)%nat -> firstn k (skipn a l) = map (fun i => nth (a + i) l 0) (seq 0 k).
Proof.
  intros H. symmetry. apply (nth_ext _ _ 0 0).
  - rewrite map_length, seq_length, firstn_length, skipn_length. lia.
  - intros i Hi. rewrite map_length, seq_length in Hi.
    rewrite (nth_indep _ 0 ((fun i => nth (a + i) l 0) 0%nat)) by (rewrite map_length, seq_length; exact Hi).
    rewrite (map_nth (fun i => nth (a + i) l 0)), seq_nth by exact Hi. rewrite Nat.add_0_l.
    rewrite <- (firstn_skipn a l) at 1. rewrite app_nth2 by (rewrite firstn_length; lia). rewrite firstn_length.
    replace (a + i - Nat.min a (length l))%nat with i by lia.
    rewrite <- (firstn_skipn k (skipn a l)) at 1. apply app_nth1. rewrite firstn_length, skipn_length. lia.
Qed.

Lemma split_sig_spec m sigp sig : in_memory m sigp sig -> Z.of_nat (length sig) < 2 ^ 255 -> (40 <= length sig)%nat ->
  let '(m', saltPtr, s2Ptr) := split_sig m sigp in
  mem_bytes m' saltPtr = firstn 40 sig /\ mem_words m' s2Ptr = s2_words sig.
Proof.
  intros (B & Hlen & Hd & Hp & Hf) Hbig H40. unfold split_sig. set (fp := mload m 64) in *.
  cbn [for_lt]. change (0 <? 40) with true. change (0 + 32 <? 40) with true. change (0 + 32 + 32 <? 40) with false. cbv iota.
  set (m1 := mstore m fp 40).
  set (m2 := mstore m1 (fp + 32 + 0) (mload m1 (sigp + 32 + 0))).
  set (m3 := mstore m2 (fp + 32 + (0 + 32)) (mload m2 (sigp + 32 + (0 + 32)))).
  set (sv := fp + (32 + 64)). set (sl := sigp + 32 + 40 - 32).
  set (m4 := mstore m3 sv (mload m3 sigp)). set (m5 := mstore m4 (sv + 32) (mload m4 sl)). set (m6 := mstore m5 64 (sv + 64)).
  assert (B1 : forall a, 0 <= m1 a < 256) by (apply mstore_byte; exact B).
  assert (B2 : forall a, 0 <= m2 a < 256) by (apply mstore_byte; exact B1).
  assert (U3 : forall a, a < fp -> m3 a = m a).
  { intros a Ha. unfold m3. rewrite mstore_out by lia. unfold m2. rewrite mstore_out by lia. unfold m1. apply mstore_out. lia. }
  assert (U5 : forall a, a < fp -> m5 a = m a).
  { intros a Ha. unfold m5. rewrite mstore_out by (unfold sv; lia). unfold m4. rewrite mstore_out by (unfold sv; lia). apply U3. exact Ha. }
  assert (U6 : forall a, 0x60 <= a < fp -> m6 a = m a).
  { intros a Ha. unfold m6. rewrite mstore_out by lia. apply U5. lia. }
  assert (L6 : mload m6 sigp = Z.of_nat (length sig)).
  { rewrite <- Hlen. apply mload_ext. intros a Ha. apply U6. lia. }
  rewrite L6. unfold evm_sub, two256. rewrite Z.mod_small by (pose proof (eq_refl : 2 ^ 256 = 2 * 2 ^ 255); lia).
  set (K := (Z.of_nat (length sig) - 40) / 32). set (m7 := mstore m6 sl K).
  assert (HK : K = Z.of_nat ((length sig - 40) / 32)) by (unfold K; rewrite Nat2Z.inj_div; f_equal; lia).
  assert (U7 : forall a, fp <= a < fp + 96 -> m7 a = m3 a).
  { intros a Ha. unfold m7. rewrite mstore_out by (unfold sl; lia). unfold m6. rewrite mstore_out by lia.
    unfold m5. rewrite mstore_out by (unfold sv; lia). unfold m4. apply mstore_out. unfold sv; lia. }
  split.
  - unfold mem_bytes.
    assert (LS : mload m7 fp = 40).
    { rewrite (mload_ext m7 m1 fp); [apply mload_mstore; split; [lia|reflexivity]|].
      intros a Ha. rewrite U7 by lia. unfold m3. rewrite mstore_out by lia. unfold m2. apply mstore_out. lia. }
    rewrite LS. change (Z.to_nat 40) with 40%nat.
    rewrite <- (skipn_O sig), firstn_skipn_nth by lia. cbn [Nat.add]. apply map_ext_in. intros i Hi. apply in_seq in Hi.
    rewrite U7 by lia. rewrite <- Hd by lia. destruct (Nat.lt_ge_cases i 32) as [Hi'|Hi'].
    + unfold m3. rewrite mstore_out by lia. unfold m2. rewrite copy32 by (auto; lia). unfold m1. rewrite mstore_out by lia. f_equal. lia.
    + unfold m3. rewrite copy32 by (auto; lia). unfold m2. rewrite mstore_out by lia. unfold m1. rewrite mstore_out by lia. f_equal. lia.
  - unfold mem_words. unfold m7 at 2. rewrite mload_mstore by (split; [lia|]; rewrite HK; pose proof (eq_refl : 2 ^ 256 = 2 * 2 ^ 255); pose proof (Nat.div_le_upper_bound (length sig - 40) 32 (length sig) ltac:(lia) ltac:(lia)); lia).
    rewrite HK, Nat2Z.id. unfold s2_words. apply map_ext_in. intros i Hi. apply in_seq in Hi.
    pose proof (Nat.mul_div_le (length sig - 40) 32 ltac:(lia)).
    rewrite firstn_skipn_nth by lia. unfold mload. f_equal. apply map_ext_in. intros j Hj. apply in_seq in Hj.
    unfold m7. rewrite mstore_out by (unfold sl; lia). rewrite U6 by (unfold sl; lia). rewrite <- Hd by lia. f_equal. unfold sl. lia.
Qed.
(** shorter than 40 bytes: the length of s2 is enormous *)
Lemma split_sig_short m sigp sig : in_memory m sigp sig -> (length sig < 40)%nat ->
  let '(m', saltPtr, s2Ptr) := split_sig m sigp in 2 ^ 250 <= mload m' s2Ptr < 2 ^ 256.
Proof.
  intros (B & Hlen & Hd & Hp & Hf) H40. unfold split_sig. set (fp := mload m 64) in *.
  cbn [for_lt]. change (0 <? 40) with true. change (0 + 32 <? 40) with true. change (0 + 32 + 32 <? 40) with false. cbv iota.
  match goal with |- context [mstore ?mm (sigp + 32 + 40 - 32) (evm_sub (mload ?mm sigp) 40 / 32)] => set (m6 := mm) end.
  assert (L6 : mload m6 sigp = Z.of_nat (length sig)).
  { rewrite <- Hlen. apply mload_ext. intros a Ha. unfold m6. rewrite !mstore_out by lia. reflexivity. }
  rewrite L6. unfold evm_sub, two256.
  assert (E : (Z.of_nat (length sig) - 40) mod 2 ^ 256 = 2 ^ 256 + (Z.of_nat (length sig) - 40)).
  { symmetry. apply Z.mod_unique with (q := -1); [left|lia]. pose proof (eq_refl : 2 ^ 256 = 2 ^ 200 * 2 ^ 56). lia. }
  rewrite E. rewrite mload_mstore.
  - split; [apply Z.div_le_lower_bound; [lia|]|apply Z.div_lt_upper_bound; [lia|]].
    + change (2 ^ 256) with (64 * 2 ^ 250). lia.
    + lia.
  - split; [apply Z.div_pos; lia|apply Z.div_lt_upper_bound; [lia|]]. lia.
Qed.

(** * the stateful multiplication *)
Lemma nttinv_q1 psi nm1 n b : Forall (fun x => x = 0) (nttinv 1 psi nm1 n b).
Proof. unfold nttinv. rewrite Forall_forall. intros x Hx. apply in_map_iff in Hx. destruct Hx as (y & <- & _). apply Z.mod_1_r. Qed.
