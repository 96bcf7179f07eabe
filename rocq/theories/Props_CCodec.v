(** C83, C84: the codecs and the polynomial arithmetic of the C implementation. *)
From Verif Require Import Base CodecModel CodecSpec CodecProofs EncodingModel EncodingSpec EncodingProofs RingSpec FalconSpec NttProofs NttModel NttInst NttApi PolyProofs SolModel CTables CModel CNttProofs CCodecProofs.

(** * C83: codecs *)
(** what is accepted: 2^k coefficients of at most 2047 in absolute value, each in its only encoding, as few bytes as possible, zero bits after the last one *)
Theorem C83_decode_iff : forall k data v used, bytes data ->
  (c_comp_decode k data = Some (v, used) <->
   length v = (2 ^ k)%nat /\ Forall (fun c => -2047 <= c <= 2047) v /\ (used <= length data)%nat /\
   exists w pad, encodes_all v w /\ (pad < 8)%nat /\ bytes_bits (firstn used data) = w ++ repeat false pad).
Proof.
  intros k data v used Hb. rewrite c_comp_decode_iff by exact Hb. unfold c_encoding. split.
  - intros (A & B & C & _ & D). exact (conj A (conj B (conj C D))).
  - intros (A & B & C & D). split; [exact A|]. split; [exact B|]. split; [exact C|]. split; [apply bytes_firstn; exact Hb|exact D].
Qed.
Print Assumptions C83_decode_iff.
Example C83_decode_nontrivial : c_comp_decode 1 [0x05; 0xC0; 0xBF; 0x77] = None /\ c_comp_decode 1 [0x05; 0xC0; 0xA0; 0x77] = Some ([5; -129], 3%nat).
Proof. split; vm_compute; reflexivity. Qed.

(** the encoder produces exactly that, or fails *)
Theorem C83_encode_iff : forall max v out,
  c_comp_encode max v = Some out <->
  Forall (fun c => -2047 <= c <= 2047) v /\ (length out <= max)%nat /\ bytes out /\
  exists w pad, encodes_all v w /\ (pad < 8)%nat /\ bytes_bits out = w ++ repeat false pad.
Proof. exact c_comp_encode_iff. Qed.
Print Assumptions C83_encode_iff.
Theorem C83_encode_fails_iff : forall max v,
  c_comp_encode max v = None <-> Exists (fun c => c < -2047 \/ 2047 < c) v \/ 8 * Z.of_nat max < total_cost v.
Proof.
  intros max v. split.
  - intros E. destruct (Forall_dec (fun c => -2047 <= c <= 2047)) with (l := v) as [S|S].
    + intros c. destruct (Z_le_dec (-2047) c); [|right; lia]. destruct (Z_le_dec c 2047); [left|right]; lia.
    + right. destruct (c_comp_encode_cases max v S) as [[_ B]|(o & E' & _)]; [exact B|congruence].
    + left. apply neg_Forall_Exists_neg in S.
      * rewrite Exists_exists in *. destruct S as (x & I & N). exists x. split; [exact I|lia].
      * intros c. destruct (Z_le_dec (-2047) c); [|right; lia]. destruct (Z_le_dec c 2047); [left|right]; lia.
  - intros D. destruct (c_comp_encode max v) as [out|] eqn:E; [|reflexivity]. exfalso. apply c_comp_encode_iff in E. destruct E as (S & L & C). destruct D as [D|D].
    + rewrite Exists_exists in D. destruct D as (x & I & N). unfold small in S. rewrite Forall_forall in S. specialize (S x I). lia.
    + pose proof (c_encoding_length v out C). lia.
Qed.
Print Assumptions C83_encode_fails_iff.
Theorem C83_roundtrip : forall k max v out suffix, length v = (2 ^ k)%nat -> bytes suffix ->
  c_comp_encode max v = Some out -> c_comp_decode k (out ++ suffix) = Some (v, length out).
Proof.
  intros k max v out suffix L Hs E. apply c_comp_encode_iff in E. destruct E as (S & _ & C). apply c_comp_decode_iff.
  - apply bytes_app. split; [apply C|exact Hs].
  - split; [exact L|]. split; [exact S|]. split; [rewrite app_length; lia|]. rewrite firstn_app_exact by reflexivity. exact C.
Qed.
Print Assumptions C83_roundtrip.
(** signatures cannot be re-encoded: the same coefficients come from the same bytes *)
Theorem C83_unique : forall k d1 d2 v u1 u2, bytes d1 -> bytes d2 ->
  c_comp_decode k d1 = Some (v, u1) -> c_comp_decode k d2 = Some (v, u2) -> firstn u1 d1 = firstn u2 d2.
Proof.
  intros k d1 d2 v u1 u2 H1 H2 E1 E2. apply c_comp_decode_iff in E1; [|exact H1]. apply c_comp_decode_iff in E2; [|exact H2].
  exact (c_encoding_unique v _ _ (proj2 (proj2 (proj2 E1))) (proj2 (proj2 (proj2 E2)))).
Qed.
Print Assumptions C83_unique.

(** ** the Python codec *)
(** Python pads to the announced length with zero bytes *)
Theorem C83_python_encoding_is_padded : forall v slen x, Forall (fun c => -2047 <= c <= 2047) v -> compress v slen = Some x ->
  exists e, c_comp_encode slen v = Some e /\ x = e ++ repeat 0 (slen - length e).
Proof.
  intros v slen x S E. destruct (compress_some_bits v slen x E) as (Bx & Lx & Q). pose proof (proj1 (compress_some v slen x E)) as HL.
  destruct (c_comp_encode_cases slen v S) as [[_ B]|(e & E' & Le & C)].
  - exfalso. rewrite <- compress_bits_length in B. lia.
  - exists e. split; [exact E'|]. destruct C as (Be & w & pad & EV & HP & Qe). rewrite (encodes_all_unique _ _ EV) in Qe.
    assert (LB : (8 * length e = length (compress_bits v) + pad)%nat) by (apply (f_equal (@length _)) in Qe; rewrite app_length, bytes_bits_length, repeat_length in Qe; exact Qe).
    apply bytes_bits_inj; [exact Bx| |].
    + apply bytes_app. split; [exact Be|]. apply Forall_forall. intros y Hy. apply repeat_spec in Hy. subst. unfold is_byte. lia.
    + rewrite bytes_bits_app, Q, Qe, <- app_assoc. f_equal.
      assert (Z0 : forall k, bytes_bits (repeat 0 k) = repeat false (8 * k)).
      { induction k as [|k IH]; [reflexivity|]. cbn [repeat]. rewrite cbits_cons, IH. replace (8 * Datatypes.S k)%nat with (8 + 8 * k)%nat by lia. rewrite repeat_app. reflexivity. }
      rewrite Z0, <- repeat_app. f_equal. lia.
Qed.
Print Assumptions C83_python_encoding_is_padded.
(** whatever C decodes, Python decodes to the same coefficients *)
Theorem C83_python_agrees : forall k data v used slen, bytes data -> (used <= slen)%nat ->
  c_comp_decode k data = Some (v, used) -> decompress (firstn used data) slen (2 ^ k) = Ok (Some v).
Proof.
  intros k data v used slen Hb Hs E. apply c_comp_decode_iff in E; [|exact Hb]. destruct E as (L & S & U & _ & w & pad & EV & HP & Q).
  apply decompress_accepts; [apply pow_pos|]. split; [rewrite firstn_length; lia|]. split; [exact L|]. exists w, (repeat false pad). split; [exact EV|exact Q].
Qed.
Print Assumptions C83_python_agrees.
(** what Python decodes, C decodes unless a coefficient is too large or the rest is not fewer than 8 zero bits *)
Theorem C83_python_more : forall k x v slen, bytes x -> decompress x slen (2 ^ k) = Ok (Some v) ->
  ((exists used, c_comp_decode k x = Some (v, used)) <->
   Forall (fun c => -2047 <= c <= 2047) v /\ exists w pad rest, encodes_all v w /\ (pad < 8)%nat /\ bytes_bits x = w ++ repeat false pad ++ rest /\ ((length w + pad) mod 8 = 0)%nat).
Proof.
  intros k x v slen Hb E. apply decompress_accepts in E; [|apply pow_pos]. destruct E as (Lx & Lv & w & rest & EV & Q). split.
  - intros (used & D). apply c_comp_decode_iff in D; [|exact Hb]. destruct D as (_ & S & U & _ & w' & pad & EV' & HP & Q').
    split; [exact S|]. exists w', pad, (bytes_bits (skipn used x)). split; [exact EV'|]. split; [exact HP|]. split.
    + rewrite app_assoc, <- Q', <- bytes_bits_app, firstn_skipn. reflexivity.
    + apply (f_equal (@length _)) in Q'. rewrite app_length, bytes_bits_length, repeat_length in Q'. rewrite <- Q'. rewrite Nat.mul_comm. apply Nat.mod_mul. lia.
  - intros (S & w' & pad & rest' & EV' & HP & Q' & D8). exists ((length w' + pad) / 8)%nat. apply c_comp_decode_iff; [exact Hb|]. split; [exact Lv|]. split; [exact S|].
    set (u := ((length w' + pad) / 8)%nat). assert (HU : (8 * u = length w' + pad)%nat) by (unfold u; lia).
    assert (LQ : (u <= length x)%nat) by (apply (f_equal (@length _)) in Q'; rewrite bytes_bits_length, !app_length, repeat_length in Q'; lia).
    split; [exact LQ|]. split; [apply bytes_firstn; exact Hb|]. exists w', pad. split; [exact EV'|]. split; [exact HP|].
    rewrite firstn_bytes_bits, Q', app_assoc. apply firstn_app_exact. rewrite app_length, repeat_length. exact HU.
Qed.
Print Assumptions C83_python_more.
(** both kinds of difference occur *)
Example C83_differences :
  decompress [0x00; 0x00; 0x00; 0x80; 0x40] 9 2 = Ok (Some [2048; 0]) /\ c_comp_decode 1 [0x00; 0x00; 0x00; 0x80; 0x40] = None /\
  decompress [0x05; 0xC0; 0xBF] 9 2 = Ok (Some [5; -129]) /\ c_comp_decode 1 [0x05; 0xC0; 0xBF] = None.
Proof. repeat split; vm_compute; reflexivity. Qed.

(** ** public keys *)
Lemma cgdecode_ext (f g : Z -> option Z) bits data n : (1 <= bits)%nat -> bytes data -> (forall w, 0 <= w < 2 ^ Z.of_nat bits -> f w = g w) -> forall x, gdecode f bits data n = Ok x -> gdecode g bits data n = Ok x.
Proof.
  intros B1 Hb E x D. apply gdecode_ok_iff in D; [|exact B1|exact Hb]. apply gdecode_ok_iff; [exact B1|exact Hb|]. destruct D as (L & ws & Lw & Ok & C & P).
  split; [exact L|]. exists ws. split; [exact Lw|]. split; [exact Ok|]. split; [|exact P].
  clear -E Ok C. revert x C. induction ws as [|w ws IH]; intros x C; [exact C|]. cbn [chk_all] in *. inversion Ok; subst. rewrite <- (E w) by assumption.
  destruct (f w) as [y|]; [|discriminate C]. destruct (chk_all f ws) as [t|]; [|discriminate C]. rewrite (IH H2 t eq_refl). exact C.
Qed.
Lemma modq_conv_chk w : 0 <= w < 2 ^ Z.of_nat 14 -> modq_conv w = modq_chk w.
Proof.
  intros Hw. unfold modq_conv, modq_chk. change (2 ^ Z.of_nat 14) with 16384 in Hw. rewrite u16_id by lia. destruct (Z.leb_spec 12289 w); destruct (Z.ltb_spec w 12289); try lia; reflexivity.
Qed.
(** the decoder of public keys is the Python one *)
Theorem C83_modq_same_as_python : forall k max data h used, bytes data ->
  (c_modq_decode k max data = Dec h used <-> used = ceil8 (2 ^ k * 14) /\ (used <= max)%nat /\ modq_decode data (2 ^ k) = Ok h).
Proof.
  intros k max data h used Hb. unfold c_modq_decode. rewrite cfixed_iff by (auto; lia). rewrite modq_decode_eq. split.
  - intros (A & B & C & D). split; [exact A|]. split; [exact B|]. apply (cgdecode_ext modq_conv modq_chk 14 data _ ltac:(lia) Hb modq_conv_chk _ D).
  - intros (A & B & D). split; [exact A|]. split; [exact B|]. split.
    + rewrite A. rewrite <- modq_decode_eq in D. apply modq_decode_accepts_iff in D; [|exact Hb]. apply D.
    + apply (cgdecode_ext modq_chk modq_conv 14 data _ ltac:(lia) Hb); [intros w Hw; symmetry; apply modq_conv_chk; exact Hw|exact D].
Qed.
Print Assumptions C83_modq_same_as_python.
(** the decoder of the 16-bit public keys: big-endian words below q *)
Theorem C83_modq16_iff : forall k max data h used, bytes data ->
  (c_modq_decode16 k max data = Dec h used <->
   used = (2 * 2 ^ k)%nat /\ (used <= max)%nat /\ (used <= length data)%nat /\ length h = (2 ^ k)%nat /\ Forall in_zq h /\ packs 16 h (firstn used data)).
Proof.
  intros k max data h used Hb. unfold c_modq_decode16. rewrite cfixed_iff by (auto; lia).
  assert (EC : ceil8 (2 ^ k * 16) = (2 * 2 ^ k)%nat) by (unfold ceil8; generalize (2 ^ k)%nat; intros; lia). rewrite EC.
  assert (CH : forall ws vs, Forall (fun w => 0 <= w < 2 ^ Z.of_nat 16) ws -> (chk_all modq_conv ws = Some vs <-> vs = ws /\ Forall in_zq ws)).
  { induction ws as [|w ws IH]; intros vs F; cbn [chk_all].
    - split; [intros E; split; [congruence|constructor]|intros [-> _]; reflexivity].
    - inversion F; subst. change (2 ^ Z.of_nat 16) with 65536 in *. unfold modq_conv at 1. destruct (Z.leb_spec 12289 w) as [L|L].
      + split; [discriminate|]. intros [_ F2]. inversion F2; subst. unfold in_zq in *. lia.
      + rewrite u16_id by lia. destruct (chk_all modq_conv ws) as [t|] eqn:Et.
        * destruct (proj1 (IH t H2) eq_refl) as [-> F2]. split.
          -- intros E. assert (vs = w :: ws) by congruence. subst. split; [reflexivity|]. constructor; [unfold in_zq; lia|exact F2].
          -- intros [-> _]. reflexivity.
        * split; [discriminate|]. intros [_ F2]. inversion F2; subst. destruct (IH ws H2) as [_ I]. discriminate (I (conj eq_refl H4)). }
  split.
  - intros (A & B & C & D). apply gdecode_ok_iff in D; [|lia|exact Hb]. destruct D as (_ & ws & Lw & Ok & Ch & P). apply (CH ws h Ok) in Ch. destruct Ch as [-> F]. rewrite EC, <- A in P. repeat (split; [assumption|]). exact P.
  - intros (A & B & C & L & F & P). split; [exact A|]. split; [exact B|]. split; [exact C|]. apply gdecode_ok_iff; [lia|exact Hb|]. rewrite EC, <- A. split; [exact C|].
    exists h. split; [exact L|].
    assert (Ok : Forall (fun w => 0 <= w < 2 ^ Z.of_nat 16) h) by (apply Forall_impl with (P := in_zq); [|exact F]; intros y Hy; unfold in_zq in Hy; change (2 ^ Z.of_nat 16) with 65536; lia).
    split; [exact Ok|]. split; [apply CH; auto|exact P].
Qed.
Print Assumptions C83_modq16_iff.
Example C83_modq_nontrivial : c_modq_decode 2 7 [0; 4; 0; 32; 0; 192; 4] = Dec [1; 2; 3; 4] 7 /\ c_modq_decode 2 7 [0; 4; 0; 32; 0; 192] = Beyond /\ c_modq_decode 2 7 [0xC0; 4; 0; 32; 0; 192; 4] = Bad.
Proof. repeat split; vm_compute; reflexivity. Qed.

(** * C84: arithmetic *)
Theorem C84_montgomery : forall x y, 0 <= x -> 0 <= y -> x * y < 12289 * 2 ^ 16 ->
  0 <= mq_montymul x y < 12289 /\ (mq_montymul x y * 2 ^ 16) mod 12289 = (x * y) mod 12289.
Proof.
  intros x y Hx Hy H. change (2 ^ 16) with 65536 in *. rewrite (mq_montymul_spec x y Hx Hy H). split; [apply mod_range|].
  rewrite Zmult_mod_idemp_l. replace (x * y * 2304 * 65536) with (x * y + (x * y * 12287) * 12289) by ring. apply Z_mod_plus_full.
Qed.
Print Assumptions C84_montgomery.
(** transform, pointwise product, inverse transform: the product in Z_q[x]/(x^n + 1), for every n = 2, 4, ..., 1024 *)
Theorem C84_multiplies : forall k a b, (1 <= k <= 10)%nat -> length a = (2 ^ k)%nat -> length b = (2 ^ k)%nat -> Forall in_zq a -> Forall in_zq b ->
  mq_iNTT k (mq_poly_montymul_ntt (mq_NTT k a) (to_ntt_monty k b)) = mod_q (negmul (2 ^ k) a b).
Proof.
  intros k a b Hk La Lb Fa Fb. assert (Ca : canonL (2 ^ k) a) by (split; [exact La|exact Fa]). assert (Cb : canonL (2 ^ k) b) by (split; [exact Lb|exact Fb]).
  pose proof (mq_NTT_canon k a Hk Ca) as CA. pose proof (mq_NTT_canon k b Hk Cb) as CB.
  assert (EM : to_ntt_monty k b = map (fun x => (x * 65536) mod 12289) (mq_NTT k b)).
  { unfold to_ntt_monty, mq_poly_tomonty. apply map_ext_in. intros x Hx. apply tomonty_nth. pose proof (proj2 CB) as F. unfold canonq in F. rewrite Forall_forall in F. exact (F x Hx). }
  rewrite EM, (montymul_ntt (2 ^ k) _ _ CA CB).
  assert (CV : canonL (2 ^ k) (vecmul qf (2 ^ k) (mq_NTT k a) (mq_NTT k b))).
  { split; [unfold vecmul; rewrite map_length, seq_length; reflexivity|]. unfold canonq, vecmul. apply Forall_map, Forall_forall. intros i _. apply mod_range. }
  rewrite (mq_iNTT_ok k _ (proj2 Hk) CV), (mq_NTT_ok k a Ca), (mq_NTT_ok k b Cb). exact (I_mul _ _ _ _ (goodC k Hk) _ eq_refl a b La Lb).
Qed.
Print Assumptions C84_multiplies.
Theorem C84_inverse : forall k a, (1 <= k <= 10)%nat -> length a = (2 ^ k)%nat -> Forall in_zq a -> mq_iNTT k (mq_NTT k a) = a.
Proof.
  intros k a Hk La Fa. assert (Ca : canonL (2 ^ k) a) by (split; [exact La|exact Fa]).
  rewrite (mq_iNTT_ok k _ (proj2 Hk) (mq_NTT_canon k a Hk Ca)), (mq_NTT_ok k a Ca). rewrite (I_T _ _ _ _ (goodC k Hk) _ eq_refl a La). apply mod_q_id. exact Fa.
Qed.
Print Assumptions C84_inverse.
(** for n = 512 the transform is the one of the contracts, so a public key can be exchanged in transformed form *)
Theorem C84_same_transform_as_contract : forall a, length a = 512%nat -> Forall in_zq a -> mq_NTT 9 a = NTTFW_vectorized a.
Proof.
  intros a La Fa. rewrite vectorized_flat. rewrite (mq_NTT_ok 9 a) by (split; [exact La|exact Fa]). change (2 ^ 9)%nat with 512%nat. unfold nttfw.
  apply fw_loop_table; [intros i _ Hi; apply ctables_contract; exact Hi|exists 9%nat; reflexivity].
Qed.
Print Assumptions C84_same_transform_as_contract.
(** the test of the norm does not overflow: 32-bit sums with saturation decide the exact inequality *)
Theorem C84_norm_exact : forall k s1 s2, length s1 = length s2 -> Forall (fun x => -32768 <= x < 32768) s1 -> Forall (fun x => -32768 <= x < 32768) s2 ->
  (is_short k s1 s2 = true <-> sqnorm s1 + sqnorm s2 <= nth k l2bound 0).
Proof. intros k s1 s2 L A B. rewrite (is_short_exact k s1 s2 L A B). apply Z.leb_le. Qed.
Print Assumptions C84_norm_exact.
Example C84_norm_no_wrap : is_short 9 (repeat (-32768) 4) (repeat 0 4) = false /\ u32 (4 * 32768 ^ 2) = 0.
Proof. split; vm_compute; reflexivity. Qed.
(** the whole check *)
Theorem C84_verify_raw_iff : forall k h c s2, (1 <= k <= 10)%nat -> length h = (2 ^ k)%nat -> Forall in_zq h -> length c = (2 ^ k)%nat -> Forall in_zq c ->
  length s2 = (2 ^ k)%nat -> Forall (fun x => -32768 <= x < 32768) s2 ->
  (verify_raw k c s2 (to_ntt_monty k h) = true <-> exists s1, preimage (2 ^ k) h c s1 s2 /\ sqnorm s1 + sqnorm s2 <= nth k l2bound 0).
Proof. intros k h c s2 Hk Lh Fh Lc Fc L2 F2. apply verify_raw_exact; auto; split; auto. Qed.
Print Assumptions C84_verify_raw_iff.
Example C84_verify_raw_nontrivial : verify_raw 2 [5; 0; 12288; 7] [1; 0; 0; 0] (to_ntt_monty 2 [3; 12288; 0; 1]) = true /\
  verify_raw 2 [6000; 0; 12288; 7] [1; 0; 0; 0] (to_ntt_monty 2 [3; 12288; 0; 1]) = false.
Proof. split; vm_compute; reflexivity. Qed.
