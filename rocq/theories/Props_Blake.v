(** C78: the in-repo BLAKE2s and the hash of a list of field elements. Specification: BlakeSpec (RFC 7693). *)
From Verif Require Import Base BlakeModel BlakeSpec.
From Verif Require ChachaProofs BlakeProofs.
Local Notation u32 := ChachaProofs.u32.
(** a 32-bit word, little endian *)
Definition word_bytes (x : Z) : list Z := [x mod 256; x / 256 mod 256; x / 65536 mod 256; x / 16777216 mod 256].
Lemma word_bytes_le4 x : word_bytes x = ChachaModel.le4 x.
Proof. unfold word_bytes, ChachaModel.le4. cbn [seq map]. change (256 ^ Z.of_nat 0) with 1. rewrite Z.div_1_r. reflexivity. Qed.
Lemma flat_word_bytes l : flat_map word_bytes l = flat_map ChachaModel.le4 l.
Proof. apply flat_map_ext, word_bytes_le4. Qed.

(** the compression function is F of RFC 7693 on every chaining value, block, 64-bit counter and final flag *)
Theorem C78_compress h m t last :
  length h = 8%nat -> length m = 16%nat -> Forall (fun x => 0 <= x < 2 ^ 32) h -> Forall (fun x => 0 <= x < 2 ^ 32) m -> 0 <= t < 2 ^ 64 ->
  blake2s_compress h m (t mod 2 ^ 32) (t / 2 ^ 32) (if last : bool then 2 ^ 32 - 1 else 0) 0 =
  map (F (fun i => nth i h 0) (fun i => nth i m 0) t last) (seq 0 8).
Proof.
  intros Lh Lm Uh Um Ht.
  assert (R8 : BlakeProofs.rep 8 h (fun i => nth i h 0)).
  { split; [exact Lh|]. intros i Hi. split; [reflexivity|]. apply (proj1 (Forall_forall _ _) Uh). apply nth_In. lia. }
  assert (R16 : BlakeProofs.rep 16 m (fun i => nth i m 0)).
  { split; [exact Lm|]. intros i Hi. split; [reflexivity|]. apply (proj1 (Forall_forall _ _) Um). apply nth_In. lia. }
  destruct (BlakeProofs.compress_rep_gen h _ m _ t (if last then 2 ^ 32 - 1 else 0) last R8 R16 Ht ltac:(destruct last; reflexivity)) as [L R].
  apply (nth_ext _ _ 0 (F (fun i => nth i h 0) (fun i => nth i m 0) t last 0%nat)); [rewrite L, map_length, seq_length; reflexivity|].
  intros i Hi. rewrite L in Hi. rewrite map_nth, seq_nth by lia. apply R. exact Hi.
Qed.

(** the hash of a list of field elements is the BLAKE2s digest of the serialised words, read in little endian and reduced; the serialisation must be
    shorter than 4 GiB (beyond, the code keeps the high half of the counter at 0, which RFC 7693 does not) *)
Theorem C78_hash data encode little_endian p :
  4 * Z.of_nat (length (felts_words data encode little_endian p)) < 2 ^ 32 ->
  calculate_blake2s_hash_from_felt252s data encode little_endian p =
  le_value (blake2s (flat_map word_bytes (felts_words data encode little_endian p))) mod p.
Proof.
  intros H. rewrite flat_word_bytes. apply BlakeProofs.felts_blake2s, H.
Qed.
(** a bound on the list that ensures it *)
Theorem C78_hash_short data encode little_endian p :
  Z.of_nat (length data) < 2 ^ 27 ->
  calculate_blake2s_hash_from_felt252s data encode little_endian p =
  le_value (blake2s (flat_map word_bytes (felts_words data encode little_endian p))) mod p.
Proof.
  intros H. apply C78_hash. enough (length (felts_words data encode little_endian p) <= 8 * length data)%nat by lia. clear H.
  induction data as [|x d IH]; [cbn; lia|]. unfold felts_words in *. cbn [flat_map]. rewrite app_length.
  enough (length (felt_words encode little_endian p x) <= 8)%nat by (cbn [length]; lia).
  unfold felt_words. rewrite map_length. set (n := if encode && _ then 2%nat else 8%nat).
  assert (n <= 8)%nat by (unfold n; destruct (encode && _); lia). destruct little_endian; rewrite ?rev_length, map_length, seq_length; lia.
Qed.

(** what a field element is serialised to: its residue over 8 words, or - with [encode] - over 2 words if below 2^63 and with bit 255 set otherwise *)
Theorem C78_words encode p x : 0 < p <= 2 ^ 255 \/ encode = false /\ 0 < p <= 2 ^ 256 ->
  let v := x mod p in
  let short := encode && (v <? 2 ^ 63) in
  let w := felt_words encode true p x in
  length w = (if short then 2%nat else 8%nat) /\
  le_value (flat_map word_bytes w) = (if short then v else if encode then v + 2 ^ 255 else v) /\
  felt_words encode false p x = rev w.
Proof.
  intros Hp v short w. split; [|split].
  - unfold w, felt_words. rewrite !map_length, seq_length. fold v. reflexivity.
  - assert (U : Forall u32 w) by apply BlakeProofs.felt_words_u32.
    assert (E : le_value (flat_map word_bytes w) = BlakeProofs.words_value w).
    { clear - U. induction w as [|y w IH]; [reflexivity|]. apply Forall_cons_iff in U. destruct U as [Uy U]. specialize (IH U). cbn [flat_map BlakeProofs.words_value].
      rewrite word_bytes_le4. change (ChachaModel.le4 y) with (map (fun j => (y / 256 ^ Z.of_nat j) mod 256) (seq 0 4)). rewrite BlakeProofs.le_value_le4 by exact Uy. now rewrite IH. }
    rewrite E. unfold w. rewrite BlakeProofs.felt_words_le. cbv zeta. fold v. unfold short. assert (Hv : 0 <= v < p) by (apply Z.mod_pos_bound; lia). clearbody v.
    destruct encode; cbn [andb]; [destruct (Z.ltb_spec v (2 ^ 63)) as [B|B]|].
    + apply (BlakeProofs.W_value 2). change (2 ^ (32 * Z.of_nat 2)) with (2 ^ 64). lia.
    + apply (BlakeProofs.W_value 8). change (2 ^ (32 * Z.of_nat 8)) with (2 ^ 256). destruct Hp as [Hp|[Hp _]]; [lia|discriminate Hp].
    + apply (BlakeProofs.W_value 8). change (2 ^ (32 * Z.of_nat 8)) with (2 ^ 256). lia.
  - apply BlakeProofs.felt_words_be.
Qed.

(** different lists of residues are different BLAKE2s messages: a collision of the felt hash is a collision of BLAKE2s (modulo p) *)
Theorem C78_injective encode little_endian p d1 d2 : 0 < p <= 2 ^ 255 \/ encode = false /\ 0 < p <= 2 ^ 256 ->
  flat_map word_bytes (felts_words d1 encode little_endian p) = flat_map word_bytes (felts_words d2 encode little_endian p) ->
  map (fun x => x mod p) d1 = map (fun x => x mod p) d2.
Proof.
  intros Hp E. rewrite !flat_word_bytes in E. apply (BlakeProofs.felts_inj encode little_endian p Hp). apply BlakeProofs.flat_le4_inj; auto using BlakeProofs.felts_words_u32.
Qed.
(** the hash does not depend on the chosen representatives, and lies in [0, p) *)
Theorem C78_residues data data' encode little_endian p : map (fun x => x mod p) data = map (fun x => x mod p) data' ->
  calculate_blake2s_hash_from_felt252s data encode little_endian p = calculate_blake2s_hash_from_felt252s data' encode little_endian p.
Proof.
  intros H. unfold calculate_blake2s_hash_from_felt252s. assert (E : felts_words data encode little_endian p = felts_words data' encode little_endian p).
  { revert data' H. induction data as [|x d IH]; intros [|y d'] H; try discriminate H; [reflexivity|]. cbn [map] in H. injection H as H1 H2. unfold felts_words in *. cbn [flat_map].
    f_equal; [|apply IH, H2]. unfold felt_words. now rewrite H1. }
  now rewrite E.
Qed.
Theorem C78_range data encode little_endian p : 0 < p -> 0 <= calculate_blake2s_hash_from_felt252s data encode little_endian p < p.
Proof. intros H. apply Z.mod_pos_bound. exact H. Qed.

(** test vector of RFC 7693, appendix B: BLAKE2s-256("abc") *)
Example C78_abc : blake2s [97; 98; 99] =
  [0x50; 0x8C; 0x5E; 0x8C; 0x32; 0x7C; 0x14; 0xE2; 0xE1; 0xA7; 0x2B; 0xA3; 0x4E; 0xEB; 0x45; 0x2F; 0x37; 0x45; 0x8B; 0x20; 0x9E; 0xD6; 0x3A; 0x29; 0x4D; 0x99; 0x9B; 0x4C; 0x86; 0x67; 0x59; 0x82].
Proof. vm_compute. reflexivity. Qed.
(** the same through the code, as in test_blake2s.py *)
Example C78_abc_code : blake2s_compress H0 (6513249 :: repeat 0 15) 3 0 0xFFFFFFFF 0 =
  map (fun k => le_value (firstn 4 (skipn (4 * k) (blake2s [97; 98; 99])))) (seq 0 8).
Proof. vm_compute. reflexivity. Qed.
(** a list with a short and a long element and a negative one, in each mode; the hypotheses hold *)
Example C78_felts : let data := [5; 2 ^ 200 + 7; -1] in
  4 * Z.of_nat (length (felts_words data true true PRIME)) = 72 /\ 0 < PRIME <= 2 ^ 255 /\
  firstn 3 (felts_words data true true PRIME) = [5; 0; 7] /\
  calculate_blake2s_hash_from_felt252s data true true PRIME <> calculate_blake2s_hash_from_felt252s data true false PRIME.
Proof. split; [vm_compute; reflexivity|]. split; [vm_compute; split; [reflexivity|discriminate]|]. split; [vm_compute; reflexivity|]. vm_compute. discriminate. Qed.

Print Assumptions C78_compress.
Print Assumptions C78_hash.
Print Assumptions C78_hash_short.
Print Assumptions C78_words.
Print Assumptions C78_injective.
Print Assumptions C78_residues.
Print Assumptions C78_range.
