(** Property theorems C06-C12: pythonref/falcon_codec.py and PublicKey.from_bytes. *)
From Verif Require Import Base CodecSpec CodecModel CodecProofs FromBytesProofs.

(** C06 *)
Theorem C06_modq_encode_ok : forall x n, length x = n -> Forall (fun c => 0 <= c < 12289) x ->
  exists d, modq_encode x n = Ok d /\ length d = ceil8 (n * 14) /\ packs 14 x d.
Proof. exact modq_encode_ok. Qed.
Print Assumptions C06_modq_encode_ok.

Theorem C06_modq_roundtrip : forall x n d suffix,
  length x = n -> modq_encode x n = Ok d -> Forall (fun b => 0 <= b < 256) suffix ->
  modq_decode (d ++ suffix) n = Ok x.
Proof. exact modq_roundtrip. Qed.
Print Assumptions C06_modq_roundtrip.

Example C06_nontrivial : modq_encode [12288; 0; 1] 3 = Ok [192; 0; 0; 0; 0; 64] /\
  modq_decode [192; 0; 0; 0; 0; 64; 77] 3 = Ok [12288; 0; 1].
Proof. split; vm_compute; reflexivity. Qed.

(** C07 *)
Theorem C07_modq_canonical : forall data n x, Forall (fun b => 0 <= b < 256) data ->
  modq_decode data n = Ok x ->
  length x = n /\ Forall (fun c => 0 <= c < 12289) x /\
  modq_encode x n = Ok (firstn (ceil8 (n * 14)) data).
Proof. exact modq_canonical. Qed.
Print Assumptions C07_modq_canonical.

Theorem C07_modq_accepts_iff : forall data n x, Forall (fun b => 0 <= b < 256) data ->
  modq_decode data n = Ok x <->
  (ceil8 (n * 14) <= length data)%nat /\ length x = n /\ Forall (fun c => 0 <= c < 12289) x /\
  packs 14 x (firstn (ceil8 (n * 14)) data).
Proof. exact modq_decode_accepts_iff. Qed.
Print Assumptions C07_modq_accepts_iff.

(** every refusal is a ValueError: no index error, no silent wrong value *)
Theorem C07_modq_decode_refusal : forall data n e, Forall (fun b => 0 <= b < 256) data ->
  modq_decode data n = Raise e -> e = ValueError.
Proof. exact modq_decode_raise. Qed.

Example C07_padding_refused : modq_decode [192; 0; 0; 0; 0; 65] 3 = Raise ValueError /\
  modq_decode [192; 4; 0; 0; 0; 64] 3 = Raise ValueError.
Proof. split; vm_compute; reflexivity. Qed.

(** C08 *)
Theorem C08_modq_encode_refuses_iff : forall x n e, length x = n ->
  modq_encode x n = Raise e <-> e = ValueError /\ Exists (fun c => ~ 0 <= c < 12289) x.
Proof. exact modq_encode_raise_iff. Qed.
Print Assumptions C08_modq_encode_refuses_iff.

Example C08_boundary : modq_encode [12288] 1 <> Raise ValueError /\
  modq_encode [12289] 1 = Raise ValueError /\ modq_encode [-1] 1 = Raise ValueError.
Proof. repeat split; vm_compute; congruence. Qed.

(** C09 *)
Theorem C09_trim_encode_ok : forall (bits : nat), (1 <= bits)%nat -> forall x n,
  length x = n ->
  Forall (fun c => - (2 ^ (Z.of_nat bits - 1) - 1) <= c <= 2 ^ (Z.of_nat bits - 1) - 1) x ->
  exists d, trim_i8_encode x n bits = Ok d /\ length d = ceil8 (n * bits) /\
            packs bits (map (fun c => c mod 2 ^ Z.of_nat bits) x) d.
Proof. exact trim_encode_ok. Qed.
Print Assumptions C09_trim_encode_ok.

Theorem C09_trim_roundtrip : forall (bits : nat), (1 <= bits)%nat -> forall x n d suffix,
  length x = n -> trim_i8_encode x n bits = Ok d -> Forall (fun b => 0 <= b < 256) suffix ->
  trim_i8_decode (d ++ suffix) n bits = Ok x.
Proof. exact trim_roundtrip. Qed.
Print Assumptions C09_trim_roundtrip.

Theorem C09_trim_encode_refuses_iff : forall (bits : nat), (1 <= bits)%nat -> forall x n e,
  length x = n ->
  trim_i8_encode x n bits = Raise e <->
  e = ValueError /\ Exists (fun c => ~ - (2 ^ (Z.of_nat bits - 1) - 1) <= c <= 2 ^ (Z.of_nat bits - 1) - 1) x.
Proof. exact trim_encode_raise_iff. Qed.
Print Assumptions C09_trim_encode_refuses_iff.

Example C09_nontrivial : exists d, trim_i8_encode [-31; 31; -1; 0; 17] 5 6 = Ok d /\
  trim_i8_decode d 5 6 = Ok [-31; 31; -1; 0; 17].
Proof. eexists. split; vm_compute; reflexivity. Qed.

(** C10 *)
Theorem C10_trim_canonical : forall (bits : nat), (1 <= bits)%nat -> forall data n x,
  Forall (fun b => 0 <= b < 256) data ->
  trim_i8_decode data n bits = Ok x ->
  length x = n /\
  Forall (fun c => - (2 ^ (Z.of_nat bits - 1) - 1) <= c <= 2 ^ (Z.of_nat bits - 1) - 1) x /\
  trim_i8_encode x n bits = Ok (firstn (ceil8 (n * bits)) data).
Proof. exact trim_canonical. Qed.
Print Assumptions C10_trim_canonical.

Theorem C10_trim_decode_refusal : forall (bits : nat), (1 <= bits)%nat -> forall data n e,
  Forall (fun b => 0 <= b < 256) data ->
  trim_i8_decode data n bits = Raise e -> e = ValueError.
Proof. exact trim_decode_raise. Qed.

Example C10_minimum_refused : trim_i8_decode [128] 1 8 = Raise ValueError /\
  trim_i8_decode [129] 1 8 = Ok [-127].
Proof. split; vm_compute; reflexivity. Qed.

(** C11 *)
Theorem C11_from_bytes_roundtrip : forall h data,
  length h = 512%nat -> Forall (fun c => 0 <= c < 12289) h -> modq_encode h 512 = Ok data ->
  from_bytes (9 :: data) = Ok (512%nat, h).
Proof.
  intros h data Lh Fh E. rewrite <- (app_nil_r data).
  exact (from_bytes_roundtrip h data [] Lh Fh E (Forall_nil _) (or_introl eq_refl)).
Qed.
Print Assumptions C11_from_bytes_roundtrip.

(** All accepted byte strings, of either admitted length (897 or 1792). *)
Theorem C11_from_bytes_accepts_iff : forall pk n h, Forall (fun b => 0 <= b < 256) pk ->
  from_bytes pk = Ok (n, h) <->
  n = 512%nat /\ length h = 512%nat /\ Forall (fun c => 0 <= c < 12289) h /\
  (length pk = 897 \/ length pk = 1792)%nat /\
  exists data, firstn 897 pk = 9 :: data /\ packs 14 h data.
Proof. exact from_bytes_accepts_iff. Qed.
Print Assumptions C11_from_bytes_accepts_iff.

Theorem C11_897_bytes_determined : forall pk1 pk2 n h,
  Forall (fun b => 0 <= b < 256) pk1 -> Forall (fun b => 0 <= b < 256) pk2 ->
  length pk1 = 897%nat -> length pk2 = 897%nat ->
  from_bytes pk1 = Ok (n, h) -> from_bytes pk2 = Ok (n, h) -> pk1 = pk2.
Proof. exact from_bytes_897_unique. Qed.
Print Assumptions C11_897_bytes_determined.

Theorem C11_from_bytes_refusal : forall pk e, Forall (fun b => 0 <= b < 256) pk ->
  from_bytes pk = Raise e -> e = ValueError.
Proof. exact from_bytes_raise. Qed.

Example C11_nontrivial : exists d, modq_encode (repeat 12288 512) 512 = Ok d /\
  from_bytes (9 :: d) = Ok (512%nat, repeat 12288 512).
Proof. eexists. split; vm_compute; reflexivity. Qed.

(** C12 *)
Theorem C12_no_1024_key : forall pk h, Forall (fun b => 0 <= b < 256) pk ->
  from_bytes pk <> Ok (1024%nat, h).
Proof.
  intros pk h Hb H. apply from_bytes_accepts_iff in H; [|exact Hb].
  destruct H as (E & _). discriminate E.
Qed.
Print Assumptions C12_no_1024_key.

Theorem C12_trailing_bytes_accepted : forall pk n h extra,
  Forall (fun b => 0 <= b < 256) pk -> Forall (fun b => 0 <= b < 256) extra ->
  length pk = 897%nat -> length extra = 895%nat ->
  from_bytes pk = Ok (n, h) -> from_bytes (pk ++ extra) = Ok (n, h).
Proof.
  intros pk n h extra Bp Be Lp Le H. apply from_bytes_accepts_iff in H; [|exact Bp].
  apply from_bytes_accepts_iff; [apply bytes_app; split; assumption|].
  destruct H as (En & Lh & Fh & _ & data & E & P). repeat split; try assumption; try apply P.
  - right. rewrite app_length, Lp, Le. reflexivity.
  - exists data. split; [|exact P]. rewrite firstn_all2 in E by (rewrite Lp; apply le_n).
    rewrite firstn_app_exact by (symmetry; exact Lp). exact E.
Qed.
Print Assumptions C12_trailing_bytes_accepted.

Example C12_alias : 
  from_bytes (9 :: repeat 0 896) = Ok (512%nat, repeat 0 512) /\
  from_bytes ((9 :: repeat 0 896) ++ repeat 255 895) = Ok (512%nat, repeat 0 512).
Proof. split; vm_compute; reflexivity. Qed.
