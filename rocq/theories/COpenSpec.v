(** Specification of the NIST signed-message format of Falcon-512, independent of the code. *)
From Verif Require Import Base CodecSpec EncodingSpec.

(** a point: 512 coefficients in [0, q) *)
Definition point (c : list Z) : Prop := length c = 512%nat /\ Forall in_zq c.
(** length of the signature on two bytes, nonce of 40 bytes, message, signature beginning with the byte 0x29 *)
Definition signed_message (sm nonce m enc : list Z) : Prop :=
  exists hi lo, sm = hi :: lo :: nonce ++ m ++ 0x29 :: enc /\ length nonce = 40%nat /\ 256 * hi + lo = 1 + Z.of_nat (length enc).
(** compressed signature without superfluous bytes; coefficients between -2047 and 2047 *)
Definition compressed (s2 enc : list Z) : Prop :=
  length s2 = 512%nat /\ Forall (fun c => -2047 <= c <= 2047) s2 /\
  exists w pad, encodes_all s2 w /\ (pad < 8)%nat /\ bytes_bits enc = w ++ repeat false pad.
(** public key: the byte 9, then 512 fields of 14 bits; what follows is not read *)
Definition public_key14 (pk h : list Z) : Prop :=
  point h /\ exists body rest, pk = 9 :: body ++ rest /\ length body = 896%nat /\ packs 14 h body.
(** public key of the 16-bit variant: two bytes per coefficient *)
Definition public_key16 (pk h : list Z) : Prop :=
  point h /\ exists body rest, pk = 9 :: body ++ rest /\ length body = Z.to_nat 1024 /\ packs 16 h body.
(** signature of the 16-bit variant: a coefficient x is the word x in [0, 2047), or the word x + q in [2047, q), or the word x + 2^16 in [2^15, 2^16) *)
Definition word_of (x w : Z) : Prop := (x = w /\ 0 <= w < 2047) \/ (x = w - 12289 /\ 2047 <= w < 12289) \/ (x = w - 65536 /\ 32768 <= w < 65536).
Definition words16 (s2 enc : list Z) : Prop :=
  length s2 = 512%nat /\ length enc = Z.to_nat 1024 /\ exists ws, Forall2 word_of s2 ws /\ packs 16 ws enc.
