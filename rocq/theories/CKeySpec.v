(** Specification of the secret-key format of Falcon-512 and of the Epervier signed messages, independent of the code. *)
From Verif Require Import Base CodecSpec COpenSpec.

(** secret key: the byte 0x59, then f and g on 6 bits, F on 8 bits per coefficient, in two's complement; what follows is not read *)
Definition secret_key (sk f g F : list Z) : Prop :=
  length f = 512%nat /\ length g = 512%nat /\ length F = 512%nat /\ Forall (in_trim 6) f /\ Forall (in_trim 6) g /\ Forall (in_trim 8) F /\
  exists ef eg eF rest, sk = 0x59 :: ef ++ eg ++ eF ++ rest /\ length ef = 384%nat /\ length eg = 384%nat /\ length eF = 512%nat /\
    packs 6 (map (fun c => c mod 2 ^ 6) f) ef /\ packs 6 (map (fun c => c mod 2 ^ 6) g) eg /\ packs 8 (map (fun c => c mod 2 ^ 8) F) eF.
(** Epervier: length of the signature on two bytes, nonce of 40 bytes, message, s1 and s2 on 1024 bytes each, both after the byte 0x29, then [rest] (the hint) *)
Definition ep_message (sm nonce m e1 e2 rest : list Z) : Prop :=
  exists hi lo, sm = hi :: lo :: nonce ++ m ++ 0x29 :: e1 ++ 0x29 :: e2 ++ rest /\ length nonce = 40%nat /\ length e1 = Z.to_nat 1024 /\ length e2 = Z.to_nat 1024 /\
    256 * hi + lo = 2050 + Z.of_nat (length rest).
