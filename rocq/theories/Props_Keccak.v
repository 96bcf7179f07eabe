(** Property theorems C18, C19: keccak.py, shake.py, ZKNOX_shake.sol against FIPS 202 (KeccakSpec). *)
From Verif Require Import Base KeccakModel KeccakSpec KeccakProofs SpongeProofs ShakeProofs.

(** C19: both permutations (Python, Solidity) are the FIPS 202 one, bit by bit. *)
Theorem C19_F1600_is_fips202 : forall s,
  length s = 25%nat -> Forall (fun x => 0 <= x < 2 ^ 64) s ->
  length (F1600 s) = 25%nat /\ Forall (fun x => 0 <= x < 2 ^ 64) (F1600 s) /\
  forall x y z, (x < 5)%nat -> (y < 5)%nat -> 0 <= z < 64 ->
    Z.testbit (nth (x + 5 * y) (F1600 s) 0) z =
    keccak_f1600 (fun x y z => Z.testbit (nth (x + 5 * y) s 0) z) x y z.
Proof.
  intros s L F. destruct (F1600_fips s (conj L F)) as [[L2 F2] A].
  split; [exact L2|]. split; [exact F2|]. exact A.
Qed.
Print Assumptions C19_F1600_is_fips202.

Theorem C19_solidity_f1600_equals_python : forall s,
  length s = 25%nat -> Forall (fun x => 0 <= x < 2 ^ 64) s -> f1600_sol s = F1600 s.
Proof. intros s L F. exact (f1600_sol_eq s (conj L F)). Qed.
Print Assumptions C19_solidity_f1600_equals_python.

Example C19_witness : length (repeat 1 25) = 25%nat /\ Forall (fun x => 0 <= x < 2 ^ 64) (repeat 1 25).
Proof. split; [reflexivity|]. repeat constructor; lia. Qed.
(** the published first lane of Keccak-f[1600] of the zero state *)
Example C19_known_answer : nth 0 (F1600 (repeat 0 25)) 0 = 0xF1258F7940E1DDE7.
Proof. vm_compute. reflexivity. Qed.

(** C18: read number i returns the bytes of the SHAKE256 output that follow those already read. *)
Theorem C18_shake_reads_are_the_sponge_output : forall inputs ks, Forall bytes inputs ->
  shake_reads (shake_flip (fold_left shake_update inputs shake_new)) ks =
  map (fun i => map (shake256_byte (concat inputs)) (seq (list_sum (firstn i ks)) (nth i ks 0%nat)))
      (seq 0 (length ks)).
Proof. exact shake_reads_spec. Qed.
Print Assumptions C18_shake_reads_are_the_sponge_output.

(** the same for the Solidity library *)
Theorem C18_solidity_shake_is_the_sponge_output : forall inputs ks, Forall bytes inputs ->
  sol_reads (shakePad (fold_left shakeUpdate inputs ctx_zero)) ks =
  map (fun i => map (shake256_byte (concat inputs)) (seq (list_sum (firstn i ks)) (nth i ks 0%nat)))
      (seq 0 (length ks)).
Proof. exact sol_shake_spec. Qed.
Print Assumptions C18_solidity_shake_is_the_sponge_output.

(** SHAKE256("") = 46b9dd2b0ba88d13..., through the model *)
Example C18_known_answer :
  shake_reads (shake_flip (fold_left shake_update [[]] shake_new)) [4; 4]%nat =
  [[0x46; 0xb9; 0xdd; 0x2b]; [0x0b; 0xa8; 0x8d; 0x13]].
Proof. vm_compute. reflexivity. Qed.
Example C18_witness : Forall bytes [[1; 2]; [255]].
Proof. repeat constructor; unfold is_byte; lia. Qed.
