(** Property theorems C21: rng.py ChaCha20 against RFC 8439 (ChachaSpec). *)
From Verif Require Import Base KeccakModel ChachaModel ChachaSpec ChachaProofs.

(** One update: the sixteen words of the RFC 8439 block function on the seeded matrix. *)
Theorem C21_update_is_rfc8439_block : forall seed g, length seed = 56%nat -> bytes seed ->
  cs g = cs (chacha_new seed) -> 0 <= cctr g < 2 ^ 64 ->
  snd (chacha_update g) = map (chacha20_words (falcon_matrix seed (cctr g))) (seq 0 16) /\
  cctr (fst (chacha_update g)) = cctr g + 1.
Proof.
  intros seed g L B Hs Hc. destruct (chacha_new_words seed L) as (E & _ & _). rewrite E in Hs.
  rewrite (update_words seed L B g Hs Hc). split; reflexivity.
Qed.
Print Assumptions C21_update_is_rfc8439_block.

(** Any sequence of requests on a fresh generator, while the 64-bit counter does not overflow. *)
Theorem C21_requests_are_refill_slices : forall seed ks, length seed = 56%nat -> bytes seed ->
  seed_counter seed + 8 * Z.of_nat (length ks) <= 2 ^ 64 ->
  requests (chacha_new seed) ks = answers seed 0 512 ks.
Proof. intros seed ks L B H. exact (chacha_answers seed L B ks H). Qed.
Print Assumptions C21_requests_are_refill_slices.

(** The i-th request for k bytes gets min(k, 512) bytes: exactly k iff k <= 512. *)
Theorem C21_request_lengths : forall seed ks, length seed = 56%nat -> bytes seed ->
  seed_counter seed + 8 * Z.of_nat (length ks) <= 2 ^ 64 ->
  map (@length Z) (requests (chacha_new seed) ks) = map (fun k => Nat.min k 512) ks.
Proof.
  intros seed ks L B H. rewrite (chacha_answers seed L B ks H). apply answers_length. lia.
Qed.
Print Assumptions C21_request_lengths.

Example C21_witness : let seed := map Z.of_nat (seq 0 56) in
  length seed = 56%nat /\ seed_counter seed + 8 * 3 <= 2 ^ 64 /\
  Forall (fun b => 0 <= b < 256) seed.
Proof. cbv zeta. repeat split; [vm_compute; discriminate|]. repeat constructor; lia. Qed.

(** RFC 8439 section 2.3.2: the specification gives the published block. *)
Example C21_spec_known_answer :
  let key i := Z.of_nat (4 * i) + 256 * Z.of_nat (4 * i + 1) + 65536 * Z.of_nat (4 * i + 2) + 16777216 * Z.of_nat (4 * i + 3) in
  let s := fun i => nth i ([0x61707865; 0x3320646e; 0x79622d32; 0x6b206574] ++ map key (seq 0 8) ++ [1; 0x09000000; 0x4a000000; 0]) 0 in
  map (chacha20_words s) [0; 1; 15]%nat = [0xe4e7f110; 0x15593bd1; 0x4e3c50a2].
Proof.
  intros key s.
  assert (R : rep (map s (seq 0 16)) s).
  { split; [reflexivity|]. intros i Hi. split.
    - exact (nth_map_seq s 0 16 i Hi).
    - do 16 (destruct i as [|i]; [vm_compute; split; [discriminate|reflexivity]|]). lia. }
  apply (rounds_rep 10) in R. destruct R as [_ R].
  assert (W : forall i, (i < 16)%nat -> chacha20_words s i = add32 (nth i (Nat.iter 10 double_round (map s (seq 0 16))) 0) (s i)).
  { intros i Hi. unfold chacha20_words. destruct (R i Hi) as [-> _]. reflexivity. }
  cbn [map]. rewrite !W by lia. vm_compute. reflexivity.
Qed.

(** The counter hypothesis is needed: rng.py never wraps ctr, so with the all-ones seed the second
    block is not the block of a 64-bit counter that wrapped to 0. *)
Example C21_counter_is_not_wrapped : let seed := repeat 255 56 in
  let g := chacha_new seed in
  cctr g = 2 ^ 64 - 1 /\
  snd (chacha_update (fst (chacha_update g))) <> map (chacha20_words (falcon_matrix seed 0)) (seq 0 16).
Proof.
  intros seed g. split; [vm_compute; reflexivity|]. intros E.
  assert (B : bytes seed) by (apply Forall_forall; intros x Hx; apply repeat_spec in Hx; subst x; unfold is_byte; lia).
  destruct (C21_update_is_rfc8439_block seed (mk_chacha (cs g) 0 []) eq_refl B eq_refl ltac:(cbn [cctr]; lia)) as [W _].
  cbn [cctr] in W. rewrite <- W in E. revert E. vm_compute. discriminate.
Qed.
