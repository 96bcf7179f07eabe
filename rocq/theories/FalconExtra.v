(** Fuel independence, header independence, failures of recover. *)
From Verif Require Import Base HashModel EncodingModel EncodingSpec EncodingProofs RingSpec NttApi PolyModel FalconModel FalconSpec FalconProofs RecoveryProofs.

Lemma h2p_loop_mono X n : forall fuel fuel' x out r, (fuel <= fuel')%nat -> h2p_loop X fuel n x out = Fin r -> h2p_loop X fuel' n x out = Fin r.
Proof.
  induction fuel as [|fuel IH]; intros fuel' x out r Hf; [destruct fuel'|destruct fuel' as [|fuel']; [lia|]]; cbn [h2p_loop];
    destruct (length out <? n)%nat; try discriminate; auto.
  destruct (xread X x 2) as [x' [tb|e]]; auto. apply IH. lia.
Qed.
Lemma h2p_mono fuel fuel' n m salt X r : (fuel <= fuel')%nat -> hash_to_point fuel n m salt X = Fin r -> hash_to_point fuel' n m salt X = Fin r.
Proof.
  intros Hf. unfold hash_to_point. destruct (xupdate X (xnew X) (xsalt X salt)) as [x1 [[]|]]; auto.
  destruct (xupdate X x1 m) as [x2 [[]|]]; auto. destruct (xflip X x2) as [x3 [[]|]]; auto. now apply h2p_loop_mono.
Qed.
Lemma verify_mono fuel fuel' P msg sig X r : (fuel <= fuel')%nat -> verify fuel P msg sig X = Fin r -> verify fuel' P msg sig X = Fin r.
Proof.
  intros Hf. unfold verify. destruct (decompress _ _ _) as [[s1|]|e]; cbn [fbind lift]; auto.
  destruct (hash_to_point fuel (pk_n P) msg _ X) as [h|] eqn:E; [|discriminate]. rewrite (h2p_mono _ _ _ _ _ _ _ Hf E). auto.
Qed.
Lemma recover_mono H fuel fuel' P msg sig X r : (fuel <= fuel')%nat -> recover H fuel P msg sig X = Fin r -> recover H fuel' P msg sig X = Fin r.
Proof.
  intros Hf. unfold recover. destruct (recover_parse _ _ _ _) as [[[[s0 s1] t]|]|e]; cbn [fbind lift]; auto.
  destruct (hash_to_point fuel (rp_n P) msg _ X) as [h|] eqn:E; [|discriminate]. rewrite (h2p_mono _ _ _ _ _ _ _ Hf E). auto.
Qed.
Lemma ep_recover_mono H fuel fuel' P msg sig X r : (fuel <= fuel')%nat -> ep_recover H fuel P msg sig X = Fin r -> ep_recover H fuel' P msg sig X = Fin r.
Proof.
  intros Hf. unfold ep_recover. destruct (recover_parse _ _ _ _) as [[[[s0 s1] t]|]|e]; cbn [fbind lift]; auto.
  destruct (hash_to_point fuel (rp_n P) msg _ X) as [h|] eqn:E; [|discriminate]. rewrite (h2p_mono _ _ _ _ _ _ _ Hf E). auto.
Qed.
(** header *)
Lemma recover_parse_header n b l x y sig : (1 <= n)%nat -> recover_parse n b l (x :: sig) = recover_parse n b l (y :: sig).
Proof.
  intros Hn. unfold recover_parse. change (HEAD_LEN + SALT_LEN)%nat with 41%nat. cbn [length].
  destruct (Nat.le_gt_cases (S (length sig)) (n * 3)) as [G|G].
  - replace (S (length sig) - n * 3)%nat with 0%nat by lia. reflexivity.
  - destruct (S (length sig) - n * 3)%nat as [|t] eqn:Et; [lia|]. reflexivity.
Qed.
Lemma recover_header H fuel n pk P msg x y sig X : (1 <= n)%nat -> RecoveryModePublicKey n pk = Ok P ->
  recover H fuel P msg (x :: sig) X = recover H fuel P msg (y :: sig) X /\ ep_recover H fuel P msg (x :: sig) X = ep_recover H fuel P msg (y :: sig) X.
Proof.
  intros Hn HP. destruct (rp_facts n pk P HP) as (b & l & lg & _ & ->). unfold recover, ep_recover. cbn [rp_n rp_bound rp_len].
  rewrite (recover_parse_header n b l x y sig Hn). split; reflexivity.
Qed.
Lemma bytes_bits_0 x : bytes_bits (x ++ [0]) = bytes_bits x ++ repeat false 8.
Proof. unfold bytes_bits. rewrite flat_map_app. reflexivity. Qed.
Lemma strip_rev_false k r : strip_rev (repeat false k ++ r) = strip_rev r.
Proof. induction k as [|k IH]; [reflexivity|exact IH]. Qed.
Lemma decompress_trailing x slen n : (length x < slen)%nat -> decompress (x ++ [0]) slen n = decompress x slen n.
Proof.
  intros Hl. unfold decompress. rewrite app_length. cbn [length]. destruct (Nat.ltb_spec slen (length x + 1)); [lia|]. destruct (Nat.ltb_spec slen (length x)); [lia|].
  rewrite flat_map_app. unfold strip. rewrite rev_app_distr. change (rev (flat_map (zbits 8) [0])) with (repeat false 8). now rewrite strip_rev_false.
Qed.
(** overlong encodings *)
Lemma recover_overlong n b l sig : (2 * l - 41 + 41 + 3 * n < length sig)%nat -> recover_parse n b l sig = Ok None.
Proof.
  intros Hl. unfold recover_parse, decompress. change (HEAD_LEN + SALT_LEN)%nat with 41%nat.
  replace (l * 2 - HEAD_LEN - SALT_LEN)%nat with (2 * l - 41)%nat by (unfold HEAD_LEN, SALT_LEN; lia).
  assert (L : length (slice 41 (length sig - n * 3) sig) = (length sig - n * 3 - 41)%nat) by (unfold slice; rewrite firstn_length, skipn_length; lia).
  rewrite L. destruct (Nat.ltb_spec (2 * l - 41) (length sig - n * 3 - 41)); [|lia]. reflexivity.
Qed.
