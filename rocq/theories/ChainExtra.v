(** Concrete instances for the contract theorems. *)
From Verif Require Import Base KeccakModel HashModel HashSpec HashProofs NttModel NttProofs NttInst NttApi RingSpec Ring NtruProofs PolyProofs PolyModel PolyModelProofs EncodingModel EncodingSpec EncodingProofs PrngModel
  FalconModel FalconSpec FalconProofs RecoveryProofs SolModel SolSpec PackProofs SolProofs ChainRecover ChainProofs ChachaProofs.
Require Import Coq.setoid_ring.Ring Setoid Morphisms.

Definition one := pconst 512 1.
Lemma one_length : length one = 512%nat. Proof. reflexivity. Qed.
Lemma one_canon : canonq one.
Proof. unfold one, pconst. constructor; [lia|]. apply Forall_forall. intros x Hx. apply repeat_spec in Hx. lia. Qed.
Section One.
Variables (n : nat) (npos : (0 < n)%nat).
Notation m := 12289.
Local Instance rmulPO : Proper (req n 12289 ==> req n 12289 ==> req n 12289) (rmul n) := rmul_proper n npos 12289.
Add Ring RnO : (r_theory n npos 12289) (setoid (req_equiv n 12289) (r_ext n npos 12289)).
Lemma negmul_one_n h : length h = n -> pcong n m (negmul n (pconst n 1) h) h /\ pcong n m (negmul n h (pconst n 1)) h.
Proof.
  intros L. pose proof (NtruProofs.pconst_length n 1 npos). split; rewrite pcong_req, fl_mul_req, fl_pconst by lia; change (rc 1) with r1; ring.
Qed.
End One.
Lemma negmul_one h : length h = 512%nat -> pcong 512 12289 (negmul 512 one h) h /\ pcong 512 12289 (negmul 512 h one) h.
Proof. intros L. apply (negmul_one_n 512 (Nat.lt_0_succ 511) h L). Qed.
Lemma unit_one : unit_mod 512 one.
Proof. exists one. split; [reflexivity|]. apply negmul_one. reflexivity. Qed.
Lemma ntt_one512 : ntt one = repeat 1 512.
Proof.
  apply (nth_ext _ _ 0 0); [now rewrite (ntt_length 9 K9 512 N9 one one_length), repeat_length|]. intros i Hi.
  rewrite (ntt_length 9 K9 512 N9 one one_length) in Hi. unfold one. rewrite (ntt_one 9 K9 512 N9 i Hi).
  symmetry. rewrite nth_indep with (d' := 1) by (now rewrite repeat_length). apply nth_repeat.
Qed.
Lemma product_ones k : product (repeat 1 k) = 1.
Proof. induction k as [|k IH]; [reflexivity|]. unfold product in *. cbn [repeat fold_right]. rewrite IH. reflexivity. Qed.
(** preimages with s1 = 1 *)
Lemma preimage_one h c s0 : length h = 512%nat -> length s0 = 512%nat -> pcong 512 12289 (padd 512 s0 h) c -> preimage 512 h c s0 one.
Proof.
  intros Lh L0 P. split; [exact L0|]. split; [reflexivity|]. eapply pcong_trans; [|exact P]. intros i Hi. unfold padd, coef. rewrite !nth_map_seq by auto.
  pose proof (proj1 (negmul_one h Lh) i Hi) as D. unfold coef in D. replace (_ - _) with (nth i (negmul 512 one h) 0 - nth i h 0) by ring. exact D.
Qed.
(** a key and a signature accepted by the Python verifier, from any hashed point: h = c, s0 = 0, s1 = 1 *)
Definition enc_one := match compress one 625 with Some e => e | None => [] end.
Lemma enc_one_ok : compress one 625 = Some enc_one. Proof. vm_compute. reflexivity. Qed.
Lemma one_nonempty : one <> []. Proof. discriminate. Qed.
Lemma dec_one : decompress enc_one 625 512 = Ok (Some one).
Proof. exact (compress_decompress one 625 625 enc_one one_nonempty (Nat.le_refl _) enc_one_ok). Qed.
Lemma pcong_zero_add c : length c = 512%nat -> pcong 512 12289 (padd 512 (repeat 0 512) c) c.
Proof. intros L i Hi. unfold padd, coef. rewrite nth_map_seq, nth_repeat by auto. exists 0. ring. Qed.
Lemma accepted_instance fuel msg salt X c : length salt = 40%nat -> hash_to_point fuel 512 msg salt X = Fin (Ok c) ->
  exists P, PublicKey 512 c = Ok P /\ length c = 512%nat /\ verify fuel P msg ([41] ++ salt ++ enc_one) X = Fin (Ok true).
Proof.
  intros Ls EH. destruct (h2p_facts _ _ _ _ _ _ EH) as [Lc _].
  assert (EP : exists P, PublicKey 512 c = Ok P /\ pk_len P = Z.to_nat 666 /\ pk_bound P = 34034726) by (unfold PublicKey; eexists; split; [reflexivity|split; reflexivity]).
  destruct EP as (P & EP & EL & EB). exists P. split; [exact EP|]. split; [exact Lc|].
  pose proof (verify_cases 512 c P fuel msg ([41] ++ salt ++ enc_one) X EP Lc) as V. rewrite EL, EB in V.
  rewrite (skipn_app_1 _ _ _ Ls : skipn 41 _ = _), (slice_app_1 _ _ _ Ls : slice 1 41 _ = _) in V.
  replace (Z.to_nat 666 - 41)%nat with 625%nat in V by reflexivity. rewrite dec_one, EH in V. destruct V as (b & V & Vt & _). rewrite V.
  do 2 f_equal. apply Vt. exists (repeat 0 512). split; [|vm_compute; discriminate]. exact (preimage_one c c (repeat 0 512) Lc (repeat_length _ _) (pcong_zero_add c Lc)).
Qed.
(** the same for the Epervier mode *)
Definition enc_zero_one := match compress (repeat 0 512 ++ one) 1291 with Some e => e | None => [] end.
Lemma enc_zero_one_ok : compress (repeat 0 512 ++ one) 1291 = Some enc_zero_one. Proof. vm_compute. reflexivity. Qed.
Lemma zero_one_nonempty : repeat 0 512 ++ one <> []. Proof. discriminate. Qed.
Lemma dec_zero_one : decompress enc_zero_one 1291 1024 = Ok (Some (repeat 0 512 ++ one)).
Proof. exact (compress_decompress _ 1291 1291 enc_zero_one zero_one_nonempty (Nat.le_refl _) enc_zero_one_ok). Qed.
Lemma recovered_instance H fuel msg salt X c : length salt = 40%nat -> hash_to_point fuel 512 msg salt X = Fin (Ok c) ->
  exists P, RecoveryModePublicKey 512 0 = Ok P /\
    ep_recover H fuel P msg ([57] ++ salt ++ enc_zero_one ++ flat_map (to_be 3) (repeat 1 512)) X = Fin (Ok (Some (address H (ntt c)))).
Proof.
  intros Ls EH. destruct (h2p_facts _ _ _ _ _ _ EH) as [Lc Cc].
  assert (EP : exists P, RecoveryModePublicKey 512 0 = Ok P /\ rp_len P = Z.to_nat 666 /\ rp_bound P = 34034726) by (unfold RecoveryModePublicKey; eexists; split; [reflexivity|split; reflexivity]).
  destruct EP as (P & EP & EL & EB). exists P. split; [exact EP|]. apply (proj2 (recover_iff H 512 0 P fuel msg _ X _ EP)).
  exists c, (repeat 0 512), one, c. rewrite (slice_app_1 _ _ _ Ls : slice 1 41 _ = _). split; [exact EH|]. split; [|reflexivity].
  unfold recoverable. rewrite EL, EB. split; [|split; [|split; [|split; [|split; [|split]]]]].
  - assert (E : slice 41 (length ([57] ++ salt ++ enc_zero_one ++ flat_map (to_be 3) (repeat 1 512)) - 3 * 512)
                  ([57] ++ salt ++ enc_zero_one ++ flat_map (to_be 3) (repeat 1 512)) = enc_zero_one).
    { unfold slice. rewrite (skipn_app_1 _ _ _ Ls : skipn 41 _ = _). rewrite !app_length, (flat_map_length_const _ 3 _ (to_be_length 3)), Ls, repeat_length. cbn [length].
      replace (1 + (40 + (length enc_zero_one + 512 * 3)) - 3 * 512 - 41)%nat with (length enc_zero_one) by lia.
      rewrite firstn_app, firstn_all, Nat.sub_diag. cbn [firstn]. apply app_nil_r. }
    rewrite E. exact dec_zero_one.
  - vm_compute. discriminate.
  - exact unit_one.
  - exact (preimage_one c c (repeat 0 512) Lc (repeat_length _ _) (pcong_zero_add c Lc)).
  - exact Lc.
  - exact Cc.
  - rewrite !app_assoc. rewrite hint_of_app; [|apply repeat_length|apply Forall_forall; intros x Hx; apply repeat_spec in Hx; lia].
    split; [apply repeat_length|]. intros i Hi. rewrite ntt_one512. assert (E : nth i (repeat 1 512) 0 = 1).
    { rewrite nth_indep with (d' := 1) by (now rewrite repeat_length). apply nth_repeat. } rewrite E. reflexivity.
Qed.
