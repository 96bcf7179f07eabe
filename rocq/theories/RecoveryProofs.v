(** Proofs about the recovery modes (falcon_recovery.py, falcon_epervier.py). *)
From Verif Require Import Base HashModel HashSpec HashProofs KeccakModel PrngModel EncodingModel EncodingSpec EncodingProofs RingSpec Ring NtruModel PolyProofs NtruProofs
  NttProofs NttApi PolyModel PolyModelProofs FalconModel FalconSpec FalconProofs.
Require Import Setoid Morphisms.

(** ** big-endian integers *)
Lemma to_be_length k x : length (to_be k x) = k.
Proof. revert x. induction k as [|k IH]; intros x; cbn [to_be]; [reflexivity|]. rewrite app_length, IH. cbn [length]. lia. Qed.
Lemma to_be_bytes k x : bytes (to_be k x).
Proof.
  revert x. induction k as [|k IH]; intros x; cbn [to_be]; [constructor|]. apply Forall_app. split; [apply IH|].
  constructor; [|constructor]. unfold is_byte. apply Z.mod_pos_bound. lia.
Qed.
Lemma be_int_snoc a x : be_int (a ++ [x]) = 256 * be_int a + x.
Proof. unfold be_int. rewrite fold_left_app. reflexivity. Qed.
Lemma be_int_to_be k x : 0 <= x < 256 ^ Z.of_nat k -> be_int (to_be k x) = x.
Proof.
  revert x. induction k as [|k IH]; intros x Hx; cbn [to_be].
  - change (256 ^ Z.of_nat 0) with 1 in Hx. assert (x = 0) by lia. subst. reflexivity.
  - rewrite be_int_snoc, IH.
    + rewrite Z.mod_eq by lia. lia.
    + rewrite Nat2Z.inj_succ, Z.pow_succ_r in Hx by lia. split; [apply Z.div_pos; lia|apply Z.div_lt_upper_bound; lia].
Qed.
Lemma flat_map_length_const {A} (f : A -> list Z) d l : (forall x, length (f x) = d) -> length (flat_map f l) = (length l * d)%nat.
Proof. intros Hf. induction l as [|x l IH]; cbn [flat_map]; [reflexivity|]. rewrite app_length, Hf, IH. reflexivity. Qed.
Lemma chunks3_length : forall m fuel b, length b = (3 * m)%nat -> (m <= fuel)%nat -> length (chunks3 fuel b) = m.
Proof.
  induction m as [|m IH]; intros fuel b L Hf.
  - destruct b; [|cbn in L; lia]. destruct fuel; reflexivity.
  - destruct fuel as [|fuel]; [lia|]. destruct b as [|x b]; [cbn in L; lia|]. cbn [chunks3 length]. f_equal. apply IH; [|lia].
    rewrite skipn_length, L. lia.
Qed.
Lemma chunks3_be xs : Forall (fun x => 0 <= x < 2 ^ 24) xs -> forall fuel, (length xs <= fuel)%nat -> chunks3 fuel (flat_map (to_be 3) xs) = xs.
Proof.
  induction 1 as [|x xs Hx _ IH]; intros fuel Hf; [destruct fuel; reflexivity|].
  cbn [length] in Hf. destruct fuel as [|fuel]; [lia|]. cbn [flat_map].
  destruct (to_be 3 x) as [|y t] eqn:E; [apply (f_equal (@length Z)) in E; rewrite to_be_length in E; discriminate|].
  cbn [app chunks3]. change (y :: t ++ flat_map (to_be 3) xs) with ((y :: t) ++ flat_map (to_be 3) xs). rewrite <- E.
  rewrite firstn_len, skipn_len by apply to_be_length. rewrite be_int_to_be by (change (256 ^ Z.of_nat 3) with (2 ^ 24); lia).
  f_equal. apply IH. lia.
Qed.

(** ** recover_parse *)
Definition hint_of (n : nat) (sig : list Z) : list Z := let b := skipn (length sig - n * 3) sig in chunks3 (length b) b.
Definition hint_ok (n : nat) (hint s1 : list Z) : Prop := length hint = n /\ forall i, (i < n)%nat -> (nth i hint 0 * nth i (ntt s1) 0) mod 12289 = 1.
Lemma encodes_all_nonempty v w : encodes_all v w -> v <> [] -> w <> [].
Proof. intros E N. destruct v as [|c v]; [congruence|]. destruct (encodes_all_last _ _ _ E) as [w' ->]. intros H. apply (f_equal (@length bool)) in H. rewrite app_length in H. cbn in H. lia. Qed.
Theorem recover_parse_spec k n b l sig s0 s1 hint : (1 <= k <= 10)%nat -> n = (2 ^ k)%nat ->
  (recover_parse n b l sig = Ok (Some (s0, s1, hint)) <->
   length s0 = n /\ length s1 = n /\ decompress (slice 41 (length sig - 3 * n) sig) (2 * l - 41) (2 * n) = Ok (Some (s0 ++ s1)) /\
   hint = hint_of n sig /\ hint_ok n hint s1 /\ sqnorm s0 + sqnorm s1 <= b).
Proof.
  intros Hk Hn. pose proof (pow_pos' k n Hn) as np. unfold recover_parse. change (HEAD_LEN + SALT_LEN)%nat with 41%nat.
  replace (l * 2 - HEAD_LEN - SALT_LEN)%nat with (2 * l - 41)%nat by (unfold HEAD_LEN, SALT_LEN; lia).
  rewrite (Nat.mul_comm n 2). replace (n * 3)%nat with (3 * n)%nat by lia.
  destruct (decompress (slice 41 (length sig - 3 * n) sig) (2 * l - 41) (2 * n)) as [[s|]|e] eqn:ED; cbn [bind];
    [|split; [discriminate|intros (_ & _ & H & _); discriminate]|split; [discriminate|intros (_ & _ & H & _); discriminate]].
  apply decompress_accepts in ED; [|lia]. destruct ED as (_ & Ls & w & rest & EW & EB).
  assert (Lsig : (41 + 3 * n < length sig)%nat).
  { destruct (Nat.lt_ge_cases (41 + 3 * n) (length sig)) as [G|G]; auto. exfalso.
    assert (Z : slice 41 (length sig - 3 * n) sig = []) by (unfold slice; replace (length sig - 3 * n - 41)%nat with 0%nat by lia; reflexivity).
    rewrite Z in EB. apply encodes_all_nonempty in EW; [|intros ->; cbn in Ls; lia]. destruct w; [congruence|discriminate]. }
  assert (Hmid : (length s / 2)%nat = n) by (rewrite Ls, Nat.mul_comm; apply Nat.div_mul; lia). rewrite Hmid.
  fold (hint_of n sig).
  assert (HH : chunks3 (length (skipn (length sig - 3 * n) sig)) (skipn (length sig - 3 * n) sig) = hint_of n sig) by (unfold hint_of; now replace (n * 3)%nat with (3 * n)%nat by lia).
  rewrite HH.
  assert (Lh : length (hint_of n sig) = n).
  { rewrite <- HH. apply chunks3_length; rewrite skipn_length; lia. }
  assert (L0 : length (firstn n s) = n) by (rewrite firstn_length; lia). assert (L1 : length (skipn n s) = n) by (rewrite skipn_length; lia).
  assert (HV : forall t, length t = n -> (forallb (fun e => e =? 1) (vec_mul (hint_of n sig) (ntt t)) = true <-> hint_ok n (hint_of n sig) t)).
  { intros t Lt. rewrite forallb_forall. unfold hint_ok. split.
    - intros F. split; auto. intros i Hi. specialize (F (nth i (vec_mul (hint_of n sig) (ntt t)) 0)). rewrite vec_mul_nth in F by lia. apply Z.eqb_eq, F.
      rewrite <- vec_mul_nth by lia. apply nth_In. rewrite vec_mul_length. lia.
    - intros (_ & F) x Hx. apply (In_nth _ _ 0) in Hx. destruct Hx as (i & Hi & <-). rewrite vec_mul_length in Hi. rewrite vec_mul_nth by lia.
      apply Z.eqb_eq, F. lia. }
  rewrite !sumsq_spec. split.
  - destruct (forallb _ _) eqn:EF; [|discriminate]. apply HV in EF; auto. destruct (Z.ltb_spec b (sqnorm (firstn n s) + sqnorm (skipn n s))) as [Hb|Hb]; [discriminate|].
    intros E. assert (E0 : s0 = firstn n s) by congruence. assert (E1 : s1 = skipn n s) by congruence. assert (E2 : hint = hint_of n sig) by congruence. subst s0 s1 hint.
    rewrite firstn_skipn. repeat split; auto; apply EF.
  - intros (E0 & E1 & E & -> & HO & HB). assert (Es : s = s0 ++ s1) by congruence. subst s.
    rewrite firstn_len, skipn_len by auto. rewrite (proj2 (HV s1 E1) HO). destruct (Z.ltb_spec b (sqnorm s0 + sqnorm s1)); [lia|]. reflexivity.
Qed.

(** ** the recovered polynomial *)
Lemma recovered k n c d s0 s1 hint : (1 <= k <= 10)%nat -> n = (2 ^ k)%nat -> length c = n -> length s0 = n -> length s1 = n -> length d = n ->
  pcong n 12289 d (psub n c s0) -> hint_ok n hint s1 ->
  let t := vec_mul (ntt d) hint in
  length (intt t) = n /\ canonq (intt t) /\ ntt (intt t) = t /\ preimage n (intt t) c s0 s1 /\ unit_mod n s1.
Proof.
  intros Hk Hn Lc L0 L1 Ld Hd [LH HO] t. pose proof (pow_pos' k n Hn) as np.
  assert (Lt : length t = n) by (unfold t; rewrite vec_mul_length; now apply (ntt_length k Hk n Hn)).
  assert (Ct : canonq t) by apply vec_mul_canon.
  assert (Li : length (intt t) = n) by now apply (intt_length k Hk n Hn).
  assert (Ht : ntt (intt t) = t) by (rewrite (ntt_intt k Hk n Hn) by auto; now apply mod_q_id).
  pose proof (ntt_length k Hk n Hn) as NL. pose proof (ntt_canon k Hk n Hn) as NC.
  split; [exact Li|]. split; [apply intt_canon|]. split; [exact Ht|]. split.
  - apply preimage_mul_diff; auto. apply pcong_sym. eapply pcong_trans; [|exact Hd]. apply eqm_pcong. apply (ntt_inj k Hk n Hn); auto; [apply negmul_length|].
    rewrite (ntt_negmul k Hk n Hn), Ht by auto. apply canonq_eq; [rewrite vec_mul_length, !NL; auto|apply vec_mul_canon|auto|].
    intros i Hi. rewrite vec_mul_length, NL in Hi by auto. rewrite vec_mul_nth by (rewrite NL; auto). unfold t. rewrite vec_mul_nth by (rewrite NL; auto).
    rewrite Z.mod_mod, Z.mul_mod_idemp_r by lia.
    replace (nth i (ntt s1) 0 * (nth i (ntt d) 0 * nth i hint 0)) with (nth i (ntt d) 0 * (nth i hint 0 * nth i (ntt s1) 0)) by ring.
    rewrite <- Z.mul_mod_idemp_r, (HO i Hi), Z.mul_1_r by lia. reflexivity.
  - apply (unit_iff k n s1 Hk Hn L1). apply (invertible_nth k Hk n Hn); auto. intros i Hi E. specialize (HO i Hi). rewrite E, Z.mul_0_r in HO. discriminate.
Qed.
Lemma recovered_unique n c s0 s1 h h' : (0 < n)%nat -> length h = n -> length h' = n -> canonq h -> canonq h' ->
  preimage n h c s0 s1 -> preimage n h' c s0 s1 -> unit_mod n s1 -> h = h'.
Proof. intros np Lh Lh' Ch Ch' P P' U. apply (pcong_canon n); auto. now apply (preimage_unique n np h h' c s0 s1). Qed.

Lemma lift_s0 n c s0 : length c = n -> pcong n 12289 (poly_sub c (map (fun e => if e <? 0 then e + q else e) s0)) (psub n c s0).
Proof.
  intros Lc. rewrite (poly_sub_spec n) by auto. eapply pcong_trans; [apply mod_q_pcong|]. apply pcong_req. rewrite !psub_req. apply rsub_req; [reflexivity|].
  intros i _. unfold fl, coef.
  rewrite (map_nth (fun e => if e <? 0 then e + q else e) s0 0 (Z.to_nat i) : nth _ _ 0 = _).
  destruct (_ <? 0); [exists 1|exists 0]; unfold q; ring.
Qed.

Lemma app_inv_len {A} (a b c d : list A) : a ++ b = c ++ d -> length a = length c -> a = c /\ b = d.
Proof. intros E L. split; [rewrite <- (firstn_len (length a) a b eq_refl), E, L|rewrite <- (skipn_len (length a) a b eq_refl), E, L]; [now apply firstn_len|now apply skipn_len]. Qed.
(** ** recover *)
Lemma canonq_24 l : canonq l -> Forall (fun x => 0 <= x < 2 ^ 24) l.
Proof. intros C. eapply Forall_impl; [|exact C]. cbn beta. intros x Hx. change (2 ^ 24) with 16777216. lia. Qed.
Lemma hint_of_app n p xs : length xs = n -> Forall (fun x => 0 <= x < 2 ^ 24) xs -> hint_of n (p ++ flat_map (to_be 3) xs) = xs.
Proof.
  intros L R. unfold hint_of. rewrite app_length, (flat_map_length_const (to_be 3) 3) by apply to_be_length. rewrite L.
  rewrite skipn_len by lia. rewrite (flat_map_length_const (to_be 3) 3) by apply to_be_length. apply chunks3_be; auto. lia.
Qed.
(** ** sign *)
Lemma rec_sign_loop_result K S hd salt c : forall fuel i sig, rec_sign_loop fuel K S i hd salt c = Fin (Ok sig) ->
  exists j s0 s1 enc inv, (i <= j)%nat /\ sample_preimage S j c = Ok (s0, s1) /\ invertible s1 = true /\ sqnorm s0 + sqnorm s1 <= sk_bound K /\
    compress (s0 ++ s1) (2 * sk_len K - 41) = Some enc /\ poly_inverse s1 = Ok inv /\ sig = hd ++ salt ++ enc ++ flat_map (to_be 3) (ntt inv).
Proof.
  induction fuel as [|fuel IH]; intros i sig; cbn [rec_sign_loop]; [discriminate|].
  destruct (sample_preimage S i c) as [[s0 s1]|] eqn:ES; cbn [fbind lift]; [|discriminate]. cbn [fst snd].
  replace (sk_len K * 2 - HEAD_LEN - SALT_LEN)%nat with (2 * sk_len K - 41)%nat by (unfold HEAD_LEN, SALT_LEN; lia). rewrite !sumsq_spec.
  assert (GO : rec_sign_loop fuel K S (i + 1) hd salt c = Fin (Ok sig) -> exists j s0 s1 enc inv, (i <= j)%nat /\ sample_preimage S j c = Ok (s0, s1) /\ invertible s1 = true /\ sqnorm s0 + sqnorm s1 <= sk_bound K /\
    compress (s0 ++ s1) (2 * sk_len K - 41) = Some enc /\ poly_inverse s1 = Ok inv /\ sig = hd ++ salt ++ enc ++ flat_map (to_be 3) (ntt inv)).
  { intros E. apply IH in E. destruct E as (j & a & b & enc & inv & Hj & T). exists j, a, b, enc, inv. split; [lia|exact T]. }
  destruct (invertible s1) eqn:EI; [|exact GO].
  destruct (Z.leb_spec (sqnorm s0 + sqnorm s1) (sk_bound K)) as [Hb|Hb]; [|exact GO].
  destruct (compress (s0 ++ s1) (2 * sk_len K - 41)) as [enc|] eqn:EC; [|exact GO].
  destruct (poly_inverse s1) as [inv|] eqn:EP; cbn [fbind lift]; [|discriminate].
  intros E. assert (sig = hd ++ salt ++ enc ++ flat_map (to_be 3) (ntt inv)) by congruence. exists i, s0, s1, enc, inv. auto 10.
Qed.
Theorem rec_sign_result fh fuel K S rb msg X sig : rec_sign fh fuel K S rb msg X = Fin (Ok sig) ->
  exists c j s0 s1 enc inv, hash_to_point fh (sk_n K) msg (rb 40%nat) X = Fin (Ok c) /\ sample_preimage S j c = Ok (s0, s1) /\ invertible s1 = true /\
    sqnorm s0 + sqnorm s1 <= sk_bound K /\ compress (s0 ++ s1) (2 * sk_len K - 41) = Some enc /\ poly_inverse s1 = Ok inv /\
    sig = [48 + sk_logn K] ++ rb 40%nat ++ enc ++ flat_map (to_be 3) (ntt inv).
Proof.
  unfold rec_sign. change SALT_LEN with 40%nat. destruct (hash_to_point fh (sk_n K) msg (rb 40%nat) X) as [[c|]|] eqn:EH; cbn [fbind]; try discriminate.
  intros E. apply rec_sign_loop_result in E. destruct E as (j & s0 & s1 & enc & inv & _ & T). exists c, j, s0, s1, enc, inv. auto.
Qed.
Section Rec.
Variable H : list Z -> list Z.
Lemma rp_facts n pk P : RecoveryModePublicKey n pk = Ok P -> exists b l lg, params n = Ok (b, l, lg) /\ P = {| rp_n := n; rp_pk := pk; rp_bound := b; rp_len := l |}.
Proof.
  unfold RecoveryModePublicKey. destruct (params n) as [[[b l] lg]|] eqn:E; cbn [bind]; [|discriminate]. intros E'. exists b, l, lg. split; congruence.
Qed.
(** the conditions under which an address is returned *)
Definition recoverable (n : nat) (bound : Z) (len : nat) (sig c s0 s1 h : list Z) : Prop :=
  decompress (slice 41 (length sig - 3 * n) sig) (2 * len - 41) (2 * n) = Ok (Some (s0 ++ s1)) /\
  sqnorm s0 + sqnorm s1 <= bound /\ unit_mod n s1 /\ preimage n h c s0 s1 /\
  length h = n /\ canonq h /\ hint_ok n (hint_of n sig) s1.
Theorem recover_iff n pk P fuel msg sig X a : RecoveryModePublicKey n pk = Ok P ->
  (recover H fuel P msg sig X = Fin (Ok (Some a)) <->
   exists c s0 s1 h, hash_to_point fuel n msg (slice 1 41 sig) X = Fin (Ok c) /\ recoverable n (rp_bound P) (rp_len P) sig c s0 s1 h /\ a = address H h) /\
  (ep_recover H fuel P msg sig X = Fin (Ok (Some a)) <->
   exists c s0 s1 h, hash_to_point fuel n msg (slice 1 41 sig) X = Fin (Ok c) /\ recoverable n (rp_bound P) (rp_len P) sig c s0 s1 h /\ a = address H (ntt h)).
Proof.
  intros HP. destruct (rp_facts n pk P HP) as (b & l & lg & Hpar & ->). destruct (params_facts _ _ _ _ Hpar) as (k & Hk & Hn & _ & Hl & _).
  pose proof (pow_pos' k n Hn) as np. unfold recover, ep_recover. cbn [rp_n rp_bound rp_len rp_pk]. change (slice HEAD_LEN (HEAD_LEN + SALT_LEN) sig) with (slice 1 41 sig).
  destruct (recover_parse n b l sig) as [[[[s0 s1] hint]|]|e] eqn:ER; cbn [fbind lift].
  - apply (recover_parse_spec k n b l sig s0 s1 hint Hk Hn) in ER. destruct ER as (L0 & L1 & ED & Eh & HO & HB).
    destruct (hash_to_point fuel n msg (slice 1 41 sig) X) as [[c|e]|] eqn:EH; cbn [fbind];
      [|split; split; [discriminate|intros (c' & s0' & s1' & h' & E & _); discriminate| discriminate|intros (c' & s0' & s1' & h' & E & _); discriminate]..].
    destruct (h2p_facts _ _ _ _ _ _ EH) as [Lc _].
    assert (LD1 : length (poly_sub c (map (fun e => if e <? 0 then e + q else e) s0)) = n) by (unfold poly_sub; now rewrite map_length, seq_length).
    assert (LD2 : length (poly_sub c s0) = n) by (unfold poly_sub; now rewrite map_length, seq_length).
    assert (PD2 : pcong n 12289 (poly_sub c s0) (psub n c s0)) by (rewrite (poly_sub_spec n) by auto; apply mod_q_pcong).
    pose proof (recovered k n c _ s0 s1 hint Hk Hn Lc L0 L1 LD1 (lift_s0 n c s0 Lc) HO) as (A1 & A2 & A3 & A4 & A5).
    pose proof (recovered k n c _ s0 s1 hint Hk Hn Lc L0 L1 LD2 PD2 HO) as (B1 & B2 & B3 & B4 & B5).
    set (h1 := intt (vec_mul (ntt (poly_sub c (map (fun e => if e <? 0 then e + q else e) s0))) hint)) in *.
    set (h2 := intt (vec_mul (ntt (poly_sub c s0)) hint)) in *.
    assert (U : forall c' s0' s1' h', Fin (Ok c) = Fin (Ok c') -> recoverable n b l sig c' s0' s1' h' -> h' = h1 /\ h' = h2).
    { intros c' s0' s1' h' Ec (D' & _ & _ & P' & Lh' & Ch' & _). assert (c' = c) by congruence. subst c'.
      rewrite ED in D'. assert (Es : s0 ++ s1 = s0' ++ s1') by congruence. pose proof P' as (L0' & L1' & _).
      apply app_inv_len in Es; [|congruence]. destruct Es as [<- <-]. split; apply (recovered_unique n c s0 s1); auto. }
    split.
    + split.
      * intros E. exists c, s0, s1, h1. split; auto. split; [|congruence]. unfold recoverable. rewrite Eh in HO. auto 10.
      * intros (c' & s0' & s1' & h' & Ec & R & ->). now destruct (U _ _ _ _ Ec R) as [-> _].
    + split.
      * intros E. exists c, s0, s1, h2. split; auto. rewrite B3. split; [|congruence]. unfold recoverable. rewrite Eh in HO. auto 10.
      * intros (c' & s0' & s1' & h' & Ec & R & ->). destruct (U _ _ _ _ Ec R) as [_ ->]. now rewrite B3.
  - assert (N : forall c s0 s1 h, recoverable n b l sig c s0 s1 h -> False).
    { intros c s0 s1 h (D & HB & U & P & Lh & Ch & HO). pose proof P as (L0 & L1 & _).
      rewrite (proj2 (recover_parse_spec k n b l sig s0 s1 (hint_of n sig) Hk Hn)) in ER by auto 10. discriminate. }
    split; split; [discriminate|intros (c' & s0' & s1' & h' & E & R & _); destruct (N _ _ _ _ R)|discriminate|intros (c' & s0' & s1' & h' & E & R & _); destruct (N _ _ _ _ R)].
  - assert (N : forall c s0 s1 h, recoverable n b l sig c s0 s1 h -> False).
    { intros c s0 s1 h (D & HB & U & P & Lh & Ch & HO). pose proof P as (L0 & L1 & _).
      rewrite (proj2 (recover_parse_spec k n b l sig s0 s1 (hint_of n sig) Hk Hn)) in ER by auto 10. discriminate. }
    split; split; [discriminate|intros (c' & s0' & s1' & h' & E & R & _); destruct (N _ _ _ _ R)|discriminate|intros (c' & s0' & s1' & h' & E & R & _); destruct (N _ _ _ _ R)].
Qed.
Theorem rec_complete n f g F G K pk P S fh fuel rb msg X sig : ntru_key n f g F G -> SecretKey n f g F G = Ok K -> RecoveryModePublicKey n pk = Ok P ->
  sampler_exact n f g F G S -> length (rb 40%nat) = 40%nat -> rec_sign fh fuel K S rb msg X = Fin (Ok sig) ->
  recover H fh P msg sig X = Fin (Ok (Some (rec_pk H K))) /\ ep_recover H fh P msg sig X = Fin (Ok (Some (ep_pk H K))).
Proof.
  intros NK HK HP HS Hrb E. destruct (SecretKey_facts _ _ _ _ _ _ HK) as (b & l & lg & h & Hpar & Lf & Lg & LF & LG & D & ->).
  unfold rec_pk, ep_pk. cbn [sk_h].
  destruct (params_facts _ _ _ _ Hpar) as (k & Hk & Hn & _ & Hl & _). pose proof (pow_pos' k n Hn) as np.
  destruct (div_public k n f g h Hk Hn Lf Lg D) as [Pub _]. pose proof Pub as (Lh & Ch & _).
  apply rec_sign_result in E. cbn [sk_n sk_bound sk_len sk_logn] in E. destruct E as (c & j & s0 & s1 & enc & inv & EH & ES & EI & EN & EC & EV & ->).
  destruct (h2p_facts _ _ _ _ _ _ EH) as [Lc _].
  destruct (preimage_of_lattice n np f g F G h c _ _ NK Pub (HS j c Lc) Lc) as (PI & Lv0 & Lv1).
  rewrite (sample_always n) in ES by auto. assert (Es0 : s0 = psub n c (fst (S j c))) by congruence. assert (Es1 : s1 = neg (snd (S j c))) by congruence.
  rewrite <- Es0, <- Es1 in PI. pose proof PI as (L0 & L1 & _). clear Es0 Es1 ES.
  destruct (rp_facts n pk P HP) as (b' & l' & lg' & Hpar' & HP'). rewrite Hpar in Hpar'.
  assert (b' = b) by congruence. assert (l' = l) by congruence. subst b' l'.
  pose proof (poly_inverse_ntt k Hk n Hn s1 inv L1 EV) as NI.
  assert (LI : length (ntt inv) = n) by (rewrite NI, map_length; now apply (ntt_length k Hk n Hn)).
  assert (CI : canonq (ntt inv)) by (rewrite NI; apply Forall_forall; intros x Hx; apply in_map_iff in Hx; destruct Hx as (y & <- & _); apply inv_q_range).
  set (sig := [48 + lg] ++ rb 40%nat ++ enc ++ flat_map (to_be 3) (ntt inv)).
  assert (Hsalt : slice 1 41 sig = rb 40%nat) by exact (slice_app_1 _ _ _ Hrb).
  assert (Lhb : length (flat_map (to_be 3) (ntt inv)) = (3 * n)%nat) by (rewrite (flat_map_length_const (to_be 3) 3) by apply to_be_length; lia).
  destruct (compress_some_bits _ _ _ EC) as (_ & Lenc & _).
  assert (Lsig : (length sig - 3 * n = 41 + length enc)%nat) by (unfold sig; rewrite !app_length, Lhb, Hrb; cbn [length]; lia).
  assert (Hd : slice 41 (length sig - 3 * n) sig = enc).
  { rewrite Lsig. unfold slice. replace (41 + length enc - 41)%nat with (length enc) by lia.
    rewrite (skipn_app_1 (48 + lg) (rb 40%nat) (enc ++ flat_map (to_be 3) (ntt inv)) Hrb : skipn 41 sig = _). now apply firstn_len. }
  assert (Hh : hint_of n sig = ntt inv).
  { unfold sig. rewrite !app_assoc. apply hint_of_app; auto. now apply canonq_24. }
  assert (R : recoverable n b l sig c s0 s1 h).
  { unfold recoverable. rewrite Hd, Hh. split.
    - replace (2 * n)%nat with (length (s0 ++ s1)) by (rewrite app_length; lia). apply (compress_decompress (s0 ++ s1) (2 * l - 41) (2 * l - 41)); auto.
      intros N. apply (f_equal (@length Z)) in N. rewrite app_length, L0 in N. cbn in N. lia.
    - split; auto. split; [now apply (unit_iff k n s1 Hk Hn L1)|]. split; auto. split; auto. split; auto. split; auto.
      intros i Hi. rewrite NI, nth_map0 by (rewrite (ntt_length k Hk n Hn); auto). rewrite Z.mul_comm. apply inv_q_ok.
      rewrite Z.mod_small by (apply canonq_nth, (ntt_canon k Hk n Hn); auto). now apply (proj1 (invertible_nth k Hk n Hn s1 L1) EI). }
  rewrite HP' in *. destruct (recover_iff n pk _ fh msg sig X (address H h) HP) as [R1 _]. destruct (recover_iff n pk _ fh msg sig X (address H (ntt h)) HP) as [_ R2].
  rewrite Hsalt in R1, R2. split; [apply R1|apply R2]; exists c, s0, s1, h; auto.
Qed.
(** ** the hint is only checked modulo q *)
Theorem hint_malleable n pk P fuel msg p xs ys X : RecoveryModePublicKey n pk = Ok P -> length xs = n -> length ys = n ->
  Forall (fun x => 0 <= x < 2 ^ 24) xs -> Forall (fun x => 0 <= x < 2 ^ 24) ys -> pcong n 12289 xs ys -> (41 <= length p)%nat ->
  forall a, (recover H fuel P msg (p ++ flat_map (to_be 3) xs) X = Fin (Ok (Some a)) -> recover H fuel P msg (p ++ flat_map (to_be 3) ys) X = Fin (Ok (Some a))) /\
    (ep_recover H fuel P msg (p ++ flat_map (to_be 3) xs) X = Fin (Ok (Some a)) -> ep_recover H fuel P msg (p ++ flat_map (to_be 3) ys) X = Fin (Ok (Some a))).
Proof.
  intros HP Lx Ly Rx Ry C Lp a.
  assert (LB : forall zs, length zs = n -> length (flat_map (to_be 3) zs) = (3 * n)%nat) by (intros zs Lz; rewrite (flat_map_length_const (to_be 3) 3) by apply to_be_length; lia).
  assert (S1 : forall zs, length zs = n -> slice 1 41 (p ++ flat_map (to_be 3) zs) = slice 1 41 p).
  { intros zs Lz. unfold slice. rewrite skipn_app, firstn_app. replace (41 - 1 - length (skipn 1 p))%nat with 0%nat by (rewrite skipn_length; lia). cbn [firstn]. apply app_nil_r. }
  assert (S2 : forall zs, length zs = n -> slice 41 (length (p ++ flat_map (to_be 3) zs) - 3 * n) (p ++ flat_map (to_be 3) zs) = skipn 41 p).
  { intros zs Lz. rewrite app_length, (LB zs Lz). unfold slice. rewrite skipn_app. apply firstn_len. rewrite skipn_length. lia. }
  assert (T : forall b l c s0 s1 h, recoverable n b l (p ++ flat_map (to_be 3) xs) c s0 s1 h -> recoverable n b l (p ++ flat_map (to_be 3) ys) c s0 s1 h).
  { intros b l c s0 s1 h. unfold recoverable. rewrite !S2, !hint_of_app by auto. intros (A1 & A2 & A3 & A4 & A5 & A6 & A7 & A8). repeat (split; [assumption|]).
    intros i Hi. rewrite <- (A8 i Hi). destruct (C i Hi) as [t Ht]. unfold coef in Ht. replace (nth i xs 0) with (nth i ys 0 + t * 12289) by lia.
    replace ((nth i ys 0 + t * 12289) * nth i (ntt s1) 0) with (nth i ys 0 * nth i (ntt s1) 0 + (t * nth i (ntt s1) 0) * 12289) by ring. now rewrite Z.mod_add by lia. }
  split.
  - intros E. apply (proj1 (recover_iff n pk P fuel msg _ X a HP)) in E. apply (proj1 (recover_iff n pk P fuel msg _ X a HP)).
    rewrite S1 in * by auto. destruct E as (c & s0 & s1 & h & E1 & E2 & E3). exists c, s0, s1, h. auto.
  - intros E. apply (proj2 (recover_iff n pk P fuel msg _ X a HP)) in E. apply (proj2 (recover_iff n pk P fuel msg _ X a HP)).
    rewrite S1 in * by auto. destruct E as (c & s0 & s1 & h & E1 & E2 & E3). exists c, s0, s1, h. auto.
Qed.
End Rec.

(** ** complete_private *)
Theorem complete_private_cases k n f g F : (1 <= k <= 10)%nat -> n = (2 ^ k)%nat -> length f = n -> length g = n -> length F = n ->
  (~ unit_mod n f -> complete_private f g F n = Raise ZeroDivisionError) /\
  (unit_mod n f -> exists G, complete_private f g F n = Ok G /\ length G = n /\ Forall (fun x => -6144 <= x <= 6144) G /\
     pcong n 12289 (negmul n f G) (negmul n g F) /\
     forall G', length G' = n -> Forall (fun x => -6144 <= x <= 6144) G' -> pcong n 12289 (negmul n f G') (negmul n g F) -> G' = G).
Proof.
  intros Hk Hn Lf Lg LF. pose proof (pow_pos' k n Hn) as np. rewrite (unit_iff k n f Hk Hn Lf). unfold complete_private.
  set (N0 := poly_mul g F). set (N := upd N0 0 ((nth 0 N0 0 + q) mod q)).
  assert (L0 : length N0 = n) by (unfold N0; rewrite (poly_mul_spec k Hk n Hn) by auto; rewrite mod_q_length; apply negmul_length).
  assert (EN : N = N0).
  { apply list_eq_nth; [apply ChachaProofs.upd_length|]. unfold N. intros i Hi. rewrite ChachaProofs.nth_upd by lia.
    destruct (Nat.eqb_spec i 0) as [->|]; auto. unfold q. rewrite <- (Z.mul_1_l 12289) at 1. rewrite Z.mod_add by lia. apply Z.mod_small.
    apply canonq_nth. unfold N0. rewrite (poly_mul_spec k Hk n Hn) by auto. apply mod_q_canon. }
  rewrite EN. destruct (poly_div N0 f) as [G0|e] eqn:ED; cbn [bind].
  - assert (I : invertible f = true) by (unfold poly_div in ED; destruct (invertible f); congruence). rewrite I. split; [congruence|]. intros _.
    destruct (poly_div_spec k Hk n Hn N0 f G0 L0 Lf ED) as (LG & CG & M). exists (map centre G0). split; auto. rewrite map_length. split; auto. split.
    + apply Forall_forall. intros x Hx. apply in_map_iff in Hx. destruct Hx as (y & <- & _). apply centre_range.
    + assert (PN : pcong n 12289 N0 (negmul n g F)) by (unfold N0; rewrite (poly_mul_spec k Hk n Hn) by auto; apply mod_q_pcong).
      assert (PG : pcong n 12289 (negmul n f G0) (negmul n g F)).
      { eapply pcong_trans; [|exact PN]. eapply pcong_trans; [|apply eqm_pcong, M]. apply pcong_req. rewrite !fl_mul_req by lia. apply req_eq. intros. now apply rmul_comm_eq. }
      assert (PC : pcong n 12289 (negmul n f (map centre G0)) (negmul n f G0)).
      { apply pcong_req. rewrite !fl_mul_req by (rewrite ?map_length; lia). apply rmul_proper; auto; [reflexivity|]. apply pcong_req, map_centre_pcong. }
      split; [eapply pcong_trans; eauto|]. intros G' LG' RG' PG'.
      assert (E : mod_q G' = mod_q G0).
      { apply (cancel k Hk n Hn f); auto. apply (pcong_mod n); try apply negmul_length.
        apply (pcong_trans _ _ _ (negmul n f G')); [apply pcong_req; rewrite !fl_mul_req by lia; apply req_eq; intros; now apply rmul_comm_eq|].
        apply (pcong_trans _ _ _ (negmul n f G0)); [eapply pcong_trans; [exact PG'|now apply pcong_sym]|].
        apply pcong_req; rewrite !fl_mul_req by lia; apply req_eq; intros; now apply rmul_comm_eq. }
      apply (eqm_pcong n) in E. apply list_eq_nth; [rewrite map_length; congruence|]. intros i Hi.
      rewrite (map_nth centre G0 0 i : nth _ _ 0 = _). apply centre_unique; [apply E; lia|]. rewrite Forall_forall in RG'. apply RG', nth_In. lia.
  - assert (I : invertible f = false /\ e = ZeroDivisionError) by (unfold poly_div in ED; destruct (invertible f); split; congruence). destruct I as [-> ->].
    split; [reflexivity|]. discriminate.
Qed.
