(** Property theorems C13, C27-C37: falcon.py, falcon_recovery.py, falcon_epervier.py, complete_private.
    [X] is any XOF class, [H] keccak-256 (any function here), [S] the sampling oracle (attempt number and hashed point |-> integer vectors).
    [Fin (Ok r)] = returned r; the fuel bounds the number of iterations of the rejection loops.
    Specification vocabulary (FalconSpec.v, RingSpec.v): ntru_key, lattice_point, public_of, preimage, unit_mod, sqnorm, pcong, negmul. *)
From Verif Require Import Base HashModel EncodingModel EncodingSpec EncodingProofs RingSpec NtruModel NttApi PolyModel PolyModelProofs FalconModel FalconSpec FalconProofs RecoveryProofs FalconExtra.

(** the parameter table: 2, 4, ..., 1024 and nothing else *)
Theorem C29_parameters : forall n b l lg, params n = Ok (b, l, lg) -> exists k, (1 <= k <= 10)%nat /\ n = (2 ^ k)%nat /\ lg = Z.of_nat k /\ (41 < l)%nat /\ 0 < b.
Proof. exact params_facts. Qed.
Print Assumptions C29_parameters.

(** C13 *)
Theorem C13_complete_private : forall k n f g F, (1 <= k <= 10)%nat -> n = (2 ^ k)%nat -> length f = n -> length g = n -> length F = n ->
  (~ unit_mod n f -> complete_private f g F n = Raise ZeroDivisionError) /\
  (unit_mod n f -> exists G, complete_private f g F n = Ok G /\ length G = n /\ Forall (fun x => -6144 <= x <= 6144) G /\
     pcong n 12289 (negmul n f G) (negmul n g F) /\
     forall G', length G' = n -> Forall (fun x => -6144 <= x <= 6144) G' -> pcong n 12289 (negmul n f G') (negmul n g F) -> G' = G).
Proof. exact complete_private_cases. Qed.
Print Assumptions C13_complete_private.
(** ... so the G of a basis is found again when its coefficients are in range *)
Theorem C13_recovers_basis : forall k n f g F G, (1 <= k <= 10)%nat -> n = (2 ^ k)%nat -> ntru_key n f g F G -> Forall (fun x => -6144 <= x <= 6144) G ->
  complete_private f g F n = Ok G.
Proof.
  intros k n f g F G Hk Hn (Lf & Lg & LF & LG & E & U) R.
  destruct (complete_private_cases k n f g F Hk Hn Lf Lg LF) as [_ C]. destruct (C U) as (G0 & -> & _ & _ & _ & Un). f_equal. symmetry. apply Un; auto.
  intros i Hi. apply (f_equal (fun l => nth i l 0)) in E. unfold psub in E. rewrite ChachaProofs.nth_map_seq in E by auto. rewrite E.
  unfold pconst. destruct i as [|i]; cbn [nth]; [exists 1; reflexivity|]. rewrite nth_repeat. exists 0. reflexivity.
Qed.
Print Assumptions C13_recovers_basis.
(** ... and not when they are not: the returned G then misses the NTRU equation over the integers *)
Theorem C13_out_of_range_refuted : exists n f g F G G', ntru_key n f g F G /\ complete_private f g F n = Ok G' /\
  psub n (negmul n f G') (negmul n g F) <> pconst n 12289.
Proof.
  exists 2%nat, [2; 1], [3; 2], [-73734; 49156], [-122890; 61445]. eexists. split; [|split; [vm_compute; reflexivity|vm_compute; discriminate]].
  unfold ntru_key. repeat split. exists [4916; -2458]. split; [reflexivity|].
  intros i Hi. destruct i as [|[|i]]; [vm_compute; exists 1; reflexivity|vm_compute; exists 0; reflexivity|lia].
Qed.
Print Assumptions C13_out_of_range_refuted.
Example C13_nontrivial : complete_private [2; 1] [3; 2] [-3; 5] 2 = Ok [2452; 4923].
Proof. vm_compute. reflexivity. Qed.

(** C27 *)
Theorem C27_falcon_completeness : forall n f g F G K P S fh fuel fv rb msg X sig,
  ntru_key n f g F G ->
  SecretKey n f g F G = Ok K -> PublicKey n (sk_h K) = Ok P ->
  (forall i c, length c = n -> lattice_point n f g F G (fst (S i c)) (snd (S i c))) ->
  length (rb 40%nat) = 40%nat ->
  sign fh fuel K S rb msg X = Fin (Ok sig) -> (fh <= fv)%nat ->
  verify fv P msg sig X = Fin (Ok true).
Proof. intros. eapply verify_mono; [eassumption|]. eapply falcon_complete; eassumption. Qed.
Print Assumptions C27_falcon_completeness.

(** a concrete key, sampler and signature for the smallest parameter set *)
Definition ex_f := [2; 1]. Definition ex_g := [3; 2]. Definition ex_F := [-73734; 49156]. Definition ex_G := [-122890; 61445].
Lemma ex_key : ntru_key 2 ex_f ex_g ex_F ex_G.
Proof.
  unfold ntru_key. repeat split. exists [4916; -2458]. split; [reflexivity|].
  intros i Hi. destruct i as [|[|i]]; [vm_compute; exists 1; reflexivity|vm_compute; exists 0; reflexivity|lia].
Qed.
(** z = (1, 0): the lattice point (g, -f) *)
Definition ex_sampler : sampler := fun _ _ => (ex_g, [-2; -1]).
Lemma ex_exact : forall i c, length c = 2%nat -> lattice_point 2 ex_f ex_g ex_F ex_G (fst (ex_sampler i c)) (snd (ex_sampler i c)).
Proof. intros i c _. exists [1; 0], [0; 0]. repeat split. Qed.
Definition ex_xof (w : Z) : xof :=
  mk_xof unit (fun s => s) tt (fun x _ => (x, Ok tt)) (fun x => (x, Ok tt)) (fun x _ => (x, Ok [w / 256; w mod 256])).
Definition ex_K := {| sk_n := 2; sk_f := ex_f; sk_g := ex_g; sk_F := ex_F; sk_G := ex_G; sk_h := [7375; 2458]; sk_bound := 101498; sk_len := 44; sk_logn := 1 |}.
Example C27_nontrivial : SecretKey 2 ex_f ex_g ex_F ex_G = Ok ex_K /\
  sign 5 5 ex_K ex_sampler (fun k => repeat 7 k) [1; 2; 3] (ex_xof 5) = Fin (Ok ([33] ++ repeat 7 40 ++ [2; 128; 192])).
Proof. split; vm_compute; reflexivity. Qed.

(** C28: the outcome of verify in every case *)
Theorem C28_verify_outcome : forall n h P fuel msg sig X, PublicKey n h = Ok P -> length h = n ->
  match decompress (skipn 41 sig) (pk_len P - 41) n with
  | Raise e => verify fuel P msg sig X = Fin (Raise e)
  | Ok None => verify fuel P msg sig X = Fin (Ok false)
  | Ok (Some s1) =>
    match hash_to_point fuel n msg (slice 1 41 sig) X with
    | NoFuel => verify fuel P msg sig X = NoFuel
    | Fin (Raise e) => verify fuel P msg sig X = Fin (Raise e)
    | Fin (Ok c) => exists b, verify fuel P msg sig X = Fin (Ok b) /\
        (b = true <-> exists s0, preimage n h c s0 s1 /\ sqnorm s0 + sqnorm s1 <= pk_bound P) /\
        (forall s0, preimage n h c s0 s1 -> Forall (fun x => -6144 <= x <= 6144) s0 -> b = (sqnorm s0 + sqnorm s1 <=? pk_bound P))
    end
  end.
Proof. exact verify_cases. Qed.
Print Assumptions C28_verify_outcome.
(** True: exactly when the bytes after the salt hold a valid encoding of some s1 for which a short preimage of the hashed point exists *)
Theorem C28_verify_accepts_iff : forall n h P fuel msg sig X, PublicKey n h = Ok P -> length h = n ->
  (verify fuel P msg sig X = Fin (Ok true) <->
   exists s1 w rest c s0, (length (skipn 41 sig) <= pk_len P - 41)%nat /\ length s1 = n /\ encodes_all s1 w /\ bytes_bits (skipn 41 sig) = w ++ rest /\
     hash_to_point fuel n msg (slice 1 41 sig) X = Fin (Ok c) /\ preimage n h c s0 s1 /\ sqnorm s0 + sqnorm s1 <= pk_bound P).
Proof.
  intros n h P fuel msg sig X HP Lh. pose proof (verify_cases n h P fuel msg sig X HP Lh) as V.
  destruct (PublicKey_facts n h P HP) as (b & l & lg & Hp & _). destruct (params_facts _ _ _ _ Hp) as (k & Hk & Hn & _). pose proof (pow_pos' k n Hn) as np.
  assert (DA : forall s1, decompress (skipn 41 sig) (pk_len P - 41) n = Ok (Some s1) <-> (length (skipn 41 sig) <= pk_len P - 41)%nat /\ length s1 = n /\
     exists w rest, encodes_all s1 w /\ bytes_bits (skipn 41 sig) = w ++ rest) by (intros; apply decompress_accepts; lia).
  split.
  - intros E. destruct (decompress (skipn 41 sig) (pk_len P - 41) n) as [[s1|]|e] eqn:ED; [|rewrite V in E; discriminate..].
    destruct (proj1 (DA s1) eq_refl) as (D1 & D2 & w & rest & D3 & D4).
    destruct (hash_to_point fuel n msg (slice 1 41 sig) X) as [[c|e]|] eqn:EH; [|rewrite V in E; discriminate..].
    destruct V as (bb & V & Vt & _). rewrite V in E. assert (bb = true) by congruence. destruct (proj1 Vt H) as (s0 & P0 & B0). exists s1, w, rest, c, s0. auto 10.
  - intros (s1 & w & rest & c & s0 & D1 & D2 & D3 & D4 & EH & P0 & B0).
    rewrite (proj2 (DA s1)) in V by (split; [exact D1|split; [exact D2|exists w, rest; auto]]). rewrite EH in V.
    destruct V as (bb & -> & Vt & _). f_equal. f_equal. apply Vt. exists s0. auto.
Qed.
Print Assumptions C28_verify_accepts_iff.
(** the verdict does not change with the time allowed *)
Theorem C28_verdict_stable : forall fuel fuel' P msg sig X r, (fuel <= fuel')%nat -> verify fuel P msg sig X = Fin r -> verify fuel' P msg sig X = Fin r.
Proof. exact verify_mono. Qed.
Print Assumptions C28_verdict_stable.
Definition ex_pub := {| pk_n := 2; pk_h := [7375; 2458]; pk_bound := 101498; pk_len := 44 |}.
Example C28_nontrivial : PublicKey 2 [7375; 2458] = Ok ex_pub /\
  verify 5 ex_pub [1; 2; 3] ([33] ++ repeat 7 40 ++ [2; 128; 192]) (ex_xof 5) = Fin (Ok true) /\
  verify 5 ex_pub [1; 2; 3] ([33] ++ repeat 7 40 ++ [3; 128; 192]) (ex_xof 5) = Fin (Ok false) /\
  verify 5 ex_pub [1; 2; 3] ([33] ++ repeat 7 40 ++ [2; 128; 192; 0]) (ex_xof 5) = Fin (Ok false) /\
  verify 5 ex_pub [1; 2; 3] ([33] ++ repeat 7 40 ++ [0]) (ex_xof 5) = Fin (Raise IndexError).
Proof. repeat split; vm_compute; reflexivity. Qed.

(** C29 *)
Theorem C29_signature_format : forall n f g F G K S fh fuel rb msg X sig,
  SecretKey n f g F G = Ok K -> length (rb 40%nat) = 40%nat -> sign fh fuel K S rb msg X = Fin (Ok sig) ->
  exists k b l enc j c s0 s1, n = (2 ^ k)%nat /\ params n = Ok (b, l, Z.of_nat k) /\
    sig = [32 + Z.of_nat k] ++ rb 40%nat ++ enc /\ length sig = l /\ Forall (fun x => 0 <= x < 256) enc /\
    hash_to_point fh n msg (rb 40%nat) X = Fin (Ok c) /\
    sample_preimage S j c = Ok (s0, s1) /\ compress s1 (l - 41) = Some enc /\ sqnorm s0 + sqnorm s1 <= b.
Proof.
  intros n f g F G K S fh fuel rb msg X sig HK Hrb E. destruct (SecretKey_facts _ _ _ _ _ _ HK) as (b & l & lg & h & Hpar & _ & _ & _ & _ & _ & ->).
  destruct (params_facts _ _ _ _ Hpar) as (k & Hk & Hn & Hlg & Hl & _). subst lg.
  apply sign_result in E. cbn [sk_n sk_bound sk_len sk_logn] in E. destruct E as (c & j & s0 & s1 & enc & EH & ES & EN & EC & ->).
  destruct (compress_some_bits _ _ _ EC) as (B & L & _). exists k, b, l, enc, j, c, s0, s1. repeat split; auto.
  rewrite !app_length, Hrb, L. cbn [length]. lia.
Qed.
Print Assumptions C29_signature_format.
Example C29_falcon512 : params 512 = Ok (34034726, Z.to_nat 666, 9) /\ params 1024 = Ok (70265242, Z.to_nat 1280, 10) /\ params 3 = Raise KeyError.
Proof. repeat split; vm_compute; reflexivity. Qed.

(** C30 *)
Theorem C30_header_ignored : forall fuel P msg x y sig X, verify fuel P msg (x :: sig) X = verify fuel P msg (y :: sig) X.
Proof. reflexivity. Qed.
Print Assumptions C30_header_ignored.
Theorem C30_recovery_header_ignored : forall H fuel n pk P msg x y sig X, (1 <= n)%nat -> RecoveryModePublicKey n pk = Ok P ->
  recover H fuel P msg (x :: sig) X = recover H fuel P msg (y :: sig) X /\ ep_recover H fuel P msg (x :: sig) X = ep_recover H fuel P msg (y :: sig) X.
Proof. exact recover_header. Qed.
Print Assumptions C30_recovery_header_ignored.
(** nor is the total length fixed: a final zero byte may be dropped *)
Theorem C30_trailing_zero_dropped : forall fuel P msg sig X, (41 <= length sig < pk_len P)%nat ->
  verify fuel P msg (sig ++ [0]) X = verify fuel P msg sig X.
Proof.
  intros fuel P msg sig X L. unfold verify. change (HEAD_LEN + SALT_LEN)%nat with 41%nat. change HEAD_LEN with 1%nat. change SALT_LEN with 40%nat.
  replace (slice 1 41 (sig ++ [0])) with (slice 1 41 sig).
  - rewrite skipn_app. replace (41 - length sig)%nat with 0%nat by lia. change (skipn 0 [0]) with [0]. rewrite decompress_trailing; [reflexivity|]. rewrite skipn_length. lia.
  - unfold slice. rewrite skipn_app, firstn_app. replace (41 - 1 - length (skipn 1 sig))%nat with 0%nat by (rewrite skipn_length; lia). cbn [firstn]. now rewrite app_nil_r.
Qed.
Print Assumptions C30_trailing_zero_dropped.
(** so the signature a user receives is not the only one that verifies *)
Theorem C30_strong_unforgeability_refuted : exists n h P msg sig sig' X, PublicKey n h = Ok P /\ sig <> sig' /\
  verify 5 P msg sig X = Fin (Ok true) /\ verify 5 P msg sig' X = Fin (Ok true).
Proof.
  exists 2%nat, [7375; 2458], ex_pub, [1; 2; 3], ([33] ++ repeat 7 40 ++ [2; 128; 192]), ([0] ++ repeat 7 40 ++ [2; 128; 192]), (ex_xof 5).
  split; [vm_compute; reflexivity|]. split; [discriminate|]. split; vm_compute; reflexivity.
Qed.

(** C31 *)
Theorem C31_public_key : forall n f g F G K, SecretKey n f g F G = Ok K ->
  public_of n f g (sk_h K) /\ forall h, public_of n f g h -> h = sk_h K.
Proof.
  intros n f g F G K HK. destruct (SecretKey_facts _ _ _ _ _ _ HK) as (b & l & lg & h & Hpar & Lf & Lg & _ & _ & D & ->). cbn [sk_h].
  destruct (params_facts _ _ _ _ Hpar) as (k & Hk & Hn & _). now apply (div_public k).
Qed.
Print Assumptions C31_public_key.
Theorem C31_construction : forall n f g F G b l lg, params n = Ok (b, l, lg) -> length f = n -> length g = n -> length F = n -> length G = n ->
  (unit_mod n f -> exists K, SecretKey n f g F G = Ok K) /\
  (~ unit_mod n f -> SecretKey n f g F G = Raise ZeroDivisionError).
Proof. exact SecretKey_cases. Qed.
Print Assumptions C31_construction.
Example C31_nontrivial : (exists K, SecretKey 2 ex_f ex_g ex_F ex_G = Ok K) /\ SecretKey 2 [0; 12289] [1; 2] [3; 4] [5; 6] = Raise ZeroDivisionError.
Proof. split; [exists ex_K|]; vm_compute; reflexivity. Qed.

(** C32, C34 *)
Theorem C32_recovery_completeness : forall H n f g F G K P S fh fuel fv rb msg X sig,
  ntru_key n f g F G -> SecretKey n f g F G = Ok K -> RecoveryModePublicKey n (rec_pk H K) = Ok P ->
  (forall i c, length c = n -> lattice_point n f g F G (fst (S i c)) (snd (S i c))) -> length (rb 40%nat) = 40%nat ->
  rec_sign fh fuel K S rb msg X = Fin (Ok sig) -> (fh <= fv)%nat ->
  recover H fv P msg sig X = Fin (Ok (Some (rec_pk H K))) /\ rec_verify H fv P msg sig X = Fin (Ok true).
Proof.
  intros H n f g F G K P S fh fuel fv rb msg X sig NK HK HP HS Hrb E Hf.
  assert (R : recover H fv P msg sig X = Fin (Ok (Some (rec_pk H K)))).
  { apply (recover_mono H fh); auto. apply (rec_complete H n f g F G K _ P S fh fuel rb msg X sig NK HK HP HS Hrb E). }
  split; auto. unfold rec_verify. rewrite R. cbn [fbind py_eq]. destruct (rp_facts _ _ _ HP) as (b & l & lg & _ & ->). cbn [rp_pk]. now rewrite Z.eqb_refl.
Qed.
Print Assumptions C32_recovery_completeness.
Theorem C34_epervier_completeness : forall H n f g F G K P S fh fuel fv rb msg X sig,
  ntru_key n f g F G -> SecretKey n f g F G = Ok K -> RecoveryModePublicKey n (ep_pk H K) = Ok P ->
  (forall i c, length c = n -> lattice_point n f g F G (fst (S i c)) (snd (S i c))) -> length (rb 40%nat) = 40%nat ->
  rec_sign fh fuel K S rb msg X = Fin (Ok sig) -> (fh <= fv)%nat ->
  ep_recover H fv P msg sig X = Fin (Ok (Some (ep_pk H K))) /\ ep_verify H fv P msg sig X = Fin (Ok true).
Proof.
  intros H n f g F G K P S fh fuel fv rb msg X sig NK HK HP HS Hrb E Hf.
  assert (R : ep_recover H fv P msg sig X = Fin (Ok (Some (ep_pk H K)))).
  { apply (ep_recover_mono H fh); auto. apply (rec_complete H n f g F G K _ P S fh fuel rb msg X sig NK HK HP HS Hrb E). }
  split; auto. unfold ep_verify. rewrite R. cbn [fbind py_eq]. destruct (rp_facts _ _ _ HP) as (b & l & lg & _ & ->). cbn [rp_pk]. now rewrite Z.eqb_refl.
Qed.
Print Assumptions C34_epervier_completeness.
Definition ex_sig := [49] ++ repeat 7 40 ++ (match compress [2; 3; 2; 1] 47 with Some e => e | None => [] end) ++ flat_map (to_be 3) (map inv_q (ntt [2; 1])).
Example C32_nontrivial : rec_sign 5 5 ex_K ex_sampler (fun k => repeat 7 k) [1; 2; 3] (ex_xof 5) = Fin (Ok ex_sig) /\ length ex_sig = 94%nat.
Proof. split; vm_compute; reflexivity. Qed.

(** C33, C35: an address is returned exactly for short preimages, and it is the address of the unique public key they determine *)
Theorem C33_recovery_soundness : forall H n pk P fuel msg sig X a, RecoveryModePublicKey n pk = Ok P -> recover H fuel P msg sig X = Fin (Ok (Some a)) ->
  exists c s0 s1 h, hash_to_point fuel n msg (slice 1 41 sig) X = Fin (Ok c) /\
    decompress (slice 41 (length sig - 3 * n) sig) (2 * rp_len P - 41) (2 * n) = Ok (Some (s0 ++ s1)) /\
    sqnorm s0 + sqnorm s1 <= rp_bound P /\ unit_mod n s1 /\
    (length h = n /\ Forall (fun x => 0 <= x < 12289) h /\ preimage n h c s0 s1) /\
    (forall h', length h' = n -> Forall (fun x => 0 <= x < 12289) h' -> preimage n h' c s0 s1 -> h' = h) /\
    a = address H h.
Proof.
  intros H n pk P fuel msg sig X a HP E. apply (proj1 (recover_iff H n pk P fuel msg sig X a HP)) in E.
  destruct E as (c & s0 & s1 & h & EH & (D & B & U & Pr & Lh & Ch & _) & ->). exists c, s0, s1, h. repeat (split; [now auto|]). split; [|reflexivity].
  intros h' Lh' Ch' P'. destruct (rp_facts _ _ _ HP) as (b & l & lg & Hp & _). destruct (params_facts _ _ _ _ Hp) as (k & _ & Hn & _).
  apply (recovered_unique n c s0 s1); auto. now apply (pow_pos' k).
Qed.
Print Assumptions C33_recovery_soundness.
Theorem C33_recovery_iff : forall H n pk P fuel msg sig X a, RecoveryModePublicKey n pk = Ok P ->
  (recover H fuel P msg sig X = Fin (Ok (Some a)) <->
   exists c s0 s1 h, hash_to_point fuel n msg (slice 1 41 sig) X = Fin (Ok c) /\ recoverable n (rp_bound P) (rp_len P) sig c s0 s1 h /\ a = address H h).
Proof. intros. now apply (recover_iff H n pk). Qed.
Print Assumptions C33_recovery_iff.
Theorem C35_epervier_soundness : forall H n pk P fuel msg sig X a, RecoveryModePublicKey n pk = Ok P -> ep_recover H fuel P msg sig X = Fin (Ok (Some a)) ->
  exists c s0 s1 h, hash_to_point fuel n msg (slice 1 41 sig) X = Fin (Ok c) /\
    decompress (slice 41 (length sig - 3 * n) sig) (2 * rp_len P - 41) (2 * n) = Ok (Some (s0 ++ s1)) /\
    sqnorm s0 + sqnorm s1 <= rp_bound P /\ unit_mod n s1 /\
    (length h = n /\ Forall (fun x => 0 <= x < 12289) h /\ preimage n h c s0 s1) /\
    (forall h', length h' = n -> Forall (fun x => 0 <= x < 12289) h' -> preimage n h' c s0 s1 -> h' = h) /\
    a = address H (ntt h).
Proof.
  intros H n pk P fuel msg sig X a HP E. apply (proj2 (recover_iff H n pk P fuel msg sig X a HP)) in E.
  destruct E as (c & s0 & s1 & h & EH & (D & B & U & Pr & Lh & Ch & _) & ->). exists c, s0, s1, h. repeat (split; [now auto|]). split; [|reflexivity].
  intros h' Lh' Ch' P'. destruct (rp_facts _ _ _ HP) as (b & l & lg & Hp & _). destruct (params_facts _ _ _ _ Hp) as (k & _ & Hn & _).
  apply (recovered_unique n c s0 s1); auto. now apply (pow_pos' k).
Qed.
Print Assumptions C35_epervier_soundness.
Theorem C35_epervier_iff : forall H n pk P fuel msg sig X a, RecoveryModePublicKey n pk = Ok P ->
  (ep_recover H fuel P msg sig X = Fin (Ok (Some a)) <->
   exists c s0 s1 h, hash_to_point fuel n msg (slice 1 41 sig) X = Fin (Ok c) /\ recoverable n (rp_bound P) (rp_len P) sig c s0 s1 h /\ a = address H (ntt h)).
Proof. intros. now apply (recover_iff H n pk). Qed.
Print Assumptions C35_epervier_iff.
Definition ex_P := {| rp_n := 2; rp_pk := 0; rp_bound := 101498; rp_len := 44 |}.
Example C33_nontrivial : RecoveryModePublicKey 2 0 = Ok ex_P /\
  recover (fun x => x) 5 ex_P [1; 2; 3] ex_sig (ex_xof 5) = Fin (Ok (Some (address (fun x => x) [7375; 2458]))).
Proof. split; vm_compute; reflexivity. Qed.

(** C36 *)
Theorem C36_nonzero_key : forall H fuel n pk P msg sig X, RecoveryModePublicKey n pk = Ok P -> pk <> 0 ->
  (rec_verify H fuel P msg sig X = Fin (Ok true) <-> recover H fuel P msg sig X = Fin (Ok (Some pk))) /\
  (ep_verify H fuel P msg sig X = Fin (Ok true) <-> ep_recover H fuel P msg sig X = Fin (Ok (Some pk))).
Proof.
  intros H fuel n pk P msg sig X HP Hpk. destruct (rp_facts _ _ _ HP) as (b & l & lg & _ & ->). unfold rec_verify, ep_verify. cbn [rp_pk].
  split; [destruct (recover H fuel _ msg sig X) as [[[a|]|]|]|destruct (ep_recover H fuel _ msg sig X) as [[[a|]|]|]]; cbn [fbind py_eq]; split; intros E; try discriminate;
    try (assert (E' : (a =? pk) = true) by congruence; apply Z.eqb_eq in E'; subst; reflexivity); try (assert (a = pk) by congruence; subst; now rewrite Z.eqb_refl).
  all: assert (E' : (0 =? pk) = true) by congruence; apply Z.eqb_eq in E'; congruence.
Qed.
Print Assumptions C36_nonzero_key.
(** with the key 0, every signature on which recover fails is reported valid *)
Theorem C36_zero_key : forall H fuel n P msg sig X, RecoveryModePublicKey n 0 = Ok P ->
  (recover H fuel P msg sig X = Fin (Ok None) -> rec_verify H fuel P msg sig X = Fin (Ok true)) /\
  (ep_recover H fuel P msg sig X = Fin (Ok None) -> ep_verify H fuel P msg sig X = Fin (Ok true)).
Proof.
  intros H fuel n P msg sig X HP. destruct (rp_facts _ _ _ HP) as (b & l & lg & _ & ->). unfold rec_verify, ep_verify. cbn [rp_pk].
  split; intros ->; reflexivity.
Qed.
Print Assumptions C36_zero_key.
(** ... in particular any overlong byte string, for any message *)
Theorem C36_zero_key_accepts_garbage_refuted : forall H fuel n P msg sig X, RecoveryModePublicKey n 0 = Ok P -> (2 * rp_len P + 3 * n < length sig)%nat ->
  rec_verify H fuel P msg sig X = Fin (Ok true) /\ ep_verify H fuel P msg sig X = Fin (Ok true).
Proof.
  intros H fuel n P msg sig X HP L. assert (R : recover H fuel P msg sig X = Fin (Ok None) /\ ep_recover H fuel P msg sig X = Fin (Ok None)).
  { destruct (rp_facts _ _ _ HP) as (b & l & lg & Hp & ->). cbn [rp_len] in L. destruct (params_facts _ _ _ _ Hp) as (k & _ & _ & _ & Hl & _).
    unfold recover, ep_recover. cbn [rp_n rp_bound rp_len]. rewrite recover_overlong by lia. split; reflexivity. }
  split; apply (C36_zero_key H fuel n P msg sig X HP); apply R.
Qed.
Print Assumptions C36_zero_key_accepts_garbage_refuted.
Example C36_nontrivial : exists P, RecoveryModePublicKey 512 0 = Ok P.
Proof. eexists. vm_compute. reflexivity. Qed.

(** C37 *)
Theorem C37_hint_malleable : forall H n pk P fuel msg p xs ys X, RecoveryModePublicKey n pk = Ok P -> length xs = n -> length ys = n ->
  Forall (fun x => 0 <= x < 2 ^ 24) xs -> Forall (fun x => 0 <= x < 2 ^ 24) ys -> pcong n 12289 xs ys -> (41 <= length p)%nat ->
  forall a, (recover H fuel P msg (p ++ flat_map (to_be 3) xs) X = Fin (Ok (Some a)) -> recover H fuel P msg (p ++ flat_map (to_be 3) ys) X = Fin (Ok (Some a))) /\
    (ep_recover H fuel P msg (p ++ flat_map (to_be 3) xs) X = Fin (Ok (Some a)) -> ep_recover H fuel P msg (p ++ flat_map (to_be 3) ys) X = Fin (Ok (Some a))).
Proof. exact hint_malleable. Qed.
Print Assumptions C37_hint_malleable.
(** every signature returned by sign can be altered without the key *)
Theorem C37_every_signature_malleable : forall H n f g F G K P S fh fuel rb msg X sig,
  ntru_key n f g F G -> SecretKey n f g F G = Ok K -> RecoveryModePublicKey n (rec_pk H K) = Ok P ->
  (forall i c, length c = n -> lattice_point n f g F G (fst (S i c)) (snd (S i c))) -> length (rb 40%nat) = 40%nat ->
  rec_sign fh fuel K S rb msg X = Fin (Ok sig) ->
  exists sig', sig' <> sig /\ length sig' = length sig /\ slice 0 (length sig - 3 * n) sig' = slice 0 (length sig - 3 * n) sig /\
    recover H fh P msg sig' X = Fin (Ok (Some (rec_pk H K))) /\ ep_recover H fh P msg sig' X = Fin (Ok (Some (ep_pk H K))).
Proof.
  intros H n f g F G K P S fh fuel rb msg X sig NK HK HP HS Hrb E.
  destruct (rec_complete H n f g F G K _ P S fh fuel rb msg X sig NK HK HP HS Hrb E) as [R1 R2].
  destruct (SecretKey_facts _ _ _ _ _ _ HK) as (b & l & lg & h & Hpar & Lf & Lg & LF & LG & D & EK). destruct (params_facts _ _ _ _ Hpar) as (k & Hk & Hn & _ & Hl & _).
  pose proof (pow_pos' k n Hn) as np. apply rec_sign_result in E. destruct E as (c & j & s0 & s1 & enc & inv & EH & ES & EI & EN & EC & EV & ->).
  assert (Hn' : sk_n K = n) by (rewrite EK; reflexivity). rewrite Hn' in EH. destruct (h2p_facts _ _ _ _ _ _ EH) as [Lc _].
  destruct (HS j c Lc) as (z0 & z1 & _ & _ & V0 & V1). rewrite (sample_always n) in ES by (auto; rewrite V0; apply NtruProofs.padd_length).
  assert (Es1 : s1 = neg (snd (S j c))) by congruence. assert (L1 : length s1 = n) by (rewrite Es1; unfold neg; rewrite map_length, V1; apply NtruProofs.psub_length).
  pose proof (poly_inverse_ntt k Hk n Hn s1 inv L1 EV) as NI.
  assert (LI : length (ntt inv) = n) by (rewrite NI, map_length; now apply (ntt_length k Hk n Hn)).
  assert (CI : canonq (ntt inv)) by (rewrite NI; apply Forall_forall; intros x Hx; apply in_map_iff in Hx; destruct Hx as (y & <- & _); apply inv_q_range).
  set (p := [48 + sk_logn K] ++ rb 40%nat ++ enc) in *.
  set (ys := map (fun x => x + 12289) (ntt inv)).
  replace ([48 + sk_logn K] ++ rb 40%nat ++ enc ++ flat_map (to_be 3) (ntt inv)) with (p ++ flat_map (to_be 3) (ntt inv)) in * by (unfold p; now rewrite !app_assoc).
  assert (Ly : length ys = n) by (unfold ys; now rewrite map_length).
  assert (Ry : Forall (fun x => 0 <= x < 2 ^ 24) ys).
  { apply Forall_forall. intros x Hx. apply in_map_iff in Hx. destruct Hx as (y & <- & Hy). unfold canonq in CI. rewrite Forall_forall in CI. specialize (CI y Hy). change (2 ^ 24) with 16777216. lia. }
  assert (LB : forall zs, length zs = n -> length (flat_map (to_be 3) zs) = (3 * n)%nat) by (intros zs Lz; rewrite (flat_map_length_const (to_be 3) 3) by apply to_be_length; lia).
  assert (Cg : pcong n 12289 (ntt inv) ys).
  { intros i Hi. unfold coef, ys. rewrite NttProofs.nth_map0 by lia. exists (-1). ring. }
  exists (p ++ flat_map (to_be 3) ys). split; [|split; [|split]].
  - intros Eq. apply app_inv_head in Eq. assert (Ey : ys = ntt inv) by (rewrite <- (hint_of_app n [] ys Ly Ry), <- (hint_of_app n [] (ntt inv) LI (canonq_24 _ CI)), Eq; reflexivity).
    apply (f_equal (fun l => nth 0 l 0)) in Ey. unfold ys in Ey. rewrite NttProofs.nth_map0 in Ey by lia. lia.
  - rewrite !app_length, !LB by auto. reflexivity.
  - rewrite app_length, LB by auto. replace (length p + 3 * n - 3 * n)%nat with (length p) by lia. unfold slice. rewrite Nat.sub_0_r. cbn [skipn]. now rewrite !firstn_len.
  - assert (Lp : (41 <= length p)%nat) by (unfold p; rewrite !app_length, Hrb; cbn [length]; lia).
    destruct (hint_malleable H n _ P fh msg p (ntt inv) ys X HP LI Ly (canonq_24 _ CI) Ry Cg Lp (rec_pk H K)) as [M1 _].
    destruct (hint_malleable H n _ P fh msg p (ntt inv) ys X HP LI Ly (canonq_24 _ CI) Ry Cg Lp (ep_pk H K)) as [_ M2].
    split; [exact (M1 R1)|exact (M2 R2)].
Qed.
Print Assumptions C37_every_signature_malleable.
Example C37_nontrivial : RecoveryModePublicKey 2 0 = Ok ex_P /\ (41 <= length (firstn 88 ex_sig))%nat /\
  ep_recover (fun x => x) 5 ex_P [1; 2; 3] ex_sig (ex_xof 5) = Fin (Ok (Some (address (fun x => x) (ntt [7375; 2458])))).
Proof. split; [|split]; [vm_compute; reflexivity|vm_compute; lia|vm_compute; reflexivity]. Qed.
