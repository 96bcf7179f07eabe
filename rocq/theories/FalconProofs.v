(** Proofs about FalconModel.v. *)
From Verif Require Import Base HashModel HashSpec HashProofs KeccakModel PrngModel EncodingModel EncodingSpec EncodingProofs RingSpec Ring NtruModel PolyProofs NtruProofs
  NttProofs NttApi PolyModel PolyModelProofs FalconModel FalconSpec.
Require Import Coq.setoid_ring.Ring Setoid Morphisms.

(** ** parameters *)
Lemma params_facts n b l lg : params n = Ok (b, l, lg) ->
  exists k, (1 <= k <= 10)%nat /\ n = (2 ^ k)%nat /\ lg = Z.of_nat k /\ (41 < l)%nat /\ 0 < b.
Proof.
  unfold params. destruct (find _ ParamTable) as [[key [[b' l'] lg']]|] eqn:E; [|discriminate].
  intros H. assert (Hb : b' = b) by congruence. assert (Hl : Z.to_nat l' = l) by congruence. assert (Hlg : lg' = lg) by congruence.
  subst b' l lg'. clear H. apply find_some in E. destruct E as [HI E]. apply Z.eqb_eq in E. cbn [fst] in E.
  assert (G : forall k, Z.of_nat n = 2 ^ Z.of_nat k -> n = (2 ^ k)%nat)
    by (intros k H; apply Nat2Z.inj; rewrite H, Nat2Z.inj_pow; reflexivity).
  unfold ParamTable in HI. destruct HI as [HI|[HI|[HI|[HI|[HI|[HI|[HI|[HI|[HI|[HI|[]]]]]]]]]]]; injection HI as <- <- <- <-.
  - exists 1%nat. repeat split; try lia; apply G; rewrite <- E; reflexivity.
  - exists 2%nat. repeat split; try lia; apply G; rewrite <- E; reflexivity.
  - exists 3%nat. repeat split; try lia; apply G; rewrite <- E; reflexivity.
  - exists 4%nat. repeat split; try lia; apply G; rewrite <- E; reflexivity.
  - exists 5%nat. repeat split; try lia; apply G; rewrite <- E; reflexivity.
  - exists 6%nat. repeat split; try lia; apply G; rewrite <- E; reflexivity.
  - exists 7%nat. repeat split; try lia; apply G; rewrite <- E; reflexivity.
  - exists 8%nat. repeat split; try lia; apply G; rewrite <- E; reflexivity.
  - exists 9%nat. repeat split; try lia; apply G; rewrite <- E; reflexivity.
  - exists 10%nat. repeat split; try lia; apply G; rewrite <- E; reflexivity.
Qed.

(** ** norms and centring *)
Lemma sumsq_acc v : forall a, fold_left (fun a c => a + c * c) v a = a + sqnorm v.
Proof. induction v as [|c v IH]; intros a; cbn [fold_left sqnorm fold_right]; [lia|]. rewrite IH. unfold sqnorm. ring. Qed.
Lemma sumsq_spec v : sumsq v = sqnorm v.
Proof. unfold sumsq. rewrite sumsq_acc. ring. Qed.
Lemma sqnorm_nonneg v : 0 <= sqnorm v.
Proof. induction v as [|c v IH]; cbn [sqnorm fold_right]; [lia|]. unfold sqnorm in IH. pose proof (Z.square_nonneg c). lia. Qed.
Lemma centre_eq c : centre c = (c + 6144) mod 12289 - 6144. Proof. reflexivity. Qed.
Lemma centre_range c : -6144 <= centre c <= 6144.
Proof. rewrite centre_eq. pose proof (Z.mod_pos_bound (c + 6144) 12289 ltac:(lia)). lia. Qed.
Lemma centre_cong c : (12289 | centre c - c).
Proof. rewrite centre_eq. exists (- ((c + 6144) / 12289)). rewrite (Z.mod_eq (c + 6144)) by lia. ring. Qed.
Lemma centre_unique c x : (12289 | x - c) -> -6144 <= x <= 6144 -> x = centre c.
Proof. intros [a Ha] Hx. pose proof (centre_range c). destruct (centre_cong c) as [b Hb]. assert (x - centre c = (a - b) * 12289) by lia. nia. Qed.
Lemma centre_min c x : (12289 | x - c) -> centre c ^ 2 <= x ^ 2.
Proof.
  intros [a Ha]. pose proof (centre_range c). destruct (centre_cong c) as [b Hb].
  assert (E : x = centre c + (a - b) * 12289) by lia. destruct (Z.eq_dec a b) as [->|].
  - replace x with (centre c) by lia. lia.
  - assert (6145 <= Z.abs x) by nia. assert (Z.abs (centre c) <= 6144) by lia.
    nia.
Qed.
Lemma sqnorm_le a b : length a = length b -> (forall i, (i < length a)%nat -> nth i a 0 ^ 2 <= nth i b 0 ^ 2) -> sqnorm a <= sqnorm b.
Proof.
  revert b. induction a as [|x a IH]; intros [|y b] L H; try (now cbn [length] in L); cbn [sqnorm fold_right].
  pose proof (H 0%nat ltac:(cbn [length]; lia)) as H0. cbn [nth] in H0.
  assert (I : sqnorm a <= sqnorm b) by (apply IH; [cbn [length] in L; lia|intros i Hi; apply (H (S i)); cbn [length]; lia]).
  unfold sqnorm in I. lia.
Qed.

(** ** congruence *)
Lemma pcong_req n m a b : pcong n m a b <-> req n m (fl a) (fl b).
Proof.
  split; intros H i Hi.
  - unfold fl. apply H. lia.
  - specialize (H (Z.of_nat i) ltac:(lia)). unfold fl in H. now rewrite Nat2Z.id in H.
Qed.
Lemma pcong_mod n a b : length a = n -> length b = n -> (pcong n 12289 a b <-> mod_q a = mod_q b).
Proof.
  intros La Lb. split.
  - intros H. apply list_eq_nth; [rewrite !mod_q_length; congruence|]. rewrite mod_q_length. intros i Hi. rewrite !mod_q_nth.
    destruct (H i ltac:(lia)) as [c Hc]. unfold coef in Hc. replace (nth i a 0) with (nth i b 0 + c * 12289) by lia. apply Z.mod_add. lia.
  - intros H i Hi. apply (f_equal (fun l => nth i l 0)) in H. rewrite !mod_q_nth in H. unfold coef.
    exists (nth i a 0 / 12289 - nth i b 0 / 12289). rewrite (Z.div_mod (nth i a 0) 12289), (Z.div_mod (nth i b 0) 12289) at 1 by lia. lia.
Qed.
Lemma pcong_refl n m a : pcong n m a a. Proof. rewrite pcong_req. reflexivity. Qed.
Lemma pcong_sym n m a b : pcong n m a b -> pcong n m b a. Proof. rewrite !pcong_req. intros H. now symmetry. Qed.
Lemma pcong_trans n m a b c : pcong n m a b -> pcong n m b c -> pcong n m a c. Proof. rewrite !pcong_req. intros H1 H2. now rewrite H1. Qed.
Lemma mod_q_pcong n a : pcong n 12289 (mod_q a) a.
Proof.
  intros i Hi. unfold coef. rewrite mod_q_nth. exists (- (nth i a 0 / 12289)). rewrite Z.mod_eq by lia. ring.
Qed.
Lemma eqm_pcong n a b : mod_q a = mod_q b -> pcong n 12289 a b.
Proof. intros E. apply (pcong_trans n _ _ (mod_q a)); [apply pcong_sym, mod_q_pcong|]. rewrite E. apply mod_q_pcong. Qed.
Lemma pcong_canon n a b : length a = n -> length b = n -> canonq a -> canonq b -> pcong n 12289 a b -> a = b.
Proof. intros La Lb Ca Cb H. apply (pcong_mod n a b La Lb) in H. now rewrite !mod_q_id in H. Qed.

Lemma map_centre_pcong n a : pcong n 12289 (map centre a) a.
Proof.
  intros i _. unfold coef. change 0 with (centre 0) at 1. rewrite map_nth. apply centre_cong.
Qed.

(** ** lists *)
Lemma firstn_len {A} k (a b : list A) : length a = k -> firstn k (a ++ b) = a.
Proof. intros <-. rewrite firstn_app, firstn_all, Nat.sub_diag. cbn [firstn]. apply app_nil_r. Qed.
Lemma skipn_len {A} k (a b : list A) : length a = k -> skipn k (a ++ b) = b.
Proof. intros <-. rewrite skipn_app, skipn_all, Nat.sub_diag. reflexivity. Qed.
Lemma slice_app_1 (h : Z) (salt enc : list Z) : length salt = 40%nat -> slice HEAD_LEN (HEAD_LEN + SALT_LEN) ([h] ++ salt ++ enc) = salt.
Proof. intros L. apply (firstn_len 40 salt enc L). Qed.
Lemma skipn_app_1 (h : Z) (salt enc : list Z) : length salt = 40%nat -> skipn (HEAD_LEN + SALT_LEN) ([h] ++ salt ++ enc) = enc.
Proof. intros L. apply (skipn_len 40 salt enc L). Qed.

(** ** hash_to_point returns n coefficients in [0, q) *)
Lemma h2p_loop_facts X n : forall fuel x out v, h2p_loop X fuel n x out = Fin (Ok v) -> (length out <= n)%nat -> canonq out ->
  length v = n /\ canonq v.
Proof.
  induction fuel as [|fuel IH]; intros x out v; cbn [h2p_loop]; destruct (Nat.ltb_spec (length out) n) as [Hl|Hl]; try discriminate.
  - intros E L C. assert (v = out) by congruence. subst. split; auto. lia.
  - destruct (xread X x 2) as [x' [tb|e]]; [|discriminate]. intros E L C. apply IH in E; auto.
    + destruct (_ <? _); rewrite ?app_length; cbn [length]; lia.
    + destruct (_ <? _); auto. apply Forall_app. split; auto. constructor; auto. apply Z.mod_pos_bound. unfold q. lia.
  - intros E L C. assert (v = out) by congruence. subst. split; auto. lia.
Qed.
Lemma h2p_facts fuel n m salt X c : hash_to_point fuel n m salt X = Fin (Ok c) -> length c = n /\ canonq c.
Proof.
  unfold hash_to_point. destruct (xupdate X (xnew X) (xsalt X salt)) as [x1 [[]|]]; [|discriminate].
  destruct (xupdate X x1 m) as [x2 [[]|]]; [|discriminate]. destruct (xflip X x2) as [x3 [[]|]]; [|discriminate].
  intros E. apply h2p_loop_facts in E; auto; [cbn; lia|constructor].
Qed.

(** ** algebra *)
Section Alg.
Variable n : nat.
Hypothesis npos : (0 < n)%nat.
Local Notation m := 12289.
Local Instance rmulP : Proper (req n m ==> req n m ==> req n m) (rmul n) := rmul_proper n npos m.
Add Ring Rn : (r_theory n npos m) (setoid (req_equiv n m) (r_ext n npos m)).

Lemma rsub_zero A B : req n m (rsub A B) r0 -> req n m A B.
Proof. intros H i Hi. specialize (H i Hi). unfold rsub, r0 in H. now rewrite Z.sub_0_r in H. Qed.
Lemma unit_cancel u f x : length u = n -> length f = n -> pcong n m (negmul n u f) (pconst n 1) ->
  req n m (rmul n (fl f) x) r0 -> req n m x r0.
Proof.
  intros Lu Lf U H. rewrite pcong_req, fl_mul_req, fl_pconst in U by lia.
  transitivity (rmul n (rmul n (fl u) (fl f)) x).
  - rewrite U. change (rc 1) with r1. ring.
  - rewrite <- (Radd_0_l (r_theory n npos m) r0) at 1.
    transitivity (rmul n (fl u) (rmul n (fl f) x)); [ring|]. rewrite H. ring.
Qed.
Lemma rc_q : req n m (rc 12289) r0.
Proof. intros i _. unfold rc, r0. destruct (i =? 0); [exists 1|exists 0]; ring. Qed.
(** lattice vectors are the kernel of (s0, s1) |-> s0 + s1*h *)
Lemma preimage_of_lattice f g F G h c v0 v1 : ntru_key n f g F G -> public_of n f g h -> lattice_point n f g F G v0 v1 -> length c = n ->
  preimage n h c (psub n c v0) (neg v1) /\ length v0 = n /\ length v1 = n.
Proof.
  intros (Lf & Lg & LF & LG & E & u & Lu & U) (Lh & Ch & P) (z0 & z1 & L0 & L1 & E0 & E1) Lc.
  assert (Lv0 : length v0 = n) by (rewrite E0; apply padd_length). assert (Lv1 : length v1 = n) by (rewrite E1; apply psub_length).
  split; [|auto]. unfold preimage, neg. rewrite psub_length, map_length. split; [reflexivity|]. split; [exact Lv1|].
  rewrite pcong_req, padd_req, psub_req, fl_mul_req by (rewrite ?map_length; lia).
  assert (EN : req n m (fl (map (fun x => - x) v1)) (ropp (fl v1))).
  { apply req_eq. intros i Hi. unfold fl, coef, ropp. change 0 with (- 0) at 1. apply map_nth. }
  rewrite EN.
  assert (Ef : req n m (rmul n (fl h) (fl f)) (fl g)) by (rewrite pcong_req, fl_mul_req in P by lia; exact P).
  assert (EG : req n m (rsub (rmul n (fl f) (fl G)) (rmul n (fl g) (fl F))) r0).
  { rewrite <- rc_q, <- (fl_pconst n m 12289 npos), <- E, psub_req, !fl_mul_req by lia. reflexivity. }
  assert (K : req n m (rsub (fl G) (rmul n (fl F) (fl h))) r0).
  { apply (unit_cancel u f); auto. rewrite <- EG, <- Ef. ring. }
  assert (Ez : req n m (fl (psub n [] (negmul n z0 f))) (ropp (rmul n (fl z0) (fl f)))).
  { rewrite psub_req, fl_mul_req by lia. assert (Z0 : req n m (fl []) r0) by (apply req_eq; intros i _; unfold fl, coef, r0; now destruct (Z.to_nat i)).
    rewrite Z0. ring. }
  rewrite E1, psub_req, fl_mul_req, Ez by lia. rewrite E0, padd_req, !fl_mul_req by lia.
  apply rsub_zero.
  transitivity (rsub (rmul n (fl z0) (rsub (rmul n (fl h) (fl f)) (fl g))) (rmul n (fl z1) (rsub (fl G) (rmul n (fl F) (fl h))))); [ring|].
  rewrite K, Ef. ring.
Qed.
(** s0 + s1*h = c determines h when s1 is invertible *)
Lemma preimage_unique h h' c s0 s1 : preimage n h c s0 s1 -> preimage n h' c s0 s1 -> unit_mod n s1 -> length h = n -> length h' = n ->
  pcong n m h h'.
Proof.
  intros (L0 & L1 & P) (_ & _ & P') (u & Lu & U) Lh Lh'. rewrite pcong_req, padd_req, fl_mul_req in P, P' by lia. apply pcong_req.
  apply rsub_zero. apply (unit_cancel u s1); auto.
  transitivity (rsub (radd (fl s0) (rmul n (fl s1) (fl h))) (radd (fl s0) (rmul n (fl s1) (fl h')))); [ring|]. rewrite P, P'. ring.
Qed.
Lemma preimage_mul_diff h c s0 s1 : length s0 = n -> length s1 = n -> length h = n ->
  (preimage n h c s0 s1 <-> pcong n m (psub n c s0) (negmul n s1 h)).
Proof.
  intros L0 L1 Lh. unfold preimage. rewrite !pcong_req, padd_req, psub_req, fl_mul_req by lia. split.
  - intros (_ & _ & P). rewrite <- P. ring.
  - intros P. split; auto. split; auto. rewrite <- P. ring.
Qed.
Lemma preimage_s0 h c s0 s1 : length s0 = n -> length s1 = n -> length h = n ->
  (preimage n h c s0 s1 <-> pcong n m s0 (psub n c (negmul n s1 h))).
Proof.
  intros L0 L1 Lh. unfold preimage. rewrite !pcong_req, padd_req, psub_req, fl_mul_req by lia. split.
  - intros (_ & _ & P). rewrite <- P. ring.
  - intros P. split; auto. split; auto. rewrite P. ring.
Qed.
End Alg.

(** ** PublicKey.verify *)
Lemma PublicKey_facts n h P : PublicKey n h = Ok P -> exists b l lg, params n = Ok (b, l, lg) /\ P = {| pk_n := n; pk_h := h; pk_bound := b; pk_len := l |}.
Proof.
  unfold PublicKey. destruct (params n) as [[[b l] lg]|] eqn:E; cbn [bind]; [|discriminate]. intros H. exists b, l, lg. split; congruence.
Qed.
Lemma pow_pos' k n : n = (2 ^ k)%nat -> (0 < n)%nat.
Proof. intros ->. pose proof (NttProofs.pow_pos k). lia. Qed.
Definition s0_of (h c s1 : list Z) : list Z := map centre (poly_sub c (poly_mul s1 h)).
Lemma s0_of_facts k n h c s1 : (1 <= k <= 10)%nat -> n = (2 ^ k)%nat -> length h = n -> length s1 = n -> length c = n ->
  preimage n h c (s0_of h c s1) s1 /\ Forall (fun x => -6144 <= x <= 6144) (s0_of h c s1).
Proof.
  intros Hk Hn Lh L1 Lc. split.
  - pose proof (pow_pos' k n Hn) as np. assert (LM : length (poly_mul s1 h) = n) by (rewrite (poly_mul_spec k Hk n Hn) by auto; rewrite mod_q_length; apply negmul_length).
    assert (L0 : length (s0_of h c s1) = n) by (unfold s0_of, poly_sub; rewrite !map_length, seq_length; auto).
    apply preimage_s0; auto. unfold s0_of. eapply pcong_trans; [apply map_centre_pcong|].
    rewrite (poly_sub_spec n) by auto. eapply pcong_trans; [apply mod_q_pcong|]. rewrite (poly_mul_spec k Hk n Hn) by auto.
    apply pcong_req. rewrite !psub_req. apply rsub_req; [reflexivity|]. apply pcong_req, mod_q_pcong.
  - apply Forall_forall. intros x Hx. unfold s0_of in Hx. apply in_map_iff in Hx. destruct Hx as (y & <- & _). apply centre_range.
Qed.
Lemma s0_of_min n h c s0 s1 : length h = n -> (0 < n)%nat -> preimage n h c s0 s1 -> preimage n h c (s0_of h c s1) s1 ->
  Forall (fun x => -6144 <= x <= 6144) (s0_of h c s1) -> sqnorm (s0_of h c s1) <= sqnorm s0.
Proof.
  intros Lh np P P' R. pose proof P as (L0 & L1 & _). pose proof P' as (L0' & _). apply sqnorm_le; [congruence|]. intros i Hi.
  apply preimage_s0 in P; auto. apply preimage_s0 in P'; auto.
  pose proof (pcong_trans _ _ _ _ _ P (pcong_sym _ _ _ _ P')) as C. specialize (C i ltac:(lia)). unfold coef in C.
  rewrite Forall_forall in R. specialize (R (nth i (s0_of h c s1) 0) ltac:(apply nth_In; auto)).
  assert (E : nth i (s0_of h c s1) 0 = centre (nth i (s0_of h c s1) 0)) by (apply centre_unique; auto; rewrite Z.sub_diag; apply Z.divide_0_r).
  rewrite E. apply centre_min. exact C.
Qed.
Lemma s0_of_unique n h c s0 s1 : length h = n -> (0 < n)%nat -> preimage n h c s0 s1 -> preimage n h c (s0_of h c s1) s1 ->
  Forall (fun x => -6144 <= x <= 6144) (s0_of h c s1) -> Forall (fun x => -6144 <= x <= 6144) s0 -> s0 = s0_of h c s1.
Proof.
  intros Lh np P P' R R0. pose proof P as (L0 & L1 & _). pose proof P' as (L0' & _). apply list_eq_nth; [congruence|]. intros i Hi.
  apply preimage_s0 in P; auto. apply preimage_s0 in P'; auto.
  pose proof (pcong_trans _ _ _ _ _ P (pcong_sym _ _ _ _ P')) as C. specialize (C i ltac:(lia)). unfold coef in C.
  rewrite Forall_forall in R, R0. specialize (R (nth i (s0_of h c s1) 0) ltac:(apply nth_In; lia)). specialize (R0 (nth i s0 0) ltac:(apply nth_In; lia)).
  rewrite (centre_unique _ _ C R0). symmetry. apply centre_unique; auto. rewrite Z.sub_diag. apply Z.divide_0_r.
Qed.

(** the outcome of verify, in all cases *)
Theorem verify_cases n h P fuel msg sig X : PublicKey n h = Ok P -> length h = n ->
  match decompress (skipn 41 sig) (pk_len P - 41) n with
  | Raise e => verify fuel P msg sig X = Fin (Raise e)
  | Ok None => verify fuel P msg sig X = Fin (Ok false)
  | Ok (Some s1) =>
    match hash_to_point fuel n msg (slice 1 41 sig) X with
    | NoFuel => verify fuel P msg sig X = NoFuel
    | Fin (Raise e) => verify fuel P msg sig X = Fin (Raise e)
    | Fin (Ok c) => exists b, verify fuel P msg sig X = Fin (Ok b) /\
        (b = true <-> exists s0, preimage n h c s0 s1 /\ sqnorm s0 + sqnorm s1 <= pk_bound P) /\
        (forall s0, preimage n h c s0 s1 -> Forall (fun x => -6144 <= x <= 6144) s0 -> b = (sqnorm s0 + sqnorm s1 <=? pk_bound P))
    end
  end.
Proof.
  intros HP Lh. destruct (PublicKey_facts n h P HP) as (b & l & lg & Hpar & ->). cbn [pk_len pk_bound].
  destruct (params_facts _ _ _ _ Hpar) as (k & Hk & Hn & _ & Hl & _). unfold verify. cbn [pk_n pk_h pk_len pk_bound].
  change (HEAD_LEN + SALT_LEN)%nat with 41%nat. replace (l - HEAD_LEN - SALT_LEN)%nat with (l - 41)%nat by (unfold HEAD_LEN, SALT_LEN; lia).
  change HEAD_LEN with 1%nat. pose proof (pow_pos' k n Hn) as np.
  destruct (decompress (skipn 41 sig) (l - 41) n) as [[s1|]|e] eqn:ED; cbn [fbind lift]; auto.
  destruct (hash_to_point fuel n msg (slice 1 41 sig) X) as [[c|e]|] eqn:EH; cbn [fbind]; auto.
  apply decompress_accepts in ED; [|lia]. destruct ED as (_ & L1 & _). destruct (h2p_facts _ _ _ _ _ _ EH) as [Lc _].
  destruct (s0_of_facts k n h c s1 Hk Hn Lh L1 Lc) as [Pr R]. fold (s0_of h c s1). rewrite !sumsq_spec.
  exists (sqnorm (s0_of h c s1) + sqnorm s1 <=? b). split; [|split].
  - rewrite Z.leb_antisym. destruct (b <? _); reflexivity.
  - rewrite Z.leb_le. split.
    + intros H. exists (s0_of h c s1). auto.
    + intros (s0 & P0 & H). pose proof (s0_of_min n h c s0 s1 Lh np P0 Pr R). lia.
  - intros s0 P0 R0. rewrite (s0_of_unique n h c s0 s1); auto.
Qed.

(** ** SecretKey *)
Lemma SecretKey_facts n f g F G K : SecretKey n f g F G = Ok K ->
  exists b l lg h, params n = Ok (b, l, lg) /\ length f = n /\ length g = n /\ length F = n /\ length G = n /\ poly_div g f = Ok h /\
    K = {| sk_n := n; sk_f := f; sk_g := g; sk_F := F; sk_G := G; sk_h := h; sk_bound := b; sk_len := l; sk_logn := lg |}.
Proof.
  unfold SecretKey. destruct (params n) as [[[b l] lg]|] eqn:E; cbn [bind]; [|discriminate].
  destruct (_ && _) eqn:L; [|discriminate]. destruct (poly_div g f) as [h|] eqn:D; cbn [bind]; [|discriminate].
  intros H. exists b, l, lg, h. repeat rewrite andb_true_iff in L. rewrite !Nat.eqb_eq in L. repeat split; try tauto. congruence.
Qed.
Theorem div_public k n f g h : (1 <= k <= 10)%nat -> n = (2 ^ k)%nat -> length f = n -> length g = n -> poly_div g f = Ok h ->
  public_of n f g h /\ (forall h', public_of n f g h' -> h' = h).
Proof.
  intros Hk Hn Lf Lg E. destruct (poly_div_spec k Hk n Hn g f h Lg Lf E) as (Lh & Ch & M). split.
  - split; [auto|]. split; [exact Ch|]. apply eqm_pcong, M.
  - intros h' (Lh' & Ch' & P). apply (poly_div_unique k Hk n Hn g f h h'); auto. apply (pcong_mod n); auto. apply negmul_length.
Qed.
Lemma unit_iff k n s : (1 <= k <= 10)%nat -> n = (2 ^ k)%nat -> length s = n -> (unit_mod n s <-> invertible s = true).
Proof.
  intros Hk Hn Ls. rewrite (invertible_iff k Hk n Hn s Ls). pose proof (pow_pos' k n Hn) as np.
  assert (C1 : mod_q (pconst n 1) = pconst n 1).
  { apply mod_q_id. unfold pconst. constructor; [lia|]. apply Forall_forall. intros x Hx. apply repeat_spec in Hx. lia. }
  unfold unit_mod. split; intros (u & Lu & U); exists u; split; auto.
  - rewrite <- C1. apply (pcong_mod n); auto; [apply negmul_length|now apply NtruProofs.pconst_length].
  - apply (pcong_mod n); [apply negmul_length|now apply NtruProofs.pconst_length|]. now rewrite C1.
Qed.
Theorem SecretKey_cases n f g F G b l lg : params n = Ok (b, l, lg) -> length f = n -> length g = n -> length F = n -> length G = n ->
  (unit_mod n f -> exists K, SecretKey n f g F G = Ok K) /\
  (~ unit_mod n f -> SecretKey n f g F G = Raise ZeroDivisionError).
Proof.
  intros Hp Lf Lg LF LG. destruct (params_facts _ _ _ _ Hp) as (k & Hk & Hn & _ & _ & _). rewrite (unit_iff k n f Hk Hn Lf).
  unfold SecretKey. rewrite Hp. cbn [bind]. rewrite (proj2 (Nat.eqb_eq _ _) Lf), (proj2 (Nat.eqb_eq _ _) Lg), (proj2 (Nat.eqb_eq _ _) LF), (proj2 (Nat.eqb_eq _ _) LG).
  cbn [andb]. unfold poly_div. destruct (invertible f); cbn [bind]; split; intros H; try congruence; eauto.
Qed.

(** ** sign *)
Lemma sub_ok n c v : length c = n -> length v = n -> sub c v = Ok (psub n c v).
Proof.
  intros Lc Lv. unfold sub, add, neg. rewrite map_length, Lc, Lv, Nat.eqb_refl. f_equal. unfold psub. apply map_ext_in. intros i Hi. apply in_seq in Hi.
  unfold coef. change 0 with (- 0) at 2. rewrite map_nth. lia.
Qed.
Lemma sample_ok n S i c s : length c = n -> length (fst (S i c)) = n -> sample_preimage S i c = Ok s -> s = (psub n c (fst (S i c)), neg (snd (S i c))).
Proof. intros Lc Lv. unfold sample_preimage. destruct (S i c) as [v0 v1]. cbn [fst snd] in *. rewrite (sub_ok n) by auto. cbn [bind]. intros; congruence. Qed.
Lemma sample_always n S i c : length c = n -> length (fst (S i c)) = n -> sample_preimage S i c = Ok (psub n c (fst (S i c)), neg (snd (S i c))).
Proof. intros Lc Lv. unfold sample_preimage. destruct (S i c) as [v0 v1]. cbn [fst snd] in *. rewrite (sub_ok n) by auto. reflexivity. Qed.

(** what a returned signature is *)
Lemma sign_loop_result K S hd salt c : forall fuel i sig, sign_loop fuel K S i hd salt c = Fin (Ok sig) ->
  exists j s0 s1 enc, (i <= j)%nat /\ sample_preimage S j c = Ok (s0, s1) /\ sqnorm s0 + sqnorm s1 <= sk_bound K /\
    compress s1 (sk_len K - 41) = Some enc /\ sig = hd ++ salt ++ enc.
Proof.
  induction fuel as [|fuel IH]; intros i sig; cbn [sign_loop]; [discriminate|].
  destruct (sample_preimage S i c) as [[s0 s1]|] eqn:ES; cbn [fbind lift]; [|discriminate]. cbn [fst snd].
  replace (sk_len K - HEAD_LEN - SALT_LEN)%nat with (sk_len K - 41)%nat by (unfold HEAD_LEN, SALT_LEN; lia). rewrite !sumsq_spec.
  assert (GO : sign_loop fuel K S (i + 1) hd salt c = Fin (Ok sig) -> exists j s0 s1 enc, (i <= j)%nat /\ sample_preimage S j c = Ok (s0, s1) /\ sqnorm s0 + sqnorm s1 <= sk_bound K /\
    compress s1 (sk_len K - 41) = Some enc /\ sig = hd ++ salt ++ enc).
  { intros E. apply IH in E. destruct E as (j & a & b & enc & Hj & T). exists j, a, b, enc. split; [lia|exact T]. }
  destruct (Z.leb_spec (sqnorm s0 + sqnorm s1) (sk_bound K)) as [Hb|Hb]; [|exact GO].
  destruct (compress s1 (sk_len K - 41)) as [enc|] eqn:EC; [|exact GO].
  intros E. assert (sig = hd ++ salt ++ enc) by congruence. exists i, s0, s1, enc. auto.
Qed.
Theorem sign_result fh fuel K S rb msg X sig : sign fh fuel K S rb msg X = Fin (Ok sig) ->
  exists c j s0 s1 enc, hash_to_point fh (sk_n K) msg (rb 40%nat) X = Fin (Ok c) /\ sample_preimage S j c = Ok (s0, s1) /\
    sqnorm s0 + sqnorm s1 <= sk_bound K /\ compress s1 (sk_len K - 41) = Some enc /\ sig = [32 + sk_logn K] ++ rb 40%nat ++ enc.
Proof.
  unfold sign. change SALT_LEN with 40%nat. destruct (hash_to_point fh (sk_n K) msg (rb 40%nat) X) as [[c|]|] eqn:EH; cbn [fbind]; try discriminate.
  intros E. apply sign_loop_result in E. destruct E as (j & s0 & s1 & enc & _ & E1 & E2 & E3 & E4). exists c, j, s0, s1, enc. auto.
Qed.
Definition sampler_exact (n : nat) (f g F G : list Z) (S : sampler) : Prop :=
  forall i c, length c = n -> lattice_point n f g F G (fst (S i c)) (snd (S i c)).

Theorem falcon_complete n f g F G K P S fh fuel rb msg X sig : ntru_key n f g F G -> SecretKey n f g F G = Ok K -> PublicKey n (sk_h K) = Ok P ->
  sampler_exact n f g F G S -> length (rb 40%nat) = 40%nat -> sign fh fuel K S rb msg X = Fin (Ok sig) ->
  verify fh P msg sig X = Fin (Ok true).
Proof.
  intros NK HK HP HS Hrb E. destruct (SecretKey_facts _ _ _ _ _ _ HK) as (b & l & lg & h & Hpar & Lf & Lg & LF & LG & D & ->). cbn [sk_h] in HP.
  destruct (params_facts _ _ _ _ Hpar) as (k & Hk & Hn & _ & Hl & _). pose proof (pow_pos' k n Hn) as np.
  destruct (div_public k n f g h Hk Hn Lf Lg D) as [Pub _]. pose proof Pub as (Lh & _ & _).
  apply sign_result in E. cbn [sk_n sk_bound sk_len sk_logn] in E. destruct E as (c & j & s0 & s1 & enc & EH & ES & EN & EC & ->).
  destruct (h2p_facts _ _ _ _ _ _ EH) as [Lc _].
  destruct (preimage_of_lattice n np f g F G h c _ _ NK Pub (HS j c Lc) Lc) as (PI & Lv0 & Lv1).
  rewrite (sample_always n) in ES by auto. assert (Es0 : s0 = psub n c (fst (S j c))) by congruence. assert (Es1 : s1 = neg (snd (S j c))) by congruence.
  rewrite <- Es0, <- Es1 in PI. pose proof PI as (_ & L1 & _).
  pose proof (verify_cases n h P fh msg ([32 + lg] ++ rb 40%nat ++ enc) X HP Lh) as V.
  destruct (PublicKey_facts n h P HP) as (b' & l' & lg' & Hpar' & HP'). rewrite Hpar in Hpar'.
  assert (b' = b) by congruence. assert (l' = l) by congruence. subst b' l' P. cbn [pk_len pk_bound] in V.
  rewrite (skipn_app_1 _ _ _ Hrb : skipn 41 _ = _), (slice_app_1 _ _ _ Hrb : slice 1 41 _ = _) in V.
  assert (N1 : s1 <> []) by (intros ->; cbn in L1; lia).
  pose proof (compress_decompress s1 (l - 41) (l - 41) enc N1 (Nat.le_refl _) EC) as DD. rewrite L1 in DD. rewrite DD, EH in V.
  destruct V as (bb & V & Vt & _). rewrite V. f_equal. f_equal. apply Vt. exists s0. auto.
Qed.
