(** Proofs about the DRBG model. *)
From Verif Require Import Base PrngModel HashModel FalconModel RecoveryProofs DrbgModel DrbgSpec.

Lemma be_bnd l : bytes l -> 0 <= be_int l < 256 ^ Z.of_nat (length l).
Proof.
  induction l as [|x a IH] using rev_ind; intros H; [cbn; lia|].
  apply bytes_app in H as [Ha Hx]. inversion Hx as [|? ? Hb _]; subst. unfold is_byte in Hb.
  rewrite be_int_snoc, app_length. cbn [length]. rewrite Nat2Z.inj_add, Z.pow_add_r by lia.
  specialize (IH Ha). change (256 ^ Z.of_nat 1) with 256. lia.
Qed.
Lemma to_be_be l : bytes l -> to_be (length l) (be_int l) = l.
Proof.
  induction l as [|x a IH] using rev_ind; intros H; [reflexivity|].
  apply bytes_app in H as [Ha Hx]. inversion Hx as [|? ? Hb _]; subst. unfold is_byte in Hb.
  rewrite app_length. cbn [length]. rewrite Nat.add_1_r. cbn [to_be]. rewrite be_int_snoc.
  replace (256 * be_int a + x) with (x + be_int a * 256) by ring.
  rewrite Z.div_add, Z.mod_add by lia. rewrite Z.div_small, Z.mod_small by lia. now rewrite Z.add_0_l, IH.
Qed.

Lemma xor_bytes_spec a : forall b, length a = length b -> xor_bytes a b = xorb a b.
Proof.
  induction a as [|x a IH]; intros [|y b] L; try discriminate; [reflexivity|].
  unfold xor_bytes, xorb in *. cbn [combine map length seq fst snd nth]. f_equal.
  rewrite <- seq_shift, map_map. cbn [nth]. apply IH. now injection L.
Qed.
Lemma xorb_length a b : length (xorb a b) = length a.
Proof. unfold xorb. now rewrite map_length, seq_length. Qed.
Lemma byte_lxor a b : is_byte a -> is_byte b -> is_byte (Z.lxor a b).
Proof.
  unfold is_byte. intros Ha Hb. split; [apply Z.lxor_nonneg; lia|].
  destruct (Z.eq_dec (Z.lxor a b) 0) as [->|N]; [lia|].
  assert (0 < Z.lxor a b) by (assert (0 <= Z.lxor a b) by (apply Z.lxor_nonneg; lia); lia).
  change 256 with (2 ^ 8). apply Z.log2_lt_pow2; auto.
  eapply Z.le_lt_trans; [apply Z.log2_lxor; lia|].
  apply Z.max_lub_lt; [destruct (Z.eq_dec a 0) as [->|]; [cbn; lia|]|destruct (Z.eq_dec b 0) as [->|]; [cbn; lia|]];
    apply Z.log2_lt_pow2; cbn; lia.
Qed.
Lemma bytes_nth l i : bytes l -> is_byte (nth i l 0).
Proof.
  intros H. destruct (lt_dec i (length l)) as [L|L].
  - now apply (proj1 (Forall_nth _ l) H i 0).
  - rewrite nth_overflow by lia. unfold is_byte. lia.
Qed.
Lemma xorb_bytes a b : bytes a -> bytes b -> bytes (xorb a b).
Proof.
  intros Ha Hb. unfold xorb. apply Forall_map, Forall_forall. intros i _. apply byte_lxor; now apply bytes_nth.
Qed.
Lemma bytes_zeros k : bytes (repeat 0 k).
Proof. apply Forall_forall. intros x Hx. apply repeat_spec in Hx. subst. unfold is_byte. lia. Qed.
Lemma pad48_length a : (length a <= 48)%nat -> length (pad48 a) = 48%nat.
Proof. intros. unfold pad48. rewrite app_length, repeat_length. lia. Qed.
Lemma pad48_bytes a : bytes a -> bytes (pad48 a).
Proof. intros. apply bytes_app. split; auto using bytes_zeros. Qed.

Section P.
Variable aes : list Z -> list Z -> list Z.
Hypothesis AES : cipher_ok aes.

Definition inv (key V : list Z) : Prop := length key = 32%nat /\ length V = 16%nat /\ bytes V /\ bytes key.

Lemma inc_spec V i c : be_int V = (c + Z.of_nat i) mod 2 ^ 128 ->
  increment_counter V = to_be 16 ((c + Z.of_nat (S i)) mod 2 ^ 128) /\
  be_int (increment_counter V) = (c + Z.of_nat (S i)) mod 2 ^ 128 /\ length (increment_counter V) = 16%nat /\ bytes (increment_counter V).
Proof.
  intros E. assert (Q : increment_counter V = to_be 16 ((c + Z.of_nat (S i)) mod 2 ^ 128)).
  { unfold increment_counter. rewrite E, Zplus_mod_idemp_l. f_equal. f_equal. lia. }
  rewrite Q. split; [reflexivity|split; [|split]].
  - apply be_int_to_be. change (256 ^ Z.of_nat 16) with (2 ^ 128). apply Z.mod_pos_bound. reflexivity.
  - apply to_be_length.
  - apply to_be_bytes.
Qed.

Lemma keystream_S k c m : keystream aes k c (S m) = keystream aes k c m ++ block aes k c (S m).
Proof. unfold keystream. rewrite seq_S, flat_map_app. cbn [flat_map plus]. now rewrite app_nil_r. Qed.
Lemma block_len k c i : length k = 32%nat -> length (block aes k c i) = 16%nat.
Proof. intros. unfold block. apply AES; [auto|apply to_be_length]. Qed.
Lemma keystream_length k c m : length k = 32%nat -> length (keystream aes k c m) = (16 * m)%nat.
Proof. intros Hk. induction m; [reflexivity|]. rewrite keystream_S, app_length, IHm, block_len by auto. lia. Qed.
Lemma keystream_bytes k c m : length k = 32%nat -> bytes (keystream aes k c m).
Proof.
  intros Hk. induction m; [constructor|]. rewrite keystream_S. apply bytes_app. split; auto. unfold block. apply AES; [auto|apply to_be_length].
Qed.

Lemma ctr0 V : bytes V -> length V = 16%nat -> be_int V = (be_int V + Z.of_nat 0) mod 2 ^ 128.
Proof. intros HV HL. rewrite Z.add_0_r, Z.mod_small; auto. pose proof (be_bnd V HV). rewrite HL in *. exact H. Qed.

Lemma update_step f key V tmp : length tmp <> 48%nat ->
  update_loop aes (S f) key V tmp = update_loop aes f key (increment_counter V) (tmp ++ aes key (increment_counter V)).
Proof. intros N. cbn [update_loop]. destruct (Nat.eqb_spec (length tmp) seed_length) as [E|_]; [exfalso; exact (N E)|reflexivity]. Qed.
Lemma update_done f key V tmp : length tmp = 48%nat -> update_loop aes f key V tmp = Some (V, tmp).
Proof. intros E. destruct f; cbn [update_loop]; rewrite E; reflexivity. Qed.

Lemma inc_block key V c i : be_int V = (c + Z.of_nat i) mod 2 ^ 128 -> aes key (increment_counter V) = block aes key c (S i).
Proof. intros E. unfold block. now rewrite (proj1 (inc_spec _ _ _ E)). Qed.

Lemma update_run key V : inv key V -> exists V', update_loop aes 4 key V [] = Some (V', keystream aes key (be_int V) 3).
Proof.
  intros (Hk & HL & HV & _). 
  assert (exists c, c = be_int V) as [c Ec] by eauto. pose proof (ctr0 V HV HL) as E0. rewrite <- Ec. rewrite <- Ec in E0 at 2.
  pose proof (inc_spec _ _ _ E0) as (_ & E1 & _). pose proof (inc_spec _ _ _ E1) as (_ & E2 & _).
  assert (T : [] = keystream aes key c 0) by reflexivity. rewrite T. clear T.
  rewrite update_step by (rewrite keystream_length by auto; lia). rewrite (inc_block _ _ _ _ E0), <- keystream_S.
  rewrite update_step by (rewrite keystream_length by auto; lia). rewrite (inc_block _ _ _ _ E1), <- keystream_S.
  rewrite update_step by (rewrite keystream_length by auto; lia). rewrite (inc_block _ _ _ _ E2), <- keystream_S.
  rewrite update_done by (rewrite keystream_length by auto; lia). eexists. reflexivity.
Qed.

Lemma update_spec key V data : inv key V -> length data = 48%nat -> bytes data ->
  exists key' V', ctr_drbg_update aes data key V = Some (key', V') /\ upd48 aes data key (be_int V) = (key', be_int V') /\ inv key' V'.
Proof.
  intros I Hd Hb. destruct (update_run key V I) as [V' E]. destruct I as (Hk & HL & HV & _).
  unfold ctr_drbg_update. rewrite E. unfold upd48.
  assert (L : length (keystream aes key (be_int V) 3) = 48%nat) by (rewrite keystream_length; auto).
  rewrite (firstn_all2 (n:=seed_length)) by (rewrite L; apply le_n). rewrite xor_bytes_spec by (rewrite L; auto).
  set (t := xorb (keystream aes key (be_int V) 3) data).
  assert (Lt : length t = 48%nat) by (unfold t; now rewrite xorb_length).
  assert (Bt : bytes t) by (apply xorb_bytes; auto using keystream_bytes).
  exists (firstn 32 t), (skipn 32 t). repeat split; auto.
  - rewrite firstn_length, Lt. reflexivity.
  - rewrite skipn_length, Lt. reflexivity.
  - now apply bytes_skipn.
  - now apply bytes_firstn.
Qed.

Lemma collect_spec key num : length key = 32%nat -> forall fuel V c m, be_int V = (c + Z.of_nat m) mod 2 ^ 128 -> bytes V -> length V = 16%nat ->
  (m <= nblocks num)%nat -> num <= 16 * Z.of_nat (m + fuel) ->
  exists V', collect aes fuel key V (keystream aes key c m) num = Some (V', keystream aes key c (nblocks num)) /\
             be_int V' = (c + Z.of_nat (nblocks num)) mod 2 ^ 128 /\ bytes V' /\ length V' = 16%nat.
Proof.
  intros Hk. induction fuel as [|fuel IH]; intros V c m E HV HL Hm Hf; cbn [collect]; rewrite keystream_length by auto.
  - destruct (Z.ltb_spec (Z.of_nat (16 * m)) num) as [L|L]; [lia|].
    assert (m = nblocks num) by (unfold nblocks in *; lia). subst m. eauto.
  - destruct (Z.ltb_spec (Z.of_nat (16 * m)) num) as [L|L].
    + rewrite (inc_block _ _ _ _ E), <- keystream_S. destruct (inc_spec _ _ _ E) as (_ & E' & HL' & HV').
      apply IH; auto; [unfold nblocks; lia|lia].
    + assert (m = nblocks num) by (unfold nblocks in *; lia). subst m. eauto.
Qed.

(** simulation relation between the object and the specification *)
Definition simul (s : drbg) (a : st) : Prop :=
  inv (d_key s) (d_V s) /\ d_key s = DrbgSpec.key a /\ be_int (d_V s) = ctr a /\ d_ctr s = served a + 1.

Lemma new_spec seed pers : length seed = 48%nat -> bytes seed -> (length pers <= 48)%nat -> bytes pers ->
  exists s, new aes seed pers = Fin (Ok s) /\ simul s (instantiate aes seed pers).
Proof.
  intros Ls Bs Lp Bp. unfold new. rewrite Ls. cbn [Nat.eqb seed_length negb].
  destruct (Nat.ltb_spec seed_length (length pers)); [unfold seed_length in *; lia|].
  cbv zeta. change (pers ++ repeat 0 (seed_length - length pers)) with (pad48 pers). pose proof (pad48_length pers Lp) as L8. rewrite xor_bytes_spec by (rewrite Ls, L8; reflexivity).
  destruct (update_spec (repeat 0 32) (repeat 0 16) (xorb seed (pad48 pers))) as (k & V & E & U & I).
  { repeat split; auto using bytes_zeros. }
  { rewrite xorb_length. auto. }
  { apply xorb_bytes; auto using pad48_bytes. }
  rewrite E. eexists; split; [reflexivity|]. unfold instantiate. change (be_int (repeat 0 16)) with 0 in U. rewrite U. repeat split; cbn; try apply I.
Qed.

Lemma new_refuses seed pers : length seed <> 48%nat \/ (48 < length pers)%nat -> new aes seed pers = Fin (Raise ValueError).
Proof.
  intros [N|N]; unfold new.
  - destruct (Nat.eqb_spec (length seed) seed_length) as [E|_]; [exfalso; exact (N E)|reflexivity].
  - destruct (length seed =? seed_length)%nat; cbn [negb]; auto. unfold seed_length. destruct (Nat.ltb_spec 48 (length pers)); auto. lia.
Qed.

Definition add_bytes (a : option (list Z)) : list Z := match a with Some l => l | None => [] end.

Lemma tail_spec s a key V num add : inv key V -> (length add <= 48)%nat -> bytes add -> d_ctr s = served a + 1 ->
  exists s', match collect aes (Z.to_nat num) key V [] num with
    | None => None
    | Some (V, tmp) => match ctr_drbg_update aes (pad48 add) key V with
        | None => None
        | Some (key, V) => Some (mk_drbg key V (d_ctr s + 1), Ok (firstn (Z.to_nat num) tmp)) end end
    = Some (s', Ok (firstn (Z.to_nat num) (keystream aes key (be_int V) (nblocks num)))) /\
    let (k', c') := upd48 aes (pad48 add) key ((be_int V + Z.of_nat (nblocks num)) mod 2 ^ 128) in
    simul s' (mk_st k' c' (served a + 1)).
Proof.
  intros (Hk & HL & HV & HK) La Ba Hc.
  destruct (collect_spec key num Hk (Z.to_nat num) V (be_int V) 0) as (V' & E & EV & BV & LV); auto using ctr0; [lia..|].
  change (keystream aes key (be_int V) 0) with (@nil Z) in E. rewrite E.
  destruct (update_spec key V' (pad48 add)) as (k2 & V2 & E2 & U2 & I2); [repeat split; auto|auto using pad48_length|auto using pad48_bytes|].
  rewrite E2. eexists; split; [reflexivity|]. rewrite <- EV, U2. repeat split; cbn; try apply I2; lia.
Qed.

Theorem random_spec s a num additional : simul s a -> served a + 1 < 2 ^ 48 ->
  (length (add_bytes additional) <= 48)%nat -> bytes (add_bytes additional) -> additional <> Some [] ->
  exists s', random_bytes aes s num additional = Some (s', Ok (snd (generate aes a num (add_bytes additional)))) /\
             simul s' (fst (generate aes a num (add_bytes additional))).
Proof.
  intros (I & Ek & Ec & En) Hs La Ba Hn. unfold random_bytes. unfold reseed_interval. rewrite En.
  destruct (Z.leb_spec (2 ^ 48) (served a + 1)); [lia|]. rewrite <- En.
  destruct additional as [add|]; cbn [add_bytes] in *.
  - destruct (Nat.ltb_spec seed_length (length add)) as [L|L]; [unfold seed_length in L; lia|]. fold (pad48 add).
    destruct (update_spec (d_key s) (d_V s) (pad48 add)) as (k & V & E & U & I2); [auto|auto using pad48_length|auto using pad48_bytes|].
    change (add ++ repeat 0 (seed_length - length add)) with (pad48 add).
    rewrite E. destruct (tail_spec s a k V num add I2 La Ba En) as (s' & E' & Q).
    exists s'. rewrite E'. clear E' E. unfold generate. destruct add as [|x add]; [congruence|]. rewrite <- Ek, <- Ec, U.
    destruct (upd48 aes (pad48 (x :: add)) k _) as [k' c'] eqn:EU. cbn [fst snd]. split; auto.
  - destruct (tail_spec s a (d_key s) (d_V s) num [] I La Ba En) as (s' & E' & Q).
    exists s'. change (repeat 0 seed_length) with (pad48 []). rewrite E'. clear E'. unfold generate. rewrite <- Ek, <- Ec.
    destruct (upd48 aes (pad48 []) (d_key s) _) as [k' c'] eqn:EU. cbn [fst snd]. split; auto.
Qed.

(** additional = b"": the code refreshes the state first, where the standard (null additional input) does not *)
Theorem random_empty_additional s a num : simul s a -> served a + 1 < 2 ^ 48 ->
  let (k, c) := upd48 aes (repeat 0 48) (DrbgSpec.key a) (ctr a) in
  let b := mk_st k c (served a) in
  exists s', random_bytes aes s num (Some []) = Some (s', Ok (snd (generate aes b num []))) /\ simul s' (fst (generate aes b num [])).
Proof.
  intros (I & Ek & Ec & En) Hs. unfold random_bytes, reseed_interval. rewrite En.
  destruct (Z.leb_spec (2 ^ 48) (served a + 1)); [lia|]. rewrite <- En. cbv zeta.
  destruct (Nat.ltb_spec seed_length (@length Z [])) as [L|L]; [cbn in L; lia|].
  change ([] ++ repeat 0 (seed_length - @length Z [])) with (pad48 []). change (repeat 0 48) with (pad48 []).
  destruct (update_spec (d_key s) (d_V s) (pad48 [])) as (k & V & E & U & I2); [auto|reflexivity|apply pad48_bytes; constructor|].
  rewrite E. rewrite <- Ek, <- Ec, U.
  destruct (tail_spec s a k V num [] I2) as (s' & E' & Q); [cbn; lia|constructor|auto|].
  exists s'. rewrite E'. unfold generate. cbn [DrbgSpec.key ctr served].
  destruct (upd48 aes (pad48 []) k _) as [k' c'] eqn:EU. cbn [fst snd]. split; auto.
Qed.
End P.
