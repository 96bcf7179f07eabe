(** C66: the AES-256 CTR DRBG. *)
From Verif Require Import Base PrngModel HashModel FalconModel RecoveryProofs DrbgModel DrbgSpec DrbgProofs Aes PrngProofs.

(** A history of calls random_bytes(num, additional) on one object. *)
Definition call := (Z * option (list Z))%type.
Definition call_ok (c : call) : Prop := snd c <> Some [] /\ bytes (add_bytes (snd c)).

(** The answers of the Python object, [None] when a loop of the model does not end. *)
Fixpoint answers (aes : list Z -> list Z -> list Z) (s : drbg) (cs : list call) : option (list (res (list Z))) :=
  match cs with
  | [] => Some []
  | (num, add) :: cs' =>
    match random_bytes aes s num add with
    | None => None
    | Some (s', r) => match answers aes s' cs' with Some l => Some (r :: l) | None => None end
    end
  end.
(** The answers prescribed by SP 800-90A: after 2^48 - 1 requests, or with an additional input over 48 bytes, an error which changes nothing. *)
Fixpoint expected (E : list Z -> list Z -> list Z) (a : st) (cs : list call) : list (res (list Z)) :=
  match cs with
  | [] => []
  | (num, add) :: cs' =>
    if 2 ^ 48 <=? served a + 1 then Raise OtherException :: expected E a cs'
    else if (48 <? length (add_bytes add))%nat then Raise ValueError :: expected E a cs'
    else let (a', out) := generate E a num (add_bytes add) in Ok out :: expected E a' cs'
  end.

Lemma history_sim aes : cipher_ok aes -> forall cs s a, simul s a -> Forall call_ok cs -> answers aes s cs = Some (expected aes a cs).
Proof.
  intros AES. induction cs as [|[num add] cs IH]; intros s a Hs Hc; cbn [answers expected]; [reflexivity|].
  inversion Hc as [|? ? [Ne Ba] Hc']; subst. cbn [snd] in *.
  assert (En : d_ctr s = served a + 1) by apply Hs.
  destruct (Z.leb_spec (2 ^ 48) (served a + 1)) as [L|L].
  - unfold random_bytes, reseed_interval. rewrite En. destruct (Z.leb_spec (2 ^ 48) (served a + 1)); [|lia]. now rewrite (IH s a).
  - destruct (Nat.ltb_spec 48 (length (add_bytes add))) as [L2|L2].
    + unfold random_bytes, reseed_interval. rewrite En. destruct (Z.leb_spec (2 ^ 48) (served a + 1)); [lia|].
      destruct add as [x|]; cbn [add_bytes length] in L2; [|lia]. destruct (Nat.ltb_spec seed_length (length x)) as [_|L3]; [|unfold seed_length in L3; lia].
      now rewrite (IH s a).
    + destruct (random_spec aes AES s a num add Hs L L2 Ba Ne) as (s' & E & S'). rewrite E.
      destruct (generate aes a num (add_bytes add)) as [a' out]. cbn [fst snd] in *. now rewrite (IH s' a').
Qed.

(** The object is the CTR_DRBG of SP 800-90A: for every seed, personalization string and history of calls, the answers are those of the standard
    (in particular the loops end). The empty additional input is treated apart, see C66_empty_additional_input. *)
Theorem C66_history_is_ctr_drbg : forall aes, cipher_ok aes -> forall seed pers cs,
  length seed = 48%nat -> bytes seed -> (length pers <= 48)%nat -> bytes pers -> Forall call_ok cs ->
  exists s, new aes seed pers = Fin (Ok s) /\ answers aes s cs = Some (expected aes (instantiate aes seed pers) cs).
Proof.
  intros aes AES seed pers cs H1 H2 H3 H4 H5. destruct (new_spec aes AES seed pers H1 H2 H3 H4) as (s & E & S'). exists s. split; auto. now apply history_sim.
Qed.
Print Assumptions C66_history_is_ctr_drbg.

(** The constructor refuses exactly the seeds of a length other than 48 and the personalization strings over 48 bytes. *)
Theorem C66_constructor_refuses_iff : forall aes, cipher_ok aes -> forall seed pers, bytes seed -> bytes pers ->
  (new aes seed pers = Fin (Raise ValueError) <-> (length seed <> 48%nat \/ (48 < length pers)%nat)).
Proof.
  intros aes AES seed pers Bs Bp. split; [|apply new_refuses].
  intros E. destruct (Nat.eq_dec (length seed) 48) as [L|L]; [|now left].
  destruct (le_lt_dec (length pers) 48) as [L'|L']; [|now right].
  destruct (new_spec aes AES seed pers L Bs L' Bp) as (s & E' & _). congruence.
Qed.
Print Assumptions C66_constructor_refuses_iff.

(** The states an object can be in. *)
Inductive reachable (aes : list Z -> list Z -> list Z) : drbg -> Prop :=
| reach_new : forall seed pers s, bytes seed -> bytes pers -> new aes seed pers = Fin (Ok s) -> reachable aes s
| reach_call : forall s num add s' r, reachable aes s -> bytes (add_bytes add) -> random_bytes aes s num add = Some (s', r) -> reachable aes s'.

Lemma call_sim aes : cipher_ok aes -> forall s a num add, simul s a -> bytes (add_bytes add) ->
  exists s' r, random_bytes aes s num add = Some (s', r) /\ (exists a', simul s' a') /\
    (forall out, r = Ok out -> exists k c, length k = 32%nat /\ out = firstn (Z.to_nat num) (keystream aes k c (nblocks num))).
Proof.
  intros AES s a num add Hs Ba. assert (En : d_ctr s = served a + 1) by apply Hs.
  destruct (Z_lt_le_dec (served a + 1) (2 ^ 48)) as [L|L].
  2:{ unfold random_bytes, reseed_interval. rewrite En. destruct (Z.leb_spec (2 ^ 48) (served a + 1)); [|lia].
      exists s, (Raise OtherException). repeat split; eauto. discriminate. }
  destruct (le_lt_dec (length (add_bytes add)) 48) as [L2|L2].
  2:{ unfold random_bytes, reseed_interval. rewrite En. destruct (Z.leb_spec (2 ^ 48) (served a + 1)); [lia|].
      destruct add as [x|]; cbn [add_bytes length] in L2; [|lia]. destruct (Nat.ltb_spec seed_length (length x)) as [_|L3]; [|unfold seed_length in L3; lia].
      exists s, (Raise ValueError). repeat split; eauto. discriminate. }
  assert (U48 : forall d k c k' c', length k = 32%nat -> upd48 aes d k c = (k', c') -> length k' = 32%nat).
  { intros d k c k' c' Hk EU. assert (X : fst (upd48 aes d k c) = k') by now rewrite EU. rewrite <- X. unfold upd48. cbv zeta. cbn [fst].
    rewrite firstn_length, xorb_length, (keystream_length aes AES) by auto. reflexivity. }
  assert (Kk : length (DrbgSpec.key a) = 32%nat) by (destruct Hs as ((Q & _) & <- & _); exact Q).
  destruct (list_eq_dec Z.eq_dec (add_bytes add) []) as [E0|N0]; [destruct add as [x|]; cbn [add_bytes] in E0; [subst x|]|].
  - pose proof (random_empty_additional aes AES s a num Hs L) as R. destruct (upd48 aes (repeat 0 48) (DrbgSpec.key a) (ctr a)) as [k c] eqn:EU.
    destruct R as (s' & E & S'). exists s', (Ok (snd (generate aes (mk_st k c (served a)) num []))). repeat split; eauto.
    intros out [= <-]. exists k, c. split.
    + exact (U48 _ _ _ _ _ Kk EU).
    + unfold generate. cbn [DrbgSpec.key ctr]. now destruct (upd48 aes _ _ _).
  - destruct (random_spec aes AES s a num None Hs L L2 Ba) as (s' & E & S'); [discriminate|].
    exists s', (Ok (snd (generate aes a num []))). repeat split; eauto. intros out [= <-]. exists (DrbgSpec.key a), (ctr a). split; [exact Kk|]. reflexivity.
  - destruct (random_spec aes AES s a num add Hs L L2 Ba) as (s' & E & S'); [intros ->; now apply N0|].
    exists s', (Ok (snd (generate aes a num (add_bytes add)))). repeat split; eauto. intros out [= <-].
    unfold generate. destruct (add_bytes add) as [|x l] eqn:EA; [congruence|].
    destruct (upd48 aes (pad48 (x :: l)) (DrbgSpec.key a) (ctr a)) as [k c] eqn:EU. exists k, c. split.
    + exact (U48 _ _ _ _ _ Kk EU).
    + now destruct (upd48 aes (pad48 (x :: l)) k _).
Qed.
Lemma reachable_sim aes : cipher_ok aes -> forall s, reachable aes s -> exists a, simul s a.
Proof.
  intros AES s R. induction R as [seed pers s Bs Bp E|s num add s' r R [a Ha] Ba E].
  - destruct (Nat.eq_dec (length seed) 48) as [L|L]; [|rewrite new_refuses in E by auto; discriminate].
    destruct (le_lt_dec (length pers) 48) as [L'|L']; [|rewrite new_refuses in E by auto; discriminate].
    destruct (new_spec aes AES seed pers L Bs L' Bp) as (s' & E' & S'). rewrite E in E'. injection E' as <-. eauto.
  - destruct (call_sim aes AES s a num add Ha Ba) as (s2 & r2 & E2 & S2 & _). rewrite E in E2. injection E2 as <- <-. exact S2.
Qed.

(** In every reachable state key and V are 32 and 16 bytes, every call ends, and a call which answers gives exactly num bytes. *)
Theorem C66_reachable_states : forall aes, cipher_ok aes -> forall s, reachable aes s ->
  length (d_key s) = 32%nat /\ length (d_V s) = 16%nat /\ bytes (d_key s) /\ bytes (d_V s) /\
  (forall num add, bytes (add_bytes add) -> exists s' r, random_bytes aes s num add = Some (s', r) /\
     (forall out, r = Ok out -> length out = Z.to_nat num /\ bytes out) /\ (forall e, r = Raise e -> s' = s)).
Proof.
  intros aes AES s R. destruct (reachable_sim aes AES s R) as [a Ha]. pose proof Ha as ((I1 & I2 & I3 & I4) & _). repeat split; auto.
  intros num add Ba. destruct (call_sim aes AES s a num add Ha Ba) as (s' & r & E & _ & O). exists s', r. split; auto. split.
  - intros out Eo. destruct (O out Eo) as (k & c & Hk & ->). split.
    + rewrite firstn_length, (keystream_length aes AES) by auto. unfold nblocks. lia.
    + apply bytes_firstn. now apply (keystream_bytes aes AES).
  - intros e ->. clear -E. unfold random_bytes in E. destruct (reseed_interval <=? d_ctr s); [congruence|].
    repeat match type of E with
    | match ?x with _ => _ end = _ => destruct x; try congruence
    | (if ?x then _ else _) = _ => destruct x; try congruence
    end.
Qed.
Print Assumptions C66_reachable_states.

(** One request uses consecutive counters: the output is made of the encryptions of V+1, ..., V+m modulo 2^128, and the state refresh
    uses V+m+1, V+m+2, V+m+3: no block is encrypted twice by a request under 2^128 - 3 blocks. *)
Theorem C66_request_blocks : forall aes, cipher_ok aes -> forall s num s' out, reachable aes s ->
  random_bytes aes s num None = Some (s', Ok out) ->
  let c := be_int (d_V s) in let m := nblocks num in
  out = firstn (Z.to_nat num) (flat_map (fun i => aes (d_key s) (to_be 16 ((c + Z.of_nat i) mod 2 ^ 128))) (seq 1 m)) /\
  d_key s' ++ d_V s' = flat_map (fun i => aes (d_key s) (to_be 16 ((c + Z.of_nat i) mod 2 ^ 128))) (seq (m + 1) 3) /\
  (num <= 16 * (2 ^ 128 - 3) -> forall i j, (1 <= i < j)%nat -> (j <= m + 3)%nat -> (c + Z.of_nat i) mod 2 ^ 128 <> (c + Z.of_nat j) mod 2 ^ 128).
Proof.
  intros aes AES s num s' out R E c m. destruct (reachable_sim aes AES s R) as [a Ha].
  assert (Hs : served a + 1 < 2 ^ 48).
  { destruct (Z_lt_le_dec (served a + 1) (2 ^ 48)) as [L|L]; auto. exfalso. revert E. unfold random_bytes, reseed_interval.
    destruct Ha as (_ & _ & _ & ->). destruct (Z.leb_spec (2 ^ 48) (served a + 1)); [discriminate|lia]. }
  destruct (random_spec aes AES s a num None Ha Hs) as (s2 & E2 & S2); [cbn; lia|constructor|discriminate|].
  rewrite E in E2. injection E2 as <- ->. destruct Ha as ((K32 & _) & Ek & Ec & _).
  unfold generate in *. cbn [add_bytes] in *. rewrite <- Ek, <- Ec in *.
  destruct (upd48 aes (pad48 []) (d_key s) _) as [k' c'] eqn:EU. cbn [fst snd] in *.
  destruct S2 as ((I1 & I2 & I3 & I4) & Ek' & Ec' & _). cbn [DrbgSpec.key ctr] in *. repeat split.
  - assert (X : forall t, length t = 48%nat -> bytes t -> (firstn 32 t, be_int (skipn 32 t)) = (k', c') -> d_key s' ++ d_V s' = t).
    { intros t Lt Bt Et. pose proof (f_equal fst Et) as Hk. pose proof (f_equal snd Et) as Hc. unfold fst, snd in Hk, Hc. rewrite Ek', <- Hk. rewrite <- Ec' in Hc.
      assert (d_V s' = skipn 32 t); [|now rewrite H, firstn_skipn].
      rewrite <- (to_be_be (d_V s')), <- (to_be_be (skipn 32 t)) by auto using bytes_skipn.
      rewrite I2, skipn_length, Lt, Hc. reflexivity. }
    apply X.
    + assert (Q : forall l, length (flat_map (fun i => aes (d_key s) (to_be 16 ((c + Z.of_nat i) mod 2 ^ 128))) l) = (16 * length l)%nat).
      { induction l as [|x l IH]; cbn [flat_map length]; [reflexivity|]. rewrite app_length, IH, (proj1 (AES _ _ K32 (to_be_length 16 _))). lia. }
      rewrite Q. reflexivity.
    + apply Forall_flat_map, Forall_forall. intros i _. apply AES; [auto|apply to_be_length].
    + rewrite <- EU. unfold upd48.
      assert (T : keystream aes (d_key s) ((be_int (d_V s) + Z.of_nat (nblocks num)) mod 2 ^ 128) 3 =
                  flat_map (fun i => aes (d_key s) (to_be 16 ((c + Z.of_nat i) mod 2 ^ 128))) (seq (m + 1) 3)).
      { unfold keystream, block. cbn [seq flat_map]. fold c m. rewrite !app_nil_r.
        assert (A : forall i j, Z.of_nat j = Z.of_nat m + Z.of_nat i ->
          aes (d_key s) (to_be 16 (((c + Z.of_nat m) mod 2 ^ 128 + Z.of_nat i) mod 2 ^ 128)) = aes (d_key s) (to_be 16 ((c + Z.of_nat j) mod 2 ^ 128))).
        { intros i j Hj. do 2 f_equal. rewrite Zplus_mod_idemp_l. f_equal. lia. }
        rewrite (A 1 (m + 1))%nat, (A 2 (S (m + 1)))%nat, (A 3 (S (S (m + 1))))%nat by lia. reflexivity. }
      rewrite <- T. set (u := keystream aes (d_key s) _ 3).
      assert (Lu : length u = 48%nat) by (apply (keystream_length aes AES); auto).
      assert (Z0 : xorb u (pad48 []) = u).
      { unfold xorb. etransitivity; [|apply (nth_ext_map u 0)]. apply map_ext_in. intros i Hi. apply in_seq in Hi.
        change (pad48 []) with (repeat 0 48). rewrite nth_repeat. apply Z.lxor_0_r. }
      rewrite Z0. reflexivity.
  - intros Hn i j Hij Hj. assert (Hm : Z.of_nat m + 3 < 2 ^ 128 + 1) by (unfold m, nblocks; lia).
    intros Q. assert (D : (c + Z.of_nat j - (c + Z.of_nat i)) mod 2 ^ 128 = 0) by (rewrite Zminus_mod, Q, Z.sub_diag; reflexivity).
    rewrite Z.mod_small in D by lia. lia.
Qed.
Print Assumptions C66_request_blocks.

(** The answers to requests of different sizes in the same state agree: the shorter is a prefix of the longer. *)
Theorem C66_prefix : forall aes, cipher_ok aes -> forall s a b s1 s2 o1 o2, reachable aes s -> a <= b ->
  random_bytes aes s a None = Some (s1, Ok o1) -> random_bytes aes s b None = Some (s2, Ok o2) -> o1 = firstn (Z.to_nat a) o2.
Proof.
  intros aes AES s a b s1 s2 o1 o2 R L E1 E2.
  destruct (C66_request_blocks aes AES s a s1 o1 R E1) as (-> & _). destruct (C66_request_blocks aes AES s b s2 o2 R E2) as (-> & _).
  assert (K32 : length (d_key s) = 32%nat) by (apply (C66_reachable_states aes AES s R)).
  rewrite firstn_firstn, Nat.min_l by lia.
  assert (M : (nblocks a <= nblocks b)%nat) by (unfold nblocks; lia).
  replace (nblocks b) with (nblocks a + (nblocks b - nblocks a))%nat by lia. rewrite seq_app, flat_map_app, firstn_app.
  set (u := flat_map _ (seq 1 (nblocks a))).
  assert (Lu : length u = (16 * nblocks a)%nat) by (apply (keystream_length aes AES); auto).
  replace (Z.to_nat a - length u)%nat with 0%nat by (rewrite Lu; unfold nblocks; lia). now rewrite firstn_O, app_nil_r.
Qed.
Print Assumptions C66_prefix.

(** Deviation from the standard: additional = b"" is not the null additional input. The code refreshes the state before answering. *)
Theorem C66_empty_additional_input : forall aes, cipher_ok aes -> forall s a num, simul s a -> served a + 1 < 2 ^ 48 ->
  let (k, c) := upd48 aes (repeat 0 48) (DrbgSpec.key a) (ctr a) in
  exists s', random_bytes aes s num (Some []) = Some (s', Ok (snd (generate aes (mk_st k c (served a)) num []))).
Proof.
  intros aes AES s a num Hs L. pose proof (random_empty_additional aes AES s a num Hs L) as R.
  destruct (upd48 aes (repeat 0 48) (DrbgSpec.key a) (ctr a)) as [k c]. destruct R as (s' & E & _). eauto.
Qed.
Print Assumptions C66_empty_additional_input.

(** With the real AES-256: the NIST generator seeded with 00 01 .. 2f gives as first 48 bytes the seed of the first known-answer test
    of /repo/test/falcon512-KAT.req. *)
Lemma aes256_ok : cipher_ok aes256. Proof. intros k v _ _. apply aes256_block. Qed.
Example C66_kat : match new aes256 (map Z.of_nat (seq 0 48)) [] with
  | Fin (Ok s) => answers aes256 s [(48, None)] | _ => None end =
  Some [Ok [0x06; 0x15; 0x50; 0x23; 0x4D; 0x15; 0x8C; 0x5E; 0xC9; 0x55; 0x95; 0xFE; 0x04; 0xEF; 0x7A; 0x25; 0x76; 0x7F; 0x2E; 0x24; 0xCC; 0x2B; 0xC4; 0x79;
            0xD0; 0x9D; 0x86; 0xDC; 0x9A; 0xBC; 0xFD; 0xE7; 0x05; 0x6A; 0x8C; 0x26; 0x6F; 0x9E; 0xF9; 0x7E; 0xD0; 0x85; 0x41; 0xDB; 0xD2; 0xE1; 0xFF; 0xA1]].
Proof. vm_compute. reflexivity. Qed.
(** ... and the empty additional input does change the answer *)
Theorem C66_empty_is_not_null_refuted : exists seed, length seed = 48%nat /\ bytes seed /\ exists s, new aes256 seed [] = Fin (Ok s) /\
  answers aes256 s [(1, None)] <> answers aes256 s [(1, Some [])].
Proof.
  exists (map Z.of_nat (seq 0 48)). split; [reflexivity|]. split.
  { apply Forall_forall. intros x Hx. apply in_map_iff in Hx as (i & <- & Hi). apply in_seq in Hi. unfold is_byte. lia. }
  eexists. split; [vm_compute; reflexivity|]. vm_compute. discriminate.
Qed.
Print Assumptions C66_empty_is_not_null_refuted.
(** the hypotheses of the history theorem on a mixed history *)
Example C66_witness : Forall call_ok [(3, None); (17, Some [1; 2]); (0, Some (repeat 5 49))].
Proof. repeat constructor; cbn; try discriminate; apply Forall_forall; intros x Hx; cbn in Hx; unfold is_byte; repeat destruct Hx as [<-|Hx]; try lia; contradiction. Qed.
