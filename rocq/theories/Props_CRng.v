(** Property theorems C94: the generator of the C signer (rng.c, inner.h). *)
From Verif Require Import Base KeccakModel ChachaModel ChachaSpec ChachaProofs CRngModel CRngSpec CRngProofs.

(** A history of draws on a generator: the values, and the state reached. *)
Fixpoint c_run (g : prng) (ds : list c_draw) : prng * list Z :=
  match ds with
  | [] => (g, [])
  | d :: ds => let '(g, v) := match d with U64 => prng_get_u64 g | U8 => prng_get_u8 g end in
               let '(g, l) := c_run g ds in (g, v :: l)
  end.

Lemma run_spec seed : length seed = 56%nat -> bytes seed -> forall ds r p g, inv seed r p g -> (p <= 511)%nat ->
  snd (c_run g ds) = c_answers seed r p ds /\ exists r' p', inv seed r' p' (fst (c_run g ds)) /\ (p' <= 511)%nat.
Proof.
  intros L B ds. induction ds as [|d ds IH]; intros r p g H Hp; [split; [reflexivity|]; exists r, p; auto|].
  cbn [c_run c_answers]. destruct d.
  - pose proof (u64_step seed L B r p g H Hp) as S0.
    assert (Hq : let '(r', q) := if (p + 9 <? 512)%nat then (r, p) else (S r, 0%nat) in (q + 8 <= 511)%nat)
      by (destruct (Nat.ltb_spec (p + 9) 512); lia).
    destruct (if (p + 9 <? 512)%nat then (r, p) else (S r, 0%nat)) as [r' q].
    destruct (prng_get_u64 g) as [g' v]. cbn [fst snd] in S0. destruct S0 as [I ->].
    destruct (IH _ _ _ I Hq) as [E X]. destruct (c_run g' ds) as [g2 l]. cbn [fst snd] in *. rewrite E. auto.
  - pose proof (u8_step seed L B r p g H Hp) as S0.
    destruct (prng_get_u8 g) as [g' v]. cbn [fst snd] in S0. destruct S0 as [I ->].
    destruct (Nat.eqb_spec (p + 1) 512).
    + destruct (IH _ _ _ I ltac:(lia)) as [E X]. destruct (c_run g' ds) as [g2 l]. cbn [fst snd] in *. rewrite E. auto.
    + destruct (IH _ _ _ I ltac:(lia)) as [E X]. destruct (c_run g' ds) as [g2 l]. cbn [fst snd] in *. rewrite E. auto.
Qed.

(** Whatever the uninitialised buffer holds, every history of draws gives the values of the specification, and the position never
    leaves the buffer: the next draw reads inside it. *)
Theorem C94_draws_follow_the_refills : forall seed junk ds, length seed = 56%nat -> bytes seed -> length junk = 512%nat ->
  let '(g, answers) := c_run (prng_init junk seed) ds in
  answers = c_answers seed 0 0 ds /\ (pptr g <= 511)%nat /\ length (pbuf g) = 512%nat.
Proof.
  intros seed junk ds L B J. destruct (run_spec seed L B ds 0 0 (prng_init junk seed) (init_inv seed L B junk J) ltac:(lia)) as (E & r' & p' & I & Hp).
  destruct (c_run (prng_init junk seed) ds) as [g l]. cbn [fst snd] in *. split; [exact E|].
  split; [destruct I as (_ & _ & _ & ->); exact Hp|]. exact (inv_length seed r' p' g I).
Qed.
Print Assumptions C94_draws_follow_the_refills.

(** Until the 64-bit counter wraps, the refills are those of rng.py (C21): words of RFC 8439 blocks. *)
Theorem C94_same_refills_as_python : forall seed r j, length seed = 56%nat -> bytes seed ->
  seed_counter seed + 8 * Z.of_nat (S r) <= 2 ^ 64 -> crefill_byte seed r j = refill_byte seed r j.
Proof.
  intros seed r j L B H. unfold crefill_byte, refill_byte. cbv zeta. rewrite (Z.mod_small (_ + _ + _)); auto.
  pose proof (Nat.mod_upper_bound (j / 4) 8 ltac:(lia)).
  pose proof (seed_word_u32 seed L B 12). pose proof (seed_word_u32 seed L B 13). unfold seed_counter, u32 in *. lia.
Qed.
Print Assumptions C94_same_refills_as_python.

Lemma as_values_nine f p n : n = 9%nat -> as_values (map f (seq p n)) = [le_value f p 8; f (p + 8)%nat].
Proof.
  intros ->. unfold as_values. rewrite map_length, seq_length. change (9 =? 9)%nat with true. cbv iota. apply f_equal2; [|apply f_equal2; [|reflexivity]].
  - unfold le_value. replace (firstn 8 (map f (seq p 9))) with (map f (seq p 8)) by reflexivity.
    generalize (seq p 8). intros l. induction l as [|a l IH]; [reflexivity|]. cbn [map fold_right]. rewrite IH. reflexivity.
  - cbn [seq map nth]. f_equal. lia.
Qed.

Lemma le_same f g p : (forall j, f j = g j) -> le_value f p 8 = le_value g p 8.
Proof. intros R. unfold le_value. generalize (seq p 8). intros l. induction l as [|a l IH]; [reflexivity|]. cbn [fold_right]. now rewrite R, IH. Qed.

(** r refills made by rng.py and p bytes of the last one consumed: where the C generator stands *)
Definition c_at (seed : list Z) (r p : nat) (ds : list c_draw) : list Z :=
  if (p =? 512)%nat then c_answers seed r 0 ds else c_answers seed (r - 1) p ds.

Lemma same_values seed : length seed = 56%nat -> bytes seed -> forall ks ds r p, Forall (fun k => k = 9%nat \/ k = 1%nat) ks ->
  seed_counter seed + 8 * Z.of_nat (r + length ks) <= 2 ^ 64 -> (p = 512 \/ p < 512 /\ 1 <= r)%nat -> avoids_503 p ks = true ->
  c_at seed r p (flat_map as_c ks ++ ds) =
  flat_map as_values (answers seed r p ks) ++ (let '(r', p') := py_at r p ks in c_at seed r' p' ds).
Proof.
  intros L B ks ds. induction ks as [|k ks IH]; intros r p F Hc Hp A; [reflexivity|].
  apply Forall_cons_iff in F. destruct F as [Hk F]. cbn [avoids_503] in A. apply andb_prop in A. destruct A as [A1 A2].
  cbn [length] in Hc.
  assert (R1 : forall j, (1 <= r)%nat -> crefill_byte seed (r - 1) j = refill_byte seed (r - 1) j)
    by (intros j Hr; apply C94_same_refills_as_python; auto; lia).
  assert (R2 : forall j, crefill_byte seed r j = refill_byte seed r j) by (intros j; apply C94_same_refills_as_python; auto; lia).
  cbn [flat_map answers py_at]. unfold py_next in A2.
  assert (O : forall f q, as_values (map f (seq q 1)) = [f q]) by reflexivity.
  destruct Hp as [->|[Hp Hr]].
  - unfold c_at at 1. change (512 =? 512)%nat with true. cbv iota.
    destruct Hk as [->| ->].
    + change (512 + 9 <=? 512)%nat with false in *. cbv iota in *. cbn [flat_map]. change (Nat.min 9 512) with 9%nat. rewrite as_values_nine by reflexivity.
      change (as_c 9) with [U64; U8]. cbn [app c_answers]. change (0 + 9 <? 512)%nat with true. change (0 + 8 + 1 =? 512)%nat with false. cbv iota beta.
      change (0 + 8 + 1)%nat with 9%nat. specialize (IH (S r) 9%nat F ltac:(lia) ltac:(lia) A2).
      unfold c_at at 1 in IH. change (9 =? 512)%nat with false in IH. cbv iota in IH. replace (S r - 1)%nat with r in IH by lia.
      rewrite IH, R2, (le_same _ (refill_byte seed r) 0 R2). reflexivity.
    + change (512 + 1 <=? 512)%nat with false in *. cbv iota in *. cbn [flat_map]. change (Nat.min 1 512) with 1%nat. rewrite O.
      change (as_c 1) with [U8]. cbn [app c_answers]. change (0 + 1 =? 512)%nat with false. cbv iota. change (0 + 1)%nat with 1%nat.
      specialize (IH (S r) 1%nat F ltac:(lia) ltac:(lia) A2).
      unfold c_at at 1 in IH. change (1 =? 512)%nat with false in IH. cbv iota in IH. replace (S r - 1)%nat with r in IH by lia.
      rewrite IH, R2. reflexivity.
  - unfold c_at at 1. destruct (Nat.eqb_spec p 512); [lia|].
    destruct Hk as [->| ->].
    + change (as_c 9) with [U64; U8]. cbn [app c_answers]. change (9 =? 9)%nat with true in A1. cbn [andb] in A1.
      destruct (Nat.eqb_spec p 503); [discriminate|].
      destruct (Nat.leb_spec (p + 9) 512).
      * cbn [flat_map]. rewrite as_values_nine by reflexivity. destruct (Nat.ltb_spec (p + 9) 512); [|lia].
        destruct (Nat.eqb_spec (p + 8 + 1) 512); [lia|].
        rewrite (R1 _ Hr), (le_same _ (refill_byte seed (r - 1)) p (fun j => R1 j Hr)).
        specialize (IH r (p + 9)%nat F ltac:(lia) ltac:(lia) A2). unfold c_at at 1 in IH.
        destruct (Nat.eqb_spec (p + 9) 512); [lia|]. replace (p + 8 + 1)%nat with (p + 9)%nat by lia. rewrite IH. reflexivity.
      * cbn [flat_map]. change (Nat.min 9 512) with 9%nat. rewrite as_values_nine by reflexivity.
        destruct (Nat.ltb_spec (p + 9) 512); [lia|]. replace (S (r - 1)) with r by lia.
        change (0 + 8 + 1 =? 512)%nat with false. cbv iota beta. change (0 + 8 + 1)%nat with 9%nat.
        specialize (IH (S r) 9%nat F ltac:(lia) ltac:(lia) A2).
        unfold c_at at 1 in IH. change (9 =? 512)%nat with false in IH. cbv iota in IH. replace (S r - 1)%nat with r in IH by lia.
        rewrite IH, R2, (le_same _ (refill_byte seed r) 0 R2). reflexivity.
    + change (as_c 1) with [U8]. cbn [app c_answers]. destruct (Nat.leb_spec (p + 1) 512); [|lia].
      cbn [flat_map]. rewrite O, (R1 _ Hr). replace (S (r - 1)) with r by lia.
      specialize (IH r (p + 1)%nat F ltac:(lia) ltac:(lia) A2). unfold c_at at 1 in IH.
      destruct (Nat.eqb_spec (p + 1) 512); rewrite IH; reflexivity.
Qed.

(** The C and the Python generators with the same seed give the same values to the same history of nine-byte and one-byte draws, as
    long as no nine-byte draw starts exactly nine bytes before the end of a refill (and the counter does not wrap). *)
Theorem C94_same_draws_as_python : forall seed junk ks, length seed = 56%nat -> bytes seed -> length junk = 512%nat ->
  Forall (fun k => k = 9%nat \/ k = 1%nat) ks -> seed_counter seed + 8 * Z.of_nat (length ks) <= 2 ^ 64 ->
  avoids_503 512 ks = true ->
  snd (c_run (prng_init junk seed) (flat_map as_c ks)) = flat_map as_values (requests (chacha_new seed) ks).
Proof.
  intros seed junk ks L B J F Hc A. pose proof (C94_draws_follow_the_refills seed junk (flat_map as_c ks) L B J) as D.
  destruct (c_run (prng_init junk seed) (flat_map as_c ks)) as [g l]. destruct D as [-> _]. cbn [snd].
  rewrite (chacha_answers seed L B ks) by lia.
  pose proof (same_values seed L B ks [] 0 512 F ltac:(lia) ltac:(lia) A) as E. rewrite app_nil_r in E.
  unfold c_at at 1 in E. change (512 =? 512)%nat with true in E. cbv iota in E. rewrite E.
  destruct (py_at 0 512 ks) as [r' p']. unfold c_at. destruct (p' =? 512)%nat; cbn [c_answers]; now rewrite app_nil_r.
Qed.
Print Assumptions C94_same_draws_as_python.

(** And exactly there they part: rng.py uses the last nine bytes of the refill, the C code drops them and takes the first nine of the
    next one. *)
Theorem C94_nine_bytes_before_the_end : forall seed junk ks r, length seed = 56%nat -> bytes seed -> length junk = 512%nat ->
  Forall (fun k => k = 9%nat \/ k = 1%nat) ks -> seed_counter seed + 8 * (Z.of_nat (length ks) + 1) <= 2 ^ 64 ->
  avoids_503 512 ks = true -> py_at 0 512 ks = (S r, 503%nat) ->
  exists common, length common = length (flat_map as_c ks) /\
  flat_map as_values (requests (chacha_new seed) (ks ++ [9%nat])) =
    common ++ [le_value (crefill_byte seed r) 503 8; crefill_byte seed r 511] /\
  snd (c_run (prng_init junk seed) (flat_map as_c (ks ++ [9%nat]))) =
    common ++ [le_value (crefill_byte seed (S r)) 0 8; crefill_byte seed (S r) 8].
Proof.
  intros seed junk ks r L B J F Hc A E.
  assert (LE : forall ks r p, (fst (py_at r p ks) <= r + length ks)%nat).
  { clear. induction ks as [|k ks IH]; intros r p; cbn [py_at length]; [cbn; lia|].
    destruct (p + k <=? 512)%nat; [specialize (IH r (p + k)%nat)|specialize (IH (S r) k)]; lia. }
  pose proof (LE ks 0%nat 512%nat) as Hr. rewrite E in Hr. cbn [fst] in Hr.
  exists (flat_map as_values (answers seed 0 512 ks)). split; [|split].
  - generalize 0%nat at 1. generalize 512%nat. clear - F. induction F as [|k ks Hk F IH]; intros p r; [reflexivity|].
    cbn [flat_map answers]. rewrite app_length. destruct (p + k <=? 512)%nat; cbn [flat_map]; rewrite app_length, IH; f_equal;
      unfold as_values; rewrite map_length, seq_length; destruct Hk as [->| ->]; reflexivity.
  - rewrite (chacha_answers seed L B) by (rewrite app_length; cbn [length]; lia).
    assert (G : Forall (fun k => k = 9%nat \/ k = 1%nat) ks -> forall ks2 r p, answers seed r p (ks ++ ks2) = answers seed r p ks ++ (let '(r', p') := py_at r p ks in answers seed r' p' ks2)).
    { clear. intros F ks2. induction F as [|k ks Hk F IH]; intros r p; [reflexivity|]. cbn [app answers py_at].
      destruct (p + k <=? 512)%nat; cbn [app]; rewrite IH; [reflexivity|].
      replace (Nat.min k 512) with k by lia. reflexivity. }
    rewrite (G F), E, flat_map_app. apply app_inv_head_iff. cbn [answers]. change (503 + 9 <=? 512)%nat with true. cbv iota. cbn [flat_map].
    rewrite as_values_nine by reflexivity. replace (S r - 1)%nat with r by lia. change (503 + 8)%nat with 511%nat.
    assert (R : forall j, crefill_byte seed r j = refill_byte seed r j) by (intros j; apply C94_same_refills_as_python; auto; lia).
    rewrite (le_same (crefill_byte seed r) (refill_byte seed r) 503 R), (R 511%nat). reflexivity.
  - pose proof (C94_draws_follow_the_refills seed junk (flat_map as_c (ks ++ [9%nat])) L B J) as D.
    destruct (c_run (prng_init junk seed) (flat_map as_c (ks ++ [9%nat]))) as [g l]. destruct D as [-> _]. cbn [snd].
    rewrite flat_map_app. pose proof (same_values seed L B ks (flat_map as_c [9%nat]) 0 512 F ltac:(lia) ltac:(lia) A) as S0.
    unfold c_at at 1 in S0. change (512 =? 512)%nat with true in S0. cbv iota in S0. rewrite S0, E. apply app_inv_head_iff.
    unfold c_at. change (503 =? 512)%nat with false. cbv iota. change (flat_map as_c [9%nat]) with [U64; U8]. cbn [c_answers].
    change (503 + 9 <? 512)%nat with false. change (0 + 8 + 1 =? 512)%nat with false. cbv iota beta.
    replace (S (S r - 1)) with (S r) by lia. reflexivity.
Qed.
Print Assumptions C94_nine_bytes_before_the_end.

(** Such a history exists: 45 calls of the integer sampler, two of them with five candidate bytes in the rejection test. *)
Example C94_witness : let ks := flat_map (fun n => 9%nat :: repeat 1%nat n) (repeat 2%nat 43 ++ [6; 6])%nat in
  Forall (fun k => k = 9%nat \/ k = 1%nat) ks /\ avoids_503 512 ks = true /\ py_at 0 512 ks = (1, 503)%nat /\
  avoids_503 512 (repeat 9%nat 200) = true /\ seed_counter (map Z.of_nat (seq 0 56)) + 8 * 400 <= 2 ^ 64.
Proof.
  cbv zeta. split.
  { apply Forall_forall. intros k Hk. apply in_flat_map in Hk. destruct Hk as (n & _ & [<-|Hk]); [auto|]. right. exact (repeat_spec _ _ _ Hk). }
  vm_compute. repeat split; discriminate.
Qed.

(** prng_get_bytes, which no other file calls, does not advance inside the buffer: wherever the generator stands in a refill, it returns
    the bytes from the start of the refill, so two calls in a row return the same bytes. *)
Theorem C94_get_bytes_repeats : forall seed junk n m, length seed = 56%nat -> bytes seed -> length junk = 512%nat ->
  (0 < n)%nat -> (0 < m)%nat -> (n + m < 512)%nat ->
  let '(g, first) := prng_get_bytes n (prng_init junk seed) n in
  let '(_, second) := prng_get_bytes m g m in
  first = map (crefill_byte seed 0) (seq 0 n) /\ second = map (crefill_byte seed 0) (seq 0 m).
Proof.
  intros seed junk n m L B J Hn Hm Hnm. pose proof (init_inv seed L B junk J) as I.
  assert (G : forall p g k, inv seed 0 p g -> (0 < k)%nat -> (p + k < 512)%nat ->
    exists g', prng_get_bytes k g k = (g', map (crefill_byte seed 0) (seq 0 k)) /\ inv seed 0 (p + k) g').
  { intros p g k (Hw & Hc & Hb & Hp) Hk Hpk. destruct k as [|k']; [lia|]. cbn [prng_get_bytes].
    replace (Nat.min (512 - pptr g) (S k')) with (S k') by lia. cbv zeta. cbn [pptr].
    destruct (Nat.eqb_spec (pptr g + S k') 512); [lia|]. rewrite Nat.sub_diag.
    eexists. split.
    - replace (prng_get_bytes k' _ 0) with (mk_prng (pw g) (pctr g) (pbuf g) (pptr g + S k'), @nil Z) by (destruct k'; reflexivity).
      rewrite app_nil_r, Hb, firstn_map_seq. replace (Nat.min (S k') 512) with (S k') by lia. reflexivity.
    - unfold inv. cbn [pw pctr pbuf pptr]. rewrite Hp. split; [exact Hw|]. split; [exact Hc|]. split; reflexivity. }
  destruct (G _ _ n I Hn ltac:(lia)) as (g1 & -> & I1). destruct (G _ _ m I1 Hm ltac:(lia)) as (g2 & E2 & _). rewrite E2.
  exact (conj eq_refl eq_refl).
Qed.
Print Assumptions C94_get_bytes_repeats.
