From Verif Require Import Base PrngModel PrngSpec.

Lemma nth_ext_map {A} (l : list A) d : map (fun i => nth i l d) (seq 0 (length l)) = l.
Proof.
  induction l as [|a l IH]; auto. cbn [length seq map nth]. f_equal.
  rewrite <- seq_shift, map_map. exact IH.
Qed.

Section P.
Variable max_buffer : nat.
Variable H : list Z -> list Z.
Hypothesis H32 : forall m, length (H m) = 32%nat.

Lemma slice_app seed pos a b :
  stream_slice H seed pos (a + b) =
  stream_slice H seed pos a ++ stream_slice H seed (pos + Z.of_nat a) b.
Proof.
  unfold stream_slice. rewrite seq_app, map_app. f_equal. cbn [plus].
  replace (seq a b) with (map (fun i => (i + a)%nat) (seq 0 b)).
  - rewrite map_map. apply map_ext. intros j. f_equal. lia.
  - clear. induction b as [|b IH]; auto.
    rewrite !seq_S, map_app, IH. cbn [map]. do 2 f_equal. lia.
Qed.

Lemma slice_block seed c o k : 0 <= c -> (o + k <= 32)%nat ->
  stream_slice H seed (32 * c + Z.of_nat o) k = firstn k (skipn o (H (seed ++ be64 c))).
Proof.
  intros Hc Hk. unfold stream_slice, stream_byte.
  set (B := H (seed ++ be64 c)).
  assert (LB : length B = 32%nat) by apply H32.
  transitivity (map (fun j => nth (o + j) B 0) (seq 0 k)).
  - apply map_ext_in. intros j Hj. apply in_seq in Hj.
    replace ((32 * c + Z.of_nat o + Z.of_nat j) / 32) with c by lia.
    replace ((32 * c + Z.of_nat o + Z.of_nat j) mod 32) with (Z.of_nat (o + j)) by lia.
    rewrite Nat2Z.id. reflexivity.
  - assert (LX : length (firstn k (skipn o B)) = k) by (rewrite firstn_length, skipn_length; lia).
    rewrite <- (nth_ext_map (firstn k (skipn o B)) 0). rewrite LX.
    apply map_ext_in. intros j Hj. apply in_seq in Hj.
    rewrite <- (firstn_skipn o B) at 1. rewrite app_nth2; rewrite firstn_length; [|lia].
    replace (o + j - Nat.min o (length B))%nat with j by lia.
    rewrite <- (firstn_skipn k (skipn o B)) at 1. rewrite app_nth1; auto. lia.
Qed.

Definition Rel (s : prng) (a : agen) : Prop :=
  length (buffer s) = max_buffer /\
  match a with
  | Absorbing m => finalized s = false /\ buffer_len s = length m /\ (length m <= max_buffer)%nat /\
      firstn (length m) (buffer s) = m /\ counter s = 0
  | Squeezing m pos => finalized s = true /\ state s = H m /\ 0 <= counter s <= 2 ^ 64 /\
      ((out_buffer_len s = 0%nat /\ out_buffer_pos s = 0%nat /\ counter s = 0 /\ pos = 0) \/
       (out_buffer_len s = 32%nat /\ (out_buffer_pos s <= 32)%nat /\ 1 <= counter s /\
        out_buffer s = H (H m ++ be64 (counter s - 1)) /\
        pos = 32 * (counter s - 1) + Z.of_nat (out_buffer_pos s)))
  end.

Lemma extract_loop_spec m len : forall fuel s offset output,
  Rel s (Squeezing m (32 * counter s)) -> out_buffer_pos s = out_buffer_len s ->
  (len - offset <= fuel)%nat -> forall k, k = (len - offset)%nat ->
  exists s', extract_loop H fuel s len offset output =
    (s', if 32 * counter s + Z.of_nat k <=? stream_end
         then Ok (output ++ stream_slice H (H m) (32 * counter s) k) else Raise StructError) /\
    Rel s' (Squeezing m (if 32 * counter s + Z.of_nat k <=? stream_end
                         then 32 * counter s + Z.of_nat k else stream_end)).
Proof.
  unfold stream_end.
  induction fuel as [|fuel IH]; intros s offset output HR HE Hf k Ek.
  - assert (Hk : k = 0%nat) by lia. exists s. rewrite Hk.
    pose proof HR as (_ & _ & _ & HC & _).
    replace (32 * counter s + Z.of_nat 0 <=? 32 * 2 ^ 64) with true by lia.
    cbn [extract_loop]. replace (offset <? len)%nat with false by lia.
    split; [cbn [stream_slice seq map]; now rewrite app_nil_r|].
    replace (32 * counter s + Z.of_nat 0) with (32 * counter s) by lia. exact HR.
  - cbn [extract_loop]. destruct (Nat.ltb_spec offset len) as [Hlt|Hge].
    2:{ assert (Hk : k = 0%nat) by lia. exists s. rewrite Hk.
        pose proof HR as (_ & _ & _ & HC & _).
        replace (32 * counter s + Z.of_nat 0 <=? 32 * 2 ^ 64) with true by lia.
        split; [cbn [stream_slice seq map]; now rewrite app_nil_r|].
        replace (32 * counter s + Z.of_nat 0) with (32 * counter s) by lia. exact HR. }
    pose proof HR as (HB & HF & HS & HC & HO). unfold pack_Q.
    destruct ((0 <=? counter s) && (counter s <? 2 ^ 64)) eqn:EC.
    + set (t := Nat.min (len - offset) 32). cbn zeta.
      set (s1 := mk_prng (buffer s) (state s) (buffer_len s) (counter s + 1) (finalized s)
                   (H (state s ++ be64 (counter s))) t 32).
      destruct (le_lt_dec 32 (len - offset)) as [Hbig|Hsmall].
      * assert (Ht : t = 32%nat) by (unfold t; lia).
        destruct (IH s1 (offset + t)%nat (output ++ firstn t (H (state s ++ be64 (counter s)))))
          with (k := (len - (offset + t))%nat) as (s2 & E2 & R2).
        { split; [exact HB|]. unfold s1; cbn [buffer state buffer_len counter finalized out_buffer out_buffer_pos out_buffer_len]. split; [exact HF|]. split; [exact HS|]. split; [lia|]. right.
          split; [reflexivity|]. split; [lia|]. split; [lia|].
          split; [|lia]. rewrite HS. do 3 f_equal. lia. }
        { exact Ht. }
        { lia. }
        { reflexivity. }
        exists s2. cbn [counter s1] in E2, R2.
        replace (32 * (counter s + 1) + Z.of_nat (len - (offset + t))) with (32 * counter s + Z.of_nat k) in E2, R2
          by lia.
        split; [|exact R2]. rewrite E2. f_equal.
        destruct (32 * counter s + Z.of_nat k <=? 32 * 2 ^ 64); auto. f_equal.
        rewrite <- app_assoc. f_equal.
        replace k with (32 + (len - (offset + t)))%nat by lia.
        rewrite slice_app. f_equal.
        -- rewrite HS, Ht. replace (32 * counter s) with (32 * counter s + Z.of_nat 0) by lia.
           rewrite slice_block by lia. reflexivity.
        -- f_equal. lia.
      * assert (Ht : t = k) by (unfold t; lia).
        exists s1. split.
        -- replace (32 * counter s + Z.of_nat k <=? 32 * 2 ^ 64) with true by lia.
           assert (EX : extract_loop H fuel s1 len (offset + t) (output ++ firstn t (H (state s ++ be64 (counter s))))
                   = (s1, Ok (output ++ firstn t (H (state s ++ be64 (counter s)))))).
           { destruct fuel; cbn [extract_loop];
               (replace (offset + t <? len)%nat with false by (symmetry; apply Nat.ltb_ge; lia)); reflexivity. }
           rewrite EX, HS, Ht.
           replace (32 * counter s) with (32 * counter s + Z.of_nat 0) at 1 by lia.
           rewrite slice_block by lia. reflexivity.
        -- replace (32 * counter s + Z.of_nat k <=? 32 * 2 ^ 64) with true by lia.
           split; [exact HB|]. unfold s1; cbn [buffer state buffer_len counter finalized out_buffer out_buffer_pos out_buffer_len]. split; [exact HF|]. split; [exact HS|]. split; [lia|]. right.
           split; [reflexivity|]. split; [lia|]. split; [lia|].
           split; [|lia]. rewrite HS. do 3 f_equal. lia.
    + assert (EC' : counter s = 2 ^ 64) by lia.
      exists s. replace (32 * counter s + Z.of_nat k <=? 32 * 2 ^ 64) with false by lia.
      split; [reflexivity|]. rewrite <- EC'. exact HR.
Qed.

Lemma slice_0 seed pos : stream_slice H seed pos 0 = [].
Proof. reflexivity. Qed.

Lemma step_refines s a o : Rel s a ->
  exists s', step max_buffer H s o = (s', snd (aspec max_buffer H a o)) /\
             Rel s' (fst (aspec max_buffer H a o)).
Proof.
  intros HR. destruct o as [d| |k]; destruct a as [m|m pos]; pose proof HR as HR0; destruct HR as (HB & HR).
  - destruct HR as (HF & HL & HM & HP & HC). cbn [step aspec]. unfold inject. rewrite HF.
    rewrite HL. destruct (Nat.leb_spec (length m + length d) max_buffer) as [Hle|Hgt].
    + replace (max_buffer <? length d + length m)%nat with false by (symmetry; apply Nat.ltb_ge; lia).
      eexists. split; [reflexivity|]. cbn [fst]. split; cbn.
      * rewrite !app_length, firstn_length, skipn_length. lia.
      * repeat split; auto.
        -- rewrite app_length; lia.
        -- rewrite app_length; lia.
        -- rewrite HP. rewrite app_assoc. rewrite firstn_app_exact; auto.
    + replace (max_buffer <? length d + length m)%nat with true by (symmetry; apply Nat.ltb_lt; lia).
      eexists. split; [reflexivity|]. exact HR0.
  - destruct HR as (HF & _). cbn [step aspec]. unfold inject. rewrite HF.
    eexists. split; [reflexivity|]. exact HR0.
  - destruct HR as (HF & HL & HM & HP & HC). cbn [step aspec]. unfold flip. rewrite HF.
    eexists. split; [reflexivity|]. cbn. split; [exact HB|]. cbn.
    rewrite HL, HP. repeat split; auto; try lia.
  - destruct HR as (HF & _). cbn [step aspec]. unfold flip. rewrite HF.
    eexists. split; [reflexivity|]. exact HR0.
  - destruct HR as (HF & _). cbn [step aspec]. unfold extract. rewrite HF. cbn [negb].
    eexists. split; [reflexivity|]. exact HR0.
  - destruct HR as (HF & HS & HC & HO). cbn [step aspec]. unfold extract. rewrite HF. cbn [negb].
    destruct (Nat.ltb_spec (out_buffer_pos s) (out_buffer_len s)) as [Hav|Hno].
    + destruct HO as [(? & ? & _)|(HL32 & HPos & HC1 & HOB & HPOS)]; [lia|].
      rewrite HL32 in *. set (t := Nat.min k (32 - out_buffer_pos s)).
      set (s1 := mk_prng (buffer s) (state s) (buffer_len s) (counter s) true
                (out_buffer s) (out_buffer_pos s + t) 32).
      assert (Eout : slice (out_buffer_pos s) (out_buffer_pos s + t) (out_buffer s)
                     = stream_slice H (H m) pos t).
      { rewrite HPOS, slice_block by lia. unfold slice. rewrite HOB. f_equal. lia. }
      rewrite Eout. destruct (Nat.eqb_spec t k) as [Etk|Ntk].
      * exists s1. replace (pos + Z.of_nat k <=? stream_end) with true by (unfold stream_end; lia).
        split; [cbn [snd]; rewrite Etk; reflexivity|]. cbn [fst]. split; [exact HB|]. unfold s1; cbn [buffer state buffer_len counter finalized out_buffer out_buffer_pos out_buffer_len].
        repeat split; auto; try lia. right. repeat split; auto; lia.
      * destruct (extract_loop_spec m k k s1 t (stream_slice H (H m) pos t)) with (k := (k - t)%nat) as (s2 & E2 & R2).
        { split; [exact HB|]. unfold s1; cbn [buffer state buffer_len counter finalized out_buffer out_buffer_pos out_buffer_len]. repeat split; auto; try lia. right. repeat split; auto; lia. }
        { unfold s1. cbn [out_buffer_pos out_buffer_len]. lia. }
        { lia. }
        { reflexivity. }
        cbn [counter s1] in E2, R2.
        replace (32 * counter s + Z.of_nat (k - t)) with (pos + Z.of_nat k) in E2, R2 by lia.
        exists s2. rewrite E2. destruct (pos + Z.of_nat k <=? stream_end); cbn [fst snd].
        -- split; [|exact R2]. do 2 f_equal.
           replace (32 * counter s) with (pos + Z.of_nat t) by lia. rewrite <- slice_app. f_equal. lia.
        -- split; [reflexivity|exact R2].
    + assert (HP : pos = 32 * counter s).
      { destruct HO as [(? & ? & ? & ?)|(HL32 & HPos & HC1 & HOB & HPOS)]; lia. }
      subst pos.
      destruct (extract_loop_spec m k k s 0 []) with (k := (k - 0)%nat) as (s2 & E2 & R2).
      { exact HR0. }
      { destruct HO as [(? & ? & ? & ?)|(HL32 & HPos & HC1 & HOB & HPOS)]; lia. }
      { lia. }
      { reflexivity. }
      rewrite Nat.sub_0_r in E2, R2. exists s2. rewrite E2.
      destruct (32 * counter s + Z.of_nat k <=? stream_end); cbn [fst snd]; (split; [reflexivity|exact R2]).
Qed.

Lemma run_refines ops : forall s a, Rel s a -> run max_buffer H s ops = arun max_buffer H a ops.
Proof.
  induction ops as [|o ops IH]; intros s a HR; auto. cbn [run arun].
  destruct (step_refines s a o HR) as (s' & E & R'). rewrite E.
  destruct (aspec max_buffer H a o) as [a' r]. cbn [fst snd] in *. f_equal. auto.
Qed.

Lemma rel_new : Rel (prng_new max_buffer) (Absorbing []).
Proof. split; cbn; [apply repeat_length|repeat split; auto; lia]. Qed.

Theorem prng_refines ops : run max_buffer H (prng_new max_buffer) ops = arun max_buffer H (Absorbing []) ops.
Proof. apply run_refines, rel_new. Qed.

(** Consequences in the vocabulary of the properties. *)
Lemma arun_app ops1 ops2 : forall a, exists a',
  arun max_buffer H a (ops1 ++ ops2) = arun max_buffer H a ops1 ++ arun max_buffer H a' ops2 /\
  a' = fold_left (fun a o => fst (aspec max_buffer H a o)) ops1 a.
Proof.
  induction ops1 as [|o ops IH]; intros a.
  - exists a. split; reflexivity.
  - cbn [app arun fold_left]. destruct (aspec max_buffer H a o) as [a1 r] eqn:E.
    destruct (IH a1) as (a' & E' & F'). exists a'. cbn [app]. rewrite E'. split; auto.
Qed.

Lemma updates_absorb ds : forall m, (length m + length (concat ds) <= max_buffer)%nat ->
  arun max_buffer H (Absorbing m) (map Update ds) = map (fun _ => Done) ds /\
  fold_left (fun a o => fst (aspec max_buffer H a o)) (map Update ds) (Absorbing m)
    = Absorbing (m ++ concat ds).
Proof.
  induction ds as [|d ds IH]; intros m Hm.
  - cbn. rewrite app_nil_r. auto.
  - cbn [concat] in Hm. rewrite app_length in Hm. cbn [map arun fold_left aspec].
    replace (length m + length d <=? max_buffer)%nat with true by (symmetry; apply Nat.leb_le; lia).
    cbn [fst]. destruct (IH (m ++ d)) as [A B]. { rewrite app_length. lia. }
    rewrite A, B. cbn [concat]. rewrite app_assoc. auto.
Qed.

(** Absorption: any split behaves as the single update with the concatenation. *)
Theorem absorb_concat ds tail : (length (concat ds) <= max_buffer)%nat ->
  run max_buffer H (prng_new max_buffer) (map Update ds ++ tail)
    = map (fun _ => Done) ds ++ skipn 1 (run max_buffer H (prng_new max_buffer) (Update (concat ds) :: tail)).
Proof.
  intros Hm. rewrite !prng_refines.
  destruct (arun_app (map Update ds) tail (Absorbing [])) as (a & E & F).
  destruct (updates_absorb ds []) as [A B]. { cbn. lia. }
  rewrite E, A. rewrite B in F. subst a. f_equal. cbn [app].
  cbn [arun aspec length app]. replace (0 + length (concat ds) <=? max_buffer)%nat with true
    by (symmetry; apply Nat.leb_le; lia). reflexivity.
Qed.

(** An update that is refused has no effect on anything observed later. *)
Theorem refused_update_no_effect pre d post :
  nth (length pre) (run max_buffer H (prng_new max_buffer) (pre ++ Update d :: post)) Done = Error ValueError ->
  run max_buffer H (prng_new max_buffer) (pre ++ Update d :: post) =
  firstn (length pre) (run max_buffer H (prng_new max_buffer) (pre ++ post)) ++ Error ValueError ::
  skipn (length pre) (run max_buffer H (prng_new max_buffer) (pre ++ post)).
Proof.
  rewrite !prng_refines.
  destruct (arun_app pre (Update d :: post) (Absorbing [])) as (a & E & F).
  destruct (arun_app pre post (Absorbing [])) as (a' & E' & F').
  assert (a' = a) by congruence. subst a'.
  assert (L : forall a0, length (arun max_buffer H a0 pre) = length pre).
  { clear. induction pre as [|o pre IH]; intros a0; auto. cbn [arun].
    destruct (aspec max_buffer H a0 o). cbn. auto. }
  rewrite E, E'. rewrite app_nth2 by (rewrite L; lia). rewrite L, Nat.sub_diag.
  rewrite firstn_app_exact, skipn_app_exact by (symmetry; apply L).
  cbn [arun]. destruct (aspec max_buffer H a (Update d)) as [a2 r] eqn:EA. cbn [nth].
  intros ->. do 2 f_equal.
  destruct a as [m|m pos]; cbn [aspec] in EA.
  - destruct (length m + length d <=? max_buffer)%nat; congruence.
  - congruence.
Qed.

(** The abstract state after a sequence of reads. *)
Lemma arun_reads m ks : forall pos, 0 <= pos ->
  pos + Z.of_nat (list_sum ks) <= stream_end ->
  arun max_buffer H (Squeezing m pos) (map Read ks) =
  map (fun i => Bytes (stream_slice H (H m) (pos + Z.of_nat (list_sum (firstn i ks))) (nth i ks 0%nat)))
      (seq 0 (length ks)).
Proof.
  induction ks as [|k ks IH]; intros pos Hp Hs; auto.
  change (list_sum (k :: ks)) with (k + list_sum ks)%nat in Hs.
  cbn [map arun aspec].
  replace (pos + Z.of_nat k <=? stream_end) with true by lia.
  rewrite IH by lia. cbn [length seq map nth firstn].
  f_equal; [do 2 f_equal; cbn; lia|]. rewrite <- seq_shift, map_map. apply map_ext. intros i.
  cbn [firstn nth]. change (list_sum (k :: firstn i ks)) with (k + list_sum (firstn i ks))%nat.
  do 2 f_equal. lia.
Qed.

Theorem read_stream ds ks : (length (concat ds) <= max_buffer)%nat ->
  Z.of_nat (list_sum ks) <= stream_end ->
  run max_buffer H (prng_new max_buffer) (map Update ds ++ Flip :: map Read ks) =
  map (fun _ => Done) ds ++ Done ::
  map (fun i => Bytes (stream_slice H (H (concat ds)) (Z.of_nat (list_sum (firstn i ks))) (nth i ks 0%nat)))
      (seq 0 (length ks)).
Proof.
  intros Hm Hs. rewrite prng_refines.
  destruct (arun_app (map Update ds) (Flip :: map Read ks) (Absorbing [])) as (a & E & F).
  destruct (updates_absorb ds []) as [A B]. { cbn. lia. }
  rewrite E, A. rewrite B in F. subst a. f_equal. cbn [app arun aspec]. f_equal.
  rewrite arun_reads by lia. reflexivity.
Qed.

(** Outputs of the reads, concatenated, are one prefix of the stream. *)
Lemma slices_concat seed ks : forall pos,
  concat (map (fun i => stream_slice H seed (pos + Z.of_nat (list_sum (firstn i ks))) (nth i ks 0%nat))
      (seq 0 (length ks))) = stream_slice H seed pos (list_sum ks).
Proof.
  induction ks as [|k ks IH]; intros pos; auto.
  cbn [length seq map concat]. change (list_sum (k :: ks)) with (k + list_sum ks)%nat.
  rewrite slice_app, <- IH. f_equal.
  - cbn [firstn nth]. f_equal. cbn. lia.
  - rewrite <- seq_shift, map_map. f_equal. apply map_ext. intros i.
    cbn [firstn nth]. change (list_sum (k :: firstn i ks)) with (k + list_sum (firstn i ks))%nat.
    f_equal. lia.
Qed.

(** Phase discipline over whole histories. *)
Definition flip_done (ops : list op) : bool :=
  existsb (fun o => match o with Flip => true | _ => false end) ops.

Lemma phase_after ops : forall a,
  match fold_left (fun a o => fst (aspec max_buffer H a o)) ops a with
  | Absorbing _ => flip_done ops = false /\ (exists m, a = Absorbing m)
  | Squeezing _ _ => flip_done ops = true \/ (exists m p, a = Squeezing m p)
  end.
Proof.
  induction ops as [|o ops IH]; intros a; cbn [fold_left].
  - destruct a; eauto.
  - specialize (IH (fst (aspec max_buffer H a o))).
    destruct (fold_left _ ops _) eqn:E.
    + destruct IH as [F (m & Em)]. destruct o as [d| |k]; destruct a as [m0|m0 p]; cbn [aspec] in Em.
      * split; [exact F|eauto].
      * cbn in Em. discriminate.
      * cbn in Em. discriminate.
      * cbn in Em. discriminate.
      * split; [exact F|eauto].
      * destruct (p + Z.of_nat k <=? stream_end); cbn in Em; discriminate.
    + destruct IH as [F|(m & p & Em)].
      * left. unfold flip_done in *. cbn [existsb]. rewrite F. apply orb_true_r.
      * destruct o as [d| |k]; destruct a as [m0|m0 p0]; cbn [aspec] in Em; eauto.
        destruct (length m0 + length d <=? max_buffer)%nat; cbn in Em; discriminate.
Qed.

Lemma run_last pre o : nth (length pre) (run max_buffer H (prng_new max_buffer) (pre ++ [o])) Done =
  snd (aspec max_buffer H (fold_left (fun a o => fst (aspec max_buffer H a o)) pre (Absorbing [])) o).
Proof.
  rewrite prng_refines. destruct (arun_app pre [o] (Absorbing [])) as (a & E & F).
  assert (L : forall a0, length (arun max_buffer H a0 pre) = length pre).
  { clear. induction pre as [|o pre IH]; intros a0; auto. cbn [arun].
    destruct (aspec max_buffer H a0 o). cbn. auto. }
  rewrite E, app_nth2 by (rewrite L; lia). rewrite L, Nat.sub_diag. rewrite F. cbn [arun].
  destruct (aspec max_buffer H _ o). reflexivity.
Qed.

Theorem phase_discipline pre :
  (flip_done pre = false -> forall k,
     nth (length pre) (run max_buffer H (prng_new max_buffer) (pre ++ [Read k])) Done = Error ValueError) /\
  (flip_done pre = true -> forall d,
     nth (length pre) (run max_buffer H (prng_new max_buffer) (pre ++ [Update d])) Done = Error ValueError) /\
  (flip_done pre = true ->
     nth (length pre) (run max_buffer H (prng_new max_buffer) (pre ++ [Flip])) Done = Error ValueError).
Proof.
  pose proof (phase_after pre (Absorbing [])) as P.
  assert (S : flip_done pre = true -> exists m p,
    fold_left (fun a o => fst (aspec max_buffer H a o)) pre (Absorbing []) = Squeezing m p).
  { intros F. destruct (fold_left _ pre _); eauto. destruct P. congruence. }
  assert (A : flip_done pre = false -> exists m,
    fold_left (fun a o => fst (aspec max_buffer H a o)) pre (Absorbing []) = Absorbing m).
  { intros F. destruct (fold_left _ pre _); eauto. destruct P as [P|(m & p & P)]; congruence. }
  repeat split; intros F; [intros k|intros d|]; rewrite run_last.
  - destruct (A F) as (m & ->). reflexivity.
  - destruct (S F) as (m & p & ->). reflexivity.
  - destruct (S F) as (m & p & ->). reflexivity.
Qed.

(** failing calls after flip do not disturb the stream: outputs depend on the successful reads only *)
End P.

(** * KeccaXOF *)
Section X.
Variable H : list Z -> list Z.
Hypothesis H32 : forall m, length (H m) = 32%nat.
Hypothesis Hbytes : forall m, bytes (H m).

(** the chain stream *)
Definition chain_slice m (pos k : nat) : list Z := map (chain_byte H m) (seq pos k).

Lemma chain_slice_app m pos a b : chain_slice m pos (a + b) = chain_slice m pos a ++ chain_slice m (pos + a) b.
Proof. unfold chain_slice. now rewrite seq_app, map_app. Qed.

Lemma chain_slice_length m pos k : length (chain_slice m pos k) = k.
Proof. unfold chain_slice. now rewrite map_length, seq_length. Qed.

Lemma chain_length m i : length (chain H m i) = 32%nat.
Proof. unfold chain. destruct i; cbn; apply H32. Qed.

Lemma chain_block m c : chain_slice m (32 * c) 32 = chain H m c.
Proof.
  unfold chain_slice. rewrite <- (nth_ext_map (chain H m c) 0), chain_length.
  replace (seq (32 * c) 32) with (map (fun i => (i + 32 * c)%nat) (seq 0 32)).
  - rewrite map_map. apply map_ext_in. intros j Hj. apply in_seq in Hj. unfold chain_byte.
    replace ((j + 32 * c) / 32)%nat with c by lia. replace ((j + 32 * c) mod 32)%nat with j by lia. reflexivity.
  - generalize 32%nat at 2 4. intros b. induction b as [|b IH]; auto.
    rewrite !seq_S, map_app, IH. cbn [map]. do 2 f_equal. lia.
Qed.

(** After [pos] bytes were read and [c+1] blocks produced. *)
Definition KRel (m : list Z) (pos : nat) (s : kxof) : Prop :=
  exists c, klast s = Some (chain H m c) /\ (pos <= 32 * (c + 1))%nat /\
            ktmp s = chain_slice m pos (32 * (c + 1) - pos).

Lemma kxof_fill_spec m pos k : forall fuel c, (pos <= 32 * (c + 1))%nat ->
  (k <= fuel + (32 * (c + 1) - pos))%nat ->
  exists c', (c <= c')%nat /\ (pos + k <= 32 * (c' + 1))%nat /\
    kxof_fill H fuel (chain H m c) (chain_slice m pos (32 * (c + 1) - pos)) k =
    (chain H m c', chain_slice m pos (32 * (c' + 1) - pos)).
Proof.
  induction fuel as [|fuel IH]; intros c Hc Hk.
  - exists c. cbn [kxof_fill]. rewrite chain_slice_length.
    replace (32 * (c + 1) - pos <? k)%nat with false by (symmetry; apply Nat.ltb_ge; lia).
    repeat split; lia.
  - cbn [kxof_fill]. rewrite chain_slice_length.
    destruct (Nat.ltb_spec (32 * (c + 1) - pos) k).
    + destruct (IH (S c)) as (c' & H1 & H2 & E); [lia|lia|]. exists c'. split; [lia|]. split; [lia|].
      rewrite <- E. f_equal.
      replace (32 * (S c + 1) - pos)%nat with ((32 * (c + 1) - pos) + 32)%nat by lia.
      rewrite chain_slice_app. f_equal.
      replace (pos + (32 * (c + 1) - pos))%nat with (32 * (S c))%nat by lia.
      now rewrite chain_block.
    + exists c. repeat split; lia.
Qed.

Lemma chain_byte_byte m i : is_byte (chain_byte H m i).
Proof.
  unfold chain_byte. pose proof (chain_length m (i / 32)) as L.
  assert (B : bytes (chain H m (i / 32))) by (unfold chain; destruct (i/32)%nat; cbn; apply Hbytes).
  unfold bytes in B. rewrite Forall_forall in B. apply B. apply nth_In. lia.
Qed.

(** read(2) on a state reached after [pos] bytes *)
Lemma kread2 m pos s : KRel m pos s ->
  exists s', kxof_read H s 2 = (s', Ok (chain_slice m pos 2)) /\ KRel m (pos + 2) s'.
Proof.
  intros (c & HL & HP & HT). unfold kxof_read. rewrite HL, HT.
  destruct (kxof_fill_spec m pos 2 2 c HP) as (c' & H1 & H2 & E); [lia|]. rewrite E.
  replace (32 * (c' + 1) - pos)%nat with (2 + (32 * (c' + 1) - (pos + 2)))%nat by lia.
  rewrite chain_slice_app.
  rewrite firstn_app_exact, skipn_app_exact by (now rewrite chain_slice_length).
  assert (EV : chain_slice m pos 2 = [chain_byte H m pos; chain_byte H m (S pos)]) by reflexivity.
  pose proof (chain_byte_byte m pos) as B0. pose proof (chain_byte_byte m (S pos)) as B1.
  rewrite EV. unfold be_int. cbn [fold_left]. unfold is_byte in *.
  replace (65536 <=? 256 * (256 * 0 + chain_byte H m pos) + chain_byte H m (S pos)) with false by lia.
  eexists. split.
  - do 3 f_equal; [lia|]. f_equal. lia.
  - exists c'. cbn. repeat split; auto; lia.
Qed.

Lemma kread2_first s : klast s = None ->
  exists s', kxof_read H s 2 = (s', Ok (chain_slice (concat (kinput s)) 0 2)) /\
             KRel (concat (kinput s)) 2 s'.
Proof.
  intros HL.
  set (m := concat (kinput s)).
  destruct (kread2 m 0 (mk_kxof (kinput s) (Some (H m)) (H m))) as (s' & E & R).
  { exists 0%nat. cbn [klast ktmp]. split; [reflexivity|]. split; [lia|]. symmetry. exact (chain_block m 0). }
  exists s'. split; [|exact R]. unfold kxof_read in *. cbn [klast kinput ktmp] in E. rewrite HL. exact E.
Qed.

Fixpoint kreads (s : kxof) (j : nat) : list (res (list Z)) :=
  match j with O => [] | S j' => let (s', r) := kxof_read H s 2 in r :: kreads s' j' end.

Lemma kreads_spec m j : forall pos s, KRel m pos s ->
  kreads s j = map (fun i => Ok (chain_slice m (pos + 2 * i) 2)) (seq 0 j).
Proof.
  induction j as [|j IH]; intros pos s HR; auto.
  destruct (kread2 m pos s HR) as (s' & E & R'). cbn [kreads]. rewrite E. cbn [seq map].
  f_equal; [do 2 f_equal; lia|]. rewrite (IH _ _ R'), <- seq_shift, map_map. apply map_ext. intros i.
  do 2 f_equal. lia.
Qed.

Lemma kupdates ds : forall s, klast s = None ->
  fold_left (fun s d => fst (kxof_update s d)) ds s = mk_kxof (kinput s ++ ds) None (ktmp s).
Proof.
  induction ds as [|d ds IH]; intros s HL; cbn [fold_left].
  - rewrite app_nil_r. destruct s; cbn in *. now subst.
  - unfold kxof_update at 2. rewrite HL. cbn [fst]. rewrite IH by reflexivity. cbn.
    now rewrite <- app_assoc.
Qed.

Theorem kxof_reads ds j :
  kreads (fold_left (fun s d => fst (kxof_update s d)) ds kxof_new) j =
  map (fun i => Ok (map (chain_byte H (concat ds)) (seq (2 * i) 2))) (seq 0 j).
Proof.
  rewrite kupdates by reflexivity. cbn [kinput kxof_new app ktmp].
  destruct j as [|j]; auto. cbn [kreads].
  destruct (kread2_first (mk_kxof ds None [])) as (s' & E & R); [reflexivity|].
  rewrite E. cbn [kinput] in *. cbn [seq map]. f_equal.
  rewrite (kreads_spec _ _ _ _ R), <- seq_shift, map_map. apply map_ext. intros i.
  unfold chain_slice. replace (2 * S i)%nat with (2 + 2 * i)%nat by lia. reflexivity.
Qed.

Theorem kxof_update_after_read s k d : 
  let s' := fst (kxof_read H s k) in kxof_update s' d = (s', Raise ValueError).
Proof.
  intros s'. unfold kxof_update. 
  assert (exists l, klast s' = Some l) as (l & ->); auto.
  unfold s', kxof_read.
  destruct (match klast s with None => _ | Some l => _ end) as [l t].
  destruct (kxof_fill H k l t k) as [l' t'].
  destruct (firstn k t'); cbn; eauto. destruct (65536 <=? _); cbn; eauto.
Qed.
End X.
