From Verif Require Import Base KeccakModel KeccakSpec KeccakProofs SpongeProofs ShakeProofs
  PrngModel PrngSpec PrngProofs HashModel HashSpec.

(** ** Generic rejection sampling *)
Lemma accepted_S w N : accepted w (S N) =
  accepted w N ++ (if w N <? 5 * 12289 then [w N mod 12289] else []).
Proof.
  unfold accepted. rewrite seq_S, map_app, filter_app, map_app. cbn [plus map filter].
  destruct (w N <? 5 * 12289); reflexivity.
Qed.
Lemma accepted_mono w N d : (length (accepted w N) <= length (accepted w (N + d)))%nat.
Proof.
  induction d as [|d IH]; [rewrite Nat.add_0_r; lia|]. rewrite <- plus_n_Sm, accepted_S, app_length. lia.
Qed.

Lemma first_accepted_unique w n N1 v1 N2 v2 : first_accepted w n N1 v1 -> first_accepted w n N2 v2 ->
  N1 = N2 /\ v1 = v2.
Proof.
  intros (E1 & L1 & M1) (E2 & L2 & M2). destruct (Nat.lt_trichotomy N1 N2) as [H|[H|H]].
  - specialize (M2 _ H). subst. lia.
  - subst. auto.
  - specialize (M1 _ H). subst. lia.
Qed.

Lemma accepted_range w N : Forall (fun x => 0 <= x < 12289) (accepted w N).
Proof. unfold accepted. apply Forall_map, Forall_forall. intros x _. apply Z.mod_pos_bound. lia. Qed.

(** loop invariant: k words consumed, the n-th not reached before *)
Definition Prog (w : nat -> Z) (n k : nat) (out : list Z) : Prop :=
  out = accepted w k /\ forall N', (N' < k)%nat -> (length (accepted w N') < n)%nat.

Lemma Prog_0 w n : Prog w n 0 [].
Proof. split; [reflexivity|]. intros; lia. Qed.
Lemma Prog_step w n k out : Prog w n k out -> (length out < n)%nat ->
  Prog w n (S k) (if w k <? 5 * 12289 then out ++ [w k mod 12289] else out).
Proof.
  intros [E M] L. split.
  - rewrite accepted_S, <- E. destruct (w k <? 5 * 12289); [reflexivity|now rewrite app_nil_r].
  - intros N' HN. destruct (Nat.eq_dec N' k) as [->|]; [now rewrite <- E|apply M; lia].
Qed.
Lemma Prog_len w n k out : Prog w n k out -> (length out <= n)%nat.
Proof.
  intros [E M]. destruct k as [|k]; [subst; cbn; lia|]. specialize (M k ltac:(lia)).
  subst. rewrite accepted_S, app_length. destruct (w k <? 5 * 12289); cbn [length]; lia.
Qed.
Lemma Prog_final w n k out : Prog w n k out -> (n <= length out)%nat -> first_accepted w n k out.
Proof. intros P L. pose proof (Prog_len _ _ _ _ P). destruct P as [E M]. split; [exact E|]. split; [lia|exact M]. Qed.
Lemma Prog_le_N w n N v k out : first_accepted w n N v -> Prog w n k out -> (length out < n)%nat -> (k < N)%nat.
Proof.
  intros (E & L & M) [E2 M2] H. destruct (Nat.lt_ge_cases k N) as [|G]; auto. exfalso.
  pose proof (accepted_mono w N (k - N)) as G2. replace (N + (k - N))%nat with k in G2 by lia. subst. lia.
Qed.

(** ** Python *)
Section Py.
Variable X : xof.
Variable b : nat -> Z.
Variable ok : nat -> Prop.                 (* read number k is within the stream *)
Variable R : nat -> xt X -> Prop.          (* k reads done *)
Hypothesis Rread : forall k x, R k x -> ok k ->
  exists x', xread X x 2 = (x', Ok [b (2 * k)%nat; b (2 * k + 1)%nat]) /\ R (S k) x'.
Hypothesis Rfail : forall k x, R k x -> ~ ok k -> exists x' e, xread X x 2 = (x', Raise e).
Hypothesis ok_dec : forall k, ok k \/ ~ ok k.

Lemma elt_word k : Z.shiftl (b (2 * k)%nat) 8 + b (2 * k + 1)%nat = word16 b k.
Proof. unfold word16. rewrite Z.shiftl_mul_pow2 by lia. change (2 ^ 8) with 256. ring. Qed.

Lemma h2p_loop_sound n : forall fuel k x out v, R k x -> Prog (word16 b) n k out ->
  h2p_loop X fuel n x out = Fin (Ok v) ->
  exists N, first_accepted (word16 b) n N v /\ (N <= k + fuel)%nat /\ forall i, (k <= i < N)%nat -> ok i.
Proof.
  induction fuel as [|fuel IH]; intros k x out v HR HP E; cbn [h2p_loop] in E;
    (destruct (Nat.ltb_spec (length out) n) as [L|L];
     [|injection E as <-; exists k; split; [now apply Prog_final|]; split; [lia|intros; lia]]).
  - discriminate E.
  - destruct (ok_dec k) as [Ok1|No].
    + destruct (Rread k x HR Ok1) as (x' & Er & HR'). rewrite Er in E. cbn [nth] in E.
      rewrite elt_word in E. change (Z.shiftl 1 16 / q * q) with (5 * 12289) in E. unfold q in E.
      destruct (IH _ _ _ _ HR' (Prog_step _ _ _ _ HP L) E) as (N & F & B & O).
      exists N. split; [exact F|]. split; [lia|]. intros i Hi. destruct (Nat.eq_dec i k) as [->|]; [exact Ok1|]. apply O. lia.
    + destruct (Rfail k x HR No) as (x' & e & Er). rewrite Er in E. discriminate E.
Qed.

Lemma h2p_loop_complete n N v : first_accepted (word16 b) n N v -> (forall i, (i < N)%nat -> ok i) ->
  forall fuel k x out, R k x -> Prog (word16 b) n k out -> (N <= k + fuel)%nat ->
  h2p_loop X fuel n x out = Fin (Ok v).
Proof.
  intros HF HO. induction fuel as [|fuel IH]; intros k x out HR HP HN; cbn [h2p_loop];
    (destruct (Nat.ltb_spec (length out) n) as [L|L];
     [|do 2 f_equal; now apply (first_accepted_unique _ _ _ _ _ _ (Prog_final _ _ _ _ HP L) HF)]).
  - pose proof (Prog_le_N _ _ _ _ _ _ HF HP L). lia.
  - pose proof (Prog_le_N _ _ _ _ _ _ HF HP L) as HK.
    destruct (Rread k x HR (HO k HK)) as (x' & Er & HR'). rewrite Er. cbn [nth].
    rewrite elt_word. change (Z.shiftl 1 16 / q * q) with (5 * 12289). unfold q.
    apply (IH (S k)); [exact HR'|now apply Prog_step|lia].
Qed.

Variables (n : nat) (message salt : list Z).
Hypothesis Hinit : exists x1 x2 x3, xupdate X (xnew X) (xsalt X salt) = (x1, Ok tt) /\
  xupdate X x1 message = (x2, Ok tt) /\ xflip X x2 = (x3, Ok tt) /\ R 0 x3.

Theorem h2p_sound fuel v : hash_to_point fuel n message salt X = Fin (Ok v) ->
  exists N, first_accepted (word16 b) n N v /\ (N <= fuel)%nat /\ forall i, (i < N)%nat -> ok i.
Proof.
  destruct Hinit as (x1 & x2 & x3 & E1 & E2 & E3 & R0). unfold hash_to_point. rewrite E1, E2, E3.
  intros E. destruct (h2p_loop_sound n fuel 0 x3 [] v R0 (Prog_0 _ _) E) as (N & F & B & O).
  exists N. split; [exact F|]. split; [lia|]. intros; apply O; lia.
Qed.
Theorem h2p_complete fuel N v : first_accepted (word16 b) n N v -> (forall i, (i < N)%nat -> ok i) ->
  (N <= fuel)%nat -> hash_to_point fuel n message salt X = Fin (Ok v).
Proof.
  destruct Hinit as (x1 & x2 & x3 & E1 & E2 & E3 & R0). unfold hash_to_point. rewrite E1, E2, E3.
  intros HF HO HN. apply (h2p_loop_complete n N v HF HO fuel 0 x3 []); auto. apply Prog_0.
Qed.
End Py.

(** ** Instances *)
Section Inst.
Variable H : list Z -> list Z.
Hypothesis H32 : forall m, length (H m) = 32%nat.

(** byte stream of the counter generators on input m *)
Definition ctr_stream (m : list Z) (i : nat) : Z := stream_byte H (H m) (Z.of_nat i).
Definition ctr_ok (k : nat) : Prop := Z.of_nat k < 16 * 2 ^ 64.

Section Prng.
Variable max : nat.
Lemma inject_step s d m : Rel max H s (Absorbing m) -> (length m + length d <= max)%nat ->
  exists s', inject max s d = (s', Ok tt) /\ Rel max H s' (Absorbing (m ++ d)).
Proof.
  intros HR Hl. destruct (step_refines max H H32 s (Absorbing m) (Update d) HR) as (s' & E & R').
  cbn [aspec step] in *. destruct (Nat.leb_spec (length m + length d) max); [|lia]. cbn [fst snd] in *.
  destruct (inject max s d) as [s2 [[]|e]] eqn:Ei; inversion E; subst. eauto.
Qed.
Lemma flip_step s m : Rel max H s (Absorbing m) ->
  exists s', flip H s = (s', Ok tt) /\ Rel max H s' (Squeezing m 0).
Proof.
  intros HR. destruct (step_refines max H H32 s (Absorbing m) Flip HR) as (s' & E & R').
  cbn [aspec step fst snd] in *. destruct (flip H s) as [s2 [[]|e]] eqn:Ei; inversion E; subst. eauto.
Qed.
Lemma read_step m k s : Rel max H s (Squeezing m (2 * Z.of_nat k)) -> ctr_ok k ->
  exists s', extract H s 2 = (s', Ok [ctr_stream m (2 * k); ctr_stream m (2 * k + 1)]) /\
             Rel max H s' (Squeezing m (2 * Z.of_nat (S k))).
Proof.
  intros HR Hk. unfold ctr_ok in Hk. remember (2 * Z.of_nat k) as p eqn:Ep.
  destruct (step_refines max H H32 s _ (Read 2) HR) as (s' & E & R').
  cbn [aspec step] in *. unfold stream_end in *.
  destruct (Z.leb_spec (p + Z.of_nat 2) (32 * 2 ^ 64)); [|lia]. cbn [fst snd] in *.
  destruct (extract H s 2) as [s2 [o|e]] eqn:Ei; [|discriminate E].
  assert (s2 = s' /\ o = stream_slice H (H m) p 2) as [-> ->] by (split; congruence). exists s'. split.
  - do 2 f_equal. unfold stream_slice, ctr_stream. cbn [seq map]. apply f_equal2; [|apply f_equal2; [|reflexivity]]; apply (f_equal (stream_byte H (H m))); lia.
  - replace (2 * Z.of_nat (S k)) with (p + Z.of_nat 2) by lia. exact R'.
Qed.
Lemma read_fail m k s : Rel max H s (Squeezing m (2 * Z.of_nat k)) -> ~ ctr_ok k ->
  exists s' e, extract H s 2 = (s', Raise e).
Proof.
  intros HR Hk. unfold ctr_ok in Hk. remember (2 * Z.of_nat k) as p eqn:Ep.
  destruct (step_refines max H H32 s _ (Read 2) HR) as (s' & E & R').
  cbn [aspec step] in *. unfold stream_end in *.
  destruct (Z.leb_spec (p + Z.of_nat 2) (32 * 2 ^ 64)); [lia|]. cbn [fst snd] in *.
  destruct (extract H s 2) as [s2 [o|e]] eqn:Ei; inversion E; subst. eauto.
Qed.
Lemma prng_init salt msg : (length salt + length msg <= max)%nat -> exists x1 x2 x3,
  inject max (prng_new max) salt = (x1, Ok tt) /\ inject max x1 msg = (x2, Ok tt) /\
  flip H x2 = (x3, Ok tt) /\ Rel max H x3 (Squeezing (salt ++ msg) (2 * Z.of_nat 0)).
Proof.
  intros Hl. destruct (inject_step _ salt [] (rel_new max H)) as (x1 & E1 & R1); [cbn; lia|].
  destruct (inject_step x1 msg ([] ++ salt) R1) as (x2 & E2 & R2); [cbn; lia|].
  destruct (flip_step x2 _ R2) as (x3 & E3 & R3). exists x1, x2, x3. auto.
Qed.
End Prng.

Lemma KeccakPRNG_h2p n msg salt : (length salt + length msg <= Z.to_nat 4096)%nat -> forall fuel v,
  hash_to_point fuel n msg salt (KeccakPRNG H) = Fin (Ok v) <->
  exists N, first_accepted (word16 (ctr_stream (salt ++ msg))) n N v /\ (N <= fuel)%nat /\ Z.of_nat N <= 16 * 2 ^ 64.
Proof.
  intros Hl fuel v.
  set (RR := fun k (x : xt (KeccakPRNG H)) => Rel (Z.to_nat 4096) H x (Squeezing (salt ++ msg) (2 * Z.of_nat k))).
  assert (Hd : forall k, ctr_ok k \/ ~ ctr_ok k) by (intros; unfold ctr_ok; lia).
  assert (Hr : forall k x, RR k x -> ctr_ok k -> exists x', xread (KeccakPRNG H) x 2 =
     (x', Ok [ctr_stream (salt ++ msg) (2 * k); ctr_stream (salt ++ msg) (2 * k + 1)]) /\ RR (S k) x')
    by (intros k x; apply read_step).
  assert (Hf : forall k x, RR k x -> ~ ctr_ok k -> exists x' e, xread (KeccakPRNG H) x 2 = (x', Raise e))
    by (intros k x; apply read_fail).
  pose proof (prng_init (Z.to_nat 4096) salt msg Hl : exists x1 x2 x3, xupdate (KeccakPRNG H) (xnew (KeccakPRNG H)) (xsalt (KeccakPRNG H) salt) = (x1, Ok tt) /\
    xupdate (KeccakPRNG H) x1 msg = (x2, Ok tt) /\ xflip (KeccakPRNG H) x2 = (x3, Ok tt) /\ RR 0%nat x3) as Hi.
  split.
  - intros E. destruct (h2p_sound (KeccakPRNG H) _ ctr_ok RR Hr Hf Hd n msg salt Hi fuel v E) as (N & F & B & O).
    exists N. split; [exact F|]. split; [exact B|]. destruct N as [|N]; [lia|]. specialize (O N ltac:(lia)). unfold ctr_ok in O. lia.
  - intros (N & F & B & O). apply (h2p_complete (KeccakPRNG H) _ ctr_ok RR Hr Hf Hd n msg salt Hi fuel N v F); [|exact B].
    intros i Hi'. unfold ctr_ok. lia.
Qed.

Lemma Blake2s_h2p n msg salt : (32 + length msg <= Z.to_nat 1024)%nat -> forall fuel v,
  hash_to_point fuel n msg salt (Blake2sPRNG H) = Fin (Ok v) <->
  exists N, first_accepted (word16 (ctr_stream (H salt ++ msg))) n N v /\ (N <= fuel)%nat /\ Z.of_nat N <= 16 * 2 ^ 64.
Proof.
  intros Hl fuel v.
  set (RR := fun k (x : xt (Blake2sPRNG H)) => Rel (Z.to_nat 1024) H x (Squeezing (H salt ++ msg) (2 * Z.of_nat k))).
  assert (Hd : forall k, ctr_ok k \/ ~ ctr_ok k) by (intros; unfold ctr_ok; lia).
  assert (Hr : forall k x, RR k x -> ctr_ok k -> exists x', xread (Blake2sPRNG H) x 2 =
     (x', Ok [ctr_stream (H salt ++ msg) (2 * k); ctr_stream (H salt ++ msg) (2 * k + 1)]) /\ RR (S k) x')
    by (intros k x; apply read_step).
  assert (Hf : forall k x, RR k x -> ~ ctr_ok k -> exists x' e, xread (Blake2sPRNG H) x 2 = (x', Raise e))
    by (intros k x; apply read_fail).
  assert (Hl' : (length (H salt) + length msg <= Z.to_nat 1024)%nat) by (rewrite H32; exact Hl).
  pose proof (prng_init (Z.to_nat 1024) (H salt) msg Hl' : exists x1 x2 x3, xupdate (Blake2sPRNG H) (xnew (Blake2sPRNG H)) (xsalt (Blake2sPRNG H) salt) = (x1, Ok tt) /\
    xupdate (Blake2sPRNG H) x1 msg = (x2, Ok tt) /\ xflip (Blake2sPRNG H) x2 = (x3, Ok tt) /\ RR 0%nat x3) as Hi.
  split.
  - intros E. destruct (h2p_sound (Blake2sPRNG H) _ ctr_ok RR Hr Hf Hd n msg salt Hi fuel v E) as (N & F & B & O).
    exists N. split; [exact F|]. split; [exact B|]. destruct N as [|N]; [lia|]. specialize (O N ltac:(lia)). unfold ctr_ok in O. lia.
  - intros (N & F & B & O). apply (h2p_complete (Blake2sPRNG H) _ ctr_ok RR Hr Hf Hd n msg salt Hi fuel N v F); [|exact B].
    intros i Hi'. unfold ctr_ok. lia.
Qed.

Hypothesis Hbytes : forall m, bytes (H m).

Lemma KeccaXOF_h2p n msg salt fuel v :
  hash_to_point fuel n msg salt (KeccaXOF H) = Fin (Ok v) <->
  exists N, first_accepted (word16 (chain_byte H (salt ++ msg))) n N v /\ (N <= fuel)%nat.
Proof.
  set (m := salt ++ msg).
  set (RR := fun k (x : xt (KeccaXOF H)) =>
     KRel H m (2 * k) x \/ (k = 0%nat /\ klast x = None /\ concat (kinput x) = m)).
  assert (Hr : forall k x, RR k x -> True -> exists x', xread (KeccaXOF H) x 2 =
     (x', Ok [chain_byte H m (2 * k); chain_byte H m (2 * k + 1)]) /\ RR (S k) x').
  { intros k x HR _. cbn [xread KeccaXOF]. assert (G : exists s', kxof_read H x 2 = (s', Ok (chain_slice H m (2 * k) 2)) /\ KRel H m (2 * k + 2) s').
    { destruct HR as [HR|(-> & HN & HC)].
      - apply kread2; auto.
      - destruct (kread2_first H H32 Hbytes x HN) as (s' & E & R'). rewrite HC in *. eauto. }
    destruct G as (s' & E & R'). exists s'. split.
    - rewrite E. do 2 f_equal. unfold chain_slice. cbn [seq map]. now rewrite Nat.add_1_r.
    - left. now replace (2 * S k)%nat with (2 * k + 2)%nat by lia. }
  assert (Hi : exists x1 x2 x3, xupdate (KeccaXOF H) (xnew (KeccaXOF H)) (xsalt (KeccaXOF H) salt) = (x1, Ok tt) /\
    xupdate (KeccaXOF H) x1 msg = (x2, Ok tt) /\ xflip (KeccaXOF H) x2 = (x3, Ok tt) /\ RR 0%nat x3).
  { exists (mk_kxof [salt] None []), (mk_kxof [salt; msg] None []), (mk_kxof [salt; msg] None []).
    repeat split. right. cbn. rewrite app_nil_r. auto. }
  split.
  - intros E. destruct (h2p_sound (KeccaXOF H) _ (fun _ => True) RR Hr ltac:(tauto) ltac:(tauto) n msg salt Hi fuel v E) as (N & F & B & O).
    eauto.
  - intros (N & F & B). apply (h2p_complete (KeccaXOF H) _ (fun _ => True) RR Hr ltac:(tauto) ltac:(tauto) n msg salt Hi fuel N v F); auto.
Qed.

(** ** EVM *)
Lemma be_int_app a c : be_int (a ++ c) = be_int a * 256 ^ Z.of_nat (length c) + be_int c.
Proof.
  unfold be_int. rewrite fold_left_app. generalize (fold_left (fun a b => 256 * a + b) a 0). clear a.
  intros x. revert x. induction c as [|y c IH] using rev_ind; intros x.
  - cbn. lia.
  - rewrite !fold_left_app. cbn [fold_left]. rewrite IH, app_length. cbn [length].
    rewrite Nat.add_1_r, Nat2Z.inj_succ, Z.pow_succ_r by lia. ring.
Qed.
Lemma be_int_bound c : bytes c -> 0 <= be_int c < 256 ^ Z.of_nat (length c).
Proof.
  induction c as [|y c IH] using rev_ind; intros B; [cbn; lia|]. apply bytes_app in B. destruct B as [B1 B2].
  specialize (IH B1). inversion B2; subst. unfold is_byte in *. rewrite be_int_app, app_length. cbn [length].
  rewrite Nat.add_1_r, (Nat2Z.inj_succ (length c)), (Z.pow_succ_r _ (Z.of_nat (length c))) by lia.
  change (256 ^ Z.of_nat 1) with 256. change (be_int [y]) with (256 * 0 + y). lia.
Qed.

Lemma be_int_chunk l t : length l = 32%nat -> bytes l -> (t < 16)%nat ->
  Z.land (Z.shiftr (be_int l) (240 - 16 * Z.of_nat t)) 0xffff = 256 * nth (2 * t) l 0 + nth (2 * t + 1) l 0.
Proof.
  intros L B Ht.
  assert (S1 : exists a x y c, l = a ++ [x; y] ++ c /\ length a = (2 * t)%nat).
  { exists (firstn (2 * t) l). pose proof (firstn_skipn (2 * t) l) as FS.
    pose proof (skipn_length (2 * t) l) as LS. destruct (skipn (2 * t) l) as [|x [|y c]]; cbn [length] in LS; try lia.
    exists x, y, c. split; [now rewrite <- FS at 1|]. rewrite firstn_length. lia. }
  destruct S1 as (a & x & y & c & -> & La).
  assert (Lc : length c = (30 - 2 * t)%nat) by (rewrite !app_length in L; cbn [length] in L; lia).
  rewrite (app_nth2 a _ 0 (n := (2 * t)%nat)), (app_nth2 a _ 0 (n := (2 * t + 1)%nat)) by lia.
  replace (2 * t - length a)%nat with 0%nat by lia.
  replace (2 * t + 1 - length a)%nat with 1%nat by lia. cbn [nth app].
  apply bytes_app in B. destruct B as [Ba B]. inversion B as [|? ? Bx B']; subst. inversion B' as [|? ? By Bc]; subst.
  change (a ++ x :: y :: c) with (a ++ [x; y] ++ c). rewrite app_assoc, be_int_app, Lc.
  rewrite land_ffff, Z.shiftr_div_pow2 by lia.
  replace (2 ^ (240 - 16 * Z.of_nat t)) with (256 ^ Z.of_nat (30 - 2 * t)).
  2:{ change 256 with (2 ^ 8). rewrite <- Z.pow_mul_r by lia. f_equal. lia. }
  pose proof (be_int_bound c Bc) as Hc. rewrite Lc in Hc.
  rewrite Z.div_add_l by (apply Z.pow_nonzero; lia). rewrite (Z.div_small (be_int c)) by exact Hc.
  rewrite Z.add_0_r, be_int_app. change (256 ^ Z.of_nat (length [x; y])) with (2 ^ 16).
  rewrite Z.add_comm, Z.mod_add by lia. unfold be_int. cbn [fold_left]. unfold is_byte in *.
  change (2 ^ 16) with 65536. rewrite Z.mod_small by lia. lia.
Qed.

Definition evm_w (S : list Z) (k : nat) : Z := word16 (fun i => stream_byte H S (Z.of_nat i)) k.

Lemma stream_byte_block S c o : (o < 32)%nat ->
  stream_byte H S (Z.of_nat (32 * c + o)) = nth o (H (S ++ be64 (Z.of_nat c))) 0.
Proof.
  intros Ho. unfold stream_byte.
  replace (Z.of_nat (32 * c + o) / 32) with (Z.of_nat c) by lia.
  replace (Z.to_nat (Z.of_nat (32 * c + o) mod 32)) with o by lia. reflexivity.
Qed.

Lemma evm_inner_spec S c : let buf := be_int (H (S ++ be64 (Z.of_nat c))) in
  forall r t out, (t + r = 16)%nat -> (length out < 512)%nat -> Prog (evm_w S) 512 (16 * c + t) out ->
  exists k out', evm_inner (1 + r) buf (if (t =? 16)%nat then 2 ^ 256 - 16 else 240 - 16 * Z.of_nat t) out = out' /\
    Prog (evm_w S) 512 k out' /\
    ((length out' < 512)%nat -> k = (16 * (c + 1))%nat) /\ (k <= 16 * (c + 1))%nat.
Proof.
  intros buf. induction r as [|r IH]; intros t out Ht Lo HP.
  - assert (t = 16%nat) by lia. subst t. exists (16 * c + 16)%nat, out.
    cbn [Nat.eqb]. split; [reflexivity|]. split; [exact HP|]. split; lia.
  - destruct (Nat.eqb_spec t 16); [lia|]. change (1 + Datatypes.S r)%nat with (Datatypes.S (1 + r)). cbn [evm_inner].
    destruct (Z.ltb_spec (240 - 16 * Z.of_nat t) 666); [|lia].
    unfold buf. rewrite be_int_chunk by (auto; lia). fold buf.
    assert (EW : 256 * nth (2 * t) (H (S ++ be64 (Z.of_nat c))) 0 + nth (2 * t + 1) (H (S ++ be64 (Z.of_nat c))) 0
                 = evm_w S (16 * c + t)).
    { unfold evm_w, word16. replace (2 * (16 * c + t))%nat with (32 * c + 2 * t)%nat by lia.
      replace (32 * c + 2 * t + 1)%nat with (32 * c + (2 * t + 1))%nat by lia.
      rewrite !stream_byte_block by lia. reflexivity. }
    rewrite EW.
    assert (EJ : (240 - 16 * Z.of_nat t - 16) mod 2 ^ 256 =
                 if (Datatypes.S t =? 16)%nat then 2 ^ 256 - 16 else 240 - 16 * Z.of_nat (Datatypes.S t)).
    { destruct (Nat.eqb_spec (Datatypes.S t) 16).
      - replace t with 15%nat by lia. reflexivity.
      - rewrite Z.mod_small; [lia|]. split; [lia|]. apply Z.lt_trans with 256; [lia|]. reflexivity. }
    rewrite EJ. unfold kq, q.
    pose proof (Prog_step _ _ _ _ HP Lo) as HS. change (5 * 12289) with 61445 in HS.
    replace (Datatypes.S (16 * c + t)) with (16 * c + Datatypes.S t)%nat in HS by lia.
    destruct (evm_w S (16 * c + t) <? 61445).
    + destruct (Nat.eqb_spec (length (out ++ [evm_w S (16 * c + t) mod 12289])) 512) as [E|NE].
      * eexists _, _. split; [reflexivity|]. split; [exact HS|]. split; [lia|]. lia.
      * apply IH; [lia| |exact HS]. pose proof (Prog_len _ _ _ _ HS). lia.
    + apply IH; [lia|exact Lo|exact HS].
Qed.

Lemma be64_counter c : be64 ((Z.of_nat c * 2 ^ 192) mod 2 ^ 256 / 2 ^ 192) = be64 (Z.of_nat c).
Proof.
  replace (2 ^ 256) with (2 ^ 64 * 2 ^ 192) by reflexivity.
  rewrite Z.mul_mod_distr_r by (try discriminate; lia). rewrite Z.div_mul by discriminate.
  unfold be64. apply map_ext_in. intros i Hi. apply in_seq in Hi.
  change 256 with (2 ^ 8). rewrite <- !Z.pow_mul_r by lia.
  rewrite <- !Z.shiftr_div_pow2 by lia. apply Z.bits_inj'. intros z Hz.
  destruct (Z.ltb_spec z 8).
  - rewrite !Z.mod_pow2_bits_low by lia. rewrite !Z.shiftr_spec by lia. rewrite Z.mod_pow2_bits_low by lia. reflexivity.
  - rewrite !Z.mod_pow2_bits_high by lia. reflexivity.
Qed.

Lemma evm_loop_spec S N v : first_accepted (evm_w S) 512 N v ->
  forall fuel c out k, Prog (evm_w S) 512 k out -> ((length out < 512)%nat -> k = (16 * c)%nat) ->
  (N < 16 * (c + fuel) \/ length out = 512)%nat ->
  evm_loop H fuel S ((Z.of_nat c * 2 ^ 192) mod 2 ^ 256) out = Some v.
Proof.
  intros HF. induction fuel as [|fuel IH]; intros c out k HP HK HB; cbn [evm_loop];
    (destruct (Nat.ltb_spec (length out) 512) as [L|L];
     [|f_equal; now apply (first_accepted_unique _ _ _ _ _ _ (Prog_final _ _ _ _ HP L) HF)]).
  - specialize (HK L). pose proof (Prog_le_N _ _ _ _ _ _ HF HP L). lia.
  - specialize (HK L). subst k. rewrite be64_counter.
    destruct (evm_inner_spec S c 16 0 out) as (k & out' & E & HP' & HK' & HB'); [lia|exact L|now rewrite Nat.add_0_r|].
    cbn [Nat.eqb] in E. change (240 - 16 * Z.of_nat 0) with 240 in E. change (1 + 16)%nat with 17%nat in E. rewrite E.
    replace (((Z.of_nat c * 2 ^ 192) mod 2 ^ 256 + 6277101735386680763835789423207666416102355444464034512896) mod 2 ^ 256)
      with ((Z.of_nat (c + 1) * 2 ^ 192) mod 2 ^ 256).
    2:{ rewrite Z.add_mod_idemp_l by discriminate. f_equal.
        change 6277101735386680763835789423207666416102355444464034512896 with (2 ^ 192).
        rewrite Nat2Z.inj_add. change (Z.of_nat 1) with 1. ring. }
    apply (IH (c + 1)%nat out' k HP' HK'). destruct HB as [HB|HB]; [left; lia|lia].
Qed.

Lemma evm_loop_sound S : forall fuel c out k v, Prog (evm_w S) 512 k out -> ((length out < 512)%nat -> k = (16 * c)%nat) ->
  (k <= 16 * c)%nat ->
  evm_loop H fuel S ((Z.of_nat c * 2 ^ 192) mod 2 ^ 256) out = Some v ->
  exists N, first_accepted (evm_w S) 512 N v /\ (N <= 16 * (c + fuel))%nat.
Proof.
  induction fuel as [|fuel IH]; intros c out k v HP HK HC E; cbn [evm_loop] in E;
    (destruct (Nat.ltb_spec (length out) 512) as [L|L];
     [|apply Some_inj in E; subst; exists k; split; [now apply Prog_final|lia]]).
  - discriminate E.
  - specialize (HK L). subst k. rewrite be64_counter in E.
    destruct (evm_inner_spec S c 16 0 out) as (k & out' & Ei & HP' & HK' & HB'); [lia|exact L|now rewrite Nat.add_0_r|].
    cbn [Nat.eqb] in Ei. change (240 - 16 * Z.of_nat 0) with 240 in Ei. change (1 + 16)%nat with 17%nat in Ei. rewrite Ei in E.
    replace (((Z.of_nat c * 2 ^ 192) mod 2 ^ 256 + 6277101735386680763835789423207666416102355444464034512896) mod 2 ^ 256)
      with ((Z.of_nat (c + 1) * 2 ^ 192) mod 2 ^ 256) in E.
    2:{ rewrite Z.add_mod_idemp_l by discriminate. f_equal.
        change 6277101735386680763835789423207666416102355444464034512896 with (2 ^ 192).
        rewrite Nat2Z.inj_add. change (Z.of_nat 1) with 1. ring. }
    destruct (IH (c + 1)%nat out' k v HP' HK' HB' E) as (N & F & B). exists N. split; [exact F|lia].
Qed.

Theorem EVM_h2p salt msg fuel v :
  (hashToPointEVM H fuel salt msg = Some v ->
   exists N, first_accepted (word16 (ctr_stream (salt ++ msg))) 512 N v /\ (N <= 16 * fuel)%nat) /\
  (forall N, first_accepted (word16 (ctr_stream (salt ++ msg))) 512 N v -> (N < 16 * fuel)%nat ->
   hashToPointEVM H fuel salt msg = Some v).
Proof.
  unfold hashToPointEVM. change 0 with ((Z.of_nat 0 * 2 ^ 192) mod 2 ^ 256) at 1 2. split.
  - intros E. apply (evm_loop_sound (H (salt ++ msg)) fuel 0 [] 0 v) in E; [|apply Prog_0|lia|lia].
    exact E.
  - intros N F B. apply (evm_loop_spec (H (salt ++ msg)) N v F fuel 0 [] 0); [apply Prog_0|lia|left; lia].
Qed.

(** ** Tetration *)
Lemma splitToHex_nth l i : length l = 32%nat -> bytes l -> (i < 16)%nat ->
  nth i (splitToHex (be_int l)) 0 = 256 * nth (2 * i) l 0 + nth (2 * i + 1) l 0.
Proof.
  intros L B Hi. unfold splitToHex.
  rewrite (nth_indep _ 0 ((fun i => Z.land (Z.shiftr (be_int l) (Z.shiftl (15 - Z.of_nat i) 4)) 65535) 0%nat))
    by (rewrite map_length, seq_length; lia).
  rewrite (map_nth (fun i => Z.land (Z.shiftr (be_int l) (Z.shiftl (15 - Z.of_nat i) 4)) 65535)).
  rewrite seq_nth by lia. rewrite Z.shiftl_mul_pow2 by lia. change (2 ^ 4) with 16.
  replace ((15 - Z.of_nat (0 + i)) * 16) with (240 - 16 * Z.of_nat i) by lia.
  apply be_int_chunk; auto.
Qed.

Lemma tet_loop_inv m : forall fuel c j out,
  (j <= 16)%nat -> Prog (word16 (chain_byte H m)) 512 (16 * c + j) out ->
  (forall v, tet_loop H fuel (chain H m c) (splitToHex (be_int (chain H m c))) j out = Some v ->
     exists N, first_accepted (word16 (chain_byte H m)) 512 N v /\ (N <= 16 * c + j + fuel)%nat) /\
  (forall N v, first_accepted (word16 (chain_byte H m)) 512 N v -> (N <= 16 * c + j + fuel)%nat ->
     tet_loop H fuel (chain H m c) (splitToHex (be_int (chain H m c))) j out = Some v).
Proof.
  induction fuel as [|fuel IH]; intros c j out Hj HP; cbn [tet_loop];
    (destruct (Nat.ltb_spec (length out) 512) as [L|L];
     [|split; [intros v E; apply Some_inj in E; subst; exists (16 * c + j)%nat; split; [now apply Prog_final|lia]
              |intros N v F _; f_equal; now apply (first_accepted_unique _ _ _ _ _ _ (Prog_final _ _ _ _ HP L) F)]]).
  - split; [discriminate|]. intros N v F B. pose proof (Prog_le_N _ _ _ _ _ _ F HP L). lia.
  - assert (W : forall c j, (j < 16)%nat -> nth j (splitToHex (be_int (chain H m c))) 0 = word16 (chain_byte H m) (16 * c + j)).
    { intros c' j' Hj'. rewrite splitToHex_nth; auto.
      2:{ apply chain_length; auto. } 2:{ unfold chain. destruct c'; apply Hbytes. }
      unfold word16, chain_byte.
      replace (2 * (16 * c' + j'))%nat with (2 * j' + c' * 32)%nat by lia.
      replace (2 * j' + c' * 32 + 1)%nat with (2 * j' + 1 + c' * 32)%nat by lia.
      rewrite !Nat.mod_add, !Nat.div_add by lia.
      rewrite (Nat.mod_small (2 * j')), (Nat.div_small (2 * j')), (Nat.mod_small (2 * j' + 1)), (Nat.div_small (2 * j' + 1)) by lia.
      reflexivity. }
    assert (G : forall c j, (j < 16)%nat -> Prog (word16 (chain_byte H m)) 512 (16 * c + j) out ->
      let s := nth j (splitToHex (be_int (chain H m c))) 0 in
      let out' := if s <? kq then out ++ [s mod q] else out in
      Prog (word16 (chain_byte H m)) 512 (16 * c + S j) out').
    { intros c' j' Hj' HP'. cbv zeta. rewrite W by auto. unfold kq, q.
      pose proof (Prog_step _ _ _ _ HP' L) as HS. change (5 * 12289) with 61445 in HS.
      now replace (16 * c' + S j')%nat with (S (16 * c' + j')) by lia. }
    destruct (Nat.eqb_spec j 16) as [->|NE].
    + change (H (chain H m c)) with (chain H m (S c)).
      replace (16 * c + 16)%nat with (16 * (S c) + 0)%nat in * by lia.
      pose proof (G (S c) 0%nat ltac:(lia) HP) as HS. cbv zeta in HS.
      destruct (IH (S c) 1%nat _ ltac:(lia) HS) as [I1 I2].
      split; [intros v E; destruct (I1 v E) as (N & F & B); exists N; split; [exact F|lia]|].
      intros N v F B. apply (I2 N v F). lia.
    + pose proof (G c j ltac:(lia) HP) as HS. cbv zeta in HS.
      destruct (IH c (S j) _ ltac:(lia) HS) as [I1 I2].
      split; [intros v E; destruct (I1 v E) as (N & F & B); exists N; split; [exact F|lia]|].
      intros N v F B. apply (I2 N v F). lia.
Qed.

Theorem TET_h2p salt msg fuel v :
  hashToPointTETRATION H fuel salt msg = Some v <->
  exists N, first_accepted (word16 (chain_byte H (msg ++ salt))) 512 N v /\ (N <= fuel)%nat.
Proof.
  unfold hashToPointTETRATION.
  destruct (tet_loop_inv (msg ++ salt) fuel 0 0 []) as [I1 I2]; [lia|apply Prog_0|].
  split; [intros E; destruct (I1 v E) as (N & F & B); eauto|]. intros (N & F & B). apply (I2 N v F). lia.
Qed.
End Inst.

(** ** SHAKE *)
Lemma SHAKE_h2p n msg salt fuel v : bytes salt -> bytes msg ->
  hash_to_point fuel n msg salt SHAKE = Fin (Ok v) <->
  exists N, first_accepted (word16 (shake256_byte (salt ++ msg))) n N v /\ (N <= fuel)%nat.
Proof.
  intros Bs Bm. set (m := salt ++ msg). assert (Bsm : bytes m) by (apply bytes_app; auto).
  assert (D31 : is_byte 31) by (unfold is_byte; lia).
  assert (R136 : (1 <= 136 <= 199)%nat) by lia.
  set (S0 := sponge_absorb (Pb F1600) 136 31 m).
  set (RR := fun k (x : xt SHAKE) => Sq F1600 136 S0 (2 * k) x).
  assert (Eb : forall j, nth (j mod 136) (Nat.iter (j / 136) (Pb F1600) S0) 0 = shake256_byte m j).
  { intros j. symmetry. unfold shake256_byte. rewrite <- sponge_byte_ext by auto. reflexivity. }
  assert (Hr : forall k x, RR k x -> True -> exists x', xread SHAKE x 2 =
     (x', Ok [shake256_byte m (2 * k); shake256_byte m (2 * k + 1)]) /\ RR (S k) x').
  { intros k x HR _. destruct (squeeze_spec F1600 136 F1600_ok R136 S0 (2 * k) x 2 HR) as (s' & E & HS).
    exists s'. split.
    - cbn [xread SHAKE]. unfold shake_read, shake_rate. rewrite E. do 2 f_equal. unfold out_slice. cbn [seq map].
      rewrite !Eb. now rewrite Nat.add_1_r.
    - unfold RR. now replace (2 * S k)%nat with (2 * k + 2)%nat by lia. }
  assert (Hi : exists x1 x2 x3, xupdate SHAKE (xnew SHAKE) (xsalt SHAKE salt) = (x1, Ok tt) /\
    xupdate SHAKE x1 msg = (x2, Ok tt) /\ xflip SHAKE x2 = (x3, Ok tt) /\ RR 0%nat x3).
  { eexists _, _, _. split; [reflexivity|]. split; [reflexivity|]. split; [reflexivity|].
    unfold RR. apply (pad_Sq F1600 136 31 F1600_ok R136 D31 m); auto.
    apply (absorb_spec F1600 136 F1600_ok R136 salt); auto.
    apply (absorb_spec F1600 136 F1600_ok R136 []); auto. constructor. apply Abs_new. exact R136. }
  split.
  - intros E. destruct (h2p_sound SHAKE _ (fun _ => True) RR Hr ltac:(tauto) ltac:(tauto) n msg salt Hi fuel v E) as (N & F & B & O).
    eauto.
  - intros (N & F & B). apply (h2p_complete SHAKE _ (fun _ => True) RR Hr ltac:(tauto) ltac:(tauto) n msg salt Hi fuel N v F); auto.
Qed.

Section Nist.
Variable m : list Z.
Hypothesis Bm : bytes m.
Let S0 := sponge_absorb (Pb F1600) 136 31 m.
Let sb := shake256_byte m.

Lemma out_sb p k : out_slice F1600 136 S0 p k = map sb (seq p k).
Proof.
  unfold out_slice. apply map_ext. intros j. symmetry. unfold sb, shake256_byte.
  rewrite <- sponge_byte_ext; [reflexivity|lia|unfold is_byte; lia|exact Bm].
Qed.

(** block c has just been squeezed into tmp *)
Definition NRel (c : nat) (x : ctx) (tmp : list Z) : Prop :=
  exists s, x = ctx_of s false /\ okh s /\ Sq F1600 136 S0 (136 * (c + 1)) s /\ tmp = map sb (seq (136 * c) 136).

Lemma nist_squeeze s c : okh s -> Sq F1600 136 S0 (136 * c) s ->
  exists x tmp, shakeSqueeze (ctx_of s false) 136 = (x, tmp) /\ NRel c x tmp.
Proof.
  intros Ok HS. destruct (shakeSqueeze_read s false 136 Ok) as [E O].
  destruct (squeeze_spec F1600 136 F1600_ok ltac:(lia) S0 (136 * c) s 136 HS) as (s' & E' & S').
  assert (E2 : shake_read s 136 = (s', out_slice F1600 136 S0 (136 * c) 136)) by exact E'.
  rewrite E2 in E, O. exists (ctx_of s' false), (out_slice F1600 136 S0 (136 * c) 136).
  split; [exact E|]. exists s'. split; [reflexivity|]. split; [exact O|].
  split; [|apply out_sb]. replace (136 * (c + 1))%nat with (136 * c + 136)%nat by lia. exact S'.
Qed.

Lemma nist_loop_inv : forall fuel c j x tmp out,
  (j <= 68)%nat -> NRel c x tmp -> Prog (word16 sb) 512 (68 * c + j) out ->
  (forall v, nist_loop fuel x tmp (2 * j) out = Some v ->
     exists N, first_accepted (word16 sb) 512 N v /\ (N <= 68 * c + j + fuel)%nat) /\
  (forall N v, first_accepted (word16 sb) 512 N v -> (N <= 68 * c + j + fuel)%nat ->
     nist_loop fuel x tmp (2 * j) out = Some v).
Proof.
  induction fuel as [|fuel IH]; intros c j x tmp out Hj HR HP; cbn [nist_loop];
    (destruct (Nat.ltb_spec (length out) 512) as [L|L];
     [|split; [intros v E; apply Some_inj in E; subst; exists (68 * c + j)%nat; split; [now apply Prog_final|lia]
              |intros N v F _; f_equal; now apply (first_accepted_unique _ _ _ _ _ _ (Prog_final _ _ _ _ HP L) F)]]).
  - split; [discriminate|]. intros N v F B. pose proof (Prog_le_N _ _ _ _ _ _ F HP L). lia.
  - assert (W : forall c x tmp j, NRel c x tmp -> (j < 68)%nat ->
       nth (2 * j + 1) tmp 0 + Z.shiftl (nth (2 * j) tmp 0) 8 = word16 sb (68 * c + j)).
    { clear -m. intros c x tmp j (s & _ & _ & _ & ->) Hj.
      assert (G : forall i, (i < 136)%nat -> nth i (map sb (seq (136 * c) 136)) 0 = sb (136 * c + i)%nat).
      { intros i Hi. rewrite (nth_indep _ 0 (sb 0%nat)) by (rewrite map_length, seq_length; lia).
        rewrite map_nth, seq_nth by lia. reflexivity. }
      rewrite !G by lia. unfold word16. rewrite Z.shiftl_mul_pow2 by lia. change (2 ^ 8) with 256.
      replace (2 * (68 * c + j))%nat with (136 * c + 2 * j)%nat by lia.
      replace (136 * c + 2 * j + 1)%nat with (136 * c + (2 * j + 1))%nat by lia. ring. }
    assert (G : forall c x tmp j, (j < 68)%nat -> NRel c x tmp -> Prog (word16 sb) 512 (68 * c + j) out ->
      let s := nth (2 * j + 1) tmp 0 + Z.shiftl (nth (2 * j) tmp 0) 8 in
      Prog (word16 sb) 512 (68 * c + S j) (if s <? kq then out ++ [s mod q] else out)).
    { intros c' x' tmp' j' Hj' HR' HP'. cbv zeta. rewrite (W c' x' tmp' j' HR' Hj'). unfold kq, q.
      pose proof (Prog_step _ _ _ _ HP' L) as HS. change (5 * 12289) with 61445 in HS.
      now replace (68 * c' + S j')%nat with (S (68 * c' + j')) by lia. }
    destruct (Nat.eqb_spec (2 * j) 136) as [E136|NE].
    + assert (j = 68%nat) by lia. subst j. destruct HR as (s & -> & O & HS & _).
      replace (c + 1)%nat with (S c) in HS by lia.
      destruct (nist_squeeze s (S c) O HS) as (x' & tmp' & E & HR'). rewrite E.
      replace (68 * c + 68)%nat with (68 * (S c) + 0)%nat in * by lia.
      pose proof (G (S c) x' tmp' 0%nat ltac:(lia) HR' HP) as HS'. cbv zeta in HS'.
      destruct (IH (S c) 1%nat x' tmp' _ ltac:(lia) HR' HS') as [I1 I2].
      change (2 * 0)%nat with 0%nat in *. change (2 * 1)%nat with (0 + 2)%nat in *.
      split; [intros v Ev; destruct (I1 v Ev) as (N & F & B); exists N; split; [exact F|lia]|].
      intros N v F B. apply (I2 N v F). lia.
    + pose proof (G c x tmp j ltac:(lia) HR HP) as HS. cbv zeta in HS.
      destruct (IH c (S j) x tmp _ ltac:(lia) HR HS) as [I1 I2].
      replace (2 * S j)%nat with (2 * j + 2)%nat in * by lia.
      split; [intros v Ev; destruct (I1 v Ev) as (N & F & B); exists N; split; [exact F|lia]|].
      intros N v F B. apply (I2 N v F). lia.
Qed.
End Nist.

Theorem NIST_h2p salt msg fuel v : bytes salt -> bytes msg ->
  hashToPointNIST fuel salt msg = Some v <->
  exists N, first_accepted (word16 (shake256_byte (salt ++ msg))) 512 N v /\ (N <= fuel)%nat.
Proof.
  intros Bs Bm. set (m := salt ++ msg). assert (Bsm : bytes m) by (apply bytes_app; auto).
  assert (D31 : is_byte 31) by (unfold is_byte; lia).
  unfold hashToPointNIST. fold m. rewrite ctx_of_new.
  destruct (shakeUpdate_eq shake_new m okh_new Bsm) as [-> O1].
  destruct (shakePad_eq _ false O1) as [-> O2].
  assert (HS : Sq F1600 136 (sponge_absorb (Pb F1600) 136 31 m) (136 * 0) (shake_flip (shake_update shake_new m))).
  { apply (pad_Sq F1600 136 31 F1600_ok ltac:(lia) D31 m); auto.
    apply (absorb_spec F1600 136 F1600_ok ltac:(lia) []); auto; [constructor|apply Abs_new; lia]. }
  destruct (nist_squeeze m Bsm _ 0 O2 HS) as (x & tmp & E & HR). rewrite E.
  destruct (nist_loop_inv m Bsm fuel 0 0 x tmp [] ltac:(lia) HR (Prog_0 _ _)) as [I1 I2].
  split; [intros Ev; destruct (I1 v Ev) as (N & F & B); eauto|]. intros (N & F & B). apply (I2 N v F). lia.
Qed.
