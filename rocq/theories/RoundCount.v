(** Counting the random inputs of one round of samplerz. *)
From Verif Require Import Base PrngModel FalconModel RecoveryProofs SolWorldProofs DrbgProofs SamplerModel SamplerProofs PackProofs GaussSpec.
From Coq Require Import Permutation.
Set Default Goal Selector "!".

Lemma has_count_unique {A} (P : A -> Prop) n m : has_count P n -> has_count P m -> n = m.
Proof.
  intros (L & N1 & H1 & <-) (M & N2 & H2 & <-). f_equal. apply Permutation_length, NoDup_Permutation; [exact N1|exact N2|].
  intros x. rewrite H1, H2. reflexivity.
Qed.
Lemma has_count_iff {A} (P Q : A -> Prop) n : (forall x, P x <-> Q x) -> has_count P n -> has_count Q n.
Proof. intros E (L & N & H & C). exists L. split; [exact N|]. split; [|exact C]. intros x. rewrite H. apply E. Qed.
Lemma NoDup_map_inj {A B} (f : A -> B) (L : list A) : (forall x y, In x L -> In y L -> f x = f y -> x = y) -> NoDup L -> NoDup (map f L).
Proof.
  intros I N. induction N as [|x L Hx N IH]; cbn [map]; constructor.
  - intros H. apply in_map_iff in H. destruct H as (y & E & Hy). apply Hx. rewrite <- (I y x); [exact Hy|right; exact Hy|left; reflexivity|exact E].
  - apply IH. intros y z Hy Hz. apply I; right; assumption.
Qed.
Lemma has_count_image {A B} (f : A -> B) (P : A -> Prop) n : (forall x y, P x -> P y -> f x = f y -> x = y) -> has_count P n -> has_count (fun y => exists x, P x /\ y = f x) n.
Proof.
  intros I (L & N & H & C). exists (map f L). split; [|split].
  - apply NoDup_map_inj; [|exact N]. intros x y Hx Hy. apply I; apply H; assumption.
  - intros y. rewrite in_map_iff. split.
    + intros (x & E & Hx). exists x. split; [apply H, Hx|symmetry; exact E].
    + intros (x & Px & E). exists x. split; [symmetry; exact E|apply H, Px].
  - rewrite map_length. exact C.
Qed.
Lemma has_count_range lo hi : lo <= hi -> has_count (fun u => lo <= u < hi) (hi - lo).
Proof.
  intros Hl. exists (map (fun i => lo + Z.of_nat i) (seq 0 (Z.to_nat (hi - lo)))). split; [|split].
  - apply NoDup_map_inj; [|apply seq_NoDup]. intros x y _ _ E. lia.
  - intros u. rewrite in_map_iff. split.
    + intros (i & <- & Hi). apply in_seq in Hi. lia.
    + intros Hu. exists (Z.to_nat (u - lo)). split; [lia|]. apply in_seq. lia.
  - rewrite map_length, seq_length. lia.
Qed.
Lemma NoDup_app_disj {A} (a b : list A) : NoDup a -> NoDup b -> (forall x, In x a -> ~ In x b) -> NoDup (a ++ b).
Proof.
  intros Na Nb D. induction Na as [|x a Hx Na IH]; cbn [app]; [exact Nb|]. constructor.
  - rewrite in_app_iff. intros [H|H]; [exact (Hx H)|]. apply (D x); [left; reflexivity|exact H].
  - apply IH. intros y Hy. apply D. right. exact Hy.
Qed.
Lemma has_count_prod {A B} (P : A -> Prop) (Q : B -> Prop) n m : has_count P n -> has_count Q m -> has_count (fun xy => P (fst xy) /\ Q (snd xy)) (n * m).
Proof.
  intros (L & N1 & H1 & <-) (M & N2 & H2 & <-). exists (list_prod L M). split; [|split].
  - clear H1. induction N1 as [|x L Hx N1 IH]; cbn [list_prod]; [constructor|]. apply NoDup_app_disj; [|exact IH|].
    + apply NoDup_map_inj; [|exact N2]. intros y z _ _ E. congruence.
    + intros p Hp Hq. apply in_map_iff in Hp. destruct Hp as (y & <- & _). apply in_prod_iff in Hq. apply Hx, Hq.
  - intros [x y]. rewrite in_prod_iff, H1, H2. reflexivity.
  - rewrite prod_length. lia.
Qed.
Lemma has_count_union {A I} (P : I -> A -> Prop) (N : I -> Z) zs : NoDup zs -> (forall z, In z zs -> has_count (P z) (N z)) ->
  (forall z z' x, P z x -> P z' x -> z = z') -> has_count (fun x => exists z, In z zs /\ P z x) (fold_right (fun z s => N z + s) 0 zs).
Proof.
  intros Nd H D. induction Nd as [|z zs Hz Nd IH]; cbn [fold_right].
  - exists []. split; [constructor|]. split; [|reflexivity]. intros x. split; [intros []|]. intros (z & [] & _).
  - destruct (H z (or_introl eq_refl)) as (L & N1 & H1 & <-). destruct IH as (M & N2 & H2 & <-); [intros z' Hz'; apply H; right; exact Hz'|].
    exists (L ++ M). split; [|split].
    + apply NoDup_app_disj; [exact N1|exact N2|]. intros x Hx Hm. apply H1 in Hx. apply H2 in Hm. destruct Hm as (z' & Hz' & Hp). apply Hz. rewrite (D z z' x Hx Hp). exact Hz'.
    + intros x. rewrite in_app_iff, H1, H2. split.
      * intros [Hx|(z' & Hz' & Hp)]; [exists z; split; [left; reflexivity|exact Hx]|exists z'; split; [right; exact Hz'|exact Hp]].
      * intros (z' & [->|Hz'] & Hp); [left; exact Hp|right; exists z'; split; assumption].
    + rewrite app_length. lia.
Qed.

(** * one round *)
Definition base_lo (i : Z) : Z := nth (Z.to_nat i) RCDT 0.
Definition base_hi (i : Z) : Z := if i <=? 0 then 2 ^ 72 else nth (Z.to_nat (i - 1)) RCDT 0.
Definition z0_of (z : Z) : Z := if 1 <=? z then z - 1 else - z.
Definition bit_of (z : Z) : Z := if 1 <=? z then 1 else 0.
Lemma RCDT_length : length RCDT = 18%nat. Proof. reflexivity. Qed.
Lemma RCDT_dec : decreasing RCDT = true. Proof. reflexivity. Qed.
Lemma cnt_iff u i : 0 <= u < 2 ^ 72 -> 0 <= i <= 18 -> (cnt u RCDT = i <-> base_lo i <= u < base_hi i).
Proof.
  intros Hu Hi. unfold base_lo, base_hi. pose proof (cnt_gt u RCDT RCDT_dec) as G. rewrite RCDT_length in G. pose proof (cnt_bound u RCDT) as B. rewrite RCDT_length in B. change (Z.of_nat 18) with 18 in B.
  assert (U : cnt u RCDT <= i <-> nth (Z.to_nat i) RCDT 0 <= u).
  { destruct (Z.eq_dec i 18) as [->|Hne].
    - rewrite nth_overflow by (rewrite RCDT_length; change (Z.to_nat 18) with 18%nat; lia). lia.
    - specialize (G (Z.to_nat i) ltac:(lia)). rewrite Z2Nat.id in G by lia. lia. }
  assert (V : i <= cnt u RCDT <-> u < (if i <=? 0 then 2 ^ 72 else nth (Z.to_nat (i - 1)) RCDT 0)).
  { destruct (Z.leb_spec i 0) as [Hz|Hz]; [lia|]. specialize (G (Z.to_nat (i - 1)) ltac:(lia)). rewrite Z2Nat.id in G by lia. lia. }
  set (hi := if i <=? 0 then _ else _) in *. set (lo := nth (Z.to_nat i) RCDT 0) in *. clearbody hi lo. lia.
Qed.
Lemma berexp_cmp_iff b pos z : stream b -> 0 <= z < 2 ^ 64 -> fst (berexp_cmp b z pos) = (be_int (draw b pos 8) <? z).
Proof.
  intros Hb Hz. unfold berexp_cmp. change [56; 48; 40; 32; 24; 16; 8; 0] with (shifts 8). rewrite berexp_loop_ok by exact Hb.
  cbn [fst]. change (256 ^ Z.of_nat 8) with (2 ^ 64). rewrite Z.mod_small by exact Hz. reflexivity.
Qed.
Lemma round_iff b fl thr pos z : stream b -> (forall k, -18 <= k <= 19 -> 0 <= thr k (z0_of k) < 2 ^ 64) ->
  ((exists pos', samplerz b 1 fl thr pos = Some (z, pos')) <->
   (-18 <= z - fl <= 19 /\ base_lo (z0_of (z - fl)) <= le_int (draw b pos 9) < base_hi (z0_of (z - fl)) /\ b (pos + 9)%nat mod 2 = bit_of (z - fl) /\
    be_int (draw b (pos + 10) 8) < thr (z - fl) (z0_of (z - fl)))).
Proof.
  intros Hb Ht. cbn [samplerz]. rewrite basesampler_value. pose proof (le_int_bound _ (draw_bytes b pos 9 Hb)) as Hu. rewrite draw_length in Hu. change (256 ^ Z.of_nat 9) with (2 ^ 72) in Hu.
  set (u := le_int (draw b pos 9)) in *. clearbody u. pose proof (cnt_iff u) as CI. pose proof (cnt_bound u RCDT) as CB. rewrite RCDT_length in CB. change (Z.of_nat 18) with 18 in CB.
  set (z0 := cnt u RCDT) in *. clearbody z0.
  assert (Eb : le_int (draw b (pos + 9) 1) = b (pos + 9)%nat) by (cbn [draw seq map le_int]; lia). rewrite Eb. rewrite land1.
  set (bb := b (pos + 9)%nat mod 2). assert (Hbb : bb = 0 \/ bb = 1) by (unfold bb; pose proof (Z.mod_pos_bound (b (pos + 9)%nat) 2 ltac:(lia)); lia). clearbody bb.
  set (k := bb + (2 * bb - 1) * z0). assert (Hk : -18 <= k <= 19 /\ z0_of k = z0 /\ bit_of k = bb).
  { unfold k, z0_of, bit_of. destruct Hbb as [-> | ->]; destruct (Z.leb_spec 1 (1 + (2 * 1 - 1) * z0)); destruct (Z.leb_spec 1 (0 + (2 * 0 - 1) * z0)); lia. }
  destruct Hk as (K1 & K2 & K3). pose proof (Ht k K1) as Hth. rewrite K2 in Hth. replace (pos + 9 + 1)%nat with (pos + 10)%nat by lia.
  pose proof (berexp_cmp_iff b (pos + 10) _ Hb Hth) as BC. destruct (berexp_cmp b (thr k z0) (pos + 10)) as [acc p2]. cbn [fst] in BC. rewrite BC. clear BC.
  split.
  - intros (pos' & E). destruct (Z.ltb_spec (be_int (draw b (pos + 10) 8)) (thr k z0)) as [L|L]; [|discriminate]. assert (Ez : z = k + fl) by congruence.
    replace (z - fl) with k by lia. rewrite K2, K3. split; [exact K1|]. split; [|split; [reflexivity|exact L]]. apply CI; [exact Hu|lia|reflexivity].
  - intros (H1 & H2 & H3 & H4). assert (E0 : z0_of (z - fl) = z0).
    { symmetry. apply CI; [exact Hu| |exact H2]. unfold z0_of. destruct (Z.leb_spec 1 (z - fl)); lia. }
    assert (Ek : z - fl = k).
    { unfold k. unfold z0_of in E0. unfold bit_of in H3. destruct (1 <=? z - fl); lia. }
    rewrite E0, Ek in H4. apply Z.ltb_lt in H4. rewrite H4. exists p2. f_equal. f_equal. lia.
Qed.

(** * strings of 18 bytes *)
Lemma le_rev l : le_int (rev l) = be_int l.
Proof.
  assert (A : forall l x, le_int (l ++ [x]) = le_int l + 256 ^ Z.of_nat (length l) * x).
  { intros m x. induction m as [|y m IH]; cbn [app le_int length]; [change (256 ^ Z.of_nat 0) with 1; lia|]. rewrite IH, Nat2Z.inj_succ, Z.pow_succ_r by lia. lia. }
  induction l as [|x l IH]; [reflexivity|]. cbn [rev]. rewrite A, IH, rev_length. change (x :: l) with ([x] ++ l). rewrite be_app. replace (be_int [x]) with x by (cbn; lia). lia.
Qed.
Definition enc (t : Z * (Z * Z)) : list Z := rev (to_be 9 (fst t)) ++ fst (snd t) :: to_be 8 (snd (snd t)).
Definition sb (l : list Z) : nat -> Z := fun i => nth i l 0.
Lemma draw_sb l pos k : (pos + k <= length l)%nat -> draw (sb l) pos k = firstn k (skipn pos l).
Proof.
  intros H. apply (nth_ext _ _ 0 0); [rewrite draw_length, firstn_length, skipn_length; lia|]. intros i Hi. rewrite draw_length in Hi.
  unfold draw. rewrite (nth_indep _ 0 (sb l 0)) by (rewrite map_length, seq_length; exact Hi). rewrite map_nth, seq_nth by exact Hi.
  rewrite PackProofs.nth_firstn_lt by exact Hi. rewrite PackProofs.nth_skipn. reflexivity.
Qed.

Lemma sb_stream l : bytes l -> stream (sb l).
Proof.
  intros Hl i. unfold sb. destruct (Nat.lt_ge_cases i (length l)) as [Hi|Hi]; [|rewrite nth_overflow by exact Hi; lia].
  unfold bytes in Hl. rewrite Forall_forall in Hl. apply Hl, nth_In, Hi.
Qed.
Lemma base_range : forall i, 0 <= i <= 18 -> 0 <= base_lo i /\ base_lo i < base_hi i /\ base_hi i <= 2 ^ 72.
Proof.
  assert (C : forallb (fun n => (0 <=? base_lo (Z.of_nat n)) && (base_lo (Z.of_nat n) <? base_hi (Z.of_nat n)) && (base_hi (Z.of_nat n) <=? 2 ^ 72)) (seq 0 19) = true) by (vm_cast_no_check (eq_refl true)).
  intros i Hi. rewrite forallb_forall in C. specialize (C (Z.to_nat i) ltac:(apply in_seq; lia)). rewrite Z2Nat.id in C by lia.
  apply andb_prop in C. destruct C as [C C3]. apply andb_prop in C. destruct C as [C1 C2]. apply Z.leb_le in C1. apply Z.ltb_lt in C2. apply Z.leb_le in C3.
  split; [exact C1|]. split; [exact C2|exact C3].
Qed.
Lemma enc_bytes u p v : 0 <= p < 256 -> bytes (enc (u, (p, v))).
Proof.
  intros Hp. unfold enc, bytes. cbn [fst snd]. apply Forall_app. split; [apply Forall_rev, to_be_bytes|]. constructor; [exact Hp|apply to_be_bytes].
Qed.
Lemma enc_length t : length (enc t) = 18%nat.
Proof. unfold enc. rewrite app_length, rev_length, to_be_length. cbn [length]. rewrite to_be_length. reflexivity. Qed.
Lemma enc_parts u p v : 0 <= u < 2 ^ 72 -> 0 <= v < 2 ^ 64 -> let l := enc (u, (p, v)) in le_int (draw (sb l) 0 9) = u /\ sb l 9 = p /\ be_int (draw (sb l) 10 8) = v.
Proof.
  intros Hu Hv. cbv zeta. rewrite !draw_sb by (rewrite enc_length; lia). unfold sb, enc. cbn [fst snd]. set (a := to_be 9 u). assert (La : length (rev a) = 9%nat) by (unfold a; rewrite rev_length, to_be_length; reflexivity).
  split; [|split].
  - cbn [skipn]. rewrite firstn_app, La, Nat.sub_diag, firstn_O, app_nil_r, firstn_all2 by lia. rewrite le_rev. unfold a. apply be_int_to_be. exact Hu.
  - rewrite app_nth2 by lia. rewrite La. reflexivity.
  - rewrite skipn_app, La. rewrite skipn_all2 by lia. change (10 - 9)%nat with 1%nat. cbn [skipn app]. rewrite firstn_all2 by (rewrite to_be_length; lia). apply be_int_to_be. exact Hv.
Qed.
Lemma enc_onto l : bytes l -> length l = 18%nat -> l = enc (le_int (draw (sb l) 0 9), (sb l 9, be_int (draw (sb l) 10 8))).
Proof.
  intros Hb Hl. rewrite !draw_sb by lia. unfold enc, sb. cbn [fst snd skipn].
  do 18 (destruct l as [|? l]; [discriminate|]). destruct l; [|discriminate]. cbn [firstn skipn nth].
  rewrite <- (rev_involutive [z; z0; z1; z2; z3; z4; z5; z6; z7]) at 1. rewrite le_rev. unfold bytes in Hb.
  assert (B1 : bytes (rev [z; z0; z1; z2; z3; z4; z5; z6; z7])).
  { apply Forall_rev. repeat (match goal with H : Forall _ (_ :: _) |- _ => inversion H; clear H; subst end). repeat (constructor; [assumption|]). constructor. }
  assert (B2 : bytes [z9; z10; z11; z12; z13; z14; z15; z16]).
  { repeat (match goal with H : Forall _ (_ :: _) |- _ => inversion H; clear H; subst end). repeat (constructor; [assumption|]). constructor. }
  pose proof (to_be_be _ B1) as E1. pose proof (to_be_be _ B2) as E2. change (length (rev [z; z0; z1; z2; z3; z4; z5; z6; z7])) with 9%nat in E1. cbn [length] in E2.
  rewrite E1, E2, rev_involutive. reflexivity.
Qed.
Lemma has_count_bit c : c = 0 \/ c = 1 -> has_count (fun p => 0 <= p < 256 /\ p mod 2 = c) 128.
Proof.
  intros Hc. eapply has_count_iff; [|apply (has_count_image (fun k => 2 * k + c) (fun k => 0 <= k < 128) 128); [lia|exact (has_count_range 0 128 ltac:(lia))]].
  intros p. split.
  - intros (k & Hk & ->). split; [lia|]. symmetry. apply Z.mod_unique with (q := k); lia.
  - intros (Hp & E). exists (p / 2). pose proof (Z.div_mod p 2 ltac:(lia)). split; lia.
Qed.
(** the strings on which one round returns z *)
Definition round_gives (fl : Z) (thr : Z -> Z -> Z) (z : Z) (l : list Z) : Prop :=
  bytes l /\ length l = 18%nat /\ exists pos, samplerz (sb l) 1 fl thr 0 = Some (z, pos).
Definition round_count (fl : Z) (thr : Z -> Z -> Z) (z : Z) : Z :=
  let k := z - fl in if (-18 <=? k) && (k <=? 19) then (base_hi (z0_of k) - base_lo (z0_of k)) * (128 * thr k (z0_of k)) else 0.
Lemma round_has_count fl thr z : (forall k, -18 <= k <= 19 -> 0 <= thr k (z0_of k) < 2 ^ 64) -> has_count (round_gives fl thr z) (round_count fl thr z).
Proof.
  intros Ht. unfold round_count. cbv zeta. set (k := z - fl). destruct ((-18 <=? k) && (k <=? 19)) eqn:Ek.
  - apply andb_prop in Ek. destruct Ek as [K1 K2]. apply Z.leb_le in K1. apply Z.leb_le in K2. assert (K : -18 <= k <= 19) by lia. specialize (Ht k K) as Htk.
    assert (Z0 : 0 <= z0_of k <= 18) by (unfold z0_of; destruct (Z.leb_spec 1 k); lia). pose proof (base_range _ Z0) as (R1 & R2 & R3).
    eapply has_count_iff; [|apply (has_count_image enc)].
    3: { apply has_count_prod; [apply has_count_range; lia|]. apply has_count_prod; [apply (has_count_bit (bit_of k)); unfold bit_of; destruct (1 <=? k); lia|].
         replace (thr k (z0_of k)) with (thr k (z0_of k) - 0) by lia. apply has_count_range. apply Htk. }
    + intros l. split.
      * intros ([u [p v]] & (Pu & Pp & Pv) & ->). cbn [fst snd] in *. split; [apply enc_bytes, Pp|]. split; [apply enc_length|].
        assert (Hb : stream (sb (enc (u, (p, v))))) by (apply sb_stream, enc_bytes, Pp).
        destruct (enc_parts u p v) as (E1 & E2 & E3); [lia|lia|]. apply (round_iff _ fl thr 0 z Hb Ht). fold k. cbn [Nat.add]. rewrite E1, E2, E3. split; [exact K|]. split; [exact Pu|]. split; [apply Pp|apply Pv].
      * intros (Hb & Hl & He). apply (round_iff _ fl thr 0 z (sb_stream l Hb) Ht) in He. fold k in He. cbn [Nat.add] in He. destruct He as (_ & Hu & Hp & Hv).
        eexists (_, (_, _)). split; [|apply enc_onto; assumption]. cbn [fst snd]. split; [exact Hu|]. split; [split; [apply sb_stream, Hb|exact Hp]|]. split; [|exact Hv].
        apply (be_bnd _ (draw_bytes _ 10 8 (sb_stream l Hb))).
    + intros [u [p v]] [u' [p' v']] (Pu & Pp & Pv) (Pu' & Pp' & Pv') E. cbn [fst snd] in *.
      destruct (enc_parts u p v) as (E1 & E2 & E3); [lia|lia|]. destruct (enc_parts u' p' v') as (E1' & E2' & E3'); [lia|lia|]. rewrite E in E1, E2, E3. congruence.
  - exists []. split; [constructor|]. split; [|reflexivity]. intros l. split; [intros []|]. intros (Hb & Hl & He). apply (round_iff _ fl thr 0 z (sb_stream l Hb) Ht) in He. fold k in He. lia.
Qed.
Definition window (fl : Z) : list Z := map (fun i => fl - 18 + Z.of_nat i) (seq 0 38).
Lemma window_NoDup fl : NoDup (window fl).
Proof. apply NoDup_map_inj; [|apply seq_NoDup]. intros x y _ _. lia. Qed.
Lemma in_window fl z : In z (window fl) <-> fl - 18 <= z <= fl + 19.
Proof.
  unfold window. rewrite in_map_iff. split.
  - intros (i & <- & Hi). apply in_seq in Hi. lia.
  - intros H. exists (Z.to_nat (z - (fl - 18))). split; [lia|]. apply in_seq. lia.
Qed.
Lemma round_total fl thr : (forall k, -18 <= k <= 19 -> 0 <= thr k (z0_of k) < 2 ^ 64) ->
  has_count (fun l => exists z, round_gives fl thr z l) (fold_right (fun z s => round_count fl thr z + s) 0 (window fl)).
Proof.
  intros Ht. eapply has_count_iff; [|apply has_count_union with (P := round_gives fl thr)].
  - intros l. split; [intros (z & _ & H); exists z; exact H|]. intros (z & H). exists z. split; [|exact H]. apply in_window.
    destruct H as (_ & _ & pos & E). apply samplerz_range in E. lia.
  - apply window_NoDup.
  - intros z _. apply round_has_count, Ht.
  - intros z z' l (_ & _ & p & E) (_ & _ & p' & E'). congruence.
Qed.
(** a rejected round reads 11 to 18 bytes and is followed by another one *)
Lemma samplerz_rounds b fuel fl thr pos : stream b -> samplerz b 1 fl thr pos = None ->
  exists k, (11 <= k <= 18)%nat /\ samplerz b (S fuel) fl thr pos = samplerz b fuel fl thr (pos + k).
Proof.
  intros Hb. cbn [samplerz]. rewrite basesampler_value. set (z0 := cnt _ _). set (bb := Z.land _ 1). unfold berexp_cmp. change [56; 48; 40; 32; 24; 16; 8; 0] with (shifts 8). rewrite berexp_loop_ok by exact Hb.
  destruct (_ <? _); [discriminate|]. intros _. set (t := to_be 8 _). assert (Lt : length t = 8%nat) by apply to_be_length.
  assert (G : forall d r, length d = length r -> (1 <= length d)%nat -> (1 <= reads d r <= length d)%nat).
  { clear. induction d as [|x d IH]; intros [|y r] Hl H; cbn [length] in *; try lia. cbn [reads]. destruct d as [|x' d], r as [|y' r]; cbn [length] in *; try lia.
    - destruct (_ =? _); cbn [reads]; lia.
    - specialize (IH (y' :: r) ltac:(cbn [length]; lia) ltac:(lia)). destruct (_ =? _); lia. }
  specialize (G t (draw b (pos + 9 + 1) 8)). rewrite Lt, draw_length in G. specialize (G eq_refl ltac:(lia)).
  exists (10 + reads t (draw b (pos + 9 + 1) 8))%nat. split; [lia|]. f_equal. lia.
Qed.
