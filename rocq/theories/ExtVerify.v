(** Proofs about the verdict of the recursive verifier (external/ETHFalcon_Recursive.sol). *)
From Verif Require Import Base HashModel RingSpec Ring NtruProofs PolyProofs NttApi FalconModel FalconSpec FalconProofs ExtTables ExtModel ExtProofs.
Set Default Goal Selector "!".

(** the hashed point *)
Lemma tet_loop_len H : forall fuel tmp sample j out v, (length out <= 512)%nat -> canonq out -> tet_loop H fuel tmp sample j out = Some v -> length v = 512%nat /\ canonq v.
Proof.
  assert (A : forall x out, canonq out -> canonq (out ++ [x mod q])).
  { intros x out C. apply Forall_app. split; [exact C|]. constructor; [|constructor]. apply Z.mod_pos_bound. reflexivity. }
  assert (D : forall fuel out v, (length out <= 512)%nat -> canonq out -> Some out = Some v -> (512 <= length out)%nat -> fuel = fuel :> nat -> length v = 512%nat /\ canonq v).
  { intros fuel out v L C E G _. injection E as <-. split; [lia|exact C]. }
  induction fuel as [|fuel IH]; intros tmp sample j out v L C; cbn [tet_loop]; destruct (Nat.ltb_spec (length out) 512) as [Hl|Hl].
  - discriminate.
  - intros E. apply (D 0%nat out v L C E Hl eq_refl).
  - destruct (j =? 16)%nat; cbv zeta; intros E; apply IH in E; try exact E; match goal with |- context [if ?b then _ else _] => destruct b end; try (apply A, C); try exact C; try (rewrite app_length; cbn [length]; lia); lia.
  - intros E. apply (D 0%nat out v L C E Hl eq_refl).
Qed.
Lemma TET_len H fuel salt msg v : hashToPointTETRATION H fuel salt msg = Some v -> length v = 512%nat /\ canonq v.
Proof. unfold hashToPointTETRATION. apply tet_loop_len; [cbn; lia|constructor]. Qed.

(** words and norms *)
Definition nrm (x : Z) : Z := if qs1 <? x then q - x else x.
Lemma mapr_norm l : mapr normalize l = if forallb (fun x => x <=? q) l then Ok (map nrm l) else Raise Revert.
Proof.
  induction l as [|x l IH]; [reflexivity|]. cbn [mapr forallb map]. rewrite IH. clear IH. unfold normalize, csub, nrm, qs1, q.
  destruct (Z.leb_spec x 12289), (Z.ltb_spec 6144 x), (Z.ltb_spec 12289 x); cbn [andb bind]; try lia; try reflexivity; match goal with |- context [forallb ?f ?m] => destruct (forallb f m) end; reflexivity.
Qed.
Lemma nrm_sq x : 0 <= x <= 12289 -> nrm x ^ 2 = centre x ^ 2.
Proof.
  intros Hx. unfold nrm, qs1, q. destruct (Z.ltb_spec 6144 x).
  - rewrite <- (centre_unique x (x - 12289)); [ring| |lia]. exists (-1). ring.
  - rewrite <- (centre_unique x x); [reflexivity| |lia]. exists 0. ring.
Qed.
Lemma sq_nrm l : Forall (fun x => 0 <= x <= 12289) l -> sqnorm (map nrm l) = sqnorm (map centre l).
Proof. induction 1 as [|x l Hx _ IH]; [reflexivity|]. unfold sqnorm in *. cbn [map fold_right]. rewrite IH, nrm_sq by exact Hx. reflexivity. Qed.
Lemma fold_norm (a b : list Z) m : (m <= length a)%nat -> (m <= length b)%nat ->
  fold_left (fun s i => s + nth i a 0 * nth i a 0 + nth i b 0 * nth i b 0) (seq 0 m) 0 = sqnorm (firstn m a) + sqnorm (firstn m b).
Proof.
  induction m as [|m IH]; intros La Lb; [reflexivity|]. rewrite seq_S, fold_left_app. cbn [fold_left Nat.add]. rewrite IH by lia.
  assert (S : forall v, (S m <= length v)%nat -> sqnorm (firstn (S m) v) = sqnorm (firstn m v) + nth m v 0 * nth m v 0).
  { clear. intros v. revert m. induction v as [|x v IHv]; intros m L; cbn [length] in L; [lia|]. destruct m as [|m].
    - unfold sqnorm. cbn [firstn fold_right nth]. ring.
    - change (firstn (S (S m)) (x :: v)) with (x :: firstn (S m) v). change (firstn (S m) (x :: v)) with (x :: firstn m v). unfold sqnorm in *. cbn [fold_right nth]. rewrite IHv by lia. ring. }
  rewrite !S by assumption. ring.
Qed.
Lemma to_word_in s : -12289 <= s <= 12289 -> 0 <= to_word s <= 12289 /\ (12289 | to_word s - s).
Proof.
  intros Hs. unfold to_word, q. assert (P : 12289 < 2 ^ 256) by reflexivity. destruct (Z.ltb_spec s 0).
  - rewrite Z.mod_small by lia. split; [lia|]. exists 1. ring.
  - split; [lia|]. exists 0. ring.
Qed.
Lemma to_word_out s : - 2 ^ 255 <= s < 2 ^ 255 -> ~ -12289 <= s <= 12289 -> 12289 < to_word s.
Proof.
  intros Hs N. unfold to_word, q. assert (P : 12289 * 2 < 2 ^ 255) by reflexivity. assert (P2 : 2 ^ 256 = 2 * 2 ^ 255) by reflexivity. destruct (Z.ltb_spec s 0); [|lia].
  rewrite P2. rewrite <- (Z_mod_plus_full (12289 + s) 1). rewrite Z.mod_small by lia. lia.
Qed.
Lemma subZQ_ok c p : length c = length p -> canonq p -> subZQ c p = Ok (map (fun i => (nth i c 0 + (12289 - nth i p 0)) mod 12289) (seq 0 (length c))).
Proof.
  intros L C. unfold subZQ, negZQ. rewrite L, Nat.eqb_refl. rewrite (mapr_ok _ (fun x => 12289 - x)).
  2:{ intros x Hx. pose proof (proj1 (Forall_forall _ _) C x Hx) as Hx'. apply csub_ok. unfold q. cbv beta in Hx'. lia. }
  cbn [bind]. unfold addZQ. rewrite map_length, L, Nat.eqb_refl. f_equal. apply map_ext_in. intros i Hi. apply in_seq in Hi. rewrite NttProofs.nth_map0 by lia. reflexivity.
Qed.
Definition in_range (s1 : list Z) : Prop := Forall (fun x => -12289 <= x <= 12289) s1.
Lemma forallb_words s1 : Forall (fun x => - 2 ^ 255 <= x < 2 ^ 255) s1 -> forallb (fun x => x <=? q) (map to_word s1) = true <-> in_range s1.
Proof.
  intros B. rewrite forallb_forall. split.
  - intros F. apply Forall_forall. intros x Hx. assert (D : -12289 <= x <= 12289 \/ ~ (-12289 <= x <= 12289)) by lia. destruct D as [D|D]; [exact D|exfalso].
    pose proof (to_word_out x (proj1 (Forall_forall _ _) B x Hx) D) as G. specialize (F (to_word x) (in_map _ _ _ Hx)). apply Z.leb_le in F. unfold q in F. lia.
  - intros R x Hx. apply in_map_iff in Hx. destruct Hx as (y & <- & Hy). apply Z.leb_le. apply to_word_in. exact (proj1 (Forall_forall _ _) R y Hy).
Qed.
Lemma canon_le l : canonq l -> forallb (fun x => x <=? q) l = true.
Proof. intros C. apply forallb_forall. intros x Hx. apply Z.leb_le. pose proof (proj1 (Forall_forall _ _) C x Hx) as D. cbv beta in D. unfold q. lia. Qed.

Section V.
Variable H : list Z -> list Z.
Definition s0x (c h s1 : list Z) : list Z := map (fun i => (nth i c 0 + (12289 - nth i (red (negmul 512 (map to_word s1) h)) 0)) mod 12289) (seq 0 (length c)).
Lemma run hfuel fuel msgs salt s1 h c : (9 <= fuel)%nat -> length h = 512%nat -> length s1 = 512%nat -> hashToPointTETRATION H hfuel salt msgs = Some c ->
  ext_verify H hfuel fuel msgs salt s1 h = Fin (norm_check (s0x c h s1) (map to_word s1)) /\ ext_verify_nttpub H hfuel fuel msgs salt s1 (T h 9) = Fin (norm_check (s0x c h s1) (map to_word s1)).
Proof.
  intros Hf Lh L1 E. destruct (TET_len _ _ _ _ _ E) as [Lc _]. unfold ext_verify, ext_verify_nttpub, verify_with. rewrite T_length. change (2 ^ 9)%nat with 512%nat. rewrite Lh, L1. cbn [Nat.eqb negb]. rewrite E.
  destruct (mulZQ_ok 9 fuel (map to_word s1) h ltac:(lia) Hf) as [M1 M2]; [rewrite map_length, L1; reflexivity|rewrite Lh; reflexivity|]. rewrite M1, M2. cbn [fbind]. change (2 ^ 9)%nat with 512%nat.
  rewrite subZQ_ok; [split; reflexivity| |].
  - unfold red. rewrite map_length, negmul_length. exact Lc.
  - apply mod_q_canon.
Qed.
Lemma s0x_facts c h s1 : length c = 512%nat -> length (s0x c h s1) = 512%nat /\ canonq (s0x c h s1) /\
  forall i, (i < 512)%nat -> (12289 | nth i (s0x c h s1) 0 - (nth i c 0 - nth i (negmul 512 (map to_word s1) h) 0)).
Proof.
  intros Lc. unfold s0x. split; [rewrite map_length, seq_length; exact Lc|]. split.
  - apply Forall_forall. intros x Hx. apply in_map_iff in Hx. destruct Hx as (i & <- & _). apply Z.mod_pos_bound. reflexivity.
  - intros i Hi. rewrite (nth_map_seq' (fun i => (nth i c 0 + (12289 - nth i (red (negmul 512 (map to_word s1) h)) 0)) mod 12289)) by (rewrite Lc; exact Hi).
    unfold red. rewrite NttProofs.nth_map0 by (rewrite negmul_length; exact Hi). set (a := nth i c 0). set (b := nth i (negmul _ _ _) 0). clearbody a b.
    set (e := a + (12289 - b mod 12289)). pose proof (Z.div_mod b 12289 ltac:(lia)) as Db. pose proof (Z.div_mod e 12289 ltac:(lia)) as De. exists (1 + b / 12289 - e / 12289). unfold e in *. lia.
Qed.
Lemma check_eq c h s1 : length c = 512%nat -> length s1 = 512%nat -> Forall (fun x => - 2 ^ 255 <= x < 2 ^ 255) s1 ->
  norm_check (s0x c h s1) (map to_word s1) = if forallb (fun x => x <=? q) (map to_word s1) && (sqnorm (map centre (s0x c h s1)) + sqnorm (map centre (map to_word s1)) <? sigBound) then Ok 0 else Raise Revert.
Proof.
  intros Lc L1 B. destruct (s0x_facts c h s1 Lc) as (L0 & C0 & _). unfold norm_check. rewrite !mapr_norm, (canon_le _ C0). cbn [bind].
  destruct (forallb (fun x => x <=? q) (map to_word s1)) eqn:F; [|reflexivity]. cbn [andb bind].
  rewrite fold_norm by (rewrite !map_length; lia). rewrite !firstn_all2 by (rewrite !map_length; lia). rewrite !sq_nrm; [reflexivity| |].
  - apply (forallb_words s1 B) in F. apply Forall_forall. intros x Hx. apply in_map_iff in Hx. destruct Hx as (y & <- & Hy). apply to_word_in, (proj1 (Forall_forall _ _) F y Hy).
  - eapply Forall_impl; [|exact C0]. intros x Hx. cbv beta in *. lia.
Qed.
Lemma centre_mod x y : (12289 | x - y) -> centre x = centre y.
Proof. intros [d Hd]. apply centre_unique; [|apply centre_range]. destruct (centre_cong x) as [b Hb]. exists (b + d). lia. Qed.
Lemma word_cong s1 : in_range s1 -> pcong 512 12289 (map to_word s1) s1.
Proof.
  intros R i Hi. unfold coef. destruct (Nat.lt_ge_cases i (length s1)) as [Hl|Hl].
  - rewrite NttProofs.nth_map0 by exact Hl. apply to_word_in. exact (proj1 (Forall_forall _ _) R _ (nth_In _ _ Hl)).
  - rewrite !nth_overflow by (rewrite ?map_length; exact Hl). exists 0. ring.
Qed.
Lemma pos512 : (0 < 512)%nat. Proof. lia. Qed.
Lemma word_mul s1 h : in_range s1 -> length s1 = 512%nat -> length h = 512%nat -> pcong 512 12289 (negmul 512 (map to_word s1) h) (negmul 512 s1 h).
Proof.
  intros R L1 Lh. apply pcong_req. rewrite !fl_mul_req by (rewrite ?map_length; rewrite ?L1, ?Lh; apply Nat.le_refl). apply (Ring.rmul_req 512 pos512 12289); [exact (proj1 (pcong_req _ _ _ _) (word_cong s1 R))|reflexivity].
Qed.
Lemma min_norm n z s : length z = n -> length s = n -> pcong n 12289 s z -> sqnorm (map centre z) <= sqnorm s.
Proof.
  intros Lz Ls P. apply sqnorm_le; [rewrite map_length; lia|]. intros i Hi. rewrite map_length in Hi. rewrite NttProofs.nth_map0 by exact Hi. apply centre_min. apply (P i). rewrite <- Lz. exact Hi.
Qed.
Lemma pre_centre n h c z s1 W : (0 < n)%nat -> length z = n -> length s1 = n -> length h = n -> (forall i, (i < n)%nat -> (12289 | nth i z 0 - (nth i c 0 - nth i W 0))) -> pcong n 12289 W (negmul n s1 h) ->
  preimage n h c (map centre z) s1 /\ forall s0, preimage n h c s0 s1 -> pcong n 12289 s0 z.
Proof.
  intros np L0 L1 Lh N0 WM. split.
  - apply (preimage_s0 n np); [rewrite map_length; exact L0|exact L1|exact Lh|]. intros i Hi. unfold psub, coef. rewrite (nth_map_seq' (fun k => nth k c 0 - nth k (negmul n s1 h) 0)) by exact Hi. rewrite NttProofs.nth_map0 by lia.
    destruct (centre_cong (nth i z 0)) as [a Ha]. destruct (N0 i Hi) as [b Hb]. destruct (WM i Hi) as [d Hd]. unfold coef in Hd. exists (a + b - d). lia.
  - intros s0 P. assert (Ls0 : length s0 = n) by apply P. apply (preimage_s0 n np) in P; [|exact Ls0|exact L1|exact Lh]. intros i Hi. specialize (P i Hi). unfold psub, coef in *. rewrite (nth_map_seq' (fun k => nth k c 0 - nth k (negmul n s1 h) 0)) in P by exact Hi.
    destruct (N0 i Hi) as [b Hb]. destruct (WM i Hi) as [d Hd]. destruct P as [e He]. unfold coef in *. exists (e - b + d). lia.
Qed.
Lemma verdict_bool c h s1 : length c = 512%nat -> length h = 512%nat -> length s1 = 512%nat -> Forall (fun x => - 2 ^ 255 <= x < 2 ^ 255) s1 -> forall M,
  (forallb (fun x => x <=? q) (map to_word s1) && (sqnorm (map centre (s0x c h s1)) + sqnorm (map centre (map to_word s1)) <? M) = true <->
   in_range s1 /\ exists s0 s1', preimage 512 h c s0 s1 /\ length s1' = 512%nat /\ pcong 512 12289 s1' s1 /\ sqnorm s0 + sqnorm s1' < M).
Proof.
  intros Lc Lh L1 B M. destruct (s0x_facts c h s1 Lc) as (L0 & C0 & N0). set (z0 := s0x c h s1) in *. clearbody z0. rewrite andb_true_iff, (forallb_words s1 B), Z.ltb_lt. clear B.
  assert (PZ : in_range s1 -> preimage 512 h c (map centre z0) s1 /\ forall s0, preimage 512 h c s0 s1 -> pcong 512 12289 s0 z0).
  { intros R. exact (pre_centre 512 h c z0 s1 _ pos512 L0 L1 Lh N0 (word_mul s1 h R L1 Lh)). }
  assert (EC : in_range s1 -> map centre (map to_word s1) = map centre s1).
  { intros R. rewrite map_map. apply map_ext_in. intros x Hx. apply centre_mod. apply to_word_in, (proj1 (Forall_forall _ _) R x Hx). }
  split.
  - intros [R S]. split; [exact R|]. rewrite (EC R) in S. exists (map centre z0), (map centre s1). split; [exact (proj1 (PZ R))|]. split; [rewrite map_length; exact L1|]. split; [|exact S].
    clear - L1. revert L1. generalize 512%nat. intros n L1 i Hi. unfold coef. rewrite NttProofs.nth_map0 by lia. apply centre_cong.
  - intros [R (s0 & s1' & P & L1' & C1 & S)]. split; [exact R|]. rewrite (EC R).
    pose proof (min_norm 512 z0 s0 L0 (proj1 P) (proj2 (PZ R) s0 P)) as A0. pose proof (min_norm 512 s1 s1' L1 L1' C1) as A1. clear - S A0 A1. lia.
Qed.
Lemma sigBound_eq : sigBound = 34034726. Proof. reflexivity. Qed.
Theorem verdict hfuel fuel msgs salt s1 h c : (9 <= fuel)%nat -> length h = 512%nat -> length s1 = 512%nat -> Forall (fun x => - 2 ^ 255 <= x < 2 ^ 255) s1 -> hashToPointTETRATION H hfuel salt msgs = Some c ->
  (exists b : bool, ext_verify H hfuel fuel msgs salt s1 h = Fin (if b then Ok 0 else Raise Revert) /\ ext_verify_nttpub H hfuel fuel msgs salt s1 (T h 9) = Fin (if b then Ok 0 else Raise Revert) /\
   (b = true <-> in_range s1 /\ exists s0 s1', preimage 512 h c s0 s1 /\ length s1' = 512%nat /\ pcong 512 12289 s1' s1 /\ sqnorm s0 + sqnorm s1' < 34034726)).
Proof.
  intros Hf Lh L1 B E. destruct (TET_len _ _ _ _ _ E) as [Lc _]. destruct (run hfuel fuel msgs salt s1 h c Hf Lh L1 E) as [R1 R2]. rewrite (check_eq c h s1 Lc L1 B), sigBound_eq in R1, R2.
  exists (forallb (fun x => x <=? q) (map to_word s1) && (sqnorm (map centre (s0x c h s1)) + sqnorm (map centre (map to_word s1)) <? 34034726)).
  split; [exact R1|]. split; [exact R2|]. exact (verdict_bool c h s1 Lc Lh L1 B 34034726).
Qed.
End V.
