(** Proofs about the on-chain decoders. *)
From Verif Require Import Base EncodingModel EncodingSpec EncodingProofs CodecModel CodecSpec CodecProofs SolCodecModel SolCodecSpec.

Lemma zbits_push (accw acc b : Z) (k : nat) : is_byte b -> Z.of_nat k + 8 <= accw ->
  zbits (k + 8) (acc_push accw acc b) = zbits k acc ++ zbits 8 b.
Proof.
  intros Hb Hk. unfold acc_push.
  transitivity (zbits (k + 8) (Z.lor (Z.shiftl acc 8) b)).
  { apply zbits_ext. intros i Hi. apply Z.mod_pow2_bits_low. lia. }
  rewrite lor_shiftl_add by (unfold is_byte in Hb; lia).
  change 8 with (Z.of_nat 8) at 1. apply zbits_add_pow. exact Hb.
Qed.

Lemma zbits_shiftr (k j : nat) z X Y : zbits (k + j) z = X ++ Y -> length Y = j -> zbits k (Z.shiftr z (Z.of_nat j)) = X.
Proof.
  intros E L. rewrite Z.shiftr_div_pow2 by lia. rewrite zbits_app in E.
  apply app_inv_length in E; [tauto|].
  apply (f_equal (@length _)) in E. rewrite !app_length, !zbits_length in E. rewrite zbits_length. lia.
Qed.

Lemma land_128 b s low : zbits 8 b = s :: low -> Z.land b 128 = (if s then 128 else 0) /\ Z.land b 127 = of_bits low.
Proof.
  intros E. rewrite zbits_S_testbit in E. injection E as E1 E2.
  split.
  - change (Z.testbit b 7 = s) in E1. rewrite <- E1. clear E1 E2.
    apply Z.bits_inj'. intros i Hi. change 128 with (2 ^ 7). rewrite Z.land_spec, Z.pow2_bits_eqb by lia.
    destruct (Z.eqb_spec 7 i) as [<-|N].
    + rewrite andb_true_r. destruct (Z.testbit b 7); reflexivity.
    + rewrite andb_false_r. destruct (Z.testbit b 7); [|now rewrite Z.bits_0].
      rewrite Z.pow2_bits_eqb by lia. destruct (Z.eqb_spec 7 i); congruence.
  - change 127 with (2 ^ 7 - 1). rewrite land_ones_mod by lia.
    change (2 ^ 7) with (2 ^ Z.of_nat 7). rewrite <- of_bits_zbits. now rewrite <- E2.
Qed.

Lemma land_1 z b : zbits 1 z = [b] -> (Z.land z 1 =? 0) = negb b.
Proof.
  cbn [zbits]. intros E. injection E as E. change 1 with (2 ^ 1 - 1). rewrite land_ones_mod by lia.
  change (2 ^ 1) with 2. change (Z.testbit z 0 = b) in E. rewrite Z.bit0_odd in E. rewrite Zmod_odd, E. now destruct b.
Qed.

Section Sig.
Variables (accw : Z) (rd : nat -> Z).
Hypothesis Haccw : 16 <= accw.
Hypothesis Hrd : forall v, is_byte (rd v).

(** the bits of k bytes from position v *)
Definition str (v k : nat) : list bool := bytes_bits (map rd (seq v k)).
Lemma str_S v k : str v (S k) = zbits 8 (rd v) ++ str (S v) k.
Proof. reflexivity. Qed.
Lemma str_add v a b : str v (a + b) = str v a ++ str (v + a) b.
Proof. unfold str. rewrite seq_app, map_app. apply bytes_bits_app. Qed.
Lemma str_length v k : length (str v k) = (8 * k)%nat.
Proof. unfold str. rewrite bytes_bits_length, map_length, seq_length. reflexivity. Qed.

(** outcome of the unary scan *)
Lemma high_spec fuel : forall acc P v m,
  zbits (length P) acc = P -> (length P <= 8)%nat -> 2048 <= m + 128 * Z.of_nat fuel ->
  (exists h j P' acc', sig_high accw rd fuel acc (Z.of_nat (length P)) v m
        = Ok (acc', Z.of_nat (length P'), (v + j)%nat, m + 128 * Z.of_nat h) /\
      P ++ str v j = repeat false h ++ true :: P' /\ zbits (length P') acc' = P' /\ (length P' <= 7)%nat /\
      (h = O \/ m + 128 * Z.of_nat h <= 2047))
  \/ (exists h j P', sig_high accw rd fuel acc (Z.of_nat (length P)) v m = Raise Revert /\
      P ++ str v j = repeat false h ++ P' /\ 2047 < m + 128 * Z.of_nat h)
  \/ 2048 <= m.
Proof.
  induction fuel as [|fuel IH]; intros acc P v m HP LP Hm.
  { right. right. lia. }
  destruct (Z.ltb_spec m 2048) as [Hlt|]; [|right; right; lia].
  assert (exists acc1 c P1 j1, sig_high accw rd (S fuel) acc (Z.of_nat (length P)) v m =
     (if negb (Z.land (Z.shiftr acc1 (Z.of_nat (length P1))) 1 =? 0) then Ok (acc1, Z.of_nat (length P1), (v + j1)%nat, m)
      else if 2047 <? m + 128 then Raise Revert
           else sig_high accw rd fuel acc1 (Z.of_nat (length P1)) (v + j1)%nat (m + 128)) /\
     P ++ str v j1 = c :: P1 /\ zbits (S (length P1)) acc1 = c :: P1 /\ (length P1 <= 7)%nat)
    as (acc1 & c & P1 & j1 & E & EP & EZ & L1).
  { destruct P as [|c P1].
    - assert (L : length (zbits 8 (rd v)) = 8%nat) by apply zbits_length.
      destruct (zbits 8 (rd v)) as [|c P1] eqn:EB; [cbn in L; lia|]. cbn [length] in L.
      assert (L7 : length P1 = 7%nat) by lia.
      exists (acc_push accw acc (rd v)), c, P1, 1%nat. repeat split.
      + cbn [sig_high length]. change (0 =? Z.of_nat 0) with true. cbv iota beta.
        replace (8 - 1) with (Z.of_nat (length P1)) by lia. replace (v + 1)%nat with (S v) by lia. reflexivity.
      + cbn [app]. rewrite str_S, EB. change (str (S v) 0) with (@nil bool). now rewrite app_nil_r.
      + rewrite L7. change 8%nat with (0 + 8)%nat. rewrite zbits_push; auto; lia.
      + lia.
    - exists acc, c, P1, O. cbn [length] in LP. repeat split.
      + cbn [sig_high]. replace (0 =? Z.of_nat (length (c :: P1))) with false by (cbn [length]; lia).
        cbv iota beta. replace (Z.of_nat (length (c :: P1)) - 1) with (Z.of_nat (length P1)) by (cbn [length]; lia).
        replace (v + 0)%nat with v by lia. reflexivity.
      + change (str v 0) with (@nil bool). now rewrite app_nil_r.
      + exact HP.
      + lia. }
  assert (B1 : zbits 1 (Z.shiftr acc1 (Z.of_nat (length P1))) = [c]).
  { apply (zbits_shiftr 1 (length P1) acc1 [c] P1); auto. }
  rewrite (land_1 _ _ B1) in E. rewrite negb_involutive in E.
  assert (EZ1 : zbits (length P1) acc1 = P1).
  { rewrite zbits_S_testbit in EZ. now injection EZ. }
  destruct c.
  - left. exists O, j1, P1, acc1. rewrite E. rewrite Z.add_0_r. repeat split; auto.
  - destruct (Z.ltb_spec 2047 (m + 128)) as [Hb|Hb].
    + right. left. exists 1%nat, j1, P1. repeat split; auto.
    + destruct (IH acc1 P1 (v + j1)%nat (m + 128) EZ1) as [(h & j & P' & acc' & E2 & ES & EZ' & L' & Hh)|[(h & j & P' & E2 & ES & Hh)|]]; try lia.
      * left. exists (S h), (j1 + j)%nat, P', acc'. rewrite E, E2. repeat split; auto.
        -- f_equal. f_equal; [f_equal; lia|lia].
        -- rewrite str_add, app_assoc, EP. cbn [app repeat]. f_equal. exact ES.
        -- right. destruct Hh; lia.
      * right. left. exists (S h), (j1 + j)%nat, P'. rewrite E, E2. repeat split; auto.
        -- rewrite str_add, app_assoc, EP. cbn [app repeat]. f_equal. exact ES.
        -- lia.
Qed.

Lemma loop_spec todo : forall acc P v x,
  zbits (length P) acc = P -> (length P <= 7)%nat ->
  (exists xs w j P', sig_loop accw rd todo acc (Z.of_nat (length P)) v x = Ok (x ++ xs, (v + j)%nat) /\
      length xs = todo /\ sol_encodes_all xs w /\ P ++ str v j = w ++ P' /\ (length P' <= 7)%nat)
  \/ (exists xs w j s low h rest, sig_loop accw rd todo acc (Z.of_nat (length P)) v x = Raise Revert /\
      (length xs < todo)%nat /\ sol_encodes_all xs w /\ length low = 7%nat /\
      P ++ str v j = w ++ s :: low ++ repeat false h ++ rest /\ 2047 < of_bits low + 128 * Z.of_nat h).
Proof.
  induction todo as [|todo IH]; intros acc P v x HP LP.
  { left. exists [], [], O, P. cbn [sig_loop]. rewrite !app_nil_r, Nat.add_0_r. repeat split; auto. constructor. }
  cbn [sig_loop].
  assert (HZ : zbits (length P + 8) (acc_push accw acc (rd v)) = P ++ zbits 8 (rd v)).
  { rewrite zbits_push; auto; try lia. now rewrite HP. }
  set (acc1 := acc_push accw acc (rd v)) in *. clearbody acc1.
  assert (exists s low P1, P ++ zbits 8 (rd v) = (s :: low) ++ P1 /\ length low = 7%nat /\ length P1 = length P)
    as (s & low & P1 & EP & LL & L1).
  { assert (L : (8 <= length (P ++ zbits 8 (rd v)))%nat) by (rewrite app_length, zbits_length; lia).
    assert (L' : length (P ++ zbits 8 (rd v)) = (length P + 8)%nat) by (rewrite app_length, zbits_length; lia).
    destruct (P ++ zbits 8 (rd v)) as [|s r]; [cbn in L; lia|]. cbn [length] in L, L'.
    exists s, (firstn 7 r), (skipn 7 r). split; [cbn [app]; now rewrite firstn_skipn|].
    rewrite firstn_length, skipn_length. lia. }
  rewrite EP in HZ.
  assert (B8 : zbits 8 (Z.shiftr acc1 (Z.of_nat (length P))) = s :: low).
  { apply (zbits_shiftr 8 (length P) acc1 (s :: low) P1); [|lia]. rewrite Nat.add_comm. exact HZ. }
  destruct (land_128 _ _ _ B8) as [-> ->].
  assert (HZ1 : zbits (length P1) acc1 = P1).
  { rewrite Nat.add_comm, zbits_app in HZ. apply app_inv_length in HZ.
    - rewrite L1. apply HZ.
    - cbn [length]. rewrite zbits_length, LL. reflexivity. }
  assert (Hlow : 0 <= of_bits low < 128).
  { pose proof (of_bits_bound low) as B. rewrite LL in B. exact B. }
  rewrite <- L1.
  assert (ES : forall j, P ++ str v (S j) = (s :: low) ++ P1 ++ str (S v) j).
  { intros j. rewrite str_S, app_assoc, EP, <- app_assoc. reflexivity. }
  destruct (high_spec 16 acc1 P1 (S v) (of_bits low) HZ1) as [(h & j & P' & acc' & E2 & E3 & EZ' & L' & Hh)|[(h & j & P' & E2 & E3 & Hh)|]]; try lia.
  - rewrite E2. cbn [bind].
    assert (Hm : of_bits low + 128 * Z.of_nat h <= 2047) by (destruct Hh; lia).
    set (m := of_bits low + 128 * Z.of_nat h) in *.
    assert (ET : (if 128 =? (if s then 128 else 0) then 12289 - m else m) = (if s then 12289 - m else m)) by (now destruct s).
    rewrite ET.
    assert (HE : sol_encodes (if s then 12289 - m else m) (s :: low ++ repeat false h ++ [true])).
    { exists s, low, h. repeat split; auto. }
    destruct (IH acc' P' (S v + j)%nat (x ++ [if s then 12289 - m else m]) EZ' L') as
      [(xs & w & j' & P'' & R & Lx & Hx & Hs & L'')|(xs & w & j' & s' & low' & h' & rest & R & Lx & Hx & Ll & Hs & Hb)].
    + left. exists ((if s then 12289 - m else m) :: xs), ((s :: low ++ repeat false h ++ [true]) ++ w), (S (j + j'))%nat, P''.
      rewrite R. repeat split; auto.
      * f_equal. f_equal; [now rewrite <- app_assoc|lia].
      * cbn [length]. lia.
      * constructor; auto.
      * rewrite ES, str_add, (app_assoc P1), E3, <- app_assoc. cbn [app].
        f_equal. rewrite <- !app_assoc. f_equal. f_equal. cbn [app]. f_equal. exact Hs.
    + right. exists ((if s then 12289 - m else m) :: xs), ((s :: low ++ repeat false h ++ [true]) ++ w), (S (j + j'))%nat, s', low', h', rest.
      rewrite R. repeat split; auto.
      * cbn [length]. lia.
      * constructor; auto.
      * rewrite ES, str_add, (app_assoc P1), E3, <- app_assoc. cbn [app].
        f_equal. rewrite <- !app_assoc. f_equal. f_equal. cbn [app]. f_equal. exact Hs.
  - right. rewrite E2. exists [], [], (S j), s, low, h, P'. repeat split; auto; try (cbn; lia); try constructor.
    rewrite ES, E3. reflexivity.
Qed.
End Sig.

(** The format is prefix free. *)
Lemma run_inj h1 h2 (r1 r2 : list bool) : repeat false h1 ++ true :: r1 = repeat false h2 ++ true :: r2 -> h1 = h2 /\ r1 = r2.
Proof.
  revert h2. induction h1 as [|h1 IH]; intros [|h2] E; cbn [repeat app] in E; try discriminate.
  - injection E as ->. auto.
  - injection E as E. apply IH in E. destruct E; subst. auto.
Qed.

Lemma sol_encodes_prefix x1 x2 w1 w2 r1 r2 : sol_encodes x1 w1 -> sol_encodes x2 w2 -> w1 ++ r1 = w2 ++ r2 ->
  x1 = x2 /\ w1 = w2 /\ r1 = r2.
Proof.
  intros (s1 & l1 & h1 & L1 & -> & _ & ->) (s2 & l2 & h2 & L2 & -> & _ & ->) E.
  cbn [app] in E. injection E as -> E. rewrite <- ?app_assoc in E.
  apply app_inv_length in E; [|congruence]. destruct E as [-> E].
  cbn [app] in E. apply run_inj in E. destruct E as [-> ->]. auto.
Qed.

Lemma sol_all_prefix xs1 w1 : sol_encodes_all xs1 w1 -> forall xs2 w2 r1 r2, sol_encodes_all xs2 w2 ->
  length xs1 = length xs2 -> w1 ++ r1 = w2 ++ r2 -> xs1 = xs2 /\ w1 = w2 /\ r1 = r2.
Proof.
  induction 1 as [|x1 xs1 a1 b1 H1 H2 IH]; intros xs2 w2 r1 r2 HX L E; inversion HX as [|x2 xs2' a2 b2 G1 G2]; subst; try discriminate.
  - auto.
  - rewrite <- ?app_assoc in E. destruct (sol_encodes_prefix _ _ _ _ _ _ H1 G1 E) as (-> & -> & E').
    destruct (IH _ _ _ _ G2 ltac:(cbn in L; lia) E') as (-> & -> & ->). auto.
Qed.

Lemma run_no_short h (low : list bool) low' h' s s' r r' :
  length low = 7%nat -> length low' = 7%nat ->
  s :: low ++ repeat false h ++ r = s' :: low' ++ repeat false h' ++ true :: r' ->
  low = low' /\ (h <= h')%nat.
Proof.
  intros L L' E. injection E as -> E. apply app_inv_length in E; [|congruence]. destruct E as [-> E]. split; auto.
  revert h' E. induction h as [|h IH]; intros [|h'] E; cbn [repeat app] in E; try lia; try discriminate.
  injection E as E. apply IH in E. lia.
Qed.

Lemma sol_all_bad xs1 w1 : sol_encodes_all xs1 w1 -> forall xs2 w2 s low h r1 r2, sol_encodes_all xs2 w2 ->
  (length xs1 < length xs2)%nat -> length low = 7%nat -> w1 ++ s :: low ++ repeat false h ++ r1 = w2 ++ r2 ->
  of_bits low + 128 * Z.of_nat h <= 2047.
Proof.
  induction 1 as [|x1 xs1 a1 b1 H1 H2 IH]; intros xs2 w2 s low h r1 r2 HX L LL E; inversion HX as [|x2 xs2' a2 b2 G1 G2]; subst; cbn [length] in L; try lia.
  - destruct G1 as (s2 & l2 & h2 & L2 & -> & B & _). cbn [app] in E.
    rewrite <- ?app_assoc in E. cbn [app] in E. rewrite <- ?app_assoc in E. cbn [app] in E.
    destruct (run_no_short h low l2 h2 s s2 r1 (b2 ++ r2) LL L2 E) as [-> Hh]. lia.
  - rewrite <- ?app_assoc in E. destruct (sol_encodes_prefix _ _ _ _ _ _ H1 G1 E) as (-> & -> & E').
    apply (IH _ _ _ _ _ _ _ G2 ltac:(lia) LL E').
Qed.

(** extending both sides of a prefix equation to a common length *)
Lemma str_prefix rd v a b : (a <= b)%nat -> str rd v b = str rd v a ++ str rd (v + a) (b - a).
Proof. intros H. rewrite <- str_add. f_equal. lia. Qed.

Theorem sig_from_iff accw rd off x : 16 <= accw -> (forall v, is_byte (rd v)) ->
  decompress_sig_from accw rd off = Ok x <->
  length x = 512%nat /\ exists w rest, sol_encodes_all x w /\ str rd off 665 = w ++ rest.
Proof.
  intros Ha Hr. unfold decompress_sig_from.
  destruct (loop_spec accw rd Ha Hr 512 0 [] off [] eq_refl (Nat.le_0_l _)) as
    [(xs & w & j & P' & R & Lx & Hx & Hs & L')|(xs & w & j & s & low & h & rest & R & Lx & Hx & Ll & Hs & Hb)].
  - change (Z.of_nat (length (@nil bool))) with 0 in R. rewrite R. cbn [bind app]. cbn [app] in Hs.
    replace (off + j - off)%nat with j by lia.
    pose proof (f_equal (@length _) Hs) as HL. rewrite str_length, app_length in HL.
    destruct (Nat.leb_spec 666 j) as [Hj|Hj].
    + split; [discriminate|]. intros (Lx' & w' & r' & Hx' & E). exfalso.
      rewrite (str_prefix rd off 665 j) in Hs by lia. rewrite E, <- app_assoc in Hs.
      assert (LE : length x = length xs) by congruence.
      destruct (sol_all_prefix _ _ Hx' _ _ _ _ Hx LE Hs) as (_ & -> & _).
      apply (f_equal (@length _)) in E. rewrite str_length, app_length in E. lia.
    + split.
      * intros E. apply Ok_inj in E. subst x. split; auto. exists w, (P' ++ str rd (off + j) (665 - j)). split; auto.
        rewrite (str_prefix rd off j 665) by lia. rewrite Hs, <- app_assoc. reflexivity.
      * intros (Lx' & w' & r' & Hx' & E). f_equal.
        rewrite (str_prefix rd off j 665) in E by lia. rewrite Hs, <- app_assoc in E.
        assert (LE : length xs = length x) by congruence.
        now destruct (sol_all_prefix _ _ Hx _ _ _ _ Hx' LE E) as (-> & _).
  - change (Z.of_nat (length (@nil bool))) with 0 in R. rewrite R. cbn [bind]. cbn [app] in Hs.
    split; [discriminate|]. intros (Lx' & w' & r' & Hx' & E). exfalso.
    assert (of_bits low + 128 * Z.of_nat h <= 2047); [|lia].
    destruct (le_lt_dec j 665) as [Hj|Hj].
    + rewrite (str_prefix rd off j 665) in E by lia. rewrite Hs in E. rewrite <- app_assoc in E. cbn [app] in E. rewrite <- ?app_assoc in E.
      assert (LE : (length xs < length x)%nat) by lia.
      exact (sol_all_bad _ _ Hx _ _ _ _ _ _ _ Hx' LE Ll E).
    + rewrite (str_prefix rd off 665 j) in Hs by lia. rewrite E, <- app_assoc in Hs. symmetry in Hs.
      assert (LE : (length xs < length x)%nat) by lia.
      exact (sol_all_bad _ _ Hx _ _ _ _ _ _ _ Hx' LE Ll Hs).
Qed.

(** every other outcome is a revert *)
Theorem sig_from_total accw rd off : 16 <= accw -> (forall v, is_byte (rd v)) ->
  (exists x, decompress_sig_from accw rd off = Ok x) \/ decompress_sig_from accw rd off = Raise Revert.
Proof.
  intros Ha Hr. unfold decompress_sig_from.
  destruct (loop_spec accw rd Ha Hr 512 0 [] off [] eq_refl (Nat.le_0_l _)) as
    [(xs & w & j & P' & R & _)|(xs & w & j & s & low & h & rest & R & _)];
    change (Z.of_nat (length (@nil bool))) with 0 in R; rewrite R; cbn [bind]; auto.
  destruct (Nat.leb_spec 666 (off + j - off)); eauto.
Qed.

(** * the buffer and the memory behind it *)
Lemma mem_byte_nth buf tail v : mem_byte buf tail v = nth v buf (tail v).
Proof.
  unfold mem_byte. destruct (Nat.ltb_spec v (length buf)).
  - now apply nth_indep.
  - now rewrite nth_overflow.
Qed.
Lemma mem_byte_is buf tail : bytes buf -> (forall i, is_byte (tail i)) -> forall v, is_byte (mem_byte buf tail v).
Proof.
  intros Hb Ht v. unfold mem_byte. destruct (Nat.ltb_spec v (length buf)); auto.
  unfold bytes in Hb. rewrite Forall_forall in Hb. apply Hb. now apply nth_In.
Qed.
Lemma str_memory buf tail o k : str (mem_byte buf tail) o k = bytes_bits (memory buf tail o k).
Proof. unfold str, memory. f_equal. apply map_ext. intros. apply mem_byte_nth. Qed.

Theorem sig_accepts_iff accw buf tail off x : 16 <= accw -> bytes buf -> (forall i, is_byte (tail i)) ->
  decompress_sig accw buf tail off = Ok x <->
  length x = 512%nat /\ exists w rest, sol_encodes_all x w /\ bytes_bits (memory buf tail off 665) = w ++ rest.
Proof.
  intros Ha Hb Ht. unfold decompress_sig. rewrite sig_from_iff; auto using mem_byte_is. rewrite str_memory. tauto.
Qed.

Lemma memory_add buf tail o a b : memory buf tail o (a + b) = memory buf tail o a ++ memory buf tail (o + a) b.
Proof. unfold memory. now rewrite seq_app, map_app. Qed.
Lemma memory_length buf tail o k : length (memory buf tail o k) = k.
Proof. unfold memory. now rewrite map_length, seq_length. Qed.

Lemma memory_inside d tail : forall pre suf, memory (pre ++ d ++ suf) tail (length pre) (length d) = d.
Proof.
  intros pre suf. unfold memory. apply nth_ext with (d := 0) (d' := 0).
  - now rewrite map_length, seq_length.
  - rewrite map_length, seq_length. intros i Hi.
    rewrite (nth_indep _ 0 ((fun i0 => nth i0 (pre ++ d ++ suf) (tail i0)) O)) by (now rewrite map_length, seq_length).
    rewrite (map_nth (fun i0 => nth i0 (pre ++ d ++ suf) (tail i0))). rewrite seq_nth by auto.
    rewrite app_nth2 by lia. replace (length pre + i - length pre)%nat with i by lia.
    rewrite app_nth1 by auto. now apply nth_indep.
Qed.

Lemma memory_split d tail pre suf k : (length d <= k)%nat ->
  memory (pre ++ d ++ suf) tail (length pre) k = d ++ memory (pre ++ d ++ suf) tail (length pre + length d) (k - length d).
Proof.
  intros H. replace k with (length d + (k - length d))%nat at 1 by lia. rewrite memory_add, memory_inside. reflexivity.
Qed.

(** * relation with the Python format *)
Lemma encodes_sol c w : encodes c w -> Z.abs c <= 2047 -> sol_encodes (c mod 12289) w.
Proof.
  intros (s & low & h & L & -> & Hc & Hz) Hb. exists s, low, h.
  pose proof (of_bits_bound low) as B. rewrite L in B. change (2 ^ Z.of_nat 7) with 128 in B.
  repeat split; auto; destruct s; try lia.
Qed.
Lemma encodes_all_sol v w : encodes_all v w -> Forall (fun c => Z.abs c <= 2047) v -> sol_encodes_all (map (fun c => c mod 12289) v) w.
Proof.
  induction 1 as [|c v w1 w2 H1 H2 IH]; intros HF; cbn [map]; [constructor|].
  inversion HF; subst. constructor; auto using encodes_sol.
Qed.

Lemma encodes_all_length v w : encodes_all v w -> (length w >= 9 * length v)%nat.
Proof.
  induction 1 as [|c v w1 w2 H1 H2 IH]; cbn [length]; [lia|].
  destruct H1 as (s & low & h & L & -> & _). cbn [length app]. rewrite !app_length, L, repeat_length. cbn [length]. lia.
Qed.

Theorem sig_of_encoding accw pre d suf tail v w rest : 16 <= accw -> bytes (pre ++ d ++ suf) -> (forall i, is_byte (tail i)) ->
  (length d <= 665)%nat -> length v = 512%nat -> Forall (fun c => Z.abs c <= 2047) v ->
  encodes_all v w -> bytes_bits d = w ++ rest ->
  decompress_sig accw (pre ++ d ++ suf) tail (length pre) = Ok (map (fun c => c mod 12289) v).
Proof.
  intros Ha Hb Ht Hd Lv Hv Hw E. apply sig_accepts_iff; auto. split; [now rewrite map_length|].
  exists w. rewrite memory_split by lia. rewrite bytes_bits_app, E, <- app_assoc. eexists. split; [|reflexivity].
  now apply encodes_all_sol.
Qed.

(** a coefficient above 2047 is refused *)
Lemma big_run_refused : forall v w, encodes_all v w -> forall x w' r r', sol_encodes_all x w' -> length x = length v ->
  w ++ r = w' ++ r' -> Forall (fun c => Z.abs c <= 2047) v.
Proof.
  induction 1 as [|c v w1 w2 H1 H2 IH]; intros x w' r r' Hx L E; auto.
  inversion Hx as [|x0 xs a b G1 G2]; subst; cbn [length] in L; try lia.
  rewrite <- ?app_assoc in E.
  destruct H1 as (s & low & h & L1 & -> & Hc & Hz). destruct G1 as (s' & low' & h' & L1' & -> & B & Hx0).
  cbn [app] in E. injection E as -> E. rewrite <- ?app_assoc in E.
  apply app_inv_length in E; [|congruence]. destruct E as [-> E].
  rewrite <- ?app_assoc in E. cbn [app] in E. apply run_inj in E. destruct E as [-> E].
  constructor.
  - pose proof (of_bits_bound low') as B'. destruct s'; lia.
  - apply (IH _ _ _ _ G2 ltac:(lia) E).
Qed.

Theorem sig_big_refused accw pre d suf tail v w rest : 16 <= accw -> bytes (pre ++ d ++ suf) -> (forall i, is_byte (tail i)) ->
  (length d <= 665)%nat -> length v = 512%nat -> Exists (fun c => 2047 < Z.abs c) v ->
  encodes_all v w -> bytes_bits d = w ++ rest ->
  decompress_sig accw (pre ++ d ++ suf) tail (length pre) = Raise Revert.
Proof.
  intros Ha Hb Ht Hd Lv Hv Hw E.
  destruct (sig_from_total accw (mem_byte (pre ++ d ++ suf) tail) (length pre) Ha (mem_byte_is _ _ Hb Ht)) as [(x & Hx)|]; auto.
  exfalso. apply (proj1 (sig_accepts_iff accw _ tail _ x Ha Hb Ht)) in Hx. destruct Hx as (Lx & w' & r' & Hx & E').
  rewrite memory_split in E' by lia. rewrite bytes_bits_app, E, <- app_assoc in E'.
  pose proof (big_run_refused _ _ Hw _ _ _ _ Hx ltac:(congruence) E') as HF.
  rewrite Exists_exists in Hv. rewrite Forall_forall in HF. destruct Hv as (c & Hi & Hc). specialize (HF c Hi). cbn in HF. lia.
Qed.

(** * the public key decoder *)
Lemma land_shiftr_mod a k : 0 <= k <= 13 -> Z.land (Z.shiftr (a mod 2 ^ 32) k) 0x3FFF = Z.land (Z.shiftr a k) 0x3FFF.
Proof.
  intros Hk. change 0x3FFF with (Z.ones 14). apply Z.bits_inj'. intros i Hi. rewrite !Z.land_spec, !Z.shiftr_spec by lia.
  destruct (Z.ltb_spec i 14).
  - rewrite Z.mod_pow2_bits_low by lia. reflexivity.
  - rewrite Z.ones_spec_high by lia. now rewrite !andb_false_r.
Qed.

Lemma push32 a b : is_byte b -> Z.lor (Z.shiftl (a mod 2 ^ 32) 8 mod 2 ^ 32) b = Z.lor (Z.shiftl a 8) b mod 2 ^ 32.
Proof.
  intros Hb. unfold is_byte in Hb. apply Z.bits_inj'. intros i Hi.
  destruct (Z.ltb_spec i 32) as [H|H].
  - rewrite Z.mod_pow2_bits_low by lia. rewrite !Z.lor_spec. rewrite Z.mod_pow2_bits_low by lia.
    destruct (Z.ltb_spec i 8); [now rewrite !Z.shiftl_spec_low by lia|].
    rewrite !Z.shiftl_spec by lia. now rewrite Z.mod_pow2_bits_low by lia.
  - rewrite Z.mod_pow2_bits_high by lia. rewrite Z.lor_spec. rewrite Z.mod_pow2_bits_high by lia. cbn [orb].
    replace b with (b mod 2 ^ 32) by (apply Z.mod_small; lia). apply Z.mod_pow2_bits_high. lia.
Qed.

Lemma ntt_loop_sim data : bytes data -> forall todo acc al x, (al <= 13)%nat ->
  match modq_decode_loop todo data acc al x with
  | Ok (y, acc', al') => ntt_decompress_loop todo data (acc mod 2 ^ 32) al x = Ok (y, acc' mod 2 ^ 32, al') /\ (al' <= 13)%nat
      /\ (length x + todo = length y)%nat /\ (14 * todo + al' <= al + 8 * length data)%nat
  | Raise _ => ntt_decompress_loop todo data (acc mod 2 ^ 32) al x = Raise Revert
  end.
Proof.
  induction 1 as [|b data Hb Hd IH]; intros todo acc al x Hal; destruct todo as [|todo]; cbn [modq_decode_loop ntt_decompress_loop length];
    try (repeat split; auto; lia); auto.
  rewrite push32 by exact Hb.
  destruct (Nat.leb_spec 14 (al + 8)) as [H|H].
  - rewrite land_shiftr_mod by lia.
    set (w := Z.land (Z.shiftr (Z.lor (Z.shiftl acc 8) b) (Z.of_nat (al + 8 - 14))) 16383).
    destruct (12289 <=? w); auto.
    specialize (IH todo (Z.lor (Z.shiftl acc 8) b) (al + 8 - 14)%nat (x ++ [w]) ltac:(lia)).
    destruct (modq_decode_loop todo data _ _ (x ++ [w])) as [[[y a'] al']|e]; auto.
    destruct IH as (E & A & B & C). rewrite app_length in B. cbn [length] in B. repeat split; auto; lia.
  - specialize (IH (S todo) (Z.lor (Z.shiftl acc 8) b) (al + 8)%nat x ltac:(lia)).
    destruct (modq_decode_loop (S todo) data _ _ x) as [[[y a'] al']|e]; auto.
    destruct IH as (E & A & B & C). repeat split; auto; lia.
Qed.

Theorem ntt_decompress_modq buf off : bytes buf ->
  match modq_decode (skipn off buf) 512 with
  | Ok y => NTT_Decompress buf off = Ok y
  | Raise _ => NTT_Decompress buf off = Raise Revert
  end.
Proof.
  intros Hb. unfold NTT_Decompress, modq_decode.
  pose proof (bytes_skipn off _ Hb) as Hd. set (data := skipn off buf) in *. clearbody data. clear buf Hb.
  pose proof (ntt_loop_sim data Hd 512 0 0 [] ltac:(lia)) as S. rewrite Z.mod_0_l in S by lia.
  change (((512 * 14 + 7) / 8)%nat) with 896%nat.
  destruct (modq_decode_loop 512 data 0 0 []) as [[[y a'] al']|e] eqn:E.
  - destruct S as (-> & Hal & _ & HL). destruct (Nat.ltb_spec (length data) 896); [lia|].
    cbn [bind].
    assert (EQ : Z.land (a' mod 2 ^ 32) (Z.shiftl 1 (Z.of_nat al') - 1) = Z.land a' (Z.shiftl 1 (Z.of_nat al') - 1)).
    { rewrite Z.shiftl_1_l, !land_ones_mod by lia. rewrite <- Znumtheory.Zmod_div_mod; auto; try lia.
      exists (2 ^ (32 - Z.of_nat al')). rewrite <- Z.pow_add_r by lia. f_equal. lia. }
    rewrite EQ. destruct (negb (Z.land a' (Z.shiftl 1 (Z.of_nat al') - 1) =? 0)); auto.
  - rewrite S. cbn [bind]. destruct (length data <? 896)%nat; auto.
Qed.

Lemma ntt_decompress_iff buf off y : bytes buf -> NTT_Decompress buf off = Ok y <-> modq_decode (skipn off buf) 512 = Ok y.
Proof.
  intros Hb. pose proof (ntt_decompress_modq buf off Hb) as H. destruct (modq_decode (skipn off buf) 512); rewrite H; split; congruence.
Qed.

(** * the KAT frame *)
Lemma nth_error_app_at {A} (a : list A) x b : nth_error (a ++ x :: b) (length a) = Some x.
Proof. rewrite nth_error_app2 by lia. now rewrite Nat.sub_diag. Qed.

Lemma copy_bytes_ok m : forall pre suf, copy_bytes (pre ++ m ++ suf) (length pre) (length m) = Ok m.
Proof.
  induction m as [|x m IH]; intros pre suf; auto. cbn [copy_bytes length app].
  unfold byte_at. rewrite nth_error_app_at. cbn [bind].
  specialize (IH (pre ++ [x]) suf). rewrite <- app_assoc in IH. cbn [app] in IH. rewrite app_length in IH. cbn [length] in IH.
  replace (length pre + 1)%nat with (S (length pre)) in IH by lia. rewrite IH. reflexivity.
Qed.

Theorem kat_decode accw pk hi lo salt msg sig tail h :
  bytes pk -> length salt = 40%nat ->
  modq_decode (skipn 1 pk) 512 = Ok h -> nth_error pk 0 = Some 9 ->
  decompress_KAT accw pk ([hi; lo] ++ salt ++ msg ++ [0x29] ++ sig) tail (length msg) =
  (let! s2 := decompress_sig accw ([hi; lo] ++ salt ++ msg ++ [0x29] ++ sig) tail (43 + length msg) in
   Ok (h, s2, salt, msg)).
Proof.
  intros Hp Ls Hh H0. unfold decompress_KAT.
  set (sm := [hi; lo] ++ salt ++ msg ++ [41] ++ sig).
  change (byte_at sm 0) with (Ok hi : res Z). change (byte_at sm 1) with (Ok lo : res Z). cbn [bind].
  unfold byte_at at 1. rewrite H0. cbn [bind]. change (negb (9 =? 9)) with false. cbv iota.
  apply ntt_decompress_iff in Hh; auto. rewrite Hh. cbn [bind].
  assert (E1 : copy_bytes sm 2 40 = Ok salt).
  { rewrite <- Ls. exact (copy_bytes_ok salt [hi; lo] (msg ++ [41] ++ sig)). }
  rewrite E1. cbn [bind].
  assert (E2 : copy_bytes sm 42 (length msg) = Ok msg).
  { pose proof (copy_bytes_ok msg ([hi; lo] ++ salt) ([41] ++ sig)) as E. rewrite <- app_assoc in E.
    rewrite app_length, Ls in E. exact E. }
  rewrite E2. cbn [bind].
  assert (E3 : byte_at sm (2 + 40 + length msg) = Ok 41).
  { unfold byte_at, sm. pose proof (nth_error_app_at ([hi; lo] ++ salt ++ msg) 41 sig) as E.
    rewrite <- ?app_assoc in E. rewrite !app_length, Ls in E. cbn [length] in E.
    replace (2 + 40 + length msg)%nat with (2 + (40 + length msg))%nat by lia. cbn [app] in E |- *. now rewrite E. }
  rewrite E3. cbn [bind]. change (negb (41 =? 41)) with false. cbv iota.
  replace (2 + 40 + length msg + 1)%nat with (43 + length msg)%nat by lia. reflexivity.
Qed.

Lemma bits_to_bytes_spec m : forall fuel bits, length bits = (8 * m)%nat -> (length bits <= fuel)%nat ->
  bytes_bits (bits_to_bytes fuel bits) = bits /\ bytes (bits_to_bytes fuel bits).
Proof.
  induction m as [|m IH]; intros fuel bits L F.
  - destruct bits; [|cbn in L; lia]. destruct fuel; cbn; repeat split; constructor.
  - destruct fuel as [|fuel]; [lia|]. destruct bits as [|b bits0] eqn:EB; [cbn in L; lia|]. rewrite <- EB in *.
    assert (E0 : bits_to_bytes (S fuel) bits = of_bits (firstn 8 bits) :: bits_to_bytes fuel (skipn 8 bits)) by (rewrite EB; reflexivity).
    rewrite E0. assert (L8 : length (firstn 8 bits) = 8%nat) by (rewrite firstn_length; lia).
    destruct (IH fuel (skipn 8 bits)) as [A B]; [rewrite skipn_length; lia..|]. split.
    + unfold bytes_bits in *. cbn [flat_map]. rewrite A. rewrite zbits_of_bits_eq by auto. apply firstn_skipn.
    + constructor; auto. now apply of_bits_is_byte.
Qed.

Lemma flat_map_map {A B C} (f : A -> B) (g : B -> list C) l : flat_map g (map f l) = flat_map (fun x => g (f x)) l.
Proof. induction l; cbn; congruence. Qed.

Theorem encode_public_key_modq h : length h = 512%nat ->
  exists d, encode_public_key h = 9 :: d /\ modq_encode (map (fun c => c mod 12289) h) 512 = Ok d /\ bytes d /\ length d = 896%nat.
Proof.
  intros L. unfold encode_public_key. rewrite <- (flat_map_map (fun c => c mod 12289) (zbits 14)).
  set (hq := map (fun c => c mod 12289) h). assert (Lq : length hq = 512%nat) by (unfold hq; now rewrite map_length).
  assert (Fq : Forall (fun c => 0 <= c < 12289) hq).
  { unfold hq. rewrite Forall_map. apply Forall_forall. intros. lia. }
  clearbody hq.
  assert (LB : length (flat_map (zbits 14) hq) = (8 * 896)%nat) by (rewrite flat_map_zbits_length, Lq; reflexivity).
  destruct (bits_to_bytes_spec 896 (length (flat_map (zbits 14) hq)) (flat_map (zbits 14) hq) LB (Nat.le_refl _)) as [A B].
  eexists. split; [reflexivity|].
  destruct (modq_encode_ok hq 512 Lq Fq) as (d & E & Ld & P).
  assert (P' : packs 14 hq (bits_to_bytes (length (flat_map (zbits 14) hq)) (flat_map (zbits 14) hq))).
  { split; auto. exists O. split; [lia|]. rewrite A. cbn [repeat]. now rewrite app_nil_r. }
  rewrite (packs_unique_data _ _ _ _ P' P). split; [exact E|]. split; [apply P|]. rewrite Ld. reflexivity.
Qed.

(** * minus zero *)
Lemma loop_steps a w : encodes_all a w -> forall rest m acc,
  decompress_loop (length a + m) (w ++ rest) acc = decompress_loop m rest (acc ++ a).
Proof.
  induction 1 as [|c v w1 w2 H1 H2 IH]; intros rest m acc; cbn [length Nat.add app].
  - now rewrite app_nil_r.
  - rewrite <- app_assoc, (loop_step c w1) by auto. rewrite IH. now rewrite <- app_assoc.
Qed.

Definition minus_zero : list bool := true :: repeat false 7 ++ [true].
Lemma minus_zero_refused rest m acc : decompress_loop (S m) (minus_zero ++ rest) acc = Ok None.
Proof. reflexivity. Qed.

Lemma compress_bits_app a b : compress_bits (a ++ b) = compress_bits a ++ compress_bits b.
Proof. apply flat_map_app. Qed.

Lemma sol_all_app a : forall wa b wb, sol_encodes_all a wa -> sol_encodes_all b wb -> sol_encodes_all (a ++ b) (wa ++ wb).
Proof.
  intros wa b wb H. revert b wb. induction H as [|x xs w1 w2 H1 H2 IH]; intros b wb Hb; auto.
  cbn [app]. rewrite <- app_assoc. constructor; auto.
Qed.

Theorem minus_zero_accepted a b slen d : length (a ++ 0 :: b) = 512%nat -> Forall (fun c => Z.abs c <= 2047) (a ++ 0 :: b) ->
  compress (a ++ 0 :: b) slen = Some d -> (slen <= 665)%nat ->
  exists d', bytes d' /\ length d' = length d /\ d' <> d /\ decompress d' slen 512 = Ok None /\
    forall accw pre suf tail, 16 <= accw -> bytes (pre ++ d' ++ suf) -> (forall i, is_byte (tail i)) ->
      decompress_sig accw (pre ++ d' ++ suf) tail (length pre) =
      Ok (map (fun c => c mod 12289) a ++ 12289 :: map (fun c => c mod 12289) b).
Proof.
  intros L F E Hs. destruct (compress_some _ _ _ E) as [LC ED]. destruct (compress_some_bits _ _ _ E) as (Bd & Ld & BB).
  set (w' := compress_bits a ++ minus_zero ++ compress_bits b).
  assert (Lw : length w' = length (compress_bits (a ++ 0 :: b))).
  { unfold w'. rewrite compress_bits_app. cbn [compress_bits flat_map]. rewrite !app_length. reflexivity. }
  set (d' := group slen (w' ++ repeat false (8 * slen - length w'))).
  destruct (group_spec slen (w' ++ repeat false (8 * slen - length w'))) as (GB & GY & GL).
  { rewrite app_length, repeat_length. lia. }
  fold d' in GB, GY, GL. exists d'.
  apply Forall_app in F. destruct F as [Fa Fb]. pose proof (Forall_inv_tail Fb) as Fb'.
  assert (Hb' : (length b = 511 - length a)%nat /\ (length a <= 511)%nat).
  { rewrite app_length in L. cbn [length] in L. lia. }
  split; [exact GY|]. split; [congruence|]. split; [|split].
  - intros EQ. rewrite EQ in GB. rewrite BB in GB. rewrite Lw in GB.
    apply app_inv_length in GB; [|now rewrite Lw]. destruct GB as [GB _].
    unfold w' in GB. rewrite compress_bits_app in GB. apply app_inv_head in GB. discriminate GB.
  - unfold decompress. rewrite GL, Nat.ltb_irrefl. fold (bytes_bits d'). rewrite GB.
    destruct (strip_prefix (w' ++ repeat false (8 * slen - length w'))
       (compress_bits a ++ true :: repeat false 7) (compress_bits b ++ repeat false (8 * slen - length w'))) as (rest' & ES).
    { unfold w', minus_zero. rewrite <- !app_assoc. cbn [app]. reflexivity. }
    rewrite ES. cbn [bind].
    replace 512%nat with (length a + S (511 - length a))%nat by lia.
    replace (((compress_bits a ++ true :: repeat false 7) ++ [true]) ++ rest') with (compress_bits a ++ minus_zero ++ rest')
      by (unfold minus_zero; rewrite <- !app_assoc; reflexivity).
    rewrite (loop_steps a _ (compress_bits_encodes a)). apply minus_zero_refused.
  - intros accw pre suf tail Ha Hb Ht. apply sig_accepts_iff; auto. split.
    { rewrite app_length. cbn [length]. rewrite !map_length. lia. }
    exists w', (repeat false (8 * slen - length w') ++ bytes_bits (memory (pre ++ d' ++ suf) tail (length pre + length d') (665 - length d'))).
    split.
    + unfold w'. apply sol_all_app.
      * apply encodes_all_sol; auto. apply compress_bits_encodes.
      * constructor; [|apply encodes_all_sol; auto; apply compress_bits_encodes].
        exists true, (repeat false 7), O. repeat split. vm_compute. discriminate.
    + rewrite memory_split by lia. rewrite bytes_bits_app, GB, <- app_assoc. reflexivity.
Qed.
