(** Proofs about PublicKey.from_bytes. *)
From Verif Require Import Base CodecSpec CodecModel CodecProofs.

Definition okw (ws : list Z) := Forall (fun z => 0 <= z < 2 ^ Z.of_nat 14) ws.

Lemma fb_loop_full n data : forall acc k h, length h = n -> from_bytes_loop n data acc k h = Ok h.
Proof.
  induction data as [|b data IH]; intros acc k h Hh; [reflexivity|].
  cbn [from_bytes_loop]. destruct (k + 8)%nat as [|k'] eqn:Ek; [lia|].
  cbn [from_bytes_inner]. rewrite Hh, Nat.ltb_irrefl, andb_false_r. cbn [bind].
  apply IH; auto.
Qed.

Lemma fb_loop_spec n data : forall pending h ws rest,
  bytes data -> (length h <= n)%nat -> (length h < n -> length pending < 14)%nat ->
  okw ws -> pending ++ bytes_bits data = flat_map (zbits 14) ws ++ rest ->
  (length h + length ws = n \/ (length h + length ws < n /\ length rest < 14))%nat ->
  from_bytes_loop n data (of_bits pending) (length pending) h =
  if forallb (fun w => w <? 12289) ws then Ok (h ++ ws) else Raise ValueError.
Proof.
  induction data as [|b data IH]; intros pending h ws rest Hb Hh Hp Hw E Hn.
  - cbn [from_bytes_loop]. destruct ws as [|w ws].
    + now rewrite app_nil_r.
    + exfalso. apply (f_equal (@length _)) in E.
      rewrite !app_length, flat_map_zbits_length in E. cbn [length bytes_bits flat_map] in E, Hn. lia.
  - inversion Hb as [|? ? Hb0 Hb']; subst.
    destruct (Nat.eq_dec (length h) n) as [En|En].
    { rewrite fb_loop_full by auto. destruct ws as [|w ws]; [now rewrite app_nil_r|].
      cbn [length] in Hn. lia. }
    assert (Hlt : (length h < n)%nat) by lia. specialize (Hp Hlt).
    cbn [from_bytes_loop]. change 8 with (Z.of_nat 8) at 1. rewrite (of_bits_snoc_zbits pending 8 b) by exact Hb0.
    set (P := pending ++ zbits 8 b) in *.
    assert (LP : length P = (length pending + 8)%nat)
      by (unfold P; rewrite app_length, zbits_length; lia).
    assert (EP : P ++ bytes_bits data = flat_map (zbits 14) ws ++ rest).
    { unfold P. rewrite <- E. unfold bytes_bits. cbn [flat_map]. now rewrite <- app_assoc. }
    rewrite <- LP. destruct (length P) as [|k] eqn:ELP; [lia|].
    cbn [from_bytes_inner]. rewrite (proj2 (Nat.ltb_lt _ _) Hlt), andb_true_r.
    destruct (14 <=? S k)%nat eqn:E14.
    + apply Nat.leb_le in E14.
      destruct ws as [|w ws].
      { exfalso. cbn [length flat_map app] in *. apply (f_equal (@length _)) in EP.
        rewrite app_length in EP. destruct Hn as [Hn|[Hn1 Hn2]]; lia. }
      inversion Hw as [|? ? Hw0 Hw']; subst. cbn [flat_map] in EP. rewrite <- app_assoc in EP.
      rewrite <- (firstn_skipn 14 P) in EP. rewrite <- app_assoc in EP.
      apply app_inv_length in EP as [EX EY]; [|rewrite firstn_length, zbits_length; lia].
      set (Y := skipn 14 P) in *.
      assert (LY : length Y = (S k - 14)%nat) by (unfold Y; rewrite skipn_length; lia).
      assert (EPP : P = [] ++ zbits 14 w ++ Y) by (cbn [app]; rewrite <- EX; symmetry; apply firstn_skipn).
      assert (EV : Z.land (Z.shiftr (of_bits P) (Z.of_nat (S k - 14))) 16383 = w).
      { rewrite <- LY, EPP. pose proof (field_extract [] (zbits 14 w) Y) as FE.
        rewrite zbits_length, of_bits_zbits, Z.mod_small in FE by exact Hw0. exact FE. }
      rewrite EV. cbn [forallb].
      destruct (12289 <=? w) eqn:Ew.
      { replace (w <? 12289) with false by lia. reflexivity. }
      replace (w <? 12289) with true by lia. cbn [andb].
      assert (EM : Z.land (of_bits P) (Z.shiftl 1 (Z.of_nat (S k - 14)) - 1) = of_bits Y).
      { rewrite <- LY, EPP. apply (trailing (zbits 14 w) Y). }
      rewrite EM. set (k2 := (S k - 14)%nat) in *.
      assert (Hin : from_bytes_inner k n (of_bits Y) k2 (h ++ [w]) = Ok (of_bits Y, k2, h ++ [w])).
      { destruct k as [|k']; [lia|]. cbn [from_bytes_inner].
        replace (14 <=? k2)%nat with false by (symmetry; apply Nat.leb_gt; lia). reflexivity. }
      rewrite Hin. cbn [bind]. rewrite <- LY.
      rewrite (IH Y (h ++ [w]) ws rest); auto.
      * rewrite <- app_assoc. reflexivity.
      * rewrite app_length. cbn [length] in *. lia.
      * intros _. lia.
      * rewrite app_length. cbn [length] in *. lia.
    + apply Nat.leb_gt in E14. cbn [bind]. rewrite <- ELP.
      rewrite (IH P h ws rest); auto. intros _. lia.
Qed.

(** Acceptance of a well-formed header 0x09 and enough data. *)
Lemma fb_512 data h rest : bytes data -> length h = 512%nat -> okw h ->
  bytes_bits data = flat_map (zbits 14) h ++ rest ->
  from_bytes_loop 512 data 0 0 [] =
  if forallb (fun w => w <? 12289) h then Ok h else Raise ValueError.
Proof.
  intros Hb Hl Hw E.
  apply (fb_loop_spec 512 data [] [] h rest); auto; cbn [length]; lia.
Qed.

Lemma okw_zq h : Forall in_zq h -> okw h.
Proof. apply Forall_impl. unfold in_zq. intros a Ha. cbn. lia. Qed.

Lemma forallb_zq h : okw h -> (forallb (fun w => w <? 12289) h = true <-> Forall in_zq h).
Proof.
  intros Hw. rewrite forallb_forall, Forall_forall. unfold okw in Hw. rewrite Forall_forall in Hw.
  unfold in_zq. split; intros H a Ha; specialize (H a Ha); specialize (Hw a Ha); lia.
Qed.

Definition lens_ok (pk : list Z) : Prop := length pk = 897%nat \/ length pk = 1792%nat.

Lemma from_bytes_unfold b data : lens_ok (b :: data) ->
  from_bytes (b :: data) =
  (let! n := if b =? 9 then Ok 512%nat else if b =? 10 then Ok 1024%nat else Raise ValueError in
   let! h := from_bytes_loop n data 0 0 [] in
   if negb (length h =? n)%nat then Raise ValueError else Ok (n, h)).
Proof.
  intros H. unfold from_bytes. 
  replace ((length (b :: data) =? 897) || (length (b :: data) =? 1792))%nat with true.
  - reflexivity.
  - unfold lens_ok in H. symmetry. apply orb_true_iff. rewrite !Nat.eqb_eq. exact H.
Qed.

Theorem from_bytes_accepts_iff pk n h : bytes pk ->
  from_bytes pk = Ok (n, h) <->
  n = 512%nat /\ length h = 512%nat /\ Forall in_zq h /\ lens_ok pk /\
  exists data, firstn 897 pk = 9 :: data /\ packs 14 h data.
Proof.
  intros Hb. split.
  - intros H. destruct pk as [|b data].
    { unfold from_bytes in H. cbn in H. discriminate. }
    assert (HL : lens_ok (b :: data)).
    { unfold from_bytes in H. unfold lens_ok.
      destruct ((length (b :: data) =? 897) || (length (b :: data) =? 1792))%nat eqn:E;
        cbn [negb] in H; [|discriminate].
      apply orb_true_iff in E. now rewrite !Nat.eqb_eq in E. }
    rewrite from_bytes_unfold in H by auto. inversion Hb as [|? ? Hb0 Hb']; subst.
    destruct (b =? 9) eqn:E9.
    + apply Z.eqb_eq in E9. subst b. cbn [bind] in H.
      assert (HD : (896 <= length data)%nat) by (unfold lens_ok in HL; cbn [length] in HL; lia).
      destruct (prefix_packs 14 512 data Hb') as (ws & pad & rest & Lw & Fw & Lp & E1 & E2).
      { exact HD. }
      change (ceil8 (512 * 14)) with 896%nat in E1.
      rewrite (fb_512 data ws (pad ++ rest)) in H; auto.
      destruct (forallb (fun w => w <? 12289) ws) eqn:EF; cbn [bind] in H; [|discriminate].
      rewrite (proj2 (Nat.eqb_eq _ _) Lw) in H. cbn [negb] in H. apply Ok_inj in H.
      assert (n = 512%nat /\ h = ws) as [-> ->] by (split; congruence).
      repeat split; auto.
      * apply forallb_zq; auto.
      * exists (firstn 896 data). split; [reflexivity|]. split; [now apply bytes_firstn|].
        exists 0%nat. split; [lia|]. cbn [repeat]. rewrite E1. f_equal.
        apply (f_equal (@length _)) in E1.
        rewrite app_length, flat_map_zbits_length, bytes_bits_length, firstn_length in E1.
        destruct pad; auto. cbn [length] in E1. lia.
    + destruct (b =? 10) eqn:E10; cbn [bind] in H; [|discriminate].
      exfalso.
      assert (HD : (length data = 896 \/ length data = 1791)%nat)
        by (unfold lens_ok in HL; cbn [length] in HL; lia).
      set (m := if Nat.eq_dec (length data) 896 then 512%nat else 1023%nat).
      destruct (chop 14 m (bytes_bits data)) as (ws & rest & Lw & Fw & E).
      { rewrite bytes_bits_length. unfold m. destruct (Nat.eq_dec (length data) 896); lia. }
      assert (LR : (length rest < 14)%nat).
      { apply (f_equal (@length _)) in E.
        rewrite app_length, flat_map_zbits_length, bytes_bits_length in E.
        unfold m in Lw. destruct (Nat.eq_dec (length data) 896); lia. }
      assert (Lm : (length ws = 512 \/ length ws = 1023)%nat)
        by (rewrite Lw; unfold m; destruct (Nat.eq_dec (length data) 896); auto).
      pose proof (fb_loop_spec 1024 data [] [] ws rest) as FB. cbn [length] in FB.
      change (of_bits []) with 0 in FB. rewrite FB in H; clear FB; auto; try lia.
      destruct (forallb (fun w => w <? 12289) ws); cbn [bind app] in H; [|discriminate].
      destruct (length ws =? 1024)%nat eqn:EL; cbn [negb] in H; [|discriminate].
      apply Nat.eqb_eq in EL. lia.
  - intros (-> & Lh & Fh & HL & data & E1 & (Bd & pad & Lp & Ed)).
    destruct pk as [|b rest]; [discriminate|].
    change (firstn 897 (b :: rest)) with (b :: firstn 896 rest) in E1.
    assert (b = 9 /\ firstn 896 rest = data) as [-> <-] by (split; congruence). clear E1.
    rewrite from_bytes_unfold by auto. cbn [Z.eqb Pos.eqb bind].
    inversion Hb as [|? ? Hb0 Hb']; subst.
    rewrite (fb_512 rest h (repeat false pad ++ bytes_bits (skipn 896 rest))); auto.
    + rewrite (proj2 (forallb_zq h (okw_zq h Fh)) Fh). cbn [bind].
      rewrite (proj2 (Nat.eqb_eq _ _) Lh). reflexivity.
    + apply okw_zq; auto.
    + rewrite <- (firstn_skipn 896 rest) at 1. rewrite bytes_bits_app, Ed. now rewrite <- app_assoc.
Qed.

Theorem from_bytes_roundtrip h data suffix : length h = 512%nat -> Forall in_zq h ->
  modq_encode h 512 = Ok data -> bytes suffix ->
  (length suffix = 0 \/ length suffix = 895)%nat ->
  from_bytes (9 :: data ++ suffix) = Ok (512%nat, h).
Proof.
  intros Lh Fh Henc Bs Ls.
  destruct (modq_encode_ok h 512 Lh Fh) as (d & E & Ld & P).
  assert (d = data) by congruence. subst d. change (ceil8 (512 * 14)) with 896%nat in Ld.
  apply from_bytes_accepts_iff.
  - constructor; [unfold is_byte; lia|]. apply bytes_app. split; auto. apply P.
  - repeat split; auto.
    + unfold lens_ok. cbn [length]. rewrite app_length. lia.
    + exists data. split; auto. change (firstn 897 (9 :: data ++ suffix)) with (9 :: firstn 896 (data ++ suffix)). f_equal. rewrite firstn_app_exact; auto.
Qed.

Theorem from_bytes_raise pk e : bytes pk -> from_bytes pk = Raise e -> e = ValueError.
Proof.
  intros Hb H. destruct pk as [|b data].
  { unfold from_bytes in H. cbn in H. congruence. }
  destruct ((length (b :: data) =? 897) || (length (b :: data) =? 1792))%nat eqn:E.
  2:{ unfold from_bytes in H. rewrite E in H. cbn [negb] in H. congruence. }
  rewrite from_bytes_unfold in H.
  2:{ apply orb_true_iff in E. now rewrite !Nat.eqb_eq in E. }
  assert (G : forall n, n = 512%nat \/ n = 1024%nat ->
    (let! h := from_bytes_loop n data 0 0 [] in
     if negb (length h =? n)%nat then Raise ValueError else Ok (n, h)) = Raise e -> e = ValueError).
  { intros n Hn H'. inversion Hb as [|? ? Hb0 Hb']; subst.
    set (m := Nat.min n ((8 * length data) / 14)).
    assert (Hm : (14 * m <= 8 * length data)%nat).
    { unfold m. pose proof (Nat.mul_div_le (8 * length data) 14). lia. }
    destruct (chop 14 m (bytes_bits data)) as (ws & rest & Lw & Fw & E2).
    { rewrite bytes_bits_length. auto. }
    assert (LE : (8 * length data = 14 * m + length rest)%nat).
    { apply (f_equal (@length _)) in E2.
      rewrite app_length, flat_map_zbits_length, bytes_bits_length, Lw in E2. exact E2. }
    pose proof (fb_loop_spec n data [] [] ws rest) as FB. cbn [length] in FB.
    change (of_bits []) with 0 in FB. rewrite FB in H'; clear FB; auto; try lia.
    destruct (forallb (fun w => w <? 12289) ws); cbn [bind] in H'; [|congruence].
    destruct (negb _) in H'; congruence. }
  destruct (b =? 9); [cbn [bind] in H; exact (G 512%nat (or_introl eq_refl) H)|].
  destruct (b =? 10); [cbn [bind] in H; exact (G 1024%nat (or_intror eq_refl) H)|].
  cbn [bind] in H. congruence.
Qed.

(** The accepted 897-byte string is determined by the key. *)
Theorem from_bytes_897_unique pk1 pk2 n h : bytes pk1 -> bytes pk2 ->
  length pk1 = 897%nat -> length pk2 = 897%nat ->
  from_bytes pk1 = Ok (n, h) -> from_bytes pk2 = Ok (n, h) -> pk1 = pk2.
Proof.
  intros B1 B2 L1 L2 H1 H2.
  apply from_bytes_accepts_iff in H1 as (_ & _ & _ & _ & d1 & E1 & P1); auto.
  apply from_bytes_accepts_iff in H2 as (_ & _ & _ & _ & d2 & E2 & P2); auto.
  rewrite firstn_all2 in E1, E2 by lia. rewrite E1, E2. f_equal. eapply packs_unique_data; eauto.
Qed.
