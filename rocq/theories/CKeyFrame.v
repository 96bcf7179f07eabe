(** Secret keys and key pairs (nist.c, nist16.c). *)
From Verif Require Import Base CodecModel CodecSpec CodecProofs EncodingModel EncodingSpec EncodingProofs RingSpec FalconSpec FalconModel FalconProofs RecoveryProofs NttModel NttApi
  PolyModel PolyModelProofs CTables CModel CNttProofs CCodecProofs COpenSpec COpenProofs COpen16Proofs CKeySpec CKeyModel CKeyProofs CKeyProofs2 CKeyCodec.

(** * Fields *)
Theorem c_trim_packs_iff bits k max data x u : (1 <= bits <= 8)%nat -> bytes data ->
  (c_trim_i8_decode bits k max data = Dec x u <->
   u = ceil8 (2 ^ k * bits) /\ (u <= max)%nat /\ (u <= length data)%nat /\ length x = (2 ^ k)%nat /\ Forall (in_trim bits) x /\
   packs bits (map (fun c => c mod 2 ^ Z.of_nat bits) x) (firstn u data)).
Proof.
  intros Hb Hd. rewrite c_trim_decode_iff by assumption. set (n := (2 ^ k)%nat). clearbody n. split; intros (A & B & C & R); (split; [exact A|]; split; [exact B|]; split; [exact C|]).
  - apply trim_canonical in R; [|lia|exact Hd]. destruct R as (L & F & E). split; [exact L|]. split; [exact F|].
    destruct (trim_encode_ok bits ltac:(lia) x n L F) as (d & E' & _ & P). rewrite A. assert (d = firstn (ceil8 (n * bits)) data) by congruence. subst d. exact P.
  - destruct R as (L & F & P). destruct (trim_encode_ok bits ltac:(lia) x n L F) as (d & E' & LD & P'). pose proof (packs_unique_data _ _ _ _ P P') as ED.
    rewrite <- (firstn_skipn u data), ED. apply trim_roundtrip; [lia|exact L|exact E'|]. apply bytes_skipn. exact Hd.
Qed.
Lemma in_trim_int8 bits v : (1 <= bits <= 8)%nat -> in_trim bits v -> -127 <= v <= 127.
Proof.
  intros Hb [A B]. assert (2 ^ (Z.of_nat bits - 1) <= 2 ^ 7) by (apply Z.pow_le_mono_r; lia). change (2 ^ 7) with 128 in *. lia.
Qed.
Lemma in_trim_small bits l : (1 <= bits <= 8)%nat -> Forall (in_trim bits) l -> smallq l.
Proof. intros Hb F. eapply Forall_impl; [|exact F]. intros v Hv. pose proof (in_trim_int8 bits v Hb Hv). lia. Qed.
Lemma in_trim_int8s bits l : (1 <= bits <= 8)%nat -> Forall (in_trim bits) l -> Forall int8 l.
Proof. intros Hb F. eapply Forall_impl; [|exact F]. intros v Hv. pose proof (in_trim_int8 bits v Hb Hv). unfold int8. lia. Qed.
Theorem c_trim_encode_iff bits max x d : (1 <= bits <= 8)%nat -> Forall int8 x ->
  (c_trim_i8_encode bits max x = Some d <-> (ceil8 (length x * bits) <= max)%nat /\ Forall (in_trim bits) x /\ packs bits (map (fun c => c mod 2 ^ Z.of_nat bits) x) d).
Proof.
  intros Hb HI. rewrite c_trim_encode_py by assumption. destruct (Nat.ltb_spec max (ceil8 (length x * bits))) as [L|L]; [split; [discriminate|intros (A & _); lia]|]. split.
  - intros E. split; [exact L|]. destruct (trim_i8_encode x (length x) bits) as [d'|] eqn:EE; [|discriminate E]. apply Some_inj in E. subst d'.
    destruct (Forall_Exists_dec (in_trim bits) (in_trim_dec bits ltac:(lia)) x) as [F|F].
    + split; [exact F|]. destruct (trim_encode_ok bits ltac:(lia) x (length x) eq_refl F) as (d' & E1 & _ & P). assert (d' = d) by congruence. subst d'. exact P.
    + exfalso. assert (R : trim_i8_encode x (length x) bits = Raise ValueError) by (apply trim_encode_raise_iff; [lia|reflexivity|split; [reflexivity|exact F]]). congruence.
  - intros (_ & F & P). destruct (trim_encode_ok bits ltac:(lia) x (length x) eq_refl F) as (d' & E1 & _ & P'). rewrite E1. f_equal. exact (packs_unique_data _ _ _ _ P' P).
Qed.

(** * complete_private, in terms of the equation *)
Theorem c_complete_iff k f g F G : (1 <= k <= 10)%nat -> length f = (2 ^ k)%nat -> length g = (2 ^ k)%nat -> length F = (2 ^ k)%nat -> smallq f -> smallq g -> smallq F ->
  (c_complete_private k f g F = Some G <->
   unit_mod (2 ^ k) f /\ length G = (2 ^ k)%nat /\ Forall (fun x => -127 <= x <= 127) G /\ pcong (2 ^ k) 12289 (negmul (2 ^ k) f G) (negmul (2 ^ k) g F)).
Proof.
  intros Hk Lf Lg LF Sf Sg SF. rewrite c_complete_private_py by assumption. destruct (complete_private_cases k (2 ^ k) f g F Hk eq_refl Lf Lg LF) as [CN CU].
  assert (D : unit_mod (2 ^ k) f \/ ~ unit_mod (2 ^ k) f).
  { rewrite (unit_iff k (2 ^ k) f Hk eq_refl Lf). destruct (invertible f); [left; reflexivity|right; discriminate]. }
  destruct D as [U|U].
  - destruct (CU U) as (G0 & E & L0 & R0 & P0 & Un). rewrite E. split.
    + intros EF. destruct (fits127 G0) eqn:EB; [|discriminate EF]. apply Some_inj in EF. subst G0. split; [exact U|]. split; [exact L0|]. split; [|exact P0].
      unfold fits127 in EB. rewrite forallb_forall in EB. apply Forall_forall. intros x Hx. specialize (EB x Hx). lia.
    + intros (_ & LG & RG & PG). assert (G = G0).
      { apply Un; [exact LG| |exact PG]. apply Forall_forall. intros y Hy. rewrite Forall_forall in RG. specialize (RG y Hy). cbv beta in RG. lia. }
      subst G0. replace (fits127 G) with true; [reflexivity|]. symmetry. unfold fits127. apply forallb_forall. intros x Hx. rewrite Forall_forall in RG. specialize (RG x Hx). lia.
  - rewrite (CN U). split; [discriminate|]. intros (U' & _). contradiction.
Qed.

(** * Secret keys *)
Lemma ceil6 : ceil8 (2 ^ 9 * 6) = 384%nat. Proof. reflexivity. Qed.
Lemma ceil88 : ceil8 (2 ^ 9 * 8) = 512%nat. Proof. reflexivity. Qed.
Lemma skip_app {A} (a b : list A) n : length a = n -> skipn n (a ++ b) = b. Proof. intros <-. apply skipn_app_exact. reflexivity. Qed.
Lemma first_app {A} (a b : list A) n : length a = n -> firstn n (a ++ b) = a. Proof. intros <-. apply firstn_app_exact. reflexivity. Qed.
Lemma first_skip {A} (l : list A) n : (n <= length l)%nat -> exists a b, l = a ++ b /\ length a = n.
Proof. intros H. exists (firstn n l), (skipn n l). split; [symmetry; apply firstn_skipn|]. rewrite firstn_length. lia. Qed.
Lemma b6 : nth 9 max_fg_bits 0%nat = 6%nat. Proof. reflexivity. Qed.
Lemma b8 : nth 9 max_FG_bits 0%nat = 8%nat. Proof. reflexivity. Qed.
(** one field of the key: [u] bytes have been read *)
Lemma field_ok bits u len data rest x : (1 <= bits <= 8)%nat -> ceil8 (2 ^ 9 * bits) = len -> (u + len <= Z.to_nat 1281)%nat -> bytes (data ++ rest) -> length data = len ->
  length x = 512%nat -> Forall (in_trim bits) x -> packs bits (map (fun c => c mod 2 ^ Z.of_nat bits) x) data ->
  c_trim_i8_decode bits 9 (Z.to_nat 1281 - u) (data ++ rest) = Dec x len.
Proof.
  intros Hb HC HU HB HL Lx F P. apply c_trim_packs_iff; [exact Hb|exact HB|]. rewrite HC. split; [reflexivity|]. split; [lia|]. split; [rewrite app_length; lia|].
  split; [exact Lx|]. split; [exact F|]. rewrite first_app by exact HL. exact P.
Qed.
Theorem decode_sk_iff sk f g F G : bytes sk -> (decode_sk sk = CRet (f, g, F, G) <-> secret_key sk f g F /\ c_complete_private 9 f g F = Some G).
Proof.
  intros Hb. split.
  - unfold decode_sk. destruct sk as [|h0 body]; [discriminate|]. destruct (Z.eqb_spec h0 (0x50 + 9)) as [->|]; [|discriminate]. cbn [negb]. cbv zeta. rewrite b6, b8.
    destruct (bytes_cons _ _ Hb) as [_ Bb]. change (skipn 1 ((0x50 + 9) :: body)) with body.
    destruct (c_trim_i8_decode 6 9 (Z.to_nat 1281 - 1) body) as [f0 v1| |] eqn:E1; try discriminate. apply c_trim_packs_iff in E1; [|lia|exact Bb]. rewrite ceil6 in E1.
    destruct E1 as (-> & _ & L1 & Lf & Ff & Pf). destruct (first_skip body 384 L1) as (ef & r1 & -> & Le1). rewrite first_app in Pf by exact Le1.
    change (skipn (1 + 384) ((0x50 + 9) :: ef ++ r1)) with (skipn 384 (ef ++ r1)). rewrite (skip_app ef r1 384 Le1). apply bytes_app in Bb. destruct Bb as [_ Br1].
    destruct (c_trim_i8_decode 6 9 (Z.to_nat 1281 - (1 + 384)) r1) as [g0 v2| |] eqn:E2; try discriminate. apply c_trim_packs_iff in E2; [|lia|exact Br1]. rewrite ceil6 in E2.
    destruct E2 as (-> & _ & L2 & Lg & Fg & Pg). destruct (first_skip r1 384 L2) as (eg & r2 & -> & Le2). rewrite first_app in Pg by exact Le2.
    change (skipn (1 + 384 + 384) ((0x50 + 9) :: ef ++ eg ++ r2)) with (skipn (384 + 384) (ef ++ eg ++ r2)). rewrite app_assoc, (skip_app (ef ++ eg) r2 (384 + 384)) by (rewrite app_length; lia).
    rewrite <- app_assoc. apply bytes_app in Br1. destruct Br1 as [_ Br2].
    destruct (c_trim_i8_decode 8 9 (Z.to_nat 1281 - (1 + 384 + 384)) r2) as [F0 v3| |] eqn:E3; try discriminate. apply c_trim_packs_iff in E3; [|lia|exact Br2]. rewrite ceil88 in E3.
    destruct E3 as (-> & _ & L3 & LF & FF & PF). destruct (first_skip r2 512 L3) as (eF & r3 & -> & Le3). rewrite first_app in PF by exact Le3.
    destruct (negb _); [discriminate|]. destruct (c_complete_private 9 f0 g0 F0) as [G0|] eqn:EG; [|discriminate].
    intros E. assert (f0 = f /\ g0 = g /\ F0 = F /\ G0 = G) as (-> & -> & -> & ->) by (repeat split; congruence). split; [|exact EG].
    split; [exact Lf|]. split; [exact Lg|]. split; [exact LF|]. split; [exact Ff|]. split; [exact Fg|]. split; [exact FF|].
    exists ef, eg, eF, r3. split; [reflexivity|]. repeat (split; [assumption|]). assumption.
  - intros ((Lf & Lg & LF & Ff & Fg & FF & ef & eg & eF & rest & -> & L1 & L2 & L3 & P1 & P2 & P3) & EG). destruct (bytes_cons _ _ Hb) as [_ Bb].
    unfold decode_sk. change (negb (0x59 =? 0x50 + 9)) with false. cbv iota zeta. rewrite b6, b8. change (skipn 1 (0x59 :: ef ++ eg ++ eF ++ rest)) with (ef ++ eg ++ eF ++ rest).
    rewrite (field_ok 6 1 384 ef (eg ++ eF ++ rest) f) by (first [reflexivity|assumption|lia]).
    change (skipn (1 + 384) (0x59 :: ef ++ eg ++ eF ++ rest)) with (skipn 384 (ef ++ eg ++ eF ++ rest)). rewrite (skip_app ef _ 384 L1). apply bytes_app in Bb. destruct Bb as [_ Bb].
    rewrite (field_ok 6 (1 + 384) 384 eg (eF ++ rest) g) by (first [reflexivity|assumption|lia]).
    change (skipn (1 + 384 + 384) (0x59 :: ef ++ eg ++ eF ++ rest)) with (skipn (384 + 384) (ef ++ eg ++ eF ++ rest)).
    rewrite (app_assoc ef eg), (skip_app (ef ++ eg) _ (384 + 384)) by (rewrite app_length; lia). apply bytes_app in Bb. destruct Bb as [_ Bb].
    rewrite (field_ok 8 (1 + 384 + 384) 512 eF rest F) by (first [reflexivity|assumption|lia]).
    replace (1 + 384 + 384 + 512 =? Z.to_nat 1281)%nat with true by (symmetry; apply Nat.eqb_eq; lia). cbn [negb]. rewrite EG. reflexivity.
Qed.
Theorem decode_sk_no_undef sk : bytes sk -> (Z.to_nat 1281 <= length sk)%nat -> decode_sk sk <> CUndef.
Proof.
  intros Hb HL. unfold decode_sk. destruct sk as [|h0 body]; [cbn [length] in HL; lia|]. destruct (negb _); [discriminate|]. cbv zeta. rewrite b6, b8.
  destruct (c_trim_i8_decode 6 9 (Z.to_nat 1281 - 1) _) as [f0 v1| |] eqn:E1; [|discriminate|].
  2: { apply c_trim_beyond in E1; [|lia|apply bytes_skipn; exact Hb]. rewrite ceil6, skipn_length in E1. lia. }
  apply c_trim_decode_iff in E1; [|lia|apply bytes_skipn; exact Hb]. rewrite ceil6 in E1. destruct E1 as (-> & _).
  destruct (c_trim_i8_decode 6 9 (Z.to_nat 1281 - (1 + 384)) _) as [g0 v2| |] eqn:E2; [|discriminate|].
  2: { apply c_trim_beyond in E2; [|lia|apply bytes_skipn; exact Hb]. rewrite ceil6, skipn_length in E2. lia. }
  apply c_trim_decode_iff in E2; [|lia|apply bytes_skipn; exact Hb]. rewrite ceil6 in E2. destruct E2 as (-> & _).
  destruct (c_trim_i8_decode 8 9 (Z.to_nat 1281 - (1 + 384 + 384)) _) as [F0 v3| |] eqn:E3; [|discriminate|].
  2: { apply c_trim_beyond in E3; [|lia|apply bytes_skipn; exact Hb]. rewrite ceil88, skipn_length in E3. lia. }
  destruct (negb _); [discriminate|]. destruct (c_complete_private 9 f0 g0 F0); discriminate.
Qed.
Theorem encode_sk_iff f g F sk : length f = 512%nat -> length g = 512%nat -> length F = 512%nat -> Forall int8 f -> Forall int8 g -> Forall int8 F ->
  (encode_sk f g F = Some sk <-> secret_key sk f g F /\ length sk = Z.to_nat 1281).
Proof.
  intros Lf Lg LF If Ig IF. unfold encode_sk. rewrite b6, b8. cbv zeta.
  assert (C6 : ceil8 (512 * 6) = 384%nat) by reflexivity. assert (C8 : ceil8 (512 * 8) = 512%nat) by reflexivity.
  assert (PL : forall x d, length x = 512%nat -> packs 6 (map (fun c => c mod 2 ^ Z.of_nat 6) x) d -> length d = 384%nat) by (intros x d L P; apply packs_length in P; rewrite map_length, L in P; exact P).
  assert (PL8 : forall x d, length x = 512%nat -> packs 8 (map (fun c => c mod 2 ^ Z.of_nat 8) x) d -> length d = 512%nat) by (intros x d L P; apply packs_length in P; rewrite map_length, L in P; exact P).
  split.
  - intros E. destruct (c_trim_i8_encode 6 (Z.to_nat 1281 - 1) f) as [ef|] eqn:E1; [|discriminate E]. apply c_trim_encode_iff in E1; [|lia|exact If]. destruct E1 as (_ & F1 & P1).
    pose proof (PL f ef Lf P1) as L1. rewrite L1 in E. destruct (c_trim_i8_encode 6 (Z.to_nat 1281 - (1 + 384)) g) as [eg|] eqn:E2; [|discriminate E].
    apply c_trim_encode_iff in E2; [|lia|exact Ig]. destruct E2 as (_ & F2 & P2). pose proof (PL g eg Lg P2) as L2. rewrite L2 in E.
    destruct (c_trim_i8_encode 8 (Z.to_nat 1281 - (1 + 384 + 384)) F) as [eF|] eqn:E3; [|discriminate E]. apply c_trim_encode_iff in E3; [|lia|exact IF]. destruct E3 as (_ & F3 & P3).
    pose proof (PL8 F eF LF P3) as L3. rewrite L3 in E. destruct (negb _); [discriminate E|]. apply Some_inj in E. subst sk. split.
    + split; [exact Lf|]. split; [exact Lg|]. split; [exact LF|]. split; [exact F1|]. split; [exact F2|]. split; [exact F3|].
      exists ef, eg, eF, []. split; [rewrite app_nil_r; reflexivity|]. repeat (split; [assumption|]). assumption.
    + cbn [length]. rewrite !app_length. lia.
  - intros ((_ & _ & _ & F1 & F2 & F3 & ef & eg & eF & rest & E & L1 & L2 & L3 & P1 & P2 & P3) & LS). rewrite E in LS. cbn [length] in LS. rewrite !app_length in LS.
    assert (rest = []) by (destruct rest; [reflexivity|cbn [length] in LS; lia]). subst rest. rewrite app_nil_r in E.
    rewrite (proj2 (c_trim_encode_iff 6 (Z.to_nat 1281 - 1) f ef ltac:(lia) If)) by (split; [rewrite Lf, C6; lia|split; assumption]). rewrite L1.
    rewrite (proj2 (c_trim_encode_iff 6 (Z.to_nat 1281 - (1 + 384)) g eg ltac:(lia) Ig)) by (split; [rewrite Lg, C6; lia|split; assumption]). rewrite L2.
    rewrite (proj2 (c_trim_encode_iff 8 (Z.to_nat 1281 - (1 + 384 + 384)) F eF ltac:(lia) IF)) by (split; [rewrite LF, C8; lia|split; assumption]). rewrite L3.
    replace (1 + 384 + 384 + 512 =? Z.to_nat 1281)%nat with true by (symmetry; apply Nat.eqb_eq; lia). cbn [negb]. rewrite E. reflexivity.
Qed.
Lemma secret_key_bytes sk f g F : secret_key sk f g F -> length sk = Z.to_nat 1281 -> bytes sk.
Proof.
  intros (_ & _ & _ & _ & _ & _ & ef & eg & eF & rest & -> & L1 & L2 & L3 & P1 & P2 & P3) LS. cbn [length] in LS. rewrite !app_length in LS.
  assert (rest = []) by (destruct rest; [reflexivity|cbn [length] in LS; lia]). subst rest.
  constructor; [unfold is_byte; lia|]. apply bytes_app. split; [apply P1|]. apply bytes_app. split; [apply P2|]. apply bytes_app. split; [apply P3|constructor].
Qed.
(** * Public keys *)
Lemma pack14 h e : length h = 512%nat -> Forall (fun c => 0 <= c) h -> (c_modq_encode 896 h = Some e <-> public_key14 (9 :: e) h /\ length e = 896%nat).
Proof.
  intros L HN. unfold c_modq_encode. rewrite c_modq_encode_gen by (try lia; exact HN). rewrite L. change (ceil8 (512 * 14)) with 896%nat. split.
  - intros (_ & F & P). assert (LE : length e = 896%nat) by (apply packs_length in P; rewrite L in P; exact P). split; [|exact LE]. split; [split; assumption|].
    exists e, []. split; [rewrite app_nil_r; reflexivity|]. split; [exact LE|exact P].
  - intros (((_ & F) & body & rest & E & LB & P) & LE). apply cons_inj in E. destruct E as [_ ->]. rewrite app_length in LE. assert (rest = []) by (destruct rest; [reflexivity|cbn [length] in LE; lia]). subst rest.
    rewrite app_nil_r in *. split; [lia|]. split; assumption.
Qed.
Lemma pack16 h e : length h = 512%nat -> Forall (fun c => 0 <= c) h -> (c_modq_encode16 (Z.to_nat 1024) h = Some e <-> public_key16 (9 :: e) h /\ length e = Z.to_nat 1024).
Proof.
  intros L HN. unfold c_modq_encode16. rewrite c_modq_encode_gen by (try lia; exact HN). rewrite L. change (512 * 16)%nat with (2 ^ 9 * 16)%nat. rewrite ceil16. split.
  - intros (_ & F & P). assert (LE : length e = Z.to_nat 1024) by (apply packs_length in P; rewrite L in P; change (512 * 16)%nat with (2 ^ 9 * 16)%nat in P; rewrite ceil16 in P; exact P).
    split; [|exact LE]. split; [split; assumption|]. exists e, []. split; [rewrite app_nil_r; reflexivity|]. split; [exact LE|exact P].
  - intros (((_ & F) & body & rest & E & LB & P) & LE). apply cons_inj in E. destruct E as [_ ->]. rewrite app_length in LE. assert (rest = []) by (destruct rest; [reflexivity|cbn [length] in LE; lia]). subst rest.
    rewrite app_nil_r in *. split; [lia|]. split; assumption.
Qed.
