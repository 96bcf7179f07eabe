From Verif Require Import Base CodecSpec CodecModel.

Lemma flat_map_zbits_length w l : length (flat_map (zbits w) l) = (w * length l)%nat.
Proof.
  induction l as [|a l IH]; cbn [flat_map length]; [lia|].
  rewrite app_length, zbits_length, IH. lia.
Qed.

Lemma flat_map_zbits_inj w a : forall b,
  length a = length b -> Forall (fun z => 0 <= z < 2 ^ Z.of_nat w) a ->
  Forall (fun z => 0 <= z < 2 ^ Z.of_nat w) b ->
  flat_map (zbits w) a = flat_map (zbits w) b -> a = b.
Proof.
  induction a as [|x a IH]; intros [|y b] HL Ha Hb E; cbn in HL; try lia; auto.
  inversion Ha; inversion Hb; subst. cbn [flat_map] in E.
  apply app_inv_length in E as [E1 E2]; [|now rewrite !zbits_length].
  f_equal; [|apply IH; auto].
  apply (f_equal of_bits) in E1. rewrite !of_bits_zbits, !Z.mod_small in E1 by lia. exact E1.
Qed.

(** Any bit string of sufficient length starts with [n] fields. *)
Lemma chop w n : forall u, (w * n <= length u)%nat ->
  exists ws rest, length ws = n /\ Forall (fun z => 0 <= z < 2 ^ Z.of_nat w) ws /\
    u = flat_map (zbits w) ws ++ rest.
Proof.
  induction n as [|n IH]; intros u Hu.
  - exists [], u. auto.
  - destruct (IH (skipn w u)) as (ws & rest & HL & HF & E).
    { rewrite skipn_length. lia. }
    assert (L : length (firstn w u) = w) by (rewrite firstn_length; lia).
    exists (of_bits (firstn w u) :: ws), rest. split; [cbn; lia|]. split.
    + constructor; auto. pose proof (of_bits_bound (firstn w u)) as B. now rewrite L in B.
    + cbn [flat_map]. rewrite zbits_of_bits_eq by auto. rewrite <- app_assoc, <- E.
      symmetry. apply firstn_skipn.
Qed.

Lemma of_bits_snoc_zbits B w z : 0 <= z < 2 ^ Z.of_nat w ->
  Z.lor (Z.shiftl (of_bits B) (Z.of_nat w)) z = of_bits (B ++ zbits w z).
Proof.
  intros Hz. rewrite lor_shiftl_add by lia. rewrite of_bits_app, zbits_length, of_bits_zbits.
  now rewrite Z.mod_small by lia.
Qed.

(** ** Encoder *)
Lemma bytes_snoc_bits out X : length X = 8%nat ->
  bytes_bits (out ++ [of_bits X]) = bytes_bits out ++ X.
Proof.
  intros H. rewrite bytes_bits_app. f_equal. unfold bytes_bits. cbn [flat_map].
  rewrite app_nil_r. now apply zbits_of_bits_eq.
Qed.

Lemma of_bits_is_byte X : length X = 8%nat -> is_byte (of_bits X).
Proof. intros H. pose proof (of_bits_bound X) as B. rewrite H in B. exact B. Qed.

Lemma flush8_spec fuel out_len : forall pending out acc,
  acc = of_bits (bytes_bits out ++ pending) -> bytes out -> (length pending <= fuel)%nat ->
  (8 * length out + length pending <= 8 * out_len + 7)%nat ->
  exists out' pending', flush8 fuel out_len acc (length pending) out = Ok (length pending', out') /\
    bytes out' /\ bytes_bits out' ++ pending' = bytes_bits out ++ pending /\ (length pending' < 8)%nat.
Proof.
  induction fuel as [|fuel IH]; intros pending out acc Hacc Hb Hf Hfit; cbn [flush8].
  - destruct pending; [|cbn in Hf; lia]. cbn [length Nat.leb]. exists out, [].
    repeat split; auto. cbn; lia.
  - destruct (Nat.leb_spec 8 (length pending)) as [L|L].
    + pose proof (firstn_skipn 8 pending) as E.
      set (X := firstn 8 pending) in *. set (Y := skipn 8 pending) in *.
      assert (LX : length X = 8%nat) by (subst X; rewrite firstn_length; lia).
      assert (LY : length Y = (length pending - 8)%nat) by (subst Y; apply skipn_length).
      unfold buf_write. destruct (Nat.ltb_spec (length out) out_len) as [Lo|Lo]; [|lia].
      cbn [bind]. rewrite <- LY.
      replace (Z.land (Z.shiftr acc (Z.of_nat (length Y))) 255) with (of_bits X).
      2:{ rewrite Hacc, <- E. rewrite <- (field_extract (bytes_bits out) X Y). rewrite LX. reflexivity. }
      destruct (IH Y (out ++ [of_bits X]) acc) as (out' & p' & E1 & E2 & E3 & E4).
      * rewrite bytes_snoc_bits by auto. rewrite <- app_assoc, E. exact Hacc.
      * apply bytes_app. split; auto. constructor; [now apply of_bits_is_byte|constructor].
      * lia.
      * rewrite app_length. cbn [length]. lia.
      * exists out', p'. repeat split; auto. rewrite E3, bytes_snoc_bits by auto.
        now rewrite <- app_assoc, E.
    + exists out, pending. repeat split; auto.
Qed.

Section Encoder.
Variable field : Z -> option Z.
Variable width : nat.
Hypothesis field_range : forall c w, field c = Some w -> 0 <= w < 2 ^ Z.of_nat width.

Lemma encode_loop_spec out_len x : forall ws pending out acc,
  map field x = map Some ws ->
  acc = of_bits (bytes_bits out ++ pending) -> bytes out -> (length pending < 8)%nat ->
  (8 * length out + length pending + width * length x <= 8 * out_len + 7)%nat ->
  exists out' pending',
    encode_loop field width out_len x acc (length pending) out
      = Ok (of_bits (bytes_bits out' ++ pending'), length pending', out') /\
    bytes out' /\ (length pending' < 8)%nat /\
    bytes_bits out' ++ pending' = bytes_bits out ++ pending ++ flat_map (zbits width) ws.
Proof.
  induction x as [|c x IH]; intros [|w ws] pending out acc HF Hacc Hb Hp Hfit; try discriminate.
  - cbn [encode_loop]. exists out, pending. rewrite Hacc. repeat split; auto.
    cbn. now rewrite app_nil_r.
  - cbn [encode_loop]. cbn [map] in HF. injection HF as Hw HF. rewrite Hw.
    pose proof (field_range _ _ Hw) as Hr.
    rewrite Hacc, of_bits_snoc_zbits by auto.
    rewrite <- app_assoc.
    replace (length pending + width)%nat with (length (pending ++ zbits width w))
      by (rewrite app_length, zbits_length; lia).
    cbn [length] in Hfit.
    destruct (flush8_spec (length (pending ++ zbits width w)) out_len (pending ++ zbits width w) out
                (of_bits (bytes_bits out ++ pending ++ zbits width w)))
      as (out1 & p1 & E1 & E2 & E3 & E4); [reflexivity|exact Hb|lia|rewrite app_length, zbits_length; lia|].
    rewrite E1. cbn [bind].
    destruct (IH ws p1 out1 (of_bits (bytes_bits out ++ pending ++ zbits width w)))
      as (out2 & p2 & F1 & F2 & F3 & F4);
      [exact HF|now rewrite E3|exact E2|exact E4| |].
    { apply (f_equal (@length _)) in E3. rewrite !app_length, !bytes_bits_length, zbits_length in E3. lia. }
    exists out2, p2. repeat split; auto.
    rewrite F4. rewrite app_assoc, E3. cbn [flat_map]. now rewrite <- !app_assoc.
Qed.

Lemma last_byte B pending : (0 < length pending < 8)%nat ->
  Z.land (Z.shiftl (of_bits (B ++ pending)) (8 - Z.of_nat (length pending))) 255
  = of_bits (pending ++ repeat false (8 - length pending)).
Proof.
  intros Hp.
  assert (Z0 : forall k, of_bits (repeat false k) = 0).
  { induction k as [|k IH]; auto. }
  rewrite Z.shiftl_mul_pow2 by lia.
  replace (of_bits (B ++ pending) * 2 ^ (8 - Z.of_nat (length pending)))
    with (of_bits (B ++ (pending ++ repeat false (8 - length pending)) ++ [])).
  2:{ rewrite app_nil_r, app_assoc, (of_bits_app (B ++ pending)), repeat_length, Z0.
      replace (8 - Z.of_nat (length pending)) with (Z.of_nat (8 - length pending)) by lia. lia. }
  rewrite <- (field_extract B (pending ++ repeat false (8 - length pending)) []).
  cbn [length]. rewrite Z.shiftr_0_r, app_length, repeat_length.
  replace (length pending + (8 - length pending))%nat with 8%nat by lia. reflexivity.
Qed.

Theorem encode_gen_spec x n ws : length x = n -> map field x = map Some ws ->
  exists d, encode_gen field width x n = Ok d /\ length d = ceil8 (n * width) /\ packs width ws d.
Proof.
  intros Hn HF. unfold encode_gen. fold (ceil8 (n * width)).
  assert (HC : (n * width <= 8 * ceil8 (n * width) < n * width + 8)%nat).
  { unfold ceil8. set (k := (n * width)%nat). clearbody k. lia. }
  assert (Hlw : length ws = n).
  { apply (f_equal (@length _)) in HF. rewrite !map_length in HF. lia. }
  destruct (encode_loop_spec (ceil8 (n * width)) x ws [] [] 0) as (out & p & E1 & E2 & E3 & E4);
    [exact HF|reflexivity|constructor|cbn; lia|cbn [length]; rewrite Hn; nia|].
  cbn [length] in E1. rewrite E1. cbn [bind].
  cbn [app bytes_bits flat_map] in E4.
  pose proof (f_equal (@length _) E4) as EL.
  rewrite app_length, flat_map_zbits_length, Hlw in EL.
  fold (bytes_bits out) in EL. rewrite bytes_bits_length in EL.
  destruct (Nat.ltb_spec 0 (length p)) as [Lp|Lp].
  - unfold buf_write. destruct (Nat.ltb_spec (length out) (ceil8 (n * width))) as [Lo|Lo]; [|nia].
    cbn [bind]. rewrite last_byte by lia.
    set (X := p ++ repeat false (8 - length p)).
    assert (LX : length X = 8%nat) by (unfold X; rewrite app_length, repeat_length; lia).
    assert (Hlen : length (out ++ [of_bits X]) = ceil8 (n * width)).
    { rewrite app_length. cbn [length]. nia. }
    eexists. split; [reflexivity|]. rewrite Hlen, Nat.sub_diag. cbn [repeat]. rewrite app_nil_r.
    split; auto. split.
    + apply bytes_app. split; auto. constructor; [now apply of_bits_is_byte|constructor].
    + exists (8 - length p)%nat. split; [lia|]. rewrite bytes_snoc_bits by auto.
      unfold X. fold (bytes_bits out) in E4. now rewrite app_assoc, E4.
  - destruct p; [|cbn in Lp; lia]. cbn [bind length] in *.
    assert (Hlen : length out = ceil8 (n * width)) by nia.
    eexists. split; [reflexivity|]. rewrite Hlen, Nat.sub_diag. cbn [repeat]. rewrite app_nil_r.
    split; auto. split; auto. exists 0%nat. split; [lia|]. cbn [repeat].
    rewrite app_nil_r in *. exact E4.
Qed.

(** A coefficient out of range is reported as ValueError when the list has the declared length. *)
Lemma encode_loop_error out_len x : forall pending out acc,
  (exists c, In c x /\ field c = None) ->
  acc = of_bits (bytes_bits out ++ pending) -> bytes out -> (length pending < 8)%nat ->
  (8 * length out + length pending + width * length x <= 8 * out_len + 7)%nat ->
  encode_loop field width out_len x acc (length pending) out = Raise ValueError.
Proof.
  induction x as [|c x IH]; intros pending out acc (c0 & Hin & Hbad) Hacc Hb Hp Hfit.
  - destruct Hin.
  - cbn [encode_loop]. destruct (field c) as [w|] eqn:Hw; auto.
    destruct Hin as [->|Hin]; [congruence|].
    pose proof (field_range _ _ Hw) as Hr.
    rewrite Hacc, of_bits_snoc_zbits by auto. rewrite <- app_assoc.
    replace (length pending + width)%nat with (length (pending ++ zbits width w))
      by (rewrite app_length, zbits_length; lia).
    cbn [length] in Hfit.
    destruct (flush8_spec (length (pending ++ zbits width w)) out_len (pending ++ zbits width w) out
                (of_bits (bytes_bits out ++ pending ++ zbits width w)))
      as (out1 & p1 & E1 & E2 & E3 & E4); [reflexivity|exact Hb|lia|rewrite app_length, zbits_length; lia|].
    rewrite E1. cbn [bind]. apply IH; [eauto|now rewrite E3|exact E2|exact E4|].
    { apply (f_equal (@length _)) in E3. rewrite !app_length, !bytes_bits_length, zbits_length in E3. lia. }
Qed.

Theorem encode_gen_error x n : length x = n -> (exists c, In c x /\ field c = None) ->
  encode_gen field width x n = Raise ValueError.
Proof.
  intros Hn HB. unfold encode_gen. fold (ceil8 (n * width)).
  assert (HC : (n * width <= 8 * ceil8 (n * width))%nat).
  { unfold ceil8. set (k := (n * width)%nat). clearbody k. lia. }
  change 0%nat with (length (@nil bool)) at 1.
  rewrite encode_loop_error; [reflexivity|exact HB|reflexivity|constructor|cbn; lia|].
  cbn [length]. rewrite Hn. nia.
Qed.

Lemma field_all x : (forall c, In c x -> field c <> None) -> exists ws, map field x = map Some ws.
Proof.
  induction x as [|c x IH]; intros H.
  - exists []. reflexivity.
  - destruct (field c) as [w|] eqn:E; [|exfalso; apply (H c); [now left|exact E]].
    destruct IH as [ws Ews]. { intros; apply H; now right. }
    exists (w :: ws). cbn. congruence.
Qed.
End Encoder.

(** [packs] determines the data from the fields, and the fields from the data. *)
Lemma packs_unique_data width fields d1 d2 : packs width fields d1 -> packs width fields d2 -> d1 = d2.
Proof.
  intros (B1 & p1 & P1 & E1) (B2 & p2 & P2 & E2).
  apply bytes_bits_inj; auto. rewrite E1, E2. f_equal. f_equal.
  apply (f_equal (@length _)) in E1. apply (f_equal (@length _)) in E2.
  rewrite app_length, bytes_bits_length, repeat_length in E1, E2. lia.
Qed.

Lemma packs_length width fields d : packs width fields d -> length d = ceil8 (length fields * width).
Proof.
  intros (_ & p & P & E). apply (f_equal (@length _)) in E.
  rewrite app_length, bytes_bits_length, repeat_length, flat_map_zbits_length in E.
  unfold ceil8. rewrite (Nat.mul_comm (length fields)). set (k := (width * length fields)%nat) in *.
  clearbody k. lia.
Qed.

Lemma firstn_bytes_bits k data : bytes_bits (firstn k data) = firstn (8 * k) (bytes_bits data).
Proof.
  destruct (le_lt_dec (length data) k).
  - rewrite !firstn_all2; auto. rewrite bytes_bits_length. lia.
  - rewrite <- (firstn_skipn k data) at 2. rewrite bytes_bits_app.
    rewrite firstn_app_exact; auto. rewrite bytes_bits_length, firstn_length. lia.
Qed.

(** Data of sufficient length: fields and padding of its prefix. *)
Lemma prefix_packs width n data : bytes data -> (ceil8 (n * width) <= length data)%nat ->
  exists ws pad rest, length ws = n /\ Forall (fun z => 0 <= z < 2 ^ Z.of_nat width) ws /\
    (length pad < 8)%nat /\
    bytes_bits (firstn (ceil8 (n * width)) data) = flat_map (zbits width) ws ++ pad /\
    bytes_bits data = flat_map (zbits width) ws ++ pad ++ rest.
Proof.
  intros Hb HL.
  assert (HC : (n * width <= 8 * ceil8 (n * width) < n * width + 8)%nat).
  { unfold ceil8. set (k := (n * width)%nat). clearbody k. lia. }
  set (d := firstn (ceil8 (n * width)) data).
  assert (Ld : length d = ceil8 (n * width)) by (unfold d; rewrite firstn_length; lia).
  destruct (chop width n (bytes_bits d)) as (ws & pad & L & F & E).
  { rewrite bytes_bits_length. lia. }
  exists ws, pad, (bytes_bits (skipn (ceil8 (n * width)) data)). repeat split; auto.
  - apply (f_equal (@length _)) in E. rewrite app_length, bytes_bits_length, flat_map_zbits_length in E. nia.
  - rewrite <- (firstn_skipn (ceil8 (n * width)) data) at 1. fold d.
    rewrite bytes_bits_app, E. now rewrite <- app_assoc.
Qed.

(** ** Decoders *)
Section Decoder.
(** [chk w]: the value appended for field [w], or None if it is refused. *)
Variable chk : Z -> option Z.
Variable bits : nat.
Hypothesis bits_pos : (1 <= bits)%nat.

Fixpoint ginner (todo : nat) (acc : Z) (acc_len : nat) (x : list Z) : res (nat * nat * list Z) :=
  match todo with
  | O => Ok (O, acc_len, x)
  | S todo' =>
    if (bits <=? acc_len)%nat then
      match chk (Z.land (Z.shiftr acc (Z.of_nat (acc_len - bits))) (2 ^ Z.of_nat bits - 1)) with
      | None => Raise ValueError
      | Some w => ginner todo' acc (acc_len - bits) (x ++ [w])
      end
    else Ok (todo, acc_len, x)
  end.

Fixpoint gloop (todo : nat) (data : list Z) (acc : Z) (acc_len : nat) (x : list Z)
  : res (list Z * Z * nat) :=
  match todo with
  | O => Ok (x, acc, acc_len)
  | S _ =>
    match data with
    | [] => Raise IndexError
    | b :: data' =>
      let acc := Z.lor (Z.shiftl acc 8) b in
      let! (todo, acc_len, x) := ginner todo acc (acc_len + 8) x in
      gloop todo data' acc acc_len x
    end
  end.

(** values of the fields, None as soon as one is refused *)
Fixpoint chk_all (ws : list Z) : option (list Z) :=
  match ws with
  | [] => Some []
  | w :: ws' => match chk w with None => None | Some v =>
                match chk_all ws' with None => None | Some vs => Some (v :: vs) end end
  end.

Definition okfields := Forall (fun z => 0 <= z < 2 ^ Z.of_nat bits).

Lemma chk_all_app a b : chk_all (a ++ b) =
  match chk_all a with None => None | Some x =>
  match chk_all b with None => None | Some y => Some (x ++ y) end end.
Proof.
  induction a as [|w a IH]; cbn [chk_all app].
  - destruct (chk_all b); auto.
  - rewrite IH. destruct (chk w); auto. destruct (chk_all a); auto. destruct (chk_all b); auto.
Qed.

Lemma split_exists ws : forall pending,
  (exists rest rest', pending ++ rest = flat_map (zbits bits) ws ++ rest') ->
  exists ws1 ws2 p', ws = ws1 ++ ws2 /\ pending = flat_map (zbits bits) ws1 ++ p' /\
    (ws2 = [] \/ (length p' < bits)%nat).
Proof.
  induction ws as [|w ws IH]; intros pending (rest & rest' & HP).
  - exists [], [], pending. auto.
  - destruct (le_lt_dec bits (length pending)) as [L|L].
    + cbn [flat_map] in HP. rewrite <- app_assoc in HP.
      assert (HX : firstn bits pending = zbits bits w).
      { apply (f_equal (firstn bits)) in HP. rewrite firstn_app in HP.
        replace (bits - length pending)%nat with 0%nat in HP by lia.
        rewrite firstn_O, app_nil_r in HP. rewrite HP.
        apply firstn_app_exact. now rewrite zbits_length. }
      pose proof (firstn_skipn bits pending) as E. rewrite HX in E.
      set (Y := skipn bits pending) in *.
      destruct (IH Y) as (ws1 & ws2 & p' & E1 & E2 & E3).
      { exists rest, rest'. apply (app_inv_head (zbits bits w)). rewrite app_assoc, E. exact HP. }
      exists (w :: ws1), ws2, p'. repeat split; auto; [cbn; congruence|].
      cbn [flat_map]. rewrite <- app_assoc, <- E2. auto.
    + exists [], (w :: ws), pending. auto.
Qed.

Lemma ginner_run ws1 : forall ws2 p' C x, okfields ws1 -> (ws2 = [] \/ (length p' < bits)%nat) ->
  ginner (length (ws1 ++ ws2)) (of_bits (C ++ flat_map (zbits bits) ws1 ++ p'))
         (length (flat_map (zbits bits) ws1 ++ p')) x
  = match chk_all ws1 with
    | None => Raise ValueError
    | Some vs => Ok (length ws2, length p', x ++ vs)
    end.
Proof.
  induction ws1 as [|w ws1 IH]; intros ws2 p' C x HF HS.
  - cbn [app flat_map chk_all]. rewrite app_nil_r. destruct ws2 as [|w2 ws2]; auto.
    destruct HS as [HS|HS]; [discriminate|]. cbn [length ginner].
    destruct (Nat.leb_spec bits (length p')); [lia|reflexivity].
  - inversion HF as [|? ? Hw HF']; subst.
    cbn [app length ginner flat_map]. rewrite <- app_assoc.
    set (Y := flat_map (zbits bits) ws1 ++ p').
    rewrite app_length, zbits_length.
    destruct (Nat.leb_spec bits (bits + length Y)); [|lia].
    replace (bits + length Y - bits)%nat with (length Y) by lia.
    replace (Z.land (Z.shiftr (of_bits (C ++ zbits bits w ++ Y)) (Z.of_nat (length Y))) (2 ^ Z.of_nat bits - 1))
      with w.
    2:{ rewrite <- (zbits_length bits w) at 2. rewrite field_extract, of_bits_zbits.
        now rewrite Z.mod_small. }
    cbn [chk_all]. destruct (chk w) as [v|]; auto.
    rewrite (app_assoc C). unfold Y. rewrite IH; auto.
    destruct (chk_all ws1); auto. now rewrite <- app_assoc.
Qed.

Lemma gloop_run data : forall ws C pending x rest,
  okfields ws -> bytes data -> (ws = [] \/ (length pending < bits)%nat) ->
  pending ++ bytes_bits data = flat_map (zbits bits) ws ++ rest ->
  match chk_all ws with
  | None => gloop (length ws) data (of_bits (C ++ pending)) (length pending) x = Raise ValueError
  | Some vs => exists C' p' unused,
      gloop (length ws) data (of_bits (C ++ pending)) (length pending) x
        = Ok (x ++ vs, of_bits (C' ++ p'), length p') /\
      p' ++ bytes_bits unused = rest /\ (ws <> [] -> (length p' < 8)%nat)
  end.
Proof.
  induction data as [|b data IH]; intros ws C pending x rest HF Hb HS HP.
  - destruct ws as [|w ws].
    + cbn. exists C, pending, []. rewrite app_nil_r. repeat split; auto. congruence.
    + exfalso. destruct HS as [HS|HS]; [discriminate|].
      apply (f_equal (@length _)) in HP. cbn [flat_map bytes_bits] in HP.
      rewrite !app_length, zbits_length in HP. cbn in HP. lia.
  - destruct ws as [|w0 ws0].
    + cbn [length gloop chk_all]. exists C, pending, (b :: data).
      rewrite app_nil_r. repeat split; auto. congruence.
    + remember (w0 :: ws0) as ws eqn:Ews.
      replace (gloop (length ws) (b :: data) (of_bits (C ++ pending)) (length pending) x)
        with (let acc := Z.lor (Z.shiftl (of_bits (C ++ pending)) 8) b in
              let! (todo, acc_len, x) := ginner (length ws) acc (length pending + 8) x in
              gloop todo data acc acc_len x) by (rewrite Ews; reflexivity).
      pose proof (Forall_inv Hb) as Hb1. pose proof (Forall_inv_tail Hb) as Hb2.
      destruct HS as [HS|HS]; [congruence|].
      cbv zeta. change 8 with (Z.of_nat 8). rewrite of_bits_snoc_zbits by exact Hb1.
      rewrite <- app_assoc.
      replace (length pending + 8)%nat with (length (pending ++ zbits 8 b))
        by (rewrite app_length, zbits_length; reflexivity).
      change (bytes_bits (b :: data)) with (zbits 8 b ++ bytes_bits data) in HP.
      rewrite app_assoc in HP.
      destruct (split_exists ws (pending ++ zbits 8 b)) as (ws1 & ws2 & p' & E1 & E2 & E3).
      { eauto. }
      rewrite E2. rewrite E1. rewrite E1 in HF.
      apply Forall_app in HF as [HF1 HF2].
      rewrite ginner_run by auto.
      rewrite chk_all_app.
      destruct (chk_all ws1) as [vs1|]; [|reflexivity]. cbn [bind].
      assert (HP' : p' ++ bytes_bits data = flat_map (zbits bits) ws2 ++ rest).
      { rewrite E2, E1, flat_map_app in HP. rewrite <- !app_assoc in HP.
        apply app_inv_head in HP. exact HP. }
      specialize (IH ws2 (C ++ flat_map (zbits bits) ws1) p' (x ++ vs1) rest HF2 Hb2 E3 HP').
      rewrite <- app_assoc in IH.
      destruct (chk_all ws2) as [vs2|]; [|exact IH].
      destruct IH as (C' & p2 & unused & G1 & G2 & G3).
      exists C', p2, unused. rewrite G1. rewrite <- app_assoc. repeat split; auto.
      intros _. destruct ws2 as [|w2 ws2]; [|apply G3; discriminate].
      cbn in HP'.
      cbn [length gloop] in G1.
      assert (Hp2 : length p2 = length p').
      { destruct data; cbn [gloop] in G1; congruence. }
      apply (f_equal (@length _)) in E2.
      rewrite !app_length, flat_map_zbits_length, zbits_length in E2.
      rewrite app_nil_r in E1. rewrite <- E1, Ews in E2. cbn [length] in E2. nia.
Qed.

(** The decoder after its length check, including the check of the trailing bits. *)
Definition gdecode (data : list Z) (n : nat) : res (list Z) :=
  if (length data <? ceil8 (n * bits))%nat then Raise ValueError
  else
    let! (x, acc, acc_len) := gloop n data 0 0 [] in
    if negb (Z.land acc (Z.shiftl 1 (Z.of_nat acc_len) - 1) =? 0) then Raise ValueError
    else Ok x.

Lemma of_bits_zero_iff p : of_bits p = 0 <-> p = repeat false (length p).
Proof.
  split.
  - intros H. apply of_bits_inj; [now rewrite repeat_length|]. rewrite H.
    induction (length p) as [|k IH]; auto.
  - intros ->. induction (length p) as [|k IH]; auto.
Qed.

Lemma trailing C p : Z.land (of_bits (C ++ p)) (Z.shiftl 1 (Z.of_nat (length p)) - 1) = of_bits p.
Proof.
  rewrite Z.shiftl_1_l.
  pose proof (field_extract C p []) as H. cbn [length] in H. now rewrite Z.shiftr_0_r, app_nil_r in H.
Qed.

(** Complete description of the decoder on byte strings. *)
Theorem gdecode_spec data n : bytes data ->
  (length data < ceil8 (n * bits))%nat /\ gdecode data n = Raise ValueError \/
  exists ws pad, length ws = n /\ okfields ws /\ (length pad < 8)%nat /\
    bytes_bits (firstn (ceil8 (n * bits)) data) = flat_map (zbits bits) ws ++ pad /\
    gdecode data n =
      match chk_all ws with
      | None => Raise ValueError
      | Some vs => if In_dec Bool.bool_dec true pad then Raise ValueError else Ok vs
      end.
Proof.
  intros Hb. unfold gdecode. destruct (Nat.ltb_spec (length data) (ceil8 (n * bits))) as [L|L].
  - left. auto.
  - right. destruct (prefix_packs bits n data Hb L) as (ws & pad & rest & HL & HF & HP & E1 & E2).
    exists ws, pad. repeat split; auto.
    pose proof (gloop_run data ws [] [] [] (pad ++ rest) HF Hb) as G.
    rewrite HL in G. cbn [app length] in G.
    assert (HS : ws = [] \/ (0 < bits)%nat) by (right; lia).
    specialize (G HS E2).
    change (of_bits []) with 0 in G.
    destruct (chk_all ws) as [vs|]; [|rewrite G; reflexivity].
    destruct G as (C' & p' & unused & G1 & G2 & G3). rewrite G1. cbn [bind].
    rewrite trailing.
    assert (p' = pad).
    { destruct ws as [|w ws].
      - (* n = 0 *)
        cbn in HL. subst n. cbn in G1.
        destruct data; cbn in G1; inversion G1 as [[H1 H2]];
          destruct p' as [|b0 p']; try discriminate;
          destruct pad as [|b1 pad]; auto;
          apply (f_equal (@length _)) in E1; cbn in E1; discriminate.
      - assert (L' : (length p' < 8)%nat) by (apply G3; discriminate).
        assert (LL : length p' = length pad).
        { apply (f_equal (@length _)) in G2. apply (f_equal (@length _)) in E1.
          apply (f_equal (@length _)) in E2.
          rewrite ?app_length, ?bytes_bits_length in G2.
          rewrite ?app_length, ?bytes_bits_length in E2.
          rewrite ?app_length, ?bytes_bits_length in E1. lia. }
        apply app_inv_length in G2; tauto. }
    subst p'. cbn [app].
    destruct (Z.eqb_spec (of_bits pad) 0) as [Z0|Z0]; cbn [negb];
      destruct (In_dec Bool.bool_dec true pad) as [I|I]; auto.
    + apply of_bits_zero_iff in Z0. rewrite Z0 in I. apply repeat_spec in I. discriminate.
    + exfalso. apply Z0. apply of_bits_zero_iff. clear -I.
      induction pad as [|b r IH]; auto. cbn. f_equal.
      * destruct b; auto. exfalso; apply I; now left.
      * apply IH. intros HI; apply I; now right.
Qed.

Lemma chk_all_length ws : forall vs, chk_all ws = Some vs -> length vs = length ws.
Proof.
  induction ws as [|w ws IH]; intros vs E; cbn in E.
  - injection E as <-. reflexivity.
  - destruct (chk w); [|discriminate]. destruct (chk_all ws) as [vs'|]; [|discriminate].
    injection E as <-. cbn. f_equal. auto.
Qed.

(** Success of the decoder: exactly the canonical packings followed by anything. *)
Theorem gdecode_ok_iff data n vs : bytes data ->
  gdecode data n = Ok vs <->
  (ceil8 (n * bits) <= length data)%nat /\
  exists ws, length ws = n /\ okfields ws /\ chk_all ws = Some vs /\
             packs bits ws (firstn (ceil8 (n * bits)) data).
Proof.
  intros Hb. destruct (gdecode_spec data n Hb) as [(L & E)|(ws & pad & HL & HF & HP & E1 & E2)].
  - rewrite E. split; [discriminate|]. intros (? & _). lia.
  - assert (Hpk : ~ In true pad <-> pad = repeat false (length pad)).
    { split.
      - intros I. clear -I. induction pad as [|b r IH]; auto. cbn. f_equal.
        + destruct b; auto. exfalso; apply I; now left.
        + apply IH. intros HI; apply I; now right.
      - intros -> I. apply repeat_spec in I. discriminate. }
    rewrite E2. split.
    + intros H. destruct (chk_all ws) as [vs'|] eqn:EC; [|discriminate].
      destruct (In_dec Bool.bool_dec true pad) as [I|I]; [discriminate|].
      injection H as ->. split.
      { apply (f_equal (@length _)) in E1. rewrite app_length, bytes_bits_length, firstn_length, flat_map_zbits_length in E1.
        assert (HC : (n * bits <= 8 * ceil8 (n * bits) < n * bits + 8)%nat).
        { unfold ceil8. set (k := (n * bits)%nat). clearbody k. lia. }
        nia. }
      exists ws. repeat split; auto.
      * apply bytes_firstn. exact Hb.
      * exists (length pad). split; auto. rewrite E1. f_equal. now apply Hpk.
    + intros (HLen & ws' & HL' & HF' & EC' & HB' & p & Hp & EP).
      rewrite EP in E1.
      apply app_inv_length in E1 as [Ew Epad]; [|rewrite !flat_map_zbits_length; lia].
      apply flat_map_zbits_inj in Ew; auto; [|lia]. subst ws'.
      rewrite EC'. destruct (In_dec Bool.bool_dec true pad) as [I|I]; auto.
      rewrite <- Epad in I. apply repeat_spec in I. discriminate.
Qed.

Theorem gdecode_raise data n e : bytes data -> gdecode data n = Raise e -> e = ValueError.
Proof.
  intros Hb H. destruct (gdecode_spec data n Hb) as [(L & E)|(ws & pad & _ & _ & _ & _ & E2)].
  - congruence.
  - rewrite E2 in H. destruct (chk_all ws); [|congruence].
    destruct (In_dec Bool.bool_dec true pad); congruence.
Qed.
End Decoder.

(** ** Encoder and decoder together *)
Section Both.
Variable field chk : Z -> option Z.
Variable bits : nat.
Hypothesis bits_pos : (1 <= bits)%nat.
Hypothesis field_range : forall c w, field c = Some w -> 0 <= w < 2 ^ Z.of_nat bits.
Hypothesis field_chk : forall c w, field c = Some w -> chk w = Some c.
Hypothesis chk_field : forall c w, 0 <= w < 2 ^ Z.of_nat bits -> chk w = Some c -> field c = Some w.

Lemma chk_all_fields x : forall ws, map field x = map Some ws -> chk_all chk ws = Some x.
Proof.
  induction x as [|c x IH]; intros [|w ws] H; try discriminate; auto.
  cbn [map] in H. injection H as H1 H2. cbn [chk_all]. now rewrite (field_chk _ _ H1), (IH _ H2).
Qed.

Lemma fields_chk_all ws : forall x, okfields bits ws -> chk_all chk ws = Some x ->
  map field x = map Some ws.
Proof.
  induction ws as [|w ws IH]; intros x HF H; cbn [chk_all] in H.
  - injection H as <-. reflexivity.
  - inversion HF; subst. destruct (chk w) as [c|] eqn:E; [|discriminate].
    destruct (chk_all chk ws) as [vs|] eqn:E'; [|discriminate]. injection H as <-.
    cbn [map]. rewrite (chk_field _ _ H2 E). f_equal. auto.
Qed.

Lemma fields_ok x ws : map field x = map Some ws -> okfields bits ws.
Proof.
  revert ws. induction x as [|c x IH]; intros [|w ws] H; try discriminate; constructor.
  - cbn in H. injection H as H _. eauto.
  - apply IH. cbn in H. now injection H.
Qed.

Theorem both_roundtrip x n d suffix : length x = n -> encode_gen field bits x n = Ok d ->
  bytes suffix -> gdecode chk bits (d ++ suffix) n = Ok x.
Proof.
  intros Hn HE HS.
  assert (HA : exists ws, map field x = map Some ws).
  { assert (DEC : forall c, {field c <> None} + {~ field c <> None}).
    { intros c. destruct (field c); [left; discriminate|right; congruence]. }
    destruct (Forall_Exists_dec (fun c => field c <> None) DEC x) as [H|H].
    - apply field_all. now apply Forall_forall.
    - exfalso. apply Exists_exists in H as (c & Hin & Hc).
      assert (Hnone : field c = None) by (destruct (field c); auto; exfalso; apply Hc; discriminate).
      rewrite (encode_gen_error field bits field_range) in HE; [discriminate|auto|eauto]. }
  destruct HA as [ws Hws].
  destruct (encode_gen_spec field bits field_range x n ws Hn Hws) as (d' & E & HL & HP).
  rewrite E in HE. injection HE as ->.
  destruct HP as (Hd & HP).
  apply (gdecode_ok_iff chk bits bits_pos).
  - apply bytes_app; auto.
  - rewrite app_length. split; [lia|]. exists ws. repeat split; auto.
    + apply (f_equal (@length _)) in Hws. rewrite !map_length in Hws. lia.
    + eapply fields_ok; eauto.
    + now apply chk_all_fields.
    + rewrite firstn_app_exact by auto. exact Hd.
    + rewrite firstn_app_exact by auto. exact HP.
Qed.

Theorem both_canonical data n x : bytes data -> gdecode chk bits data n = Ok x ->
  length x = n /\ encode_gen field bits x n = Ok (firstn (ceil8 (n * bits)) data).
Proof.
  intros Hb H. apply (gdecode_ok_iff chk bits bits_pos) in H; auto.
  destruct H as (HL & ws & Hn & HF & HC & HP).
  pose proof (fields_chk_all _ _ HF HC) as HM.
  assert (Hx : length x = n).
  { apply (f_equal (@length _)) in HM. rewrite !map_length in HM. lia. }
  split; auto.
  destruct (encode_gen_spec field bits field_range x n ws Hx HM) as (d' & E & _ & HP').
  rewrite E. f_equal. eapply packs_unique_data; eauto.
Qed.
End Both.

(** ** Instances: modq *)
Definition modq_field (coef : Z) : option Z :=
  if (12289 <=? coef) || (coef <? 0) then None else Some coef.
Definition modq_chk (w : Z) : option Z := if 12289 <=? w then None else Some w.

Lemma modq_field_range c w : modq_field c = Some w -> 0 <= w < 2 ^ Z.of_nat 14.
Proof.
  unfold modq_field. change (2 ^ Z.of_nat 14) with 16384.
  destruct ((12289 <=? c) || (c <? 0)) eqn:E; [discriminate|]. intros [= <-]. lia.
Qed.
Lemma modq_field_chk c w : modq_field c = Some w -> modq_chk w = Some c.
Proof.
  unfold modq_field, modq_chk. destruct ((12289 <=? c) || (c <? 0)) eqn:E; [discriminate|].
  intros [= <-]. destruct (Z.leb_spec 12289 c); [lia|reflexivity].
Qed.
Lemma modq_chk_field c w : 0 <= w < 2 ^ Z.of_nat 14 -> modq_chk w = Some c -> modq_field c = Some w.
Proof.
  unfold modq_field, modq_chk. intros Hw. destruct (Z.leb_spec 12289 w); [discriminate|].
  intros [= <-]. destruct ((12289 <=? w) || (w <? 0)) eqn:E; [lia|reflexivity].
Qed.

Lemma modq_field_none c : modq_field c = None <-> ~ in_zq c.
Proof.
  unfold modq_field, in_zq. destruct ((12289 <=? c) || (c <? 0)) eqn:E; split; intros; try discriminate; auto; lia.
Qed.

Lemma modq_loop_eq data : forall todo acc acc_len x, (acc_len < 14)%nat ->
  modq_decode_loop todo data acc acc_len x = gloop modq_chk 14 todo data acc acc_len x.
Proof.
  induction data as [|b data IH]; intros [|todo] acc acc_len x HL; auto.
  cbn [modq_decode_loop gloop]. cbv zeta. cbn [ginner].
  destruct (Nat.leb_spec 14 (acc_len + 8)) as [L|L].
  - change (2 ^ Z.of_nat 14 - 1) with 16383. unfold modq_chk at 1.
    destruct (Z.leb_spec 12289 (Z.land (Z.shiftr (Z.lor (Z.shiftl acc 8) b) (Z.of_nat (acc_len + 8 - 14))) 16383)); auto.
    destruct todo as [|todo]; cbn [ginner bind].
    + rewrite IH by lia. reflexivity.
    + destruct (Nat.leb_spec 14 (acc_len + 8 - 14)); [lia|]. cbn [bind]. apply IH. lia.
  - cbn [bind]. apply IH. lia.
Qed.

Lemma modq_decode_eq data n : modq_decode data n = gdecode modq_chk 14 data n.
Proof. unfold modq_decode, gdecode, ceil8. rewrite modq_loop_eq by lia. reflexivity. Qed.

Theorem modq_encode_ok x n : length x = n -> Forall in_zq x ->
  exists d, modq_encode x n = Ok d /\ length d = ceil8 (n * 14) /\ packs 14 x d.
Proof.
  intros Hn HF. apply (encode_gen_spec modq_field 14 modq_field_range); auto.
  clear Hn. induction HF as [|c x Hc HF IH]; auto. cbn [map]. f_equal; auto.
  unfold modq_field. unfold in_zq in Hc. destruct ((12289 <=? c) || (c <? 0)) eqn:E; [lia|reflexivity].
Qed.

Lemma in_zq_dec c : {in_zq c} + {~ in_zq c}.
Proof.
  unfold in_zq. destruct (Z_le_dec 0 c); destruct (Z_lt_dec c 12289);
    ((left; lia) || (right; lia)).
Defined.

Theorem modq_encode_raise_iff x n e : length x = n ->
  modq_encode x n = Raise e <-> e = ValueError /\ Exists (fun c => ~ in_zq c) x.
Proof.
  intros Hn. split.
  - intros H. destruct (Forall_Exists_dec in_zq in_zq_dec x) as [F|F].
    + destruct (modq_encode_ok x n Hn F) as (d & E & _). congruence.
    + split; auto. apply Exists_exists in F as (c & Hin & Hc).
      unfold modq_encode in H.
      rewrite (encode_gen_error _ 14 modq_field_range) in H; auto; [congruence|].
      exists c. split; auto. now apply modq_field_none.
  - intros (-> & F). apply Exists_exists in F as (c & Hin & Hc).
    apply (encode_gen_error _ 14 modq_field_range); auto. exists c. split; auto. now apply modq_field_none.
Qed.

Theorem modq_roundtrip x n d suffix : length x = n -> modq_encode x n = Ok d -> bytes suffix ->
  modq_decode (d ++ suffix) n = Ok x.
Proof.
  intros. rewrite modq_decode_eq.
  eapply (both_roundtrip modq_field modq_chk 14); eauto using modq_field_range, modq_field_chk; lia.
Qed.

Theorem modq_canonical data n x : bytes data -> modq_decode data n = Ok x ->
  length x = n /\ Forall in_zq x /\ modq_encode x n = Ok (firstn (ceil8 (n * 14)) data).
Proof.
  intros Hb H. rewrite modq_decode_eq in H.
  apply (both_canonical modq_field modq_chk 14) in H;
    eauto using modq_field_range, modq_chk_field; [|lia].
  destruct H as [Hn HE]. split; auto. split; auto.
  destruct (Forall_Exists_dec in_zq in_zq_dec x) as [F|F]; auto.
  assert (Hr : modq_encode x n = Raise ValueError) by (apply modq_encode_raise_iff; auto).
  unfold modq_encode in Hr. unfold modq_field in HE. congruence.
Qed.

Theorem modq_decode_accepts_iff data n x : bytes data ->
  modq_decode data n = Ok x <->
  (ceil8 (n * 14) <= length data)%nat /\ length x = n /\ Forall in_zq x /\
  packs 14 x (firstn (ceil8 (n * 14)) data).
Proof.
  intros Hb. split.
  - intros H. pose proof (modq_canonical _ _ _ Hb H) as (Hn & HF & HE).
    rewrite modq_decode_eq in H. apply gdecode_ok_iff in H; auto; [|lia].
    destruct H as (HL & _). repeat split; auto.
    + apply bytes_firstn; auto.
    + destruct (modq_encode_ok x n Hn HF) as (d & E & _ & (_ & P)).
      rewrite HE in E. apply Ok_inj in E. rewrite E. exact P.
  - intros (HL & Hn & HF & HP).
    destruct (modq_encode_ok x n Hn HF) as (d & E & _ & P).
    rewrite <- (firstn_skipn (ceil8 (n * 14)) data).
    eapply modq_roundtrip; eauto using bytes_skipn.
    rewrite E. f_equal. eapply packs_unique_data; eauto.
Qed.

Theorem modq_decode_raise data n e : bytes data -> modq_decode data n = Raise e -> e = ValueError.
Proof. rewrite modq_decode_eq. apply gdecode_raise. lia. Qed.

(** ** Instances: trim_i8 *)
Section Trim.
Variable bits : nat.
Hypothesis bits_pos : (1 <= bits)%nat.
Let half := 2 ^ (Z.of_nat bits - 1).

Definition trim_field (coef : Z) : option Z :=
  let mask := Z.shiftl 1 (Z.of_nat bits) - 1 in
  let maxv := Z.shiftl 1 (Z.of_nat bits - 1) - 1 in
  let minv := - maxv in
  if (coef <? minv) || (maxv <? coef) then None else Some (Z.land coef mask).
Definition trim_chk (w : Z) : option Z :=
  let mask2 := Z.shiftl 1 (Z.of_nat bits - 1) in
  let w := Z.lor w (- Z.land w mask2) in
  if w =? - mask2 then None else Some w.

Lemma pow_bits : 2 ^ Z.of_nat bits = 2 * half.
Proof.
  unfold half. rewrite <- Z.pow_succ_r by lia. f_equal. lia.
Qed.
Lemma half_pos : 0 < half.
Proof. unfold half. apply Z.pow_pos_nonneg; lia. Qed.

Lemma sign_extend w : 0 <= w < 2 * half ->
  Z.lor w (- Z.land w half) = if w <? half then w else w - 2 * half.
Proof.
  intros Hw. pose proof half_pos as HP. unfold half in *. set (k := Z.of_nat bits - 1) in *.
  assert (Hk : 0 <= k) by lia. clearbody k.
  assert (HB : Z.testbit w k = (2 ^ k <=? w)).
  { destruct (Z.leb_spec (2^k) w).
    - apply Z.testbit_true; [lia|]. replace (w / 2^k) with 1; [reflexivity|].
      apply Z.div_unique with (w - 2^k); lia.
    - apply Z.testbit_false; [lia|]. rewrite Z.div_small by lia. reflexivity. }
  assert (HL : Z.land w (2^k) = if 2^k <=? w then 2^k else 0).
  { rewrite <- HB. apply Z.bits_inj'. intros i Hi. rewrite Z.land_spec, Z.pow2_bits_eqb by lia.
    destruct (Z.eqb_spec k i).
    - subst i. destruct (Z.testbit w k); [|now rewrite Z.bits_0].
      now rewrite Z.pow2_bits_true by lia.
    - rewrite andb_false_r. destruct (Z.testbit w k); [|now rewrite Z.bits_0].
      symmetry. apply Z.pow2_bits_false. lia. }
  rewrite HL. destruct (Z.leb_spec (2^k) w) as [L|L]; destruct (Z.ltb_spec w (2^k)); try lia.
  - set (r := w - 2^k). assert (Hr : 0 <= r < 2^k) by (unfold r; lia).
    replace (w - 2 * 2^k) with (Z.shiftl (-1) k + r) by (rewrite Z.shiftl_mul_pow2 by lia; unfold r; lia).
    assert (E : Z.shiftl (-1) k + r = Z.lor (Z.shiftl (-1) k) r).
    { rewrite lor_shiftl_add by lia. rewrite Z.shiftl_mul_pow2 by lia. reflexivity. }
    rewrite E.
    replace (- 2^k) with (Z.shiftl (-1) k) by (rewrite Z.shiftl_mul_pow2 by lia; lia).
    apply Z.bits_inj'. intros i Hi. rewrite !Z.lor_spec.
    destruct (Z.ltb_spec i k).
    + rewrite Z.shiftl_spec_low by lia. rewrite orb_false_r. cbn [orb].
      rewrite <- (Z.mod_pow2_bits_low w k i), <- (Z.mod_pow2_bits_low r k i) by lia.
      f_equal. unfold r. replace (w - 2^k) with (w + (-1) * 2^k) by lia.
      rewrite Z.mod_add by lia. reflexivity.
    + rewrite Z.shiftl_spec by lia. rewrite Z.bits_m1 by lia. now rewrite orb_true_r.
  - apply Z.lor_0_r.
Qed.

Lemma trim_chk_val w : 0 <= w < 2 * half ->
  trim_chk w = if w =? half then None else Some (if w <? half then w else w - 2 * half).
Proof.
  intros Hw. unfold trim_chk. rewrite Z.shiftl_1_l. fold half. rewrite sign_extend by auto.
  pose proof half_pos.
  destruct (Z.ltb_spec w half); destruct (Z.eqb_spec w half); try lia;
    match goal with |- (if ?a =? ?b then _ else _) = _ => destruct (Z.eqb_spec a b) end; auto; lia.
Qed.

Lemma trim_field_val c : trim_field c =
  if (- (half - 1) <=? c) && (c <=? half - 1) then Some (c mod (2 * half)) else None.
Proof.
  unfold trim_field. rewrite !Z.shiftl_1_l. fold half. rewrite land_ones_mod by lia. rewrite pow_bits.
  destruct ((c <? - (half - 1)) || (half - 1 <? c)) eqn:E1;
    destruct ((- (half - 1) <=? c) && (c <=? half - 1)) eqn:E2; auto; lia.
Qed.

Lemma mod_signed c : - (half - 1) <= c <= half - 1 ->
  c mod (2 * half) = if c <? 0 then c + 2 * half else c.
Proof.
  intros H. destruct (Z.ltb_spec c 0).
  - symmetry. apply Z.mod_unique with (-1); lia.
  - apply Z.mod_small. lia.
Qed.

Lemma trim_field_range c w : trim_field c = Some w -> 0 <= w < 2 ^ Z.of_nat bits.
Proof.
  rewrite trim_field_val, pow_bits. pose proof half_pos.
  destruct ((- (half - 1) <=? c) && (c <=? half - 1)); [|discriminate]. intros [= <-].
  apply Z.mod_pos_bound. lia.
Qed.
Lemma trim_field_chk c w : trim_field c = Some w -> trim_chk w = Some c.
Proof.
  intros H. pose proof (trim_field_range _ _ H) as R. rewrite pow_bits in R.
  rewrite trim_chk_val by auto. rewrite trim_field_val in H. pose proof half_pos.
  destruct ((- (half - 1) <=? c) && (c <=? half - 1)) eqn:E; [|discriminate].
  injection H as <-. rewrite mod_signed in * by lia.
  destruct (Z.ltb_spec c 0).
  - destruct (Z.eqb_spec (c + 2 * half) half); [lia|]. destruct (Z.ltb_spec (c + 2 * half) half); [lia|].
    f_equal. lia.
  - destruct (Z.eqb_spec c half); [lia|]. destruct (Z.ltb_spec c half); [|lia]. reflexivity.
Qed.
Lemma trim_chk_field c w : 0 <= w < 2 ^ Z.of_nat bits -> trim_chk w = Some c -> trim_field c = Some w.
Proof.
  rewrite pow_bits. intros Hw. rewrite trim_chk_val by auto. rewrite trim_field_val. pose proof half_pos.
  destruct (Z.eqb_spec w half); [discriminate|]. intros Hc. apply Some_inj in Hc. subst c.
  destruct (Z.ltb_spec w half).
  - destruct ((- (half - 1) <=? w) && (w <=? half - 1)) eqn:E; [|lia]. f_equal. apply Z.mod_small. lia.
  - destruct ((- (half - 1) <=? w - 2 * half) && (w - 2 * half <=? half - 1)) eqn:E; [|lia].
    f_equal. symmetry. apply Z.mod_unique with (-1); lia.
Qed.

Lemma trim_inner_eq todo : forall acc acc_len x,
  trim_inner bits todo acc acc_len x = ginner trim_chk bits todo acc acc_len x.
Proof.
  induction todo as [|todo IH]; intros; auto. cbn [trim_inner ginner].
  destruct (Nat.leb_spec bits acc_len); auto. unfold trim_chk at 1. rewrite !Z.shiftl_1_l.
  match goal with |- (if ?b then _ else _) = _ => destruct b end; auto.
Qed.

Lemma trim_loop_eq data : forall todo acc acc_len x,
  trim_decode_loop bits todo data acc acc_len x = gloop trim_chk bits todo data acc acc_len x.
Proof.
  induction data as [|b data IH]; intros [|todo] acc acc_len x; auto.
  cbn [trim_decode_loop gloop]. rewrite trim_inner_eq.
  destruct (ginner trim_chk bits (S todo) (Z.lor (Z.shiftl acc 8) b) (acc_len + 8) x) as [[[t l] y]|e]; cbn [bind]; auto.
Qed.

Lemma trim_decode_eq data n : trim_i8_decode data n bits = gdecode trim_chk bits data n.
Proof. unfold trim_i8_decode, gdecode. rewrite trim_loop_eq. reflexivity. Qed.

Lemma trim_field_none c : trim_field c = None <-> ~ in_trim bits c.
Proof.
  rewrite trim_field_val. unfold in_trim. fold half.
  destruct ((- (half - 1) <=? c) && (c <=? half - 1)) eqn:E; split; intros; try discriminate; auto; lia.
Qed.

Lemma in_trim_dec c : {in_trim bits c} + {~ in_trim bits c}.
Proof.
  unfold in_trim. destruct (Z_le_dec (- (2 ^ (Z.of_nat bits - 1) - 1)) c);
    destruct (Z_le_dec c (2 ^ (Z.of_nat bits - 1) - 1)); ((left; lia) || (right; lia)).
Defined.

(** two's complement field of a coefficient *)
Theorem trim_encode_ok x n : length x = n -> Forall (in_trim bits) x ->
  exists d, trim_i8_encode x n bits = Ok d /\ length d = ceil8 (n * bits) /\
    packs bits (map (fun c => c mod 2 ^ Z.of_nat bits) x) d.
Proof.
  intros Hn HF. apply (encode_gen_spec trim_field bits trim_field_range); auto.
  clear Hn. induction HF as [|c x Hc HF IH]; auto. cbn [map]. f_equal; auto.
  rewrite trim_field_val, pow_bits. unfold in_trim in Hc. fold half in Hc.
  destruct ((- (half - 1) <=? c) && (c <=? half - 1)) eqn:E; [reflexivity|lia].
Qed.

Theorem trim_encode_raise_iff x n e : length x = n ->
  trim_i8_encode x n bits = Raise e <-> e = ValueError /\ Exists (fun c => ~ in_trim bits c) x.
Proof.
  intros Hn. split.
  - intros H. destruct (Forall_Exists_dec (in_trim bits) in_trim_dec x) as [F|F].
    + destruct (trim_encode_ok x n Hn F) as (d & E & _). congruence.
    + split; auto. apply Exists_exists in F as (c & Hin & Hc).
      assert (trim_i8_encode x n bits = Raise ValueError) by
        (apply (encode_gen_error _ bits trim_field_range); auto; exists c; split; auto; now apply trim_field_none).
      congruence.
  - intros (-> & F). apply Exists_exists in F as (c & Hin & Hc).
    apply (encode_gen_error _ bits trim_field_range); auto. exists c. split; auto. now apply trim_field_none.
Qed.

Theorem trim_roundtrip x n d suffix : length x = n -> trim_i8_encode x n bits = Ok d -> bytes suffix ->
  trim_i8_decode (d ++ suffix) n bits = Ok x.
Proof.
  intros. rewrite trim_decode_eq.
  eapply (both_roundtrip trim_field trim_chk bits); eauto using trim_field_range, trim_field_chk.
Qed.

Theorem trim_canonical data n x : bytes data -> trim_i8_decode data n bits = Ok x ->
  length x = n /\ Forall (in_trim bits) x /\
  trim_i8_encode x n bits = Ok (firstn (ceil8 (n * bits)) data).
Proof.
  intros Hb H. rewrite trim_decode_eq in H.
  apply (both_canonical trim_field trim_chk bits) in H;
    eauto using trim_field_range, trim_chk_field.
  destruct H as [Hn HE]. split; auto. split; auto.
  destruct (Forall_Exists_dec (in_trim bits) in_trim_dec x) as [F|F]; auto.
  assert (Hr : trim_i8_encode x n bits = Raise ValueError) by (apply trim_encode_raise_iff; auto).
  unfold trim_i8_encode in Hr. unfold trim_field in HE. congruence.
Qed.

Theorem trim_decode_raise data n e : bytes data -> trim_i8_decode data n bits = Raise e -> e = ValueError.
Proof. rewrite trim_decode_eq. apply gdecode_raise. auto. Qed.
End Trim.
