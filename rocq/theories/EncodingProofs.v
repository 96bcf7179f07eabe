(** Proofs about EncodingModel against EncodingSpec. *)
From Verif Require Import Base EncodingSpec EncodingModel.

(** ** Grouping bits into bytes *)
Definition group (m : nat) (u : list bool) : list Z :=
  map (fun i => of_bits (slice (8 * i) (8 * i + 8) u)) (seq 0 m).


Lemma skipn_skipn {A} a b (l : list A) : skipn a (skipn b l) = skipn (a + b) l.
Proof.
  revert l. induction b as [|b IH]; intros l.
  - now rewrite Nat.add_0_r.
  - rewrite Nat.add_succ_r. destruct l; cbn [skipn]; auto. now rewrite skipn_nil.
Qed.

Lemma slice_shift {A} a b c (l : list A) :
  slice (a + c) (b + c) l = slice a b (skipn c l).
Proof. unfold slice. rewrite skipn_skipn. f_equal. lia. Qed.

Lemma group_S m u : group (S m) u = of_bits (firstn 8 u) :: group m (skipn 8 u).
Proof.
  unfold group. cbn [seq map]. f_equal.
  rewrite <- seq_shift, map_map. apply map_ext. intros i.
  replace (8 * S i)%nat with (8 * i + 8)%nat by lia.
  replace (8 * i + 8 + 8)%nat with ((8 * i + 8) + 8)%nat by lia.
  now rewrite (slice_shift (8*i) (8*i+8) 8).
Qed.

Lemma group_spec m : forall u, length u = (8 * m)%nat ->
  bytes_bits (group m u) = u /\ bytes (group m u) /\ length (group m u) = m.
Proof.
  induction m as [|m IH]; intros u Hu.
  - destruct u; [|cbn in Hu; lia]. repeat split; constructor.
  - rewrite group_S. destruct (IH (skipn 8 u)) as (E1 & E2 & E3).
    { rewrite skipn_length. lia. }
    assert (L8 : length (firstn 8 u) = 8%nat) by (rewrite firstn_length; lia).
    repeat split.
    + cbn [bytes_bits flat_map]. fold (bytes_bits (group m (skipn 8 u))). rewrite E1.
      rewrite zbits_of_bits_eq by congruence. apply firstn_skipn.
    + constructor; auto. pose proof (of_bits_bound (firstn 8 u)) as B. rewrite L8 in B.
      exact B.
    + cbn [length]; congruence.
Qed.

(** ** One coefficient *)
Lemma shiftr7 a : Z.shiftr a 7 = a / 128.
Proof. now rewrite Z.shiftr_div_pow2 by lia. Qed.

Lemma compress_coef_encodes c : encodes c (compress_coef c).
Proof.
  exists (c <? 0), (zbits 7 (Z.abs c mod 2^7)), (Z.to_nat (Z.shiftr (Z.abs c) 7)).
  repeat split.
  - rewrite of_bits_zbits. change (2 ^ Z.of_nat 7) with 128. change (2^7) with 128.
    rewrite shiftr7. rewrite Z2Nat.id by lia.
    destruct (Z.ltb_spec c 0); lia.
  - intros [H1 H2]. subst. discriminate.
Qed.

Lemma encodes_unique c w : encodes c w -> w = compress_coef c.
Proof.
  intros (sign & low & high & HL & Hw & Hc & Hz).
  pose proof (of_bits_bound low) as B. rewrite HL in B. change (2 ^ Z.of_nat 7) with 128 in B.
  subst w. unfold compress_coef.
  assert (Hsign : sign = (c <? 0)).
  { destruct sign; destruct (Z.ltb_spec c 0); auto.
    - exfalso. apply Hz. split; auto. lia.
    - lia. }
  assert (Habs : Z.abs c = of_bits low + 128 * Z.of_nat high) by (destruct sign; lia).
  rewrite <- Hsign, Habs. f_equal. change (2 ^ 7) with 128.
  replace ((of_bits low + 128 * Z.of_nat high) mod 128) with (of_bits low) by lia.
  rewrite shiftr7.
  replace ((of_bits low + 128 * Z.of_nat high) / 128) with (Z.of_nat high) by lia.
  rewrite Nat2Z.id. f_equal. symmetry. now apply zbits_of_bits_eq.
Qed.

Lemma compress_bits_encodes v : encodes_all v (compress_bits v).
Proof.
  induction v as [|c v IH]; cbn [compress_bits flat_map]; constructor; auto.
  apply compress_coef_encodes.
Qed.

Lemma encodes_all_unique v w : encodes_all v w -> w = compress_bits v.
Proof.
  induction 1 as [|c v w1 w2 H1 _ IH]; auto.
  cbn [compress_bits flat_map]. now rewrite (encodes_unique _ _ H1), IH.
Qed.

Lemma compress_coef_length c : Z.of_nat (length (compress_coef c)) = coef_cost c.
Proof.
  unfold compress_coef, coef_cost. cbn [length].
  rewrite !app_length, zbits_length, repeat_length. cbn [length].
  rewrite shiftr7. lia.
Qed.

Lemma compress_bits_length v : Z.of_nat (length (compress_bits v)) = total_cost v.
Proof.
  induction v as [|c v IH]; auto.
  cbn [compress_bits flat_map total_cost fold_right].
  rewrite app_length, Nat2Z.inj_add, compress_coef_length.
  fold (compress_bits v). rewrite IH. reflexivity.
Qed.

(** ** compress *)
Lemma compress_some v slen x : compress v slen = Some x ->
  (length (compress_bits v) <= 8 * slen)%nat /\
  x = group slen (compress_bits v ++ repeat false (8 * slen - length (compress_bits v))).
Proof.
  unfold compress. destruct (Nat.ltb_spec (8 * slen) (length (compress_bits v))); [discriminate|].
  intros E. apply Some_inj in E. subst x. split; auto. unfold group. f_equal. f_equal.
  rewrite app_length, repeat_length. lia.
Qed.

Lemma compress_some_bits v slen x : compress v slen = Some x ->
  bytes x /\ length x = slen /\
  bytes_bits x = compress_bits v ++ repeat false (8 * slen - length (compress_bits v)).
Proof.
  intros H. apply compress_some in H. destruct H as [HL ->].
  destruct (group_spec slen (compress_bits v ++ repeat false (8 * slen - length (compress_bits v)))) as (A & B & C).
  { rewrite app_length, repeat_length. lia. }
  auto.
Qed.

Lemma compress_none v slen : compress v slen = None <-> 8 * Z.of_nat slen < total_cost v.
Proof.
  rewrite <- compress_bits_length. unfold compress.
  destruct (Nat.ltb_spec (8 * slen) (length (compress_bits v))); split; intros; try lia; try discriminate; auto.
Qed.

(** ** strip *)
Lemma strip_rev_spec r :
  (exists k, r = repeat false k /\ strip_rev r = Raise IndexError) \/
  (exists k r', r = repeat false k ++ true :: r' /\ strip_rev r = Ok (true :: r')).
Proof.
  induction r as [|[|] r IH]; cbn [strip_rev].
  - left. exists 0%nat. auto.
  - right. exists 0%nat, r. auto.
  - destruct IH as [(k & -> & E)|(k & r' & -> & E)].
    + left. exists (S k). auto.
    + right. exists (S k), r'. auto.
Qed.

Lemma rev_repeat {A} (a : A) k : rev (repeat a k) = repeat a k.
Proof.
  induction k as [|k IH]; auto. cbn [repeat rev]. rewrite IH. symmetry. apply repeat_cons.
Qed.

Lemma strip_spec u :
  (exists k, u = repeat false k /\ strip u = Raise IndexError) \/
  (exists k u', u = (u' ++ [true]) ++ repeat false k /\ strip u = Ok (u' ++ [true])).
Proof.
  unfold strip. destruct (strip_rev_spec (rev u)) as [(k & E & S)|(k & r' & E & S)]; rewrite S.
  - left. exists k. split; auto. rewrite <- (rev_involutive u), E. apply rev_repeat.
  - right. exists k, (rev r'). split; auto.
    rewrite <- (rev_involutive u), E. rewrite rev_app_distr, rev_repeat. reflexivity.
Qed.

Lemma prefix_cases {A} (a b c d : list A) : a ++ b = c ++ d ->
  (exists e, c = a ++ e /\ b = e ++ d) \/ (exists e, a = c ++ e /\ d = e ++ b).
Proof.
  revert c. induction a as [|x a IH]; intros c E.
  - left. exists c. auto.
  - destruct c as [|y c].
    + right. exists (x :: a). auto.
    + cbn in E. inversion E; subst. destruct (IH c H1) as [(e & -> & ->)|(e & -> & ->)].
      * left. exists e. auto.
      * right. exists e. auto.
Qed.

Lemma repeat_app_inv {A} (x : A) k a b : repeat x k = a ++ b ->
  a = repeat x (length a) /\ b = repeat x (length b).
Proof.
  revert a. induction k as [|k IH]; intros [|y a] E; cbn in *; try discriminate; auto.
  - subst. auto.
  - subst b. split; auto. cbn. rewrite repeat_length. reflexivity.
  - inversion E; subst. destruct (IH a H1) as [E1 E2]. split; auto. f_equal. exact E1.
Qed.

Lemma strip_prefix u w rest : u = (w ++ [true]) ++ rest ->
  exists rest', strip u = Ok ((w ++ [true]) ++ rest').
Proof.
  intros E. destruct (strip_spec u) as [(k & Ek & _)|(k & u' & Eu & ->)].
  - exfalso. rewrite E in Ek. symmetry in Ek. rewrite <- app_assoc in Ek.
    apply repeat_app_inv in Ek as [_ Ek]. cbn in Ek. discriminate.
  - rewrite Eu in E. apply prefix_cases in E as [(e & E & E')|(e & E & E')].
    + destruct e as [|x e] using rev_ind.
      * rewrite app_nil_r in E. exists []. rewrite app_nil_r. congruence.
      * exfalso. clear IHe. rewrite app_assoc in E. apply app_inj_tail in E as [_ E]. subst x.
        rewrite <- app_assoc in E'. apply repeat_app_inv in E' as [_ E']. discriminate.
    + exists e. now rewrite E.
Qed.
Arguments strip_prefix : clear implicits.

(** ** the parsing loop *)
Lemma unary_spec u : forall h,
  (exists k u', u = repeat false k ++ true :: u' /\ unary u h = Some (h + Z.of_nat k, u')) \/
  (exists k, u = repeat false k /\ unary u h = None).
Proof.
  induction u as [|[|] u IH]; intros h; cbn [unary].
  - right. exists 0%nat. auto.
  - left. exists 0%nat, u. rewrite Z.add_0_r. auto.
  - destruct (IH (h+1)) as [(k & u' & -> & E)|(k & -> & E)].
    + left. exists (S k), u'. split; auto. rewrite E. f_equal. f_equal. lia.
    + right. exists (S k). auto.
Qed.

Lemma shiftl7 a : Z.shiftl a 7 = 128 * a.
Proof. rewrite Z.shiftl_mul_pow2 by lia. lia. Qed.

Lemma unary_app k u h : unary (repeat false k ++ true :: u) h = Some (h + Z.of_nat k, u).
Proof.
  revert h. induction k as [|k IH]; intros h; cbn [repeat app unary].
  - f_equal. f_equal. lia.
  - rewrite IH. f_equal. f_equal. lia.
Qed.

Lemma loop_step c w rest todo v : encodes c w ->
  decompress_loop (S todo) (w ++ rest) v = decompress_loop todo rest (v ++ [c]).
Proof.
  intros (sign & low & high & HL & -> & Hc & Hz).
  cbn [decompress_loop app].
  replace (slice 1 8 (sign :: (low ++ repeat false high ++ [true]) ++ rest)) with low.
  2:{ unfold slice. cbn [skipn Nat.sub]. rewrite <- app_assoc. now rewrite firstn_app_exact. }
  destruct low as [|l0 low'] eqn:Elow; [discriminate|]. rewrite <- Elow in *.
  change (skipn 8 (sign :: (low ++ repeat false high ++ [true]) ++ rest))
    with (skipn 7 ((low ++ repeat false high ++ [true]) ++ rest)).
  rewrite <- app_assoc, skipn_app_exact by auto.
  rewrite <- app_assoc. cbn [app]. rewrite unary_app.
  rewrite shiftl7, Z.add_0_l.
  replace ((if sign then -1 else 1) * (of_bits low + 128 * Z.of_nat high)) with c by auto.
  destruct (Z.eqb_spec c 0); destruct (Z.eqb_spec (if sign then -1 else 1) (-1)); cbn [andb]; auto.
  exfalso. apply Hz. split; auto. destruct sign; auto; lia.
Qed.

Lemma loop_complete v' w rest v : encodes_all v' w ->
  decompress_loop (length v') (w ++ rest) v = Ok (Some (v ++ v')).
Proof.
  intros H. revert v. induction H as [|c v' w1 w2 H1 H2 IH]; intros v.
  - cbn. now rewrite app_nil_r.
  - cbn [length]. rewrite <- app_assoc, (loop_step c w1) by auto. rewrite IH.
    now rewrite <- app_assoc.
Qed.

Lemma firstn_skipn_slice7 (u : list bool) : firstn 7 u = slice 0 7 u.
Proof. reflexivity. Qed.

Lemma match_ne {A B} (l : list A) (x y : B) : l <> [] -> match l with [] => x | _ => y end = y.
Proof. destruct l; congruence. Qed.

Lemma decompress_loop_S todo b u0 v :
  decompress_loop (S todo) (b :: u0) v =
  match firstn 7 u0 with
  | [] => Raise ValueError
  | _ =>
    match unary (skipn 7 u0) 0 with
    | None => Ok None
    | Some (high, u') =>
      let coef := (if b then -1 else 1) * (of_bits (firstn 7 u0) + Z.shiftl high 7) in
      if (coef =? 0) && ((if b then -1 else 1) =? -1) then Ok None
      else decompress_loop todo u' (v ++ [coef])
    end
  end.
Proof. reflexivity. Qed.

(** What one iteration can do. *)
Lemma loop_cases todo u v :
  match u with
  | [] => decompress_loop (S todo) u v = Ok None
  | [b] => decompress_loop (S todo) u v = Raise ValueError
  | _ => decompress_loop (S todo) u v = Ok None \/
         exists c w rest, u = w ++ rest /\ encodes c w /\
           decompress_loop (S todo) u v = decompress_loop todo rest (v ++ [c])
  end.
Proof.
  destruct u as [|b [|b1 u]]; auto.
  remember (b1 :: u) as u0 eqn:Eu0.
  destruct (le_lt_dec 7 (length u0)) as [L|L].
  - (* at least 8 bits *)
    pose proof (firstn_skipn 7 u0) as E.
    set (low := firstn 7 u0) in *. set (tl := skipn 7 u0) in *.
    assert (HL : length low = 7%nat) by (subst low; rewrite firstn_length; lia).
    destruct (unary_spec tl 0) as [(k & u' & Etl & Eun)|(k & Etl & Eun)].
    + set (c := (if b then -1 else 1) * (of_bits low + 128 * Z.of_nat k)).
      destruct (Bool.bool_dec ((c =? 0) && b) true) as [Z0|Z0].
      * left. rewrite decompress_loop_S. fold low. fold tl.
        rewrite match_ne by (intros E0; rewrite E0 in HL; discriminate).
        rewrite Eun, shiftl7, Z.add_0_l. cbv zeta. fold c.
        apply andb_prop in Z0 as [Z0 Zb]. rewrite Z0, Zb. reflexivity.
      * right. exists c, (b :: low ++ repeat false k ++ [true]), u'.
        assert (HE : b :: u0 = (b :: low ++ repeat false k ++ [true]) ++ u').
        { cbn [app]. f_equal. rewrite <- E. rewrite <- app_assoc. f_equal.
          rewrite <- app_assoc. exact Etl. }
        assert (HC : encodes c (b :: low ++ repeat false k ++ [true])).
        { exists b, low, k. repeat split; auto. intros [-> H0]. apply Z0.
          rewrite H0. reflexivity. }
        repeat split; auto. rewrite HE. now apply loop_step.
    + left. rewrite decompress_loop_S. fold low. fold tl.
      rewrite match_ne by (intros E0; rewrite E0 in HL; discriminate).
      rewrite Eun. reflexivity.
  - left. rewrite decompress_loop_S.
    rewrite firstn_all2 by lia. rewrite skipn_all2 by lia.
    rewrite Eu0. reflexivity.
Qed.

Lemma loop_sound n : forall u v r, decompress_loop n u v = Ok (Some r) ->
  exists v' w rest, r = v ++ v' /\ length v' = n /\ encodes_all v' w /\ u = w ++ rest.
Proof.
  induction n as [|n IH]; intros u v r H.
  - cbn in H. inversion H; subst. exists [], [], u. rewrite app_nil_r. repeat split; constructor.
  - pose proof (loop_cases n u v) as C.
    destruct u as [|b [|b1 u]]; try congruence.
    destruct C as [C|(c & w & rest & Eu & Hc & C)]; [congruence|].
    rewrite C in H. apply IH in H as (v' & w' & rest' & -> & HL & HE & ->).
    exists (c :: v'), (w ++ w'), rest'. rewrite <- app_assoc. repeat split; auto.
    + cbn; lia.
    + constructor; auto.
    + now rewrite <- app_assoc.
Qed.

Lemma loop_raise n : forall u v e, decompress_loop n u v = Raise e <->
  e = ValueError /\ exists v' w b, (length v' < n)%nat /\ encodes_all v' w /\ u = w ++ [b].
Proof.
  induction n as [|n IH]; intros u v e.
  - cbn. split; [discriminate|]. intros (_ & v' & w & b & HL & _). lia.
  - split.
    + intros H. pose proof (loop_cases n u v) as C.
      destruct u as [|b [|b1 u]]; try congruence.
      * rewrite C in H. inversion H. split; auto. exists [], [], b. cbn.
        repeat split; [lia|constructor].
      * destruct C as [C|(c & w & rest & Eu & Hc & C)]; [congruence|].
        rewrite C in H. apply IH in H as (-> & v' & w' & b' & HL & HE & ->).
        split; auto. exists (c :: v'), (w ++ w'), b'. rewrite <- app_assoc.
        repeat split; auto; [cbn; lia|]. constructor; auto.
    + intros (-> & v' & w & b & HL & HE & ->).
      inversion HE; subst.
      * pose proof (loop_cases n [b] v). exact H.
      * rewrite <- app_assoc, (loop_step _ _ _ _ _ H). apply IH. split; auto.
        exists v0, w2, b. cbn in HL. repeat split; auto. lia.
Qed.

Lemma encodes_all_last c v w : encodes_all (c :: v) w -> exists w', w = w' ++ [true].
Proof.
  intros H. remember (c :: v) as l eqn:E. revert c v E.
  induction H as [|c v w1 w2 H1 H2 IH]; intros c0 v0 E; [discriminate|].
  inversion E; subst. inversion H2; subst.
  - destruct H1 as (s & low & high & _ & -> & _).
    rewrite app_nil_r. exists (s :: low ++ repeat false high). cbn. now rewrite <- app_assoc.
  - destruct (IH _ _ eq_refl) as [w' Ew']. rewrite Ew'.
    exists (w1 ++ w'). now rewrite app_assoc.
Qed.

(** ** decompress: the three outcomes *)
Theorem decompress_accepts x slen n v : (1 <= n)%nat ->
  decompress x slen n = Ok (Some v) <->
  ((length x <= slen)%nat /\ length v = n /\
   exists w rest, encodes_all v w /\ bytes_bits x = w ++ rest).
Proof.
  intros Hn. unfold decompress. fold (bytes_bits x).
  destruct (Nat.ltb_spec slen (length x)) as [L|L].
  - split; [discriminate|]. intros (? & _). lia.
  - split.
    + intros H. split; auto.
      destruct (strip_spec (bytes_bits x)) as [(k & Ek & S)|(k & u' & Eu & S)];
        rewrite S in H; cbn [bind] in H; [discriminate|].
      apply loop_sound in H as (v' & w & rest & -> & HL & HE & E).
      split; auto. exists w, (rest ++ repeat false k). split; auto.
      rewrite Eu, E. now rewrite app_assoc.
    + intros (_ & HL & w & rest & HE & E).
      destruct v as [|c v]; [cbn in HL; lia|].
      destruct (encodes_all_last _ _ _ HE) as [w' Ew].
      destruct (strip_prefix (bytes_bits x) w' rest) as [rest' S].
      { now rewrite <- Ew. }
      rewrite S. cbn [bind]. rewrite <- Ew, <- HL.
      rewrite (loop_complete _ _ _ _ HE). reflexivity.
Qed.

Theorem decompress_raises x slen n e :
  decompress x slen n = Raise e <->
  (length x <= slen)%nat /\
  ((e = IndexError /\ ~ In true (bytes_bits x)) \/
   (e = ValueError /\ exists v w k, (length v < n)%nat /\ encodes_all v w /\
        bytes_bits x = w ++ true :: repeat false k)).
Proof.
  unfold decompress. fold (bytes_bits x).
  destruct (Nat.ltb_spec slen (length x)) as [L|L].
  { split; [discriminate|]. intros (? & _). lia. }
  destruct (strip_spec (bytes_bits x)) as [(k & Ek & S)|(k & u' & Eu & S)]; rewrite S; cbn [bind].
  - split.
    + intros [= <-]. split; auto. left. split; auto. rewrite Ek. intros H.
      apply repeat_spec in H. discriminate.
    + intros (_ & [(-> & _)|(-> & v & w & k' & _ & _ & E)]); auto.
      rewrite Ek in E. apply repeat_app_inv in E as [_ E]. cbn in E. discriminate.
  - rewrite loop_raise. split.
    + intros (-> & v' & w & b & HL & HE & E). split; auto. right. split; auto.
      exists v', w, k. repeat split; auto.
      apply app_inj_tail in E as [-> <-].
      rewrite Eu, <- app_assoc. reflexivity.
    + intros (_ & [(-> & H)|(-> & v & w & k' & HL & HE & E)]).
      * exfalso. apply H. rewrite Eu. apply in_or_app. left. apply in_or_app. right. now left.
      * split; auto. exists v, w, true. repeat split; auto.
        rewrite Eu in E. replace (w ++ true :: repeat false k') with ((w ++ [true]) ++ repeat false k') in E
          by (rewrite <- app_assoc; reflexivity).
        clear -E. apply prefix_cases in E as [(e & E & E')|(e & E & E')].
        -- destruct e as [|b e] using rev_ind; [now rewrite app_nil_r in E|].
           rewrite app_assoc in E. apply app_inj_tail in E as [_ <-].
           rewrite <- app_assoc in E'. apply repeat_app_inv in E' as [_ E']. discriminate.
        -- destruct e as [|b e] using rev_ind; [now rewrite app_nil_r in E|].
           rewrite app_assoc in E. apply app_inj_tail in E as [_ <-].
           rewrite <- app_assoc in E'. apply repeat_app_inv in E' as [_ E']. discriminate.
Qed.

Theorem compress_decompress v slen slen' x : v <> [] -> (slen <= slen')%nat ->
  compress v slen = Some x -> decompress x slen' (length v) = Ok (Some v).
Proof.
  intros Hv Hs H. apply compress_some_bits in H as (_ & HL & HB).
  apply decompress_accepts.
  - destruct v; [congruence|cbn; lia].
  - split; [lia|]. split; auto. eexists _, _. split; [apply compress_bits_encodes|exact HB].
Qed.

(** ** malleability *)
Theorem compress_malleable v slen x : v <> [] ->
  compress v slen = Some x -> total_cost v < 8 * Z.of_nat slen ->
  exists x', bytes x' /\ length x' = length x /\ x' <> x /\
    decompress x' slen (length v) = Ok (Some v).
Proof.
  intros Hv H Hlt. apply compress_some_bits in H as (HB & HL & HX).
  rewrite <- compress_bits_length in Hlt.
  set (p := (8 * slen - length (compress_bits v))%nat) in *.
  assert (Hp : (1 <= p)%nat) by lia.
  set (u' := compress_bits v ++ repeat false (p - 1) ++ [true]).
  destruct (group_spec slen u') as (G1 & G2 & G3).
  { unfold u'. rewrite !app_length, repeat_length. cbn [length]. lia. }
  exists (group slen u'). repeat split; auto; [congruence| |].
  - intros E. assert (E' : u' = bytes_bits x) by congruence.
    rewrite HX in E'. unfold u' in E'. apply app_inv_head in E'.
    replace p with ((p - 1) + 1)%nat in E' by lia. rewrite repeat_app in E'.
    replace (p - 1 + 1 - 1)%nat with (p - 1)%nat in E' by lia.
    apply app_inv_head in E'. discriminate.
  - apply decompress_accepts; [destruct v; [congruence|cbn; lia]|].
    split; [lia|]. split; auto. exists (compress_bits v), (repeat false (p-1) ++ [true]).
    split; [apply compress_bits_encodes|]. rewrite G1. reflexivity.
Qed.

(** Bits of a canonical encoding: the accepted inputs that re-compress to themselves. *)
Theorem decompress_canonical_iff x slen v : bytes x -> length x = slen -> v <> [] ->
  decompress x slen (length v) = Ok (Some v) ->
  (compress v slen = Some x <->
   forall rest, bytes_bits x = compress_bits v ++ rest -> ~ In true rest).
Proof.
  intros Hb HL Hv H.
  apply decompress_accepts in H; [|destruct v; [congruence|cbn; lia]].
  destruct H as (_ & _ & w & rest & HE & E).
  apply encodes_all_unique in HE. subst w.
  split.
  - intros HC rest' E'. apply compress_some_bits in HC as (_ & _ & HC).
    rewrite HC in E'. apply app_inv_head in E'. subst rest'. intros HI. apply repeat_spec in HI. discriminate.
  - intros HN. specialize (HN rest E).
    assert (Hlen : length (bytes_bits x) = (8 * slen)%nat) by (rewrite bytes_bits_length; lia).
    rewrite E, app_length in Hlen.
    destruct (compress v slen) as [y|] eqn:C.
    + f_equal. apply compress_some_bits in C as (C1 & C2 & C3).
      apply bytes_bits_inj; auto. rewrite C3, E. f_equal.
      assert (R : rest = repeat false (length rest)).
      { clear -HN. induction rest as [|b r IH]; auto. cbn. f_equal.
        - destruct b; auto. exfalso; apply HN; now left.
        - apply IH. intros HI; apply HN; now right. }
      rewrite R. f_equal. lia.
    + apply compress_none in C. rewrite <- compress_bits_length in C. lia.
Qed.

Theorem decompress_canonical_spec x slen v : bytes x -> length x = slen -> v <> [] ->
  decompress x slen (length v) = Ok (Some v) ->
  (compress v slen = Some x <->
   forall w rest, encodes_all v w -> bytes_bits x = w ++ rest -> ~ In true rest).
Proof.
  intros Hb HL Hv H. rewrite (decompress_canonical_iff _ _ _ Hb HL Hv H). split.
  - intros A w rest HE E. apply encodes_all_unique in HE. subst w. eauto.
  - intros A rest E. eapply A; eauto. apply compress_bits_encodes.
Qed.

Lemma decode16_length x r : decode16 x = Ok r -> (2 * length r = length x)%nat.
Proof.
  unfold decode16. destruct (Nat.even (length x)) eqn:E; [|discriminate]. intros [= <-].
  remember (length x) as m eqn:Hm. revert x Hm E.
  induction m as [m IH] using (well_founded_induction lt_wf). intros x Hm E.
  destruct x as [|a [|b x]]; cbn [length] in Hm; subst.
  - reflexivity.
  - discriminate.
  - cbn [decode16_loop length]. cbn in E. rewrite Nat.mul_succ_r, (IH (length x)); auto; lia.
Qed.
