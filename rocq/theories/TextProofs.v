(** Proofs about the text primitives: printing then reading gives the value back. *)
From Coq Require Import String.
From Verif Require Import Base TextModel.
Import List.

Lemma digits_app a : forall acc b, digits_val acc (a ++ b) = match digits_val acc a with Some v => digits_val v b | None => None end.
Proof. induction a as [|c a IH]; intros acc b; cbn [app digits_val]; [reflexivity|]. destruct (is_digit c); auto. Qed.
Lemma digit_ok d : 0 <= d < 10 -> is_digit (48 + d) = true.
Proof. unfold is_digit. lia. Qed.
Lemma digit1 acc d : 0 <= d < 10 -> digits_val acc [48 + d] = Some (10 * acc + d).
Proof. intros. cbn [digits_val]. rewrite digit_ok by auto. f_equal. lia. Qed.

Lemma dec_spec fuel : forall x, (0 < fuel)%nat -> 0 <= x < 10 ^ Z.of_nat fuel ->
  forallb is_digit (dec fuel x) = true /\ (exists d t, dec fuel x = d :: t /\ (x <> 0 -> d <> 48)) /\ digits_val 0 (dec fuel x) = Some x.
Proof.
  induction fuel as [|f IH]; intros x Hf Hx; [lia|]. cbn [dec]. destruct (Z.ltb_spec x 10) as [L|L].
  - cbn [forallb]. rewrite digit_ok by lia. repeat split; [|rewrite digit1 by lia; f_equal; lia]. exists (48 + x), []. split; [reflexivity|lia].
  - rewrite Nat2Z.inj_succ, Z.pow_succ_r in Hx by lia.
    assert (Hf0 : (0 < f)%nat) by (destruct f; [cbn in Hx; lia|lia]).
    destruct (IH (x / 10) Hf0) as (A & (d & t & E & N) & V); [split; [apply Z.div_pos; lia|apply Z.div_lt_upper_bound; lia]|].
    pose proof (Z.mod_pos_bound x 10 ltac:(lia)) as M. repeat split.
    + rewrite forallb_app, A. cbn [forallb]. now rewrite digit_ok.
    + exists d, (t ++ [48 + x mod 10]). rewrite E. split; [reflexivity|]. intros _. apply N. assert (1 <= x / 10) by (apply Z.div_le_lower_bound; lia). lia.
    + rewrite digits_app, V, digit1 by lia. f_equal. pose proof (Z.div_mod x 10). lia.
Qed.

Lemma str_nat_spec x : 0 <= x ->
  forallb is_digit (str_nat x) = true /\ (exists d t, str_nat x = d :: t /\ (x <> 0 -> d <> 48)) /\ digits_val 0 (str_nat x) = Some x.
Proof.
  intros Hx. apply dec_spec; [lia|]. split; auto. rewrite Nat2Z.inj_succ, Z2Nat.id by apply Z.log2_nonneg.
  destruct (Z.eq_dec x 0) as [->|N]; [cbn; lia|].
  eapply Z.lt_le_trans; [apply Z.log2_spec; lia|]. apply Z.pow_le_mono_l. lia.
Qed.

Lemma take_digits_spec a : forall rest, forallb is_digit a = true -> (match rest with c :: _ => is_digit c = false | [] => True end) ->
  take_digits (a ++ rest) = (a, rest).
Proof.
  induction a as [|c a IH]; intros rest A R; cbn [app take_digits].
  - destruct rest as [|c r]; [reflexivity|]. cbn [take_digits]. now rewrite R.
  - cbn [forallb] in A. apply andb_true_iff in A as [-> A]. now rewrite IH.
Qed.
Definition nodigit (rest : list Z) : Prop := match rest with c :: _ => is_digit c = false | [] => True end.
Lemma lit_nat_spec x rest : 0 <= x -> nodigit rest -> lit_nat (str_nat x ++ rest) = Some (x, rest).
Proof.
  intros Hx R. destruct (str_nat_spec x Hx) as (A & (d & t & E & N) & V). unfold lit_nat. rewrite take_digits_spec by auto. rewrite V, E.
  destruct (Z.eqb_spec d 48) as [D|D]; cbn [andb]; auto. destruct (Z.eqb_spec x 0) as [Z0|Z0]; cbn [negb]; auto. exfalso. exact (N Z0 D).
Qed.
Lemma digit_head x : 0 <= x -> exists d t, str_nat x = d :: t /\ is_digit d = true.
Proof.
  intros Hx. destruct (str_nat_spec x Hx) as (A & (d & t & E & _) & _). rewrite E in A. cbn [forallb] in A. apply andb_true_iff in A as [A _]. eauto.
Qed.
Lemma skip_blank_keep c s : (c =? 32) || (c =? 9) = false -> skip_blank (c :: s) = c :: s.
Proof. intros E. cbn [skip_blank]. now rewrite E. Qed.
Lemma lit_int_spec x rest : nodigit rest -> lit_int (str_int x ++ rest) = Some (x, rest).
Proof.
  intros R. unfold str_int, lit_int. destruct (Z.ltb_spec x 0) as [L|L].
  - change ((c_minus :: str_nat (- x)) ++ rest) with (c_minus :: (str_nat (- x) ++ rest)). rewrite skip_blank_keep by reflexivity.
    rewrite Z.eqb_refl. destruct (digit_head (- x)) as (d & t & E & D); [lia|]. rewrite E. cbn [app]. rewrite skip_blank_keep by (unfold is_digit in D; lia).
    change (d :: t ++ rest) with ((d :: t) ++ rest). rewrite <- E, lit_nat_spec by (auto; lia). do 2 f_equal. lia.
  - destruct (digit_head x) as (d & t & E & D); [lia|]. rewrite E. cbn [app]. rewrite skip_blank_keep by (unfold is_digit in D; lia).
    unfold is_digit in D. unfold c_minus, c_plus. destruct (Z.eqb_spec d 45); [lia|]. destruct (Z.eqb_spec d 43); [lia|].
    change (d :: t ++ rest) with ((d :: t) ++ rest). rewrite <- E. apply lit_nat_spec; auto; lia.
Qed.
Lemma int_head x : exists d t, str_int x = d :: t /\ (is_digit d = true \/ d = c_minus).
Proof.
  unfold str_int. destruct (Z.ltb_spec x 0); [eauto|]. destruct (digit_head x) as (d & t & E & D); eauto.
Qed.

Lemma items_one f x rest : lit_items (S f) (str_int x ++ c_rb :: rest) = Some ([x], rest).
Proof.
  cbn [lit_items]. destruct (int_head x) as (d & t & E & D).
  assert (B : (d =? 32) || (d =? 9) = false) by (unfold is_digit, c_minus in D; lia).
  assert (B2 : (d =? c_rb) = false) by (unfold is_digit, c_minus, c_rb in *; lia).
  rewrite E at 1. cbn [app]. rewrite skip_blank_keep, B2 by auto.
  change (d :: t ++ c_rb :: rest) with ((d :: t) ++ c_rb :: rest). rewrite <- E. rewrite lit_int_spec by reflexivity.
  rewrite skip_blank_keep by reflexivity. now rewrite Z.eqb_refl.
Qed.
Lemma items_sp f x l : lit_items f (c_space :: str_int x ++ l) = lit_items f (str_int x ++ l).
Proof. destruct f; reflexivity. Qed.
Lemma items_cons f x rest l r : lit_items f rest = Some (l, r) -> lit_items (S f) (str_int x ++ c_comma :: rest) = Some (x :: l, r).
Proof.
  intros H. cbn [lit_items]. destruct (int_head x) as (d & t & E & D).
  assert (B : (d =? 32) || (d =? 9) = false) by (unfold is_digit, c_minus in D; lia).
  assert (B2 : (d =? c_rb) = false) by (unfold is_digit, c_minus, c_rb in *; lia).
  rewrite E at 1. cbn [app]. rewrite skip_blank_keep, B2 by auto.
  change (d :: t ++ c_comma :: rest) with ((d :: t) ++ c_comma :: rest). rewrite <- E. rewrite lit_int_spec by reflexivity.
  rewrite skip_blank_keep by reflexivity. change (c_comma =? c_rb) with false. cbv iota. rewrite Z.eqb_refl. now rewrite H.
Qed.
Lemma join_cons2 a b l : join (a :: b :: l) = a ++ [c_comma; c_space] ++ join (b :: l).
Proof. reflexivity. Qed.
Lemma join_head x l : exists t, join (map str_int (x :: l)) = str_int x ++ t.
Proof. destruct l; [exists []; cbn; now rewrite app_nil_r|]. eexists. cbn [map]. rewrite join_cons2. reflexivity. Qed.
Lemma items_spec l : forall f rest, (length l <= f)%nat -> (0 < f)%nat -> lit_items f (join (map str_int l) ++ c_rb :: rest) = Some (l, rest).
Proof.
  induction l as [|x [|y l] IH]; intros f rest Hf H0; destruct f as [|f]; try lia.
  - cbn [map join app lit_items]. rewrite skip_blank_keep by reflexivity. now rewrite Z.eqb_refl.
  - cbn [map join]. apply items_one.
  - cbn [map]. rewrite join_cons2. rewrite <- !app_assoc. cbn [app]. apply items_cons.
    change (str_int y :: map str_int l) with (map str_int (y :: l)).
    destruct (join_head y l) as [t Et]. cbn [length] in Hf.
    specialize (IH f rest ltac:(cbn [length]; lia) ltac:(lia)).
    rewrite Et in *. rewrite <- app_assoc in *. rewrite items_sp. exact IH.
Qed.

Lemma join_length l : (length l <= S (length (join (map str_int l))))%nat.
Proof.
  induction l as [|x [|y l] IH]; [cbn; lia|cbn [length]; lia|]. cbn [map] in *. rewrite join_cons2. rewrite !app_length. cbn [length] in *. lia.
Qed.

(** ast.literal_eval(" " + str(v)) = v *)
Lemma literal_eval_int z : literal_eval (c_space :: str_int z) = Ok (PInt z).
Proof.
  unfold literal_eval. change (skip_blank (c_space :: str_int z)) with (skip_blank (str_int z)).
  destruct (int_head z) as (d & t & E & D).
  assert (B : (d =? 32) || (d =? 9) = false) by (unfold is_digit, c_minus in D; lia).
  assert (B2 : (d =? c_lb) = false) by (unfold is_digit, c_minus, c_lb in *; lia).
  rewrite E. rewrite skip_blank_keep, B2 by auto. rewrite <- E.
  pose proof (lit_int_spec z [] I) as Q. rewrite app_nil_r in Q. now rewrite Q.
Qed.
Lemma literal_eval_list l : literal_eval (c_space :: str_list l) = Ok (PList l).
Proof.
  unfold literal_eval, str_list. change (skip_blank (c_space :: [c_lb] ++ join (map str_int l) ++ [c_rb])) with (c_lb :: join (map str_int l) ++ [c_rb]).
  cbv beta iota zeta. rewrite Z.eqb_refl. rewrite (items_spec l _ []); [reflexivity| |lia]. rewrite app_length. cbn [length]. pose proof (join_length l). lia.
Qed.

(** int(" " + str(z)) = z *)
Lemma lstrip_keep c s : is_space c = false -> lstrip (c :: s) = c :: s.
Proof. intros E. cbn [lstrip]. now rewrite E. Qed.
Lemma str_int_last z : exists a d, str_int z = a ++ [d] /\ is_digit d = true.
Proof.
  assert (X : forall x, 0 <= x -> exists a d, str_nat x = a ++ [d] /\ is_digit d = true).
  { intros x Hx. destruct (str_nat_spec x Hx) as (A & (d & t & E & _) & _).
    destruct (exists_last (l := str_nat x)) as (a & e & Ea); [rewrite E; discriminate|]. exists a, e. split; auto.
    rewrite Ea, forallb_app in A. apply andb_true_iff in A as [_ A]. cbn in A. now rewrite andb_true_r in A. }
  unfold str_int. destruct (Z.ltb_spec z 0).
  - destruct (X (- z)) as (a & d & -> & D); [lia|]. exists (c_minus :: a), d. split; auto.
  - apply X. lia.
Qed.
Lemma not_space_digit d : is_digit d = true \/ d = c_minus -> is_space d = false.
Proof. unfold is_digit, c_minus, is_space. lia. Qed.
Lemma strip_int z : strip (c_space :: str_int z) = str_int z.
Proof.
  unfold strip. change (lstrip (c_space :: str_int z)) with (lstrip (str_int z)).
  destruct (int_head z) as (d & t & E & D). rewrite E, lstrip_keep by now apply not_space_digit. rewrite <- E.
  destruct (str_int_last z) as (a & e & Ea & De). rewrite Ea, rev_app_distr. cbn [rev app]. rewrite lstrip_keep by (apply not_space_digit; auto).
  cbn [rev]. now rewrite rev_involutive.
Qed.
Lemma py_int_spec z : py_int (c_space :: str_int z) = Ok z.
Proof.
  unfold py_int. rewrite strip_int. unfold str_int. destruct (Z.ltb_spec z 0) as [L|L].
  - rewrite Z.eqb_refl. destruct (str_nat_spec (- z)) as (_ & (d & t & E & _) & V); [lia|]. rewrite V, E. f_equal. lia.
  - destruct (str_nat_spec z L) as (A & (d & t & E & _) & V). rewrite E in *. cbn [forallb] in A. apply andb_true_iff in A as [D _].
    unfold is_digit in D. unfold c_minus, c_plus. destruct (Z.eqb_spec d 45); [lia|]. destruct (Z.eqb_spec d 43); [lia|].
    rewrite V. f_equal. lia.
Qed.

(** * Lines *)
(** characters which neither end a line nor separate name and value *)
Definition plain (s : list Z) : Prop := Forall (fun c => is_eol c = false /\ c <> c_eq) s.
Lemma splitlines_line l : forall cur rest, Forall (fun c => is_eol c = false) l ->
  splitlines_acc cur (l ++ c_nl :: rest) = (cur ++ l) :: splitlines_acc [] rest.
Proof.
  induction l as [|c l IH]; intros cur rest H; cbn [app splitlines_acc].
  - change (is_eol c_nl) with true. cbv iota. now rewrite app_nil_r.
  - inversion H as [|? ? E H']; subst. rewrite E, IH by auto. now rewrite <- app_assoc.
Qed.
Lemma split_eq_plain l : forall cur, Forall (fun c => c <> c_eq) l -> split_eq_acc cur l = [cur ++ l].
Proof.
  induction l as [|c l IH]; intros cur H; cbn [split_eq_acc]; [now rewrite app_nil_r|].
  inversion H as [|? ? E H']; subst. destruct (Z.eqb_spec c c_eq); [contradiction|]. rewrite IH by auto. now rewrite <- app_assoc.
Qed.
Lemma split_eq_line a : forall cur b, Forall (fun c => c <> c_eq) a -> Forall (fun c => c <> c_eq) b ->
  split_eq_acc cur (a ++ c_eq :: b) = [cur ++ a; b].
Proof.
  induction a as [|c a IH]; intros cur b Ha Hb; cbn [app split_eq_acc].
  - change (c_eq =? c_eq) with true. cbv iota. rewrite (split_eq_plain b [] Hb). now rewrite app_nil_r.
  - inversion Ha as [|? ? E H']; subst. destruct (Z.eqb_spec c c_eq); [contradiction|]. rewrite IH by auto. now rewrite <- app_assoc.
Qed.
Lemma plain_eol l : plain l -> Forall (fun c => is_eol c = false) l. Proof. apply Forall_impl. tauto. Qed.
Lemma plain_eq l : plain l -> Forall (fun c => c <> c_eq) l. Proof. apply Forall_impl. tauto. Qed.
Lemma plain_app a b : plain (a ++ b) <-> plain a /\ plain b. Proof. apply Forall_app. Qed.

Lemma plain_digits a : forallb is_digit a = true -> plain a.
Proof.
  intros A. apply Forall_forall. intros c Hc. rewrite forallb_forall in A. specialize (A c Hc). unfold is_digit in A. unfold is_eol, c_eq. split; lia.
Qed.
Lemma plain_int z : plain (str_int z).
Proof.
  unfold str_int. destruct (Z.ltb_spec z 0); [constructor; [split; [reflexivity|discriminate]|]|]; apply plain_digits; apply str_nat_spec; lia.
Qed.
Lemma plain_list l : plain (str_list l).
Proof.
  unfold str_list. rewrite !plain_app. repeat split; [repeat constructor; discriminate| |repeat constructor; discriminate].
  induction l as [|x [|y l] IH]; [constructor|apply plain_int|]. cbn [map] in *. rewrite join_cons2, !plain_app. repeat split; auto using plain_int.
  repeat constructor; discriminate.
Qed.

(** * Hexadecimal *)
Lemma unhex_hexdigit d : 0 <= d < 16 -> unhex (hexdigit d) = Some d /\ is_ascii_space (hexdigit d) = false.
Proof.
  intros H. unfold hexdigit. destruct (Z.ltb_spec d 10).
  - unfold unhex. rewrite digit_ok by lia. split; [f_equal; lia|]. unfold is_ascii_space. lia.
  - unfold unhex, is_digit, is_ascii_space. destruct ((48 <=? _) && _) eqn:E; [lia|]. destruct ((97 <=? _) && _) eqn:E2; [|lia]. split; [f_equal; lia|lia].
Qed.
Lemma fromhex2 a b s x y r : is_ascii_space a = false -> unhex a = Some x -> unhex b = Some y -> fromhex s = Ok r -> fromhex (a :: b :: s) = Ok (16 * x + y :: r).
Proof. intros A X Y R. cbn [fromhex]. now rewrite A, X, Y, R. Qed.
Lemma fromhex_hex b : bytes b -> fromhex (hex b) = Ok b.
Proof.
  induction b as [|x b IH]; intros H; [reflexivity|]. inversion H as [|? ? Hx Hb]; subst. unfold is_byte in Hx. unfold hex in *. cbn [flat_map app].
  destruct (unhex_hexdigit (x / 16)) as [A A']; [split; [apply Z.div_pos; lia|apply Z.div_lt_upper_bound; lia]|].
  destruct (unhex_hexdigit (x mod 16)) as [B _]; [apply Z.mod_pos_bound; lia|].
  rewrite (fromhex2 _ _ _ _ _ b A' A B (IH Hb)). do 2 f_equal. pose proof (Z.div_mod x 16). lia.
Qed.
