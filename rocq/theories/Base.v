(** Common vocabulary of the models: results with exceptions, bytes, bits. *)
From Coq Require Export ZArith List Lia Bool.
From Coq Require Export ZifyBool ZifyNat.
Export ListNotations.
Open Scope Z_scope.

Ltac Zify.zify_post_hook ::= Z.div_mod_to_equations.

(** Python exceptions that the modelled code can raise (solidity reverts are [Revert]). *)
Inductive exn : Set :=
| IndexError | ValueError | ZeroDivisionError | AssertionError | OverflowError
| KeyError | TypeError | StructError | UnboundLocalError | OtherException | Revert.

(** Outcome of a call: a value or an exception. *)
Inductive res (A : Type) : Type :=
| Ok (a : A)
| Raise (e : exn).
Arguments Ok {A} _.
Arguments Raise {A} _.

Definition bind {A B} (r : res A) (f : A -> res B) : res B :=
  match r with Ok a => f a | Raise e => Raise e end.
Notation "'let!' x := r 'in' k" := (bind r (fun x => k))
  (at level 200, x pattern, right associativity).

Definition is_byte (b : Z) : Prop := 0 <= b < 256.
Definition bytes (l : list Z) : Prop := Forall is_byte l.
Definition is_byteb (b : Z) : bool := (0 <=? b) && (b <? 256).

Lemma is_byteb_spec b : is_byteb b = true <-> is_byte b.
Proof. unfold is_byteb, is_byte; lia. Qed.

Lemma bytes_app a b : bytes (a ++ b) <-> bytes a /\ bytes b.
Proof. apply Forall_app. Qed.

Lemma bytes_firstn n l : bytes l -> bytes (firstn n l).
Proof. intros H. rewrite <- (firstn_skipn n l) in H. apply bytes_app in H. tauto. Qed.
Lemma bytes_skipn n l : bytes l -> bytes (skipn n l).
Proof. intros H. rewrite <- (firstn_skipn n l) in H. apply bytes_app in H. tauto. Qed.

(** Python slices l[a:b] with 0 <= a <= b. *)
Definition slice {A} (a b : nat) (l : list A) : list A := firstn (b - a) (skipn a l).

(** * Bits, most significant first *)
Fixpoint of_bits_acc (acc : Z) (l : list bool) : Z :=
  match l with
  | [] => acc
  | b :: l' => of_bits_acc (2 * acc + (if b then 1 else 0)) l'
  end.
(** int(s, 2) on a bit string *)
Definition of_bits (l : list bool) : Z := of_bits_acc 0 l.

(** The [k] low bits of [z], most significant first (format(z, '0kb') when 0 <= z < 2^k). *)
Fixpoint zbits (k : nat) (z : Z) : list bool :=
  match k with
  | O => []
  | S k' => Z.testbit z (Z.of_nat k') :: zbits k' z
  end.

Lemma of_bits_acc_spec l : forall acc,
  of_bits_acc acc l = acc * 2 ^ Z.of_nat (length l) + of_bits_acc 0 l.
Proof.
  induction l as [|b l IH]; intros acc; cbn [of_bits_acc length].
  - cbn. lia.
  - rewrite IH, (IH (2*0 + _)). rewrite Nat2Z.inj_succ, Z.pow_succ_r by lia.
    destruct b; ring.
Qed.

Lemma of_bits_nil : of_bits [] = 0. Proof. reflexivity. Qed.

Lemma of_bits_cons b l :
  of_bits (b :: l) = (if b then 1 else 0) * 2 ^ Z.of_nat (length l) + of_bits l.
Proof.
  unfold of_bits. cbn [of_bits_acc]. rewrite of_bits_acc_spec. f_equal.
Qed.

Lemma of_bits_app a b :
  of_bits (a ++ b) = of_bits a * 2 ^ Z.of_nat (length b) + of_bits b.
Proof.
  induction a as [|x a IH]; cbn [app].
  - rewrite of_bits_nil. lia.
  - rewrite !of_bits_cons, IH, app_length, Nat2Z.inj_add, Z.pow_add_r by lia. ring.
Qed.

Lemma of_bits_bound l : 0 <= of_bits l < 2 ^ Z.of_nat (length l).
Proof.
  induction l as [|b l IH].
  - cbn. lia.
  - rewrite of_bits_cons. cbn [length]. rewrite Nat2Z.inj_succ, Z.pow_succ_r by lia.
    destruct b; lia.
Qed.

Lemma zbits_length k z : length (zbits k z) = k.
Proof. induction k; cbn; congruence. Qed.

Lemma zbits_ext k : forall a b,
  (forall i, 0 <= i < Z.of_nat k -> Z.testbit a i = Z.testbit b i) -> zbits k a = zbits k b.
Proof.
  induction k as [|k IH]; intros a b H; cbn; auto.
  f_equal. apply H; lia. apply IH. intros; apply H; lia.
Qed.

Lemma of_bits_zbits k z : of_bits (zbits k z) = z mod 2 ^ Z.of_nat k.
Proof.
  induction k as [|k IH].
  - cbn. now rewrite Z.mod_1_r.
  - cbn [zbits]. rewrite of_bits_cons, zbits_length, IH.
    rewrite <- !Z.land_ones by lia.
    rewrite Nat2Z.inj_succ.
    set (n := Z.of_nat k) in *.
    assert (Hn : 0 <= n) by lia. clearbody n.
    destruct (Z.testbit z n) eqn:E.
    + rewrite Z.mul_1_l.
      assert (D : Z.land (2 ^ n) (Z.land z (Z.ones n)) = 0).
      { apply Z.bits_inj'. intros i Hi. rewrite !Z.land_spec, Z.bits_0.
        rewrite Z.pow2_bits_eqb by lia. destruct (Z.eqb_spec n i); subst; auto.
        rewrite Z.ones_spec_high by lia. now rewrite andb_false_r. }
      rewrite Z.add_nocarry_lxor by exact D. rewrite Z.lxor_lor by exact D.
      apply Z.bits_inj'. intros i Hi. rewrite Z.lor_spec, !Z.land_spec.
      rewrite Z.pow2_bits_eqb by lia.
      rewrite !Z.testbit_ones_nonneg by lia.
      destruct (Z.eqb_spec n i).
      * subst. rewrite E. replace (i <? Z.succ i) with true by lia. reflexivity.
      * destruct (Z.ltb_spec i n); destruct (Z.ltb_spec i (Z.succ n)); try lia;
          destruct (Z.testbit z i); auto.
    + rewrite Z.mul_0_l, Z.add_0_l.
      apply Z.bits_inj'. intros i Hi. rewrite !Z.land_spec.
      rewrite !Z.testbit_ones_nonneg by lia.
      destruct (Z.ltb_spec i n); destruct (Z.ltb_spec i (Z.succ n)); try lia;
        rewrite ?andb_true_r, ?andb_false_r; auto.
      assert (i = n) by lia. subst. auto.
Qed.

Lemma zbits_of_bits_eq l : forall k, k = length l -> zbits k (of_bits l) = l.
Proof.
  induction l as [|b l IH]; intros k ->; cbn [length zbits]; auto.
  rewrite of_bits_cons.
  pose proof (of_bits_bound l) as B.
  set (n := Z.of_nat (length l)) in *.
  assert (0 < 2^n) by (apply Z.pow_pos_nonneg; lia).
  f_equal.
  - assert (Hn : 0 <= n) by lia.
    destruct b.
    + rewrite Z.mul_1_l. apply Z.testbit_true; [lia|].
      replace ((2^n + of_bits l)/2^n) with 1; [reflexivity|].
      rewrite <- (Z.mul_1_l (2^n)) at 1. rewrite Z.div_add_l by lia.
      rewrite Z.div_small by lia. lia.
    + rewrite Z.mul_0_l, Z.add_0_l. apply Z.testbit_false; [lia|].
      rewrite Z.div_small by lia. reflexivity.
  - transitivity (zbits (length l) (of_bits l)); [|now apply IH]. apply zbits_ext. intros i Hi.
    destruct b; [|now rewrite Z.mul_0_l, Z.add_0_l].
    rewrite Z.mul_1_l. rewrite <- (Z.mod_pow2_bits_low _ n i) by lia.
    rewrite <- (Z.mod_pow2_bits_low (of_bits l) n i) by lia.
    f_equal. rewrite <- (Z.mul_1_l (2^n)) at 1. rewrite Z.add_comm, Z.mod_add by lia. reflexivity.
Qed.

Lemma zbits_of_bits l : zbits (length l) (of_bits l) = l.
Proof. now apply zbits_of_bits_eq. Qed.

Lemma of_bits_inj a b : length a = length b -> of_bits a = of_bits b -> a = b.
Proof.
  intros HL HE. rewrite <- (zbits_of_bits a), <- (zbits_of_bits b), HL, HE. reflexivity.
Qed.

Lemma zbits_mod k z : zbits k (z mod 2 ^ Z.of_nat k) = zbits k z.
Proof. apply zbits_ext. intros. now rewrite Z.mod_pow2_bits_low by lia. Qed.

Lemma zbits_app a b z :
  zbits (a + b) z = zbits a (z / 2 ^ Z.of_nat b) ++ zbits b z.
Proof.
  induction a as [|a IH]; cbn [Nat.add zbits app]; auto.
  f_equal; auto. rewrite Z.div_pow2_bits by lia. f_equal. lia.
Qed.

Lemma zbits_add_pow k j a b :
  0 <= b < 2 ^ Z.of_nat j -> zbits (k + j) (a * 2 ^ Z.of_nat j + b) = zbits k a ++ zbits j b.
Proof.
  intros Hb. rewrite zbits_app. f_equal.
  - f_equal. rewrite Z.div_add_l by lia. rewrite Z.div_small; lia.
  - rewrite <- zbits_mod. rewrite <- (zbits_mod j b). f_equal.
    rewrite Z.add_comm, Z.mod_add by lia. reflexivity.
Qed.

(** Shifts, masks and ors as arithmetic. *)
Lemma lor_shiftl_add a b k : 0 <= k -> 0 <= b < 2 ^ k -> Z.lor (Z.shiftl a k) b = a * 2 ^ k + b.
Proof.
  intros Hk Hb.
  assert (D : Z.land (Z.shiftl a k) b = 0).
  { apply Z.bits_inj'. intros i Hi. rewrite Z.land_spec, Z.bits_0.
    destruct (Z.ltb_spec i k).
    - rewrite Z.shiftl_spec_low by lia. reflexivity.
    - replace b with (b mod 2^k) by (apply Z.mod_small; lia).
      rewrite Z.mod_pow2_bits_high by lia. apply andb_false_r. }
  rewrite <- Z.lxor_lor by exact D. rewrite <- Z.add_nocarry_lxor by exact D.
  now rewrite Z.shiftl_mul_pow2 by lia.
Qed.

Lemma land_ones_mod a k : 0 <= k -> Z.land a (2 ^ k - 1) = a mod 2 ^ k.
Proof. intros Hk. rewrite <- Z.land_ones by lia. f_equal. rewrite Z.ones_equiv. lia. Qed.

Lemma land_ff a : Z.land a 255 = a mod 256.
Proof. apply (land_ones_mod a 8). lia. Qed.
Lemma land_3fff a : Z.land a 16383 = a mod 2^14.
Proof. apply (land_ones_mod a 14). lia. Qed.
Lemma land_ffff a : Z.land a 65535 = a mod 2^16.
Proof. apply (land_ones_mod a 16). lia. Qed.

(** (acc >> |Y|) & mask extracts the field X of P ++ X ++ Y. *)
Lemma field_extract P X Y :
  Z.land (Z.shiftr (of_bits (P ++ X ++ Y)) (Z.of_nat (length Y))) (2 ^ Z.of_nat (length X) - 1)
  = of_bits X.
Proof.
  rewrite land_ones_mod, Z.shiftr_div_pow2 by lia.
  rewrite app_assoc, of_bits_app.
  rewrite Z.div_add_l by (apply Z.pow_nonzero; lia).
  rewrite (Z.div_small (of_bits Y)) by apply of_bits_bound.
  rewrite Z.add_0_r, of_bits_app.
  rewrite Z.add_comm, Z.mod_add by (apply Z.pow_nonzero; lia).
  apply Z.mod_small, of_bits_bound.
Qed.

Lemma app_inv_length {A} (a b c d : list A) :
  length a = length c -> a ++ b = c ++ d -> a = c /\ b = d.
Proof.
  revert c. induction a as [|x a IH]; intros [|y c] HL E; cbn in *; try lia; auto.
  inversion E; subst. apply IH in H1; [|lia]. destruct H1; subst; auto.
Qed.

(** * Bytes as bits *)
Definition bytes_bits (x : list Z) : list bool := flat_map (zbits 8) x.

Lemma bytes_bits_app a b : bytes_bits (a ++ b) = bytes_bits a ++ bytes_bits b.
Proof. unfold bytes_bits. apply flat_map_app. Qed.

Lemma bytes_bits_length x : length (bytes_bits x) = (8 * length x)%nat.
Proof.
  induction x as [|b x IH]; auto.
  change (bytes_bits (b :: x)) with (zbits 8 b ++ bytes_bits x).
  rewrite app_length, IH, zbits_length. cbn. lia.
Qed.

Lemma zbits8_inj a b : is_byte a -> is_byte b -> zbits 8 a = zbits 8 b -> a = b.
Proof.
  unfold is_byte. intros Ha Hb E.
  apply (f_equal of_bits) in E. rewrite !of_bits_zbits in E.
  change (2 ^ Z.of_nat 8) with 256 in E. rewrite !Z.mod_small in E by lia. exact E.
Qed.

Lemma bytes_bits_inj a : forall b, bytes a -> bytes b -> bytes_bits a = bytes_bits b -> a = b.
Proof.
  induction a as [|x a IH]; intros [|y b] Ha Hb E; auto.
  - apply (f_equal (@length _)) in E. rewrite !bytes_bits_length in E. cbn in E. lia.
  - apply (f_equal (@length _)) in E. rewrite !bytes_bits_length in E. cbn in E. lia.
  - inversion Ha; inversion Hb; subst.
    change (zbits 8 x ++ bytes_bits a = zbits 8 y ++ bytes_bits b) in E.
    assert (zbits 8 x = zbits 8 y /\ bytes_bits a = bytes_bits b) as [E1 E2].
    { apply app_inv_length; [now rewrite !zbits_length|exact E]. }
    f_equal; eauto using zbits8_inj.
Qed.

(** Group a bit string into bytes (drops an incomplete last group). *)
Fixpoint bits_bytes (fuel : nat) (u : list bool) : list Z :=
  match fuel with
  | O => []
  | S f => of_bits (firstn 8 u) :: bits_bytes f (skipn 8 u)
  end.

Lemma zbits_S_testbit k z : zbits (S k) z = Z.testbit z (Z.of_nat k) :: zbits k z.
Proof. reflexivity. Qed.

(** Lists: generic facts. *)
Lemma firstn_app_exact {A} (a b : list A) n : n = length a -> firstn n (a ++ b) = a.
Proof. intros ->. rewrite firstn_app, Nat.sub_diag, firstn_O, app_nil_r. apply firstn_all. Qed.
Lemma skipn_app_exact {A} (a b : list A) n : n = length a -> skipn n (a ++ b) = b.
Proof. intros ->. rewrite skipn_app, Nat.sub_diag, skipn_all. reflexivity. Qed.

Lemma nth_repeat_lt {A} (a d : A) n i : (i < n)%nat -> nth i (repeat a n) d = a.
Proof.
  revert i. induction n as [|n IH]; intros [|i] H; cbn; auto; try lia. apply IH; lia.
Qed.

Lemma Some_inj {A} (a b : A) : Some a = Some b -> a = b.
Proof. congruence. Qed.
Lemma Ok_inj {A} (a b : A) : Ok a = Ok b -> a = b.
Proof. congruence. Qed.
