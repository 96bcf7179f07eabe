(** C80: the recursive verifier of external/ (ETHFalcon_Recursive.sol and NTT_Recursive.sol) and the forgery of pythonref/forgery.py. *)
From Verif Require Import Base HashModel HashProofs RingSpec Ring NtruProofs PolyProofs NttApi EncodingModel PrngModel FalconModel FalconSpec FalconProofs ChainExtra Props_Hash ExtTables ExtModel ExtProofs ExtVerify.
Set Default Goal Selector "!".

(** the recursive NTT multiplies in Z_q[x]/(x^n + 1), for every power of two its tables cover; with the second factor transformed beforehand, the same product *)
Theorem C80_multiplies : forall k fuel a b, (1 <= k <= 9)%nat -> (k <= fuel)%nat -> length a = (2 ^ k)%nat -> length b = (2 ^ k)%nat ->
  exists p, mulZQ fuel a b = Fin (Ok p) /\ length p = (2 ^ k)%nat /\ Forall (fun x => 0 <= x < 12289) p /\ pcong (2 ^ k) 12289 p (negmul (2 ^ k) a b) /\
    forall nb, nTT fuel b = Fin (Ok nb) -> mulZQ_opt fuel a nb = Fin (Ok p).
Proof.
  intros k fuel a b Hk Hf La Lb. destruct (mulZQ_ok k fuel a b Hk Hf La Lb) as [M1 M2]. exists (red (negmul (2 ^ k) a b)). split; [exact M1|]. split; [unfold red; rewrite map_length; apply negmul_length|].
  split; [apply mod_q_canon|]. split; [apply mod_q_pcong|]. intros nb E. rewrite (nTT_eval k Hk fuel b Hf Lb) in E. injection E as <-. exact M2.
Qed.
Print Assumptions C80_multiplies.
Theorem C80_inverse : forall k fuel a, (1 <= k <= 9)%nat -> (k <= fuel)%nat -> length a = (2 ^ k)%nat ->
  exists na, nTT fuel a = Fin (Ok na) /\ length na = (2 ^ k)%nat /\ iNTT fuel na = Fin (Ok (map (fun x => x mod 12289) a)).
Proof.
  intros k fuel a Hk Hf La. exists (T a k). split; [exact (nTT_eval k Hk fuel a Hf La)|]. split; [apply T_length|]. exact (iNTT_eval k Hk fuel a Hf La).
Qed.
Print Assumptions C80_inverse.
Example C80_multiplies_nontrivial : mulZQ 2 [1; 2; 3; 12288] [0; 0; 0; 1] = Fin (Ok [12287; 12286; 1; 1]) /\ negmul 4 [1; 2; 3; 12288] [0; 0; 0; 1] = [-2; -3; -12288; 1].
Proof. split; vm_compute; reflexivity. Qed.

(** the verdict: for int256 coefficients, verify returns (always the zero address) exactly when every coefficient of s1 is between -q and q and there is a short preimage
    (s0, s1') with s1' congruent to s1; otherwise it reverts *)
Theorem C80_accepts_iff : forall H hfuel fuel msgs salt s1 h c, (9 <= fuel)%nat -> length h = 512%nat -> length s1 = 512%nat -> Forall (fun x => - 2 ^ 255 <= x < 2 ^ 255) s1 ->
  hashToPointTETRATION H hfuel salt msgs = Some c ->
  (ext_verify H hfuel fuel msgs salt s1 h = Fin (Ok 0) <->
   Forall (fun x => -12289 <= x <= 12289) s1 /\
   exists s0 s1', preimage 512 h c s0 s1 /\ length s1' = 512%nat /\ pcong 512 12289 s1' s1 /\ sqnorm s0 + sqnorm s1' < 34034726).
Proof.
  intros H hfuel fuel msgs salt s1 h c Hf Lh L1 B E. destruct (verdict H hfuel fuel msgs salt s1 h c Hf Lh L1 B E) as (b & V & _ & I). rewrite V. rewrite <- I. destruct b; split; intros X; try reflexivity; discriminate.
Qed.
Print Assumptions C80_accepts_iff.
Theorem C80_otherwise_reverts : forall H hfuel fuel msgs salt s1 h, (9 <= fuel)%nat -> Forall (fun x => - 2 ^ 255 <= x < 2 ^ 255) s1 ->
  hashToPointTETRATION H hfuel salt msgs <> None ->
  ext_verify H hfuel fuel msgs salt s1 h = Fin (Ok 0) \/ ext_verify H hfuel fuel msgs salt s1 h = Fin (Raise Revert).
Proof.
  intros H hfuel fuel msgs salt s1 h Hf B E. destruct (hashToPointTETRATION H hfuel salt msgs) as [c|] eqn:EC; [|contradiction].
  destruct (Nat.eq_dec (length h) 512) as [Lh|Lh]; [destruct (Nat.eq_dec (length s1) 512) as [L1|L1]|].
  - destruct (verdict H hfuel fuel msgs salt s1 h c Hf Lh L1 B EC) as (b & V & _ & _). rewrite V. destruct b; [left|right]; reflexivity.
  - right. unfold ext_verify, verify_with. rewrite Lh, Nat.eqb_refl. cbn [negb]. apply Nat.eqb_neq in L1. rewrite L1. reflexivity.
  - right. unfold ext_verify, verify_with. apply Nat.eqb_neq in Lh. rewrite Lh. reflexivity.
Qed.
Print Assumptions C80_otherwise_reverts.
(** verify_nttpub on the transform of h is verify on h *)
Theorem C80_nttpub_same : forall H hfuel fuel msgs salt s1 h nh, (9 <= fuel)%nat -> length h = 512%nat -> Forall (fun x => - 2 ^ 255 <= x < 2 ^ 255) s1 ->
  nTT fuel h = Fin (Ok nh) -> ext_verify_nttpub H hfuel fuel msgs salt s1 nh = ext_verify H hfuel fuel msgs salt s1 h.
Proof.
  intros H hfuel fuel msgs salt s1 h nh Hf Lh B E. rewrite (nTT_eval 9 ltac:(lia) fuel h Hf) in E by (rewrite Lh; reflexivity). injection E as <-.
  destruct (Nat.eq_dec (length s1) 512) as [L1|L1].
  - destruct (hashToPointTETRATION H hfuel salt msgs) as [c|] eqn:EC.
    + destruct (run H hfuel fuel msgs salt s1 h c Hf Lh L1 EC) as [R1 R2]. rewrite R1, R2. reflexivity.
    + unfold ext_verify, ext_verify_nttpub, verify_with. rewrite T_length, Lh, L1, EC. reflexivity.
  - unfold ext_verify, ext_verify_nttpub, verify_with. rewrite T_length, Lh. apply Nat.eqb_neq in L1. rewrite L1. reflexivity.
Qed.
Print Assumptions C80_nttpub_same.
(** malleability: coefficients may be replaced by any others congruent to them modulo q in [-q, q] *)
Theorem C80_malleable : forall H hfuel fuel msgs salt s1 s1' h, (9 <= fuel)%nat -> length s1 = 512%nat -> length s1' = 512%nat ->
  Forall (fun x => -12289 <= x <= 12289) s1 -> Forall (fun x => -12289 <= x <= 12289) s1' -> pcong 512 12289 s1 s1' ->
  ext_verify H hfuel fuel msgs salt s1 h = Fin (Ok 0) -> ext_verify H hfuel fuel msgs salt s1' h = Fin (Ok 0).
Proof.
  intros H hfuel fuel msgs salt s1 s1' h Hf L1 L1' R R' C V. assert (W : forall s, Forall (fun x => -12289 <= x <= 12289) s -> Forall (fun x => - 2 ^ 255 <= x < 2 ^ 255) s).
  { intros s. apply Forall_impl. intros x Hx. assert (12289 < 2 ^ 255) by reflexivity. lia. }
  assert (EC : exists c, hashToPointTETRATION H hfuel salt msgs = Some c /\ length h = 512%nat).
  { unfold ext_verify, verify_with in V. destruct (Nat.eqb_spec (length h) 512) as [Lh|]; [|discriminate]. rewrite L1, Nat.eqb_refl in V. cbn [negb] in V. destruct (hashToPointTETRATION H hfuel salt msgs) as [c|]; [|discriminate]. exists c. split; [reflexivity|exact Lh]. }
  destruct EC as (c & EC & Lh). rewrite (C80_accepts_iff H hfuel fuel msgs salt s1 h c Hf Lh L1 (W _ R) EC) in V. rewrite (C80_accepts_iff H hfuel fuel msgs salt s1' h c Hf Lh L1' (W _ R') EC).
  destruct V as (_ & s0 & z & P & Lz & Cz & S). split; [exact R'|]. exists s0, z. split; [|split; [exact Lz|split; [|exact S]]].
  - destruct P as (L0 & _ & P). apply (preimage_s0 512 pos512); [exact L0|exact L1'|exact Lh|]. assert (Q : preimage 512 h c s0 s1) by (split; [exact L0|split; [exact L1|exact P]]).
    apply (preimage_s0 512 pos512) in Q; [|exact L0|exact L1|exact Lh]. eapply pcong_trans; [exact Q|]. apply pcong_req. rewrite !psub_req, !fl_mul_req by (rewrite ?L1, ?L1', ?Lh; apply Nat.le_refl).
    apply (Ring.rsub_proper 512 12289); [reflexivity|]. apply (Ring.rmul_req 512 pos512 12289); [exact (proj1 (pcong_req _ _ _ _) C)|reflexivity].
  - eapply pcong_trans; [exact Cz|exact C].
Qed.
Print Assumptions C80_malleable.
(** only the concatenation of message and salt is signed: any other cut has the same verdict *)
Theorem C80_salt_boundary : forall H hfuel fuel msgs salt msgs' salt' s1 h, msgs' ++ salt' = msgs ++ salt ->
  ext_verify H hfuel fuel msgs' salt' s1 h = ext_verify H hfuel fuel msgs salt s1 h.
Proof. intros H hfuel fuel msgs salt msgs' salt' s1 h E. unfold ext_verify, verify_with, hashToPointTETRATION. rewrite E. reflexivity. Qed.
Print Assumptions C80_salt_boundary.
(** forgery.py: a signature of Python's verifier (KeccaXOF) on [message] with salt [slice 1 41 sig] is accepted by the contract for every pair (message', salt') with the same bytes in a row,
    in particular with the salt moved into the signed message.  The contract's bound is strict, Python's is not. *)
Theorem C80_forgery : forall H, (forall m, length (H m) = 32%nat) -> (forall m, Forall (fun b => 0 <= b < 256) (H m)) ->
  forall h P hfuel fuel msg sig, PublicKey 512 h = Ok P -> length h = 512%nat -> (9 <= fuel)%nat -> verify hfuel P msg sig (KeccaXOF H) = Fin (Ok true) ->
  exists s1 c s0, decompress (skipn 41 sig) 625 512 = Ok (Some s1) /\ hash_to_point hfuel 512 msg (slice 1 41 sig) (KeccaXOF H) = Fin (Ok c) /\
    preimage 512 h c s0 s1 /\ sqnorm s0 + sqnorm s1 <= 34034726 /\
    (sqnorm s0 + sqnorm s1 < 34034726 -> forall msg' salt', msg' ++ salt' = slice 1 41 sig ++ msg -> ext_verify H hfuel fuel msg' salt' s1 h = Fin (Ok 0)).
Proof.
  intros H H32 HB h P hfuel fuel msg sig HP Lh Hf V. pose proof (verify_cases 512 h P hfuel msg sig (KeccaXOF H) HP Lh) as VC.
  assert (EL : pk_len P = Z.to_nat 666 /\ pk_bound P = 34034726) by (unfold PublicKey in HP; cbn [params bind] in HP; injection HP as <-; split; reflexivity). destruct EL as [EL EB]. rewrite EL, EB in VC.
  replace (Z.to_nat 666 - 41)%nat with 625%nat in VC by reflexivity. destruct (decompress (skipn 41 sig) 625 512) as [[s1|]|] eqn:ED; [|rewrite V in VC; discriminate..].
  destruct (hash_to_point hfuel 512 msg (slice 1 41 sig) (KeccaXOF H)) as [[c|]|] eqn:EH; [|rewrite V in VC; discriminate..].
  destruct VC as (b & V' & Vt & _). rewrite V in V'. injection V' as <-. destruct (proj1 Vt eq_refl) as (s0 & P0 & S). exists s1, c, s0. split; [reflexivity|]. split; [reflexivity|]. split; [exact P0|]. split; [exact S|].
  intros S' msg' salt' E. rewrite (C80_salt_boundary H hfuel fuel (slice 1 41 sig) msg msg' salt' s1 h E).
  assert (R : Forall (fun x => -12289 <= x <= 12289) s1).
  { apply Forall_forall. intros x Hx. pose proof (sqnorm_nonneg s0) as N0. assert (A : x ^ 2 <= sqnorm s1).
    { clear - Hx. induction s1 as [|y l IH]; [destruct Hx|]. pose proof (sqnorm_nonneg l) as Nl. unfold sqnorm in *. cbn [fold_right]. destruct Hx as [->|Hx]; [lia|]. specialize (IH Hx). pose proof (Z.square_nonneg y). rewrite Z.pow_2_r in *. lia. }
    rewrite Z.pow_2_r in A. clear - A N0 S. nia. }
  rewrite (C80_accepts_iff H hfuel fuel (slice 1 41 sig) msg s1 h c Hf Lh (proj1 (proj2 P0))).
  - split; [exact R|]. exists s0, s1. split; [exact P0|]. split; [apply P0|]. split; [apply pcong_refl|exact S'].
  - eapply Forall_impl; [|exact R]. intros x Hx. assert (12289 < 2 ^ 255) by reflexivity. cbv beta in *. lia.
  - apply (C26_tetration_is_keccaxof_swapped H H32 HB). exact EH.
Qed.
Print Assumptions C80_forgery.

(** non-vacuity: with a toy hash, a key and a signature accepted in Python, hence by the contract, with the message and salt cut elsewhere, and with one coefficient replaced *)
Lemma tt32 m : length (toy_hash m) = 32%nat. Proof. unfold toy_hash. rewrite !map_length, seq_length. reflexivity. Qed.
Lemma ttb m : Forall (fun b => 0 <= b < 256) (toy_hash m).
Proof. apply Forall_forall. intros x Hx. apply in_map_iff in Hx. destruct Hx as (i & <- & _). apply Z.mod_pos_bound. lia. Qed.
Definition some_ok {A} (r : fres A) : bool := match r with Fin (Ok _) => true | _ => false end.
Lemma some_ok_ex {A} (r : fres A) : some_ok r = true -> exists c, r = Fin (Ok c).
Proof. destruct r as [[c|]|]; try discriminate. intros _. exists c. reflexivity. Qed.
Lemma tt_run : exists c, hash_to_point 800 512 [65; 66; 67] (repeat 83 40) (KeccaXOF toy_hash) = Fin (Ok c).
Proof. apply some_ok_ex. vm_cast_no_check (eq_refl true). Qed.
Example C80_forgery_nontrivial : exists h P sig, PublicKey 512 h = Ok P /\ length h = 512%nat /\ verify 800 P [65; 66; 67] sig (KeccaXOF toy_hash) = Fin (Ok true) /\ slice 1 41 sig = repeat 83 40 /\
  decompress (skipn 41 sig) 625 512 = Ok (Some one) /\
  ext_verify toy_hash 800 9 (repeat 83 40 ++ [65]) [66; 67] one h = Fin (Ok 0) /\ ext_verify toy_hash 800 9 (repeat 83 40 ++ [65; 66; 67]) [] one h = Fin (Ok 0) /\
  ext_verify toy_hash 800 9 (repeat 83 40) [65; 66; 67] (map (fun x => x - 12289) one) h = Fin (Ok 0).
Proof.
  destruct tt_run as [c E]. destruct (accepted_instance 800 [65; 66; 67] (repeat 83 40) (KeccaXOF toy_hash) c (repeat_length _ _) E) as (P & EP & Lc & V).
  exists c, P, ([41] ++ repeat 83 40 ++ enc_one). split; [exact EP|]. split; [exact Lc|]. split; [exact V|]. split; [reflexivity|]. split; [exact dec_one|].
  assert (F0 : ext_verify toy_hash 800 9 (repeat 83 40) [65; 66; 67] one c = Fin (Ok 0)).
  { rewrite (C80_accepts_iff toy_hash 800 9 (repeat 83 40) [65; 66; 67] one c c ltac:(lia) Lc (eq_refl)).
    - split; [apply Forall_forall; intros x Hx; apply (proj1 (forallb_forall (fun x => (-12289 <=? x) && (x <=? 12289)) one) (eq_refl)) in Hx; apply andb_prop in Hx; destruct Hx as [A B]; apply Z.leb_le in A, B; split; assumption|].
      exists (repeat 0 512), one. split; [exact (preimage_one c c (repeat 0 512) Lc (repeat_length _ _) (pcong_zero_add c Lc))|]. split; [reflexivity|]. split; [apply pcong_refl|]. vm_compute. reflexivity.
    - apply Forall_forall. intros x Hx. apply (proj1 (forallb_forall (fun x => (- 2 ^ 255 <=? x) && (x <? 2 ^ 255)) one) (eq_refl)) in Hx. apply andb_prop in Hx. destruct Hx as [A B]. apply Z.leb_le in A. apply Z.ltb_lt in B. split; assumption.
    - apply (C26_tetration_is_keccaxof_swapped toy_hash tt32 ttb). exact E. }
  split; [|split].
  - rewrite (C80_salt_boundary toy_hash 800 9 (repeat 83 40) [65; 66; 67]); [exact F0|reflexivity].
  - rewrite (C80_salt_boundary toy_hash 800 9 (repeat 83 40) [65; 66; 67]); [exact F0|reflexivity].
  - refine (C80_malleable toy_hash 800 9 (repeat 83 40) [65; 66; 67] one (map (fun x => x - 12289) one) c ltac:(lia) eq_refl eq_refl _ _ _ F0).
    + apply Forall_forall. intros x Hx. apply (proj1 (forallb_forall (fun x => (-12289 <=? x) && (x <=? 12289)) one) (eq_refl)) in Hx. apply andb_prop in Hx. destruct Hx as [A B]. apply Z.leb_le in A, B. split; assumption.
    + apply Forall_forall. intros x Hx. apply (proj1 (forallb_forall (fun x => (-12289 <=? x) && (x <=? 12289)) (map (fun x => x - 12289) one)) (eq_refl)) in Hx. apply andb_prop in Hx. destruct Hx as [A B]. apply Z.leb_le in A, B. split; assumption.
    + intros i Hi. unfold coef. rewrite NttProofs.nth_map0 by exact Hi. exists 1. ring.
Qed.
