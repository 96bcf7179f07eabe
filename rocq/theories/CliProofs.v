(** Proofs about the command line model: files. *)
From Coq Require Import String.
From Verif Require Import Base PrngModel KeccakModel HashModel EncodingModel PolyModel FalconModel FalconProofs TextModel TextProofs CliModel.
Import List.

Lemma splitlines_l l rest : Forall (fun c => is_eol c = false) l -> splitlines_acc [] (l ++ [c_nl] ++ rest) = l :: splitlines_acc [] rest.
Proof. intros H. cbn [app]. now rewrite splitlines_line. Qed.
Lemma eol_app a b : Forall (fun c => is_eol c = false) a -> plain b -> Forall (fun c => is_eol c = false) (a ++ b).
Proof. intros. apply Forall_app. split; auto using plain_eol. Qed.
Lemma split_line nm v : plain nm -> plain v -> split_eq ((nm ++ [c_eq; c_space]) ++ v) = [nm; c_space :: v].
Proof.
  intros Hn Hv. unfold split_eq. rewrite <- app_assoc. cbn [app]. rewrite split_eq_line; auto using plain_eq.
  constructor; [discriminate|]. now apply plain_eq.
Qed.
Ltac concrete := repeat (constructor; [first [reflexivity | split; [reflexivity|discriminate]]|]); constructor.
Lemma line_app nm v rest : line nm v ++ rest = (chars nm ++ v) ++ [c_nl] ++ rest.
Proof. unfold line. now rewrite <- !app_assoc. Qed.

Lemma plain_val v : plain (str_val v). Proof. destruct v; [apply plain_int|apply plain_list]. Qed.

Lemma variables_pk n pk v : plain v ->
  variables (save_pk n pk v) = Ok [(chars "n ", c_space :: str_int n); (chars "pk ", c_space :: str_val pk); (chars "version ", c_space :: v)].
Proof.
  intros Hv. unfold variables, save_pk, splitlines.
  rewrite <- (app_nil_r (line "version = " v)). rewrite !line_app.
  rewrite splitlines_l by concrete.
  rewrite splitlines_l by (apply eol_app; [concrete|apply plain_int]).
  rewrite splitlines_l by (apply eol_app; [concrete|apply plain_val]).
  rewrite splitlines_l by (apply eol_app; [concrete|auto]).
  cbn [skipn splitlines_acc map].
  change (chars "n = ") with (chars "n " ++ [c_eq; c_space]). rewrite (split_line (chars "n ")) by first [concrete|apply plain_int].
  change (chars "pk = ") with (chars "pk " ++ [c_eq; c_space]). rewrite (split_line (chars "pk ")) by first [concrete|apply plain_val].
  change (chars "version = ") with (chars "version " ++ [c_eq; c_space]). rewrite (split_line (chars "version ")) by first [concrete|assumption].
  reflexivity.
Qed.

Lemma variables_sk n f g F G v : plain v ->
  variables (save_sk n f g F G v) = Ok [(chars "n ", c_space :: str_int n); (chars "f ", c_space :: str_list f); (chars "g ", c_space :: str_list g);
    (chars "F ", c_space :: str_list F); (chars "G ", c_space :: str_list G); (chars "version ", c_space :: v)].
Proof.
  intros Hv. unfold variables, save_sk, splitlines.
  rewrite <- (app_nil_r (line "version = " v)). rewrite !line_app.
  rewrite splitlines_l by concrete.
  rewrite splitlines_l by (apply eol_app; [concrete|apply plain_int]).
  do 4 rewrite splitlines_l by (apply eol_app; [concrete|apply plain_list]).
  rewrite splitlines_l by (apply eol_app; [concrete|auto]).
  cbn [skipn splitlines_acc map].
  change (chars "n = ") with (chars "n " ++ [c_eq; c_space]). rewrite (split_line (chars "n ")) by first [concrete|apply plain_int].
  change (chars "f = ") with (chars "f " ++ [c_eq; c_space]). rewrite (split_line (chars "f ")) by first [concrete|apply plain_list].
  change (chars "g = ") with (chars "g " ++ [c_eq; c_space]). rewrite (split_line (chars "g ")) by first [concrete|apply plain_list].
  change (chars "F = ") with (chars "F " ++ [c_eq; c_space]). rewrite (split_line (chars "F ")) by first [concrete|apply plain_list].
  change (chars "G = ") with (chars "G " ++ [c_eq; c_space]). rewrite (split_line (chars "G ")) by first [concrete|apply plain_list].
  change (chars "version = ") with (chars "version " ++ [c_eq; c_space]). rewrite (split_line (chars "version ")) by first [concrete|assumption].
  reflexivity.
Qed.

Lemma lookup_here k v d : (forall k' v', In (k', v') d -> seqb k' k = false) -> lookup ((k, v) :: d) k = Ok v.
Proof.
  intros H. unfold lookup. cbn [rev]. assert (X : forall l : list (list Z * list Z), (forall k' v', In (k', v') l -> seqb k' k = false) -> find (fun p : list Z * list Z => seqb (fst p) k) l = None).
  { induction l as [|[a b] l IH]; intros Hl; cbn [find]; [reflexivity|]. cbn [fst]. rewrite (Hl a b) by now left. apply IH. intros; eapply Hl; right; eauto. }
  assert (Y : forall l, find (fun p : list Z * list Z => seqb (fst p) k) l = None -> find (fun p : list Z * list Z => seqb (fst p) k) (l ++ [(k, v)]) = Some (k, v)).
  { induction l as [|[a b] l IH]; cbn [app find fst].
    - intros _. unfold seqb. destruct (list_eq_dec Z.eq_dec k k); congruence.
    - destruct (seqb a k); [discriminate|auto]. }
  rewrite Y; auto. apply X. intros k' v' Hi. apply (H k' v'). now apply in_rev.
Qed.
Lemma lookup_next k k' v d : seqb k' k = false -> lookup ((k', v) :: d) k = lookup d k.
Proof.
  intros H. unfold lookup. cbn [rev].
  assert (Y : forall l, find (fun p : list Z * list Z => seqb (fst p) k) (l ++ [(k', v)]) = find (fun p : list Z * list Z => seqb (fst p) k) l).
  { induction l as [|[a b] l IH]; cbn [app find fst]; [now rewrite H|]. destruct (seqb a k); auto. }
  now rewrite Y.
Qed.
Ltac keys := let k' := fresh in let v' := fresh in let H := fresh in intros k' v' H; cbn [In] in H;
  repeat (destruct H as [H|H]; [injection H as <- _; reflexivity|]); contradiction.
Ltac lk := repeat (first [rewrite lookup_here by keys | rewrite lookup_next by reflexivity]); cbn [bind].

Definition starts_blank (v : list Z) : bool := match v with c :: _ => is_space c | [] => false end.
Lemma lstrip_version v : starts_blank v = false -> lstrip (c_space :: v) = v.
Proof. intros H. change (lstrip (c_space :: v)) with (lstrip v). destruct v as [|c v]; [reflexivity|]. now apply lstrip_keep. Qed.

Lemma literal_val v : literal_eval (c_space :: str_val v) = Ok v.
Proof. destruct v; [apply literal_eval_int|apply literal_eval_list]. Qed.

Lemma load_pk_args_save n pk v : plain v -> starts_blank v = false ->
  load_pk_args (save_pk n pk v) = Ok (match vclass v with Vunsupported => None | c => Some (c, n, pk, v) end).
Proof.
  intros Hv Hb. unfold load_pk_args. rewrite variables_pk by auto. cbn [bind]. lk. rewrite py_int_spec. cbn [bind].
  lk. rewrite literal_val. cbn [bind]. lk. rewrite lstrip_version by auto. now destruct (vclass v).
Qed.
Lemma load_sk_save n f g F G v : plain v -> starts_blank v = false ->
  load_sk (save_sk n f g F G v) = match vclass v with
    | Vunsupported => Ok None
    | c => let! _ := build_pk n in let! K := SecretKey (Z.to_nat n) f g F G in Ok (Some (c, K, v)) end.
Proof.
  intros Hv Hb. unfold load_sk. rewrite variables_sk by auto. cbn [bind]. lk. rewrite py_int_spec. cbn [bind].
  do 4 (lk; rewrite literal_eval_list; cbn [bind]). lk. rewrite lstrip_version by auto. cbn [as_list bind]. now destruct (vclass v).
Qed.

Lemma params_build n b l lg : params n = Ok (b, l, lg) -> build_pk (Z.of_nat n) = Ok tt.
Proof. unfold params, build_pk. destruct (find _ _); [reflexivity|discriminate]. Qed.
