(** Model of the rest of /repo/pythonref/ffsampling.py: the coefficient-format ldl, ffldl, ffnp and the FFT-format ffnp_fft, generic in the kind of number like FftModel.v. *)
From Verif Require Import Base FftModel.
Import List.

Section Ffnp.
Context {T : Type}.
Variable N : num T.
Notation C := (T * T)%type.
Variable roots : nat -> list C.

(** fft.py:107-114: sub(f, g) = add(f, neg(g)) *)
Definition subc (f g : list T) : res (list T) := add N f (map (nopp N) g).
(** ffsampling.py:35-60; the entries L10, D00, D11 *)
Definition ldl (g00 g10 g11 : list T) : res (list T * list T * list T) :=
  let! l10 := div N roots g10 g00 in
  let! x := adj N roots l10 in let! x := mul N roots l10 x in let! x := mul N roots x g00 in
  let! d11 := subc g11 x in Ok (l10, g00, d11).
(** trees in coefficient format; a leaf is the list D[i][i], with the element of index 1 set to 0 *)
Inductive ctree := CLeaf (x : list T) | CNode (l10 : list T) (T0 T1 : ctree).
(** ffsampling.py:89-115. G[0][1] is not read by ldl. *)
Fixpoint ffldl (fuel : nat) (g00 g10 g11 : list T) : res ctree :=
  match fuel with
  | O => Raise OtherException
  | S fuel' =>
    let! (l10, d0, d1) := ldl g00 g10 g11 in
    if (2 <? length g00)%nat then
      let! a0 := adj N roots (odds d0) in
      let! a1 := adj N roots (odds d1) in
      let! t0 := ffldl fuel' (evens d0) a0 (evens d0) in
      let! t1 := ffldl fuel' (evens d1) a1 (evens d1) in
      Ok (CNode l10 t0 t1)
    else match d0, d1 with
         | [a; _], [b; _] => Ok (CNode l10 (CLeaf [a; nofZ N 0]) (CLeaf [b; nofZ N 0]))
         | _, _ => Raise OtherException
         end
  end.
(** ffsampling.py:142-163. The results are Python integers; they are converted in sub(t[1], z[1]). On vectors of length 1 the tree is not looked at; on longer ones
    a leaf (a list of two numbers) cannot be unpacked into three. *)
Fixpoint ffnp (t : ctree) (t0 t1 : list T) : res (list Z * list Z) :=
  if (1 <? length t0)%nat then
    match t with
    | CLeaf _ => Raise ValueError
    | CNode l10 T0 T1 =>
      let! (a, b) := ffnp T1 (evens t1) (odds t1) in
      let z1 := merge a b in
      let! x := subc t1 (map (nofZ N) z1) in let! x := mul N roots x l10 in let! t0b := add N t0 x in
      let! (a, b) := ffnp T0 (evens t0b) (odds t0b) in
      Ok (merge a b, z1)
    end
  else match t0, t1 with
       | [a], b :: _ => Ok ([nround N a], [nround N b])
       | [a], [] => Raise IndexError
       | _, _ => Raise OtherException       (* None is returned *)
       end.
(** ffsampling.py:165-187 *)
Fixpoint ffnp_fft (t : tree (T := T)) (t0 t1 : list C) : res (list C * list C) :=
  if (1 <? length t0)%nat then
    match t with
    | Leaf _ => Raise ValueError
    | Node l10 T0 T1 =>
      let (u, v) := split_fft N roots t1 in
      let! (a, b) := ffnp_fft T1 u v in
      let z1 := merge_fft N roots a b in
      let! x := sub_fft N t1 z1 in let! x := mul_fft N x l10 in let! t0b := add_fft N t0 x in
      let (u, v) := split_fft N roots t0b in
      let! (a, b) := ffnp_fft T0 u v in
      Ok (merge_fft N roots a b, z1)
    end
  else match t0, t1 with
       | [a], b :: _ => Ok ([cofZ N (nround N (fst a))], [cofZ N (nround N (fst b))])
       | [a], [] => Raise IndexError
       | _, _ => Raise OtherException
       end.
(** test.py:88-100: the trees of the basis B0 = [[g, -f], [G, -F]] in both formats *)
Definition gram_of (f g F G : list Z) : res (list T * list T * list T * list T) :=
  let negl := map Z.opp in gram N roots (tofl N g, tofl N (negl f)) (tofl N G, tofl N (negl F)).
Definition key_tree (f g F G : list Z) : res ctree :=
  let! (g00, g01, g10, g11) := gram_of f g F G in ffldl (length g00) g00 g10 g11.
Definition key_tree_fft (f g F G : list Z) : res (tree (T := T)) :=
  let! (g00, g01, g10, g11) := gram_of f g F G in
  let! g00 := fft N roots g00 in let! g01 := fft N roots g01 in let! g10 := fft N roots g10 in let! g11 := fft N roots g11 in
  ffldl_fft N roots (length g00) g00 g01 g10 g11.
(** test.py:28-44, on B = [[g, neg(f)], [G, neg(F)]]; and test.py:114-115: the difference to the target, times the basis *)
Definition vecmatmul (t0 t1 : list T) (f g F G : list Z) : res (list T * list T) :=
  let negl := map Z.opp in
  let col a b := let! x := mul N roots t0 (tofl N a) in let! v := add N (repeat (nofZ N 0) (length g)) x in let! x := mul N roots t1 (tofl N b) in add N v x in
  let! v0 := col g G in let! v1 := col (negl f) (negl F) in Ok (v0, v1).
Definition diffB (f g F G : list Z) (t0 t1 : list T) (z0 z1 : list Z) : res (list T * list T) :=
  let! d0 := subc t0 (map (nofZ N) z0) in let! d1 := subc t1 (map (nofZ N) z1) in vecmatmul d0 d1 f g F G.
End Ffnp.
