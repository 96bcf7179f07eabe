(** Model of external/NTT_Recursive.sol and external/ETHFalcon_Recursive.sol (the recursive verifier, with storage tables).  Checked arithmetic (Solidity 0.8)
    and array bounds: Revert.  Gas and the recursion limit are not modelled; [fuel] bounds the depth of the recursion and NoFuel is a separate result.
    External calls between the two contracts are plain calls. *)
From Verif Require Import Base HashModel ExtTables.

Definition mulmod (a b : Z) : Z := (a * b) mod q.
Definition addmod (a b : Z) : Z := (a + b) mod q.
(** checked subtraction of words and checked array access *)
Definition csub (a b : Z) : res Z := if a <? b then Raise Revert else Ok (a - b).
Definition idx (l : list Z) (i : nat) : res Z := if (i <? length l)%nat then Ok (nth i l 0) else Raise Revert.
Fixpoint mapr {A B} (f : A -> res B) (l : list A) : res (list B) :=
  match l with [] => Ok [] | x :: l => let! y := f x in let! ys := mapr f l in Ok (y :: ys) end.
Definition fbind {A B} (r : fres A) (f : A -> fres B) : fres B :=
  match r with Fin (Ok a) => f a | Fin (Raise e) => Fin (Raise e) | NoFuel => NoFuel end.
(** NTT_Recursive.sol:7-8 *)
Definition i2 : Z := 6145.
Definition sqr1 : Z := 1479.
(** NTT_Recursive.sol:10-31: the mapping w; absent keys are empty arrays *)
Definition wt (N : nat) : list Z :=
  if (N =? 2)%nat then w2 else if (N =? 4)%nat then w4 else if (N =? 8)%nat then w8 else if (N =? 16)%nat then w16 else if (N =? 32)%nat then w32 else
  if (N =? 64)%nat then w64 else if (N =? 128)%nat then w128 else if (N =? 256)%nat then w256 else if (N =? 512)%nat then w512 else [].
(** NTT_Recursive.sol:92-95: even and odd entries *)
Definition sp0 (p : list Z) : list Z := map (fun i => nth (2 * i) p 0) (seq 0 (length p / 2)).
Definition sp1 (p : list Z) : list Z := map (fun i => nth (2 * i + 1) p 0) (seq 0 (length p / 2)).
(** NTT_Recursive.sol:130-144 *)
Definition mergeNTT (p0 p1 : list Z) : res (list Z) :=
  let dizN := (length p0 * 2)%nat in
  let! r := mapr (fun i =>
    let! x := idx p0 i in let! wi := idx (wt dizN) (2 * i) in let! y := idx p1 i in
    let! ng := csub q (mulmod wi y) in
    Ok [addmod x (mulmod wi y); addmod x ng]) (seq 0 (length p0)) in
  Ok (concat r).
(** NTT_Recursive.sol:87-110 *)
Fixpoint nTT (fuel : nat) (p : list Z) : fres (list Z) :=
  match fuel with
  | O => NoFuel
  | S fuel' =>
    if (2 <? length p)%nat then
      fbind (nTT fuel' (sp0 p)) (fun p0 => fbind (nTT fuel' (sp1 p)) (fun p1 => Fin (mergeNTT p0 p1)))
    else Fin (let! a := idx p 0 in let! b := idx p 1 in
              let! ng := csub q (mulmod b sqr1) in
              Ok [addmod a (mulmod b sqr1); addmod a ng])
  end.
(** NTT_Recursive.sol:71-85 *)
Definition splitNTT (p : list Z) : res (list Z * list Z) :=
  let dizN := length p in
  let! r := mapr (fun i =>
    let! a := idx p (2 * i) in let! b := idx p (2 * i + 1) in
    let! ng := csub q b in
    let tmp := mulmod i2 (addmod a ng) in
    let! wi := idx (wt dizN) (2 * i) in let! iv := idx inv_mod_q (Z.to_nat wi) in
    Ok (mulmod i2 (addmod a b), mulmod tmp iv)) (seq 0 (dizN / 2)) in
  Ok (map fst r, map snd r).
(** NTT_Recursive.sol:54-57: interleave *)
Definition interleave (p0 p1 : list Z) : list Z := flat_map (fun i => [nth i p0 0; nth i p1 0]) (seq 0 (length p0)).
(** NTT_Recursive.sol:45-69 *)
Fixpoint iNTT (fuel : nat) (p : list Z) : fres (list Z) :=
  match fuel with
  | O => NoFuel
  | S fuel' =>
    if (2 <? length p)%nat then
      fbind (Fin (splitNTT p)) (fun '(p0, p1) => fbind (iNTT fuel' p0) (fun p0 => fbind (iNTT fuel' p1) (fun p1 => Fin (Ok (interleave p0 p1)))))
    else Fin (let! a := idx p 0 in let! b := idx p 1 in
              let! ng := csub q b in
              let! iv := idx inv_mod_q (Z.to_nat sqr1) in
              Ok [mulmod i2 (addmod a b); mulmod (mulmod i2 iv) (addmod a ng)])
  end.
(** NTT_Recursive.sol:146-153 *)
Definition mulNTT (a b : list Z) : res (list Z) :=
  if (length a =? length b)%nat then Ok (map (fun i => mulmod (nth i a 0) (nth i b 0)) (seq 0 (length a))) else Raise Revert.
(** NTT_Recursive.sol:36-43 *)
Definition mulZQ (fuel : nat) (a b : list Z) : fres (list Z) :=
  fbind (nTT fuel a) (fun x => fbind (nTT fuel b) (fun y => fbind (Fin (mulNTT x y)) (iNTT fuel))).
Definition mulZQ_opt (fuel : nat) (a b : list Z) : fres (list Z) :=
  fbind (nTT fuel a) (fun x => fbind (Fin (mulNTT x b)) (iNTT fuel)).
(** NTT_Recursive.sol:155-177 *)
Definition negZQ (a : list Z) : res (list Z) := mapr (csub q) a.
Definition addZQ (a b : list Z) : res (list Z) :=
  if (length a =? length b)%nat then Ok (map (fun i => addmod (nth i a 0) (nth i b 0)) (seq 0 (length a))) else Raise Revert.
Definition subZQ (a b : list Z) : res (list Z) :=
  if (length a =? length b)%nat then let! nb := negZQ b in addZQ a nb else Raise Revert.

Definition qs1 : Z := 6144.            (* ZKNOX_falcon_utils.sol:48 *)
Definition sigBound : Z := 34034726.   (* ZKNOX_falcon_utils.sol:39 *)
(** ETHFalcon_Recursive.sol:36-42 and 82-88: int256 to word; q + s does not overflow for s < 0 *)
Definition to_word (s : Z) : Z := if s <? 0 then (q + s) mod 2 ^ 256 else s.
(** ETHFalcon_Recursive.sol:47-52, 55-61 *)
Definition normalize (x : Z) : res Z := if qs1 <? x then csub q x else Ok x.
(** ETHFalcon_Recursive.sol:47-71 and 92-114 (s0, s1 of 512 entries): the address returned is always 0; the sum stays far below 2^256 *)
Definition norm_check (s0 s1 : list Z) : res Z :=
  let! s0 := mapr normalize s0 in
  let! s1 := mapr normalize s1 in
  let norm := fold_left (fun a i => a + nth i s0 0 * nth i s0 0 + nth i s1 0 * nth i s1 0) (seq 0 512) 0 in
  if norm <? sigBound then Ok 0 else Raise Revert.
Section Verify.
Variable H : list Z -> list Z. (* keccak256 *)
(** ETHFalcon_Recursive.sol:29-72, with [mul] = mulZQ, and 75-116 (verify_nttpub) with [mul] = mulZQ_opt; [hfuel] bounds the loop of hashToPointTETRATION *)
Definition verify_with (mul : nat -> list Z -> list Z -> fres (list Z)) (hfuel fuel : nat) (msgs salt s1 h : list Z) : fres Z :=
  if negb (length h =? 512)%nat then Fin (Raise Revert)
  else if negb (length s1 =? 512)%nat then Fin (Raise Revert)
  else
    let s1 := map to_word s1 in
    match hashToPointTETRATION H hfuel salt msgs with
    | None => NoFuel
    | Some hashed => fbind (mul fuel s1 h) (fun p => fbind (Fin (subZQ hashed p)) (fun s0 => Fin (norm_check s0 s1)))
    end.
Definition ext_verify := verify_with mulZQ.
Definition ext_verify_nttpub := verify_with mulZQ_opt.
End Verify.
