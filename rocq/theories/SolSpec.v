(** Specification vocabulary for the contracts, independent of the code. *)
From Verif Require Import Base RingSpec.

(** the number whose base-65536 digits are ds, least significant first *)
Definition word16s (ds : list Z) : Z := fold_right (fun d w => d + 65536 * w) 0 ds.
(** ws is the compact form of l: 16 coefficients of 16 bits per word, the first one in the least significant bits *)
Definition packed (ws l : list Z) : Prop :=
  length l = (16 * length ws)%nat /\ Forall (fun d => 0 <= d < 65536) l /\
  forall i, (i < length ws)%nat -> nth i ws 0 = word16s (firstn 16 (skipn (16 * i) l)).
(** the square counted by the contracts for a 16-bit coefficient x: that of x or of q - x *)
Definition csq (x : Z) : Z := if 6144 <? x then (12289 - x) ^ 2 else x ^ 2.
Definition sum_csq (l : list Z) : Z := fold_right (fun x s => csq x + s) 0 l.
(** product of the entries *)
Definition product (l : list Z) : Z := fold_right Z.mul 1 l.
(** what a 16-bit coefficient x of s1 stands for in the subtraction q - x of 256-bit words *)
Definition wrapped (x : Z) : Z := if 12289 <? x then x - 2 ^ 256 else x.
