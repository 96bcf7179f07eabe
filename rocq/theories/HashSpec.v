(** Specification of hash-to-point: rejection sampling on a byte stream. *)
From Coq Require Import ZArith List.
Import ListNotations.
Open Scope Z_scope.

(** big-endian 16-bit word k of a byte stream *)
Definition word16 (b : nat -> Z) (k : nat) : Z := 256 * b (2 * k)%nat + b (2 * k + 1)%nat.
(** the accepted values among the first N words *)
Definition accepted (w : nat -> Z) (N : nat) : list Z :=
  map (fun x => x mod 12289) (filter (fun x => x <? 5 * 12289) (map w (seq 0 N))).
(** v is the list of the first n accepted values (N words are enough, fewer are not) *)
Definition first_accepted (w : nat -> Z) (n : nat) (N : nat) (v : list Z) : Prop :=
  v = accepted w N /\ length v = n /\ forall N', (N' < N)%nat -> (length (accepted w N') < n)%nat.
