(** Specification vocabulary for the signature schemes, independent of the code. *)
From Verif Require Import Base RingSpec.

(** squared Euclidean norm *)
Definition sqnorm (v : list Z) : Z := fold_right (fun c s => c ^ 2 + s) 0 v.
(** (f, g, F, G) solve the NTRU equation f*G - g*F = q in Z[x]/(x^n+1), and f is invertible modulo q *)
Definition ntru_key (n : nat) (f g F G : list Z) : Prop :=
  length f = n /\ length g = n /\ length F = n /\ length G = n /\
  psub n (negmul n f G) (negmul n g F) = pconst n 12289 /\
  exists u, length u = n /\ pcong n 12289 (negmul n u f) (pconst n 1).
(** (v0, v1) is the integer combination z0 * (g, -f) + z1 * (G, -F) of the rows of the secret basis *)
Definition lattice_point (n : nat) (f g F G v0 v1 : list Z) : Prop :=
  exists z0 z1, length z0 = n /\ length z1 = n /\
    v0 = padd n (negmul n z0 g) (negmul n z1 G) /\
    v1 = psub n (psub n [] (negmul n z0 f)) (negmul n z1 F).
(** h is the public key of (f, g): h*f = g modulo q, coefficients in [0, q) *)
Definition public_of (n : nat) (f g h : list Z) : Prop :=
  length h = n /\ Forall (fun c => 0 <= c < 12289) h /\ pcong n 12289 (negmul n h f) g.
(** (s0, s1) is a preimage of c under the public key h: s0 + s1*h = c modulo q *)
Definition preimage (n : nat) (h c s0 s1 : list Z) : Prop :=
  length s0 = n /\ length s1 = n /\ pcong n 12289 (padd n s0 (negmul n s1 h)) c.
(** s is invertible modulo (q, x^n + 1) *)
Definition unit_mod (n : nat) (s : list Z) : Prop := exists u, length u = n /\ pcong n 12289 (negmul n u s) (pconst n 1).
