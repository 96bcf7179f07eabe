(** Property theorems C01-C05: pythonref/encoding.py.  Statements only; proofs in EncodingProofs. *)
From Verif Require Import Base EncodingSpec EncodingModel EncodingProofs.

(** C01: whatever compress returns, decompress gives the vector back. *)
Theorem C01_compress_roundtrip : forall (v : list Z) (slen slen' : nat) (x : list Z),
  v <> [] -> (slen <= slen')%nat ->
  compress v slen = Some x -> decompress x slen' (length v) = Ok (Some v).
Proof. exact compress_decompress. Qed.
Print Assumptions C01_compress_roundtrip.

Example C01_nontrivial :
  compress [-200; 0; 127; 128; 1000; -1; 2047] 12 <> None /\ [-200; 0; 127; 128; 1000; -1; 2047] <> [].
Proof. split; [vm_compute|]; discriminate. Qed.

(** The empty vector is the exception (its encoding has no 1 bit). *)
Theorem C01_empty_vector_refuted : exists slen x,
  compress [] slen = Some x /\ decompress x slen 0 <> Ok (Some []).
Proof. exists 2%nat. eexists. split; [reflexivity|]. vm_compute. discriminate. Qed.

(** C02: length and failure condition. *)
Theorem C02_compress_fails_iff_too_long : forall v slen,
  compress v slen = None <-> 8 * Z.of_nat slen < total_cost v.
Proof. exact compress_none. Qed.
Print Assumptions C02_compress_fails_iff_too_long.

Theorem C02_compress_length : forall v slen x,
  compress v slen = Some x -> length x = slen /\ Forall (fun b => 0 <= b < 256) x.
Proof. intros v slen x H. destruct (compress_some_bits v slen x H) as (A & B & _). exact (conj B A). Qed.
Print Assumptions C02_compress_length.

(** The cost is exactly the length of any valid encoding of the specification. *)
Theorem C02_cost_is_spec_length : forall v w, encodes_all v w -> Z.of_nat (length w) = total_cost v.
Proof. intros v w H. rewrite (encodes_all_unique v w H). exact (compress_bits_length v). Qed.

Example C02_boundary :
  total_cost [0; 0; 0; 0; 0; 0; 0; 0] = 72 /\
  compress [0; 0; 0; 0; 0; 0; 0; 0] 9 <> None /\ compress [0; 0; 0; 0; 0; 0; 0; 128] 9 = None.
Proof. repeat split; vm_compute; congruence. Qed.

(** C03: the accepted inputs. *)
Theorem C03_decompress_accepts_iff : forall (x : list Z) (slen n : nat) (v : list Z), (1 <= n)%nat ->
  decompress x slen n = Ok (Some v) <->
  ((length x <= slen)%nat /\ length v = n /\
   exists w rest, encodes_all v w /\ bytes_bits x = w ++ rest).
Proof. exact decompress_accepts. Qed.
Print Assumptions C03_decompress_accepts_iff.

(** Each coefficient has a single valid encoding in the specification. *)
Theorem C03_spec_encoding_unique : forall v w1 w2, encodes_all v w1 -> encodes_all v w2 -> w1 = w2.
Proof.
  intros v w1 w2 H1 H2. rewrite (encodes_all_unique v w1 H1). symmetry. exact (encodes_all_unique v w2 H2).
Qed.

Example C03_nontrivial : decompress [5; 192; 191] 9 2 = Ok (Some [5; -129]).
Proof. vm_compute. reflexivity. Qed.

(** C04: the exceptions, exactly. *)
Theorem C04_decompress_raises_iff : forall (x : list Z) (slen n : nat) (e : exn),
  decompress x slen n = Raise e <->
  (length x <= slen)%nat /\
  ((e = IndexError /\ ~ In true (bytes_bits x)) \/
   (e = ValueError /\ exists v w k, (length v < n)%nat /\ encodes_all v w /\
        bytes_bits x = w ++ true :: repeat false k)).
Proof. exact decompress_raises. Qed.
Print Assumptions C04_decompress_raises_iff.

(** so decompress is not total: both exceptions occur. *)
Theorem C04_decompress_total_refuted :
  (exists x, bytes x /\ decompress x 625 512 = Raise IndexError) /\
  (exists x, bytes x /\ decompress x 625 512 = Raise ValueError).
Proof.
  split.
  - exists [0; 0]. split; [repeat constructor; unfold is_byte; lia|reflexivity].
  - exists [128]. split; [repeat constructor; unfold is_byte; lia|reflexivity].
Qed.

(** C05: every encoding with at least one padding bit can be altered. *)
Theorem C05_encoding_malleable : forall v slen x, v <> [] ->
  compress v slen = Some x -> total_cost v < 8 * Z.of_nat slen ->
  exists x', bytes x' /\ length x' = length x /\ x' <> x /\
    decompress x' slen (length v) = Ok (Some v).
Proof. exact compress_malleable. Qed.
Print Assumptions C05_encoding_malleable.

(** and precisely the altered ones are those with a 1 bit in the padding. *)
Theorem C05_canonical_iff_zero_padding : forall x slen v,
  bytes x -> length x = slen -> v <> [] ->
  decompress x slen (length v) = Ok (Some v) ->
  (compress v slen = Some x <->
   forall w rest, encodes_all v w -> bytes_bits x = w ++ rest -> ~ In true rest).
Proof. exact decompress_canonical_spec. Qed.
Print Assumptions C05_canonical_iff_zero_padding.

Example C05_nontrivial : compress [3; -7] 5 <> None /\ total_cost [3; -7] < 40.
Proof. split; [vm_compute; discriminate|reflexivity]. Qed.
