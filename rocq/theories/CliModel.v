(** Model of /repo/pythonref/sign_cli.py: key and signature files, deterministic signing, transaction hash, version dispatch, command line actions.
    Files are the strings written; argparse, printing and the external command "cast" are not modelled. *)
From Coq Require Import String.
From Verif Require Import Base PrngModel KeccakModel HashModel EncodingModel PolyModel FalconModel TextModel SolModel.

(** sign_cli.py:41-46; [pk] is the printed value of pk.pk: a list (PublicKey) or an integer (recovery modes) *)
Definition str_val (v : pyval) : list Z := match v with PInt z => str_int z | PList l => str_list l end.
Definition line (name : string) (v : list Z) : list Z := chars name ++ v ++ [c_nl].
Definition save_pk (n : Z) (pk : pyval) (version : list Z) : list Z :=
  chars "# public key" ++ [c_nl] ++ line "n = " (str_int n) ++ line "pk = " (str_val pk) ++ line "version = " version.
(** sign_cli.py:49-57 *)
Definition save_sk (n : Z) (f g F G : list Z) (version : list Z) : list Z :=
  chars "# private key" ++ [c_nl] ++ line "n = " (str_int n) ++ line "f = " (str_list f) ++ line "g = " (str_list g) ++
  line "F = " (str_list F) ++ line "G = " (str_list G) ++ line "version = " version.
(** sign_cli.py:60-62, 108-111 *)
Definition save_signature (sig : list Z) : list Z := hex sig.
Definition load_signature (data : list Z) : res (list Z) := fromhex data.

(** sign_cli.py:68-70, 88-90 *)
Definition variables (data : list Z) : res (list (list Z * list Z)) := to_dict (map split_eq (skipn 1 (splitlines data))).

(** which class is built *)
Inductive version_class := Vfalcon | Vrec | Vep | Vunsupported.
Definition vclass (v : list Z) : version_class :=
  if seqb v (chars "ethfalcon") || seqb v (chars "falcon") then Vfalcon
  else if seqb v (chars "falconrec") then Vrec
  else if seqb v (chars "epervier") then Vep else Vunsupported.

(** sign_cli.py:65-82: the class, n and pk handed to its constructor, and the version string; None when the version is not supported.
    The constructors are in [build_pk]. *)
Definition load_pk_args (data : list Z) : res (option (version_class * Z * pyval * list Z)) :=
  let! vars := variables data in
  let! vn := lookup vars (chars "n ") in let! n := py_int vn in
  let! vp := lookup vars (chars "pk ") in let! pk := literal_eval vp in
  let! vv := lookup vars (chars "version ") in let version := lstrip vv in
  match vclass version with
  | Vunsupported => Ok None
  | c => Ok (Some (c, n, pk, version))
  end.
(** falcon.py:222-228, falcon_recovery.py:15-22, falcon_epervier.py:15-22: the constructors store pk as it is and look n up in Params *)
Definition build_pk (n : Z) : res unit :=
  match find (fun p => fst p =? n) ParamTable with Some _ => Ok tt | None => Raise KeyError end.
Definition load_pk (data : list Z) : res (option (version_class * Z * pyval * list Z)) :=
  let! r := load_pk_args data in
  match r with
  | None => Ok None
  | Some (c, n, pk, v) => let! _ := build_pk n in Ok (Some (c, n, pk, v))
  end.

(** sign_cli.py:85-105. The three classes share SecretKey.__init__ (falcon_recovery.py:80-87 and falcon_epervier.py:76-85 add the address);
    a polynomial which is not a list has no len: TypeError *)
Definition as_list (v : pyval) : res (list Z) := match v with PList l => Ok l | PInt _ => Raise TypeError end.
Definition load_sk (data : list Z) : res (option (version_class * seckey * list Z)) :=
  let! vars := variables data in
  let! vn := lookup vars (chars "n ") in let! n := py_int vn in
  let! vf := lookup vars (chars "f ") in let! f := literal_eval vf in
  let! vg := lookup vars (chars "g ") in let! g := literal_eval vg in
  let! vF := lookup vars (chars "F ") in let! F := literal_eval vF in
  let! vG := lookup vars (chars "G ") in let! G := literal_eval vG in
  let! vv := lookup vars (chars "version ") in let version := lstrip vv in
  match vclass version with
  | Vunsupported => Ok None
  | c =>
    let! _ := build_pk n in
    let! f := as_list f in let! g := as_list g in let! F := as_list F in let! G := as_list G in
    let! K := SecretKey (Z.to_nat n) f g F G in Ok (Some (c, K, version))
  end.

(** sign_cli.py:114-129: the sponge which serves as source of randomness; it is read without having been padded ([shake_flip] is never called) *)
Definition det_sponge (h data : list Z) : khash :=
  shake_update (shake_update (shake_update (shake_update shake_new (repeat 1 32)) [0]) (flat_map (to_be 2) h)) data.
Definition SEED_LEN := 48%nat. (* falcon.py:46 *)
(** falcon.py:451, 455 and falcon_recovery.py:99, 109-110: the salt is the first read, then come the seeds.
    SecretKey.sign reads one seed, absorbs it in a fresh SHAKE and takes 56 bytes per attempt (falcon.py:456-457, 465); the recovery modes read one seed per attempt. *)
Definition cli_salt (h data : list Z) : list Z := snd (shake_read (det_sponge h data) SALT_LEN).
Fixpoint nth_read (s : khash) (len k : nat) : list Z :=
  let (s', b) := shake_read s len in match k with O => b | S k' => nth_read s' len k' end.
Definition cli_seed (h data : list Z) (k : nat) : list Z := nth_read (fst (shake_read (det_sponge h data) SALT_LEN)) SEED_LEN k.
Definition cli_attempt_seed (c : version_class) (h data : list Z) (i : nat) : list Z :=
  match c with
  | Vfalcon => nth_read (shake_flip (shake_update shake_new (cli_seed h data 0))) 56 i
  | _ => cli_seed h data i
  end.

Section Cli.
Variable Hk : list Z -> list Z.   (* keccak-256 *)
(** the lattice sampler, a deterministic function of the key, of the seed of the attempt and of the point (floating point, not modelled) *)
Variable smp : seckey -> list Z -> list Z -> list Z * list Z.

(** sign_cli.py:131-134: xof is SHAKE when version is 'falcon' or 'epervier', else KeccakPRNG *)
Definition cli_xof (v : list Z) : xof :=
  if seqb v (chars "falcon") || seqb v (chars "epervier") then SHAKE else KeccakPRNG Hk.
(** sign_cli.py:114-134; sk.sign is the method of the class [c] of the key *)
Definition cli_signature (fh fuel : nat) (c : version_class) (K : seckey) (data version : list Z) : fres (list Z) :=
  let S i point := smp K (cli_attempt_seed c (sk_h K) data i) point in
  let rb _ := cli_salt (sk_h K) data in
  match c with
  | Vfalcon => sign fh fuel K S rb data (cli_xof version)
  | _ => rec_sign fh fuel K S rb data (cli_xof version)
  end.

(** sign_cli.py:168-175, [verify] is the method of the class of the key *)
Definition cli_verify (verify : xof -> fres bool) (version : list Z) : fres bool :=
  if seqb version (chars "falcon") || seqb version (chars "epervier") then verify SHAKE
  else if seqb version (chars "ethfalcon") then verify (KeccakPRNG Hk)
  else Fin (Raise UnboundLocalError).

(** * Transactions, sign_cli.py:137-146 *)
(** eth_abi encode of ["uint256", "uint160", "bytes", "uint256"]: four head words (the third is the offset of the tail), then length, data and
    zero padding to a multiple of 32. Out-of-range integers raise (OtherException). *)
Definition abi_encode_tx (nonce to : Z) (data : list Z) (value : Z) : res (list Z) :=
  if (0 <=? nonce) && (nonce <? 2 ^ 256) && (0 <=? to) && (to <? 2 ^ 160) && (0 <=? value) && (value <? 2 ^ 256) then
    Ok (to_be 32 nonce ++ to_be 32 to ++ to_be 32 128 ++ to_be 32 value ++
        to_be 32 (Z.of_nat (length data)) ++ data ++ repeat 0 ((32 - length data mod 32) mod 32))
  else Raise OtherException.
Definition transaction_hash (nonce to : Z) (data : list Z) (value : Z) : res (list Z) :=
  let! p := abi_encode_tx nonce to data value in Ok (Hk p).
End Cli.

(** * Command line actions, sign_cli.py:359-400 *)
Section Cmd.
Variable Hk : list Z -> list Z.
Variable smp : seckey -> list Z -> list Z -> list Z * list Z.

(** the method verify of the key loaded from a file. A list compared to the recovered integer is different (False). *)
Definition pk_verify (fuel : nat) (c : version_class) (n : Z) (pk : pyval) (data sig : list Z) (X : xof) : fres bool :=
  match c, pk with
  | Vfalcon, PList h => fbind (lift (PublicKey (Z.to_nat n) h)) (fun P => verify fuel P data sig X)
  | Vrec, PInt a => fbind (lift (RecoveryModePublicKey (Z.to_nat n) a)) (fun P => rec_verify Hk fuel P data sig X)
  | Vep, PInt a => fbind (lift (RecoveryModePublicKey (Z.to_nat n) a)) (fun P => ep_verify Hk fuel P data sig X)
  | Vrec, PList _ => fbind (lift (RecoveryModePublicKey (Z.to_nat n) 0)) (fun P => fbind (recover Hk fuel P data sig X) (fun _ => Fin (Ok false)))
  | Vep, PList _ => fbind (lift (RecoveryModePublicKey (Z.to_nat n) 0)) (fun P => fbind (ep_recover Hk fuel P data sig X) (fun _ => Fin (Ok false)))
  | _, _ => Fin (Raise TypeError)
  end.

(** sign_cli.py:367-373: the contents of the file 'sig'. [sk, version] = None is a TypeError. *)
Definition cmd_sign (fh fuel : nat) (privkey datahex : list Z) : fres (list Z) :=
  fbind (lift (load_sk privkey)) (fun r =>
  match r with
  | None => Fin (Raise TypeError)
  | Some (c, K, v) =>
    fbind (lift (fromhex datahex)) (fun data =>
    fbind (cli_signature Hk smp fh fuel c K data v) (fun sig => Fin (Ok (save_signature sig))))
  end).
(** sign_cli.py:393-402: true is "Signature is valid." *)
Definition cmd_verify (fuel : nat) (pubkey datahex sigfile : list Z) : fres bool :=
  fbind (lift (load_pk pubkey)) (fun r =>
  match r with
  | None => Fin (Raise TypeError)
  | Some (c, n, pk, v) =>
    fbind (lift (load_signature sigfile)) (fun sig =>
    fbind (lift (fromhex datahex)) (fun data => cli_verify Hk (pk_verify fuel c n pk data sig) v))
  end).

(** a Python call f(args) where f has [params] positional parameters without default *)
Definition call_arity {A} (params args : nat) (k : A) : res A := if (params =? args)%nat then Ok k else Raise TypeError.
(** sign_cli.py:375-391 with the hexadecimal arguments parsed. verify_signature (168) has the parameters pk, data, sig, version
    and is called with three arguments (390). *)
Definition cmd_sign_tx (fh fuel fv : nat) (privkey : list Z) (nonce to : Z) (data : list Z) (value : Z) (version : list Z) : fres bool :=
  fbind (lift (transaction_hash Hk nonce to data value)) (fun tx_hash =>
  fbind (lift (load_sk privkey)) (fun r =>
  match r with
  | None => Fin (Raise TypeError)
  | Some (c, K, v) =>
    fbind (lift (PublicKey 512 (sk_h K))) (fun P =>
    fbind (cli_signature Hk smp fh fuel c K tx_hash version) (fun sig =>
    fbind (lift (call_arity 4 3 (verify fv P tx_hash sig))) (fun vf => vf (cli_xof Hk version))))
  end)).
End Cmd.

(** str.format for templates whose only replacement field is {} *)
Fixpoint py_format (tmpl : list Z) (args : list (list Z)) : res (list Z) :=
  match tmpl with
  | [] => Ok []
  | a :: t =>
    match t with
    | b :: t' =>
      if (a =? 123) && (b =? 125) then
        match args with [] => Raise IndexError | x :: args' => let! r := py_format t' args' in Ok (x ++ r) end
      else let! r := py_format t args in Ok (a :: r)
    | [] => let! r := py_format t args in Ok (a :: r)
    end
  end.
Definition hex0x (b : list Z) : list Z := chars "0x" ++ hex b.
(** sign_cli.py:267-275 *)
Definition recover_template : list Z := chars
 "cast send --private-key {} {} ""recover(bytes,bytes,uint256[],uint256[], uint256)"" {} {} ""{}"" ""{}"" ""{}"" --rpc-url {}".
(** sign_cli.py:303-311 *)
Definition verify_template : list Z := chars
 "cast send --private-key {} {} ""verify(bytes,bytes,uint256[],uint256[])"" {} {} ""{}"" ""{}"" --rpc-url {}".
(** sign_cli.py:246-275: the shell command; [len(False)] and [for elt in False] are TypeErrors *)
Definition recover_send_command (data sig address rpc key version : list Z) : res (list Z) :=
  if seqb version (chars "epervier") then
    let! r := onchain_epervier_args sig in
    match r with
    | None => Raise TypeError
    | Some (S1, S2, hint) =>
      py_format recover_template [key; address; hex0x data; hex0x (slice HEAD_LEN (HEAD_LEN + SALT_LEN) sig); str_list S2; str_int hint; rpc]
    end
  else Raise AssertionError.
(** sign_cli.py:284-311, for a key of the parameter set 512 *)
Definition verify_send_command (h data sig address rpc key version : list Z) : res (list Z) :=
  if seqb version (chars "falcon") || seqb version (chars "ethfalcon") then
    let! r := onchain_falcon_args h sig in
    match r with
    | None => Raise TypeError
    | Some (S2, PK) =>
      py_format verify_template [key; address; hex0x data; hex0x (slice HEAD_LEN (HEAD_LEN + SALT_LEN) sig); str_list S2; str_list PK; rpc]
    end
  else Raise AssertionError.
