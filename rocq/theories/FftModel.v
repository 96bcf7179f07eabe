(** Model of /repo/pythonref/fft.py, ffsampling.py (FFT format), common.py:split/merge, falcon.py:normalize_tree and the numerical part of
    SecretKey.__init__ and sample_preimage, over an arbitrary kind of number: [num] gives Python's float operations, which are instantiated by the
    real numbers in FftProofs.v. A Python complex is a pair, with CPython's formulas for + - *.
    Roots tables are a parameter. Python lists are lists; the recursion on the length has fuel (the length suffices). *)
From Verif Require Import Base.

Record num (T : Type) := mk_num {
  nadd : T -> T -> T; nsub : T -> T -> T; nmul : T -> T -> T; nopp : T -> T; nhalf : T -> T;
  ndiv : T -> T -> T; nsqrt : T -> T; nofZ : Z -> T;
  ncdiv : T * T -> T * T -> T * T;   (* complex division *)
  nround : T -> Z;                    (* int(round(x)) *)
  nmax : T -> T -> T
}.
Arguments mk_num {T}. Arguments nadd {T}. Arguments nsub {T}. Arguments nmul {T}. Arguments nopp {T}. Arguments nhalf {T}. Arguments ndiv {T}. Arguments nsqrt {T}.
Arguments nofZ {T}. Arguments ncdiv {T}. Arguments nround {T}. Arguments nmax {T}.

Section Fft.
Context {T : Type}.
Variable N : num T.
Notation C := (T * T)%type.
Variable roots : nat -> list C.       (* fft_constants.py: roots_dict *)

Definition zero : T := nofZ N 0.
Definition czero : C := (zero, zero).
Definition cofZ (z : Z) : C := (nofZ N z, zero).
(** CPython complex arithmetic *)
Definition cadd (x y : C) : C := (nadd N (fst x) (fst y), nadd N (snd x) (snd y)).
Definition csub (x y : C) : C := (nsub N (fst x) (fst y), nsub N (snd x) (snd y)).
Definition copp (x : C) : C := (nopp N (fst x), nopp N (snd x)).
Definition cmul (x y : C) : C :=
  (nsub N (nmul N (fst x) (fst y)) (nmul N (snd x) (snd y)), nadd N (nmul N (fst x) (snd y)) (nmul N (snd x) (fst y))).
Definition conj (x : C) : C := (fst x, nopp N (snd x)).
(** 0.5 * x *)
Definition chalf (x : C) : C := (nhalf N (fst x), nhalf N (snd x)).

(** common.py:8-20, 22-36 *)
Fixpoint evens {A} (f : list A) : list A := match f with a :: b :: f' => a :: evens f' | _ => [] end.
Fixpoint odds {A} (f : list A) : list A := match f with a :: b :: f' => b :: odds f' | _ => [] end.
Fixpoint merge {A} (f0 f1 : list A) : list A := match f0, f1 with a :: f0', b :: f1' => a :: b :: merge f0' f1' | _, _ => [] end.

(** fft.py:15-33; w = roots_dict[n], of which only the even positions are read *)
Definition split_fft (f : list C) : list C * list C :=
  let w := evens (roots (length f)) in
  (map (fun '(a, b) => chalf (cadd a b)) (combine (evens f) (odds f)),
   map (fun '((a, b), w) => cmul (chalf (csub a b)) (conj w)) (combine (combine (evens f) (odds f)) w)).
(** fft.py:36-53 *)
Definition merge_fft (f0 f1 : list C) : list C :=
  let w := evens (roots (2 * length f0)) in
  merge (map (fun '((a, b), w) => cadd a (cmul w b)) (combine (combine f0 f1) w))
        (map (fun '((a, b), w) => csub a (cmul w b)) (combine (combine f0 f1) w)).

(** fft.py:56-74. For n = 2: f[0] + 1j * f[1]; the elements of f are real or integer, converted exactly, so that 1j * x = (0, x) and the sum with f[0] is exact.
    A list of length 0 or 1 leaves f_fft undefined. *)
Fixpoint fft_rec (fuel : nat) (f : list T) : res (list C) :=
  match fuel with
  | O => Raise OtherException
  | S fuel' =>
    if (2 <? length f)%nat then
      let! f0_fft := fft_rec fuel' (evens f) in
      let! f1_fft := fft_rec fuel' (odds f) in
      Ok (merge_fft f0_fft f1_fft)
    else match f with
         | [a; b] => Ok [(a, b); (a, nopp N b)]
         | _ => Raise UnboundLocalError
         end
  end.
Definition fft (f : list T) : res (list C) := fft_rec (length f) f.
(** fft.py:77-95: the real and imaginary parts of the first element when n = 2 *)
Fixpoint ifft_rec (fuel : nat) (f : list C) : res (list T) :=
  match fuel with
  | O => Raise OtherException
  | S fuel' =>
    if (2 <? length f)%nat then
      let (f0_fft, f1_fft) := split_fft f in
      let! f0 := ifft_rec fuel' f0_fft in
      let! f1 := ifft_rec fuel' f1_fft in
      Ok (merge f0 f1)
    else match f with
         | [a; b] => Ok [fst a; snd a]
         | _ => Raise UnboundLocalError
         end
  end.
Definition ifft (f : list C) : res (list T) := ifft_rec (length f) f.

(** fft.py:98-114 *)
Definition pairwise {A} (op : A -> A -> A) (f g : list A) : list A := map (fun '(a, b) => op a b) (combine f g).
Definition add (f g : list T) : res (list T) := if (length f =? length g)%nat then Ok (pairwise (nadd N) f g) else Raise AssertionError.
(** fft.py:132-139: sub(f, g) = add(f, neg(g)) *)
Definition add_fft (f g : list C) : res (list C) := if (length f =? length g)%nat then Ok (pairwise cadd f g) else Raise AssertionError.
Definition sub_fft (f g : list C) : res (list C) := add_fft f (map copp g).
(** fft.py:142-145: the length is that of f; a shorter g raises *)
Definition mul_fft (f g : list C) : res (list C) := if (length f <=? length g)%nat then Ok (pairwise cmul f g) else Raise IndexError.
(** fft.py:148-152 *)
Definition div_fft (f g : list C) : res (list C) := if (length f =? length g)%nat then Ok (pairwise (ncdiv N) f g) else Raise AssertionError.
(** fft.py:155-158 *)
Definition adj_fft (f : list C) : list C := map conj f.
(** fft.py:117-129 *)
Definition mul (f g : list T) : res (list T) :=
  let! a := fft f in let! b := fft g in let! c := mul_fft a b in ifft c.
Definition div (f g : list T) : res (list T) :=
  let! a := fft f in let! b := fft g in let! c := div_fft a b in ifft c.
Definition adj (f : list T) : res (list T) := let! a := fft f in ifft (adj_fft a).

(** ffsampling.py:15-32 for the 2 x 2 basis B0 = [[a, b], [c, d]] (coefficients), row by row *)
Definition gram_entry (deg : nat) (bi bj : list T * list T) : res (list T) :=
  let g := repeat zero deg in
  let! x := adj (fst bj) in let! x := mul (fst bi) x in let! g := add g x in
  let! x := adj (snd bj) in let! x := mul (snd bi) x in add g x.
Definition gram (b0 b1 : list T * list T) : res (list T * list T * list T * list T) :=
  let deg := length (fst b0) in
  let! g00 := gram_entry deg b0 b0 in let! g01 := gram_entry deg b0 b1 in
  let! g10 := gram_entry deg b1 b0 in let! g11 := gram_entry deg b1 b1 in Ok (g00, g01, g10, g11).

(** common.py:39-45; x ** 2 is x * x *)
Definition nsqnorm (v : list (list T)) : T := fold_left (fun res elt => fold_left (fun res coef => nadd N res (nmul N coef coef)) elt res) v zero.
(** ntrugen.py:195-206, for integer polynomials: their own squared norm is an exact integer (common.py:39-45), converted here when it is compared with a float *)
Definition gs_norm (f g : list Z) (q : Z) : res T :=
  let sqnorm_fg := nofZ N (fold_left (fun res coef => res + coef ^ 2) (f ++ g) 0) in
  let f := map (nofZ N) f in let g := map (nofZ N) g in
  let! x := adj f in let! x := mul f x in let! y := adj g in let! y := mul g y in let! ffgg := add x y in
  let! x := adj g in let! Ftil := div x ffgg in
  let! x := adj f in let! Gtil := div x ffgg in
  Ok (nmax N sqnorm_fg (nmul N (nofZ N (q ^ 2)) (nsqnorm [Ftil; Gtil]))).

(** ffsampling.py:66-91; the entries L10, D00, D11 *)
Definition ldl_fft (g00 g01 g10 g11 : list C) : res (list C * list C * list C) :=
  let! l10 := div_fft g10 g00 in
  let! x := mul_fft l10 (adj_fft l10) in let! x := mul_fft x g00 in
  let! d11 := sub_fft g11 x in Ok (l10, g00, d11).

(** Falcon trees; a leaf is the list D[i][i] of length 2 at the bottom, of which only the first element is used *)
Inductive tree := Leaf (x : C) | Node (l10 : list C) (T0 T1 : tree).
(** ffsampling.py:123-146 *)
Fixpoint ffldl_fft (fuel : nat) (g00 g01 g10 g11 : list C) : res tree :=
  match fuel with
  | O => Raise OtherException
  | S fuel' =>
    let! (l10, d0, d1) := ldl_fft g00 g01 g10 g11 in
    if (2 <? length g00)%nat then
      let (d00, d01) := split_fft d0 in
      let (d10, d11) := split_fft d1 in
      let! t0 := ffldl_fft fuel' d00 d01 (adj_fft d01) d00 in
      let! t1 := ffldl_fft fuel' d10 d11 (adj_fft d11) d10 in
      Ok (Node l10 t0 t1)
    else match d0, d1 with
         | [a; _], [b; _] => Ok (Node l10 (Leaf a) (Leaf b))
         | _, _ => Raise OtherException     (* None is returned *)
         end
  end.
(** falcon.py:168-183. A leaf becomes sigma / sqrt(x.real). *)
Fixpoint normalize_tree (sigma : T) (t : tree) : tree :=
  match t with
  | Node l t0 t1 => Node l (normalize_tree sigma t0) (normalize_tree sigma t1)
  | Leaf x => Leaf (ndiv N sigma (nsqrt N (fst x)), zero)
  end.

Section Sampling.
Variable St : Type.                             (* state of the source of random bytes *)
Variable samplerz : T -> T -> St -> option (Z * St). (* samplerz(mu, sigma, sigmin, randombytes); None: it does not return *)

(** ffsampling.py:200-226. On a vector of length 1 the tree is a leaf [sigma, 0]; a tree which does not match the length is an unpacking error.
    The result is None when samplerz does not return. *)
Fixpoint ffsampling_fft (t : tree) (t0 t1 : list C) (s : St) : option (res (list C * list C * St)) :=
  match t with
  | Leaf sg =>
    match t0, t1 with
    | [a], [b] =>
      match samplerz (fst a) (fst sg) s with
      | None => None
      | Some (z0, s) => match samplerz (fst b) (fst sg) s with None => None | Some (z1, s) => Some (Ok ([cofZ z0], [cofZ z1], s)) end
      end
    | _, _ => Some (Raise ValueError)
    end
  | Node l10 T0 T1 =>
    if (1 <? length t0)%nat then
      let (u, v) := split_fft t1 in
      match ffsampling_fft T1 u v s with
      | None => None
      | Some (Raise e) => Some (Raise e)
      | Some (Ok (a, b, s)) =>
        let z1 := merge_fft a b in
        match (let! x := sub_fft t1 z1 in let! x := mul_fft x l10 in add_fft t0 x) with
        | Raise e => Some (Raise e)
        | Ok t0b =>
          let (u, v) := split_fft t0b in
          match ffsampling_fft T0 u v s with
          | None => None
          | Some (Raise e) => Some (Raise e)
          | Some (Ok (a, b, s)) => Some (Ok (merge_fft a b, z1, s))
          end
        end
      end
    else Some (Raise TypeError)
  end.

(** falcon.py:355-362: what __init__ keeps, for polynomials given as integers *)
Record fkey := { B_a : list C; B_b : list C; B_c : list C; B_d : list C; T_fft : tree }.
Definition tofl (f : list Z) : list T := map (nofZ N) f.
Definition init_key (sigma : T) (f g F G : list Z) : res fkey :=
  let negl := map Z.opp in
  let! (g00, g01, g10, g11) := gram (tofl g, tofl (negl f)) (tofl G, tofl (negl F)) in
  let! a := fft (tofl g) in let! b := fft (tofl (negl f)) in let! c := fft (tofl G) in let! d := fft (tofl (negl F)) in
  let! g00 := fft g00 in let! g01 := fft g01 in let! g10 := fft g10 in let! g11 := fft g11 in
  let! t := ffldl_fft (length g00) g00 g01 g10 g11 in
  Ok {| B_a := a; B_b := b; B_c := c; B_d := d; T_fft := normalize_tree sigma t |}.

(** falcon.py:394-420 (and 429-438): the integer vectors v0, v1 *)
Definition sample_v (K : fkey) (point : list Z) (s : St) : option (res (list Z * list Z * St)) :=
  match (let! p := fft (tofl point) in
         let t0 := map (fun x => ncdiv N x (cofZ 12289)) (pairwise cmul p (B_d K)) in
         let t1 := map (fun x => ncdiv N x (cofZ 12289)) (pairwise cmul (map copp p) (B_b K)) in Ok (t0, t1)) with
  | Raise e => Some (Raise e)
  | Ok (t0, t1) =>
    match ffsampling_fft (T_fft K) t0 t1 s with
    | None => None
    | Some (Raise e) => Some (Raise e)
    | Some (Ok (z0, z1, s)) =>
      Some (let! x := mul_fft z0 (B_a K) in let! y := mul_fft z1 (B_c K) in let! v0_fft := add_fft x y in
            let! x := mul_fft z0 (B_b K) in let! y := mul_fft z1 (B_d K) in let! v1_fft := add_fft x y in
            let! r0 := ifft v0_fft in let! r1 := ifft v1_fft in
            Ok (map (nround N) r0, map (nround N) r1, s))
    end
  end.
End Sampling.
End Fft.

(** falcon.py:55-135: sigma and sigmin of a parameter set, as the exact fractions of the double precision numbers Python reads from the literals *)
Definition params_float (n : nat) : option ((Z * Z) * (Z * Z)) :=
  if (n =? 2)%nat then Some ((5095138282153135, 35184372088832), (1257076824282531, 1125899906842624)) else   (* 144.81253976308423, 1.1165085072329104 *)
  if (n =? 4)%nat then Some ((5166402418362519, 35184372088832), (5098636688852519, 4503599627370496)) else   (* 146.83798833523608, 1.1321247692325274 *)
  if (n =? 8)%nat then Some ((5236696838911125, 35184372088832), (5168009084304507, 4503599627370496)) else   (* 148.83587593064718, 1.147528535373367 *)
  if (n =? 16)%nat then Some ((5340403873670081, 35184372088832), (5270355833453349, 4503599627370496)) else   (* 151.78340713845503, 1.170254078853483 *)
  if (n =? 32)%nat then Some ((85033359270131, 549755813888), (2685376292393307, 2251799813685248)) else   (* 154.6747794602761, 1.1925466358390344 *)
  if (n =? 64)%nat then Some ((5541999010866751, 35184372088832), (1367326681036273, 1125899906842624)) else   (* 157.51308555044122, 1.2144300507766141 *)
  if (n =? 128)%nat then Some ((2820047552246663, 17592186044416), (1391529032183945, 1125899906842624)) else   (* 160.30114421975344, 1.235926056771981 *)
  if (n =? 256)%nat then Some ((2868256985479875, 17592186044416), (5661270305715105, 4503599627370496)) else   (* 163.04153322607107, 1.2570545284063217 *)
  if (n =? 512)%nat then Some ((5831338807710191, 35184372088832), (5754851361258101, 4503599627370496)) else   (* 165.7366171829776, 1.2778336969128337 *)
  if (n =? 1024)%nat then Some ((2962323076641037, 17592186044416), (1461733707493849, 1125899906842624)) else   (* 168.38857144654395, 1.298280334344292 *)
  None.
(** ntrugen.py:241: the literal 1.17; samplerz.py:10: MAX_SIGMA = 1.8205 *)
Definition lit117 : Z * Z := (658651445502935, 562949953421312).
Definition max_sigma : Z * Z := (2049700780406997, 1125899906842624).
