(** Python text primitives used by /repo/pythonref/sign_cli.py and scripts/generate_kat_rsp.py, on strings seen as lists of character codes:
    str.format of integers and of lists of integers, bytes.hex, bytes.fromhex, str.splitlines, str.split("="), dict, int, ast.literal_eval, lstrip.
    Simplifications: characters below 256 only; integers of more than 4300 digits (refused by recent Python versions) are printed and read;
    int() and literal_eval do not accept underscores, int() only accepts white space and ASCII digits; literal_eval only knows
    an integer or a flat list of integers, anything else is a SyntaxError (OtherException). *)
From Coq Require Import String Ascii.
From Verif Require Import Base.

(** the character codes of a literal *)
Fixpoint chars (s : string) : list Z :=
  match s with EmptyString => [] | String c s' => Z.of_nat (nat_of_ascii c) :: chars s' end.
Definition c_nl := 10. Definition c_space := 32. Definition c_eq := 61. Definition c_minus := 45. Definition c_comma := 44.
Definition c_lb := 91. Definition c_rb := 93. Definition c_plus := 43.
Definition is_space (c : Z) : bool := ((9 <=? c) && (c <=? 13)) || ((28 <=? c) && (c <=? 32)) || (c =? 133) || (c =? 160).
Definition is_digit (c : Z) : bool := (48 <=? c) && (c <=? 57).

(** * Printing *)
(** decimal digits of x >= 0, with enough fuel *)
Fixpoint dec (fuel : nat) (x : Z) : list Z :=
  match fuel with
  | O => []
  | S f => if x <? 10 then [48 + x] else dec f (x / 10) ++ [48 + x mod 10]
  end.
Definition str_nat (x : Z) : list Z := dec (S (Z.to_nat (Z.log2 x))) x.
(** "{}".format(x) *)
Definition str_int (x : Z) : list Z := if x <? 0 then c_minus :: str_nat (- x) else str_nat x.
(** "{}".format(l): '[a, b, c]' *)
Fixpoint join (l : list (list Z)) : list Z :=
  match l with [] => [] | [a] => a | a :: l' => a ++ [c_comma; c_space] ++ join l' end.
Definition str_list (l : list Z) : list Z := [c_lb] ++ join (map str_int l) ++ [c_rb].

(** bytes.hex() *)
Definition hexdigit (d : Z) : Z := if d <? 10 then 48 + d else 97 + (d - 10).
Definition hex (b : list Z) : list Z := flat_map (fun x => [hexdigit (x / 16); hexdigit (x mod 16)]) b.

(** * Reading *)
(** str.splitlines: lines end at \n, \v, \f, \x1c, \x1d, \x1e, \x85 (\r is translated to \n when the file is read in text mode); a last empty line is dropped *)
Definition is_eol (c : Z) : bool := (c =? 10) || (c =? 11) || (c =? 12) || (c =? 28) || (c =? 29) || (c =? 30) || (c =? 133).
Fixpoint splitlines_acc (cur : list Z) (s : list Z) : list (list Z) :=
  match s with
  | [] => match cur with [] => [] | _ => [cur] end
  | c :: s' => if is_eol c then cur :: splitlines_acc [] s' else splitlines_acc (cur ++ [c]) s'
  end.
Definition splitlines (s : list Z) : list (list Z) := splitlines_acc [] s.
(** str.split("=") *)
Fixpoint split_eq_acc (cur : list Z) (s : list Z) : list (list Z) :=
  match s with
  | [] => [cur]
  | c :: s' => if c =? c_eq then cur :: split_eq_acc [] s' else split_eq_acc (cur ++ [c]) s'
  end.
Definition split_eq (s : list Z) : list (list Z) := split_eq_acc [] s.

(** dict(pairs): ValueError unless each element has length 2; in [lookup] the last pair with the key wins, KeyError if there is none *)
Fixpoint to_dict (ls : list (list (list Z))) : res (list (list Z * list Z)) :=
  match ls with
  | [] => Ok []
  | [k; v] :: ls' => let! d := to_dict ls' in Ok ((k, v) :: d)
  | _ => Raise ValueError
  end.
Definition seqb (a b : list Z) : bool := if list_eq_dec Z.eq_dec a b then true else false.
Definition lookup (d : list (list Z * list Z)) (k : list Z) : res (list Z) :=
  match find (fun p => seqb (fst p) k) (rev d) with Some p => Ok (snd p) | None => Raise KeyError end.

Fixpoint lstrip (s : list Z) : list Z := match s with c :: s' => if is_space c then lstrip s' else s | [] => [] end.
Definition strip (s : list Z) : list Z := rev (lstrip (rev (lstrip s))).
(** value of a non-empty string of digits *)
Fixpoint digits_val (acc : Z) (s : list Z) : option Z :=
  match s with
  | [] => Some acc
  | c :: s' => if is_digit c then digits_val (10 * acc + (c - 48)) s' else None
  end.
(** int(s) *)
Definition py_int (s : list Z) : res Z :=
  let s := strip s in
  let '(sg, s) := match s with c :: s' => if c =? c_minus then (-1, s') else if c =? c_plus then (1, s') else (1, s) | [] => (1, s) end in
  match s with
  | [] => Raise ValueError
  | _ => match digits_val 0 s with Some v => Ok (sg * v) | None => Raise ValueError end
  end.

Inductive pyval := PInt (z : Z) | PList (l : list Z).
(** reading an integer literal: blanks, signs, digits; gives the value and the rest. A literal with a superfluous leading 0 is refused. *)
Fixpoint skip_blank (s : list Z) : list Z := match s with c :: s' => if (c =? 32) || (c =? 9) then skip_blank s' else s | [] => [] end.
Fixpoint take_digits (s : list Z) : list Z * list Z :=
  match s with
  | c :: s' => if is_digit c then let (a, b) := take_digits s' in (c :: a, b) else ([], s)
  | [] => ([], [])
  end.
Definition lit_nat (s : list Z) : option (Z * list Z) :=
  let (ds, rest) := take_digits s in
  match ds with
  | [] => None
  | d :: ds' =>
    match digits_val 0 ds with
    | Some v => if (d =? 48) && negb (v =? 0) then None else Some (v, rest)
    | None => None
    end
  end.
Definition lit_int (s : list Z) : option (Z * list Z) :=
  match skip_blank s with
  | c :: s' =>
    if c =? c_minus then match lit_nat (skip_blank s') with Some (v, r) => Some (- v, r) | None => None end
    else if c =? c_plus then lit_nat (skip_blank s')
    else lit_nat (c :: s')
  | [] => None
  end.
(** elements of a list literal, after the opening bracket or a comma *)
Fixpoint lit_items (fuel : nat) (s : list Z) : option (list Z * list Z) :=
  match fuel with
  | O => None
  | S f =>
    match skip_blank s with
    | [] => None
    | c :: s' =>
      if c =? c_rb then Some ([], s')
      else
        match lit_int (c :: s') with
        | None => None
        | Some (v, r) =>
          match skip_blank r with
          | d :: r' => if d =? c_rb then Some ([v], r')
                       else if d =? c_comma then match lit_items f r' with Some (l, r'') => Some (v :: l, r'') | None => None end
                       else None
          | [] => None
          end
        end
    end
  end.
(** ast.literal_eval(s) *)
Definition literal_eval (s : list Z) : res pyval :=
  let s := skip_blank s in
  let r := match s with
           | c :: s' => if c =? c_lb then match lit_items (S (length s')) s' with Some (l, r) => Some (PList l, r) | None => None end
                        else match lit_int s with Some (v, r) => Some (PInt v, r) | None => None end
           | [] => None
           end in
  match r with
  | Some (v, rest) => match skip_blank rest with [] => Ok v | _ => Raise OtherException end
  | None => Raise OtherException
  end.

(** bytes.fromhex(s): ASCII white space is allowed between bytes *)
Definition unhex (c : Z) : option Z :=
  if is_digit c then Some (c - 48) else if (97 <=? c) && (c <=? 102) then Some (c - 87)
  else if (65 <=? c) && (c <=? 70) then Some (c - 55) else None.
Definition is_ascii_space (c : Z) : bool := ((9 <=? c) && (c <=? 13)) || (c =? 32).
Fixpoint fromhex (s : list Z) : res (list Z) :=
  match s with
  | [] => Ok []
  | a :: s1 =>
    if is_ascii_space a then fromhex s1
    else match s1 with
         | [] => Raise ValueError
         | b :: s2 =>
           match unhex a, unhex b with
           | Some x, Some y => let! r := fromhex s2 in Ok (16 * x + y :: r)
           | _, _ => Raise ValueError
           end
         end
  end.
