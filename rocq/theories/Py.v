(** Python run-time vocabulary used by the model: exceptions as values, lists,
    integers, and the few string functions the code relies on. *)
From stdpp Require Export prelude gmap strings pretty numbers.
From stdpp Require Export list.
From Coq Require Import Ascii.
Open Scope Z_scope.

(** Exceptions the modelled code (or the library calls it makes) can raise. *)
Inductive exn :=
| LatticeError        (* qtcodes/circuits/base.py:14-17 *)
| ValueError | KeyError | IndexError | TypeError | AttributeError
| AssertionError | ZeroDivisionError | OverflowError
| RecursionError      (* CPython recursion limit = the fuel of recursive functions *)
| CircuitError.       (* qiskit.circuit.exceptions.CircuitError *)
Global Instance exn_eq_dec : EqDecision exn.
Proof. solve_decision. Defined.

(** Result of a call: a value or a raised exception. *)
Inductive res (A : Type) := Ok (a : A) | Err (e : exn).
Arguments Ok {_} _.
Arguments Err {_} _.

Global Instance res_ret : MRet res := fun A a => Ok a.
Global Instance res_bind : MBind res := fun A B f r =>
  match r with Ok a => f a | Err e => Err e end.

(** [for x in l: acc = f(acc, x)], stopping at the first exception. *)
Fixpoint rfold {A B} (f : A -> B -> res A) (acc : A) (l : list B) : res A :=
  match l with
  | [] => Ok acc
  | x :: l' => match f acc x with Ok a => rfold f a l' | Err e => Err e end
  end.

(** [[f(x) for x in l]], stopping at the first exception. *)
Fixpoint rmap {A B} (f : A -> res B) (l : list A) : res (list B) :=
  match l with
  | [] => Ok []
  | x :: l' =>
      match f x with
      | Err e => Err e
      | Ok y => match rmap f l' with Ok ys => Ok (y :: ys) | Err e => Err e end
      end
  end.

(** Python [l[i]]: negative indices count from the end, otherwise IndexError. *)
Definition py_index {A} (l : list A) (i : Z) : res A :=
  let n := Z.of_nat (length l) in
  let j := if bool_decide (i < 0) then i + n else i in
  if bool_decide (0 <= j < n)
  then match l !! Z.to_nat j with Some a => Ok a | None => Err IndexError end
  else Err IndexError.

(** [range(n)]: std++ [seqZ 0 n] (empty for n <= 0). *)
Definition py_range (n : Z) : list Z := seqZ 0 n.

(** [range(0, n, step)] for [step <> 0] (the only way it is used here: 2 or an odd number). *)
Definition py_range_step (n step : Z) : list Z :=
  (fun i => i * step) <$> seqZ 0 (if bool_decide (0 < step) then (n + step - 1) / step else (n + step + 1) / step).

(** [str(n)] for an integer. *)
Definition py_str (n : Z) : string := pretty n.

(** [s.split(" ")]. *)
Fixpoint py_split (s : string) : list string :=
  match s with
  | EmptyString => [EmptyString]
  | String c s' =>
      if Ascii.eqb c " " then EmptyString :: py_split s'
      else match py_split s' with
           | [] => [String c EmptyString]   (* unreachable: the result is never empty *)
           | w :: ws => String c w :: ws
           end
  end.

(** [" ".join(l)]. *)
Fixpoint py_join (l : list string) : string :=
  match l with
  | [] => EmptyString
  | [w] => w
  | w :: ws => (w ++ String " " (py_join ws))%string
  end.

(** A character as a binary digit. *)
Definition bit_of_char (c : ascii) : res bool :=
  if Ascii.eqb c "0" then Ok false else if Ascii.eqb c "1" then Ok true else Err ValueError.

(** The characters of a binary-digit string, left to right. *)
Fixpoint bits_of_string (s : string) : res (list bool) :=
  match s with
  | EmptyString => Ok []
  | String c s' =>
      match bit_of_char c with
      | Err e => Err e
      | Ok b => match bits_of_string s' with Ok bs => Ok (b :: bs) | Err e => Err e end
      end
  end.

(** Value of a binary numeral, most significant digit first. *)
Definition Z_of_bits (bs : list bool) : Z :=
  fold_left (fun acc (b : bool) => 2 * acc + (if b then 1 else 0)) bs 0.

(** [int(s, base=2)] as CPython computes it (PyLong_FromString in Objects/longobject.c): blanks
    around the number, a sign, the prefix 0b or 0B with an optional underscore after it, and single
    underscores between digits are accepted; anything else is a ValueError.  Simplification:
    strings hold ASCII characters (Python also accepts the decimal digits and blanks of other
    scripts). *)
Definition is_space (c : ascii) : bool := let n := nat_of_ascii c in ((9 <=? n) && (n <=? 13) || (n =? 32))%nat.
Fixpoint int_lstrip (s : string) : string :=
  match s with String c s' => if is_space c then int_lstrip s' else s | EmptyString => EmptyString end.
Fixpoint int_blank (s : string) : bool := match s with String c s' => is_space c && int_blank s' | EmptyString => true end.
Definition int_sign (s : string) : Z * string :=
  match s with
  | String c s' => if Ascii.eqb c "+" then (1, s') else if Ascii.eqb c "-" then (-1, s') else (1, s)
  | EmptyString => (1, s)
  end.
Definition int_prefix (s : string) : string :=
  match s with
  | String z (String c s') =>
      if (Ascii.eqb z "0" && (Ascii.eqb c "b" || Ascii.eqb c "B"))%bool
      then match s' with String u s'' => if Ascii.eqb u "_" then s'' else s' | EmptyString => s' end
      else s
  | _ => s
  end.
(** The digits and what follows them; [us]: a digit must come next (there is none yet, or an
    underscore precedes). *)
Fixpoint int_digits (us : bool) (s : string) : option (list bool * string) :=
  match s with
  | EmptyString => if us then None else Some ([], s)
  | String c s' =>
      match bit_of_char c with
      | Ok b => match int_digits false s' with Some (bs, r) => Some (b :: bs, r) | None => None end
      | Err _ => if us then None else if Ascii.eqb c "_" then int_digits true s' else Some ([], s)
      end
  end.
Definition py_int2 (s : string) : res Z :=
  let '(sg, s1) := int_sign (int_lstrip s) in
  match int_digits true (int_prefix s1) with
  | Some (bs, r) => if int_blank r then Ok (sg * Z_of_bits bs) else Err ValueError
  | None => Err ValueError
  end.

(** A bit as the one-character string Python prints for it. *)
Definition char_of_bit (b : bool) : ascii := if b then "1"%char else "0"%char.
Fixpoint string_of_bits (bs : list bool) : string :=
  match bs with [] => EmptyString | b :: bs' => String (char_of_bit b) (string_of_bits bs') end.
