(** Vocabulary of C62: how a whole number may be written in base 2 (Python's rules), stated as a
    grammar, independently of the parser of Py.v. *)
From stdpp Require Import strings list.
From Coq Require Import Ascii ZArith.
Open Scope Z_scope.

(** Tabulator, line feed, vertical tabulator, form feed, carriage return, blank. *)
Definition white : list ascii := ["009"; "010"; "011"; "012"; "013"; " "]%char.
Definition all_white (s : string) : Prop := Forall (fun c => c ∈ white) (String.list_ascii_of_string s).
Definition bit_text (b : bool) : string := if b then "1"%string else "0"%string.
(** A further digit, possibly after an underscore. *)
Fixpoint more_digits (l : list (bool * bool)) : string :=
  match l with
  | [] => ""
  | (u, b) :: l' => ((if u : bool then "_" else "") +:+ bit_text b +:+ more_digits l')%string
  end.
(** The value of the digits, read from the left. *)
Fixpoint horner (v : Z) (l : list bool) : Z :=
  match l with [] => v | b :: l' => horner (2 * v + (if b : bool then 1 else 0)) l' end.
Definition signs : list (string * Z) := [("", 1); ("+", 1); ("-", -1)]%string.
Definition prefixes : list string := [""; "0b"; "0B"; "0b_"; "0B_"]%string.
(** [binary s v]: the text s writes the number v in base 2. *)
Definition binary (s : string) (v : Z) : Prop :=
  exists w1 sg k pre b l w2, all_white w1 /\ (sg, k) ∈ signs /\ pre ∈ prefixes /\ all_white w2 /\
    s = (w1 +:+ sg +:+ pre +:+ bit_text b +:+ more_digits l +:+ w2)%string /\ v = k * horner 0 (b :: l.*2).

(** The decimal digits of a word, left to right. *)
Definition digit_of (c : ascii) (d : Z) : Prop := 0 <= d <= 9 /\ nat_of_ascii c = Z.to_nat (48 + d).
Definition digits_of (s : string) (ds : list Z) : Prop := Forall2 digit_of (String.list_ascii_of_string s) ds.
(** Words: no blank inside. *)
Definition is_word (s : string) : Prop := " "%char ∉ String.list_ascii_of_string s.
(** Words separated by single blanks. *)
Fixpoint spaced (w : string) (ws : list string) : string :=
  match ws with [] => w | w' :: ws' => (w +:+ " " +:+ spaced w' ws')%string end.
