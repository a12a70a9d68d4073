(** The methods of TopologicalCircuit that take one qubit, as a family, and [parse_readout].
    The methods themselves are modelled in TCirc.v. *)
From Verif Require Export TCirc Hist DecObj.
Open Scope Z_scope.

(** circ.py:160-237 and 312-366: the method of the circuit that goes with a method of the qubit. *)
Definition c_method (o : op) (r : tref) : M unit :=
  match o with
  | OStab => c_stabilize r | OReadX h => c_measure_x r h | OReadZ h => c_measure_z r h
  | OLatX => c_measure_lattice_x r | OLatZ => c_measure_lattice_z r
  | OResetX => c_reset_x r | OResetZ => c_reset_z r | OX => c_x r | OZ => c_z r
  | OId => c_id r | OIdData => c_id_data r
  end.
(** circ.py:368-395, [parse_readout]; the default of [readout_type] is "Z". *)
Definition c_parse_readout (r : tref) (key : string) (ty : option (option string)) : M (Z * (list event_loc * list event_loc)) :=
  let* q := get_index r in qubit_parse q key (match ty with Some t => t | None => Some "Z"%string end).
(** A program: calls one after the other, each exception caught. *)
Fixpoint c_program (l : list (tref * op)) (s : st) : st * list (res unit) :=
  match l with
  | [] => (s, [])
  | (r, o) :: l' => let x := c_method o r s in let y := c_program l' x.1 in (y.1, x.2 :: y.2)
  end.
