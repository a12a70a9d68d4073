(** A complete run: preparation, rounds, calls and faults, readout, and the counts key that
    comes back.  Vocabulary for properties C27 and C44. *)
From Verif Require Export Noise P_Parse SpecFault.
From stdpp Require Export list.
Open Scope Z_scope.

Global Instance pauli_eq_dec : EqDecision (pauli Z).
Proof. solve_decision. Defined.

(** The classical registers of a circuit with their sizes, in order of creation: what the keys of
    the counts dictionary are made from. *)
Definition cregs (s : st) : list (string * Z) := (fun r => (r_name r, r_size r)) <$> filter (fun r => r_quantum r = false) (s_regs s).
(** Calls made between preparation and readout: any number of rounds, logical gates, identities;
    and Pauli faults on data qubits. *)
Definition body_ev (dh dw : Z) (e : ev) : Prop :=
  match e with
  | Call OStab | Call OX | Call OZ | Call OId | Call OIdData => True
  | Call _ => False
  | Fault _ i => 0 <= i < dh * dw
  end.
Definition is_stab (o : op) : bool := match o with OStab => true | _ => false end.
(** The faults detected by stabilizers of one type, each with the number of the last round
    completed before it; [t] is the number of the last round before the history. *)
Fixpoint flips_of (isx : bool) (c : code) (dh dw : Z) (t : Z) (l : list ev) : list (Z * Z) :=
  match l with
  | [] => []
  | Call o :: l => flips_of isx c dh dw (if is_stab o then t + 1 else t) l
  | Fault x i :: l =>
      if bool_decide (fault_of (Fault x i) = err_at isx c dh dw i) then (t, i) :: flips_of isx c dh dw t l
      else flips_of isx c dh dw t l
  end.
(** The operation that inverts the logical value of one type. *)
Definition inverts (isx : bool) (o : op) : bool := if isx then is_z o else is_x o.
Definition read_op (isx : bool) : op := if isx then OReadX None else OReadZ None.
(** Misread syndrome bits: [cs'] is what comes back instead of the measured [cs].  Misreading
    (s, loc) inverts the bit of stabilizer loc in round s.  Bits of stabilizers of the other type
    may be wrong in any way. *)
Definition observed (isx : bool) (dh dw : Z) (names : list string) (misread : list (Z * Z)) (cs cs' : clbit -> bool) : Prop :=
  forall s nm loc, names !! s = Some nm -> 0 <= loc < nsyn isx dh dw ->
    cs' (nm, syn_off isx dh dw + loc) =
    xorb (cs (nm, syn_off isx dh dw + loc)) (xorl ((fun m => bool_decide (m = (Z.of_nat s, loc))) <$> misread)).
