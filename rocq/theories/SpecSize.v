(** What "number of gates" and "depth" of a circuit mean, and the numbers claimed by C76.
    Nothing here depends on how the library emits instructions. *)
From Verif Require Export Hist.
From stdpp Require Export list.
Open Scope Z_scope.

(** ** Numbers of instructions (QuantumCircuit.count_ops) *)
Definition is_two (i : instr) : bool := match i with ICX _ _ | ICZ _ _ => true | _ => false end.
Definition is_had (i : instr) : bool := match i with IH _ => true | _ => false end.
Definition is_measure (i : instr) : bool := match i with IMeas _ _ => true | _ => false end.
Definition is_reset (i : instr) : bool := match i with IReset _ => true | _ => false end.
Definition number (f : instr -> bool) (is : list instr) : Z := foldr (fun i n => (if f i then 1 else 0) + n) 0 is.

(** ** Depth (QuantumCircuit.depth) *)
(** Qiskit keeps a level for each qubit and each classical bit.  An instruction gives all bits it
    uses, those of its condition included, the highest of their levels plus one; a barrier uses all
    qubits and adds nothing.  The depth is the highest level. *)
Inductive wire := WQ (q : qubit) | WC (c : clbit).
Global Instance wire_eq_dec : EqDecision wire. Proof. solve_decision. Defined.
Definition wires (U : list qubit) (i : instr) : list wire :=
  match i with
  | IH q | IX q | IZ q | IId q | IReset q => [WQ q]
  | ICX a b | ICZ a b => [WQ a; WQ b]
  | IMeas q c => [WQ q; WC c]
  | IXIf q r _ | IZIf q r _ => WQ q :: ((fun i => WC (r.1, i)) <$> seqZ 0 r.2)
  | IBarrier => WQ <$> U
  end.
Definition highest (lev : wire -> Z) (ws : list wire) : Z := foldr (fun w m => lev w `max` m) 0 ws.
Definition level_step (U : list qubit) (lev : wire -> Z) (i : instr) : wire -> Z := fun w =>
  if bool_decide (w ∈ wires U i) then highest lev (wires U i) + (match i with IBarrier => 0 | _ => 1 end) else lev w.
Definition levels (U : list qubit) (is : list instr) : wire -> Z := foldl (level_step U) (fun _ => 0) is.
Definition depth (U : list qubit) (is : list instr) : Z := highest (levels U is) (mjoin (wires U <$> is)).

(** ** The numbers of C76, for each method and a lattice of dh x dw data qubits *)
(** Bits of the register measured into: an empty one counts as none. *)
Definition width (r : option rhandle) : Z := match r with Some h => if bool_decide (h.2 = 0) then 1 else Z.max 0 h.2 | None => 1 end.
Definition two_cost (dh dw : Z) (o : op) : Z :=
  match o with
  | OStab => 4 * dh * dw - 2 * dh - 2 * dw
  | OReadX _ => dh | OReadZ _ => dw
  | _ => 0 end.
Definition had_cost (c : code) (dh dw : Z) (o : op) : Z :=
  match o, c with
  | OStab, XXZZ => (dh + 1) * (dw - 1)
  | OStab, XZZX => 4 * dh * dw - 2 * dh - 2 * dw
  | OReadX _, _ => 2
  | OReadZ _, XXZZ => 0 | OReadZ _, XZZX => 2
  | (OLatX | OResetX), XXZZ => dh * dw
  | (OLatX | OResetX), XZZX => (dh * dw - 1) / 2
  | (OLatZ | OResetZ), XXZZ => 0
  | (OLatZ | OResetZ), XZZX => (dh * dw + 1) / 2
  | _, _ => 0 end.
Definition measure_cost (dh dw : Z) (o : op) : Z :=
  match o with
  | OStab => dh * dw - 1
  | OReadX r | OReadZ r => width r
  | OLatX | OLatZ => dh * dw
  | _ => 0 end.
Definition reset_cost (dh dw : Z) (o : op) : Z :=
  match o with
  | OStab => dh * dw - 1
  | OReadX _ | OReadZ _ => 1
  | OResetX | OResetZ => dh * dw
  | _ => 0 end.
(** A round takes as many steps as it has gates, and two for measuring and resetting. *)
Definition depth_cost (c : code) (dh dw : Z) (o : op) : Z :=
  match o with
  | OStab => if bool_decide (dh * dw = 1) then 0 else two_cost dh dw OStab + had_cost c dh dw OStab + 2
  | OReadX r => dh + 3 + width r
  | OReadZ r => dw + (match c with XXZZ => 1 | XZZX => 3 end) + width r
  | OLatX | OResetX => 2
  | OLatZ | OResetZ => match c with XXZZ => 1 | XZZX => 2 end
  | OX | OZ | OId | OIdData => 1 end.
(** reset_x() and reset_z() of an XZZX lattice do not end with a barrier: what follows may overlap. *)
Definition overlaps (c : code) (o : op) : bool := match c, o with XZZX, (OResetX | OResetZ) => true | _, _ => false end.
Definition total_of (f : op -> Z) (l : list op) : Z := foldr (fun o n => f o + n) 0 l.
(** All qubits used by the instructions are among [U]. *)
Definition on_qubits (U : list qubit) (is : list instr) : Prop := forall i q, i ∈ is -> WQ q ∈ wires [] i -> q ∈ U.
