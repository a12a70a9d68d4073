(** The ideal machine of property C56: what a user believes a circuit built with a lattice does
    to the data qubits.  It knows nothing of syndrome qubits, ancillas, gates or resets: a logical
    gate or a fault applies a Pauli operator, a round projects on the recorded value of every
    stabilizer, a readout projects on the recorded value of a logical operator. *)
From Verif Require Export Noise.
From stdpp Require Export list.
Open Scope Z_scope.

Inductive iop := Apply (P : pauli qubit) | Project (P : pauli qubit) (m : bool).
(** (1 + (-1)^m P)φ is twice the projection of φ on the (-1)^m eigenspace of P. *)
Definition ideal1 {A : Amp} (o : iop) (φ : state A) : state A :=
  match o with
  | Apply P => act P φ
  | Project P m => fun b => aadd (φ b) (sgn m (act P φ b))
  end.
Fixpoint ideal {A : Amp} (l : list iop) (φ : state A) : state A :=
  match l with [] => φ | o :: l' => ideal l' (ideal1 o φ) end.

(** The operations of a history; [rs] are the registers its calls create, in order, and [bits]
    the values found in them. *)
Definition op_x (q : tqubit) (dh dw : Z) : pauli qubit := pmap (dq (lat_name (tq_lat q))) (log_x (lat_code (tq_lat q)) dh dw).
Definition op_z (q : tqubit) (dh dw : Z) : pauli qubit := pmap (dq (lat_name (tq_lat q))) (log_z (lat_code (tq_lat q)) dh dw).
Definition round_ops (q : tqubit) (dh dw : Z) (bits : clbit -> bool) (r : string) : list iop :=
  (fun i => Project (bit_pauli q dh dw i) (bits (r, i))) <$> seqZ 0 (dh * dw - 1).
Definition ev_ops (q : tqubit) (dh dw : Z) (bits : clbit -> bool) (e : ev) (r : string) : list iop :=
  match e with
  | Call OStab => round_ops q dh dw bits r
  | Call (OReadX _) => [Project (op_x q dh dw) (bits (r, 0))]
  | Call (OReadZ _) => [Project (op_z q dh dw) (bits (r, 0))]
  | Call OX => [Apply (op_x q dh dw)]
  | Call OZ => [Apply (op_z q dh dw)]
  | Call _ => []
  | Fault isx i => [Apply (single isx (dq (lat_name (tq_lat q)) i))]
  end.
(** Calls that create a register. *)
Definition records (e : ev) : bool :=
  match e with Call OStab | Call (OReadX _) | Call (OReadZ _) => true | _ => false end.
Fixpoint ideal_ops (q : tqubit) (dh dw : Z) (bits : clbit -> bool) (l : list ev) (rs : list string) : list iop :=
  match l with
  | [] => []
  | e :: l' =>
      if records e then
        match rs with
        | r :: rs' => ev_ops q dh dw bits e r ++ ideal_ops q dh dw bits l' rs'
        | [] => []
        end
      else ev_ops q dh dw bits e ""%string ++ ideal_ops q dh dw bits l' rs
  end.
(** Histories the ideal machine covers: any number and order of rounds, logical gates,
    identities, readouts into their own register, and Pauli faults on data qubits. *)
Definition ideal_ev (e : ev) : bool :=
  match e with
  | Call OStab | Call OX | Call OZ | Call OId | Call OIdData | Call (OReadX None) | Call (OReadZ None) | Fault _ _ => true
  | Call _ => false
  end.
(** The same without readouts. *)
Definition no_read (e : ev) : bool := match e with Call (OReadX _) | Call (OReadZ _) => false | _ => ideal_ev e end.
(** The gates of a history alone: what remains when the rounds are left out. *)
Definition gates_of (q : tqubit) (dh dw : Z) (l : list ev) : list iop :=
  mjoin ((fun e => if records e then [] else ev_ops q dh dw (fun _ => false) e ""%string) <$> l).
