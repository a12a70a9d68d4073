(** What the matching graph of a code should be, stated without the decoder's code.
    Positions are in doubled coordinates: data qubit (i, j) sits at (2i, 2j) and a stabilizer or
    boundary node at a pair of odd numbers. *)
From Verif Require Export SpecCode.
From stdpp Require Export list.
Open Scope Z_scope.

(** The corners between data qubits (and half a step outside the lattice) that carry nodes of
    one type: Z nodes have y + x = 2 modulo 4, X nodes y + x = 0 modulo 4. *)
Definition cell (isx : bool) (dh dw : Z) (p : Z * Z) : Prop :=
  p.1 mod 2 = 1 /\ p.2 mod 2 = 1 /\ -1 <= p.1 <= 2 * dh - 1 /\ -1 <= p.2 <= 2 * dw - 1 /\
  (p.1 + p.2) mod 4 = (if isx then 0 else 2).
(** The coordinate along which chains of one type connect the two boundaries, and its length. *)
Definition level (isx : bool) (p : Z * Z) : Z := if isx then p.2 else p.1.
Definition extent (isx : bool) (dh dw : Z) : Z := if isx then dw else dh.
(** Cells strictly between the two boundaries are stabilizers, the others boundary nodes. *)
Definition inside (isx : bool) (dh dw : Z) (p : Z * Z) : Prop :=
  0 < level isx p < 2 * (extent isx dh dw - 1).
Global Instance cell_dec isx dh dw p : Decision (cell isx dh dw p).
Proof. unfold cell. apply _. Defined.
Global Instance inside_dec isx dh dw p : Decision (inside isx dh dw p).
Proof. unfold inside. apply _. Defined.

(** Nodes (t, y, x): a stabilizer at each of the times 0 .. T-1, a boundary node at time -1. *)
Definition sg_node (isx : bool) (dh dw T : Z) (n : Z * Z * Z) : Prop :=
  cell isx dh dw (n.1.2, n.2) /\
  (if decide (inside isx dh dw (n.1.2, n.2)) then 0 <= n.1.1 < T else n.1.1 = -1).
(** The place of a cell in round [t]: boundary nodes are shared by all rounds. *)
Definition place (isx : bool) (dh dw t : Z) (p : Z * Z) : Z * Z * Z :=
  (if decide (inside isx dh dw p) then t else -1, p.1, p.2).
Definition adjacent (p q : Z * Z) : Prop :=
  (q.1 = p.1 - 2 \/ q.1 = p.1 + 2) /\ (q.2 = p.2 - 2 \/ q.2 = p.2 + 2).
(** Edges: diagonal neighbours in the same round, and one stabilizer in consecutive rounds. *)
Definition sg_edge (isx : bool) (dh dw T : Z) (a b : Z * Z * Z) : Prop :=
  (exists t p q, 0 <= t < T /\ cell isx dh dw p /\ cell isx dh dw q /\ adjacent p q /\
     a = place isx dh dw t p /\ b = place isx dh dw t q) \/
  (exists t p, 0 <= t < T - 1 /\ cell isx dh dw p /\ inside isx dh dw p /\
     ((a = (t, p.1, p.2) /\ b = (t + 1, p.1, p.2)) \/ (b = (t, p.1, p.2) /\ a = (t + 1, p.1, p.2)))).
