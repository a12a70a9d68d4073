(** Vocabulary for stating properties of the codes: Pauli operators (up to sign) on a set
    of qubits, the grid of data qubits, the stabilizers and logical operators. *)
From Verif Require Export F2 Geometry Circ.
Open Scope Z_scope.

(** A Pauli operator up to phase: where it has an X component and where a Z component. *)
Record pauli (A : Type) `{Countable A} := Pauli { px : gset A; pz : gset A }.
Arguments Pauli {A _ _} _ _.
Arguments px {A _ _} _.
Arguments pz {A _ _} _.

Section pauli.
Context {A : Type} `{Countable A}.
Definition pid : pauli A := Pauli ∅ ∅.
Definition pmul (P Q : pauli A) : pauli A := Pauli (px P ⊕ px Q) (pz P ⊕ pz Q).
Definition pprod (l : list (pauli A)) : pauli A := foldr pmul pid l.
(** [true] iff P and Q anticommute. *)
Definition anti (P Q : pauli A) : bool := xorb (dot (px P) (pz Q)) (dot (pz P) (px Q)).
Definition commute (P Q : pauli A) : Prop := anti P Q = false.
Definition Xon (S : gset A) : pauli A := Pauli S ∅.
Definition Zon (S : gset A) : pauli A := Pauli ∅ S.
(** Conjugation by a Hadamard on every qubit of [S]. *)
Definition hconj (S : gset A) (P : pauli A) : pauli A :=
  Pauli ((px P ∖ S) ∪ (pz P ∩ S)) ((pz P ∖ S) ∪ (px P ∩ S)).
End pauli.

(** Renaming qubits. *)
Definition pmap {A B} `{Countable A} `{Countable B} (f : A -> B) (P : pauli A) : pauli B :=
  Pauli (img f (px P)) (img f (pz P)).

(** Valid lattice sizes. *)
Definition valid_size (dh dw : Z) : Prop :=
  0 < dh /\ 0 < dw /\ Z.odd dh = true /\ Z.odd dw = true.

(** Data qubit k of an h x w lattice sits in row k / w, column k mod w. *)
Definition data_set (dh dw : Z) : gset Z := list_to_set (seqZ 0 (dh * dw)).
Definition row_set (dh dw i : Z) : gset Z := filter (fun k => k / dw = i) (data_set dh dw).
Definition col_set (dh dw j : Z) : gset Z := filter (fun k => k mod dw = j) (data_set dh dw).
(** The data qubits touching the point with doubled coordinates (y, x): those at
    distance (1/2, 1/2) from it. *)
Definition touching (dh dw y x : Z) : gset Z :=
  filter (fun k => Z.abs (2 * (k / dw) - y) = 1 /\ Z.abs (2 * (k mod dw) - x) = 1) (data_set dh dw).

(** Pauli operator of a plaquette as listed by the geometry. *)
Definition oset (l : list (option Z)) : gset Z := list_to_set (omap id l).
Definition plaq_pauli (c : stabcls) (p : plaq) : pauli Z :=
  match c with
  | SXXXX => Xon (oset (plaq_idx p))
  | SZZZZ => Zon (oset (plaq_idx p))
  | SXZZX => Pauli (oset [top_l p; bot_r p]) (oset [top_r p; bot_l p])
  end.
(** The stabilizers of a code, in the order of the syndrome qubits ("mx" then "mz"). *)
Definition stab_x (c : code) (dh dw loc : Z) : pauli Z := plaq_pauli (shortname_mx c) (geom_x dh dw loc).
Definition stab_z (c : code) (dh dw loc : Z) : pauli Z := plaq_pauli (shortname_mz c) (geom_z dh dw loc).
Definition stabilizers (c : code) (dh dw : Z) : list (pauli Z) :=
  (plaq_pauli (shortname_mx c) <$> geometry_mx dh dw) ++
  (plaq_pauli (shortname_mz c) <$> geometry_mz dh dw).

(** Logical operators: XXZZ has X on the left column and Z on the top row; for XZZX the
    components on even-indexed data qubits are exchanged. *)
Definition even_set (dh dw : Z) : gset Z := filter (fun k => Z.even k = true) (data_set dh dw).
Definition log_x (c : code) (dh dw : Z) : pauli Z :=
  let P := Xon (col_set dh dw 0) in
  match c with XXZZ => P | XZZX => hconj (even_set dh dw) P end.
Definition log_z (c : code) (dh dw : Z) : pauli Z :=
  let P := Zon (row_set dh dw 0) in
  match c with XXZZ => P | XZZX => hconj (even_set dh dw) P end.

(** The Pauli operator applied by a list of X / Z / identity gates and barriers. *)
Definition gate_pauli (i : instr) : option (pauli qubit) :=
  match i with
  | IX q => Some (Xon {[ q ]}) | IZ q => Some (Zon {[ q ]})
  | IId _ | IBarrier => Some pid
  | _ => None
  end.
Fixpoint gates_pauli (l : list instr) : option (pauli qubit) :=
  match l with
  | [] => Some pid
  | i :: l' => P ← gate_pauli i; Q ← gates_pauli l'; Some (pmul P Q)
  end.
