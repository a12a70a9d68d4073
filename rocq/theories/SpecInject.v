(** Circuit-level noise: Pauli faults anywhere in a circuit.  Vocabulary for property C49. *)
From Verif Require Export QSem.
From stdpp Require Export list.
Open Scope Z_scope.

Inductive pgerm := GX | GY | GZ.
(** The gates of a fault on a qubit; Y is X followed by Z up to a phase. *)
Definition germ_gates (p : pgerm) (q : qubit) : list instr :=
  match p with GX => [IX q] | GY => [IX q; IZ q] | GZ => [IZ q] end.
(** [js] is the circuit [is] with [w] faults inserted, each on any qubit and at any place: before,
    between or after the instructions. *)
Inductive inject : list instr -> list instr -> nat -> Prop :=
| InjDone : inject [] [] 0
| InjKeep i is js w : inject is js w -> inject (i :: is) (i :: js) w
| InjFault p q is js w : inject is js w -> inject is (germ_gates p q ++ js) (S w).
