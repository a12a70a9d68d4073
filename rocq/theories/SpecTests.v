(** What the simulator can return for a circuit, for property C71. *)
From Verif Require Export QSem SpecRun P_Quantum.
From stdpp Require Export list.
Open Scope Z_scope.

(** Counts of a circuit started in |0...0> with all bits 0: at least one key, each with a positive
    count and each the key of an execution of positive probability. *)
Definition sampled (R : Amp) (is : list instr) (regs : list (string * Z)) (counts : list (string * Z)) : Prop :=
  counts <> [] /\
  Forall (fun kv => 0 < kv.2 /\ exists k1 : config R, exec is (fun _ => false, zero_state) k1 /\ possible k1 /\ kv.1 = counts_key k1.1 regs) counts.
