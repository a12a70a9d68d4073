(** The distribution of the shots of a circuit.  Vocabulary for property C60. *)
From Coq Require Import QArith Qcanon.
From Verif Require Export QTotal Expect.
From stdpp Require Export list.
Open Scope Z_scope.

(** Amplitudes are integers: the circuits start in a basis state and the Hadamard gate is used
    without its factor 1/sqrt 2, so that the squared norm of a branch is its probability
    times 2^(number of Hadamard gates). *)
Definition random (i : instr) : bool := match i with IMeas _ _ | IReset _ => true | _ => false end.
(** The configuration after an instruction; [m] is the outcome of a measurement or reset. *)
Definition after (i : instr) (m : bool) (k : config ZAmp) : config ZAmp :=
  match i with
  | IH q => (k.1, gH q k.2)
  | IX q => (k.1, gX q k.2)
  | IZ q => (k.1, gZ q k.2)
  | IId _ | IBarrier => k
  | ICX a t => (k.1, gCX a t k.2)
  | ICZ a t => (k.1, gCZ a t k.2)
  | IMeas q b => (cupd k.1 b m, proj q m k.2)
  | IReset q => (k.1, if m then gX q (proj q true k.2) else proj q false k.2)
  | IXIf q r v => (k.1, if bool_decide (cval k.1 r = v) then gX q k.2 else k.2)
  | IZIf q r v => (k.1, if bool_decide (cval k.1 r = v) then gZ q k.2 else k.2)
  end.
(** A run with the given outcomes of its measurements and resets. *)
Fixpoint run (is : list instr) (o : list bool) (k : config ZAmp) : config ZAmp :=
  match is with
  | [] => k
  | i :: is => if random i then match o with m :: o => run is o (after i m k) | [] => k end
               else run is o (after i false k)
  end.
Definition choices (is : list instr) : nat := length (filter (fun i => random i = true) is).
Fixpoint outcomes (n : nat) : list (list bool) :=
  match n with O => [[]] | S n => (cons false <$> outcomes n) ++ (cons true <$> outcomes n) end.

(** The squared norm of a state of the qubits [U]. *)
Definition zsum (l : list Z) : Z := foldr Z.add 0 l.
Fixpoint subsets (U : list qubit) : list (gset qubit) :=
  match U with [] => [∅] | q :: U => subsets U ++ (union {[q]} <$> subsets U) end.
Definition norm2 (U : list qubit) (ψ : state ZAmp) : Z := zsum ((fun b => ψ b * ψ b) <$> subsets U).
(** The probability that the classical bits at the end satisfy [E]. *)
Definition mass (U : list qubit) (is : list instr) (k : config ZAmp) (E : cstate -> bool) : Z :=
  zsum ((fun o => if E (run is o k).1 then norm2 U (run is o k).2 else 0) <$> outcomes (choices is)).
Definition prob (U : list qubit) (is : list instr) (k : config ZAmp) (E : cstate -> bool) : Qc :=
  (qnat (mass U is k E) / qnat (mass U is k (fun _ => true)))%Qc.

(** The values of some parities of classical bits. *)
Definition parities (S : list (list clbit)) (c : cstate) : list bool := (fun l => xorl (c <$> l)) <$> S.
Definition hadamards (is : list instr) : nat := length (filter (fun i => match i with IH _ => true | _ => false end = true) is).
(** Gates act on different qubits; what is conditioned is conditioned on registers of one bit. *)
Definition one_bit (i : instr) : Prop := match i with IXIf _ r _ | IZIf _ r _ => r.2 = 1 | _ => True end.
Definition well_formed (U : list qubit) (i : instr) : Prop :=
  proper i /\ one_bit i /\ forall q, q ∈ instr_qubits i -> q ∈ U.
