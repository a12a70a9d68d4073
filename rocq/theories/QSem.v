(** State-vector semantics of circuits (contract of the simulator executing them).

    A basis state is the set of qubits that are 1; a state assigns an amplitude to every basis
    state.  Amplitudes form any commutative ring in which x + x = 0 implies x = 0, for
    instance the complex numbers.  States are not normalised: the Hadamard gate is used
    without its factor 1/sqrt 2, and a measurement or reset with a given outcome projects without
    rescaling.  An execution is possible iff its final state is not identically zero (its
    probability is the squared norm, which is positive exactly then). *)
From Coq Require Export Ring_theory.
From Verif Require Export F2 Circ.
Open Scope Z_scope.

Record Amp := {
  amp :> Type; a0 : amp; a1 : amp; aadd : amp -> amp -> amp; amul : amp -> amp -> amp;
  asub : amp -> amp -> amp; aopp : amp -> amp;
  a_ring : ring_theory a0 a1 aadd amul asub aopp eq;
  a_two : forall x, aadd x x = a0 -> x = a0 }.
Arguments a0 {_}. Arguments a1 {_}. Arguments aadd {_}. Arguments amul {_}. Arguments asub {_}. Arguments aopp {_}.

Section sem.
Context {R : Amp}.

Definition state : Type := gset qubit -> R.
(** Values of the classical bits. *)
Definition cstate : Type := clbit -> bool.
Notation config := (cstate * state)%type.

(** (-1)^s x *)
Definition sgn (s : bool) (x : R) : R := if s then aopp x else x.

Definition gH (q : qubit) (ψ : state) : state := fun b =>
  aadd (ψ (b ∖ {[q]})) (sgn (mem q b) (ψ (b ∪ {[q]}))).
Definition gX (q : qubit) (ψ : state) : state := fun b => ψ (b ⊕ {[q]}).
Definition gZ (q : qubit) (ψ : state) : state := fun b => sgn (mem q b) (ψ b).
Definition gCX (c t : qubit) (ψ : state) : state := fun b => if mem c b then ψ (b ⊕ {[t]}) else ψ b.
Definition gCZ (c t : qubit) (ψ : state) : state := fun b => sgn (mem c b && mem t b) (ψ b).
(** Projection on the basis states in which q has value m. *)
Definition proj (q : qubit) (m : bool) (ψ : state) : state := fun b => if Bool.eqb (mem q b) m then ψ b else a0.

Definition cupd (c : cstate) (k : clbit) (m : bool) : cstate := fun k' => if bool_decide (k' = k) then m else c k'.
(** Value of a classical register: bit i has weight 2^i. *)
Definition cval (c : cstate) (r : rhandle) : Z :=
  foldr (fun i acc => Z.b2z (c (r.1, i)) * 2 ^ i + acc) 0 (seqZ 0 r.2).

Inductive step : instr -> config -> config -> Prop :=
| SH q c ψ : step (IH q) (c, ψ) (c, gH q ψ)
| SX q c ψ : step (IX q) (c, ψ) (c, gX q ψ)
| SZ q c ψ : step (IZ q) (c, ψ) (c, gZ q ψ)
| SId q c ψ : step (IId q) (c, ψ) (c, ψ)
| SBarrier c ψ : step IBarrier (c, ψ) (c, ψ)
| SCX a t c ψ : step (ICX a t) (c, ψ) (c, gCX a t ψ)
| SCZ a t c ψ : step (ICZ a t) (c, ψ) (c, gCZ a t ψ)
| SMeas q k m c ψ : step (IMeas q k) (c, ψ) (cupd c k m, proj q m ψ)
| SReset0 q c ψ : step (IReset q) (c, ψ) (c, proj q false ψ)
| SReset1 q c ψ : step (IReset q) (c, ψ) (c, gX q (proj q true ψ))
| SXIf1 q r v c ψ : cval c r = v -> step (IXIf q r v) (c, ψ) (c, gX q ψ)
| SXIf0 q r v c ψ : cval c r <> v -> step (IXIf q r v) (c, ψ) (c, ψ)
| SZIf1 q r v c ψ : cval c r = v -> step (IZIf q r v) (c, ψ) (c, gZ q ψ)
| SZIf0 q r v c ψ : cval c r <> v -> step (IZIf q r v) (c, ψ) (c, ψ).

Inductive exec : list instr -> config -> config -> Prop :=
| EDone k : exec [] k k
| EStep i is k k' k'' : step i k k' -> exec is k' k'' -> exec (i :: is) k k''.

(** The execution has positive probability. *)
Definition possible (k : config) : Prop := exists b, k.2 b <> a0.
(** The qubit is in the state |0>. *)
Definition clean (q : qubit) (ψ : state) : Prop := forall b, q ∈ b -> ψ b = a0.
End sem.
Arguments state : clear implicits.
Notation config R := (cstate * state R)%type.
