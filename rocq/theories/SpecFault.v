(** Faults and the syndromes they cause, stated on the code alone. *)
From Verif Require Export SpecCode SpecGraph P_Graph.
From stdpp Require Export list.
Open Scope Z_scope.

(** A flip (t, k): the error detected by stabilizers of the given type hits data qubit k after
    round t and before round t + 1.  A misreading (s, loc): round s reports the wrong value for
    stabilizer loc.  The value reported in round s for stabilizer loc, [base] being the values
    before any flip: *)
Definition syn_bit (isx : bool) (c : code) (dh dw : Z) (base : Z -> bool) (flips misread : list (Z * Z)) (s loc : Z) : bool :=
  xorb (base loc)
    (xorb (xorl ((fun f => bool_decide (f.1 < s) && anti (err_at isx c dh dw f.2) (stabk isx c dh dw loc)) <$> flips))
          (xorl ((fun m => bool_decide (m = (s, loc))) <$> misread))).
(** Whether the flips exchange the two values of the logical operator read. *)
Definition logical_flip (isx : bool) (c : code) (dh dw : Z) (flips : list (Z * Z)) : bool :=
  xorl ((fun f => anti (err_at isx c dh dw f.2) (logk isx c dh dw)) <$> flips).
(** In a record of [N] rounds, flips happen between two rounds and misreadings in rounds that
    are neither the first nor the last. *)
Definition faults_within (isx : bool) (dh dw N : Z) (flips misread : list (Z * Z)) : Prop :=
  (forall f, f ∈ flips -> 0 <= f.1 < N - 1 /\ 0 <= f.2 < dh * dw) /\
  (forall m, m ∈ misread -> 1 <= m.1 < N - 1 /\ 0 <= m.2 < nsyn isx dh dw).
(** Bits of a syndrome register: Z stabilizers first, then X stabilizers. *)
Definition syn_off (isx : bool) (dh dw : Z) : Z := if isx then num_syn_z dh dw else 0.
Definition reported (isx : bool) (c : code) (dh dw : Z) (base : Z -> bool) (flips misread : list (Z * Z)) (rounds : list (Z -> bool)) : Prop :=
  forall s r loc, rounds !! s = Some r -> 0 <= loc < nsyn isx dh dw ->
    r (syn_off isx dh dw + loc) = syn_bit isx c dh dw base flips misread (Z.of_nat s) loc.
