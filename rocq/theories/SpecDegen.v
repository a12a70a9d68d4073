(** What the numbers of error paths should be. *)
From Verif Require Export Mwpm.
From stdpp Require Export list.
Open Scope Z_scope.

(** The number of objects with a property. *)
Definition counts {A} (P : A -> Prop) (n : Z) : Prop :=
  exists l, NoDup l /\ (forall x, x ∈ l <-> P x) /\ n = Z.of_nat (length l).
(** Shortest paths of the syndrome graph, as lists of edges. *)
Definition shortest_path (g : lgraph Z) (a b : node) (P : list (node * node)) : Prop :=
  lpath g a b P /\ forall Q, lpath g a b Q -> (length P <= length Q)%nat.
(** Shortest paths from a node [u] to any boundary node that is as far from it as [v] is. *)
Definition boundary_path (g : lgraph Z) (virt : list node) (u v : node) (P : list (node * node)) : Prop :=
  exists v', v' ∈ virt /\ shortest_path g u v' P /\ exists Q, shortest_path g u v Q /\ length Q = length P.

Lemma counts_ext {A} (P Q : A -> Prop) n : (forall x, P x <-> Q x) -> counts P n -> counts Q n.
Proof. intros H (l & H1 & H2 & H3). exists l. split_and!; [done| |done]. intros x. by rewrite H2. Qed.
(** A property has one number of objects. *)
Lemma counts_unique {A} (P : A -> Prop) n m : counts P n -> counts P m -> n = m.
Proof.
  intros (l & H1 & H2 & ->) (k & K1 & K2 & ->). f_equal. apply Permutation_length, NoDup_Permutation; [done..|].
  intros x. by rewrite H2, K2.
Qed.
