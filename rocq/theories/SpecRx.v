(** Contract of the retworkx functions used by the decoder. *)
From Verif Require Export Decoder.
From stdpp Require Export list.
Open Scope Z_scope.

(** A walk of length k in a graph, by node indices. *)
Inductive walk {N W} (g : pygraph N W) : nat -> nat -> nat -> Prop :=
| walk_0 i : (i < length (pg_nodes g))%nat -> walk g 0 i i
| walk_S k i j l : is_Some (pg_edges g !! ekey i j) -> walk g k j l -> walk g (S k) i l.
Definition shortest {N W} (g : pygraph N W) (i j k : nat) : Prop :=
  walk g k i j /\ forall k', walk g k' i j -> (k <= k')%nat.
(** The number of walks of length k: with k the distance, the number of shortest paths. *)
Definition neighbours {N W} (g : pygraph N W) (i : nat) : list nat :=
  filter (fun j => is_Some (pg_edges g !! ekey i j)) (seq 0 (length (pg_nodes g))).
Fixpoint nwalks {N W} (g : pygraph N W) (k i j : nat) : Z :=
  match k with
  | O => if bool_decide (i = j) then 1 else 0
  | S k' => foldr Z.add 0 ((fun l => nwalks g k' l j) <$> neighbours g i)
  end.

(** Matchings: a set of pairs of distinct nodes joined by an edge, no node used twice. *)
Definition pends {A} (M : list (A * A)) : list A := M ≫= (fun p => [p.1; p.2]).
Definition matching (es : gmap (nat * nat) Z) (M : list (nat * nat)) : Prop :=
  NoDup (pends M) /\ forall p, p ∈ M -> is_Some (es !! ekey p.1 p.2).
Definition mweight (es : gmap (nat * nat) Z) (M : list (nat * nat)) : Z :=
  foldr Z.add 0 ((fun p => default 0 (es !! ekey p.1 p.2)) <$> M).
(** [max_weight_matching(g, max_cardinality=True)]. *)
Definition max_matching (es : gmap (nat * nat) Z) (M : list (nat * nat)) : Prop :=
  matching es M /\
  forall M', matching es M' -> (length M' <= length M)%nat /\ (length M' = length M -> mweight es M' <= mweight es M).

Definition pg_wf {N W} (g : pygraph N W) : Prop :=
  forall i j w, pg_edges g !! (i, j) = Some w -> (i <= j /\ j < length (pg_nodes g))%nat.
Record rx_ok (rx : retworkx) : Prop := {
  rx_dist_ok : forall g i j, pg_wf g -> (i < length (pg_nodes g))%nat -> (j < length (pg_nodes g))%nat ->
    match rx_dist rx g i j with
    | Some d => exists k, d = Z.of_nat k /\ shortest g i j k
    | None => forall k, ~ walk g k i j
    end;
  rx_paths_ok : forall g i j k, pg_wf g -> (i < length (pg_nodes g))%nat -> i <> j -> shortest g i j k ->
    rx_paths rx g i !! j = Some (nwalks g k i j);
  rx_match_ok : forall n es, (forall i j w, es !! (i, j) = Some w -> (i <= j /\ j < n)%nat) ->
    max_matching es (rx_match rx n es) }.
