(** Model of the matching decoder: qtcodes/fitters/rotated_surface.py,
    qtcodes/fitters/lattice_decoder.py and qtcodes/fitters/repetition.py. *)
From Verif Require Export Parse.
From stdpp Require Export list.
Open Scope Z_scope.

(** ** retworkx.PyGraph(multigraph=False) *)
(** Nodes are numbered in order of insertion; an undirected edge is stored under its
    ordered pair of indices, and adding an existing edge replaces its weight. *)
Record pygraph (N W : Type) := PG { pg_nodes : list N; pg_edges : gmap (nat * nat) W }.
Arguments PG {_ _} _ _.
Arguments pg_nodes {_ _} _.
Arguments pg_edges {_ _} _.
Definition ekey (a b : nat) : nat * nat := (Nat.min a b, Nat.max a b).
Definition pg_empty {N W} : pygraph N W := PG [] ∅.
Definition pg_add_node {N W} (n : N) (g : pygraph N W) : pygraph N W := PG (pg_nodes g ++ [n]) (pg_edges g).
Definition pg_add_edge {N W} (a b : nat) (w : W) (g : pygraph N W) : pygraph N W :=
  PG (pg_nodes g) (<[ekey a b := w]> (pg_edges g)).

(** A label (t, i, j) with the coordinates i, j doubled: (t, 2i, 2j). *)
Notation node := (Z * Z * Z)%type.
Notation loc2 := (Z * Z)%type.
Definition at_time (t : Z) (p : loc2) : node := (t, p.1, p.2).
Definition n_time (n : node) : Z := n.1.1.
Definition n_row (n : node) : Z := n.1.2.
Definition n_col (n : node) : Z := n.2.

(** A graph together with the dictionary [node_map] from labels to indices. *)
Record lgraph (W : Type) := LG { lg_g : pygraph node W; lg_map : gmap node nat }.
Arguments LG {_} _ _.
Arguments lg_g {_} _.
Arguments lg_map {_} _.
Definition lg_empty {W} : lgraph W := LG pg_empty ∅.
(** [node_map[n] = g.add_node(n)]. *)
Definition lg_add_node {W} (n : node) (g : lgraph W) : lgraph W :=
  LG (pg_add_node n (lg_g g)) (<[n := length (pg_nodes (lg_g g))]> (lg_map g)).
(** [if n not in g.nodes(): node_map[n] = g.add_node(n)]. *)
Definition lg_ensure {W} (n : node) (g : lgraph W) : lgraph W :=
  if bool_decide (n ∈ pg_nodes (lg_g g)) then g else lg_add_node n g.
(** [g.add_edge(node_map[a], node_map[b], w)]. *)
Definition lg_add_edge {W} (a b : node) (w : W) (g : lgraph W) : res (lgraph W) :=
  match lg_map g !! a with
  | None => Err KeyError
  | Some i => match lg_map g !! b with
              | None => Err KeyError
              | Some j => Ok (LG (pg_add_edge i j w (lg_g g)) (lg_map g)) end
  end.

(** ** The syndrome graph *)
(** fitters/rotated_surface.py:179-207, [_valid_syndrome], in doubled coordinates. *)
Definition valid_syndrome (isx : bool) (dh dw : Z) (p : loc2) : bool :=
  if isx then bool_decide (0 < p.2 /\ p.2 < 2 * (dw - 1) /\ p.1 < 2 * dh /\ -2 < p.1)
  else bool_decide (0 < p.1 /\ p.1 < 2 * (dh - 1) /\ p.2 < 2 * dw /\ -2 < p.2).
(** fitters/rotated_surface.py:209-234, [_specify_virtual]; [range(0, n, 2)]. *)
Definition virtual_nodes (isx : bool) (dh dw : Z) : list node :=
  if isx then mjoin ((fun j => [(-1, 2 * j + 1, -1); (-1, 2 * j - 1, 2 * dw - 1)]) <$> py_range_step dh 2)
  else mjoin ((fun j => [(-1, -1, 2 * j - 1); (-1, 2 * dh - 1, 2 * j + 1)]) <$> py_range_step dw 2).

(** fitters/rotated_surface.py:109-114. *)
Definition diagonals (n : node) : list loc2 :=
  let i := n_row n in let j := n_col n in
  [(i - 2, j - 2); (i + 2, j - 2); (i - 2, j + 2); (i + 2, j + 2)].
(** Lines 134-147 and 150-164: add the target if it is new, then the edge. *)
Definition link (cur : node) (g : lgraph Z) (target : node) : res (lgraph Z) :=
  lg_add_edge cur target 1 (lg_ensure target g).

(** fitters/rotated_surface.py:84-177, [_populate_syndrome_graph].  The list of visited
    nodes is shared by all recursive calls: it is threaded with the graph.  The recursion is
    on fuel; running out of fuel is RecursionError (theorem C23 shows it never happens). *)
Fixpoint populate_graph (fuel : nat) (isx : bool) (dh dw : Z) (cur : node) (t : Z)
    (s : list node * lgraph Z) : res (list node * lgraph Z) :=
  match fuel with
  | O => Err RecursionError
  | S fuel' =>
    let visited := s.1 ++ [cur] in
    let normal := filter (fun p => valid_syndrome isx dh dw p = true /\ at_time t p ∉ visited) (diagonals cur) in
    let virtual := filter (fun p => at_time (-1) p ∈ virtual_nodes isx dh dw /\ at_time (-1) p ∉ visited) (diagonals cur) in
    match normal, virtual with
    | [], [] => Ok (visited, s.2)
    | _, _ =>
      match rfold (fun g p => link cur g (at_time t p)) s.2 normal with
      | Err e => Err e
      | Ok g1 =>
        match rfold (fun g p => link cur g (at_time (-1) p)) g1 virtual with
        | Err e => Err e
        | Ok g2 =>
          match rfold (fun s p => populate_graph fuel' isx dh dw (at_time t p) t s) (visited, g2) normal with
          | Err e => Err e
          | Ok s3 => rfold (fun s p => populate_graph fuel' isx dh dw (at_time (-1) p) t s) s3 virtual
          end
        end
      end
    end
  end.

(** fitters/rotated_surface.py:59. *)
Definition start_loc (isx : bool) : loc2 := if isx then (1, 3) else (1, 1).
(** Enough fuel for every position of the lattice, at one time and at the boundary. *)
Definition dfs_fuel (dh dw : Z) : nat := S (Z.to_nat (2 * ((2 * dh + 4) * (2 * dw + 4)))).
(** fitters/rotated_surface.py:50-82, [_make_syndrome_graph], for one key. *)
Definition make_layer (isx : bool) (dh dw : Z) (g : lgraph Z) (t : Z) : res (lgraph Z) :=
  let n := at_time t (start_loc isx) in
  match populate_graph (dfs_fuel dh dw) isx dh dw n t ([], lg_add_node n g) with
  | Ok s => Ok s.2 | Err e => Err e end.
Definition make_syndrome_graph (isx : bool) (dh dw T : Z) : res (lgraph Z) :=
  match rfold (make_layer isx dh dw) lg_empty (py_range T) with
  | Err e => Err e
  | Ok g =>
    rfold (fun g n =>
        rfold (fun g t => lg_add_edge (at_time t (n_row n, n_col n)) (at_time (t + 1) (n_row n, n_col n)) 1 g)
          g (py_range (T - 1)))
      g (filter (fun n => n_time n = 0) (pg_nodes (lg_g g)))
  end.

(** ** The decoder object *)
(** [self.S]/[self.node_map] for the keys in [syndrome_graph_keys]. *)
Record decoder := Dec { dec_h : Z; dec_w : Z; dec_T : Z; dec_X : option (lgraph Z); dec_Z : option (lgraph Z) }.
(** lattice_decoder.py:35-54, fitters/rotated_surface.py:29-48 with keys X and Z.
    [d] is what [_params_validation] leaves in [params["d"]]: a number is doubled, a tuple of
    another length than 2 and even numbers are LatticeErrors; a missing d or T a ValueError.
    Simplification: other objects under "d" (no [len]) raise TypeError. *)
Definition decoder_d (d : option dval) (T : option Z) : res (Z * Z * Z) :=
  match d, T with
  | Some d, Some T =>
      match (match d with DNum z => Ok [z; z] | DTup l => Ok l | DOther => Err TypeError end) with
      | Err e => Err e
      | Ok [dh; dw] => if bool_decide (dh mod 2 <> 1) || bool_decide (dw mod 2 <> 1) then Err LatticeError else Ok (dh, dw, T)
      | Ok _ => Err LatticeError
      end
  | _, _ => Err ValueError
  end.
Definition rotated_decoder (d : option dval) (T : option Z) : res decoder :=
  match decoder_d d T with
  | Err e => Err e
  | Ok (dh, dw, T) =>
    match make_syndrome_graph true dh dw T with
    | Err e => Err e
    | Ok gx => match make_syndrome_graph false dh dw T with
               | Err e => Err e
               | Ok gz => Ok (Dec dh dw T (Some gx) (Some gz)) end
    end
  end.
(** fitters/repetition.py:20-26: [RepetitionDecoder]; [pfp] is [params["phase-flip-protected"]].
    Only the graph of the protected type is built. *)
Definition repetition_decoder (pfp : option bool) (d : option dval) (T : option Z) : res decoder :=
  let isx := default false pfp in
  match rep_d isx d with
  | Err e => Err e
  | Ok dl =>
    match decoder_d (Some (DTup dl)) T with
    | Err e => Err e
    | Ok (dh, dw, T) =>
      match make_syndrome_graph isx dh dw T with
      | Err e => Err e
      | Ok g => Ok (if isx then Dec dh dw T (Some g) None else Dec dh dw T None (Some g))
      end
    end
  end.
Definition dec_graph (D : decoder) (isx : bool) : option (lgraph Z) := if isx then dec_X D else dec_Z D.

(** ** retworkx algorithms *)
(** What the decoder asks of retworkx: distances in a graph with unit weights ([None] is
    infinity), numbers of shortest paths from a node, and a matching. *)
Record retworkx := Rx {
  rx_dist : pygraph node Z -> nat -> nat -> option Z;
  rx_paths : pygraph node Z -> nat -> gmap nat Z;
  rx_match : nat -> gmap (nat * nat) Z -> list (nat * nat) }.

(** ** The error graph *)
(** [itertools.combinations(l, 2)]. *)
Fixpoint combinations {A} (l : list A) : list (A * A) :=
  match l with [] => [] | x :: l' => ((x,.) <$> l') ++ combinations l' end.

(** lattice_decoder.py:82-151, [_make_error_graph].  [weigh] computes the weight of a pair
    that is not virtual-virtual (lines 129-143) and threads the cache of path numbers.
    The result is paired with the value of the caller's list after the call, since line 107
    extends it in place. *)
Section error_graph.
Context {W C : Type} (zero : W) (weigh : node -> node -> C -> res (W * C)).
Definition add_pair (virt : list node) (s : lgraph W * C) (p : node * node) : res (lgraph W * C) :=
  if bool_decide (p.1 ∈ virt) && bool_decide (p.2 ∈ virt) then
    match lg_add_edge p.1 p.2 zero s.1 with Ok g => Ok (g, s.2) | Err e => Err e end
  else
    match weigh p.1 p.2 s.2 with
    | Err e => Err e
    | Ok (w, c) => match lg_add_edge p.1 p.2 w s.1 with Ok g => Ok (g, c) | Err e => Err e end
    end.
Definition extra_node : node := (-1, -2, -2).
Definition make_error_graph (virt : list node) (nodes : list node) (c : C) : list node * res (lgraph W) :=
  let make_even := bool_decide (Z.of_nat (length nodes) mod 2 <> 0) in
  let nodes := nodes ++ virt in
  (nodes,
   match rfold (add_pair virt) (foldl (fun g n => lg_ensure n g) lg_empty nodes, c) (combinations nodes) with
   | Err e => Err e
   | Ok (g, _) =>
       if make_even then
         rfold (fun g v => lg_add_edge extra_node v zero g) (lg_add_node extra_node g) virt
       else Ok g
   end).
End error_graph.

(** lattice_decoder.py:129-131 and 143 without [err_prob]: minus the distance.
    Simplification: an infinite distance raises here rather than when the weight is
    converted by [int] in [_run_mwpm]. *)
Definition graph_dist (rx : retworkx) (g : lgraph Z) (a b : node) : res Z :=
  match lg_map g !! a with
  | None => Err KeyError
  | Some i => match lg_map g !! b with
              | None => Err KeyError
              | Some j => match rx_dist rx (lg_g g) i j with Some d => Ok d | None => Err OverflowError end end
  end.
Definition weigh_plain (rx : retworkx) (g : lgraph Z) (a b : node) (c : unit) : res (Z * unit) :=
  match graph_dist rx g a b with Ok d => Ok (- d, c) | Err e => Err e end.

(** lattice_decoder.py:294-320, [_run_mwpm]; [wfn] is [weight_fn]. *)
Definition run_mwpm {W} (rx : retworkx) (wfn : W -> Z) (g : lgraph W) : res (list (node * node)) :=
  match rmap (fun ij => match pg_nodes (lg_g g) !! fst ij, pg_nodes (lg_g g) !! snd ij with
                        | Some a, Some b => Ok (a, b)
                        | _, _ => Err IndexError end)
      (rx_match rx (length (pg_nodes (lg_g g))) (wfn <$> pg_edges (lg_g g))) with
  | Err e => Err e
  | Ok ms => Ok (filter (fun m => ~ (n_time m.1 = -1 /\ n_time m.2 = -1)) ms)
  end.

(** fitters/rotated_surface.py:236-263, [_is_crossing_readout_path]. *)
Definition is_crossing (isx : bool) (m : node * node) : bool :=
  if isx then bool_decide ((n_time m.1 = -1 /\ n_col m.1 = -1) \/ (n_time m.2 = -1 /\ n_col m.2 = -1))
  else bool_decide ((n_time m.1 = -1 /\ n_row m.1 = -1) \/ (n_time m.2 = -1 /\ n_row m.2 = -1)).

(** lattice_decoder.py:322-355, [_corrections] with [err_prob] None or 0: since 0 is falsy
    the weights are the distances in both cases, but with 0 they are scaled by 10000
    ([floats] is true). *)
Inductive err_plain := EPNone | EPZero.
Definition plain_wfn (ep : err_plain) (w : Z) : Z := match ep with EPNone => w | EPZero => w * 10000 end.
Definition corrections (rx : retworkx) (D : decoder) (ep : err_plain) (isx : bool) (syndromes : list node) :
    list node * res (list (node * node)) :=
  match syndromes with
  | [] => ([], Ok [])
  | _ =>
    match dec_graph D isx with
    | None => (syndromes ++ virtual_nodes isx (dec_h D) (dec_w D), Err KeyError) (* self.S[key] *)
    | Some g =>
      let r := make_error_graph 0 (weigh_plain rx g) (virtual_nodes isx (dec_h D) (dec_w D)) syndromes tt in
      (r.1, match r.2 with Err e => Err e | Ok eg => run_mwpm rx (plain_wfn ep) eg end)
    end
  end.
(** lattice_decoder.py:357-395, [correct_readout] on a parsed readout: value [lv], events of the
    requested type; the second component is the caller's list after the call. *)
Definition correct_events (rx : retworkx) (D : decoder) (ep : err_plain) (isx : bool) (lv : Z) (syndromes : list node) :
    list node * res Z :=
  let r := corrections rx D ep isx syndromes in
  (r.1, match r.2 with
        | Err e => Err e
        | Ok ms => Ok (foldl (fun v m => if is_crossing isx m then (v + 1) mod 2 else v) lv ms) end).
(** The same on a readout string; [logical_readout_type] is "X" or "Z". *)
Definition type_string (isx : bool) : string := if isx then "X" else "Z".
Definition correct_readout (rx : retworkx) (D : decoder) (ep : err_plain) (s : string) (isx : bool) : res Z :=
  match parse_readout (dec_h D) (dec_w D) s (Some (type_string isx)) with
  | Err e => Err e
  | Ok (lv, (X, Z)) => (correct_events rx D ep isx lv (if isx then X else Z)).2
  end.
