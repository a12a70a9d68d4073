(** The pictures of graphs drawn by a decoder (fitters/lattice_decoder.py).  A picture is the list
    of points with their labels and the list of lines with theirs.  Not modelled: sizes, fonts,
    rounding of the labels, the view angle.
    Rows and columns are doubled as in Decoder.v, and so is the third coordinate. *)
From Coq Require Import QArith Qcanon.
From Verif Require Export Decoder.
From stdpp Require Export list.
Open Scope Z_scope.

Record picture (P W : Type) := Pic {
  pic_nodes : list (P * node);  (* a point and the label written at it *)
  pic_lines : list (P * P);
  pic_texts : list (P * W);     (* a weight and the point it is written at, given as the sum of the ends of the line *)
  pic_cols : list Qc }.         (* place of the colour of each node on the colour map *)
Arguments Pic {P W}. Arguments pic_nodes {P W}. Arguments pic_lines {P W}. Arguments pic_texts {P W}. Arguments pic_cols {P W}.

(** The edges as pairs of labels: graph.edge_list(), graph[src], graph[tgt], get_edge_data. *)
Definition drawn_edges {W} (g : pygraph node W) : list (node * node * W) :=
  omap (fun e => match pg_nodes g !! e.1.1, pg_nodes g !! e.1.2 with Some a, Some b => Some (a, b, e.2) | _, _ => None end)
    (map_to_list (pg_edges g)).

(** lattice_decoder.py:452-454 *)
Definition point2 (n : node) : Z * Z := (n_col n, - n_row n).
Definition add2 (p q : Z * Z) : Z * Z := (p.1 + q.1, p.2 + q.2).
(** lattice_decoder.py:493-495, [node_to_pos3D] *)
Definition point3 (T : Z) (n : node) : Z * Z * Z := (n_col n, - n_row n, if bool_decide (n_time n = -1) then T - 1 else 2 * n_time n).
Definition add3 (p q : Z * Z * Z) : Z * Z * Z := (p.1.1 + q.1.1, p.1.2 + q.1.2, p.2 + q.2).
(** lattice_decoder.py:487-491: [plt.cm.plasma((node[0] + 1) / T)] *)
Definition colour (T : Z) (n : node) : Qc := Q2Qc ((n_time n + 1) # Z.to_pos T)%Q.

(** lattice_decoder.py:456-473: all nodes have one colour, "lightblue". *)
Definition draw2D {W} (g : pygraph node W) : picture (Z * Z) W :=
  Pic ((fun n => (point2 n, n)) <$> pg_nodes g)
      ((fun e => (point2 e.1.1, point2 e.1.2)) <$> drawn_edges g)
      ((fun e => (add2 (point2 e.1.1) (point2 e.1.2), e.2)) <$> drawn_edges g) [].
(** lattice_decoder.py:475-558, for T > 0 (other values are not reached from [draw]). *)
Definition draw3D {W} (T : Z) (g : pygraph node W) : picture (Z * Z * Z) W :=
  Pic ((fun n => (point3 T n, n)) <$> pg_nodes g)
      ((fun e => (point3 T e.1.1, point3 T e.1.2)) <$> drawn_edges g)
      ((fun e => (add3 (point3 T e.1.1) (point3 T e.1.2), e.2)) <$> drawn_edges g)
      (colour T <$> pg_nodes g).
(** lattice_decoder.py:421-473, [draw]: the figure and its axes are returned for one layer; for
    more, the 3D picture is shown and None returned, whatever the other arguments. *)
Inductive drawing (W : Type) := Returned (p : picture (Z * Z) W) | Shown (p : picture (Z * Z * Z) W).
Arguments Returned {W}. Arguments Shown {W}.
Definition draw {W} (T : Z) (g : pygraph node W) : drawing W := if bool_decide (1 < T) then Shown (draw3D T g) else Returned (draw2D g).
