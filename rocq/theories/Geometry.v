(** Model of the lattice parameters and geometry:
    qtcodes/circuits/rotated_surface.py:55-179 and the coordinate formulas of
    parse_readout (466-483). *)
From Verif Require Export Py.
Open Scope Z_scope.

(** The value of [params["d"]].  [DNum z]: any [numbers.Number], already passed through [int]
    (rotated_surface.py:67-69, repetition.py:43-44).  [DTup l]: a tuple of integers.
    [DOther]: anything else (strings, None, ...), for which [int]-conversion of the
    elements fails.  Simplification: tuples of non-integers are represented by their
    [int]-converted elements; a string of digits, which Python would iterate, is [DOther]. *)
Inductive dval := DNum (z : Z) | DTup (l : list Z) | DOther.

(** rotated_surface.py:62-72 : default, square lattice from a number, tuple of ints. *)
Definition norm_d (d : option dval) : res (list Z) :=
  match d with
  | None => Ok [3; 3]
  | Some (DNum z) => Ok [z; z]
  | Some (DTup l) => Ok l
  | Some DOther => Err ValueError
  end.

(** rotated_surface.py:74-78 : dh, dw and the oddness check ([self.H] = DH = 0,
    [self.W] = DW = 1, base.py:41-50, common/constants.py:9-11). *)
Definition check_d (l : list Z) : res (Z * Z) :=
  match py_index l 0 with
  | Err e => Err e
  | Ok dh =>
    match py_index l 1 with
    | Err e => Err e
    | Ok dw =>
      if bool_decide (dh mod 2 <> 1) || bool_decide (dw mod 2 <> 1)
      then Err LatticeError else Ok (dh, dw)
    end
  end.

(** rotated_surface.py:86. *)
Definition num_data (dh dw : Z) : Z := dh * dw.
(** rotated_surface.py:88-91, index SYNX = 0 and SYNZ = 1 (base.py:52-60). *)
Definition num_syn_x (dh dw : Z) : Z := ((dh + 1) / 2) * (dw - 1).
Definition num_syn_z (dh dw : Z) : Z := ((dw + 1) / 2) * (dh - 1).

(** One entry of [geometry["mx"]] / [geometry["mz"]]: [[syn, top_l, top_r, bot_l, bot_r]]. *)
Record plaq := Plaq {
  p_syn : Z; top_l : option Z; top_r : option Z; bot_l : option Z; bot_r : option Z }.

(** rotated_surface.py:139-159, body of the loop for one X syndrome.
    Python's // and % are Z.div and Z.modulo (floor); per_row_x = 0 only when the
    loop has no iterations (dw = 1), so no ZeroDivisionError arises. *)
Definition geom_x (dh dw syn : Z) : plaq :=
  let per_row_x := (dw - 1) / 2 in
  let row := syn / per_row_x in
  let offset := syn mod per_row_x in
  let start := (row - 1) * dw in
  let row_parity := row mod 2 in
  if bool_decide (row = 0) then
    Plaq syn None None (Some (syn * 2)) (Some (syn * 2 + 1))
  else if bool_decide (row = dh) then
    Plaq syn (Some (start + offset * 2 + 1)) (Some (start + offset * 2 + 2)) None None
  else
    Plaq syn (Some (start + offset * 2 + row_parity))
             (Some (start + offset * 2 + row_parity + 1))
             (Some (start + dw + offset * 2 + row_parity))
             (Some (start + dw + offset * 2 + row_parity + 1)).

(** rotated_surface.py:161-178, body of the loop for one Z syndrome. *)
Definition geom_z (dh dw syn : Z) : plaq :=
  let per_row_z := (dw + 1) / 2 in
  let row := syn / per_row_z in
  let offset := syn mod per_row_z in
  let start := row * dw in
  let row_parity := row mod 2 in
  let tl := start + offset * 2 - row_parity in
  let tr := start + offset * 2 - row_parity + 1 in
  let bl := start + dw + offset * 2 - row_parity in
  let br := start + dw + offset * 2 - row_parity + 1 in
  if bool_decide (row_parity = 0) && bool_decide (offset = per_row_z - 1) then
    Plaq syn (Some tl) None (Some bl) None
  else if bool_decide (row_parity = 1) && bool_decide (offset = 0) then
    Plaq syn None (Some tr) None (Some br)
  else Plaq syn (Some tl) (Some tr) (Some bl) (Some br).

(** rotated_surface.py:117-179, [_set_geometry]: the lists under "mx" and "mz". *)
Definition geometry_mx (dh dw : Z) : list plaq := geom_x dh dw <$> py_range (num_syn_x dh dw).
Definition geometry_mz (dh dw : Z) : list plaq := geom_z dh dw <$> py_range (num_syn_z dh dw).

(** [idx_list[1:]] (rotated_surface.py:205, 264, 322). *)
Definition plaq_idx (p : plaq) : list (option Z) := [top_l p; top_r p; bot_l p; bot_r p].

(** Data-qubit indices of a plaquette (the non-None entries). *)
Definition plaq_data (p : plaq) : list Z := omap id (plaq_idx p).

(** Coordinates reported by parse_readout for stabilizer number [loc], doubled so that
    half-integers are integers: rotated_surface.py:468,472-473 (X) and 477,481-482 (Z). *)
Definition coord_x (dw loc : Z) : Z * Z :=
  let per_row_x := dw / 2 in
  (-1 + 2 * (loc / per_row_x),
   (1 + 2 * ((loc / per_row_x) mod 2)) + (loc mod per_row_x) * 4).
Definition coord_z (dw loc : Z) : Z * Z :=
  let per_row_z := dw / 2 + 1 in
  (1 + 2 * (loc / per_row_z),
   (1 - 2 * ((loc / per_row_z) mod 2)) + (loc mod per_row_z) * 4).
