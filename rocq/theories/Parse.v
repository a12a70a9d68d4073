(** Model of [_RotatedLattice.parse_readout] and its helpers
    (qtcodes/circuits/rotated_surface.py:226-358 and 415-488), and of the counts key
    Qiskit builds from the classical registers. *)
From Verif Require Export Geometry Circ.
From Coq Require Import Ascii.
From stdpp Require Export list.
Open Scope Z_scope.

(** [int(c)] for a one-character string: a decimal digit, otherwise ValueError. *)
Definition py_digit (c : ascii) : res Z :=
  let n := Z.of_nat (nat_of_ascii c) in
  if bool_decide (48 <= n <= 57) then Ok (n - 48) else Err ValueError.
(** [int(s)] as used at line 450, where [len(s) <= 1]. *)
Definition py_int_short (s : string) : res Z :=
  match s with EmptyString => Err ValueError | String c _ => py_digit c end.

(** An event: (time, 2*row, 2*col) (the code's floats are half-integers). *)
Notation event_loc := (Z * Z * Z)%type.

(** rotated_surface.py:254-255 and 312-313: [[int(q) for q in s][::-1]]. *)
Definition readout_values (s : string) : res (list Z) :=
  match rmap py_digit (String.list_ascii_of_string s) with Ok l => Ok (reverse l) | Err e => Err e end.
(** rotated_surface.py:259-268 and 317-326: the parity of one plaquette. *)
Definition plaq_value (rv : list Z) (p : plaq) : res Z :=
  match rmap (fun o => match o with Some i => py_index rv i | None => Ok 0 end) (plaq_idx p) with
  | Ok vs => Ok (foldr Z.add 0 vs mod 2) | Err e => Err e end.
(** The loop prepending each value: lines 257-269 and 315-327. *)
Definition stabilizer_string (rv : list Z) (ps : list plaq) : res string :=
  rfold (fun acc p => match plaq_value rv p with Ok v => Ok (py_str v +:+ acc)%string | Err e => Err e end) EmptyString ps.
(** [s[:n]] and [s[n:]] for n >= 0. *)
Fixpoint str_take (n : nat) (s : string) : string :=
  match n, s with S n', String c s' => String c (str_take n' s') | _, _ => EmptyString end.
Fixpoint str_drop (n : nat) (s : string) : string :=
  match n, s with S n', String _ s' => str_drop n' s' | _, _ => s end.
(** Lines 335-337: parity of the first [d[W]] values. *)
Definition parity_of (rv : list Z) (idx : list Z) : res Z :=
  rfold (fun acc i => match py_index rv i with Ok v => Ok ((acc + v) mod 2) | Err e => Err e end) 0 idx.

(** rotated_surface.py:226-282.  Line 279 reads [self.DW]: the lattice classes define
    H, W, SYNX and SYNZ only (base.py:41-60), so the loop header raises AttributeError. *)
Definition extract_x (dh dw : Z) (final prev : string) : res (Z * string) :=
  match readout_values final with
  | Err e => Err e
  | Ok rv => match stabilizer_string rv (geometry_mx dh dw) with
             | Err e => Err e
             | Ok _ => Err AttributeError end
  end.
(** rotated_surface.py:284-339. *)
Definition extract_z (dh dw : Z) (final prev : string) : res (Z * string) :=
  match readout_values final with
  | Err e => Err e
  | Ok rv =>
    match stabilizer_string rv (geometry_mz dh dw) with
    | Err e => Err e
    | Ok zs =>
      let st := (str_take (Z.to_nat (num_syn_x dh dw)) prev +:+ zs)%string in
      match parity_of rv (py_range dw) with Ok lr => Ok (lr, st) | Err e => Err e end
    end
  end.
(** rotated_surface.py:341-358; any other type returns None, which the caller unpacks. *)
Definition extract (dh dw : Z) (final prev ty : string) : res (Z * string) :=
  if String.eqb ty "X" then extract_x dh dw final prev
  else if String.eqb ty "Z" then extract_z dh dw final prev
  else Err TypeError.

(** [x * n] for a one-character string. *)
Fixpoint str_rep (n : nat) (c : ascii) : string := match n with O => EmptyString | S n' => String c (str_rep n' c) end.

(** Lines 469-474 and 478-483: the events of one stabilizer type.  [syns] are the xor-ed
    syndromes as integers. *)
Fixpoint hits_from (T : Z) (syns : list Z) (n : Z) (coord : Z -> Z * Z) : list event_loc :=
  match syns with
  | [] => []
  | syn :: syns' =>
      ((fun loc => (T, (coord loc).1, (coord loc).2)) <$>
         filter (fun loc => Z.land syn (Z.shiftl 1 loc) <> 0) (py_range n)) ++ hits_from (T + 1) syns' n coord
  end.
Definition hits := hits_from 0.

(** rotated_surface.py:415-488, [parse_readout]; the two lists of events are those under
    "X" and "Z". *)
Definition parse_readout (dh dw : Z) (s : string) (ty : option string) : res (Z * (list event_loc * list event_loc)) :=
  match
    match py_split s with
    | [] => Err IndexError (* unreachable: split never returns an empty list *)
    | c0 :: cs =>
        if bool_decide (1 < String.length c0)%nat then
          match ty with
          | None => Err AssertionError
          | Some ty =>
              match cs with
              | [] => Err IndexError
              | c1 :: _ => match extract dh dw c0 c1 ty with Ok (lr, fs) => Ok (lr, fs :: cs) | Err e => Err e end
              end
          end
        else match py_int_short c0 with Ok lr => Ok (lr, cs) | Err e => Err e end
    end with
  | Err e => Err e
  | Ok (lr, chunks) =>
    match rmap py_int2 (reverse chunks) with
    | Err e => Err e
    | Ok ints =>
      let xors := zip_with Z.lxor ints (tail ints) in
      let nx := num_syn_x dh dw in let nz := num_syn_z dh dw in
      let mask_z := str_rep (Z.to_nat nz) "1" in
      let mask_x := (str_rep (Z.to_nat nx) "1" +:+ str_rep (Z.to_nat nz) "0")%string in
      match rmap (fun x => match py_int2 mask_x with Ok m => Ok (Z.shiftr (Z.land x m) nz) | Err e => Err e end) xors with
      | Err e => Err e
      | Ok xs =>
        match (if bool_decide (mask_z = EmptyString) then Ok []
               else rmap (fun x => match py_int2 mask_z with Ok m => Ok (Z.land x m) | Err e => Err e end) xors) with
        | Err e => Err e
        | Ok zs => Ok (lr, (hits xs nx (coord_x dw), hits zs nz (coord_z dw)))
        end
      end
    end
  end.

(** The key under which Qiskit reports a shot: the classical registers, last added first,
    separated by blanks, each written most significant bit first. *)
Definition creg_string (cs : clbit -> bool) (r : string * Z) : string :=
  string_of_bits (reverse ((fun i => cs (r.1, i)) <$> seqZ 0 r.2)).
Definition counts_key (cs : clbit -> bool) (cregs : list (string * Z)) : string :=
  py_join (reverse (creg_string cs <$> cregs)).
