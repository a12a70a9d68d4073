(** Model of the encoders: qtcodes/circuits/{base,rotated_surface,xxzz,xzzx,repetition}.py.
    A QuantumCircuit is the list of its registers and the list of its instructions;
    Python objects that are shared by reference and mutated (the params dictionaries)
    live in a heap.  Methods are state transformers that may raise; the state reached
    when an exception is raised is kept, as in Python. *)
From Verif Require Export Geometry.
Open Scope Z_scope.

(** ** Circuits (contract of qiskit.QuantumCircuit) *)

(** A qubit / classical bit is identified by its register's name and its index. *)
Notation qubit := (string * Z)%type.
Notation clbit := (string * Z)%type.
(** A register handle: name and size. *)
Notation rhandle := (string * Z)%type.

Inductive instr :=
| IH (q : qubit) | IX (q : qubit) | IZ (q : qubit) | IId (q : qubit)
| ICX (c t : qubit) | ICZ (c t : qubit)
| IReset (q : qubit)
| IMeas (q : qubit) (c : clbit)
| IXIf (q : qubit) (r : rhandle) (v : Z)   (* circ.x(q).c_if(r, v) *)
| IZIf (q : qubit) (r : rhandle) (v : Z)   (* circ.z(q).c_if(r, v) *)
| IBarrier.

Record reg := Reg { r_quantum : bool; r_name : string; r_size : Z }.
Definition handle (r : reg) : rhandle := (r_name r, r_size r).

(** ** Python objects *)

(** A params dictionary; a field is None when the key is absent.  Only the keys the code
    uses are represented. *)
Record params := Params {
  d_of : option dval;                       (* "d" *)
  T_of : option Z;                          (* "T" *)
  pfp_of : option bool;                     (* "phase-flip-protected" *)
  num_readout_of : option Z;                (* "num_readout" *)
  num_lattice_readout_of : option Z;        (* "num_lattice_readout" *)
  num_data_of : option Z;                   (* "num_data" *)
  num_syn_of : option (Z * Z) }.            (* "num_syn": (X, Z) *)
Definition empty_params := Params None None None None None None None.
Definition params_empty (p : params) : bool :=
  match p with Params None None None None None None None => true | _ => false end.

Inductive code := XXZZ | XZZX.
(** The classes in qubit_types.py:10-14. *)
Inductive qtype := TRepetition | TXXZZ | TXZZX.
Definition code_of (t : qtype) : code := match t with TXZZX => XZZX | _ => XXZZ end.
Global Instance code_eq_dec : EqDecision code. Proof. solve_decision. Defined.
Global Instance qtype_eq_dec : EqDecision qtype. Proof. solve_decision. Defined.

Inductive stabcls := SXXXX | SZZZZ | SXZZX.

(** One element of [qubit_indices]: the syndrome qubit and the four neighbours. *)
Record qplaq := QPlaq {
  q_syn : qubit; q_tl : option qubit; q_tr : option qubit; q_bl : option qubit; q_br : option qubit }.

(** A lattice object.  [lat_params] is the reference to its params dictionary.
    Not represented: the [cregisters] dictionary, which is only ever written. *)
Record lattice := Lattice {
  lat_code : code;
  lat_name : string;
  lat_params : nat;
  lat_data : rhandle;
  lat_mz : option rhandle;
  lat_mx : option rhandle;
  lat_ancilla : rhandle;
  lat_geometry : list plaq * list plaq;            (* "mx", "mz" *)
  lat_stabs : list (stabcls * qplaq) }.            (* zip(stabilizers, qubit_indices) *)

(** A TopologicalQubit: its class and lattice ([self.name] = [lattice.name]). *)
Record tqubit := TQubit { tq_type : qtype; tq_lat : lattice }.

(** The program state: heap of params dictionaries, the circuit, the TopologicalRegister
    (name, counter [n], sub-registers in insertion order) and the TopologicalCircuit's
    [qreg]/[creg] dictionaries. *)
Record st := St {
  s_heap : gmap nat params;
  s_next : nat;
  s_regs : list reg;
  s_instrs : list instr;
  s_tname : string;
  s_n : Z;
  s_tq : list (string * list (Z * tqubit));
  s_tqreg : list (string * rhandle);
  s_tcreg : list (string * rhandle) }.

Definition M (A : Type) : Type := st -> st * res A.
Definition mret {A} (a : A) : M A := fun s => (s, Ok a).
Definition mraise {A} (e : exn) : M A := fun s => (s, Err e).
Definition mlift {A} (r : res A) : M A := fun s => (s, r).
Definition mbind' {A B} (m : M A) (f : A -> M B) : M B := fun s =>
  match m s with (s', Ok a) => f a s' | (s', Err e) => (s', Err e) end.
Notation "'let*' x := m 'in' k" := (mbind' m (fun x => k))
  (at level 200, x name, m at level 100, k at level 200, right associativity).
Notation "m ';;;' k" := (mbind' m (fun _ => k)) (at level 100, right associativity).

Fixpoint mfor {A} (l : list A) (f : A -> M unit) : M unit :=
  match l with [] => mret tt | x :: l' => f x ;;; mfor l' f end.

(** ** Heap and circuit primitives *)

Definition set_heap (s : st) (h : gmap nat params) : st :=
  St h (s_next s) (s_regs s) (s_instrs s) (s_tname s) (s_n s) (s_tq s) (s_tqreg s) (s_tcreg s).
Definition set_regs (s : st) (r : list reg) : st :=
  St (s_heap s) (s_next s) r (s_instrs s) (s_tname s) (s_n s) (s_tq s) (s_tqreg s) (s_tcreg s).
Definition set_instrs (s : st) (i : list instr) : st :=
  St (s_heap s) (s_next s) (s_regs s) i (s_tname s) (s_n s) (s_tq s) (s_tqreg s) (s_tcreg s).

Definition new_params (p : params) : M nat := fun s =>
  (St (<[s_next s := p]> (s_heap s)) (S (s_next s)) (s_regs s) (s_instrs s)
      (s_tname s) (s_n s) (s_tq s) (s_tqreg s) (s_tcreg s), Ok (s_next s)).
Definition get_params (l : nat) : M params := fun s =>
  match s_heap s !! l with Some p => (s, Ok p) | None => (s, Err KeyError) end.
Definition put_params (l : nat) (p : params) : M unit := fun s =>
  (set_heap s (<[l := p]> (s_heap s)), Ok tt).

(** Reading a key of a dictionary. *)
Definition key {A} (o : option A) : M A :=
  match o with Some a => mret a | None => mraise KeyError end.

(** circ.add_register(r): qiskit rejects negative sizes (when the register object is
    created) and names already present in the circuit. *)
Definition add_reg (r : reg) : M unit := fun s =>
  if bool_decide (r_size r < 0) then (s, Err CircuitError)
  else if bool_decide (r_name r ∈ (r_name <$> s_regs s)) then (s, Err CircuitError)
  else (set_regs s (s_regs s ++ [r]), Ok tt).

(** Appending instructions to the circuit. *)
Definition emit (l : list instr) : M unit := fun s =>
  (set_instrs s (s_instrs s ++ l), Ok tt).

(** register[i] for an integer i. *)
Definition reg_get (r : rhandle) (i : Z) : res qubit :=
  if bool_decide (0 <= i < r.2) then Ok (r.1, i)
  else if bool_decide (- r.2 <= i < 0) then Ok (r.1, i + r.2)
  else Err IndexError.
(** The bits of a register, in order. *)
Definition reg_bits (r : rhandle) : list qubit := (fun i => (r.1, i)) <$> py_range r.2.
(** register[[i1,...]] for a list: qiskit evaluates max(list), a ValueError when it is empty. *)
Definition reg_list (r : rhandle) (l : list Z) : res (list qubit) :=
  match l with
  | [] => Err ValueError
  | _ => if bool_decide (Forall (fun i => i < r.2) l) then rmap (reg_get r) l else Err CircuitError
  end.
(** Broadcasting a one-qubit operation over operands; an empty operand list is rejected. *)
Definition emit1 (f : qubit -> instr) (qs : list qubit) : M unit :=
  match qs with [] => mraise CircuitError | _ => emit (f <$> qs) end.

(** ** Lattice construction *)

(** rotated_surface.py:55-91, [_params_validate_and_generate] on the dictionary [l]. *)
Definition params_validate_and_generate (l : nat) : M (Z * Z) :=
  let* p := get_params l in
  let* dl := mlift (norm_d (d_of p)) in
  put_params l (Params (Some (DTup dl)) (T_of p) (pfp_of p) (num_readout_of p)
                       (num_lattice_readout_of p) (num_data_of p) (num_syn_of p)) ;;;
  let* hw := mlift (check_d dl) in
  put_params l (Params (Some (DTup dl)) (Some (-1)) (pfp_of p) (Some (-1)) (Some (-1))
                       (Some (num_data hw.1 hw.2))
                       (Some (num_syn_x hw.1 hw.2, num_syn_z hw.1 hw.2))) ;;;
  mret hw.

(** self.params["d"][self.H], self.params["d"][self.W] once the lattice exists. *)
Definition get_dim (p : params) (i : Z) : M Z :=
  let* d := key (d_of p) in
  match d with
  | DTup dl => mlift (py_index dl i)
  | _ => mraise TypeError
  end.

(** XXZZ: xxzz.py:78, XZZX: xzzx.py:53. *)
Definition shortname_mx (c : code) : stabcls := match c with XXZZ => SXXXX | XZZX => SXZZX end.
Definition shortname_mz (c : code) : stabcls := match c with XXZZ => SZZZZ | XZZX => SXZZX end.

(** rotated_surface.py:201-209, one plaquette. *)
Definition opt_get (r : rhandle) (o : option Z) : res (option qubit) :=
  match o with
  | None => Ok None
  | Some i => match reg_get r i with Ok q => Ok (Some q) | Err e => Err e end
  end.
Definition gen_plaq (syn_reg : option rhandle) (data : rhandle) (p : plaq) : res qplaq :=
  match syn_reg with
  | None => Err KeyError
  | Some sr =>
      s ← reg_get sr (p_syn p);
      tl ← opt_get data (top_l p); tr ← opt_get data (top_r p);
      bl ← opt_get data (bot_l p); br ← opt_get data (bot_r p);
      Ok (QPlaq s tl tr bl br)
  end.
(** rotated_surface.py:181-210, [_gen_qubit_indices_and_stabilizers]: all "mx" first, then "mz". *)
Definition gen_stabs (c : code) (mx mz : option rhandle) (data : rhandle)
    (g : list plaq * list plaq) : res (list (stabcls * qplaq)) :=
  xs ← rmap (gen_plaq mx data) g.1;
  zs ← rmap (gen_plaq mz data) g.2;
  Ok ((pair (shortname_mx c) <$> xs) ++ (pair (shortname_mz c) <$> zs)).

(** rotated_surface.py:93-115 and base.py:80-95: validation, registers (data, mz, mx,
    ancilla, in this order), geometry. *)
Definition new_lattice (c : code) (l : nat) (name : string) : M lattice :=
  let* hw := params_validate_and_generate l in
  let nx := num_syn_x hw.1 hw.2 in
  let nz := num_syn_z hw.1 hw.2 in
  let data := ((name +:+ "_data")%string, num_data hw.1 hw.2) in
  let mz := if bool_decide (nz > 0) then Some ((name +:+ "_mz")%string, nz) else None in
  let mx := if bool_decide (nx > 0) then Some ((name +:+ "_mx")%string, nx) else None in
  let anc := ((name +:+ "_ancilla")%string, 1) in
  mfor ([data] ++ option_list mz ++ option_list mx ++ [anc])
       (fun h => add_reg (Reg true h.1 h.2)) ;;;
  let g := (geometry_mx hw.1 hw.2, geometry_mz hw.1 hw.2) in
  let* sts := mlift (gen_stabs c mx mz data g) in
  mret (Lattice c name l data mz mx anc g sts).

(** repetition.py:30-69, [RepetitionQubit._validate_params] on dictionary [l]
    (DH = 0, DW = 1). *)
Definition rep_d (pfp : bool) (d : option dval) : res (list Z) :=
  match d with
  | None => Ok (if pfp then [1; 3] else [3; 1])
  | Some (DNum z) => Ok (if pfp then [1; z] else [z; 1])
  | Some (DTup l) =>
      if pfp then
        (h ← py_index l 0; if bool_decide (h <> 1) then Err LatticeError else Ok l)
      else
        (w ← py_index l 1; if bool_decide (w <> 1) then Err LatticeError else Ok l)
  | Some DOther => Err LatticeError
  end.
Definition set_d (p : params) (d : option dval) : params :=
  Params d (T_of p) (pfp_of p) (num_readout_of p) (num_lattice_readout_of p) (num_data_of p) (num_syn_of p).
Definition set_pfp (p : params) (b : bool) : params :=
  Params (d_of p) (T_of p) (Some b) (num_readout_of p) (num_lattice_readout_of p) (num_data_of p) (num_syn_of p).
Definition rep_validate (l : nat) : M unit :=
  let* p := get_params l in
  let pfp := default false (pfp_of p) in
  put_params l (set_pfp p pfp) ;;;
  let* dl := mlift (rep_d pfp (d_of p)) in
  put_params l (set_d (set_pfp p pfp) (Some (DTup dl))).

(** [params if params else {}] (base.py:297, repetition.py:32): None and an empty
    dictionary are replaced by a fresh dictionary, anything else is kept by reference. *)
Definition or_new (l : option nat) : M nat :=
  match l with
  | None => new_params empty_params
  | Some l => let* p := get_params l in
              if params_empty p then new_params empty_params else mret l
  end.

(** base.py:273-300 (and repetition.py:21-28): constructing a qubit of class [t]. *)
Definition new_tqubit (t : qtype) (l : option nat) (name : string) : M tqubit :=
  let* l := or_new l in
  (match t with TRepetition => rep_validate l | _ => mret tt end) ;;;
  let* lat := new_lattice (code_of t) l name in
  mret (TQubit t lat).

(** ** Stabilizer circuits *)

Definition is_some_b {A} (o : option A) : bool := match o with Some _ => true | None => false end.

(** xxzz.py:23-43, [_XXXX.entangle]. *)
Definition entangle_xxxx (p : qplaq) : res (list instr) :=
  let s := q_syn p in
  if (is_some_b (q_tr p) && negb (is_some_b (q_tl p)))
     || (is_some_b (q_br p) && negb (is_some_b (q_bl p)))
  then Err LatticeError
  else
    top ← (match q_tr p, q_tl p with
           | Some tr, Some tl => Ok [ICX s tr; ICX s tl]
           | Some _, None => Err CircuitError
           | None, _ => Ok [] end);
    bot ← (match q_br p, q_bl p with
           | Some br, Some bl => Ok [ICX s br; ICX s bl]
           | Some _, None => Err CircuitError
           | None, _ => Ok [] end);
    Ok ([IH s] ++ top ++ bot ++ [IH s]).

(** xxzz.py:51-69, [_ZZZZ.entangle]. *)
Definition entangle_zzzz (p : qplaq) : res (list instr) :=
  let s := q_syn p in
  if (is_some_b (q_tr p) && negb (is_some_b (q_br p)))
     || (is_some_b (q_tl p) && negb (is_some_b (q_bl p)))
  then Err LatticeError
  else
    right ← (match q_tr p, q_br p with
           | Some tr, Some br => Ok [ICX tr s; ICX br s]
           | Some _, None => Err CircuitError
           | None, _ => Ok [] end);
    left ← (match q_tl p, q_bl p with
           | Some tl, Some bl => Ok [ICX tl s; ICX bl s]
           | Some _, None => Err CircuitError
           | None, _ => Ok [] end);
    Ok (right ++ left).

(** xzzx.py:19-44, [_XZZX.entangle]. *)
Definition entangle_xzzx (p : qplaq) : res (list instr) :=
  let s := q_syn p in
  Ok ((match q_tl p with Some q => [IH s; ICX s q; IH s] | None => [] end) ++
      (match q_tr p with Some q => [ICX q s] | None => [] end) ++
      (match q_bl p with Some q => [ICX q s] | None => [] end) ++
      (match q_br p with Some q => [IH s; ICX s q; IH s] | None => [] end)).

Definition entangle_plaq (c : stabcls) (p : qplaq) : res (list instr) :=
  match c with SXXXX => entangle_xxxx p | SZZZZ => entangle_zzzz p | SXZZX => entangle_xzzx p end.

(** base.py:131-154, [entangle]: an empty argument list is falsy, hence replaced by the
    lattice's own list (lines 148-149). *)
Definition entangle (lat : lattice) (arg : option (list (stabcls * qplaq))) : M unit :=
  let l := match arg with None | Some [] => lat_stabs lat | Some l => l end in
  mfor l (fun sp => let* is := mlift (entangle_plaq sp.1 sp.2) in emit (is ++ [IBarrier])).

(** rotated_surface.py:212-224, [entangle_x] / [entangle_z].  The stabilizer and index
    lists are sliced in the same way, so they are sliced together here. *)
Definition entangle_x (lat : lattice) : M unit :=
  let* mx := key (lat_mx lat) in
  entangle lat (Some (take (Z.to_nat mx.2) (lat_stabs lat))).
Definition entangle_z (lat : lattice) : M unit :=
  let* mx := key (lat_mx lat) in
  entangle lat (Some (drop (Z.to_nat mx.2) (lat_stabs lat))).

(** circ.measure(qubits, clbits): qiskit pairs lists of the same length, copies a single qubit
    to several bits, and rejects everything else. *)
Definition emit_meas (qs : list qubit) (cs : list clbit) : M unit :=
  if bool_decide (length qs = length cs) then emit (zip_with IMeas qs cs)
  else match qs, cs with
       | [q], _ :: _ => emit (IMeas q <$> cs)
       | _, _ => mraise CircuitError
       end.

Definition upd_T (p : params) (z : Z) : params :=
  Params (d_of p) (Some z) (pfp_of p) (num_readout_of p) (num_lattice_readout_of p) (num_data_of p) (num_syn_of p).
Definition upd_num_readout (p : params) (z : Z) : params :=
  Params (d_of p) (T_of p) (pfp_of p) (Some z) (num_lattice_readout_of p) (num_data_of p) (num_syn_of p).
Definition upd_num_lattice_readout (p : params) (z : Z) : params :=
  Params (d_of p) (T_of p) (pfp_of p) (num_readout_of p) (Some z) (num_data_of p) (num_syn_of p).

(** rotated_surface.py:496-531, [RotatedQubit.stabilize]. *)
Definition stabilize (q : tqubit) : M unit :=
  let lat := tq_lat q in
  let* p := get_params (lat_params lat) in
  let* ns := key (num_syn_of p) in
  let nx := ns.1 in let nz := ns.2 in
  let* T := key (T_of p) in
  put_params (lat_params lat) (upd_T p (T + 1)) ;;;
  let creg := ((lat_name lat +:+ "_c" +:+ py_str (T + 1))%string, nx + nz) in
  add_reg (Reg false creg.1 creg.2) ;;;
  entangle lat None ;;;
  let bits := reg_bits creg in
  (if bool_decide (nz > 0) then
     let* mz := key (lat_mz lat) in
     emit_meas (reg_bits mz) (take (Z.to_nat nz) bits) else mret tt) ;;;
  (if bool_decide (nx > 0) then
     let* mx := key (lat_mx lat) in
     emit_meas (reg_bits mx) (take (Z.to_nat nx) (drop (Z.to_nat nz) bits)) else mret tt) ;;;
  (if bool_decide (nz > 0) then
     let* mz := key (lat_mz lat) in emit (IReset <$> reg_bits mz) else mret tt) ;;;
  (if bool_decide (nx > 0) then
     let* mx := key (lat_mx lat) in emit (IReset <$> reg_bits mx) else mret tt) ;;;
  emit [IBarrier].

(** base.py:317-332, [id] and [id_data]. *)
Definition id_all (q : tqubit) : M unit :=
  let lat := tq_lat q in
  mfor ([lat_data lat] ++ option_list (lat_mz lat) ++ option_list (lat_mx lat) ++ [lat_ancilla lat])
       (fun h => emit1 IId (reg_bits h)) ;;;
  emit [IBarrier].
Definition id_data (q : tqubit) : M unit :=
  emit1 IId (reg_bits (lat_data (tq_lat q))) ;;; emit [IBarrier].

(** Every second element: l[0::2] and l[1::2]. *)
Fixpoint evens {A} (l : list A) : list A :=
  match l with [] => [] | x :: l' => x :: (match l' with [] => [] | _ :: l'' => evens l'' end) end.
Definition odds {A} (l : list A) : list A := match l with [] => [] | _ :: l' => evens l' end.

(** ** Lattice methods, by code *)

(** xxzz.py:80-83, xzzx.py:55-57. *)
Definition reset_x (q : tqubit) : M unit :=
  let ds := reg_bits (lat_data (tq_lat q)) in
  match lat_code (tq_lat q) with
  | XXZZ => emit1 IReset ds ;;; emit1 IH ds ;;; emit [IBarrier]
  | XZZX => emit1 IReset ds ;;; emit1 IH (odds ds)
  end.
(** xxzz.py:85-87, xzzx.py:59-61. *)
Definition reset_z (q : tqubit) : M unit :=
  let ds := reg_bits (lat_data (tq_lat q)) in
  match lat_code (tq_lat q) with
  | XXZZ => emit1 IReset ds ;;; emit [IBarrier]
  | XZZX => emit1 IReset ds ;;; emit1 IH (evens ds)
  end.

(** The left-most column [range(0, num_data, d[W])] (a step of 0 is a ValueError) and top-most
    row [range(d[W])]. *)
Definition col_idx (q : tqubit) : M (list Z) :=
  let* p := get_params (lat_params (tq_lat q)) in
  let* nd := key (num_data_of p) in
  let* w := get_dim p 1 in
  if bool_decide (w = 0) then mraise ValueError else mret (py_range_step nd w).
Definition row_idx (q : tqubit) : M (list Z) :=
  let* p := get_params (lat_params (tq_lat q)) in
  let* w := get_dim p 1 in
  mret (py_range w).

(** xxzz.py:89-92 and xzzx.py:63-70. *)
Definition logical_x (q : tqubit) : M unit :=
  let* is := col_idx q in
  mfor is (fun i =>
    let* d := mlift (reg_get (lat_data (tq_lat q)) i) in
    match lat_code (tq_lat q) with
    | XXZZ => emit [IX d]
    | XZZX => emit [if bool_decide (i mod 2 = 1) then IX d else IZ d]
    end) ;;;
  emit [IBarrier].
(** xxzz.py:94-97 and xzzx.py:72-79. *)
Definition logical_z (q : tqubit) : M unit :=
  let* is := row_idx q in
  mfor is (fun i =>
    let* d := mlift (reg_get (lat_data (tq_lat q)) i) in
    match lat_code (tq_lat q) with
    | XXZZ => emit [IZ d]
    | XZZX => emit [if bool_decide (i mod 2 = 0) then IX d else IZ d]
    end) ;;;
  emit [IBarrier].
(** xxzz.py:99-106 and xzzx.py:81-93. *)
Definition x_c_if (q : tqubit) (r : rhandle) (v : Z) : M unit :=
  let* is := col_idx q in
  mfor is (fun i =>
    let* d := mlift (reg_get (lat_data (tq_lat q)) i) in
    match lat_code (tq_lat q) with
    | XXZZ => emit [IXIf d r v]
    | XZZX => emit [if bool_decide (i mod 2 = 1) then IXIf d r v else IZIf d r v]
    end) ;;;
  emit [IBarrier].
(** xxzz.py:108-116 and xzzx.py:95-107. *)
Definition z_c_if (q : tqubit) (r : rhandle) (v : Z) : M unit :=
  let* is := row_idx q in
  mfor is (fun i =>
    let* d := mlift (reg_get (lat_data (tq_lat q)) i) in
    match lat_code (tq_lat q) with
    | XXZZ => emit [IZIf d r v]
    | XZZX => emit [if bool_decide (i mod 2 = 0) then IXIf d r v else IZIf d r v]
    end) ;;;
  emit [IBarrier].

(** The single qubit of the ancilla register. *)
Definition anc (q : tqubit) : qubit := ((lat_ancilla (tq_lat q)).1, 0).

(** xxzz.py:140-150 and xzzx.py:132-158, [_readout_x_into_ancilla]. *)
Definition readout_x_into_ancilla (q : tqubit) : M unit :=
  let a := anc q in
  emit [IReset a] ;;;
  match lat_code (tq_lat q) with
  | XXZZ =>
      emit [IH a] ;;;
      let* is := col_idx q in
      mfor is (fun i => let* d := mlift (reg_get (lat_data (tq_lat q)) i) in emit [ICX a d]) ;;;
      emit [IH a]
  | XZZX =>
      let* is := col_idx q in
      emit [IH a] ;;;
      let* xs := mlift (reg_list (lat_data (tq_lat q)) (filter (fun i => i mod 2 = 1) is)) in
      emit1 (ICX a) xs ;;;
      emit [IH a] ;;;
      let* zs := mlift (reg_list (lat_data (tq_lat q)) (filter (fun i => i mod 2 = 0) is)) in
      emit1 (fun d => ICX d a) zs
  end.
(** xxzz.py:167-175 and xzzx.py:174-198, [_readout_z_into_ancilla]. *)
Definition readout_z_into_ancilla (q : tqubit) : M unit :=
  let a := anc q in
  emit [IReset a] ;;;
  match lat_code (tq_lat q) with
  | XXZZ =>
      let* is := row_idx q in
      mfor is (fun i => let* d := mlift (reg_get (lat_data (tq_lat q)) i) in emit [ICX d a])
  | XZZX =>
      let* is := row_idx q in
      emit [IH a] ;;;
      let* xs := mlift (reg_list (lat_data (tq_lat q)) (filter (fun i => i mod 2 = 0) is)) in
      emit1 (ICX a) xs ;;;
      emit [IH a] ;;;
      let* zs := mlift (reg_list (lat_data (tq_lat q)) (filter (fun i => i mod 2 = 1) is)) in
      emit1 (fun d => ICX d a) zs
  end.

(** The register readout_x / readout_z measure into: the given one, or (when it is None or
    has length 0, i.e. falsy) a new one-bit register named after num_readout
    (xxzz.py:153-161, 178-186; xzzx.py:161-169, 201-209). *)
Definition readout_register (q : tqubit) (r : option rhandle) : M rhandle :=
  let fresh :=
    (let* p := get_params (lat_params (tq_lat q)) in
     let* n := key (num_readout_of p) in
     put_params (lat_params (tq_lat q)) (upd_num_readout p (n + 1)) ;;;
     let h := ((lat_name (tq_lat q) +:+ "_readout_" +:+ py_str (n + 1))%string, 1) in
     add_reg (Reg false h.1 h.2) ;;; mret h) in
  match r with
  | None => fresh
  | Some h => if bool_decide (h.2 = 0) then fresh else mret h
  end.
(** circ.measure(ancilla register, readout register): one measurement per classical bit. *)
Definition measure_ancilla (q : tqubit) (h : rhandle) : M unit :=
  emit (IMeas (anc q) <$> reg_bits h).
(** xxzz.py:152-165 / xzzx.py:160-172 and xxzz.py:177-189 / xzzx.py:200-212. *)
Definition readout_x (q : tqubit) (r : option rhandle) : M unit :=
  let* h := readout_register q r in
  readout_x_into_ancilla q ;;; measure_ancilla q h ;;; emit [IBarrier].
Definition readout_z (q : tqubit) (r : option rhandle) : M unit :=
  let* h := readout_register q r in
  readout_z_into_ancilla q ;;; measure_ancilla q h ;;; emit [IBarrier].

(** xxzz.py:191-204 / xzzx.py:214-230 and xxzz.py:206-218 / xzzx.py:232-247. *)
Definition lattice_readout (q : tqubit) (basis_change : option (list qubit)) : M unit :=
  let lat := tq_lat q in
  let* p := get_params (lat_params lat) in
  let* n := key (num_lattice_readout_of p) in
  put_params (lat_params lat) (upd_num_lattice_readout p (n + 1)) ;;;
  let* nd := key (num_data_of p) in
  let h := ((lat_name lat +:+ "_lattice_readout_" +:+ py_str (n + 1))%string, nd) in
  add_reg (Reg false h.1 h.2) ;;;
  match basis_change with Some qs => emit1 IH qs | None => mret tt end ;;;
  emit_meas (reg_bits (lat_data lat)) (reg_bits h) ;;;
  emit [IBarrier].
Definition lattice_readout_x (q : tqubit) : M unit :=
  let ds := reg_bits (lat_data (tq_lat q)) in
  lattice_readout q (Some (match lat_code (tq_lat q) with XXZZ => ds | XZZX => odds ds end)).
Definition lattice_readout_z (q : tqubit) : M unit :=
  let ds := reg_bits (lat_data (tq_lat q)) in
  lattice_readout q (match lat_code (tq_lat q) with XXZZ => None | XZZX => Some (evens ds) end).

(** xxzz.py:118-138, xzzx.py:109-130 (lattice.cx) behind the check of base.py:370-386. *)
Definition tq_cx (q : tqubit) (control target : option qubit) : M unit :=
  match control, target with
  | Some c, None =>
      let* is := col_idx q in
      mfor is (fun i =>
        let* d := mlift (reg_get (lat_data (tq_lat q)) i) in
        match lat_code (tq_lat q) with
        | XXZZ => emit [ICX c d]
        | XZZX => emit [if bool_decide (i mod 2 = 1) then ICX c d else ICZ c d]
        end) ;;;
      emit [IBarrier]
  | None, Some t => readout_z_into_ancilla q ;;; emit [ICX (anc q) t]
  | _, _ => mraise ValueError
  end.
