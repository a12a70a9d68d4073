(** Model of qtcodes/circuits/circ.py: TopologicalRegister and TopologicalCircuit. *)
From Verif Require Export Circ.
Open Scope Z_scope.

(** qubit_types.py:10-14, common/constants.py:5-7. *)
Definition str2qtype (s : string) : option qtype :=
  if bool_decide (s = "Repetition"%string) then Some TRepetition
  else if bool_decide (s = "XXZZ"%string) then Some TXXZZ
  else if bool_decide (s = "XZZX"%string) then Some TXZZX
  else None.
(** type(q).__name__.replace("Qubit", "") (circ.py:267). *)
Definition type_name (t : qtype) : string :=
  match t with TRepetition => "Repetition" | TXXZZ => "XXZZ" | TXZZX => "XZZX" end.

(** Dictionaries with insertion order, as association lists. *)
Fixpoint dict_get {K A} `{EqDecision K} (k : K) (l : list (K * A)) : option A :=
  match l with [] => None | (k', a) :: l' => if bool_decide (k = k') then Some a else dict_get k l' end.
(** [d[k] = a]: replaces in place, or appends a new key at the end. *)
Fixpoint dict_set {K A} `{EqDecision K} (k : K) (a : A) (l : list (K * A)) : list (K * A) :=
  match l with
  | [] => [(k, a)]
  | (k', a') :: l' => if bool_decide (k = k') then (k, a) :: l' else (k', a') :: dict_set k a l'
  end.

Definition set_tq (s : st) (n : Z) (tq : list (string * list (Z * tqubit))) : st :=
  St (s_heap s) (s_next s) (s_regs s) (s_instrs s) (s_tname s) n tq (s_tqreg s) (s_tcreg s).
Definition set_tregs (s : st) (tqreg tcreg : list (string * rhandle)) : st :=
  St (s_heap s) (s_next s) (s_regs s) (s_instrs s) (s_tname s) (s_n s) (s_tq s) tqreg tcreg.
Definition get_st : M st := fun s => (s, Ok s).
Definition put_st (s : st) : M unit := fun _ => (s, Ok tt).

(** circ.py:83-99, [add_tqubit].  [params] is a reference to the caller's dictionary. *)
Definition add_tqubit (sub ctype : string) (params : nat) : M unit :=
  let* s := get_st in
  (match dict_get sub (s_tq s) with
   | None => put_st (set_tq s (s_n s) (dict_set sub [] (s_tq s)))
   | Some _ => mret tt end) ;;;
  let* t := key (str2qtype ctype) in
  let* q := new_tqubit t (Some params) (s_tname s +:+ "_" +:+ py_str (s_n s))%string in
  let* s := get_st in
  let* sub_d := key (dict_get sub (s_tq s)) in
  put_st (set_tq s (s_n s + 1) (dict_set sub (dict_set (s_n s) q sub_d) (s_tq s))).

(** circ.py:50-81, [add_tqubits]. *)
Definition add_tqubits (sub : string) (ctypes : list string) (params : list nat) : M unit :=
  if bool_decide (length params <> length ctypes) then mraise ValueError
  else if existsb (fun c => match str2qtype c with None => true | Some _ => false end) ctypes
  then mraise ValueError
  else mfor (zip ctypes params) (fun cp => add_tqubit sub cp.1 cp.2).

(** circ.py:17-48: a register on a new circuit.  Simplification: the register owns its
    circuit (the [circ=] argument, sharing a circuit between registers, is not modelled). *)
Definition new_treg (name : string) (ctypes : list string) (params : list nat) : M unit :=
  let* s := get_st in
  put_st (St (s_heap s) (s_next s) [] [] name 0 [] [] []) ;;;
  add_tqubits "data" ctypes params.

(** circ.py:101-113, [treg[key]] for an integer key: sub-registers in insertion order. *)
Fixpoint treg_lookup (tq : list (string * list (Z * tqubit))) (i : Z) : res tqubit :=
  match tq with
  | [] => Err ValueError
  | (_, sub) :: tq' => match dict_get i sub with Some q => Ok q | None => treg_lookup tq' i end
  end.
Definition treg_get (i : Z) : M tqubit := fun s => (s, treg_lookup (s_tq s) i).

(** circ.py:142-158, [_get_index]: an index or a TopologicalQubit object. *)
Inductive tref := ByIdx (i : Z) | ByObj (q : tqubit).
Definition get_index (r : tref) : M tqubit :=
  match r with ByIdx i => treg_get i | ByObj q => mret q end.

(** circ.py:128-140, [add_creg] / [add_qreg] without override. *)
Definition add_creg (size : Z) (name : string) : M unit :=
  let* s := get_st in
  match dict_get name (s_tcreg s) with
  | Some _ => mret tt
  | None =>
      if bool_decide (size < 0) then mraise CircuitError else
      put_st (set_tregs s (s_tqreg s) (dict_set name (name, size) (s_tcreg s))) ;;;
      add_reg (Reg false name size)
  end.
Definition add_qreg (size : Z) (name : string) : M unit :=
  let* s := get_st in
  match dict_get name (s_tqreg s) with
  | Some _ => mret tt
  | None =>
      if bool_decide (size < 0) then mraise CircuitError else
      put_st (set_tregs s (dict_set name (name, size) (s_tqreg s)) (s_tcreg s)) ;;;
      add_reg (Reg true name size)
  end.
Definition get_creg (name : string) : M rhandle :=
  let* s := get_st in key (dict_get name (s_tcreg s)).
Definition get_qreg (name : string) : M rhandle :=
  let* s := get_st in key (dict_get name (s_tqreg s)).

(** circ.py:160-237: methods that look the qubit up and delegate. *)
Definition c_stabilize (r : tref) : M unit := let* q := get_index r in stabilize q.
Definition c_id (r : tref) : M unit := let* q := get_index r in id_all q.
Definition c_id_data (r : tref) : M unit := let* q := get_index r in id_data q.
Definition c_reset_x (r : tref) : M unit := let* q := get_index r in reset_x q.
Definition c_reset_z (r : tref) : M unit := let* q := get_index r in reset_z q.
Definition c_x (r : tref) : M unit := let* q := get_index r in logical_x q.
Definition c_z (r : tref) : M unit := let* q := get_index r in logical_z q.
(** circ.py:312-366. *)
Definition c_measure_x (r : tref) (h : option rhandle) : M unit := let* q := get_index r in readout_x q h.
Definition c_measure_z (r : tref) (h : option rhandle) : M unit := let* q := get_index r in readout_z q h.
Definition c_measure_lattice_x (r : tref) : M unit := let* q := get_index r in lattice_readout_x q.
Definition c_measure_lattice_z (r : tref) : M unit := let* q := get_index r in lattice_readout_z q.

(** circ.py:239-310, [cx]. *)
Definition c_cx (control target : tref) (actype : option string) (aparams : option nat) : M unit :=
  (match actype, aparams with Some _, None | None, Some _ => mraise ValueError | _, _ => mret tt end) ;;;
  let* ap :=
    (match actype, aparams with
     | Some c, Some p => mret (c, p)
     | _, _ => let* q := get_index control in
               mret (type_name (tq_type q), lat_params (tq_lat q))
     end) in
  let* control := get_index control in
  let* target := get_index target in
  let* s := get_st in
  (match dict_get "ancilla"%string (s_tq s) with
   | None => add_tqubit "ancilla" ap.1 ap.2
   | Some _ => mret tt end) ;;;
  let* s := get_st in
  let* sub := key (dict_get "ancilla"%string (s_tq s)) in
  let* ancilla := (match reverse sub with kq :: _ => mret kq.2 | [] => mraise IndexError end) in
  add_creg 1 "m1" ;;; add_creg 1 "m2" ;;; add_creg 1 "m3" ;;;
  reset_x ancilla ;;;
  add_qreg 1 "cnot_readout" ;;;
  let* qr := get_qreg "cnot_readout" in
  let* readout := mlift (reg_get qr 0) in
  let* m1 := get_creg "m1" in let* m2 := get_creg "m2" in let* m3 := get_creg "m3" in
  let* m1b := mlift (reg_get m1 0) in
  let* m2b := mlift (reg_get m2 0) in
  (* Z x Z *)
  emit [IReset readout] ;;;
  tq_cx control None (Some readout) ;;;
  tq_cx ancilla None (Some readout) ;;;
  emit [IMeas readout m1b] ;;;
  (* X x X *)
  emit [IReset readout; IH readout] ;;;
  tq_cx target (Some readout) None ;;;
  tq_cx ancilla (Some readout) None ;;;
  emit [IH readout; IMeas readout m2b] ;;;
  (* Z *)
  readout_z ancilla (Some m3) ;;;
  z_c_if control m2 1 ;;;
  x_c_if target m1 1 ;;;
  x_c_if target m3 1.

(** The state before anything has been created. *)
Definition st0 : st := St ∅ 0%nat [] [] "treg" 0 [] [] [].
