(** Circuits Qiskit accepts, and programs that use everything the library offers on one circuit.
    Vocabulary for property C64. *)
From Verif Require Export TCirc Hist.
From stdpp Require Export list.
Open Scope Z_scope.

(** [q] is a qubit of a quantum register, [c] a bit of a classical register. *)
Definition has_qubit (rs : list reg) (q : qubit) : Prop := exists sz, Reg true q.1 sz ∈ rs /\ 0 <= q.2 < sz.
Definition has_clbit (rs : list reg) (c : clbit) : Prop := exists sz, Reg false c.1 sz ∈ rs /\ 0 <= c.2 < sz.
(** What Qiskit asks of an instruction: its operands are in the circuit, the operands of a
    two-qubit gate differ, and a condition compares a classical register of the circuit with a
    number that is not negative. *)
Definition legal (rs : list reg) (i : instr) : Prop :=
  match i with
  | IH q | IX q | IZ q | IId q | IReset q => has_qubit rs q
  | ICX c t | ICZ c t => has_qubit rs c /\ has_qubit rs t /\ c <> t
  | IMeas q c => has_qubit rs q /\ has_clbit rs c
  | IXIf q h v | IZIf q h v => has_qubit rs q /\ Reg false h.1 h.2 ∈ rs /\ 0 <= v
  | IBarrier => True
  end.
(** Names of registers differ (also between quantum and classical ones), sizes are not negative. *)
Record legal_circuit (rs : list reg) (is : list instr) : Prop := {
  lc_names : NoDup (r_name <$> rs);
  lc_sizes : forall r, r ∈ rs -> 0 <= r_size r;
  lc_instrs : forall i, i ∈ is -> legal rs i }.

(** ** Programs *)
(** One QuantumCircuit with any number of qubits, TopologicalRegisters and TopologicalCircuits on
    it.  A register: name, counter, sub-registers; a circuit: the number of its register and its
    dictionaries [qreg] and [creg]. *)
Record treg_obj := TReg { tr_name : string; tr_n : Z; tr_tq : list (string * list (Z * tqubit)) }.
Record tcirc_obj := TCircO { tc_reg : nat; tc_qreg : list (string * rhandle); tc_creg : list (string * rhandle) }.
Record lworld := LWorld { lw_st : st; lw_qs : list tqubit; lw_regs : list treg_obj; lw_circs : list tcirc_obj }.
(** The state seen by the methods of one register and one circuit. *)
Definition load (s : st) (r : treg_obj) (qd cd : list (string * rhandle)) : st :=
  St (s_heap s) (s_next s) (s_regs s) (s_instrs s) (tr_name r) (tr_n r) (tr_tq r) qd cd.
Definition treg_of (s : st) : treg_obj := TReg (s_tname s) (s_n s) (s_tq s).

(** A qubit: the n-th that was made directly, or [treg[i]] for the k-th register. *)
Inductive who := WObj (n : nat) | WTreg (k : nat) (i : Z).
Definition find_who (w : lworld) (x : who) : option tqubit :=
  match x with
  | WObj n => lw_qs w !! n
  | WTreg k i => match lw_regs w !! k with
                 | Some r => match treg_lookup (tr_tq r) i with Ok q => Some q | Err _ => None end
                 | None => None end
  end.
(** The argument of a method of TopologicalCircuit: an index or an object. *)
Inductive cref := RIdx (i : Z) | RWho (x : who).
Definition find_cref (w : lworld) (x : cref) : option tref :=
  match x with RIdx i => Some (ByIdx i) | RWho x => ByObj <$> find_who w x end.
(** Methods of a qubit and of its lattice. *)
Inductive meth :=
| MOp (o : op) | MEntX | MEntZ | MXIf (h : rhandle) (v : Z) | MZIf (h : rhandle) (v : Z) | MCx (control target : option qubit).
Definition run_meth (q : tqubit) (m : meth) : M unit :=
  match m with
  | MOp o => run_op q o
  | MEntX => entangle_x (tq_lat q) | MEntZ => entangle_z (tq_lat q)
  | MXIf h v => x_c_if q h v | MZIf h v => z_c_if q h v
  | MCx c t => tq_cx q c t
  end.
(** What a program may do.  [LDict], [LStore]: create or overwrite a params dictionary.  [LReg],
    [LEmit]: registers and instructions of the caller's own.  [LNew]: a qubit on the circuit.
    [LTreg], [LAdd]: a TopologicalRegister on the circuit, [add_tqubits].  [LCirc]: a
    TopologicalCircuit on the k-th register.  [LCall], [LVia]: a method of a qubit, directly or
    through a TopologicalCircuit.  [LCx], [LCreg], [LQreg]: cx, add_creg, add_qreg. *)
Inductive lcmd :=
| LDict (p : params) | LStore (l : nat) (p : params)
| LReg (r : reg) | LEmit (is : list instr)
| LNew (t : qtype) (l : option nat) (name : string)
| LTreg (name : string) (ctypes : list string) (params : list nat)
| LAdd (k : nat) (sub : string) (ctypes : list string) (params : list nat)
| LCirc (k : nat)
| LCall (x : who) (m : meth) | LVia (c : nat) (x : cref) (m : meth)
| LCx (c : nat) (control target : cref) (actype : option string) (aparams : option nat)
| LCreg (c : nat) (size : Z) (name : string) | LQreg (c : nat) (size : Z) (name : string).
(** A method of the c-th circuit. *)
Definition on_circ {A} (w : lworld) (c : nat) (m : M A) : lworld :=
  match lw_circs w !! c with
  | None => w
  | Some co =>
    match lw_regs w !! tc_reg co with
    | None => w
    | Some r =>
      let s := (m (load (lw_st w) r (tc_qreg co) (tc_creg co))).1 in
      LWorld s (lw_qs w) (<[tc_reg co := treg_of s]> (lw_regs w))
             (<[c := TCircO (tc_reg co) (s_tqreg s) (s_tcreg s)]> (lw_circs w))
    end
  end.
(** Exceptions are caught by the caller: the world after a command, whatever it raised. *)
Definition run_l (w : lworld) (c : lcmd) : lworld :=
  let s := lw_st w in
  let on (s : st) := LWorld s (lw_qs w) (lw_regs w) (lw_circs w) in
  match c with
  | LDict p => on (new_params p s).1
  | LStore l p => on (put_params l p s).1
  | LReg r => on (add_reg r s).1
  | LEmit is => on (emit is s).1
  | LNew t l name => match new_tqubit t l name s with
                     | (s, Ok q) => LWorld s (lw_qs w ++ [q]) (lw_regs w) (lw_circs w)
                     | (s, Err _) => on s end
  | LTreg name ctypes ps => match add_tqubits "data" ctypes ps (load s (TReg name 0 []) [] []) with
                            | (s, Ok _) => LWorld s (lw_qs w) (lw_regs w ++ [treg_of s]) (lw_circs w)
                            | (s, Err _) => on s end
  | LAdd k sub ctypes ps => match lw_regs w !! k with
                            | None => w
                            | Some r => let s := (add_tqubits sub ctypes ps (load s r [] [])).1 in
                                        LWorld s (lw_qs w) (<[k := treg_of s]> (lw_regs w)) (lw_circs w) end
  | LCirc k => LWorld s (lw_qs w) (lw_regs w) (lw_circs w ++ [TCircO k [] []])
  | LCall x m => match find_who w x with None => w | Some q => on (run_meth q m s).1 end
  | LVia c x m => match find_cref w x with None => w | Some r => on_circ w c (let* q := get_index r in run_meth q m) end
  | LCx c a b t p => match find_cref w a, find_cref w b with
                     | Some a, Some b => on_circ w c (c_cx a b t p)
                     | _, _ => w end
  | LCreg c size name => on_circ w c (add_creg size name)
  | LQreg c size name => on_circ w c (add_qreg size name)
  end.

(** Registers and qubits the caller passes are those of the circuit, and a qubit passed to cx is
    none of the lattice's own. *)
Definition arg_ok (rs : list reg) (q : tqubit) (m : meth) : Prop :=
  match m with
  | MOp (OReadX (Some h)) | MOp (OReadZ (Some h)) => h.2 = 0 \/ Reg false h.1 h.2 ∈ rs
  | MXIf h v | MZIf h v => Reg false h.1 h.2 ∈ rs /\ 0 <= v
  | MCx (Some c) None => has_qubit rs c /\ c.1 <> (lat_data (tq_lat q)).1
  | MCx None (Some t) => has_qubit rs t /\ t.1 <> (lat_ancilla (tq_lat q)).1
  | _ => True
  end.
(** The names cx uses for itself (circ.py:275-285). *)
Definition reserved : list string := ["m1"; "m2"; "m3"; "cnot_readout"]%string.
Definition cmd_ok (w : lworld) (c : lcmd) : Prop :=
  let rs := s_regs (lw_st w) in
  match c with
  | LReg r => r_name r ∉ reserved
  | LEmit is => forall i, i ∈ is -> legal rs i
  | LCall x m => forall q, find_who w x = Some q -> arg_ok rs q m
  | LVia c x m => forall q co r, lw_circs w !! c = Some co -> lw_regs w !! tc_reg co = Some r ->
      match x with RIdx i => treg_lookup (tr_tq r) i = Ok q | RWho x => find_who w x = Some q end -> arg_ok rs q m
  | LCreg _ _ name | LQreg _ _ name => name ∉ reserved /\ name ∉ (r_name <$> rs)
  | _ => True
  end.
Fixpoint program_ok (w : lworld) (l : list lcmd) : Prop :=
  match l with [] => True | c :: l => cmd_ok w c /\ program_ok (run_l w c) l end.
Definition run_program (w : lworld) (l : list lcmd) : lworld := foldl run_l w l.
(** Nothing made yet; the caller's circuit may have registers and instructions already. *)
Definition start_world (rs : list reg) (is : list instr) : lworld :=
  LWorld (St ∅ 0%nat rs is "" 0 [] [] []) [] [] [].
