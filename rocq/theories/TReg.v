(** Model of the remaining parts of qtcodes/circuits/circ.py: [treg["name"]], the list
    [treg.params], and [add_creg]/[add_qreg] with their arguments [name=None] and [override]. *)
From Verif Require Export TCirc Hist.
Open Scope Z_scope.

(** circ.py:101-107, [treg[key]] for a string. *)
Definition treg_sub (sub : string) : M (list (Z * tqubit)) := let* s := get_st in key (dict_get sub (s_tq s)).

(** A TopologicalRegister with its list [params] (references to the callers' dictionaries). *)
Record tst := TSt { t_st : st; t_params : list nat }.
Definition keeping {A} (m : M A) (t : tst) : tst * res A := let r := m (t_st t) in (TSt r.1 (t_params t), r.2).
(** circ.py:83-99, [add_tqubit] with line 98, [self.params.append(params)], which is reached
    exactly if the constructor returns. *)
Definition t_add_tqubit (sub ctype : string) (p : nat) (t : tst) : tst * res unit :=
  match add_tqubit sub ctype p (t_st t) with
  | (s, Ok _) => (TSt s (t_params t ++ [p]), Ok tt)
  | (s, Err e) => (TSt s (t_params t), Err e)
  end.
Fixpoint t_add_all (sub : string) (l : list (string * nat)) (t : tst) : tst * res unit :=
  match l with
  | [] => (t, Ok tt)
  | (c, p) :: l' => match t_add_tqubit sub c p t with (t', Ok _) => t_add_all sub l' t' | (t', Err e) => (t', Err e) end
  end.
(** circ.py:50-81, [add_tqubits]; for None as [ctypes] or [params] take the empty list. *)
Definition t_add_tqubits (sub : string) (ctypes : list string) (ps : list nat) (t : tst) : tst * res unit :=
  if bool_decide (length ps <> length ctypes) then (t, Err ValueError)
  else if existsb (fun c => match str2qtype c with None => true | Some _ => false end) ctypes then (t, Err ValueError)
  else t_add_all sub (zip ctypes ps) t.
(** circ.py:17-48, the constructor, on a new circuit. *)
Definition t_new (name : string) (ctypes : list string) (ps : list nat) (s : st) : tst * res unit :=
  t_add_tqubits "data" ctypes ps (TSt (St (s_heap s) (s_next s) [] [] name 0 [] [] []) []).
(** circ.py:239-310, [cx].  It constructs at most one qubit (lines 271-273), whose dictionary is
    the one it was given or that of the control (262-268); [s_n] counts constructions. *)
Definition t_cx (a b : tref) (ty : option string) (p : option nat) (t : tst) : tst * res unit :=
  let r := c_cx a b ty p (t_st t) in
  let dict := match ty, p with
              | Some _, Some l => Some l
              | _, _ => match (get_index a (t_st t)).2 with Ok q => Some (lat_params (tq_lat q)) | Err _ => None end
              end in
  (TSt r.1 (t_params t ++ if bool_decide (s_n r.1 = s_n (t_st t)) then [] else option_list dict), r.2).

(** Programs on a register.  [TEdit] is the program's own change of a dictionary, [TDict] its
    creating one; [TCall] any method of a qubit.  A dictionary that does not exist cannot be changed. *)
Inductive tev :=
| TAdd (sub : string) (ctypes : list string) (ps : list nat)
| TAdd1 (sub ctype : string) (p : nat)
| TCx (a b : tref) (ty : option string) (p : option nat)
| TCall (i : Z) (o : op)
| TDict (p : params)
| TEdit (l : nat) (p : params).
Definition run_tev (e : tev) : tst -> tst * res unit :=
  match e with
  | TAdd sub cs ps => t_add_tqubits sub cs ps
  | TAdd1 sub c p => t_add_tqubit sub c p
  | TCx a b ty p => t_cx a b ty p
  | TCall i o => keeping (let* q := treg_get i in run_op q o)
  | TDict p => keeping (let* _ := new_params p in Circ.mret tt)
  | TEdit l p => keeping (fun s => if bool_decide (l < s_next s)%nat then put_params l p s else (s, Ok tt))
  end.
Fixpoint run_tevs (l : list tev) (t : tst) : tst * list (res unit) :=
  match l with
  | [] => (t, [])
  | e :: l' => let r := run_tev e t in let rest := run_tevs l' r.1 in (rest.1, r.2 :: rest.2)
  end.

(** ** Registers added by name, without a name, or again *)
(** A TopologicalCircuit whose dictionaries [creg] and [qreg] also have the key None, with the
    counters from which qiskit (trusted) makes up names: "c" or "q" and a number that grows with
    every unnamed register. *)
Record ust := USt { u_st : st; u_none_c : option rhandle; u_none_q : option rhandle; u_next_c : Z; u_next_q : Z }.
(** A call of [add_creg] ([w_q] false) or [add_qreg] ([w_q] true). *)
Record want := Want { w_q : bool; w_name : option string; w_size : Z; w_over : bool }.
(** The dictionary entry of a key: self.creg[name], self.qreg[name]. *)
Definition u_entry (q : bool) (k : option string) (u : ust) : option rhandle :=
  match k with
  | Some x => dict_get x (if q then s_tqreg (u_st u) else s_tcreg (u_st u))
  | None => if q then u_none_q u else u_none_c u
  end.
Definition u_set (q : bool) (k : option string) (h : rhandle) (u : ust) : ust :=
  let s := u_st u in
  match k, q with
  | Some x, true => USt (set_tregs s (dict_set x h (s_tqreg s)) (s_tcreg s)) (u_none_c u) (u_none_q u) (u_next_c u) (u_next_q u)
  | Some x, false => USt (set_tregs s (s_tqreg s) (dict_set x h (s_tcreg s))) (u_none_c u) (u_none_q u) (u_next_c u) (u_next_q u)
  | None, true => USt s (u_none_c u) (Some h) (u_next_c u) (u_next_q u)
  | None, false => USt s (Some h) (u_none_q u) (u_next_c u) (u_next_q u)
  end.
(** The name qiskit gives, and the counters afterwards. *)
Definition u_name (q : bool) (k : option string) (u : ust) : ust * string :=
  match k, q with
  | Some x, _ => (u, x)
  | None, true => (USt (u_st u) (u_none_c u) (u_none_q u) (u_next_c u) (u_next_q u + 1), ("q" +:+ py_str (u_next_q u))%string)
  | None, false => (USt (u_st u) (u_none_c u) (u_none_q u) (u_next_c u + 1) (u_next_q u), ("c" +:+ py_str (u_next_c u))%string)
  end.
(** circ.py:128-140.  Not modelled: [bits]. *)
Definition u_add (w : want) (u : ust) : ust * res unit :=
  match u_entry (w_q w) (w_name w) u, w_over w with
  | Some _, false => (u, Ok tt)
  | _, _ =>
      if bool_decide (w_size w < 0) then (u, Err CircuitError) else
      let (u1, x) := u_name (w_q w) (w_name w) u in
      let u2 := u_set (w_q w) (w_name w) (x, w_size w) u1 in
      let r := add_reg (Reg (w_q w) x (w_size w)) (u_st u2) in
      (USt r.1 (u_none_c u2) (u_none_q u2) (u_next_c u2) (u_next_q u2), r.2)
  end.
Fixpoint u_adds (l : list want) (u : ust) : ust * list (res unit) :=
  match l with
  | [] => (u, [])
  | w :: l' => let r := u_add w u in let rest := u_adds l' r.1 in (rest.1, r.2 :: rest.2)
  end.
