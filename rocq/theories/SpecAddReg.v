(** What calls of add_creg and add_qreg have done, said in terms of the list of calls. *)
From Verif Require Export TReg.
From stdpp Require Export list.
Open Scope Z_scope.

Definition same_key (w w' : want) : bool := bool_decide (w_q w = w_q w' /\ w_name w = w_name w').
(** A call with this key, and a size that is allowed, was made before. *)
Definition key_known (seen : list want) (w : want) : bool := existsb (fun v => same_key w v && bool_decide (0 <= w_size v)) seen.
(** The calls that make a register: the first of each key, and those that override. *)
Definition effective (seen : list want) (w : want) : bool := bool_decide (0 <= w_size w) && (w_over w || negb (key_known seen w)).
Fixpoint effs (seen l : list want) : list want :=
  match l with [] => [] | w :: l' => (if effective seen w then [w] else []) ++ effs (seen ++ [w]) l' end.
(** The names: as given, or made up from the counters, which start at [c0] and [q0]. *)
Definition reg_name (c0 q0 : Z) (seen : list want) (w : want) : string :=
  let nth := Z.of_nat (length (filter (fun v => w_q v = w_q w /\ w_name v = None) (effs [] seen))) in
  match w_name w with
  | Some x => x
  | None => if w_q w then ("q" +:+ py_str (q0 + nth))%string else ("c" +:+ py_str (c0 + nth))%string
  end.
(** Every register made, with the key it was asked for. *)
Fixpoint acts (c0 q0 : Z) (seen l : list want) : list (option string * reg) :=
  match l with
  | [] => []
  | w :: l' => (if effective seen w then [(w_name w, Reg (w_q w) (reg_name c0 q0 seen w) (w_size w))] else []) ++ acts c0 q0 (seen ++ [w]) l'
  end.
(** Of these, the ones with a name that is not taken. *)
Fixpoint firsts (used : list string) (l : list reg) : list reg :=
  match l with
  | [] => []
  | r :: l' => if bool_decide (r_name r ∈ used) then firsts used l' else r :: firsts (used ++ [r_name r]) l'
  end.
Definition newest (q : bool) (k : option string) (l : list (option string * reg)) : option rhandle :=
  (fun a : option string * reg => (r_name a.2, r_size a.2)) <$> last (filter (fun a => a.1 = k /\ r_quantum a.2 = q) l).
(** What the call answers, after the calls [seen] on a circuit with registers named [used]. *)
Definition answer (c0 q0 : Z) (used : list string) (seen : list want) (w : want) : res unit :=
  if effective seen w
  then if bool_decide (reg_name c0 q0 seen w ∈ used ++ ((fun a => r_name a.2) <$> acts c0 q0 [] seen)) then Err CircuitError else Ok tt
  else if bool_decide (0 <= w_size w) || (key_known seen w && negb (w_over w)) then Ok tt else Err CircuitError.
