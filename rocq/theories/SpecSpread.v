(** Vocabulary of property C68: programs of a TopologicalCircuit, cx included, with Pauli errors
    on data qubits in between. *)
From Verif Require Export SpecProgram SpecRun P_Cx.
From stdpp Require Export list.
Open Scope Z_scope.

(** A call, or a Pauli error (X if [x], else Z) on data qubit [i] of qubit [m] of the register. *)
Inductive nev := NEv (e : event) | NErr (x : bool) (m i : Z).
Definition run_nev (e : nev) : M unit :=
  match e with
  | NEv e => run_event e
  | NErr x m i => let* q := treg_get m in emit [pgate x ((lat_data (tq_lat q)).1, i)]
  end.
Fixpoint run_nevs (l : list nev) (s : st) : st * list (res unit) :=
  match l with
  | [] => (s, [])
  | e :: l' => let r := run_nev e s in let rest := run_nevs l' r.1 in (rest.1, r.2 :: rest.2)
  end.
(** The hypotheses on programs: those of C57 for the calls; errors on data qubits that exist. *)
Definition nev_ok (e : nev) : Prop := match e with NEv e => event_ok e | NErr _ _ _ => True end.
Definition on_reg (rs : list request) (e : nev) : Prop :=
  match e with
  | NEv e => on_data (Z.of_nat (length rs)) e
  | NErr x m i => 0 <= m /\ exists r, rs !! Z.to_nat m = Some r /\ 0 <= i < rq_h r * rq_w r
  end.
(** The error is one that the Z stabilizers detect, on a data qubit of the top row: it inverts
    the logical Z value. *)
Definition inverted (rs : list request) (x : bool) (m i : Z) : bool :=
  match rs !! Z.to_nat m with
  | Some r => bool_decide (fault_of (Fault x i) = err_at false (rcode r) (rq_h r) (rq_w r) i) && bool_decide (i < rq_w r)
  | None => false
  end.
(** The classical machine of C57 with the errors as inversions of bits. *)
Inductive nclassical (rs : list request) : nev -> vals -> option bool -> vals -> Prop :=
| ncl_call e v r v' : classical e v r v' -> nclassical rs (NEv e) v r v'
| ncl_err x m i v : nclassical rs (NErr x m i) v None (if inverted rs x m i then learn v m (negb <$> v m) else v).
Inductive nclassicals (rs : list request) : list nev -> vals -> list bool -> vals -> Prop :=
| ncls_nil v : nclassicals rs [] v [] v
| ncls_cons e l v r v1 out v2 : nclassical rs e v r v1 -> nclassicals rs l v1 out v2 -> nclassicals rs (e :: l) v (option_list r ++ out) v2.
(** The registers of the readings of logical Z and of the rounds of qubit [m]: each call creates
    one, the last of the circuit at that time. *)
Definition last_reg (s : st) : list string := option_list (r_name <$> last (s_regs s)).
Definition n_reading (e : nev) : bool := match e with NEv e => is_reading e | NErr _ _ _ => false end.
Definition is_round (m : Z) (e : nev) : bool := match e with NEv (ECall m' OStab) => bool_decide (m' = m) | _ => false end.
Fixpoint words_of (f : nev -> bool) (l : list nev) (s : st) : list string :=
  match l with
  | [] => []
  | e :: l' => let s' := (run_nev e s).1 in (if f e then last_reg s' else []) ++ words_of f l' s'
  end.
(** Calls and errors that concern qubit [m] only. *)
Definition share (m : Z) (l : list nev) : list ev :=
  omap (fun e => match e with
    | NEv (ECall m' o) => if bool_decide (m' = m) then Some (Call o) else None
    | NErr x m' i => if bool_decide (m' = m) then Some (Fault x i) else None
    | _ => None end) l.
(** Everything but resets and lattice readouts of [m]. *)
Definition steady (m : Z) (e : nev) : Prop := match e with NEv (ECall m' o) => m' = m -> gentle o = true | _ => True end.
