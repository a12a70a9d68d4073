(** Model of the project's own tests: tests/base.py, tests/rotated_surface.py and tests/rep.py
    (the classes derived from TestBase).  Floats: the error rate is an exact rational. *)
From Coq Require Import QArith Qcanon.
From Verif Require Export DecObj Noise Lookup SpecRun.
From stdpp Require Export list.
Open Scope Z_scope.

(** tests/base.py:49-84, [get_neighbors], in doubled coordinates (row + 0.5 is 2 * row + 1).
    [xerr]: the error is "x" rather than "z". *)
Definition neighbors_css (dh dw i : Z) (xerr : bool) : list event_loc :=
  let row := i / dw in let col := i mod dw in let parity := 2 * (i mod 2) - 1 in
  if xerr then filter (fun e => 0 < e.1.2 /\ e.1.2 < 2 * (dh - 1)) [(0, 2 * row + parity, 2 * col - 1); (0, 2 * row - parity, 2 * col + 1)]
  else filter (fun e => 0 < e.2 /\ e.2 < 2 * (dw - 1)) [(0, 2 * row - parity, 2 * col - 1); (0, 2 * row + parity, 2 * col + 1)].
(** tests/rotated_surface.py:65-104, the same for TestXZZX. *)
Definition neighbors_xzzx (dh dw i : Z) (xerr : bool) : list event_loc :=
  let row := i / dw in let col := i mod dw in
  filter (fun e => valid_syndrome true dh dw (e.1.2, e.2) || valid_syndrome false dh dw (e.1.2, e.2) = true)
    (if xerr then [(0, 2 * row - 1, 2 * col + 1); (0, 2 * row + 1, 2 * col - 1)]
     else [(0, 2 * row - 1, 2 * col - 1); (0, 2 * row + 1, 2 * col + 1)]).

(** The end of a test: all assertions held, one did not, or an exception was raised. *)
Inductive outcome := Passed | Failed | Raised (e : exn).

(** lattice_decoder.py:397-419, [parse_readout] of a decoder, which may have to make its encoder. *)
Definition dec_parse (ky : string) (ty : option string) (w : st * dobj) : (st * dobj) * res (Z * (list event_loc * list event_loc)) :=
  match encoder w.2 w.1 with
  | (s, Err e) => ((s, w.2), Err e)
  | (s, Ok q) => let r := qubit_parse q ky ty s in ((r.1, set_enc w.2 q), r.2)
  end.
(** lattice_decoder.py:357-395, [correct_readout] of a string without an error probability. *)
Definition dec_correct (rx : retworkx) (ky : string) (isx : bool) (w : st * dobj) : (st * dobj) * res Z :=
  match dec_parse ky (Some (type_string isx)) w with
  | (w, Err e) => (w, Err e)
  | (w, Ok (lv, (X, Z))) => (w, (correct_events rx (do_dec w.2) EPNone isx lv (if isx then X else Z)).2)
  end.
(** tests/base.py:18-47, [get_logical_error_rate]. *)
Fixpoint rate_loop (rx : retworkx) (isx : bool) (counts : list (string * Z)) (total errors : Z) (w : st * dobj) : (st * dobj) * res Qc :=
  match counts with
  | [] => (w, py_div (qz errors) (qz total))
  | (ky, n) :: counts =>
    match dec_correct rx ky isx w with
    | (w, Err e) => (w, Err e)
    | (w, Ok v) => rate_loop rx isx counts (total + n) (if bool_decide (v <> 0) then errors + n else errors) w
    end
  end.
(** tests/base.py:121-127: every parsed node is an expected neighbour. *)
Fixpoint check_keys (nb : list event_loc) (keys : list string) (w : st * dobj) : (st * dobj) * outcome :=
  match keys with
  | [] => (w, Passed)
  | ky :: keys =>
    match dec_parse ky None w with
    | (w, Err e) => (w, Raised e)
    | (w, Ok (_, (X, Z))) => if bool_decide (Forall (fun e => e ∈ nb) (X ++ Z)) then check_keys nb keys w else (w, Failed)
    end
  end.
(** The size in the dictionary of the test. *)
Definition test_dims (l : nat) : M (Z * Z) :=
  let* p := get_params l in let* dh := get_dim p 0 in let* dw := get_dim p 1 in Circ.mret (dh, dw).

Section simulate.
Context (rx : retworkx) (samp : list instr -> list (string * Z) -> list (string * Z) -> Prop).
Context (t : qtype) (nbs : Z -> Z -> Z -> bool -> list event_loc) (l : nat).
(** tests/base.py:86-99: a qubit on a circuit of its own, built from the dictionary of the test. *)
Definition sim_circuit (isx xerr : bool) (i : Z) : M tqubit :=
  let* q := new_tqubit t (Some l) "tq" in
  run_evs q [Call (if isx then OResetX else OResetZ); Call OStab; Fault xerr i; Call OStab; Call (if isx then OReadX None else OReadZ None)] ;;;
  Circ.mret q.
Definition new_circuit (s : st) : st := set_instrs (set_regs s []) [].
(** tests/base.py:108-127 on the counts of the simulator. *)
Definition verdict (isx xerr : bool) (i : Z) (counts : list (string * Z)) (w : st * dobj) : (st * dobj) * outcome :=
  match rate_loop rx isx counts 0 0 w with
  | (w, Err e) => (w, Raised e)
  | (w, Ok r) =>
    if bool_decide (r = 0%Qc) then
      match test_dims l w.1 with
      | (s, Err e) => ((s, w.2), Raised e)
      | (s, Ok (dh, dw)) => check_keys (nbs dh dw i xerr) counts.*1 (s, w.2)
      end
    else (w, Failed)
  end.
(** tests/base.py:150-160, the calls of [simulate] one after another; what the simulator returns
    for a circuit is one of the possible [samp]les. *)
Inductive tests_run : list (bool * bool * Z) -> st * dobj -> outcome -> Prop :=
| tr_nil w : tests_run [] w Passed
| tr_raise isx xerr i cs w s e : sim_circuit isx xerr i (new_circuit w.1) = (s, Err e) -> tests_run ((isx, xerr, i) :: cs) w (Raised e)
| tr_stop isx xerr i cs w s q counts w' v :
    sim_circuit isx xerr i (new_circuit w.1) = (s, Ok q) -> samp (s_instrs s) (cregs s) counts ->
    verdict isx xerr i counts (s, w.2) = (w', v) -> v <> Passed -> tests_run ((isx, xerr, i) :: cs) w v
| tr_next isx xerr i cs w s q counts w' v :
    sim_circuit isx xerr i (new_circuit w.1) = (s, Ok q) -> samp (s_instrs s) (cregs s) counts ->
    verdict isx xerr i counts (s, w.2) = (w', Passed) -> tests_run cs w' v -> tests_run ((isx, xerr, i) :: cs) w v.
(** tests/base.py:148-160; [errors] is the list of the class, "x" being [true]. *)
Definition test_cases (errors : list bool) (dh dw : Z) : list (bool * bool * Z) :=
  mjoin ((fun i => mjoin ((fun xerr : bool =>
    if xerr then (if bool_decide (dh = 1) then [] else [(false, xerr, i); (true, xerr, i)])
    else (if bool_decide (dw = 1) then [] else [(false, xerr, i); (true, xerr, i)])) <$> errors)) <$> seqZ 0 (dh * dw)).
Definition test_single_errors (errors : list bool) (w : st * dobj) (v : outcome) : Prop :=
  exists dh dw, test_dims l w.1 = (w.1, Ok (dh, dw)) /\ tests_run (test_cases errors dh dw) w v.
End simulate.
