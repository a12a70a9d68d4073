(** Model of qtcodes/tools/benchmarking.py.  Floats are idealised as exact rational numbers,
    which makes [==] Leibniz equality and excludes nan. *)
From Coq Require Import QArith Qcanon Qreals Rdefinitions.
From Verif Require Export Lookup Degen.
From stdpp Require Export list sorting.
Open Scope Z_scope.

(** ** numpy *)
(** [np.argsort]: the order of equal entries is not specified, so it is a parameter. *)
Record numpy := Np { argsort_q : list Qc -> list nat; argsort_z : list Z -> list nat }.
(** [l[indxs]]. *)
Definition take_idx {A} (l : list A) (is : list nat) : res (list A) :=
  rmap (fun i => match l !! i with Some x => Ok x | None => Err IndexError end) is.

(** Contents of a data file: [NCorrupt] is anything that [np.load] or reading the two arrays
    fails for. *)
Inductive npz := NCorrupt | NFile (d : Z * Z) (T : Z) (phys log : list Qc).
Notation files := (gmap string npz).

(** benchmarking.py:24-40.  [b_d], [b_T] are [decoder.params["d"]] (a tuple) and
    [decoder.params["T"]]. *)
Record bench := Bench { b_d : Z * Z; b_T : Z; b_correct : Z; b_phys : list Qc; b_log : list Qc }.
Definition bench_init (D : decoder) (correct : Z) : bench := Bench (dec_h D, dec_w D) (dec_T D) correct [] [].
(** benchmarking.py:33, the name of the data file. *)
Definition b_filename (b : bench) : string :=
  ("d_(" +:+ py_str (b_d b).1 +:+ ", " +:+ py_str (b_d b).2 +:+ ")_T_" +:+ py_str (b_T b) +:+ ".npz")%string.

(** The decoder of a benchmark: [decoder.correct_readout(readout, "Z", err_prob=...)]. *)
Definition bench_decode (rx : retworkx) (D : decoder) (ep : option Qc) (s : string) : res Z :=
  correct_readout_p rx D ((fun q : Qc => Q2R q) <$> ep) s false.

(** The order of [sorted(..., reverse=True)]. *)
Definition Qc_ge (x y : Qc) : Prop := (y <= x)%Qc.
Global Instance Qc_ge_dec x y : Decision (Qc_ge x y) := Qc_le_dec y x.

Section bench.
Context (np : numpy) (decode : option Qc -> string -> res Z).

(** benchmarking.py:42-65, [logical_error_rate]; the dictionary is the list of its items. *)
Definition logical_error_rate (correct : Z) (counts : list (string * Z)) (ep : option Qc) : res Qc :=
  match rfold (fun te kv =>
      match decode ep kv.1 with
      | Err e => Err e
      | Ok v => Ok (te.1 + kv.2, if bool_decide (v <> correct) then te.2 + kv.2 else te.2)
      end) (0, 0) counts with
  | Err e => Err e
  | Ok (total, errors) => py_div (qz errors) (qz total)
  end.

(** benchmarking.py:199-210: what is read from the file. *)
Definition load_points (f : option npz) : list Qc * list Qc :=
  match f with Some (NFile _ _ ps ls) => (ps, ls) | _ => ([], []) end.
(** benchmarking.py:208-211 and 216-217: the new arrays. *)
Definition new_points (old : list Qc * list Qc) (p l : Qc) : res (list Qc * list Qc) :=
  let ps := old.1 ++ [p] in
  let ls := old.2 ++ [l] in
  let idx := argsort_q np ps in
  match take_idx ps idx with
  | Err e => Err e
  | Ok ps' => match take_idx ls idx with Err e => Err e | Ok ls' => Ok (ps', ls') end
  end.
(** benchmarking.py:199-218, [append_data], run without interruption. *)
Definition append_data (b : bench) (fs : files) (p l : Qc) : files * res unit :=
  match new_points (load_points (fs !! b_filename b)) p l with
  | Err e => (fs, Err e)
  | Ok (ps, ls) => (<[b_filename b := NFile (b_d b) (b_T b) ps ls]> fs, Ok tt)
  end.

(** [execute(...).result().get_counts()] for the k-th call of the simulator and a rate. *)
Context (sim : nat -> Qc -> res (list (string * Z))).

(** benchmarking.py:102-115. *)
Definition measure (correct : Z) (k : nat) (r : Qc) (ep : option Qc) : res Qc :=
  match sim k r with Err e => Err e | Ok counts => logical_error_rate correct counts ep end.
(** [sorted(l, reverse=True)]. *)
Definition sorted_desc (l : list Qc) : list Qc := merge_sort Qc_ge l.
(** benchmarking.py:97 (and 152). *)
Definition default_rates : list Qc := (fun z => qz z / qz 100)%Qc <$> [4; 7; 10; 13; 16].
Definition add_point (b : bench) (p l : Qc) : bench := Bench (b_d b) (b_T b) (b_correct b) (b_phys b ++ [p]) (b_log b ++ [l]).
(** benchmarking.py:101-120, the loop; [k] counts the calls of the simulator. *)
Fixpoint sweep_loop (save deg : bool) (k : nat) (rates : list Qc) (b : bench) (fs : files) : bench * files * res unit :=
  match rates with
  | [] => (b, fs, Ok tt)
  | r :: rates =>
    match measure (b_correct b) k r (if deg then Some r else None) with
    | Err e => (b, fs, Err e)
    | Ok l =>
      let b := add_point b r l in
      match (if save then append_data b fs r l else (fs, Ok tt)) with
      | (fs, Err e) => (b, fs, Err e)
      | (fs, Ok _) => sweep_loop save deg (S k) rates b fs
      end
    end
  end.
(** benchmarking.py:67-127, [sweep]. *)
Definition sweep (rates : option (list Qc)) (save deg : bool) (b : bench) (fs : files) : bench * files * res unit :=
  let b := Bench (b_d b) (b_T b) (b_correct b) [] [] in
  match sweep_loop save deg 0 (sorted_desc (default default_rates rates)) b fs with
  | (b, fs, Err e) => (b, fs, Err e)
  | (b, fs, Ok _) =>
    let idx := argsort_q np (b_phys b) in
    match take_idx (b_phys b) idx with
    | Err e => (b, fs, Err e)
    | Ok ps =>
      let b := Bench (b_d b) (b_T b) (b_correct b) ps (b_log b) in
      match take_idx (b_log b) idx with
      | Err e => (b, fs, Err e)
      | Ok ls => (Bench (b_d b) (b_T b) (b_correct b) ps ls, fs, Ok tt)
      end
    end
  end.
(** benchmarking.py:163-197, [single]; the simulator call is number [k]. *)
Definition single (k : nat) (r : Qc) (save : bool) (b : bench) (fs : files) : files * res Qc :=
  match measure (b_correct b) k r (Some r) with
  | Err e => (fs, Err e)
  | Ok l => if save then match append_data b fs r l with (fs, Err e) => (fs, Err e) | (fs, Ok _) => (fs, Ok l) end else (fs, Ok l)
  end.
End bench.

(** ** Analysis *)
Record analysis := Analysis { a_d : Z * Z; a_T : Z; a_phys : list Qc; a_log : list Qc }.
(** benchmarking.py:227-232, [load_data]; [None] is an exception. *)
Definition load_data (fs : files) (fname : string) : option analysis :=
  match fs !! fname with Some (NFile d T ps ls) => Some (Analysis d T ps ls) | _ => None end.
(** benchmarking.py:253-268, [TopologicalBatchAnalysis.__init__]; [fnames] is the result of
    [glob.glob] in any order. *)
Definition batch (np : numpy) (fs : files) (fnames : list string) : option (list analysis) :=
  match mapM (load_data fs) fnames with
  | None => None
  | Some an => match take_idx an (argsort_z np ((fun a => (a_d a).1) <$> an)) with Ok an' => Some an' | Err _ => None end
  end.

(** ** Appends of several processes, with crashes *)
(** Each process appends its points in turn.  Lines 200-206 read the file; [np.savez] (line
    212) first truncates it and then writes it.  The flag of [Writing] says that another
    process was writing at the same time: then the bytes may be mixed up. *)
Inductive phase := Idle | Loaded (old : list Qc * list Qc) | Writing (new : list Qc * list Qc) (overlap : bool) | Dead.
Record proc := Proc { todo : list (Qc * Qc); ph : phase }.
Record sys := Sys { sfile : option npz; procs : list proc }.
Definition is_writing (p : proc) : bool := match ph p with Writing _ _ => true | _ => false end.
(** Another process starts writing. *)
Definition overlapped (p : proc) : proc := match ph p with Writing new _ => Proc (todo p) (Writing new true) | _ => p end.
Inductive pstep (np : numpy) (d : Z * Z) (T : Z) : sys -> sys -> Prop :=
  | S_load f ps i pt td :
      ps !! i = Some (Proc (pt :: td) Idle) ->
      pstep np d T (Sys f ps) (Sys f (<[i := Proc (pt :: td) (Loaded (load_points f))]> ps))
  | S_truncate f ps i pt td old new :
      ps !! i = Some (Proc (pt :: td) (Loaded old)) -> new_points np old pt.1 pt.2 = Ok new ->
      pstep np d T (Sys f ps) (Sys (Some NCorrupt) (<[i := Proc (pt :: td) (Writing new (existsb is_writing ps))]> (overlapped <$> ps)))
  | S_raise f ps i pt td old e :   (* the exception of line 216 or 217 ends the process *)
      ps !! i = Some (Proc (pt :: td) (Loaded old)) -> new_points np old pt.1 pt.2 = Err e ->
      pstep np d T (Sys f ps) (Sys f (<[i := Proc (pt :: td) Dead]> ps))
  | S_write f ps i pt td new o :
      ps !! i = Some (Proc (pt :: td) (Writing new o)) ->
      pstep np d T (Sys f ps) (Sys (Some (NFile d T new.1 new.2)) (<[i := Proc td Idle]> ps))
  | S_garble f ps i pt td new :
      ps !! i = Some (Proc (pt :: td) (Writing new true)) ->
      pstep np d T (Sys f ps) (Sys (Some NCorrupt) (<[i := Proc td Idle]> ps))
  | S_crash f ps i q :   (* at any moment; the file stays as it is *)
      ps !! i = Some q -> pstep np d T (Sys f ps) (Sys f (<[i := Proc (todo q) Dead]> ps)).
