(** Model of the whole of [correct_readout] (qtcodes/fitters/lattice_decoder.py:357-395), with
    either kind of argument and any value of its optional arguments, and of the graph of matches
    of the tutorials, [_run_mwpm_graph] (lines 253-292). *)
From Verif Require Export Degen.
From stdpp Require Export list.
Open Scope Z_scope.

(** The argument [syndromes]: a readout string, or a dictionary from syndrome types to lists of
    events.  Simplification: the lists in a dictionary are different objects. *)
Inductive syndromes_arg := SStr (s : string) | SDict (d : gmap string (list node)).
(** The keys of [self.virtual] (fitters/rotated_surface.py:218-220). *)
Definition key_type (key : string) : option bool :=
  if String.eqb key "X" then Some true else if String.eqb key "Z" then Some false else None.
(** lattice_decoder.py:322-355, [_corrections], with any key: for an unknown one line 107 raises
    before it extends the list. *)
Definition corrections_key (rx : retworkx) (D : decoder) (ep : err_prob) (key : string) (ev : list node) :
    list node * res (list (node * node)) :=
  match ev with
  | [] => ([], Ok [])
  | _ => match key_type key with
         | None => (ev, Err KeyError)
         | Some isx => corrections_p rx D ep isx ev end
  end.
(** fitters/rotated_surface.py:236-263, [_is_crossing_readout_path], with any key. *)
Definition crossing_key (key : string) (m : node * node) : res bool :=
  match key_type key with Some isx => Ok (is_crossing isx m) | None => Err ValueError end.
(** lattice_decoder.py:392-394; [None + 1] is a TypeError. *)
Definition flip_values (key : string) (lv : option Z) (ms : list (node * node)) : res (option Z) :=
  rfold (fun v m => match crossing_key key m with
                    | Err e => Err e
                    | Ok false => Ok v
                    | Ok true => match v with Some v => Ok (Some ((v + 1) mod 2)) | None => Err TypeError end
                    end) lv ms.
(** Lines 388-395: the dictionary after the call, and its result. *)
Definition correct_dict (rx : retworkx) (D : decoder) (ep : err_prob) (d : gmap string (list node)) (key : string) (lv : option Z) :
    gmap string (list node) * res (option Z) :=
  match d !! key with
  | None => (d, Err KeyError)
  | Some ev =>
    let r := corrections_key rx D ep key ev in
    (<[key := r.1]> d, match r.2 with Err e => Err e | Ok ms => flip_values key lv ms end)
  end.
(** lattice_decoder.py:357-395, [correct_readout]: the argument after the call, and the result.
    Lines 381-384: a string is parsed with the requested type, and the value given is dropped. *)
Definition correct_readout_full (rx : retworkx) (D : decoder) (x : syndromes_arg) (key : string) (lv : option Z) (ep : err_prob) :
    syndromes_arg * res (option Z) :=
  match x with
  | SStr s =>
    (x, match parse_readout (dec_h D) (dec_w D) s (Some key) with
        | Err e => Err e
        | Ok (v, (X, Z)) => (correct_dict rx D ep (<["X"%string := X]> {["Z"%string := Z]}) key (Some v)).2
        end)
  | SDict d => let r := correct_dict rx D ep d key lv in (SDict r.1, r.2)
  end.

(** lattice_decoder.py:275-276: the indices matched. *)
Definition matched_idx {W} (rx : retworkx) (wfn : W -> Z) (g : lgraph W) : list (nat * nat) :=
  rx_match rx (length (pg_nodes (lg_g g))) (wfn <$> pg_edges (lg_g g)).
(** Lines 282-291: one match added to [matched_graph] and [node_map].  [get_edge_data] of nodes
    without an edge raises NoEdgeBetweenNodes, a subclass of Exception; simplification: KeyError. *)
Definition add_match {W} (g : lgraph W) (mg : lgraph W) (ij : nat * nat) : res (lgraph W) :=
  match pg_nodes (lg_g g) !! fst ij, pg_nodes (lg_g g) !! snd ij with
  | Some a, Some b =>
    match pg_edges (lg_g g) !! ekey (fst ij) (snd ij) with
    | None => Err KeyError
    | Some w => lg_add_edge a b w (lg_ensure b (lg_ensure a mg))
    end
  | _, _ => Err IndexError
  end.
(** Lines 253-292, [_run_mwpm_graph]; the result is paired with the [node_map] built along. *)
Definition run_mwpm_graph {W} (rx : retworkx) (wfn : W -> Z) (g : lgraph W) : res (lgraph W) :=
  match rmap (fun ij => match pg_nodes (lg_g g) !! fst ij, pg_nodes (lg_g g) !! snd ij with
                        | Some a, Some b => Ok (ij, (a, b))
                        | _, _ => Err IndexError end) (matched_idx rx wfn g) with
  | Err e => Err e
  | Ok ms => rfold (add_match g) lg_empty (map fst (filter (fun m => ~ (n_time m.2.1 = -1 /\ n_time m.2.2 = -1)) ms))
  end.
