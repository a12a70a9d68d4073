(** Model of the decoder with an error probability: the degeneracy-weighted branches of
    qtcodes/fitters/lattice_decoder.py.  Floats are idealised as real numbers. *)
From Coq Require Import Reals.
From Verif Require Export Decoder.
From stdpp Require Export list.
Open Scope Z_scope.

(** ** Numbers of shortest paths *)
(** The dictionary [num_shortest_paths], from a node index to the numbers of paths from it. *)
Notation pcache := (gmap nat (gmap nat Z)).
Definition dict_get {A} (m : gmap nat A) (k : nat) : res A := match m !! k with Some x => Ok x | None => Err KeyError end.
(** lattice_decoder.py:219-251, [_path_degeneracy_helper]. *)
Definition degeneracy_helper (rx : retworkx) (g : lgraph Z) (a b : nat) (c : pcache) : res (Z * pcache) :=
  match c !! a with
  | Some m => match dict_get m b with Ok n => Ok (n, c) | Err e => Err e end
  | None =>
    match c !! b with
    | Some m => match dict_get m a with Ok n => Ok (n, c) | Err e => Err e end
    | None =>
      let m := rx_paths rx (lg_g g) a in
      match dict_get m b with Ok n => Ok (n, <[a := m]> c) | Err e => Err e end
    end
  end.
(** lattice_decoder.py:186-193: the non-virtual node and the virtual one. *)
Definition source_target (a b : node) (i j : nat) : option (nat * nat) :=
  if bool_decide (n_time a = -1) then Some (j, i)
  else if bool_decide (n_time b = -1) then Some (i, j) else None.
(** lattice_decoder.py:153-217, [_path_degeneracy].  [if source:] (line 195) is false when
    there is no source and also when the source is the node with index 0. *)
Definition path_degeneracy (rx : retworkx) (g : lgraph Z) (virt : list node) (a b : node) (c : pcache) : res (Z * pcache) :=
  match lg_map g !! a with
  | None => Err KeyError
  | Some i =>
    match lg_map g !! b with
    | None => Err KeyError
    | Some j =>
      match source_target a b i j with
      | Some (S k, tgt) =>
        let src := S k in
        rfold (fun s v =>
            match lg_map g !! v with
            | None => Err KeyError
            | Some vi =>
              if bool_decide (rx_dist rx (lg_g g) src vi = rx_dist rx (lg_g g) src tgt) then
                match degeneracy_helper rx g src vi s.2 with
                | Err e => Err e
                | Ok (n, c) => Ok (s.1 + n, c)
                end
              else Ok s
            end) (0, c) virt
      | _ => degeneracy_helper rx g i j c
      end
    end
  end.

(** ** Weights *)
(** [math.log]. *)
Definition py_log (x : R) : res R := if Rlt_dec 0 x then Ok (ln x) else Err ValueError.
(** lattice_decoder.py:129-143 with a true [err_prob]. *)
Definition weigh_deg (rx : retworkx) (g : lgraph Z) (virt : list node) (p : R) (a b : node) (c : pcache) : res (R * pcache) :=
  match graph_dist rx g a b with
  | Err e => Err e
  | Ok d =>
    match path_degeneracy rx g virt a b c with
    | Err e => Err e
    | Ok (n, c) =>
      match py_log (IZR n), py_log (1 - p), py_log p with
      | Ok ln_n, Ok ln_q, Ok ln_p =>
          if Req_EM_T (ln_q - ln_p) 0 then Err ZeroDivisionError
          else Ok ((-1 * (IZR d - ln_n / (ln_q - ln_p)))%R, c)
      | Err e, _, _ | _, Err e, _ | _, _, Err e => Err e
      end
    end
  end.
(** [int(x)] of a float: truncation towards zero. *)
Definition trunc (x : R) : Z := if Rle_dec 0 x then Int_part x else - Int_part (- x).
(** lattice_decoder.py:307-309: [weight_fn = lambda n: int(n * 10000)]. *)
Definition deg_wfn (w : R) : Z := trunc (w * 10000).

(** ** Decoding *)
(** The argument [err_prob]: None or a number. *)
Definition err_prob := option R.
(** lattice_decoder.py:322-355, [_corrections].  A zero probability is falsy: see
    [corrections] of Decoder.v. *)
Definition corrections_p (rx : retworkx) (D : decoder) (ep : err_prob) (isx : bool) (syndromes : list node) :
    list node * res (list (node * node)) :=
  match ep with
  | None => corrections rx D EPNone isx syndromes
  | Some p =>
    if Req_EM_T p 0 then corrections rx D EPZero isx syndromes
    else
      match syndromes with
      | [] => ([], Ok [])
      | _ =>
        let virt := virtual_nodes isx (dec_h D) (dec_w D) in
        match dec_graph D isx with
        | None => (syndromes ++ virt, Err KeyError) (* self.S[key] *)
        | Some g =>
          let r := make_error_graph 0%R (weigh_deg rx g virt p) virt syndromes ∅ in
          (r.1, match r.2 with Err e => Err e | Ok eg => run_mwpm rx deg_wfn eg end)
        end
      end
  end.
(** lattice_decoder.py:357-395, [correct_readout], as in Decoder.v. *)
Definition correct_events_p (rx : retworkx) (D : decoder) (ep : err_prob) (isx : bool) (lv : Z) (syndromes : list node) :
    list node * res Z :=
  let r := corrections_p rx D ep isx syndromes in
  (r.1, match r.2 with
        | Err e => Err e
        | Ok ms => Ok (foldl (fun v m => if is_crossing isx m then (v + 1) mod 2 else v) lv ms) end).
Definition correct_readout_p (rx : retworkx) (D : decoder) (ep : err_prob) (s : string) (isx : bool) : res Z :=
  match parse_readout (dec_h D) (dec_w D) s (Some (type_string isx)) with
  | Err e => Err e
  | Ok (lv, (X, Z)) => (correct_events_p rx D ep isx lv (if isx then X else Z)).2
  end.
