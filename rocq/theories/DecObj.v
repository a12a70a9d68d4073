(** Decoder objects and the dictionaries they share with qubits:
    qtcodes/fitters/base.py:24-31, lattice_decoder.py:35-54 and 397-419,
    fitters/rotated_surface.py:29-48, fitters/repetition.py:19-26. *)
From Verif Require Export Decoder Hist.
From stdpp Require Export list.
Open Scope Z_scope.

(** A decoder: its class, its dictionary (shared with whoever passed it), its graphs and
    virtual nodes (computed once, at construction) and [_encoder]. *)
Record dobj := DObj { do_rep : bool; do_params : nat; do_dec : decoder; do_enc : option tqubit }.

(** fitters/rotated_surface.py:29-48, [_params_validation] on dictionary [l]: a number under "d"
    is replaced by a tuple, in place. *)
Definition validate_rotated (l : nat) : M (Z * Z * Z) :=
  let* p := get_params l in
  (match d_of p, T_of p with
   | Some (DNum z), Some _ => put_params l (set_d p (Some (DTup [z; z])))
   | _, _ => Circ.mret tt end) ;;;
  mlift (decoder_d (d_of p) (T_of p)).
(** lattice_decoder.py:39-46 for the keys of [syndrome_graph_keys]. *)
Definition build_graphs (rep isx : bool) (hwT : Z * Z * Z) : res decoder :=
  let '(dh, dw, T) := hwT in
  if rep then
    match make_syndrome_graph isx dh dw T with
    | Err e => Err e
    | Ok g => Ok (if isx then Dec dh dw T (Some g) None else Dec dh dw T None (Some g)) end
  else
    match make_syndrome_graph true dh dw T with
    | Err e => Err e
    | Ok gx => match make_syndrome_graph false dh dw T with
               | Err e => Err e
               | Ok gz => Ok (Dec dh dw T (Some gx) (Some gz)) end
    end.
(** lattice_decoder.py:35-46 on dictionary [l]; RepetitionDecoder first applies
    [RepetitionQubit._validate_params] (repetition.py:20), which replaces an empty dictionary. *)
Definition new_decoder (rep : bool) (l : nat) : M dobj :=
  let* l := (if rep then or_new (Some l) else Circ.mret l) in
  (if rep then rep_validate l else Circ.mret tt) ;;;
  let* hwT := validate_rotated l in
  let* p := get_params l in
  let* D := mlift (build_graphs rep (default false (pfp_of p)) hwT) in
  Circ.mret (DObj rep l D None).

(** Running [m] on a new QuantumCircuit (base.py:296); the circuits in use are not affected. *)
Definition on_new_circuit {A} (m : M A) : M A := fun s =>
  let r := m (set_instrs (set_regs s []) []) in
  (St (s_heap r.1) (s_next r.1) (s_regs s) (s_instrs s) (s_tname s) (s_n s) (s_tq s) (s_tqreg s) (s_tcreg s), r.2).
(** lattice_decoder.py:46-50, the property [encoder]: made from a copy of the dictionary on
    first use.  [encoder_type] is XXZZQubit (rotated_surface.py:26) or RepetitionQubit
    (repetition.py:16). *)
Definition encoder (o : dobj) : M tqubit :=
  match do_enc o with
  | Some q => Circ.mret q
  | None => let* p := get_params (do_params o) in
            let* l := new_params p in
            on_new_circuit (new_tqubit (if do_rep o then TRepetition else TXXZZ) (Some l) "tq")
  end.
Definition set_enc (o : dobj) (q : tqubit) : dobj := DObj (do_rep o) (do_params o) (do_dec o) (Some q).
(** rotated_surface.py:415-488 of the circuits on a qubit: the size is read from its
    dictionary. *)
Definition qubit_parse (q : tqubit) (key : string) (ty : option string) : M (Z * (list event_loc * list event_loc)) :=
  let* p := get_params (lat_params (tq_lat q)) in
  let* dh := get_dim p 0 in
  let* dw := get_dim p 1 in
  mlift (parse_readout dh dw key ty).

(** ** Programs *)
(** Qubits and decoders in order of creation, and what was returned by the decoders so far. *)
Record world := World { w_st : st; w_qs : list tqubit; w_ds : list dobj }.
(** [KNew t l name]: a qubit on the shared circuit. [KCall i o]: a call on qubit i.  [KDec rep l]: a decoder on dictionary [l].
    [KSetT l T]: the caller stores T in dictionary [l].  [KDict p]: the caller creates a
    dictionary.  [KCorrect j ep key isx]: correct_readout of decoder j. *)
Inductive kcmd :=
| KNew (t : qtype) (l : nat) (name : string) | KCall (i : nat) (o : op)
| KDec (rep : bool) (l : nat) | KSetT (l : nat) (T : Z) | KDict (p : params)
| KCorrect (j : nat) (ep : err_plain) (key : string) (isx : bool).
Definition run_k (rx : retworkx) (w : world) (c : kcmd) : world * option (res Z) :=
  match c with
  | KNew t l name => match new_tqubit t (Some l) name (w_st w) with
                     | (s, Ok q) => (World s (w_qs w ++ [q]) (w_ds w), None)
                     | (s, Err _) => (World s (w_qs w) (w_ds w), None) end
  | KCall i o => match w_qs w !! i with
                 | Some q => (World (run_op q o (w_st w)).1 (w_qs w) (w_ds w), None)
                 | None => (w, None) end
  | KDec rep l => match new_decoder rep l (w_st w) with
                  | (s, Ok o) => (World s (w_qs w) (w_ds w ++ [o]), None)
                  | (s, Err _) => (World s (w_qs w) (w_ds w), None) end
  | KSetT l T => (World ((let* p := get_params l in put_params l (upd_T p T)) (w_st w)).1 (w_qs w) (w_ds w), None)
  | KDict p => (World (new_params p (w_st w)).1 (w_qs w) (w_ds w), None)
  | KCorrect j ep key isx =>
      match w_ds w !! j with
      | None => (w, None)
      | Some o =>
        match encoder o (w_st w) with
        | (s, Err e) => (World s (w_qs w) (w_ds w), Some (Err e))
        | (s, Ok q) =>
          match qubit_parse q key (Some (type_string isx)) s with
          | (s, Err e) => (World s (w_qs w) (<[j := set_enc o q]> (w_ds w)), Some (Err e))
          | (s, Ok (lv, (X, Z))) =>
              (World s (w_qs w) (<[j := set_enc o q]> (w_ds w)),
               Some (correct_events rx (do_dec o) ep isx lv (if isx then X else Z)).2)
          end
        end
      end
  end.
Definition run_ks (rx : retworkx) (w : world) (l : list kcmd) : world := foldl (fun w c => (run_k rx w c).1) w l.
