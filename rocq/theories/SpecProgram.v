(** The classical machine of property C57: a register of bits, some of them unknown, on which
    the calls of a TopologicalCircuit act. *)
From Verif Require Export CxHist.
From stdpp Require Export list.
Open Scope Z_scope.

(** What is known of the logical Z values of the qubits. *)
Definition vals := Z -> option bool.
Definition learn (v : vals) (i : Z) (b : option bool) : vals := fun j => if bool_decide (j = i) then b else v j.
(** [classical e v r v']: the call [e] may take [v] to [v'], recording [r] in a readout register.
    A known value is what is recorded, an unknown one may turn out either way and is known
    from then on. *)
Inductive classical : event -> vals -> option bool -> vals -> Prop :=
| cl_reset i v : classical (ECall i OResetZ) v None (learn v i (Some false))
| cl_x i v : classical (ECall i OX) v None (learn v i (negb <$> v i))
| cl_keep i o v : o ∈ [OZ; OId; OIdData; OStab] -> classical (ECall i o) v None v
| cl_lose i o v : o ∈ [OResetX; OLatX; OLatZ; OReadX None] -> classical (ECall i o) v None (learn v i None)
| cl_read i v b : v i = None \/ v i = Some b -> classical (ECall i (OReadZ None)) v (Some b) (learn v i (Some b))
| cl_cx i j anc v b : v i = None \/ v i = Some b ->
    classical (ECx i j anc) v None (learn (learn v i (Some b)) j (xorb b <$> v j)).
(** Sessions, with the list of readings. *)
Inductive classicals : list event -> vals -> list bool -> vals -> Prop :=
| cls_nil v : classicals [] v [] v
| cls_cons e l v r v1 rs v2 : classical e v r v1 -> classicals l v1 rs v2 -> classicals (e :: l) v (option_list r ++ rs) v2.
(** The same machine as a program, stopping where it would have to guess. *)
Definition compute1 (e : event) (v : vals) : option (option bool * vals) :=
  match e with
  | ECall i OResetZ => Some (None, learn v i (Some false))
  | ECall i OX => Some (None, learn v i (negb <$> v i))
  | ECall i (OZ | OId | OIdData | OStab) => Some (None, v)
  | ECall i (OResetX | OLatX | OLatZ | OReadX None) => Some (None, learn v i None)
  | ECall i (OReadZ None) => match v i with Some b => Some (Some b, learn v i (Some b)) | None => None end
  | ECall i _ => None
  | ECx i j _ => match v i with Some b => Some (None, learn (learn v i (Some b)) j (xorb b <$> v j)) | None => None end
  end.
Fixpoint compute (l : list event) (v : vals) : option (list bool * vals) :=
  match l with
  | [] => Some ([], v)
  | e :: l' =>
      match compute1 e v with
      | Some (r, v1) => (fun ow => (option_list r ++ ow.1, ow.2)) <$> compute l' v1
      | None => None
      end
  end.
(** The registers in which a session records its readings of logical Z, in order: each
    measure_z(i) without register creates one, the last of the circuit at that time. *)
Definition is_reading (e : event) : bool := match e with ECall _ (OReadZ None) => true | _ => false end.
Fixpoint reading_regs (l : list event) (s : st) : list string :=
  match l with
  | [] => []
  | e :: l' =>
      let s' := (run_event e s).1 in
      (if is_reading e then option_list (r_name <$> last (s_regs s')) else []) ++ reading_regs l' s'
  end.
(** Calls on the qubits the register was created with; measurements into registers of their own;
    control and target of a cx differ. *)
Definition on_data (n : Z) (e : event) : Prop :=
  match e with
  | ECall i (OReadX (Some _)) | ECall i (OReadZ (Some _)) => False
  | ECall i _ => 0 <= i < n
  | ECx i j _ => 0 <= i < n /\ 0 <= j < n /\ i <> j
  end.
