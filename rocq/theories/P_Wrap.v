(** Property C80: methods of TopologicalCircuit and methods of qubits. *)
From Verif Require Import Wrap P_Hist P_DecObj.
From stdpp Require Export list.
Open Scope Z_scope.

(** ** What the property is about *)
(** The method of a qubit, by name. *)
Definition q_method (q : tqubit) (o : op) : M unit :=
  match o with
  | OStab => stabilize q | OReadX h => readout_x q h | OReadZ h => readout_z q h
  | OLatX => lattice_readout_x q | OLatZ => lattice_readout_z q
  | OResetX => reset_x q | OResetZ => reset_z q | OX => logical_x q | OZ => logical_z q
  | OId => id_all q | OIdData => id_data q
  end.
(** The qubit meant: the object itself, or treg[i]. *)
Definition means (tq : list (string * list (Z * tqubit))) (r : tref) : res tqubit :=
  match r with ByObj q => Ok q | ByIdx i => treg_lookup tq i end.
(** The same program with the methods of the qubits that the indices mean at its start. *)
Fixpoint q_program (tq : list (string * list (Z * tqubit))) (l : list (tref * op)) (s : st) : st * list (res unit) :=
  match l with
  | [] => (s, [])
  | (r, o) :: l' =>
      let x := match means tq r with Ok q => q_method q o s | Err e => (s, Err e) end in
      let y := q_program tq l' x.1 in (y.1, x.2 :: y.2)
  end.

Theorem C80_method r o s :
  c_method o r s = match means (s_tq s) r with Ok q => q_method q o s | Err e => (s, Err e) end.
Proof.
  destruct r as [i|q].
  - destruct o; cbn [c_method q_method means]; unfold c_stabilize, c_measure_x, c_measure_z, c_measure_lattice_x, c_measure_lattice_z, c_reset_x, c_reset_z, c_x, c_z, c_id, c_id_data;
      unfold mbind' at 1; cbn [get_index]; unfold treg_get; by destruct (treg_lookup (s_tq s) i).
  - destruct o; done.
Qed.
Print Assumptions C80_method.
(** An index that is not in the register: ValueError, and nothing happens. *)
Theorem C80_missing i o s : (forall sub q, (i, q) ∈ sub.2 -> sub ∉ s_tq s) -> c_method o (ByIdx i) s = (s, Err ValueError).
Proof.
  intros H. rewrite C80_method. cbn [means].
  assert (E : treg_lookup (s_tq s) i = Err ValueError); [|by rewrite E]. revert H. generalize (s_tq s). induction l as [|[k sub] l IHl]; intros H; [done|].
  cbn [treg_lookup]. destruct (dict_get i sub) as [q|] eqn:E.
  - exfalso. apply (H (k, sub) q); [|by left]. cbn. revert E. clear. induction sub as [|[j q'] sub IHl]; [done|]. cbn. case_bool_decide as Hj.
    + intros E. injection E as ->. subst j. by left.
    + intros E. right. by apply IHl.
  - apply IHl. intros sub' q Hq Hin. apply (H sub' q Hq). by right.
Qed.
Print Assumptions C80_missing.

(** No method of a qubit changes which qubits the register holds. *)
Definition steady {A} (m : M A) : Prop := forall s, s_tq (m s).1 = s_tq s.
Lemma st_bind {A B} (m : M A) (f : A -> M B) : steady m -> (forall a, steady (f a)) -> steady (mbind' m f).
Proof. intros Hm Hf s. unfold mbind'. pose proof (Hm s) as H1. destruct (m s) as [s1 [a|e]]; cbn in *; [|done]. by rewrite Hf. Qed.
Lemma st_ret {A} (a : A) : steady (Circ.mret a). Proof. done. Qed.
Lemma st_raise {A} e : steady (@mraise A e). Proof. done. Qed.
Lemma st_lift {A} (r : res A) : steady (mlift r). Proof. done. Qed.
Lemma st_key {A} (o : option A) : steady (key o). Proof. by destruct o. Qed.
Lemma st_get l : steady (get_params l). Proof. intros s. unfold get_params. by destruct (s_heap s !! l). Qed.
Lemma st_put l p : steady (put_params l p). Proof. done. Qed.
Lemma st_emit l : steady (emit l). Proof. done. Qed.
Lemma st_emit1 f l : steady (emit1 f l). Proof. by destruct l. Qed.
Lemma st_add r : steady (add_reg r). Proof. intros s. unfold add_reg. by repeat case_bool_decide. Qed.
Lemma st_mfor {A} (l : list A) f : (forall x, steady (f x)) -> steady (mfor l f).
Proof. intros Hf. induction l as [|x l IHl]; cbn [mfor]; [apply st_ret|]. apply st_bind; [apply Hf|done]. Qed.
Lemma st_dim p i : steady (get_dim p i). Proof. unfold get_dim. apply st_bind; [apply st_key|]. intros []; [apply st_raise|apply st_lift|apply st_raise]. Qed.
Ltac steady := cbv zeta; repeat (first [apply st_bind; [|intros ?] | apply st_ret | apply st_raise | apply st_lift | apply st_key | apply st_get | apply st_put | apply st_emit | apply st_emit1
  | apply st_add | apply st_dim | (apply st_mfor; intros ?) | case_match]; cbv zeta).
Lemma st_register q r : steady (readout_register q r). Proof. unfold readout_register. steady. Qed.
Lemma st_col q : steady (col_idx q). Proof. unfold col_idx. steady. Qed.
Lemma st_row q : steady (row_idx q). Proof. unfold row_idx. steady. Qed.
Lemma st_method q o : steady (q_method q o).
Proof.
  destruct o; cbn [q_method].
  - unfold stabilize, entangle, emit_meas. steady.
  - unfold readout_x, readout_x_into_ancilla, measure_ancilla. apply st_bind; [apply st_register|]. intros h. steady; try apply st_col; steady.
  - unfold readout_z, readout_z_into_ancilla, measure_ancilla. apply st_bind; [apply st_register|]. intros h. steady; try apply st_row; steady.
  - unfold lattice_readout_x, lattice_readout, emit_meas. steady.
  - unfold lattice_readout_z, lattice_readout, emit_meas. steady.
  - unfold reset_x. steady.
  - unfold reset_z. steady.
  - unfold logical_x. apply st_bind; [apply st_col|]. intros. steady.
  - unfold logical_z. apply st_bind; [apply st_row|]. intros. steady.
  - unfold id_all. steady.
  - unfold id_data. steady.
Qed.
(** So a program of circuit calls does what it does with the qubits' own methods. *)
Theorem C80_program l : forall s, c_program l s = q_program (s_tq s) l s.
Proof.
  intros s. remember (s_tq s) as tq eqn:E. symmetry in E. revert s E. induction l as [|[r o] l IHl]; intros s E; [done|]. cbn [c_program q_program]. rewrite C80_method, E.
  assert (E1 : s_tq (match means tq r with Ok q => q_method q o s | Err e => (s, Err e) end).1 = tq) by (destruct (means tq r); [by rewrite st_method|done]).
  by rewrite (IHl _ E1).
Qed.
Print Assumptions C80_program.
(** parse_readout of the circuit is that of the qubit; the type is Z if none is given. *)
Theorem C80_parse r key ty s :
  c_parse_readout r key ty s = match means (s_tq s) r with Ok q => qubit_parse q key (default (Some "Z"%string) ty) s | Err e => (s, Err e) end.
Proof.
  unfold c_parse_readout. unfold mbind' at 1. destruct r as [i|q]; cbn [get_index means]; [|by destruct ty]. unfold treg_get. destruct (treg_lookup (s_tq s) i); [by destruct ty|done].
Qed.
Print Assumptions C80_parse.

(** ** Example: a surface code and a repetition code on one register *)
Definition ex_reg : st := (new_treg "treg" ["XXZZ"; "Repetition"]%string [0; 1]%nat
  (St {[ 0%nat := P_Code.with_d (DTup [3; 5]); 1%nat := P_Code.with_d (DNum 3) ]} 2 [] [] "treg" 0 [] [] [])).1.
Example C80_ex_calls : (c_program [(ByIdx 0, OStab); (ByIdx 2, OX); (ByIdx 1, OReadZ None)] ex_reg).2 = [Ok tt; Err ValueError; Ok tt].
Proof. vm_compute. reflexivity. Qed.
Example C80_ex_means : match means (s_tq ex_reg) (ByIdx 1) with Ok q => tq_type q = TRepetition | Err _ => False end.
Proof. vm_compute. reflexivity. Qed.
Lemma missing_if (tq : list (string * list (Z * tqubit))) : (fun x => (x.1, x.2.*1)) <$> tq = [("data"%string, [0; 1])] -> forall sub q, (2, q) ∈ sub.2 -> sub ∉ tq.
Proof.
  intros E sub q Hq Hin. apply (elem_of_list_fmap_1 (fun x => (x.1, x.2.*1))) in Hin. rewrite E in Hin.
  apply elem_of_list_singleton in Hin. injection Hin as _ Hs. apply (elem_of_list_fmap_1 fst) in Hq. cbn [fst] in Hq.
  rewrite Hs in Hq. rewrite !elem_of_cons in Hq. destruct Hq as [?|[?|Hq]]; [lia..|by apply elem_of_nil in Hq].
Qed.
Example C80_ex_missing : forall sub q, (2, q) ∈ sub.2 -> sub ∉ s_tq ex_reg.
Proof. apply missing_if. vm_compute. reflexivity. Qed.
