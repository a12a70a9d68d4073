(** No call looks at the instructions already in the circuit: it appends the same ones to any. *)
From Verif Require Export CxHist P_Cx.
From stdpp Require Export list.
Open Scope Z_scope.

(** The same state, with other instructions at the beginning. *)
Definition pre (is : list instr) (s : st) : st := set_instrs s (is ++ s_instrs s).
Definition par {A} (m : M A) : Prop := forall is s, m (pre is s) = (pre is (m s).1, (m s).2).

Lemma par_bind {A B} (m : M A) (f : A -> M B) : par m -> (forall a, par (f a)) -> par (mbind' m f).
Proof. intros Hm Hf is s. unfold mbind'. rewrite (Hm is s). destruct (m s) as [s' [a|e]]; cbn [fst snd]; [apply Hf|done]. Qed.
Lemma par_st {A} (f : st -> M A) : (forall is s, f (pre is s) (pre is s) = (pre is (f s s).1, (f s s).2)) -> par (mbind' get_st f).
Proof. intros H is s. unfold mbind', get_st. apply H. Qed.
Lemma par_ret {A} (a : A) : par (Circ.mret a). Proof. done. Qed.
Lemma par_raise {A} e : par (@mraise A e). Proof. done. Qed.
Lemma par_lift {A} (r : res A) : par (mlift r). Proof. done. Qed.
Lemma par_key {A} (o : option A) : par (key o). Proof. by destruct o. Qed.
Lemma par_new p : par (new_params p). Proof. done. Qed.
Lemma par_get l : par (get_params l). Proof. intros is s. unfold get_params. cbn. by destruct (s_heap s !! l). Qed.
Lemma par_put l p : par (put_params l p). Proof. done. Qed.
Lemma par_reg r : par (add_reg r). Proof. intros is s. unfold add_reg. cbn [pre set_instrs s_regs]. by repeat case_bool_decide. Qed.
Lemma par_emit l : par (emit l). Proof. intros is s. unfold emit, pre. cbn. by rewrite app_assoc. Qed.
Lemma par_emit1 f l : par (emit1 f l). Proof. unfold emit1. destruct l; [apply par_raise|apply par_emit]. Qed.
Lemma par_mfor {A} (l : list A) f : (forall x, par (f x)) -> par (mfor l f).
Proof. intros H. induction l; cbn [mfor]; [apply par_ret|by apply par_bind]. Qed.
Ltac pr1 := first
  [ apply par_ret | apply par_raise | apply par_lift | apply par_key | apply par_new | apply par_get | apply par_put | apply par_reg | apply par_emit | apply par_emit1
  | apply par_mfor; intros ? | apply par_bind; [|intros ?]
  | progress unfold emit_meas, get_dim, col_idx, row_idx, measure_ancilla
  | match goal with |- par (match ?b with _ => _ end) => destruct b end ].
Ltac pr := repeat pr1.

Lemma par_readx q : par (readout_x_into_ancilla q). Proof. unfold readout_x_into_ancilla. cbn zeta. pr. Qed.
Lemma par_readz q : par (readout_z_into_ancilla q). Proof. unfold readout_z_into_ancilla. cbn zeta. pr. Qed.
Lemma par_rr q r : par (readout_register q r). Proof. unfold readout_register. cbn zeta. pr. Qed.
Lemma par_rdz q r : par (readout_z q r).
Proof. unfold readout_z. apply par_bind; [apply par_rr|intros h]. apply par_bind; [apply par_readz|intros ?]. pr. Qed.
Lemma par_tqcx q c t : par (tq_cx q c t).
Proof. unfold tq_cx. destruct c, t; pr. Qed.
Lemma par_op q o : par (run_op q o).
Proof.
  destruct o; cbn [run_op].
  - unfold stabilize, entangle. cbn zeta. pr.
  - unfold readout_x. apply par_bind; [apply par_rr|intros h]. apply par_bind; [apply par_readx|intros ?]. pr.
  - apply par_rdz.
  - unfold lattice_readout_x, lattice_readout. cbn zeta. pr.
  - unfold lattice_readout_z, lattice_readout. cbn zeta. pr.
  - unfold reset_x. cbn zeta. pr.
  - unfold reset_z. cbn zeta. pr.
  - unfold logical_x. pr.
  - unfold logical_z. pr.
  - unfold id_all. cbn zeta. pr.
  - unfold id_data. pr.
Qed.
Lemma par_get_q i : par (treg_get i). Proof. done. Qed.
Lemma par_new_tqubit t l name : par (new_tqubit t l name).
Proof.
  unfold new_tqubit, or_new, rep_validate, new_lattice, params_validate_and_generate. cbn zeta. pr.
Qed.
Lemma par_add_tqubit sub c l : par (add_tqubit sub c l).
Proof.
  assert (HK : forall name, par (let* t := key (str2qtype c) in let* q := new_tqubit t (Some l) name in
    let* s := get_st in let* sub_d := key (dict_get sub (s_tq s)) in
    put_st (set_tq s (s_n s + 1) (dict_set sub (dict_set (s_n s) q sub_d) (s_tq s))))).
  { intros name. apply par_bind; [apply par_key|intros t]. apply par_bind; [apply par_new_tqubit|intros q]. apply par_st. intros is' s'.
    change (s_tq (pre is' s')) with (s_tq s'). destruct (dict_get sub (s_tq s')); done. }
  unfold add_tqubit. apply par_st. intros is s.
  change (s_tq (pre is s)) with (s_tq s). change (s_tname (pre is s)) with (s_tname s). change (s_n (pre is s)) with (s_n s).
  destruct (dict_get sub (s_tq s)).
  - exact (HK _ is s).
  - exact (HK _ is (set_tq s (s_n s) (dict_set sub [] (s_tq s)))).
Qed.
Lemma par_creg n x : par (add_creg n x).
Proof.
  unfold add_creg. apply par_st. intros is s. change (s_tcreg (pre is s)) with (s_tcreg s). destruct (dict_get x (s_tcreg s)); [done|].
  case_bool_decide; [done|]. exact (par_reg (Reg false x n) is (set_tregs s (s_tqreg s) (dict_set x (x, n) (s_tcreg s)))).
Qed.
Lemma par_qreg n x : par (add_qreg n x).
Proof.
  unfold add_qreg. apply par_st. intros is s. change (s_tqreg (pre is s)) with (s_tqreg s). destruct (dict_get x (s_tqreg s)); [done|].
  case_bool_decide; [done|]. exact (par_reg (Reg true x n) is (set_tregs s (dict_set x (x, n) (s_tqreg s)) (s_tcreg s))).
Qed.
Lemma par_get_creg x : par (get_creg x).
Proof. unfold get_creg. apply par_st. intros is s. apply par_key. Qed.
Lemma par_get_qreg x : par (get_qreg x).
Proof. unfold get_qreg. apply par_st. intros is s. apply par_key. Qed.
Lemma par_body c t a : par (cx_body c t a).
Proof.
  unfold cx_body, x_c_if, z_c_if, reset_x. cbn zeta.
  repeat first [apply par_creg | apply par_qreg | apply par_get_creg | apply par_get_qreg | apply par_tqcx | apply par_rdz | pr1].
Qed.
Lemma par_index r : par (get_index r). Proof. by destruct r. Qed.
Lemma par_cx i j c l : par (c_cx i j c l).
Proof.
  unfold c_cx. apply par_bind; [destruct c, l; pr|intros _].
  apply par_bind; [destruct c, l; first [apply par_ret | apply par_bind; [apply par_index|intros ?]; apply par_ret]|intros ap].
  apply par_bind; [apply par_index|intros qc]. apply par_bind; [apply par_index|intros qt].
  apply par_st. intros is s. change (s_tq (pre is s)) with (s_tq s).
  match goal with |- mbind' _ ?f _ = _ => assert (HT : par (f tt)) end.
  { apply par_st. intros is' s'. change (s_tq (pre is' s')) with (s_tq s').
    refine (par_bind _ _ (par_key _) _ is' s'). intros sb. apply par_bind; [by destruct (reverse sb)|intros qa]. apply par_body. }
  refine (par_bind _ _ _ _ is s); [|by intros []]. destruct (dict_get _ _); [apply par_ret|apply par_add_tqubit].
Qed.
Lemma par_event e : par (run_event e).
Proof.
  destruct e as [i o|i j [[c p]|]]; cbn [run_event].
  - unfold run_call. apply par_bind; [apply par_get_q|intros q; apply par_op].
  - apply par_bind; [apply par_new|intros l; apply par_cx].
  - apply par_cx.
Qed.
Lemma par_events l is s : run_events l (pre is s) = (pre is (run_events l s).1, (run_events l s).2).
Proof.
  revert s. induction l as [|e l IHl]; intros s; [done|]. cbn [run_events fst snd]. rewrite (par_event e is s). cbn [fst snd]. by rewrite IHl.
Qed.
(** With other instructions in the circuit at the start, the same results and the same calls. *)
Lemma events_app l s xs : run_events l (app_instrs s xs) =
  (set_instrs (run_events l s).1 (s_instrs s ++ xs ++ drop (length (s_instrs s)) (s_instrs (run_events l s).1)), (run_events l s).2).
Proof.
  pose (s' := set_instrs s []).
  assert (E1 : s = pre (s_instrs s) s') by (destruct s; unfold pre, s', set_instrs; cbn; by rewrite app_nil_r).
  assert (E2 : app_instrs s xs = pre (s_instrs s ++ xs) s') by (destruct s; unfold pre, s', set_instrs, app_instrs; cbn; by rewrite app_nil_r).
  assert (E3 : run_events l s = (pre (s_instrs s) (run_events l s').1, (run_events l s').2)) by (rewrite E1 at 1; apply par_events).
  rewrite E2, par_events, E3. cbn [fst snd]. f_equal. generalize (run_events l s').1. intros t.
  unfold pre, set_instrs. cbn. rewrite drop_app, app_assoc. done.
Qed.
