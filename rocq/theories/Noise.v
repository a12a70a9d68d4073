(** Histories with faults: Pauli gates on data qubits occurring between method calls.  Such
    gates are what a Pauli noise model inserts (tutorials attach depolarizing errors to the
    identity gates emitted by id_data()). *)
From Verif Require Export QTotal P_Quantum.
From stdpp Require Export list.
Open Scope Z_scope.

Inductive ev := Call (o : op) | Fault (isx : bool) (i : Z).
Definition pgate (isx : bool) (q : qubit) : instr := if isx then IX q else IZ q.
Definition run_ev (q : tqubit) (e : ev) : M unit :=
  match e with Call o => run_op q o | Fault isx i => emit [pgate isx ((lat_data (tq_lat q)).1, i)] end.
Definition run_evs (q : tqubit) (l : list ev) : M unit := mfor l (run_ev q).
Definition ev_next (n : cnt) (e : ev) : cnt := match e with Call o => op_next n o | Fault _ _ => n end.
Definition ev_reg (name : string) (dh dw : Z) (n : cnt) (e : ev) : list reg :=
  match e with Call o => op_reg name dh dw n o | Fault _ _ => [] end.
Definition ev_code (c : code) (name : string) (dh dw : Z) (n : cnt) (e : ev) : list instr :=
  match e with Call o => op_code c name dh dw n o | Fault isx i => [pgate isx (dq name i)] end.
Fixpoint evs_next (n : cnt) (l : list ev) : cnt :=
  match l with [] => n | e :: l' => evs_next (ev_next n e) l' end.
Fixpoint evs_reg (name : string) (dh dw : Z) (n : cnt) (l : list ev) : list reg :=
  match l with [] => [] | e :: l' => ev_reg name dh dw n e ++ evs_reg name dh dw (ev_next n e) l' end.
Fixpoint evs_code (c : code) (name : string) (dh dw : Z) (n : cnt) (l : list ev) : list instr :=
  match l with [] => [] | e :: l' => ev_code c name dh dw n e ++ evs_code c name dh dw (ev_next n e) l' end.

Lemma run_ev_inv s q dh dw n e s' : lat_ok s q dh dw -> has_cnt s q n -> run_ev q e s = (s', Ok tt) ->
  (forall r, r ∈ ev_reg (lat_name (tq_lat q)) dh dw n e -> r_name r ∉ names s) /\
  post s s' q dh dw (ev_next n e) (ev_reg (lat_name (tq_lat q)) dh dw n e)
       (ev_code (lat_code (tq_lat q)) (lat_name (tq_lat q)) dh dw n e).
Proof.
  intros Hok Hn Hr. destruct e as [o|isx i]; cbn [run_ev ev_next ev_reg ev_code] in *.
  - destruct (run_op_inv s q dh dw n o s' Hok Hn Hr) as (_ & Hf & HP). done.
  - rewrite emit_eq in Hr. injection Hr as <-. split; [intros r Hr; by apply elem_of_nil in Hr|].
    rewrite (lo_lat _ _ _ _ Hok). cbn [lat_data the_lattice lat_code lat_name]. by apply post_plain.
Qed.
Lemma run_evs_inv l s q dh dw n s' : lat_ok s q dh dw -> has_cnt s q n -> run_evs q l s = (s', Ok tt) ->
  post s s' q dh dw (evs_next n l) (evs_reg (lat_name (tq_lat q)) dh dw n l)
       (evs_code (lat_code (tq_lat q)) (lat_name (tq_lat q)) dh dw n l).
Proof.
  revert s n. induction l as [|o l IH]; intros s n Hok Hc Hr; cbn [evs_next evs_reg evs_code].
  - injection Hr as <-. pose proof (post_plain s q dh dw n [] Hok Hc) as HP. by rewrite app_instrs_nil in HP.
  - unfold run_evs in Hr. cbn [mfor] in Hr. unfold mbind' in Hr. destruct (run_ev q o s) as [s1 [[]|e]] eqn:E; [|done].
    destruct (run_ev_inv s q dh dw n o s1 Hok Hc E) as (_ & HP).
    pose proof (IH s1 (ev_next n o) (po_ok _ _ _ _ _ _ _ _ HP) (po_cnt _ _ _ _ _ _ _ _ HP) Hr) as HP2. by eapply post_trans.
Qed.
Lemma mfor_app {A} (f : A -> M unit) l1 l2 s s' : mfor (l1 ++ l2) f s = (s', Ok tt) ->
  exists s1, mfor l1 f s = (s1, Ok tt) /\ mfor l2 f s1 = (s', Ok tt).
Proof.
  revert s. induction l1 as [|a l1 IH]; intros s Hr; [by exists s|].
  cbn [app mfor] in Hr |- *. unfold mbind' in *. destruct (f a s) as [s1 [[]|e]] eqn:E; [|done]. by apply IH.
Qed.

(** The accumulated Pauli error of a history, on data qubit indices. *)
Definition fault_of (e : ev) : pauli Z := match e with Call _ => pid | Fault true i => Xon {[i]} | Fault false i => Zon {[i]} end.
Definition faults (l : list ev) : pauli Z := pprod (fault_of <$> l).
Definition calls (l : list ev) : list op := omap (fun e => match e with Call o => Some o | Fault _ _ => None end) l.
Definition safe_ev (f : op -> bool) (e : ev) : bool := match e with Call o => f o | Fault _ _ => true end.

Section noise.
Context {R : Amp}.
Implicit Types (k : config R).
Context (c : code) (name : string) (dh dw : Z) (Hv : valid_size dh dw).
Notation LX := (pmap (dq name) (log_x c dh dw)).
Notation LZ := (pmap (dq name) (log_z c dh dw)).
Notation PK sk := (pmap (dq name) (stabP c dh dw sk)).
Lemma fault_step isx i (P : pauli Z) k0 k1 t : exec [pgate isx (dq name i)] k0 k1 -> stab k0.2 (pmap (dq name) P) t ->
  stab k1.2 (pmap (dq name) P) (xorb t (anti P (fault_of (Fault isx i)))).
Proof.
  intros He Hs. eapply prop_sound; [|exact He|exact Hs].
  rewrite <-(anti_pmap' name). assert (pmap (dq name) (fault_of (Fault isx i)) = if isx then Xon {[dq name i]} else Zon {[dq name i]}) as ->.
  { destruct isx; apply pauli_eq; cbn; rewrite ?img_empty; try done; unfold img; apply set_map_singleton_L. }
  erewrite gates_prop; [done|]. destruct isx; cbn; f_equal; apply pauli_eq; cbn; rewrite ?sd_empty_r; done.
Qed.
Lemma faults_cons e l (P : pauli Z) : anti P (faults (e :: l)) = xorb (anti P (fault_of e)) (anti P (faults l)).
Proof. unfold faults. cbn [fmap list_fmap pprod foldr]. by rewrite anti_pmul_r. Qed.
Lemma calls_cons e l : calls (e :: l) = match e with Call o => o :: calls l | Fault _ _ => calls l end.
Proof. by destruct e. Qed.

Lemma PK_evs l n k0 k1 sk t : Forall (fun e => safe_ev gentle e = true) l -> is_syn dh dw sk -> exec (evs_code c name dh dw n l) k0 k1 ->
  stab k0.2 (PK sk) t -> stab k1.2 (PK sk) (xorb t (anti (stabP c dh dw sk) (faults l))).
Proof.
  intros Hg Hk. revert n k0 t. induction Hg as [|e l Ho Hl IH]; intros n k0 t He Hs; cbn [evs_code] in He.
  - inversion He; subst. unfold faults. cbn. by rewrite anti_pid_r, xorb_false_r.
  - apply exec_app in He as (ka & He1 & He2). rewrite faults_cons, <-xorb_assoc. eapply IH; [exact He2|].
    destruct e as [o|isx i]; cbn [ev_code] in He1.
    + cbn [fault_of]. rewrite anti_pid_r, xorb_false_r. by eapply PK_op.
    + by eapply fault_step.
Qed.
Lemma LZ_evs l n k0 k1 t : Forall (fun e => safe_ev z_safe e = true) l -> exec (evs_code c name dh dw n l) k0 k1 ->
  stab k0.2 LZ t -> stab k1.2 LZ (xorb t (xorb (Nat.odd (count is_x (calls l))) (anti (log_z c dh dw) (faults l)))).
Proof.
  intros Hg. revert n k0 t. induction Hg as [|e l Ho Hl IH]; intros n k0 t He Hs; cbn [evs_code] in He.
  - inversion He; subst. unfold faults. cbn. by rewrite anti_pid_r, xorb_false_r.
  - apply exec_app in He as (ka & He1 & He2). rewrite faults_cons, calls_cons.
    destruct e as [o|isx i]; cbn [ev_code] in He1.
    + cbn [fault_of]. rewrite anti_pid_r, xorb_false_l, count_cons.
      rewrite (xorb_assoc (is_x o)), <-xorb_assoc. eapply IH; [exact He2|]. by eapply LZ_op.
    + rewrite <-(xorb_assoc _ (anti _ (fault_of _))), (xorb_comm (Nat.odd _)), !(xorb_assoc (anti _ (fault_of _))), <-xorb_assoc.
      eapply IH; [exact He2|]. by eapply fault_step.
Qed.
Lemma LX_evs l n k0 k1 t : Forall (fun e => safe_ev x_safe e = true) l -> exec (evs_code c name dh dw n l) k0 k1 ->
  stab k0.2 LX t -> stab k1.2 LX (xorb t (xorb (Nat.odd (count is_z (calls l))) (anti (log_x c dh dw) (faults l)))).
Proof.
  intros Hg. revert n k0 t. induction Hg as [|e l Ho Hl IH]; intros n k0 t He Hs; cbn [evs_code] in He.
  - inversion He; subst. unfold faults. cbn. by rewrite anti_pid_r, xorb_false_r.
  - apply exec_app in He as (ka & He1 & He2). rewrite faults_cons, calls_cons.
    destruct e as [o|isx i]; cbn [ev_code] in He1.
    + cbn [fault_of]. rewrite anti_pid_r, xorb_false_l, count_cons.
      rewrite (xorb_assoc (is_z o)), <-xorb_assoc. eapply IH; [exact He2|]. by eapply LX_op.
    + rewrite <-(xorb_assoc _ (anti _ (fault_of _))), (xorb_comm (Nat.odd _)), !(xorb_assoc (anti _ (fault_of _))), <-xorb_assoc.
      eapply IH; [exact He2|]. by eapply fault_step.
Qed.
Lemma clean_evs l n k0 k1 : exec (evs_code c name dh dw n l) k0 k1 -> syn_clean name dh dw k0.2 -> syn_clean name dh dw k1.2.
Proof.
  revert n k0. induction l as [|e l IH]; intros n k0 He Hs; cbn [evs_code] in He.
  - by inversion He; subst.
  - apply exec_app in He as (ka & He1 & He2). eapply IH; [exact He2|]. destruct e as [o|isx i]; cbn [ev_code] in He1.
    + by eapply op_syn_clean.
    + intros sk Hk. apply clean_stab. rewrite <-(xorb_false_r false). eapply prop_sound; [|exact He1|apply clean_stab, Hs, Hk].
      apply prop_untouched.
      { intros j Hj. apply elem_of_list_singleton in Hj as ->. by destruct isx. }
      intros j q Hj Hq. apply elem_of_list_singleton in Hj as ->.
      assert (q = dq name i) as -> by (destruct isx; by apply elem_of_list_singleton in Hq).
      apply off_Z. intros E. by eapply synq_dq.
Qed.
End noise.
