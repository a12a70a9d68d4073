(** C76: how many gates the methods add, and how deep the circuit becomes. *)
From Verif Require Import P_Code P_Quantum DepthFacts.
From stdpp Require Export list.
Open Scope Z_scope.

Lemma on_app U a b : on_qubits U (a ++ b) <-> on_qubits U a /\ on_qubits U b.
Proof.
  unfold on_qubits. split.
  - intros H. split; intros i q Hi; apply H, elem_of_app; auto.
  - intros [H1 H2] i q [Hi|Hi]%elem_of_app; [by apply H1|by apply H2].
Qed.
Lemma depth_cost_nonneg c dh dw o : valid_size dh dw -> 0 <= depth_cost c dh dw o.
Proof.
  intros (Hh & Hw & _). assert (0 <= two_cost dh dw OStab) by (cbn; nia). assert (0 <= had_cost c dh dw OStab) by (destruct c; cbn; nia).
  assert (forall r, 0 <= width r) by (intros [[??]|]; unfold width; [case_bool_decide|]; lia).
  destruct o as [|r|r| | | | | | | |]; cbn [depth_cost]; try (destruct c; lia); try lia.
  - case_bool_decide; lia.
  - specialize (H1 r). lia.
  - specialize (H1 r). destruct c; lia.
Qed.
Lemma ops_adds c name dh dw U l : valid_size dh dw -> Forall (fun o => op_ok c dh dw o = true) l -> forall n, on_qubits U (ops_code c name dh dw n l) ->
  adds U (ops_code c name dh dw n l) (total_of (depth_cost c dh dw) l).
Proof.
  intros Hv. induction 1 as [|o l Ho _ IHl]; intros n Hu; cbn [ops_code total_of foldr]; [apply adds_nil|].
  cbn [ops_code] in Hu. apply on_app in Hu as [H1 H2]. apply adds_app; [by apply depth_cost_nonneg| |by apply IHl].
  by apply (op_depth c name dh dw n o U Hv Ho H1).
Qed.
Definition sure (c : code) (dh dw : Z) (o : op) : Z := if overlaps c o then 0 else depth_cost c dh dw o.
Lemma ops_takes c name dh dw U l : valid_size dh dw -> Forall (fun o => op_ok c dh dw o = true) l -> forall n, on_qubits U (ops_code c name dh dw n l) ->
  takes U (ops_code c name dh dw n l) (total_of (sure c dh dw) l).
Proof.
  intros Hv. induction 1 as [|o l Ho _ IHl]; intros n Hu; cbn [ops_code total_of foldr]; [apply takes_same|].
  cbn [ops_code] in Hu. apply on_app in Hu as [H1 H2]. apply takes_app; [|by apply IHl].
  unfold sure. destruct (overlaps c o) eqn:E; [apply takes_same|]. by apply (op_depth c name dh dw n o U Hv Ho H1).
Qed.

(** * C76 *)
Section claims.
Context (s : st) (q : tqubit) (dh dw : Z) (l : list op) (s' : st) (is : list instr).
Let c := lat_code (tq_lat q).

(** The numbers of gates are those of the formulas, whatever the earlier history. *)
Theorem C76_counts : lat_ok s q dh dw -> run_ops q l s = (s', Ok tt) -> emitted s s' is ->
  number is_two is = total_of (two_cost dh dw) l /\
  number is_had is = total_of (had_cost c dh dw) l /\
  number is_measure is = total_of (measure_cost dh dw) l /\
  number is_reset is = total_of (reset_cost dh dw) l.
Proof.
  intros Hok Hr Hem. destruct (lat_ok_cnt _ _ _ _ Hok) as [n Hn]. destruct (calls_inv s q dh dw l s' is n Hok Hn Hr Hem) as [-> _].
  pose proof (lo_valid _ _ _ _ Hok) as Hv. clear Hr Hem Hok Hn. fold c. revert n. induction l as [|o l' IHl]; intros n; cbn [ops_code total_of foldr]; [done|].
  destruct (size_op c (lat_name (tq_lat q)) dh dw n o Hv) as (E1 & E2 & E3 & E4). destruct (IHl (op_next n o)) as (F1 & F2 & F3 & F4).
  rewrite !number_app, E1, E2, E3, E4, F1, F2, F3, F4. done.
Qed.

(** The depth grows by at most the sum of the formulas, and by at least the sum over all calls
    that end with a barrier. *)
Theorem C76_depth U : lat_ok s q dh dw -> run_ops q l s = (s', Ok tt) -> on_qubits U (s_instrs s') -> U <> [] ->
  s_instrs s = [] \/ last (s_instrs s) = Some IBarrier ->
  depth U (s_instrs s) + total_of (fun o => if overlaps c o then 0 else depth_cost c dh dw o) l <= depth U (s_instrs s') <=
  depth U (s_instrs s) + total_of (depth_cost c dh dw) l.
Proof.
  intros Hok Hr Hu HU Hl. destruct (lat_ok_cnt _ _ _ _ Hok) as [n Hn]. pose proof (lo_valid _ _ _ _ Hok) as Hv.
  destruct (run_ops_inv l s q dh dw n s' Hok Hn Hr) as [Hops HP]. fold c in Hops.
  pose proof (po_code _ _ _ _ _ _ _ _ HP) as EI. fold c in EI. rewrite EI in *. apply on_app in Hu as [Hu1 Hu2].
  destruct U as [|q0 U0]; [done|]. set (U := q0 :: U0) in *. assert (Hq0 : q0 ∈ U) by (by left). split.
  - apply (depth_ge U _ _ q0 Hq0). unfold levels. rewrite foldl_app.
    apply (ops_takes c (lat_name (tq_lat q)) dh dw U l Hv Hops n Hu2). by apply barrier_flat.
  - apply depth_le.
    + pose proof (depth_nonneg U (s_instrs s)). assert (0 <= total_of (depth_cost c dh dw) l); [|lia].
      clear -Hv. induction l as [|o l' IHl]; cbn [total_of foldr]; [done|]. pose proof (depth_cost_nonneg c dh dw o Hv). fold (total_of (depth_cost c dh dw) l'). lia.
    + unfold levels. rewrite foldl_app. apply (ops_adds c (lat_name (tq_lat q)) dh dw U l Hv Hops n Hu2); [apply depth_nonneg|apply depth_ub].
Qed.

(** Without a reset of an XZZX lattice the two bounds agree. *)
Theorem C76_depth_exact U : lat_ok s q dh dw -> run_ops q l s = (s', Ok tt) -> on_qubits U (s_instrs s') -> U <> [] ->
  s_instrs s = [] \/ last (s_instrs s) = Some IBarrier -> (c = XZZX -> OResetX ∉ l /\ OResetZ ∉ l) ->
  depth U (s_instrs s') = depth U (s_instrs s) + total_of (depth_cost c dh dw) l.
Proof.
  intros Hok Hr Hu HU Hl Hx. pose proof (C76_depth U Hok Hr Hu HU Hl) as H.
  assert (E : total_of (fun o => if overlaps c o then 0 else depth_cost c dh dw o) l = total_of (depth_cost c dh dw) l); [|lia].
  clear -Hx. clearbody c. induction l as [|o l' IHl]; [done|]. cbn [total_of foldr]. f_equal; [|apply IHl; intros Ec; destruct (Hx Ec) as [H1 H2]; apply not_elem_of_cons in H1, H2; tauto].
  destruct (overlaps c o) eqn:E; [|done]. exfalso. destruct c; [by destruct o|]. destruct (Hx eq_refl) as [H1 H2].
  destruct o; try done; [apply H1|apply H2]; by left.
Qed.
End claims.
Print Assumptions C76_counts.
Print Assumptions C76_depth.
Print Assumptions C76_depth_exact.

(** A memory experiment of an XXZZ or repetition lattice, alone in its circuit: T rounds. *)
Theorem C76_memory U s q dh dw T s' : lat_ok s q dh dw -> lat_code (tq_lat q) = XXZZ -> s_instrs s = [] ->
  run_ops q (OResetZ :: replicate T OStab ++ [OReadZ None]) s = (s', Ok tt) -> on_qubits U (s_instrs s') -> U <> [] ->
  depth U (s_instrs s') = 1 + Z.of_nat T * (if bool_decide (dh * dw = 1) then 0 else 5 * dh * dw - 3 * dh - dw + 1) + (dw + 2).
Proof.
  intros Hok Hc Hs Hr Hu HU. rewrite (C76_depth_exact s q dh dw _ s' U Hok Hr Hu HU); [|by left|by rewrite Hc].
  rewrite Hs, Hc. change (depth U []) with 0. cbn [total_of foldr].
  assert (E : forall T, foldr (fun o n => depth_cost XXZZ dh dw o + n) 0 (replicate T OStab ++ [OReadZ None]) =
    Z.of_nat T * (if bool_decide (dh * dw = 1) then 0 else 5 * dh * dw - 3 * dh - dw + 1) + (dw + 2)).
  { clear. induction T as [|T IHT]; [cbn; lia|]. cbn [replicate app foldr]. rewrite IHT. cbn [depth_cost two_cost had_cost].
    rewrite Nat2Z.inj_succ. case_bool_decide; lia. }
  rewrite E. cbn [depth_cost]. lia.
Qed.
Print Assumptions C76_memory.

(** ** Examples *)
Definition size_q (t : qtype) : st * res tqubit := new_tqubit t (Some 0%nat) "tq" (heap1 (with_d (DTup [3;5]))).
Definition size_run (t : qtype) (l : list op) : option (list instr) :=
  match size_q t with
  | (s, Ok q) => match run_ops q l s with (s', Ok tt) => Some (s_instrs s') | _ => None end
  | _ => None end.
Definition size_U : list qubit := mjoin (reg_bits <$> lattice_regs "tq" 3 5).
Definition size_ops : list op := [OResetZ; OStab; OX; OStab; OReadZ None].
Lemma size_on is : forallb (fun i => forallb (fun w => match w with WQ q => bool_decide (q ∈ size_U) | _ => true end) (wires [] i)) is = true -> on_qubits size_U is.
Proof.
  intros H i q Hi Hq. rewrite forallb_forall in H. specialize (H i ltac:(by apply elem_of_list_In)). rewrite forallb_forall in H.
  specialize (H (WQ q) ltac:(by apply elem_of_list_In)). by apply bool_decide_eq_true in H.
Qed.
(** A 3 x 5 XXZZ lattice: 1 + 62 + 1 + 62 + 7 steps. *)
Example C76_ex : exists s q s', size_q TXXZZ = (s, Ok q) /\ lat_ok s q 3 5 /\ s_instrs s = [] /\ run_ops q size_ops s = (s', Ok tt) /\
  on_qubits size_U (s_instrs s') /\ depth size_U (s_instrs s') = 133 /\ number is_two (s_instrs s') = 93 /\ number is_had (s_instrs s') = 32.
Proof.
  destruct (C04_constructed TXXZZ 0 "tq" (heap1 (with_d (DTup [3;5]))) (with_d (DTup [3;5])) (DTup [3;5]) 3 5)
    as (s & q & E & Hok & Hc & _); try done; [intros suf _; apply not_elem_of_nil|]. fold (size_q TXXZZ) in E.
  assert (HR : match size_run TXXZZ size_ops with Some is => forallb (fun i => forallb (fun w => match w with WQ q => bool_decide (q ∈ size_U) | _ => true end) (wires [] i)) is &&
     bool_decide (number is_two is = 93) && bool_decide (number is_had is = 32) | None => false end = true) by (vm_compute; reflexivity).
  assert (HS : s_instrs (size_q TXXZZ).1 = []) by (vm_compute; reflexivity).
  unfold size_run in HR. rewrite E in HR, HS. cbn [fst] in HS. destruct (run_ops q size_ops s) as [s' [[]|]] eqn:ER; [|done].
  apply andb_true_iff in HR as [[H1 H2%bool_decide_eq_true]%andb_true_iff H3%bool_decide_eq_true]. apply size_on in H1.
  exists s, q, s'. split; [done|]. split; [done|]. split; [done|]. split; [done|]. split; [done|]. split; [|done].
  rewrite (C76_depth_exact s q 3 5 size_ops s' size_U Hok ER H1); [|done|by left|by rewrite Hc]. rewrite HS, Hc. reflexivity.
Qed.
(** Evaluating the depth: the levels in a table. *)
Fixpoint get (t : list (wire * Z)) (w : wire) : Z := match t with [] => 0 | (v, x) :: t' => if bool_decide (w = v) then x else get t' w end.
Definition table_step (U : list qubit) (t : list (wire * Z)) (i : instr) : list (wire * Z) :=
  let h := highest (get t) (wires U i) + (match i with IBarrier => 0 | _ => 1 end) in ((fun w => (w, h)) <$> wires U i) ++ t.
Definition table (U : list qubit) (is : list instr) : list (wire * Z) := foldl (table_step U) [] is.
Lemma highest_ext f g ws : (forall w, f w = g w) -> highest f ws = highest g ws.
Proof. intros H. induction ws as [|w ws IHws]; [done|]. by rewrite !highest_cons, H, IHws. Qed.
Lemma table_ok U is : forall t lev, (forall w, get t w = lev w) -> forall w, get (foldl (table_step U) t is) w = foldl (level_step U) lev is w.
Proof.
  induction is as [|i is IHis]; intros t lev H w; [apply H|]. cbn [foldl]. apply IHis. clear w. intros w. unfold table_step, level_step.
  rewrite (highest_ext _ _ _ H). set (h := _ + _). clearbody h. induction (wires U i) as [|v ws IHws]; [apply H|].
  cbn [fmap list_fmap app get]. destruct (decide (w = v)) as [->|E].
  - rewrite (bool_decide_eq_true_2 (v = v)) by done. by rewrite bool_decide_eq_true_2 by (by left).
  - rewrite (bool_decide_eq_false_2 (w = v)) by done. rewrite IHws. erewrite (bool_decide_ext (w ∈ v :: ws)); [done|]. rewrite elem_of_cons. tauto.
Qed.
Lemma depth_table U is : depth U is = highest (get (table U is)) (mjoin (wires U <$> is)).
Proof. unfold depth, table, levels. apply highest_ext. intros w. symmetry. by apply table_ok. Qed.
(** An XZZX lattice: what follows a reset may start before the reset has finished.  Both bounds
    are attained, and so is a value between them. *)
Definition size_depth (l : list op) : option Z := (fun is => highest (get (table size_U is)) (mjoin (wires size_U <$> is))) <$> size_run TXZZX l.
Lemma size_depth_ok l n : size_depth l = Some n -> exists is, size_run TXZZX l = Some is /\ depth size_U is = n.
Proof. unfold size_depth. destruct (size_run TXZZX l) as [is|]; [|done]. intros [= <-]. exists is. split; [done|]. apply depth_table. Qed.
Definition low (l : list op) : Z := total_of (fun o => if overlaps XZZX o then 0 else depth_cost XZZX 3 5 o) l.
Definition high (l : list op) : Z := total_of (depth_cost XZZX 3 5) l.
Example C76_overlap_ex :
  (exists is, size_run TXZZX [OResetZ; OReadZ None] = Some is /\ depth size_U is = low [OResetZ; OReadZ None]) /\
  (exists is, size_run TXZZX [OResetX; OStab] = Some is /\ low [OResetX; OStab] < depth size_U is < high [OResetX; OStab]) /\
  (exists is, size_run TXZZX [OResetZ; OStab] = Some is /\ depth size_U is = high [OResetZ; OStab]).
Proof.
  assert (H1 : size_depth [OResetZ; OReadZ None] = Some 9) by (vm_compute; reflexivity).
  assert (H2 : size_depth [OResetX; OStab] = Some 91) by (vm_compute; reflexivity).
  assert (H3 : size_depth [OResetZ; OStab] = Some 92) by (vm_compute; reflexivity).
  apply size_depth_ok in H1 as (i1 & E1 & D1), H2 as (i2 & E2 & D2), H3 as (i3 & E3 & D3).
  split; [exists i1; split; [exact E1|rewrite D1; reflexivity]|].
  split; [exists i2; split; [exact E2|rewrite D2; split; reflexivity]|exists i3; split; [exact E3|rewrite D3; reflexivity]].
Qed.
