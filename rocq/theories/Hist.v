(** Histories: sequences of method calls on one qubit (the methods of TopologicalQubit,
    qtcodes/circuits/base.py:312-414 and rotated_surface.py:496-531). *)
From Verif Require Export ReadOps.
From stdpp Require Export list.
Open Scope Z_scope.

Inductive op :=
| OStab | OReadX (r : option rhandle) | OReadZ (r : option rhandle) | OLatX | OLatZ
| OResetX | OResetZ | OX | OZ | OId | OIdData.
Definition run_op (q : tqubit) (o : op) : M unit :=
  match o with
  | OStab => stabilize q | OReadX r => readout_x q r | OReadZ r => readout_z q r
  | OLatX => lattice_readout_x q | OLatZ => lattice_readout_z q
  | OResetX => reset_x q | OResetZ => reset_z q | OX => logical_x q | OZ => logical_z q
  | OId => id_all q | OIdData => id_data q
  end.
Definition run_ops (q : tqubit) (l : list op) : M unit := mfor l (run_op q).

(** The counters "T", "num_readout", "num_lattice_readout" of a qubit. *)
Record cnt := Cnt { cT : Z; cR : Z; cL : Z }.
Definition has_cnt (s : st) (q : tqubit) (n : cnt) : Prop :=
  exists p, s_heap s !! lat_params (tq_lat q) = Some p /\
    T_of p = Some (cT n) /\ num_readout_of p = Some (cR n) /\ num_lattice_readout_of p = Some (cL n).
Lemma lat_ok_cnt s q dh dw : lat_ok s q dh dw -> exists n, has_cnt s q n.
Proof. intros [_ _ (p & dl & T & a & b & Hp & ? & ? & ? & ? & ? & ? & _)]. exists (Cnt T a b), p. done. Qed.
Lemma has_cnt_inj s q n n' : has_cnt s q n -> has_cnt s q n' -> n = n'.
Proof. intros (p & Hp & ?&?&?) (p' & Hp' & ?&?&?). rewrite Hp in Hp'. injection Hp' as <-. destruct n, n'; cbn in *. congruence. Qed.

(** readout(register): a register of length 0 counts as none given. *)
Definition eff (r : option rhandle) : option rhandle :=
  match r with Some h => if bool_decide (h.2 = 0) then None else Some h | None => None end.
Definition bump_T (n : cnt) : cnt := Cnt (cT n + 1) (cR n) (cL n).
Definition bump_R (n : cnt) : cnt := Cnt (cT n) (cR n + 1) (cL n).
Definition bump_L (n : cnt) : cnt := Cnt (cT n) (cR n) (cL n + 1).
Definition op_next (n : cnt) (o : op) : cnt :=
  match o with
  | OStab => bump_T n
  | OReadX r | OReadZ r => match eff r with None => bump_R n | Some _ => n end
  | OLatX | OLatZ => bump_L n
  | _ => n end.
(** The classical register the call creates. *)
Definition op_reg (name : string) (dh dw : Z) (n : cnt) (o : op) : list reg :=
  match o with
  | OStab => [Reg false (cname name (cT n + 1)) (num_syn_x dh dw + num_syn_z dh dw)]
  | OReadX r | OReadZ r => match eff r with None => [Reg false (rdname name (cR n + 1)) 1] | Some _ => [] end
  | OLatX | OLatZ => [Reg false (lrname name (cL n + 1)) (num_data dh dw)]
  | _ => [] end.
Definition rd_target (name : string) (n : cnt) (r : option rhandle) : rhandle :=
  match eff r with None => (rdname name (cR n + 1), 1) | Some h => h end.
(** The instructions a successful call appends. *)
Definition op_code (c : code) (name : string) (dh dw : Z) (n : cnt) (o : op) : list instr :=
  match o with
  | OStab => round_instrs c name dh dw (cT n + 1)
  | OReadX r => rd_x c name dh dw (rd_target name n r)
  | OReadZ r => rd_z c name dw (rd_target name n r)
  | OLatX => lr_x c name (num_data dh dw) (cL n + 1)
  | OLatZ => lr_z c name (num_data dh dw) (cL n + 1)
  | OResetX => rs_x c name (num_data dh dw)
  | OResetZ => rs_z c name (num_data dh dw)
  | OX => logx_instrs c name dh dw
  | OZ => logz_instrs c name dw
  | OId => id_instrs name dh dw
  | OIdData => id_data_instrs name (num_data dh dw) end.
(** Calls that do not raise: XZZX lattices of height (width) 1 have no odd-indexed qubit on
    the read-out column (row). *)
Definition op_ok (c : code) (dh dw : Z) (o : op) : bool :=
  match o with
  | OReadX _ => can_x c dh | OReadZ _ => can_z c dw
  | OLatX | OResetX => can_rx c (num_data dh dw)
  | _ => true end.
Definition op_fresh (s : st) (name : string) (dh dw : Z) (n : cnt) (o : op) : Prop :=
  forall r, r ∈ op_reg name dh dw n o -> r_name r ∉ names s.

(** Nothing but the qubit's own dictionary and the circuit is touched. *)
Definition same_else (s s' : st) (q : tqubit) : Prop :=
  (forall l, l <> lat_params (tq_lat q) -> s_heap s' !! l = s_heap s !! l) /\
  s_next s' = s_next s /\ s_tname s' = s_tname s /\ s_n s' = s_n s /\ s_tq s' = s_tq s /\
  s_tqreg s' = s_tqreg s /\ s_tcreg s' = s_tcreg s.
Record post (s s' : st) (q : tqubit) (dh dw : Z) (n : cnt) (rs : list reg) (is : list instr) : Prop := {
  po_ok : lat_ok s' q dh dw;
  po_cnt : has_cnt s' q n;
  po_regs : s_regs s' = s_regs s ++ rs;
  po_code : s_instrs s' = s_instrs s ++ is;
  po_else : same_else s s' q }.

Lemma post_put s q dh dw p p' n rs is : lat_ok s q dh dw -> s_heap s !! lat_params (tq_lat q) = Some p ->
  d_of p' = d_of p -> num_data_of p' = num_data_of p -> num_syn_of p' = num_syn_of p ->
  T_of p' = Some (cT n) -> num_readout_of p' = Some (cR n) -> num_lattice_readout_of p' = Some (cL n) ->
  post s (app_instrs (app_regs (put_p s q p') rs) is) q dh dw n rs is.
Proof.
  intros [Hv Hl (p0 & dl & T & a & b & Hp & Hd & H0 & H1 & _ & _ & _ & Hnd & Hns)] Hp' Ed En Es ET ER EL.
  rewrite Hp in Hp'. injection Hp' as ->. constructor.
  - constructor; [done|done|]. exists p', dl, (cT n), (cR n), (cL n). cbn. rewrite lookup_insert. rewrite Ed, En, Es. done.
  - exists p'. cbn. rewrite lookup_insert. done.
  - done.
  - done.
  - split_and!; try done. intros l Hl'. cbn. by rewrite lookup_insert_ne.
Qed.
Lemma put_p_same s q p : s_heap s !! lat_params (tq_lat q) = Some p -> put_p s q p = s.
Proof. intros Hp. unfold put_p, set_heap. rewrite insert_id by done. by destruct s. Qed.
Lemma post_plain s q dh dw n is : lat_ok s q dh dw -> has_cnt s q n -> post s (app_instrs s is) q dh dw n [] is.
Proof.
  intros Hok (p & Hp & ?&?&?). pose proof (post_put s q dh dw p p n [] is Hok Hp) as HP.
  rewrite put_p_same, app_regs_nil in HP by done. apply HP; done.
Qed.
Lemma post_trans s s1 s2 q dh dw n1 n2 r1 r2 i1 i2 : post s s1 q dh dw n1 r1 i1 -> post s1 s2 q dh dw n2 r2 i2 ->
  post s s2 q dh dw n2 (r1 ++ r2) (i1 ++ i2).
Proof.
  intros [A1 A2 A3 A4 (A5&?&?&?&?&?&?)] [B1 B2 B3 B4 (B5&?&?&?&?&?&?)]. constructor; try done.
  - rewrite B3, A3. by rewrite app_assoc.
  - rewrite B4, A4. by rewrite app_assoc.
  - split_and!; try congruence. intros l Hl. rewrite B5, A5; done.
Qed.

(** ** A supported call with a fresh register name succeeds *)
Lemma run_op_ok s q dh dw n o : lat_ok s q dh dw -> has_cnt s q n ->
  op_ok (lat_code (tq_lat q)) dh dw o = true -> op_fresh s (lat_name (tq_lat q)) dh dw n o ->
  exists s', run_op q o s = (s', Ok tt) /\
    post s s' q dh dw (op_next n o) (op_reg (lat_name (tq_lat q)) dh dw n o)
         (op_code (lat_code (tq_lat q)) (lat_name (tq_lat q)) dh dw n o).
Proof.
  intros Hok Hc Hs Hf. pose proof Hc as (p & Hp & HT & HR & HL). unfold op_fresh in Hf.
  destruct o as [|r|r| | | | | | | |]; cbn [run_op op_ok op_reg op_next op_code] in *.
  - eexists. split; [apply (stabilize_ok s q dh dw p (cT n)); try done|].
    + exact (Hf _ (elem_of_list_here _ _)).
    + unfold round_state. by eapply post_put.
  - unfold rd_target, readout_x. destruct r as [h|]; cbn [eff] in *; [case_bool_decide as Hh|].
    + eexists. split.
      * unfold readout_register. rewrite bool_decide_eq_true_2 by done. eapply (readout_x_fresh s q dh dw p); try done.
        exact (Hf _ (elem_of_list_here _ _)).
      * unfold rd_pre. by eapply post_put.
    + eexists. split; [by eapply readout_x_given|]. by apply post_plain.
    + eexists. split; [eapply (readout_x_fresh s q dh dw p); try done|].
      * exact (Hf _ (elem_of_list_here _ _)).
      * unfold rd_pre. by eapply post_put.
  - unfold rd_target, readout_z. destruct r as [h|]; cbn [eff] in *; [case_bool_decide as Hh|].
    + eexists. split.
      * unfold readout_register. rewrite bool_decide_eq_true_2 by done. eapply (readout_z_fresh s q dh dw p); try done.
        exact (Hf _ (elem_of_list_here _ _)).
      * unfold rd_pre. by eapply post_put.
    + eexists. split; [by eapply readout_z_given|]. by apply post_plain.
    + eexists. split; [eapply (readout_z_fresh s q dh dw p); try done|].
      * exact (Hf _ (elem_of_list_here _ _)).
      * unfold rd_pre. by eapply post_put.
  - eexists. split; [eapply (lattice_readout_x_ok s q dh dw p); try done|].
    + exact (Hf _ (elem_of_list_here _ _)).
    + unfold lr_pre. by eapply post_put.
  - eexists. split; [eapply (lattice_readout_z_ok s q dh dw p); try done|].
    + exact (Hf _ (elem_of_list_here _ _)).
    + unfold lr_pre. by eapply post_put.
  - eexists. split; [by eapply reset_x_ok|]. by apply post_plain.
  - eexists. split; [by eapply reset_z_ok|]. by apply post_plain.
  - eexists. split; [by eapply logical_x_ok|]. by apply post_plain.
  - eexists. split; [by eapply logical_z_ok|]. by apply post_plain.
  - eexists. split; [by eapply id_all_ok|]. by apply post_plain.
  - eexists. split; [by eapply id_data_ok|]. by apply post_plain.
Qed.

(** ** Unsupported calls *)
Lemma readout_z_into_fail s q dh dw : lat_ok s q dh dw -> can_z (lat_code (tq_lat q)) dw = false ->
  exists is, readout_z_into_ancilla q s = (app_instrs s is, Err ValueError).
Proof.
  intros Hok Hc. pose proof (lo_valid _ _ _ _ Hok) as Hv. unfold readout_z_into_ancilla.
  erewrite mbind_ok by apply emit_eq.
  set (s1 := app_instrs s _). assert (Hok1 : lat_ok s1 q dh dw) by (by apply lat_ok_app).
  destruct (lat_code (tq_lat q)) eqn:Ecode; [done|].
  apply bool_decide_eq_false in Hc.
  assert (0 < dw /\ Z.odd dw = true) as [Hw1 Hw2] by (unfold valid_size in Hv; naive_solver).
  assert (dw = 1) as Hdw by (destruct (odd_size_1_3 dw Hw1 Hw2); lia).
  erewrite mbind_ok by (by eapply row_idx_ok). erewrite mbind_ok by apply emit_eq.
  assert (HR : forall k, k ∈ row_list dw -> 0 <= k < dh * dw) by (intros; by eapply row_list_range).
  erewrite mbind_ok.
  2:{ apply mlift_ok. eapply (reg_list_ok _ _ dh dw); [exact Hok|..].
      - intros k [_ Hk]%elem_of_list_filter. by apply HR.
      - apply even_row_ne. lia. }
  erewrite mbind_ok by (apply emit1_ok; intros E%fmap_nil_inv; revert E; apply even_row_ne; lia).
  erewrite mbind_ok by apply emit_eq.
  change (filter (fun i => i mod 2 = 1) (row_list dw)) with (odd_ix (row_list dw)). rewrite Hdw, odd_row_1.
  erewrite mbind_err by done.
  eexists. unfold s1. rewrite !app_instrs_app. done.
Qed.
Lemma readout_x_into_fail s q dh dw : lat_ok s q dh dw -> can_x (lat_code (tq_lat q)) dh = false ->
  exists is, readout_x_into_ancilla q s = (app_instrs s is, Err ValueError).
Proof.
  intros Hok Hc. pose proof (lo_valid _ _ _ _ Hok) as Hv. unfold readout_x_into_ancilla.
  erewrite mbind_ok by apply emit_eq.
  set (s1 := app_instrs s _). assert (Hok1 : lat_ok s1 q dh dw) by (by apply lat_ok_app).
  destruct (lat_code (tq_lat q)) eqn:Ecode; [done|].
  apply bool_decide_eq_false in Hc.
  assert (0 < dh /\ Z.odd dh = true) as [Hw1 Hw2] by (unfold valid_size in Hv; naive_solver).
  assert (dh = 1) as Hdh by (destruct (odd_size_1_3 dh Hw1 Hw2); lia).
  erewrite mbind_ok by (by eapply col_idx_ok). erewrite mbind_ok by apply emit_eq.
  change (filter (fun i => i mod 2 = 1) (col_list dh dw)) with (odd_ix (col_list dh dw)). rewrite Hdh, odd_col_1.
  erewrite mbind_err by done.
  eexists. unfold s1. rewrite !app_instrs_app. done.
Qed.
Lemma can_rx_false c nd : 0 < nd -> can_rx c nd = false -> c = XZZX /\ odd_ix (seqZ 0 nd) = [].
Proof. destruct c; [done|]. intros ? Hc%bool_decide_eq_false. assert (nd = 1) as -> by lia. done. Qed.

Lemma readout_fail (m : M unit) (k : M unit) s s' is e : m s = (app_instrs s' is, Err e) -> (m ;;; k) s = (app_instrs s' is, Err e).
Proof. intros H. by erewrite mbind_err. Qed.

(** An unsupported call raises, after advancing the counter and adding the register. *)
Lemma run_op_fail s q dh dw n o : lat_ok s q dh dw -> has_cnt s q n ->
  op_ok (lat_code (tq_lat q)) dh dw o = false -> op_fresh s (lat_name (tq_lat q)) dh dw n o ->
  exists s' e is, run_op q o s = (s', Err e) /\ (e = ValueError \/ e = CircuitError) /\
    post s s' q dh dw (op_next n o) (op_reg (lat_name (tq_lat q)) dh dw n o) is.
Proof.
  intros Hok Hc Hs Hf. pose proof Hc as (p & Hp & HT & HR & HL). unfold op_fresh in Hf.
  pose proof (valid_counts _ _ (lo_valid _ _ _ _ Hok)) as (Hnd & _).
  destruct o as [|r|r| | | | | | | |]; cbn [run_op op_ok op_reg op_next] in *; try done.
  - assert (HF : forall s, lat_ok s q dh dw -> exists is, readout_x_into_ancilla q s = (app_instrs s is, Err ValueError))
      by (intros; by eapply readout_x_into_fail).
    assert (HN : forall r, eff r = None -> readout_register q r s = readout_register q None s).
    { intros [h|]; [|done]. cbn [eff]. case_bool_decide as Hh; [|done]. intros _. unfold readout_register. by rewrite bool_decide_eq_true_2. }
    unfold readout_x. destruct (eff r) as [h|] eqn:Er.
    + destruct r as [h'|]; [|done]. cbn in Er. case_bool_decide as Hh; [done|]. injection Er as ->.
      destruct (HF s Hok) as [is Hi]. eexists _, _, is. split_and!.
      * erewrite mbind_ok by (by apply readout_register_given). by erewrite mbind_err.
      * by left.
      * by apply post_plain.
    + destruct (HF (rd_pre s q p (cR n))) as [is Hi]; [by apply lat_ok_rd_pre|]. eexists _, _, is. split_and!.
      * erewrite mbind_ok; [by erewrite mbind_err|]. rewrite HN by done. apply readout_register_fresh; try done.
        exact (Hf _ (elem_of_list_here _ _)).
      * by left.
      * unfold rd_pre. by eapply post_put.
  - assert (HF : forall s, lat_ok s q dh dw -> exists is, readout_z_into_ancilla q s = (app_instrs s is, Err ValueError))
      by (intros; by eapply readout_z_into_fail).
    assert (HN : forall r, eff r = None -> readout_register q r s = readout_register q None s).
    { intros [h|]; [|done]. cbn [eff]. case_bool_decide as Hh; [|done]. intros _. unfold readout_register. by rewrite bool_decide_eq_true_2. }
    unfold readout_z. destruct (eff r) as [h|] eqn:Er.
    + destruct r as [h'|]; [|done]. cbn in Er. case_bool_decide as Hh; [done|]. injection Er as ->.
      destruct (HF s Hok) as [is Hi]. eexists _, _, is. split_and!.
      * erewrite mbind_ok by (by apply readout_register_given). by erewrite mbind_err.
      * by left.
      * by apply post_plain.
    + destruct (HF (rd_pre s q p (cR n))) as [is Hi]; [by apply lat_ok_rd_pre|]. eexists _, _, is. split_and!.
      * erewrite mbind_ok; [by erewrite mbind_err|]. rewrite HN by done. apply readout_register_fresh; try done.
        exact (Hf _ (elem_of_list_here _ _)).
      * by left.
      * unfold rd_pre. by eapply post_put.
  - apply can_rx_false in Hs as [Ec Eo]; [|lia]. eexists (lr_pre s q p (cL n) (num_data dh dw)), CircuitError, []. split_and!.
    + pose proof Hok as [_ _ (p' & dl & T' & a & b & Hp' & _ & _ & _ & _ & _ & _ & Hnd' & _)].
      rewrite Hp in Hp'. injection Hp' as <-.
      unfold lattice_readout_x, lattice_readout. rewrite Ec. erewrite mbind_ok by (by apply get_params_ok).
      rewrite HL. cbn [key]. erewrite mbind_ok by done. erewrite mbind_ok by done.
      rewrite Hnd'. cbn [key]. erewrite mbind_ok by done. cbn zeta. cbn [fst snd].
      erewrite mbind_ok by (apply add_reg_ok; [cbn; lia|exact (Hf _ (elem_of_list_here _ _))]).
      rewrite (data_bits _ _ _ _ Hok), odds_data by lia. rewrite Eo. cbn [fmap list_fmap emit1]. by erewrite mbind_err.
    + by right.
    + rewrite <-(app_instrs_nil (lr_pre _ _ _ _ _)). unfold lr_pre. by eapply post_put.
  - apply can_rx_false in Hs as [Ec Eo]; [|lia]. eexists _, CircuitError, _. split_and!.
    + unfold reset_x. rewrite Ec, (data_bits _ _ _ _ Hok), odds_data by lia. rewrite Eo.
      erewrite mbind_ok by (apply emit1_ok; apply fmap_ne, seqZ_ne; lia). done.
    + by right.
    + by apply post_plain.
Qed.

(** A call whose register name is taken raises CircuitError. *)
Lemma add_reg_clash s r : r_name r ∈ names s -> add_reg r s = (s, Err CircuitError).
Proof. intros H. unfold add_reg. case_bool_decide; [done|]. rewrite bool_decide_eq_true_2; done. Qed.
Lemma run_op_clash s q dh dw n o : lat_ok s q dh dw -> has_cnt s q n ->
  ~ op_fresh s (lat_name (tq_lat q)) dh dw n o ->
  exists s', run_op q o s = (s', Err CircuitError) /\
    post s s' q dh dw (op_next n o) [] [].
Proof.
  intros Hok Hc Hf. pose proof Hc as (p & Hp & HT & HR & HL). unfold op_fresh in Hf.
  pose proof (valid_counts _ _ (lo_valid _ _ _ _ Hok)) as (Hnd & _).
  assert (HC : forall r, op_reg (lat_name (tq_lat q)) dh dw n o = [r] -> r_name r ∈ names s).
  { intros r Er. rewrite Er in Hf. destruct (decide (r_name r ∈ names s)) as [|HN]; [done|].
    exfalso. apply Hf. intros r' Hr'%elem_of_list_singleton. by subst. }
  pose proof Hok as [_ _ (p' & dl & T' & a & b & Hp' & _ & _ & _ & _ & _ & _ & Hnd' & Hns)].
  rewrite Hp in Hp'. injection Hp' as <-.
  assert (HRd : forall r, (match eff r with None => [Reg false (rdname (lat_name (tq_lat q)) (cR n + 1)) 1] | Some _ => [] end =
     op_reg (lat_name (tq_lat q)) dh dw n o) ->
     eff r = None /\ readout_register q r s = (put_p s q (upd_num_readout p (cR n + 1)), Err CircuitError)).
  { intros r Er. destruct (eff r) as [h|] eqn:E.
    - exfalso. apply Hf. rewrite <-Er. intros r' Hr'. by apply elem_of_nil in Hr'.
    - split; [done|]. assert (HN : readout_register q r s = readout_register q None s).
      { destruct r as [h|]; [|done]. cbn in E. case_bool_decide as Hh; [|done]. unfold readout_register. by rewrite bool_decide_eq_true_2. }
      rewrite HN. unfold readout_register. erewrite mbind_ok by (by apply get_params_ok).
      rewrite HR. cbn [key]. erewrite mbind_ok by done. erewrite mbind_ok by done. cbn zeta. cbn [fst snd].
      erewrite mbind_err by (apply add_reg_clash; exact (HC _ (eq_sym Er))). done. }
  assert (HP : forall p' n', d_of p' = d_of p -> num_data_of p' = num_data_of p -> num_syn_of p' = num_syn_of p ->
    T_of p' = Some (cT n') -> num_readout_of p' = Some (cR n') -> num_lattice_readout_of p' = Some (cL n') ->
    post s (put_p s q p') q dh dw n' [] []).
  { intros p' n' ? ? ? ? ? ?. pose proof (post_put s q dh dw p p' n' [] []) as HP. rewrite app_instrs_nil, app_regs_nil in HP. by apply HP. }
  destruct o as [|r|r| | | | | | | |]; cbn [run_op op_reg op_next] in *; try (by exfalso; apply Hf; intros r' Hr'; apply elem_of_nil in Hr').
  - eexists. split.
    + unfold stabilize. erewrite mbind_ok by (by apply get_params_ok).
      rewrite Hns. cbn [key]. erewrite mbind_ok by done. rewrite HT. cbn [key]. erewrite mbind_ok by done.
      erewrite mbind_ok by done. cbn zeta. cbn [fst snd]. erewrite mbind_err by (apply add_reg_clash; exact (HC _ eq_refl)). done.
    + by apply HP.
  - destruct (HRd r eq_refl) as [Er E]. rewrite Er. eexists. split; [unfold readout_x; by erewrite mbind_err|by apply HP].
  - destruct (HRd r eq_refl) as [Er E]. rewrite Er. eexists. split; [unfold readout_z; by erewrite mbind_err|by apply HP].
  - eexists. split.
    + unfold lattice_readout_x, lattice_readout. erewrite mbind_ok by (by apply get_params_ok).
      rewrite HL. cbn [key]. erewrite mbind_ok by done. erewrite mbind_ok by done.
      rewrite Hnd'. cbn [key]. erewrite mbind_ok by done. cbn zeta. cbn [fst snd].
      erewrite mbind_err by (apply add_reg_clash; exact (HC _ eq_refl)). done.
    + by apply HP.
  - eexists. split.
    + unfold lattice_readout_z, lattice_readout. erewrite mbind_ok by (by apply get_params_ok).
      rewrite HL. cbn [key]. erewrite mbind_ok by done. erewrite mbind_ok by done.
      rewrite Hnd'. cbn [key]. erewrite mbind_ok by done. cbn zeta. cbn [fst snd].
      erewrite mbind_err by (apply add_reg_clash; exact (HC _ eq_refl)). done.
    + by apply HP.
Qed.

Global Instance op_fresh_dec s name dh dw n o : Decision (op_fresh s name dh dw n o).
Proof.
  unfold op_fresh. destruct (decide (Forall (fun r => r_name r ∉ names s) (op_reg name dh dw n o))) as [H|H].
  - left. by rewrite <-list.Forall_forall.
  - right. intros H'. apply H. by rewrite list.Forall_forall.
Qed.
(** A call that returned normally did exactly this. *)
Lemma run_op_inv s q dh dw n o s' : lat_ok s q dh dw -> has_cnt s q n -> run_op q o s = (s', Ok tt) ->
  op_ok (lat_code (tq_lat q)) dh dw o = true /\ op_fresh s (lat_name (tq_lat q)) dh dw n o /\
  post s s' q dh dw (op_next n o) (op_reg (lat_name (tq_lat q)) dh dw n o)
       (op_code (lat_code (tq_lat q)) (lat_name (tq_lat q)) dh dw n o).
Proof.
  intros Hok Hc Hr. destruct (decide (op_fresh s (lat_name (tq_lat q)) dh dw n o)) as [Hf|Hf].
  - destruct (op_ok (lat_code (tq_lat q)) dh dw o) eqn:Hs.
    + destruct (run_op_ok s q dh dw n o Hok Hc Hs Hf) as (s'' & E & HP). rewrite Hr in E. by injection E as <-.
    + destruct (run_op_fail s q dh dw n o Hok Hc Hs Hf) as (s'' & e & is & E & _). congruence.
  - destruct (run_op_clash s q dh dw n o Hok Hc Hf) as (s'' & E & _). congruence.
Qed.

Fixpoint ops_next (n : cnt) (l : list op) : cnt := match l with [] => n | o :: l' => ops_next (op_next n o) l' end.
Fixpoint ops_reg (name : string) (dh dw : Z) (n : cnt) (l : list op) : list reg :=
  match l with [] => [] | o :: l' => op_reg name dh dw n o ++ ops_reg name dh dw (op_next n o) l' end.
Fixpoint ops_code (c : code) (name : string) (dh dw : Z) (n : cnt) (l : list op) : list instr :=
  match l with [] => [] | o :: l' => op_code c name dh dw n o ++ ops_code c name dh dw (op_next n o) l' end.
Lemma run_ops_inv l s q dh dw n s' : lat_ok s q dh dw -> has_cnt s q n -> run_ops q l s = (s', Ok tt) ->
  Forall (fun o => op_ok (lat_code (tq_lat q)) dh dw o = true) l /\
  post s s' q dh dw (ops_next n l) (ops_reg (lat_name (tq_lat q)) dh dw n l)
       (ops_code (lat_code (tq_lat q)) (lat_name (tq_lat q)) dh dw n l).
Proof.
  revert s n. induction l as [|o l IH]; intros s n Hok Hc Hr; cbn [ops_next ops_reg ops_code].
  - injection Hr as <-. split; [done|]. pose proof (post_plain s q dh dw n [] Hok Hc) as HP. by rewrite app_instrs_nil in HP.
  - unfold run_ops in Hr. cbn [mfor] in Hr. unfold mbind' in Hr. destruct (run_op q o s) as [s1 [[]|e]] eqn:E; [|done].
    destruct (run_op_inv s q dh dw n o s1 Hok Hc E) as (H1 & _ & HP).
    destruct (IH s1 (op_next n o)) as [H2 HP2]; [apply HP|apply HP|done|].
    split; [by constructor|]. by eapply post_trans.
Qed.
