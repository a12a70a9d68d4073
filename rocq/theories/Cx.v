(** TopologicalCircuit.cx in a register: the calls it makes, the instructions it appends. *)
From Verif Require Export P_Hist QCx.
From stdpp Require Export list.
Open Scope Z_scope.

(** The part of [c_cx] after the three qubits are known (circ.py:275-310). *)
Definition cx_body (control target ancilla : tqubit) : M unit :=
  add_creg 1 "m1" ;;; add_creg 1 "m2" ;;; add_creg 1 "m3" ;;;
  reset_x ancilla ;;;
  add_qreg 1 "cnot_readout" ;;;
  let* qr := get_qreg "cnot_readout" in
  let* readout := mlift (reg_get qr 0) in
  let* m1 := get_creg "m1" in let* m2 := get_creg "m2" in let* m3 := get_creg "m3" in
  let* m1b := mlift (reg_get m1 0) in
  let* m2b := mlift (reg_get m2 0) in
  emit [IReset readout] ;;;
  tq_cx control None (Some readout) ;;;
  tq_cx ancilla None (Some readout) ;;;
  emit [IMeas readout m1b] ;;;
  emit [IReset readout; IH readout] ;;;
  tq_cx target (Some readout) None ;;;
  tq_cx ancilla (Some readout) None ;;;
  emit [IH readout; IMeas readout m2b] ;;;
  readout_z ancilla (Some m3) ;;;
  z_c_if control m2 1 ;;;
  x_c_if target m1 1 ;;;
  x_c_if target m3 1.

(** ** The registers shared by all calls *)
Definition reg_state (d : list (string * rhandle)) (ns : list string) (x : string) : Prop :=
  (dict_get x d = None /\ x ∉ ns) \/ (dict_get x d = Some (x, 1) /\ x ∈ ns).
Definition c_names : list string := ["m1"; "m2"; "m3"]%string.
Definition cx_ok (s : st) : Prop :=
  (forall x, x ∈ c_names -> reg_state (s_tcreg s) (names s) x) /\ reg_state (s_tqreg s) (names s) "cnot_readout".
(** Everything but instructions and these registers is unchanged. *)
Definition circ_frame (s s' : st) : Prop :=
  s_heap s' = s_heap s /\ s_next s' = s_next s /\ s_tname s' = s_tname s /\ s_n s' = s_n s /\ s_tq s' = s_tq s.
Lemma circ_frame_trans s1 s2 s3 : circ_frame s1 s2 -> circ_frame s2 s3 -> circ_frame s1 s3.
Proof. unfold circ_frame. intuition congruence. Qed.
Lemma frame_lat_ok s s' q dh dw : circ_frame s s' -> lat_ok s q dh dw -> lat_ok s' q dh dw.
Proof. intros (E & _). apply lat_ok_heap. by rewrite E. Qed.

Definition missing (s : st) (x : string) : list string := if bool_decide (x ∈ names s) then [] else [x].
Lemma c_names_ne y : y ∈ c_names -> y <> "cnot_readout"%string.
Proof. unfold c_names. rewrite !elem_of_cons, elem_of_nil. intros [->|[->|[->|[]]]]; done. Qed.
Lemma reg_state_other d ns x y : x <> y -> reg_state d ns y -> reg_state d (ns ++ [x]) y.
Proof.
  intros Hne [[E Hn]|[E Hn]]; [left|right]; (split; [done|]); rewrite elem_of_app, elem_of_list_singleton; naive_solver.
Qed.
Lemma reg_state_set d ns x y : reg_state d ns y -> reg_state (dict_set x (x, 1) d) (ns ++ [x]) y.
Proof.
  intros H. destruct (decide (x = y)) as [->|Hne].
  - right. rewrite dict_get_set, bool_decide_eq_true_2 by done. split; [done|]. apply elem_of_app. right. by left.
  - destruct H as [[E Hn]|[E Hn]]; [left|right]; rewrite dict_get_set, bool_decide_eq_false_2 by done; (split; [done|]);
      rewrite elem_of_app, elem_of_list_singleton; naive_solver.
Qed.
Lemma names_app_regs s r : names (app_regs s [r]) = names s ++ [r_name r].
Proof. unfold names, app_regs. cbn. by rewrite fmap_app. Qed.
Lemma add_creg_ok x s : x ∈ c_names -> cx_ok s ->
  exists s', add_creg 1 x s = (s', Ok tt) /\ cx_ok s' /\ circ_frame s s' /\ s_instrs s' = s_instrs s /\
    names s' = names s ++ missing s x /\ dict_get x (s_tcreg s') = Some (x, 1) /\
    (forall y, dict_get y (s_tcreg s) = Some (y, 1) -> dict_get y (s_tcreg s') = Some (y, 1)).
Proof.
  intros Hx [Hc Hq]. unfold add_creg. erewrite mbind_ok by done. unfold missing.
  destruct (Hc x Hx) as [[E Hn]|[E Hn]]; rewrite E.
  - change (bool_decide (1 < 0)) with false. cbv iota. erewrite mbind_ok by done.
    rewrite bool_decide_eq_false_2 by done.
    eexists. split; [apply add_reg_ok; cbn; [lia|done]|]. split_and!; try done.
    + split.
      * intros y Hy. rewrite names_app_regs. cbn. apply reg_state_set. by apply Hc.
      * rewrite names_app_regs. cbn. apply reg_state_other; [by apply c_names_ne|done].
    + by rewrite names_app_regs.
    + cbn. rewrite dict_get_set. by rewrite bool_decide_eq_true_2.
    + intros y Hy. cbn. rewrite dict_get_set. by case_bool_decide; subst.
  - exists s. rewrite bool_decide_eq_true_2 by done. rewrite app_nil_r. unfold circ_frame. split_and!; try done.
Qed.
Lemma add_qreg_ok s : cx_ok s ->
  exists s', add_qreg 1 "cnot_readout" s = (s', Ok tt) /\ cx_ok s' /\ circ_frame s s' /\ s_instrs s' = s_instrs s /\
    names s' = names s ++ missing s "cnot_readout" /\ dict_get "cnot_readout"%string (s_tqreg s') = Some ("cnot_readout"%string, 1) /\
    s_tcreg s' = s_tcreg s.
Proof.
  intros [Hc Hq]. unfold add_qreg. erewrite mbind_ok by done. unfold missing.
  destruct Hq as [[E Hn]|[E Hn]]; rewrite E.
  - change (bool_decide (1 < 0)) with false. cbv iota. erewrite mbind_ok by done.
    rewrite bool_decide_eq_false_2 by done.
    eexists. split; [apply add_reg_ok; cbn; [lia|done]|]. split_and!; try done.
    + split.
      * intros y Hy. rewrite names_app_regs. cbn. apply reg_state_other; [|by apply Hc]. apply not_eq_sym. by apply c_names_ne.
      * rewrite names_app_regs. cbn. apply reg_state_set. by left.
    + by rewrite names_app_regs.
    + cbn. rewrite dict_get_set. by rewrite bool_decide_eq_true_2.
  - exists s. rewrite bool_decide_eq_true_2 by done. rewrite app_nil_r. unfold circ_frame. split_and!; try done. split; [done|by right].
Qed.
Lemma cx_ok_app s is : cx_ok s -> cx_ok (app_instrs s is).
Proof. done. Qed.
Lemma frame_app s is : circ_frame s (app_instrs s is).
Proof. done. Qed.

Definition side_of (q : tqubit) (dh dw : Z) : side := Side (lat_code (tq_lat q)) (lat_name (tq_lat q)) dh dw.
(** What every call leaves behind, successful or not. *)
Record cx_post_ok (s s' : st) : Prop := {
  cp_ok : cx_ok s';
  cp_frame : circ_frame s s';
  cp_names : exists ns, names s' = names s ++ ns /\ (forall x, x ∈ ns -> x ∈ cx_names) /\ NoDup ns /\ (forall x, x ∈ ns -> x ∉ names s) }.
Definition cx_supported (c : tqubit) (cw : Z) (a : tqubit) (ah aw : Z) : bool :=
  can_z (lat_code (tq_lat c)) cw && can_z (lat_code (tq_lat a)) aw && can_rx (lat_code (tq_lat a)) (num_data ah aw).

Lemma missing_spec s x : (forall y, y ∈ missing s x -> y = x) /\ NoDup (missing s x) /\ (forall y, y ∈ missing s x -> y ∉ names s).
Proof.
  unfold missing. case_bool_decide as H; split_and!; try apply NoDup_nil_2; try apply NoDup_singleton;
    intros y Hy; try (by apply elem_of_nil in Hy); by apply elem_of_list_singleton in Hy as ->.
Qed.
Lemma missing_post s s' x : x ∈ cx_names -> cx_ok s' -> circ_frame s s' -> names s' = names s ++ missing s x -> cx_post_ok s s'.
Proof.
  intros Hx H1 H2 H3. destruct (missing_spec s x) as (M1 & M2 & M3). constructor; [done..|]. exists (missing s x).
  split_and!; try done. intros y Hy. by rewrite (M1 y Hy).
Qed.
Lemma cxp_trans s1 s2 s3 : cx_post_ok s1 s2 -> cx_post_ok s2 s3 -> cx_post_ok s1 s3.
Proof.
  intros [A1 A2 (n1 & A3 & A4 & A5 & A6)] [B1 B2 (n2 & B3 & B4 & B5 & B6)]. constructor; [done|by eapply circ_frame_trans|].
  exists (n1 ++ n2). rewrite B3, A3, app_assoc. split_and!; [done|..].
  - intros x [?|?]%elem_of_app; auto.
  - apply NoDup_app. split_and!; try done. intros x H1 H2. apply (B6 x H2). rewrite A3. apply elem_of_app. by right.
  - intros x [H|H]%elem_of_app; [by apply A6|]. intros Hx. apply (B6 x H). rewrite A3. apply elem_of_app. by left.
Qed.
Lemma post_app s is : cx_ok s -> cx_post_ok s (app_instrs s is).
Proof. intros H. constructor; [done..|]. exists []. rewrite app_nil_r. split_and!; try done; try apply NoDup_nil_2. 1,2: intros x Hx; by apply elem_of_nil in Hx. Qed.

Lemma cx_names_in x : x ∈ cx_names <-> x = "m1"%string \/ x = "m2"%string \/ x = "m3"%string \/ x = "cnot_readout"%string.
Proof. unfold cx_names. rewrite !elem_of_cons, elem_of_nil. tauto. Qed.

Lemma reset_x_fail s q dh dw : lat_ok s q dh dw -> can_rx (lat_code (tq_lat q)) (num_data dh dw) = false ->
  exists is, reset_x q s = (app_instrs s is, Err CircuitError).
Proof.
  intros Hok Hs. pose proof (valid_counts _ _ (lo_valid _ _ _ _ Hok)) as (Hnd & _).
  apply can_rx_false in Hs as [Ec Eo]; [|lia]. eexists.
  unfold reset_x. rewrite Ec, (data_bits _ _ _ _ Hok), odds_data by lia. rewrite Eo.
  erewrite mbind_ok by (apply emit1_ok; apply fmap_ne, seqZ_ne; lia). reflexivity.
Qed.
Lemma tq_cx_target_fail s q dh dw t : lat_ok s q dh dw -> can_z (lat_code (tq_lat q)) dw = false ->
  exists is, tq_cx q None (Some t) s = (app_instrs s is, Err ValueError).
Proof. intros Hok Hc. destruct (readout_z_into_fail _ _ _ _ Hok Hc) as [is E]. exists is. unfold tq_cx. by erewrite mbind_err. Qed.

Section body.
Context (c t a : tqubit) (ch cw th tw ah aw : Z).
Lemma cx_body_run s : cx_ok s -> lat_ok s c ch cw -> lat_ok s t th tw -> lat_ok s a ah aw ->
  exists s' r, cx_body c t a s = (s', r) /\ cx_post_ok s s' /\
    if cx_supported c cw a ah aw then r = Ok tt /\ s_instrs s' = s_instrs s ++ cx_code (side_of c ch cw) (side_of t th tw) (side_of a ah aw)
    else r = Err ValueError \/ r = Err CircuitError.
Proof.
  intros H0 Lc Lt La. unfold cx_body.
  destruct (add_creg_ok "m1" s) as (s1 & E1 & C1 & F1 & I1 & N1 & D1 & K1); [by left|done|]. erewrite mbind_ok by exact E1.
  destruct (add_creg_ok "m2" s1) as (s2 & E2 & C2 & F2 & I2 & N2 & D2 & K2); [right; by left|done|]. erewrite mbind_ok by exact E2.
  destruct (add_creg_ok "m3" s2) as (s3 & E3 & C3 & F3 & I3 & N3 & D3 & K3); [right; right; by left|done|]. erewrite mbind_ok by exact E3.
  assert (P3 : cx_post_ok s s3).
  { apply (cxp_trans _ s2); [apply (cxp_trans _ s1)|].
    - eapply (missing_post _ _ "m1"); [apply cx_names_in; tauto|done..].
    - eapply (missing_post _ _ "m2"); [apply cx_names_in; tauto|done..].
    - eapply (missing_post _ _ "m3"); [apply cx_names_in; tauto|done..]. }
  pose proof (cp_frame _ _ P3) as G3.
  apply (frame_lat_ok _ _ _ _ _ G3) in Lc. apply (frame_lat_ok _ _ _ _ _ G3) in Lt. apply (frame_lat_ok _ _ _ _ _ G3) in La.
  assert (I3' : s_instrs s3 = s_instrs s) by congruence.
  assert (M1 : dict_get "m1"%string (s_tcreg s3) = Some ("m1"%string, 1)) by (apply K3, K2, D1).
  assert (M2 : dict_get "m2"%string (s_tcreg s3) = Some ("m2"%string, 1)) by (apply K3, D2).
  clear E1 C1 F1 I1 N1 D1 K1 E2 C2 F2 I2 N2 D2 K2 E3 F3 I3 N3 K3 s1 s2.
  unfold cx_supported.
  destruct (can_rx (lat_code (tq_lat a)) (num_data ah aw)) eqn:Ca.
  2: { rewrite andb_false_r. destruct (reset_x_fail _ _ _ _ La Ca) as [is E]. erewrite mbind_err by exact E.
       eexists _, _. split; [reflexivity|]. split; [|by right]. eapply cxp_trans; [exact P3|]. by apply post_app. }
  erewrite mbind_ok by (by apply (reset_x_ok s3 a ah aw)).
  set (s4 := app_instrs s3 _).
  destruct (add_qreg_ok s4) as (s5 & E5 & C5 & F5 & I5 & N5 & D5 & K5); [done|]. erewrite mbind_ok by exact E5.
  assert (P5 : cx_post_ok s s5).
  { eapply cxp_trans; [exact P3|]. eapply cxp_trans; [by apply (post_app s3)|]. fold s4. eapply (missing_post _ _ "cnot_readout"); [apply cx_names_in; tauto|done..]. }
  assert (G5 : circ_frame s3 s5) by exact F5.
  apply (frame_lat_ok _ _ _ _ _ G5) in Lc. apply (frame_lat_ok _ _ _ _ _ G5) in Lt. apply (frame_lat_ok _ _ _ _ _ G5) in La.
  assert (M1' : dict_get "m1"%string (s_tcreg s5) = Some ("m1"%string, 1)) by (by rewrite K5).
  assert (M2' : dict_get "m2"%string (s_tcreg s5) = Some ("m2"%string, 1)) by (by rewrite K5).
  assert (M3' : dict_get "m3"%string (s_tcreg s5) = Some ("m3"%string, 1)) by (by rewrite K5).
  assert (I5' : s_instrs s5 = s_instrs s ++ rs_x (lat_code (tq_lat a)) (lat_name (tq_lat a)) (num_data ah aw)).
  { rewrite I5. cbn. by rewrite I3'. }
  clear E5 F5 I5 N5 K5 M1 M2 D3 C3 P3 G3 I3' G5. clearbody s4. clear s4 s3.
  erewrite mbind_ok by (unfold get_qreg; erewrite mbind_ok by done; rewrite D5; done).
  erewrite mbind_ok by done.
  erewrite mbind_ok by (unfold get_creg; erewrite mbind_ok by done; rewrite M1'; done).
  erewrite mbind_ok by (unfold get_creg; erewrite mbind_ok by done; rewrite M2'; done).
  erewrite mbind_ok by (unfold get_creg; erewrite mbind_ok by done; rewrite M3'; done).
  erewrite mbind_ok by done. erewrite mbind_ok by done. cbn [fst].
  change ("cnot_readout"%string, 0) with ro.
  erewrite mbind_ok by apply emit_eq.
  destruct (can_z (lat_code (tq_lat c)) cw) eqn:Cc.
  2: { cbn [andb]. destruct (tq_cx_target_fail (app_instrs s5 [IReset ro]) c ch cw ro) as [is E]; [by apply lat_ok_app|done|].
       erewrite mbind_err by exact E. eexists _, _. split; [reflexivity|]. split; [|by left].
       eapply cxp_trans; [exact P5|]. rewrite app_instrs_app. by apply post_app. }
  erewrite mbind_ok by (apply (tq_cx_target_ok _ c ch cw); [by apply lat_ok_app|done]). rewrite app_instrs_app.
  destruct (can_z (lat_code (tq_lat a)) aw) eqn:Ca'.
  2: { cbn [andb]. match goal with |- context [app_instrs s5 ?is0] => destruct (tq_cx_target_fail (app_instrs s5 is0) a ah aw ro) as [is E]; [by apply lat_ok_app|done|] end.
       erewrite mbind_err by exact E. eexists _, _. split; [reflexivity|]. split; [|by left].
       eapply cxp_trans; [exact P5|]. rewrite app_instrs_app. by apply post_app. }
  erewrite mbind_ok by (apply (tq_cx_target_ok _ a ah aw); [by apply lat_ok_app|done]). rewrite app_instrs_app.
  erewrite mbind_ok by apply emit_eq. rewrite app_instrs_app.
  erewrite mbind_ok by apply emit_eq. rewrite app_instrs_app.
  erewrite mbind_ok by (apply (tq_cx_control_ok _ t th tw); by apply lat_ok_app). rewrite app_instrs_app.
  erewrite mbind_ok by (apply (tq_cx_control_ok _ a ah aw); by apply lat_ok_app). rewrite app_instrs_app.
  erewrite mbind_ok by apply emit_eq. rewrite app_instrs_app.
  erewrite mbind_ok by (apply (readout_z_given _ a ah aw); [by apply lat_ok_app|done|done]). rewrite app_instrs_app.
  erewrite mbind_ok by (apply (z_c_if_ok _ c ch cw); by apply lat_ok_app). rewrite app_instrs_app.
  erewrite mbind_ok by (apply (x_c_if_ok _ t th tw); by apply lat_ok_app). rewrite app_instrs_app.
  rewrite (x_c_if_ok _ t th tw) by (by apply lat_ok_app). rewrite app_instrs_app.
  eexists _, _. split; [reflexivity|]. split; [eapply cxp_trans; [exact P5|]; by apply post_app|].
  cbn [andb]. split; [done|]. unfold app_instrs. cbn [set_instrs s_instrs]. rewrite I5'.
  unfold cx_code, cx_pre, cx_mid, cx_post, side_of. cbn [sd_c sd_n sd_h sd_w]. rewrite <-!app_assoc. reflexivity.
Qed.
End body.
