(** Effect of the instructions emitted by TopologicalCircuit.cx (circ.py:275-310) on the state. *)
From Verif Require Export QTotal P_Quantum.
From stdpp Require Export list.
Open Scope Z_scope.

(** ** A controlled logical operator *)
Lemma prop1_cxgate c name (ro : qubit) k u Q e : off ro Q -> (forall i, ro <> dq name i) -> gate_pauli (xgate c name k) = Some e ->
  prop1 (cxgate c name ro k) (withz ro u Q) = Some (withz ro (xorb u (anti Q e)) Q, false).
Proof.
  intros [Hx Hz] Hro He.
  assert (HCX : prop1 (ICX ro (dq name k)) (withz ro u Q) = Some (withz ro (xorb u (mem (dq name k) (pz Q))) Q, false)).
  { cbn [prop1]. rewrite bool_decide_eq_false_2 by apply Hro. f_equal. f_equal. apply pauli_eq; cbn [px pz cxP withz].
    - rewrite Hx. cbn. by rewrite sd_empty_r.
    - rewrite mem_sd, mem_bitset, (bool_decide_eq_false_2 (dq name k = ro)) by (intros E; by apply (Hro k)).
      by rewrite andb_false_r, xorb_false_r, <-sd_assoc, bitset_xor. }
  assert (HCZ : prop1 (ICZ ro (dq name k)) (withz ro u Q) = Some (withz ro (xorb u (mem (dq name k) (px Q))) Q, false)).
  { cbn [prop1]. cbn [px withz]. rewrite Hx. cbn [andb]. f_equal. f_equal. apply pauli_eq; cbn [px pz czP withz].
    - done.
    - rewrite Hx. change (bitset false (dq name k)) with (∅ : gset qubit). by rewrite sd_empty_r, <-sd_assoc, bitset_xor. }
  unfold cxgate, xgate in *. destruct c; [|case_bool_decide]; cbn in He; injection He as <-.
  - by rewrite HCX, anti_Xon, dot_singleton_r.
  - by rewrite HCX, anti_Xon, dot_singleton_r.
  - by rewrite HCZ, anti_Zon, dot_singleton_r.
Qed.
Lemma prop_cxgates c name (ro : qubit) l u Q E : off ro Q -> (forall i, ro <> dq name i) ->
  gates_pauli (xgate c name <$> l) = Some E ->
  prop (cxgate c name ro <$> l) (withz ro u Q) = Some (withz ro (xorb u (anti Q E)) Q, false).
Proof.
  intros Ho Hro. revert u E. induction l as [|k l IH]; intros u E; rewrite ?fmap_cons; cbn [gates_pauli].
  - intros [= <-]. cbn. by rewrite anti_pid_r, xorb_false_r.
  - destruct (gate_pauli (xgate c name k)) as [e|] eqn:Ee; [|done]. cbn [mbind option_bind].
    destruct (gates_pauli (xgate c name <$> l)) as [E'|]; [|done]. cbn [mbind option_bind]. intros [= <-].
    cbn [prop]. erewrite prop1_cxgate by done. rewrite (IH _ E' eq_refl). by rewrite anti_pmul_r, xorb_assoc.
Qed.
Lemma gates_pauli_bar l E : gates_pauli (l ++ [IBarrier]) = Some E -> gates_pauli l = Some E.
Proof.
  revert E. induction l as [|i l IH]; intros E; cbn.
  - intros [= <-]. f_equal. by rewrite pmul_id_r.
  - destruct (gate_pauli i); [|done]. cbn. destruct (gates_pauli (l ++ [IBarrier])) as [E'|]; [|done]. cbn. intros [= <-].
    by rewrite (IH E' eq_refl).
Qed.
Lemma logx_gates c name dh dw : valid_size dh dw -> gates_pauli (xgate c name <$> col_list dh dw) = Some (pmap (dq name) (log_x c dh dw)).
Proof. intros Hv. apply gates_pauli_bar. by apply logx_pauli. Qed.
Lemma logz_gates c name dh dw : valid_size dh dw -> gates_pauli (zgate c name <$> row_list dw) = Some (pmap (dq name) (log_z c dh dw)).
Proof. intros Hv. apply gates_pauli_bar. by apply logz_pauli. Qed.

(** ** Conditional logical operators: all or nothing *)
Section cond.
Context {R : Amp}.
Lemma cval_bit (c : cstate) (x : string) : cval c (x, 1) = Z.b2z (c (x, 0)).
Proof. unfold cval. change (seqZ 0 (x, 1).2) with [0]. cbn [foldr fst]. destruct (c (x, 0)); reflexivity. Qed.
Lemma exec_cond (f g : Z -> instr) (x : string) (l : list Z) (k k' : config R) :
  (forall i, (exists q, f i = IXIf q (x, 1) 1 /\ g i = IX q) \/ (exists q, f i = IZIf q (x, 1) 1 /\ g i = IZ q)) ->
  exec (f <$> l) k k' -> k'.1 = k.1 /\ if k.1 (x, 0) then exec (g <$> l) k k' else k' = k.
Proof.
  intros Hfg. revert k. induction l as [|i l IH]; intros k He; rewrite ?fmap_cons in He.
  - inversion He; subst. split; [done|]. destruct (k'.1 (x, 0)); [constructor|done].
  - inversion He as [|? ? ? k1 ? Hst He']; subst. destruct (IH k1 He') as [I1 I2].
    assert (k1.1 = k.1 /\ if k.1 (x, 0) then step (g i) k k1 else k1 = k) as [H1 H2].
    { destruct (Hfg i) as [(q & E & Eg)|(q & E & Eg)]; rewrite E in Hst; rewrite Eg; inversion Hst as [| | | | | | | | | |? ? ? c ψ Hc|? ? ? c ψ Hc|? ? ? c ψ Hc|? ? ? c ψ Hc]; subst; cbn;
        rewrite cval_bit in Hc; (split; [done|]); destruct (c (x, 0)); try done; by constructor. }
    rewrite <-H1 in *. split; [congruence|]. destruct (k1.1 (x, 0)) eqn:Ek; rewrite H1 in *.
    + rewrite fmap_cons. econstructor; [exact H2|exact I2].
    + congruence.
Qed.
Lemma exec_bar (is : list instr) (k k' : config R) : exec (is ++ [IBarrier]) k k' -> exec is k k'.
Proof.
  intros (k1 & H1 & H2)%exec_app. inversion H2 as [|? ? ? k2 ? Hst H3]; subst. inversion H3; subst. by inversion Hst; subst.
Qed.
Lemma xif_spec c name dh dw (x : string) (k k' : config R) Q t : valid_size dh dw ->
  exec ((xifgate c name (x, 1) 1 <$> col_list dh dw) ++ [IBarrier]) k k' ->
  stab k.2 Q t -> k'.1 = k.1 /\ stab k'.2 Q (xorb t (k.1 (x, 0) && anti Q (pmap (dq name) (log_x c dh dw)))).
Proof.
  intros Hv He%exec_bar Hs.
  apply (exec_cond _ (xgate c name) x) in He as [H1 H2].
  - split; [done|]. destruct (k.1 (x, 0)); cbn.
    + eapply prop_sound; [|exact H2|exact Hs]. by apply gates_prop, logx_gates.
    + subst. by rewrite xorb_false_r.
  - intros i. unfold xifgate, xgate. destruct c; [left; eauto|]. case_bool_decide; [left|right]; eauto.
Qed.
Lemma zif_spec c name dh dw (x : string) (k k' : config R) Q t : valid_size dh dw ->
  exec ((zifgate c name (x, 1) 1 <$> row_list dw) ++ [IBarrier]) k k' ->
  stab k.2 Q t -> k'.1 = k.1 /\ stab k'.2 Q (xorb t (k.1 (x, 0) && anti Q (pmap (dq name) (log_z c dh dw)))).
Proof.
  intros Hv He%exec_bar Hs.
  apply (exec_cond _ (zgate c name) x) in He as [H1 H2].
  - split; [done|]. destruct (k.1 (x, 0)); cbn.
    + eapply prop_sound; [|exact H2|exact Hs]. by apply gates_prop, (logz_gates c name dh dw).
    + subst. by rewrite xorb_false_r.
  - intros i. unfold zifgate, zgate. destruct c; [right; eauto|]. case_bool_decide; [left|right]; eauto.
Qed.
End cond.

(** Operators that share no qubit commute. *)
Lemma dot_off (P Q : pauli qubit) : (forall q, off q P \/ off q Q) -> dot (px P) (pz Q) = false.
Proof.
  intros H. apply dot_disj. intros q H1 H2. apply mem_true in H1. apply mem_true in H2.
  destruct (H q) as [[E1 E2]|[E1 E2]]; congruence.
Qed.
Lemma anti_disjoint (P Q : pauli qubit) : (forall q, off q P \/ off q Q) -> anti P Q = false.
Proof.
  intros H. unfold anti. rewrite (dot_off P Q) by done.
  rewrite (dot_comm (pz P)), (dot_off Q P); [done|]. intros q. destruct (H q); tauto.
Qed.

(** ** The whole circuit *)
Record side := Side { sd_c : code; sd_n : string; sd_h : Z; sd_w : Z }.
Definition sLZ (a : side) : pauli qubit := pmap (dq (sd_n a)) (log_z (sd_c a) (sd_h a) (sd_w a)).
Definition sLX (a : side) : pauli qubit := pmap (dq (sd_n a)) (log_x (sd_c a) (sd_h a) (sd_w a)).
Definition ro : qubit := ("cnot_readout"%string, 0).
Definition cx_pre (c a : side) : list instr :=
  rs_x (sd_c a) (sd_n a) (num_data (sd_h a) (sd_w a)) ++ [IReset ro] ++
  (into_z (sd_c c) (sd_n c) (sd_w c) ++ [ICX (ancq (sd_n c)) ro]) ++
  (into_z (sd_c a) (sd_n a) (sd_w a) ++ [ICX (ancq (sd_n a)) ro]) ++ [IMeas ro ("m1"%string, 0)].
Definition cx_mid (t a : side) : list instr :=
  [IReset ro; IH ro] ++
  ((cxgate (sd_c t) (sd_n t) ro <$> col_list (sd_h t) (sd_w t)) ++ [IBarrier]) ++
  ((cxgate (sd_c a) (sd_n a) ro <$> col_list (sd_h a) (sd_w a)) ++ [IBarrier]) ++
  [IH ro; IMeas ro ("m2"%string, 0)].
Definition cx_post (c t a : side) : list instr :=
  rd_z (sd_c a) (sd_n a) (sd_w a) ("m3"%string, 1) ++
  ((zifgate (sd_c c) (sd_n c) ("m2"%string, 1) 1 <$> row_list (sd_w c)) ++ [IBarrier]) ++
  ((xifgate (sd_c t) (sd_n t) ("m1"%string, 1) 1 <$> col_list (sd_h t) (sd_w t)) ++ [IBarrier]) ++
  ((xifgate (sd_c t) (sd_n t) ("m3"%string, 1) 1 <$> col_list (sd_h t) (sd_w t)) ++ [IBarrier]).
Definition cx_code (c t a : side) : list instr := cx_pre c a ++ cx_mid t a ++ cx_post c t a.

(** The three lattices have different qubits, and none of them is the extra readout qubit. *)
Definition separate (l : list side) : Prop :=
  (forall a, a ∈ l -> valid_size (sd_h a) (sd_w a) /\ ~ within (sd_n a) ro) /\
  (forall i j a b q, l !! i = Some a -> l !! j = Some b -> i <> j -> within (sd_n a) q -> within (sd_n b) q -> False).


Definition clear_of (name : string) (Q : pauli qubit) : Prop := forall q, within name q -> off q Q.
Lemma clear_pmul (name : string) P Q : clear_of name P -> clear_of name Q -> clear_of name (pmul P Q).
Proof. intros HP HQ q Hq. apply off_pmul; auto. Qed.
Lemma within_dq (name : string) i : within name (dq name i). Proof. by left. Qed.
Lemma within_anc (name : string) : within name (ancq name). Proof. right; right; by right. Qed.
Lemma data_off (name : string) (Q : pauli qubit) q : data_only name Q -> ~ within name q -> off q Q.
Proof. intros HQ Hq. apply HQ. intros i ->. apply Hq, within_dq. Qed.
Lemma data_clear (name name' : string) (Q : pauli qubit) : data_only name Q -> (forall q, within name q -> within name' q -> False) -> clear_of name' Q.
Proof. intros HQ Hs q Hq. eapply data_off; [done|]. intros H. by apply (Hs q). Qed.
Lemma data_disjoint (name name' : string) (P Q : pauli qubit) q : data_only name P -> data_only name' Q ->
  (forall q, within name q -> within name' q -> False) -> off q P \/ off q Q.
Proof.
  intros HP HQ Hs. destruct (decide (within name q)) as [H|H].
  - right. eapply data_off; [done|]. intros H'. by apply (Hs q).
  - left. by eapply data_off.
Qed.
Lemma clear_disjoint (name : string) (P Q : pauli qubit) q : data_only name P -> clear_of name Q -> off q P \/ off q Q.
Proof.
  intros HP HQ. destruct (decide (within name q)) as [H|H]; [right; by apply HQ|left; by eapply data_off].
Qed.
Lemma do_LZ s : data_only (sd_n s) (sLZ s). Proof. apply data_only_pmap. Qed.
Lemma do_LX s : data_only (sd_n s) (sLX s). Proof. apply data_only_pmap. Qed.
Lemma sLZ_xz s : dot (px (sLZ s)) (pz (sLZ s)) = false.
Proof.
  unfold sLZ, pmap. cbn [px pz]. rewrite dot_img by apply _. unfold log_z. destruct (sd_c s); [apply dot_empty_l|].
  apply dot_disj. intros q H1 H2. apply mem_true in H1. apply mem_true in H2. rewrite mem_hconj_x in H1. rewrite mem_hconj_z in H2.
  destruct (mem q (even_set _ _)); cbn [px pz Zon] in *; by rewrite mem_empty in *.
Qed.
Lemma do_anc (name : string) (Q : pauli qubit) : data_only name Q -> off (ancq name) Q.
Proof. intros HQ. apply HQ. intros i. apply ancq_dq. Qed.

Section block.
Context {R : Amp} (s : side) (Hv : valid_size (sd_h s) (sd_w s)) (Hro : ~ within (sd_n s) ro).
Local Notation anc := (ancq (sd_n s)).
Local Notation blk := (into_z (sd_c s) (sd_n s) (sd_w s) ++ [ICX anc ro]).
Lemma anc_ro : anc <> ro.
Proof. intros E. apply Hro. rewrite <-E. apply within_anc. Qed.
Lemma gp_row : gpauli (glz (sd_c s) (sd_n s) (row_list (sd_w s))) = sLZ s.
Proof. by apply gpauli_row. Qed.
Lemma into_keep Q : off anc Q -> commute Q (sLZ s) -> prop (into_z (sd_c s) (sd_n s) (sd_w s)) Q = Some (Q, false).
Proof. intros Ho Hc. apply prop_into; [apply anc_notin_row|done|]. by rewrite gp_row. Qed.
Lemma cx_keep (x y : qubit) Q : x <> y -> mem x (px Q) = false -> mem y (pz Q) = false -> prop [ICX x y] Q = Some (Q, false).
Proof.
  intros Hne H1 H2. cbn. rewrite bool_decide_eq_false_2 by done. unfold cxP. rewrite H1, H2. cbn.
  f_equal. f_equal. apply pauli_eq; cbn; apply sd_empty_r.
Qed.
Lemma blk_keep Q : off anc Q -> mem ro (pz Q) = false -> commute Q (sLZ s) -> prop blk Q = Some (Q, false).
Proof.
  intros Ho Hr Hc. change false with (xorb false false). eapply prop_app; [by apply into_keep|].
  apply cx_keep; [apply anc_ro|apply Ho|done].
Qed.
Lemma into_parity (k k' : config R) : exec (into_z (sd_c s) (sd_n s) (sd_w s)) k k' -> stab k'.2 (pmul (Zon {[anc]}) (sLZ s)) false.
Proof.
  intros He. inversion He as [|? ? ? kr ? Hst Hc]; subst.
  assert (Hr : stab kr.2 (Zon {[anc]}) false).
  { eapply (exec_resets [anc] k kr); [|by left]. eapply EStep; [exact Hst|constructor]. }
  rewrite <-gp_row, <-(xorb_false_r false). eapply prop_sound; [|exact Hc|exact Hr].
  apply prop_measured; [apply anc_notin_row|apply row_nodup].
Qed.
Lemma blk_parity (k k' : config R) W v : exec blk k k' -> clear_of (sd_n s) W -> off ro W ->
  stab k.2 (pmul (Zon {[ro]}) W) v ->
  stab k'.2 (pmul (Zon {[anc]}) (sLZ s)) false /\ stab k'.2 (pmul (Zon {[ro]}) (pmul (sLZ s) W)) v.
Proof.
  intros He HW HrW Hs. apply exec_app in He as (k1 & He1 & He2).
  pose proof anc_ro as Hne. pose proof (HW anc (within_anc _)) as HaW.
  assert (Hroz : off ro (sLZ s)) by (eapply data_off; [apply do_LZ|done]).
  assert (Haz : off anc (sLZ s)) by apply do_anc, do_LZ.
  assert (H1 : stab k'.2 (pmul (Zon {[anc]}) (sLZ s)) false).
  { rewrite <-(xorb_false_r false). eapply prop_sound; [|exact He2|by eapply into_parity].
    apply cx_keep; [done|..]; cbn [px pz pmul Zon]; rewrite mem_sd.
    - by rewrite mem_empty, (proj1 Haz).
    - rewrite mem_singleton, bool_decide_eq_false_2, (proj2 Hroz) by done. done. }
  split; [done|].
  assert (H2 : stab k1.2 (pmul (Zon {[ro]}) W) v).
  { rewrite <-(xorb_false_r v). eapply prop_sound; [|exact He1|exact Hs]. apply into_keep.
    - apply off_pmul; [|done]. by apply off_Z.
    - unfold commute. rewrite anti_pmul_l, (anti_disjoint W (sLZ s)), (anti_disjoint (Zon {[ro]}) (sLZ s)); [done|..]; intros q.
      + destruct (decide (q = ro)) as [->|]; [by right|left; by apply off_Z].
      + destruct (clear_disjoint _ _ W q (do_LZ s) HW); tauto. }
  assert (H3 : stab k'.2 (pmul (Zon {[anc]}) (pmul (Zon {[ro]}) W)) v).
  { rewrite <-(xorb_false_r v). eapply prop_sound; [|exact He2|exact H2].
    cbn. rewrite bool_decide_eq_false_2 by done. f_equal. f_equal. destruct HaW as [A1 A2], HrW as [B1 B2].
    apply pauli_eq; cbn [px pz pmul Zon cxP].
    - rewrite mem_sd, A1, mem_empty. cbn. by rewrite !sd_empty_l, sd_empty_r.
    - rewrite mem_sd, B2, mem_singleton, bool_decide_eq_true_2 by done. cbn. apply sd_comm. }
  pose proof (stab_mul _ _ _ _ _ H1 H3) as H4.
  cbn [px pz pmul Zon] in H4. rewrite sd_empty_l, !dot_sd_r, !dot_singleton_r in H4.
  rewrite (proj1 Haz), (proj1 Hroz), (dot_off (sLZ s) W) in H4 by (intros q; by eapply clear_disjoint; [apply do_LZ|]).
  rewrite !xorb_false_l, xorb_false_r in H4.
  match type of H4 with stab _ ?P _ => replace P with (pmul (Zon {[ro]}) (pmul (sLZ s) W)) in H4; [exact H4|] end.
  clear. apply pauli_eq; cbn [px pz pmul Zon]; apply mem_ext; intros q; rewrite !mem_sd, ?mem_empty, ?mem_singleton.
  - destruct (mem q (px (sLZ s))), (mem q (px W)); done.
  - destruct (bool_decide (q = anc)), (bool_decide (q = ro)), (mem q (pz (sLZ s))), (mem q (pz W)); done.
Qed.
End block.

Lemma reset_collapse {R : Amp} (q : qubit) (Q : pauli qubit) v (k k' : config R) : step (IReset q) k k' -> off q Q ->
  stab k.2 (pmul (Zon {[q]}) Q) v -> exists v', stab k'.2 Q v'.
Proof.
  intros Hst [Hx Hz] Hs.
  assert (HP : forall m, stab (proj q m k.2) Q (xorb m v)).
  { intros m. assert (HH : mem q (px (pmul (Zon {[q]}) Q)) = false) by (cbn [px pmul Zon]; by rewrite sd_empty_l).
    pose proof (stab_mul _ _ _ _ _ (stab_proj_Z q m k.2) (stab_proj q m _ _ _ HH Hs)) as H.
    cbn [px Zon] in H. by rewrite dot_empty_l, xorb_false_r, pmul_assoc, pmul_self, pmul_id_l in H. }
  inversion Hst; subst; cbn [snd] in *.
  - eexists. apply HP.
  - eexists. apply stab_X, HP.
Qed.

(** Measuring a qubit whose Z is correlated with an operator. *)
Lemma exec_meas1 {R : Amp} (q : qubit) (b : clbit) (k k' : config R) : exec [IMeas q b] k k' -> stab k'.2 (Zon {[q]}) (k'.1 b).
Proof.
  intros He. eapply (exec_meas [(q, b)]); [exact He|apply NoDup_singleton|by left].
Qed.

Section cx.
Context {R : Amp} (c t a : side) (Hsep : separate [c; t; a]).
Lemma vc : valid_size (sd_h c) (sd_w c). Proof. apply (proj1 Hsep). by left. Qed.
Lemma vt : valid_size (sd_h t) (sd_w t). Proof. apply (proj1 Hsep). right. by left. Qed.
Lemma va : valid_size (sd_h a) (sd_w a). Proof. apply (proj1 Hsep). right. right. by left. Qed.
Lemma rc : ~ within (sd_n c) ro. Proof. apply (proj1 Hsep). by left. Qed.
Lemma rt : ~ within (sd_n t) ro. Proof. apply (proj1 Hsep). right. by left. Qed.
Lemma ra : ~ within (sd_n a) ro. Proof. apply (proj1 Hsep). right. right. by left. Qed.
Lemma sep_ct q : within (sd_n c) q -> within (sd_n t) q -> False.
Proof. by apply (proj2 Hsep 0%nat 1%nat). Qed.
Lemma sep_ca q : within (sd_n c) q -> within (sd_n a) q -> False.
Proof. by apply (proj2 Hsep 0%nat 2%nat). Qed.
Lemma sep_ta q : within (sd_n t) q -> within (sd_n a) q -> False.
Proof. by apply (proj2 Hsep 1%nat 2%nat). Qed.

Lemma pre_spec (k0 k1 : config R) : exec (cx_pre c a) k0 k1 ->
  (forall Q v, clear_of (sd_n a) Q -> off (ancq (sd_n c)) Q -> off ro Q -> commute Q (sLZ c) -> stab k0.2 Q v -> stab k1.2 Q v) /\
  stab k1.2 (pmul (sLZ a) (sLZ c)) (k1.1 ("m1"%string, 0)) /\
  stab k1.2 (pmul (Zon {[ancq (sd_n a)]}) (sLZ a)) false.
Proof.
  intros (ka & Ha & (kb & Hb & (kc & Hc & (kd & Hd & He)%exec_app)%exec_app)%exec_app)%exec_app.
  assert (Zra : off ro (sLZ a)) by (eapply data_off; [apply do_LZ|apply ra]).
  assert (Zrc : off ro (sLZ c)) by (eapply data_off; [apply do_LZ|apply rc]).
  assert (Zca : clear_of (sd_n a) (sLZ c)) by (eapply data_clear; [apply do_LZ|apply sep_ca]).
  assert (forall Q, mem ro (px Q) = false -> prop [IMeas ro ("m1"%string, 0)] Q = Some (Q, false)) as Km.
  { intros Q HQ. cbn. by rewrite HQ. }
  split_and!.
  - intros Q v HQa HQc HQr Hcm Hs. rewrite <-(xorb_false_r v).
    eapply prop_sound; [apply Km, HQr|exact He|]. rewrite <-(xorb_false_r v).
    eapply prop_sound; [apply (blk_keep a va ra)|exact Hd|].
    { apply HQa, within_anc. } { apply HQr. }
    { apply anti_disjoint. intros q. destruct (clear_disjoint _ _ Q q (do_LZ a) HQa); tauto. }
    rewrite <-(xorb_false_r v). eapply prop_sound; [apply (blk_keep c vc rc)|exact Hc|]; try done.
    { apply HQr. }
    rewrite <-(xorb_false_r v). eapply prop_sound; [|exact Hb|].
    { cbn [prop prop1]. by rewrite (proj1 HQr), (proj2 HQr). }
    rewrite <-(xorb_false_r v). eapply prop_sound; [|exact Ha|exact Hs]. apply prop_untouched.
    + intros i Hi. by apply (op_touch (sd_c a) (sd_n a) _ _ (Cnt 0 0 0) OResetX i va Hi).
    + intros i q Hi Hq. apply HQa. by apply (op_touch (sd_c a) (sd_n a) _ _ (Cnt 0 0 0) OResetX i va Hi).
  - assert (H0 : stab kb.2 (pmul (Zon {[ro]}) pid) false).
    { rewrite pmul_id_r. eapply (exec_resets [ro]); [exact Hb|by left]. }
    destruct (blk_parity c vc rc _ _ _ _ Hc ltac:(intros ? _; apply off_pid) (off_pid _) H0) as [_ H1].
    rewrite pmul_id_r in H1.
    destruct (blk_parity a va ra _ _ _ _ Hd Zca Zrc H1) as [_ H2].
    assert (H3 : stab k1.2 (pmul (Zon {[ro]}) (pmul (sLZ a) (sLZ c))) false).
    { rewrite <-(xorb_false_r false). eapply prop_sound; [apply Km|exact He|exact H2].
      cbn [px pmul Zon]. rewrite !mem_sd, mem_empty, (proj1 Zra), (proj1 Zrc). done. }
    pose proof (stab_mul _ _ _ _ _ (exec_meas1 _ _ _ _ He) H3) as H4.
    cbn [px Zon] in H4. by rewrite dot_empty_l, !xorb_false_r, pmul_assoc, pmul_self, pmul_id_l in H4.
  - apply exec_app in Hd as (ke & Hd1 & Hd2).
    rewrite <-(xorb_false_r false). eapply prop_sound; [|exact He|].
    { apply Km. cbn [px pmul Zon]. rewrite mem_sd, mem_empty, (proj1 Zra). done. }
    rewrite <-(xorb_false_r false). eapply prop_sound; [|exact Hd2|by eapply (into_parity a va)].
    assert (ancq (sd_n a) <> ro) by (intros E; apply ra; rewrite <-E; apply within_anc).
    apply cx_keep; [done|..]; cbn [px pz pmul Zon]; rewrite mem_sd.
    + rewrite mem_empty, (proj1 (do_anc _ _ (do_LZ a))). done.
    + rewrite mem_singleton, bool_decide_eq_false_2, (proj2 Zra) by done. done.
Qed.

Lemma withz_false (q : qubit) (Q : pauli qubit) : withz q false Q = Q.
Proof. unfold withz. cbn. apply pauli_eq; cbn; [done|apply sd_empty_r]. Qed.
Lemma mid_spec (k1 k2 : config R) : exec (cx_mid t a) k1 k2 ->
  (forall Q v, off ro Q -> xorb (anti Q (sLX t)) (anti Q (sLX a)) = false -> stab k1.2 Q v -> stab k2.2 Q v) /\
  (forall b, b <> ("m2"%string, 0) -> k2.1 b = k1.1 b).
Proof.
  intros He. split.
  - intros Q v Hr Hx Hs. rewrite <-(xorb_false_r v). eapply prop_sound; [|exact He|exact Hs].
    unfold cx_mid. change false with (xorb false (xorb (xorb false false) (xorb (xorb false false) false))).
    eapply prop_app; [|eapply prop_app; [|eapply prop_app]].
    + pose proof (prop1_H_withx ro false Q Hr) as HH. rewrite withx_false in HH.
      change [IReset ro; IH ro] with ([IReset ro] ++ [IH ro]). change false with (xorb false false).
      eapply prop_app; [cbn [prop prop1]; by rewrite (proj1 Hr), (proj2 Hr)|]. cbn [prop]. by rewrite HH.
    + eapply prop_app; [|done]. apply prop_cxgates; [done| |apply logx_gates, vt].
      intros i E. apply rt. rewrite E. apply within_dq.
    + eapply prop_app; [|done]. apply prop_cxgates; [done| |apply logx_gates, va].
      intros i E. apply ra. rewrite E. apply within_dq.
    + cbn [prop]. rewrite xorb_false_l. fold (sLX t) (sLX a). rewrite Hx. rewrite prop1_H_withz by done.
      rewrite withx_false. cbn. by rewrite (proj1 Hr).
  - intros b Hb. eapply exec_frame; [exact He|]. unfold cx_mid. intros i Hi.
    rewrite !elem_of_app in Hi. destruct Hi as [Hi|[[Hi|Hi]|[[Hi|Hi]|Hi]]].
    all: try (apply elem_of_list_fmap in Hi as (k & -> & _); unfold cxgate; destruct sd_c; [|case_bool_decide]; by apply not_elem_of_nil).
    + rewrite !elem_of_cons, elem_of_nil in Hi. destruct Hi as [->|[->|[]]]; by apply not_elem_of_nil.
    + apply elem_of_list_singleton in Hi as ->. by apply not_elem_of_nil.
    + apply elem_of_list_singleton in Hi as ->. by apply not_elem_of_nil.
    + rewrite !elem_of_cons, elem_of_nil in Hi. destruct Hi as [->|[->|[]]]; [by apply not_elem_of_nil|]. cbn. set_solver.
Qed.

Lemma post_spec (k2 k3 : config R) : exec (cx_post c t a) k2 k3 -> exists m2 m3,
  let out (Q : pauli qubit) v := xorb (xorb v (m2 && anti Q (sLZ c))) (xorb (k2.1 ("m1"%string, 0)) m3 && anti Q (sLX t)) in
  (forall Q v, clear_of (sd_n a) Q -> stab k2.2 Q v -> stab k3.2 Q (out Q v)) /\
  (forall Q v, clear_of (sd_n a) Q -> stab k2.2 (pmul Q (sLZ a)) v -> stab k3.2 Q (out Q (xorb v m3))) /\
  (forall Q v, clear_of (sd_n a) Q -> stab k2.2 (pmul (Zon {[ancq (sd_n a)]}) Q) v -> exists v', stab k3.2 Q v').
Proof.
  intros (ka & Ha & (kb & Hb & (kc & Hc & Hd)%exec_app)%exec_app)%exec_app.
  assert (stab ka.2 (sLZ a) (ka.1 ("m3"%string, 0)) /\ forall b, b ∉ reg_bits ("m3"%string, 1) -> ka.1 b = k2.1 b) as [HZa Hfr].
  { destruct (rd_spec (sd_n a) (glz (sd_c a) (sd_n a) (row_list (sd_w a))) _ _ _
      (anc_notin_row _ _ _) (row_nodup _ _ _) Ha) as [H1 H2].
    split; [|exact H2]. rewrite (gp_row a va) in H1. apply (H1 0). cbn. lia. }
  exists (ka.1 ("m2"%string, 0)), (ka.1 ("m3"%string, 0)).
  assert (E0 : ka.1 ("m1"%string, 0) = k2.1 ("m1"%string, 0)).
  { apply Hfr. unfold reg_bits. intros (i & E & _)%elem_of_list_fmap. done. }
  assert (Hrest : forall Q v, stab ka.2 Q v ->
    stab k3.2 Q (xorb (xorb v (ka.1 ("m2"%string, 0) && anti Q (sLZ c))) (xorb (k2.1 ("m1"%string, 0)) (ka.1 ("m3"%string, 0)) && anti Q (sLX t)))).
  { intros Q v Hs.
    destruct (zif_spec _ _ _ _ _ _ _ Q _ vc Hb Hs) as [E1 S1].
    destruct (xif_spec _ _ _ _ _ _ _ Q _ vt Hc S1) as [E2 S2].
    destruct (xif_spec _ _ _ _ _ _ _ Q _ vt Hd S2) as [E3 S3].
    rewrite E2, E1, E0 in S3. fold (sLZ c) (sLX t) in S3.
    match type of S3 with stab _ _ ?x => match goal with |- stab _ _ ?y => replace y with x; [exact S3|] end end.
    destruct v, (anti Q (sLZ c)), (anti Q (sLX t)), (k2.1 ("m1"%string, 0)), (ka.1 ("m2"%string, 0)), (ka.1 ("m3"%string, 0)); reflexivity. }
  assert (Hcm : forall Q, clear_of (sd_n a) Q -> anti Q (sLZ a) = false).
  { intros Q HQ. apply anti_disjoint. intros q. destruct (clear_disjoint _ _ Q q (do_LZ a) HQ); tauto. }
  assert (Hkeep : forall Q v, off (ancq (sd_n a)) Q -> commute Q (sLZ a) -> stab k2.2 Q v -> stab ka.2 Q v).
  { intros Q v Ho Hc' Hs. rewrite <-(xorb_false_r v). eapply prop_sound; [|exact Ha|exact Hs].
    apply (prop_rd (sd_n a)); [apply anc_notin_row|done|]. by rewrite (gp_row a va). }
  cbn zeta. split_and!.
  - intros Q v HQ Hs. apply Hrest. apply Hkeep; [apply HQ, within_anc|by apply Hcm|done].
  - intros Q v HQ Hs. apply Hrest.
    assert (H1 : stab ka.2 (pmul Q (sLZ a)) v).
    { apply Hkeep; [apply off_pmul; [apply HQ, within_anc|apply do_anc, do_LZ]| |done].
      unfold commute. by rewrite anti_pmul_l, (Hcm Q HQ), anti_self. }
    pose proof (stab_mul _ _ _ _ _ HZa H1) as H2.
    rewrite (pmul_comm Q), pmul_assoc, pmul_self, pmul_id_l in H2. cbn [pz pmul] in H2.
    rewrite dot_sd_r, sLZ_xz, (dot_off (sLZ a) Q), !xorb_false_r in H2 by (intros q; by eapply clear_disjoint; [apply do_LZ|]).
    by rewrite xorb_comm.
  - intros Q v HQ Hs. inversion Ha as [|? ? ? kr ? Hst Hrr]; subst.
    destruct (reset_collapse _ Q v _ _ Hst (HQ _ (within_anc _)) Hs) as [v' Hv'].
    assert (HA : stab ka.2 Q v'); [|eexists; by apply Hrest].
    rewrite <-(xorb_false_r v'). eapply prop_sound; [|exact Hrr|exact Hv'].
    change false with (xorb false false). eapply prop_app.
    + apply prop_compile_commute; [apply HQ, within_anc|apply anc_notin_row|]. rewrite (gp_row a va). by apply Hcm.
    + cbn [prop prop1]. by rewrite (proj1 (HQ _ (within_anc _))).
Qed.

(** The logical Z of both lattices goes through the truth table of CNOT, operators of the
    data qubits that commute with Z of the control and X of the target are kept (so are all
    plaquettes), and the control ends in an eigenstate of its logical Z whatever it was. *)
Lemma cx_spec (k0 k1 : config R) : exec (cx_code c t a) k0 k1 ->
  (forall bc bt, stab k0.2 (sLZ c) bc -> stab k0.2 (sLZ t) bt -> stab k1.2 (sLZ c) bc /\ stab k1.2 (sLZ t) (xorb bt bc)) /\
  (forall Q v, clear_of (sd_n a) Q -> off (ancq (sd_n c)) Q -> off ro Q -> commute Q (sLZ c) -> commute Q (sLX t) ->
     stab k0.2 Q v -> stab k1.2 Q v) /\
  exists v, stab k1.2 (sLZ c) v.
Proof.
  intros (ka & Ha & (kb & Hb & Hc)%exec_app)%exec_app.
  destruct (pre_spec _ _ Ha) as (P1 & P2 & P3). destruct (mid_spec _ _ Hb) as (M1 & M2).
  destruct (post_spec _ _ Hc) as (m2 & m3 & Q1 & Q2 & Q3). rewrite (M2 ("m1"%string, 0)) in Q1, Q2 by done.
  assert (Zra : off ro (sLZ a)) by (eapply data_off; [apply do_LZ|apply ra]).
  assert (Zrc : off ro (sLZ c)) by (eapply data_off; [apply do_LZ|apply rc]).
  assert (Zrt : off ro (sLZ t)) by (eapply data_off; [apply do_LZ|apply rt]).
  assert (Zca : clear_of (sd_n a) (sLZ c)) by (eapply data_clear; [apply do_LZ|apply sep_ca]).
  assert (Zta : clear_of (sd_n a) (sLZ t)) by (eapply data_clear; [apply do_LZ|apply sep_ta]).
  assert (Act : anti (sLZ c) (sLX t) = false).
  { apply anti_disjoint. intros q. eapply data_disjoint; [apply do_LZ|apply do_LX|apply sep_ct]. }
  assert (Atc : anti (sLZ t) (sLZ c) = false).
  { apply anti_disjoint. intros q. eapply data_disjoint; [apply do_LZ|apply do_LZ|]. intros q' H1 H2. by eapply sep_ct. }
  assert (Aca : anti (sLZ c) (sLX a) = false).
  { apply anti_disjoint. intros q. eapply data_disjoint; [apply do_LZ|apply do_LX|apply sep_ca]. }
  assert (Ata : anti (sLZ t) (sLX a) = false).
  { apply anti_disjoint. intros q. eapply data_disjoint; [apply do_LZ|apply do_LX|apply sep_ta]. }
  assert (Aat : anti (sLZ a) (sLX t) = false).
  { apply anti_disjoint. intros q. eapply data_disjoint; [apply do_LZ|apply do_LX|]. intros q' H1 H2. by eapply sep_ta. }
  assert (Aself : forall s, valid_size (sd_h s) (sd_w s) -> anti (sLZ s) (sLX s) = true).
  { intros s Hv. unfold sLZ, sLX. rewrite anti_pmap by apply _. rewrite anti_comm. by apply logical_anticommute. }
  split_and!.
  - intros bc bt Hzc Hzt.
    assert (Hc1 : stab ka.2 (sLZ c) bc).
    { apply P1; try done; [apply do_anc, do_LZ|apply anti_self]. }
    assert (Ht1 : stab ka.2 (sLZ t) bt).
    { apply P1; try done. eapply data_off; [apply do_LZ|]. intros H. eapply sep_ct; [|exact H]. apply within_anc. }
    split.
    + pose proof (Q1 (sLZ c) bc Zca) as H. rewrite anti_self, Act, !andb_false_r, !xorb_false_r in H. apply H.
      apply M1; [done|by rewrite Act, Aca|done].
    + pose proof (Q2 (sLZ t) (xorb bt (xorb (ka.1 ("m1"%string, 0)) bc)) Zta) as H.
      rewrite Atc, (Aself t vt), andb_false_r, andb_true_r, xorb_false_r in H.
      match type of H with _ -> stab _ _ ?x => replace (xorb bt bc) with x end.
      2: { destruct bt, bc, m3, (ka.1 ("m1"%string, 0)); reflexivity. }
      apply H. clear H. apply M1.
      * by apply off_pmul.
      * by rewrite !anti_pmul_l, (Aself t vt), (Aself a va), Ata, Aat.
      * pose proof (stab_mul _ _ _ _ _ P2 Hc1) as H1. rewrite <-pmul_assoc, pmul_self, pmul_id_r in H1.
        cbn [px pmul] in H1. rewrite dot_sd_l, sLZ_xz, (dot_off (sLZ a)), !xorb_false_r in H1 by (intros q; by eapply clear_disjoint; [apply do_LZ|]).
        pose proof (stab_mul _ _ _ _ _ Ht1 H1) as H2. rewrite (dot_off (sLZ t)), xorb_false_r in H2; [done|].
        intros q. eapply data_disjoint; [apply do_LZ|apply do_LZ|apply sep_ta].
  - intros Q v HQa HQc HQr Hcm Hcx Hs.
    pose proof (Q1 Q v HQa) as H. unfold commute in Hcm, Hcx. rewrite Hcm, Hcx, !andb_false_r, !xorb_false_r in H. apply H.
    apply M1; [done| |by apply P1]. rewrite Hcx. rewrite (anti_disjoint Q (sLX a)); [done|].
    intros q. destruct (clear_disjoint _ _ Q q (do_LX a) HQa); tauto.
  - assert (Haro : off ro (Zon {[ancq (sd_n a)]})).
    { apply off_Z. intros E. apply ra. rewrite E. apply within_anc. }
    eapply (Q3 (sLZ c)); [done|]. eapply M1.
    + apply off_pmul; [exact Haro|done].
    + rewrite !anti_pmul_l, Act, Aca. rewrite !(anti_disjoint (Zon _)); [done|..].
      * intros q. destruct (decide (q = ancq (sd_n a))) as [->|]; [right; apply do_anc, do_LX|left; by apply off_Z].
      * intros q. destruct (decide (q = ancq (sd_n a))) as [->|]; [right|left; by apply off_Z].
        eapply data_off; [apply do_LX|]. intros H. eapply sep_ta; [exact H|apply within_anc].
    + pose proof (stab_mul _ _ _ _ _ P3 P2) as H1. rewrite <-(pmul_assoc (Zon _)), (pmul_assoc (sLZ a)), pmul_self, pmul_id_l in H1.
      exact H1.
Qed.
End cx.
