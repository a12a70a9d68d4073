(** Histories on the ideal machine (for C56). *)
From Coq Require Import Ring.
From Verif Require Export IdealRound.
From stdpp Require Export list.
Open Scope Z_scope.

Section run.
Context {A : Amp}.
Implicit Types (φ ψ : state A).
Lemma A_ring4 : ring_theory (@a0 A) a1 aadd amul asub aopp eq.
Proof. exact (a_ring A). Qed.
Add Ring Aring4 : A_ring4.

(** The state with a qubit flipped. *)
Definition shifted (s : qubit) (a : bool) ψ : state A := fun b => ψ (b ⊕ bitset a s).
Lemma shifted_false s ψ : peq (shifted s false ψ) ψ.
Proof. intros b. unfold shifted. cbn. by rewrite sd_empty_r. Qed.
Lemma reset_step s a (k0 k1 : config A) : step (IReset s) k0 k1 -> clean s (shifted s a k0.2) ->
  k1.1 = k0.1 /\ ((forall b, k1.2 b = a0) \/ peq k1.2 (shifted s a k0.2)).
Proof.
  intros Hst Hc.
  assert (Hv : forall b, mem s b = negb a -> k0.2 b = a0).
  { intros b Hb. specialize (Hc (b ⊕ bitset a s)). unfold shifted in Hc. rewrite sd_cancel in Hc. apply Hc. apply mem_true.
    rewrite mem_sd, mem_bitset, bool_decide_eq_true_2, Hb by done. by destruct a. }
  assert (Hs : forall b, mem s (b ⊕ {[s]}) = negb (mem s b)).
  { intros b. rewrite mem_sd, mem_singleton, bool_decide_eq_true_2 by done. by destruct (mem s b). }
  inversion Hst; subst; cbn [fst snd] in *; (split; [done|]).
  - destruct a.
    + left. intros b. unfold proj. destruct (mem s b) eqn:E; [done|]. cbn. by apply Hv.
    + right. intros b. unfold proj, shifted. cbn [bitset]. rewrite sd_empty_r. destruct (mem s b) eqn:E; [|done]. cbn. symmetry. by apply Hv.
  - destruct a.
    + right. intros b. unfold gX, proj, shifted. cbn [bitset]. rewrite Hs. destruct (mem s b) eqn:E; [|done]. cbn. symmetry. apply Hv. by rewrite Hs, E.
    + left. intros b. unfold gX, proj. rewrite Hs. destruct (mem s b) eqn:E; [done|]. cbn. apply Hv. by rewrite Hs, E.
Qed.
Lemma reset_step_any s a (k0 : config A) : clean s (shifted s a k0.2) -> exists k1, step (IReset s) k0 k1 /\ k1.1 = k0.1 /\ peq k1.2 (shifted s a k0.2).
Proof.
  intros Hc.
  assert (Hv : forall b, mem s b = negb a -> k0.2 b = a0).
  { intros b Hb. specialize (Hc (b ⊕ bitset a s)). unfold shifted in Hc. rewrite sd_cancel in Hc. apply Hc. apply mem_true.
    rewrite mem_sd, mem_bitset, bool_decide_eq_true_2, Hb by done. by destruct a. }
  assert (Hs : forall b, mem s (b ⊕ {[s]}) = negb (mem s b)).
  { intros b. rewrite mem_sd, mem_singleton, bool_decide_eq_true_2 by done. by destruct (mem s b). }
  destruct k0 as [c0 ψ]. cbn [fst snd] in *. destruct a.
  - eexists. split; [apply SReset1|]. split; [done|]. intros b. cbn [snd]. unfold gX, proj, shifted. cbn [bitset]. rewrite Hs. destruct (mem s b) eqn:E; [|done].
    cbn. symmetry. apply Hv. by rewrite Hs, E.
  - eexists. split; [apply SReset0|]. split; [done|]. intros b. cbn [snd]. unfold proj, shifted. cbn [bitset]. rewrite sd_empty_r. destruct (mem s b) eqn:E; [|done].
    cbn. symmetry. by apply Hv.
Qed.
Lemma pmeas_shift s gs ψ ψ1 m : s ∉ gqubits gs -> clean s ψ ->
  (forall b, s ∉ b -> ψ1 (b ⊕ bitset (negb m) s) = a0 /\ two (ψ1 (b ⊕ bitset m s)) = pow2 (nX gs) (aadd (ψ b) (sgn m (act (gpauli gs) ψ b)))) ->
  clean s (shifted s m ψ1) /\ forall b, pow2 1 (shifted s m ψ1 b) = pow2 (nX gs) (ideal [Project (gpauli gs) m] ψ b).
Proof.
  intros Hs Hc H.
  assert (Hcl : clean s (shifted s m ψ1)).
  { intros b Hb. unfold shifted. destruct (H (b ⊕ {[s]})) as [H0 _].
    - apply mem_false. rewrite mem_sd, mem_singleton, bool_decide_eq_true_2 by done. by apply mem_true in Hb as ->.
    - rewrite <-H0. f_equal. rewrite <-sd_assoc. f_equal. destruct m; cbn [bitset negb]; [by rewrite sd_empty_r|by rewrite sd_nilp]. }
  split; [done|]. intros b. destruct (decide (s ∈ b)) as [Hb|Hb].
  - rewrite (Hcl b Hb), pow2_0. rewrite (ideal_clean _ s); [by rewrite pow2_0| |done|done].
    intros o ->%elem_of_list_singleton. cbn. by apply off_gpauli.
  - by apply (H b Hb).
Qed.
Lemma readout_ideal s gs bit a (k0 k1 : config A) : s ∉ gqubits gs -> NoDup (gqubits gs) -> clean s (shifted s a k0.2) ->
  exec ((IReset s :: compile s gs) ++ [IMeas s bit] ++ [IBarrier]) k0 k1 ->
  (forall b, b <> bit -> k1.1 b = k0.1 b) /\
  ((forall b, k1.2 b = a0) \/
   (clean s (shifted s (k1.1 bit) k1.2) /\
    forall b, pow2 1 (shifted s (k1.1 bit) k1.2 b) = pow2 (nX gs) (ideal [Project (gpauli gs) (k1.1 bit)] (shifted s a k0.2) b))).
Proof.
  intros Hs Hnd Hc He. cbn [app] in He. inversion He as [|? ? ? ka ? Hst He']; subst.
  rewrite (app_assoc (compile s gs) [IMeas s bit] [IBarrier]) in He' || (change [IMeas s bit; IBarrier] with ([IMeas s bit] ++ [IBarrier]) in He'; rewrite app_assoc in He').
  apply exec_app in He' as (kb & He1 & He2).
  assert (kb = k1) as ->. { inversion He2 as [|? ? ? k' ? Hst' He3]; subst. inversion He3; subst. by inversion Hst'; subst. }
  destruct (reset_step s a k0 ka Hst Hc) as [Ec [Hz|Hp]].
  - split.
    + intros b Hb. rewrite <-Ec. eapply exec_frame; [exact He1|]. intros i [Hi| ->%elem_of_list_singleton]%elem_of_app.
      * pose proof (compile_unitary _ _ _ Hi). destruct i; try done; apply not_elem_of_nil.
      * cbn. by intros ->%elem_of_list_singleton.
    + left. by eapply exec_zero.
  - assert (Hca : clean s ka.2) by (intros b Hb; rewrite Hp; by apply Hc).
    destruct ka as [ca ψa]. cbn [fst snd] in *. subst ca.
    destruct (compile_measure s gs _ ψa bit k1 Hs Hnd Hca He1) as (m & E & H).
    assert (Em : k1.1 bit = m) by (rewrite E; unfold cupd; by rewrite bool_decide_eq_true_2).
    split; [intros b Hb; rewrite E; unfold cupd; by rewrite bool_decide_eq_false_2|]. right. rewrite Em.
    destruct (pmeas_shift s gs ψa k1.2 m Hs Hca H) as [H1 H2]. split; [done|]. intros b. rewrite H2. f_equal. by apply ideal_ext.
Qed.
Lemma readout_any s gs bit a m (k0 : config A) : s ∉ gqubits gs -> NoDup (gqubits gs) -> clean s (shifted s a k0.2) ->
  exists k1, exec ((IReset s :: compile s gs) ++ [IMeas s bit] ++ [IBarrier]) k0 k1 /\ k1.1 bit = m /\ clean s (shifted s m k1.2) /\
    forall b, pow2 1 (shifted s m k1.2 b) = pow2 (nX gs) (ideal [Project (gpauli gs) m] (shifted s a k0.2) b).
Proof.
  intros Hs Hnd Hc. destruct (reset_step_any s a k0 Hc) as ([ca ψa] & Hst & Ec & Hp). cbn [fst snd] in *.
  destruct (unitary_runs (compile s gs) (ca, ψa)) as [[cb ψb] He1]; [intros i Hi; by eapply compile_unitary|].
  assert (Hca : clean s ψa) by (intros b Hb; rewrite Hp; by apply Hc).
  assert (He2 : exec (compile s gs ++ [IMeas s bit]) (ca, ψa) (cupd cb bit m, proj s m ψb)).
  { apply exec_app. exists (cb, ψb). split; [done|]. eapply EStep; [constructor|constructor]. }
  exists (cupd cb bit m, proj s m ψb). destruct (compile_measure s gs _ ψa bit _ Hs Hnd Hca He2) as (m' & E & H).
  assert (Em : m' = m).
  { pose proof (f_equal (fun f => f bit) E) as Eb. cbn [fst] in Eb. unfold cupd in Eb. rewrite !(bool_decide_eq_true_2 (bit = bit) eq_refl) in Eb. by rewrite Eb. }
  subst m'. split_and!.
  - cbn [app]. eapply EStep; [exact Hst|]. change [IMeas s bit; IBarrier] with ([IMeas s bit] ++ [IBarrier]). rewrite app_assoc. apply exec_app.
    eexists. split; [exact He2|]. eapply EStep; constructor.
  - cbn. unfold cupd. by rewrite bool_decide_eq_true_2.
  - by apply (pmeas_shift s gs ψa _ m Hs Hca H).
  - intros b. destruct (pmeas_shift s gs ψa _ m Hs Hca H) as [_ H2]. rewrite H2. f_equal. by apply ideal_ext.
Qed.

Context (q : tqubit) (dh dw : Z) (Hv : valid_size dh dw).
Notation c := (lat_code (tq_lat q)).
Notation name := (lat_name (tq_lat q)).
Notation anc := (ancq name).

(** Syndrome qubits are 0, the ancilla has the value [a]. *)
Definition good (a : bool) ψ : Prop := syn_clean name dh dw ψ /\ clean anc (shifted anc a ψ).

(** Powers of two by which circuit and ideal machine differ. *)
Definition evN (e : ev) : nat :=
  match e with Call OStab => length (sorder dh dw) | Call (OReadX _) | Call (OReadZ _) => 1 | _ => 0 end.
Definition evM (e : ev) : nat :=
  match e with
  | Call OStab => nXs c name dh dw (syns dh dw)
  | Call (OReadX _) => nX (glx c name (col_list dh dw)) | Call (OReadZ _) => nX (glz c name (row_list dw))
  | _ => 0 end.
Definition reg1 (n : cnt) (e : ev) : string := match ev_reg name dh dw n e with r :: _ => r_name r | [] => ""%string end.


Lemma sorder_bit : sorder dh dw = bit_syn dh dw <$> seqZ 0 (dh * dw - 1).
Proof.
  pose proof (valid_counts _ _ Hv) as (?&?&?&Hs). unfold num_data in Hs.
  replace (dh * dw - 1) with (num_syn_z dh dw + num_syn_x dh dw) by lia. rewrite seqZ_app by lia. rewrite fmap_app. unfold sorder, syn_order. f_equal.
  - apply list_fmap_ext. intros i x Hx%elem_of_list_lookup_2%elem_of_seqZ. unfold bit_syn. by rewrite bool_decide_eq_true_2 by lia.
  - rewrite Z.add_0_l, (seqZ_shift (num_syn_z dh dw)), <-list_fmap_compose. apply list_fmap_ext. intros i x Hx%elem_of_list_lookup_2%elem_of_seqZ.
    cbn. unfold bit_syn. rewrite bool_decide_eq_false_2 by lia. f_equal. lia.
Qed.
Lemma round_ops_proj bits T : round_ops q dh dw bits (cname name T) = round_proj c name dh dw bits T.
Proof.
  unfold round_ops, round_proj. rewrite sorder_bit, <-list_fmap_compose. apply list_fmap_ext. intros i x _. cbn.
  by rewrite bit_pauli_syn, bit_syn_cbit.
Qed.
Lemma idle is (k0 k1 : config A) : (forall i, i ∈ is -> (exists a, i = IId a) \/ i = IBarrier) -> exec is k0 k1 -> k1 = k0.
Proof.
  revert k0. induction is as [|i is IHl]; intros k0 Hi He; [by inversion He|].
  inversion He as [|? ? ? k ? Hst He']; subst. apply IHl in He' as ->; [|intros; apply Hi; by right].
  destruct (Hi i ltac:(by left)) as [[a ->]| ->]; by inversion Hst.
Qed.
Lemma idle_runs is (k0 : config A) : (forall i, i ∈ is -> (exists a, i = IId a) \/ i = IBarrier) -> exec is k0 k0.
Proof.
  intros Hi. destruct (unitary_runs is k0) as [k1 He].
  - intros i Hii. by destruct (Hi i Hii) as [[a ->]| ->].
  - by rewrite (idle is k0 k1 Hi He) in He.
Qed.
Lemma id_idle i : i ∈ id_instrs name dh dw -> (exists a, i = IId a) \/ i = IBarrier.
Proof.
  unfold id_instrs. intros [Hi|Hi%elem_of_list_singleton]%elem_of_app; [|by right].
  apply elem_of_list_join in Hi as (is & Hi & (h & -> & _)%elem_of_list_fmap). apply elem_of_list_fmap in Hi as (b & -> & _). eauto.
Qed.
Lemma id_data_idle i : i ∈ id_data_instrs name (num_data dh dw) -> (exists a, i = IId a) \/ i = IBarrier.
Proof.
  unfold id_data_instrs. intros [Hi|Hi%elem_of_list_singleton]%elem_of_app; [|by right].
  apply elem_of_list_fmap in Hi as (b & -> & _). eauto.
Qed.
Lemma gate_list (f : Z -> instr) (l : list Z) : (forall k, instr_qubits (f k) = [dq name k]) -> NoDup l ->
  NoDup (mjoin (instr_qubits <$> ((f <$> l) ++ [IBarrier]))).
Proof.
  intros Hf Hl. assert (mjoin (instr_qubits <$> ((f <$> l) ++ [IBarrier])) = dq name <$> l) as ->.
  { rewrite fmap_app, mjoin_app'. cbn. rewrite app_nil_r. clear Hl. induction l as [|k l IHl]; [done|]. rewrite !fmap_cons.
    change (mjoin (instr_qubits (f k) :: (instr_qubits <$> (f <$> l)))) with (instr_qubits (f k) ++ mjoin (instr_qubits <$> (f <$> l))).
    by rewrite Hf, IHl. }
  apply NoDup_fmap_2_strong; [|done]. intros ? ? _ _. apply dq_inj.
Qed.
Lemma xgate_qubits k : instr_qubits (xgate c name k) = [dq name k].
Proof. unfold xgate. destruct c; [done|]. by case_bool_decide. Qed.
Lemma zgate_qubits k : instr_qubits (zgate c name k) = [dq name k].
Proof. unfold zgate. destruct c; [done|]. by case_bool_decide. Qed.
Lemma logx_unitary i : i ∈ logx_instrs c name dh dw -> unitary i = true.
Proof. unfold logx_instrs. intros [(k & -> & _)%elem_of_list_fmap| ->%elem_of_list_singleton]%elem_of_app; [|done]. unfold xgate. destruct c; [done|]. by case_bool_decide. Qed.
Lemma logz_unitary i : i ∈ logz_instrs c name dw -> unitary i = true.
Proof. unfold logz_instrs. intros [(k & -> & _)%elem_of_list_fmap| ->%elem_of_list_singleton]%elem_of_app; [|done]. unfold zgate. destruct c; [done|]. by case_bool_decide. Qed.

Lemma evs_regs1 n e : ideal_ev e = true -> r_name <$> ev_reg name dh dw n e = if records e then [reg1 n e] else [].
Proof. destruct e as [o|]; [|done]. destruct o as [|r|r| | | | | | | |]; cbn; try done; by destruct r. Qed.
Lemma shift_act P a ψ : data_only name P -> peq (shifted anc a (act P ψ)) (act P (shifted anc a ψ)).
Proof.
  intros HP b. unfold shifted. symmetry. apply (ideal_shift [Apply P] anc a ψ). intros o ->%elem_of_list_singleton. cbn. by apply data_only_anc.
Qed.
(** One event whose code is a Pauli operator. *)
Lemma good_act P a (ψ ψ' : state A) : data_only name P -> peq ψ' (act P ψ) -> good a ψ -> good a ψ'.
Proof.
  intros HP Hp [H1 H2]. split.
  - intros k Hk b Hb. rewrite Hp. refine (ideal_clean [Apply P] (synq name k) ψ _ (H1 k Hk) b Hb).
    intros o ->%elem_of_list_singleton. cbn. apply HP. intros i. apply synq_dq.
  - intros b Hb. unfold shifted. rewrite Hp. change (shifted anc a (act P ψ) b = a0). rewrite shift_act by done.
    refine (ideal_clean [Apply P] anc _ _ H2 b Hb). intros o ->%elem_of_list_singleton. cbn. by apply data_only_anc.
Qed.
Lemma act_result P a (ψ ψ' : state A) : data_only name P -> peq ψ' (act P ψ) -> peq (shifted anc a ψ') (ideal [Apply P] (shifted anc a ψ)).
Proof. intros HP Hp b. unfold shifted at 1. rewrite Hp. by apply shift_act. Qed.

(** What one call does. *)
Definition refines (e : ev) (n : cnt) (a : bool) (k0 k1 : config A) : Prop :=
  exists a', (records e = false \/ e = Call OStab -> a' = a) /\ good a' k1.2 /\
    forall b, pow2 (evN e) (shifted anc a' k1.2 b) = pow2 (evM e) (ideal (ev_ops q dh dw k1.1 e (reg1 n e)) (shifted anc a k0.2) b).
Lemma pauli_ev e n P (is : list instr) : ev_code c name dh dw n e = is -> ev_reg name dh dw n e = [] -> evN e = O -> evM e = O -> data_only name P ->
  (forall bits r, ev_ops q dh dw bits e r = [Apply P]) -> (forall i, i ∈ is -> unitary i = true) ->
  (forall k0 k1 : config A, exec is k0 k1 -> peq k1.2 (act P k0.2)) -> forall a k0, good a k0.2 ->
  (forall k1, exec (ev_code c name dh dw n e) k0 k1 -> (forall b, k1.1 b = k0.1 b) /\ refines e n a k0 k1) /\
  exists k1, exec (ev_code c name dh dw n e) k0 k1.
Proof.
  intros -> Hr EN EM HP Ho Hu Hact a k0 Hg. split; [|by apply unitary_runs].
  intros k1 He. split; [by eapply unitary_bits|]. exists a. split; [done|]. split; [by eapply good_act; [exact HP|by apply Hact|]|].
  intros b. rewrite EN, EM, Ho. cbn [pow2]. apply act_result; [done|]. by apply Hact.
Qed.

Lemma ev_refines e n a (k0 k1 : config A) : ideal_ev e = true -> good a k0.2 -> exec (ev_code c name dh dw n e) k0 k1 ->
  (forall b, (records e = true -> b.1 <> reg1 n e) -> k1.1 b = k0.1 b) /\ ((forall b, k1.2 b = a0) \/ refines e n a k0 k1).
Proof.
  intros Hi Hg He. destruct e as [o|isx i].
  - destruct o as [|r|r| | | | | | | |]; try done.
    + cbn [ev_code op_code] in He. destruct Hg as [H1 H2].
      destruct (round_spec _ _ _ _ Hv _ k0 k1 H1 He) as (_ & Hc1 & Hk & Hf). split.
      { intros b Hb. apply Hf. intros k Hk' ->. by apply (Hb eq_refl). }
      destruct (round_ideal c name dh dw Hv _ k0 k1 H1 He) as [Hz|Hp]; [by left|]. right.
      exists a. split; [done|]. cbn [evN evM ev_ops]. unfold reg1. cbn [ev_reg op_reg r_name]. rewrite round_ops_proj.
      assert (Hoff : offs anc (round_proj c name dh dw k1.1 (cT n + 1))) by (apply round_proj_off; [done|]; intros j; apply ancq_dq).
      assert (HE : forall b, pow2 (length (sorder dh dw)) (shifted anc a k1.2 b) = pow2 (nXs c name dh dw (syns dh dw)) (ideal (round_proj c name dh dw k1.1 (cT n + 1)) (shifted anc a k0.2) b)).
      { intros b. unfold shifted at 1. rewrite Hp. f_equal. symmetry. by apply ideal_shift. }
      split; [split; [done|]|done].
      intros b Hb. apply (pow2_zero (length (sorder dh dw))). rewrite HE. rewrite (ideal_clean _ anc); [apply pow2_0|done|done|done].
    + destruct r; [done|]. cbn [ev_code op_code] in He. unfold rd_x, into_x in He. cbn [rd_target eff] in He.
      destruct Hg as [H1 H2].
      pose proof (op_syn_clean c name dh dw Hv n (OReadX None) k0 k1 He H1) as Hs1.
      destruct (readout_ideal anc _ (rdname name (cR n + 1), 0) a k0 k1 (anc_notin_col c name dh dw) (col_nodup c name dh dw Hv) H2 He) as [Hf Hr].
      split; [intros b Hb; apply Hf; intros ->; by apply (Hb eq_refl)|]. destruct Hr as [Hz|[Hc Hr]]; [by left|]. right.
      exists (k1.1 (rdname name (cR n + 1), 0)). split; [by intros [?|?]|]. split; [split; [done|exact Hc]|]. intros b. cbn [evN evM ev_ops]. rewrite Hr. unfold op_x. by rewrite gpauli_col.
    + destruct r; [done|]. cbn [ev_code op_code] in He. unfold rd_z, into_z in He. cbn [rd_target eff] in He.
      destruct Hg as [H1 H2].
      pose proof (op_syn_clean c name dh dw Hv n (OReadZ None) k0 k1 He H1) as Hs1.
      destruct (readout_ideal anc _ (rdname name (cR n + 1), 0) a k0 k1 (anc_notin_row c name dw) (row_nodup c name dw) H2 He) as [Hf Hr].
      split; [intros b Hb; apply Hf; intros ->; by apply (Hb eq_refl)|]. destruct Hr as [Hz|[Hc Hr]]; [by left|]. right.
      exists (k1.1 (rdname name (cR n + 1), 0)). split; [by intros [?|?]|]. split; [split; [done|exact Hc]|]. intros b. cbn [evN evM ev_ops]. rewrite Hr. unfold op_z. by rewrite (gpauli_row _ _ dh).
    + edestruct (pauli_ev (Call OX) n (op_x q dh dw)) as [H _]; [reflexivity|done|done|done|apply data_only_pmap|done| | |exact Hg|].
      * exact logx_unitary.
      * intros ka kb Hab. eapply gates_act; [by apply logx_pauli| |exact Hab]. apply gate_list; [apply xgate_qubits|by apply col_list_NoDup].
      * destruct (H k1 He) as [Hb Hr]. split; [intros b _; apply Hb|by right].
    + edestruct (pauli_ev (Call OZ) n (op_z q dh dw)) as [H _]; [reflexivity|done|done|done|apply data_only_pmap|done| | |exact Hg|].
      * exact logz_unitary.
      * intros ka kb Hab. eapply gates_act; [by apply logz_pauli| |exact Hab]. apply gate_list; [apply zgate_qubits|apply row_list_NoDup].
      * destruct (H k1 He) as [Hb Hr]. split; [intros b _; apply Hb|by right].
    + cbn [ev_code op_code] in He. apply idle in He as ->; [|apply id_idle]. split; [done|]. right. exists a. done.
    + cbn [ev_code op_code] in He. apply idle in He as ->; [|apply id_data_idle]. split; [done|]. right. exists a. done.
  - edestruct (pauli_ev (Fault isx i) n (single isx (dq name i))) as [H _]; [reflexivity|done|done|done| |done| | |exact Hg|].
    + intros s Hs. apply off_single. by apply Hs.
    + intros j ->%elem_of_list_singleton. by destruct isx.
    + intros ka kb Hab. inversion Hab as [|? ? ? k ? Hst He']; subst. inversion He'; subst. eapply gate_act; [|exact Hst]. by destruct isx.
    + destruct (H k1 He) as [Hb Hr]. split; [intros b _; apply Hb|by right].
Qed.
Lemma ev_any e n a (k0 : config A) (m : cstate) : ideal_ev e = true -> good a k0.2 ->
  exists k1, exec (ev_code c name dh dw n e) k0 k1 /\ refines e n a k0 k1 /\
    (forall r i, r ∈ ev_reg name dh dw n e -> 0 <= i < r_size r -> k1.1 (r_name r, i) = m (r_name r, i)).
Proof.
  intros Hi Hg. destruct e as [o|isx i].
  - destruct o as [|r|r| | | | | | | |]; try done.
    + destruct Hg as [H1 H2]. destruct (round_any c name dh dw Hv (cT n + 1) k0 m H1) as (k1 & He & Hm & Hp). exists k1. split; [exact He|].
      destruct (round_spec _ _ _ _ Hv _ k0 k1 H1 He) as (_ & Hc1 & _). split.
      * exists a. split; [done|]. cbn [evN evM ev_ops]. unfold reg1. cbn [ev_reg op_reg r_name]. rewrite round_ops_proj.
        assert (Hoff : offs anc (round_proj c name dh dw k1.1 (cT n + 1))) by (apply round_proj_off; [done|]; intros j; apply ancq_dq).
        assert (HE : forall b, pow2 (length (sorder dh dw)) (shifted anc a k1.2 b) = pow2 (nXs c name dh dw (syns dh dw)) (ideal (round_proj c name dh dw k1.1 (cT n + 1)) (shifted anc a k0.2) b)).
        { intros b. unfold shifted at 1. rewrite Hp. f_equal. symmetry. by apply ideal_shift. }
        split; [split; [done|]|done].
        intros b Hb. apply (pow2_zero (length (sorder dh dw))). rewrite HE. rewrite (ideal_clean _ anc); [apply pow2_0|done|done|done].
      * intros r i ->%elem_of_list_singleton Hr. cbn [r_name r_size] in *.
        pose proof (valid_counts _ _ Hv) as (?&?&?&Hs). unfold num_data in Hs. rewrite <-(bit_syn_cbit name dh dw). apply Hm. apply bit_syn_ok; [done|lia].
    + destruct r; [done|]. destruct Hg as [H1 H2].
      destruct (readout_any anc _ (rdname name (cR n + 1), 0) a (m (rdname name (cR n + 1), 0)) k0 (anc_notin_col c name dh dw) (col_nodup c name dh dw Hv) H2) as (k1 & He & Hm & Hc & Hr).
      exists k1. split; [exact He|]. pose proof (op_syn_clean c name dh dw Hv n (OReadX None) k0 k1 He H1) as Hs1. split.
      * exists (m (rdname name (cR n + 1), 0)). split; [by intros [?|?]|]. split; [split; [done|exact Hc]|]. intros b. cbn [evN evM ev_ops]. rewrite Hr. unfold op_x, reg1. cbn [ev_reg op_reg eff r_name]. rewrite Hm. by rewrite gpauli_col.
      * intros r i ->%elem_of_list_singleton Hr'. cbn [r_name r_size] in *. by replace i with 0 by lia.
    + destruct r; [done|]. destruct Hg as [H1 H2].
      destruct (readout_any anc _ (rdname name (cR n + 1), 0) a (m (rdname name (cR n + 1), 0)) k0 (anc_notin_row c name dw) (row_nodup c name dw) H2) as (k1 & He & Hm & Hc & Hr).
      exists k1. split; [exact He|]. pose proof (op_syn_clean c name dh dw Hv n (OReadZ None) k0 k1 He H1) as Hs1. split.
      * exists (m (rdname name (cR n + 1), 0)). split; [by intros [?|?]|]. split; [split; [done|exact Hc]|]. intros b. cbn [evN evM ev_ops]. rewrite Hr. unfold op_z, reg1. cbn [ev_reg op_reg eff r_name]. rewrite Hm. by rewrite (gpauli_row _ _ dh).
      * intros r i ->%elem_of_list_singleton Hr'. cbn [r_name r_size] in *. by replace i with 0 by lia.
    + edestruct (pauli_ev (Call OX) n (op_x q dh dw)) as [H [k1 He]]; [reflexivity|done|done|done|apply data_only_pmap|done| | |exact Hg|].
      * exact logx_unitary.
      * intros ka kb Hab. eapply gates_act; [by apply logx_pauli| |exact Hab]. apply gate_list; [apply xgate_qubits|by apply col_list_NoDup].
      * exists k1. split; [done|]. split; [by apply H|]. intros r i Hr. by apply elem_of_nil in Hr.
    + edestruct (pauli_ev (Call OZ) n (op_z q dh dw)) as [H [k1 He]]; [reflexivity|done|done|done|apply data_only_pmap|done| | |exact Hg|].
      * exact logz_unitary.
      * intros ka kb Hab. eapply gates_act; [by apply logz_pauli| |exact Hab]. apply gate_list; [apply zgate_qubits|apply row_list_NoDup].
      * exists k1. split; [done|]. split; [by apply H|]. intros r i Hr. by apply elem_of_nil in Hr.
    + exists k0. split; [apply idle_runs, id_idle|]. split; [by exists a|]. intros r i Hr. by apply elem_of_nil in Hr.
    + exists k0. split; [apply idle_runs, id_data_idle|]. split; [by exists a|]. intros r i Hr. by apply elem_of_nil in Hr.
  - edestruct (pauli_ev (Fault isx i) n (single isx (dq name i))) as [H [k1 He]]; [reflexivity|done|done|done| |done| | |exact Hg|].
    + intros s Hs. apply off_single. by apply Hs.
    + intros j ->%elem_of_list_singleton. by destruct isx.
    + intros ka kb Hab. inversion Hab as [|? ? ? k ? Hst He']; subst. inversion He'; subst. eapply gate_act; [|exact Hst]. by destruct isx.
    + exists k1. split; [done|]. split; [by apply H|]. intros r j Hr. by apply elem_of_nil in Hr.
Qed.

(** ** Histories *)
Definition evsN (l : list ev) : nat := sum_list (evN <$> l).
Definition evsM (l : list ev) : nat := sum_list (evM <$> l).
Lemma ev_ops_ext bits bits' e r : (records e = true -> forall i, bits (r, i) = bits' (r, i)) -> ev_ops q dh dw bits e r = ev_ops q dh dw bits' e r.
Proof.
  intros H. destruct e as [o|]; [|done]. destruct o; cbn in *; rewrite ?H by done; try done.
  unfold round_ops. apply list_fmap_ext. intros i x _. by rewrite H.
Qed.
Lemma ideal_ops_ext bits bits' l rs : (forall r i, r ∈ rs -> bits (r, i) = bits' (r, i)) -> ideal_ops q dh dw bits l rs = ideal_ops q dh dw bits' l rs.
Proof.
  revert rs. induction l as [|e l IHl]; intros rs H; [done|]. cbn [ideal_ops]. destruct (records e) eqn:E.
  - destruct rs as [|r rs]; [done|]. rewrite (IHl rs) by (intros r' i Hr'; apply H; by right). f_equal. apply ev_ops_ext. intros _ i. apply H. by left.
  - rewrite (IHl rs H). f_equal. apply ev_ops_ext. congruence.
Qed.
Lemma ideal_ops_cons bits n e l rs : ideal_ev e = true ->
  ideal_ops q dh dw bits (e :: l) ((r_name <$> ev_reg name dh dw n e) ++ rs) = ev_ops q dh dw bits e (reg1 n e) ++ ideal_ops q dh dw bits l rs.
Proof.
  intros Hi. cbn [ideal_ops]. rewrite (evs_regs1 n e Hi). destruct (records e) eqn:E; [done|]. cbn [app]. f_equal.
  unfold ev_ops. destruct e as [o|]; [|done]. by destruct o.
Qed.
Definition refines_all (l : list ev) (rs : list string) (a : bool) (k0 k1 : config A) : Prop :=
  exists a', (Forall (fun e => records e = true -> e = Call OStab) l -> a' = a) /\ good a' k1.2 /\
    forall b, pow2 (evsN l) (shifted anc a' k1.2 b) = pow2 (evsM l) (ideal (ideal_ops q dh dw k1.1 l rs) (shifted anc a k0.2) b).

Lemma reg1_in n e : records e = true -> ideal_ev e = true -> reg1 n e ∈ r_name <$> ev_reg name dh dw n e.
Proof. intros Hr Hi. rewrite (evs_regs1 n e Hi), Hr. by left. Qed.
Lemma evs_refines l s n s1 a (k0 k1 : config A) : lat_ok s q dh dw -> has_cnt s q n -> run_evs q l s = (s1, Ok tt) ->
  Forall (fun e => ideal_ev e = true) l -> good a k0.2 -> exec (evs_code c name dh dw n l) k0 k1 ->
  (forall b, b.1 ∈ names s -> k1.1 b = k0.1 b) /\
  ((forall b, k1.2 b = a0) \/ refines_all l (r_name <$> evs_reg name dh dw n l) a k0 k1).
Proof.
  revert s n a k0. induction l as [|e l IHl]; intros s n a k0 Hok Hc Hr Hl Hg He.
  - cbn [evs_code] in He. inversion He; subst. split; [done|]. right. exists a. done.
  - apply Forall_cons in Hl as [Hi Hl]. unfold run_evs in Hr. cbn [mfor] in Hr. unfold mbind' in Hr.
    destruct (run_ev q e s) as [s' [[]|]] eqn:E; [|done]. destruct (run_ev_inv s q dh dw n e s' Hok Hc E) as (Hf & HP).
    cbn [evs_code] in He. apply exec_app in He as (ka & He1 & He2).
    destruct (ev_refines e n a k0 ka Hi Hg He1) as [Hb1 Hr1].
    assert (Hnames : forall x, x ∈ names s' <-> x ∈ names s \/ x ∈ r_name <$> ev_reg name dh dw n e).
    { intros x. unfold names. rewrite (po_regs _ _ _ _ _ _ _ _ HP), fmap_app, elem_of_app. done. }
    assert (Hold : forall b, b.1 ∈ names s -> ka.1 b = k0.1 b).
    { intros b Hb. apply Hb1. intros Hrec Eb. pose proof (reg1_in n e Hrec Hi) as Hin. rewrite <-Eb in Hin.
      apply elem_of_list_fmap in Hin as (r & Er & Hr'). apply (Hf r Hr'). by rewrite <-Er. }
    destruct Hr1 as [Hz|(a1 & Ha1 & Hg1 & H1)].
    + split.
      * intros b Hb.
        transitivity (ka.1 b); [|by apply Hold].
        assert (Hg0 : good a ka.2) by (split; [intros k Hk b' _; apply Hz|intros b' _; apply Hz]).
        destruct (IHl s' (ev_next n e) a ka (po_ok _ _ _ _ _ _ _ _ HP) (po_cnt _ _ _ _ _ _ _ _ HP) Hr Hl Hg0 He2) as [Hb2 _].
        apply Hb2. apply Hnames. by left.
      * left. by eapply exec_zero.
    + destruct (IHl s' (ev_next n e) a1 ka (po_ok _ _ _ _ _ _ _ _ HP) (po_cnt _ _ _ _ _ _ _ _ HP) Hr Hl Hg1 He2) as [Hb2 Hr2].
      split; [intros b Hb; rewrite Hb2 by (apply Hnames; by left); by apply Hold|].
      destruct Hr2 as [Hz|(a2 & Ha2 & Hg2 & H2)]; [by left|]. right. exists a2. split; [|split; [done|]].
      * intros Hall. apply Forall_cons in Hall as [He' Hall]. rewrite Ha2 by done. apply Ha1. destruct (records e); [right; by apply He'|by left].
      * intros b. cbn [evs_reg]. rewrite fmap_app, ideal_ops_cons by done. rewrite ideal_app.
        change (evsN (e :: l)) with (evN e + evsN l)%nat. change (evsM (e :: l)) with (evM e + evsM l)%nat.
        rewrite pow2_plus, H2, (Nat.add_comm (evM e)), pow2_plus.
        rewrite (ev_ops_ext k1.1 ka.1 e (reg1 n e)) by (intros Hrec i; apply Hb2, Hnames; right; by apply reg1_in).
        assert (Hsw : forall i j (x : A), pow2 i (pow2 j x) = pow2 j (pow2 i x)) by (intros i j x; rewrite <-!pow2_plus; f_equal; lia).
        rewrite Hsw. f_equal. rewrite <-(ideal_pow2 _ (evN e)), <-(ideal_pow2 _ (evM e)). apply ideal_ext. intros b'. apply H1.
Qed.
Lemma evs_any l s n s1 a (k0 : config A) (m : cstate) : lat_ok s q dh dw -> has_cnt s q n -> run_evs q l s = (s1, Ok tt) ->
  Forall (fun e => ideal_ev e = true) l -> good a k0.2 ->
  exists k1, exec (evs_code c name dh dw n l) k0 k1 /\ refines_all l (r_name <$> evs_reg name dh dw n l) a k0 k1 /\
    (forall r i, r ∈ evs_reg name dh dw n l -> 0 <= i < r_size r -> k1.1 (r_name r, i) = m (r_name r, i)).
Proof.
  revert s n a k0. induction l as [|e l IHl]; intros s n a k0 Hok Hc Hr Hl Hg.
  - exists k0. split; [constructor|]. split; [by exists a|]. intros r i Hn. by apply elem_of_nil in Hn.
  - apply Forall_cons in Hl as [Hi Hl]. unfold run_evs in Hr. cbn [mfor] in Hr. unfold mbind' in Hr.
    destruct (run_ev q e s) as [s' [[]|]] eqn:E; [|done]. destruct (run_ev_inv s q dh dw n e s' Hok Hc E) as (Hf & HP).
    destruct (ev_any e n a k0 m Hi Hg) as (ka & He1 & (a1 & Ha1 & Hg1 & H1) & Hm1).
    destruct (IHl s' (ev_next n e) a1 ka (po_ok _ _ _ _ _ _ _ _ HP) (po_cnt _ _ _ _ _ _ _ _ HP) Hr Hl Hg1) as (k1 & He2 & (a2 & Ha2 & Hg2 & H2) & Hm2).
    destruct (evs_refines l s' (ev_next n e) s1 a1 ka k1 (po_ok _ _ _ _ _ _ _ _ HP) (po_cnt _ _ _ _ _ _ _ _ HP) Hr Hl Hg1 He2) as [Hb2 _].
    assert (Hnames : forall x, x ∈ names s' <-> x ∈ names s \/ x ∈ r_name <$> ev_reg name dh dw n e).
    { intros x. unfold names. rewrite (po_regs _ _ _ _ _ _ _ _ HP), fmap_app, elem_of_app. done. }
    exists k1. split; [cbn [evs_code]; apply exec_app; by exists ka|]. split.
    + exists a2. split; [|split; [done|]].
      * intros Hall. apply Forall_cons in Hall as [He' Hall]. rewrite Ha2 by done. apply Ha1. destruct (records e); [right; by apply He'|by left].
      * intros b. cbn [evs_reg]. rewrite fmap_app, ideal_ops_cons by done. rewrite ideal_app.
        change (evsN (e :: l)) with (evN e + evsN l)%nat. change (evsM (e :: l)) with (evM e + evsM l)%nat.
        rewrite pow2_plus, H2, (Nat.add_comm (evM e)), pow2_plus.
        rewrite (ev_ops_ext k1.1 ka.1 e (reg1 n e)) by (intros Hrec i; apply Hb2, Hnames; right; by apply reg1_in).
        assert (Hsw : forall i j (x : A), pow2 i (pow2 j x) = pow2 j (pow2 i x)) by (intros i j x; rewrite <-!pow2_plus; f_equal; lia).
        rewrite Hsw. f_equal. rewrite <-(ideal_pow2 _ (evN e)), <-(ideal_pow2 _ (evM e)). apply ideal_ext. intros b'. apply H1.
    + intros r i [Hr'|Hr']%elem_of_app Hri; [|by apply Hm2].
      rewrite <-(Hm1 r i Hr' Hri). apply Hb2, Hnames. right. apply elem_of_list_fmap. by exists r.
Qed.

(** ** Rounds on an eigenstate *)
Lemma project_eigen P t m φ : stab φ P t -> peq (ideal1 (Project P m) φ) (if Bool.eqb m t then fun b => pow2 1 (φ b) else null_state).
Proof.
  intros Hs b. cbn [ideal1]. rewrite Hs, <-sgn_xor. unfold null_state, two. destruct m, t; cbn; try done; unfold two; ring.
Qed.
Lemma stab_peq P t φ φ' : peq φ φ' -> stab φ P t -> stab φ' P t.
Proof. intros Hp Hs b. rewrite <-(act_peq P φ φ' Hp), <-Hp. apply Hs. Qed.
Lemma stab_pow2 P t k φ : stab φ P t -> stab (fun b => pow2 k (φ b)) P t.
Proof. intros Hs b. rewrite act_pow2, sgn_pow2, Hs. done. Qed.
Lemma projects_eigen l φ : (forall P m, (P, m) ∈ l -> exists t, stab φ P t) ->
  peq (ideal (projects l) φ) null_state \/ peq (ideal (projects l) φ) (fun b => pow2 (length l) (φ b)).
Proof.
  induction l as [|[P m] l IHl]; intros H; [by right|]. destruct (H P m ltac:(by left)) as [t Ht].
  assert (H' : forall P m, (P, m) ∈ l -> exists t, stab φ P t) by (intros P' m' Hin; apply (H P' m'); by right).
  pose proof (project_eigen P t m φ Ht) as Hp. cbn [projects fmap list_fmap ideal fst snd]. fold (projects l).
  destruct (Bool.eqb m t).
  - assert (HE : peq (ideal (projects l) (ideal1 (Project P m) φ)) (fun b => pow2 1 (ideal (projects l) φ b))).
    { intros b. rewrite (ideal_ext _ _ _ Hp). apply ideal_pow2. }
    destruct (IHl H') as [Hz|Hz]; [left|right]; intros b; rewrite HE, Hz; [unfold null_state; apply pow2_0|].
    rewrite <-pow2_plus. done.
  - left. by apply ideal_zero.
Qed.
Definition eigen φ : Prop := forall i, 0 <= i < dh * dw - 1 -> exists t, stab φ (bit_pauli q dh dw i) t.
Lemma stab_act P F t φ : stab φ P t -> stab (act F φ) P (xorb t (anti P F)).
Proof.
  intros Hs b. rewrite act_mul. rewrite sgn_xor. 
  transitivity (sgn (anti P F) (act F (act P φ) b)).
  - rewrite act_mul, <-sgn_xor, (pmul_comm F P). f_equal. unfold anti. rewrite (dot_comm (px F)). by destruct (dot (px P) (pz F)), (dot (pz P) (px F)).
  - rewrite (act_peq F _ _ Hs), act_sgn. apply sgn_comm.
Qed.
Lemma eigen_act F φ : eigen φ -> eigen (act F φ).
Proof. intros H i Hi. destruct (H i Hi) as [t Ht]. eexists. by apply stab_act. Qed.
Lemma eigen_peq φ φ' : peq φ φ' -> eigen φ -> eigen φ'.
Proof. intros Hp H i Hi. destruct (H i Hi) as [t Ht]. exists t. by eapply stab_peq. Qed.
Definition roundsK (l : list ev) : nat := sum_list ((fun e => if records e then length (seqZ 0 (dh * dw - 1)) else 0)%nat <$> l).
Lemma gates_of_cons e l : gates_of q dh dw (e :: l) = (if records e then [] else ev_ops q dh dw (fun _ => false) e ""%string) ++ gates_of q dh dw l.
Proof. done. Qed.
Lemma ideal_eigen bits l rs φ : Forall (fun e => no_read e = true) l -> length rs = length (filter (fun e => records e = true) l) -> eigen φ ->
  peq (ideal (ideal_ops q dh dw bits l rs) φ) null_state \/
  peq (ideal (ideal_ops q dh dw bits l rs) φ) (fun b => pow2 (roundsK l) (ideal (gates_of q dh dw l) φ b)).
Proof.
  revert rs φ. induction l as [|e l IHl]; intros rs φ Hl Hlen He; [by right|].
  apply Forall_cons in Hl as [Hn Hl]. rewrite gates_of_cons. cbn [ideal_ops]. rewrite filter_cons in Hlen.
  destruct (records e) eqn:E.
  - rewrite decide_True in Hlen by done. destruct rs as [|r rs]; [done|]. injection Hlen as Hlen. cbn [app].
    assert (e = Call OStab) as -> by (destruct e as [o|]; [|done]; by destruct o).
    rewrite ideal_app. change (roundsK (Call OStab :: l)) with (length (seqZ 0 (dh * dw - 1)) + roundsK l)%nat.
    cbn [ev_ops]. assert (Er : round_ops q dh dw bits r = projects ((fun i => (bit_pauli q dh dw i, bits (r, i))) <$> seqZ 0 (dh * dw - 1))).
    { unfold round_ops, projects. by rewrite <-list_fmap_compose. }
    destruct (projects_eigen ((fun i => (bit_pauli q dh dw i, bits (r, i))) <$> seqZ 0 (dh * dw - 1)) φ) as [Hz|Hp].
    + intros P m (i & [= -> ->] & Hi%elem_of_seqZ)%elem_of_list_fmap. apply He. lia.
    + left. rewrite Er. by apply ideal_zero.
    + rewrite fmap_length in Hp. rewrite <-Er in Hp.
      assert (HE : peq (ideal (ideal_ops q dh dw bits l rs) (ideal (round_ops q dh dw bits r) φ)) (fun b => pow2 (length (seqZ 0 (dh * dw - 1))) (ideal (ideal_ops q dh dw bits l rs) φ b))).
      { intros b. rewrite (ideal_ext _ _ _ Hp). apply ideal_pow2. }
      destruct (IHl rs φ Hl Hlen He) as [Hz|Hz]; [left|right]; intros b; rewrite HE, Hz; [unfold null_state; apply pow2_0|]. by rewrite pow2_plus.
  - rewrite decide_False in Hlen by done. rewrite !ideal_app.
    assert (Ee : ev_ops q dh dw bits e "" = ev_ops q dh dw (fun _ => false) e "") by (apply ev_ops_ext; congruence).
    rewrite Ee. assert (roundsK (e :: l) = roundsK l) as -> by (change (roundsK (e :: l)) with ((if records e then length (seqZ 0 (dh * dw - 1)) else 0) + roundsK l)%nat; by rewrite E).
    apply IHl; [done|done|]. destruct e as [o|isx i]; [|by apply eigen_act]. destruct o; cbn; try done; by apply eigen_act.
Qed.
End run.
