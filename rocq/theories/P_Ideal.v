(** Property C56: what a circuit does to the quantum state held by the data qubits. *)
From Verif Require Import IdealRun FrameCode P_Logical P_EndToEnd.
From stdpp Require Export list.
Open Scope Z_scope.

(** ** The circuit is the ideal machine *)
(** For a history of rounds, logical gates, identities, readouts and Pauli faults, from any
    state of the data qubits (and of anything they are entangled with) in which syndrome qubits
    and ancilla are 0: every possible execution leaves the state that the ideal machine computes
    from the recorded bits, with the ancilla in a basis state; every record is produced by some
    execution; the unnormalised states of all executions carry the same factor, so that relative
    probabilities of records are those of the ideal machine. *)
Theorem C56_ideal (A : Amp) s q dh dw l s1 is regs : lat_ok s q dh dw -> run_evs q l s = (s1, Ok tt) ->
  Forall (fun e => ideal_ev e = true) l -> emitted s s1 is -> s_regs s1 = s_regs s ++ regs ->
  exists N M : nat, forall k0 : config A, syndromes_clean q k0.2 -> clean (anc q) k0.2 ->
    (forall k1, exec is k0 k1 -> possible k1 ->
       exists a, forall b, pow2 N (k1.2 (b ⊕ bitset a (anc q))) = pow2 M (ideal (ideal_ops q dh dw k1.1 l (r_name <$> regs)) k0.2 b)) /\
    (forall m : clbit -> bool, exists k1 a, exec is k0 k1 /\
       (forall r i, r ∈ regs -> 0 <= i < r_size r -> k1.1 (r_name r, i) = m (r_name r, i)) /\
       forall b, pow2 N (k1.2 (b ⊕ bitset a (anc q))) = pow2 M (ideal (ideal_ops q dh dw k1.1 l (r_name <$> regs)) k0.2 b)).
Proof.
  intros Hok Hr Hl Hem Hrs. destruct (lat_ok_cnt _ _ _ _ Hok) as [n Hn]. pose proof (lo_valid _ _ _ _ Hok) as Hv.
  pose proof (run_evs_inv l s q dh dw n s1 Hok Hn Hr) as HP.
  rewrite (po_regs _ _ _ _ _ _ _ _ HP) in Hrs. apply app_inv_head in Hrs as <-.
  unfold emitted in Hem. rewrite (po_code _ _ _ _ _ _ _ _ HP) in Hem. apply app_inv_head in Hem as <-.
  rewrite (anc_ok _ _ _ _ Hok). exists (evsN dh dw l), (evsM q dh dw l). intros k0 Hsc Hac.
  rewrite (syndromes_clean_iff s _ dh dw) in Hsc by done.
  assert (Hg : good q dh dw false k0.2).
  { split; [done|]. intros b Hb. rewrite shifted_false. by apply Hac. }
  split.
  - intros k1 He [b0 Hb0]. destruct (evs_refines q dh dw Hv l s n s1 false k0 k1 Hok Hn Hr Hl Hg He) as [_ [Hz|(a & _ & _ & H)]].
    + exfalso. by apply Hb0.
    + exists a. intros b. etransitivity; [apply H|]. f_equal. apply ideal_ext. apply shifted_false.
  - intros m. destruct (evs_any q dh dw Hv l s n s1 false k0 m Hok Hn Hr Hl Hg) as (k1 & He & (a & _ & _ & H) & Hm).
    exists k1, a. split_and!; [done|done|]. intros b. etransitivity; [apply H|]. f_equal. apply ideal_ext. apply shifted_false.
Qed.
Print Assumptions C56_ideal.

(** The recorded bits determine the operations. *)
Lemma ideal_ops_ext q dh dw l : valid_size dh dw -> forall n bits bits', Forall (fun e => ideal_ev e = true) l ->
  (forall r i, r ∈ evs_reg (lat_name (tq_lat q)) dh dw n l -> 0 <= i < r_size r -> bits (r_name r, i) = bits' (r_name r, i)) ->
  ideal_ops q dh dw bits l (r_name <$> evs_reg (lat_name (tq_lat q)) dh dw n l) =
  ideal_ops q dh dw bits' l (r_name <$> evs_reg (lat_name (tq_lat q)) dh dw n l).
Proof.
  intros Hv. induction l as [|e l IHl]; intros n bits bits' Hl Hb; [done|].
  apply Forall_cons in Hl as [Hi Hl]. cbn [evs_reg] in Hb |- *.
  assert (IHl' := IHl (ev_next n e) bits bits' Hl (fun r i Hr => Hb r i (proj2 (elem_of_app _ _ _) (or_intror Hr)))).
  assert (Hb' := fun r i Hr => Hb r i (proj2 (elem_of_app _ _ _) (or_introl Hr))). clear Hb.
  destruct e as [o|isx i].
  - destruct o as [|[r|]|[r|]| | | | | | | |]; try done; cbn [ideal_ops records ev_ops]; try (f_equal; exact IHl').
    + cbn [ev_reg op_reg app fmap list_fmap]. f_equal; [|exact IHl']. unfold round_ops. apply list_fmap_ext. intros j i Hj.
      apply elem_of_list_lookup_2, elem_of_seqZ in Hj. f_equal. apply (Hb' (Reg _ _ _) i); [left|]. cbn [r_size]. rewrite round_size by done. lia.
    + cbn [ev_reg op_reg app fmap list_fmap]. f_equal; [|exact IHl']. do 2 f_equal. apply (Hb' (Reg _ _ _) 0); [left|]. cbn. lia.
    + cbn [ev_reg op_reg app fmap list_fmap]. f_equal; [|exact IHl']. do 2 f_equal. apply (Hb' (Reg _ _ _) 0); [left|]. cbn. lia.
  - cbn [ideal_ops records ev_ops]. f_equal. exact IHl'.
Qed.

(** ** Which records are possible *)
(** A record can be observed exactly when the ideal machine does not rule it out. *)
Theorem C56_possible (A : Amp) s q dh dw l s1 is regs : lat_ok s q dh dw -> run_evs q l s = (s1, Ok tt) ->
  Forall (fun e => ideal_ev e = true) l -> emitted s s1 is -> s_regs s1 = s_regs s ++ regs ->
  forall (k0 : config A) (m : clbit -> bool), syndromes_clean q k0.2 -> clean (anc q) k0.2 ->
    (exists k1, exec is k0 k1 /\ possible k1 /\ forall r i, r ∈ regs -> 0 <= i < r_size r -> k1.1 (r_name r, i) = m (r_name r, i)) <->
    exists b, ideal (ideal_ops q dh dw m l (r_name <$> regs)) k0.2 b <> a0.
Proof.
  intros Hok Hr Hl Hem Hrs k0 m Hsc Hac.
  destruct (C56_ideal A s q dh dw l s1 is regs Hok Hr Hl Hem Hrs) as (N & M & H). destruct (H k0 Hsc Hac) as [H1 H2].
  destruct (lat_ok_cnt _ _ _ _ Hok) as [n Hn]. pose proof (lo_valid _ _ _ _ Hok) as Hv.
  pose proof (run_evs_inv l s q dh dw n s1 Hok Hn Hr) as HP.
  rewrite (po_regs _ _ _ _ _ _ _ _ HP) in Hrs. apply app_inv_head in Hrs as <-.
  split.
  - intros (k1 & He & Hp & Hm). destruct (H1 k1 He Hp) as [a Ha]. destruct Hp as [b Hb]. exists (b ⊕ bitset a (anc q)). intros Hz. apply Hb.
    apply (pow2_zero N). rewrite <-(ideal_ops_ext q dh dw l Hv n k1.1 m Hl Hm), <-(pow2_0 M) in Hz.
    specialize (Ha (b ⊕ bitset a (anc q))). rewrite Hz, sd_cancel, !pow2_0 in Ha. exact Ha.
  - intros [b Hb]. destruct (H2 m) as (k1 & a & He & Hm & Ha). exists k1. split; [done|]. split; [|done].
    exists (b ⊕ bitset a (anc q)). intros Hz. apply Hb. apply (pow2_zero M).
    rewrite <-(ideal_ops_ext q dh dw l Hv n k1.1 m Hl Hm), <-Ha, Hz. apply pow2_0.
Qed.
Print Assumptions C56_possible.

(** ** Rounds do not disturb the encoded state *)
(** Start from any state in which every stabilizer has a definite value, for instance any
    superposition of logical states, encoded or entangled with other qubits.  Whatever rounds,
    gates and faults follow and whatever the rounds record, the state at the end is the one the
    gates and faults alone make; the factor depends neither on the state nor on the record. *)
Theorem C56_memory (A : Amp) s q dh dw l s1 is : lat_ok s q dh dw -> run_evs q l s = (s1, Ok tt) ->
  Forall (fun e => no_read e = true) l -> emitted s s1 is ->
  exists N M : nat, forall k0 k1 : config A, syndromes_clean q k0.2 -> clean (anc q) k0.2 ->
    (forall i, 0 <= i < dh * dw - 1 -> exists t, stab k0.2 (bit_pauli q dh dw i) t) -> exec is k0 k1 -> possible k1 ->
    forall b, pow2 N (k1.2 b) = pow2 M (ideal (gates_of q dh dw l) k0.2 b).
Proof.
  intros Hok Hr Hl Hem. destruct (lat_ok_cnt _ _ _ _ Hok) as [n Hn]. pose proof (lo_valid _ _ _ _ Hok) as Hv.
  pose proof (run_evs_inv l s q dh dw n s1 Hok Hn Hr) as HP.
  unfold emitted in Hem. rewrite (po_code _ _ _ _ _ _ _ _ HP) in Hem. apply app_inv_head in Hem as <-.
  rewrite (anc_ok _ _ _ _ Hok). exists (evsN dh dw l), (evsM q dh dw l + roundsK dh dw l)%nat. intros k0 k1 Hsc Hac Hei He [b0 Hb0].
  rewrite (syndromes_clean_iff s _ dh dw) in Hsc by done.
  assert (Hg : good q dh dw false k0.2).
  { split; [done|]. intros b Hb. rewrite shifted_false. by apply Hac. }
  assert (Hl' : Forall (fun e => ideal_ev e = true) l).
  { eapply Forall_impl; [exact Hl|]. intros [[]|] E; try done. }
  destruct (evs_refines q dh dw Hv l s n s1 false k0 k1 Hok Hn Hr Hl' Hg He) as [_ [Hz|(a & Ha & _ & H)]].
  { exfalso. by apply Hb0. }
  rewrite Ha in H by (eapply Forall_impl; [exact Hl|]; intros [[]|] E E'; done). clear Ha.
  assert (Hlen : length (r_name <$> evs_reg (lat_name (tq_lat q)) dh dw n l) = length (filter (fun e => records e = true) l)).
  { rewrite fmap_length. clear -Hl. revert n. induction l as [|e l IHl]; intros n; [done|]. apply Forall_cons in Hl as [E Hl].
    cbn [evs_reg]. rewrite app_length, (IHl Hl), filter_cons.
    destruct e as [[]|]; try done. }
  destruct (ideal_eigen q dh dw k1.1 l (r_name <$> evs_reg (lat_name (tq_lat q)) dh dw n l) (shifted ((lat_name (tq_lat q) ++ "_ancilla")%string, 0) false k0.2) Hl Hlen) as [E|E].
  { intros i Hi. destruct (Hei i Hi) as [t Ht]. exists t. intros b. unfold QFacts.act. rewrite !shifted_false. exact (Ht b). }
  - exfalso. apply Hb0. specialize (H b0). rewrite shifted_false in H. apply (pow2_zero _ _ (eq_trans H (eq_trans (f_equal _ (E b0)) (pow2_0 _)))).
  - intros b. specialize (H b). rewrite shifted_false in H. etransitivity; [exact H|]. rewrite pow2_plus. f_equal.
    etransitivity; [apply E|]. f_equal. apply ideal_ext, shifted_false.
Qed.
Print Assumptions C56_memory.

(** A state in which the hypotheses of [C56_memory] hold, with the stabilizer values [t]. *)
Definition encoded {A : Amp} (q : tqubit) (dh dw : Z) (t : Z -> bool) (ψ : state A) : Prop :=
  syndromes_clean q ψ /\ clean (anc q) ψ /\ forall i, 0 <= i < dh * dw - 1 -> stab ψ (bit_pauli q dh dw i) (t i).
Section comb.
Context {A : Amp}.
Lemma A_ring5 : ring_theory (@a0 A) a1 aadd amul asub aopp eq. Proof. exact (a_ring A). Qed.
Add Ring Aring5 : A_ring5.
Definition comb (α β : A) (P : pauli qubit) (ψ : state A) : state A := fun b => aadd (amul α (ψ b)) (amul β (act P ψ b)).
Lemma clean_comb x P (ψ : state A) (α β : A) : off x P -> clean x ψ -> clean x (comb α β P ψ).
Proof.
  intros [Hx _] Hc b Hb. unfold comb, QFacts.act.
  rewrite !Hc; [rewrite sgn_0; ring| |done]. apply mem_true. rewrite mem_sd, Hx. apply mem_true in Hb. by rewrite Hb.
Qed.
Lemma sgn_amul t (α x : A) : sgn t (amul α x) = amul α (sgn t x).
Proof. destruct t; cbn; ring. Qed.
Lemma stab_comb P Q t (ψ : state A) (α β : A) : commute P Q -> stab ψ P t -> stab (comb α β Q ψ) P t.
Proof.
  intros Hc Hs b. specialize (Hs b) as Hs1. pose proof (act_comm P Q ψ b Hc) as Hs2.
  assert (Hs3 : act Q (act P ψ) b = sgn t (act Q ψ b)).
  { rewrite (act_ext Q (act P ψ) (fun b => sgn t (ψ b)) b) by apply Hs. unfold QFacts.act. by destruct t, (dot (pz Q) b); cbn; ring. }
  rewrite Hs3 in Hs2. unfold QFacts.act in Hs1, Hs2 at 1. unfold comb, QFacts.act at 1.
  rewrite sgn_add, !sgn_amul, Hs1, Hs2. by rewrite sgn_add, !sgn_amul.
Qed.
End comb.
(** They hold after a round, and then for all combinations of the encoded state and the one
    with the logical operator applied: both coordinates of an encoded qubit are covered. *)
Theorem C56_encoded (A : Amp) s q dh dw s1 is r (k0 k1 : config A) : lat_ok s q dh dw -> stabilize q s = (s1, Ok tt) ->
  emitted s s1 is -> s_regs s1 = s_regs s ++ [r] -> syndromes_clean q k0.2 -> clean (anc q) k0.2 -> exec is k0 k1 -> possible k1 ->
  encoded q dh dw (fun i => k1.1 (r_name r, i)) k1.2 /\
  forall α β : A, encoded q dh dw (fun i => k1.1 (r_name r, i)) (comb α β (op_x q dh dw) k1.2).
Proof.
  intros Hok Hs Hem Hr Hsc Hac He Hp. pose proof (lo_valid _ _ _ _ Hok) as Hv.
  destruct (lat_ok_cnt _ _ _ _ Hok) as [n Hn].
  destruct (run_op_inv s q dh dw n OStab s1 Hok Hn Hs) as (_ & _ & HP).
  destruct (round_api s q dh dw s1 is r k0 k1 Hok Hs Hem Hr He Hsc) as (Hok1 & H1 & _ & H2 & _).
  assert (Ha : clean (anc q) k1.2).
  { assert (Hr1 : run_evs q [Call OStab] s = (s1, Ok tt)).
    { unfold run_evs. cbn [mfor]. unfold mbind'. cbn [run_ev run_op]. by rewrite Hs. }
    rewrite (syndromes_clean_iff s _ dh dw) in Hsc by done. rewrite (anc_ok _ _ _ _ Hok) in *.
    unfold emitted in Hem. rewrite (po_code _ _ _ _ _ _ _ _ HP) in Hem. apply app_inv_head in Hem as <-.
    destruct (evs_refines q dh dw Hv [Call OStab] s n s1 false k0 k1 Hok Hn Hr1) as [_ [Hz|(a & Haa & [_ Hg] & _)]].
    - by repeat constructor.
    - split; [done|]. intros b Hb. rewrite shifted_false. by apply Hac.
    - cbn [evs_code ev_code]. by rewrite app_nil_r.
    - intros b _. apply Hz.
    - rewrite Haa in Hg by (by repeat constructor). intros b Hb. rewrite <-(shifted_false (ancq (lat_name (tq_lat q))) k1.2 b). by apply Hg. }
  split; [done|]. intros α β. split_and!.
  - rewrite (syndromes_clean_iff s _ dh dw) in H1 |- * by done. intros k Hk. apply clean_comb; [|by apply H1]. apply off_data. intros i. apply synq_dq.
  - apply clean_comb; [|done]. rewrite (anc_ok _ _ _ _ Hok). apply off_data. intros i. apply ancq_dq.
  - intros i Hi. apply stab_comb; [|by apply H2]. rewrite bit_pauli_syn. apply PK_log; [done|]. by apply bit_syn_ok.
Qed.
Print Assumptions C56_encoded.

(** ** Runs meeting the hypotheses *)
(** The 5 x 3 XZZX lattice in |0...0>; a round encodes a logical state ψ.  The state taken on
    is ψ + 2 x(ψ), a superposition of both logical states.  It survives two rounds, with gates
    and a fault between them. *)
Definition mem_hist : list ev := [Call OX; Fault true 7; Call OStab; Call OZ; Call OStab; Fault false 2].
Lemma comb_possible (P : pauli qubit) (ψ : state ZAmp) c : px P ## pz P -> (exists b, ψ b <> a0) -> possible ((c, comb (1 : ZAmp) (2 : ZAmp) P ψ) : config ZAmp).
Proof.
  intros Hd [b Hb]. destruct (ZAmp_dec (comb (1 : ZAmp) (2 : ZAmp) P ψ b)) as [E|E]; [|by exists b]. exists (b ⊕ px P). intros E'. apply Hb.
  assert (H : act P (act P ψ) b = ψ b).
  { rewrite act_mul. replace (dot (px P) (pz P)) with false.
    - unfold QFacts.act. cbn [pmul px pz]. rewrite !sd_nilp, sd_empty_r. unfold dot. by rewrite (intersection_empty_l_L b).
    - unfold dot. apply disjoint_intersection_L in Hd. by rewrite Hd. }
  unfold QFacts.act in H at 1. unfold comb in E, E'. unfold possible. cbn [snd] in *.
  revert E E' H. unfold QFacts.act. rewrite sd_cancel. generalize (ψ b) (ψ (b ⊕ px P)). cbn. intros x y.
  destruct (dot (pz P) b), (dot (pz P) (b ⊕ px P)); cbn; intros; lia.
Qed.
Example C56_ex : exists q s1 is1 r (k1 : config ZAmp) φ s2 is2 (k2 : config ZAmp) N M,
  e2e_q.2 = Ok q /\ stabilize q e2e_q.1 = (s1, Ok tt) /\ emitted e2e_q.1 s1 is1 /\ s_regs s1 = s_regs e2e_q.1 ++ [r] /\
  exec is1 (fun _ => false, zero_state) k1 /\ possible k1 /\ φ = comb (1 : ZAmp) (2 : ZAmp) (op_x q 5 3) k1.2 /\
  encoded q 5 3 (fun i => k1.1 (r_name r, i)) φ /\
  run_evs q mem_hist s1 = (s2, Ok tt) /\ emitted s1 s2 is2 /\ exec is2 (k1.1, φ) k2 /\ possible k2 /\
  (forall b, pow2 N (k2.2 b) = pow2 M (ideal [Apply (op_x q 5 3); Apply (Xon {[("tq_data"%string, 7)]}); Apply (op_z q 5 3); Apply (Zon {[("tq_data"%string, 2)]})] φ b)).
Proof.
  destruct e2e_ok as (q & Hq & Hok & Hc).
  assert (Hrun : run_ok e2e_q (Call OStab :: mem_hist) = true) by (vm_compute; reflexivity).
  destruct (run_ok_inv _ _ _ _ _ Hq Hok Hrun) as (s2 & is & Hr & _).
  unfold run_evs in Hr. cbn [mfor] in Hr. unfold mbind' in Hr. cbn [run_ev run_op] in Hr.
  destruct (stabilize q e2e_q.1) as [s1 [[]|e]] eqn:Hs; [|done]. change (run_evs q mem_hist s1 = (s2, Ok tt)) in Hr.
  assert (Hname : lat_name (tq_lat q) = "tq"%string).
  { assert (E : match e2e_q.2 with Ok q => lat_name (tq_lat q) | _ => ""%string end = "tq"%string) by (vm_compute; reflexivity). by rewrite Hq in E. }
  destruct (lat_ok_cnt _ _ _ _ Hok) as [n Hn].
  destruct (run_op_inv _ q 5 3 n OStab s1 Hok Hn Hs) as (_ & _ & HP). pose proof (po_ok _ _ _ _ _ _ _ _ HP) as Hok1.
  destruct (lat_ok_cnt _ _ _ _ Hok1) as [n1 Hn1]. pose proof (run_evs_inv _ _ _ _ _ _ _ Hok1 Hn1 Hr) as HP2.
  pose proof (po_code _ _ _ _ _ _ _ _ HP) as Hem1. pose proof (po_code _ _ _ _ _ _ _ _ HP2) as Hem2.
  assert (Hr1 : run_evs q [Call OStab] e2e_q.1 = (s1, Ok tt)).
  { unfold run_evs. cbn [mfor]. unfold mbind'. cbn [run_ev run_op]. by rewrite Hs. }
  destruct (evs_possible _ _ _ _ _ _ _ ((fun _ => false), zero_state) Hok Hr1 Hem1 (zero_possible _)) as (k1 & He1 & Hp1).
  pose proof (po_regs _ _ _ _ _ _ _ _ HP) as Hregs. cbn [op_reg] in Hregs.
  destruct (C56_encoded ZAmp _ q 5 3 s1 _ _ (fun _ => false, zero_state) k1 Hok Hs Hem1 Hregs (C10_initially_clean ZAmp q)) as [_ Hen]; [|exact He1|exact Hp1|].
  { clear. intros b Hb. cbn. unfold zero_state. rewrite bool_decide_eq_false_2; [done|]. intros ->. by apply elem_of_empty in Hb. }
  assert (Hp : possible ((k1.1, comb (1 : ZAmp) (2 : ZAmp) (op_x q 5 3) k1.2) : config ZAmp)).
  { apply comb_possible; [|exact Hp1]. unfold op_x. rewrite Hname, Hc. apply (bool_decide_unpack _). vm_compute. exact I. }
  destruct (evs_possible _ _ _ _ _ _ _ _ Hok1 Hr Hem2 Hp) as (k2 & He2 & Hp2).
  destruct (C56_memory ZAmp s1 q 5 3 mem_hist s2 _ Hok1 Hr ltac:(repeat constructor) Hem2) as (N & M & H).
  exists q, s1. eexists _, _. exists k1. eexists. exists s2. eexists. exists k2, N, M. do 2 (split; [eassumption|]). split; [exact Hem1|]. split; [exact Hregs|]. split; [exact He1|]. split; [exact Hp1|]. split; [reflexivity|]. split; [exact (Hen 1 2)|].
  split; [exact Hr|]. split; [exact Hem2|]. split; [exact He2|]. split; [exact Hp2|]. intros b. destruct (Hen 1 2) as (Ha & Hb & Hd).
  rewrite (H (k1.1, comb (1 : ZAmp) (2 : ZAmp) (op_x q 5 3) k1.2) k2 Ha Hb (fun i Hi => ex_intro _ _ (Hd i Hi)) He2 Hp2 b). unfold mem_hist, gates_of.
  cbn [fmap list_fmap mjoin list_join records ev_ops app]. rewrite Hname. reflexivity.
Qed.
