(** Rounds and readouts on the ideal machine (for C56). *)
From Verif Require Export Ideal.
From stdpp Require Export list.
Open Scope Z_scope.

Section round.
Context (c : code) (name : string) (dh dw : Z) (Hv : valid_size dh dw) {A : Amp}.
Implicit Types (φ ψ : state A).
Notation PK k := (pmap (dq name) (stabP c dh dw k)).
Notation sq := (synq name).

Lemma PK_off s k : is_syn dh dw k -> (forall i, s <> dq name i) -> off s (PK k).
Proof. by apply off_P. Qed.
Definition nXs (l : list (bool * Z)) : nat := sum_list ((fun k => nX (gsP c name dh dw k)) <$> l).
Definition sqs (l : list (bool * Z)) : gset qubit := list_to_set (sq <$> l).
Lemma elem_sqs l k : k ∈ l <-> sq k ∈ sqs l.
Proof.
  unfold sqs. rewrite elem_of_list_to_set. rewrite elem_of_list_fmap. split; [by eauto|]. intros (k' & E & ?). by apply synq_inj in E as ->.
Qed.
Lemma ent_k_compile k : is_syn dh dw k -> ent_k c name dh dw k = compile (sq k) (gsP c name dh dw k) ++ [IBarrier].
Proof. intros Hk. unfold ent_k. by rewrite ent_compile. Qed.
Lemma ents_ideal l c0 ψ (k1 : config A) : NoDup l -> (forall k, k ∈ l -> is_syn dh dw k) -> (forall k, k ∈ l -> clean (sq k) ψ) ->
  exec (mjoin (ent_k c name dh dw <$> l)) (c0, ψ) k1 ->
  (forall b, k1.1 b = c0 b) /\
  forall b, pow2 (length l) (k1.2 b) = pow2 (nXs l) (ideal ((fun k => Project (PK k) (mem (sq k) b)) <$> l) ψ (b ∖ sqs l)).
Proof.
  revert c0 ψ. induction l as [|k l IHl]; intros c0 ψ Hnd Hs Hc He.
  - inversion He; subst. split; [done|]. intros b. unfold sqs. cbn. f_equal. set_solver.
  - apply NoDup_cons in Hnd as [Hk Hnd]. rewrite fmap_cons in He.
    change (mjoin (ent_k c name dh dw k :: (ent_k c name dh dw <$> l))) with (ent_k c name dh dw k ++ mjoin (ent_k c name dh dw <$> l)) in He.
    apply exec_app in He as (ka & H1 & H2). pose proof (Hs k ltac:(by left)) as Hsk.
    rewrite ent_k_compile in H1 by done. apply exec_app in H1 as (ka' & H1 & Hb).
    assert (ka' = ka) as ->. { inversion Hb as [|? ? ? k' ? Hst He']; subst. inversion He'; subst. by inversion Hst; subst. }
    assert (Hoffk : sq k ∉ gqubits (gsP c name dh dw k)) by (apply gsP_off; intros i; apply synq_dq).
    pose proof (compile_state (sq k) _ c0 ψ ka Hoffk (gsP_nodup _ _ _ _ _ Hv Hsk) (Hc k ltac:(by left)) H1) as Hst.
    rewrite gsP_pauli in Hst by done.
    assert (Hca : forall k', k' ∈ l -> clean (sq k') ka.2).
    { intros k' Hk'. pose proof (Hs k' ltac:(by right)) as Hsk'. apply clean_stab. rewrite <-(xorb_false_r false).
      eapply prop_sound; [|exact H1|apply clean_stab, Hc; by right]. apply prop_compile_commute; [|done|].
      - apply off_Z. intros E. apply synq_inj in E as ->. done.
      - rewrite gsP_pauli by done. apply anti_Z_off. apply PK_off; [done|]. intros i. apply synq_dq. }
    destruct ka as [ca ψa]. cbn [snd] in *.
    assert (Eca : forall b, ca b = c0 b).
    { intros b. apply (unitary_bits _ _ _ (fun i Hi => compile_unitary _ _ i Hi) H1 b). }
    destruct (IHl ca ψa Hnd (fun k' H => Hs k' (elem_of_list_further _ _ _ H)) Hca H2) as [Hb1 Hb2].
    split; [intros b; by rewrite Hb1|]. intros b. specialize (Hb2 b).
    cbn [length]. replace (S (length l)) with (1 + length l)%nat by lia. rewrite pow2_plus, Hb2. cbn [pow2].
    rewrite <-pow2_two. change (nXs (k :: l)) with (nX (gsP c name dh dw k) + nXs l)%nat. rewrite Nat.add_comm, pow2_plus. f_equal.
    set (L := (fun k0 => Project (PK k0) (mem (sq k0) b)) <$> l) in *. rewrite fmap_cons. cbn [ideal].
    change (two (ideal L ψa (b ∖ sqs l))) with (pow2 1 (ideal L ψa (b ∖ sqs l))).
    rewrite <-(ideal_pow2 L 1 ψa). fold L.
    assert (HL : offs (sq k) L).
    { intros o (k' & -> & Hk')%elem_of_list_fmap. cbn. apply PK_off; [apply Hs; by right|]. intros i. apply synq_dq. }
    assert (Eb : mem (sq k) (b ∖ sqs l) = mem (sq k) b).
    { unfold mem. apply bool_decide_ext. rewrite elem_of_difference. rewrite <-elem_sqs. tauto. }
    rewrite (ideal_local L (sq k) _ (fun b' => pow2 (nX (gsP c name dh dw k)) (ideal1 (Project (PK k) (mem (sq k) b)) ψ (b' ∖ {[sq k]}))) (mem (sq k) b) HL); [|intros b' <-; apply Hst|done].
    rewrite (ideal_pow2 L). f_equal. rewrite ideal_remove by done. f_equal. unfold sqs. cbn. set_solver.
Qed.

Definition sorder : list (bool * Z) := syn_order dh dw.
Lemma sord k : k ∈ sorder <-> is_syn dh dw k.
Proof. apply (syn_order_elem c name). Qed.
Lemma syns_perm : syns dh dw ≡ₚ sorder.
Proof.
  apply NoDup_Permutation; [apply syns_NoDup|apply syn_order_NoDup|]. intros k. rewrite elem_of_syns. symmetry. apply sord.
Qed.
Notation nsyn_all := (length sorder).

(** The state after a round, for any outcome. *)
Definition round_proj (bits : cstate) (T : Z) : list iop := (fun k => Project (PK k) (bits (cbit name dh dw T k))) <$> sorder.
Lemma round_proj_off s bits T : (forall i, s <> dq name i) -> offs s (round_proj bits T).
Proof. intros Hq o (k & -> & Hk%sord)%elem_of_list_fmap. cbn. by apply PK_off. Qed.
Lemma proj_perm bits T φ : peq (ideal ((fun k => Project (PK k) (bits (cbit name dh dw T k))) <$> syns dh dw) φ) (ideal (round_proj bits T) φ).
Proof.
  unfold round_proj. assert (E : forall l, (fun k => Project (PK k) (bits (cbit name dh dw T k))) <$> l = projects ((fun k => (PK k, bits (cbit name dh dw T k))) <$> l)).
  { intros l. unfold projects. rewrite <-list_fmap_compose. done. }
  rewrite !E. apply projects_perm.
  - apply fmap_Permutation. apply syns_perm.
  - intros P Q. rewrite <-list_fmap_compose.
    intros (k & -> & Hk%elem_of_syns)%elem_of_list_fmap (k' & -> & Hk'%elem_of_syns)%elem_of_list_fmap. cbn. by apply P_commute.
Qed.
Lemma round_bits T : NoDup ((fun k => (sq k, cbit name dh dw T k)) <$> sorder).*2.
Proof.
  rewrite <-list_fmap_compose. apply NoDup_fmap_2_strong; [|apply syn_order_NoDup].
  intros x y Hx%sord Hy%sord. by apply (cbit_inj name dh dw).
Qed.
Lemma sorder_qubits : NoDup (sq <$> sorder).
Proof. apply NoDup_fmap_2_strong; [|apply syn_order_NoDup]. intros x y _ _. apply synq_inj. Qed.
(** ψa: after the entangling gates; r: the branches of the resets. *)
Lemma after_ents ψ ψa T bits (r : qubit -> bool) b : syn_clean name dh dw ψ ->
  (forall b, pow2 nsyn_all (ψa b) = pow2 (nXs (syns dh dw)) (ideal ((fun k => Project (PK k) (mem (sq k) b)) <$> syns dh dw) ψ (b ∖ sqs (syns dh dw)))) ->
  (forall k, is_syn dh dw k -> r (sq k) = bits (cbit name dh dw T k)) -> (forall k, is_syn dh dw k -> sq k ∉ b) ->
  pow2 nsyn_all (ψa (b ⊕ rset r (sq <$> sorder))) = pow2 (nXs (syns dh dw)) (ideal (round_proj bits T) ψ b).
Proof.
  intros Hcl Ha Hr Hb. rewrite Ha. f_equal. rewrite <-proj_perm.
  assert (Hm : forall q, mem q (b ⊕ rset r (sq <$> sorder)) = xorb (mem q b) (bool_decide (q ∈ sq <$> sorder) && r q)).
  { intros q. rewrite mem_sd, mem_rset by apply sorder_qubits. done. }
  assert (Hin : forall k, is_syn dh dw k -> sq k ∈ sq <$> sorder) by (intros k Hk; apply elem_of_list_fmap; exists k; split; [done|by apply sord]).
  assert (E : (fun k => Project (PK k) (mem (sq k) (b ⊕ rset r (sq <$> sorder)))) <$> syns dh dw = (fun k => Project (PK k) (bits (cbit name dh dw T k))) <$> syns dh dw).
  { apply list_fmap_ext. intros i k Hk%elem_of_list_lookup_2%elem_of_syns. f_equal. rewrite Hm.
    rewrite (bool_decide_eq_true_2 (sq k ∈ _)) by (by apply Hin). rewrite (proj2 (mem_false _ _) (Hb k Hk)), andb_true_l, xorb_false_l. by apply Hr. }
  rewrite E. f_equal. apply mem_ext. intros q.
  assert (Hd : forall X Y : gset qubit, mem q (X ∖ Y) = mem q X && negb (mem q Y)).
  { intros X Y. unfold mem. destruct (decide (q ∈ X)), (decide (q ∈ Y)); rewrite ?(bool_decide_eq_true_2 (q ∈ X)), ?(bool_decide_eq_false_2 (q ∈ X)),
      ?(bool_decide_eq_true_2 (q ∈ Y)), ?(bool_decide_eq_false_2 (q ∈ Y)) by done; cbn; first [apply bool_decide_eq_true_2|apply bool_decide_eq_false_2]; set_solver. }
  rewrite Hd, Hm. destruct (mem q (sqs (syns dh dw))) eqn:Eq.
  - cbn. rewrite andb_false_r. apply mem_true in Eq. unfold sqs in Eq. apply elem_of_list_to_set, elem_of_list_fmap in Eq as (k & -> & Hk%elem_of_syns).
    symmetry. by apply mem_false, Hb.
  - cbn. rewrite andb_true_r. rewrite (bool_decide_eq_false_2 (q ∈ _)); [by rewrite xorb_false_r|].
    intros (k & -> & Hk%sord)%elem_of_list_fmap. apply mem_false in Eq. apply Eq. apply elem_sqs. by apply elem_of_syns.
Qed.
Definition syns_len : length (syns dh dw) = nsyn_all.
Proof. apply Permutation_length, syns_perm. Qed.
Lemma round_ideal T (k0 k1 : config A) : syn_clean name dh dw k0.2 -> exec (round_instrs c name dh dw T) k0 k1 ->
  (forall b, k1.2 b = a0) \/
  (forall b, pow2 nsyn_all (k1.2 b) = pow2 (nXs (syns dh dw)) (ideal (round_proj k1.1 T) k0.2 b)).
Proof.
  intros Hcl Hex. unfold round_instrs in Hex.
  apply exec_app in Hex as (ka & He1 & Hex). apply exec_app in Hex as (kb & He2 & Hex).
  apply exec_app in Hex as (kc & He3 & He4).
  assert (kc = k1) as ->.
  { inversion He4 as [|? ? ? k' ? Hst He]; subst. inversion He; subst. by inversion Hst; subst. }
  rewrite lat_stabs_syns, ent_instrs_eq in He1. rewrite meas_instrs_eq in He2. rewrite reset_instrs_eq in He3. destruct k0 as [c0 ψ]. cbn [snd] in Hcl |- *.
  destruct (ents_ideal _ c0 ψ ka (syns_NoDup dh dw) (fun k => proj1 (elem_of_syns dh dw k)) (fun k H => Hcl k (proj1 (elem_of_syns dh dw k) H)) He1) as [_ Ha].
  rewrite syns_len in Ha.
  destruct (measured _ _ _ He2 (round_bits T)) as [_ Hb]. destruct (reset_all _ _ _ He3 sorder_qubits) as (Ec & r & Hr).
  assert (Hmeas : forall q k, (q, k) ∈ (fun k => (sq k, cbit name dh dw T k)) <$> sorder -> exists sk, is_syn dh dw sk /\ q = sq sk /\ k = cbit name dh dw T sk).
  { intros q k (sk & [= -> ->] & Hk%sord)%elem_of_list_fmap. by exists sk. }
  assert (Hmeas' : forall sk, is_syn dh dw sk -> (sq sk, cbit name dh dw T sk) ∈ (fun k => (sq k, cbit name dh dw T k)) <$> sorder).
  { intros sk Hk. apply elem_of_list_fmap. exists sk. split; [done|]. by apply sord. }
  assert (Hin : forall k, is_syn dh dw k -> sq k ∈ sq <$> sorder) by (intros k Hk; apply elem_of_list_fmap; exists k; split; [done|by apply sord]).
  assert (Hdirty : forall b : gset qubit, Exists (fun k => sq k ∈ b) sorder -> k1.2 b = a0).
  { intros b Hb'. apply Exists_exists in Hb' as (k & Hk%sord & Hkb). apply Hr. exists (sq k). split; [by apply Hin|done]. }
  assert (Hclean : forall b : gset qubit, ~ Exists (fun k => sq k ∈ b) sorder -> forall k, is_syn dh dw k -> sq k ∉ b).
  { intros b Hd k Hk Hkb. apply Hd, Exists_exists. exists k. split; [by apply sord|done]. }
  assert (Hclean' : forall b : gset qubit, (forall k, is_syn dh dw k -> sq k ∉ b) -> forall q, q ∈ sq <$> sorder -> q ∉ b).
  { intros b Hd q (k & -> & Hk%sord)%elem_of_list_fmap. by apply Hd. }
  assert (Hrm : forall (b : gset qubit) k, (forall k, is_syn dh dw k -> sq k ∉ b) -> is_syn dh dw k -> mem (sq k) (b ⊕ rset r (sq <$> sorder)) = r (sq k)).
  { intros b k Hd Hk. rewrite mem_sd, mem_rset by apply sorder_qubits. rewrite bool_decide_eq_true_2 by (by apply Hin).
    rewrite (proj2 (mem_false _ _) (Hd k Hk)), andb_true_l. apply xorb_false_l. }
  destruct (decide (Forall (fun k => r (sq k) = k1.1 (cbit name dh dw T k)) sorder)) as [Hd|Hd].
  - right. assert (Hrb : forall k, is_syn dh dw k -> r (sq k) = k1.1 (cbit name dh dw T k)).
    { intros k Hk. apply (proj1 (list.Forall_forall _ _) Hd k). by apply sord. }
    intros b. destruct (decide (Exists (fun k => sq k ∈ b) sorder)) as [Hx|Hx].
    + rewrite Hdirty, pow2_0 by done. apply Exists_exists in Hx as (k & Hk%sord & Hkb).
      rewrite (ideal_clean _ (sq k)); [by rewrite pow2_0| |by apply Hcl|done]. apply round_proj_off. intros i. apply synq_dq.
    + pose proof (Hclean b Hx) as Hno. rewrite (proj2 (Hr b)) by (by apply Hclean').
      rewrite (proj1 (Hb _)).
      * by apply after_ents.
      * intros q k Hqk. destruct (Hmeas q k Hqk) as (sk & Hsk & -> & ->). rewrite Hrm by done. rewrite Hrb by done. by rewrite Ec.
  - left. intros b. destruct (decide (Exists (fun k => sq k ∈ b) sorder)) as [Hx|Hx]; [by apply Hdirty|].
    pose proof (Hclean b Hx) as Hno. rewrite (proj2 (Hr b)) by (by apply Hclean'). apply (proj2 (Hb _)).
    apply not_Forall_Exists in Hd; [|intros ?; apply _]. apply Exists_exists in Hd as (k & Hk%sord & Hne).
    exists (sq k), (cbit name dh dw T k). split; [by apply Hmeas'|]. rewrite Hrm by done. by rewrite <-Ec.
Qed.
(** Every outcome is taken by some execution. *)
Lemma round_any T (k0 : config A) (m : cstate) : syn_clean name dh dw k0.2 ->
  exists k1, exec (round_instrs c name dh dw T) k0 k1 /\ (forall k, is_syn dh dw k -> k1.1 (cbit name dh dw T k) = m (cbit name dh dw T k)) /\
  forall b, pow2 nsyn_all (k1.2 b) = pow2 (nXs (syns dh dw)) (ideal (round_proj k1.1 T) k0.2 b).
Proof.
  intros Hcl. destruct k0 as [c0 ψ]. cbn [snd] in *.
  destruct (unitary_runs (mjoin (ent_k c name dh dw <$> syns dh dw)) (c0, ψ)) as [ka He1].
  { intros i Hi. apply elem_of_list_join in Hi as (is & Hi & (k & -> & Hk%elem_of_syns)%elem_of_list_fmap). rewrite ent_k_compile in Hi by done.
    apply elem_of_app in Hi as [Hi| ->%elem_of_list_singleton]; [by eapply compile_unitary|done]. }
  destruct (ents_ideal _ c0 ψ ka (syns_NoDup dh dw) (fun k => proj1 (elem_of_syns dh dw k)) (fun k H => Hcl k (proj1 (elem_of_syns dh dw k) H)) He1) as [_ Ha].
  rewrite syns_len in Ha.
  destruct (measure_any _ m ka (round_bits T)) as (kb & He2 & Hm).
  assert (Hm' : forall sk, is_syn dh dw sk -> kb.1 (cbit name dh dw T sk) = m (cbit name dh dw T sk)).
  { intros sk Hk. apply (Hm (sq sk)). apply elem_of_list_fmap. exists sk. split; [done|]. by apply sord. }
  set (r := fun q : qubit => m (cbit name dh dw T (bool_decide (q.1 = (name +:+ "_mx")%string), q.2))).
  assert (Hrk : forall k, r (sq k) = m (cbit name dh dw T k)).
  { intros [isx i]. unfold r, synq, sreg. cbn [fst snd]. f_equal. f_equal. f_equal. destruct isx.
    - by rewrite bool_decide_eq_true_2.
    - apply bool_decide_eq_false_2. intros E. apply (inj (String.append name)) in E. done. }
  destruct (reset_any _ r kb sorder_qubits) as (k1 & He3 & Ec & Hr).
  assert (Hex : exec (round_instrs c name dh dw T) (c0, ψ) k1).
  { unfold round_instrs. apply exec_app. exists ka. rewrite lat_stabs_syns, ent_instrs_eq. split; [done|]. apply exec_app. exists kb. rewrite meas_instrs_eq. split; [done|].
    apply exec_app. exists k1. rewrite reset_instrs_eq. split; [done|]. destruct k1. eapply EStep; [constructor|constructor]. }
  exists k1. assert (Hk1 : forall k, is_syn dh dw k -> k1.1 (cbit name dh dw T k) = m (cbit name dh dw T k)) by (intros k Hk; rewrite Ec; by apply Hm').
  split_and!; [done|done|].
  destruct (round_spec _ _ _ _ Hv _ (c0, ψ) k1 Hcl Hex) as (_ & Hc1 & _). destruct (measured _ _ _ He2 (round_bits T)) as [_ Hb].
  intros b. destruct (decide (Exists (fun k => sq k ∈ b) sorder)) as [Hx|Hx].
  - apply Exists_exists in Hx as (k & Hk%sord & Hkb). rewrite (Hc1 k Hk b Hkb), pow2_0.
    rewrite (ideal_clean _ (sq k)); [by rewrite pow2_0| |by apply Hcl|done]. apply round_proj_off. intros i. apply synq_dq.
  - assert (Hno : forall k, is_syn dh dw k -> sq k ∉ b).
    { intros k Hk Hkb. apply Hx, Exists_exists. exists k. split; [by apply sord|done]. }
    rewrite Hr by (intros q (k & -> & Hk%sord)%elem_of_list_fmap; by apply Hno).
    rewrite (proj1 (Hb _)).
    + apply after_ents; [done|done| |done]. intros k Hk. rewrite Hrk. by rewrite Hk1.
    + intros q k (sk & [= -> ->] & Hk%sord)%elem_of_list_fmap. rewrite mem_sd, mem_rset by apply sorder_qubits.
      rewrite bool_decide_eq_true_2 by (apply elem_of_list_fmap; exists sk; split; [done|by apply sord]).
      rewrite (proj2 (mem_false _ _) (Hno sk Hk)), andb_true_l, xorb_false_l. rewrite Hrk. by rewrite Hm'.
Qed.
End round.
