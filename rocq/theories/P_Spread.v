(** Property C68: programs of a TopologicalCircuit with errors on data qubits. *)
From Verif Require Import SpecSpread RegsGrow P_CxFault P_Program P_Multi RunFacts P_EndToEnd P_Decode SpecRx.
From stdpp Require Export list.
Open Scope Z_scope.

Section step.
Context (A : Amp) (rs : list request) (name : string).
Local Notation N := (Z.of_nat (length rs)).
Local Notation qn := (qname name).
(** The stabilizer of a qubit. *)
Definition SP (m : Z) (r : request) (sk : bool * Z) : pauli qubit := pmap (dq (qn m)) (stabP (rcode r) (rq_h r) (rq_w r) sk).
Definition hit (m : Z) (r : request) (e : nev) (sk : bool * Z) : bool :=
  match e with NErr x m' i => bool_decide (m' = m) && anti (stabP (rcode r) (rq_h r) (rq_w r) sk) (fault_of (Fault x i)) | _ => false end.
(** The effect of a step on the syndrome of qubit [m]. *)
Definition syn_ok (m : Z) (r : request) (e : nev) (s : st) (is : list instr) : Prop :=
  forall k0 k1 : config A, exec is k0 k1 -> syn_clean (qn m) (rq_h r) (rq_w r) k0.2 ->
    syn_clean (qn m) (rq_h r) (rq_w r) k1.2 /\
    (steady m e -> forall sk b, is_syn (rq_h r) (rq_w r) sk -> stab k0.2 (SP m r sk) b -> stab k1.2 (SP m r sk) (xorb b (hit m r e sk))) /\
    (forall nm, nm ∈ words_of (is_round m) [e] s -> forall sk, is_syn (rq_h r) (rq_w r) sk -> stab k1.2 (SP m r sk) (k1.1 (nm, syn_off sk.1 (rq_h r) (rq_w r) + sk.2))).
(** The effect on logical values, readings and registers. *)
Definition nstep_ok (e : nev) (s s' : st) (is : list instr) : Prop :=
  (forall i, i ∈ is -> proper i) /\
  (forall i b, i ∈ is -> b ∈ writes i -> b.1 ∈ cx_names \/ b.1 ∉ names s) /\
  (forall x, x ∈ words_of n_reading [e] s -> x ∈ names s' /\ x ∉ cx_names) /\
  (forall (k0 k1 : config A) v, exec is k0 k1 -> knows rs name k0.2 v ->
    (forall b, k1.2 b = a0) \/ exists r v', nclassical rs e v r v' /\ knows rs name k1.2 v' /\ option_list r = (fun x => k1.1 (x, 0)) <$> words_of n_reading [e] s) /\
  (forall m r, 0 <= m -> rs !! Z.to_nat m = Some r -> syn_ok m r e s is /\
    (is_round m e = true -> exists nm, words_of (is_round m) [e] s = [nm] /\ nm ∉ cx_names /\ s_regs s' = s_regs s ++ [Reg false nm (rq_h r * rq_w r - 1)])) /\
  (forall m0 isx, e = NEv (ECall m0 (read_op isx)) -> exists nm, last_reg s' = [nm] /\ nm ∉ cx_names /\ s_regs s' = s_regs s ++ [Reg false nm 1]).

Lemma SP_off m r sk q : 0 <= m -> (forall i, q <> dq (qn m) i) -> off q (SP m r sk).
Proof. intros _ H. by apply data_only_pmap. Qed.
(** Instructions that act elsewhere. *)
Lemma syn_elsewhere m r e s is : 0 <= m -> (forall i, i ∈ is -> proper i) -> (forall i q, i ∈ is -> q ∈ instr_qubits i -> ~ within (qn m) q) ->
  (forall sk, hit m r e sk = false) -> words_of (is_round m) [e] s = [] -> syn_ok m r e s is.
Proof.
  intros Hm Hp Hq Hh Hwd k0 k1 He Hc. split_and!.
  - intros k Hk. apply clean_stab. rewrite <-(xorb_false_r false). eapply prop_sound; [|exact He|apply clean_stab, Hc, Hk].
    apply prop_untouched; [done|]. intros i q Hi Hqi. apply off_Z. intros ->. eapply Hq; [exact Hi|exact Hqi|]. unfold within, synq, sreg. destruct k as [[|] ?]; cbn; tauto.
  - intros _ sk b Hsk Hb. rewrite Hh. eapply prop_sound; [|exact He|exact Hb]. apply prop_untouched; [done|]. intros i q Hi Hqi.
    eapply data_off; [apply data_only_pmap|]. by eapply Hq.
  - rewrite Hwd. intros nm Hnm. by apply elem_of_nil in Hnm.
Qed.
Lemma ndata m : 0 <= m < N -> exists r, rs !! Z.to_nat m = Some r.
Proof. intros H. apply lookup_lt_is_Some_2. lia. Qed.
Lemma qubit_of s ext m r : weak s (request_sizes rs ++ ext) N -> s_tname s = name -> 0 <= m -> rs !! Z.to_nat m = Some r ->
  exists q n, treg_lookup (s_tq s) m = Ok q /\ lat_code (tq_lat q) = rcode r /\ lat_name (tq_lat q) = qn m /\ lat_ok s q (rq_h r) (rq_w r) /\ has_cnt s q n.
Proof.
  intros Hw HT Hm Hr. destruct (wk_q _ _ _ Hw m (rq_t r) (rq_h r) (rq_w r) Hm) as (q & Hq & _ & Hc & Hn & Hok & _).
  { unfold request_sizes. rewrite lookup_app_l by (rewrite fmap_length; by eapply lookup_lt_Some). by rewrite list_lookup_fmap, Hr. }
  destruct (lat_ok_cnt _ _ _ _ Hok) as [n Hcn]. exists q, n. split_and!; try done. by rewrite Hn, HT.
Qed.

Lemma words_call (f : nev -> bool) e s s' : run_nev e s = (s', Ok tt) -> words_of f [e] s = if f e then last_reg s' else [].
Proof. intros E. cbn [words_of]. rewrite E. cbn [fst]. by rewrite app_nil_r. Qed.

Lemma ncall_step s ext m' o s' : weak s (request_sizes rs ++ ext) N -> s_tname s = name -> on_data N (ECall m' o) ->
  run_event (ECall m' o) s = (s', Ok tt) ->
  exists is, s_instrs s' = s_instrs s ++ is /\ (forall x, x ∈ names s -> x ∈ names s') /\ nstep_ok (NEv (ECall m' o)) s s' is.
Proof.
  intros Hw HT Hon E. destruct (call_step A rs name s ext m' o s' Hw HT Hon E) as (is & HI & HN & S1 & S2 & S3 & S4). exists is. split; [done|]. split; [done|].
  assert (Hi : 0 <= m' < N) by (destruct o as [|[]|[]| | | | | | | |]; done).
  destruct (ndata m' Hi) as [r' Hr']. destruct (qubit_of s ext m' r' Hw HT ltac:(lia) Hr') as (q & n & Hq & Hc & Hnm & Hok & Hn).
  pose proof E as E0. cbn [run_event] in E0. unfold run_call in E0. cbn [fst snd] in E0. erewrite mbind_ok in E0 by (unfold treg_get; by rewrite Hq).
  destruct (run_op_inv _ _ _ _ _ _ _ Hok Hn E0) as (_ & Hf & HP). pose proof (po_regs _ _ _ _ _ _ _ _ HP) as HR. pose proof (po_code _ _ _ _ _ _ _ _ HP) as HI'.
  rewrite Hc, Hnm in HI'. rewrite Hnm in HR. rewrite HI in HI'. apply app_inv_head in HI'. subst is. pose proof (lo_valid _ _ _ _ Hok) as Hv.
  assert (EW : words_of n_reading [NEv (ECall m' o)] s = reading_regs [ECall m' o] s).
  { rewrite (words_call _ (NEv (ECall m' o)) s s' E). cbn [reading_regs n_reading]. rewrite E. cbn [fst]. by rewrite app_nil_r. }
  split_and!; [done|done|by rewrite EW| | |].
  - intros k0 k1 v He Hk. destruct (S4 k0 k1 v He Hk) as [Hz|(x & v' & Hcl & Hk' & Ho)]; [by left|right]. exists x, v'. split; [by constructor|]. by rewrite EW.
  - intros m r Hm Hr. destruct (decide (m' = m)) as [->|Hne].
    + rewrite Hr in Hr'. injection Hr' as <-. split.
      * intros k0 k1 He Hcl. split_and!.
        -- by eapply op_syn_clean.
        -- intros Hst sk b Hsk Hb. cbn [hit]. rewrite xorb_false_r. eapply PK_op; [done|by apply Hst|done|exact He|done].
        -- rewrite (words_call _ (NEv (ECall m o)) s s' E). destruct o; cbn [is_round]; try (intros nm Hx; by apply elem_of_nil in Hx).
           rewrite bool_decide_eq_true_2 by done. unfold last_reg. rewrite HR. cbn [op_reg]. rewrite last_snoc. cbn [option_list r_name fmap option_fmap option_map].
           intros nm ->%elem_of_list_singleton sk Hsk. destruct (round_spec _ _ _ _ Hv _ _ _ Hcl He) as (H1 & _). specialize (H1 _ Hsk).
           rewrite <-cbit_off. by destruct sk.
      * cbn [is_round]. destruct o; try done. intros _. eexists. rewrite (words_call _ (NEv (ECall m OStab)) s s' E). cbn [is_round]. rewrite bool_decide_eq_true_2 by done.
        unfold last_reg. rewrite HR. cbn [op_reg]. rewrite last_snoc. split; [reflexivity|]. split.
        -- eapply (qc_not_cx name m). right. eexists "_c"%string, _. split; [unfold c_sufs; set_solver|reflexivity].
        -- by rewrite (round_size _ _ Hv).
    + assert (Ew : words_of (is_round m) [NEv (ECall m' o)] s = []).
      { rewrite (words_call _ (NEv (ECall m' o)) s s' E). cbn [is_round]. destruct o; try done. by rewrite bool_decide_eq_false_2. }
      split; [|cbn [is_round]; destruct o; try done; by rewrite bool_decide_eq_false_2].
      apply syn_elsewhere; [done|done| |done|done].
      intros i x Hx Hix Hwx. destruct (op_touch _ _ _ _ _ _ _ Hv Hx) as [_ H]. apply Hne. eapply (within_apart name m' m x); [lia|done|by apply H|done].
  - intros m0 isx [= -> ->]. unfold last_reg. destruct isx; cbn [read_op op_reg eff] in HR; (eexists; rewrite HR, last_snoc; split; [reflexivity|split; [|reflexivity]]).
    all: eapply (qc_not_cx name m0); right; eexists "_readout_"%string, _; (split; [unfold c_sufs; set_solver|reflexivity]).
Qed.
Lemma synq_suf m (sk : bool * Z) : exists suf, suf ∈ q_sufs /\ suf <> "_data"%string /\ suf <> "_ancilla"%string /\ (synq (qn m) sk).1 = (qn m +:+ suf)%string.
Proof. unfold synq, sreg. destruct sk as [[|] z]; cbn [fst]; eexists; (split_and!; [| | |reflexivity]; [unfold q_sufs; set_solver|done|done]). Qed.
Lemma synq_ne_data m m' sk i : 0 <= m -> 0 <= m' -> synq (qn m) sk <> dq (qn m') i.
Proof.
  intros Hm Hm' E. destruct (synq_suf m sk) as (suf & Hs & H1 & _ & E'). rewrite E in E'. cbn in E'. apply q_suf_inj in E' as [_ E']; [by symmetry in E'|done|done|unfold q_sufs; set_solver|done].
Qed.
Lemma ncx_step s ext i j anc s' : weak s (request_sizes rs ++ ext) N -> s_tname s = name -> event_ok (ECx i j anc) -> on_data N (ECx i j anc) ->
  run_event (ECx i j anc) s = (s', Ok tt) ->
  exists is ext', s_instrs s' = s_instrs s ++ is /\ (forall x, x ∈ names s -> x ∈ names s') /\ s_tname s' = name /\
    weak s' (request_sizes rs ++ ext') N /\ nstep_ok (NEv (ECx i j anc)) s s' is.
Proof.
  intros Hw HT He Hon E. destruct (cx_step A rs name s ext i j anc s' Hw HT He Hon E) as (is & ext' & HI & HN & HT' & Hw' & S1 & S2 & S3 & S4).
  exists is, ext'. split_and!; [done..|].
  assert (EW : words_of n_reading [NEv (ECx i j anc)] s = []) by (by rewrite (words_call _ (NEv (ECx i j anc)) s s' E)).
  split_and!; [done|done|by rewrite EW; intros x Hx; apply elem_of_nil in Hx| | |done].
  - intros k0 k1 v Hex Hk. destruct (S4 k0 k1 v Hex Hk) as [Hz|(x & v' & Hcl & Hk' & Ho)]; [by left|right]. exists x, v'. split; [by constructor|]. split; [done|]. by rewrite EW.
  - intros m r Hm Hr. split; [|done]. clear S1 S2 S3 S4. destruct Hon as (Hi & Hj & Hij).
    destruct (ndata i Hi) as [ri Hri]. destruct (ndata j Hj) as [rj Hrj].
    destruct (cx_event _ _ _ i j anc Hw He) as (s'' & r' & ext2 & E2 & Hw2 & HT2 & _ & HR). rewrite E in E2. injection E2 as <- <-.
    destruct (HR eq_refl) as (dc & dt & da & k & Hdc & Hdt & Hda & Hk & _ & _ & HI2). clear HR.
    assert (Hsep : separate [dc; dt; da]) by (eapply (sides_separate s'); [exact Hw2|rewrite HT2; done..|lia|lia|lia]).
    rewrite HT in Hdc, Hdt, Hda. rewrite <-app_assoc in Hdc, Hdt, Hda.
    pose proof (data_side _ _ _ _ _ _ Hdc Hri) as ->. pose proof (data_side _ _ _ _ _ _ Hdt Hrj) as ->.
    assert (Hn : sd_n da = qn k) by (by destruct Hda as (? & ? & ? & _ & _ & ->)).
    rewrite HI in HI2. apply app_inv_head in HI2. subst is.
    intros k0 k1 Hex Hcl. destruct (cx_spec _ _ _ Hsep k0 k1 Hex) as (_ & HF & _). cbn [sd_n] in HF. rewrite Hn in HF.
    pose proof (lookup_lt_Some _ _ _ Hr) as Hml.
    assert (HC : forall m m' P P', 0 <= m -> 0 <= m' -> m <> m' -> forall q, off q (onq name m P) \/ off q (onq name m' P')).
    { intros m1 m2 P P' Hm1 Hm2 Hne q. eapply data_disjoint; [apply data_only_onq..|]. intros q' H1 H2. apply Hne. by eapply within_apart. }
    split_and!.
    + intros sk Hsk. apply clean_stab. apply HF; [| | | | |by apply clean_stab, Hcl].
      * intros q Hq. apply off_Z. intros ->. assert (m = k); [|lia]. eapply (within_apart name m k); [done|lia| |exact Hq].
        unfold within, synq, sreg. destruct sk as [[|] ?]; cbn; tauto.
      * apply off_Z. intros Ea. destruct (synq_suf m sk) as (suf & Hs & _ & H1 & E'). rewrite <-Ea in E'. cbn in E'.
        apply q_suf_inj in E' as [_ E']; [by symmetry in E'|lia|done|unfold q_sufs; set_solver|done].
      * apply off_Z. intros Ea. destruct (synq_suf m sk) as (suf & Hs & _ & _ & E'). rewrite <-Ea in E'. unfold ro in E'. cbn in E'.
        eapply (cx_q_ne name m suf); [|exact Hs|exact E']. apply cx_names_in. tauto.
      * apply anti_disjoint. intros q. destruct (decide (q = synq (qn m) sk)) as [->|Hne]; [right|left; by apply off_Z].
        apply (do_LZ (Side _ (qn i) _ _)). intros z. by apply synq_ne_data; try lia.
      * apply anti_disjoint. intros q. destruct (decide (q = synq (qn m) sk)) as [->|Hne]; [right|left; by apply off_Z].
        apply (do_LX (Side _ (qn j) _ _)). intros z. by apply synq_ne_data; try lia.
    + intros _ sk b Hsk Hb. cbn [hit]. rewrite xorb_false_r.
      assert (Hvm : valid_size (rq_h r) (rq_w r)).
      { destruct (qubit_of s ext m r Hw HT Hm Hr) as (q & n & _ & _ & _ & Hok & _). by apply Hok. }
      apply HF; [| | | | |done].
      * eapply data_clear; [apply data_only_onq|]. intros q H1 H2. pose proof (within_apart name m k q Hm ltac:(lia) H1 H2). lia.
      * apply data_only_onq. intros z Ez. unfold ancq, dq in Ez. injection Ez as Ez _. apply q_suf_inj in Ez as [_ Ez]; [done|lia|lia|unfold q_sufs; set_solver..].
      * apply data_only_onq. intros z Ez. unfold ro, dq in Ez. injection Ez as Ez _. eapply (cx_q_ne name m "_data"); [|unfold q_sufs; set_solver|exact Ez]. apply cx_names_in. tauto.
      * destruct (decide (m = i)) as [->|Hne]; [|apply anti_disjoint; by apply HC; try lia].
        rewrite Hri in Hr. injection Hr as <-. by apply (PK_log (rcode ri) (qn i) (rq_h ri) (rq_w ri) Hvm sk Hsk).
      * destruct (decide (m = j)) as [->|Hne]; [|apply anti_disjoint; by apply HC; try lia].
        rewrite Hrj in Hr. injection Hr as <-. by apply (PK_log (rcode rj) (qn j) (rq_h rj) (rq_w rj) Hvm sk Hsk).
    + rewrite (words_call _ (NEv (ECx i j anc)) s s' E). cbn [is_round]. intros nm Hx. by apply elem_of_nil in Hx.
Qed.
Lemma nerr_step s ext x m' i s' : weak s (request_sizes rs ++ ext) N -> s_tname s = name -> on_reg rs (NErr x m' i) ->
  run_nev (NErr x m' i) s = (s', Ok tt) ->
  s_instrs s' = s_instrs s ++ [pgate x (dq (qn m') i)] /\ names s' = names s /\ s_tname s' = name /\ weak s' (request_sizes rs ++ ext) N /\
  nstep_ok (NErr x m' i) s s' [pgate x (dq (qn m') i)].
Proof.
  intros Hw HT (Hm' & r' & Hr' & Hi) E. destruct (qubit_of s ext m' r' Hw HT Hm' Hr') as (q & n & Hq & Hc & Hnm & Hok & Hn).
  pose proof E as E0. cbn [run_nev] in E0. erewrite mbind_ok in E0 by (unfold treg_get; by rewrite Hq).
  assert (Ed : (lat_data (tq_lat q)).1 = (qn m' +:+ "_data")%string) by (rewrite (lo_lat _ _ _ _ Hok), <-Hnm; done).
  rewrite Ed in E0. cbn in E0. injection E0 as <-.
  split_and!; [done|done|done| |].
  { constructor; cbn [set_instrs s_tq s_tname s_n]; try apply Hw.
    - intros j t dh dw Hj Hsz. destruct (wk_q _ _ _ Hw j t dh dw Hj Hsz) as (q' & ? & ? & ? & ? & Hok' & p' & Hp' & Ha). exists q'. split_and!; try done; [|by exists p'].
      by eapply P_Hist.lat_ok_heap; [|exact Hok']. }
  pose proof (lo_valid _ _ _ _ Hok) as Hv.
  assert (HG : forall i0, i0 ∈ [pgate x (dq (qn m') i)] -> proper i0 /\ writes i0 = [] /\ instr_qubits i0 = [dq (qn m') i]) by (intros i0 ->%elem_of_list_singleton; by destruct x).
  assert (EW : forall f, words_of f [NErr x m' i] s = if f (NErr x m' i) then last_reg s else []).
  { intros f. rewrite (words_call f (NErr x m' i) s _ E). done. }
  split_and!; rewrite ?EW; cbn [n_reading].
  - intros j Hj. by apply HG.
  - intros j b Hj Hb. destruct (HG j Hj) as (_ & E' & _). rewrite E' in Hb. by apply elem_of_nil in Hb.
  - intros y Hy. by apply elem_of_nil in Hy.
  - intros k0 k1 v He Hk. right. exists None. eexists. split; [constructor|]. split; [|done].
    assert (HP : forall m r b, 0 <= m -> rs !! Z.to_nat m = Some r -> v m = Some b -> stab k1.2 (LZ name m r) (xorb b (bool_decide (m = m') && inverted rs x m' i))).
    { intros m r b Hm Hr Hb. pose proof (Hk m r b Hm Hr Hb) as HS. case_bool_decide as Hd; cbn [andb].
      - subst m. rewrite Hr in Hr'. injection Hr' as <-. pose proof (fault_step (qn m') x i (log_z (rcode r) (rq_h r) (rq_w r)) k0 k1 b He HS) as HF.
        rewrite (anti_fault false (rcode r) (rq_h r) (rq_w r) (log_z (rcode r) (rq_h r) (rq_w r)) x i (of_type_log false _ _ _) Hi) in HF.
        unfold inverted. rewrite Hr. rewrite (eq_bool_prop_intro (bool_decide (i < rq_w r)) (anti (err_at false (rcode r) (rq_h r) (rq_w r) i) (log_z (rcode r) (rq_h r) (rq_w r)))); [done|].
        rewrite !Is_true_true. pose proof (anti_err_log false (rcode r) (rq_h r) (rq_w r) i Hv Hi) as HA. cbn [logk] in HA. rewrite HA. cbn [on_readout].
        pose proof (size_pos _ _ Hv) as (_ & Hww & _). rewrite bool_decide_eq_true, Z.div_small_iff by lia. lia.
      - eapply prop_sound; [|exact He|exact HS]. apply prop_untouched; [intros j Hj; by apply HG|]. intros j y Hj Hy. destruct (HG j Hj) as (_ & _ & Eq). rewrite Eq in Hy.
        apply elem_of_list_singleton in Hy as ->. eapply data_off; [apply data_only_onq|]. intros Hwi. apply Hd. eapply (within_apart name m m'); [done|done|exact Hwi|by left]. }
    intros m r b Hm Hr Hb. destruct (inverted rs x m' i) eqn:Ei.
    + destruct (decide (m = m')) as [->|Hne].
      * rewrite learn_eq in Hb. destruct (v m') as [b'|] eqn:Ev; [|done]. injection Hb as <-. specialize (HP m' r b' Hm Hr Ev). by rewrite bool_decide_eq_true_2, andb_true_l, xorb_true_r in HP.
      * rewrite learn_ne in Hb by done. specialize (HP m r b Hm Hr Hb). by rewrite bool_decide_eq_false_2, xorb_false_r in HP.
    + specialize (HP m r b Hm Hr Hb). by rewrite andb_false_r, xorb_false_r in HP.
  - intros m r Hm Hr. split; [|done]. destruct (decide (m' = m)) as [->|Hne].
    + rewrite Hr in Hr'. injection Hr' as <-. intros k0 k1 He Hcl. split_and!.
      * intros sk Hsk. apply clean_stab. rewrite <-(xorb_false_r false). eapply prop_sound; [|exact He|apply clean_stab, Hcl, Hsk].
        apply prop_untouched; [intros j Hj; by apply HG|]. intros j y Hj Hy. destruct (HG j Hj) as (_ & _ & Eq). rewrite Eq in Hy. apply elem_of_list_singleton in Hy as ->.
        apply off_Z. intros Ey. by eapply synq_dq.
      * intros _ sk b Hsk Hb. cbn [hit]. rewrite bool_decide_eq_true_2, andb_true_l by done. by eapply fault_step.
      * rewrite EW. intros nm Hx. by apply elem_of_nil in Hx.
    + apply syn_elsewhere; [done|intros j Hj; by apply HG| | |by rewrite EW].
      * intros j y Hj Hy Hwy. destruct (HG j Hj) as (_ & _ & Eq). rewrite Eq in Hy. apply elem_of_list_singleton in Hy as ->. apply Hne. eapply (within_apart name m' m (dq (qn m') i)); [done|done|by left|exact Hwy].
      * intros sk. cbn [hit]. by rewrite bool_decide_eq_false_2.
  - done.
Qed.
Lemma nstep s ext e s' : weak s (request_sizes rs ++ ext) N -> s_tname s = name -> nev_ok e -> on_reg rs e -> run_nev e s = (s', Ok tt) ->
  exists is ext', s_instrs s' = s_instrs s ++ is /\ (forall x, x ∈ names s -> x ∈ names s') /\ s_tname s' = name /\
    weak s' (request_sizes rs ++ ext') N /\ nstep_ok e s s' is.
Proof.
  intros Hw HT Hok Hon E. destruct e as [[m o|i j anc]|x m i].
  - destruct (ncall_step s ext m o s' Hw HT Hon E) as (is & H1 & H2 & H3). exists is, ext. split_and!; try done.
    + pose proof (run_call_book (m, o) s) as HB. cbn [run_nev run_event] in E. rewrite E in HB. unfold book in HB. injection HB as HB _ _. cbn in HB. congruence.
    + pose proof (weak_call _ _ _ (m, o) Hw) as H. cbn [run_nev run_event] in E. by rewrite E in H.
  - by eapply ncx_step.
  - destruct (nerr_step s ext x m i s' Hw HT Hon E) as (H1 & H2 & H3 & H4 & H5). eexists _, ext. split_and!; try done. by rewrite H2.
Qed.

(** ** Whole programs *)
Lemma words_cons f e l s : words_of f (e :: l) s = words_of f [e] s ++ words_of f l (run_nev e s).1.
Proof. cbn [words_of]. by rewrite app_nil_r. Qed.
Lemma words_app f l1 l2 s : words_of f (l1 ++ l2) s = words_of f l1 s ++ words_of f l2 (run_nevs l1 s).1.
Proof. revert s. induction l1 as [|e l1 IHl]; intros s; [done|]. cbn [app]. rewrite words_cons, IHl, app_assoc. by rewrite <-words_cons. Qed.
Lemma runs_app l1 l2 s : run_nevs (l1 ++ l2) s = ((run_nevs l2 (run_nevs l1 s).1).1, (run_nevs l1 s).2 ++ (run_nevs l2 (run_nevs l1 s).1).2).
Proof. revert s. induction l1 as [|e l1 IHl]; intros s; [cbn; by destruct (run_nevs l2 s)|]. cbn [app run_nevs]. rewrite IHl. done. Qed.
Lemma share_round isx c h w t m e l : is_round m e = true -> flips_of isx c h w t (share m (e :: l)) = flips_of isx c h w (t + 1) (share m l).
Proof. destruct e as [[m' o|]|]; try done. destruct o; try done. cbn [is_round share omap list_omap]. intros H. by rewrite H. Qed.
Lemma share_err isx c h w t m x i l : flips_of isx c h w t (share m (NErr x m i :: l)) =
  (if bool_decide (fault_of (Fault x i) = err_at isx c h w i) then [(t, i)] else []) ++ flips_of isx c h w t (share m l).
Proof. cbn [share omap list_omap]. rewrite bool_decide_eq_true_2 by done. cbn [flips_of]. by case_bool_decide. Qed.
Lemma share_other isx c h w t m e l : is_round m e = false -> (forall x i, e <> NErr x m i) -> flips_of isx c h w t (share m (e :: l)) = flips_of isx c h w t (share m l).
Proof.
  destruct e as [[m' o|i j anc]|x m' i]; cbn [share omap list_omap]; intros H1 H2; [|done|].
  - case_bool_decide as Hd; [|done]. cbn [flips_of]. subst. destruct o; try done. cbn [is_round] in H1. by rewrite bool_decide_eq_true_2 in H1.
  - case_bool_decide; [subst; by destruct (H2 x i)|done].
Qed.
Lemma share_range isx m r l : rs !! Z.to_nat m = Some r -> Forall (on_reg rs) l ->
  forall t f, f ∈ flips_of isx (rcode r) (rq_h r) (rq_w r) t (share m l) -> 0 <= f.2 < rq_h r * rq_w r.
Proof.
  intros Hr Hl. induction Hl as [|e l He Hl IHl]; intros t f Hf; [by apply elem_of_nil in Hf|]. destruct e as [[m' o|i j anc]|x m' i]; cbn [share omap list_omap] in Hf.
  - case_bool_decide; [cbn [flips_of] in Hf|]; by eapply IHl.
  - by eapply IHl.
  - case_bool_decide; [|by eapply IHl]. cbn [flips_of] in Hf. case_bool_decide; [|by eapply IHl]. apply elem_of_cons in Hf as [-> |Hf]; [|by eapply IHl].
    subst m'. destruct He as (_ & r' & Hr' & Hi). rewrite Hr in Hr'. by injection Hr' as <-.
Qed.

(** The value recorded for a stabilizer in each round, and the value afterwards. *)
Definition recorded_values (m : Z) (r : request) (l : list nev) (s : st) (is : list instr) : Prop :=
  forall (k0 k1 k2 : config A) is2, exec is k0 k1 -> exec is2 k1 k2 -> possible k2 -> syn_clean (qn m) (rq_h r) (rq_w r) k0.2 ->
    syn_clean (qn m) (rq_h r) (rq_w r) k1.2 /\
    (Forall (steady m) l -> forall isx t loc b, 0 <= loc < nsyn isx (rq_h r) (rq_w r) -> stab k0.2 (SP m r (isx, loc)) b ->
      let S := stabk isx (rcode r) (rq_h r) (rq_w r) loc in let fl := flips_of isx (rcode r) (rq_h r) (rq_w r) t (share m l) in
      (forall n nm, words_of (is_round m) l s !! n = Some nm ->
         k1.1 (nm, syn_off isx (rq_h r) (rq_w r) + loc) =
         xorb b (xorl ((fun f => bool_decide (f.1 < t + 1 + Z.of_nat n) && anti (err_at isx (rcode r) (rq_h r) (rq_w r) f.2) S) <$> fl))) /\
      stab k1.2 (SP m r (isx, loc)) (xorb b (xorl ((fun f => anti (err_at isx (rcode r) (rq_h r) (rq_w r) f.2) S) <$> fl)))).
Definition words_here (m : Z) (r : request) (l : list nev) (s s' : st) : Prop :=
  exists new, s_regs s' = s_regs s ++ new /\ ((fun nm => Reg false nm (rq_h r * rq_w r - 1)) <$> words_of (is_round m) l s) `sublist_of` new /\
    (forall nm, nm ∈ words_of (is_round m) l s -> nm ∉ cx_names) /\ length (words_of (is_round m) l s) = count is_stab (calls (share m l)).

Lemma nrun l : forall s ext, weak s (request_sizes rs ++ ext) N -> s_tname s = name ->
  Forall nev_ok l -> Forall (on_reg rs) l -> Forall (eq (Ok tt)) (run_nevs l s).2 ->
  exists is ext', s_instrs (run_nevs l s).1 = s_instrs s ++ is /\ (forall x, x ∈ names s -> x ∈ names (run_nevs l s).1) /\
    s_tname (run_nevs l s).1 = name /\ weak (run_nevs l s).1 (request_sizes rs ++ ext') N /\
    (forall i, i ∈ is -> proper i) /\
    (forall i b, i ∈ is -> b ∈ writes i -> b.1 ∈ cx_names \/ b.1 ∉ names s) /\
    (forall (k0 k1 : config A) v, exec is k0 k1 -> possible k1 -> knows rs name k0.2 v ->
      exists v', nclassicals rs l v ((fun x => k1.1 (x, 0)) <$> words_of n_reading l s) v' /\ knows rs name k1.2 v') /\
    (forall m r, 0 <= m -> rs !! Z.to_nat m = Some r -> recorded_values m r l s is /\ words_here m r l s (run_nevs l s).1).
Proof.
  induction l as [|e l IHl]; intros s ext Hw HT Hok Hon Hres.
  - exists [], ext. rewrite app_nil_r. split_and!; try done.
    + intros i Hi; by apply elem_of_nil in Hi.
    + intros i b Hi; by apply elem_of_nil in Hi.
    + intros k0 k1 v He _ Hk. inversion He; subst. exists v. split; [constructor|done].
    + intros m r Hm Hr. split.
      * intros k0 k1 k2 is2 He _ _ Hc. inversion He; subst. split; [done|]. intros _ isx t loc b Hloc Hb. cbn zeta. cbn [share omap list_omap flips_of fmap list_fmap]. rewrite xorb_false_r. done.
      * exists []. rewrite app_nil_r. split_and!; try done. intros nm Hx. by apply elem_of_nil in Hx.
  - apply Forall_cons in Hok as [He Hok]. apply Forall_cons in Hon as [Ho Hon]. cbn [run_nevs fst snd] in *. apply Forall_cons in Hres as [Hr Hres].
    destruct (run_nev e s) as [s1 r1] eqn:E. cbn [fst snd] in *. subst r1.
    destruct (nstep s ext e s1 Hw HT He Ho E) as (is1 & ext1 & HI1 & HN1 & HT1 & Hw1 & HP1 & HW1 & HR1 & HS1 & HY1 & HD1).
    destruct (IHl s1 ext1 Hw1 HT1 Hok Hon Hres) as (is2 & ext2 & HI2 & HN2 & HT2 & Hw2 & HP2 & HW2 & HS2 & HY2).
    assert (HFR : forall (k1 k2 : config A) x z, exec is2 k1 k2 -> x ∈ names s1 -> x ∉ cx_names -> k2.1 (x, z) = k1.1 (x, z)).
    { intros k1 k2 x z He2 H1 H2. eapply exec_frame; [exact He2|]. intros i Hi Hb. destruct (HW2 i _ Hi Hb) as [H|H]; by apply H || apply H2. }
    exists (is1 ++ is2), ext2. rewrite HI2, HI1, app_assoc. split_and!; [done|auto|done|done| | | |].
    + intros i [Hi|Hi]%elem_of_app; [by apply HP1|by apply HP2].
    + intros i b [Hi|Hi]%elem_of_app Hb; [by eapply HW1|]. destruct (HW2 i b Hi Hb) as [H|H]; [by left|right]. intros Hx. by apply H, HN1.
    + intros k0 k2 v (k1 & He1 & He2)%exec_app Hp Hk. destruct (HS1 k0 k1 v He1 Hk) as [Hz|(r & v1 & Hc & Hk1 & Hrd)].
      { exfalso. destruct Hp as [b Hb]. apply Hb. by eapply QComm.exec_zero. }
      destruct (HS2 k1 k2 v1 He2 Hp Hk1) as (v2 & Hcs & Hk2). exists v2. split; [|done].
      rewrite words_cons, E. cbn [fst]. rewrite fmap_app.
      assert (EB : (fun x => k2.1 (x, 0)) <$> words_of n_reading [e] s = option_list r).
      { rewrite Hrd. apply list_fmap_ext. intros y x Hx%elem_of_list_lookup_2. destruct (HR1 x Hx) as [H1 H2]. by apply HFR. }
      rewrite EB. by econstructor.
    + intros m r Hm Hmr. destruct (HY1 m r Hm Hmr) as [HY1a HY1b]. destruct (HY2 m r Hm Hmr) as [HY2a (new2 & HR2 & HSub & HX2 & HL2)]. split.
      * intros k0 k2 k3 is3 (k1 & He1 & He2)%exec_app He3 Hp Hc. destruct (HY1a k0 k1 He1 Hc) as (Hc1 & HB1 & HV1).
        destruct (HY2a k1 k2 k3 is3 He2 He3 Hp Hc1) as (Hc2 & HB2). split; [done|]. intros [Hs1 Hs2]%Forall_cons isx t loc b Hloc Hb. cbn zeta.
        assert (Hsyn : is_syn (rq_h r) (rq_w r) (isx, loc)) by (unfold is_syn; by destruct isx).
        assert (Hst : stabP (rcode r) (rq_h r) (rq_w r) (isx, loc) = stabk isx (rcode r) (rq_h r) (rq_w r) loc) by (by destruct isx).
        pose proof (HB1 Hs1 (isx, loc) b Hsyn Hb) as Hb1. specialize (HB2 Hs2 isx).
        destruct (is_round m e) eqn:Er.
        -- destruct (HY1b eq_refl) as (nm0 & Ew & Hx0 & HR0). rewrite share_round by done.
           assert (Eh : hit m r e (isx, loc) = false) by (by destruct e as [[? []|]|]). rewrite Eh, xorb_false_r in Hb1.
           destruct (HB2 (t + 1) loc b Hloc Hb1) as [HB2a HB2b]. split; [|done].
           intros n nm Hn. rewrite words_cons, E, Ew in Hn. cbn [fst app] in Hn. destruct n as [|n]; cbn in Hn.
           ++ injection Hn as <-. assert (Hin : nm0 ∈ names s1) by (unfold names; rewrite HR0, fmap_app; apply elem_of_app; right; by left).
              rewrite (HFR k1 k2 nm0 _ He2 Hin Hx0). rewrite Ew in HV1. specialize (HV1 nm0 ltac:(by left) (isx, loc) Hsyn). cbn [fst snd] in HV1.
              assert (Hall : exec (is2 ++ is3) k1 k3) by (apply exec_app; by exists k2).
              rewrite (stab_unique_later _ _ _ _ _ _ HV1 Hb1 Hall Hp). rewrite xorl_false; [by rewrite xorb_false_r|].
              apply Forall_fmap, list.Forall_forall. intros f Hf%flips_time. cbn. by rewrite bool_decide_eq_false_2 by lia.
           ++ rewrite (HB2a n nm Hn). f_equal. f_equal. apply list_fmap_ext. intros ? f _. cbn. f_equal. apply bool_decide_ext. lia.
        -- assert (Ew : words_of (is_round m) [e] s = []) by (by rewrite (words_call _ e s s1 E), Er). rewrite words_cons, E, Ew. cbn [fst app].
           assert (Hcase : (exists x i, e = NErr x m i) \/ ~ (exists x i, e = NErr x m i)).
           { destruct e as [?|x m' i]; [right; by intros (? & ? & ?)|]. destruct (decide (m' = m)) as [->|]; [left; eauto|right; intros (? & ? & ?); congruence]. }
           destruct Hcase as [(x & i & ->)|Hne].
           ++ cbn [hit] in Hb1. rewrite bool_decide_eq_true_2, andb_true_l, Hst in Hb1 by done. destruct Ho as (_ & r' & Hr' & Hi). rewrite Hmr in Hr'. injection Hr' as <-.
              assert (Hv : valid_size (rq_h r) (rq_w r)).
              { destruct (qubit_of s ext m r Hw HT Hm Hmr) as (q & n & _ & _ & _ & Hoq & _). by apply Hoq. }
              rewrite (anti_fault isx (rcode r) (rq_h r) (rq_w r) _ x i) in Hb1 by (done || by apply of_type_stab).
              destruct (HB2 t loc _ Hloc Hb1) as [HB2a HB2b]. rewrite share_err. split.
              ** intros n nm Hn. rewrite (HB2a n nm Hn). rewrite fmap_app. case_bool_decide; cbn [andb app fmap list_fmap]; [|by rewrite xorb_false_r].
                 rewrite xorl_cons. cbn [fst snd]. rewrite bool_decide_eq_true_2 by lia. cbn [andb]. by rewrite xorb_assoc_reverse.
              ** rewrite fmap_app. revert HB2b. case_bool_decide; cbn [andb app fmap list_fmap]; [|by rewrite xorb_false_r].
                 rewrite xorl_cons. cbn [fst snd]. by rewrite xorb_assoc_reverse.
           ++ assert (Eh : hit m r e (isx, loc) = false).
              { destruct e as [?|x m' i]; [done|]. cbn [hit]. case_bool_decide; [|done]. subst. destruct Hne. eauto. }
              rewrite Eh, xorb_false_r in Hb1. rewrite share_other; [by apply HB2|done|]. intros x i ->. destruct Hne. eauto.
      * destruct (ap_nev e s) as (new1 & HR1' & _). rewrite E in HR1'. cbn [fst] in HR1'. exists (new1 ++ new2). rewrite HR2, HR1', app_assoc. rewrite words_cons, E. cbn [fst].
        destruct (is_round m e) eqn:Er.
        -- destruct (HY1b eq_refl) as (nm0 & Ew & Hx0 & HR0). rewrite Ew. rewrite HR0 in HR1'. apply app_inv_head in HR1'. subst new1. split_and!; [done| | |].
           ++ cbn [app]. rewrite fmap_cons. by apply sublist_skip.
           ++ intros nm [->|Hx]%elem_of_cons; [done|by apply HX2].
           ++ cbn [app length]. rewrite HL2. destruct e as [[m' o|]|]; try done. destruct o; try done. cbn [is_round] in Er. cbn [share omap list_omap]. by rewrite Er.
        -- assert (Ew : words_of (is_round m) [e] s = []) by (by rewrite (words_call _ e s s1 E), Er). rewrite Ew. cbn [app]. split_and!; [done| |done|].
           ++ by apply sublist_inserts_l.
           ++ rewrite HL2. destruct e as [[m' o|]|]; cbn [share omap list_omap]; try done; case_bool_decide as Hd; try done. subst.
              rewrite calls_cons, count_step. destruct o; try done. cbn [is_round] in Er. by rewrite bool_decide_eq_true_2 in Er.
Qed.
End step.

(** * C68 *)
(** ** The program computes what the classical machine with the errors as inversions computes. *)
Theorem C68_program (A : Amp) rs name s0 l0 l :
  heap_fresh s0 -> NoDup (rq_params <$> rs) -> Forall (request_ok s0) rs ->
  Forall event_ok l0 -> Forall nev_ok l -> Forall (on_reg rs) l ->
  exists s1, new_treg name (rq_type <$> rs) (rq_params <$> rs) s0 = (s1, Ok tt) /\
  let s := (run_events l0 s1).1 in
  (Forall (eq (Ok tt)) (run_nevs l s).2 ->
   exists is, emitted s (run_nevs l s).1 is /\
     (forall k0 : config ZAmp, possible k0 -> exists k1, exec is k0 k1 /\ possible k1) /\
     forall (k0 k1 : config A) v, exec is k0 k1 -> possible k1 -> knows rs name k0.2 v ->
       exists v', nclassicals rs l v ((fun x => k1.1 (x, 0)) <$> words_of n_reading l s) v' /\ knows rs name k1.2 v').
Proof.
  intros Hhf Hnd Hok Hl0 Hl Hon. destruct (new_treg_weak rs name s0 Hhf Hnd Hok) as (s1 & E & _ & Hw & HT & _). exists s1. split; [done|].
  cbn zeta. intros Hres. destruct (events_weak l0 s1 _ _ Hw Hl0) as (ext & Hw2 & HT2). rewrite HT in HT2.
  destruct (nrun A rs name l _ ext Hw2 HT2 Hl Hon Hres) as (is & ext' & H1 & _ & _ & _ & H2 & _ & H3 & _). exists is. split_and!; [done| |done].
  intros k0 Hp. by apply exec_possible_Z.
Qed.
Print Assumptions C68_program.

(** ** What a decoder makes of the registers of one qubit *)
Lemma sublist_in {B} (own l : list B) x : own `sublist_of` l -> x ∈ own -> x ∈ l.
Proof. intros H Hx. eapply elem_of_submseteq; [exact Hx|]. by apply sublist_submseteq. Qed.
Lemma sublist_filter {B} (f : B -> string) (own l : list B) : NoDup (f <$> l) -> own `sublist_of` l -> filter (fun r => f r ∈ f <$> own) l = own.
Proof.
  intros Hnd Hs. induction Hs as [|x own l Hs IHl|x own l Hs IHl]; [done| |]; rewrite fmap_cons, NoDup_cons in Hnd; destruct Hnd as [Hx Hnd].
  - rewrite filter_cons_True by (rewrite fmap_cons; by left). f_equal. etransitivity; [|exact (IHl Hnd)]. apply P_Multi.filter_ext_in. intros y Hy.
    rewrite fmap_cons, elem_of_cons. split; [intros [E|]; [|done]|by right]. destruct Hx. rewrite <-E. by apply elem_of_list_fmap_1.
  - rewrite filter_cons_False; [by apply IHl|]. intros Hi. apply Hx. apply elem_of_list_fmap in Hi as (y & -> & Hy). apply elem_of_list_fmap_1. by eapply sublist_in.
Qed.
Lemma cregs_names s : NoDup (names s) -> NoDup (cregs s).*1.
Proof.
  unfold names, cregs. rewrite <-list_fmap_compose. generalize (s_regs s). intros l H. induction l as [|r l IHl]; [constructor|].
  rewrite fmap_cons, NoDup_cons in H. destruct H as [Hr H]. rewrite filter_cons. case_decide; [|by apply IHl]. rewrite fmap_cons, NoDup_cons. split; [|by apply IHl].
  intros Hi. apply Hr. apply elem_of_list_fmap in Hi as (r' & E & [_ Hi]%elem_of_list_filter). cbn in E. rewrite E. by apply elem_of_list_fmap_1.
Qed.
Lemma cregs_sublist s new own : s_regs s = new -> ((fun a : string * Z => Reg false a.1 a.2) <$> own) `sublist_of` new -> own `sublist_of` cregs s.
Proof.
  intros <- H. unfold cregs. revert own H. generalize (s_regs s). intros l. induction l as [|r l IHl]; intros own H.
  - apply sublist_nil_r, fmap_nil_inv in H as ->. done.
  - apply sublist_cons_r in H as [H|(k & E & H)].
    + rewrite filter_cons. case_decide; [rewrite fmap_cons; apply sublist_cons|]; by apply IHl.
    + destruct own as [|[nm z] own]; [done|]. rewrite fmap_cons in E. injection E as <- <-. rewrite filter_cons_True by done. rewrite fmap_cons. cbn. apply sublist_skip. by apply IHl.
Qed.
Lemma share_app m l1 l2 : share m (l1 ++ l2) = share m l1 ++ share m l2.
Proof. apply omap_app. Qed.

Theorem C68_decoded (A : Amp) rs name s0 l0 pre m body post isx r T D rx ep misread :
  heap_fresh s0 -> NoDup (rq_params <$> rs) -> Forall (request_ok s0) rs -> Forall event_ok l0 ->
  0 <= m -> rs !! Z.to_nat m = Some r -> 1 < rq_h r * rq_w r ->
  let round := NEv (ECall m OStab) in let reading := NEv (ECall m (read_op isx)) in
  let l := pre ++ round :: body ++ round :: reading :: post in
  Forall nev_ok l -> Forall (on_reg rs) l -> Forall (steady m) body ->
  let c := rcode r in let h := rq_h r in let w := rq_w r in
  let K := 2 + Z.of_nat (count is_stab (calls (share m body))) in
  let flips := flips_of isx c h w 0 (share m body) in
  decoder_for isx h w T D -> rx_ok rx -> K - 1 <= T ->
  (forall f, f ∈ misread -> 1 <= f.1 < K - 1 /\ 0 <= f.2 < nsyn isx h w) ->
  Z.of_nat (length flips + length misread) <= (extent isx h w - 1) / 2 ->
  exists s1, new_treg name (rq_type <$> rs) (rq_params <$> rs) s0 = (s1, Ok tt) /\
  let s := (run_events l0 s1).1 in let s' := (run_nevs l s).1 in
  (Forall (eq (Ok tt)) (run_nevs l s).2 ->
   exists is names x, emitted s s' is /\
     names = words_of (is_round m) (round :: body ++ [round]) (run_nevs pre s).1 /\ Z.of_nat (length names) = K /\
     last_reg (run_nevs (pre ++ round :: body ++ [round; reading]) s).1 = [x] /\
     forall (k0 k1 : config A) cs', exec is k0 k1 -> possible k1 -> syn_clean (qname name m) h w k0.2 ->
       observed isx h w names misread k1.1 cs' -> cs' (x, 0) = k1.1 (x, 0) ->
       let own := ((., h * w - 1) <$> names) ++ [(x, 1)] in
       correct_readout rx D ep (own_part (counts_key cs' (cregs s')) (cregs s') own) isx = Ok (Z.b2z (xorb (k1.1 (x, 0)) (logical_flip isx c h w flips)))).
Proof.
  intros Hhf Hnd Hok Hl0 Hm Hmr H1 round reading l Hev Hon Hst c h w K flips HD Hrx HK Hmis HL.
  destruct (new_treg_weak rs name s0 Hhf Hnd Hok) as (s1 & E & _ & Hw & HT & _). exists s1. split; [done|]. cbn zeta. intros Hres.
  destruct (events_weak l0 s1 _ _ Hw Hl0) as (ext & Hw0 & HT0). rewrite HT in HT0. pose proof (ap_events l0 s1 (new_names rs name s0 s1 E)) as HN0.
  set (s := (run_events l0 s1).1) in *. clearbody s. clear Hl0 HT Hw E.
  assert (EL : l = pre ++ [round] ++ (body ++ [round]) ++ [reading] ++ post) by (unfold l; cbn [app]; by rewrite <-app_assoc).
  destruct (ap_nevs l s) as (newl & _ & HNl). specialize (HNl HN0).
  rewrite EL in Hev, Hon. apply list.Forall_app in Hev as [Hv1 [Hv2 [Hv3 [Hv4 Hv5]%list.Forall_app]%list.Forall_app]%list.Forall_app].
  apply list.Forall_app in Hon as [Ho1 [Ho2 [Ho3 [Ho4 Ho5]%list.Forall_app]%list.Forall_app]%list.Forall_app].
  rewrite Forall_singleton in Hv2, Ho2, Hv4, Ho4.
  assert (Hres' := Hres). rewrite EL in Hres'. rewrite runs_app in Hres'. cbn [snd] in Hres'. apply list.Forall_app in Hres' as [R1 Hres'].
  destruct (nrun A rs name pre s ext Hw0 HT0 Hv1 Ho1 R1) as (is1 & ext1 & I1 & N1 & T1 & W1 & P1 & F1 & _ & Y1). specialize (Y1 m r Hm Hmr) as [Y1 _].
  set (sa := (run_nevs pre s).1) in *.
  rewrite runs_app in Hres'. cbn [snd] in Hres'. apply list.Forall_app in Hres' as [R2 Hres']. cbn [run_nevs fst snd] in R2, Hres'. rewrite Forall_singleton in R2.
  destruct (run_nev round sa) as [sb rb] eqn:Eb. cbn [fst snd] in R2, Hres'. subst rb.
  destruct (nstep A rs name sa ext1 round sb W1 T1 Hv2 Ho2 Eb) as (is2 & ext2 & I2 & N2 & T2 & W2 & P2 & F2 & _ & _ & Y2 & _).
  specialize (Y2 m r Hm Hmr) as [Y2 HR2]. destruct (HR2 ltac:(cbn; by rewrite bool_decide_eq_true_2)) as (nm0 & E2 & X2 & G2).
  rewrite runs_app in Hres'. cbn [snd] in Hres'. apply list.Forall_app in Hres' as [R3 Hres'].
  destruct (nrun A rs name (body ++ [round]) sb ext2 W2 T2 Hv3 Ho3 R3) as (is3 & ext3 & I3 & N3 & T3 & W3 & P3 & F3 & _ & Y3). specialize (Y3 m r Hm Hmr) as [Y3 (new3 & G3 & S3 & X3 & L3)].
  set (sc := (run_nevs (body ++ [round]) sb).1) in *.
  rewrite runs_app in Hres'. cbn [snd] in Hres'. apply list.Forall_app in Hres' as [R4 R5]. cbn [run_nevs fst snd] in R4, R5. rewrite Forall_singleton in R4.
  destruct (run_nev reading sc) as [sd rd] eqn:Ed. cbn [fst snd] in R4, R5. subst rd.
  destruct (nstep A rs name sc ext3 reading sd W3 T3 Hv4 Ho4 Ed) as (is4 & ext4 & I4 & N4 & T4 & W4 & P4 & F4 & _ & _ & _ & HR4).
  destruct (HR4 m isx eq_refl) as (x & E4 & X4 & G4).
  destruct (nrun A rs name post sd ext4 W4 T4 Hv5 Ho5 R5) as (is5 & ext5 & I5 & N5 & T5 & W5 & P5 & F5 & _ & _).
  destruct (ap_nevs post sd) as (new5 & G5 & _). set (se := (run_nevs post sd).1) in *.
  assert (Ese : (run_nevs l s).1 = se).
  { rewrite EL. rewrite runs_app. cbn [fst]. fold sa. rewrite runs_app. cbn [fst run_nevs]. rewrite Eb. cbn [fst]. rewrite runs_app. cbn [fst]. fold sc. rewrite runs_app. cbn [fst run_nevs]. by rewrite Ed. }
  rewrite Ese in *.
  set (names := words_of (is_round m) (round :: body ++ [round]) sa).
  assert (Enm : names = nm0 :: words_of (is_round m) (body ++ [round]) sb) by (unfold names; rewrite words_cons, E2, Eb; done).
  set (ws := words_of (is_round m) (body ++ [round]) sb) in *.
  assert (HLn : Z.of_nat (length names) = K).
  { rewrite Enm. cbn [length]. rewrite L3, share_app, calls_app, count_app. unfold K. cbn [share omap list_omap round]. rewrite bool_decide_eq_true_2 by done.
    change (count is_stab (calls [Call OStab])) with 1%nat. lia. }
  exists (is1 ++ is2 ++ is3 ++ is4 ++ is5), names, x. split_and!.
  { unfold emitted. rewrite I5, I4, I3, I2, I1. by rewrite !app_assoc. }
  { done. } { done. }
  { change (round :: body ++ [round; reading]) with ([round] ++ body ++ [round; reading]).
    replace (body ++ [round; reading]) with ((body ++ [round]) ++ [reading]) by (by rewrite <-app_assoc).
    rewrite runs_app. cbn [fst]. fold sa. rewrite runs_app. cbn [fst run_nevs]. rewrite Eb. cbn [fst]. rewrite runs_app. cbn [fst run_nevs]. fold sc. rewrite Ed. done. }
  intros k0 k1 cs' He Hp Hcl Hobs Hrd. set (own := ((., h * w - 1) <$> names) ++ [(x, 1)]).
  apply exec_app in He as (ka & He1 & He). apply exec_app in He as (kb & He2 & He). apply exec_app in He as (kc & He3 & He).
  assert (Hcla : syn_clean (qname name m) h w ka.2) by (by eapply (Y1 k0 ka k1 (is2 ++ is3 ++ is4 ++ is5)); [exact He1|apply exec_app; exists kb; split; [|apply exec_app; exists kc]|done|done]).
  destruct (Y2 ka kb He2 Hcla) as (Hclb & _ & HV2).
  destruct (Y3 kb kc k1 (is4 ++ is5) He3 He Hp Hclb) as (Hclc & HV3).
  assert (Hst3 : Forall (steady m) (body ++ [round])) by (apply list.Forall_app; split; [done|]; by constructor).
  specialize (HV3 Hst3 isx 0).
  assert (HFR : forall y z, y ∈ LatFacts.names sc -> y ∉ cx_names -> k1.1 (y, z) = kc.1 (y, z)).
  { intros y z Hy Hx. apply exec_app in He as (kd & He4 & He5). transitivity (kd.1 (y, z)); (eapply exec_frame; [eassumption|]); intros i Hi Hb.
    - destruct (F5 i _ Hi Hb) as [H|H]; [by apply Hx|by apply H, N4].
    - destruct (F4 i _ Hi Hb) as [H|H]; [by apply Hx|by apply H]. }
  assert (Hflips : flips_of isx c h w 0 (share m (body ++ [round])) = flips).
  { rewrite share_app. cbn [share omap list_omap round]. rewrite bool_decide_eq_true_2 by done. apply flips_snoc. }
  assert (Hown : own_part (counts_key cs' (cregs se)) (cregs se) own = counts_key cs' own).
  { apply own_part_key. apply (sublist_filter fst); [by apply cregs_names|]. eapply cregs_sublist; [reflexivity|].
    rewrite G5, G4, G3, G2. unfold own. rewrite fmap_app, Enm. rewrite <-!app_assoc. apply sublist_inserts_l. rewrite !fmap_cons. cbn [app fst snd]. apply sublist_skip.
    apply sublist_app; [|cbn [app]; apply sublist_skip, sublist_nil_l].
    rewrite <-list_fmap_compose. exact S3. }
  rewrite Hown. unfold own.
  eapply (C26_corrects c isx h w T D rx ep cs' names x (fun loc => kb.1 (nm0, syn_off isx h w + loc)) flips misread); [|done|done|done|by rewrite HLn| | | |done].
  - destruct (qubit_of rs name s ext m r Hw0 HT0 Hm Hmr) as (q & n & _ & _ & _ & Hoq & _). by apply Hoq.
  - rewrite HLn. split; [|done]. intros f Hf. split; [|].
    + unfold flips in Hf. apply flips_time in Hf. unfold K. lia.
    + eapply (share_range rs isx m r body Hmr); [|exact Hf]. by apply list.Forall_app in Ho3 as [? _].
  - intros t ra loc Hra Hloc. unfold recorded in Hra. rewrite list_lookup_fmap in Hra. destruct (names !! t) as [nm|] eqn:Et; [|done]. cbn in Hra. injection Hra as <-.
    cbn beta. rewrite (Hobs t nm loc Et Hloc). unfold syn_bit. rewrite <-xorb_assoc. f_equal.
    assert (Hsyn : is_syn h w (isx, loc)) by (unfold is_syn; by destruct isx).
    assert (Hn0 : nm0 ∈ words_of (is_round m) [round] sa) by (rewrite E2; by left).
    pose proof (HV2 nm0 Hn0 (isx, loc) Hsyn) as Hb0. cbn [fst snd] in Hb0. fold h w in Hb0.
    destruct (HV3 loc _ Hloc Hb0) as [HV _]. fold c h w in HV. rewrite Hflips in HV.
    rewrite Enm in Et. destruct t as [|t]; cbn [lookup list_lookup] in Et.
    + injection Et as <-. rewrite HFR; [|apply N3; unfold LatFacts.names; rewrite G2, fmap_app; apply elem_of_app; right; by left|done].
      assert (Hk : kc.1 (nm0, syn_off isx h w + loc) = kb.1 (nm0, syn_off isx h w + loc)).
      { eapply exec_frame; [exact He3|]. intros i Hi Hb. destruct (F3 i _ Hi Hb) as [H|H]; [by apply X2|]. apply H. unfold LatFacts.names. rewrite G2, fmap_app. apply elem_of_app. right. by left. }
      rewrite Hk. rewrite xorl_false; [by rewrite xorb_false_r|]. apply Forall_fmap, list.Forall_forall. intros f Hf%flips_time. cbn. by rewrite bool_decide_eq_false_2 by lia.
    + assert (Hin : nm ∈ ws) by (by eapply elem_of_list_lookup_2).
      rewrite HFR; [|unfold LatFacts.names; rewrite G3, fmap_app; apply elem_of_app; right; eapply (elem_of_list_fmap_1_alt r_name _ (Reg false nm (h * w - 1))); [|done]; eapply sublist_in; [exact S3|]; by apply (elem_of_list_fmap_1 (fun nm => Reg false nm (h * w - 1)))|by apply X3].
      rewrite (HV t nm Et). f_equal. f_equal. apply list_fmap_ext. intros ? f _. cbn. f_equal. apply bool_decide_ext. lia.
  - rewrite Hrd. by rewrite xorb_assoc_reverse, xorb_nilpotent, xorb_false_r.
Qed.
Print Assumptions C68_decoded.

(** ** One error before a cx *)
Lemma rounds_count m l : count is_stab (calls (share m l)) = length (filter (fun e => is_round m e = true) l).
Proof.
  induction l as [|e l IHl]; [done|]. rewrite filter_cons. destruct e as [[m' o|i j anc]|x m' i]; cbn [share omap list_omap is_round]; [|exact IHl|case_bool_decide; exact IHl].
  case_bool_decide as Hd.
  - rewrite calls_cons, count_step. unfold share in IHl. rewrite IHl. subst. destruct o; cbn [is_stab]; try done; rewrite ?bool_decide_eq_true_2; done.
  - destruct o; try exact IHl; rewrite ?bool_decide_eq_false_2 by done; exact IHl.
Qed.
Definition no_err (m : Z) (e : nev) : Prop := match e with NErr _ m' _ => m' <> m | _ => True end.
Lemma no_flips isx c h w t m l : Forall (no_err m) l -> flips_of isx c h w t (share m l) = [].
Proof.
  intros H. revert t. induction H as [|e l He _ IHl]; intros t; [done|]. destruct e as [[m' o|i j anc]|x m' i]; cbn [share omap list_omap]; [| |].
  - case_bool_decide; [cbn [flips_of]|]; apply IHl.
  - apply IHl.
  - rewrite bool_decide_eq_false_2 by done. apply IHl.
Qed.
Lemma one_flip isx c h w t m a x k b : Forall (no_err m) a -> Forall (no_err m) b -> exists t',
  flips_of isx c h w t (share m (a ++ NErr x m k :: b)) = if bool_decide (fault_of (Fault x k) = err_at isx c h w k) then [(t', k)] else [].
Proof.
  intros Ha Hb. revert t. induction Ha as [|e a He _ IHl]; intros t.
  - exists t. cbn [app]. rewrite share_err, no_flips by done. by rewrite app_nil_r.
  - cbn [app]. destruct e as [[m' o|i j anc]|y m' i]; cbn [share omap list_omap].
    + destruct (bool_decide (m' = m)); [cbn [flips_of]|]; apply IHl.
    + apply IHl.
    + rewrite bool_decide_eq_false_2 by done. apply IHl.
Qed.
Lemma nmild rs ms l v out w : Forall mild_call ms -> nclassicals rs ((NEv <$> ms) ++ l) v out w -> nclassicals rs l v out w.
Proof.
  intros H. revert out. induction H as [|e ms (i & o & -> & Ho) _ IHl]; intros out Hc; [done|]. cbn [app fmap list_fmap] in Hc.
  inversion Hc as [|? ? ? r v1 rs' ? H1 H2]; subst.
  assert (r = None /\ v1 = v) as [-> ->]; [|by apply IHl].
  inversion H1 as [? ? ? ? H1'|]; subst. clear H1.
  rewrite !elem_of_cons, elem_of_nil in Ho. destruct Ho as [->|[->|[->|[->|[]]]]]; inversion H1' as [| | |? ? ? Hb| |]; subst; try done; rewrite !elem_of_cons, elem_of_nil in Hb; naive_solver.
Qed.
Lemma nstabc rs i l v out w : nclassicals rs (NEv (ECall i OStab) :: l) v out w -> nclassicals rs l v out w.
Proof. apply (nmild rs [ECall i OStab]). repeat constructor. eexists _, _. split; [reflexivity|set_solver]. Qed.
Lemma nerrc rs x i k l v out w : inverted rs x i k = true -> nclassicals rs (NErr x i k :: l) v out w -> nclassicals rs l (learn v i (negb <$> v i)) out w.
Proof. intros Hi Hc. inversion Hc as [|? ? ? r v1 rs' ? H1 H2]; subst. inversion H1; subst. by rewrite Hi in H2. Qed.
Lemma ncxc rs i j anc l v out w b : v i = Some b -> nclassicals rs (NEv (ECx i j anc) :: l) v out w -> nclassicals rs l (learn (learn v i (Some b)) j (xorb b <$> v j)) out w.
Proof.
  intros Hv Hc. inversion Hc as [|? ? ? r v1 rs' ? H1 H2]; subst. inversion H1 as [? ? ? ? H1'|]; subst. inversion H1' as [| | | | |? ? ? ? b' Hb]; subst. rewrite Hv in Hb.
  destruct Hb as [|[= <-]]; done.
Qed.
Lemma nreadc rs i l v out w b : v i = Some b -> nclassicals rs (NEv (ECall i (OReadZ None)) :: l) v out w -> exists out', out = b :: out' /\ nclassicals rs l (learn v i (Some b)) out' w.
Proof.
  intros Hv Hc. inversion Hc as [|? ? ? r v1 rs' ? H1 H2]; subst. inversion H1 as [? ? ? ? H1'|]; subst.
  inversion H1' as [| |? ? ? Hb|? ? ? Hb|? ? ? Hb|]; subst; try (rewrite !elem_of_cons, elem_of_nil in Hb; naive_solver). rewrite Hv in Hb. destruct Hb as [|[= <-]]; [done|]. by exists rs'.
Qed.
Lemma mild_facts m ms : Forall mild_call ms -> Forall (steady m) (NEv <$> ms) /\ Forall (no_err m) (NEv <$> ms) /\ Forall (fun e => n_reading e = false) (NEv <$> ms).
Proof.
  intros H. rewrite !Forall_fmap. split_and!; (eapply Forall_impl; [exact H|]); intros e (i & o & -> & Ho); cbn; rewrite !elem_of_cons, elem_of_nil in Ho;
    destruct Ho as [->|[->|[->|[->|[]]]]]; done.
Qed.
Lemma words_none f l s : Forall (fun e => f e = false) l -> words_of f l s = [].
Proof. intros H. revert s. induction H as [|e l He _ IHl]; intros s; [done|]. cbn [words_of]. by rewrite He, IHl. Qed.

Lemma words_snoc f l e s : f e = true -> words_of f (l ++ [e]) s = words_of f l s ++ last_reg (run_nevs (l ++ [e]) s).1.
Proof. intros Hf. rewrite words_app, runs_app. cbn [words_of run_nevs fst]. by rewrite Hf, app_nil_r. Qed.
Theorem C68_spread (A : Amp) rs name s0 l0 i j anc ms1 ms2 ms3 (wrong x : bool) k (bc bt : bool) ri rj Ti Tj Di Dj rx ep :
  heap_fresh s0 -> NoDup (rq_params <$> rs) -> Forall (request_ok s0) rs -> Forall event_ok l0 ->
  rs !! Z.to_nat i = Some ri -> rs !! Z.to_nat j = Some rj -> 3 <= rq_h ri -> 1 < rq_h rj * rq_w rj ->
  Forall mild_call (ms1 ++ ms2 ++ ms3) -> inverted rs x i k = true ->
  let round m := NEv (ECall m OStab) in let reading m := NEv (ECall m (OReadZ None)) in
  let l := round i :: round j :: (NEv <$> ms1) ++ (if wrong then [NErr x i k] else []) ++ (NEv <$> ms2) ++ NEv (ECx i j anc) :: (NEv <$> ms3) ++
           [round i; reading i; round j; reading j] in
  Forall nev_ok l -> Forall (on_reg rs) l -> rx_ok rx ->
  decoder_for false (rq_h ri) (rq_w ri) Ti Di -> Z.of_nat (length (filter (fun e => is_round i e = true) l)) - 1 <= Ti ->
  decoder_for false (rq_h rj) (rq_w rj) Tj Dj -> Z.of_nat (length (filter (fun e => is_round j e = true) l)) - 1 <= Tj ->
  exists s1, new_treg name (rq_type <$> rs) (rq_params <$> rs) s0 = (s1, Ok tt) /\
  let s := (run_events l0 s1).1 in let s' := (run_nevs l s).1 in
  let decoded D m r y cs := correct_readout rx D ep (own_part (counts_key cs (cregs s')) (cregs s') (((., rq_h r * rq_w r - 1) <$> words_of (is_round m) l s) ++ [(y, 1)])) false in
  (Forall (eq (Ok tt)) (run_nevs l s).2 ->
   exists is yi yj, emitted s s' is /\ words_of n_reading l s = [yi; yj] /\
     forall k0 k1 : config A, exec is k0 k1 -> possible k1 -> syn_clean (qname name i) (rq_h ri) (rq_w ri) k0.2 -> syn_clean (qname name j) (rq_h rj) (rq_w rj) k0.2 ->
       stab k0.2 (LZ name i ri) bc -> stab k0.2 (LZ name j rj) bt ->
       decoded Di i ri yi k1.1 = Ok (Z.b2z bc) /\ decoded Dj j rj yj k1.1 = Ok (Z.b2z (xorb wrong (xorb bc bt)))).
Proof.
  intros Hhf Hnd Hok Hl0 Hri Hrj Hhi Hhj Hms Hinv round reading l Hev Hon Hrx HDi HTi HDj HTj.
  assert (Hcx : on_data (Z.of_nat (length rs)) (ECx i j anc)).
  { rewrite list.Forall_forall in Hon. apply (Hon (NEv (ECx i j anc))). unfold l. rewrite !elem_of_cons, !elem_of_app, elem_of_cons. tauto. }
  destruct Hcx as (Hi & Hj & Hij).
  apply list.Forall_app in Hms as [Hm1 [Hm2 Hm3]%list.Forall_app].
  set (err := if wrong then [NErr x i k] else []) in *.
  set (cx := NEv (ECx i j anc)) in *.
  set (bi := round j :: (NEv <$> ms1) ++ err ++ (NEv <$> ms2) ++ cx :: (NEv <$> ms3)).
  set (bj := (NEv <$> ms1) ++ err ++ (NEv <$> ms2) ++ cx :: (NEv <$> ms3) ++ [round i; reading i]).
  assert (Eli : l = [] ++ round i :: bi ++ round i :: reading i :: [round j; reading j]).
  { unfold l, bi. cbn [app]. rewrite <-?app_assoc. cbn [app]. rewrite <-?app_assoc. done. }
  assert (Elj : l = [round i] ++ round j :: bj ++ round j :: reading j :: []).
  { unfold l, bj. cbn [app]. rewrite <-?app_assoc. cbn [app]. rewrite <-?app_assoc. done. }
  assert (Hsti : Forall (steady i) bi).
  { unfold bi. constructor; [done|]. rewrite !list.Forall_app. split_and!; [by apply mild_facts|unfold err; destruct wrong; by repeat constructor|by apply mild_facts|constructor; [done|by apply mild_facts]]. }
  assert (Hstj : Forall (steady j) bj).
  { unfold bj. rewrite !list.Forall_app. split_and!; [by apply mild_facts|unfold err; destruct wrong; by repeat constructor|by apply mild_facts|constructor; [done|]].
    rewrite list.Forall_app. split; [by apply mild_facts|]. repeat constructor; done. }
  assert (Hvi : valid_size (rq_h ri) (rq_w ri)).
  { destruct (new_treg_weak rs name s0 Hhf Hnd Hok) as (s1 & E & _ & Hw & HT & _). rewrite <-(app_nil_r (request_sizes rs)) in Hw.
    destruct (qubit_of rs name s1 [] i ri Hw HT ltac:(lia) Hri) as (q & n & _ & _ & _ & Hoq & _). by apply Hoq. }
  set (fi := flips_of false (rcode ri) (rq_h ri) (rq_w ri) 0 (share i bi)).
  assert (Hfi : (length fi <= 1)%nat /\ logical_flip false (rcode ri) (rq_h ri) (rq_w ri) fi = wrong).
  { unfold fi, bi, err. destruct wrong.
    - assert (Hk : 0 <= k < rq_h ri * rq_w ri).
      { rewrite list.Forall_forall in Hon. destruct (Hon (NErr x i k)) as (_ & r & Hr & Hk); [unfold l, err; rewrite !elem_of_cons, !elem_of_app, elem_of_list_singleton; tauto|].
        rewrite Hri in Hr. by injection Hr as <-. }
      destruct (one_flip false (rcode ri) (rq_h ri) (rq_w ri) 0 i (round j :: (NEv <$> ms1)) x k ((NEv <$> ms2) ++ cx :: (NEv <$> ms3))) as (t & Ef).
      { constructor; [done|by apply mild_facts]. } { rewrite list.Forall_app. split; [by apply mild_facts|]. constructor; [done|by apply mild_facts]. }
      cbn [app] in Ef |- *. rewrite Ef. unfold inverted in Hinv. rewrite Hri in Hinv. apply andb_true_iff in Hinv as [-> Hkw]. split; [done|].
      unfold logical_flip. cbn [fmap list_fmap snd]. rewrite xorl_cons, xorb_false_r.
      apply (anti_err_log false (rcode ri) (rq_h ri) (rq_w ri) k Hvi Hk). cbn [on_readout]. apply bool_decide_eq_true in Hkw. apply Z.div_small. lia.
    - rewrite no_flips; [split; [cbn; lia|done]|]. constructor; [done|]. rewrite !list.Forall_app. split_and!; [by apply mild_facts|done|by apply mild_facts|]. constructor; [done|by apply mild_facts]. }
  set (fj := flips_of false (rcode rj) (rq_h rj) (rq_w rj) 0 (share j bj)).
  assert (Hfj : fj = []).
  { apply no_flips. unfold bj. rewrite !list.Forall_app. split_and!; [by apply mild_facts|unfold err; destruct wrong; by repeat constructor|by apply mild_facts|]. constructor; [done|].
    rewrite list.Forall_app. split; [by apply mild_facts|by repeat constructor]. }
  assert (Hci : 2 + Z.of_nat (count is_stab (calls (share i bi))) = Z.of_nat (length (filter (fun e => is_round i e = true) l))).
  { rewrite <-rounds_count, Eli. cbn [app]. change (round i :: bi ++ round i :: reading i :: [round j; reading j]) with ([round i] ++ bi ++ [round i; reading i; round j; reading j]).
    rewrite !share_app, !calls_app, !count_app. generalize (count is_stab (calls (share i bi))). intros X. cbn [share omap list_omap]. unfold round, reading. rewrite bool_decide_eq_true_2, bool_decide_eq_false_2 by done. cbn. repeat case_decide; try done; cbn; lia. }
  assert (Hcj : 2 + Z.of_nat (count is_stab (calls (share j bj))) = Z.of_nat (length (filter (fun e => is_round j e = true) l))).
  { rewrite <-rounds_count, Elj. change ([round i] ++ round j :: bj ++ round j :: reading j :: []) with ([round i; round j] ++ bj ++ [round j; reading j]).
    rewrite !share_app, !calls_app, !count_app. generalize (count is_stab (calls (share j bj))). intros X. cbn [share omap list_omap]. unfold round, reading. rewrite bool_decide_eq_false_2, bool_decide_eq_true_2 by done. cbn. repeat case_decide; try done; cbn; lia. }
  assert (Hext : 1 <= (extent false (rq_h ri) (rq_w ri) - 1) / 2) by (unfold extent; apply Z.div_le_lower_bound; lia).
  assert (Hmis : forall K n, forall f : Z * Z, f ∈ [] -> 1 <= f.1 < K - 1 /\ 0 <= f.2 < n) by (intros K n f Hf; by apply elem_of_nil in Hf).
  assert (Hhi1 : 1 < rq_h ri * rq_w ri) by (destruct (size_pos _ _ Hvi) as (_ & ? & _); nia).
  pose proof (C68_decoded A rs name s0 l0 [] i bi [round j; reading j] false ri Ti Di rx ep [] Hhf Hnd Hok Hl0 ltac:(lia) Hri Hhi1) as HI. cbn zeta in HI.
  cbn [read_op] in HI. fold (round i) (reading i) in HI. rewrite <-Eli in HI. specialize (HI Hev Hon Hsti HDi Hrx ltac:(rewrite Hci; exact HTi) (Hmis _ _)). fold fi in HI. specialize (HI ltac:(destruct Hfi as [Hf1 _]; cbn [length]; clear -Hf1 Hext; lia)).
  pose proof (C68_decoded A rs name s0 l0 [round i] j bj [] false rj Tj Dj rx ep [] Hhf Hnd Hok Hl0 ltac:(lia) Hrj Hhj) as HJ. cbn zeta in HJ.
  cbn [read_op] in HJ. fold (round j) (reading j) in HJ. rewrite <-Elj in HJ. specialize (HJ Hev Hon Hstj HDj Hrx ltac:(rewrite Hcj; exact HTj) (Hmis _ _)). fold fj in HJ. rewrite Hfj in HJ.
  assert (Hvj : valid_size (rq_h rj) (rq_w rj)).
  { destruct (new_treg_weak rs name s0 Hhf Hnd Hok) as (s1 & E & _ & Hw & HT & _). rewrite <-(app_nil_r (request_sizes rs)) in Hw.
    destruct (qubit_of rs name s1 [] j rj Hw HT ltac:(lia) Hrj) as (q & n & _ & _ & _ & Hoq & _). by apply Hoq. }
  specialize (HJ ltac:(cbn; apply Z.div_pos; [unfold extent; destruct (size_pos _ _ Hvj); lia|lia])).
  destruct (C68_program A rs name s0 l0 l Hhf Hnd Hok Hl0 Hev Hon) as (s1 & E & HP). exists s1. split; [done|]. cbn zeta. intros Hres.
  destruct HI as (s1' & E' & HI). rewrite E in E'. injection E' as <-. destruct HJ as (s1' & E' & HJ). rewrite E in E'. injection E' as <-. cbn zeta in *.
  destruct (HI Hres) as (is & ni & yi & Em & Eni & _ & Eyi & HI'). destruct (HJ Hres) as (isj & nj & yj & Emj & Enj & _ & Eyj & HJ').
  assert (isj = is) as -> by (unfold emitted in *; rewrite Em in Emj; by apply app_inv_head in Emj).
  destruct (HP Hres) as (isp & Emp & _ & HC). assert (isp = is) as -> by (unfold emitted in *; rewrite Em in Emp; by apply app_inv_head in Emp). clear HI HJ HP Emp Emj.
  set (s := (run_events l0 s1).1) in *.
  assert (Eri : words_of (is_round i) l s = ni).
  { rewrite Eni, Eli. cbn [app run_nevs fst]. change (round i :: bi ++ round i :: reading i :: [round j; reading j]) with ((round i :: bi) ++ [round i] ++ [reading i; round j; reading j]).
    rewrite app_assoc, words_app. cbn [app]. rewrite (words_none _ [reading i; round j; reading j]); [by rewrite app_nil_r|]. repeat constructor; cbn; by rewrite ?bool_decide_eq_false_2. }
  assert (Erj : words_of (is_round j) l s = nj).
  { rewrite Enj, Elj, words_app, (words_none _ [round i]) by (repeat constructor; cbn; by rewrite bool_decide_eq_false_2). cbn [app].
    change (round j :: bj ++ [round j; reading j]) with ((round j :: bj) ++ [round j] ++ [reading j]). rewrite app_assoc, words_app. rewrite (words_none _ [reading j]) by (by repeat constructor). by rewrite app_nil_r. }
  assert (Ew : words_of n_reading l s = [yi; yj]).
  { assert (EA : l = (((round i :: bi ++ [round i]) ++ [reading i]) ++ [round j]) ++ [reading j]) by (rewrite Eli; cbn [app]; rewrite <-!app_assoc; done).
    assert (EB : [] ++ round i :: bi ++ [round i; reading i] = (round i :: bi ++ [round i]) ++ [reading i]) by (cbn [app]; by rewrite <-!app_assoc).
    rewrite EB in Eyi. rewrite EA at 1. rewrite words_snoc by done. rewrite <-EA, Eyj. rewrite words_app, words_snoc by done. rewrite Eyi. cbn [words_of n_reading is_reading round].
    rewrite words_none; [done|]. unfold bi. repeat (rewrite Forall_cons || rewrite list.Forall_app). split_and!; try done; try (by apply (mild_facts i)). unfold err. destruct wrong; by repeat constructor. }
  exists is, yi, yj. split_and!; [done..|]. intros k0 k1 He Hp Hci' Hcj' Hbc Hbt. rewrite Eri, Erj, Ew in *.
  pose (v := learn (learn (fun _ => None) i (Some bc)) j (Some bt)).
  assert (Vi : v i = Some bc) by (unfold v; rewrite learn_ne by done; apply learn_eq).
  assert (Vj : v j = Some bt) by (unfold v; apply learn_eq).
  assert (Hk : knows rs name k0.2 v).
  { intros m rm b Hm Hrm Hb. destruct (decide (m = j)) as [->|Hmj]; [rewrite Vj in Hb; injection Hb as <-; rewrite Hrj in Hrm; by injection Hrm as <-|].
    destruct (decide (m = i)) as [->|Hmi]; [rewrite Vi in Hb; injection Hb as <-; rewrite Hri in Hrm; by injection Hrm as <-|].
    unfold v in Hb. by rewrite !learn_ne in Hb by done. }
  destruct (HC k0 k1 v He Hp Hk) as (w & Hcl & _). cbn [fmap list_fmap] in Hcl.
  assert (HO : k1.1 (yi, 0) = xorb wrong bc /\ k1.1 (yj, 0) = xorb wrong (xorb bc bt)).
  { unfold l in Hcl. do 2 apply nstabc in Hcl. apply nmild in Hcl; [|done].
    assert (exists u, u i = Some (xorb wrong bc) /\ u j = Some bt /\ nclassicals rs ((NEv <$> ms2) ++ cx :: (NEv <$> ms3) ++ [round i; reading i; round j; reading j]) u [k1.1 (yi, 0); k1.1 (yj, 0)] w) as (u & Ui & Uj & Hcl').
    { unfold err in Hcl. destruct wrong; cbn [app] in Hcl.
      - apply nerrc in Hcl; [|done]. eexists. split_and!; [..|exact Hcl]; [by rewrite learn_eq, Vi|by rewrite learn_ne].
      - exists v. by destruct bc. }
    apply nmild in Hcl'; [|done]. eapply ncxc in Hcl'; [|exact Ui]. apply nmild in Hcl'; [|done]. apply nstabc in Hcl'. rewrite Uj in Hcl'. cbn [fmap option_fmap option_map] in Hcl'.
    eapply nreadc in Hcl' as (o1 & E1 & Hcl'); [|by rewrite learn_ne, learn_eq by done]. apply nstabc in Hcl'.
    eapply nreadc in Hcl' as (o2 & E2 & Hcl'); [|by rewrite learn_ne, learn_eq by done]. injection E1 as -> <-. injection E2 as ->. split; [done|]. by destruct wrong, bc, bt. }
  destruct HO as [HO1 HO2]. destruct Hfi as [_ Hfl].
  assert (Hobs : forall h w names cs, observed false h w names [] cs cs) by (intros h w' nms cs a nm loc _ _; cbn; by rewrite xorb_false_r).
  split.
  - rewrite (HI' k0 k1 k1.1 He Hp Hci' (Hobs _ _ _ _) eq_refl). rewrite Hfl, HO1. by destruct wrong, bc.
  - rewrite (HJ' k0 k1 k1.1 He Hp Hcj' (Hobs _ _ _ _) eq_refl). rewrite HO2. cbn. by rewrite xorb_false_r.
Qed.
Print Assumptions C68_spread.

(** ** The hypotheses are met: an X error on the control, rounds, a cx, rounds, two readings *)
Definition ex_noisy (wrong : bool) : list nev :=
  let round m := NEv (ECall m OStab) in let reading m := NEv (ECall m (OReadZ None)) in
  round 0 :: round 1 :: (NEv <$> [ECall 0 OStab; ECall 1 OId]) ++ (if wrong then [NErr true 0 1] else []) ++ (NEv <$> [ECall 0 OStab; ECall 1 OStab]) ++
  NEv (ECx 0 1 (Some ("XXZZ"%string, set_d empty_params (Some (DNum 3))))) :: (NEv <$> [ECall 1 OStab; ECall 0 OZ]) ++ [round 0; reading 0; round 1; reading 1].
Lemma ex_mild : Forall mild_call ([ECall 0 OStab; ECall 1 OId] ++ [ECall 0 OStab; ECall 1 OStab] ++ [ECall 1 OStab; ECall 0 OZ]).
Proof. repeat constructor; eexists _, _; (split; [reflexivity|set_solver]). Qed.
Lemma ex_noisy_on : Forall nev_ok (ex_noisy true) /\ Forall (on_reg ex_rs) (ex_noisy true).
Proof.
  split.
  - repeat (apply Forall_cons_2; [try exact I|]); [|apply Forall_nil_2]. exists TXXZZ, 3, 3. split_and!; [reflexivity..|]. vm_compute. repeat split; discriminate || reflexivity.
  - repeat (apply Forall_cons_2; [cbn; try lia|]); [|apply Forall_nil_2]. split; [lia|]. eexists. split; [reflexivity|]. vm_compute. split; [discriminate|reflexivity].
Qed.
Example C68_ex :
  inverted ex_rs true 0 1 = true /\ Forall (eq (Ok tt)) (run_nevs (ex_noisy true) ex_reg).2 /\ Forall (eq (Ok tt)) (run_nevs (ex_noisy false) ex_reg).2 /\
  words_of n_reading (ex_noisy true) ex_reg = ["treg_0_readout_0"; "treg_1_readout_0"]%string /\
  words_of (is_round 1) (ex_noisy true) ex_reg = ["treg_1_c0"; "treg_1_c1"; "treg_1_c2"; "treg_1_c3"]%string /\
  length (filter (fun e => is_round 0 e = true) (ex_noisy true)) = 4%nat.
Proof.
  split_and!; [|vm_compute; repeat (apply Forall_cons_2; [reflexivity|]); apply Forall_nil_2|vm_compute; repeat (apply Forall_cons_2; [reflexivity|]); apply Forall_nil_2|vm_compute; reflexivity..].
  unfold inverted. cbn [ex_rs lookup list_lookup Z.to_nat]. apply andb_true_intro. split; [vm_compute; reflexivity|vm_compute; reflexivity].
Qed.
