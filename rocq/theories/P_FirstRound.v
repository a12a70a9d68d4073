(** Property C74: the first round of a memory experiment reports uniformly random outcomes for
    the stabilizers of the other type. *)
From Coq Require Import QArith Qcanon.
From Verif Require Import FirstRound P_Tests P_OtherType P_Fair P_Rate FairNorm Parse P_Parse ParseFacts P_EndToEnd Lookup P_Lookup P_LookupRun P_Logical FaultFacts RunFacts P_Threshold Noisy FairRun P_CircuitFaults.
From stdpp Require Export list.
Open Scope Z_scope.

(** ** Probabilities *)
Section probs.
Context (U : list qubit) (is : list instr) (c0 : cstate) (HU : NoDup U) (His : Forall (well_formed U) is).
Notation k0 := ((c0, zero_state) : config ZAmp).
(** Events that agree in all executions are equally likely. *)
Lemma prob_ext (E E' : cstate -> bool) : (forall k1 : config ZAmp, exec is k0 k1 -> possible k1 -> E k1.1 = E' k1.1) ->
  prob U is k0 E = prob U is k0 E'.
Proof.
  intros HE. unfold prob. f_equal. f_equal. apply zsum_ext. intros o Ho%elem_of_outcomes.
  destruct (decide (0 < norm2 U (run is o k0).2)) as [Hp|Hp].
  - rewrite HE; [done|apply exec_run; by exists o|by apply (wt_possible U is c0 HU His)].
  - pose proof (norm2_nonneg U (run is o k0).2) as Hn. replace (norm2 U (run is o k0).2) with 0 by lia. by destruct (E _), (E' _).
Qed.
(** If all combinations of some parities occur, they are equally likely. *)
Lemma prob_full (S : list (list clbit)) :
  (forall v, length v = length S -> exists k1 : config ZAmp, exec is k0 k1 /\ possible k1 /\ parities S k1.1 = v) ->
  forall v, length v = length S -> prob U is k0 (fun c => bool_decide (parities S c = v)) = (1 / qnat (2 ^ Z.of_nat (length S)))%Qc.
Proof.
  intros HS v Hv. set (m := mass U is k0 (fun c => bool_decide (parities S c = v))).
  assert (Hpos : forall w, length w = length S -> 0 < mass U is k0 (fun c => bool_decide (parities S c = w))).
  { intros w Hw. destruct (HS w Hw) as (k1 & He & Hp & E). apply exec_run in He as (o & Lo & ->). apply (mass_pos U is c0).
    exists o. split; [done|]. split; [by apply (wt_possible U is c0 HU His)|]. by apply bool_decide_eq_true_2. }
  assert (Hall : mass U is k0 (fun _ => true) = 2 ^ Z.of_nat (length S) * m).
  { unfold mass at 1. rewrite (class_sum (fun o => parities S (run is o k0).1) _ _ (outcomes (length S)) (NoDup_outcomes _)).
    2:{ intros o _ _. apply elem_of_outcomes, parities_length. }
    rewrite (zsum_ext _ (fun _ => m)).
    - transitivity (Z.of_nat (length (outcomes (length S))) * m).
      + generalize (outcomes (length S)). intros L. induction L as [|w L IHl]; [done|]. rewrite fmap_cons, zsum_cons, IHl. cbn [length]. lia.
      + f_equal. clear. induction (length S) as [|n IHn]; [done|]. cbn [outcomes]. rewrite app_length, !fmap_length.
        rewrite Nat2Z.inj_add, IHn, (Nat2Z.inj_succ n), Z.pow_succ_r by lia. lia.
    - intros w Hw%elem_of_outcomes. apply (mass_eq U is c0 HU His); by apply Hpos. }
  unfold prob. rewrite Hall. fold m. rewrite qnat_mul.
  assert (H1 : qnat m <> 0%Qc) by (apply qnat_pos, Hpos; done). assert (H2 : qnat (2 ^ Z.of_nat (length S)) <> 0%Qc) by (apply qnat_pos, Z.pow_pos_nonneg; lia). field. done.
Qed.
End probs.

(** ** The program *)
Lemma exec_possible_back is (k k' : config ZAmp) : exec is k k' -> possible k' -> possible k.
Proof. intros (o & _ & ->)%exec_run Hp. by eapply run_possible. Qed.
(** The stabilizers of one type in a register of a round. *)
Definition round_bits (isy : bool) (dh dw : Z) (r : string) : list clbit :=
  (fun loc => (r, (if isy then num_syn_z dh dw else 0) + loc)) <$> seqZ 0 (P_Graph.nsyn isy dh dw).
(** A memory experiment: prepare, a round, any rounds, gates and errors, a round, read out. *)
Definition memory_run (isx : bool) (s : st) (q : tqubit) (dh dw : Z) (l : list ev) (s' : st) (is : list instr) : Prop :=
  lat_ok s q dh dw /\ cregs s = [] /\
  run_evs q (Call (reset_op isx) :: Call OStab :: l ++ [Call OStab; Call (read_op isx)]) s = (s', Ok tt) /\
  emitted s s' is /\ Forall (body_ev dh dw) l.

Section memory.
Context (isx : bool) (s : st) (q : tqubit) (dh dw : Z) (l : list ev) (s' : st) (is : list instr) (Hm : memory_run isx s q dh dw l s' is).
Notation isy := (negb isx).
Context (c0 : cstate).
Notation k0 := ((c0, zero_state) : config ZAmp).
Notation c := (lat_code (tq_lat q)).
Notation name := (lat_name (tq_lat q)).
Lemma mem_valid : valid_size dh dw. Proof. destruct Hm as (Hok & _). by eapply lo_valid. Qed.
Definition mem_rest n := evs_code c name dh dw (bump_T n) (l ++ [Call OStab]) ++ op_code c name dh dw (evs_next (bump_T n) (l ++ [Call OStab])) (read_op isx).
Lemma mem_split n : has_cnt s q n ->
  is = op_code c name dh dw n (reset_op isx) ++ op_code c name dh dw n OStab ++ mem_rest n.
Proof.
  intros Hn. destruct Hm as (Hok & Hcr & Hr & Hem & Hl). rewrite (run_code _ _ _ _ _ _ _ _ Hok Hn Hr Hem).
  assert (Enx : ev_next n (Call (reset_op isx)) = n) by (by destruct isx).
  cbn [evs_code ev_code]. rewrite Enx. change (ev_next n (Call OStab)) with (bump_T n). f_equal. f_equal.
  unfold mem_rest. replace (l ++ [Call OStab; Call (read_op isx)]) with ((l ++ [Call OStab]) ++ [Call (read_op isx)]) by (by rewrite <-app_assoc).
  rewrite code_app. f_equal. cbn [evs_code ev_code]. by rewrite app_nil_r.
Qed.
Lemma mem_body : Forall (body_ev dh dw) (l ++ [Call OStab]).
Proof. destruct Hm as (_ & _ & _ & _ & Hl). apply list.Forall_app. split; [done|by constructor]. Qed.
Lemma mem_clean n kr : exec (op_code c name dh dw n (reset_op isx)) k0 kr -> syn_clean name dh dw kr.2.
Proof.
  intros He. pose proof mem_valid as Hv. apply (clean_evs c name dh dw Hv [Call (reset_op isx)] n k0 kr); [cbn [evs_code]; by rewrite app_nil_r|].
  destruct Hm as (Hok & _). by eapply syndromes_clean_iff, C10_initially_clean.
Qed.
(** Nothing after the first round writes its register. *)
Lemma mem_kept n (ka k1 : config ZAmp) loc : syn_clean name dh dw ka.2 -> exec (mem_rest n) ka k1 -> k1.1 (cname name (cT n + 1), loc) = ka.1 (cname name (cT n + 1), loc).
Proof.
  intros Hc He. pose proof mem_valid as Hv. unfold mem_rest in He. apply exec_app in He as (kb & He1 & He2).
  transitivity (kb.1 (cname name (cT n + 1), loc)).
  - set (n1 := evs_next (bump_T n) (l ++ [Call OStab])) in *.
    assert (Hb : (cname name (cT n + 1), loc) ∉ reg_bits (rdname name (cR n1 + 1), 1)).
    { intros (i & Ei & _)%elem_of_list_fmap. injection Ei as Ei _. symmetry in Ei. by apply rdname_cname in Ei. }
    clear Hm. destruct isx; [by apply (readx_spec _ _ _ _ Hv _ _ _ _ He2)|by apply (readz_spec _ _ _ _ Hv _ _ _ _ He2)].
  - eapply (body_frame c name dh dw Hv); [apply mem_body|exact He1|done|]. intros T HT E. cbn [fst] in E. apply cname_inj in E. cbn in HT. lia.
Qed.
Lemma first_cbit isz n (k : config ZAmp) loc : first_values isz name dh dw n k.1 loc = k.1 (cbit name dh dw (cT n + 1) (isz, loc)).
Proof. unfold first_values. by rewrite cbit_off. Qed.
(** Every combination of outcomes of the other type occurs. *)
Lemma mem_any n (v : Z -> bool) : has_cnt s q n -> exists k1 : config ZAmp, exec is k0 k1 /\ possible k1 /\
  forall loc, 0 <= loc < P_Graph.nsyn isy dh dw -> first_values isy name dh dw n k1.1 loc = v loc.
Proof.
  intros Hn. pose proof mem_valid as Hv. pose proof (mem_split n Hn) as Eis.
  assert (Hpr : forall i, i ∈ is -> proper i) by (destruct Hm as (Hok & _ & Hr & Hem & _); by eapply evs_proper).
  destruct (exec_possible_Z is k0 Hpr (zero_possible c0)) as (k1 & He & Hp). rewrite Eis in He.
  apply exec_app in He as (kr & He1 & He). apply exec_app in He as (ka & He2 & He3).
  destruct (first_round_any c name dh dw Hv isx n (cT n + 1) k0 kr ka v He1 He2 (exec_possible_back _ _ _ He3 Hp)) as (ka' & He2' & Hp' & HF).
  destruct (exec_possible_Z (mem_rest n) ka') as (k1' & He3' & Hp1); [intros i Hi; apply Hpr; rewrite Eis; rewrite !elem_of_app; auto|done|].
  exists k1'. split; [rewrite Eis; apply exec_app; exists kr; split; [done|]; apply exec_app; by exists ka'|]. split; [done|].
  intros loc Hl. rewrite <-HF by done. rewrite cbit_off. unfold first_values.
  apply (mem_kept n ka'); [|done]. exact (proj1 (proj2 (round_spec _ _ _ _ Hv _ _ _ (mem_clean n kr He1) ltac:(eassumption)))).
Qed.
Lemma mem_own n (k1 : config ZAmp) : has_cnt s q n -> exec is k0 k1 -> possible k1 ->
  forall loc, 0 <= loc < P_Graph.nsyn isx dh dw -> first_values isx name dh dw n k1.1 loc = false.
Proof.
  intros Hn He Hp loc Hl. pose proof mem_valid as Hv. pose proof (mem_split n Hn) as Eis. rewrite Eis in He.
  apply exec_app in He as (kr & He1 & He). apply exec_app in He as (ka & He2 & He3).
  rewrite <-(first_round_own c name dh dw Hv isx n n k0 kr ka k1 _ loc (mem_clean n kr He1) He1 He2 He3 Hp Hl).
  rewrite cbit_off. unfold first_values. apply (mem_kept n ka); [|done]. exact (proj1 (proj2 (round_spec _ _ _ _ Hv _ _ _ (mem_clean n kr He1) ltac:(eassumption)))).
Qed.
(** The outcomes of the other type in the first round determine the record. *)
Lemma mem_determined n (k1 k2 : config ZAmp) : has_cnt s q n -> exec is k0 k1 -> possible k1 -> exec is k0 k2 -> possible k2 ->
  (forall loc, 0 <= loc < P_Graph.nsyn isy dh dw -> first_values isy name dh dw n k1.1 loc = first_values isy name dh dw n k2.1 loc) ->
  counts_key k1.1 (cregs s') = counts_key k2.1 (cregs s').
Proof.
  intros Hn He1 Hp1 He2 Hp2 HF. pose proof mem_valid as Hv. pose proof (mem_own n k1 Hn He1 Hp1) as O1. pose proof (mem_own n k2 Hn He2 Hp2) as O2.
  destruct Hm as (Hok & Hcr & Hr & Hem & Hl).
  pose proof (fun isz => both_reported ZAmp isx isz s q dh dw l s' is k0 k1 n Hok Hn Hcr Hr Hem Hl (C10_initially_clean ZAmp q) He1 Hp1) as B1. cbn zeta in B1.
  pose proof (fun isz => both_reported ZAmp isx isz s q dh dw l s' is k0 k2 n Hok Hn Hcr Hr Hem Hl (C10_initially_clean ZAmp q) He2 Hp2) as B2. cbn zeta in B2.
  destruct (other_record ZAmp isx s q dh dw l s' is k0 k1 Hok Hcr Hr Hem Hl (C10_initially_clean ZAmp q) He1 Hp1) as (nm1 & last1 & Ec1 & _ & V1 & _).
  destruct (other_record ZAmp isx s q dh dw l s' is k0 k2 Hok Hcr Hr Hem Hl (C10_initially_clean ZAmp q) He2 Hp2) as (nm2 & last2 & Ec2 & _ & V2 & _).
  set (names := round_regs name n (2 + Z.of_nat (count is_stab (calls l)))) in *.
  destruct (B1 true) as [Ec _]. set (last := rdname name (cR n + 1)) in *.
  rewrite Ec in Ec1, Ec2. apply app_inj_tail in Ec1 as [_ [= <-]]. apply app_inj_tail in Ec2 as [_ [= <-]].
  rewrite Ec, !key_split. f_equal. f_equal.
  - apply bits_ext. intros i Hi. replace i with 0 by lia. by rewrite V1, V2.
  - f_equal. unfold recorded. rewrite <-!list_fmap_compose. apply list_fmap_ext. intros t nm Hnm. unfold compose. apply bits_ext. intros i Hi.
    assert (Hbit : forall isz loc, 0 <= loc < P_Graph.nsyn isz dh dw -> k1.1 (nm, syn_off isz dh dw + loc) = k2.1 (nm, syn_off isz dh dw + loc)).
    { intros isz loc Hloc. destruct (B1 isz) as [_ R1]. destruct (B2 isz) as [_ R2].
      rewrite (R1 t (fun i => k1.1 (nm, i)) loc); [|unfold recorded; by rewrite list_lookup_fmap, Hnm|done].
      rewrite (R2 t (fun i => k2.1 (nm, i)) loc); [|unfold recorded; by rewrite list_lookup_fmap, Hnm|done].
      unfold SpecFault.syn_bit. f_equal. destruct (decide (isz = isx)) as [->|Hne]; [by rewrite O1, O2|].
      assert (isz = isy) as -> by (destruct isz, isx; done). by apply HF. }
    pose proof (round_size dh dw Hv) as Hsz. unfold P_Graph.nsyn in Hbit. destruct (decide (i < num_syn_z dh dw)).
    + apply (Hbit false i). lia.
    + replace i with (num_syn_z dh dw + (i - num_syn_z dh dw)) by lia. apply (Hbit true). lia.
Qed.
End memory.

(** The bits of the first round as parities. *)
Lemma bits_parities (L : list clbit) (c : cstate) : parities ((fun b => [b]) <$> L) c = c <$> L.
Proof. unfold parities. rewrite <-list_fmap_compose. apply list_fmap_ext. intros ? b _. unfold compose. change (xorb (c b) false = c b). apply xorb_false_r. Qed.
Lemma round_bits_values isz dh dw name n (c : cstate) : c <$> round_bits isz dh dw (cname name (cT n + 1)) = first_values isz name dh dw n c <$> seqZ 0 (P_Graph.nsyn isz dh dw).
Proof. unfold round_bits. rewrite <-list_fmap_compose. apply list_fmap_ext. intros ? loc _. by destruct isz. Qed.
Lemma seq_map (f g : Z -> bool) n : f <$> seqZ 0 n = g <$> seqZ 0 n <-> forall i, 0 <= i < n -> f i = g i.
Proof.
  split.
  - intros E i Hi. assert (Hk : seqZ 0 n !! Z.to_nat i = Some i) by (apply lookup_seqZ; lia).
    apply (f_equal (lookup (Z.to_nat i))) in E. rewrite !list_lookup_fmap, Hk in E. by injection E.
  - intros H. apply list_fmap_ext. intros k x (-> & Hx)%lookup_seqZ. apply H. lia.
Qed.
Lemma list_as_fun (v : list bool) n : length v = Z.to_nat n -> v = (fun i => default false (v !! Z.to_nat i)) <$> seqZ 0 n.
Proof.
  intros Hv. apply list_eq. intros i. rewrite list_lookup_fmap. destruct (decide (i < length v)%nat) as [Hi|Hi].
  - assert (Hk : seqZ 0 n !! i = Some (Z.of_nat i)) by (apply lookup_seqZ; lia). rewrite Hk. cbn. rewrite Nat2Z.id.
    destruct (lookup_lt_is_Some_2 v i Hi) as [x ->]. done.
  - rewrite !lookup_ge_None_2; [done|rewrite seqZ_length; lia|lia].
Qed.
Lemma mem_first isx s q dh dw l s' is n (c0 : cstate) : memory_run isx s q dh dw l s' is -> has_cnt s q n ->
  exists rest, cregs s' = (cname (lat_name (tq_lat q)) (cT n + 1), dh * dw - 1) :: rest.
Proof.
  intros Hm Hn. destruct (mem_any isx s q dh dw l s' is Hm c0 n (fun _ => false) Hn) as (k1 & He & Hp & _).
  destruct Hm as (Hok & Hcr & Hr & Hem & Hl).
  destruct (both_reported ZAmp isx true s q dh dw l s' is (c0, zero_state) k1 n Hok Hn Hcr Hr Hem Hl (C10_initially_clean ZAmp q) He Hp) as [Ec _]. rewrite Ec.
  unfold round_regs. rewrite (seqZ_cons 0) by lia. rewrite !fmap_cons. cbn [app]. rewrite Z.add_0_r. by eexists.
Qed.
Lemma mem_formed U isx s q dh dw l s' is : memory_run isx s q dh dw l s' is -> covers U is -> Forall (well_formed U) is.
Proof. intros (Hok & _ & Hr & Hem & _) [_ HU]. by eapply evs_formed. Qed.
Lemma nsyn_nonneg isz dh dw : valid_size dh dw -> 0 <= P_Graph.nsyn isz dh dw.
Proof. intros Hv. pose proof (valid_counts dh dw Hv) as (_ & V1 & V2 & _). unfold P_Graph.nsyn. destruct isz; lia. Qed.

(** Two records are the same if and only if they agree on these outcomes. *)
Lemma mem_key isx s q dh dw l s' is n (c0 : cstate) (k1 k2 : config ZAmp) : memory_run isx s q dh dw l s' is -> has_cnt s q n ->
  exec is (c0, zero_state) k1 -> possible k1 -> exec is (c0, zero_state) k2 -> possible k2 ->
  counts_key k1.1 (cregs s') = counts_key k2.1 (cregs s') <->
  k1.1 <$> round_bits (negb isx) dh dw (cname (lat_name (tq_lat q)) (cT n + 1)) = k2.1 <$> round_bits (negb isx) dh dw (cname (lat_name (tq_lat q)) (cT n + 1)).
Proof.
  intros Hm Hn He1 Hp1 He2 Hp2. split.
  - intros E%key_parities. destruct (mem_first _ _ _ _ _ _ _ _ n c0 Hm Hn) as [rest Erg]. rewrite Erg in E. pose proof (lo_valid _ _ _ _ (proj1 Hm)) as Hv.
    unfold reg_singles in E. rewrite bind_cons in E. unfold parities in E. rewrite !fmap_app in E. apply app_inj_1 in E as [E _]; [|by rewrite !fmap_length].
    cbn [fst snd] in E. rewrite <-!list_fmap_compose in E. unfold compose in E. cbn [fmap list_fmap] in E.
    set (r := cname (lat_name (tq_lat q)) (cT n + 1)) in *.
    assert (Eb : forall i, 0 <= i < dh * dw - 1 -> k1.1 (r, i) = k2.1 (r, i)).
    { intros i Hi. pose proof (proj1 (seq_map (fun i => xorl [k1.1 (r, i)]) (fun i => xorl [k2.1 (r, i)]) (dh * dw - 1)) E i Hi) as Ei.
      cbn in Ei. by rewrite !xorb_false_r in Ei. }
    unfold round_bits. rewrite <-!list_fmap_compose. apply seq_map. intros loc Hl. unfold compose. apply Eb.
    pose proof (round_size dh dw Hv) as Hsz. pose proof (nsyn_nonneg true dh dw Hv). pose proof (nsyn_nonneg false dh dw Hv). unfold P_Graph.nsyn in *. destruct isx; cbn [negb] in *; lia.
  - rewrite !round_bits_values. intros E. eapply (mem_determined isx s q dh dw l s' is Hm c0 n); try done. by apply seq_map.
Qed.
Lemma choose_list {A B} (P : A -> B -> Prop) (L : list A) : (forall x, x ∈ L -> exists y, P x y) -> exists L', Forall2 P L L'.
Proof.
  induction L as [|x L IHl]; intros H; [by exists []|]. destruct (H x) as [y Hy]; [by left|]. destruct IHl as [L' HL]; [intros; apply H; by right|].
  exists (y :: L'). by constructor.
Qed.
Lemma outcomes_length n : Z.of_nat (length (outcomes n)) = 2 ^ Z.of_nat n.
Proof.
  induction n as [|n IHn]; [done|]. cbn [outcomes]. rewrite app_length, !fmap_length. rewrite Nat2Z.inj_add, IHn, (Nat2Z.inj_succ n), Z.pow_succ_r by lia. lia.
Qed.

Lemma qnat_mono a b : a <= b -> (qnat a <= qnat b)%Qc.
Proof. intros H. unfold qnat, Qcle. cbn [this Q2Qc]. rewrite (Qred_correct (inject_Z a)), (Qred_correct (inject_Z b)). unfold Qle. cbn. lia. Qed.
Lemma qnat_mono_inv a b : (qnat a <= qnat b)%Qc -> a <= b.
Proof. unfold qnat, Qcle. cbn [this Q2Qc]. rewrite (Qred_correct (inject_Z a)), (Qred_correct (inject_Z b)). unfold Qle. cbn. lia. Qed.
Lemma qnat_gt a : 0 < a -> (0 < qnat a)%Qc.
Proof. intros H. unfold qnat, Qclt. cbn [this Q2Qc]. rewrite (Qred_correct (inject_Z a)). unfold Qlt. change (Qred 0) with 0%Q. cbn. lia. Qed.

(** * C74 *)
(** In the first round the stabilizers of the type that was prepared are all reported as 0, and
    every combination of the outcomes of the other type is reported with the same probability. *)
Theorem C74_first_round U isx s q dh dw l s' is c0 : memory_run isx s q dh dw l s' is -> covers U is ->
  exists r rest, cregs s' = (r, dh * dw - 1) :: rest /\
    (forall v, Z.of_nat (length v) = P_Graph.nsyn (negb isx) dh dw ->
       prob U is (c0, zero_state) (fun c => bool_decide (c <$> round_bits (negb isx) dh dw r = v)) = (1 / qnat (2 ^ P_Graph.nsyn (negb isx) dh dw))%Qc) /\
    prob U is (c0, zero_state) (fun c => bool_decide (Forall (fun b => c b = false) (round_bits isx dh dw r))) = 1%Qc.
Proof.
  intros Hm HU. pose proof (mem_formed _ _ _ _ _ _ _ _ _ Hm HU) as His. pose proof (proj1 Hm) as Hok. destruct (lat_ok_cnt _ _ _ _ Hok) as [n Hn].
  pose proof (lo_valid _ _ _ _ Hok) as Hv. set (name := lat_name (tq_lat q)).
  destruct (mem_first _ _ _ _ _ _ _ _ n c0 Hm Hn) as [rest Erg]. fold name in Erg. exists (cname name (cT n + 1)), rest. split; [done|].
  set (r := cname name (cT n + 1)) in *. pose proof (nsyn_nonneg (negb isx) dh dw Hv) as Hns. split.
  - intros v Hv'. set (S := (fun b : clbit => [b]) <$> round_bits (negb isx) dh dw r).
    assert (HS : length S = Z.to_nat (P_Graph.nsyn (negb isx) dh dw)) by (unfold S, round_bits; by rewrite !fmap_length, seqZ_length).
    rewrite <-(prob_ext U is c0 (proj1 HU) His (fun c => bool_decide (parities S c = v))).
    2:{ intros k1 _ _. unfold S. by rewrite bits_parities. }
    rewrite (prob_full U is c0 (proj1 HU) His S); [by rewrite HS, Z2Nat.id by lia| |lia].
    intros w Hw. set (f := fun i => default false (w !! Z.to_nat i)).
    destruct (mem_any isx s q dh dw l s' is Hm c0 n f Hn) as (k1 & He & Hp & HF). exists k1. split; [done|]. split; [done|].
    unfold S. rewrite bits_parities. unfold r. rewrite round_bits_values, (list_as_fun w (P_Graph.nsyn (negb isx) dh dw)) by lia. by apply seq_map.
  - apply (C60_certain U is c0 _ (proj1 HU) His). intros k1 He Hp. apply bool_decide_eq_true_2, Forall_fmap, list.Forall_forall.
    intros loc Hl%elem_of_seqZ. rewrite <-(mem_own isx s q dh dw l s' is Hm c0 n k1 Hn He Hp loc) by lia. unfold compose, first_values, r, syn_off. by destruct isx.
Qed.
Print Assumptions C74_first_round.

(** The results of the shots: 2^n different strings, equally likely, where n is the number of
    stabilizers of the other type - whatever rounds, gates and errors follow the first round. *)
Theorem C74_strings U isx s q dh dw l s' is c0 : memory_run isx s q dh dw l s' is -> covers U is ->
  exists keys, NoDup keys /\ Z.of_nat (length keys) = 2 ^ P_Graph.nsyn (negb isx) dh dw /\
    forall key, prob U is (c0, zero_state) (fun c => bool_decide (counts_key c (cregs s') = key)) =
      if bool_decide (key ∈ keys) then (1 / qnat (2 ^ P_Graph.nsyn (negb isx) dh dw))%Qc else 0%Qc.
Proof.
  intros Hm HU. pose proof (mem_formed _ _ _ _ _ _ _ _ _ Hm HU) as His. pose proof (proj1 Hm) as Hok. destruct (lat_ok_cnt _ _ _ _ Hok) as [n Hn].
  pose proof (lo_valid _ _ _ _ Hok) as Hv. pose proof (nsyn_nonneg (negb isx) dh dw Hv) as Hns.
  set (name := lat_name (tq_lat q)). set (N := P_Graph.nsyn (negb isx) dh dw) in *. set (L := round_bits (negb isx) dh dw (cname name (cT n + 1))).
  set (reach := fun v key => exists k1 : config ZAmp, exec is (c0, zero_state) k1 /\ possible k1 /\ k1.1 <$> L = v /\ key = counts_key k1.1 (cregs s')).
  destruct (choose_list reach (outcomes (Z.to_nat N))) as [keys Hk].
  { intros v Hw%elem_of_outcomes. destruct (mem_any isx s q dh dw l s' is Hm c0 n (fun i => default false (v !! Z.to_nat i)) Hn) as (k1 & He & Hp & HF).
    exists (counts_key k1.1 (cregs s')), k1. split; [done|]. split; [done|]. split; [|done]. unfold L. rewrite round_bits_values, (list_as_fun v N) by done. by apply seq_map. }
  assert (HLl : forall c : cstate, length (c <$> L) = Z.to_nat N) by (intros c; unfold L, round_bits; by rewrite !fmap_length, seqZ_length).
  exists keys. split; [|split].
  - apply NoDup_alt. intros i j key Hi Hj. destruct (Forall2_lookup_r _ _ _ _ _ Hk Hi) as (v & Hvi & k1 & He1 & Hp1 & E1 & Ek1).
    destruct (Forall2_lookup_r _ _ _ _ _ Hk Hj) as (w & Hwj & k2 & He2 & Hp2 & E2 & Ek2).
    eapply NoDup_lookup; [apply NoDup_outcomes|exact Hvi|]. rewrite Hwj. f_equal. rewrite <-E1, <-E2. symmetry.
    apply (mem_key isx s q dh dw l s' is n c0 k1 k2 Hm Hn He1 Hp1 He2 Hp2). congruence.
  - rewrite <-(Forall2_length _ _ _ Hk), outcomes_length, Z2Nat.id by lia. done.
  - intros key. case_bool_decide as Hin.
    + apply elem_of_list_lookup in Hin as [i Hi]. destruct (Forall2_lookup_r _ _ _ _ _ Hk Hi) as (v & Hvi & k1 & He1 & Hp1 & E1 & Ek1).
      destruct (C74_first_round U isx s q dh dw l s' is c0 Hm HU) as (r & rest & Erg & HP & _).
      destruct (mem_first _ _ _ _ _ _ _ _ n c0 Hm Hn) as [rest' Erg']. rewrite Erg in Erg'. injection Erg' as -> <-.
      fold N in HP. rewrite <-(HP v). 2:{ rewrite <-E1, HLl. lia. }
      apply (prob_ext U is c0 (proj1 HU) His). intros k2 He2 Hp2. apply bool_decide_ext. rewrite <-E1, Ek1.
      apply (mem_key isx s q dh dw l s' is n c0 k2 k1 Hm Hn He2 Hp2 He1 Hp1).
    + apply (C60_certain U is c0 _ (proj1 HU) His). intros k1 He1 Hp1. apply bool_decide_eq_false_2. intros Ek. apply Hin.
      assert (Ho : k1.1 <$> L ∈ outcomes (Z.to_nat N)) by (apply elem_of_outcomes, HLl).
      apply elem_of_list_lookup in Ho as [i Hi]. destruct (Forall2_lookup_l _ _ _ _ _ Hk Hi) as (key' & Hi' & k2 & He2 & Hp2 & E2 & Ek2).
      assert (E : key = key'); [|rewrite E; by eapply elem_of_list_lookup_2]. rewrite Ek2, <-Ek. symmetry.
      apply (mem_key isx s q dh dw l s' is n c0 k2 k1 Hm Hn He2 Hp2 He1 Hp1). exact E2.
Qed.
Print Assumptions C74_strings.

(** A look-up table decoder, whatever its tables contain, decodes a shot with at most the
    probability (number of strings in its tables) / 2^n; otherwise it raises. *)
Definition decodes (st : dict_heap * lut) (ty : string) (regs : list (string * Z)) (c : cstate) : bool :=
  match correct_look_up st.1 st.2 (counts_key c regs) ty with Ok _ => true | Err _ => false end.
Theorem C74_table U isx s q dh dw l s' is c0 h os ty m0 t0 m1 t1 : memory_run isx s q dh dw l s' is -> covers U is ->
  known_type ty -> let st := lrun os (h, lut_reset) in tabled st ty 0 m0 t0 -> tabled st ty 1 m1 t1 ->
  (prob U is (c0, zero_state) (decodes st ty (cregs s')) <= qnat (Z.of_nat (size m0 + size m1)) / qnat (2 ^ P_Graph.nsyn (negb isx) dh dw))%Qc.
Proof.
  intros Hm HU Hty st T0 T1. pose proof (mem_formed _ _ _ _ _ _ _ _ _ Hm HU) as His. pose proof (lo_valid _ _ _ _ (proj1 Hm)) as Hv.
  pose proof (nsyn_nonneg (negb isx) dh dw Hv) as Hns. set (N := 2 ^ P_Graph.nsyn (negb isx) dh dw). assert (HN : 0 < N) by (by apply Z.pow_pos_nonneg; lia).
  set (k0 := ((c0, zero_state) : config ZAmp)). set (all := mass U is k0 (fun _ => true)).
  assert (Hall : 0 < all) by (apply (all_pos U is c0 (proj1 HU) His)).
  set (D := elements (dom m0 ∪ dom m1 : gset string)).
  assert (HD : Z.of_nat (length D) <= Z.of_nat (size m0 + size m1)).
  { unfold D. change (length (elements ?X)) with (size X). rewrite <-!size_dom. pose proof (size_union_alt (dom m0) (dom m1)). pose proof (subseteq_size (dom m1 ∖ dom m0) (dom m1) ltac:(set_solver)). lia. }
  assert (Hkey : forall key, N * mass U is k0 (fun c => bool_decide (counts_key c (cregs s') = key)) <= all).
  { intros key. destruct (C74_strings U isx s q dh dw l s' is c0 Hm HU) as (keys & _ & _ & HK). specialize (HK key). unfold prob in HK. fold k0 all N in HK.
    set (m := mass U is k0 (fun c => bool_decide (counts_key c (cregs s') = key))) in *. assert (Ha : qnat all <> 0%Qc) by (by apply qnat_pos). assert (Hn0 : qnat N <> 0%Qc) by (by apply qnat_pos).
    destruct (bool_decide (key ∈ keys)).
    - assert (E : N * m = all); [|lia]. apply qnat_inj. rewrite qnat_mul. replace (qnat m) with (qnat m / qnat all * qnat all)%Qc by (field; done). rewrite HK. field. done.
    - assert (E : m = 0); [|lia]. apply qnat_inj. rewrite qnat_0. replace (qnat m) with (qnat m / qnat all * qnat all)%Qc by (field; done). rewrite HK. ring. }
  set (a := mass U is k0 (decodes st ty (cregs s'))).
  assert (Hle : a <= zsum ((fun key => mass U is k0 (fun c => bool_decide (counts_key c (cregs s') = key))) <$> D)).
  { unfold a, mass. induction (outcomes (choices is)) as [|o O IHo]; [rewrite (zsum_zero _ D); [done|by intros]|].
    rewrite fmap_cons, zsum_cons.
    assert (E : zsum ((fun key => zsum ((fun o => if bool_decide (counts_key (run is o k0).1 (cregs s') = key) then norm2 U (run is o k0).2 else 0) <$> (o :: O))) <$> D) =
      zsum ((fun key => (if bool_decide (counts_key (run is o k0).1 (cregs s') = key) then norm2 U (run is o k0).2 else 0) + zsum ((fun o => if bool_decide (counts_key (run is o k0).1 (cregs s') = key) then norm2 U (run is o k0).2 else 0) <$> O)) <$> D)) by done.
    rewrite E, zsum_plus, class_one by apply NoDup_elements. pose proof (norm2_nonneg U (run is o k0).2) as Hn2.
    apply Z.add_le_mono; [|exact IHo]. destruct (decodes st ty (cregs s') (run is o k0).1) eqn:Ed; [|case_bool_decide; lia].
    rewrite bool_decide_eq_true_2; [done|]. unfold D. apply elem_of_elements.
    destruct (decide (counts_key (run is o k0).1 (cregs s') ∈ dom m0 ∪ dom m1)) as [|Hno]; [done|]. exfalso.
    rewrite not_elem_of_union, !not_elem_of_dom in Hno. destruct Hno as [N0 N1].
    destruct (C34_unseen h os _ ty None m0 t0 m1 t1 Hty T0 T1 N0 N1 ltac:(done)) as [_ Hu]. unfold decodes, st in Ed. by rewrite Hu in Ed. }
  assert (Hfin : N * a <= Z.of_nat (size m0 + size m1) * all).
  { assert (H : forall D, N * zsum ((fun key => mass U is k0 (fun c => bool_decide (counts_key c (cregs s') = key))) <$> D) <= Z.of_nat (length D) * all).
    { intros D'. induction D' as [|key D' IHd]; [cbn; lia|]. rewrite fmap_cons, zsum_cons. cbn [length]. specialize (Hkey key). lia. }
    specialize (H D). nia. }
  unfold prob. fold k0 a all. assert (Ha : qnat all <> 0%Qc) by (by apply qnat_pos). assert (Hn0 : qnat N <> 0%Qc) by (by apply qnat_pos).
  apply (Qcmult_lt_0_le_reg_r _ _ (qnat (N * all))); [apply qnat_gt; nia|]. rewrite qnat_mul.
  replace (qnat a / qnat all * (qnat N * qnat all))%Qc with (qnat (N * a)) by (rewrite qnat_mul; field; done).
  replace (qnat (Z.of_nat (size m0 + size m1)) / qnat N * (qnat N * qnat all))%Qc with (qnat (Z.of_nat (size m0 + size m1) * all)) by (rewrite qnat_mul; field; done).
  by apply qnat_mono.
Qed.
Print Assumptions C74_table.

(** A table that decodes every shot has at least 2^n strings. *)
Theorem C74_complete U isx s q dh dw l s' is c0 h os ty m0 t0 m1 t1 : memory_run isx s q dh dw l s' is -> covers U is ->
  known_type ty -> let st := lrun os (h, lut_reset) in tabled st ty 0 m0 t0 -> tabled st ty 1 m1 t1 ->
  (forall k1 : config ZAmp, exec is (c0, zero_state) k1 -> possible k1 -> decodes st ty (cregs s') k1.1 = true) ->
  2 ^ P_Graph.nsyn (negb isx) dh dw <= Z.of_nat (size m0 + size m1).
Proof.
  intros Hm HU Hty st T0 T1 Hd. pose proof (C74_table U isx s q dh dw l s' is c0 h os ty m0 t0 m1 t1 Hm HU Hty T0 T1) as H. fold st in H.
  pose proof (mem_formed _ _ _ _ _ _ _ _ _ Hm HU) as His. pose proof (nsyn_nonneg (negb isx) dh dw (lo_valid _ _ _ _ (proj1 Hm))) as Hns.
  rewrite (proj2 (proj1 (C60_certain U is c0 (decodes st ty (cregs s')) (proj1 HU) His)) Hd) in H.
  assert (HN : 0 < 2 ^ P_Graph.nsyn (negb isx) dh dw) by (by apply Z.pow_pos_nonneg; lia). set (N := 2 ^ _) in *.
  apply (Qcmult_le_compat_r _ _ (qnat N)) in H; [|by apply Qclt_le_weak, qnat_gt].
  assert (Hn0 : qnat N <> 0%Qc) by (by apply qnat_pos). rewrite Qcmult_1_l in H.
  replace (qnat (Z.of_nat (size m0 + size m1)) / qnat N * qnat N)%Qc with (qnat (Z.of_nat (size m0 + size m1))) in H by (field; done).
  by apply qnat_mono_inv.
Qed.
Print Assumptions C74_complete.

(** ** A concrete case *)
(** The 5x3 XZZX lattice of C27_ex with an X and a Z error on data qubit 7: 2^6
    equally likely strings. *)
Example C74_ex : exists q s' is keys, e2e_q.2 = Ok q /\ lat_code (tq_lat q) = XZZX /\ memory_run false e2e_q.1 q 5 3 (train_hist true) s' is /\
  NoDup keys /\ length keys = 64%nat /\
  (forall key, prob (qubits_of is) is (fun _ => false, zero_state) (fun c => bool_decide (counts_key c (cregs s') = key)) = if bool_decide (key ∈ keys) then (1 / qnat 64)%Qc else 0%Qc).
Proof.
  destruct e2e_ok as (q & Hq & Hok & Hc).
  assert (Hrun : run_ok e2e_q (Call OResetZ :: Call OStab :: train_hist true ++ [Call OStab; Call (OReadZ None)]) = true) by (vm_compute; reflexivity).
  destruct (run_ok_inv _ _ _ _ _ Hq Hok Hrun) as (s' & is & Hr & Hem).
  assert (Hm : memory_run false e2e_q.1 q 5 3 (train_hist true) s' is).
  { split; [exact Hok|]. split; [exact e2e_empty|]. split; [exact Hr|]. split; [exact Hem|]. repeat constructor; cbn; lia. }
  destruct (C74_strings (qubits_of is) false e2e_q.1 q 5 3 (train_hist true) s' is (fun _ => false) Hm (covers_of is)) as (keys & Hnd & Hlen & HK).
  exists q, s', is, keys. split; [exact Hq|]. split; [exact Hc|]. split; [exact Hm|]. split; [exact Hnd|].
  split; [apply Nat2Z.inj; rewrite Hlen; reflexivity|exact HK].
Qed.
