(** Property C66: errors before the first and after the last round are not corrected. *)
From Verif Require Import P_Code DecodeFacts RunFacts RxRef P_Decode P_Graph P_EndToEnd.
From stdpp Require Export list.
Open Scope Z_scope.

(** Calls other than rounds, and faults. *)
Definition quiet_ev (dh dw : Z) (e : ev) : Prop := match e with Call OStab => False | _ => body_ev dh dw e end.
(** A data qubit of the row (column) on which the readout is made. *)
Definition at_side (isx : bool) (dw k : Z) : bool := if isx then bool_decide (k mod dw = 0) else bool_decide (k < dw).
(** How many faults of the kind that stabilizers of the type detect are there. *)
Definition side_faults (isx : bool) (c : code) (dh dw : Z) (l : list ev) : nat :=
  length (filter (fun f => at_side isx dw f.2 = true) (flips_of isx c dh dw 0 l)).

Lemma odd_add a b : Nat.odd (a + b) = xorb (Nat.odd a) (Nat.odd b).
Proof. apply Nat.odd_add. Qed.
Lemma side_flip isx c dh dw l : valid_size dh dw -> (forall f, f ∈ l -> 0 <= f.2 < dh * dw) ->
  logical_flip isx c dh dw l = Nat.odd (length (filter (fun f => at_side isx dw f.2 = true) l)).
Proof.
  intros Hv. induction l as [|f l IHl]; intros Hl; [done|]. unfold logical_flip in *. rewrite fmap_cons, xorl_cons, IHl by (intros; apply Hl; by right).
  assert (Hf := anti_err_log isx c dh dw f.2 Hv (Hl f (elem_of_list_here _ _))).
  assert (anti (err_at isx c dh dw f.2) (logk isx c dh dw) = at_side isx dw f.2) as ->.
  { apply eq_bool_prop_intro. rewrite !Is_true_true, Hf. unfold on_readout, at_side. pose proof (size_pos dh dw Hv) as (_ & Hw & _). pose proof (Hl f (elem_of_list_here _ _)) as Hr.
    destruct isx; rewrite bool_decide_eq_true; [done|]. rewrite Z.div_small_iff by lia. lia. }
  rewrite filter_cons. destruct (at_side isx dw f.2) eqn:E; case_decide; try done.
  - cbn [length]. rewrite Nat.odd_succ, <-Nat.negb_odd. by destruct (Nat.odd _).
  - by rewrite xorb_false_l.
Qed.
Lemma flip_app isx c dh dw l1 l2 : logical_flip isx c dh dw (l1 ++ l2) = xorb (logical_flip isx c dh dw l1) (logical_flip isx c dh dw l2).
Proof. unfold logical_flip. by rewrite fmap_app, xorl_app. Qed.
Lemma flip_time isx c dh dw t t' l : logical_flip isx c dh dw (flips_of isx c dh dw t l) = logical_flip isx c dh dw (flips_of isx c dh dw t' l).
Proof.
  unfold logical_flip. assert (E : forall t, (fun f : Z * Z => anti (err_at isx c dh dw f.2) (logk isx c dh dw)) <$> flips_of isx c dh dw t l = (fun f : Z => anti (err_at isx c dh dw f) (logk isx c dh dw)) <$> (flips_of isx c dh dw t l).*2).
  { intros u. by rewrite <-list_fmap_compose. }
  rewrite !E. f_equal. f_equal. apply flips_shift.
Qed.
Lemma flips_of_app isx c dh dw t l1 l2 : flips_of isx c dh dw t (l1 ++ l2) = flips_of isx c dh dw t l1 ++ flips_of isx c dh dw (t + Z.of_nat (count is_stab (calls l1))) l2.
Proof.
  revert t. induction l1 as [|e l1 IHl]; intros t; [cbn; by rewrite Z.add_0_r|]. destruct e as [o|x i]; cbn [app flips_of].
  - rewrite IHl, calls_cons, count_step. f_equal. f_equal. destruct (is_stab o); lia.
  - rewrite calls_cons. case_bool_decide; cbn [app]; [f_equal|]; apply IHl.
Qed.
Lemma quiet_body dh dw l : Forall (quiet_ev dh dw) l -> Forall (body_ev dh dw) l.
Proof. intros H. eapply Forall_impl; [exact H|]. by intros [[]|]. Qed.
Lemma quiet_count dh dw l : Forall (quiet_ev dh dw) l -> count is_stab (calls l) = 0%nat.
Proof.
  induction 1 as [|e l He Hl IHl]; [done|]. rewrite calls_cons. destruct e as [o|x i]; [|done]. rewrite count_step, IHl. by destruct o.
Qed.

Lemma evs_app c name dh dw n l1 l2 : evs_code c name dh dw n (l1 ++ l2) = evs_code c name dh dw n l1 ++ evs_code c name dh dw (evs_next n l1) l2.
Proof. revert n. induction l1 as [|e l1 IHl]; intros n; [done|]. cbn [app evs_code evs_next]. by rewrite IHl, app_assoc. Qed.

(** ** The record of such a run *)
Lemma ends_record (R : Amp) isx s q dh dw pre l post s' is (k0 k1 : config R) rs rd misread cs' n :
  lat_ok s q dh dw -> has_cnt s q n -> cregs s = [] ->
  run_evs q (Call (reset_op isx) :: pre ++ Call OStab :: l ++ Call OStab :: post ++ [Call (read_op isx)]) s = (s', Ok tt) ->
  emitted s s' is -> Forall (quiet_ev dh dw) pre -> Forall (body_ev dh dw) l -> Forall (quiet_ev dh dw) post ->
  syndromes_clean q k0.2 -> exec is k0 k1 -> possible k1 ->
  cregs s' = rs ++ [rd] ->
  observed isx dh dw rs.*1 misread k1.1 cs' -> cs' (rd.1, 0) = k1.1 (rd.1, 0) ->
  let N := Z.of_nat (length rs) in let c := lat_code (tq_lat q) in let name := lat_name (tq_lat q) in
  let names := round_regs name n N in let flips := flips_of isx c dh dw 0 l in
  (forall m, m ∈ misread -> 1 <= m.1 < N - 1 /\ 0 <= m.2 < nsyn isx dh dw) ->
  N = 2 + Z.of_nat (count is_stab (calls l)) /\
  cregs s' = ((., dh * dw - 1) <$> names) ++ [(rdname name (cR n + 1), 1)] /\ Z.of_nat (length names) = N /\
  faults_within isx dh dw N flips misread /\
  reported isx c dh dw (first_values isx name dh dw n k1.1) flips misread (recorded cs' names) /\
  cs' (rdname name (cR n + 1), 0) =
    xorb (xorb (Nat.odd (count (inverts isx) (calls (pre ++ l ++ post)))) (xorb (Nat.odd (side_faults isx c dh dw pre)) (Nat.odd (side_faults isx c dh dw post))))
         (logical_flip isx c dh dw flips).
Proof.
  intros Hok Hn Hcr Hr Hem Hpre Hl Hpost Hcl He Hp Hrs Hobs Hrd N c name names flips Hmis.
  pose proof (lo_valid _ _ _ _ Hok) as Hv. pose proof (quiet_body _ _ _ Hpre) as Hpre'. pose proof (quiet_body _ _ _ Hpost) as Hpost'.
  pose proof (quiet_count _ _ _ Hpre) as Cpre. pose proof (quiet_count _ _ _ Hpost) as Cpost.
  set (L' := l ++ Call OStab :: post). set (L := pre ++ Call OStab :: L').
  assert (HL : Call (reset_op isx) :: pre ++ Call OStab :: l ++ Call OStab :: post ++ [Call (read_op isx)] = (Call (reset_op isx) :: L) ++ [Call (read_op isx)]).
  { unfold L, L'. cbn [app]. rewrite <-app_assoc. cbn [app]. by rewrite <-app_assoc. }
  rewrite HL in Hr. pose proof Hr as Hr0.
  destruct (split_last _ _ _ _ _ _ _ _ _ _ _ Hok Hn Hr Hem He) as (s1 & ka & n1 & Hr1 & Hok1 & Hn1 & Hro & He1 & He2 & Hregs).
  fold c in He1, He2. fold name in He1, He2, Hregs.
  pose proof (run_evs_inv _ _ _ _ _ _ _ Hok Hn Hr1) as HP1. fold c name in HP1.
  assert (En1 : n1 = evs_next n (Call (reset_op isx) :: L)).
  { pose proof (po_cnt _ _ _ _ _ _ _ _ HP1) as Hn1'. by eapply has_cnt_inj. }
  assert (HL' : Forall (body_ev dh dw) L') by (apply Forall_app; split; [done|by constructor]).
  assert (HLb : Forall (body_ev dh dw) L) by (apply Forall_app; split; [done|by constructor]).
  assert (Hcnt : count is_stab (calls L') = S (count is_stab (calls l))).
  { unfold L'. rewrite calls_app, count_app, calls_cons, count_step, Cpost. cbn [is_stab]. lia. }
  assert (HcL : Z.of_nat (count is_stab (calls L)) = 2 + Z.of_nat (count is_stab (calls l))).
  { unfold L. rewrite calls_app, count_app, calls_cons, count_step, Hcnt, Cpre. cbn [is_stab]. lia. }
  (* registers *)
  destruct (body_regs name dh dw L n HLb) as (Rg & RT & RR & _).
  assert (Enx : ev_next n (Call (reset_op isx)) = n) by (by destruct isx).
  assert (ER : cR n1 = cR n) by (rewrite En1; cbn [evs_next]; by rewrite Enx).
  set (nms := round_regs name n (Z.of_nat (count is_stab (calls L)))).
  assert (Hall : cregs s' = ((., dh * dw - 1) <$> nms) ++ [(rdname name (cR n + 1), 1)]).
  { rewrite (cregs_app s1 s' _ Hregs), (cregs_app s s1 _ (po_regs _ _ _ _ _ _ _ _ HP1)), Hcr. cbn [app evs_reg].
    rewrite Enx. assert (ev_reg name dh dw n (Call (reset_op isx)) = []) as -> by (by destruct isx). cbn [app].
    rewrite Rg, round_names by (done || lia). unfold nms, round_regs. f_equal. rewrite <-ER. by destruct isx. }
  rewrite Hall in Hrs. apply app_inj_tail in Hrs as [Ers Erd].
  assert (Enm : rs.*1 = nms) by (rewrite <-Ers, <-list_fmap_compose; apply list_fmap_id).
  assert (HN : N = 2 + Z.of_nat (count is_stab (calls l))).
  { unfold N. rewrite <-Ers, fmap_length. unfold nms, round_regs. rewrite fmap_length, seqZ_length, HcL. lia. }
  assert (Enms : names = nms) by (unfold names, nms; by rewrite HN, HcL).
  split; [done|]. rewrite Hall, Enms. rewrite Enm in Hobs. rewrite <-Erd in Hrd. cbn [fst] in Hrd.
  (* values of the rounds *)
  cbn [evs_code] in He1. apply exec_app in He1 as (kr & Hre & He1). rewrite Enx in He1.
  assert (Hclr : syn_clean name dh dw kr.2).
  { apply (clean_evs c name dh dw Hv [Call (reset_op isx)] n k0 kr); [cbn [evs_code]; by rewrite app_nil_r|]. by eapply syndromes_clean_iff. }
  unfold L in He1. rewrite evs_app in He1. apply exec_app in He1 as (kp & Hpr & He1).
  assert (Hclp : syn_clean name dh dw kp.2) by (by eapply clean_evs).
  destruct (body_regs name dh dw pre n Hpre') as (_ & ET & _ & _). rewrite Cpre, Z.add_0_r in ET. set (n0 := evs_next n pre) in *.
  pose proof (rounds_values c name dh dw Hv isx L' n0 kp ka k1 _ HL' He1 He2 Hp Hclp) as HV. cbn zeta in HV. rewrite ET in HV.
  assert (HF : flips_of isx c dh dw 0 L' = flips ++ flips_of isx c dh dw (Z.of_nat (count is_stab (calls l)) + 1) post).
  { unfold L', flips. rewrite flips_of_app. done. }
  assert (Hfr : forall s loc, k1.1 (cname name s, loc) = ka.1 (cname name s, loc)).
  { intros t loc. assert (Hb : (cname name t, loc) ∉ reg_bits (rdname name (cR n1 + 1), 1)).
    { intros (i & Ei & _)%elem_of_list_fmap. injection Ei as Ei _. symmetry in Ei. by apply rdname_cname in Ei. }
    destruct isx; [by apply (readx_spec _ _ _ _ Hv _ _ _ _ He2)|by apply (readz_spec _ _ _ _ Hv _ _ _ _ He2)]. }
  split; [done|]. split_and!.
  - rewrite <-Enm. by rewrite fmap_length.
  - split; [|done]. intros f Hf. split; [|eapply flips_range; [exact Hl|exact Hf]]. apply flips_time in Hf. lia.
  - intros t r loc Ht Hloc. unfold recorded in Ht. apply list_lookup_fmap_inv in Ht as (nm & -> & Hnm).
    rewrite (Hobs t nm loc Hnm Hloc). unfold SpecFault.syn_bit, first_values. rewrite <-xorb_assoc. f_equal.
    unfold nms in Hnm. apply list_lookup_fmap_inv in Hnm as (j & -> & Hj). apply lookup_seqZ in Hj as [-> Hj].
    rewrite !Hfr. rewrite Z.add_0_l. destruct (HV loc Hloc) as [HV1 _]. rewrite HV1 by (rewrite Hcnt; lia). f_equal.
    rewrite HF, fmap_app, xorl_app, (xorl_false (_ <$> flips_of _ _ _ _ _ post)); [by rewrite xorb_false_r|].
    apply Forall_fmap, list.Forall_forall. intros f Hf%flips_time. cbn. by rewrite bool_decide_eq_false_2 by lia.
  - rewrite Hrd. assert (Hb : read_bit s' None (rdname name (cR n + 1), 0)).
    { unfold read_bit. cbn. rewrite Hregs, <-ER. destruct isx; cbn [read_op op_reg eff]; rewrite last_snoc; eauto. }
    assert (Hodd : forall f, f OStab = false -> count f (calls L) = count f (calls (pre ++ l ++ post))).
    { intros f Hf. unfold L, L'. rewrite !calls_app, !calls_cons, calls_app, calls_cons, !count_app, !count_step, count_app, count_step, Hf. lia. }
    assert (Hrg : forall l', Forall (body_ev dh dw) l' -> forall f, f ∈ flips_of isx c dh dw 0 l' -> 0 <= f.2 < dh * dw).
    { intros l' Hl' f Hf. eapply flips_range; [exact Hl'|exact Hf]. }
    assert (Hfl : xorb (xorb (Nat.odd (side_faults isx c dh dw pre)) (Nat.odd (side_faults isx c dh dw post))) (logical_flip isx c dh dw flips) = anti (logk isx c dh dw) (faults L)).
    { rewrite (anti_faults isx c dh dw _ 0 L (of_type_log _ _ _ _) HLb).
      change (xorb (xorb (Nat.odd (side_faults isx c dh dw pre)) (Nat.odd (side_faults isx c dh dw post))) (logical_flip isx c dh dw flips) = logical_flip isx c dh dw (flips_of isx c dh dw 0 L)).
      unfold side_faults. rewrite <-(side_flip isx c dh dw _ Hv (Hrg pre Hpre')), <-(side_flip isx c dh dw _ Hv (Hrg post Hpost')). unfold L. rewrite flips_of_app, flip_app. cbn [flips_of is_stab].
      rewrite (flip_time isx c dh dw (0 + Z.of_nat (count is_stab (calls pre)) + 1) 0 L'), HF, flip_app.
      rewrite (flip_time isx c dh dw (Z.of_nat (count is_stab (calls l)) + 1) 0 post).
      destruct (logical_flip isx c dh dw flips), (logical_flip isx c dh dw (flips_of isx c dh dw 0 pre)), (logical_flip isx c dh dw (flips_of isx c dh dw 0 post)); done. }
    rewrite (xorb_assoc_reverse (Nat.odd _)), Hfl, <-(Hodd (inverts isx)) by (by destruct isx). destruct isx.
    + eapply (C11_x_with_faults R s q dh dw L None s' is); try done. eapply Forall_impl; [exact HLb|]. intros [o|] ?; [by destruct o|done].
    + eapply (C11_z_with_faults R s q dh dw L None s' is); try done. eapply Forall_impl; [exact HLb|]. intros [o|] ?; [by destruct o|done].
Qed.
Lemma ends_lattice (R : Amp) s q dh dw pre l s' is (k0 k1 : config R) rs rd misread cs' n :
  lat_ok s q dh dw -> has_cnt s q n -> cregs s = [] ->
  run_evs q (Call OResetZ :: pre ++ Call OStab :: l ++ [Call OLatZ]) s = (s', Ok tt) ->
  emitted s s' is -> Forall (quiet_ev dh dw) pre -> Forall (body_ev dh dw) l ->
  syndromes_clean q k0.2 -> exec is k0 k1 -> possible k1 ->
  cregs s' = rs ++ [rd] ->
  observed false dh dw rs.*1 misread k1.1 cs' -> (forall j, 0 <= j < dh * dw -> cs' (rd.1, j) = k1.1 (rd.1, j)) ->
  let N := Z.of_nat (length rs) in let c := lat_code (tq_lat q) in let name := lat_name (tq_lat q) in
  let flips := flips_of false c dh dw 0 l in let last := lrname name (cL n + 1) in
  (forall m, m ∈ misread -> 1 <= m.1 < N /\ 0 <= m.2 < nsyn false dh dw) ->
  N = 1 + Z.of_nat (count is_stab (calls l)) /\
  exists names nm, round_regs name n N = names ++ [nm] /\
  let rounds := recorded cs' (names ++ [nm]) ++ [final_round dh dw (fun j => cs' (last, j)) (fun i => cs' (nm, i))] in
  cregs s' = ((., dh * dw - 1) <$> names ++ [nm]) ++ [(last, dh * dw)] /\ Z.of_nat (length rounds) = N + 1 /\
  faults_within false dh dw (N + 1) flips misread /\
  reported false c dh dw (first_values false name dh dw n k1.1) flips misread rounds /\
  xorl ((fun j => cs' (last, j)) <$> seqZ 0 dw) =
    xorb (xorb (Nat.odd (count is_x (calls (pre ++ l)))) (Nat.odd (side_faults false c dh dw pre))) (logical_flip false c dh dw flips).
Proof.
  intros Hok Hn Hcr Hr Hem Hpre Hl Hcl He Hp Hrs Hobs Hrd N c name flips last Hmis.
  pose proof (lo_valid _ _ _ _ Hok) as Hv. pose proof (quiet_body _ _ _ Hpre) as Hpre'. pose proof (quiet_count _ _ _ Hpre) as Cpre.
  set (L := pre ++ Call OStab :: l).
  assert (HL : Call OResetZ :: pre ++ Call OStab :: l ++ [Call OLatZ] = (Call OResetZ :: L) ++ [Call OLatZ]) by (unfold L; cbn [app]; by rewrite <-app_assoc).
  rewrite HL in Hr. pose proof Hr as Hr0.
  destruct (split_last _ _ _ _ _ _ _ _ _ _ _ Hok Hn Hr Hem He) as (s1 & ka & n1 & Hr1 & Hok1 & Hn1 & Hro & He1 & He2 & Hregs).
  fold c in He1, He2. fold name in He1, He2, Hregs.
  pose proof (run_evs_inv _ _ _ _ _ _ _ Hok Hn Hr1) as HP1. fold c name in HP1.
  assert (En1 : n1 = evs_next n (Call OResetZ :: L)).
  { pose proof (po_cnt _ _ _ _ _ _ _ _ HP1) as Hn1'. by eapply has_cnt_inj. }
  assert (HLb : Forall (body_ev dh dw) L) by (apply Forall_app; split; [done|by constructor]).
  assert (HcL : Z.of_nat (count is_stab (calls L)) = 1 + Z.of_nat (count is_stab (calls l))).
  { unfold L. rewrite calls_app, count_app, calls_cons, count_step, Cpre. cbn [is_stab]. lia. }
  destruct (body_regs name dh dw L n HLb) as (Rg & _ & _ & RL).
  assert (EL : cL n1 = cL n) by (by rewrite En1).
  set (nms := round_regs name n (Z.of_nat (count is_stab (calls L)))).
  assert (Hall : cregs s' = ((., dh * dw - 1) <$> nms) ++ [(last, dh * dw)]).
  { rewrite (cregs_app s1 s' _ Hregs), (cregs_app s s1 _ (po_regs _ _ _ _ _ _ _ _ HP1)), Hcr. cbn [app evs_reg ev_reg op_reg ev_next op_next].
    rewrite Rg, round_names by (done || lia). unfold last. by rewrite EL. }
  rewrite Hall in Hrs. apply app_inj_tail in Hrs as [Ers Erd].
  assert (Enm : rs.*1 = nms) by (rewrite <-Ers, <-list_fmap_compose; apply list_fmap_id).
  assert (Hlen : length nms = length rs) by (by rewrite <-Ers, fmap_length).
  assert (HN : N = 1 + Z.of_nat (count is_stab (calls l))).
  { unfold N. rewrite <-Hlen. unfold nms, round_regs. rewrite fmap_length, seqZ_length, HcL. lia. }
  split; [done|]. rewrite Enm in Hobs. rewrite <-Erd in Hrd. cbn [fst] in Hrd.
  cbn [evs_code ev_code] in He1. apply exec_app in He1 as (kr & Hre & He1). cbn [ev_next op_next] in He1.
  assert (Hclr : syn_clean name dh dw kr.2).
  { apply (clean_evs c name dh dw Hv [Call OResetZ] n k0 kr); [cbn [evs_code ev_code]; by rewrite app_nil_r|]. by eapply syndromes_clean_iff. }
  unfold L in He1. rewrite evs_app in He1. apply exec_app in He1 as (kp & Hpr & He1).
  assert (Hclp : syn_clean name dh dw kp.2) by (by eapply clean_evs).
  destruct (body_regs name dh dw pre n Hpre') as (_ & ET & _ & _). rewrite Cpre, Z.add_0_r in ET. set (n0 := evs_next n pre) in *.
  pose proof (rounds_values c name dh dw Hv false l n0 kp ka k1 _ Hl He1 He2 Hp Hclp) as HV. cbn zeta in HV. rewrite ET in HV.
  assert (Hfr : forall s loc, k1.1 (cname name s, loc) = ka.1 (cname name s, loc)).
  { intros t loc. apply (exec_frame _ _ _ _ He2). intros i Hi. change OLatZ with (lat_op false) in Hi. rewrite lat_code_eq in Hi.
    apply elem_of_app in Hi as [(j & -> & _)%elem_of_list_fmap|Hi]; [apply not_elem_of_nil|].
    apply elem_of_app in Hi as [(j & -> & _)%elem_of_list_fmap|Hi]; [|apply elem_of_list_singleton in Hi as ->; apply not_elem_of_nil].
    intros E%elem_of_list_singleton. injection E as E _. symmetry in E. by apply lrname_cname in E. }
  assert (Hne : nms <> []) by (intros E; rewrite E in Hlen; cbn in Hlen; unfold N in HN; lia).
  destruct (exists_last Hne) as (names & nm & Enms). exists names, nm.
  assert (HEN : round_regs name n N = nms) by (unfold nms; by rewrite HN, HcL).
  split; [by rewrite HEN|]. rewrite Hall.
  assert (Hval : forall loc, 0 <= loc < nsyn false dh dw -> xorl ((fun j => cs' (last, j)) <$> plaq_data (geom_z dh dw loc)) =
     xorb (first_values false name dh dw n k1.1 loc) (xorl ((fun f => anti (err_at false c dh dw f.2) (stabk false c dh dw loc)) <$> flips_of false c dh dw 0 l))).
  { intros loc Hloc. unfold first_values. rewrite Hfr. destruct (plaq_data_z dh dw loc Hv Hloc) as (_ & Hnd & _ & Hin).
    destruct (HV loc Hloc) as [_ Hst].
    rewrite <-(zside_plaq c dh dw loc) in Hst by done.
    rewrite <-(zside_plaq c dh dw loc) by done.
    rewrite <-(lat_spec c name dh dw Hv n1 false ka k1 (plaq_data (geom_z dh dw loc)) _ Hnd Hin He2 Hp Hst).
    apply xorl_ext. intros j Hj. rewrite EL. by apply Hrd, Hin. }
  rewrite Enms. rewrite Enms in Hobs, Hlen. intros rounds.
  assert (HRl : length rounds = S (length rs)) by (unfold rounds, recorded; rewrite app_length, fmap_length, Hlen; cbn; lia).
  split; [done|]. split_and!.
  - rewrite HRl. unfold N. lia.
  - split; [|intros m Hm%Hmis; lia].
    intros f Hf. split; [|eapply flips_range; [exact Hl|exact Hf]]. apply flips_time in Hf. lia.
  - intros t r loc Ht Hloc. unfold SpecFault.syn_bit. unfold rounds in Ht. apply lookup_app_Some in Ht as [Ht|[Hge Ht]].
    + unfold recorded in Ht. apply list_lookup_fmap_inv in Ht as (nm' & -> & Hnm).
      rewrite (Hobs t nm' loc Hnm Hloc). rewrite <-xorb_assoc. f_equal.
      rewrite <-Enms in Hnm. unfold nms in Hnm. apply list_lookup_fmap_inv in Hnm as (j & -> & Hj). apply lookup_seqZ in Hj as [-> Hj].
      unfold first_values. rewrite !Hfr. rewrite Z.add_0_l. apply HV; [done|]. lia.
    + unfold recorded in Hge, Ht. rewrite fmap_length in Hge, Ht. apply list_lookup_singleton_Some in Ht as [Et <-].
      assert (Ht : Z.of_nat t = N) by (unfold N; lia). rewrite Ht.
      unfold final_round. unfold syn_off. rewrite Z.add_0_l, bool_decide_eq_true_2 by (unfold nsyn in Hloc; lia).
      rewrite (Hval loc Hloc). f_equal.
      assert (xorl ((fun m => bool_decide (m = (N, loc))) <$> misread) = false) as ->.
      { apply xorl_false, Forall_fmap, list.Forall_forall. intros m Hm. cbn. apply bool_decide_eq_false. intros ->. apply Hmis in Hm. cbn in Hm. lia. }
      rewrite xorb_false_r. apply xorl_ext. intros f Hf%flips_time. rewrite bool_decide_eq_true_2 by lia. done.
  - assert (Hrg : list.last (s_regs s') = Some (Reg false last (num_data dh dw))) by (rewrite Hregs; cbn [op_reg]; rewrite last_snoc; unfold last; by rewrite EL).
    assert (Hodd : count is_x (calls L) = count is_x (calls (pre ++ l))).
    { unfold L. rewrite !calls_app, calls_cons, !count_app, count_step. cbn [is_x]. lia. }
    assert (Hfl : xorb (Nat.odd (side_faults false c dh dw pre)) (logical_flip false c dh dw flips) = anti (log_z c dh dw) (faults L)).
    { change (log_z c dh dw) with (logk false c dh dw). rewrite (anti_faults false c dh dw _ 0 L (of_type_log _ _ _ _) HLb).
      change (xorb (Nat.odd (side_faults false c dh dw pre)) (logical_flip false c dh dw flips) = logical_flip false c dh dw (flips_of false c dh dw 0 L)).
      assert (HR : forall f, f ∈ flips_of false c dh dw 0 pre -> 0 <= f.2 < dh * dw) by (intros f Hf; eapply flips_range; [exact Hpre'|exact Hf]).
      unfold side_faults. rewrite <-(side_flip false c dh dw (flips_of false c dh dw 0 pre) Hv HR).
      unfold L. rewrite flips_of_app, flip_app. cbn [flips_of is_stab]. f_equal. apply flip_time. }
    rewrite (xorb_assoc_reverse (Nat.odd _)), Hfl, <-Hodd.
    assert (Hs : Forall (fun e => safe_ev z_safe e = true) L) by (eapply Forall_impl; [exact HLb|]; intros [o|] ?; [by destruct o|done]).
    pose proof (C11_lattice_z R s q dh dw L s' is _ k0 k1 Hok Hr0 Hem Hs He Hp Hrg) as HLV. fold c in HLV. rewrite <-HLV. apply xorl_ext.
    intros j Hj%elem_of_seqZ. cbn [r_name]. apply Hrd. unfold valid_size in Hv. nia.
Qed.

(** * C66 *)
(** As C27, with calls and faults [pre] between the preparation and the first round and [post]
    between the last round and the readout.  Those faults are not seen: every one of the relevant
    kind on a qubit of the readout row (column) inverts the result, all others have no effect. *)
Theorem C66_logical (R : Amp) isx s q dh dw pre l post s' is (k0 k1 : config R) rs rd T D rx ep misread cs' :
  lat_ok s q dh dw -> 1 < dh * dw -> cregs s = [] ->
  run_evs q (Call (reset_op isx) :: pre ++ Call OStab :: l ++ Call OStab :: post ++ [Call (read_op isx)]) s = (s', Ok tt) ->
  emitted s s' is -> Forall (quiet_ev dh dw) pre -> Forall (body_ev dh dw) l -> Forall (quiet_ev dh dw) post ->
  syndromes_clean q k0.2 -> exec is k0 k1 -> possible k1 ->
  cregs s' = rs ++ [rd] ->
  observed isx dh dw rs.*1 misread k1.1 cs' -> cs' (rd.1, 0) = k1.1 (rd.1, 0) ->
  let N := Z.of_nat (length rs) in let c := lat_code (tq_lat q) in
  (forall m, m ∈ misread -> 1 <= m.1 < N - 1 /\ 0 <= m.2 < nsyn isx dh dw) ->
  Z.of_nat (length (flips_of isx c dh dw 0 l) + length misread) <= (extent isx dh dw - 1) / 2 ->
  decoder_for isx dh dw T D -> N - 1 <= T -> rx_ok rx ->
  N = 2 + Z.of_nat (count is_stab (calls l)) /\
  correct_readout rx D ep (counts_key cs' (cregs s')) isx =
    Ok (Z.b2z (xorb (Nat.odd (count (inverts isx) (calls (pre ++ l ++ post)))) (Nat.odd (side_faults isx c dh dw pre + side_faults isx c dh dw post)))).
Proof.
  intros Hok H1 Hcr Hr Hem Hpre Hl Hpost Hcl He Hp Hrs Hobs Hrd N c Hmis Hw HD HT Hrx.
  pose proof (lo_valid _ _ _ _ Hok) as Hv. destruct (lat_ok_cnt _ _ _ _ Hok) as [n Hn].
  destruct (ends_record R isx s q dh dw pre l post s' is k0 k1 rs rd misread cs' n Hok Hn Hcr Hr Hem Hpre Hl Hpost Hcl He Hp Hrs Hobs Hrd Hmis) as (HN & -> & HL & Hf & Hrep & Hlast).
  split; [done|]. rewrite odd_add. eapply C26_corrects; [done|done|exact HD|done|by rewrite HL|rewrite HL; exact Hf|exact Hrep|exact Hlast|done].
Qed.
Print Assumptions C66_logical.
(** With a lattice readout: faults after the last round are corrected (C44), those before the first are not. *)
Theorem C66_lattice (R : Amp) s q dh dw pre l s' is (k0 k1 : config R) rs rd T D rx ep misread cs' :
  lat_ok s q dh dw -> 1 < dh * dw -> cregs s = [] ->
  run_evs q (Call OResetZ :: pre ++ Call OStab :: l ++ [Call OLatZ]) s = (s', Ok tt) ->
  emitted s s' is -> Forall (quiet_ev dh dw) pre -> Forall (body_ev dh dw) l ->
  syndromes_clean q k0.2 -> exec is k0 k1 -> possible k1 ->
  cregs s' = rs ++ [rd] ->
  observed false dh dw rs.*1 misread k1.1 cs' -> (forall j, 0 <= j < dh * dw -> cs' (rd.1, j) = k1.1 (rd.1, j)) ->
  let N := Z.of_nat (length rs) in let c := lat_code (tq_lat q) in
  (forall m, m ∈ misread -> 1 <= m.1 < N /\ 0 <= m.2 < nsyn false dh dw) ->
  Z.of_nat (length (flips_of false c dh dw 0 l) + length misread) <= (dh - 1) / 2 ->
  decoder_for false dh dw T D -> N <= T -> rx_ok rx ->
  N = 1 + Z.of_nat (count is_stab (calls l)) /\
  correct_readout rx D ep (counts_key cs' (cregs s')) false =
    Ok (Z.b2z (xorb (Nat.odd (count is_x (calls (pre ++ l)))) (Nat.odd (side_faults false c dh dw pre)))).
Proof.
  intros Hok H1 Hcr Hr Hem Hpre Hl Hcl He Hp Hrs Hobs Hrd N c Hmis Hw HD HT Hrx.
  pose proof (lo_valid _ _ _ _ Hok) as Hv. destruct (lat_ok_cnt _ _ _ _ Hok) as [n Hn].
  destruct (ends_lattice R s q dh dw pre l s' is k0 k1 rs rd misread cs' n Hok Hn Hcr Hr Hem Hpre Hl Hcl He Hp Hrs Hobs Hrd Hmis) as (HN & names & nm & _ & -> & HL & Hf & Hrep & Hlast).
  split; [done|]. eapply C26_corrects_lattice_z; [done|done|exact HD|done|rewrite HL; fold N; lia|rewrite HL; exact Hf|exact Hrep|exact Hlast|done].
Qed.
Print Assumptions C66_lattice.

(** One fault on the readout row (column) right after the preparation, and nothing else: the result
    is wrong, whatever the size and the number of rounds. *)
Corollary C66_single (R : Amp) isx s q dh dw x i l s' is (k0 k1 : config R) rs rd T D rx ep :
  lat_ok s q dh dw -> 1 < dh * dw -> cregs s = [] ->
  0 <= i < dh * dw -> at_side isx dw i = true -> fault_of (Fault x i) = err_at isx (lat_code (tq_lat q)) dh dw i ->
  run_evs q (Call (reset_op isx) :: Fault x i :: Call OStab :: (Call <$> l) ++ [Call OStab; Call (read_op isx)]) s = (s', Ok tt) ->
  emitted s s' is -> Forall (body_ev dh dw) (Call <$> l) ->
  syndromes_clean q k0.2 -> exec is k0 k1 -> possible k1 ->
  cregs s' = rs ++ [rd] -> decoder_for isx dh dw T D -> Z.of_nat (length rs) - 1 <= T -> rx_ok rx ->
  correct_readout rx D ep (counts_key k1.1 (cregs s')) isx = Ok (Z.b2z (negb (Nat.odd (count (inverts isx) l)))).
Proof.
  intros Hok H1 Hcr Hi Ha Hx Hr Hem Hl Hcl He Hp Hrs HD HT Hrx. set (c := lat_code (tq_lat q)) in *.
  assert (Hf : flips_of isx c dh dw 0 (Call <$> l) = []).
  { clear. generalize 0. induction l as [|o l IHl]; intros t; [done|]. rewrite fmap_cons. cbn [flips_of]. apply IHl. }
  destruct (C66_logical R isx s q dh dw [Fault x i] (Call <$> l) [] s' is k0 k1 rs rd T D rx ep [] k1.1) as [_ E]; try done.
  - by apply Forall_singleton.
  - intros t nm loc _ _. cbn. by rewrite xorb_false_r.
  - by intros m ?%elem_of_nil.
  - fold c. rewrite Hf. cbn. apply Z.div_pos; [|lia]. unfold extent. pose proof (size_pos dh dw (lo_valid _ _ _ _ Hok)). destruct isx; lia.
  - rewrite E. fold c. do 2 f_equal. assert (S1 : side_faults isx c dh dw [Fault x i] = 1%nat).
    { unfold side_faults. cbn [flips_of]. rewrite bool_decide_eq_true_2 by done. by rewrite filter_cons_True. }
    rewrite S1. cbn [app]. rewrite app_nil_r, calls_cons, calls_ops. cbn. by destruct (Nat.odd _).
Qed.
Print Assumptions C66_single.
(** The history of C27_ex (result 1 there), preceded by X on data qubit 1, before the first round: the
    result is 0 although only one of the two other faults would be within the correctable weight. *)
Definition prep_pre : list ev := [Fault true 1; Call OIdData].
Definition prep_post : list ev := [Fault true 8; Fault false 2].
Lemma prep_quiet : Forall (quiet_ev 5 3) prep_pre /\ Forall (quiet_ev 5 3) prep_post.
Proof. unfold prep_pre, prep_post. rewrite !Forall_cons, !Forall_nil. cbn. clear. lia. Qed.
Lemma prep_side : side_faults false XZZX 5 3 prep_pre = 1%nat /\ side_faults false XZZX 5 3 prep_post = 1%nat /\
  side_faults false XZZX 5 3 [] = 0%nat.
Proof. split_and!; vm_compute; reflexivity. Qed.
Lemma no_misread (P : Z * Z -> Prop) : forall m, m ∈ [] -> P m.
Proof. by intros m ?%elem_of_nil. Qed.
Lemma as_is names cs : observed false 5 3 names [] cs cs.
Proof. intros t nm loc _ _. cbn. by rewrite xorb_false_r. Qed.
Example C66_ex : exists q s' is (k1 : config ZAmp) D,
  e2e_q.2 = Ok q /\
  run_evs q (Call OResetZ :: prep_pre ++ Call OStab :: e2e_hist ++ Call OStab :: [] ++ [Call (OReadZ None)]) e2e_q.1 = (s', Ok tt) /\
  emitted e2e_q.1 s' is /\ exec is (fun _ => false, zero_state) k1 /\ possible k1 /\
  rotated_decoder (Some (DTup [5; 3])) (Some 4) = Ok D /\
  correct_readout rx_ref D EPNone (counts_key k1.1 (cregs s')) false = Ok 0.
Proof.
  destruct e2e_ok as (q & Hq & Hok & Hc).
  assert (Hrun : run_ok e2e_q (Call OResetZ :: prep_pre ++ Call OStab :: e2e_hist ++ Call OStab :: [] ++ [Call (OReadZ None)]) = true) by (vm_compute; reflexivity).
  destruct (run_ok_inv _ _ _ _ _ Hq Hok Hrun) as (s' & is & Hr & Hem).
  destruct (evs_possible _ _ _ _ _ _ _ ((fun _ => false), zero_state) Hok Hr Hem (zero_possible _)) as (k1 & He & Hp).
  destruct (decoder_for_rotated false 5 3 4 v53) as (D & ED & HD).
  assert (Hregs : cregs s' = ((., 14) <$> e2e_names) ++ [("tq_readout_0"%string, 1)]).
  { rewrite <-(run_regs_eq _ _ _ _ Hq Hr). vm_compute. reflexivity. }
  exists q, s', is, k1, D. do 6 (split; [assumption|]).
  destruct (C66_logical ZAmp false _ q 5 3 prep_pre e2e_hist [] s' is (fun _ => false, zero_state) k1 _ _ 4 D rx_ref EPNone [] k1.1 Hok eq_refl e2e_empty Hr Hem
    (proj1 prep_quiet) e2e_body (list.Forall_nil_2 _) (C10_initially_clean ZAmp q) He Hp Hregs) as [_ E].
  - exact (as_is _ _).
  - reflexivity.
  - exact (no_misread _).
  - rewrite Hc, e2e_flips. clear. vm_compute. discriminate.
  - exact HD.
  - clear. cbn. lia.
  - exact rx_ref_ok.
  - rewrite E, Hc, (proj1 prep_side), (proj2 (proj2 prep_side)). reflexivity.
Qed.
(** A fault on the readout row before the first round and one after the last: they cancel. *)
Example C66_ex2 : exists q s' is (k1 : config ZAmp) D,
  e2e_q.2 = Ok q /\
  run_evs q (Call OResetZ :: prep_pre ++ Call OStab :: e2e_hist ++ Call OStab :: prep_post ++ [Call (OReadZ None)]) e2e_q.1 = (s', Ok tt) /\
  emitted e2e_q.1 s' is /\ exec is (fun _ => false, zero_state) k1 /\ possible k1 /\
  rotated_decoder (Some (DTup [5; 3])) (Some 4) = Ok D /\
  correct_readout rx_ref D EPNone (counts_key k1.1 (cregs s')) false = Ok 1.
Proof.
  destruct e2e_ok as (q & Hq & Hok & Hc).
  assert (Hrun : run_ok e2e_q (Call OResetZ :: prep_pre ++ Call OStab :: e2e_hist ++ Call OStab :: prep_post ++ [Call (OReadZ None)]) = true) by (vm_compute; reflexivity).
  destruct (run_ok_inv _ _ _ _ _ Hq Hok Hrun) as (s' & is & Hr & Hem).
  destruct (evs_possible _ _ _ _ _ _ _ ((fun _ => false), zero_state) Hok Hr Hem (zero_possible _)) as (k1 & He & Hp).
  destruct (decoder_for_rotated false 5 3 4 v53) as (D & ED & HD).
  assert (Hregs : cregs s' = ((., 14) <$> e2e_names) ++ [("tq_readout_0"%string, 1)]).
  { rewrite <-(run_regs_eq _ _ _ _ Hq Hr). vm_compute. reflexivity. }
  exists q, s', is, k1, D. do 6 (split; [assumption|]).
  destruct (C66_logical ZAmp false _ q 5 3 prep_pre e2e_hist prep_post s' is (fun _ => false, zero_state) k1 _ _ 4 D rx_ref EPNone [] k1.1 Hok eq_refl e2e_empty Hr Hem
    (proj1 prep_quiet) e2e_body (proj2 prep_quiet) (C10_initially_clean ZAmp q) He Hp Hregs) as [_ E].
  - exact (as_is _ _).
  - reflexivity.
  - exact (no_misread _).
  - rewrite Hc, e2e_flips. clear. vm_compute. discriminate.
  - exact HD.
  - clear. cbn. lia.
  - exact rx_ref_ok.
  - rewrite E, Hc, (proj1 prep_side), (proj1 (proj2 prep_side)). reflexivity.
Qed.
(** The same fault before the first round with a lattice readout. *)
Example C66_ex3 : exists q s' is (k1 : config ZAmp) D,
  e2e_q.2 = Ok q /\
  run_evs q (Call OResetZ :: prep_pre ++ Call OStab :: e2e_hist ++ [Call OLatZ]) e2e_q.1 = (s', Ok tt) /\
  emitted e2e_q.1 s' is /\ exec is (fun _ => false, zero_state) k1 /\ possible k1 /\
  rotated_decoder (Some (DTup [5; 3])) (Some 3) = Ok D /\
  correct_readout rx_ref D EPNone (counts_key k1.1 (cregs s')) false = Ok 0.
Proof.
  destruct e2e_ok as (q & Hq & Hok & Hc).
  assert (Hrun : run_ok e2e_q (Call OResetZ :: prep_pre ++ Call OStab :: e2e_hist ++ [Call OLatZ]) = true) by (vm_compute; reflexivity).
  destruct (run_ok_inv _ _ _ _ _ Hq Hok Hrun) as (s' & is & Hr & Hem).
  destruct (evs_possible _ _ _ _ _ _ _ ((fun _ => false), zero_state) Hok Hr Hem (zero_possible _)) as (k1 & He & Hp).
  destruct (decoder_for_rotated false 5 3 3 v53) as (D & ED & HD).
  assert (Hregs : cregs s' = ((., 14) <$> take 3 e2e_names) ++ [("tq_lattice_readout_0"%string, 15)]).
  { rewrite <-(run_regs_eq _ _ _ _ Hq Hr). vm_compute. reflexivity. }
  exists q, s', is, k1, D. do 6 (split; [assumption|]).
  destruct (C66_lattice ZAmp _ q 5 3 prep_pre e2e_hist s' is (fun _ => false, zero_state) k1 _ _ 3 D rx_ref EPNone [] k1.1 Hok eq_refl e2e_empty Hr Hem
    (proj1 prep_quiet) e2e_body (C10_initially_clean ZAmp q) He Hp Hregs) as [_ E].
  - exact (as_is _ _).
  - intros j _. reflexivity.
  - exact (no_misread _).
  - rewrite Hc, e2e_flips. clear. vm_compute. discriminate.
  - exact HD.
  - clear. cbn. lia.
  - exact rx_ref_ok.
  - rewrite E, Hc, (proj1 prep_side). reflexivity.
Qed.
