(** Properties C27 and C44: a run of a circuit built with the library, decoded with the library. *)
From Verif Require Import P_Code DecodeFacts RunFacts RxRef P_Decode.
From stdpp Require Export list.
Open Scope Z_scope.

Section rounds.
Context {R : Amp}.
Implicit Types (k : config R).
Context (c : code) (name : string) (dh dw : Z) (Hv : valid_size dh dw).
(** First round, then a history: values recorded in each round and afterwards. *)
Lemma rounds_values isx l n k0 k1 k2 is2 : Forall (body_ev dh dw) l -> exec (evs_code c name dh dw n (Call OStab :: l)) k0 k1 ->
  exec is2 k1 k2 -> possible k2 -> syn_clean name dh dw k0.2 ->
  let base := fun loc => k1.1 (cname name (cT n + 1), syn_off isx dh dw + loc) in
  let fl := flips_of isx c dh dw 0 l in
  forall loc, 0 <= loc < nsyn isx dh dw ->
  (forall s, 0 <= s <= Z.of_nat (count is_stab (calls l)) ->
    k1.1 (cname name (cT n + 1 + s), syn_off isx dh dw + loc) =
    xorb (base loc) (xorl ((fun f => bool_decide (f.1 < s) && anti (err_at isx c dh dw f.2) (stabk isx c dh dw loc)) <$> fl))) /\
  stab k1.2 (pmap (dq name) (stabk isx c dh dw loc)) (xorb (base loc) (xorl ((fun f => anti (err_at isx c dh dw f.2) (stabk isx c dh dw loc)) <$> fl))).
Proof.
  intros Hl He He2 Hp Hc base fl loc Hloc. cbn [evs_code ev_code op_code ev_next op_next] in He. apply exec_app in He as (ka & Ha & Hb).
  destruct (round_spec _ _ _ _ Hv _ _ _ Hc Ha) as (H1 & Hca & _).
  assert (Hsyn : is_syn dh dw (isx, loc)) by (unfold is_syn; by destruct isx).
  specialize (H1 _ Hsyn). rewrite cbit_off in H1.
  assert (Hst : stabk isx c dh dw loc = stabP c dh dw (isx, loc)) by (by destruct isx). rewrite <-Hst in H1.
  assert (Hbase : base loc = ka.1 (cname name (cT n + 1), syn_off isx dh dw + loc)).
  { unfold base. eapply (body_frame c name dh dw Hv l); [done|exact Hb|done|]. intros T HT E. cbn [fst] in E. apply cname_inj in E. cbn in HT. lia. }
  rewrite <-Hbase in H1. split.
  - intros s Hs. destruct (decide (s = 0)) as [-> |Hs0].
    + rewrite Z.add_0_r. fold (base loc). rewrite xorl_false; [by rewrite xorb_false_r|].
      apply Forall_fmap, list.Forall_forall. intros f Hf%flips_time. cbn. by rewrite bool_decide_eq_false_2 by lia.
    + pose proof (run_values c name dh dw Hv isx l (bump_T n) 0 ka k1 k2 is2 loc (base loc) (s - 1) Hl Hb He2 Hp Hca Hloc H1 ltac:(lia)) as HV.
      cbn [bump_T cT] in HV. replace (cT n + 1 + 1 + (s - 1)) with (cT n + 1 + s) in HV by lia. rewrite HV. f_equal. f_equal.
      apply list_fmap_ext. intros ? f _. cbn. f_equal. apply bool_decide_ext. lia.
  - eapply run_end; [done|by apply of_type_stab|done|exact Hb|exact Hloc|done|exact H1].
Qed.
End rounds.

Lemma cregs_app s s' rs : s_regs s' = s_regs s ++ rs -> cregs s' = cregs s ++ ((fun r => (r_name r, r_size r)) <$> filter (fun r => r_quantum r = false) rs).
Proof. intros E. unfold cregs. by rewrite E, filter_app, fmap_app. Qed.
Lemma calls_app l1 l2 : calls (l1 ++ l2) = calls l1 ++ calls l2.
Proof. apply omap_app. Qed.
Lemma count_app f l1 l2 : count f (l1 ++ l2) = (count f l1 + count f l2)%nat.
Proof. unfold count. by rewrite filter_app, app_length. Qed.
Lemma faults_app l1 l2 (P : pauli Z) : anti P (faults (l1 ++ l2)) = xorb (anti P (faults l1)) (anti P (faults l2)).
Proof.
  induction l1 as [|e l1 IH]; [unfold faults at 2; cbn; by rewrite anti_pid_r, xorb_false_l|].
  cbn [app]. by rewrite !faults_cons, IH, xorb_assoc_reverse.
Qed.
Lemma flips_snoc isx c dh dw t l o : flips_of isx c dh dw t (l ++ [Call o]) = flips_of isx c dh dw t l.
Proof.
  revert t. induction l as [|e l IH]; intros t; [done|]. destruct e as [o'|x i]; cbn [app flips_of]; [apply IH|].
  case_bool_decide; [f_equal|]; apply IH.
Qed.
Lemma flips_shift isx c dh dw t t' l : (flips_of isx c dh dw t l).*2 = (flips_of isx c dh dw t' l).*2.
Proof.
  revert t t'. induction l as [|e l IH]; intros t t'; [done|]. destruct e as [o|x i]; cbn [flips_of]; [apply IH|].
  case_bool_decide; [rewrite !fmap_cons; f_equal|]; apply IH.
Qed.
Lemma zside_plaq c dh dw loc : valid_size dh dw -> 0 <= loc < num_syn_z dh dw ->
  zside c dh dw false (list_to_set (plaq_data (geom_z dh dw loc))) = stabk false c dh dw loc.
Proof. intros Hv Hl. unfold zside, stabk. destruct c; [done|]. cbn [cconj]. by rewrite stab_z_hconj. Qed.
Lemma round_size dh dw : valid_size dh dw -> num_syn_x dh dw + num_syn_z dh dw = dh * dw - 1.
Proof. intros Hv. pose proof (valid_counts _ _ Hv) as H. unfold num_data in H. naive_solver lia. Qed.
Lemma round_names name dh dw n k : 0 <= k -> valid_size dh dw ->
  ((fun r => (r_name r, r_size r)) <$> filter (fun r => r_quantum r = false) ((fun j => Reg false (cname name (cT n + 1 + j)) (num_syn_x dh dw + num_syn_z dh dw)) <$> seqZ 0 k)) =
  ((., dh * dw - 1) <$> ((fun j => cname name (cT n + 1 + j)) <$> seqZ 0 k)).
Proof.
  intros Hk Hv. rewrite (round_size _ _ Hv). generalize (seqZ 0 k). intros L. induction L as [|j L IH]; [done|].
  rewrite !fmap_cons, filter_cons_True by done. by rewrite fmap_cons, IH.
Qed.

(** ** What a run leaves to be decoded *)
Definition round_regs (name : string) (n : cnt) (N : Z) : list string := (fun j => cname name (cT n + 1 + j)) <$> seqZ 0 N.
Definition first_values (isx : bool) (name : string) (dh dw : Z) (n : cnt) (cs : clbit -> bool) (loc : Z) : bool := cs (cname name (cT n + 1), syn_off isx dh dw + loc).
Lemma logical_record (R : Amp) isx s q dh dw l s' is (k0 k1 : config R) rs rd misread cs' n :
  lat_ok s q dh dw -> has_cnt s q n -> cregs s = [] ->
  run_evs q (Call (reset_op isx) :: Call OStab :: l ++ [Call OStab; Call (read_op isx)]) s = (s', Ok tt) ->
  emitted s s' is -> Forall (body_ev dh dw) l ->
  syndromes_clean q k0.2 -> exec is k0 k1 -> possible k1 ->
  cregs s' = rs ++ [rd] ->
  observed isx dh dw rs.*1 misread k1.1 cs' -> cs' (rd.1, 0) = k1.1 (rd.1, 0) ->
  let N := Z.of_nat (length rs) in let c := lat_code (tq_lat q) in let name := lat_name (tq_lat q) in
  let names := round_regs name n N in let flips := flips_of isx c dh dw 0 l in
  (forall m, m ∈ misread -> 1 <= m.1 < N - 1 /\ 0 <= m.2 < nsyn isx dh dw) ->
  N = 2 + Z.of_nat (count is_stab (calls l)) /\
  cregs s' = ((., dh * dw - 1) <$> names) ++ [(rdname name (cR n + 1), 1)] /\ Z.of_nat (length names) = N /\
  faults_within isx dh dw N flips misread /\
  reported isx c dh dw (first_values isx name dh dw n k1.1) flips misread (recorded cs' names) /\
  cs' (rdname name (cR n + 1), 0) = xorb (Nat.odd (count (inverts isx) (calls l))) (logical_flip isx c dh dw flips).
Proof.
  intros Hok Hn Hcr Hr Hem Hl Hcl He Hp Hrs Hobs Hrd N c name names flips Hmis.
  pose proof (lo_valid _ _ _ _ Hok) as Hv.
  set (L := Call OStab :: l ++ [Call OStab]).
  assert (HL : Call (reset_op isx) :: Call OStab :: l ++ [Call OStab; Call (read_op isx)] = (Call (reset_op isx) :: L) ++ [Call (read_op isx)]).
  { unfold L. cbn [app]. by rewrite <-app_assoc. }
  rewrite HL in Hr. pose proof Hr as Hr0.
  destruct (split_last _ _ _ _ _ _ _ _ _ _ _ Hok Hn Hr Hem He) as (s1 & ka & n1 & Hr1 & Hok1 & Hn1 & Hro & He1 & He2 & Hregs).
  fold c in He1, He2. fold name in He1, He2, Hregs.
  pose proof (run_evs_inv _ _ _ _ _ _ _ Hok Hn Hr1) as HP1. fold c name in HP1.
  assert (En1 : n1 = evs_next n (Call (reset_op isx) :: L)).
  { pose proof (po_cnt _ _ _ _ _ _ _ _ HP1) as Hn1'. by eapply has_cnt_inj. }
  assert (Hl2 : Forall (body_ev dh dw) (l ++ [Call OStab])) by (apply Forall_app; split; [done|by constructor]).
  assert (HLb : Forall (body_ev dh dw) L) by (by constructor).
  assert (Hcnt : count is_stab (calls (l ++ [Call OStab])) = S (count is_stab (calls l))).
  { rewrite calls_app, count_app. change (count is_stab (calls [Call OStab])) with 1%nat. lia. }
  assert (HcL : Z.of_nat (count is_stab (calls L)) = 2 + Z.of_nat (count is_stab (calls l))).
  { unfold L. rewrite calls_cons, count_step, Hcnt. cbn [is_stab]. lia. }
  (* registers *)
  destruct (body_regs name dh dw L n HLb) as (Rg & RT & RR & _).
  assert (Enx : ev_next n (Call (reset_op isx)) = n) by (by destruct isx).
  assert (ER : cR n1 = cR n) by (rewrite En1; cbn [evs_next]; by rewrite Enx).
  set (nms := round_regs name n (Z.of_nat (count is_stab (calls L)))).
  assert (Hall : cregs s' = ((., dh * dw - 1) <$> nms) ++ [(rdname name (cR n + 1), 1)]).
  { rewrite (cregs_app s1 s' _ Hregs), (cregs_app s s1 _ (po_regs _ _ _ _ _ _ _ _ HP1)), Hcr. cbn [app evs_reg].
    rewrite Enx. assert (ev_reg name dh dw n (Call (reset_op isx)) = []) as -> by (by destruct isx). cbn [app].
    rewrite Rg, round_names by (done || lia). unfold nms, round_regs. f_equal. rewrite <-ER. by destruct isx. }
  rewrite Hall in Hrs. apply app_inj_tail in Hrs as [Ers Erd].
  assert (Enm : rs.*1 = nms) by (rewrite <-Ers, <-list_fmap_compose; apply list_fmap_id).
  assert (HN : N = 2 + Z.of_nat (count is_stab (calls l))).
  { unfold N. rewrite <-Ers, fmap_length. unfold nms, round_regs. rewrite fmap_length, seqZ_length, HcL. lia. }
  assert (Enms : names = nms) by (unfold names, nms; by rewrite HN, HcL).
  split; [done|]. rewrite Hall, Enms. rewrite Enm in Hobs. rewrite <-Erd in Hrd. cbn [fst] in Hrd.
  (* values of the rounds *)
  cbn [evs_code] in He1. apply exec_app in He1 as (kr & Hre & He1). rewrite Enx in He1.
  assert (Hclr : syn_clean name dh dw kr.2).
  { apply (clean_evs c name dh dw Hv [Call (reset_op isx)] n k0 kr); [cbn [evs_code]; by rewrite app_nil_r|]. by eapply syndromes_clean_iff. }
  pose proof (rounds_values c name dh dw Hv isx (l ++ [Call OStab]) n kr ka k1 _ Hl2 He1 He2 Hp Hclr) as HV. cbn zeta in HV.
  rewrite flips_snoc in HV.
  assert (Hfr : forall s loc, k1.1 (cname name s, loc) = ka.1 (cname name s, loc)).
  { intros t loc. assert (Hb : (cname name t, loc) ∉ reg_bits (rdname name (cR n1 + 1), 1)).
    { intros (i & Ei & _)%elem_of_list_fmap. injection Ei as Ei _. symmetry in Ei. by apply rdname_cname in Ei. }
    destruct isx; [by apply (readx_spec _ _ _ _ Hv _ _ _ _ He2)|by apply (readz_spec _ _ _ _ Hv _ _ _ _ He2)]. }
  split; [done|]. split_and!.
  - rewrite <-Enm. by rewrite fmap_length.
  - split; [|done]. intros f Hf. split; [|eapply flips_range; [exact Hl|exact Hf]]. apply flips_time in Hf. lia.
  - intros t r loc Ht Hloc. unfold recorded in Ht. apply list_lookup_fmap_inv in Ht as (nm & -> & Hnm).
    rewrite (Hobs t nm loc Hnm Hloc). unfold SpecFault.syn_bit, first_values. rewrite <-xorb_assoc. f_equal.
    unfold nms in Hnm. apply list_lookup_fmap_inv in Hnm as (j & -> & Hj). apply lookup_seqZ in Hj as [-> Hj].
    rewrite !Hfr. rewrite Z.add_0_l. apply HV; [done|]. rewrite Hcnt. lia.
  - rewrite Hrd. assert (Hb : read_bit s' None (rdname name (cR n + 1), 0)).
    { unfold read_bit. cbn. rewrite Hregs, <-ER. destruct isx; cbn [read_op op_reg eff]; rewrite last_snoc; eauto. }
    assert (HLs : calls L = OStab :: calls l ++ [OStab]) by (unfold L; rewrite calls_cons, calls_app; done).
    assert (Hodd : forall f, f OStab = false -> count f (calls L) = count f (calls l)).
    { intros f Hf. rewrite HLs. unfold count. rewrite filter_cons_False by (by rewrite Hf). rewrite filter_app, filter_cons_False by (by rewrite Hf). by rewrite app_nil_r. }
    assert (Hfl : logical_flip isx c dh dw flips = anti (logk isx c dh dw) (faults L)).
    { rewrite (anti_faults isx c dh dw _ 0 L (of_type_log _ _ _ _) HLb). unfold L, flips. cbn [flips_of is_stab]. rewrite flips_snoc.
      unfold logical_flip. assert (E : forall t, (fun f : Z * Z => anti (err_at isx c dh dw f.2) (logk isx c dh dw)) <$> flips_of isx c dh dw t l = (fun f : Z => anti (err_at isx c dh dw f) (logk isx c dh dw)) <$> (flips_of isx c dh dw t l).*2).
      { intros t. by rewrite <-list_fmap_compose. }
      rewrite !E. f_equal. f_equal. apply flips_shift. }
    rewrite Hfl, <-(Hodd (inverts isx)) by (by destruct isx). destruct isx.
    + eapply (C11_x_with_faults R s q dh dw L None s' is); try done. eapply Forall_impl; [exact HLb|]. intros [o|] ?; [by destruct o|done].
    + eapply (C11_z_with_faults R s q dh dw L None s' is); try done. eapply Forall_impl; [exact HLb|]. intros [o|] ?; [by destruct o|done].
Qed.
Lemma lattice_record (R : Amp) s q dh dw l s' is (k0 k1 : config R) rs rd misread cs' n :
  lat_ok s q dh dw -> has_cnt s q n -> cregs s = [] ->
  run_evs q (Call OResetZ :: Call OStab :: l ++ [Call OLatZ]) s = (s', Ok tt) ->
  emitted s s' is -> Forall (body_ev dh dw) l ->
  syndromes_clean q k0.2 -> exec is k0 k1 -> possible k1 ->
  cregs s' = rs ++ [rd] ->
  observed false dh dw rs.*1 misread k1.1 cs' -> (forall j, 0 <= j < dh * dw -> cs' (rd.1, j) = k1.1 (rd.1, j)) ->
  let N := Z.of_nat (length rs) in let c := lat_code (tq_lat q) in let name := lat_name (tq_lat q) in
  let flips := flips_of false c dh dw 0 l in let last := lrname name (cL n + 1) in
  (forall m, m ∈ misread -> 1 <= m.1 < N /\ 0 <= m.2 < nsyn false dh dw) ->
  N = 1 + Z.of_nat (count is_stab (calls l)) /\
  exists names nm, round_regs name n N = names ++ [nm] /\
  let rounds := recorded cs' (names ++ [nm]) ++ [final_round dh dw (fun j => cs' (last, j)) (fun i => cs' (nm, i))] in
  cregs s' = ((., dh * dw - 1) <$> names ++ [nm]) ++ [(last, dh * dw)] /\ Z.of_nat (length rounds) = N + 1 /\
  faults_within false dh dw (N + 1) flips misread /\
  reported false c dh dw (first_values false name dh dw n k1.1) flips misread rounds /\
  xorl ((fun j => cs' (last, j)) <$> seqZ 0 dw) = xorb (Nat.odd (count is_x (calls l))) (logical_flip false c dh dw flips).
Proof.
  intros Hok Hn Hcr Hr Hem Hl Hcl He Hp Hrs Hobs Hrd N c name flips last Hmis.
  pose proof (lo_valid _ _ _ _ Hok) as Hv.
  set (L := Call OStab :: l).
  assert (HL : Call OResetZ :: Call OStab :: l ++ [Call OLatZ] = (Call OResetZ :: L) ++ [Call OLatZ]) by done.
  rewrite HL in Hr. pose proof Hr as Hr0.
  destruct (split_last _ _ _ _ _ _ _ _ _ _ _ Hok Hn Hr Hem He) as (s1 & ka & n1 & Hr1 & Hok1 & Hn1 & Hro & He1 & He2 & Hregs).
  fold c in He1, He2. fold name in He1, He2, Hregs.
  pose proof (run_evs_inv _ _ _ _ _ _ _ Hok Hn Hr1) as HP1. fold c name in HP1.
  assert (En1 : n1 = evs_next n (Call OResetZ :: L)).
  { pose proof (po_cnt _ _ _ _ _ _ _ _ HP1) as Hn1'. by eapply has_cnt_inj. }
  assert (HLb : Forall (body_ev dh dw) L) by (by constructor).
  assert (HcL : Z.of_nat (count is_stab (calls L)) = 1 + Z.of_nat (count is_stab (calls l))).
  { unfold L. rewrite calls_cons, count_step. cbn [is_stab]. lia. }
  destruct (body_regs name dh dw L n HLb) as (Rg & _ & _ & RL).
  assert (EL : cL n1 = cL n) by (by rewrite En1).
  set (nms := round_regs name n (Z.of_nat (count is_stab (calls L)))).
  assert (Hall : cregs s' = ((., dh * dw - 1) <$> nms) ++ [(last, dh * dw)]).
  { rewrite (cregs_app s1 s' _ Hregs), (cregs_app s s1 _ (po_regs _ _ _ _ _ _ _ _ HP1)), Hcr. cbn [app evs_reg ev_reg op_reg ev_next op_next].
    rewrite Rg, round_names by (done || lia). unfold last. by rewrite EL. }
  rewrite Hall in Hrs. apply app_inj_tail in Hrs as [Ers Erd].
  assert (Enm : rs.*1 = nms) by (rewrite <-Ers, <-list_fmap_compose; apply list_fmap_id).
  assert (Hlen : length nms = length rs) by (by rewrite <-Ers, fmap_length).
  assert (HN : N = 1 + Z.of_nat (count is_stab (calls l))).
  { unfold N. rewrite <-Hlen. unfold nms, round_regs. rewrite fmap_length, seqZ_length, HcL. lia. }
  split; [done|]. rewrite Enm in Hobs. rewrite <-Erd in Hrd. cbn [fst] in Hrd.
  cbn [evs_code ev_code] in He1. apply exec_app in He1 as (kr & Hre & He1). cbn [ev_next op_next] in He1.
  assert (Hclr : syn_clean name dh dw kr.2).
  { apply (clean_evs c name dh dw Hv [Call OResetZ] n k0 kr); [cbn [evs_code ev_code]; by rewrite app_nil_r|]. by eapply syndromes_clean_iff. }
  pose proof (rounds_values c name dh dw Hv false l n kr ka k1 _ Hl He1 He2 Hp Hclr) as HV. cbn zeta in HV.
  assert (Hfr : forall s loc, k1.1 (cname name s, loc) = ka.1 (cname name s, loc)).
  { intros t loc. apply (exec_frame _ _ _ _ He2). intros i Hi. change OLatZ with (lat_op false) in Hi. rewrite lat_code_eq in Hi.
    apply elem_of_app in Hi as [(j & -> & _)%elem_of_list_fmap|Hi]; [apply not_elem_of_nil|].
    apply elem_of_app in Hi as [(j & -> & _)%elem_of_list_fmap|Hi]; [|apply elem_of_list_singleton in Hi as ->; apply not_elem_of_nil].
    intros E%elem_of_list_singleton. injection E as E _. symmetry in E. by apply lrname_cname in E. }
  assert (Hne : nms <> []) by (intros E; rewrite E in Hlen; cbn in Hlen; unfold N in HN; lia).
  destruct (exists_last Hne) as (names & nm & Enms). exists names, nm.
  assert (HEN : round_regs name n N = nms) by (unfold nms; by rewrite HN, HcL).
  split; [by rewrite HEN|]. rewrite Hall.
  assert (Hval : forall loc, 0 <= loc < nsyn false dh dw -> xorl ((fun j => cs' (last, j)) <$> plaq_data (geom_z dh dw loc)) =
     xorb (first_values false name dh dw n k1.1 loc) (xorl ((fun f => anti (err_at false c dh dw f.2) (stabk false c dh dw loc)) <$> flips_of false c dh dw 0 l))).
  { intros loc Hloc. unfold first_values. rewrite Hfr. destruct (plaq_data_z dh dw loc Hv Hloc) as (_ & Hnd & _ & Hin).
    destruct (HV loc Hloc) as [_ Hst].
    rewrite <-(zside_plaq c dh dw loc) in Hst by done.
    rewrite <-(zside_plaq c dh dw loc) by done.
    rewrite <-(lat_spec c name dh dw Hv n1 false ka k1 (plaq_data (geom_z dh dw loc)) _ Hnd Hin He2 Hp Hst).
    apply xorl_ext. intros j Hj. rewrite EL. by apply Hrd, Hin. }
  rewrite Enms. rewrite Enms in Hobs, Hlen. intros rounds.
  assert (HRl : length rounds = S (length rs)) by (unfold rounds, recorded; rewrite app_length, fmap_length, Hlen; cbn; lia).
  split; [done|]. split_and!.
  - rewrite HRl. unfold N. lia.
  - split; [|intros m Hm%Hmis; lia].
    intros f Hf. split; [|eapply flips_range; [exact Hl|exact Hf]]. apply flips_time in Hf. lia.
  - intros t r loc Ht Hloc. unfold SpecFault.syn_bit. unfold rounds in Ht. apply lookup_app_Some in Ht as [Ht|[Hge Ht]].
    + unfold recorded in Ht. apply list_lookup_fmap_inv in Ht as (nm' & -> & Hnm).
      rewrite (Hobs t nm' loc Hnm Hloc). rewrite <-xorb_assoc. f_equal.
      rewrite <-Enms in Hnm. unfold nms in Hnm. apply list_lookup_fmap_inv in Hnm as (j & -> & Hj). apply lookup_seqZ in Hj as [-> Hj].
      unfold first_values. rewrite !Hfr. rewrite Z.add_0_l. apply HV; [done|]. lia.
    + unfold recorded in Hge, Ht. rewrite fmap_length in Hge, Ht. apply list_lookup_singleton_Some in Ht as [Et <-].
      assert (Ht : Z.of_nat t = N) by (unfold N; lia). rewrite Ht.
      unfold final_round. unfold syn_off. rewrite Z.add_0_l, bool_decide_eq_true_2 by (unfold nsyn in Hloc; lia).
      rewrite (Hval loc Hloc). f_equal.
      assert (xorl ((fun m => bool_decide (m = (N, loc))) <$> misread) = false) as ->.
      { apply xorl_false, Forall_fmap, list.Forall_forall. intros m Hm. cbn. apply bool_decide_eq_false. intros ->. apply Hmis in Hm. cbn in Hm. lia. }
      rewrite xorb_false_r. apply xorl_ext. intros f Hf%flips_time. rewrite bool_decide_eq_true_2 by lia. done.
  - assert (Hrg : list.last (s_regs s') = Some (Reg false last (num_data dh dw))) by (rewrite Hregs; cbn [op_reg]; rewrite last_snoc; unfold last; by rewrite EL).
    assert (Hodd : count is_x (calls L) = count is_x (calls l)) by (unfold L; rewrite calls_cons, count_step; done).
    assert (Hfl : logical_flip false c dh dw (flips_of false c dh dw 0 l) = anti (log_z c dh dw) (faults L)).
    { pose proof (anti_faults false c dh dw _ 0 l (of_type_log _ _ _ _) Hl) as HA. unfold L. rewrite faults_cons. cbn [fault_of]. rewrite anti_pid_r, xorb_false_l.
      symmetry. exact HA. }
    unfold flips. rewrite Hfl, <-Hodd.
    assert (Hs : Forall (fun e => safe_ev z_safe e = true) L) by (eapply Forall_impl; [exact HLb|]; intros [o|] ?; [by destruct o|done]).
    pose proof (C11_lattice_z R s q dh dw L s' is _ k0 k1 Hok Hr0 Hem Hs He Hp Hrg) as HLV. fold c in HLV. rewrite <-HLV. apply xorl_ext.
    intros j Hj%elem_of_seqZ. cbn [r_name]. apply Hrd. unfold valid_size in Hv. nia.
Qed.

(** * C27 *)
(** A fresh circuit with one lattice; reset, a round, then any rounds, logical gates and
    identities in any number and order with Pauli faults on data qubits in between, a last round,
    and the logical readout.  [rs] are the syndrome registers and [rd] the readout register.
    Whatever the measurement outcomes, if at most (d-1)/2 faults of the relevant type and misread
    syndrome bits occurred then the decoded value is the logical value: 0 flipped by every logical
    gate called. *)
Theorem C27_end_to_end (R : Amp) isx s q dh dw l s' is (k0 k1 : config R) rs rd T D rx ep misread cs' :
  lat_ok s q dh dw -> 1 < dh * dw -> cregs s = [] ->
  run_evs q (Call (reset_op isx) :: Call OStab :: l ++ [Call OStab; Call (read_op isx)]) s = (s', Ok tt) ->
  emitted s s' is -> Forall (body_ev dh dw) l ->
  syndromes_clean q k0.2 -> exec is k0 k1 -> possible k1 ->
  cregs s' = rs ++ [rd] ->
  observed isx dh dw rs.*1 misread k1.1 cs' -> cs' (rd.1, 0) = k1.1 (rd.1, 0) ->
  let N := Z.of_nat (length rs) in
  (forall m, m ∈ misread -> 1 <= m.1 < N - 1 /\ 0 <= m.2 < nsyn isx dh dw) ->
  Z.of_nat (length (flips_of isx (lat_code (tq_lat q)) dh dw 0 l) + length misread) <= (extent isx dh dw - 1) / 2 ->
  decoder_for isx dh dw T D -> N - 1 <= T -> rx_ok rx ->
  N = 2 + Z.of_nat (count is_stab (calls l)) /\
  correct_readout rx D ep (counts_key cs' (cregs s')) isx = Ok (Z.b2z (Nat.odd (count (inverts isx) (calls l)))).
Proof.
  intros Hok H1 Hcr Hr Hem Hl Hcl He Hp Hrs Hobs Hrd N Hmis Hw HD HT Hrx.
  pose proof (lo_valid _ _ _ _ Hok) as Hv. destruct (lat_ok_cnt _ _ _ _ Hok) as [n Hn].
  destruct (logical_record R isx s q dh dw l s' is k0 k1 rs rd misread cs' n Hok Hn Hcr Hr Hem Hl Hcl He Hp Hrs Hobs Hrd Hmis) as (HN & -> & HL & Hf & Hrep & Hlast).
  split; [done|]. eapply C26_corrects; [done|done|exact HD|done|by rewrite HL|rewrite HL; exact Hf|exact Hrep|exact Hlast|done].
Qed.
Print Assumptions C27_end_to_end.

(** * C44 *)
(** The same run ended by a Z-basis lattice readout instead of a last round and a logical
    readout.  The last round is deduced from the data bits, so that misreadings in every recorded
    round but the first count.  (The X-basis lattice readout cannot be parsed: C14.) *)
Theorem C44_end_to_end_lattice (R : Amp) s q dh dw l s' is (k0 k1 : config R) rs rd T D rx ep misread cs' :
  lat_ok s q dh dw -> 1 < dh * dw -> cregs s = [] ->
  run_evs q (Call OResetZ :: Call OStab :: l ++ [Call OLatZ]) s = (s', Ok tt) ->
  emitted s s' is -> Forall (body_ev dh dw) l ->
  syndromes_clean q k0.2 -> exec is k0 k1 -> possible k1 ->
  cregs s' = rs ++ [rd] ->
  observed false dh dw rs.*1 misread k1.1 cs' -> (forall j, 0 <= j < dh * dw -> cs' (rd.1, j) = k1.1 (rd.1, j)) ->
  let N := Z.of_nat (length rs) in
  (forall m, m ∈ misread -> 1 <= m.1 < N /\ 0 <= m.2 < nsyn false dh dw) ->
  Z.of_nat (length (flips_of false (lat_code (tq_lat q)) dh dw 0 l) + length misread) <= (dh - 1) / 2 ->
  decoder_for false dh dw T D -> N <= T -> rx_ok rx ->
  N = 1 + Z.of_nat (count is_stab (calls l)) /\
  correct_readout rx D ep (counts_key cs' (cregs s')) false = Ok (Z.b2z (Nat.odd (count is_x (calls l)))).
Proof.
  intros Hok H1 Hcr Hr Hem Hl Hcl He Hp Hrs Hobs Hrd N Hmis Hw HD HT Hrx.
  pose proof (lo_valid _ _ _ _ Hok) as Hv. destruct (lat_ok_cnt _ _ _ _ Hok) as [n Hn].
  destruct (lattice_record R s q dh dw l s' is k0 k1 rs rd misread cs' n Hok Hn Hcr Hr Hem Hl Hcl He Hp Hrs Hobs Hrd Hmis) as (HN & names & nm & _ & -> & HL & Hf & Hrep & Hlast).
  split; [done|]. eapply C26_corrects_lattice_z; [done|done|exact HD|done|rewrite HL; fold N; lia|rewrite HL; exact Hf|exact Hrep|exact Hlast|done].
Qed.
Print Assumptions C44_end_to_end_lattice.

(** * Runs meeting the hypotheses *)
(** An XZZX lattice of 5 rows and 3 columns in a fresh circuit, started in |0...0>.  x() is
    called once; data qubit 7 suffers X and Z (only X matters), and the fourth bit of the second
    round comes back inverted. *)
Definition e2e_q : st * res tqubit := new_tqubit TXZZX (Some 0%nat) "tq" (heap1 (with_d (DTup [5; 3]))).
Lemma e2e_ok : exists q, e2e_q.2 = Ok q /\ lat_ok e2e_q.1 q 5 3 /\ lat_code (tq_lat q) = XZZX.
Proof.
  destruct (C04_constructed TXZZX 0 "tq" (heap1 (with_d (DTup [5; 3]))) (with_d (DTup [5; 3])) (DTup [5; 3]) 5 3)
    as (s' & q' & E & Hok & Hc & _); try done; [intros suf _; apply not_elem_of_nil|].
  unfold e2e_q. rewrite E. exists q'. done.
Qed.
Definition e2e_hist : list ev := [Fault true 7; Call OStab; Call OX; Fault false 7; Call OStab; Call OIdData].
Definition run_regs (m : st * res tqubit) (l : list ev) : list (string * Z) :=
  match m with (s, Ok q) => cregs (run_evs q l s).1 | _ => [] end.
Lemma run_regs_eq m l q s' : m.2 = Ok q -> run_evs q l m.1 = (s', Ok tt) -> run_regs m l = cregs s'.
Proof. destruct m as [s r]. cbn. intros -> E. cbn. by rewrite E. Qed.
Lemma v53 : valid_size 5 3. Proof. done. Qed.
Lemma e2e_body : Forall (body_ev 5 3) e2e_hist. Proof. repeat constructor; cbn; lia. Qed.
Lemma e2e_flips : flips_of false XZZX 5 3 0 e2e_hist = [(0, 7)]. Proof. vm_compute. reflexivity. Qed.
Lemma e2e_empty : cregs e2e_q.1 = []. Proof. vm_compute. reflexivity. Qed.
(** A classical state with one bit inverted. *)
Definition invert (cs : clbit -> bool) (b0 b : clbit) : bool := xorb (cs b) (bool_decide (b = b0)).
Lemma invert_same cs b0 : invert cs b0 b0 <> cs b0.
Proof. unfold invert. rewrite bool_decide_eq_true_2 by done. by destruct (cs b0). Qed.
Lemma invert_other cs b0 b : b <> b0 -> invert cs b0 b = cs b.
Proof. intros H. unfold invert. rewrite bool_decide_eq_false_2 by done. apply xorb_false_r. Qed.
Lemma observed_invert names s nm loc cs : names !! s = Some nm -> NoDup names ->
  observed false 5 3 names [(Z.of_nat s, loc)] cs (invert cs (nm, loc)).
Proof.
  intros Hs Hnd t nm' loc' Ht Hl. unfold invert, syn_off. rewrite Z.add_0_l, fmap_cons, xorl_cons. change (xorl (_ <$> [])) with false. rewrite xorb_false_r.
  f_equal. apply bool_decide_ext. rewrite !pair_equal_spec. split.
  - intros [-> ->]. by rewrite (NoDup_lookup names s t nm Hnd Hs Ht).
  - intros [E ->]. apply Nat2Z.inj in E as ->. rewrite Hs in Ht. by injection Ht as ->.
Qed.
Lemma e2e_weight q m : lat_code (tq_lat q) = XZZX ->
  Z.of_nat (length (flips_of false (lat_code (tq_lat q)) 5 3 0 e2e_hist) + length [m : Z * Z]) <= 2.
Proof. intros ->. rewrite e2e_flips. cbn. lia. Qed.
Definition e2e_names : list string := ["tq_c0"; "tq_c1"; "tq_c2"; "tq_c3"]%string.
Lemma e2e_nodup n : NoDup (take n e2e_names).
Proof.
  assert (H : NoDup e2e_names) by (apply (bool_decide_unpack _); vm_compute; exact I).
  rewrite <-(take_drop n e2e_names) in H. by apply NoDup_app in H as [? _].
Qed.
Lemma misread_range a b N : 1 <= a < N -> 0 <= b < 8 -> forall m, m ∈ [(a, b)] -> 1 <= m.1 < N /\ 0 <= m.2 < nsyn false 5 3.
Proof. intros Ha Hb m Hm. apply elem_of_list_singleton in Hm as ->. change (nsyn false 5 3) with 8. done. Qed.

Example C27_ex : exists q s' is (k1 : config ZAmp) D cs',
  e2e_q.2 = Ok q /\ run_evs q (Call OResetZ :: Call OStab :: e2e_hist ++ [Call OStab; Call (OReadZ None)]) e2e_q.1 = (s', Ok tt) /\
  emitted e2e_q.1 s' is /\ exec is (fun _ => false, zero_state) k1 /\ possible k1 /\
  rotated_decoder (Some (DTup [5; 3])) (Some 4) = Ok D /\
  observed false 5 3 e2e_names [(1, 3)] k1.1 cs' /\ cs' ("tq_c1"%string, 3) <> k1.1 ("tq_c1"%string, 3) /\
  correct_readout rx_ref D EPNone (counts_key cs' (cregs s')) false = Ok 1.
Proof.
  destruct e2e_ok as (q & Hq & Hok & Hc).
  assert (Hrun : run_ok e2e_q (Call OResetZ :: Call OStab :: e2e_hist ++ [Call OStab; Call (OReadZ None)]) = true) by (vm_compute; reflexivity).
  destruct (run_ok_inv _ _ _ _ _ Hq Hok Hrun) as (s' & is & Hr & Hem).
  destruct (evs_possible _ _ _ _ _ _ _ ((fun _ => false), zero_state) Hok Hr Hem (zero_possible _)) as (k1 & He & Hp).
  destruct (decoder_for_rotated false 5 3 4 v53) as (D & ED & HD).
  assert (Hregs : cregs s' = ((., 14) <$> e2e_names) ++ [("tq_readout_0"%string, 1)]).
  { rewrite <-(run_regs_eq _ _ _ _ Hq Hr). vm_compute. reflexivity. }
  pose proof (observed_invert e2e_names 1 _ 3 k1.1 eq_refl (e2e_nodup 4)) as Hobs.
  exists q, s', is, k1, D, (invert k1.1 ("tq_c1"%string, 3)). do 7 (split; [assumption|]). split; [apply invert_same|].
  refine (proj2 (C27_end_to_end ZAmp false _ q 5 3 e2e_hist s' is (fun _ => false, zero_state) k1 _ _ 4 D rx_ref EPNone [(1, 3)] _ Hok eq_refl e2e_empty Hr Hem e2e_body
    (C10_initially_clean ZAmp q) He Hp Hregs Hobs _ _ (e2e_weight q _ Hc) HD _ rx_ref_ok)).
  - apply invert_other. discriminate.
  - apply (misread_range 1 3 3); clear; lia.
  - clear. cbn. lia.
Qed.
(** The same lattice with a lattice readout; the misreading is in the last recorded round. *)
Example C44_ex : exists q s' is (k1 : config ZAmp) D cs',
  e2e_q.2 = Ok q /\ run_evs q (Call OResetZ :: Call OStab :: e2e_hist ++ [Call OLatZ]) e2e_q.1 = (s', Ok tt) /\
  emitted e2e_q.1 s' is /\ exec is (fun _ => false, zero_state) k1 /\ possible k1 /\
  rotated_decoder (Some (DTup [5; 3])) (Some 3) = Ok D /\
  observed false 5 3 (take 3 e2e_names) [(2, 0)] k1.1 cs' /\ cs' ("tq_c2"%string, 0) <> k1.1 ("tq_c2"%string, 0) /\
  correct_readout rx_ref D EPNone (counts_key cs' (cregs s')) false = Ok 1.
Proof.
  destruct e2e_ok as (q & Hq & Hok & Hc).
  assert (Hrun : run_ok e2e_q (Call OResetZ :: Call OStab :: e2e_hist ++ [Call OLatZ]) = true) by (vm_compute; reflexivity).
  destruct (run_ok_inv _ _ _ _ _ Hq Hok Hrun) as (s' & is & Hr & Hem).
  destruct (evs_possible _ _ _ _ _ _ _ ((fun _ => false), zero_state) Hok Hr Hem (zero_possible _)) as (k1 & He & Hp).
  destruct (decoder_for_rotated false 5 3 3 v53) as (D & ED & HD).
  assert (Hregs : exists nm, cregs s' = ((., 14) <$> take 3 e2e_names) ++ [(nm, 15)] /\ nm <> "tq_c2"%string).
  { rewrite <-(run_regs_eq _ _ _ _ Hq Hr). eexists. split; [vm_compute; reflexivity|discriminate]. }
  destruct Hregs as (nm & Hregs & Hnm).
  pose proof (observed_invert (take 3 e2e_names) 2 _ 0 k1.1 eq_refl (e2e_nodup 3)) as Hobs.
  exists q, s', is, k1, D, (invert k1.1 ("tq_c2"%string, 0)). do 7 (split; [assumption|]). split; [apply invert_same|].
  refine (proj2 (C44_end_to_end_lattice ZAmp _ q 5 3 e2e_hist s' is (fun _ => false, zero_state) k1 _ _ 3 D rx_ref EPNone [(2, 0)] _ Hok eq_refl e2e_empty Hr Hem e2e_body
    (C10_initially_clean ZAmp q) He Hp Hregs Hobs _ _ (e2e_weight q _ Hc) HD _ rx_ref_ok)).
  - intros j _. apply invert_other. clear -Hnm. intros [= E]. exact (Hnm E).
  - apply (misread_range 2 0 3); clear; lia.
  - clear. cbn. lia.
Qed.
