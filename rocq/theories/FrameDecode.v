(** A run with faults anywhere after the first round leaves the record of a run with at most
    two flips or misreadings per fault. *)
From Verif Require Export FrameAcct P_EndToEnd.
From stdpp Require Export list.
Open Scope Z_scope.

Lemma hist_app c name dh dw n l1 l2 : evs_code c name dh dw n (Call <$> (l1 ++ l2)) = evs_code c name dh dw n (Call <$> l1) ++ evs_code c name dh dw (evs_next n (Call <$> l1)) (Call <$> l2).
Proof.
  revert n. induction l1 as [|o l IHl]; intros n; [done|]. cbn [app]. rewrite !hist_cons, IHl, <-app_assoc. done.
Qed.
Lemma next_app n l1 l2 : evs_next n (Call <$> (l1 ++ l2)) = evs_next (evs_next n (Call <$> l1)) (Call <$> l2).
Proof. revert n. induction l1 as [|o l IHl]; intros n; [done|]. cbn [app fmap list_fmap evs_next]. apply IHl. Qed.
Lemma run_evs_join q l1 l2 s s1 s2 : run_evs q l1 s = (s1, Ok tt) -> run_evs q l2 s1 = (s2, Ok tt) -> run_evs q (l1 ++ l2) s = (s2, Ok tt).
Proof.
  unfold run_evs. revert s. induction l1 as [|e l IHl]; intros s; [by intros [= ->]|]. cbn [app mfor]. unfold mbind'.
  destruct (run_ev q e s) as [sx [[]|]]; [apply IHl|done].
Qed.
Lemma emitted_join s s1 s2 is1 is2 : emitted s s1 is1 -> emitted s1 s2 is2 -> emitted s s2 (is1 ++ is2).
Proof. unfold emitted. intros E1 E2. by rewrite E2, E1, app_assoc. Qed.
Lemma flips_calls isx c dh dw t l : flips_of isx c dh dw t (Call <$> l) = [].
Proof. revert t. induction l as [|o l IHl]; intros t; [done|]. cbn. apply IHl. Qed.
Lemma body_ops_ev dh dw l : Forall body_op l -> Forall (body_ev dh dw) (Call <$> l).
Proof. intros H. apply Forall_fmap. eapply Forall_impl; [exact H|]. by intros []. Qed.
Lemma push_none is b : ff (push is (Fr pid fnone)) b = false.
Proof.
  assert (H : feq (push is (Fr pid fnone)) (fadd (push is (Fr pid fnone)) (push is (Fr pid fnone)))).
  { eapply feq_trans; [|apply push_add]. apply push_feq. split; [|done]. cbn. unfold pmul, pid. cbn. by rewrite sd_empty_r. }
  destruct H as [_ H]. specialize (H b). cbn in H. rewrite H. apply xorb_nilpotent.
Qed.
Lemma xorl_elements (f : Z -> bool) (l : list Z) (A : gset Z) : NoDup l -> (forall x, x ∈ l <-> x ∈ A) -> xorl (f <$> elements A) = xorl (f <$> l).
Proof.
  intros Hn HA. apply xorl_perm. apply fmap_Permutation. apply NoDup_Permutation; [apply NoDup_elements|done|]. intros x. by rewrite elem_of_elements, HA.
Qed.
Lemma observed_id isx dh dw names cs : observed isx dh dw names [] cs cs.
Proof. intros s nm loc _ _. cbn. by rewrite xorb_false_r. Qed.

Section noisy.
Context {R : Amp}.
Implicit Types (k : config R).

Lemma noisy_lattice s q dh dw l sa is0 s' is1 js w k0 k1 rs rd misread cs' :
  lat_ok s q dh dw -> cregs s = [] ->
  run_evs q [Call OResetZ; Call OStab] s = (sa, Ok tt) -> emitted s sa is0 ->
  run_evs q (Call <$> l ++ [OLatZ]) sa = (s', Ok tt) -> emitted sa s' is1 ->
  Forall body_op l -> inject is1 js w ->
  syndromes_clean q k0.2 -> exec (is0 ++ js) k0 k1 -> possible k1 ->
  cregs s' = rs ++ [rd] ->
  observed false dh dw rs.*1 misread k1.1 cs' -> (forall j, 0 <= j < dh * dw -> cs' (rd.1, j) = k1.1 (rd.1, j)) ->
  let N := Z.of_nat (length rs) in let c := lat_code (tq_lat q) in
  (forall m, m ∈ misread -> 1 <= m.1 < N /\ 0 <= m.2 < nsyn false dh dw) ->
  N = 1 + Z.of_nat (count is_stab l) /\
  exists base names nm last flips mis, (length flips + length mis <= 2 * w + length misread)%nat /\
  let rounds := recorded cs' (names ++ [nm]) ++ [final_round dh dw (fun j => cs' (last, j)) (fun i => cs' (nm, i))] in
  cregs s' = ((., dh * dw - 1) <$> names ++ [nm]) ++ [(last, dh * dw)] /\ Z.of_nat (length rounds) = N + 1 /\
  faults_within false dh dw (N + 1) flips mis /\
  reported false c dh dw base flips mis rounds /\
  xorl ((fun j => cs' (last, j)) <$> seqZ 0 dw) = xorb (Nat.odd (count is_x l)) (logical_flip false c dh dw flips).
Proof.
  intros Hok Hcr Hra Hea Hrb Heb Hl Hinj Hcl He Hp Hrs Hobs Hrd N c Hmis.
  pose proof (lo_valid _ _ _ _ Hok) as Hv. destruct (lat_ok_cnt _ _ _ _ Hok) as [n Hn]. set (name := lat_name (tq_lat q)).
  pose proof (run_evs_inv _ _ _ _ _ _ _ Hok Hn Hra) as HPa. change (evs_next n [Call OResetZ; Call OStab]) with (bump_T n) in HPa.
  pose proof (run_evs_inv _ _ _ _ _ _ _ (po_ok _ _ _ _ _ _ _ _ HPa) (po_cnt _ _ _ _ _ _ _ _ HPa) Hrb) as HPb.
  assert (E1 : is1 = evs_code c name dh dw (bump_T n) (Call <$> l ++ [OLatZ])).
  { pose proof (po_code _ _ _ _ _ _ _ _ HPb) as E. unfold emitted in Heb. rewrite Heb in E. by apply app_inv_head in E. }
  rewrite hist_app in E1. set (n1 := evs_next (bump_T n) (Call <$> l)) in *. cbn [fmap list_fmap evs_code ev_code] in E1. rewrite app_nil_r in E1.
  destruct (body_regs name dh dw (Call <$> l) (bump_T n) (body_ops_ev _ _ _ Hl)) as (_ & _ & _ & EL). fold n1 in EL. change (cL (bump_T n)) with (cL n) in EL.
  apply exec_app in He as (ka & Hea' & Hej).
  assert (Hfr : Forall framed is1) by (rewrite E1; apply Forall_app_2; [by apply hist_framed|apply lat_framed]).
  destruct (inject_frames_tail is1 js w [] (Fr pid fnone) ka ka k1 Hfr (Forall_nil_2 _) Hinj) as (kc & g & fl & Hec & Hg & Hfl & Hat & Hff).
  { split; [intros b; cbn; by rewrite xorb_false_r|]. exists false. apply tied_id. }
  { by rewrite app_nil_r. }
  pose proof (frel_possible _ _ _ Hg Hp) as Hpc. rewrite app_nil_r in Hec, Hff.
  set (imp := fun b => xorl ((fun rP : list instr * pauli qubit => impact rP.1 rP.2 b) <$> fl)).
  assert (Hk : forall b, k1.1 b = xorb (kc.1 b) (imp b)).
  { intros b. destruct Hg as [-> _]. f_equal. by rewrite Hff, push_none, xorb_false_l. }
  (* the run without faults *)
  assert (Hrun : run_evs q (Call OResetZ :: Call OStab :: (Call <$> l) ++ [Call OLatZ]) s = (s', Ok tt)).
  { rewrite fmap_app in Hrb. exact (run_evs_join _ _ _ _ _ _ Hra Hrb). }
  assert (Hexec : exec (is0 ++ is1) k0 kc) by (apply exec_app; eauto).
  destruct (lattice_record R s q dh dw (Call <$> l) s' (is0 ++ is1) k0 kc rs rd [] kc.1 n Hok Hn Hcr Hrun (emitted_join _ _ _ _ _ Hea Heb) (body_ops_ev _ _ _ Hl) Hcl Hexec Hpc Hrs (observed_id _ _ _ _ _))
    as (HN & names & nm & Enms & Hregs & HRl & _ & Hrep & Hrow); [done|by intros m []%elem_of_nil|].
  rewrite calls_ops in *. fold N c name in HN, Enms, HRl, Hrep, Hrow, Hregs. rewrite flips_calls in *. cbn [logical_flip fmap list_fmap xorl foldr] in Hrow.
  set (last := lrname name (cL n + 1)) in *. set (base := first_values false name dh dw n kc.1) in *.
  rewrite Hregs in Hrs. apply app_inj_tail in Hrs as [Ers Erd]. rewrite <-Erd in Hrd. cbn [fst] in Hrd.
  assert (Enm : rs.*1 = names ++ [nm]) by (rewrite <-Ers, <-list_fmap_compose; apply list_fmap_id).
  assert (Hlen : Z.of_nat (length (names ++ [nm])) = N) by (unfold N; by rewrite <-Enm, fmap_length).
  rewrite Enm in Hobs. split; [done|].
  (* the account of the faults *)
  destruct (acct_sum name dh dw false (bump_T n) (Z.of_nat (count is_stab l)) (Z.of_nat (count is_stab l)) (obs dh dw false) (val_lat name n1) fl (fun rP b => impact rP.1 rP.2 b)) as (flips & mis & Hcount & A1 & A2 & A3 & A4).
  { apply val_lat_add. } { apply val_lat_0. }
  { intros rP HrP. destruct (Hat _ HrP) as [(r & Hr & E) (qq & Hs)]. rewrite app_nil_r in E. rewrite E. apply (lat_fault c name dh dw Hv l (bump_T n) n1 r qq); [done|done|by rewrite <-E1]. }
  fold imp in A3, A4.
  assert (A0 : forall kk : bool * Z, imp (cbit name dh dw (cT n + 1) kk) = false).
  { intros kk. apply xorl_false, Forall_fmap, list.Forall_forall. intros rP HrP. cbn. destruct (Hat _ HrP) as [(r & Hr & E) _]. rewrite app_nil_r in E.
    unfold impact. rewrite push_unwritten; [done|]. intros i Hi. rewrite E in Hi. assert (Hi' : i ∈ is1) by (destruct Hr as [x ->]; apply elem_of_app; by right). clear Hi. rename Hi' into Hi. rewrite E1 in Hi. apply elem_of_app in Hi as [Hi|Hi].
    - eapply (hist_writes c name dh dw Hv l); [done| |exact Hi]. cbn. lia.
    - destruct (lat_kinds _ _ _ _ _ _ Hi) as [(a & ->)|[(j & ->)| -> ]]; try apply not_elem_of_nil. intros E'%elem_of_list_singleton. by apply cbit_lbit in E'. }
  exists base, names, nm, last, flips, (mis ++ misread). split; [rewrite app_length; lia|]. intros rounds. split; [done|].
  assert (Hval : forall A L, obs dh dw false A -> NoDup L -> (forall j, j ∈ L <-> j ∈ A) -> xorl ((fun j => cs' (last, j)) <$> L) = xorb (xorl ((fun j => kc.1 (last, j)) <$> L)) (xorl ((fun e => mem e.2 A) <$> flips))).
  { intros A L HA HL HLA. rewrite <-(A4 A HA). unfold val_lat. rewrite (xorl_elements _ L A HL HLA), EL. fold last. rewrite xorl_xor. apply xorl_ext.
    intros j Hj%HLA. rewrite <-Hk. apply Hrd. apply elem_of_data_set. by eapply (obs_data dh dw Hv false). }
  assert (HRl' : Z.of_nat (length rounds) = N + 1) by (unfold rounds, recorded; rewrite app_length, fmap_length; cbn; lia).
  split_and!.
  - done.
  - split; [intros e He%A1; split; [lia|apply He]|]. intros m [Hm%A2|Hm%Hmis]%elem_of_app; (split; [lia|apply Hm]).
  - intros t r loc Ht Hloc. unfold SpecFault.syn_bit. unfold rounds in Ht. rewrite fmap_app, xorl_app.
    assert (Esum : forall f : Z * Z, anti (err_at false c dh dw f.2) (stabk false c dh dw loc) = mem f.2 (tset dh dw (false, loc))) by (intros f; by rewrite stabk_typed, anti_err_typed).
    apply lookup_app_Some in Ht as [Ht|[Hge Ht]].
    + unfold recorded in Ht. apply list_lookup_fmap_inv in Ht as (nm' & -> & Hnm).
      assert (Ht' : 0 <= Z.of_nat t < N) by (apply lookup_lt_Some in Hnm; lia).
      assert (Hb : kc.1 (nm', syn_off false dh dw + loc) = base loc).
      { specialize (Hrep t (fun i => kc.1 (nm', i)) loc). rewrite Hrep; [unfold SpecFault.syn_bit; cbn; by rewrite !xorb_false_r| |done].
        apply lookup_app_l_Some. unfold recorded. rewrite list_lookup_fmap, Hnm. done. }
      assert (Enm' : nm' = cname name (cT n + 1 + Z.of_nat t)).
      { rewrite <-Enms in Hnm. unfold round_regs in Hnm. apply list_lookup_fmap_inv in Hnm as (j & -> & Hj). apply lookup_seqZ in Hj as [-> Hj]. done. }
      rewrite (Hobs t nm' loc Hnm Hloc), Hk, Hb. rewrite !xorb_assoc. f_equal. rewrite <-xorb_assoc. f_equal. rewrite Enm', <-cbit_off.
      destruct (decide (t = 0%nat)) as [-> |Ht0].
      * rewrite Z.add_0_r, A0. symmetry. rewrite !xorl_false; [done| |].
        -- apply Forall_fmap, list.Forall_forall. intros m Hm%A2. cbn. apply bool_decide_eq_false. intros ->. cbn in Hm. lia.
        -- apply Forall_fmap, list.Forall_forall. intros e He%A1. cbn. rewrite bool_decide_eq_false_2 by lia. done.
      * replace (cT n + 1 + Z.of_nat t) with (cT (bump_T n) + 1 + (Z.of_nat t - 1)) by (cbn; lia). etransitivity; [apply A3; (done || lia)|].
        replace (1 + (Z.of_nat t - 1)) with (Z.of_nat t) by lia. f_equal. apply xorl_ext. intros e _. by rewrite Esum.
    + unfold recorded in Hge, Ht. rewrite fmap_length in Hge, Ht. apply list_lookup_singleton_Some in Ht as [Et <-].
      assert (Ht : Z.of_nat t = N) by lia. rewrite Ht.
      destruct (plaq_data_z dh dw loc Hv Hloc) as (_ & Hnd & _ & Hin).
      assert (Hb : xorl ((fun j => kc.1 (last, j)) <$> plaq_data (geom_z dh dw loc)) = base loc).
      { specialize (Hrep t (final_round dh dw (fun j => kc.1 (last, j)) (fun i => kc.1 (nm, i))) loc). unfold final_round, syn_off in Hrep.
        rewrite Z.add_0_l, bool_decide_eq_true_2 in Hrep by (unfold nsyn in Hloc; lia). rewrite Hrep; [unfold SpecFault.syn_bit; cbn; by rewrite !xorb_false_r| |done].
        rewrite lookup_app_r by (unfold recorded; rewrite fmap_length; lia). unfold recorded. rewrite fmap_length. by rewrite Et. }
      unfold final_round, syn_off. rewrite Z.add_0_l, bool_decide_eq_true_2 by (unfold nsyn in Hloc; lia).
      rewrite (Hval (tset dh dw (false, loc))); [|left; eauto|done|]; cycle 1.
      { intros j. unfold tset. rewrite elem_of_list_to_set. done. }
      rewrite Hb. f_equal.
      assert (forall M : list (Z * Z), (forall m, m ∈ M -> m.1 < N) -> xorl ((fun m => bool_decide (m = (N, loc))) <$> M) = false) as HM.
      { intros M HM. apply xorl_false, Forall_fmap, list.Forall_forall. intros m Hm. cbn. apply bool_decide_eq_false. intros ->. apply HM in Hm. cbn in Hm. lia. }
      rewrite !HM by (intros m Hm; (apply A2 in Hm || apply Hmis in Hm); lia). rewrite !xorb_false_r.
      apply xorl_ext. intros f Hf. apply A1 in Hf. rewrite bool_decide_eq_true_2 by lia. by rewrite Esum.
  - rewrite (Hval (lset dh dw false)); [|by right|apply NoDup_seqZ|].
    + rewrite Hrow, xorb_false_r. f_equal. apply xorl_ext. intros f _. by rewrite logk_typed, anti_err_typed.
    + intros j. unfold lset. rewrite <-(row_list_set dh dw Hv). by rewrite elem_of_list_to_set.
Qed.

Lemma noisy_logical isx s q dh dw l sa is0 sb is1 s' is2 js w k0 k1 rs rd misread cs' :
  lat_ok s q dh dw -> cregs s = [] ->
  run_evs q [Call (reset_op isx); Call OStab] s = (sa, Ok tt) -> emitted s sa is0 ->
  run_evs q (Call <$> l) sa = (sb, Ok tt) -> emitted sa sb is1 ->
  run_evs q (Call <$> [OStab; OStab; read_op isx]) sb = (s', Ok tt) -> emitted sb s' is2 ->
  Forall body_op l -> inject is1 js w ->
  syndromes_clean q k0.2 -> exec (is0 ++ js ++ is2) k0 k1 -> possible k1 ->
  cregs s' = rs ++ [rd] ->
  observed isx dh dw rs.*1 misread k1.1 cs' -> cs' (rd.1, 0) = k1.1 (rd.1, 0) ->
  let N := Z.of_nat (length rs) in let c := lat_code (tq_lat q) in
  (forall m, m ∈ misread -> 1 <= m.1 < N - 1 /\ 0 <= m.2 < nsyn isx dh dw) ->
  N = 3 + Z.of_nat (count is_stab l) /\
  exists base names last flips mis, (length flips + length mis <= 2 * w + length misread)%nat /\
  cregs s' = ((., dh * dw - 1) <$> names) ++ [(last, 1)] /\ Z.of_nat (length names) = N /\
  faults_within isx dh dw N flips mis /\
  reported isx c dh dw base flips mis (recorded cs' names) /\
  cs' (last, 0) = xorb (Nat.odd (count (inverts isx) l)) (logical_flip isx c dh dw flips).
Proof.
  intros Hok Hcr Hra Hea Hrb Heb Hrc Hec0 Hl Hinj Hcl He Hp Hrs Hobs Hrd N c Hmis.
  pose proof (lo_valid _ _ _ _ Hok) as Hv. destruct (lat_ok_cnt _ _ _ _ Hok) as [n Hn]. set (name := lat_name (tq_lat q)).
  pose proof (run_evs_inv _ _ _ _ _ _ _ Hok Hn Hra) as HPa. assert (Enx : evs_next n [Call (reset_op isx); Call OStab] = bump_T n) by (by destruct isx). rewrite Enx in HPa.
  pose proof (run_evs_inv _ _ _ _ _ _ _ (po_ok _ _ _ _ _ _ _ _ HPa) (po_cnt _ _ _ _ _ _ _ _ HPa) Hrb) as HPb.
  set (n1 := evs_next (bump_T n) (Call <$> l)) in *.
  pose proof (run_evs_inv _ _ _ _ _ _ _ (po_ok _ _ _ _ _ _ _ _ HPb) (po_cnt _ _ _ _ _ _ _ _ HPb) Hrc) as HPc.
  assert (E1 : is1 = evs_code c name dh dw (bump_T n) (Call <$> l)).
  { pose proof (po_code _ _ _ _ _ _ _ _ HPb) as E. unfold emitted in Heb. rewrite Heb in E. by apply app_inv_head in E. }
  assert (E2 : is2 = tail2 c name dh dw isx n1).
  { pose proof (po_code _ _ _ _ _ _ _ _ HPc) as E. unfold emitted in Hec0. rewrite Hec0 in E. apply app_inv_head in E. rewrite E. fold c name.
    rewrite !hist_cons. cbn [fmap list_fmap evs_code]. rewrite app_nil_r. unfold tail2. cbn [op_next]. cbn [op_code].
    change (cT (bump_T n1) + 1) with (cT n1 + 1 + 1). replace (cT n1 + 1 + 1) with (cT n1 + 2) by lia. done. }
  destruct (body_regs name dh dw (Call <$> l) (bump_T n) (body_ops_ev _ _ _ Hl)) as (_ & ET & ER & _). fold n1 in ER, ET. change (cR (bump_T n)) with (cR n) in ER.
  apply exec_app in He as (ka & Hea' & Hej).
  assert (Hfr : Forall framed is1) by (rewrite E1; by apply hist_framed).
  assert (Hfr2 : Forall framed is2) by (rewrite E2; by apply tail2_framed).
  destruct (inject_frames_tail is1 js w is2 (Fr pid fnone) ka ka k1 Hfr Hfr2 Hinj) as (kc & g & fl & Hec & Hg & Hfl & Hat & Hff).
  { split; [intros b; cbn; by rewrite xorb_false_r|]. exists false. apply tied_id. }
  { done. }
  pose proof (frel_possible _ _ _ Hg Hp) as Hpc.
  set (imp := fun b => xorl ((fun rP : list instr * pauli qubit => impact rP.1 rP.2 b) <$> fl)).
  assert (Hk : forall b, k1.1 b = xorb (kc.1 b) (imp b)).
  { intros b. destruct Hg as [-> _]. f_equal. by rewrite Hff, push_none, xorb_false_l. }
  (* the run without faults *)
  assert (Hrun : run_evs q (Call (reset_op isx) :: Call OStab :: (Call <$> l ++ [OStab]) ++ [Call OStab; Call (read_op isx)]) s = (s', Ok tt)).
  { rewrite fmap_app, <-app_assoc. exact (run_evs_join _ _ _ _ _ _ Hra (run_evs_join _ _ _ _ _ _ Hrb Hrc)). }
  assert (Hexec : exec (is0 ++ is1 ++ is2) k0 kc) by (apply exec_app; eauto).
  assert (Hl' : Forall body_op (l ++ [OStab])) by (apply Forall_app_2; [done|by constructor]).
  destruct (logical_record R isx s q dh dw (Call <$> l ++ [OStab]) s' (is0 ++ is1 ++ is2) k0 kc rs rd [] kc.1 n Hok Hn Hcr Hrun (emitted_join _ _ _ _ _ Hea (emitted_join _ _ _ _ _ Heb Hec0)) (body_ops_ev _ _ _ Hl') Hcl Hexec Hpc Hrs (observed_id _ _ _ _ _))
    as (HN & Hregs & HRl & _ & Hrep & Hrow); [done|by intros m []%elem_of_nil|].
  rewrite calls_ops in *. rewrite flips_calls in *. rewrite !count_app in *.
  assert (Ecnt : count (inverts isx) [OStab] = 0%nat) by (by destruct isx). rewrite Ecnt, Nat.add_0_r in Hrow. change (count is_stab [OStab]) with 1%nat in HN.
  fold N c name in HN, HRl, Hrep, Hrow, Hregs. cbn [logical_flip fmap list_fmap xorl foldr] in Hrow. rewrite xorb_false_r in Hrow.
  set (names := round_regs name n N) in *.
  set (last := rdname name (cR n + 1)) in *. set (base := first_values isx name dh dw n kc.1) in *.
  rewrite Hregs in Hrs. apply app_inj_tail in Hrs as [Ers Erd]. rewrite <-Erd in Hrd. cbn [fst] in Hrd.
  assert (Enm : rs.*1 = names) by (rewrite <-Ers, <-list_fmap_compose; apply list_fmap_id).
  rewrite Enm in Hobs. split; [lia|].
  (* the account of the faults *)
  destruct (acct_sum name dh dw isx (bump_T n) (Z.of_nat (count is_stab l) + 2) (Z.of_nat (count is_stab l) + 1) (fun A => A = lset dh dw isx) (val_rd name (bump_T (bump_T n1))) fl (fun rP b => impact rP.1 rP.2 b)) as (flips & mis & Hcount & A1 & A2 & A3 & A4).
  { done. } { done. }
  { intros rP HrP. destruct (Hat _ HrP) as [(r & Hr & E) (qq & Hs)]. rewrite E, E2. apply (rd_fault c name dh dw Hv isx l (bump_T n) r qq); [done|done|by rewrite <-E1]. }
  fold imp in A3, A4.
  assert (A0 : forall kk : bool * Z, imp (cbit name dh dw (cT n + 1) kk) = false).
  { intros kk. apply xorl_false, Forall_fmap, list.Forall_forall. intros rP HrP. cbn. destruct (Hat _ HrP) as [(r & Hr & E) _].
    unfold impact. rewrite E, E2. unfold tail2. rewrite !app_assoc, push_app.
    destruct (push ((r ++ _) ++ _) _) as [P1 F1] eqn:EP.
    destruct (push_rd c name dh dw Hv isx (bump_T (bump_T n1)) P1 F1) as (P' & F' & -> & _ & HF). cbn [ff]. rewrite HF.
    2:{ unfold cbit, rd_bits. intros [= E' _]. symmetry in E'. by apply rdname_cname in E'. }
    change F1 with (ff (Fr P1 F1)). rewrite <-EP, <-app_assoc, push_app. destruct (push r (Fr rP.2 fnone)) as [P2 F2] eqn:EP2.
    assert (E3 : round_instrs c name dh dw (cT n1 + 1) ++ round_instrs c name dh dw (cT n1 + 2) = evs_code c name dh dw n1 (Call <$> [OStab; OStab])).
    { rewrite !hist_cons. cbn [fmap list_fmap evs_code]. rewrite app_nil_r. cbn [op_next op_code]. change (cT (bump_T n1) + 1) with (cT n1 + 1 + 1). replace (cT n1 + 1 + 1) with (cT n1 + 2) by lia. done. }
    rewrite E3. rewrite (hist_bits c name dh dw Hv [OStab; OStab] n1); [|by repeat constructor| |done].
    2:{ rewrite ET. cbn. lia. }
    change F2 with (ff (Fr P2 F2)). rewrite <-EP2. rewrite (hist_bits c name dh dw Hv l (bump_T n)); [done|done|cbn; lia|by rewrite <-E1]. }
  exists base, names, last, flips, (mis ++ misread). split; [rewrite app_length; lia|]. split; [done|]. split; [done|]. split; [|split].
  - split; [intros e He%A1; split; [lia|apply He]|]. intros m [Hm%A2|Hm%Hmis]%elem_of_app; (split; [lia|apply Hm]).
  - intros t r loc Ht Hloc. unfold SpecFault.syn_bit. rewrite fmap_app, xorl_app.
    assert (Esum : forall f : Z * Z, anti (err_at isx c dh dw f.2) (stabk isx c dh dw loc) = mem f.2 (tset dh dw (isx, loc))) by (intros f; by rewrite stabk_typed, anti_err_typed).
    unfold recorded in Ht. apply list_lookup_fmap_inv in Ht as (nm' & -> & Hnm).
    assert (Ht' : 0 <= Z.of_nat t < N) by (apply lookup_lt_Some in Hnm; lia).
    assert (Hb : kc.1 (nm', syn_off isx dh dw + loc) = base loc).
    { specialize (Hrep t (fun i => kc.1 (nm', i)) loc). rewrite Hrep; [unfold SpecFault.syn_bit; cbn; by rewrite !xorb_false_r| |done].
      unfold recorded. rewrite list_lookup_fmap, Hnm. done. }
    assert (Enm' : nm' = cname name (cT n + 1 + Z.of_nat t)).
    { unfold names, round_regs in Hnm. apply list_lookup_fmap_inv in Hnm as (j & -> & Hj). apply lookup_seqZ in Hj as [-> Hj]. done. }
    rewrite (Hobs t nm' loc Hnm Hloc), Hk, Hb. rewrite !xorb_assoc. f_equal. rewrite <-xorb_assoc. f_equal. rewrite Enm', <-cbit_off.
    destruct (decide (t = 0%nat)) as [-> |Ht0].
    + rewrite Z.add_0_r, A0. symmetry. rewrite !xorl_false; [done| |].
      * apply Forall_fmap, list.Forall_forall. intros m Hm%A2. cbn. apply bool_decide_eq_false. intros ->. cbn in Hm. lia.
      * apply Forall_fmap, list.Forall_forall. intros e He%A1. cbn. rewrite bool_decide_eq_false_2 by lia. done.
    + replace (cT n + 1 + Z.of_nat t) with (cT (bump_T n) + 1 + (Z.of_nat t - 1)) by (cbn; lia). etransitivity; [apply A3; (done || lia)|].
      replace (1 + (Z.of_nat t - 1)) with (Z.of_nat t) by lia. f_equal. apply xorl_ext. intros e _. by rewrite Esum.
  - rewrite Hrd, Hk, Hrow. f_equal. transitivity (val_rd name (bump_T (bump_T n1)) imp (lset dh dw isx)).
    + unfold val_rd, rd_bits, last. cbn [bump_T cR]. by rewrite ER.
    + rewrite A4 by done. apply xorl_ext. intros f _. by rewrite logk_typed, anti_err_typed.
Qed.
End noisy.
