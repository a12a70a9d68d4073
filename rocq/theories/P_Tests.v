(** Property C71: the project's own tests pass at every size. *)
From Coq Require Import QArith Qcanon.
From Verif Require Import TestSuite SpecTests P_Code ConstructFacts DecodeFacts RunFacts RxRef P_Decode P_EndToEnd P_Logical P_Parse ParseFacts SyndromeFacts P_Hist P_DecObj P_Lookup.
From stdpp Require Export list.
Open Scope Z_scope.

(** ** The stabilizers of both types in a run *)
Lemma both_reported (R : Amp) isx isy s q dh dw l s' is (k0 k1 : config R) n :
  lat_ok s q dh dw -> has_cnt s q n -> cregs s = [] ->
  run_evs q (Call (reset_op isx) :: Call OStab :: l ++ [Call OStab; Call (read_op isx)]) s = (s', Ok tt) ->
  emitted s s' is -> Forall (body_ev dh dw) l ->
  syndromes_clean q k0.2 -> exec is k0 k1 -> possible k1 ->
  let N := 2 + Z.of_nat (count is_stab (calls l)) in let c := lat_code (tq_lat q) in let name := lat_name (tq_lat q) in
  let names := round_regs name n N in
  cregs s' = ((., dh * dw - 1) <$> names) ++ [(rdname name (cR n + 1), 1)] /\
  reported isy c dh dw (first_values isy name dh dw n k1.1) (flips_of isy c dh dw 0 l) [] (recorded k1.1 names).
Proof.
  intros Hok Hn Hcr Hr Hem Hl Hcl He Hp N c name names.
  pose proof (lo_valid _ _ _ _ Hok) as Hv.
  set (L := Call OStab :: l ++ [Call OStab]).
  assert (HL : Call (reset_op isx) :: Call OStab :: l ++ [Call OStab; Call (read_op isx)] = (Call (reset_op isx) :: L) ++ [Call (read_op isx)]).
  { unfold L. cbn [app]. by rewrite <-app_assoc. }
  rewrite HL in Hr.
  destruct (split_last _ _ _ _ _ _ _ _ _ _ _ Hok Hn Hr Hem He) as (s1 & ka & n1 & Hr1 & Hok1 & Hn1 & Hro & He1 & He2 & Hregs).
  fold c in He1, He2. fold name in He1, He2, Hregs.
  pose proof (run_evs_inv _ _ _ _ _ _ _ Hok Hn Hr1) as HP1. fold c name in HP1.
  assert (En1 : n1 = evs_next n (Call (reset_op isx) :: L)).
  { pose proof (po_cnt _ _ _ _ _ _ _ _ HP1) as Hn1'. by eapply has_cnt_inj. }
  assert (Hl2 : Forall (body_ev dh dw) (l ++ [Call OStab])) by (apply list.Forall_app; split; [done|by constructor]).
  assert (HLb : Forall (body_ev dh dw) L) by (by constructor).
  assert (Hcnt : count is_stab (calls (l ++ [Call OStab])) = S (count is_stab (calls l))).
  { rewrite calls_app, count_app. change (count is_stab (calls [Call OStab])) with 1%nat. lia. }
  assert (HcL : Z.of_nat (count is_stab (calls L)) = N).
  { unfold L, N. rewrite calls_cons, count_step, Hcnt. cbn [is_stab]. lia. }
  destruct (body_regs name dh dw L n HLb) as (Rg & RT & RR & _).
  assert (Enx : ev_next n (Call (reset_op isx)) = n) by (by destruct isx).
  assert (ER : cR n1 = cR n) by (rewrite En1; cbn [evs_next]; by rewrite Enx).
  split.
  { rewrite (cregs_app s1 s' _ Hregs), (cregs_app s s1 _ (po_regs _ _ _ _ _ _ _ _ HP1)), Hcr. cbn [app evs_reg].
    rewrite Enx. assert (ev_reg name dh dw n (Call (reset_op isx)) = []) as -> by (by destruct isx). cbn [app].
    rewrite Rg, round_names by (done || lia). unfold names, round_regs. rewrite HcL. f_equal. rewrite <-ER. by destruct isx. }
  cbn [evs_code] in He1. apply exec_app in He1 as (kr & Hre & He1). rewrite Enx in He1.
  assert (Hclr : syn_clean name dh dw kr.2).
  { apply (clean_evs c name dh dw Hv [Call (reset_op isx)] n k0 kr); [cbn [evs_code]; by rewrite app_nil_r|]. by eapply syndromes_clean_iff. }
  pose proof (rounds_values c name dh dw Hv isy (l ++ [Call OStab]) n kr ka k1 _ Hl2 He1 He2 Hp Hclr) as HV. cbn zeta in HV.
  rewrite flips_snoc in HV.
  assert (Hfr : forall s loc, k1.1 (cname name s, loc) = ka.1 (cname name s, loc)).
  { intros t loc. assert (Hb : (cname name t, loc) ∉ reg_bits (rdname name (cR n1 + 1), 1)).
    { intros (i & Ei & _)%elem_of_list_fmap. injection Ei as Ei _. symmetry in Ei. by apply rdname_cname in Ei. }
    destruct isx; [by apply (readx_spec _ _ _ _ Hv _ _ _ _ He2)|by apply (readz_spec _ _ _ _ Hv _ _ _ _ He2)]. }
  intros t r loc Ht Hloc. unfold recorded in Ht. apply list_lookup_fmap_inv in Ht as (nm & -> & Hnm).
  unfold SpecFault.syn_bit, first_values. change (xorl (_ <$> [])) with false. rewrite xorb_false_r.
  unfold names in Hnm. apply list_lookup_fmap_inv in Hnm as (j & -> & Hj). apply lookup_seqZ in Hj as [-> Hj].
  rewrite !Hfr. rewrite Z.add_0_l. apply HV; [done|]. rewrite Hcnt. unfold N in Hj. lia.
Qed.

(** ** One case of the tests *)
Section case.
Context (R : Amp) (t : qtype) (dh dw : Z) (Hv : valid_size dh dw) (H1 : 1 < dh * dw).
Definition err_of (xerr : bool) (i : Z) : pauli Z := if xerr then Xon {[i]} else Zon {[i]}.

(** The events reported: the stabilizers that anticommute with the error. *)
Lemma case_events isx xerr i s q s' is (k1 : config R) ty :
  lat_ok s q dh dw -> cregs s = [] -> 0 <= i < dh * dw ->
  run_evs q [Call (reset_op isx); Call OStab; Fault xerr i; Call OStab; Call (read_op isx)] s = (s', Ok tt) ->
  emitted s s' is -> exec is (fun _ => false, zero_state) k1 -> possible k1 ->
  exists lv XZ, parse_readout dh dw (counts_key k1.1 (cregs s')) ty = Ok (lv, XZ) /\
    forall isy e, e ∈ pick isy XZ <->
      exists loc, 0 <= loc < nsyn isy dh dw /\ anti (err_of xerr i) (stabk isy (lat_code (tq_lat q)) dh dw loc) = true /\
        e = (0, (coordk isy dw loc).1, (coordk isy dw loc).2).
Proof.
  intros Hok Hcr Hi Hr Hem He Hp. destruct (lat_ok_cnt _ _ _ _ Hok) as [n Hn].
  assert (Hl : Forall (body_ev dh dw) [Fault xerr i]) by (constructor; [exact Hi|constructor]).
  pose proof (fun isy => both_reported R isx isy s q dh dw [Fault xerr i] s' is (fun _ => false, zero_state) k1 n Hok Hn Hcr Hr Hem Hl (C10_initially_clean R q) He Hp) as HB.
  cbn zeta in HB. set (c := lat_code (tq_lat q)) in *. set (name := lat_name (tq_lat q)) in *.
  change (2 + Z.of_nat (count is_stab (calls [Fault xerr i]))) with 2 in HB. set (names := round_regs name n 2) in *.
  destruct (HB true) as [Ec _]. rewrite Ec.
  destruct (C21_round_trip dh dw k1.1 names (rdname name (cR n + 1)) ty Hv H1) as (X & Z' & E & _ & _ & HX & HZ).
  exists (Z.b2z (k1.1 (rdname name (cR n + 1), 0))), (X, Z'). split; [exact E|]. intros isy e.
  assert (HE : e ∈ pick isy (X, Z') <-> changes (recorded k1.1 names) (nsyn isy dh dw) (syn_off isy dh dw) (coordk isy dw) e) by (destruct isy; [apply HX|apply HZ]).
  rewrite HE. clear HE HX HZ E. destruct (HB isy) as [_ Hrep].
  assert (HA : forall loc, 0 <= loc < nsyn isy dh dw -> anti (err_of xerr i) (stabk isy c dh dw loc) =
    xorl ((fun f => anti (err_at isy c dh dw f.2) (stabk isy c dh dw loc)) <$> flips_of isy c dh dw 0 [Fault xerr i])).
  { intros loc Hloc. rewrite <-(anti_faults isy c dh dw _ 0 _ (of_type_stab isy c dh dw loc Hv Hloc) Hl). rewrite faults_cons.
    change (faults []) with (pid : pauli Z). rewrite anti_pid_r, xorb_false_r, anti_comm. by destruct xerr. }
  assert (Hn2 : recorded k1.1 names = [(fun j => k1.1 (cname name (cT n + 1 + 0), j)); (fun j => k1.1 (cname name (cT n + 1 + 1), j))]) by done.
  assert (HD : forall loc, 0 <= loc < nsyn isy dh dw ->
    k1.1 (cname name (cT n + 1 + 0), syn_off isy dh dw + loc) <> k1.1 (cname name (cT n + 1 + 1), syn_off isy dh dw + loc) <-> anti (err_of xerr i) (stabk isy c dh dw loc) = true).
  { intros loc Hloc. rewrite (HA loc Hloc). rewrite Hn2 in Hrep.
    pose proof (Hrep 0%nat _ loc eq_refl Hloc) as A0. pose proof (Hrep 1%nat _ loc eq_refl Hloc) as A1. cbn beta in A0, A1. rewrite A0, A1.
    unfold SpecFault.syn_bit. change (xorl (_ <$> [])) with false. rewrite !xorb_false_r.
    assert (forall f, f ∈ flips_of isy c dh dw 0 [Fault xerr i] -> f.1 = 0) as Ht.
    { intros f Hf%flips_time. change (Z.of_nat (count is_stab (calls [Fault xerr i]))) with 0 in Hf. lia. }
    rewrite (xorl_ext _ (fun _ => false)), (xorl_false ((fun _ => false) <$> _)).
    - rewrite xorb_false_r. rewrite (xorl_ext (fun f => bool_decide (f.1 < Z.of_nat 1) && _) (fun f => anti (err_at isy c dh dw f.2) (stabk isy c dh dw loc))).
      + destruct (first_values _ _ _ _ _ _ _), (xorl _); cbn; split; done.
      + intros f Hf. by rewrite bool_decide_eq_true_2 by (rewrite (Ht f Hf); lia).
    - apply Forall_fmap, list.Forall_forall. done.
    - intros f Hf. by rewrite bool_decide_eq_false_2 by (rewrite (Ht f Hf); lia). }
  unfold changes. rewrite Hn2. split.
  - intros (k & r & r' & loc & Hr1 & Hr2 & Hloc & Hne & ->). destruct k as [|[|k]]; [|done|done]. cbn in Hr1, Hr2. injection Hr1 as <-. injection Hr2 as <-.
    exists loc. split; [done|]. split; [|done]. by apply HD.
  - intros (loc & Hloc & Ha & ->). eexists 0%nat, _, _, loc. split; [done|]. split; [done|]. split; [done|]. split; [|done]. by apply HD.
Qed.

(** The value decoded. *)
Lemma case_value isx xerr i s q s' is (k1 : config R) T D rx :
  lat_ok s q dh dw -> cregs s = [] -> 0 <= i < dh * dw ->
  run_evs q [Call (reset_op isx); Call OStab; Fault xerr i; Call OStab; Call (read_op isx)] s = (s', Ok tt) ->
  emitted s s' is -> exec is (fun _ => false, zero_state) k1 -> possible k1 ->
  dec_h D = dh -> dec_w D = dw -> rx_ok rx ->
  err_of xerr i <> err_at isx (lat_code (tq_lat q)) dh dw i \/ (decoder_for isx dh dw T D /\ 1 <= T /\ 3 <= extent isx dh dw) ->
  correct_readout rx D EPNone (counts_key k1.1 (cregs s')) isx = Ok 0.
Proof.
  intros Hok Hcr Hi Hr Hem He Hp Hh Hw Hrx HC. destruct (lat_ok_cnt _ _ _ _ Hok) as [n Hn].
  assert (Hl : Forall (body_ev dh dw) [Fault xerr i]) by (constructor; [exact Hi|constructor]).
  destruct (both_reported R isx isx s q dh dw [Fault xerr i] s' is (fun _ => false, zero_state) k1 n Hok Hn Hcr Hr Hem Hl (C10_initially_clean R q) He Hp) as [Ec _].
  change (2 + Z.of_nat (count is_stab (calls [Fault xerr i]))) with 2 in Ec.
  set (c := lat_code (tq_lat q)) in *. set (name := lat_name (tq_lat q)) in *.
  assert (Hobs : observed isx dh dw ((., dh * dw - 1) <$> round_regs name n 2).*1 [] k1.1 k1.1).
  { intros a nm loc _ _. change (xorl (_ <$> [])) with false. by rewrite xorb_false_r. }
  assert (Hmis : forall m : Z * Z, m ∈ [] -> 1 <= m.1 < Z.of_nat (length ((., dh * dw - 1) <$> round_regs name n 2)) - 1 /\ 0 <= m.2 < nsyn isx dh dw) by (intros m Hm; by apply elem_of_nil in Hm).
  destruct HC as [HC|(HD & HT & Hx)].
  - assert (Hfl : flips_of isx c dh dw 0 [Fault xerr i] = []).
    { cbn [flips_of]. rewrite bool_decide_eq_false_2; [done|]. intros E. apply HC. rewrite <-E. by destruct xerr. }
    destruct (logical_record R isx s q dh dw [Fault xerr i] s' is (fun _ => false, zero_state) k1 _ _ [] k1.1 n Hok Hn Hcr Hr Hem Hl (C10_initially_clean R q) He Hp Ec Hobs eq_refl Hmis) as (_ & _ & _ & _ & Hrep & Hval).
    fold c name in Hrep, Hval. rewrite Hfl in Hrep, Hval. rewrite fmap_length in Hrep. change (Z.of_nat (length (round_regs name n 2))) with 2 in Hrep.
    unfold correct_readout. rewrite Hh, Hw, Ec.
    destruct (parse_key dh dw k1.1 (round_regs name n 2) (rdname name (cR n + 1)) isx (Some (type_string isx)) Hv H1) as ((X & Z') & -> & _ & Hev).
    assert (Hnil : (if isx then X else Z') = []).
    { apply no_events. intros e Hin. assert (Hin' : e ∈ pick isx (X, Z')) by (by destruct isx). apply Hev in Hin' as (k & r & r' & loc & Hr1 & Hr2 & Hloc & Hne & _).
      apply Hne. rewrite (Hrep _ _ loc Hr1 Hloc), (Hrep _ _ loc Hr2 Hloc). done. }
    rewrite Hnil, Hval. unfold correct_events, logical_flip. by destruct isx.
  - refine (proj2 (C27_end_to_end R isx s q dh dw [Fault xerr i] s' is (fun _ => false, zero_state) k1 _ _ T D rx EPNone [] k1.1 Hok H1 Hcr Hr Hem Hl (C10_initially_clean R q) He Hp Ec Hobs eq_refl Hmis _ HD _ Hrx)).
    + cbn [flips_of length]. assert (1 <= (extent isx dh dw - 1) / 2) by (apply Z.div_le_lower_bound; lia). case_bool_decide; cbn [length]; lia.
    + rewrite fmap_length. change (Z.of_nat (length (round_regs name n 2))) with 2. lia.
Qed.
End case.

(** ** The expected neighbours *)
Section neighbours.
Context (dh dw : Z) (Hv : valid_size dh dw).
Lemma parity_ix i : 0 <= i < dh * dw -> i mod 2 = (i / dw + i mod dw) mod 2.
Proof.
  intros Hi. destruct (valid_size_inv _ _ Hv) as (h & w & E1 & E2 & Hh & Hw). pose proof (Z.div_mod i dw ltac:(lia)) as E.
  replace i with ((i / dw + i mod dw) + (w * (i / dw)) * 2) at 1 by (rewrite E at 4; rewrite E2; lia). apply Z.mod_add. lia.
Qed.
(** XXZZ: exactly the stabilizers that anticommute with the error. *)
Lemma neighbours_css i xerr e : 0 <= i < dh * dw ->
  e ∈ neighbors_css dh dw i xerr <->
  exists isy loc, 0 <= loc < nsyn isy dh dw /\ anti (err_of xerr i) (stabk isy XXZZ dh dw loc) = true /\ e = (0, (coordk isy dw loc).1, (coordk isy dw loc).2).
Proof.
  intros Hi. pose proof (parity_ix i Hi) as Hpar. destruct (C07_single_error_XXZZ dh dw i Hv Hi) as (Z1 & Z2 & X1 & X2).
  assert (Hw : 0 < dw) by (unfold valid_size in Hv; lia).
  assert (Hij : 0 <= i / dw < dh /\ 0 <= i mod dw < dw).
  { split; [|by apply Z.mod_pos_bound]. split; [apply Z.div_pos; lia|]. apply Z.div_lt_upper_bound; lia. }
  destruct (C07_inside dh dw (i / dw) (i mod dw) Hv (proj1 Hij) (proj2 Hij)) as (I1 & I2 & _ & _).
  set (r := i / dw) in *. set (cl := i mod dw) in *. unfold neighbors_css. fold r cl. rewrite Hpar.
  assert (HT : forall y x a b : Z, (0, y, x) = (0, a, b) <-> y = a /\ x = b) by naive_solver.
  assert (HP : forall y x a b : Z, (y, x) = (a, b) <-> y = a /\ x = b) by naive_solver.
  destruct xerr; cbn [err_of].
  - assert (HN : forall y x, (0, y, x) ∈ [(0, 2 * r + (2 * ((r + cl) mod 2) - 1), 2 * cl - 1); (0, 2 * r - (2 * ((r + cl) mod 2) - 1), 2 * cl + 1)] <-> (y, x) ∈ diag_z r cl).
    { intros y x. unfold diag_z, diag_main, diag_anti. rewrite Zmod_even. destruct (Z.even (r + cl)); rewrite !elem_of_cons, !elem_of_nil, !HT, !HP; lia. }
    rewrite elem_of_list_filter. split.
    + intros [Hy Hin]. destruct e as [[t y] x]. cbn [fst snd] in Hy.
      assert (t = 0) as -> by (rewrite !elem_of_cons in Hin; destruct Hin as [E|[E|E%elem_of_nil]]; [by injection E|by injection E|done]).
      apply HN in Hin. destruct (I1 y x Hin) as [_ HI]. destruct (HI Hy) as (loc & Hloc & E). exists false, loc. split; [done|].
      split; [cbn [stabk]; apply Z1; [done|]; by rewrite E|]. cbn [coordk]. by rewrite E.
    + intros (isy & loc & Hloc & Ha & ->). destruct isy; cbn [stabk nsyn] in *; [by rewrite (Z2 loc Hloc) in Ha|]. apply (Z1 loc Hloc) in Ha. cbn [coordk].
      destruct (coord_z dw loc) as [y x] eqn:E. cbn [fst snd] in *. split; [|by apply HN]. apply (I1 y x Ha). by exists loc.
  - assert (HN : forall y x, (0, y, x) ∈ [(0, 2 * r - (2 * ((r + cl) mod 2) - 1), 2 * cl - 1); (0, 2 * r + (2 * ((r + cl) mod 2) - 1), 2 * cl + 1)] <-> (y, x) ∈ diag_x r cl).
    { intros y x. unfold diag_x, diag_main, diag_anti. rewrite Zmod_even. destruct (Z.even (r + cl)); rewrite !elem_of_cons, !elem_of_nil, !HT, !HP; lia. }
    rewrite elem_of_list_filter. split.
    + intros [Hy Hin]. destruct e as [[t y] x]. cbn [fst snd] in Hy.
      assert (t = 0) as -> by (rewrite !elem_of_cons in Hin; destruct Hin as [E|[E|E%elem_of_nil]]; [by injection E|by injection E|done]).
      apply HN in Hin. destruct (I2 y x Hin) as [_ HI]. destruct (HI Hy) as (loc & Hloc & E). exists true, loc. split; [done|].
      split; [cbn [stabk]; apply X1; [done|]; by rewrite E|]. cbn [coordk]. by rewrite E.
    + intros (isy & loc & Hloc & Ha & ->). destruct isy; cbn [stabk nsyn] in *; [|by rewrite (X2 loc Hloc) in Ha]. apply (X1 loc Hloc) in Ha. cbn [coordk].
      destruct (coord_x dw loc) as [y x] eqn:E. cbn [fst snd] in *. split; [|by apply HN]. apply (I2 y x Ha). by exists loc.
Qed.
(** XZZX: among the neighbours the tests expect. *)
Lemma neighbours_xzzx i xerr isy loc : 0 <= i < dh * dw -> 0 <= loc < nsyn isy dh dw -> anti (err_of xerr i) (stabk isy XZZX dh dw loc) = true ->
  (0, (coordk isy dw loc).1, (coordk isy dw loc).2) ∈ neighbors_xzzx dh dw i xerr.
Proof.
  intros Hi Hloc Ha. destruct (C07_single_error_XZZX dh dw i Hv Hi loc) as [HZ HX].
  unfold neighbors_xzzx. apply elem_of_list_filter. cbn [fst snd]. split.
  - destruct (proj1 (coordk_cell isy dh dw (coordk isy dw loc) Hv)) as [(_ & _ & Ry & Rx & _) Hin]; [by exists loc|]. unfold inside, level, extent in Hin.
    apply orb_true_iff. destruct isy; [left|right]; unfold valid_syndrome; apply bool_decide_eq_true_2; cbn [fst snd]; lia.
  - set (r := i / dw) in *. set (cl := i mod dw) in *.
    assert (Hd : coordk isy dw loc ∈ (if xerr then diag_anti r cl else diag_main r cl)).
    { destruct isy; cbn [stabk nsyn coordk] in *; [destruct (HX Hloc) as [A B]|destruct (HZ Hloc) as [A B]]; destruct xerr; cbn [err_of] in Ha; (by apply B) || (by apply A). }
    destruct (coordk isy dw loc) as [y x]. cbn [fst snd]. destruct xerr; unfold diag_main, diag_anti in Hd; rewrite !elem_of_cons in Hd; rewrite !elem_of_cons;
      destruct Hd as [E|[E|E%elem_of_nil]]; [injection E as -> ->; auto..|done|injection E as -> ->; auto|injection E as -> ->; auto|done].
Qed.
End neighbours.

(** ** The circuits of the tests can be built *)
Definition sim_evs (isx xerr : bool) (i : Z) : list ev := [Call (reset_op isx); Call OStab; Fault xerr i; Call OStab; Call (read_op isx)].
Lemma run_evs_cons q e l s s1 r : run_ev q e s = (s1, Ok tt) -> run_evs q l s1 = r -> run_evs q (e :: l) s = r.
Proof. intros E <-. unfold run_evs. cbn [mfor]. by erewrite mbind_ok by exact E. Qed.
Lemma sim_builds t l s p dh dw isx xerr i : t <> TRepetition -> s_heap s !! l = Some p -> d_of p = Some (DTup [dh; dw]) -> valid_size dh dw ->
  op_ok (code_of t) dh dw (reset_op isx) = true -> op_ok (code_of t) dh dw (read_op isx) = true ->
  exists s0 q s', new_tqubit t (Some l) "tq" (new_circuit s) = (s0, Ok q) /\ lat_ok s0 q dh dw /\ lat_code (tq_lat q) = code_of t /\ cregs s0 = [] /\ s_instrs s0 = [] /\
    run_evs q (sim_evs isx xerr i) s0 = (s', Ok tt).
Proof.
  intros Ht Hp Hd Hv Ho1 Ho2. set (s1 := new_circuit s).
  assert (Hfr : fresh_lattice s1 "tq") by (intros suf _; apply not_elem_of_nil).
  destruct (new_surface_ok t l "tq" s1 p (DTup [dh; dw]) dh dw Ht Hp Hd eq_refl Hv Hfr) as (dl & D0 & D1 & E).
  set (s0 := app_regs _ _) in E. set (q := TQubit _ _) in E.
  assert (Hok : lat_ok s0 q dh dw) by (by apply new_params_lat_ok).
  assert (Hn : has_cnt s0 q (Cnt (-1) (-1) (-1))) by (eexists; cbn; rewrite lookup_insert; done).
  assert (Hreg : s_regs s0 = (fun h => Reg true h.1 h.2) <$> lattice_regs "tq" dh dw) by done.
  assert (Hnm : forall x, x ∈ names s0 -> x ∈ ["tq_data"; "tq_mz"; "tq_mx"; "tq_ancilla"]%string).
  { intros x. unfold names. rewrite Hreg, <-list_fmap_compose. intros (h & -> & Hh)%elem_of_list_fmap. cbn [compose r_name]. unfold lattice_regs in Hh.
    rewrite !elem_of_app, !elem_of_list_singleton in Hh. destruct Hh as [->|[Hh|[Hh| ->]]]; [left| | |do 3 right; left].
    - unfold opt_reg in Hh. case_bool_decide; cbn in Hh; [|by apply elem_of_nil in Hh]. apply elem_of_list_singleton in Hh as ->. right. left.
    - unfold opt_reg in Hh. case_bool_decide; cbn in Hh; [|by apply elem_of_nil in Hh]. apply elem_of_list_singleton in Hh as ->. do 2 right. left. }
  assert (Hc0 : cregs s0 = []).
  { unfold cregs. rewrite Hreg. clear. generalize (lattice_regs "tq" dh dw). intros L. induction L as [|h L IHl]; [done|]. rewrite fmap_cons, filter_cons_False by done. done. }
  assert (Ecode : lat_code (tq_lat q) = code_of t) by done. assert (Ename : lat_name (tq_lat q) = "tq"%string) by done.
  assert (Ei : s_instrs s0 = []) by done.
  clearbody s0 q.
  (* reset *)
  destruct (run_op_ok s0 q dh dw _ (reset_op isx) Hok Hn) as (s2 & E2 & [Hok2 Hn2 Hr2 _ _]); [by rewrite Ecode|intros r Hr; by destruct isx; apply elem_of_nil in Hr|].
  assert (En2 : op_next (Cnt (-1) (-1) (-1)) (reset_op isx) = Cnt (-1) (-1) (-1)) by (by destruct isx). rewrite En2 in Hn2.
  assert (Er2 : s_regs s2 = s_regs s0) by (rewrite Hr2; destruct isx; apply app_nil_r).
  (* first round *)
  destruct (run_op_ok s2 q dh dw _ OStab Hok2 Hn2 eq_refl) as (s3 & E3 & [Hok3 Hn3 Hr3 _ _]).
  { intros r Hr. cbn [op_reg] in Hr. apply elem_of_list_singleton in Hr as ->. cbn [r_name cT]. rewrite Ename. intros Hin. unfold names in Hin. rewrite Er2 in Hin. apply Hnm in Hin.
    rewrite !elem_of_cons in Hin. destruct Hin as [Hin|[Hin|[Hin|[Hin|Hin%elem_of_nil]]]]; done. }
  cbn [op_next bump_T cT cR cL op_reg] in Hn3, Hr3. rewrite Ename in Hr3. change (-1 + 1) with 0 in Hn3, Hr3.
  (* the error *)
  set (s4 := app_instrs s3 [pgate xerr ((lat_data (tq_lat q)).1, i)]).
  assert (E4 : run_ev q (Fault xerr i) s3 = (s4, Ok tt)) by (cbn [run_ev]; apply emit_eq).
  pose proof (run_evs_inv [Fault xerr i] s3 q dh dw _ s4 Hok3 Hn3 (run_evs_cons _ _ [] _ _ _ E4 eq_refl)) as [Hok4 Hn4 _ _ _]. cbn [evs_next ev_next] in Hn4.
  (* second round *)
  destruct (run_op_ok s4 q dh dw _ OStab Hok4 Hn4 eq_refl) as (s5 & E5 & [Hok5 Hn5 Hr5 _ _]).
  { intros r Hr. cbn [op_reg] in Hr. apply elem_of_list_singleton in Hr as ->. cbn [r_name cT]. rewrite Ename. intros Hin. unfold names in Hin. change (s_regs s4) with (s_regs s3) in Hin.
    rewrite Hr3, Er2, fmap_app, elem_of_app in Hin. destruct Hin as [Hin|Hin].
    - apply Hnm in Hin. rewrite !elem_of_cons in Hin. destruct Hin as [Hin|[Hin|[Hin|[Hin|Hin%elem_of_nil]]]]; done.
    - cbn [fmap list_fmap r_name] in Hin. apply elem_of_list_singleton in Hin. apply cname_inj in Hin. done. }
  cbn [op_next bump_T cT cR cL op_reg] in Hn5, Hr5. rewrite Ename in Hr5.
  (* readout *)
  destruct (run_op_ok s5 q dh dw _ (read_op isx) Hok5 Hn5) as (s6 & E6 & _); [by rewrite Ecode| |].
  { intros r Hr. assert (Er : r = Reg false (rdname (lat_name (tq_lat q)) (-1 + 1)) 1) by (destruct isx; cbn [read_op op_reg eff cR] in Hr; by apply elem_of_list_singleton in Hr). subst r.
    cbn [r_name]. rewrite Ename. intros Hin. unfold names in Hin. rewrite Hr5 in Hin. change (s_regs s4) with (s_regs s3) in Hin.
    rewrite Hr3, Er2, !fmap_app, !elem_of_app in Hin. destruct Hin as [[Hin|Hin]|Hin].
    - apply Hnm in Hin. rewrite !elem_of_cons in Hin. destruct Hin as [Hin|[Hin|[Hin|[Hin|Hin%elem_of_nil]]]]; done.
    - cbn [fmap list_fmap r_name] in Hin. apply elem_of_list_singleton in Hin. by apply rdname_cname in Hin.
    - cbn [fmap list_fmap r_name] in Hin. apply elem_of_list_singleton in Hin. by apply rdname_cname in Hin. }
  exists s0, q, s6. split_and!; try done.
  unfold sim_evs. eapply run_evs_cons; [exact E2|]. eapply run_evs_cons; [exact E3|]. eapply run_evs_cons; [exact E4|]. eapply run_evs_cons; [exact E5|]. by eapply run_evs_cons; [exact E6|].
Qed.

Section suite.
Context (rx : retworkx) (Hrx : rx_ok rx) (t : qtype) (Ht : t <> TRepetition) (nbs : Z -> Z -> Z -> bool -> list event_loc).
Context (l : nat) (dh dw T : Z) (Hv : valid_size dh dw) (D : decoder) (Hh : dec_h D = dh) (Hw : dec_w D = dw).
(** What holds between two calls of [simulate]. *)
Record ready (w : st * dobj) : Prop := {
  re_fresh : heap_fresh w.1;
  re_fit : fit w.1 w.2;
  re_dec : do_dec w.2 = D;
  re_params : do_params w.2 = l }.
Lemma ready_keeps s s' o : ready (s, o) -> keeps s s' -> ready (s', o).
Proof.
  intros [A B C E] HK. cbn in *. constructor; try done; cbn.
  - by destruct (HK A).
  - by eapply fit_keeps.
Qed.
Lemma dec_parse_ready ky ty w : ready w -> exists w', dec_parse ky ty w = (w', parse_readout dh dw ky ty) /\ ready w'.
Proof.
  destruct w as [s o]. intros HR. pose proof HR as [A B C E]. cbn [fst snd] in *. unfold dec_parse. cbn [fst snd].
  assert (Hv' : valid_size (dec_h (do_dec o)) (dec_w (do_dec o))) by (by rewrite C, Hh, Hw).
  destruct (encoder_fit s o A B Hv') as (s' & q & E1 & Hf & _). rewrite E1.
  destruct (ft_enc _ _ Hf q eq_refl) as (p & dl & Hp & Hd & H0 & H1). cbn [set_enc do_dec] in H0, H1.
  rewrite (parse_fit s' q o ky ty p dl Hp Hd H0 H1). cbn zeta. cbn [fst snd]. rewrite C, Hh, Hw. eexists. split; [done|].
  pose proof (mild_encoder o s A) as [_ K _]. rewrite E1 in K. constructor; done.
Qed.
Lemma dec_correct_ready ky isx w : ready w -> exists w', dec_correct rx ky isx w = (w', correct_readout rx D EPNone ky isx) /\ ready w'.
Proof.
  intros HR. destruct (dec_parse_ready ky (Some (type_string isx)) w HR) as (w' & E & HR'). exists w'. split; [|done].
  unfold dec_correct, correct_readout. rewrite E, Hh, Hw. destruct (parse_readout dh dw ky _) as [[lv [X Z']]|e]; [|done]. by rewrite (re_dec _ HR').
Qed.
Lemma test_dims_ready w : ready w -> test_dims l w.1 = (w.1, Ok (dh, dw)).
Proof.
  intros [A [(p & Hp & Hd & _) _] C E]. rewrite E in Hp. rewrite C, Hh, Hw in Hd. unfold test_dims, mbind', get_params. rewrite Hp. unfold get_dim, mbind'. rewrite Hd. done.
Qed.
Lemma rate_zero isx counts : forall total w, ready w -> Forall (fun kv => 0 < kv.2 /\ correct_readout rx D EPNone kv.1 isx = Ok 0) counts -> 0 <= total -> (counts = [] -> 0 < total) ->
  exists w', rate_loop rx isx counts total 0 w = (w', Ok 0%Qc) /\ ready w'.
Proof.
  induction counts as [|[ky n] counts IHl]; intros total w HR HF Ht0 Hne; cbn [rate_loop].
  - exists w. split; [|done]. f_equal. unfold py_div. destruct (decide (qz total = 0%Qc)) as [E|_].
    + specialize (Hne eq_refl). apply qz_0 in E. lia.
    + f_equal. unfold Qcdiv. apply Qcmult_0_l.
  - apply Forall_cons in HF as [[Hn E] HF]. cbn [fst snd] in *. destruct (dec_correct_ready ky isx w HR) as (w1 & -> & HR1). rewrite E. rewrite bool_decide_eq_false_2 by (intros N; by apply N).
    apply IHl; [done|done|lia|intros; lia].
Qed.
Lemma check_ready nb keys : forall w, ready w -> Forall (fun ky => exists lv X Z', parse_readout dh dw ky None = Ok (lv, (X, Z')) /\ Forall (fun e => e ∈ nb) (X ++ Z')) keys ->
  exists w', check_keys nb keys w = (w', Passed) /\ ready w'.
Proof.
  induction keys as [|ky keys IHl]; intros w HR HF; cbn [check_keys]; [by exists w|]. apply Forall_cons in HF as [(lv & X & Z' & E & HN) HF].
  destruct (dec_parse_ready ky None w HR) as (w1 & -> & HR1). rewrite E. rewrite bool_decide_eq_true_2 by done. by apply IHl.
Qed.

(** Cases that pass. *)
Definition good_case (c : bool * bool * Z) : Prop :=
  let '(isx, xerr, i) := c in 0 <= i < dh * dw /\ 1 < dh * dw /\
  op_ok (code_of t) dh dw (reset_op isx) = true /\ op_ok (code_of t) dh dw (read_op isx) = true /\
  (err_of xerr i <> err_at isx (code_of t) dh dw i \/ (decoder_for isx dh dw T D /\ 1 <= T /\ 3 <= extent isx dh dw)) /\
  forall isy loc, 0 <= loc < nsyn isy dh dw -> anti (err_of xerr i) (stabk isy (code_of t) dh dw loc) = true ->
    (0, (coordk isy dw loc).1, (coordk isy dw loc).2) ∈ nbs dh dw i xerr.
Lemma case_ready isx xerr i w : ready w -> good_case (isx, xerr, i) ->
  exists s q, sim_circuit t l isx xerr i (new_circuit w.1) = (s, Ok q) /\
    (forall (R : Amp) counts, sampled R (s_instrs s) (cregs s) counts -> exists w', verdict rx nbs l isx xerr i counts (s, w.2) = (w', Passed) /\ ready w') /\
    exists counts, sampled ZAmp (s_instrs s) (cregs s) counts.
Proof.
  destruct w as [s o]. cbn [fst snd]. intros HR (Hi & H1 & Ho1 & Ho2 & Hval & Hnb). pose proof (re_fit _ HR) as [(p & Hp & Hd & _) _]. cbn [fst snd] in *.
  rewrite (re_params _ HR : do_params o = l) in Hp. rewrite (re_dec _ HR : do_dec o = D), Hh, Hw in Hd.
  destruct (sim_builds t l s p dh dw isx xerr i Ht Hp Hd Hv Ho1 Ho2) as (s0 & q & s' & En & Hok & Ec & Hc0 & Hi0 & Er).
  exists s', q. split; [|split].
  - unfold sim_circuit. erewrite mbind_ok by exact En. by erewrite mbind_ok by exact Er.
  - assert (Hem : emitted s0 s' (s_instrs s')) by (unfold emitted; by rewrite Hi0).
    assert (HR' : ready (s', o)).
    { eapply ready_keeps; [exact HR|]. apply (keeps_trans _ (new_circuit s)); [by apply keeps_same|]. apply (keeps_trans _ s0).
      - pose proof (mild_new t (Some l) "tq" (new_circuit s)) as HM. by rewrite En in HM.
      - pose proof (mild_evs q (sim_evs isx xerr i) s0) as HM. by rewrite Er in HM. }
    intros R counts [Hne HF]. unfold verdict.
    destruct (rate_zero isx counts 0 (s', o) HR') as (w1 & -> & HR1).
    + eapply Forall_impl; [exact HF|]. intros [ky n] (Hn & k1 & He & Hpo & Ek). cbn [fst snd] in *. subst ky. split; [done|].
      eapply (case_value R dh dw Hv H1 isx xerr i s0 q s' _ k1 T D rx); try done. by rewrite Ec.
    + done.
    + done.
    + rewrite bool_decide_eq_true_2 by done. rewrite (test_dims_ready w1 HR1). destruct w1 as [s1 o1]. cbn [fst snd].
      apply check_ready; [done|]. apply Forall_fmap. eapply Forall_impl; [exact HF|]. intros [ky n] (Hn & k1 & He & Hpo & Ek). cbn [compose fst snd] in *. subst ky.
      destruct (case_events R dh dw Hv H1 isx xerr i s0 q s' _ k1 None Hok Hc0 Hi Er Hem He Hpo) as (lv & [X Z'] & E & Hev). rewrite Ec in Hev.
      exists lv, X, Z'. split; [done|]. apply list.Forall_forall. intros e [Hin|Hin]%elem_of_app.
      * apply (Hev true) in Hin as (loc & Hloc & Ha & ->). by apply (Hnb true).
      * apply (Hev false) in Hin as (loc & Hloc & Ha & ->). by apply (Hnb false).
  - assert (Hem : emitted s0 s' (s_instrs s')) by (unfold emitted; by rewrite Hi0).
    destruct (evs_possible _ _ _ _ _ _ _ ((fun _ => false), zero_state) Hok Er Hem (zero_possible _)) as (k1 & He & Hpo).
    exists [(counts_key k1.1 (cregs s'), 1000)]. split; [done|]. constructor; [|constructor]. split; [done|]. by exists k1.
Qed.
Lemma suite_ready (R : Amp) cs w v : Forall good_case cs -> ready w -> tests_run rx (sampled R) t nbs l cs w v -> v = Passed.
Proof.
  intros HG HR HT. induction HT as [w|isx xerr i cs w s e E|isx xerr i cs w s q counts w' v E Hs Hvd Hne|isx xerr i cs w s q counts w' v E Hs Hvd HT IHl]; [done|..];
    apply Forall_cons in HG as [Hg HG]; destruct (case_ready isx xerr i w HR Hg) as (s1 & q1 & E1 & HP & _); rewrite E in E1; try done; injection E1 as <- <-;
    destruct (HP R counts Hs) as (w2 & E2 & HR2); rewrite Hvd in E2.
  - by injection E2 as _ ->.
  - injection E2 as ->. by apply IHl.
Qed.
Lemma suite_runs cs w : Forall good_case cs -> ready w -> tests_run rx (sampled ZAmp) t nbs l cs w Passed.
Proof.
  intros HG. revert w. induction HG as [|[[isx xerr] i] cs Hg HG IHl]; intros w HR; [constructor|].
  destruct (case_ready isx xerr i w HR Hg) as (s1 & q1 & E1 & HP & counts & Hs). destruct (HP ZAmp counts Hs) as (w2 & E2 & HR2).
  eapply tr_next; [exact E1|exact Hs|exact E2|by apply IHl].
Qed.
End suite.

(** The cases: both readouts for every data qubit and every error of the class that the code can
    see. *)
Theorem C71_cases errors dh dw (isx xerr : bool) i : (isx, xerr, i) ∈ test_cases errors dh dw <->
  0 <= i < dh * dw /\ xerr ∈ errors /\ ((if xerr then dh <> 1 else dw <> 1) : Prop).
Proof.
  unfold test_cases. rewrite elem_of_list_join. split.
  - intros (cs & Hc & Hcs). apply elem_of_list_fmap in Hcs as (j & -> & Hi%elem_of_seqZ).
    apply elem_of_list_join in Hc as (cs & Hc & Hcs). apply elem_of_list_fmap in Hcs as (x & -> & Hx).
    destruct x; case_bool_decide; [by apply elem_of_nil in Hc| |by apply elem_of_nil in Hc|];
      rewrite !elem_of_cons in Hc; destruct Hc as [E|[E|Hc%elem_of_nil]]; try done; injection E as -> -> ->; (split; [lia|done]).
  - intros (Hi & Hx & Hne). eexists. split; [|apply elem_of_list_fmap; exists i; split; [done|apply elem_of_seqZ; lia]].
    apply elem_of_list_join. exists [(false, xerr, i); (true, xerr, i)]. split; [destruct isx; [right; left|left]|].
    apply elem_of_list_fmap. exists xerr. split; [|done]. destruct xerr; by rewrite bool_decide_eq_false_2.
Qed.
Print Assumptions C71_cases.
Lemma elem_cases errors dh dw (c : bool * bool * Z) : c ∈ test_cases errors dh dw ->
  0 <= c.2 < dh * dw /\ c.1.2 ∈ errors /\ ((if c.1.2 then dh <> 1 else dw <> 1) : Prop).
Proof. destruct c as [[isx xerr] i]. apply C71_cases. Qed.
Lemma fit_ready s o l D : heap_fresh s -> fit s o -> do_dec o = D -> do_params o = l -> ready l D (s, o).
Proof. done. Qed.
Lemma new_decoder_ready rep l p s D : heap_fresh s -> s_heap s !! l = Some p -> pure_decoder rep p = Ok D ->
  exists s1 o, new_decoder rep l s = (s1, Ok o) /\ ready l D (s1, o).
Proof.
  intros Hf Hp HD. pose proof (C54_construct rep l p s Hp) as HC. rewrite HD in HC. destruct HC as (s1 & o & E & Ho & _ & _ & Hft & Hl). exists s1, o. split; [done|].
  pose proof (mild_decoder rep l s Hf) as [_ K _]. rewrite E in K. done.
Qed.
Lemma suite_theorem rx t nbs l dh dw T D s o errors : rx_ok rx -> t <> TRepetition -> valid_size dh dw -> dec_h D = dh -> dec_w D = dw -> ready l D (s, o) ->
  (forall c, c ∈ test_cases errors dh dw -> good_case t nbs dh dw T D c) ->
  (forall (R : Amp) v, test_single_errors rx (sampled R) t nbs l errors (s, o) v -> v = Passed) /\
  test_single_errors rx (sampled ZAmp) t nbs l errors (s, o) Passed.
Proof.
  intros Hrx Ht Hv Hh Hw HR HG. assert (HF : Forall (good_case t nbs dh dw T D) (test_cases errors dh dw)) by (by apply list.Forall_forall). split.
  - intros R v (h & w & E & HT). rewrite (test_dims_ready l dh dw D Hh Hw _ HR) in E. injection E as <- <-. by eapply (suite_ready rx Hrx t Ht nbs l dh dw T Hv D Hh Hw R).
  - exists dh, dw. split; [by eapply test_dims_ready|]. by eapply (suite_runs rx Hrx t Ht nbs l dh dw T Hv D Hh Hw).
Qed.
Lemma err_XXZZ isx xerr dh dw i : err_of xerr i <> err_at isx XXZZ dh dw i \/ isx = negb xerr.
Proof.
  destruct (decide (isx = negb xerr)) as [|N]; [by right|left]. intros E. unfold err_at, cconj, err_of in E.
  apply (f_equal px) in E. destruct isx, xerr; try done; cbn [px Xon Zon] in E; set_solver.
Qed.
Lemma odd_3 n : 0 < n -> Z.odd n = true -> n <> 1 -> 3 <= n.
Proof. intros H1 H2 H3. destruct (decide (n = 2)) as [->|]; [done|lia]. Qed.

(** * C71 *)
(** The XXZZ tests, for every size and every number of rounds of the decoder that suffices:
    whatever the simulator returns, no assertion fails and nothing is raised; and there are such
    runs. *)
Theorem C71_xxzz rx l p s dh dw T errors : rx_ok rx -> heap_fresh s ->
  s_heap s !! l = Some p -> d_of p = Some (DTup [dh; dw]) -> T_of p = Some T -> 1 <= T -> valid_size dh dw ->
  exists s1 o, new_decoder false l s = (s1, Ok o) /\
    (forall (R : Amp) v, test_single_errors rx (sampled R) TXXZZ neighbors_css l errors (s1, o) v -> v = Passed) /\
    test_single_errors rx (sampled ZAmp) TXXZZ neighbors_css l errors (s1, o) Passed.
Proof.
  intros Hrx Hf Hp Hd HT H1 Hv. destruct (C23_total dh dw T Hv) as (D & ED & Hh & Hw & _).
  destruct (new_decoder_ready false l p s D Hf Hp) as (s1 & o & En & HR); [cbn [pure_decoder]; by rewrite Hd, HT|].
  exists s1, o. split; [done|]. apply (suite_theorem rx TXXZZ neighbors_css l dh dw T D); try done.
  intros [[isx xerr] i] (Hi & _ & Hne)%elem_cases. cbn [fst snd] in *. pose proof Hv as (P1 & P2 & O1 & O2).
  assert (1 < dh * dw) by (destruct xerr; [pose proof (odd_3 dh P1 O1 Hne)|pose proof (odd_3 dw P2 O2 Hne)]; nia).
  split; [done|]. split; [done|]. split; [by destruct isx|]. split; [by destruct isx|]. split.
  - destruct (err_XXZZ isx xerr dh dw i) as [?|E]; [by left|right]. subst isx. split; [split; [done|]; split; [done|]; left; by eexists|]. split; [done|].
    destruct xerr; cbn [negb extent]; by apply odd_3.
  - intros isy loc Hloc Ha. apply (neighbours_css dh dw Hv i xerr _ Hi). by exists isy, loc.
Qed.
Print Assumptions C71_xxzz.

(** The XZZX tests, for all sizes with at least three rows and columns. *)
Theorem C71_xzzx rx l p s dh dw T errors : rx_ok rx -> heap_fresh s ->
  s_heap s !! l = Some p -> d_of p = Some (DTup [dh; dw]) -> T_of p = Some T -> 1 <= T -> valid_size dh dw -> 3 <= dh -> 3 <= dw ->
  exists s1 o, new_decoder false l s = (s1, Ok o) /\
    (forall (R : Amp) v, test_single_errors rx (sampled R) TXZZX neighbors_xzzx l errors (s1, o) v -> v = Passed) /\
    test_single_errors rx (sampled ZAmp) TXZZX neighbors_xzzx l errors (s1, o) Passed.
Proof.
  intros Hrx Hf Hp Hd HT H1 Hv H3 H4. destruct (C23_total dh dw T Hv) as (D & ED & Hh & Hw & _).
  destruct (new_decoder_ready false l p s D Hf Hp) as (s1 & o & En & HR); [cbn [pure_decoder]; by rewrite Hd, HT|].
  exists s1, o. split; [done|]. apply (suite_theorem rx TXZZX neighbors_xzzx l dh dw T D); try done.
  intros [[isx xerr] i] (Hi & _ & Hne)%elem_cases. cbn [fst snd] in *. assert (1 < dh * dw) by nia.
  split; [done|]. split; [done|].
  split; [destruct isx; cbn; [apply bool_decide_eq_true_2; unfold num_data; lia|done]|]. split; [destruct isx; cbn; by apply bool_decide_eq_true_2|]. split.
  - right. split; [split; [done|]; split; [done|]; left; by eexists|]. split; [done|]. by destruct isx.
  - intros isy loc Hloc Ha. by apply (neighbours_xzzx dh dw Hv i xerr).
Qed.
Print Assumptions C71_xzzx.

(** The repetition-code tests: the circuits are those of XXZZQubit, made from the dictionary after
    RepetitionDecoder has replaced the number by a pair. *)
Theorem C71_repetition rx l p s n T : rx_ok rx -> heap_fresh s ->
  s_heap s !! l = Some p -> d_of p = Some (DNum n) -> T_of p = Some T -> 1 <= T -> 0 < n -> Z.odd n = true ->
  let pfp := default false (pfp_of p) in
  exists s1 o, new_decoder true l s = (s1, Ok o) /\
    (forall (R : Amp) v, test_single_errors rx (sampled R) TXXZZ neighbors_css l [negb pfp] (s1, o) v -> v = Passed) /\
    test_single_errors rx (sampled ZAmp) TXXZZ neighbors_css l [negb pfp] (s1, o) Passed.
Proof.
  intros Hrx Hf Hp Hd HT H1 Hn Ho pfp. destruct (decoder_for_repetition pfp n T Hn Ho) as (D & ED & HD).
  set (dh := if pfp then 1 else n) in *. set (dw := if pfp then n else 1) in *.
  assert (Hv : valid_size dh dw) by (unfold valid_size, dh, dw; destruct pfp; done).
  destruct (new_decoder_ready true l p s D Hf Hp) as (s1 & o & En & HR).
  { cbn [pure_decoder]. rewrite <-ED, Hd, HT. unfold repetition_decoder. fold pfp. done. }
  exists s1, o. split; [done|]. pose proof HD as (Hh & Hw & _). apply (suite_theorem rx TXXZZ neighbors_css l dh dw T D); try done.
  intros [[isx xerr] i] (Hi & Hx & Hne)%elem_cases. cbn [fst snd] in *. apply elem_of_list_singleton in Hx as ->. pose proof Hv as (P1 & P2 & O1 & O2).
  assert (1 < dh * dw) by (destruct pfp; cbn [negb] in Hne; [pose proof (odd_3 dw P2 O2 Hne)|pose proof (odd_3 dh P1 O1 Hne)]; nia).
  split; [done|]. split; [done|]. split; [by destruct isx|]. split; [by destruct isx|]. split.
  - destruct (err_XXZZ isx (negb pfp) dh dw i) as [?|E]; [by left|right]. rewrite negb_involutive in E. subst isx. split; [done|]. split; [done|].
    destruct pfp; cbn [negb extent] in *; by apply odd_3.
  - intros isy loc Hloc Ha. apply (neighbours_css dh dw Hv i (negb pfp) _ Hi). by exists isy, loc.
Qed.
Print Assumptions C71_repetition.

(** The XZZX tests with a single row or column: no run passes, because one of the readouts raises. *)
Section narrow.
Context (rx : retworkx) (l : nat) (dh dw : Z) (Hv : valid_size dh dw) (D : decoder) (Hh : dec_h D = dh) (Hw : dec_w D = dw).
Lemma sim_needs t isx xerr i w s q : t <> TRepetition -> ready l D w -> sim_circuit t l isx xerr i (new_circuit w.1) = (s, Ok q) ->
  op_ok (code_of t) dh dw (read_op isx) = true /\ ready l D (s, w.2).
Proof.
  intros Ht HR Hs. destruct w as [s0 o]. cbn [fst snd] in *. pose proof (re_fit _ _ _ HR) as [(p & Hp & Hd & _) _]. cbn [fst snd] in *.
  rewrite (re_params _ _ _ HR : do_params o = l) in Hp. rewrite (re_dec _ _ _ HR : do_dec o = D), Hh, Hw in Hd.
  assert (Hfr : fresh_lattice (new_circuit s0) "tq") by (intros suf _; apply not_elem_of_nil).
  destruct (C04_constructed t l "tq" (new_circuit s0) p (DTup [dh; dw]) dh dw Ht Hp Hd eq_refl Hv Hfr) as (s1 & q1 & E1 & Hok & Ec & _).
  unfold sim_circuit in Hs. erewrite mbind_ok in Hs by exact E1. unfold mbind' in Hs. destruct (run_evs q1 _ s1) as [s2 [[]|e]] eqn:E2; [|done]. injection Hs as <- <-. split.
  - destruct (lat_ok_cnt _ _ _ _ Hok) as [n Hn].
    destruct (mfor_app (run_ev q1) [Call (reset_op isx); Call OStab; Fault xerr i; Call OStab] [Call (read_op isx)] s1 s2) as (s3 & E3 & E4); [by destruct isx|].
    pose proof (run_evs_inv _ _ _ _ _ _ _ Hok Hn E3) as [Hok3 Hn3 _ _ _]. cbn [mfor run_ev] in E4. unfold mbind' in E4. destruct (run_op q1 (read_op isx) s3) as [s4 [[]|e]] eqn:E5; [|done].
    rewrite <-Ec. by eapply run_op_inv.
  - eapply ready_keeps; [exact HR|]. apply (keeps_trans _ (new_circuit s0)); [by apply keeps_same|]. apply (keeps_trans _ s1).
    + pose proof (mild_new t (Some l) "tq" (new_circuit s0)) as HM. by rewrite E1 in HM.
    + pose proof (mild_evs q1 (sim_evs isx xerr i) s1) as HM. unfold sim_evs, reset_op, read_op in HM. by rewrite E2 in HM.
Qed.
Lemma rate_ready isx counts : forall a b w w' r, ready l D w -> rate_loop rx isx counts a b w = (w', r) -> ready l D w'.
Proof.
  induction counts as [|[ky n] counts IHl]; intros a b w w' r HR E; cbn [rate_loop] in E; [by injection E as <- _|].
  destruct (dec_correct_ready rx l dh dw Hv D Hh Hw ky isx w HR) as (w1 & E1 & HR1). rewrite E1 in E.
  destruct (correct_readout rx D EPNone ky isx); [by eapply IHl|by injection E as <- _].
Qed.
Lemma check_keeps nb keys : forall w w' v, ready l D w -> check_keys nb keys w = (w', v) -> ready l D w'.
Proof.
  induction keys as [|ky keys IHl]; intros w w' v HR E; cbn [check_keys] in E; [by injection E as <- _|].
  destruct (dec_parse_ready l dh dw Hv D Hh Hw ky None w HR) as (w1 & E1 & HR1). rewrite E1 in E.
  destruct (parse_readout dh dw ky None) as [[lv [X Z']]|e]; [|by injection E as <- _]. case_bool_decide; [by eapply IHl|by injection E as <- _].
Qed.
Lemma verdict_ready nbs isx xerr i counts w w' v : ready l D w -> verdict rx nbs l isx xerr i counts w = (w', v) -> ready l D w'.
Proof.
  intros HR E. unfold verdict in E. destruct (rate_loop rx isx counts 0 0 w) as [w1 [r|e]] eqn:E1; [|injection E as <- _; by eapply rate_ready].
  pose proof (rate_ready _ _ _ _ _ _ _ HR E1) as HR1. case_bool_decide; [|by injection E as <- _].
  rewrite (test_dims_ready l dh dw D Hh Hw w1 HR1) in E. destruct w1 as [s1 o1]. by eapply check_keeps.
Qed.
(** A run that contains a case whose readout raises does not pass. *)
Lemma bad_case samp t nbs cs w v : t <> TRepetition -> ready l D w -> tests_run rx samp t nbs l cs w v ->
  Exists (fun c => op_ok (code_of t) dh dw (read_op c.1.1) = false) cs -> v <> Passed.
Proof.
  intros Ht HR HT HE. induction HT as [w|isx xerr i cs w s e E|isx xerr i cs w s q counts w' v E Hs Hvd Hne|isx xerr i cs w s q counts w' v E Hs Hvd HT IHl]; [by apply Exists_nil in HE|done|done|].
  destruct (sim_needs t isx xerr i w s q Ht HR E) as [Ho HR1]. apply Exists_cons in HE as [HE|HE]; [cbn [fst] in HE; congruence|].
  apply IHl; [by eapply verdict_ready|done].
Qed.
End narrow.
Theorem C71_xzzx_narrow rx l p s dh dw T : heap_fresh s ->
  s_heap s !! l = Some p -> d_of p = Some (DTup [dh; dw]) -> T_of p = Some T -> valid_size dh dw -> 1 < dh * dw -> dh = 1 \/ dw = 1 ->
  exists s1 o, new_decoder false l s = (s1, Ok o) /\
    forall samp v, test_single_errors rx samp TXZZX neighbors_xzzx l [true; false] (s1, o) v -> v <> Passed.
Proof.
  intros Hf Hp Hd HT Hv H1 Hn. destruct (C23_total dh dw T Hv) as (D & ED & Hh & Hw & _).
  destruct (new_decoder_ready false l p s D Hf Hp) as (s1 & o & En & HR); [cbn [pure_decoder]; by rewrite Hd, HT|].
  exists s1, o. split; [done|]. intros samp v (h & w & E & HTs). rewrite (test_dims_ready l dh dw D Hh Hw _ HR) in E. injection E as <- <-.
  eapply (bad_case rx l dh dw Hv D Hh Hw); [|exact HR|exact HTs|]; [done|].
  unfold test_cases. assert (dh <> 1 \/ dw <> 1) as Hne by nia.
  apply Exists_exists. destruct Hn as [-> | ->].
  - exists (true, false, 0). split; [|done]. apply elem_of_list_join. eexists. split; [|apply elem_of_list_fmap; exists 0; split; [done|apply elem_of_seqZ; lia]].
    apply elem_of_list_join. exists [(false, false, 0); (true, false, 0)]. split; [set_solver|]. apply elem_of_list_fmap. exists false. split; [|set_solver]. by rewrite bool_decide_eq_false_2 by lia.
  - exists (false, true, 0). split; [|done]. apply elem_of_list_join. eexists. split; [|apply elem_of_list_fmap; exists 0; split; [done|apply elem_of_seqZ; lia]].
    apply elem_of_list_join. exists [(false, true, 0); (true, true, 0)]. split; [set_solver|]. apply elem_of_list_fmap. exists true. split; [|set_solver]. by rewrite bool_decide_eq_false_2 by lia.
Qed.
Print Assumptions C71_xzzx_narrow.

(** For XXZZ the nodes parsed are exactly the neighbours the tests expect, not only among them. *)
Theorem C71_nodes (R : Amp) l s p dh dw isx xerr i s1 q k1 ty : 
  s_heap s !! l = Some p -> d_of p = Some (DTup [dh; dw]) -> valid_size dh dw -> 1 < dh * dw -> 0 <= i < dh * dw ->
  sim_circuit TXXZZ l isx xerr i (new_circuit s) = (s1, Ok q) ->
  exec (s_instrs s1) (fun _ => false, zero_state (R := R)) k1 -> possible k1 ->
  exists lv X Z, parse_readout dh dw (counts_key k1.1 (cregs s1)) ty = Ok (lv, (X, Z)) /\
    forall e, e ∈ X ++ Z <-> e ∈ neighbors_css dh dw i xerr.
Proof.
  intros Hp Hd Hv H1 Hi Hs He Hpo.
  assert (Ht : TXXZZ <> TRepetition) by done.
  destruct (sim_builds TXXZZ l s p dh dw isx xerr i Ht Hp Hd Hv) as (s0 & q0 & s' & En & Hok & Ec & Hc0 & Hi0 & Er); [by destruct isx..|].
  assert (Hs' : sim_circuit TXXZZ l isx xerr i (new_circuit s) = (s', Ok q0)) by (unfold sim_circuit; erewrite mbind_ok by exact En; by erewrite mbind_ok by exact Er).
  rewrite Hs in Hs'. injection Hs' as -> ->.
  assert (Hem : emitted s0 s' (s_instrs s')) by (unfold emitted; by rewrite Hi0).
  destruct (case_events R dh dw Hv H1 isx xerr i s0 q0 s' _ k1 ty Hok Hc0 Hi Er Hem He Hpo) as (lv & [X Z'] & E & Hev). rewrite Ec in Hev.
  exists lv, X, Z'. split; [done|]. intros e. rewrite (neighbours_css dh dw Hv i xerr e Hi), elem_of_app. split.
  - intros [Hin|Hin]; [apply (Hev true) in Hin as (loc & Hl); by exists true, loc|apply (Hev false) in Hin as (loc & Hl); by exists false, loc].
  - intros (isy & loc & Hl). destruct isy; [left; apply (Hev true)|right; apply (Hev false)]; by exists loc.
Qed.
Print Assumptions C71_nodes.

(** ** Concrete cases *)
Definition t_st (d : dval) (pfp : option bool) : st := heap1 (Circ.Params (Some d) (Some 1) pfp None None None None).
Example C71_xxzz_ex : exists s1 o, new_decoder false 0 (t_st (DTup [3; 5]) None) = (s1, Ok o) /\
  test_single_errors rx_ref (sampled ZAmp) TXXZZ neighbors_css 0 [true; false] (s1, o) Passed.
Proof.
  destruct (C71_xxzz rx_ref 0 _ (t_st (DTup [3; 5]) None) 3 5 1 [true; false] rx_ref_ok (heap1_fresh _) eq_refl eq_refl eq_refl ltac:(lia)) as (s1 & o & E & _ & HT); [done|].
  exists s1, o. split; [exact E|exact HT].
Qed.
Example C71_xzzx_ex : exists s1 o, new_decoder false 0 (t_st (DTup [5; 3]) None) = (s1, Ok o) /\
  test_single_errors rx_ref (sampled ZAmp) TXZZX neighbors_xzzx 0 [true; false] (s1, o) Passed.
Proof.
  destruct (C71_xzzx rx_ref 0 _ (t_st (DTup [5; 3]) None) 5 3 1 [true; false] rx_ref_ok (heap1_fresh _) eq_refl eq_refl eq_refl ltac:(lia)) as (s1 & o & E & _ & HT); [done|lia|lia|].
  exists s1, o. split; [exact E|exact HT].
Qed.
Example C71_repetition_ex : exists s1 o, new_decoder true 0 (t_st (DNum 5) (Some true)) = (s1, Ok o) /\
  test_single_errors rx_ref (sampled ZAmp) TXXZZ neighbors_css 0 [false] (s1, o) Passed.
Proof.
  destruct (C71_repetition rx_ref 0 _ (t_st (DNum 5) (Some true)) 5 1 rx_ref_ok (heap1_fresh _) eq_refl eq_refl eq_refl ltac:(lia) ltac:(lia) eq_refl) as (s1 & o & E & _ & HT).
  exists s1, o. split; [exact E|exact HT].
Qed.
(** The cases are there, and the checks can fail: a node that is not expected, a value that is
    decoded wrongly. *)
Example C71_cases_ex : length (test_cases [true; false] 3 5) = 60%nat /\ length (test_cases [true] 5 1) = 10%nat /\ test_cases [true; false] 1 1 = [].
Proof. vm_compute. done. Qed.
Example C71_neighbours_ex :
  neighbors_css 3 5 7 true = [(0, 3, 3); (0, 1, 5)] /\ neighbors_css 3 5 2 true = [(0, 1, 5)] /\ neighbors_xzzx 3 5 7 false = [(0, 1, 3); (0, 3, 5)].
Proof. vm_compute. done. Qed.
Definition t_obj : st * dobj :=
  match new_decoder false 0 (t_st (DTup [3; 3]) None) with (s, Ok o) => (s, o) | (s, Err _) => (s, DObj false 0 (Dec 0 0 0 None None) None) end.
Example C71_can_fail_ex :
  (check_keys (neighbors_css 3 3 4 true) ["0 00001001 00000000"%string] t_obj).2 = Passed /\
  (check_keys (neighbors_css 3 3 4 true) ["0 00001001 00000000"; "0 00000010 00000000"]%string t_obj).2 = Failed /\
  (verdict rx_ref neighbors_css 0 false true 4 [("1 00001001 00000000"%string, 3)] t_obj).2 = Failed.
Proof. vm_compute. done. Qed.
