(** Properties C08, C11, C12, C13 on histories of calls with Pauli faults in between. *)
From Verif Require Import P_Code Noise.
From stdpp Require Export list.
Open Scope Z_scope.

(** The classical bit written by a readout call with argument [r], the circuit being [s']
    right after the call: bit of the given register, or of the register just created. *)
Definition read_bit (s' : st) (r : option rhandle) (b : clbit) : Prop :=
  match eff r with
  | Some h => b ∈ reg_bits h
  | None => exists rg, last (s_regs s') = Some rg /\ b = (r_name rg, 0)
  end.

Section hist.
Context {R : Amp}.
Implicit Types (k : config R).
(** A history ending with a call, split at that call. *)
Lemma split_last s q dh dw n l o s' is k0 k1 : lat_ok s q dh dw -> has_cnt s q n ->
  run_evs q (l ++ [Call o]) s = (s', Ok tt) -> emitted s s' is -> exec is k0 k1 ->
  exists s1 ka n1, run_evs q l s = (s1, Ok tt) /\ lat_ok s1 q dh dw /\ has_cnt s1 q n1 /\ run_op q o s1 = (s', Ok tt) /\
    exec (evs_code (lat_code (tq_lat q)) (lat_name (tq_lat q)) dh dw n l) k0 ka /\
    exec (op_code (lat_code (tq_lat q)) (lat_name (tq_lat q)) dh dw n1 o) ka k1 /\
    s_regs s' = s_regs s1 ++ op_reg (lat_name (tq_lat q)) dh dw n1 o.
Proof.
  intros Hok Hn Hr Hem He. apply mfor_app in Hr as (s1 & Hr1 & Hr2).
  pose proof (run_evs_inv _ _ _ _ _ _ _ Hok Hn Hr1) as HP1.
  cbn [mfor] in Hr2. unfold mbind' in Hr2. destruct (run_ev q (Call o) s1) as [s2 [[]|e]] eqn:E; [|done]. injection Hr2 as <-.
  pose proof (po_ok _ _ _ _ _ _ _ _ HP1) as Hok1. pose proof (po_cnt _ _ _ _ _ _ _ _ HP1) as Hn1.
  destruct (run_op_inv s1 q dh dw _ o s2 Hok1 Hn1 E) as (_ & _ & HP2).
  unfold emitted in Hem. rewrite (po_code _ _ _ _ _ _ _ _ HP2), (po_code _ _ _ _ _ _ _ _ HP1), <-app_assoc in Hem.
  apply app_inv_head in Hem. subst is. apply exec_app in He as (ka & He1 & He2).
  exists s1, ka, (evs_next n l). split_and!; try done. apply HP2.
Qed.
Lemma read_bit_target s' q dh dw n1 r b s1 : s_regs s' = s_regs s1 ++ op_reg (lat_name (tq_lat q)) dh dw n1 (OReadZ r) ->
  read_bit s' r b -> exists i, 0 <= i < (rd_target (lat_name (tq_lat q)) n1 r).2 /\ b = ((rd_target (lat_name (tq_lat q)) n1 r).1, i).
Proof.
  unfold read_bit, rd_target. cbn [op_reg]. destruct (eff r) as [h|].
  - intros _ Hb. unfold reg_bits in Hb. apply elem_of_list_fmap in Hb as (i & -> & Hi%elem_of_seqZ). exists i. split; [lia|done].
  - intros Hs (rg & Hl & ->). rewrite Hs, last_snoc in Hl. injection Hl as <-. exists 0. done.
Qed.
End hist.

(** * C11 *)
(** Preparation, then any calls of stabilize, z-readouts, x, z and identities in any number
    and order, with faults in between, then a logical readout. *)
Theorem C11_z_with_faults (R : Amp) s q dh dw l r s' is b (k0 k1 : config R) : lat_ok s q dh dw ->
  run_evs q (Call OResetZ :: l ++ [Call (OReadZ r)]) s = (s', Ok tt) -> emitted s s' is ->
  Forall (fun e => safe_ev z_safe e = true) l ->
  exec is k0 k1 -> possible k1 -> read_bit s' r b ->
  k1.1 b = xorb (Nat.odd (count is_x (calls l))) (anti (log_z (lat_code (tq_lat q)) dh dw) (faults l)).
Proof.
  intros Hok Hr Hem Hl He Hp Hb. destruct (lat_ok_cnt _ _ _ _ Hok) as [n Hn]. pose proof (lo_valid _ _ _ _ Hok) as Hv.
  rewrite app_comm_cons in Hr.
  destruct (split_last _ _ _ _ _ _ _ _ _ _ _ Hok Hn Hr Hem He) as (s1 & ka & n1 & Hr1 & _ & _ & Hro & He1 & He2 & Hregs).
  destruct (read_bit_target _ _ dh dw _ _ _ _ Hregs Hb) as (i & Hi & ->).
  destruct (readz_spec _ _ _ _ Hv _ _ _ _ He2) as [HS _]. specialize (HS i Hi).
  eapply stab_unique; [exact HS| |exact Hp].
  cbn [evs_code ev_code] in He1. apply exec_app in He1 as (kr & Hre & He1).
  assert (HR : stab kr.2 (pmap (dq (lat_name (tq_lat q))) (log_z (lat_code (tq_lat q)) dh dw)) false).
  { rewrite log_z_side. eapply (reset_spec _ _ _ _ Hv n false); [|exact Hre]. unfold row_set. set_solver. }
  pose proof (LZ_evs _ _ _ _ Hv _ _ _ _ _ Hl He1 HR) as HZ. rewrite xorb_false_l in HZ.
  pose proof (LZ_op _ _ _ _ Hv n1 (OReadZ r) _ _ _ eq_refl He2 HZ) as HZ2. cbn [is_x] in HZ2. by rewrite xorb_false_r in HZ2.
Qed.
Theorem C11_x_with_faults (R : Amp) s q dh dw l r s' is b (k0 k1 : config R) : lat_ok s q dh dw ->
  run_evs q (Call OResetX :: l ++ [Call (OReadX r)]) s = (s', Ok tt) -> emitted s s' is ->
  Forall (fun e => safe_ev x_safe e = true) l ->
  exec is k0 k1 -> possible k1 -> read_bit s' r b ->
  k1.1 b = xorb (Nat.odd (count is_z (calls l))) (anti (log_x (lat_code (tq_lat q)) dh dw) (faults l)).
Proof.
  intros Hok Hr Hem Hl He Hp Hb. destruct (lat_ok_cnt _ _ _ _ Hok) as [n Hn]. pose proof (lo_valid _ _ _ _ Hok) as Hv.
  rewrite app_comm_cons in Hr.
  destruct (split_last _ _ _ _ _ _ _ _ _ _ _ Hok Hn Hr Hem He) as (s1 & ka & n1 & Hr1 & _ & _ & Hro & He1 & He2 & Hregs).
  destruct (read_bit_target _ _ dh dw _ _ _ _ Hregs Hb) as (i & Hi & ->).
  destruct (readx_spec _ _ _ _ Hv _ _ _ _ He2) as [HS _]. specialize (HS i Hi).
  eapply stab_unique; [exact HS| |exact Hp].
  cbn [evs_code ev_code] in He1. apply exec_app in He1 as (kr & Hre & He1).
  assert (HR : stab kr.2 (pmap (dq (lat_name (tq_lat q))) (log_x (lat_code (tq_lat q)) dh dw)) false).
  { rewrite log_x_side. eapply (reset_spec _ _ _ _ Hv n true); [|exact Hre]. unfold col_set. set_solver. }
  pose proof (LX_evs _ _ _ _ Hv _ _ _ _ _ Hl He1 HR) as HZ. rewrite xorb_false_l in HZ.
  pose proof (LX_op _ _ _ _ Hv n1 (OReadX r) _ _ _ eq_refl He2 HZ) as HZ2. cbn [is_z] in HZ2. by rewrite xorb_false_r in HZ2.
Qed.
Print Assumptions C11_z_with_faults.
Print Assumptions C11_x_with_faults.
Lemma calls_ops l : calls (Call <$> l) = l.
Proof. induction l as [|o l IH]; [done|]. rewrite fmap_cons, calls_cons, IH. done. Qed.
Lemma faults_ops l (P : pauli Z) : anti P (faults (Call <$> l)) = false.
Proof. induction l as [|o l IH]; [apply anti_pid_r|]. rewrite fmap_cons, faults_cons, IH. cbn [fault_of]. by rewrite anti_pid_r. Qed.
Lemma run_evs_ops q l : run_evs q (Call <$> l) = run_ops q l.
Proof. induction l as [|o l IH]; [done|]. unfold run_evs, run_ops in *. cbn [fmap list_fmap mfor]. by rewrite IH. Qed.
Lemma calls_wrap o1 l o2 : Call <$> (o1 :: l ++ [o2]) = Call o1 :: (Call <$> l) ++ [Call o2].
Proof. by rewrite fmap_cons, fmap_app. Qed.
Lemma safe_ops f l : Forall (fun o => f o = true) l -> Forall (fun e => safe_ev f e = true) (Call <$> l).
Proof. intros H. apply Forall_fmap. eapply Forall_impl; [exact H|]. done. Qed.

Theorem C11_z (R : Amp) s q dh dw l r s' is b (k0 k1 : config R) : lat_ok s q dh dw ->
  run_ops q (OResetZ :: l ++ [OReadZ r]) s = (s', Ok tt) -> emitted s s' is ->
  Forall (fun o => z_safe o = true) l ->
  exec is k0 k1 -> possible k1 -> read_bit s' r b ->
  k1.1 b = Nat.odd (count is_x l).
Proof.
  intros Hok Hr Hem Hl He Hp Hb. rewrite <-run_evs_ops, calls_wrap in Hr.
  rewrite (C11_z_with_faults R s q dh dw _ r s' is b k0 k1 Hok Hr Hem (safe_ops _ _ Hl) He Hp Hb).
  by rewrite calls_ops, faults_ops, xorb_false_r.
Qed.
Theorem C11_x (R : Amp) s q dh dw l r s' is b (k0 k1 : config R) : lat_ok s q dh dw ->
  run_ops q (OResetX :: l ++ [OReadX r]) s = (s', Ok tt) -> emitted s s' is ->
  Forall (fun o => x_safe o = true) l ->
  exec is k0 k1 -> possible k1 -> read_bit s' r b ->
  k1.1 b = Nat.odd (count is_z l).
Proof.
  intros Hok Hr Hem Hl He Hp Hb. rewrite <-run_evs_ops, calls_wrap in Hr.
  rewrite (C11_x_with_faults R s q dh dw _ r s' is b k0 k1 Hok Hr Hem (safe_ops _ _ Hl) He Hp Hb).
  by rewrite calls_ops, faults_ops, xorb_false_r.
Qed.
Print Assumptions C11_z.
Print Assumptions C11_x.

(** The lattice readout instead of the logical one: parity over the top row (left column). *)
Lemma lattice_value (R : Amp) s q dh dw isx l s' is rg (li : list Z) (P : pauli Z) (k0 k1 : config R) t :
  lat_ok s q dh dw -> run_evs q (l ++ [Call (lat_op isx)]) s = (s', Ok tt) -> emitted s s' is ->
  exec is k0 k1 -> possible k1 -> last (s_regs s') = Some rg ->
  NoDup li -> (forall i, i ∈ li -> 0 <= i < dh * dw) -> P = zside (lat_code (tq_lat q)) dh dw isx (list_to_set li) ->
  (forall n ka, has_cnt s q n -> exec (evs_code (lat_code (tq_lat q)) (lat_name (tq_lat q)) dh dw n l) k0 ka ->
     stab ka.2 (pmap (dq (lat_name (tq_lat q))) P) t) ->
  xorl ((fun j => k1.1 (r_name rg, j)) <$> li) = t.
Proof.
  intros Hok Hr Hem He Hp Hrg Hnd Hli -> HS. destruct (lat_ok_cnt _ _ _ _ Hok) as [n Hn]. pose proof (lo_valid _ _ _ _ Hok) as Hv.
  destruct (split_last _ _ _ _ _ _ _ _ _ _ _ Hok Hn Hr Hem He) as (s1 & ka & n1 & Hr1 & _ & _ & Hro & He1 & He2 & Hregs).
  assert (r_name rg = lrname (lat_name (tq_lat q)) (cL n1 + 1)) as ->.
  { rewrite Hregs in Hrg. destruct isx; cbn [lat_op op_reg] in Hrg; rewrite last_snoc in Hrg; by injection Hrg as <-. }
  eapply (lat_spec _ _ _ _ Hv); [done|done|exact He2|exact Hp|]. by eapply HS.
Qed.
Theorem C11_lattice_z (R : Amp) s q dh dw l s' is rg (k0 k1 : config R) : lat_ok s q dh dw ->
  run_evs q (Call OResetZ :: l ++ [Call OLatZ]) s = (s', Ok tt) -> emitted s s' is ->
  Forall (fun e => safe_ev z_safe e = true) l ->
  exec is k0 k1 -> possible k1 -> last (s_regs s') = Some rg ->
  xorl ((fun j => k1.1 (r_name rg, j)) <$> seqZ 0 dw) =
    xorb (Nat.odd (count is_x (calls l))) (anti (log_z (lat_code (tq_lat q)) dh dw) (faults l)).
Proof.
  intros Hok Hr Hem Hl He Hp Hrg. pose proof (lo_valid _ _ _ _ Hok) as Hv. rewrite app_comm_cons in Hr.
  eapply (lattice_value R s q dh dw false _ s' is rg (row_list dw) (log_z (lat_code (tq_lat q)) dh dw)); try done.
  - apply row_list_NoDup.
  - intros i. by apply row_list_range.
  - by rewrite (row_list_set dh) by done; apply log_z_side.
  - intros n ka Hn He1. cbn [evs_code ev_code] in He1. apply exec_app in He1 as (kr & Hre & He1).
    assert (HR : stab kr.2 (pmap (dq (lat_name (tq_lat q))) (log_z (lat_code (tq_lat q)) dh dw)) false).
    { rewrite log_z_side. eapply (reset_spec _ _ _ _ Hv n false); [|exact Hre]. unfold row_set. set_solver. }
    pose proof (LZ_evs _ _ _ _ Hv _ _ _ _ _ Hl He1 HR) as HZ. by rewrite xorb_false_l in HZ.
Qed.
Theorem C11_lattice_x (R : Amp) s q dh dw l s' is rg (k0 k1 : config R) : lat_ok s q dh dw ->
  run_evs q (Call OResetX :: l ++ [Call OLatX]) s = (s', Ok tt) -> emitted s s' is ->
  Forall (fun e => safe_ev x_safe e = true) l ->
  exec is k0 k1 -> possible k1 -> last (s_regs s') = Some rg ->
  xorl ((fun j => k1.1 (r_name rg, j * dw)) <$> seqZ 0 dh) =
    xorb (Nat.odd (count is_z (calls l))) (anti (log_x (lat_code (tq_lat q)) dh dw) (faults l)).
Proof.
  intros Hok Hr Hem Hl He Hp Hrg. pose proof (lo_valid _ _ _ _ Hok) as Hv. rewrite app_comm_cons in Hr.
  replace ((fun j => k1.1 (r_name rg, j * dw)) <$> seqZ 0 dh) with ((fun j => k1.1 (r_name rg, j)) <$> col_list dh dw)
    by (unfold col_list; by rewrite <-list_fmap_compose).
  eapply (lattice_value R s q dh dw true _ s' is rg (col_list dh dw) (log_x (lat_code (tq_lat q)) dh dw)); try done.
  - by apply col_list_NoDup.
  - intros i. by apply col_list_range.
  - by rewrite col_list_set by done; apply log_x_side.
  - intros n ka Hn He1. cbn [evs_code ev_code] in He1. apply exec_app in He1 as (kr & Hre & He1).
    assert (HR : stab kr.2 (pmap (dq (lat_name (tq_lat q))) (log_x (lat_code (tq_lat q)) dh dw)) false).
    { rewrite log_x_side. eapply (reset_spec _ _ _ _ Hv n true); [|exact Hre]. unfold col_set. set_solver. }
    pose proof (LX_evs _ _ _ _ Hv _ _ _ _ _ Hl He1 HR) as HZ. by rewrite xorb_false_l in HZ.
Qed.
Print Assumptions C11_lattice_z.
Print Assumptions C11_lattice_x.

(** * C12 *)
(** Between two rounds any non-destructive calls and faults occur: bit i of the two rounds
    differs iff stabilizer i anticommutes with the accumulated fault. *)
Theorem C12_syndrome_change (R : Amp) s q dh dw l s1 s2 s3 is1 is2 is3 r1 r3 (k0 k1 k2 k3 : config R) :
  lat_ok s q dh dw ->
  stabilize q s = (s1, Ok tt) -> run_evs q l s1 = (s2, Ok tt) -> stabilize q s2 = (s3, Ok tt) ->
  emitted s s1 is1 -> emitted s1 s2 is2 -> emitted s2 s3 is3 ->
  s_regs s1 = s_regs s ++ [r1] -> s_regs s3 = s_regs s2 ++ [r3] ->
  Forall (fun e => safe_ev gentle e = true) l ->
  exec is1 k0 k1 -> exec is2 k1 k2 -> exec is3 k2 k3 -> syndromes_clean q k0.2 -> possible k3 ->
  forall i, 0 <= i < dh * dw - 1 ->
    xorb (k1.1 (r_name r1, i)) (k3.1 (r_name r3, i)) =
    anti (bit_pauli q dh dw i) (pmap (dq (lat_name (tq_lat q))) (faults l)).
Proof.
  intros Hok H1 H2 H3 Em1 Em2 Em3 Hr1 Hr3 Hl He1 He2 He3 Hc Hp i Hi.
  pose proof (lo_valid _ _ _ _ Hok) as Hv.
  destruct (round_api _ _ _ _ _ _ _ _ _ Hok H1 Em1 Hr1 He1 Hc) as (Hok1 & Hc1 & _ & HS1 & _).
  destruct (lat_ok_cnt _ _ _ _ Hok1) as [n Hn].
  pose proof (run_evs_inv _ _ _ _ _ _ _ Hok1 Hn H2) as HPl. pose proof (po_ok _ _ _ _ _ _ _ _ HPl) as Hok2.
  unfold emitted in Em2. rewrite (po_code _ _ _ _ _ _ _ _ HPl) in Em2. apply app_inv_head in Em2. subst is2.
  assert (Hc2 : syndromes_clean q k2.2).
  { rewrite (syndromes_clean_iff s1 _ dh dw) in Hc1 |- * by done. by eapply clean_evs. }
  destruct (round_api _ _ _ _ _ _ _ _ _ Hok2 H3 Em3 Hr3 He3 Hc2) as (_ & _ & _ & HS3 & _).
  specialize (HS1 i Hi). rewrite bit_pauli_syn, anti_pmap' in *.
  assert (Hk : is_syn dh dw (bit_syn dh dw i)) by (by apply bit_syn_ok).
  pose proof (PK_evs _ _ _ _ Hv l n k1 k2 _ _ Hl Hk He2 HS1) as HS2.
  destruct (lat_ok_cnt _ _ _ _ Hok2) as [n2 Hn2].
  destruct (run_op_inv s2 q dh dw n2 OStab s3 Hok2 Hn2 H3) as (_ & _ & HP).
  unfold emitted in Em3. rewrite (po_code _ _ _ _ _ _ _ _ HP) in Em3. apply app_inv_head in Em3. subst is3.
  pose proof (PK_op _ _ _ _ Hv n2 OStab _ _ _ _ eq_refl Hk He3 HS2) as HS4.
  specialize (HS3 i Hi). rewrite bit_pauli_syn in HS3. rewrite (stab_unique _ _ _ _ HS3 HS4 Hp).
  rewrite <-xorb_assoc, xorb_nilpotent. by rewrite xorb_false_l.
Qed.
Print Assumptions C12_syndrome_change.

(** * C13 *)
(** Stabilizer values: [C10_rounds_agree] with readouts among the calls in between.
    Logical value: after a readout, any z-safe calls (including more readouts and rounds)
    and faults, a second readout gives the same bit up to the x() calls and faults in between. *)
Theorem C13_z_repeatable (R : Amp) s q dh dw r l r' s1 s2 is1 is2 b b' (k0 k1 k2 : config R) : lat_ok s q dh dw ->
  readout_z q r s = (s1, Ok tt) -> run_evs q (l ++ [Call (OReadZ r')]) s1 = (s2, Ok tt) ->
  emitted s s1 is1 -> emitted s1 s2 is2 ->
  Forall (fun e => safe_ev z_safe e = true) l ->
  exec is1 k0 k1 -> exec is2 k1 k2 -> possible k2 -> read_bit s1 r b -> read_bit s2 r' b' ->
  k2.1 b' = xorb (k1.1 b) (xorb (Nat.odd (count is_x (calls l))) (anti (log_z (lat_code (tq_lat q)) dh dw) (faults l))).
Proof.
  intros Hok H1 H2 Em1 Em2 Hl He1 He2 Hp Hb Hb'. destruct (lat_ok_cnt _ _ _ _ Hok) as [n Hn]. pose proof (lo_valid _ _ _ _ Hok) as Hv.
  destruct (run_op_inv s q dh dw n (OReadZ r) s1 Hok Hn H1) as (_ & _ & HP1).
  unfold emitted in Em1. rewrite (po_code _ _ _ _ _ _ _ _ HP1) in Em1. apply app_inv_head in Em1. subst is1.
  destruct (read_bit_target _ _ dh dw _ _ _ _ (po_regs _ _ _ _ _ _ _ _ HP1) Hb) as (i & Hi & ->).
  destruct (readz_spec _ _ _ _ Hv _ _ _ _ He1) as [HS1 _]. specialize (HS1 i Hi).
  destruct (split_last _ _ _ _ _ _ _ _ _ _ _ (po_ok _ _ _ _ _ _ _ _ HP1) (po_cnt _ _ _ _ _ _ _ _ HP1) H2 Em2 He2)
    as (s3 & ka & n1 & Hr1 & _ & _ & Hro & He3 & He4 & Hregs).
  destruct (read_bit_target _ _ dh dw _ _ _ _ Hregs Hb') as (i' & Hi' & ->).
  destruct (readz_spec _ _ _ _ Hv _ _ _ _ He4) as [HS2 _]. specialize (HS2 i' Hi').
  eapply stab_unique; [exact HS2| |exact Hp].
  pose proof (LZ_evs _ _ _ _ Hv _ _ _ _ _ Hl He3 HS1) as HZ.
  pose proof (LZ_op _ _ _ _ Hv n1 (OReadZ r') _ _ _ eq_refl He4 HZ) as HZ2. cbn [is_x] in HZ2. by rewrite xorb_false_r in HZ2.
Qed.
Theorem C13_x_repeatable (R : Amp) s q dh dw r l r' s1 s2 is1 is2 b b' (k0 k1 k2 : config R) : lat_ok s q dh dw ->
  readout_x q r s = (s1, Ok tt) -> run_evs q (l ++ [Call (OReadX r')]) s1 = (s2, Ok tt) ->
  emitted s s1 is1 -> emitted s1 s2 is2 ->
  Forall (fun e => safe_ev x_safe e = true) l ->
  exec is1 k0 k1 -> exec is2 k1 k2 -> possible k2 -> read_bit s1 r b -> read_bit s2 r' b' ->
  k2.1 b' = xorb (k1.1 b) (xorb (Nat.odd (count is_z (calls l))) (anti (log_x (lat_code (tq_lat q)) dh dw) (faults l))).
Proof.
  intros Hok H1 H2 Em1 Em2 Hl He1 He2 Hp Hb Hb'. destruct (lat_ok_cnt _ _ _ _ Hok) as [n Hn]. pose proof (lo_valid _ _ _ _ Hok) as Hv.
  destruct (run_op_inv s q dh dw n (OReadX r) s1 Hok Hn H1) as (_ & _ & HP1).
  unfold emitted in Em1. rewrite (po_code _ _ _ _ _ _ _ _ HP1) in Em1. apply app_inv_head in Em1. subst is1.
  destruct (read_bit_target _ _ dh dw _ _ _ _ (po_regs _ _ _ _ _ _ _ _ HP1) Hb) as (i & Hi & ->).
  destruct (readx_spec _ _ _ _ Hv _ _ _ _ He1) as [HS1 _]. specialize (HS1 i Hi).
  destruct (split_last _ _ _ _ _ _ _ _ _ _ _ (po_ok _ _ _ _ _ _ _ _ HP1) (po_cnt _ _ _ _ _ _ _ _ HP1) H2 Em2 He2)
    as (s3 & ka & n1 & Hr1 & _ & _ & Hro & He3 & He4 & Hregs).
  destruct (read_bit_target _ _ dh dw _ _ _ _ Hregs Hb') as (i' & Hi' & ->).
  destruct (readx_spec _ _ _ _ Hv _ _ _ _ He4) as [HS2 _]. specialize (HS2 i' Hi').
  eapply stab_unique; [exact HS2| |exact Hp].
  pose proof (LX_evs _ _ _ _ Hv _ _ _ _ _ Hl He3 HS1) as HZ.
  pose proof (LX_op _ _ _ _ Hv n1 (OReadX r') _ _ _ eq_refl He4 HZ) as HZ2. cbn [is_z] in HZ2. by rewrite xorb_false_r in HZ2.
Qed.
Print Assumptions C13_z_repeatable.
Print Assumptions C13_x_repeatable.

(** * C08: the XZZX code is the XXZZ code conjugated by Hadamards on even-indexed qubits *)
(** Stabilizers, in the order in which they are measured. *)
Theorem C08_stabilizers dh dw : valid_size dh dw ->
  stabilizers XZZX dh dw = hconj (even_set dh dw) <$> stabilizers XXZZ dh dw /\
  (forall q q' i, lat_code (tq_lat q) = XXZZ -> lat_code (tq_lat q') = XZZX -> lat_name (tq_lat q') = lat_name (tq_lat q) ->
     0 <= i < dh * dw - 1 ->
     bit_pauli q' dh dw i = hconj (img (dq (lat_name (tq_lat q))) (even_set dh dw)) (bit_pauli q dh dw i)).
Proof.
  intros Hv. split; [by apply stabilizers_XZZX|]. intros q q' i E1 E2 En Hi.
  pose proof (valid_counts _ _ Hv) as (?&?&?&Hs). unfold num_data in Hs. unfold bit_pauli. rewrite E1, E2, En.
  case_bool_decide; rewrite <-pmap_hconj; f_equal; [apply stab_z_hconj|apply stab_x_hconj]; done || lia.
Qed.
(** The gates emitted by x() and z(). *)
Theorem C08_logical s q s2 q2 dh dw : lat_ok s q dh dw -> lat_ok s2 q2 dh dw ->
  lat_code (tq_lat q) = XXZZ -> lat_code (tq_lat q2) = XZZX -> lat_name (tq_lat q2) = lat_name (tq_lat q) ->
  exists gx gz gx2 gz2 Px Pz Px2 Pz2,
    logical_x q s = (app_instrs s gx, Ok tt) /\ logical_z q s = (app_instrs s gz, Ok tt) /\
    logical_x q2 s2 = (app_instrs s2 gx2, Ok tt) /\ logical_z q2 s2 = (app_instrs s2 gz2, Ok tt) /\
    gates_pauli gx = Some Px /\ gates_pauli gz = Some Pz /\ gates_pauli gx2 = Some Px2 /\ gates_pauli gz2 = Some Pz2 /\
    Px2 = hconj (img (dq (lat_name (tq_lat q))) (even_set dh dw)) Px /\
    Pz2 = hconj (img (dq (lat_name (tq_lat q))) (even_set dh dw)) Pz.
Proof.
  intros Hok Hok2 Ec Ec2 En. pose proof (lo_valid _ _ _ _ Hok) as Hv.
  eexists _, _, _, _, _, _, _, _. do 4 (split; [by eapply logical_x_ok || by eapply logical_z_ok|]).
  split; [by apply logx_pauli|]. split; [by apply (logz_pauli _ _ dh)|].
  split; [by apply logx_pauli|]. split; [by apply (logz_pauli _ _ dh)|].
  rewrite Ec, Ec2, En, <-!pmap_hconj. done.
Qed.
(** The states after reset_z() and reset_x(): XXZZ has eigenvalue +1 for every product of Z
    (of X) on data qubits, XZZX for every such operator conjugated. *)
Theorem C08_reset (R : Amp) s q dh dw isx s' is (k0 k1 : config R) (A : gset Z) : lat_ok s q dh dw ->
  run_op q (if isx : bool then OResetX else OResetZ) s = (s', Ok tt) -> emitted s s' is -> exec is k0 k1 ->
  A ⊆ data_set dh dw ->
  let P := if isx then Xon A else Zon A in
  let P' := match lat_code (tq_lat q) with XXZZ => P | XZZX => hconj (even_set dh dw) P end in
  stab k1.2 (pmap (dq (lat_name (tq_lat q))) P') false.
Proof.
  intros Hok Hr Hem He HA P P'. destruct (lat_ok_cnt _ _ _ _ Hok) as [n Hn]. pose proof (lo_valid _ _ _ _ Hok) as Hv.
  destruct (run_op_inv s q dh dw n _ s' Hok Hn Hr) as (_ & _ & HP).
  unfold emitted in Hem. rewrite (po_code _ _ _ _ _ _ _ _ HP) in Hem. apply app_inv_head in Hem. subst is.
  pose proof (reset_spec _ _ _ _ Hv n isx k0 k1 A HA He) as HS. unfold zside, cconj in HS. exact HS.
Qed.
(** Readouts measure the (conjugated) logical operators, lattice readouts the (conjugated)
    products of Z or X: a definite value of the operator is what gets recorded. *)
Theorem C08_readout (R : Amp) s q dh dw isx r s' is (k0 k1 : config R) b t : lat_ok s q dh dw ->
  run_op q (if isx : bool then OReadX r else OReadZ r) s = (s', Ok tt) -> emitted s s' is -> exec is k0 k1 -> possible k1 ->
  read_bit s' r b ->
  let P := if isx then Xon (col_set dh dw 0) else Zon (row_set dh dw 0) in
  let P' := match lat_code (tq_lat q) with XXZZ => P | XZZX => hconj (even_set dh dw) P end in
  stab k1.2 (pmap (dq (lat_name (tq_lat q))) P') (k1.1 b) /\
  (stab k0.2 (pmap (dq (lat_name (tq_lat q))) P') t -> k1.1 b = t).
Proof.
  intros Hok Hr Hem He Hp Hb P P'. destruct (lat_ok_cnt _ _ _ _ Hok) as [n Hn]. pose proof (lo_valid _ _ _ _ Hok) as Hv.
  destruct (run_op_inv s q dh dw n _ s' Hok Hn Hr) as (_ & _ & HP).
  unfold emitted in Hem. rewrite (po_code _ _ _ _ _ _ _ _ HP) in Hem. apply app_inv_head in Hem. subst is.
  assert (EP : P' = if isx then log_x (lat_code (tq_lat q)) dh dw else log_z (lat_code (tq_lat q)) dh dw) by (by destruct isx).
  assert (exists i, 0 <= i < (rd_target (lat_name (tq_lat q)) n r).2 /\ b = ((rd_target (lat_name (tq_lat q)) n r).1, i)) as (i & Hi & ->).
  { eapply (read_bit_target s' q dh dw n r b s); [|exact Hb]. rewrite (po_regs _ _ _ _ _ _ _ _ HP). by destruct isx. }
  rewrite EP. destruct isx.
  - destruct (readx_spec _ _ _ _ Hv _ _ _ _ He) as [HS _]. specialize (HS i Hi). split; [exact HS|]. intros Ht.
    pose proof (LX_op _ _ _ _ Hv n (OReadX r) _ _ _ eq_refl He Ht) as H2. cbn in H2. rewrite xorb_false_r in H2. by eapply stab_unique.
  - destruct (readz_spec _ _ _ _ Hv _ _ _ _ He) as [HS _]. specialize (HS i Hi). split; [exact HS|]. intros Ht.
    pose proof (LZ_op _ _ _ _ Hv n (OReadZ r) _ _ _ eq_refl He Ht) as H2. cbn in H2. rewrite xorb_false_r in H2. by eapply stab_unique.
Qed.
Theorem C08_lattice_readout (R : Amp) s q dh dw isx s' is rg (k0 k1 : config R) (li : list Z) t : lat_ok s q dh dw ->
  run_op q (if isx : bool then OLatX else OLatZ) s = (s', Ok tt) -> emitted s s' is -> exec is k0 k1 -> possible k1 ->
  last (s_regs s') = Some rg -> NoDup li -> (forall i, i ∈ li -> 0 <= i < dh * dw) ->
  let P := if isx then Xon (list_to_set li) else Zon (list_to_set li) in
  let P' := match lat_code (tq_lat q) with XXZZ => P | XZZX => hconj (even_set dh dw) P end in
  stab k0.2 (pmap (dq (lat_name (tq_lat q))) P') t -> xorl ((fun j => k1.1 (r_name rg, j)) <$> li) = t.
Proof.
  intros Hok Hr Hem He Hp Hl Hnd Hli P P' Ht. destruct (lat_ok_cnt _ _ _ _ Hok) as [n Hn]. pose proof (lo_valid _ _ _ _ Hok) as Hv.
  eapply (lattice_value R s q dh dw isx [] s' is rg li P' k0 k1 t); try done.
  - unfold run_evs. cbn [app mfor run_ev]. unfold mbind'. change (lat_op isx) with (if isx then OLatX else OLatZ). by rewrite Hr.
  - intros n' ka _ He'. inversion He'; subst. exact Ht.
Qed.
Print Assumptions C08_stabilizers.
Print Assumptions C08_logical.
Print Assumptions C08_reset.
Print Assumptions C08_readout.
Print Assumptions C08_lattice_readout.
(** On 3 x 5, the first Z plaquette of XXZZ and its XZZX counterpart. *)
Example C08_ex : stab_z XXZZ 3 5 0 = Zon {[0; 1; 5; 6]} /\ stab_z XZZX 3 5 0 = Pauli {[0; 6]} {[1; 5]}.
Proof. split; apply pauli_eq; apply (bool_decide_unpack _); vm_compute; exact I. Qed.

(** ** Non-vacuity: every successful history has executions of positive probability *)
Lemma evs_possible s q dh dw l s' is (k0 : config ZAmp) : lat_ok s q dh dw -> run_evs q l s = (s', Ok tt) -> emitted s s' is ->
  possible k0 -> exists k1, exec is k0 k1 /\ possible k1.
Proof.
  intros Hok Hr Hem Hp. destruct (lat_ok_cnt _ _ _ _ Hok) as [n Hn]. pose proof (lo_valid _ _ _ _ Hok) as Hv.
  pose proof (run_evs_inv _ _ _ _ _ _ _ Hok Hn Hr) as HP. unfold emitted in Hem. rewrite (po_code _ _ _ _ _ _ _ _ HP) in Hem.
  apply app_inv_head in Hem. subst is. apply exec_possible_Z; [|done]. clear -Hv.
  revert n. induction l as [|e l IH]; intros n i Hi; cbn [evs_code] in Hi; [by apply elem_of_nil in Hi|].
  apply elem_of_app in Hi as [Hi|Hi]; [|by eapply IH]. destruct e as [o|isx j]; cbn [ev_code] in Hi.
  - by eapply op_touch.
  - apply elem_of_list_singleton in Hi as ->. by destruct isx.
Qed.
Definition ex_q : st * res tqubit := new_tqubit TXZZX (Some 0%nat) "tq" (heap1 (with_d (DTup [3;5]))).
Lemma ex_ok q : ex_q.2 = Ok q -> lat_ok ex_q.1 q 3 5 /\ lat_code (tq_lat q) = XZZX.
Proof.
  destruct (C04_constructed TXZZX 0 "tq" (heap1 (with_d (DTup [3;5]))) (with_d (DTup [3;5])) (DTup [3;5]) 3 5)
    as (s' & q' & E & Hok & Hc & _); try done; [intros suf _; apply not_elem_of_nil|].
  unfold ex_q. rewrite E. cbn. intros [= <-]. done.
Qed.
Lemma zero_possible (c : cstate) : possible ((c, zero_state) : config ZAmp).
Proof. exists ∅. cbn. done. Qed.
Definition run_ok (m : st * res tqubit) (l : list ev) : bool :=
  match m with (s, Ok q) => match run_evs q l s with (_, Ok _) => true | _ => false end | _ => false end.
Lemma run_ok_inv m l q dh dw : m.2 = Ok q -> lat_ok m.1 q dh dw -> run_ok m l = true ->
  exists s' is, run_evs q l m.1 = (s', Ok tt) /\ emitted m.1 s' is.
Proof.
  destruct m as [s r]. cbn. intros -> Hok. destruct (run_evs q l s) as [s' [[]|e]] eqn:E; [|done]. intros _.
  destruct (lat_ok_cnt _ _ _ _ Hok) as [n Hn]. eexists s', _. split; [done|].
  exact (po_code _ _ _ _ _ _ _ _ (run_evs_inv _ _ _ _ _ _ _ Hok Hn E)).
Qed.
(** A history meeting the hypotheses of C11: two x() calls, one z(), rounds and readouts. *)
Definition ex_hist : list ev := [Call OStab; Call OX; Fault true 0; Call OIdData; Call (OReadZ None); Call OStab; Call OZ].
Example C11_ex : exists q s' rg (k1 : config ZAmp) is, ex_q.2 = Ok q /\
  run_evs q (Call OResetZ :: ex_hist ++ [Call (OReadZ None)]) ex_q.1 = (s', Ok tt) /\ emitted ex_q.1 s' is /\
  Forall (fun e => safe_ev z_safe e = true) ex_hist /\
  exec is (fun _ => false, zero_state) k1 /\ possible k1 /\ last (s_regs s') = Some rg /\
  anti (log_z XZZX 3 5) (faults ex_hist) = false /\ k1.1 (r_name rg, 0) = true.
Proof.
  assert (exists q, ex_q.2 = Ok q) as [q Hq] by (vm_compute; eauto). destruct (ex_ok q Hq) as [Hok Hc].
  assert (Hrun : run_ok ex_q (Call OResetZ :: ex_hist ++ [Call (OReadZ None)]) = true) by (vm_compute; reflexivity).
  destruct (run_ok_inv _ _ _ _ _ Hq Hok Hrun) as (s' & is & Hr & Hem).
  assert (exists rg, last (s_regs s') = Some rg) as [rg Hl].
  { destruct (lat_ok_cnt _ _ _ _ Hok) as [n Hn]. rewrite (po_regs _ _ _ _ _ _ _ _ (run_evs_inv _ _ _ _ _ _ _ Hok Hn Hr)).
    apply last_is_Some. intros [_ E]%app_eq_nil. cbn in E. done. }
  destruct (evs_possible _ _ _ _ _ _ _ ((fun _ => false), zero_state) Hok Hr Hem (zero_possible _)) as (k1 & He & Hp).
  assert (Hf : Forall (fun e => safe_ev z_safe e = true) ex_hist) by (repeat constructor).
  assert (Ha : anti (log_z XZZX 3 5) (faults ex_hist) = false) by (vm_compute; done).
  exists q, s', rg, k1, is. do 8 (split; [assumption|]).
  rewrite (C11_z_with_faults ZAmp _ _ _ _ _ None _ _ (r_name rg, 0) _ _ Hok Hr Hem Hf He Hp).
  - rewrite Hc, Ha. done.
  - exists rg. split; [exact Hl|reflexivity].
Qed.

(** Two rounds with a fault in between (hypotheses of C10/C12): the bits of the two rounds
    differ exactly for the stabilizers touching the fault. *)
Example C12_ex : exists q s1 s2 s3 is1 is2 is3 r1 r3 (k1 k2 k3 : config ZAmp), ex_q.2 = Ok q /\
  stabilize q ex_q.1 = (s1, Ok tt) /\ run_evs q [Call OX; Fault true 7] s1 = (s2, Ok tt) /\ stabilize q s2 = (s3, Ok tt) /\
  emitted ex_q.1 s1 is1 /\ emitted s1 s2 is2 /\ emitted s2 s3 is3 /\
  s_regs s1 = s_regs ex_q.1 ++ [r1] /\ s_regs s3 = s_regs s2 ++ [r3] /\
  exec is1 (fun _ => false, zero_state) k1 /\ exec is2 k1 k2 /\ exec is3 k2 k3 /\ possible k3 /\
  xorb (k1.1 (r_name r1, 1)) (k3.1 (r_name r3, 1)) = true.
Proof.
  assert (exists q, ex_q.2 = Ok q) as [q Hq] by (vm_compute; eauto). destruct (ex_ok q Hq) as [Hok Hc].
  assert (Hrun : run_ok ex_q ([Call OStab] ++ [Call OX; Fault true 7] ++ [Call OStab]) = true) by (vm_compute; reflexivity).
  destruct (run_ok_inv _ _ _ _ _ Hq Hok Hrun) as (s3 & is & Hr & Hem).
  unfold run_evs in Hr. apply mfor_app in Hr as (s1 & H1 & Hr). apply mfor_app in Hr as (s2 & H2 & H3).
  assert (HX : forall s s', mfor [Call OStab] (run_ev q) s = (s', Ok tt) -> stabilize q s = (s', Ok tt)).
  { intros s s'. cbn [mfor run_ev run_op]. unfold mbind'. destruct (stabilize q s) as [sx [[]|]]; [|congruence]. by intros [= <-]. }
  apply HX in H1, H3. clear HX. destruct (lat_ok_cnt _ _ _ _ Hok) as [n Hn].
  destruct (run_op_inv _ q 3 5 n OStab s1 Hok Hn H1) as (_ & _ & P1).
  pose proof (run_evs_inv _ _ _ _ _ _ _ (po_ok _ _ _ _ _ _ _ _ P1) (po_cnt _ _ _ _ _ _ _ _ P1) H2) as P2.
  destruct (run_op_inv _ q 3 5 _ OStab s3 (po_ok _ _ _ _ _ _ _ _ P2) (po_cnt _ _ _ _ _ _ _ _ P2) H3) as (_ & _ & P3).
  assert (HE : forall s l s' is (k0 : config ZAmp), lat_ok s q 3 5 -> run_evs q l s = (s', Ok tt) -> emitted s s' is -> possible k0 ->
    exists k1, exec is k0 k1 /\ possible k1) by (intros; by eapply evs_possible).
  assert (HS : forall s s', stabilize q s = (s', Ok tt) -> run_evs q [Call OStab] s = (s', Ok tt)).
  { intros s s' E. unfold run_evs. cbn [mfor run_ev run_op]. unfold mbind'. by rewrite E. }
  destruct (HE _ _ _ _ ((fun _ => false), zero_state) Hok (HS _ _ H1) (po_code _ _ _ _ _ _ _ _ P1) (zero_possible _)) as (k1 & E1 & Hp1).
  destruct (HE _ _ _ _ k1 (po_ok _ _ _ _ _ _ _ _ P1) H2 (po_code _ _ _ _ _ _ _ _ P2) Hp1) as (k2 & E2 & Hp2).
  destruct (HE _ _ _ _ k2 (po_ok _ _ _ _ _ _ _ _ P2) (HS _ _ H3) (po_code _ _ _ _ _ _ _ _ P3) Hp2) as (k3 & E3 & Hp3).
  pose proof (po_code _ _ _ _ _ _ _ _ P1) as Em1. pose proof (po_code _ _ _ _ _ _ _ _ P2) as Em2. pose proof (po_code _ _ _ _ _ _ _ _ P3) as Em3.
  pose proof (po_regs _ _ _ _ _ _ _ _ P1) as R1. pose proof (po_regs _ _ _ _ _ _ _ _ P3) as R3.
  cbn [op_reg] in R1, R3.
  exists q, s1, s2, s3. eexists _, _, _, _, _. exists k1, k2, k3. do 4 (split; [eassumption|]).
  do 3 (split; [eassumption|]). do 2 (split; [eassumption|]). do 4 (split; [eassumption|]).
  rewrite (C12_syndrome_change ZAmp _ q 3 5 _ _ _ _ _ _ _ _ _ ((fun _ => false), zero_state) k1 k2 k3 Hok H1 H2 H3 Em1 Em2 Em3 R1 R3).
  - unfold bit_pauli. rewrite anti_pmap', Hc. vm_compute. reflexivity.
  - repeat constructor.
  - exact E1.
  - exact E2.
  - exact E3.
  - apply C10_initially_clean.
  - exact Hp3.
  - lia.
Qed.
