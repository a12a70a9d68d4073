(** Property C57: programs of a TopologicalCircuit compute what a classical machine computes. *)
From Verif Require Import SpecProgram P_Cx P_Multi.
From stdpp Require Export list.
Open Scope Z_scope.

(** ** One cx *)
(** The logical Z of the target becomes the product of both. *)
Lemma cx_product {R : Amp} (c t a : side) (Hsep : separate [c; t; a]) (k0 k1 : config R) bt : exec (cx_code c t a) k0 k1 ->
  stab k0.2 (sLZ t) bt -> stab k1.2 (pmul (sLZ c) (sLZ t)) bt.
Proof.
  intros (ka & Ha & (kb & Hb & Hc)%exec_app)%exec_app Hzt.
  destruct (pre_spec c t a Hsep _ _ Ha) as (P1 & P2 & P3). destruct (mid_spec c t a Hsep _ _ Hb) as (M1 & M2).
  destruct (post_spec c t a Hsep _ _ Hc) as (m2 & m3 & Q1 & Q2 & Q3). rewrite (M2 ("m1"%string, 0)) in Q1, Q2 by done.
  assert (Zra : off ro (sLZ a)) by (eapply data_off; [apply do_LZ|apply (ra c t a Hsep)]).
  assert (Zrc : off ro (sLZ c)) by (eapply data_off; [apply do_LZ|apply (rc c t a Hsep)]).
  assert (Zrt : off ro (sLZ t)) by (eapply data_off; [apply do_LZ|apply (rt c t a Hsep)]).
  assert (Zca : clear_of (sd_n a) (sLZ c)) by (eapply data_clear; [apply do_LZ|apply (sep_ca c t a Hsep)]).
  assert (Zta : clear_of (sd_n a) (sLZ t)) by (eapply data_clear; [apply do_LZ|apply (sep_ta c t a Hsep)]).
  assert (Act : anti (sLZ c) (sLX t) = false).
  { apply anti_disjoint. intros q. eapply data_disjoint; [apply do_LZ|apply do_LX|apply (sep_ct c t a Hsep)]. }
  assert (Atc : anti (sLZ t) (sLZ c) = false).
  { apply anti_disjoint. intros q. eapply data_disjoint; [apply do_LZ|apply do_LZ|]. intros q' H1 H2. by eapply (sep_ct c t a Hsep). }
  assert (Aca : anti (sLZ c) (sLX a) = false).
  { apply anti_disjoint. intros q. eapply data_disjoint; [apply do_LZ|apply do_LX|apply (sep_ca c t a Hsep)]. }
  assert (Ata : anti (sLZ t) (sLX a) = false).
  { apply anti_disjoint. intros q. eapply data_disjoint; [apply do_LZ|apply do_LX|apply (sep_ta c t a Hsep)]. }
  assert (Aat : anti (sLZ a) (sLX t) = false).
  { apply anti_disjoint. intros q. eapply data_disjoint; [apply do_LZ|apply do_LX|]. intros q' H1 H2. by eapply (sep_ta c t a Hsep). }
  assert (Aself : forall s, valid_size (sd_h s) (sd_w s) -> anti (sLZ s) (sLX s) = true).
  { intros s Hv. unfold sLZ, sLX. rewrite anti_pmap by apply _. rewrite anti_comm. by apply logical_anticommute. }
  assert (Ht1 : stab ka.2 (sLZ t) bt).
  { apply P1; try done. eapply data_off; [apply do_LZ|]. intros H. eapply (sep_ct c t a Hsep); [|exact H]. apply within_anc. }
  assert (H2 : stab ka.2 (pmul (sLZ t) (pmul (sLZ a) (sLZ c))) (xorb bt (ka.1 ("m1"%string, 0)))).
  { pose proof (stab_mul _ _ _ _ _ Ht1 P2) as H. cbn [pz pmul] in H. rewrite dot_sd_r in H.
    rewrite (dot_off (sLZ t) (sLZ a)), (dot_off (sLZ t) (sLZ c)), !xorb_false_r in H; [done|..].
    - intros q. eapply data_disjoint; [apply do_LZ|apply do_LZ|]. intros q' H1 H2. by eapply (sep_ct c t a Hsep).
    - intros q. eapply data_disjoint; [apply do_LZ|apply do_LZ|apply (sep_ta c t a Hsep)]. }
  pose proof (Q2 (pmul (sLZ c) (sLZ t)) (xorb bt (ka.1 ("m1"%string, 0))) (clear_pmul _ _ _ Zca Zta)) as H.
  rewrite !anti_pmul_l, anti_self, Atc, Act, (Aself t (vt c t a Hsep)), andb_false_r, andb_true_r, xorb_false_r in H.
  match type of H with _ -> stab _ _ ?x => replace bt with x end.
  2: { destruct bt, m3, (ka.1 ("m1"%string, 0)); reflexivity. }
  apply H. clear H.
  replace (pmul (pmul (sLZ c) (sLZ t)) (sLZ a)) with (pmul (sLZ t) (pmul (sLZ a) (sLZ c))).
  2: { rewrite (pmul_comm (sLZ a)), pmul_assoc, (pmul_comm (sLZ t)). done. }
  apply M1; [| |done].
  - by repeat apply off_pmul.
  - rewrite !anti_pmul_l, (Aself t (vt c t a Hsep)), (Aself a (va c t a Hsep)), Ata, Aat, Act, Aca. done.
Qed.
(** A cx writes only into the three bits of its own. *)
Lemma cx_writes c t a : separate [c; t; a] -> forall i b, i ∈ cx_code c t a -> b ∈ writes i -> b.1 ∈ cx_names.
Proof.
  intros Hsep.
  assert (HM : forall x, x ∈ ["m1"; "m2"; "m3"]%string -> x ∈ cx_names) by (intros x Hx; apply cx_names_in; rewrite !elem_of_cons, elem_of_nil in Hx; tauto).
  assert (HR : forall s i b h, i ∈ rd_z (sd_c s) (sd_n s) (sd_w s) h -> b ∈ writes i -> b.1 = h.1).
  { intros s i b h Hi Hb. unfold rd_z in Hi. apply elem_of_app in Hi as [[->|Hi%compile_gate%gate_rw]%elem_of_cons|[Hi|Hi%elem_of_list_singleton]%elem_of_app].
    - by apply elem_of_nil in Hb.
    - destruct Hi as [_ E]. rewrite E in Hb. by apply elem_of_nil in Hb.
    - apply elem_of_list_fmap in Hi as (b' & -> & Hb'). apply elem_of_list_singleton in Hb as ->. unfold reg_bits in Hb'. by apply elem_of_list_fmap in Hb' as (z & -> & _).
    - subst. by apply elem_of_nil in Hb. }
  assert (HI : forall s i b, i ∈ into_z (sd_c s) (sd_n s) (sd_w s) -> b ∈ writes i -> False).
  { intros s i b Hi Hb.
    pose proof (HR s i b ("p"%string, 1) ltac:(unfold rd_z; apply elem_of_app; by left) Hb) as E1.
    pose proof (HR s i b ("q"%string, 1) ltac:(unfold rd_z; apply elem_of_app; by left) Hb) as E2. cbn in E1, E2. congruence. }
  assert (HX : forall (f : Z -> instr) (l : list Z) i b, (forall z, gate (f z) \/ writes (f z) = []) -> i ∈ f <$> l -> b ∈ writes i -> False).
  { intros f l i b Hf (z & -> & _)%elem_of_list_fmap Hb. assert (E : writes (f z) = []) by (destruct (Hf z) as [H|H]; [by apply gate_rw|done]).
    rewrite E in Hb. by apply elem_of_nil in Hb. }
  assert (HS : forall i b, i ∈ rs_x (sd_c a) (sd_n a) (num_data (sd_h a) (sd_w a)) -> b ∈ writes i -> False).
  { intros i b Hi Hb. destruct (op_rw (sd_c a) (sd_n a) (sd_h a) (sd_w a) (Cnt 0 0 0) OResetX i (va c t a Hsep) I Hi) as [_ H]. apply H in Hb. by apply elem_of_nil in Hb. }
  assert (HG : forall d z, gate (cxgate (sd_c d) (sd_n d) ro z) \/ writes (cxgate (sd_c d) (sd_n d) ro z) = []).
  { intros d z. left. unfold cxgate. destruct (sd_c d); [done|]. by case_bool_decide. }
  assert (HI1 : forall d h z, gate (zifgate (sd_c d) (sd_n d) h 1 z) \/ writes (zifgate (sd_c d) (sd_n d) h 1 z) = []) by (intros d h z; right; unfold zifgate; destruct (sd_c d); [done|]; by case_bool_decide).
  assert (HI2 : forall d h z, gate (xifgate (sd_c d) (sd_n d) h 1 z) \/ writes (xifgate (sd_c d) (sd_n d) h 1 z) = []) by (intros d h z; right; unfold xifgate; destruct (sd_c d); [done|]; by case_bool_decide).
  intros i b. unfold cx_code, cx_pre, cx_mid, cx_post. rewrite !elem_of_app.
  intros Hi Hb. repeat match goal with H : _ \/ _ |- _ => destruct H as [H|H] end;
    try (exfalso; by eapply HS); try (exfalso; by eapply HI); try (by rewrite (HR _ _ _ _ Hi Hb); apply HM; set_solver);
    try (exfalso; eapply HX; [|exact Hi|exact Hb]; intros z; first [apply HG|apply HI1|apply HI2]);
    repeat (apply elem_of_cons in Hi as [->|Hi]; [first [by apply elem_of_nil in Hb|apply elem_of_list_singleton in Hb as ->; apply HM; set_solver]|]); by apply elem_of_nil in Hi.
Qed.

(** ** What is known of a state *)
Definition knows {A : Amp} (rs : list request) (name : string) (ψ : state A) (v : vals) : Prop :=
  forall i r b, 0 <= i -> rs !! Z.to_nat i = Some r -> v i = Some b -> stab ψ (LZ name i r) b.
Lemma learn_eq v i b : learn v i b i = b. Proof. unfold learn. by rewrite bool_decide_eq_true_2. Qed.
Lemma learn_ne v i j b : j <> i -> learn v i b j = v j. Proof. intros H. unfold learn. by rewrite bool_decide_eq_false_2. Qed.
(** Two values of one operator: the outcome is impossible. *)
Lemma stab_conflict {A : Amp} (ψ : state A) P s t : s <> t -> stab ψ P s -> stab ψ P t -> forall b, ψ b = a0.
Proof.
  intros Hne Hs Ht b. apply (a_two A). rewrite stab_iff in Hs, Ht. specialize (Hs b). specialize (Ht b).
  rewrite Hs in Ht. pose proof (@QFacts.R_ring A) as [Ra Rc Rs _ _ _ _ Rsub Ro].
  assert (E : forall x : A, aopp x = x -> aadd x x = a0) by (intros x Hx; rewrite <-Hx at 2; apply Ro).
  destruct s, t; try done; destruct (dot (pz P) b); cbn in Ht; apply E; congruence.
Qed.

(** Registers stay. *)
Lemma call_names s szs n0 e : weak s szs n0 -> forall x, x ∈ names s -> x ∈ names (run_call e s).1.
Proof.
  intros Hw x Hx. destruct e as [i o]. unfold run_call. cbn [fst snd].
  destruct (decide (0 <= i < s_n s)) as [Hi|Hi].
  - destruct (weak_get _ _ _ _ Hw Hi) as (t & dh & dw & q & p & Hsz & Hq & Ht & Hc & Hnm & Hok & Hp & Ha).
    erewrite mbind_ok by (unfold treg_get; by rewrite Hq). destruct (lat_ok_cnt _ _ _ _ Hok) as [n Hn].
    assert (HH : forall s' n' rs is, post s s' q dh dw n' rs is -> x ∈ names s').
    { intros s' n' rs is HP. unfold names. rewrite (po_regs _ _ _ _ _ _ _ _ HP), fmap_app. apply elem_of_app. by left. }
    destruct (op_fresh_dec s (lat_name (tq_lat q)) dh dw n o) as [Hf|Hf].
    + destruct (op_ok (lat_code (tq_lat q)) dh dw o) eqn:Eo.
      * destruct (run_op_ok s q dh dw n o Hok Hn Eo Hf) as (s' & E & HP). rewrite E. by eapply HH.
      * destruct (run_op_fail s q dh dw n o Hok Hn Eo Hf) as (s' & e & is & E & _ & HP). rewrite E. by eapply HH.
    + destruct (run_op_clash s q dh dw n o Hok Hn Hf) as (s' & E & HP). rewrite E. by eapply HH.
  - erewrite mbind_err; [done|]. unfold treg_get. by rewrite (wk_none _ _ _ Hw i Hi).
Qed.

(** ** One call *)
Section step.
Context (A : Amp) (rs : list request) (name : string).
Local Notation N := (Z.of_nat (length rs)).
Local Notation knows := (@knows A rs name).
(** The effect of a call, for every execution of what it emits. *)
Definition step_ok (e : event) (s s' : st) (is : list instr) : Prop :=
  (forall i, i ∈ is -> proper i) /\
  (forall i b, i ∈ is -> b ∈ writes i -> b.1 ∈ cx_names \/ b.1 ∉ names s) /\
  (forall x, x ∈ reading_regs [e] s -> x ∈ names s' /\ x ∉ cx_names) /\
  forall (k0 k1 : config A) v, exec is k0 k1 -> knows k0.2 v ->
    (forall b, k1.2 b = a0) \/ exists r v', classical e v r v' /\ knows k1.2 v' /\ option_list r = (fun x => k1.1 (x, 0)) <$> reading_regs [e] s.

Lemma reading_reg s ext i o s' : weak s (request_sizes rs ++ ext) N -> s_tname s = name -> on_data N (ECall i o) ->
  run_event (ECall i o) s = (s', Ok tt) ->
  reading_regs [ECall i o] s = [] /\ is_reading (ECall i o) = false \/
  exists x, reading_regs [ECall i o] s = [x] /\ is_reading (ECall i o) = true /\ x ∈ names s' /\ x ∉ names s.
Proof.
  intros Hw HT Hon Hr. pose proof Hr as Hr0. cbn [run_event] in Hr. unfold run_call in Hr. cbn [fst snd] in Hr.
  destruct o as [|r'|[r'|]| | | | | | | |]; try (by left). cbn [on_data] in Hon. right. pose proof (wk_n0 _ _ _ Hw) as Hn0.
  destruct (weak_get _ _ _ i Hw ltac:(lia)) as (t & dh & dw & q & p & Hsz & Hq & Ht & Hc & Hnm & Hok & Hp & Ha).
  erewrite mbind_ok in Hr by (unfold treg_get; by rewrite Hq).
  destruct (lat_ok_cnt _ _ _ _ Hok) as [n Hn]. destruct (run_op_inv _ _ _ _ _ _ _ Hok Hn Hr) as (Ho & Hf & HP).
  pose proof (po_regs _ _ _ _ _ _ _ _ HP) as HR. cbn [op_reg eff] in HR.
  exists (rdname (lat_name (tq_lat q)) (cR n + 1)). split_and!; [|done| |].
  - cbn [reading_regs is_reading]. rewrite Hr0. cbn [fst]. rewrite HR, last_snoc. done.
  - unfold names. rewrite HR, fmap_app. apply elem_of_app. right. by left.
  - apply (Hf (Reg false (rdname (lat_name (tq_lat q)) (cR n + 1)) 1)). by left.
Qed.
Lemma call_step s ext i o s' : weak s (request_sizes rs ++ ext) N -> s_tname s = name -> on_data N (ECall i o) ->
  run_event (ECall i o) s = (s', Ok tt) ->
  exists is, s_instrs s' = s_instrs s ++ is /\ (forall x, x ∈ names s -> x ∈ names s') /\ step_ok (ECall i o) s s' is.
Proof.
  intros Hw HT Hon Hr. pose proof Hr as Hr0. cbn [run_event] in Hr. unfold run_call in Hr. cbn [fst snd] in Hr.
  assert (Hi : 0 <= i < N) by (destruct o as [|[]|[]| | | | | | | |]; done).
  assert (Hown : own_register (Noise.Call o)) by (destruct o as [|[]|[]| | | | | | | |]; done).
  pose proof (wk_n0 _ _ _ Hw) as Hn0.
  destruct (weak_get _ _ _ i Hw ltac:(lia)) as (t & dh & dw & q & p & Hsz & Hq & Ht & Hc & Hnm & Hok & Hp & Ha).
  erewrite mbind_ok in Hr by (unfold treg_get; by rewrite Hq).
  destruct (lat_ok_cnt _ _ _ _ Hok) as [n Hn]. destruct (run_op_inv _ _ _ _ _ _ _ Hok Hn Hr) as (Ho & Hf & HP).
  pose proof (po_regs _ _ _ _ _ _ _ _ HP) as HR. pose proof (po_code _ _ _ _ _ _ _ _ HP) as HI. pose proof (lo_valid _ _ _ _ Hok) as Hv.
  destruct (lookup_lt_is_Some_2 rs (Z.to_nat i)) as [r Hri]; [lia|].
  assert (Hsz' : Some (rq_t r, (rq_h r, rq_w r)) = Some (t, (dh, dw))).
  { rewrite <-Hsz. unfold request_sizes. rewrite lookup_app_l by (rewrite fmap_length; lia). by rewrite list_lookup_fmap, Hri. }
  injection Hsz' as <- <- <-. rewrite Hc, Hnm, HT in HI. rewrite Hnm, HT in HR, Hf.
  assert (HN : names s' = names s ++ (r_name <$> op_reg (qname name i) (rq_h r) (rq_w r) n o)) by (unfold names; by rewrite HR, fmap_app).
  assert (HRR : reading_regs [ECall i o] s = match o with OReadZ None => [rdname (qname name i) (cR n + 1)] | _ => [] end).
  { cbn [reading_regs is_reading]. rewrite Hr0. cbn [fst]. rewrite app_nil_r. destruct o as [|r'|[r'|]| | | | | | | |]; try done.
    rewrite HR. cbn [op_reg eff]. by rewrite last_snoc. }
  eexists. split; [exact HI|]. split; [intros x Hx; rewrite HN; apply elem_of_app; by left|]. split_and!.
  - intros j Hj. by destruct (op_touch _ _ _ _ _ _ _ Hv Hj).
  - intros j b Hj Hb. right. destruct (op_rw _ _ _ _ _ _ _ Hv Hown Hj) as [_ H]. apply H in Hb. apply elem_of_list_fmap in Hb as (x & -> & Hx). by apply Hf.
  - rewrite HRR. intros x Hx. destruct o as [|r'|[r'|]| | | | | | | |]; try (by apply elem_of_nil in Hx). apply elem_of_list_singleton in Hx as ->. split.
    + rewrite HN. apply elem_of_app. right. by left.
    + eapply (qc_not_cx name i). right. eexists "_readout_"%string, _. split; [unfold c_sufs; set_solver|reflexivity].
  - rewrite HRR. intros k0 k1 v He Hk.
    assert (Helse : forall j rj b, 0 <= j -> rs !! Z.to_nat j = Some rj -> j <> i -> v j = Some b -> stab k1.2 (LZ name j rj) b).
    { intros j rj b Hj Hrj Hne Hb. rewrite <-(xorb_false_r b). eapply prop_sound; [|exact He|by eapply Hk].
      apply prop_untouched; [intros x Hx; by destruct (op_touch _ _ _ _ _ _ _ Hv Hx)|].
      intros x y Hx Hy. destruct (op_touch _ _ _ _ _ _ _ Hv Hx) as [_ H]. eapply data_off; [apply data_only_onq|]. intros Hy'.
      apply Hne. eapply (within_apart name j i y); [done|lia|done|by apply H]. }
    assert (Hlearn : forall w, (forall b, w = Some b -> stab k1.2 (LZ name i r) b) -> knows k1.2 (learn v i w)).
    { intros w Hwi j rj b Hj Hrj. destruct (decide (j = i)) as [->|Hne].
      - rewrite learn_eq. rewrite Hri in Hrj. injection Hrj as <-. apply Hwi.
      - rewrite learn_ne by done. by apply Helse. }
    assert (Hkeep : z_safe o = true -> forall b, v i = Some b -> stab k1.2 (LZ name i r) (xorb b (is_x o))).
    { intros Hz b Hb. eapply (LZ_op (rcode r) (qname name i) (rq_h r) (rq_w r) Hv n o); [done|exact He|]. eapply Hk; [lia|done|done]. }
    assert (Hsame : z_safe o = true -> is_x o = false -> knows k1.2 v).
    { intros Hz Hx j rj b Hj Hrj Hb. destruct (decide (j = i)) as [->|Hne]; [|by eapply Helse].
      rewrite Hri in Hrj. injection Hrj as <-. pose proof (Hkeep Hz b Hb) as H. by rewrite Hx, xorb_false_r in H. }
    assert (Hlose : knows k1.2 (learn v i None)) by (by apply Hlearn).
    destruct o as [|[r'|]|[r'|]| | | | | | | |]; cbn [on_data] in Hon; try done.
    + right. exists None, v. split_and!; [apply cl_keep; set_solver|by apply Hsame|done].
    + right. eexists None, _. split_and!; [apply cl_lose; set_solver|done|done].
    + destruct (readz_spec (rcode r) (qname name i) (rq_h r) (rq_w r) Hv n None k0 k1 He) as [H _]. specialize (H 0 ltac:(cbn; lia)).
      change (stab k1.2 (LZ name i r) (k1.1 (rdname (qname name i) (cR n + 1), 0))) in H.
      destruct (v i) as [b|] eqn:Eb.
      * pose proof (Hkeep eq_refl b eq_refl) as H'. cbn [is_x] in H'. rewrite xorb_false_r in H'.
        destruct (decide (b = k1.1 (rdname (qname name i) (cR n + 1), 0))) as [E|Hne]; [|left; by eapply stab_conflict].
        right. eexists (Some b), _. split_and!; [apply cl_read; by right|apply Hlearn; by intros ? [= <-]|by rewrite E].
      * right. eexists (Some _), _. split_and!; [apply cl_read; by left|apply Hlearn; intros ? [= <-]; exact H|done].
    + right. eexists None, _. split_and!; [apply cl_lose; set_solver|done|done].
    + right. eexists None, _. split_and!; [apply cl_lose; set_solver|done|done].
    + right. eexists None, _. split_and!; [apply cl_lose; set_solver|done|done].
    + right. eexists None, _. split_and!; [apply cl_reset| |done]. apply Hlearn. intros b [= <-]. unfold LZ, onq. rewrite log_z_side.
      eapply (reset_spec (rcode r) (qname name i) (rq_h r) (rq_w r) Hv n false); [|exact He]. unfold row_set. set_solver.
    + right. eexists None, _. split_and!; [apply cl_x| |done]. apply Hlearn. intros b Hb. destruct (v i) as [b'|] eqn:Eb; [|done]. injection Hb as <-.
      rewrite <-xorb_true_r. by apply Hkeep.
    + right. exists None, v. split_and!; [apply cl_keep; set_solver|by apply Hsame|done].
    + right. exists None, v. split_and!; [apply cl_keep; set_solver|by apply Hsame|done].
    + right. exists None, v. split_and!; [apply cl_keep; set_solver|by apply Hsame|done].
Qed.
Lemma cx_step s ext i j anc s' : weak s (request_sizes rs ++ ext) N -> s_tname s = name -> event_ok (ECx i j anc) -> on_data N (ECx i j anc) ->
  run_event (ECx i j anc) s = (s', Ok tt) ->
  exists is ext', s_instrs s' = s_instrs s ++ is /\ (forall x, x ∈ names s -> x ∈ names s') /\ s_tname s' = name /\
    weak s' (request_sizes rs ++ ext') N /\ step_ok (ECx i j anc) s s' is.
Proof.
  intros Hw HT He (Hi & Hj & Hij) Hr.
  destruct (lookup_lt_is_Some_2 rs (Z.to_nat i)) as [ri Hri]; [lia|]. destruct (lookup_lt_is_Some_2 rs (Z.to_nat j)) as [rj Hrj]; [lia|].
  destruct (cx_event _ _ _ i j anc Hw He) as (s'' & r & ext' & E & Hw' & HT' & HN & HR). rewrite Hr in E. injection E as <- <-.
  destruct (HR eq_refl) as (dc & dt & da & k & Hdc & Hdt & Hda & Hk & _ & _ & HI). clear HR.
  assert (Hsep : separate [dc; dt; da]).
  { eapply (sides_separate s'); [exact Hw'|rewrite HT'; done..|lia|lia|lia]. }
  rewrite HT in Hdc, Hdt, Hda. rewrite <-app_assoc in Hdc, Hdt, Hda, Hw'.
  pose proof (data_side _ _ _ _ _ _ Hdc Hri) as ->. pose proof (data_side _ _ _ _ _ _ Hdt Hrj) as ->.
  assert (Hn : sd_n da = qname name k) by (by destruct Hda as (? & ? & ? & _ & _ & ->)).
  eexists _, (ext ++ ext'). split; [exact HI|]. split; [exact HN|]. split; [congruence|]. split; [done|]. split_and!.
  - by apply cx_proper.
  - intros x b Hx Hb. left. by eapply cx_writes.
  - intros x Hx. by apply elem_of_nil in Hx.
  - cbn [reading_regs is_reading app fmap list_fmap]. intros k0 k1 v Hex Hkn.
    pose proof (cx_product _ _ _ Hsep k0 k1) as HX. destruct (cx_spec _ _ _ Hsep k0 k1 Hex) as (_ & HF & w & Hwc). cbn [sd_n] in HF. rewrite Hn in HF.
    change (sLZ (Side (rcode ri) _ _ _)) with (LZ name i ri) in *. change (sLZ (Side (rcode rj) _ _ _)) with (LZ name j rj) in HX. change (sLX _) with (LX name j rj) in HF.
    assert (HC : forall m m' P P', 0 <= m -> 0 <= m' -> m <> m' -> forall q, off q (onq name m P) \/ off q (onq name m' P')).
    { intros m m' P P' Hm Hm' Hne q. eapply data_disjoint; [apply data_only_onq..|]. intros q' H1 H2. apply Hne. by eapply within_apart. }
    assert (HK : forall m rm b, 0 <= m -> rs !! Z.to_nat m = Some rm -> m <> j -> v m = Some b -> stab k1.2 (LZ name m rm) b).
    { intros m rm b Hm Hrm Hmj Hb. pose proof (lookup_lt_Some _ _ _ Hrm). apply HF; [| | | | |by eapply Hkn].
      - eapply data_clear; [apply data_only_onq|]. intros q H1 H2. pose proof (within_apart name m k q Hm ltac:(lia) H1 H2). lia.
      - apply data_only_onq. intros z Ez. unfold ancq, dq in Ez. injection Ez as Ez _. apply q_suf_inj in Ez as [_ Ez]; [done|lia|lia|unfold q_sufs; set_solver..].
      - apply data_only_onq. intros z Ez. unfold ro, dq in Ez. injection Ez as Ez _. eapply (cx_q_ne name m "_data"); [|unfold q_sufs; set_solver|exact Ez]. apply cx_names_in. tauto.
      - destruct (decide (m = i)) as [->|Hne]; [rewrite Hri in Hrm; injection Hrm as <-; apply anti_self|]. apply anti_disjoint. by apply HC; try lia.
      - apply anti_disjoint. by apply HC; try lia. }
    assert (HV : (forall b, k1.2 b = a0) \/ v i = None \/ v i = Some w).
    { destruct (v i) as [b|] eqn:Eb; [|by right; left]. destruct (decide (b = w)) as [->|Hne]; [by right; right|]. left.
      eapply (stab_conflict _ (LZ name i ri) b w); [done| |done]. eapply HK; [lia|done|done|done]. }
    destruct HV as [Hz|HV]; [by left|]. right. eexists None, _. split_and!; [by apply (cl_cx i j anc v w)| |done].
    intros m rm b Hm Hrm Hb. destruct (decide (m = j)) as [->|Hmj].
    + rewrite learn_eq in Hb. rewrite Hrj in Hrm. injection Hrm as <-. destruct (v j) as [bt|] eqn:Ej; [|done]. injection Hb as <-.
      pose proof (HX bt Hex (Hkn j rj bt Hm Hrj Ej)) as H1. pose proof (stab_mul _ _ _ _ _ Hwc H1) as H2.
      rewrite pmul_assoc, pmul_self, pmul_id_l in H2. cbn [pz pmul] in H2. rewrite dot_sd_r in H2.
      change (LZ name i ri) with (sLZ (Side (rcode ri) (qname name i) (rq_h ri) (rq_w ri))) in H2 at 1. rewrite sLZ_xz in H2.
      rewrite (dot_off (LZ name i ri) (LZ name j rj)) in H2 by (apply HC; lia). by rewrite !xorb_false_r in H2.
    + rewrite learn_ne in Hb by done. destruct (decide (m = i)) as [->|Hmi].
      * rewrite learn_eq in Hb. injection Hb as <-. rewrite Hri in Hrm. by injection Hrm as <-.
      * rewrite learn_ne in Hb by done. by eapply HK.
Qed.

(** ** Whole sessions *)
Lemma program_run l : forall s ext, weak s (request_sizes rs ++ ext) N -> s_tname s = name ->
  Forall event_ok l -> Forall (on_data N) l -> Forall (eq (Ok tt)) (run_events l s).2 ->
  exists is, s_instrs (run_events l s).1 = s_instrs s ++ is /\
    (forall i, i ∈ is -> proper i) /\
    (forall i b, i ∈ is -> b ∈ writes i -> b.1 ∈ cx_names \/ b.1 ∉ names s) /\
    forall (k0 k1 : config A) v, exec is k0 k1 -> possible k1 -> knows k0.2 v ->
      exists v', classicals l v ((fun x => k1.1 (x, 0)) <$> reading_regs l s) v' /\ knows k1.2 v'.
Proof.
  induction l as [|e l IHl]; intros s ext Hw HT Hok Hon Hres.
  - exists []. rewrite app_nil_r. split_and!; [done|intros i Hi; by apply elem_of_nil in Hi|intros i b Hi; by apply elem_of_nil in Hi|].
    intros k0 k1 v He _ Hk. inversion He; subst. exists v. split; [constructor|done].
  - apply Forall_cons in Hok as [He Hok]. apply Forall_cons in Hon as [Ho Hon]. cbn [run_events fst snd] in *. apply Forall_cons in Hres as [Hr Hres].
    destruct (run_event e s) as [s1 r1] eqn:E. cbn [fst snd] in *. subst r1.
    assert (exists is ext', s_instrs s1 = s_instrs s ++ is /\ (forall x, x ∈ names s -> x ∈ names s1) /\ s_tname s1 = name /\
      weak s1 (request_sizes rs ++ ext') N /\ step_ok e s s1 is) as (is1 & ext1 & HI1 & HN1 & HT1 & Hw1 & HP1 & HW1 & HR1 & HS1).
    { destruct e as [i o|i j anc]; [|by eapply cx_step].
      destruct (call_step _ _ _ _ _ Hw HT Ho E) as (is & H1 & H2 & H3). exists is, ext. split_and!; try done.
      - pose proof (run_call_book (i, o) s) as HB. cbn [run_event] in E. rewrite E in HB. unfold book in HB. injection HB as HB _ _. cbn in HB. congruence.
      - pose proof (weak_call _ _ _ (i, o) Hw) as H. cbn [run_event] in E. by rewrite E in H. }
    destruct (IHl s1 ext1 Hw1 HT1 Hok Hon Hres) as (is2 & HI2 & HP2 & HW2 & HS2).
    exists (is1 ++ is2). rewrite HI2, HI1, app_assoc. split_and!; [done| | |].
    + intros i [Hi|Hi]%elem_of_app; [by apply HP1|by apply HP2].
    + intros i b [Hi|Hi]%elem_of_app Hb; [by eapply HW1|]. destruct (HW2 i b Hi Hb) as [H|H]; [by left|right]. intros Hx. by apply H, HN1.
    + intros k0 k2 v (k1 & He1 & He2)%exec_app Hp Hk. destruct (HS1 k0 k1 v He1 Hk) as [Hz|(r & v1 & Hc & Hk1 & Hrd)].
      { exfalso. destruct Hp as [b Hb]. apply Hb. by eapply QComm.exec_zero. }
      destruct (HS2 k1 k2 v1 He2 Hp Hk1) as (v2 & Hcs & Hk2). exists v2. split; [|done].
      assert (EE : reading_regs (e :: l) s = reading_regs [e] s ++ reading_regs l s1).
      { cbn [reading_regs]. rewrite E. cbn [fst]. by rewrite app_nil_r. }
      rewrite EE, fmap_app.
      assert (EB : (fun x => k2.1 (x, 0)) <$> reading_regs [e] s = option_list r).
      { rewrite Hrd. apply list_fmap_ext. intros m x Hx%elem_of_list_lookup_2. destruct (HR1 x Hx) as [H1 H2].
        eapply exec_frame; [exact He2|]. intros i Hi Hb. destruct (HW2 i _ Hi Hb) as [H|H]; by apply H || apply H2. }
      rewrite EB. by econstructor.
Qed.
Lemma readings_fresh l : forall s ext, weak s (request_sizes rs ++ ext) N -> s_tname s = name ->
  Forall event_ok l -> Forall (on_data N) l -> Forall (eq (Ok tt)) (run_events l s).2 ->
  NoDup (reading_regs l s) /\ length (reading_regs l s) = length (filter (fun e => is_reading e = true) l) /\
  forall x, x ∈ reading_regs l s -> x ∈ names (run_events l s).1 /\ x ∉ names s.
Proof.
  assert (Hmono : forall l s ext, weak s (request_sizes rs ++ ext) N -> Forall event_ok l -> forall x, x ∈ names s -> x ∈ names (run_events l s).1).
  { clear l. induction l as [|e l IHl]; intros s ext Hw Hok x Hx; [done|]. apply Forall_cons in Hok as [He Hok]. cbn [run_events fst].
    destruct e as [i o|i j anc].
    - eapply IHl; [by eapply (weak_call _ _ _ (i, o))|done|]. by apply (call_names _ _ _ (i, o) Hw).
    - destruct (cx_event _ _ _ i j anc Hw He) as (s' & r & ext' & E & Hw' & HT' & HN & _). rewrite E. cbn [fst].
      rewrite <-app_assoc in Hw'. eapply IHl; [exact Hw'|done|by apply HN]. }
  induction l as [|e l IHl]; intros s ext Hw HT Hok Hon Hres.
  - split_and!; [constructor|done|intros x Hx; by apply elem_of_nil in Hx].
  - apply Forall_cons in Hok as [He Hok]. apply Forall_cons in Hon as [Ho Hon]. cbn [run_events fst snd] in *. apply Forall_cons in Hres as [Hr Hres].
    destruct (run_event e s) as [s1 r1] eqn:E. cbn [fst snd] in *. subst r1.
    assert (exists ext', (forall x, x ∈ names s -> x ∈ names s1) /\ s_tname s1 = name /\ weak s1 (request_sizes rs ++ ext') N /\
      (reading_regs [e] s = [] /\ is_reading e = false \/ exists x, reading_regs [e] s = [x] /\ is_reading e = true /\ x ∈ names s1 /\ x ∉ names s)) as (ext1 & HN1 & HT1 & Hw1 & HX).
    { destruct e as [i o|i j anc].
      - exists ext. pose proof (run_call_book (i, o) s) as HB. pose proof (weak_call _ _ _ (i, o) Hw) as Hw'. cbn [run_event] in E. rewrite E in HB, Hw'. unfold book in HB. injection HB as HB _ _. cbn in HB.
        split_and!; [intros x Hx; pose proof (call_names _ _ _ (i, o) Hw x Hx) as H; by rewrite E in H|congruence|done|].
        destruct (reading_reg s ext i o s1 Hw HT Ho) as [H|H]; [by cbn [run_event]|by left|by right].
      - destruct (cx_step _ _ _ _ _ _ Hw HT He Ho E) as (is & ext' & _ & H1 & H2 & H3 & _). exists ext'. split_and!; try done. by left. }
    destruct (IHl s1 ext1 Hw1 HT1 Hok Hon Hres) as (I1 & I2 & I3).
    assert (EE : reading_regs (e :: l) s = reading_regs [e] s ++ reading_regs l s1).
    { cbn [reading_regs]. rewrite E. cbn [fst]. by rewrite app_nil_r. }
    rewrite EE, filter_cons. destruct HX as [[-> Ee]|(x & -> & Ee & Hx1 & Hx2)].
    + rewrite decide_False by (by rewrite Ee). cbn [app]. split_and!; [done..|]. intros x Hx. destruct (I3 x Hx) as [H1 H2]. split; [done|]. intros H. by apply H2, HN1.
    + rewrite decide_True by done. cbn [app length]. split_and!.
      * constructor; [|done]. intros Hx. by destruct (I3 x Hx).
      * by rewrite I2.
      * intros y [->|Hy]%elem_of_cons; [split; [by eapply Hmono|done]|]. destruct (I3 y Hy) as [H1 H2]. split; [done|]. intros H. by apply H2, HN1.
Qed.
End step.

(** ** C57 *)
(** For every register, after any session at all, every further session that goes through
    without exception, every measurement outcome: what the circuit records and leaves behind is
    a run of the classical machine. *)
Theorem C57_program (A : Amp) rs name s0 l0 l :
  heap_fresh s0 -> NoDup (rq_params <$> rs) -> Forall (request_ok s0) rs ->
  Forall event_ok l0 -> Forall event_ok l -> Forall (on_data (Z.of_nat (length rs))) l ->
  exists s1, new_treg name (rq_type <$> rs) (rq_params <$> rs) s0 = (s1, Ok tt) /\
  let s := (run_events l0 s1).1 in
  (Forall (eq (Ok tt)) (run_events l s).2 ->
   exists is, emitted s (run_events l s).1 is /\
     forall (k0 k1 : config A) v, exec is k0 k1 -> possible k1 -> knows rs name k0.2 v ->
       exists v', classicals l v ((fun x => k1.1 (x, 0)) <$> reading_regs l s) v' /\ knows rs name k1.2 v').
Proof.
  intros Hhf Hnd Hok Hl0 Hl Hon. destruct (new_treg_weak rs name s0 Hhf Hnd Hok) as (s1 & E & _ & Hw & HT & _). exists s1. split; [done|].
  cbn zeta. intros Hres. destruct (events_weak l0 s1 _ _ Hw Hl0) as (ext & Hw2 & HT2). rewrite HT in HT2.
  destruct (program_run A rs name l _ ext Hw2 HT2 Hl Hon Hres) as (is & H1 & _ & _ & H2). by exists is.
Qed.
Print Assumptions C57_program.

Lemma compute_sound l : forall v out v' rs w, classicals l v rs w -> compute l v = Some (out, v') -> rs = out /\ forall i, w i = v' i.
Proof.
  assert (HU : forall (o : option bool) (P Q : bool), o = None \/ o = Some P -> o = Some Q -> P = Q) by (intros o P Q [->| ->]; congruence).
  induction l as [|e l IHl]; intros v out v' rs w Hc Hm; inversion Hc as [|? ? ? r v1 rs' ? H1 H2]; subst.
  - injection Hm as <- <-. done.
  - cbn [compute] in Hm. destruct (compute1 e v) as [[r0 v0]|] eqn:E1; [|done]. destruct (compute l v0) as [[o1 w1]|] eqn:E2; [|done]. cbn in Hm. injection Hm as <- <-.
    assert (r = r0 /\ v1 = v0) as [-> ->].
    { destruct H1; cbn in E1.
      - by injection E1 as <- <-.
      - by injection E1 as <- <-.
      - rewrite !elem_of_cons, elem_of_nil in H. destruct H as [->|[->|[->|[->|[]]]]]; by injection E1 as <- <-.
      - rewrite !elem_of_cons, elem_of_nil in H. destruct H as [->|[->|[->|[->|[]]]]]; by injection E1 as <- <-.
      - destruct (v i) as [b'|] eqn:Ei; [|done]. injection E1 as <- <-. destruct H as [|[= ->]]; done.
      - destruct (v i) as [b'|] eqn:Ei; [|done]. injection E1 as <- <-. destruct H as [|[= ->]]; done. }
    destruct (IHl _ _ _ _ _ H2 E2) as [-> HW]. done.
Qed.
(** In particular a program whose qubits are initialised before they are read or used as controls
    records what the classical program prints, from every initial state and with every outcome of
    the measurements inside. *)
Theorem C57_output (A : Amp) rs name s0 l0 l out v' :
  heap_fresh s0 -> NoDup (rq_params <$> rs) -> Forall (request_ok s0) rs ->
  Forall event_ok l0 -> Forall event_ok l -> Forall (on_data (Z.of_nat (length rs))) l -> compute l (fun _ => None) = Some (out, v') ->
  exists s1, new_treg name (rq_type <$> rs) (rq_params <$> rs) s0 = (s1, Ok tt) /\
  let s := (run_events l0 s1).1 in
  (Forall (eq (Ok tt)) (run_events l s).2 ->
   exists is, emitted s (run_events l s).1 is /\
     (forall k0 : config ZAmp, possible k0 -> exists k1, exec is k0 k1 /\ possible k1) /\
     forall k0 k1 : config A, exec is k0 k1 -> possible k1 ->
       (fun x => k1.1 (x, 0)) <$> reading_regs l s = out /\ knows rs name k1.2 v').
Proof.
  intros Hhf Hnd Hok Hl0 Hl Hon Hcm. destruct (new_treg_weak rs name s0 Hhf Hnd Hok) as (s1 & E & _ & Hw & HT & _). exists s1. split; [done|].
  cbn zeta. intros Hres. destruct (events_weak l0 s1 _ _ Hw Hl0) as (ext & Hw2 & HT2). rewrite HT in HT2.
  destruct (program_run A rs name l _ ext Hw2 HT2 Hl Hon Hres) as (is & H1 & H2 & _ & H3). exists is. split_and!; [done| |].
  - intros k0 Hp. by apply exec_possible_Z.
  - intros k0 k1 He Hp. destruct (H3 k0 k1 (fun _ => None) He Hp) as (w & Hc & Hk); [by intros i r b|].
    destruct (compute_sound _ _ _ _ _ _ Hc Hcm) as [-> HW]. split; [done|]. intros i r b Hi Hr Hb. apply Hk; [done..|]. by rewrite HW.
Qed.
Print Assumptions C57_output.
(** The registers differ, so that each reading has its own place in the result. *)
Theorem C57_readings rs name s0 l0 l :
  heap_fresh s0 -> NoDup (rq_params <$> rs) -> Forall (request_ok s0) rs ->
  Forall event_ok l0 -> Forall event_ok l -> Forall (on_data (Z.of_nat (length rs))) l ->
  exists s1, new_treg name (rq_type <$> rs) (rq_params <$> rs) s0 = (s1, Ok tt) /\
  let s := (run_events l0 s1).1 in
  (Forall (eq (Ok tt)) (run_events l s).2 ->
   NoDup (reading_regs l s) /\ length (reading_regs l s) = length (filter (fun e => is_reading e = true) l) /\
   forall x, x ∈ reading_regs l s -> x ∈ names (run_events l s).1 /\ x ∉ names s).
Proof.
  intros Hhf Hnd Hok Hl0 Hl Hon. destruct (new_treg_weak rs name s0 Hhf Hnd Hok) as (s1 & E & _ & Hw & HT & _). exists s1. split; [done|].
  cbn zeta. intros Hres. destruct (events_weak l0 s1 _ _ Hw Hl0) as (ext & Hw2 & HT2). rewrite HT in HT2. by eapply (readings_fresh ZAmp rs name l _ ext).
Qed.
Print Assumptions C57_readings.

(** ** A program on the register of [C16_ex]: XOR of two bits, with rounds in between *)
Definition ex_program : list event :=
  [ECall 0 OResetZ; ECall 1 OResetZ; ECall 0 OX; ECall 0 OStab; ECx 0 1 (Some ("XXZZ"%string, set_d empty_params (Some (DNum 3))));
   ECall 1 OStab; ECall 1 OX; ECall 1 (OReadZ None); ECall 1 OX; ECall 1 (OReadZ None); ECall 0 (OReadZ None)].
Example C57_ex :
  Forall event_ok ex_program /\ Forall (on_data (Z.of_nat (length ex_rs))) ex_program /\
  Forall (eq (Ok tt)) (run_events ex_program ex_reg).2 /\
  fst <$> compute ex_program (fun _ => None) = Some [false; true; true] /\
  reading_regs ex_program ex_reg = ["treg_1_readout_0"; "treg_1_readout_1"; "treg_0_readout_0"]%string.
Proof.
  split_and!.
  - repeat constructor. exists TXXZZ, 3, 3. split_and!; [done|reflexivity|unfold valid_size; split_and!; done || lia].
  - repeat constructor; cbn; lia || done.
  - vm_compute. repeat constructor.
  - vm_compute. reflexivity.
  - vm_compute. reflexivity.
Qed.
