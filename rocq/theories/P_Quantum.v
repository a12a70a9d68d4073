(** Properties C08-C13: what the emitted circuits do to the quantum state.
    All theorems hold for amplitudes in any [Amp] (QSem.v), all states and all outcomes. *)
From Verif Require Import QOps.
From stdpp Require Export list.
Open Scope Z_scope.

(** ** Vocabulary *)
(** The calls appended these instructions to the circuit. *)
Definition emitted (s s' : st) (is : list instr) : Prop := s_instrs s' = s_instrs s ++ is.
(** All syndrome qubits of the lattice are in |0>. *)
Definition syndromes_clean {R : Amp} (q : tqubit) (ψ : state R) : Prop :=
  forall r b, r ∈ option_list (lat_mz (tq_lat q)) ++ option_list (lat_mx (tq_lat q)) -> b ∈ reg_bits r -> clean b ψ.
(** The Pauli operator of a plaquette, from its corner qubits. *)
Definition qset (l : list (option qubit)) : gset qubit := list_to_set (omap id l).
Definition qplaq_pauli (cls : stabcls) (p : qplaq) : pauli qubit :=
  match cls with
  | SXXXX => Xon (qset [q_tl p; q_tr p; q_bl p; q_br p])
  | SZZZZ => Zon (qset [q_tl p; q_tr p; q_bl p; q_br p])
  | SXZZX => Pauli (qset [q_tl p; q_br p]) (qset [q_tr p; q_bl p])
  end.
(** The stabilizer whose value is recorded in bit i of a syndrome register: Z plaquettes
    first, then X plaquettes. *)
Definition bit_pauli (q : tqubit) (dh dw : Z) (i : Z) : pauli qubit :=
  pmap (dq (lat_name (tq_lat q)))
    (if bool_decide (i < num_syn_z dh dw) then stab_z (lat_code (tq_lat q)) dh dw i
     else stab_x (lat_code (tq_lat q)) dh dw (i - num_syn_z dh dw)).

Lemma syndromes_clean_iff {R : Amp} s q dh dw (ψ : state R) : lat_ok s q dh dw ->
  syndromes_clean q ψ <-> syn_clean (lat_name (tq_lat q)) dh dw ψ.
Proof.
  intros Hok. unfold syndromes_clean, syn_clean. rewrite (lo_lat _ _ _ _ Hok). cbn [lat_mz lat_mx the_lattice lat_name].
  split.
  - intros H [isx i] Hk. unfold is_syn in Hk. cbn in Hk. set (name := lat_name (tq_lat q)) in *.
    apply (H (if isx then mx_reg name dh dw else mz_reg name dh dw)).
    + destruct isx; apply elem_of_app; [right|left]; unfold opt_reg; cbn in *; rewrite bool_decide_eq_true_2 by lia; by left.
    + unfold reg_bits. apply elem_of_list_fmap. exists i. split; [by destruct isx|]. apply elem_of_seqZ. destruct isx; cbn in *; lia.
  - intros H r b Hr Hb. unfold reg_bits in Hb. apply elem_of_list_fmap in Hb as (i & -> & Hi%elem_of_seqZ).
    apply elem_of_app in Hr as [Hr|Hr]; unfold opt_reg in Hr; case_bool_decide; cbn in Hr; try by apply elem_of_nil in Hr.
    + apply elem_of_list_singleton in Hr as ->. apply (H (false, i)). unfold is_syn. cbn in *. lia.
    + apply elem_of_list_singleton in Hr as ->. apply (H (true, i)). unfold is_syn. cbn in *. lia.
Qed.
Definition bit_syn (dh dw i : Z) : bool * Z := if bool_decide (i < num_syn_z dh dw) then (false, i) else (true, i - num_syn_z dh dw).
Lemma bit_syn_ok dh dw i : valid_size dh dw -> 0 <= i < dh * dw - 1 -> is_syn dh dw (bit_syn dh dw i).
Proof.
  intros Hv Hi. pose proof (valid_counts _ _ Hv) as (?&?&?&Hs). unfold num_data in Hs. unfold bit_syn, is_syn. case_bool_decide; cbn; lia.
Qed.
Lemma bit_syn_cbit name dh dw T i : cbit name dh dw T (bit_syn dh dw i) = (cname name T, i).
Proof. unfold cbit, bit_syn. case_bool_decide; cbn; [done|]. f_equal. lia. Qed.
Lemma bit_pauli_syn q dh dw i : bit_pauli q dh dw i = pmap (dq (lat_name (tq_lat q))) (stabP (lat_code (tq_lat q)) dh dw (bit_syn dh dw i)).
Proof. unfold bit_pauli, stabP, bit_syn. by case_bool_decide. Qed.
Lemma syn_bit dh dw k : valid_size dh dw -> is_syn dh dw k -> exists i, 0 <= i < dh * dw - 1 /\ k = bit_syn dh dw i.
Proof.
  intros Hv Hk. pose proof (valid_counts _ _ Hv) as (?&?&?&Hs). unfold num_data in Hs. destruct k as [[] j]; unfold is_syn in Hk; cbn in Hk.
  - exists (num_syn_z dh dw + j). split; [lia|]. unfold bit_syn. rewrite bool_decide_eq_false_2 by lia. f_equal. lia.
  - exists j. split; [lia|]. unfold bit_syn. by rewrite bool_decide_eq_true_2 by lia.
Qed.

Section api.
Context {R : Amp}.
Implicit Types (k : config R).

(** One round, as seen through the API. *)
Lemma round_api s q dh dw s1 is r k0 k1 : lat_ok s q dh dw -> stabilize q s = (s1, Ok tt) -> emitted s s1 is ->
  s_regs s1 = s_regs s ++ [r] -> exec is k0 k1 -> syndromes_clean q k0.2 ->
  lat_ok s1 q dh dw /\ syndromes_clean q k1.2 /\ r_name r ∉ names s /\
  (forall i, 0 <= i < dh * dw - 1 -> stab k1.2 (bit_pauli q dh dw i) (k1.1 (r_name r, i))) /\
  (forall b, b.1 <> r_name r -> k1.1 b = k0.1 b).
Proof.
  intros Hok Hs Hem Hr He Hc. destruct (lat_ok_cnt _ _ _ _ Hok) as [n Hn]. pose proof (lo_valid _ _ _ _ Hok) as Hv.
  destruct (run_op_inv s q dh dw n OStab s1 Hok Hn Hs) as (_ & Hf & HP).
  rewrite (po_regs _ _ _ _ _ _ _ _ HP) in Hr. apply app_inv_head in Hr. injection Hr as <-. cbn [r_name].
  unfold emitted in Hem. rewrite (po_code _ _ _ _ _ _ _ _ HP) in Hem. apply app_inv_head in Hem. subst is. cbn [op_code] in He.
  rewrite (syndromes_clean_iff s _ dh dw) in Hc by done.
  destruct (round_spec _ _ _ _ Hv _ _ _ Hc He) as (H1 & H2 & _ & H4). split_and!.
  - apply HP.
  - rewrite (syndromes_clean_iff s _ dh dw) by done. exact H2.
  - exact (Hf _ (elem_of_list_here _ _)).
  - intros i Hi. rewrite bit_pauli_syn, <-(bit_syn_cbit _ dh dw). apply H1. by apply bit_syn_ok.
  - intros b Hb. apply H4. intros k Hk ->. by apply Hb.
Qed.

(** Calls that touch neither the stabilizer values nor the syndrome qubits for good:
    everything except resets and lattice readouts. *)
Definition gentle (o : op) : bool :=
  match o with OLatX | OLatZ | OResetX | OResetZ => false | _ => true end.
(** Calls that also keep the logical Z (X) value, up to the flips they request. *)
Definition z_safe (o : op) : bool := match o with OReadX _ => false | _ => gentle o end.
Definition x_safe (o : op) : bool := match o with OReadZ _ => false | _ => gentle o end.
Definition is_x (o : op) : bool := match o with OX => true | _ => false end.
Definition is_z (o : op) : bool := match o with OZ => true | _ => false end.
Definition count (f : op -> bool) (l : list op) : nat := length (filter (fun o => f o = true) l).
Lemma count_cons f o l : Nat.odd (count f (o :: l)) = xorb (f o) (Nat.odd (count f l)).
Proof.
  unfold count. rewrite filter_cons. destruct (f o) eqn:E.
  - rewrite decide_True by done. cbn [length]. rewrite Nat.odd_succ, <-Nat.negb_odd. by destruct (Nat.odd _).
  - rewrite decide_False by done. by rewrite xorb_false_l.
Qed.

Section one.
Context (c : code) (name : string) (dh dw : Z) (Hv : valid_size dh dw).
Notation LX := (pmap (dq name) (log_x c dh dw)).
Notation LZ := (pmap (dq name) (log_z c dh dw)).
Notation PK sk := (pmap (dq name) (stabP c dh dw sk)).
Lemma anti_self (Q : pauli qubit) : anti Q Q = false.
Proof. unfold anti. rewrite (dot_comm (pz Q)). apply xorb_nilpotent. Qed.
Lemma anti_pmap' (P Q : pauli Z) : anti (pmap (dq name) P) (pmap (dq name) Q) = anti P Q.
Proof. apply anti_pmap. intros ? ?. apply dq_inj. Qed.
Lemma PK_log sk : is_syn dh dw sk -> commute (PK sk) LX /\ commute (PK sk) LZ.
Proof.
  intros Hk. unfold commute. rewrite !anti_pmap'. apply logical_commute; [done|]. by apply stabP_elem.
Qed.
Lemma log_PK sk : is_syn dh dw sk -> commute LX (PK sk) /\ commute LZ (PK sk).
Proof. intros Hk. unfold commute. rewrite (anti_comm LX), (anti_comm LZ). by apply PK_log. Qed.
Lemma LZ_LX : anti LZ LX = true /\ anti LX LZ = true.
Proof. rewrite !anti_pmap', (anti_comm (log_z c dh dw)), logical_anticommute; done. Qed.

Lemma PK_op n o k0 k1 sk t : gentle o = true -> is_syn dh dw sk -> exec (op_code c name dh dw n o) k0 k1 ->
  stab k0.2 (PK sk) t -> stab k1.2 (PK sk) t.
Proof.
  intros Hg Hk He Hs. destruct (PK_log sk Hk) as [H1 H2].
  replace t with (xorb t (op_flip c name dh dw o (PK sk))).
  - eapply prop_sound; [|exact He|exact Hs]. apply op_prop; [done|apply data_only_pmap|].
    destruct o; cbn; try done. intros sk' Hk'. apply P_commute; done.
  - destruct o; cbn; rewrite ?H1, ?H2, ?xorb_false_r; try done.
Qed.
Lemma LZ_op n o k0 k1 t : z_safe o = true -> exec (op_code c name dh dw n o) k0 k1 ->
  stab k0.2 LZ t -> stab k1.2 LZ (xorb t (is_x o)).
Proof.
  intros Hg He Hs. replace (is_x o) with (op_flip c name dh dw o LZ).
  - eapply prop_sound; [|exact He|exact Hs]. apply op_prop; [done|apply data_only_pmap|].
    destruct o; cbn; try done; [|apply anti_self]. intros sk' Hk'. by apply log_PK.
  - destruct o; cbn; try done; [apply LZ_LX|apply anti_self].
Qed.
Lemma LX_op n o k0 k1 t : x_safe o = true -> exec (op_code c name dh dw n o) k0 k1 ->
  stab k0.2 LX t -> stab k1.2 LX (xorb t (is_z o)).
Proof.
  intros Hg He Hs. replace (is_z o) with (op_flip c name dh dw o LX).
  - eapply prop_sound; [|exact He|exact Hs]. apply op_prop; [done|apply data_only_pmap|].
    destruct o; cbn; try done; [|apply anti_self]. intros sk' Hk'. by apply log_PK.
  - destruct o; cbn; try done; [apply anti_self|apply LZ_LX].
Qed.
Lemma PK_ops l n k0 k1 sk t : Forall (fun o => gentle o = true) l -> is_syn dh dw sk -> exec (ops_code c name dh dw n l) k0 k1 ->
  stab k0.2 (PK sk) t -> stab k1.2 (PK sk) t.
Proof.
  intros Hg Hk. revert n k0. induction Hg as [|o l Ho Hl IH]; intros n k0 He Hs; cbn [ops_code] in He.
  - by inversion He; subst.
  - apply exec_app in He as (ka & He1 & He2). eapply IH; [exact He2|]. by eapply PK_op.
Qed.
Lemma LZ_ops l n k0 k1 t : Forall (fun o => z_safe o = true) l -> exec (ops_code c name dh dw n l) k0 k1 ->
  stab k0.2 LZ t -> stab k1.2 LZ (xorb t (Nat.odd (count is_x l))).
Proof.
  intros Hg. revert n k0 t. induction Hg as [|o l Ho Hl IH]; intros n k0 t He Hs; cbn [ops_code] in He.
  - inversion He; subst. by rewrite xorb_false_r.
  - apply exec_app in He as (ka & He1 & He2). rewrite count_cons, <-xorb_assoc. eapply IH; [exact He2|]. by eapply LZ_op.
Qed.
Lemma LX_ops l n k0 k1 t : Forall (fun o => x_safe o = true) l -> exec (ops_code c name dh dw n l) k0 k1 ->
  stab k0.2 LX t -> stab k1.2 LX (xorb t (Nat.odd (count is_z l))).
Proof.
  intros Hg. revert n k0 t. induction Hg as [|o l Ho Hl IH]; intros n k0 t He Hs; cbn [ops_code] in He.
  - inversion He; subst. by rewrite xorb_false_r.
  - apply exec_app in He as (ka & He1 & He2). rewrite count_cons, <-xorb_assoc. eapply IH; [exact He2|]. by eapply LX_op.
Qed.
Lemma clean_ops l n k0 k1 : exec (ops_code c name dh dw n l) k0 k1 -> syn_clean name dh dw k0.2 -> syn_clean name dh dw k1.2.
Proof.
  revert n k0. induction l as [|o l IH]; intros n k0 He Hs; cbn [ops_code] in He.
  - by inversion He; subst.
  - apply exec_app in He as (ka & He1 & He2). eapply IH; [exact He2|]. by eapply op_syn_clean.
Qed.
End one.

(** ** API level *)
Lemma calls_inv s q dh dw l s' is n : lat_ok s q dh dw -> has_cnt s q n -> run_ops q l s = (s', Ok tt) -> emitted s s' is ->
  is = ops_code (lat_code (tq_lat q)) (lat_name (tq_lat q)) dh dw n l /\ lat_ok s' q dh dw.
Proof.
  intros Hok Hn Hr Hem. destruct (run_ops_inv l s q dh dw n s' Hok Hn Hr) as [_ HP].
  unfold emitted in Hem. rewrite (po_code _ _ _ _ _ _ _ _ HP) in Hem. apply app_inv_head in Hem. subst is. split; [done|apply HP].
Qed.
End api.

(** * C09 *)
(** The circuit emitted for a plaquette followed by the measurement of its syndrome qubit:
    outcome m projects on the eigenspace of the plaquette operator, up to the constant factor
    2^N/2 of the unnormalised Hadamards; the syndrome qubit ends in |m>; both outcomes are
    executions. *)
Lemma qplaq_lift cls name sr p : qplaq_pauli cls (lift_plaq name sr p) = pmap (dq name) (plaq_pauli cls p).
Proof.
  assert (HQ : forall l : list (option Z), qset ((fun o : option Z => dq name <$> o) <$> l) = img (dq name) (oset l)).
  { intros l. unfold qset, oset. rewrite omap_lift. apply list_to_set_img. }
  destruct cls; cbn [qplaq_pauli plaq_pauli]; unfold pmap; cbn [px pz Xon Zon]; rewrite ?img_empty, <-?HQ; done.
Qed.
Theorem C09_plaquette (R : Amp) s q dh dw sp is : lat_ok s q dh dw -> sp ∈ lat_stabs (tq_lat q) ->
  entangle_plaq sp.1 sp.2 = Ok is ->
  exists N : nat, forall (c : cstate) (ψ : state R) (k : clbit), clean (q_syn sp.2) ψ ->
  (forall m : bool, exists k', exec (is ++ [IMeas (q_syn sp.2) k]) (c, ψ) k' /\ k'.1 k = m) /\
  (forall k', exec (is ++ [IMeas (q_syn sp.2) k]) (c, ψ) k' ->
     k'.1 = cupd c k (k'.1 k) /\
     forall b, q_syn sp.2 ∉ b ->
       k'.2 (b ⊕ bitset (negb (k'.1 k)) (q_syn sp.2)) = a0 /\
       two (k'.2 (b ⊕ bitset (k'.1 k) (q_syn sp.2))) =
         pow2 N (aadd (ψ b) (sgn (k'.1 k) (act (qplaq_pauli sp.1 sp.2) ψ b)))).
Proof.
  intros Hok Hsp His. pose proof (lo_valid _ _ _ _ Hok) as Hv.
  rewrite (lo_lat _ _ _ _ Hok), lat_stabs_syns in Hsp. apply elem_of_list_fmap in Hsp as (sk & -> & Hk%elem_of_syns).
  set (name := lat_name (tq_lat q)) in *. set (c0 := lat_code (tq_lat q)) in *.
  assert (is = compile (synq name sk) (gsP c0 name dh dw sk)) as ->.
  { unfold gsP. rewrite <-ent_compile by done. unfold ent. by rewrite His. }
  assert (Esyn : q_syn (entry c0 name dh dw sk).2 = synq name sk).
  { unfold entry. cbn [snd]. destruct (corner_of dh dw sk Hv Hk) as (r & c' & -> & _). done. }
  assert (Epl : qplaq_pauli (entry c0 name dh dw sk).1 (entry c0 name dh dw sk).2 = gpauli (gsP c0 name dh dw sk)).
  { rewrite gsP_pauli by done. unfold entry. cbn [fst snd]. rewrite qplaq_lift. f_equal. unfold stabP, clsP, geomP, stab_x, stab_z. by destruct sk.1. }
  rewrite Esyn, Epl.
  assert (Hn : synq name sk ∉ gqubits (gsP c0 name dh dw sk)) by (apply gsP_off; intros; apply synq_dq).
  exists (nX (gsP c0 name dh dw sk)). intros c ψ k Hc. split.
  - intros m. assert (HX : forall l k0, (forall i, i ∈ l -> forall q0 k, i <> IMeas q0 k) -> (forall i, i ∈ l -> exists a b, i = IH a \/ i = ICX a b) -> exists k1 : config R, exec l k0 k1).
    { induction l as [|i l IH]; intros k0 H1 H2; [exists k0; constructor|].
      destruct (H2 i ltac:(by left)) as (a & b & Hi). destruct k0 as [c1 ψ1].
      assert (exists k2 : config R, step i (c1, ψ1) k2) as [k2 Hst] by (destruct Hi as [->| ->]; eexists; constructor).
      destruct (IH k2) as [k3 He]; [intros; apply H1; by right|intros; apply H2; by right|]. exists k3. by eapply EStep. }
    destruct (HX (compile (synq name sk) (gsP c0 name dh dw sk)) (c, ψ)) as [[c1 ψ1] He].
    + intros i Hi. by eapply compile_plain.
    + intros i Hi. unfold compile in Hi. apply elem_of_list_join in Hi as (l & Hi & (g & -> & _)%elem_of_list_fmap).
      unfold group in Hi. destruct g.1.
      * repeat (apply elem_of_app in Hi as [Hi|Hi]); [apply elem_of_list_singleton in Hi as ->; eexists _, (synq name sk); by left| |apply elem_of_list_singleton in Hi as ->; eexists _, (synq name sk); by left].
        apply elem_of_list_fmap in Hi as (q' & -> & _). eexists _, _. by right.
      * apply elem_of_list_fmap in Hi as (q' & -> & _). eexists _, _. by right.
    + exists (cupd c1 k m, proj (synq name sk) m ψ1). split.
      * apply exec_app. exists (c1, ψ1). split; [done|]. eapply EStep; [constructor|constructor].
      * cbn. unfold cupd. by rewrite bool_decide_eq_true_2.
  - intros k' He. destruct (compile_measure _ _ _ _ _ _ Hn (gsP_nodup _ _ _ _ _ Hv Hk) Hc He) as (m & E1 & H2).
    assert (k'.1 k = m) as -> by (rewrite E1; unfold cupd; by rewrite bool_decide_eq_true_2). done.
Qed.
Print Assumptions C09_plaquette.

(** * C10 *)
(** Two stabilize() rounds with only non-destructive calls in between (in particular with
    nothing in between) record the same bits. *)
Theorem C10_rounds_agree (R : Amp) s q dh dw l s1 s2 s3 is1 is2 is3 r1 r3 (k0 k1 k2 k3 : config R) :
  lat_ok s q dh dw ->
  stabilize q s = (s1, Ok tt) -> run_ops q l s1 = (s2, Ok tt) -> stabilize q s2 = (s3, Ok tt) ->
  emitted s s1 is1 -> emitted s1 s2 is2 -> emitted s2 s3 is3 ->
  s_regs s1 = s_regs s ++ [r1] -> s_regs s3 = s_regs s2 ++ [r3] ->
  Forall (fun o => gentle o = true) l ->
  exec is1 k0 k1 -> exec is2 k1 k2 -> exec is3 k2 k3 -> syndromes_clean q k0.2 -> possible k3 ->
  forall i, 0 <= i < dh * dw - 1 -> k3.1 (r_name r3, i) = k1.1 (r_name r1, i).
Proof.
  intros Hok H1 H2 H3 Em1 Em2 Em3 Hr1 Hr3 Hl He1 He2 He3 Hc Hp i Hi.
  pose proof (lo_valid _ _ _ _ Hok) as Hv.
  destruct (round_api _ _ _ _ _ _ _ _ _ Hok H1 Em1 Hr1 He1 Hc) as (Hok1 & Hc1 & _ & HS1 & _).
  destruct (lat_ok_cnt _ _ _ _ Hok1) as [n Hn].
  destruct (calls_inv _ _ _ _ _ _ _ _ Hok1 Hn H2 Em2) as [-> Hok2].
  assert (Hc2 : syndromes_clean q k2.2).
  { rewrite (syndromes_clean_iff s1 _ dh dw) in Hc1 |- * by done. by eapply clean_ops. }
  destruct (round_api _ _ _ _ _ _ _ _ _ Hok2 H3 Em3 Hr3 He3 Hc2) as (_ & _ & _ & HS3 & _).
  eapply stab_unique; [by apply HS3| |exact Hp].
  specialize (HS1 i Hi). rewrite bit_pauli_syn in HS1 |- *.
  assert (Hk : is_syn dh dw (bit_syn dh dw i)) by (by apply bit_syn_ok).
  pose proof (PK_ops _ _ _ _ Hv l n k1 k2 _ _ Hl Hk He2 HS1) as HS2.
  destruct (lat_ok_cnt _ _ _ _ Hok2) as [n2 Hn2].
  destruct (run_op_inv s2 q dh dw n2 OStab s3 Hok2 Hn2 H3) as (_ & _ & HP).
  unfold emitted in Em3. rewrite (po_code _ _ _ _ _ _ _ _ HP) in Em3. apply app_inv_head in Em3. subst is3.
  by eapply (PK_op _ _ _ _ Hv n2 OStab).
Qed.
Print Assumptions C10_rounds_agree.
(** Consecutive rounds, in terms of the final classical memory. *)
Theorem C10_repeated_round (R : Amp) s q dh dw s1 s2 is r1 r2 (k0 k2 : config R) :
  lat_ok s q dh dw ->
  stabilize q s = (s1, Ok tt) -> stabilize q s1 = (s2, Ok tt) -> emitted s s2 is ->
  s_regs s2 = s_regs s ++ [r1; r2] ->
  exec is k0 k2 -> syndromes_clean q k0.2 -> possible k2 ->
  forall i, 0 <= i < dh * dw - 1 -> k2.1 (r_name r2, i) = k2.1 (r_name r1, i).
Proof.
  intros Hok H1 H2 Em Hr He Hc Hp i Hi.
  destruct (lat_ok_cnt _ _ _ _ Hok) as [n Hn].
  destruct (run_op_inv s q dh dw n OStab s1 Hok Hn H1) as (_ & _ & HP1).
  pose proof (po_ok _ _ _ _ _ _ _ _ HP1) as Hok1. pose proof (po_cnt _ _ _ _ _ _ _ _ HP1) as Hn1.
  destruct (run_op_inv s1 q dh dw _ OStab s2 Hok1 Hn1 H2) as (_ & _ & HP2).
  unfold emitted in Em. rewrite (po_code _ _ _ _ _ _ _ _ HP2), (po_code _ _ _ _ _ _ _ _ HP1), <-app_assoc in Em.
  apply app_inv_head in Em. subst is. apply exec_app in He as (k1 & He1 & He2).
  assert (s_regs s1 = s_regs s ++ [r1] /\ s_regs s2 = s_regs s1 ++ [r2]) as [Hr1 Hr2].
  { rewrite (po_regs _ _ _ _ _ _ _ _ HP2), (po_regs _ _ _ _ _ _ _ _ HP1), <-app_assoc in Hr. apply app_inv_head in Hr.
    cbn in Hr. injection Hr as <- <-. split; [apply HP1|apply HP2]. }
  transitivity (k1.1 (r_name r1, i)).
  - eapply (C10_rounds_agree R s q dh dw [] s1 s1 s2 _ [] _ r1 r2 k0 k1 k1 k2); try done.
    + exact (po_code _ _ _ _ _ _ _ _ HP1).
    + unfold emitted. by rewrite app_nil_r.
    + exact (po_code _ _ _ _ _ _ _ _ HP2).
    + constructor.
  - symmetry. eapply round_api; [exact Hok1|exact H2|exact (po_code _ _ _ _ _ _ _ _ HP2)|exact Hr2|exact He2| |].
    + eapply round_api; [exact Hok|exact H1|exact (po_code _ _ _ _ _ _ _ _ HP1)|exact Hr1|exact He1|done].
    + cbn. intros E. destruct (round_api s1 q dh dw s2 _ r2 k1 k2 Hok1 H2 (po_code _ _ _ _ _ _ _ _ HP2) Hr2 He2) as (_ & _ & Hnf & _).
      * eapply round_api; [exact Hok|exact H1|exact (po_code _ _ _ _ _ _ _ _ HP1)|exact Hr1|exact He1|done].
      * apply Hnf. unfold names. rewrite Hr1, fmap_app, elem_of_app. right. rewrite <-E. by left.
Qed.
Print Assumptions C10_repeated_round.
(** The hypothesis on the syndrome qubits holds initially and is kept by every call. *)
Theorem C10_syndromes_stay_clean (R : Amp) s q dh dw l s' is (k0 k1 : config R) :
  lat_ok s q dh dw -> run_ops q l s = (s', Ok tt) -> emitted s s' is -> exec is k0 k1 ->
  syndromes_clean q k0.2 -> syndromes_clean q k1.2.
Proof.
  intros Hok Hr Em He Hc. destruct (lat_ok_cnt _ _ _ _ Hok) as [n Hn].
  destruct (calls_inv _ _ _ _ _ _ _ _ Hok Hn Hr Em) as [-> _]. pose proof (lo_valid _ _ _ _ Hok) as Hv.
  rewrite (syndromes_clean_iff s _ dh dw) in Hc |- * by done. by eapply clean_ops.
Qed.
(** |0...0> *)
Definition zero_state {R : Amp} : state R := fun b => if bool_decide (b = ∅) then a1 else a0.
Theorem C10_initially_clean (R : Amp) q : syndromes_clean q (zero_state : state R).
Proof. intros r b _ _ X HX. unfold zero_state. rewrite bool_decide_eq_false_2; [done|]. set_solver. Qed.
Print Assumptions C10_initially_clean.
Print Assumptions C10_syndromes_stay_clean.
