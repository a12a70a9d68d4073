(** Property C55: the logical error rate of the threshold experiments. *)
From Coq Require Import QArith Qcanon.
From Verif Require Import Noisy FaultFacts Parse P_Parse P_Decode P_Sharp Degen DegenDecode P_DegenDecode P_EndToEndProb RxRef P_Logical QTotal P_CircuitFaults P_CircuitHalf.
From Coq Require Import Reals.
From stdpp Require Export list.
Open Scope Z_scope.

(** * C55 *)
(** The program of a threshold experiment (data/*/simulation.py, for instance
    data/rep_threshold/20210617/simulation.py:33-38: [reset_z], [stabilize], [id_data],
    [stabilize], [readout_z]): preparation and a first round, any calls, a last round and a
    readout.  [id_data] is where the noise model applies. *)
Definition experiment (isx : bool) (l : list op) : list op := reset_op isx :: OStab :: l ++ [OStab; read_op isx].
Definition noisy_op (o : op) : bool := match o with OStab | OX | OZ | OIdData => true | _ => false end.
(** [cond pat]: the probability of a wrong result in runs with the errors [pat].  About the
    simulator's random outcomes only this is assumed: if every outcome that can occur is decoded
    rightly (wrongly) then the probability is 0 (1). *)
Definition wrong_prob {R : Amp} (circ : list pauli1 -> list instr) (k0 : config R) (right : config R -> Prop) (M : nat) (cond : list pauli1 -> Qc) : Prop :=
  forall pat, length pat = M ->
    (0 <= cond pat <= 1)%Qc /\
    ((forall k1, exec (circ pat) k0 k1 -> possible k1 -> right k1) -> cond pat = 0%Qc) /\
    ((forall k1, exec (circ pat) k0 k1 -> possible k1 -> ~ right k1) -> cond pat = 1%Qc).
(** The logical error rate is then [expected mu M cond], [mu] being the distribution of the error
    at each of the [M] identity gates.  The probability of an error that matters, at every data
    qubit: X for Z readouts and Z for X readouts; on XZZX lattices half of the qubits have the two
    exchanged. *)
Definition flip_prob (isx : bool) (c : code) (mu : noise) (P : Qc -> Prop) : Prop := P (marginal mu (negb isx)) /\ (c = XZZX -> P (marginal mu isx)).
(** More than half of the [d] qubits of a chain. *)
Definition majority (d : Z) : nat := Z.to_nat ((d + 1) / 2).

Lemma extent_odd isx dh dw : valid_size dh dw -> exists k, 0 <= k /\ extent isx dh dw = 2 * k + 1.
Proof. intros (Ha & Hb & Hc & Hd). apply Z.odd_spec in Hc as [x Hx], Hd as [y Hy]. unfold extent. destruct isx; [exists y|exists x]; lia. Qed.
(** ** Decoders *)
(** What C26 and C46 show of a decoder. *)
Definition corrects (isx : bool) (c : code) (dh dw T : Z) (dec : string -> res Z) : Prop :=
  forall cs names last base flips v,
    Z.of_nat (length names) - 1 <= T -> faults_within isx dh dw (Z.of_nat (length names)) flips [] ->
    reported isx c dh dw base flips [] (recorded cs names) ->
    cs (last, 0) = xorb v (logical_flip isx c dh dw flips) ->
    Z.of_nat (length flips) <= (extent isx dh dw - 1) / 2 ->
    dec (counts_key cs (((., dh * dw - 1) <$> names) ++ [(last, 1)])) = Ok (Z.b2z v).
Lemma corrects_plain isx c dh dw T D rx ep : valid_size dh dw -> 1 < dh * dw -> decoder_for isx dh dw T D -> rx_ok rx ->
  corrects isx c dh dw T (fun key => correct_readout rx D ep key isx).
Proof.
  intros Hv H1 HD Hrx cs names last base flips v HN Hf Hrep Hl Hw. eapply C26_corrects; [done|done|exact HD|done|done|exact Hf|exact Hrep|done|]. cbn [length]. lia.
Qed.
Lemma corrects_weighted isx c dh dw T D rx p : valid_size dh dw -> 1 < dh * dw -> decoder_for isx dh dw T D -> rx_ok rx -> small_prob isx dh dw D p ->
  corrects isx c dh dw T (fun key => correct_readout_p rx D (Some p) key isx).
Proof.
  intros Hv H1 HD Hrx (Hpr & g & rho & Hg & Hb & Hrare) cs names last base flips v HN Hf Hrep Hl Hw.
  eapply C46_corrects; [done|done|exact HD|exact Hg|done|done|exact Hb|exact Hrare|done|exact Hf|exact Hrep|done|]. cbn [length]. lia.
Qed.

Lemma reported_perm isx c dh dw base f1 f2 rounds : f1 ≡ₚ f2 -> reported isx c dh dw base f1 [] rounds -> reported isx c dh dw base f2 [] rounds.
Proof. intros Hp H s r loc Hs Hl. rewrite (H s r loc Hs Hl). unfold SpecFault.syn_bit. do 2 f_equal. apply xorl_perm. by rewrite Hp. Qed.
Lemma logical_flip_perm isx c dh dw f1 f2 : f1 ≡ₚ f2 -> logical_flip isx c dh dw f1 = logical_flip isx c dh dw f2.
Proof. intros Hp. apply xorl_perm. by rewrite Hp. Qed.
Lemma corrects_majority isx c dh dw T dec cs names last base j t (F : list Z) v :
  valid_size dh dw -> corrects isx c dh dw T dec -> 0 <= j < n_chains isx dh dw -> NoDup F -> (forall i, i ∈ F -> i ∈ chain isx dh dw j) ->
  (majority (extent isx dh dw) <= length F)%nat ->
  Z.of_nat (length names) - 1 <= T -> faults_within isx dh dw (Z.of_nat (length names)) ((t,.) <$> F) [] ->
  reported isx c dh dw base ((t,.) <$> F) [] (recorded cs names) ->
  cs (last, 0) = xorb v (logical_flip isx c dh dw ((t,.) <$> F)) ->
  dec (counts_key cs (((., dh * dw - 1) <$> names) ++ [(last, 1)])) = Ok (Z.b2z (negb v)).
Proof.
  intros Hv Hdec Hj Hnd HF Hm HN Hw Hrep Hlast. set (S := list_to_set F : gset Z).
  assert (HS : F ≡ₚ elements S) by (symmetry; by apply elements_list_to_set).
  assert (HSC : S ⊆ chain isx dh dw j) by (intros i Hi; apply HF; by apply elem_of_list_to_set in Hi).
  assert (HP : ((t,.) <$> F) ≡ₚ ((t,.) <$> elements S)) by (by rewrite HS at 1).
  assert (Hsz : size S = length F) by (unfold S; by rewrite size_list_to_set).
  destruct (extent_odd isx dh dw Hv) as (e & He0 & He).
  assert (HF0 : F <> []) by (destruct F; [|done]; unfold majority in Hm; cbn [length] in Hm; rewrite He in Hm; zmod).
  assert (Ht : 0 <= t < Z.of_nat (length names) - 1).
  { destruct F as [|i F]; [done|]. destruct (proj1 Hw (t, i)) as [Ht _]; [rewrite fmap_cons; left|done]. }
  eapply (Hdec cs names last base ((t,.) <$> elements (chain isx dh dw j ∖ S)) (negb v)); [done| | | |].
  - split; [|by intros m []%elem_of_nil]. intros f (i & -> & Hi)%elem_of_list_fmap. split; [done|]. cbn [snd]. apply elem_of_elements, elem_of_difference in Hi as [Hi _]. by eapply chain_data.
  - apply rest_reported; [done|done|]. by eapply reported_perm.
  - rewrite Hlast, (logical_flip_perm _ _ _ _ _ _ HP), (rest_flip isx c dh dw j t S) by done. destruct v, (logical_flip isx c dh dw ((t,.) <$> elements (chain isx dh dw j ∖ S))); done.
  - rewrite fmap_length. change (length (elements (chain isx dh dw j ∖ S))) with (size (chain isx dh dw j ∖ S)). rewrite size_difference by done. pose proof (chain_size isx dh dw j Hv Hj) as E.
    pose proof (subseteq_size _ _ HSC). unfold majority in Hm. rewrite Hsz, He in *. zmod.
Qed.

(** ** What a noisy run leaves to be decoded *)
Lemma noisy_op_body dh dw l pat : 0 < dh * dw -> Forall (fun o => noisy_op o = true) l -> Forall (body_ev dh dw) (noisy_evs (dh * dw) l pat).
Proof.
  intros Hn Hl. revert pat. induction Hl as [|o l Ho Hl IHl]; intros pat; [constructor|].
  destruct o; try done; cbn [noisy_evs]; constructor; try done. apply Forall_app. split; [|apply IHl].
  unfold block_evs. assert (HL : Forall (fun i => 0 <= i < dh * dw) (seqZ 0 (dh * dw))) by (apply list.Forall_forall; intros i Hi%elem_of_seqZ; lia).
  revert HL. generalize (seqZ 0 (dh * dw)), (take (Z.to_nat (dh * dw)) pat). clear. intros L. induction L as [|i L IHL]; intros [|a p] HL; try constructor.
  apply Forall_cons_1 in HL as [Hi HL]. cbn [zip_with mjoin list_join]. apply Forall_app. split; [destruct a as [[] []]; cbn; repeat constructor; cbn; lia|by apply IHL].
Qed.
Lemma experiment_ok isx l : Forall (fun o => noisy_op o = true) l -> Forall (fun o => noise_ok o = true) (experiment isx l).
Proof.
  intros Hl. unfold experiment. constructor; [by destruct isx|]. constructor; [done|]. apply Forall_app. split.
  - eapply Forall_impl; [exact Hl|]. by intros [].
  - constructor; [done|]. constructor; [by destruct isx|constructor].
Qed.
Lemma experiment_blocks isx l : blocks (experiment isx l) = blocks l.
Proof.
  unfold experiment. rewrite !blocks_cons, blocks_app. assert (blocks [OStab; read_op isx] = 0%nat) as -> by (by destruct isx).
  destruct isx; cbn [reset_op is_id_data]; lia.
Qed.
Lemma experiment_noisy isx n l pat : length pat = (blocks l * Z.to_nat n)%nat ->
  noisy_evs n (experiment isx l) pat = Noise.Call (reset_op isx) :: Noise.Call OStab :: noisy_evs n l pat ++ [Noise.Call OStab; Noise.Call (read_op isx)].
Proof.
  intros Hp. unfold experiment.
  assert (E : noisy_evs n (reset_op isx :: OStab :: l ++ [OStab; read_op isx]) pat = Noise.Call (reset_op isx) :: Noise.Call OStab :: noisy_evs n (l ++ [OStab; read_op isx]) pat) by (by destruct isx).
  rewrite E, noisy_evs_app, <-Hp, firstn_all, skipn_all. do 3 f_equal. by destruct isx.
Qed.
Lemma run_code s q dh dw n l s' is : lat_ok s q dh dw -> has_cnt s q n -> run_evs q l s = (s', Ok tt) -> emitted s s' is ->
  is = evs_code (lat_code (tq_lat q)) (lat_name (tq_lat q)) dh dw n l.
Proof.
  intros Hok Hn Hr Hem. pose proof (run_evs_inv _ _ _ _ _ _ _ Hok Hn Hr) as HP. unfold emitted in Hem. rewrite (po_code _ _ _ _ _ _ _ _ HP) in Hem. by apply app_inv_head in Hem.
Qed.
(** The number of identity gates. *)
Lemma experiment_places isx s q dh dw l s' is : lat_ok s q dh dw -> run_evs q (Noise.Call <$> experiment isx l) s = (s', Ok tt) -> emitted s s' is ->
  Forall (fun o => noisy_op o = true) l -> places is = (blocks l * Z.to_nat (dh * dw))%nat.
Proof.
  intros Hok Hr Hem Hl. destruct (lat_ok_cnt _ _ _ _ Hok) as [n Hn]. rewrite (run_code _ _ _ _ _ _ _ _ Hok Hn Hr Hem).
  rewrite ops_places, experiment_blocks; [done|by eapply lo_valid|by apply experiment_ok].
Qed.
Lemma noisy_record (R : Amp) isx s q dh dw l s' is (k0 k1 : config R) pat n :
  lat_ok s q dh dw -> has_cnt s q n -> cregs s = [] ->
  run_evs q (Noise.Call <$> experiment isx l) s = (s', Ok tt) -> emitted s s' is -> Forall (fun o => noisy_op o = true) l ->
  syndromes_clean q k0.2 -> length pat = (blocks l * Z.to_nat (dh * dw))%nat -> exec (noisy is pat) k0 k1 -> possible k1 ->
  let c := lat_code (tq_lat q) in let N := 2 + Z.of_nat (count is_stab l) in
  let names := round_regs (lat_name (tq_lat q)) n N in let last := rdname (lat_name (tq_lat q)) (cR n + 1) in
  let flips := flips_of isx c dh dw 0 (noisy_evs (dh * dw) l pat) in
  cregs s' = ((., dh * dw - 1) <$> names) ++ [(last, 1)] /\ Z.of_nat (length names) = N /\
  faults_within isx dh dw N flips [] /\
  (exists base, reported isx c dh dw base flips [] (recorded k1.1 names)) /\
  k1.1 (last, 0) = xorb (Nat.odd (count (inverts isx) l)) (logical_flip isx c dh dw flips).
Proof.
  intros Hok Hn Hcr Hr Hem Hl Hcl Hpat He Hp c N names last flips. pose proof (lo_valid _ _ _ _ Hok) as Hv.
  assert (Hpos : 0 < dh * dw) by (unfold valid_size in Hv; nia).
  destruct (noisy_run q dh dw (experiment isx l) pat s s s' n Hok Hn Hok Hn eq_refl Hr) as (t' & Ht & Hreg).
  assert (Hcregs : cregs t' = cregs s') by (unfold cregs; by rewrite Hreg).
  pose proof (run_evs_inv _ _ _ _ _ _ _ Hok Hn Ht) as HPt.
  assert (Hemt : emitted s t' (evs_code c (lat_name (tq_lat q)) dh dw n (noisy_evs (dh * dw) (experiment isx l) pat))) by exact (po_code _ _ _ _ _ _ _ _ HPt).
  rewrite (run_code _ _ _ _ _ _ _ _ Hok Hn Hr Hem) in He. fold c in He.
  apply (exec_same _ (evs_code c (lat_name (tq_lat q)) dh dw n (noisy_evs (dh * dw) (experiment isx l) pat))) in He; [|by apply noisy_code, experiment_ok].
  rewrite experiment_noisy in Ht, Hemt, He by done.
  assert (Hlast : exists rs rd, cregs s' = rs ++ [rd]).
  { assert (E : evs_reg (lat_name (tq_lat q)) dh dw n (Noise.Call <$> experiment isx l) <> []) by (by destruct isx).
    pose proof (run_evs_inv _ _ _ _ _ _ _ Hok Hn Hr) as HP. 
    assert (Hne : cregs s' <> []).
    { rewrite (cregs_app s s' _ (po_regs _ _ _ _ _ _ _ _ HP)), Hcr. cbn [app].
      assert (E2 : evs_reg (lat_name (tq_lat q)) dh dw n (Noise.Call <$> experiment isx l) = Reg false (cname (lat_name (tq_lat q)) (cT n + 1)) (num_syn_x dh dw + num_syn_z dh dw) :: evs_reg (lat_name (tq_lat q)) dh dw (op_next n OStab) (Noise.Call <$> l ++ [OStab; read_op isx])) by (by destruct isx).
      rewrite E2, filter_cons_True by done. by rewrite fmap_cons. }
    destruct (cregs s') as [|x L] eqn:EL using rev_ind; [done|]. eauto. }
  destruct Hlast as (rs & rd & Hrs). rewrite <-Hcregs in Hrs.
  assert (Hobs : observed isx dh dw rs.*1 [] k1.1 k1.1) by (intros u nm loc _ _; cbn; by rewrite xorb_false_r).
  destruct (logical_record R isx s q dh dw (noisy_evs (dh * dw) l pat) t' _ k0 k1 rs rd [] k1.1 n Hok Hn Hcr Ht Hemt (noisy_op_body _ _ _ _ Hpos Hl) Hcl He Hp Hrs Hobs eq_refl) as (HN & Hall & HL & Hf & Hrep & Hlast).
  { by intros m []%elem_of_nil. }
  rewrite calls_noisy in HN, Hlast. rewrite <-Hcregs. rewrite HN in *. split_and!; [exact Hall|exact HL|exact Hf|by eexists|exact Hlast].
Qed.

Lemma sub_NoDup {A} (l1 l2 : list A) : l1 `sublist_of` l2 -> NoDup l2 -> NoDup l1.
Proof.
  induction 1 as [|x l1 l2 Hs IHl|x l1 l2 Hs IHl]; [done| |].
  - rewrite !NoDup_cons. intros [Hx Hn]. split; [|by apply IHl]. intros Hi. apply Hx. eapply elem_of_submseteq; [exact Hi|by apply sublist_submseteq].
  - rewrite NoDup_cons. intros [_ Hn]. by apply IHl.
Qed.
Lemma const_list {A} (x : A) l : Forall (eq x) l -> replicate (length l) x = l.
Proof. induction 1 as [|y l <- Hl IHl]; [done|]. cbn [length replicate]. by rewrite IHl. Qed.
(** ** The two bounds for one error pattern *)
Section bounds.
Context (R : Amp) (isx : bool) (s : st) (q : tqubit) (dh dw : Z) (l : list op) (s' : st) (is : list instr) (k0 : config R) (T : Z) (dec : string -> res Z).
Notation c := (lat_code (tq_lat q)).
Notation v := (Nat.odd (count (inverts isx) l)).
Hypothesis (Hok : lat_ok s q dh dw) (H1 : 1 < dh * dw) (Hcr : cregs s = []).
Hypothesis (Hr : run_evs q (Noise.Call <$> experiment isx l) s = (s', Ok tt)) (Hem : emitted s s' is) (Hl : Forall (fun o => noisy_op o = true) l).
Hypothesis (Hcl : syndromes_clean q k0.2) (HT : 1 + Z.of_nat (count is_stab l) <= T) (Hdec : corrects isx c dh dw T dec).
Notation right k1 := (dec (counts_key k1.1 (cregs s')) = Ok (Z.b2z v)).

Lemma few_right pat : length pat = (blocks l * Z.to_nat (dh * dw))%nat ->
  (ntrue (relevant (sels isx c dh dw (blocks l)) pat) < majority (extent isx dh dw))%nat ->
  forall k1, exec (noisy is pat) k0 k1 -> possible k1 -> right k1.
Proof.
  intros Hpat Hw k1 He Hp. destruct (lat_ok_cnt _ _ _ _ Hok) as [n Hn].
  destruct (noisy_record R isx s q dh dw l s' is k0 k1 pat n Hok Hn Hcr Hr Hem Hl Hcl Hpat He Hp) as (-> & HL & Hf & (base & Hrep) & Hlast).
  eapply Hdec; [rewrite HL; lia|rewrite HL; exact Hf|exact Hrep|exact Hlast|]. rewrite noisy_flips_length by done.
  destruct (extent_odd isx dh dw (lo_valid _ _ _ _ Hok)) as (e & He0 & Ee). unfold majority in Hw. rewrite Ee in *. zmod.
Qed.
Lemma many_wrong k j pat : blocks l = S k -> 0 <= j < n_chains isx dh dw -> length pat = (blocks l * Z.to_nat (dh * dw))%nat ->
  confined (((fun i => bool_decide (i ∈ chain isx dh dw j)) <$> seqZ 0 (dh * dw)) ++ replicate (k * Z.to_nat (dh * dw)) false) (relevant (sels isx c dh dw (blocks l)) pat) = true ->
  (majority (extent isx dh dw) <= ntrue (relevant (sels isx c dh dw (blocks l)) pat))%nat ->
  forall k1, exec (noisy is pat) k0 k1 -> possible k1 -> ~ right k1.
Proof.
  intros Hk Hj Hpat Hin Hw k1 He Hp. destruct (lat_ok_cnt _ _ _ _ Hok) as [n Hn].
  destruct (noisy_record R isx s q dh dw l s' is k0 k1 pat n Hok Hn Hcr Hr Hem Hl Hcl Hpat He Hp) as (-> & HL & Hf & (base & Hrep) & Hlast).
  rewrite Hk in Hpat, Hin, Hw.
  destruct (noisy_flips_first isx c dh dw _ k l pat 0 Hk Hpat Hin) as (t & F & EF & Hsub & HF & HlF). rewrite EF in *.
  rewrite (corrects_majority isx c dh dw T dec k1.1 _ _ base j t F v); [| | |exact Hj| | | | |rewrite HL; exact Hf|exact Hrep|exact Hlast].
  - destruct v; discriminate.
  - by apply lo_valid in Hok.
  - done.
  - eapply sub_NoDup; [exact Hsub|apply NoDup_seqZ].
  - intros i Hi. apply HF in Hi. by apply bool_decide_eq_true in Hi.
  - rewrite HlF. exact Hw.
  - rewrite HL. lia.
Qed.

(** ** Rates *)
Context (mu : noise) (cond : list pauli1 -> Qc).
Hypothesis (Hmu : is_noise mu) (Hcond : wrong_prob (noisy is) k0 (fun k1 => right k1) (places is) cond).
Notation M := (blocks l * Z.to_nat (dh * dw))%nat.
Lemma M_eq : places is = M. Proof. by eapply experiment_places. Qed.
Lemma sel_prob P i : flip_prob isx c mu P -> P (marginal mu (sel isx c dh dw i)).
Proof.
  intros [HP1 HP2]. destruct c eqn:Ec.
  - assert (sel isx XXZZ dh dw i = negb isx) as -> by (unfold sel, err_at, cconj; destruct isx; [apply bool_decide_false; intros E; symmetry in E; by apply XZ_neq in E|by apply bool_decide_true]). done.
  - specialize (HP2 eq_refl). destruct (sel _ _ _ _ _), isx; done.
Qed.
Lemma sels_prob P k : flip_prob isx c mu P -> Forall P (marginal mu <$> sels isx c dh dw k).
Proof.
  intros HP. induction k as [|k IHk]; [constructor|]. cbn [sels]. rewrite fmap_app. apply Forall_app. split; [|done].
  apply Forall_fmap, Forall_fmap, list.Forall_forall. intros i _. unfold compose. by apply sel_prob.
Qed.
Lemma rate_tail : (expected mu (places is) cond <= at_least (marginal mu <$> sels isx c dh dw (blocks l)) (majority (extent isx dh dw)))%Qc.
Proof.
  unfold at_least. rewrite <-expected_relevant, sels_length, M_eq by done. apply expected_le; [done|]. intros pat Hpat.
  destruct (Hcond pat) as ((_ & Hle) & H0 & _); [by rewrite M_eq|].
  destruct (Nat.leb_spec (majority (extent isx dh dw)) (ntrue (relevant (sels isx c dh dw (blocks l)) pat))) as [Hm|Hm]; cbn [ind]; [done|].
  rewrite H0; [apply Qcle_refl|]. intros k1 He Hp. by eapply few_right.
Qed.
Lemma rate_chain k j x : blocks l = S k -> 0 <= j < n_chains isx dh dw -> flip_prob isx c mu (eq x) ->
  ((1 - x) ^ (M - Z.to_nat (extent isx dh dw)) * binom_tail (Z.to_nat (extent isx dh dw)) (majority (extent isx dh dw)) x <= expected mu (places is) cond)%Qc.
Proof.
  intros Hk Hj Hx. pose proof (lo_valid _ _ _ _ Hok) as Hv. rewrite M_eq. set (mask := ((fun i => bool_decide (i ∈ chain isx dh dw j)) <$> seqZ 0 (dh * dw)) ++ replicate (k * Z.to_nat (dh * dw)) false).
  assert (Hlen : length mask = M) by (unfold mask; rewrite app_length, fmap_length, seqZ_length, replicate_length, Hk; lia).
  assert (Hnt : ntrue mask = Z.to_nat (extent isx dh dw)).
  { unfold mask. rewrite ntrue_app. assert (E0 : forall a, ntrue (replicate a false) = 0%nat) by (clear; intros a; induction a as [|a IHa]; [done|]; cbn [replicate]; by rewrite ntrue_cons, IHa).
    rewrite E0, Nat.add_0_r, <-(chain_size isx dh dw j Hv Hj), Nat2Z.id.
    assert (E1 : forall L, ntrue ((fun i => bool_decide (i ∈ chain isx dh dw j)) <$> L) = length (filter (fun i => i ∈ chain isx dh dw j) L)).
    { clear. intros L. induction L as [|i L IHL]; [done|]. rewrite fmap_cons, ntrue_cons, filter_cons, IHL. case_bool_decide; [by rewrite decide_True by done|by rewrite decide_False by done]. }
    rewrite E1. assert (E2 : filter (fun i => i ∈ chain isx dh dw j) (seqZ 0 (dh * dw)) ≡ₚ elements (chain isx dh dw j)).
    { apply NoDup_Permutation; [apply NoDup_filter, NoDup_seqZ|apply NoDup_elements|]. intros i. rewrite elem_of_list_filter, elem_of_seqZ, elem_of_elements. split; [naive_solver|]. intros Hi. split; [done|]. pose proof (chain_data _ _ _ _ _ Hi). lia. }
    rewrite E2. done. }
  rewrite <-Hnt, <-Hlen, <-confined_binom.
  assert (Eq : replicate (length mask) x = marginal mu <$> sels isx c dh dw (blocks l)).
  { rewrite Hlen, <-(sels_length isx c dh dw). pose proof (sels_prob _ (blocks l) Hx) as HF. rewrite <-(fmap_length (marginal mu)). by apply const_list. }
  rewrite Eq, <-expected_relevant, sels_length, <-Hlen by done. apply expected_le; [done|]. intros pat Hpat.
  destruct (Hcond pat) as ((H0 & _) & _ & HC1); [by rewrite M_eq, <-Hlen|]. rewrite Hlen in Hpat.
  destruct (confined mask (relevant (sels isx c dh dw (blocks l)) pat)) eqn:Hin; cbn [andb]; [|done].
  destruct (Nat.leb_spec (majority (extent isx dh dw)) (ntrue (relevant (sels isx c dh dw (blocks l)) pat))) as [Hm|Hm]; cbn [ind]; [|done].
  rewrite HC1; [apply Qcle_refl|]. intros k1 He Hp. by eapply many_wrong.
Qed.
Lemma rate_upper : 
  (forall x, flip_prob isx c mu (eq x) -> expected mu (places is) cond <= binom_tail M (majority (extent isx dh dw)) x)%Qc /\
  (forall x, flip_prob isx c mu (fun y => y <= x) -> expected mu (places is) cond <= qnat (binom M (majority (extent isx dh dw))) * x ^ majority (extent isx dh dw))%Qc.
Proof.
  split; intros x Hx; (eapply Qcle_trans; [apply rate_tail|]).
  - rewrite <-tail_binom, <-(sels_length isx c dh dw). rewrite <-(fmap_length (marginal mu)). rewrite (const_list x (marginal mu <$> sels isx c dh dw (blocks l))); [apply Qcle_refl|by apply sels_prob].
  - rewrite <-(sels_length isx c dh dw), <-(fmap_length (marginal mu)). apply tail_bound.
    + apply Forall_fmap, list.Forall_forall. intros b _. unfold compose. by apply marginal_range.
    + by apply sels_prob.
    + eapply Qcle_trans; [|exact (proj1 Hx)]. by apply marginal_range.
Qed.
End bounds.

(** ** The theorems *)
(** A threshold experiment: a fresh lattice, the program above, a decoder made for the lattice and
    enough rounds, and the noise. *)
Record trial (A : Amp) (isx : bool) (s : st) (q : tqubit) (dh dw : Z) (l : list op) (s' : st) (is : list instr) (k0 : config A) (T : Z) (D : decoder) (rx : retworkx) (mu : noise) : Prop := {
  tr_lat : lat_ok s q dh dw;
  tr_size : 1 < dh * dw;
  tr_new : cregs s = [];
  tr_run : run_evs q (Noise.Call <$> experiment isx l) s = (s', Ok tt);
  tr_circ : emitted s s' is;
  tr_ops : Forall (fun o => noisy_op o = true) l;
  tr_start : syndromes_clean q k0.2;
  tr_dec : decoder_for isx dh dw T D;
  tr_T : 1 + Z.of_nat (count is_stab l) <= T;
  tr_rx : rx_ok rx;
  tr_noise : is_noise mu }.
(** The result is right if the value decoded from the counts key is the one the logical gates
    called lead to. *)
Definition decodes {A : Amp} (isx : bool) (l : list op) (s' : st) (D : decoder) (rx : retworkx) (ep : err_plain) (k1 : config A) : Prop :=
  correct_readout rx D ep (counts_key k1.1 (cregs s')) isx = Ok (Z.b2z (Nat.odd (count (inverts isx) l))).
Definition decodes_p {A : Amp} (isx : bool) (l : list op) (s' : st) (D : decoder) (rx : retworkx) (p : R) (k1 : config A) : Prop :=
  correct_readout_p rx D (Some p) (counts_key k1.1 (cregs s')) isx = Ok (Z.b2z (Nat.odd (count (inverts isx) l))).
Definition dist (isx : bool) (dh dw : Z) : nat := Z.to_nat (extent isx dh dw).

(** There is one identity gate per data qubit and [id_data] call.  The logical error rate is at
    most the probability that a majority of [d] of these [M] places has an error that matters: it
    vanishes with the power (d+1)/2 of the physical error rate. *)
Theorem C55_upper (A : Amp) isx s q dh dw l s' is (k0 : config A) T D rx mu ep cond :
  trial A isx s q dh dw l s' is k0 T D rx mu ->
  wrong_prob (noisy is) k0 (decodes isx l s' D rx ep) (places is) cond ->
  let M := places is in let m := majority (extent isx dh dw) in let rate := expected mu M cond in
  M = (count is_id_data l * Z.to_nat (dh * dw))%nat /\
  (forall x, flip_prob isx (lat_code (tq_lat q)) mu (eq x) -> rate <= binom_tail M m x)%Qc /\
  (forall x, flip_prob isx (lat_code (tq_lat q)) mu (fun y => y <= x) -> rate <= qnat (binom M m) * x ^ m)%Qc.
Proof.
  intros [Hok H1 Hcr Hr Hem Hl Hcl HD HT Hrx Hmu] Hc M m rate.
  assert (HM : M = (blocks l * Z.to_nat (dh * dw))%nat) by (by eapply experiment_places).
  assert (Hdec : corrects isx (lat_code (tq_lat q)) dh dw T (fun key => correct_readout rx D ep key isx)) by (apply corrects_plain; try done; by eapply lo_valid).
  destruct (rate_upper A isx s q dh dw l s' is k0 T (fun key => correct_readout rx D ep key isx) Hok H1 Hcr Hr Hem Hl Hcl HT Hdec mu cond Hmu Hc) as [HU1 HU2].
  rewrite <-HM in HU1, HU2. split; [exact HM|]. split; [exact HU1|exact HU2].
Qed.
Print Assumptions C55_upper.
(** It is at least the probability that the errors that matter are all on one chain and a majority
    of it: the power (d+1)/2 is exact. *)
Theorem C55_lower (A : Amp) isx s q dh dw l s' is (k0 : config A) T D rx mu ep cond x :
  trial A isx s q dh dw l s' is k0 T D rx mu ->
  wrong_prob (noisy is) k0 (decodes isx l s' D rx ep) (places is) cond ->
  OIdData ∈ l -> flip_prob isx (lat_code (tq_lat q)) mu (eq x) ->
  let M := places is in let d := dist isx dh dw in
  ((1 - x) ^ (M - d) * binom_tail d (majority (extent isx dh dw)) x <= expected mu M cond)%Qc.
Proof.
  intros [Hok H1 Hcr Hr Hem Hl Hcl HD HT Hrx Hmu] Hc Hin Hx M d.
  assert (HM : M = (blocks l * Z.to_nat (dh * dw))%nat) by (by eapply experiment_places).
  destruct (blocks l) as [|k] eqn:Hk.
  { exfalso. unfold blocks in Hk. apply nil_length_inv in Hk. apply (elem_of_nil OIdData). rewrite <-Hk. by apply elem_of_list_filter. }
  rewrite HM at 1. rewrite <-Hk. pose proof (lo_valid _ _ _ _ Hok) as Hv.
  eapply (rate_chain A isx s q dh dw l s' is k0 T (fun key => correct_readout rx D ep key isx)) with (k := k) (j := 0); try done.
  - by apply corrects_plain.
  - unfold valid_size in Hv. destruct isx; cbn; lia.
Qed.
Print Assumptions C55_lower.
(** The same for decoding with a small error probability. *)
Theorem C55_weighted (A : Amp) isx s q dh dw l s' is (k0 : config A) T D rx mu p cond :
  trial A isx s q dh dw l s' is k0 T D rx mu -> small_prob isx dh dw D p ->
  wrong_prob (noisy is) k0 (decodes_p isx l s' D rx p) (places is) cond ->
  let M := places is in let d := dist isx dh dw in let m := majority (extent isx dh dw) in let rate := expected mu M cond in
  (forall x, flip_prob isx (lat_code (tq_lat q)) mu (eq x) -> rate <= binom_tail M m x)%Qc /\
  (forall x, flip_prob isx (lat_code (tq_lat q)) mu (fun y => y <= x) -> rate <= qnat (binom M m) * x ^ m)%Qc /\
  (forall x, OIdData ∈ l -> flip_prob isx (lat_code (tq_lat q)) mu (eq x) -> (1 - x) ^ (M - d) * binom_tail d m x <= rate)%Qc.
Proof.
  intros [Hok H1 Hcr Hr Hem Hl Hcl HD HT Hrx Hmu] Hp Hc M d m rate. pose proof (lo_valid _ _ _ _ Hok) as Hv.
  assert (HM : M = (blocks l * Z.to_nat (dh * dw))%nat) by (by eapply experiment_places).
  assert (Hdec : corrects isx (lat_code (tq_lat q)) dh dw T (fun key => correct_readout_p rx D (Some p) key isx)) by (by apply corrects_weighted).
  destruct (rate_upper A isx s q dh dw l s' is k0 T (fun key => correct_readout_p rx D (Some p) key isx) Hok H1 Hcr Hr Hem Hl Hcl HT Hdec mu cond Hmu Hc) as [HU1 HU2].
  rewrite <-HM in HU1, HU2. split; [exact HU1|]. split; [exact HU2|]. intros x Hin Hx.
  destruct (blocks l) as [|k] eqn:Hk.
  { exfalso. unfold blocks in Hk. apply nil_length_inv in Hk. apply (elem_of_nil OIdData). rewrite <-Hk. by apply elem_of_list_filter. }
  rewrite HM at 1. rewrite <-Hk.
  eapply (rate_chain A isx s q dh dw l s' is k0 T (fun key => correct_readout_p rx D (Some p) key isx)) with (k := k) (j := 0); try done.
  unfold valid_size in Hv. destruct isx; cbn; lia.
Qed.
Print Assumptions C55_weighted.

(** The experiment on a repetition code of distance [d] with one [id_data] call and errors of
    probability [x], and its logical error rate [r]. *)
Definition rep_rate (d : Z) (x r : Qc) : Prop :=
  exists (A : Amp) isx s q dh dw l s' is (k0 : config A) T D rx mu ep cond,
    trial A isx s q dh dw l s' is k0 T D rx mu /\ wrong_prob (noisy is) k0 (decodes isx l s' D rx ep) (places is) cond /\
    n_chains isx dh dw = 1 /\ extent isx dh dw = d /\ count is_id_data l = 1%nat /\
    flip_prob isx (lat_code (tq_lat q)) mu (eq x) /\ r = expected mu (places is) cond.
(** The decoder takes a majority vote: the rate is the binomial tail. *)
Theorem C55_repetition d x r : rep_rate d x r -> r = binom_tail (Z.to_nat d) (majority d) x.
Proof.
  intros (A & isx & s & q & dh & dw & l & s' & is & k0 & T & D & rx & mu & ep & cond & Ht & Hc & Hn & <- & Hb & Hx & ->).
  assert (Hnd : dh * dw = extent isx dh dw) by (unfold n_chains, extent in *; destruct isx; lia).
  destruct (C55_upper _ _ _ _ _ _ _ _ _ _ _ _ _ _ _ _ Ht Hc) as (HM & HU & _). rewrite Hb, Nat.mul_1_l, Hnd in HM. specialize (HU x Hx).
  assert (Hin : OIdData ∈ l).
  { unfold count in Hb. destruct (filter (fun o => is_id_data o = true) l) as [|o l'] eqn:E; [done|].
    assert (Ho : o ∈ filter (fun o => is_id_data o = true) l) by (rewrite E; left). apply elem_of_list_filter in Ho as [Ho Hi]. by destruct o. }
  pose proof (C55_lower _ _ _ _ _ _ _ _ _ _ _ _ _ _ _ _ x Ht Hc Hin Hx) as HL. cbn zeta in HL. unfold dist in HL. rewrite HM in *. rewrite Nat.sub_diag in HL. cbn [Qcpower] in HL. rewrite Qcmult_1_l in HL.
  by apply Qcle_antisym.
Qed.
Print Assumptions C55_repetition.

(** ** The threshold of the repetition code *)
Lemma binom_sym_add a : forall b, binom (a + b) a = binom (a + b) b.
Proof.
  induction a as [|a IHa]; intros b; [cbn [Nat.add]; by rewrite binom_0, binom_nn|].
  induction b as [|b IHb]; [rewrite Nat.add_0_r, binom_0; apply binom_nn|].
  change (S a + S b)%nat with (S (a + S b)). cbn [binom]. rewrite (IHa (S b)). replace (a + S b)%nat with (S a + b)%nat by lia. rewrite IHb. lia.
Qed.
(** From distance d to d + 2 the rate changes by a multiple of 2 x - 1. *)
Lemma tail_two k x : (binom_tail (2 * k + 3) (k + 2) x - binom_tail (2 * k + 1) (k + 1) x = qnat (binom (2 * k + 1) k) * (x * (1 - x)) ^ (k + 1) * (x + x - 1))%Qc.
Proof.
  replace (2 * k + 3)%nat with (S (S (2 * k + 1))) by lia. replace (k + 2)%nat with (S (S k)) by lia. replace (k + 1)%nat with (S k) by lia.
  rewrite (binom_tail_S (S (2 * k + 1))), !binom_tail_S. rewrite (tail_step (2 * k + 1) x k), (tail_step (2 * k + 1) x (S k)) by lia.
  unfold binom_term. assert (E : binom (2 * k + 1) (S k) = binom (2 * k + 1) k).
  { replace (2 * k + 1)%nat with (S k + k)%nat by lia. apply binom_sym_add. }
  rewrite E. replace (2 * k + 1 - k)%nat with (S k) by lia. replace (2 * k + 1 - S k)%nat with k by lia.
  assert (P : ((x * (1 - x)) ^ S k = x ^ S k * (1 - x) ^ S k)%Qc).
  { generalize (S k). intros j. induction j as [|j IHj]; cbn [Qcpower]; [ring|]. rewrite IHj. ring. }
  rewrite P. cbn [Qcpower]. ring.
Qed.
(** Two repetition codes of distance d and d + 2: the rates differ by C(d, (d-1)/2) (x (1 - x))^((d+1)/2) (2 x - 1). *)
Theorem C55_threshold d x r1 r2 : rep_rate d x r1 -> rep_rate (d + 2) x r2 ->
  (r2 - r1 = qnat (binom (Z.to_nat d) (Z.to_nat ((d - 1) / 2))) * (x * (1 - x)) ^ majority d * (x + x - 1))%Qc.
Proof.
  intros H1 H2. rewrite (C55_repetition _ _ _ H1), (C55_repetition _ _ _ H2).
  destruct H1 as (A & isx & s & q & dh & dw & l & s' & is & k0 & T & D & rx & mu & ep & cond & Ht & _ & _ & <- & _).
  destruct (extent_odd isx dh dw (lo_valid _ _ _ _ (tr_lat _ _ _ _ _ _ _ _ _ _ _ _ _ _ Ht))) as (e & He0 & ->). clear -He0.
  pose proof (tail_two (Z.to_nat e) x) as E. unfold majority.
  replace ((2 * e + 1 - 1) / 2) with e by zmod. replace ((2 * e + 1 + 1) / 2) with (e + 1) by zmod. replace ((2 * e + 1 + 2 + 1) / 2) with (e + 2) by zmod.
  replace (Z.to_nat (2 * e + 1 + 2)) with (2 * Z.to_nat e + 3)%nat by lia. replace (Z.to_nat (2 * e + 1)) with (2 * Z.to_nat e + 1)%nat by lia.
  replace (Z.to_nat (e + 1)) with (Z.to_nat e + 1)%nat by lia. replace (Z.to_nat (e + 2)) with (Z.to_nat e + 2)%nat by lia. exact E.
Qed.
Print Assumptions C55_threshold.
(** So larger codes are better exactly below probability 1/2. *)
Theorem C55_larger_better d x r1 r2 : rep_rate d x r1 -> rep_rate (d + 2) x r2 -> (0 < x < 1)%Qc ->
  ((r2 < r1 <-> x + x < 1) /\ (r2 = r1 <-> x + x = 1))%Qc.
Proof.
  intros H1 H2 [Hx0 Hx1]. pose proof (C55_threshold _ _ _ _ H1 H2) as E. set (K := (qnat _ * _)%Qc) in E.
  assert (HK : (0 < K)%Qc).
  { unfold K. assert (Hb : (0 < qnat (binom (Z.to_nat d) (Z.to_nat ((d - 1) / 2))))%Qc).
    { assert (Hp : 0 < binom (Z.to_nat d) (Z.to_nat ((d - 1) / 2))).
      { assert (HB : forall n k, (k <= n)%nat -> 0 < binom n k).
        { intros n. induction n as [|n IHn]; intros [|k] Hk; try (cbn; lia). cbn [binom]. pose proof (IHn k ltac:(lia)). pose proof (binom_nonneg n (S k)). lia. }
        apply HB. assert ((d - 1) / 2 <= Z.max 0 d) by zmod. lia. }
      revert Hp. generalize (binom (Z.to_nat d) (Z.to_nat ((d - 1) / 2))). intros z Hz. unfold qnat, Qclt, Q2Qc. cbn [this]. rewrite !Qred_correct. unfold Qlt. cbn [Qnum Qden inject_Z]. lia. }
    assert (HP : forall y n, (0 < y)%Qc -> (0 < y ^ n)%Qc).
    { intros y n Hy. induction n as [|n IHn]; cbn [Qcpower]; [done|]. replace 0%Qc with (0 * y ^ n)%Qc by ring. by apply Qcmult_lt_compat_r. }
    assert (HM : forall a b, (0 < a -> 0 < b -> 0 < a * b)%Qc) by (intros a b Ha Hb'; replace 0%Qc with (0 * b)%Qc by ring; by apply Qcmult_lt_compat_r).
    apply HM; [done|]. apply HP, HM; [done|]. by apply Qclt_minus_iff in Hx1. }
  clearbody K. assert (Er : r2 = (r1 + K * (x + x - 1))%Qc) by (rewrite <-E; ring). subst r2.
  assert (HL : (x + x < 1 -> r1 + K * (x + x - 1) < r1)%Qc).
  { intros H. apply Qclt_minus_iff in H. apply Qclt_minus_iff. replace (r1 + - (r1 + K * (x + x - 1)))%Qc with ((1 + - (x + x)) * K)%Qc by ring.
    replace 0%Qc with (0 * K)%Qc by ring. by apply Qcmult_lt_compat_r. }
  assert (HG : (1 < x + x -> r1 < r1 + K * (x + x - 1))%Qc).
  { intros H. apply Qclt_minus_iff in H. apply Qclt_minus_iff. replace (r1 + K * (x + x - 1) + - r1)%Qc with ((x + x + - (1)) * K)%Qc by ring.
    replace 0%Qc with (0 * K)%Qc by ring. by apply Qcmult_lt_compat_r. }
  assert (HE : (x + x = 1 -> r1 + K * (x + x - 1) = r1)%Qc) by (intros ->; ring).
  assert (Hirr : forall a, ~ (a < a)%Qc) by (intros a H; by apply Qclt_not_le in H; apply H, Qcle_refl).
  destruct (Qc_dec (x + x) 1) as [[H|H]|H].
  - specialize (HL H). split; split; intros H'; try done; [exfalso; rewrite H' in HL; by eapply Hirr|exfalso; rewrite H' in H; by eapply Hirr].
  - specialize (HG H). split; split; intros H'; exfalso.
    + eapply Hirr, Qclt_trans; [exact HG|exact H'].
    + eapply Hirr, Qclt_trans; [exact H|exact H'].
    + rewrite H' in HG. by eapply Hirr.
    + rewrite H' in H. by eapply Hirr.
  - specialize (HE H). rewrite HE. split; split; intros H'; try done; exfalso; [by eapply Hirr|rewrite H in H'; by eapply Hirr].
Qed.
Print Assumptions C55_larger_better.

(** ** The hypotheses can be met *)
(** Every pattern of errors has an execution that can happen. *)
Lemma trial_runs isx s q dh dw l s' is (k0 : config ZAmp) pat : lat_ok s q dh dw -> run_evs q (Noise.Call <$> experiment isx l) s = (s', Ok tt) -> emitted s s' is ->
  possible k0 -> exists k1, exec (noisy is pat) k0 k1 /\ possible k1.
Proof.
  intros Hok Hr Hem Hp. apply exec_possible_Z; [|done]. pose proof (evs_proper _ _ _ _ _ _ _ Hok Hr Hem) as HP. clear -HP.
  assert (H : forall is pat, (forall i, i ∈ is -> proper i) -> forall i, i ∈ noisy is pat -> proper i).
  { clear. intros is. induction is as [|j is IHl]; intros pat H i Hi; [by apply elem_of_nil in Hi|].
    assert (Hj : proper j) by (apply H; left). assert (His : forall i, i ∈ is -> proper i) by (intros; apply H; by right).
    destruct j; cbn [noisy] in Hi; apply elem_of_cons in Hi as [-> |Hi]; try done; try (by eapply IHl).
    destruct pat as [|a pat]; [by eapply IHl|]. apply elem_of_app in Hi as [Hi|Hi]; [|by eapply IHl].
    unfold pauli_gates in Hi. apply elem_of_app in Hi as [Hi|Hi]; [destruct a.1|destruct a.2]; try (by apply elem_of_nil in Hi); by apply elem_of_list_singleton in Hi as ->. }
  intros i Hi. by eapply H.
Qed.
(** On repetition codes the probability of a wrong result given the errors exists: it is 0 or 1. *)
Theorem C55_decided isx s q dh dw l s' is (k0 : config ZAmp) T D rx mu ep :
  trial ZAmp isx s q dh dw l s' is k0 T D rx mu -> possible k0 -> n_chains isx dh dw = 1 -> count is_id_data l = 1%nat ->
  exists cond, wrong_prob (noisy is) k0 (decodes isx l s' D rx ep) (places is) cond.
Proof.
  intros [Hok H1 Hcr Hr Hem Hl Hcl HD HT Hrx Hmu] Hk Hn Hb. pose proof (lo_valid _ _ _ _ Hok) as Hv.
  assert (HM : places is = (blocks l * Z.to_nat (dh * dw))%nat) by (by eapply experiment_places).
  set (c := lat_code (tq_lat q)). set (w := fun pat => ntrue (relevant (sels isx c dh dw (blocks l)) pat)). set (m := majority (extent isx dh dw)).
  assert (Hdec : corrects isx c dh dw T (fun key => correct_readout rx D ep key isx)) by (by apply corrects_plain).
  assert (HB : blocks l = 1%nat) by exact Hb.
  assert (Hfew : forall pat, length pat = places is -> (w pat < m)%nat -> forall k1, exec (noisy is pat) k0 k1 -> possible k1 -> decodes isx l s' D rx ep k1).
  { intros pat Hp Hw. rewrite HM in Hp. by eapply (few_right ZAmp isx s q dh dw l s' is k0 T (fun key => correct_readout rx D ep key isx)). }
  assert (Hmany : forall pat, length pat = places is -> (m <= w pat)%nat -> forall k1, exec (noisy is pat) k0 k1 -> possible k1 -> ~ decodes isx l s' D rx ep k1).
  { intros pat Hp Hw. rewrite HM in Hp. eapply (many_wrong ZAmp isx s q dh dw l s' is k0 T (fun key => correct_readout rx D ep key isx)) with (k := 0%nat) (j := 0); try done; [rewrite Hn; lia|].
    cbn [Nat.mul replicate]. rewrite app_nil_r.
    assert (Hrow : forall i, i ∈ seqZ 0 (dh * dw) -> i ∈ chain isx dh dw 0).
    { intros i Hi%elem_of_seqZ. unfold chain, n_chains in *. destruct isx; subst.
      - apply elem_of_row_set. split; [by apply elem_of_data_set|]. apply Z.div_small. lia.
      - apply elem_of_col_set. split; [by apply elem_of_data_set|]. apply Z.mod_1_r. }
    assert (Hall : forall L b, (forall i, i ∈ L -> i ∈ chain isx dh dw 0) -> confined ((fun i => bool_decide (i ∈ chain isx dh dw 0)) <$> L) b = true).
    { clear. intros L. induction L as [|i L IHL]; intros [|x b] HL; try done. unfold confined. rewrite fmap_cons. cbn [zip_with forallb].
      rewrite bool_decide_true by (apply HL; left). apply andb_true_iff. split; [by destruct x|]. apply IHL. intros j Hj. apply HL. by right. }
    by apply Hall. }
  exists (fun pat => Expect.ind (m <=? w pat)%nat). intros pat Hp. destruct (trial_runs isx s q dh dw l s' is k0 pat Hok Hr Hem Hk) as (k1 & He & Hpos).
  destruct (Nat.leb_spec m (w pat)) as [Hw|Hw]; cbn [ind].
  - split; [split; discriminate|]. split; [|done]. intros Hright. exfalso. by eapply Hmany; [exact Hp|exact Hw|exact He|exact Hpos|apply Hright].
  - split; [split; discriminate|]. split; [done|]. intros Hwrong. exfalso. eapply Hwrong; [exact He|exact Hpos|]. by eapply Hfew.
Qed.
Print Assumptions C55_decided.

(** The script data/rep_threshold/20210617/simulation.py for d = 5 and X errors of probability
    1/10: the logical error rate is 107/12500. *)
Definition bit_flip (p : Qc) : noise := fun a => if a.2 then 0%Qc else if a.1 then p else (1 - p)%Qc.
Lemma bit_flip_noise p : (0 <= p <= 1)%Qc -> is_noise (bit_flip p).
Proof.
  intros [H0 H1]. split; [|cbn [pauli1s fmap list_fmap bit_flip fst snd]; rewrite !qsum_cons, qsum_nil; cbn [bit_flip fst snd]; ring].
  intros [[] []]; cbn [bit_flip fst snd]; try done; by apply Qcminus_nonneg.
Qed.
Definition tenth : Qc := Q2Qc (1 # 10).
Lemma tenth_range : (0 <= tenth <= 1)%Qc. Proof. split; vm_compute; discriminate. Qed.
Example C55_ex : exists r, rep_rate 5 tenth r /\ r = Q2Qc (107 # 12500).
Proof.
  destruct rep_ok as (q & Hq & Hok & _ & _ & Hc).
  assert (Hrun : run_ok rep_q (Noise.Call <$> experiment false [OIdData]) = true) by (vm_compute; reflexivity).
  destruct (run_ok_inv _ _ _ _ _ Hq Hok Hrun) as (s' & is & Hr & Hem).
  assert (Ht : trial ZAmp false rep_q.1 q 5 1 [OIdData] s' is (fun _ => false, zero_state) 3 rep_dec rx_ref (bit_flip tenth)).
  { split; [exact Hok|reflexivity|exact rep_empty|exact Hr|exact Hem|repeat constructor|apply C10_initially_clean|exact rep_dec_ok|vm_compute; discriminate|exact rx_ref_ok|].
    apply bit_flip_noise, tenth_range. }
  destruct (C55_decided _ _ _ _ _ _ _ _ _ _ _ _ _ EPNone Ht (zero_possible _) eq_refl eq_refl) as (cond & Hcond).
  assert (Hrate : rep_rate 5 tenth (expected (bit_flip tenth) (places is) cond)).
  { exists ZAmp, false, rep_q.1, q, 5, 1, [OIdData], s', is, (fun _ => false, zero_state), 3, rep_dec, rx_ref, (bit_flip tenth), EPNone, cond.
    split; [exact Ht|]. split; [exact Hcond|]. split; [reflexivity|]. split; [reflexivity|]. split; [reflexivity|]. split; [|reflexivity].
    rewrite Hc. split; [apply Qc_is_canon; vm_compute; reflexivity|discriminate]. }
  eexists. split; [exact Hrate|]. rewrite (C55_repetition _ _ _ Hrate). apply Qc_is_canon. vm_compute. reflexivity.
Qed.
(** data/xzzx_threshold/20210611/simulation.py on 5 rows and 3 columns: X and Z with probability
    1/100 each.  Whatever the probabilities of wrong results given the errors are, the rate is at
    most 455/1000000. *)
Definition hundredth : Qc := Q2Qc (1 # 100).
Definition xz_flip (p : Qc) : noise := fun a => match a with (true, true) => 0%Qc | (false, false) => (1 - p - p)%Qc | _ => p end.
Example C55_surface_ex : exists q s' is D, lat_code (tq_lat q) = XZZX /\
  trial ZAmp false e2e_q.1 q 5 3 [OIdData] s' is (fun _ => false, zero_state) 1 D rx_ref (xz_flip hundredth) /\
  (forall pat, exists k1 : config ZAmp, exec (noisy is pat) (fun _ => false, zero_state) k1 /\ possible k1) /\
  forall cond, wrong_prob (noisy is) (fun _ => false, zero_state : state ZAmp) (decodes false [OIdData] s' D rx_ref EPNone) (places is) cond ->
    (expected (xz_flip hundredth) (places is) cond <= Q2Qc (455 # 1000000))%Qc.
Proof.
  destruct e2e_ok as (q & Hq & Hok & Hc).
  assert (Hrun : run_ok e2e_q (Noise.Call <$> experiment false [OIdData]) = true) by (vm_compute; reflexivity).
  destruct (run_ok_inv _ _ _ _ _ Hq Hok Hrun) as (s' & is & Hr & Hem).
  destruct (decoder_for_rotated false 5 3 1 v53) as (D & ED & HD).
  assert (Ht : trial ZAmp false e2e_q.1 q 5 3 [OIdData] s' is (fun _ => false, zero_state) 1 D rx_ref (xz_flip hundredth)).
  { split; [exact Hok|reflexivity|exact e2e_empty|exact Hr|exact Hem|repeat constructor|apply C10_initially_clean|exact HD|vm_compute; discriminate|exact rx_ref_ok|].
    split; [intros [[] []]; vm_compute; discriminate|apply Qc_is_canon; vm_compute; reflexivity]. }
  exists q, s', is, D. split; [exact Hc|]. split; [exact Ht|]. split; [intros pat; by eapply trial_runs; [exact Hok|exact Hr|exact Hem|apply zero_possible]|].
  intros cond Hcond. destruct (C55_upper _ _ _ _ _ _ _ _ _ _ _ _ _ _ _ _ Ht Hcond) as (HM & _ & HU). change (count is_id_data [OIdData] * Z.to_nat (5 * 3))%nat with 15%nat in HM.
  specialize (HU hundredth). rewrite Hc in HU. eapply Qcle_trans; [apply HU|].
  - split; [|intros _]; vm_compute; discriminate.
  - rewrite HM. vm_compute. discriminate.
Qed.
