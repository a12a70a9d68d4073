(** Properties C55 and C61: error rates of the shots themselves. *)
From Coq Require Import QArith Qcanon.
From Verif Require Import FairNorm P_Fair.
From Coq Require Import Reals.
From Verif Require Import Noisy FaultFacts Parse P_Parse P_Decode P_Sharp Degen DegenDecode P_DegenDecode FrameDecode P_EndToEndProb RxRef P_Logical QTotal P_CircuitFaults P_CircuitHalf P_Threshold.
From stdpp Require Export list.
Open Scope Z_scope.

(** * Probabilities of wrong results *)
(** Does the decoder give anything but [v] for the counts key of the classical bits [c]. *)
Definition wrong (dec : string -> res Z) (regs : list (string * Z)) (v : bool) (c : cstate) : bool :=
  match dec (counts_key c regs) with Ok z => negb (z =? Z.b2z v) | Err _ => true end.
Lemma wrong_right dec regs v c : dec (counts_key c regs) = Ok (Z.b2z v) -> wrong dec regs v c = false.
Proof. intros E. unfold wrong. by rewrite E, Z.eqb_refl. Qed.
Lemma wrong_wrong dec regs v c : dec (counts_key c regs) <> Ok (Z.b2z v) -> wrong dec regs v c = true.
Proof. intros E. unfold wrong. destruct (dec _) as [z|]; [|done]. apply negb_true_iff, Z.eqb_neq. congruence. Qed.
(** [U] is a list of qubits, without repetition, that has all the qubits of a circuit. *)
Definition covers (U : list qubit) (is : list instr) : Prop := NoDup U /\ forall i q, i ∈ is -> q ∈ instr_qubits i -> q ∈ U.

Lemma prob_range U is c0 E : NoDup U -> Forall (well_formed U) is -> (0 <= prob U is (c0, zero_state) E <= 1)%Qc.
Proof.
  intros HU His. pose proof (all_pos U is c0 HU His) as Hall. pose proof (mass_nonneg U is c0 E) as Hn.
  assert (Hle : mass U is (c0, zero_state) E <= mass U is (c0, zero_state) (fun _ => true)).
  { unfold mass. induction (outcomes (choices is)) as [|o L IHL]; [done|]. rewrite !fmap_cons, !zsum_cons.
    pose proof (norm2_nonneg U (run is o (c0, zero_state)).2). destruct (E _); lia. }
  unfold prob. set (a := mass U is (c0, zero_state) E) in *. set (b := mass U is (c0, zero_state) (fun _ => true)) in *. clearbody a b.
  assert (Hb : (0 < qnat b)%Qc). { unfold qnat, Qclt. cbn [this Q2Qc]. rewrite (Qred_correct (inject_Z b)). unfold Qlt. cbn [Qnum Qden inject_Z]. change (Qred 0) with 0%Q. cbn. lia. }
  assert (HI : (0 < / qnat b)%Qc).
  { destruct (Qclt_le_dec 0 (/ qnat b)) as [|Hi]; [done|]. exfalso. apply (Qcmult_le_compat_r _ _ (qnat b)) in Hi; [|by apply Qclt_le_weak].
    rewrite Qcmult_0_l, Qcmult_comm, Qcmult_inv_r in Hi by (by apply Qcgt_not_eq || (intros E0; rewrite E0 in Hb; by apply Qclt_not_eq in Hb)). by apply Qcle_not_lt in Hi. }
  assert (Ha : (0 <= qnat a)%Qc). { unfold qnat, Qcle. cbn [this Q2Qc]. rewrite (Qred_correct (inject_Z a)). unfold Qle. change (Qred 0) with 0%Q. cbn. lia. }
  assert (Hab : (qnat a <= qnat b)%Qc). { unfold qnat, Qcle. cbn [this Q2Qc]. rewrite (Qred_correct (inject_Z a)), (Qred_correct (inject_Z b)). unfold Qle. cbn. lia. }
  apply Qclt_le_weak in HI. unfold Qcdiv. split.
  - rewrite <-(Qcmult_0_l (/ qnat b)). by apply Qcmult_le_compat_r.
  - rewrite <-(Qcmult_inv_r (qnat b)) by (by apply qnat_pos). by apply Qcmult_le_compat_r.
Qed.
(** Probabilities of wrong results are those of C55. *)
Lemma shots_wrong U (circ : list pauli1 -> list instr) c0 dec regs v M :
  (forall pat, length pat = M -> NoDup U /\ Forall (well_formed U) (circ pat)) ->
  wrong_prob circ (c0, zero_state) (fun k1 : config ZAmp => dec (counts_key k1.1 regs) = Ok (Z.b2z v)) M
    (fun pat => prob U (circ pat) (c0, zero_state) (wrong dec regs v)).
Proof.
  intros H pat Hp. destruct (H pat Hp) as [HU Hf]. split; [by apply prob_range|]. destruct (C60_certain U (circ pat) c0 (wrong dec regs v) HU Hf) as [H1 H0]. split.
  - intros Hr. apply H0. intros k1 He Hk. by apply wrong_right, Hr.
  - intros Hr. apply H1. intros k1 He Hk. by apply wrong_wrong, Hr.
Qed.

Lemma evs_unconditional s q dh dw l s' is : lat_ok s q dh dw -> run_evs q l s = (s', Ok tt) -> emitted s s' is -> forall i, i ∈ is -> unconditional i.
Proof.
  intros Hok Hr Hem. destruct (lat_ok_cnt _ _ _ _ Hok) as [n Hn]. pose proof (lo_valid _ _ _ _ Hok) as Hv.
  rewrite (run_code _ _ _ _ _ _ _ _ Hok Hn Hr Hem). clear -Hv.
  revert n. induction l as [|e l IHl]; intros n i Hi; cbn [evs_code] in Hi; [by apply elem_of_nil in Hi|].
  apply elem_of_app in Hi as [Hi|Hi]; [|by eapply IHl]. destruct e as [o|isx j]; cbn [ev_code] in Hi; [by eapply op_unconditional|].
  apply elem_of_list_singleton in Hi as ->. by destruct isx.
Qed.
Lemma evs_formed U s q dh dw l s' is : lat_ok s q dh dw -> run_evs q l s = (s', Ok tt) -> emitted s s' is ->
  (forall i q, i ∈ is -> q ∈ instr_qubits i -> q ∈ U) -> Forall (well_formed U) is.
Proof.
  intros Hok Hr Hem HU. apply list.Forall_forall. intros i Hi. split_and!; [by eapply evs_proper|by eapply unconditional_one, evs_unconditional|]. intros x. by apply HU.
Qed.
Lemma paulis_formed U a q : q ∈ U -> Forall (well_formed U) (pauli_gates a q).
Proof.
  intros Hq. unfold pauli_gates. apply Forall_app. split; [destruct a.1|destruct a.2]; repeat constructor; cbn; intros x ->%elem_of_list_singleton; done.
Qed.
Lemma noisy_formed U is : forall pat, Forall (well_formed U) is -> Forall (well_formed U) (noisy is pat).
Proof.
  induction is as [|i is IHl]; intros pat H; [done|]. apply Forall_cons in H as [Hi H].
  destruct i; cbn [noisy]; (constructor; [done|]); try (by apply IHl). destruct pat as [|a pat]; [by apply IHl|]. apply Forall_app. split; [|by apply IHl].
  apply paulis_formed. apply Hi. cbn. by left.
Qed.

(** * C55 for the shots *)
(** The logical error rate of a threshold experiment with the errors drawn and the circuit run
    from |0...0> according to the Born rule. *)
Definition shot_rate (U : list qubit) (is : list instr) (c0 : cstate) (mu : noise) (dec : string -> res Z) (regs : list (string * Z)) (v : bool) : Qc :=
  expected mu (places is) (fun pat => prob U (noisy is pat) (c0, zero_state) (wrong dec regs v)).
Lemma trial_wrong U isx s q dh dw l s' is c0 T D rx mu dec v : trial ZAmp isx s q dh dw l s' is (c0, zero_state) T D rx mu -> covers U is ->
  wrong_prob (noisy is) (c0, zero_state) (fun k1 : config ZAmp => dec (counts_key k1.1 (cregs s')) = Ok (Z.b2z v)) (places is)
    (fun pat => prob U (noisy is pat) (c0, zero_state) (wrong dec (cregs s') v)).
Proof.
  intros [Hok H1 Hcr Hr Hem Hl Hcl HD HT Hrx Hmu] [HU Hin]. apply shots_wrong. intros pat _. split; [done|]. apply noisy_formed. by eapply evs_formed.
Qed.
(** The bounds of C55 hold for it. *)
Theorem C55_shots U isx s q dh dw l s' is c0 T D rx mu ep :
  trial ZAmp isx s q dh dw l s' is (c0, zero_state) T D rx mu -> covers U is ->
  let M := places is in let d := dist isx dh dw in let m := majority (extent isx dh dw) in
  let rate := shot_rate U is c0 mu (fun key => correct_readout rx D ep key isx) (cregs s') (Nat.odd (count (inverts isx) l)) in
  M = (count is_id_data l * Z.to_nat (dh * dw))%nat /\
  (forall x, flip_prob isx (lat_code (tq_lat q)) mu (eq x) -> rate <= binom_tail M m x)%Qc /\
  (forall x, flip_prob isx (lat_code (tq_lat q)) mu (fun y => y <= x) -> rate <= qnat (binom M m) * x ^ m)%Qc /\
  (forall x, OIdData ∈ l -> flip_prob isx (lat_code (tq_lat q)) mu (eq x) -> (1 - x) ^ (M - d) * binom_tail d m x <= rate)%Qc.
Proof.
  intros Ht HU M d m rate. pose proof (trial_wrong U _ _ _ _ _ _ _ _ _ _ _ _ _ (fun key => correct_readout rx D ep key isx) (Nat.odd (count (inverts isx) l)) Ht HU) as Hc.
  destruct (C55_upper _ _ _ _ _ _ _ _ _ _ _ _ _ _ ep _ Ht Hc) as (HM & H1 & H2). split; [exact HM|]. split; [exact H1|]. split; [exact H2|].
  intros x Hin Hx. exact (C55_lower _ _ _ _ _ _ _ _ _ _ _ _ _ _ ep _ x Ht Hc Hin Hx).
Qed.
Print Assumptions C55_shots.
Theorem C55_shots_weighted U isx s q dh dw l s' is c0 T D rx mu p :
  trial ZAmp isx s q dh dw l s' is (c0, zero_state) T D rx mu -> covers U is -> small_prob isx dh dw D p ->
  let M := places is in let d := dist isx dh dw in let m := majority (extent isx dh dw) in
  let rate := shot_rate U is c0 mu (fun key => correct_readout_p rx D (Some p) key isx) (cregs s') (Nat.odd (count (inverts isx) l)) in
  (forall x, flip_prob isx (lat_code (tq_lat q)) mu (eq x) -> rate <= binom_tail M m x)%Qc /\
  (forall x, flip_prob isx (lat_code (tq_lat q)) mu (fun y => y <= x) -> rate <= qnat (binom M m) * x ^ m)%Qc /\
  (forall x, OIdData ∈ l -> flip_prob isx (lat_code (tq_lat q)) mu (eq x) -> (1 - x) ^ (M - d) * binom_tail d m x <= rate)%Qc.
Proof.
  intros Ht HU Hp M d m rate. pose proof (trial_wrong U _ _ _ _ _ _ _ _ _ _ _ _ _ (fun key => correct_readout_p rx D (Some p) key isx) (Nat.odd (count (inverts isx) l)) Ht HU) as Hc.
  exact (C55_weighted _ _ _ _ _ _ _ _ _ _ _ _ _ _ p _ Ht Hp Hc).
Qed.
Print Assumptions C55_shots_weighted.
(** On a repetition code of distance [d] the rate is the probability of a majority of errors. *)
Theorem C55_shots_repetition U isx s q dh dw l s' is c0 T D rx mu ep x :
  trial ZAmp isx s q dh dw l s' is (c0, zero_state) T D rx mu -> covers U is ->
  n_chains isx dh dw = 1 -> count is_id_data l = 1%nat -> flip_prob isx (lat_code (tq_lat q)) mu (eq x) ->
  shot_rate U is c0 mu (fun key => correct_readout rx D ep key isx) (cregs s') (Nat.odd (count (inverts isx) l)) =
  binom_tail (dist isx dh dw) (majority (extent isx dh dw)) x.
Proof.
  intros Ht HU Hn Hb Hx. apply C55_repetition.
  pose proof (trial_wrong U _ _ _ _ _ _ _ _ _ _ _ _ _ (fun key => correct_readout rx D ep key isx) (Nat.odd (count (inverts isx) l)) Ht HU) as Hc.
  exists ZAmp, isx, s, q, dh, dw, l, s', is, (c0, zero_state), T, D, rx, mu, ep. eexists. split; [exact Ht|]. split; [exact Hc|]. done.
Qed.
Print Assumptions C55_shots_repetition.

(** * C61 *)
(** A memory experiment: a fresh lattice is reset and a round run, without noise; then any rounds,
    logical gates and identities in any number and order, with noise; then the lattice readout,
    noisy as well, or two rounds and the logical readout without noise.  [is0], [is1] and [is2] are
    the instructions of the three parts. *)
Record memory (lat isx : bool) (s : st) (q : tqubit) (dh dw : Z) (l : list op) (is0 is1 is2 : list instr) (s' : st) (T : Z) (D : decoder) (rx : retworkx) : Prop := {
  me_lat : lat_ok s q dh dw;
  me_size : 1 < dh * dw;
  me_new : cregs s = [];
  me_basis : lat = true -> isx = false;
  me_run : exists sa sb,
    run_evs q (Noise.Call <$> [reset_op isx; OStab]) s = (sa, Ok tt) /\ emitted s sa is0 /\
    run_evs q (Noise.Call <$> l ++ (if lat then [OLatZ] else [])) sa = (sb, Ok tt) /\ emitted sa sb is1 /\
    run_evs q (Noise.Call <$> if lat then [] else [OStab; OStab; read_op isx]) sb = (s', Ok tt) /\ emitted sb s' is2;
  me_ops : Forall body_op l;
  me_dec : decoder_for isx dh dw T D;
  me_T : (if lat then 1 else 2) + Z.of_nat (count is_stab l) <= T;
  me_rx : rx_ok rx }.
(** The fewest faults that may lead to a wrong result. *)
Definition enough (d : Z) : nat := Z.to_nat ((d - 1) / 2 / 2 + 1).

(** Noise: with probability [no_prob] the circuit run is [no_code], the code of the noisy part with
    [no_faults] faults in it.  Faults of different places, or different kinds, may be correlated. *)
Record case := Case { no_prob : Qc; no_code : list instr; no_faults : nat }.
Definition noise_model (is1 : list instr) (L : list case) : Prop := Forall (fun c => 0 <= no_prob c /\ inject is1 (no_code c) (no_faults c))%Qc L.
(** The probabilities that a shot is decoded wrongly and that there are at least [m] faults. *)
Definition error_rate (U : list qubit) (is0 is2 : list instr) (c0 : cstate) (dec : string -> res Z) (regs : list (string * Z)) (v : bool) (L : list case) : Qc :=
  qsum ((fun c => (no_prob c * prob U (is0 ++ no_code c ++ is2) (c0, zero_state) (wrong dec regs v))%Qc) <$> L).
Definition many_faults (m : nat) (L : list case) : Qc := qsum (no_prob <$> filter (fun c => m <= no_faults c)%nat L).

(** Independent noise: before and after every instruction, on each of its qubits, an error with
    distribution [mu]. *)
Definition paulis (p : list pauli1) (qs : list qubit) : list instr := mjoin (zip_with pauli_gates p qs).
Fixpoint noisy_all (is : list instr) (pat : list pauli1) : list instr :=
  match is with
  | [] => []
  | i :: is => let n := length (instr_qubits i) in
      paulis (take n pat) (instr_qubits i) ++ [i] ++ paulis (take n (drop n pat)) (instr_qubits i) ++ noisy_all is (drop (n + n) pat)
  end.
Fixpoint spots (is : list instr) : nat :=
  match is with [] => O | i :: is => (length (instr_qubits i) + length (instr_qubits i) + spots is)%nat end.
Definition iid_rate (U : list qubit) (is0 is1 is2 : list instr) (c0 : cstate) (mu : noise) (dec : string -> res Z) (regs : list (string * Z)) (v : bool) : Qc :=
  expected mu (spots is1) (fun pat => prob U (is0 ++ noisy_all is1 pat ++ is2) (c0, zero_state) (wrong dec regs v)).

(** ** Few faults are harmless *)
Definition tolerates (lat isx : bool) (s : st) (q : tqubit) (dh dw : Z) (l : list op) (is0 is1 is2 : list instr) (s' : st) (dec : string -> res Z) : Prop :=
  forall js w c0 (k1 : config ZAmp), inject is1 js w -> (w < enough (extent isx dh dw))%nat ->
    exec (is0 ++ js ++ is2) (c0, zero_state) k1 -> possible k1 -> dec (counts_key k1.1 (cregs s')) = Ok (Z.b2z (Nat.odd (count (inverts isx) l))).
Lemma enough_few isx dh dw w : valid_size dh dw -> (w < enough (extent isx dh dw))%nat -> Z.of_nat (2 * w + 0) <= (extent isx dh dw - 1) / 2.
Proof. intros Hv Hw. destruct (extent_odd isx dh dw Hv) as (e & He0 & E). unfold enough in Hw. rewrite E in *. clear E. replace ((2 * e + 1 - 1) / 2) with e in * by zmod. pose proof (Z.mul_div_le e 2 eq_refl). pose proof (Z.div_pos e 2 He0 eq_refl). lia. Qed.
Lemma memory_regs q dh dw l0 l1 l2 s sa sb s' : lat_ok s q dh dw -> run_evs q (Noise.Call <$> l0) s = (sa, Ok tt) -> run_evs q (Noise.Call <$> l1) sa = (sb, Ok tt) -> run_evs q (Noise.Call <$> l2) sb = (s', Ok tt) ->
  OStab ∈ l0 -> exists rs rd, cregs s' = rs ++ [rd].
Proof.
  intros Hok H0 H1 H2 Hin. destruct (lat_ok_cnt _ _ _ _ Hok) as [n Hn].
  pose proof (run_evs_inv _ _ _ _ _ _ _ Hok Hn H0) as HP0. pose proof (run_evs_inv _ _ _ _ _ _ _ (po_ok _ _ _ _ _ _ _ _ HP0) (po_cnt _ _ _ _ _ _ _ _ HP0) H1) as HP1.
  pose proof (run_evs_inv _ _ _ _ _ _ _ (po_ok _ _ _ _ _ _ _ _ HP1) (po_cnt _ _ _ _ _ _ _ _ HP1) H2) as HP2.
  assert (Hne : cregs s' <> []).
  { rewrite (cregs_app _ _ _ (po_regs _ _ _ _ _ _ _ _ HP2)), (cregs_app _ _ _ (po_regs _ _ _ _ _ _ _ _ HP1)), (cregs_app _ _ _ (po_regs _ _ _ _ _ _ _ _ HP0)).
    assert (E : filter (fun r => r_quantum r = false) (evs_reg (lat_name (tq_lat q)) dh dw n (Noise.Call <$> l0)) <> []).
    { clear -Hin. revert n. induction l0 as [|o l0 IHl]; intros n; [by apply elem_of_nil in Hin|]. rewrite fmap_cons. cbn [evs_reg]. rewrite filter_app.
      apply elem_of_cons in Hin as [<-|Hin].
      - cbn [ev_reg op_reg]. by rewrite filter_cons_True.
      - intros [_ E]%app_nil. by eapply IHl. }
    destruct (filter _ (evs_reg _ _ _ n (Noise.Call <$> l0))); [done|]. rewrite fmap_cons. intros [[[_ H]%app_nil _]%app_nil _]%app_nil. done. }
  destruct (cregs s') as [|x L] eqn:EL using rev_ind; [done|]. eauto.
Qed.
Lemma memory_plain lat isx s q dh dw l is0 is1 is2 s' T D rx ep : memory lat isx s q dh dw l is0 is1 is2 s' T D rx ->
  tolerates lat isx s q dh dw l is0 is1 is2 s' (fun key => correct_readout rx D ep key isx).
Proof.
  intros [Hok H1 Hcr Hb (sa & sb & Hra & Hea & Hrb & Heb & Hrc & Hec) Hl HD HT Hrx] js w c0 k1 Hinj Hw He Hp. pose proof (lo_valid _ _ _ _ Hok) as Hv.
  destruct (memory_regs q dh dw _ _ _ s sa sb s' Hok Hra Hrb Hrc) as (rs & rd & Hrs); [right; left|].
  assert (Hobs : observed isx dh dw rs.*1 [] k1.1 k1.1) by apply observed_id.
  assert (Hm : Z.of_nat (2 * w + length (@nil (Z * Z))) <= (extent isx dh dw - 1) / 2) by (by apply enough_few).
  assert (Hcl : syndromes_clean q (zero_state : state ZAmp)) by apply C10_initially_clean.
  destruct lat.
  - specialize (Hb eq_refl) as ->. injection Hrc as <-. assert (is2 = []) as ->.
    { unfold emitted in Hec. rewrite <-(app_nil_r (s_instrs sb)) in Hec at 1. by apply app_inv_head in Hec. }
    rewrite app_nil_r in He.
    destruct (noisy_lattice s q dh dw l sa is0 sb is1 js w (c0, zero_state) k1 rs rd [] k1.1 Hok Hcr Hra Hea Hrb Heb Hl Hinj Hcl He Hp Hrs Hobs ltac:(done)) as (HN & _); [by intros m []%elem_of_nil|].
    refine (proj2 (C49_lattice ZAmp s q dh dw l sa is0 sb is1 js w (c0, zero_state) k1 rs rd T D rx ep [] k1.1 Hok H1 Hcr Hra Hea Hrb Heb Hl Hinj Hcl He Hp Hrs Hobs (fun _ _ => eq_refl) _ Hm HD _ Hrx)); [by intros m []%elem_of_nil|lia].
  - rewrite app_nil_r in Hrb.
    destruct (noisy_logical isx s q dh dw l sa is0 sb is1 s' is2 js w (c0, zero_state) k1 rs rd [] k1.1 Hok Hcr Hra Hea Hrb Heb Hrc Hec Hl Hinj Hcl He Hp Hrs Hobs eq_refl) as (HN & _); [by intros m []%elem_of_nil|].
    refine (proj2 (C49_logical ZAmp isx s q dh dw l sa is0 sb is1 s' is2 js w (c0, zero_state) k1 rs rd T D rx ep [] k1.1 Hok H1 Hcr Hra Hea Hrb Heb Hrc Hec Hl Hinj Hcl He Hp Hrs Hobs eq_refl _ Hm HD _ Hrx)); [by intros m []%elem_of_nil|lia].
Qed.
Lemma memory_weighted lat isx s q dh dw l is0 is1 is2 s' T D rx p : memory lat isx s q dh dw l is0 is1 is2 s' T D rx -> small_prob isx dh dw D p ->
  tolerates lat isx s q dh dw l is0 is1 is2 s' (fun key => correct_readout_p rx D (Some p) key isx).
Proof.
  intros [Hok H1 Hcr Hb (sa & sb & Hra & Hea & Hrb & Heb & Hrc & Hec) Hl HD HT Hrx] Hsm js w c0 k1 Hinj Hw He Hp. pose proof (lo_valid _ _ _ _ Hok) as Hv.
  destruct (memory_regs q dh dw _ _ _ s sa sb s' Hok Hra Hrb Hrc) as (rs & rd & Hrs); [right; left|].
  assert (Hobs : observed isx dh dw rs.*1 [] k1.1 k1.1) by apply observed_id.
  assert (Hm : Z.of_nat (2 * w + length (@nil (Z * Z))) <= (extent isx dh dw - 1) / 2) by (by apply enough_few).
  assert (Hcl : syndromes_clean q (zero_state : state ZAmp)) by apply C10_initially_clean.
  destruct lat.
  - specialize (Hb eq_refl) as ->. injection Hrc as <-. assert (is2 = []) as ->.
    { unfold emitted in Hec. rewrite <-(app_nil_r (s_instrs sb)) in Hec at 1. by apply app_inv_head in Hec. }
    rewrite app_nil_r in He.
    destruct (noisy_lattice s q dh dw l sa is0 sb is1 js w (c0, zero_state) k1 rs rd [] k1.1 Hok Hcr Hra Hea Hrb Heb Hl Hinj Hcl He Hp Hrs Hobs ltac:(done)) as (HN & _); [by intros m []%elem_of_nil|].
    refine (proj2 (C50_faults_lattice ZAmp s q dh dw l sa is0 sb is1 js w (c0, zero_state) k1 rs rd T D rx p [] k1.1 Hok H1 Hcr Hra Hea Hrb Heb Hl Hinj Hcl He Hp Hrs Hobs (fun _ _ => eq_refl) _ Hm HD Hsm _ Hrx)); [by intros m []%elem_of_nil|lia].
  - rewrite app_nil_r in Hrb.
    destruct (noisy_logical isx s q dh dw l sa is0 sb is1 s' is2 js w (c0, zero_state) k1 rs rd [] k1.1 Hok Hcr Hra Hea Hrb Heb Hrc Hec Hl Hinj Hcl He Hp Hrs Hobs eq_refl) as (HN & _); [by intros m []%elem_of_nil|].
    refine (proj2 (C50_faults_logical ZAmp isx s q dh dw l sa is0 sb is1 s' is2 js w (c0, zero_state) k1 rs rd T D rx p [] k1.1 Hok H1 Hcr Hra Hea Hrb Heb Hrc Hec Hl Hinj Hcl He Hp Hrs Hobs eq_refl _ Hm HD Hsm _ Hrx)); [by intros m []%elem_of_nil|lia].
Qed.
Lemma memory_formed U lat isx s q dh dw l is0 is1 is2 s' T D rx js w : memory lat isx s q dh dw l is0 is1 is2 s' T D rx -> inject is1 js w ->
  (forall i q, i ∈ is0 ++ js ++ is2 -> q ∈ instr_qubits i -> q ∈ U) -> Forall (well_formed U) (is0 ++ js ++ is2).
Proof.
  intros [Hok H1 Hcr Hb (sa & sb & Hra & Hea & Hrb & Heb & Hrc & Hec) Hl HD HT Hrx] Hinj HU. destruct (lat_ok_cnt _ _ _ _ Hok) as [n Hn].
  pose proof (run_evs_inv _ _ _ _ _ _ _ Hok Hn Hra) as [Hoka Hna _ _ _]. pose proof (run_evs_inv _ _ _ _ _ _ _ Hoka Hna Hrb) as [Hokb Hnb _ _ _].
  apply list.Forall_forall. intros i Hi.
  assert (HP : proper i /\ one_bit i); [|destruct HP; split_and!; [done..|]; intros x; by apply HU].
  apply elem_of_app in Hi as [Hi|[Hi|Hi]%elem_of_app].
  - split; [by eapply (evs_proper _ _ _ _ _ _ _ Hok Hra Hea)|by eapply unconditional_one, (evs_unconditional _ _ _ _ _ _ _ Hok Hra Hea)].
  - eapply inject_formed; [exact Hinj| |exact Hi]. intros j Hj.
    split; [by eapply (evs_proper _ _ _ _ _ _ _ Hoka Hrb Heb)|by eapply unconditional_one, (evs_unconditional _ _ _ _ _ _ _ Hoka Hrb Heb)].
  - split; [by eapply (evs_proper _ _ _ _ _ _ _ Hokb Hrc Hec)|by eapply unconditional_one, (evs_unconditional _ _ _ _ _ _ _ Hokb Hrc Hec)].
Qed.
(** The probability of a wrong result is 0 with few faults, and at most 1 anyhow. *)
Lemma memory_prob U lat isx s q dh dw l is0 is1 is2 s' T D rx dec js w c0 : memory lat isx s q dh dw l is0 is1 is2 s' T D rx ->
  tolerates lat isx s q dh dw l is0 is1 is2 s' dec -> inject is1 js w -> covers U (is0 ++ js ++ is2) ->
  (0 <= prob U (is0 ++ js ++ is2) (c0, zero_state) (wrong dec (cregs s') (Nat.odd (count (inverts isx) l))) <=
   if decide (enough (extent isx dh dw) <= w)%nat then 1 else 0)%Qc.
Proof.
  intros Hm Ht Hinj [HU Hin]. pose proof (memory_formed U _ _ _ _ _ _ _ _ _ _ _ _ _ _ _ _ Hm Hinj Hin) as Hf.
  pose proof (prob_range U _ c0 (wrong dec (cregs s') (Nat.odd (count (inverts isx) l))) HU Hf) as [H0 H1]. split; [exact H0|].
  destruct (decide _) as [Hw|Hw]; [exact H1|].
  assert (E : prob U (is0 ++ js ++ is2) (c0, zero_state) (wrong dec (cregs s') (Nat.odd (count (inverts isx) l))) = 0%Qc); [|rewrite E; apply Qcle_refl].
  apply (C60_certain U _ c0 _ HU Hf). intros k1 He Hp. apply wrong_right. eapply Ht; [exact Hinj|lia|exact He|exact Hp].
Qed.

(** ** Any noise *)
Lemma scale_le p a b : (0 <= p -> a <= b -> p * a <= p * b)%Qc.
Proof. intros Hp H. rewrite !(Qcmult_comm p). by apply Qcmult_le_compat_r. Qed.
Lemma any_noise U lat isx s q dh dw l is0 is1 is2 s' T D rx dec L c0 : memory lat isx s q dh dw l is0 is1 is2 s' T D rx ->
  tolerates lat isx s q dh dw l is0 is1 is2 s' dec -> noise_model is1 L -> (forall c, c ∈ L -> covers U (is0 ++ no_code c ++ is2)) ->
  (error_rate U is0 is2 c0 dec (cregs s') (Nat.odd (count (inverts isx) l)) L <= many_faults (enough (extent isx dh dw)) L)%Qc.
Proof.
  intros Hm Ht HL HU. unfold error_rate, many_faults. induction HL as [|c L [H0 Hinj] HL IHL]; [apply Qcle_refl|].
  specialize (IHL (fun c Hc => HU c (elem_of_list_further _ _ _ Hc))). specialize (HU c (elem_of_list_here _ _)).
  pose proof (memory_prob U _ _ _ _ _ _ _ _ _ _ _ _ _ _ dec (no_code c) (no_faults c) c0 Hm Ht Hinj HU) as [P0 P1].
  rewrite fmap_cons, qsum_cons, filter_cons. destruct (decide (enough (extent isx dh dw) <= no_faults c)%nat) as [Hw|Hw].
  - rewrite fmap_cons, qsum_cons. apply Qcplus_le_compat; [|done]. eapply Qcle_trans; [apply scale_le; [exact H0|exact P1]|]. rewrite Qcmult_1_r. apply Qcle_refl.
  - rewrite <-(Qcplus_0_l (qsum (no_prob <$> _))). apply Qcplus_le_compat; [|done]. eapply Qcle_trans; [apply scale_le; [exact H0|exact P1]|]. rewrite Qcmult_0_r. apply Qcle_refl.
Qed.

(** ** Independent noise *)
Definition hit (a : pauli1) : bool := a.1 || a.2.
Definition hits (pat : list pauli1) : nat := ntrue (hit <$> pat).
Lemma hits_app p1 p2 : hits (p1 ++ p2) = (hits p1 + hits p2)%nat.
Proof. unfold hits. by rewrite fmap_app, ntrue_app. Qed.
Lemma inject_paulis is js w p qs : length p = length qs -> inject is js w -> inject is (paulis p qs ++ js) (hits p + w).
Proof.
  intros Hp Hi. revert qs Hp. induction p as [|a p IHp]; intros [|q qs] Hp; try done. injection Hp as Hp. specialize (IHp qs Hp).
  assert (E : paulis (a :: p) (q :: qs) ++ js = pauli_gates a q ++ paulis p qs ++ js) by (unfold paulis; cbn [zip_with mjoin list_join]; by rewrite <-app_assoc).
  rewrite E. unfold hits. rewrite fmap_cons, ntrue_cons. fold (hits p). destruct a as [[] []]; cbn [hit fst snd orb Nat.add].
  - exact (InjFault GY q _ _ _ IHp).
  - exact (InjFault GX q _ _ _ IHp).
  - exact (InjFault GZ q _ _ _ IHp).
  - exact IHp.
Qed.
Lemma inject_all is : forall pat, length pat = spots is -> inject is (noisy_all is pat) (hits pat).
Proof.
  induction is as [|i is IHl]; intros pat Hp; cbn [spots noisy_all] in *; [apply nil_length_inv in Hp as ->; constructor|]. set (n := length (instr_qubits i)) in *.
  assert (Ea : length (take n pat) = length (instr_qubits i)) by (rewrite take_length; lia).
  assert (Eb : length (take n (drop n pat)) = length (instr_qubits i)) by (rewrite take_length, drop_length; lia).
  assert (E : hits pat = (hits (take n pat) + (hits (take n (drop n pat)) + hits (drop (n + n) pat)))%nat) by (by rewrite <-!hits_app, <-drop_drop, !take_drop).
  rewrite E. apply inject_paulis; [done|]. apply InjKeep. apply inject_paulis; [done|]. apply IHl. rewrite drop_length. lia.
Qed.
Lemma paulis_qubits p qs i q : i ∈ paulis p qs -> q ∈ instr_qubits i -> q ∈ qs.
Proof.
  revert qs. induction p as [|a p IHp]; intros [|x qs] Hi Hq; try (by apply elem_of_nil in Hi). unfold paulis in Hi. cbn [zip_with mjoin list_join] in Hi.
  apply elem_of_app in Hi as [Hi|Hi]; [|right; by eapply IHp]. apply elem_of_cons. left. unfold pauli_gates in Hi. apply elem_of_app in Hi as [Hi|Hi]; [destruct a.1|destruct a.2];
    try (by apply elem_of_nil in Hi); apply elem_of_list_singleton in Hi as ->; cbn in Hq; by apply elem_of_list_singleton in Hq.
Qed.
Lemma noisy_all_qubits is : forall pat i q, i ∈ noisy_all is pat -> q ∈ instr_qubits i -> exists j, j ∈ is /\ q ∈ instr_qubits j.
Proof.
  induction is as [|j is IHl]; intros pat i q Hi Hq; [by apply elem_of_nil in Hi|]. cbn [noisy_all] in Hi.
  apply elem_of_app in Hi as [Hi|[Hi|[Hi|Hi]%elem_of_app]%elem_of_app].
  - exists j. split; [left|by eapply paulis_qubits].
  - apply elem_of_list_singleton in Hi as ->. exists j. split; [left|done].
  - exists j. split; [left|by eapply paulis_qubits].
  - destruct (IHl _ _ _ Hi Hq) as (j' & Hj & Hq'). exists j'. split; [by right|done].
Qed.
Lemma covers_all U is0 is1 is2 pat : covers U (is0 ++ is1 ++ is2) -> covers U (is0 ++ noisy_all is1 pat ++ is2).
Proof.
  intros [HU Hin]. split; [done|]. intros i q [Hi|[Hi|Hi]%elem_of_app]%elem_of_app Hq.
  - eapply Hin; [|exact Hq]. apply elem_of_app. by left.
  - destruct (noisy_all_qubits _ _ _ _ Hi Hq) as (j & Hj & Hq'). eapply Hin; [|exact Hq']. apply elem_of_app. right. apply elem_of_app. by left.
  - eapply Hin; [|exact Hq]. apply elem_of_app. right. apply elem_of_app. by right.
Qed.
Lemma noise_total mu : is_noise mu -> (mu (false, true) + mu (true, false) + mu (true, true) = 1 - mu (false, false))%Qc.
Proof. intros [_ E]. cbn [pauli1s fmap list_fmap] in E. rewrite !qsum_cons, qsum_nil in E. rewrite <-E. ring. Qed.
Lemma expected_hits mu n g : is_noise mu -> expected mu n (fun l => g (hit <$> l)) = bexp (replicate n (1 - mu (false, false))%Qc) g.
Proof.
  intros Hm. revert g. induction n as [|n IHn]; intros g; [by rewrite expected_0|]. rewrite expected_S. cbn [replicate bexp].
  rewrite <-(IHn (fun b => g (true :: b))), <-(IHn (fun b => g (false :: b))).
  cbn [fmap list_fmap hit fst snd orb]. fold (fmap (M := list) hit). rewrite <-(noise_total mu Hm) at 1.
  set (A := expected mu n _). set (B := expected mu n _). ring.
Qed.
Lemma iid_noise U lat isx s q dh dw l is0 is1 is2 s' T D rx dec mu c0 : memory lat isx s q dh dw l is0 is1 is2 s' T D rx ->
  tolerates lat isx s q dh dw l is0 is1 is2 s' dec -> is_noise mu -> covers U (is0 ++ is1 ++ is2) ->
  let m := enough (extent isx dh dw) in let M := spots is1 in let x := (1 - mu (false, false))%Qc in
  let rate := iid_rate U is0 is1 is2 c0 mu dec (cregs s') (Nat.odd (count (inverts isx) l)) in
  (rate <= binom_tail M m x /\ forall y, x <= y -> rate <= qnat (binom M m) * y ^ m)%Qc.
Proof.
  intros Hm Ht Hmu HU m M x rate.
  assert (H : (rate <= at_least (replicate M x) m)%Qc).
  { unfold rate, iid_rate, at_least, x. rewrite <-expected_hits by done. apply expected_le; [done|]. intros pat Hp.
    pose proof (memory_prob U _ _ _ _ _ _ _ _ _ _ _ _ _ _ dec _ _ c0 Hm Ht (inject_all is1 pat Hp) (covers_all U is0 is1 is2 pat HU)) as [_ P1].
    eapply Qcle_trans; [exact P1|]. fold (hits pat). unfold m. case_decide as Hw.
    - rewrite (proj2 (Nat.leb_le _ _) Hw). apply Qcle_refl.
    - rewrite (proj2 (Nat.leb_gt _ _)) by lia. apply Qcle_refl. }
  assert (Hx : (0 <= x <= 1)%Qc).
  { destruct Hmu as [H0 E]. pose proof (noise_total mu (conj H0 E)) as E'. split.
    - unfold x. rewrite <-E'. rewrite <-(Qcplus_0_l 0). apply Qcplus_le_compat; [|apply H0]. rewrite <-(Qcplus_0_l 0). apply Qcplus_le_compat; apply H0.
    - unfold x. rewrite Qcle_minus_iff. replace (1 + - (1 - mu (false, false)))%Qc with (mu (false, false)) by ring. apply H0. }
  split; [by rewrite <-tail_binom|]. intros y Hy. eapply Qcle_trans; [exact H|]. rewrite <-(replicate_length M x) at 2. apply tail_bound.
  - by apply Forall_replicate.
  - by apply Forall_replicate.
  - eapply Qcle_trans; [apply Hx|done].
Qed.

(** ** The theorems *)
(** Whatever the noise: a shot is decoded wrongly with at most the probability that there are more
    than ((d-1)/2)/2 faults. *)
Theorem C61_any U lat isx s q dh dw l is0 is1 is2 s' T D rx ep L c0 :
  memory lat isx s q dh dw l is0 is1 is2 s' T D rx -> noise_model is1 L -> (forall c, c ∈ L -> covers U (is0 ++ no_code c ++ is2)) ->
  (error_rate U is0 is2 c0 (fun key => correct_readout rx D ep key isx) (cregs s') (Nat.odd (count (inverts isx) l)) L
   <= many_faults (enough (extent isx dh dw)) L)%Qc.
Proof. intros Hm HL HU. eapply any_noise; [exact Hm|by eapply memory_plain|done|done]. Qed.
Print Assumptions C61_any.
(** Independent errors: with [M] places for errors the rate is at most the binomial tail, and so
    at most C(M, m) y^m where y bounds the probability of an error. *)
Theorem C61_independent U lat isx s q dh dw l is0 is1 is2 s' T D rx ep mu c0 :
  memory lat isx s q dh dw l is0 is1 is2 s' T D rx -> is_noise mu -> covers U (is0 ++ is1 ++ is2) ->
  let m := enough (extent isx dh dw) in let M := spots is1 in let x := (1 - mu (false, false))%Qc in
  let rate := iid_rate U is0 is1 is2 c0 mu (fun key => correct_readout rx D ep key isx) (cregs s') (Nat.odd (count (inverts isx) l)) in
  (rate <= binom_tail M m x /\ forall y, x <= y -> rate <= qnat (binom M m) * y ^ m)%Qc.
Proof. intros Hm Hmu HU. eapply iid_noise; [exact Hm|by eapply memory_plain|done|done]. Qed.
Print Assumptions C61_independent.
(** The same with a small error probability given to the decoder. *)
Theorem C61_weighted U lat isx s q dh dw l is0 is1 is2 s' T D rx p c0 :
  memory lat isx s q dh dw l is0 is1 is2 s' T D rx -> small_prob isx dh dw D p ->
  let dec key := correct_readout_p rx D (Some p) key isx in let v := Nat.odd (count (inverts isx) l) in let m := enough (extent isx dh dw) in
  (forall L, noise_model is1 L -> (forall c, c ∈ L -> covers U (is0 ++ no_code c ++ is2)) ->
    error_rate U is0 is2 c0 dec (cregs s') v L <= many_faults m L)%Qc /\
  (forall mu y, is_noise mu -> covers U (is0 ++ is1 ++ is2) -> 1 - mu (false, false) <= y ->
    iid_rate U is0 is1 is2 c0 mu dec (cregs s') v <= qnat (binom (spots is1) m) * y ^ m)%Qc.
Proof.
  intros Hm Hp dec v m. pose proof (memory_weighted _ _ _ _ _ _ _ _ _ _ _ _ _ _ p Hm Hp) as Ht. split.
  - intros L HL HU. by eapply any_noise.
  - intros mu y Hmu HU Hy. by eapply (iid_noise U _ _ _ _ _ _ _ _ _ _ _ _ _ _ _ mu c0 Hm Ht Hmu HU).
Qed.
Print Assumptions C61_weighted.

(** ** The 5 by 3 lattice of C27_ex *)
(** Two rounds, a logical X and a third round, and the readout of all data qubits; errors X, Y and
    Z with probability 1/100000 each before and after every instruction.  There are 726 places for
    errors and the rate is at most 1/4000. *)
Definition depolarizing (p : Qc) : noise := fun a => if hit a then p else (1 - (p + p + p))%Qc.
Definition tiny : Qc := Q2Qc (1 # 100000).
Definition run_spots (m : st * res tqubit) (l : list ev) : nat :=
  match m with (s, Ok q) => spots (drop (length (s_instrs s)) (s_instrs (run_evs q l s).1)) | _ => 0 end.
Lemma run_spots_eq m l q s' is : m.2 = Ok q -> run_evs q l m.1 = (s', Ok tt) -> emitted m.1 s' is -> run_spots m l = spots is.
Proof. destruct m as [s r]. cbn. intros -> E Hem. cbn. rewrite E. cbn [fst]. unfold emitted in Hem. by rewrite Hem, drop_app. Qed.
Lemma spots_app is1 is2 : spots (is1 ++ is2) = (spots is1 + spots is2)%nat.
Proof. induction is1 as [|i is1 IHl]; [done|]. cbn [app spots]. rewrite IHl. lia. Qed.
Definition qubits_of (is : list instr) : list qubit := remove_dups (mjoin (instr_qubits <$> is)).
Lemma covers_of is : covers (qubits_of is) is.
Proof.
  split; [apply NoDup_remove_dups|]. intros i q Hi Hq. apply elem_of_remove_dups, elem_of_list_join. eexists. split; [exact Hq|]. apply elem_of_list_fmap. by exists i.
Qed.
Example C61_ex : exists q is0 is1 s' D, e2e_q.2 = Ok q /\ lat_code (tq_lat q) = XZZX /\
  memory true false e2e_q.1 q 5 3 cf_ops is0 is1 [] s' 3 D rx_ref /\ is_noise (depolarizing tiny) /\ spots is1 = 726%nat /\
  (iid_rate (qubits_of (is0 ++ is1 ++ [])) is0 is1 [] (fun _ => false) (depolarizing tiny) (fun key => correct_readout rx_ref D EPNone key false) (cregs s') true <= Q2Qc (1 # 4000))%Qc.
Proof.
  destruct e2e_ok as (q & Hq & Hok & Hc).
  assert (Hrun : run_ok e2e_q ((Noise.Call <$> [OResetZ; OStab]) ++ (Noise.Call <$> cf_ops ++ [OLatZ])) = true) by (vm_compute; reflexivity).
  destruct (run_ok_inv _ _ _ _ _ Hq Hok Hrun) as (s' & is & Hr & Hem).
  destruct (run_split _ _ _ _ _ _ _ Hok Hr) as (sa & is0 & is1 & Hra & Hea & Hrb & Heb).
  destruct (decoder_for_rotated false 5 3 3 v53) as (D & ED & HD).
  assert (Hme : memory true false e2e_q.1 q 5 3 cf_ops is0 is1 [] s' 3 D rx_ref).
  { split; [exact Hok|reflexivity|exact e2e_empty|done| |exact cf_body|exact HD|vm_compute; discriminate|exact rx_ref_ok].
    exists sa, s'. split; [exact Hra|]. split; [exact Hea|]. split; [exact Hrb|]. split; [exact Heb|]. split; [reflexivity|]. unfold emitted. by rewrite app_nil_r. }
  assert (Hmu : is_noise (depolarizing tiny)) by (split; [intros [[] []]; vm_compute; discriminate|apply Qc_is_canon; vm_compute; reflexivity]).
  assert (HM : spots is1 = 726%nat).
  { pose proof (run_spots_eq _ _ _ _ _ Hq Hra Hea) as E0. pose proof (run_spots_eq _ _ _ _ _ Hq Hr (emitted_join _ _ _ _ _ Hea Heb)) as E1. rewrite spots_app in E1.
    assert (run_spots e2e_q (Noise.Call <$> [OResetZ; OStab]) = 366%nat) as X0 by (vm_compute; reflexivity).
    assert (run_spots e2e_q ((Noise.Call <$> [OResetZ; OStab]) ++ (Noise.Call <$> cf_ops ++ [OLatZ])) = 1092%nat) as X1 by (vm_compute; reflexivity).
    rewrite X0 in E0. rewrite X1 in E1. lia. }
  exists q, is0, is1, s', D. split; [exact Hq|]. split; [exact Hc|]. split; [exact Hme|]. split; [exact Hmu|]. split; [exact HM|].
  destruct (C61_independent _ _ _ _ _ _ _ _ _ _ _ _ _ _ _ EPNone (depolarizing tiny) (fun _ => false) Hme Hmu (covers_of _)) as [_ H].
  eapply Qcle_trans; [apply (H (Q2Qc (3 # 100000)))|].
  - vm_compute. discriminate.
  - rewrite HM. replace (binom 726 (enough (extent false 5 3))) with 263175; [vm_compute; discriminate|].
    change (enough (extent false 5 3)) with 2%nat. clear.
    assert (H : forall n, binom (S n) 2 = Z.of_nat n * Z.of_nat (S n) / 2).
    { intros n. induction n as [|n IHn]; [done|]. change (binom (S (S n)) 2) with (binom (S n) 1 + binom (S n) 2). rewrite IHn.
      assert (E1 : forall n, binom n 1 = Z.of_nat n) by (clear; intros n; induction n as [|n IHn]; [done|]; change (binom (S n) 1) with (binom n 0 + binom n 1); rewrite binom_0, IHn; lia).
      rewrite E1. rewrite Z.add_comm, <-Z.div_add by done. f_equal. lia. }
    rewrite H. reflexivity.
Qed.
(** Noise of one kind only: with probability 1/100, Y on data qubit 7 in the middle of the second
    round.  No shot is decoded wrongly. *)
Example C61_ex_any : exists q is0 is1 s' D, let L := [Case (1 - hundredth) is1 0; Case hundredth (take 30 is1 ++ [IX (dq "tq" 7); IZ (dq "tq" 7)] ++ drop 30 is1) 1] in
  memory true false e2e_q.1 q 5 3 cf_ops is0 is1 [] s' 3 D rx_ref /\ noise_model is1 L /\ many_faults (enough (extent false 5 3)) L = 0%Qc /\
  forall U c0, (forall c, c ∈ L -> covers U (is0 ++ no_code c ++ [])) ->
    (error_rate U is0 [] c0 (fun key => correct_readout rx_ref D EPNone key false) (cregs s') true L <= 0)%Qc.
Proof.
  destruct C61_ex as (q & is0 & is1 & s' & D & Hq & Hc & Hme & _). exists q, is0, is1, s', D. intros L.
  assert (HL : noise_model is1 L).
  { constructor; [split; [vm_compute; discriminate|apply inject_refl]|]. constructor; [|constructor]. split; [vm_compute; discriminate|]. exact (inject_at 30 GY (dq "tq" 7) is1). }
  assert (H0 : many_faults (enough (extent false 5 3)) L = 0%Qc) by (apply Qc_is_canon; reflexivity).
  split; [exact Hme|]. split; [exact HL|]. split; [exact H0|]. intros U c0 HU. rewrite <-H0. exact (C61_any U _ _ _ _ _ _ _ _ _ _ _ _ _ _ EPNone L c0 Hme HL HU).
Qed.
(** The repetition code of C55_ex: the error rate of the shots is 107/12500. *)
Example C55_shots_ex : exists q s' is, rep_q.2 = Ok q /\ run_evs q (Noise.Call <$> experiment false [OIdData]) rep_q.1 = (s', Ok tt) /\ emitted rep_q.1 s' is /\
  shot_rate (qubits_of is) is (fun _ => false) (bit_flip tenth) (fun key => correct_readout rx_ref rep_dec EPNone key false) (cregs s') false = Q2Qc (107 # 12500).
Proof.
  destruct rep_ok as (q & Hq & Hok & _ & _ & Hc).
  assert (Hrun : run_ok rep_q (Noise.Call <$> experiment false [OIdData]) = true) by (vm_compute; reflexivity).
  destruct (run_ok_inv _ _ _ _ _ Hq Hok Hrun) as (s' & is & Hr & Hem).
  assert (Ht : trial ZAmp false rep_q.1 q 5 1 [OIdData] s' is (fun _ => false, zero_state) 3 rep_dec rx_ref (bit_flip tenth)).
  { split; [exact Hok|reflexivity|exact rep_empty|exact Hr|exact Hem|repeat constructor|apply C10_initially_clean|exact rep_dec_ok|vm_compute; discriminate|exact rx_ref_ok|].
    apply bit_flip_noise, tenth_range. }
  exists q, s', is. split; [exact Hq|]. split; [exact Hr|]. split; [exact Hem|].
  assert (Hx : flip_prob false (lat_code (tq_lat q)) (bit_flip tenth) (eq tenth)) by (rewrite Hc; split; [apply Qc_is_canon; vm_compute; reflexivity|discriminate]).
  etransitivity; [exact (C55_shots_repetition (qubits_of is) _ _ _ _ _ _ _ _ _ _ _ _ _ EPNone tenth Ht (covers_of is) eq_refl eq_refl Hx)|].
  apply Qc_is_canon. vm_compute. reflexivity.
Qed.
