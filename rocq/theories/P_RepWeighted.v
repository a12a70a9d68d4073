(** Property C75: the threshold experiment of the repetition code, decoded with the physical
    error rate as error probability.  Real numbers stand for the floats of the library. *)
From Coq Require Import Ascii QArith Qcanon Qreals Reals Lra Classical_Prop.
From Verif Require Import LineDecode FairNorm P_Fair Noisy FaultFacts Parse P_Parse P_Decode P_Sharp P_DegenDecode FrameDecode P_EndToEndProb RxRef P_Logical QTotal P_CircuitFaults P_CircuitHalf P_Degen P_Threshold P_Bench Bench P_BenchCode P_Rate.
From stdpp Require Export list.
Open Scope Z_scope.

(** * C75 *)
Lemma line_extent isx dh dw : valid_size dh dw -> 1 < dh * dw -> n_chains isx dh dw = 1 -> 3 <= extent isx dh dw.
Proof. intros Hv H1 Hn. destruct (extent_odd' isx dh dw Hv) as [e He]. unfold n_chains, extent in *. destruct isx; subst; lia. Qed.

(** On a repetition code with one round of events all degeneracies are 1. *)
Theorem C75_unique isx dh dw g a b n : valid_size dh dw -> 1 < dh * dw -> n_chains isx dh dw = 1 ->
  make_syndrome_graph isx dh dw 1 = Ok g -> proper_pair g (a, b) -> degeneracy isx g (virtual_nodes isx dh dw) a b n -> n = 1.
Proof.
  intros Hv H1 Hn Hg Hpp Hd. pose proof (line_extent isx dh dw Hv H1 Hn) as Hext. assert (HT : 1 <= 1) by done.
  rewrite (degeneracy_unique _ _ _ _ _ _ _ Hd (dg_degeneracy isx dh dw 1 g rx_ref Hv Hext HT Hg rx_ref_ok (a, b) Hpp)).
  destruct Hpp as (Ha & Hb & _ & Hvv). by apply (line_dg isx dh dw g Hv Hext Hg Hn rx_ref rx_ref_ok).
Qed.
Print Assumptions C75_unique.

(** So the error probability does not matter: the value is that of the decoder without one, for
    every string of two rounds and a logical readout ... *)
Theorem C75_same isx dh dw D rx rx' p ep cs names last : valid_size dh dw -> 1 < dh * dw -> n_chains isx dh dw = 1 ->
  decoder_for isx dh dw 1 D -> rx_ok rx -> rx_ok rx' -> (0 < p < 1 /\ p <> / 2)%R -> (length names <= 2)%nat ->
  let key := counts_key cs (((., dh * dw - 1) <$> names) ++ [(last, 1)]) in
  correct_readout_p rx D (Some p) key isx = correct_readout rx' D ep key isx.
Proof.
  intros Hv H1 Hn HD Hrx Hrx' Hp HN key. pose proof (line_extent isx dh dw Hv H1 Hn) as Hext.
  destruct (decoder_inv isx dh dw 1 D HD) as (Hh & Hw & g & Hg & Eg).
  unfold correct_readout_p, correct_readout. rewrite Hh, Hw. unfold key.
  destruct (parse_key dh dw cs names last isx (Some (type_string isx)) Hv H1) as ((X & Z') & -> & Hnd & Hev).
  change (if isx then X else Z') with (pick isx (X, Z')).
  apply (line_same isx dh dw g rx p Hv Hext Eg Hn Hrx Hp D (conj Hh (conj Hw Hg)) rx' ep); [done|].
  split; [done|]. intros n He%Hev. destruct (changes_node isx dh dw 1 g _ n Hv Eg He) as (Hn1 & Hn2 & Hn3 & _).
  unfold recorded in Hn3. rewrite fmap_length in Hn3. split; [|done]. apply Hn1. lia.
Qed.
Print Assumptions C75_same.
(** ... and of one round and a lattice readout. *)
Theorem C75_same_lattice dh dw D rx rx' p ep cs nm last : valid_size dh dw -> 1 < dh * dw -> n_chains false dh dw = 1 ->
  decoder_for false dh dw 1 D -> rx_ok rx -> rx_ok rx' -> (0 < p < 1 /\ p <> / 2)%R ->
  let key := counts_key cs [(nm, dh * dw - 1); (last, dh * dw)] in
  correct_readout_p rx D (Some p) key false = correct_readout rx' D ep key false.
Proof.
  intros Hv H1 Hn HD Hrx Hrx' Hp key. pose proof (line_extent false dh dw Hv H1 Hn) as Hext.
  destruct (decoder_inv false dh dw 1 D HD) as (Hh & Hw & g & Hg & Eg).
  unfold correct_readout_p, correct_readout. rewrite Hh, Hw. unfold key.
  destruct (C14_lattice_z dh dw cs [] nm last Hv H1) as (X & Z' & E & _ & Hnd & _ & Hev). cbn [type_string]. cbn [app fmap list_fmap] in E. rewrite E.
  apply (line_same false dh dw g rx p Hv Hext Eg Hn Hrx Hp D (conj Hh (conj Hw Hg)) rx' ep); [done|].
  split; [done|]. intros n He%Hev. destruct (changes_node false dh dw 1 g _ n Hv Eg He) as (Hn1 & Hn2 & Hn3 & _).
  cbn in Hn3. split; [|done]. apply Hn1. lia.
Qed.
Print Assumptions C75_same_lattice.

(** At probability 1/2, on every lattice: the value read if no syndrome bit of the type changes,
    and ZeroDivisionError if one does. *)
Theorem C75_half isx dh dw T D rx cs names last : valid_size dh dw -> 1 < dh * dw ->
  decoder_for isx dh dw T D -> rx_ok rx -> Z.of_nat (length names) <= T + 1 ->
  let key := counts_key cs (((., dh * dw - 1) <$> names) ++ [(last, 1)]) in
  let event := exists e, changes (recorded cs names) (P_Graph.nsyn isx dh dw) (syn_off isx dh dw) (coordk isx dw) e in
  (~ event -> correct_readout_p rx D (Some (/ 2)%R) key isx = Ok (Z.b2z (cs (last, 0)))) /\
  (event -> correct_readout_p rx D (Some (/ 2)%R) key isx = Err ZeroDivisionError).
Proof.
  intros Hv H1 HD Hrx HN key event. destruct (decoder_inv isx dh dw T D HD) as (Hh & Hw & g & Hg & Eg).
  unfold correct_readout_p. rewrite Hh, Hw. unfold key.
  destruct (parse_key dh dw cs names last isx (Some (type_string isx)) Hv H1) as ((X & Z') & -> & Hnd & Hev).
  change (if isx then X else Z') with (pick isx (X, Z')). split.
  - intros Hno. assert (pick isx (X, Z') = []) as ->; [|by rewrite C45_no_events].
    destruct (pick isx (X, Z')) as [|e l]; [done|]. destruct Hno. exists e. apply Hev. left.
  - intros [e He]. destruct (changes_node isx dh dw T g _ e Hv Eg He) as (_ & Ht0 & Ht & Hext). unfold recorded in Ht. rewrite fmap_length in Ht.
    destruct (C45_outcome isx dh dw T D rx (/ 2) (cs (last, 0)) (pick isx (X, Z')) g Hv Hext ltac:(lia) HD Hrx Hg) as (_ & H2 & _).
    + intros E. apply Hev in He. rewrite E in He. by apply elem_of_nil in He.
    + done.
    + intros n Hn%Hev. destruct (changes_node isx dh dw T g _ n Hv Eg Hn) as (Hn1 & Hn2 & Hn3 & _).
      unfold recorded in Hn3. rewrite fmap_length in Hn3. split; [|done]. apply Hn1. lia.
    + by apply H2.
Qed.
Print Assumptions C75_half.

(** ** The experiment *)
(** The logical error rate is the probability of a majority of errors, whatever the error
    probability given to the decoder, above 1/2 as well as below. *)
Lemma weighted_rate (A : Amp) isx s q dh dw l s' is (k0 : config A) D rx mu p cond x :
  trial A isx s q dh dw l s' is k0 1 D rx mu -> wrong_prob (noisy is) k0 (decodes_p isx l s' D rx p) (places is) cond ->
  n_chains isx dh dw = 1 -> count is_id_data l = 1%nat -> flip_prob isx (lat_code (tq_lat q)) mu (eq x) -> (0 < p < 1 /\ p <> / 2)%R ->
  expected mu (places is) cond = binom_tail (dist isx dh dw) (majority (extent isx dh dw)) x.
Proof.
  intros Ht Hc Hn Hb Hx Hp. pose proof Ht as [Hok H1 Hcr Hr Hem Hl Hcl HD HT Hrx Hmu]. pose proof (lo_valid _ _ _ _ Hok) as Hv.
  destruct (lat_ok_cnt _ _ _ _ Hok) as [n Hcn].
  apply (C55_repetition (extent isx dh dw)).
  exists A, isx, s, q, dh, dw, l, s', is, k0, 1, D, rx, mu, EPNone, cond. split; [exact Ht|]. split; [|done].
  intros pat Hpat. destruct (Hc pat Hpat) as (Hr1 & Hr2 & Hr3). split; [exact Hr1|].
  assert (Hiff : forall k1, exec (noisy is pat) k0 k1 -> possible k1 -> decodes isx l s' D rx EPNone k1 <-> decodes_p isx l s' D rx p k1).
  { intros k1 He Hk. assert (HM : length pat = (blocks l * Z.to_nat (dh * dw))%nat) by (rewrite Hpat; by eapply experiment_places).
    destruct (noisy_record A isx s q dh dw l s' is k0 k1 pat n Hok Hcn Hcr Hr Hem Hl Hcl HM He Hk) as (E & EN & _).
    unfold decodes, decodes_p. rewrite E. rewrite (C75_same isx dh dw D rx rx p EPNone); try done. lia. }
  split; intros H; [apply Hr2|apply Hr3]; intros k1 He Hk; specialize (H k1 He Hk); rewrite (Hiff k1 He Hk) in H; exact H.
Qed.
Theorem C75_rate U isx s q dh dw l s' is c0 D rx mu p x :
  trial ZAmp isx s q dh dw l s' is (c0, zero_state) 1 D rx mu -> covers U is ->
  n_chains isx dh dw = 1 -> count is_id_data l = 1%nat -> flip_prob isx (lat_code (tq_lat q)) mu (eq x) -> (0 < p < 1 /\ p <> / 2)%R ->
  shot_rate U is c0 mu (fun key => correct_readout_p rx D (Some p) key isx) (cregs s') (Nat.odd (count (inverts isx) l)) =
  binom_tail (dist isx dh dw) (majority (extent isx dh dw)) x.
Proof.
  intros Ht HU Hn Hb Hx Hp.
  pose proof (trial_wrong U _ _ _ _ _ _ _ _ _ _ _ _ _ (fun key => correct_readout_p rx D (Some p) key isx) (Nat.odd (count (inverts isx) l)) Ht HU) as Hc.
  eapply weighted_rate; [exact Ht|exact Hc|done..].
Qed.
Print Assumptions C75_rate.

(** ** The benchmark *)
(** A string of the experiment: two rounds and a logical readout. *)
Definition two_rounds (dh dw : Z) (s : string) : Prop :=
  exists cs a b last, s = counts_key cs [(a, dh * dw - 1); (b, dh * dw - 1); (last, 1)].
(** At every rate of the sweep other than 1/2 the rate computed from the counts is the one
    computed without error probability. *)
Theorem C75_bench dh dw D rx correct (counts : list (string * Z)) (r : Qc) : valid_size dh dw -> 1 < dh * dw -> n_chains false dh dw = 1 ->
  decoder_for false dh dw 1 D -> rx_ok rx -> Forall (fun kv => two_rounds dh dw kv.1) counts -> (0 < r < 1)%Qc -> (r + r <> 1)%Qc ->
  logical_error_rate (bench_decode rx D) correct counts (Some r) = logical_error_rate (bench_decode rx D) correct counts None.
Proof.
  intros Hv H1 Hn HD Hrx Hk Hr Hr2. unfold logical_error_rate.
  assert (E : forall te, rfold (fun te kv => match bench_decode rx D (Some r) kv.1 with Err e => Err e | Ok v => Ok (te.1 + kv.2, if bool_decide (v <> correct) then te.2 + kv.2 else te.2) end) te counts =
    rfold (fun te kv => match bench_decode rx D None kv.1 with Err e => Err e | Ok v => Ok (te.1 + kv.2, if bool_decide (v <> correct) then te.2 + kv.2 else te.2) end) te counts).
  { induction Hk as [|[s n] counts (cs & a & b & last & Es) Hk IHk]; intros te; [done|]. cbn [rfold fst snd] in *.
    assert (Ed : bench_decode rx D (Some r) s = bench_decode rx D None s).
    { unfold bench_decode. change ((fun q : Qc => Q2R q) <$> Some r) with (Some (Q2R r)). change ((fun q : Qc => Q2R q) <$> None) with (@None R).
      rewrite Es. destruct (C45_plain rx D false 0 [] (counts_key cs [(a, dh * dw - 1); (b, dh * dw - 1); (last, 1)])) as (_ & _ & -> & _).
      apply (C75_same false dh dw D rx rx (Q2R r) EPNone cs [a; b] last); try done.
      destruct Hr as [Hr0 Hr1]. split; [split|].
      - rewrite <- RMicromega.Q2R_0. by apply Qlt_Rlt.
      - rewrite <- RMicromega.Q2R_1. by apply Qlt_Rlt.
      - intros Eh. apply Hr2. apply Qc_is_canon. unfold Qcplus. cbn [this Q2Qc]. rewrite Qred_correct. apply eqR_Qeq. rewrite Q2R_plus, Eh. transitivity (Q2R 1); [rewrite RMicromega.Q2R_1; lra|]. done. }
    rewrite Ed. destruct (bench_decode rx D None s); [apply IHk|done]. }
  by rewrite E.
Qed.
Print Assumptions C75_bench.

(** At rate 1/2 it cannot be computed once a syndrome bit changed in one of the shots: the sweep
    of a benchmark stops there. *)
Definition changed (dh dw : Z) (s : string) : Prop :=
  exists cs a b last loc, s = counts_key cs [(a, dh * dw - 1); (b, dh * dw - 1); (last, 1)] /\ 0 <= loc < num_syn_z dh dw /\ cs (a, loc) <> cs (b, loc).
Theorem C75_bench_half dh dw T D rx correct (counts : list (string * Z)) (r : Qc) : valid_size dh dw -> 1 < dh * dw ->
  decoder_for false dh dw T D -> 1 <= T -> rx_ok rx -> Forall (fun kv => two_rounds dh dw kv.1) counts -> (r + r = 1)%Qc ->
  (exists s n, (s, n) ∈ counts /\ changed dh dw s) ->
  logical_error_rate (bench_decode rx D) correct counts (Some r) = Err ZeroDivisionError.
Proof.
  intros Hv H1 HD HT Hrx Hk Hr (s & n & Hin & Hch).
  assert (Er : Q2R r = (/ 2)%R).
  { assert (E : Q2R (r + r)%Q = Q2R 1%Q). { apply Qeq_eqR. assert (E0 : (this (r + r)%Qc == 1)%Q) by (rewrite Hr; done). cbn in E0. by rewrite Qred_correct in E0. }
    rewrite Q2R_plus, RMicromega.Q2R_1 in E. lra. }
  assert (Hdec : forall s, bench_decode rx D (Some r) s = correct_readout_p rx D (Some (/ 2)%R) s false).
  { intros s'. unfold bench_decode. change ((fun q : Qc => Q2R q) <$> Some r) with (Some (Q2R r)). by rewrite Er. }
  assert (Hz : forall s e, two_rounds dh dw s -> bench_decode rx D (Some r) s = Err e -> e = ZeroDivisionError).
  { intros s' e (cs & a & b & last & ->). rewrite Hdec.
    destruct (C75_half false dh dw T D rx cs [a; b] last Hv H1 HD Hrx ltac:(cbn; lia)) as [Ha Hb]. cbn [fmap list_fmap app] in Ha, Hb.
    intros He. assert (Hev : exists e, changes (recorded cs [a; b]) (P_Graph.nsyn false dh dw) (syn_off false dh dw) (coordk false dw) e).
    { destruct (Classical_Prop.classic (exists e, changes (recorded cs [a; b]) (P_Graph.nsyn false dh dw) (syn_off false dh dw) (coordk false dw) e)) as [H|H]; [done|]. rewrite (Ha H) in He. done. }
    rewrite (Hb Hev) in He. by injection He. }
  destruct (decodable_or (bench_decode rx D) (Some r) counts) as [Hd|(c1 & s1 & n1 & c2 & e & -> & Hd & He)].
  - exfalso. destruct (proj1 (list.Forall_forall _ _) Hd (s, n) Hin) as [v Hv']. cbn [fst] in Hv'. rewrite Hdec in Hv'.
    destruct Hch as (cs & a & b & last & loc & -> & Hl & Hne).
    destruct (C75_half false dh dw T D rx cs [a; b] last Hv H1 HD Hrx ltac:(cbn; lia)) as [_ Hb]. cbn [fmap list_fmap app] in Hb. rewrite Hb in Hv'; [done|].
    exists (0, (coordk false dw loc).1, (coordk false dw loc).2), 0%nat, (fun i => cs (a, i)), (fun i => cs (b, i)), loc. done.
  - rewrite (C36_rejected _ correct (Some r) c1 s1 n1 c2 e Hd He). f_equal. eapply Hz; [|exact He].
    apply (proj1 (list.Forall_forall _ _) Hk (s1, n1)). apply elem_of_app. right. left.
Qed.
Print Assumptions C75_bench_half.

(** ** Concrete cases *)
(** RepetitionDecoder of distance 5 for one round of events, 95% as error probability: two
    events are matched with each other.  1/2 is an error. *)
Definition rep5_bits (x : clbit) : bool := bool_decide (x ∈ [("b", 1); ("b", 2)])%string.
Definition rep5_key : string := counts_key rep5_bits [("a", 4); ("b", 4); ("r", 1)]%string.
Example C75_ex : exists D, decoder_for false 5 1 1 D /\ rep5_key = "0 0110 0000"%string /\
  correct_readout_p rx_ref D (Some (19 / 20)%R) rep5_key false = Ok 0 /\
  correct_readout_p rx_ref D (Some (/ 2)%R) rep5_key false = Err ZeroDivisionError /\
  logical_error_rate (bench_decode rx_ref D) 0 [(rep5_key, 10)] (Some (Q2Qc (3 # 4))) = Ok 0%Qc /\
  logical_error_rate (bench_decode rx_ref D) 0 [(rep5_key, 10)] (Some (Q2Qc (1 # 2))) = Err ZeroDivisionError.
Proof.
  assert (Hv : valid_size 5 1) by (by vm_compute). destruct (decoder_for_rotated false 5 1 1 Hv) as (D & ED & HD). exists D. split; [done|].
  split; [vm_compute; reflexivity|].
  assert (HP : correct_readout rx_ref D EPNone rep5_key false = Ok 0).
  { assert (HM : match rotated_decoder (Some (DTup [5; 1])) (Some 1) with Ok D => correct_readout rx_ref D EPNone rep5_key false | Err e => Err e end = Ok 0) by (clear; vm_compute; reflexivity).
    by rewrite ED in HM. }
  assert (H2 : two_rounds 5 1 rep5_key) by (exists rep5_bits, "a"%string, "b"%string, "r"%string; reflexivity).
  assert (HC : changed 5 1 rep5_key).
  { exists rep5_bits, "a"%string, "b"%string, "r"%string, 1. split; [reflexivity|]. split; [by vm_compute|]. vm_compute. discriminate. }
  split; [|split; [|split]].
  - rewrite <-HP. refine (C75_same false 5 1 D rx_ref rx_ref (19 / 20)%R EPNone rep5_bits ["a"; "b"]%string "r"%string Hv eq_refl eq_refl HD rx_ref_ok rx_ref_ok _ _); [lra|cbn; lia].
  - destruct (C75_half false 5 1 1 D rx_ref rep5_bits ["a"; "b"]%string "r"%string Hv eq_refl HD rx_ref_ok ltac:(cbn; lia)) as [_ H]. apply H.
    exists (0, (coordk false 1 1).1, (coordk false 1 1).2), 0%nat, (fun i => rep5_bits ("a"%string, i)), (fun i => rep5_bits ("b"%string, i)), 1. do 2 (split; [done|]). split; [by vm_compute|]. split; [|done]. vm_compute. discriminate.
  - rewrite (C75_bench 5 1 D rx_ref 0 [(rep5_key, 10)] _ Hv eq_refl eq_refl HD rx_ref_ok).
    + unfold logical_error_rate. cbn [rfold fst snd]. unfold bench_decode. change ((fun q : Qc => Q2R q) <$> None) with (@None R).
      destruct (C45_plain rx_ref D false 0 [] rep5_key) as (_ & _ & -> & _). rewrite HP. cbn iota beta. rewrite bool_decide_eq_false_2 by tauto. vm_compute. f_equal. by apply Qc_is_canon.
    + by repeat constructor.
    + split; by vm_compute.
    + intros E. apply (f_equal this) in E. vm_compute in E. done.
  - apply (C75_bench_half 5 1 1 D rx_ref 0 [(rep5_key, 10)] _ Hv eq_refl HD ltac:(lia) rx_ref_ok).
    + by repeat constructor.
    + by apply Qc_is_canon.
    + exists rep5_key, 10. split; [left|done].
Qed.
(** The experiment of distance 5 at physical error rate 3/4, decoded with that probability: the
    logical error rate is 459/512. *)
Definition three_quarters : Qc := Q2Qc (3 # 4).
Example C75_rate_ex : exists q s' is D, rep_q.2 = Ok q /\ run_evs q (Noise.Call <$> experiment false [OIdData]) rep_q.1 = (s', Ok tt) /\ emitted rep_q.1 s' is /\
  shot_rate (qubits_of is) is (fun _ => false) (bit_flip three_quarters) (fun key => correct_readout_p rx_ref D (Some (3 / 4)%R) key false) (cregs s') false = Q2Qc (459 # 512).
Proof.
  assert (Hv : valid_size 5 1) by (by vm_compute).
  destruct rep_ok as (q & Hq & Hok & _ & _ & Hc).
  assert (Hrun : run_ok rep_q (Noise.Call <$> experiment false [OIdData]) = true) by (vm_compute; reflexivity).
  destruct (run_ok_inv _ _ _ _ _ Hq Hok Hrun) as (s' & is & Hr & Hem).
  destruct (decoder_for_rotated false 5 1 1 Hv) as (D & ED & HD).
  assert (Ht : trial ZAmp false rep_q.1 q 5 1 [OIdData] s' is (fun _ => false, zero_state) 1 D rx_ref (bit_flip three_quarters)).
  { split; [exact Hok|reflexivity|exact rep_empty|exact Hr|exact Hem|repeat constructor|apply C10_initially_clean|exact HD|vm_compute; discriminate|exact rx_ref_ok|].
    apply bit_flip_noise. split; vm_compute; discriminate. }
  exists q, s', is, D. split; [exact Hq|]. split; [exact Hr|]. split; [exact Hem|].
  assert (Hx : flip_prob false (lat_code (tq_lat q)) (bit_flip three_quarters) (eq three_quarters)) by (rewrite Hc; split; [apply Qc_is_canon; vm_compute; reflexivity|discriminate]).
  etransitivity; [refine (C75_rate (qubits_of is) _ _ _ _ _ _ _ _ _ _ _ _ (3 / 4)%R three_quarters Ht (covers_of is) eq_refl eq_refl Hx _); lra|].
  apply Qc_is_canon. vm_compute. reflexivity.
Qed.
