(** Property C72: TopologicalBenchmark decodes every circuit as a Z experiment. *)
From Coq Require Import Ascii QArith Qcanon Qreals Rdefinitions Raxioms.
From Verif Require Import P_Tests SpecTests Noise Parse P_Parse ParseFacts RxRef DegenDecode P_Decode P_DegenDecode P_EndToEnd Bench BenchFacts P_Bench P_Lookup FaultFacts RunFacts P_Logical.
From stdpp Require Export list sorting.
Open Scope Z_scope.

(** What a run prepared and read in one basis reports about the stabilizers of the other. *)
Lemma other_record (R : Amp) isx s q dh dw l s' is (k0 k1 : config R) :
  lat_ok s q dh dw -> cregs s = [] ->
  run_evs q (Call (reset_op isx) :: Call OStab :: l ++ [Call OStab; Call (read_op isx)]) s = (s', Ok tt) ->
  emitted s s' is -> Forall (body_ev dh dw) l ->
  syndromes_clean q k0.2 -> exec is k0 k1 -> possible k1 ->
  let c := lat_code (tq_lat q) in
  exists names last, cregs s' = ((., dh * dw - 1) <$> names) ++ [(last, 1)] /\ Z.of_nat (length names) = 2 + Z.of_nat (count is_stab (calls l)) /\
    k1.1 (last, 0) = xorb (Nat.odd (count (inverts isx) (calls l))) (logical_flip isx c dh dw (flips_of isx c dh dw 0 l)) /\
    forall isy, faults_within isy dh dw (Z.of_nat (length names)) (flips_of isy c dh dw 0 l) [] /\
      exists base, reported isy c dh dw base (flips_of isy c dh dw 0 l) [] (recorded k1.1 names).
Proof.
  intros Hok Hcr Hr Hem Hl Hcl He Hp c. destruct (lat_ok_cnt _ _ _ _ Hok) as [n Hn].
  pose proof (fun isy => both_reported R isx isy s q dh dw l s' is k0 k1 n Hok Hn Hcr Hr Hem Hl Hcl He Hp) as HB. cbn zeta in HB. fold c in HB.
  set (name := lat_name (tq_lat q)) in *. set (N := 2 + Z.of_nat (count is_stab (calls l))) in *. set (names := round_regs name n N) in *.
  assert (HL : Z.of_nat (length names) = N) by (unfold names, round_regs; rewrite fmap_length, seqZ_length; unfold N; lia).
  destruct (HB true) as [Ec _].
  exists names, (rdname name (cR n + 1)). split; [exact Ec|]. split; [exact HL|]. split.
  - assert (Hobs : observed isx dh dw ((., dh * dw - 1) <$> names).*1 [] k1.1 k1.1).
    { intros a nm loc _ _. change (xorl (_ <$> [])) with false. by rewrite xorb_false_r. }
    assert (Hmis : forall m : Z * Z, m ∈ [] -> 1 <= m.1 < Z.of_nat (length ((., dh * dw - 1) <$> names)) - 1 /\ 0 <= m.2 < nsyn isx dh dw) by (intros m Hm; by apply elem_of_nil in Hm).
    destruct (logical_record R isx s q dh dw l s' is k0 k1 _ _ [] k1.1 n Hok Hn Hcr Hr Hem Hl Hcl He Hp Ec Hobs eq_refl Hmis) as (_ & _ & _ & _ & _ & Hval). exact Hval.
  - intros isy. split.
    + split; [|intros m Hm; by apply elem_of_nil in Hm]. intros f Hf. split; [|eapply flips_range; [exact Hl|exact Hf]]. apply flips_time in Hf. rewrite HL. unfold N. lia.
    + destruct (HB isy) as [_ Hrep]. by eexists.
Qed.

(** * C72 *)
(** A circuit prepared and read out in one basis, decoded as the other type: every error of its
    own type on the readout path inverts the result, and every corrected error of the other type
    does so too. *)
Theorem C72_other_type (R : Amp) isx s q dh dw l s' is (k0 k1 : config R) T D rx ep :
  lat_ok s q dh dw -> 1 < dh * dw -> cregs s = [] ->
  run_evs q (Call (reset_op isx) :: Call OStab :: l ++ [Call OStab; Call (read_op isx)]) s = (s', Ok tt) ->
  emitted s s' is -> Forall (body_ev dh dw) l ->
  syndromes_clean q k0.2 -> exec is k0 k1 -> possible k1 ->
  let c := lat_code (tq_lat q) in let isy := negb isx in
  Z.of_nat (length (flips_of isy c dh dw 0 l)) <= (extent isy dh dw - 1) / 2 ->
  decoder_for isy dh dw T D -> 1 + Z.of_nat (count is_stab (calls l)) <= T -> rx_ok rx ->
  correct_readout rx D ep (counts_key k1.1 (cregs s')) isy =
    Ok (Z.b2z (xorb (Nat.odd (count (inverts isx) (calls l)))
                (xorb (logical_flip isx c dh dw (flips_of isx c dh dw 0 l)) (logical_flip isy c dh dw (flips_of isy c dh dw 0 l))))).
Proof.
  intros Hok H1 Hcr Hr Hem Hl Hcl He Hp c isy Hw HD HT Hrx. pose proof (lo_valid _ _ _ _ Hok) as Hv.
  destruct (other_record R isx s q dh dw l s' is k0 k1 Hok Hcr Hr Hem Hl Hcl He Hp) as (names & last & -> & HN & Hval & HB). fold c in Hval, HB.
  destruct (HB isy) as [Hf [base Hrep]].
  refine (C26_corrects c isy dh dw T D rx ep k1.1 names last base _ [] _ Hv H1 HD Hrx _ Hf Hrep _ _); [lia| |cbn [length]; lia].
  rewrite Hval. destruct (Nat.odd _), (logical_flip isx _ _ _ _), (logical_flip isy _ _ _ _); done.
Qed.
Print Assumptions C72_other_type.

Lemma rate_const decode ep correct (v : Z) counts : counts <> [] -> Forall (fun kv : string * Z => 0 < kv.2 /\ decode ep kv.1 = Ok v) counts ->
  logical_error_rate decode correct counts ep = Ok (if bool_decide (v = correct) then 0 else 1)%Qc.
Proof.
  intros Hne HF. assert (HP : Forall (fun kv : string * Z => 0 < kv.2) counts) by (eapply Forall_impl; [exact HF|]; by intros kv [? _]).
  assert (Hd : decodable decode ep counts) by (eapply Forall_impl; [exact HF|]; intros kv [_ H]; by exists v).
  assert (Hs : shots counts <> 0).
  { destruct counts as [|kv counts]; [done|]. assert (HG : forall l : list (string * Z), Forall (fun kv => 0 < kv.2) l -> 0 <= shots l).
    { intros l Hl. unfold shots. induction Hl as [|kv' l Hk Hl IHl]; [done|]. rewrite fmap_cons, zsum_cons. lia. }
    apply Forall_cons in HP as [Hk HP]. specialize (HG _ HP). unfold shots in *. rewrite fmap_cons, zsum_cons. lia. }
  destruct (proj1 (C36_value decode correct ep counts Hd) Hs) as (x & Hx & _). rewrite Hx. f_equal.
  destruct (C36_extremes decode correct ep counts x HP Hx) as [X0 X1]. case_bool_decide as Ev.
  - apply X0. eapply Forall_impl; [exact HF|]. intros kv [_ H]. by rewrite H, Ev.
  - apply X1. eapply Forall_impl; [exact HF|]. intros kv [_ H]. rewrite H. congruence.
Qed.
(** The logical error rate of such an experiment in a benchmark, [reset_x] to [readout_x], with the
    errors [l]: 0 or 1 according to the parity of the Z errors on the left column and the X errors
    on the top row together. *)
Theorem C72_rate (R : Amp) s q dh dw l s' T D rx counts :
  lat_ok s q dh dw -> 1 < dh * dw -> cregs s = [] -> s_instrs s = [] ->
  run_evs q (Call OResetX :: Call OStab :: l ++ [Call OStab; Call (OReadX None)]) s = (s', Ok tt) -> Forall (body_ev dh dw) l ->
  let c := lat_code (tq_lat q) in
  Z.of_nat (length (flips_of false c dh dw 0 l)) <= (dh - 1) / 2 ->
  decoder_for false dh dw T D -> 1 + Z.of_nat (count is_stab (calls l)) <= T -> rx_ok rx ->
  sampled R (s_instrs s') (cregs s') counts ->
  logical_error_rate (bench_decode rx D) (Z.b2z (Nat.odd (count is_z (calls l)))) counts None =
    Ok (if xorb (logical_flip true c dh dw (flips_of true c dh dw 0 l)) (logical_flip false c dh dw (flips_of false c dh dw 0 l)) then 1 else 0)%Qc.
Proof.
  intros Hok H1 Hcr Hi Hr Hl c Hw HD HT Hrx [Hne HF].
  assert (Hem : emitted s s' (s_instrs s')) by (unfold emitted; by rewrite Hi).
  rewrite (rate_const _ _ _ (Z.b2z (xorb (Nat.odd (count is_z (calls l))) (xorb (logical_flip true c dh dw (flips_of true c dh dw 0 l)) (logical_flip false c dh dw (flips_of false c dh dw 0 l))))) counts Hne).
  - f_equal. destruct (Nat.odd _), (xorb (logical_flip _ _ _ _ _) _); done.
  - eapply Forall_impl; [exact HF|]. intros [ky n] (Hn & k1 & He & Hp & Ek). cbn [fst snd] in *. subst ky. split; [done|].
    unfold bench_decode. change ((fun q : Qc => Q2R q) <$> None) with (@None Rdefinitions.R).
    destruct (C45_plain rx D false 0 [] (counts_key k1.1 (cregs s'))) as (_ & _ & -> & _).
    exact (C72_other_type R true s q dh dw l s' _ (fun _ => false, zero_state) k1 T D rx EPNone Hok H1 Hcr Hr Hem Hl (C10_initially_clean R q) He Hp Hw HD HT Hrx).
Qed.
Print Assumptions C72_rate.

(** With errors of type Z only, which are those that matter for a logical X, the benchmark corrects
    nothing, for every error probability and every decoder of the size. *)
Theorem C72_uncorrected (R : Amp) s q dh dw l s' D rx counts ep :
  lat_ok s q dh dw -> 1 < dh * dw -> cregs s = [] -> s_instrs s = [] ->
  run_evs q (Call OResetX :: Call OStab :: l ++ [Call OStab; Call (OReadX None)]) s = (s', Ok tt) -> Forall (body_ev dh dw) l ->
  let c := lat_code (tq_lat q) in
  flips_of false c dh dw 0 l = [] -> dec_h D = dh -> dec_w D = dw ->
  sampled R (s_instrs s') (cregs s') counts ->
  logical_error_rate (bench_decode rx D) (Z.b2z (Nat.odd (count is_z (calls l)))) counts ep =
    Ok (if logical_flip true c dh dw (flips_of true c dh dw 0 l) then 1 else 0)%Qc.
Proof.
  intros Hok H1 Hcr Hi Hr Hl c Hfl Hh Hw [Hne HF]. pose proof (lo_valid _ _ _ _ Hok) as Hv.
  assert (Hem : emitted s s' (s_instrs s')) by (unfold emitted; by rewrite Hi).
  rewrite (rate_const _ _ _ (Z.b2z (xorb (Nat.odd (count is_z (calls l))) (logical_flip true c dh dw (flips_of true c dh dw 0 l)))) counts Hne).
  - f_equal. destruct (Nat.odd _), (logical_flip _ _ _ _ _); done.
  - eapply Forall_impl; [exact HF|]. intros [ky n] (Hn & k1 & He & Hp & Ek). cbn [fst snd] in *. subst ky. split; [done|].
    destruct (other_record R true s q dh dw l s' _ (fun _ => false, zero_state) k1 Hok Hcr Hr Hem Hl (C10_initially_clean R q) He Hp) as (names & last & Ec & HN & Hval & HB). fold c in Hval, HB.
    destruct (HB false) as [_ [base Hrep]]. rewrite Hfl in Hrep.
    unfold bench_decode, correct_readout_p. rewrite Hh, Hw, Ec.
    destruct (parse_key dh dw k1.1 names last false (Some (type_string false)) Hv H1) as ((X & Z') & -> & _ & Hev).
    assert (Hnil : Z' = []).
    { apply no_events. intros e Hin. apply Hev in Hin as (k & r & r' & loc & Hr1 & Hr2 & Hloc & Hne' & _).
      apply Hne'. rewrite (Hrep _ _ loc Hr1 Hloc), (Hrep _ _ loc Hr2 Hloc). done. }
    rewrite Hnil, Hval. cbn [inverts]. by rewrite C45_no_events.
Qed.
Print Assumptions C72_uncorrected.

(** The phase-flip protected repetition code: its only stabilizers are of type X, so the benchmark
    decodes nothing; the rate is that of the bare readout bits. *)
Theorem C72_phase_flip n T D rx ep ky lv XZ : 0 < n -> Z.odd n = true -> repetition_decoder (Some true) (Some (DNum n)) (Some T) = Ok D ->
  parse_readout 1 n ky (Some "Z"%string) = Ok (lv, XZ) -> bench_decode rx D ep ky = Ok lv.
Proof.
  intros Hn Ho HD Hp. destruct (decoder_for_repetition true n T Hn Ho) as (D' & ED & Hh & Hw & _). rewrite HD in ED. injection ED as <-.
  unfold bench_decode, correct_readout_p. rewrite Hh, Hw. cbn [type_string]. rewrite Hp. destruct XZ as [X Z'].
  assert (Z' = []) as ->; [|unfold correct_events_p, corrections_p; destruct ep as [p|]; cbn [fmap option_fmap option_map]; [destruct (RIneq.Req_EM_T (Q2R p) 0)|]; done].
  unfold parse_readout in Hp. destruct (match py_split ky with [] => _ | _ => _ end) as [[lr chunks]|e]; [|done].
  destruct (rmap py_int2 (reverse chunks)) as [ints|e]; [|done].
  assert (En : num_syn_z 1 n = 0) by (unfold num_syn_z; lia). rewrite En in Hp. cbn [Z.to_nat str_rep] in Hp. rewrite bool_decide_eq_true_2 in Hp by done.
  cbv zeta in Hp. destruct (rmap _ _) as [xs|e]; [|done]. by injection Hp as _ _ <-.
Qed.
Print Assumptions C72_phase_flip.

(** The rate is then that of the bare readout bits. *)
Theorem C72_phase_flip_rate n T D rx ep correct counts : 0 < n -> Z.odd n = true -> repetition_decoder (Some true) (Some (DNum n)) (Some T) = Ok D ->
  logical_error_rate (bench_decode rx D) correct counts ep =
  logical_error_rate (fun _ ky => match parse_readout 1 n ky (Some "Z"%string) with Ok (lv, _) => Ok lv | Err e => Err e end) correct counts ep.
Proof.
  intros Hn Ho HD. assert (HE : forall ky, bench_decode rx D ep ky = match parse_readout 1 n ky (Some "Z"%string) with Ok (lv, _) => Ok lv | Err e => Err e end).
  { intros ky. destruct (parse_readout 1 n ky (Some "Z"%string)) as [[lv XZ]|e] eqn:E; [by eapply C72_phase_flip|].
    destruct (decoder_for_repetition true n T Hn Ho) as (D' & ED & Hh & Hw & _). rewrite HD in ED. injection ED as <-.
    unfold bench_decode, correct_readout_p. rewrite Hh, Hw. cbn [type_string]. by rewrite E. }
  unfold logical_error_rate. generalize (0, 0). induction counts as [|[ky m] counts IHl]; intros te; [done|]. cbn [rfold fst snd]. rewrite HE. destruct (parse_readout _ _ _ _) as [[lv XZ]|e]; [|done]. apply IHl.
Qed.
Print Assumptions C72_phase_flip_rate.

(** ** A concrete case *)
(** 3x5, one Z error on the left column, or one X error on the top row: the benchmark reports the
    rate 1, and decoding as X would have been right. *)
Example C72_ex (xerr : bool) : exists s q s' counts D,
  lat_ok s q 3 5 /\ run_evs q [Call OResetX; Call OStab; Fault xerr (if xerr then 2 else 5); Call OStab; Call (OReadX None)] s = (s', Ok tt) /\
  rotated_decoder (Some (DTup [3; 5])) (Some 1) = Ok D /\ sampled ZAmp (s_instrs s') (cregs s') counts /\
  logical_error_rate (bench_decode rx_ref D) 0 counts None = Ok 1%Qc /\
  Forall (fun kv => correct_readout rx_ref D EPNone kv.1 true = Ok 0) counts.
Proof.
  set (i := if xerr then 2 else 5). assert (Hi : 0 <= i < 3 * 5) by (unfold i; destruct xerr; lia).
  assert (Hv : valid_size 3 5) by done. assert (H1 : 1 < 3 * 5) by lia.
  destruct (sim_builds TXXZZ 0 (t_st (DTup [3; 5]) None) _ 3 5 true xerr i (ltac:(done)) eq_refl eq_refl Hv eq_refl eq_refl) as (s0 & q & s' & En & Hok & Ec & Hc0 & Hi0 & Er).
  assert (Hem : emitted s0 s' (s_instrs s')) by (unfold emitted; by rewrite Hi0).
  destruct (evs_possible _ _ _ _ _ _ _ ((fun _ => false), zero_state) Hok Er Hem (zero_possible _)) as (k1 & He & Hpo).
  destruct (decoder_for_rotated false 3 5 1 Hv) as (D & ED & HD). destruct (decoder_for_rotated true 3 5 1 Hv) as (D' & ED' & HD'). rewrite ED in ED'. injection ED' as <-.
  assert (Hs : sampled ZAmp (s_instrs s') (cregs s') [(counts_key k1.1 (cregs s'), 1000)]).
  { split; [done|]. constructor; [|constructor]. split; [done|]. exists k1. split; [exact He|]. split; [exact Hpo|reflexivity]. }
  exists s0, q, s', [(counts_key k1.1 (cregs s'), 1000)], D. split; [exact Hok|]. split; [exact Er|]. split; [exact ED|]. split; [exact Hs|]. split.
  - assert (Hl : Forall (body_ev 3 5) [Fault xerr i]) by (constructor; [exact Hi|constructor]).
    assert (HF : flips_of false XXZZ 3 5 0 [Fault xerr i] = (if xerr then [(0, 2)] else []) /\ flips_of true XXZZ 3 5 0 [Fault xerr i] = (if xerr then [] else [(0, 5)])).
    { unfold i. destruct xerr; split; vm_compute; reflexivity. }
    destruct HF as [HF1 HF2].
    pose proof (C72_rate ZAmp s0 q 3 5 [Fault xerr i] s' 1 D rx_ref [(counts_key k1.1 (cregs s'), 1000)] Hok H1 Hc0 Hi0 Er Hl) as HR. cbn zeta in HR. rewrite Ec in HR. cbn [code_of] in HR. rewrite HF1, HF2 in HR.
    change (count is_z (calls [Fault xerr i])) with 0%nat in HR. change (count is_stab (calls [Fault xerr i])) with 0%nat in HR. cbn [Nat.odd Nat.even negb Z.b2z] in HR.
    refine (eq_trans (HR _ HD _ rx_ref_ok Hs) _); [destruct xerr; vm_compute; discriminate|vm_compute; discriminate|]. f_equal. destruct xerr; vm_compute; reflexivity.
  - constructor; [|constructor]. cbn [fst]. eapply (case_value ZAmp 3 5 Hv H1 true xerr i s0 q s' _ k1 1 D rx_ref Hok Hc0 Hi Er Hem He Hpo); [apply HD|apply HD|exact rx_ref_ok|].
    right. split; [exact HD'|]. split; [lia|]. cbn [extent]. lia.
Qed.
(** The phase-flip protected repetition code: the events are parsed but not used. *)
Example C72_phase_flip_ex : exists D, repetition_decoder (Some true) (Some (DNum 3)) (Some 1) = Ok D /\
  parse_readout 1 3 "1 01 00" (Some "Z"%string) = Ok (1, ([(0, -1, 1)], [])) /\ bench_decode rx_ref D None "1 01 00" = Ok 1 /\
  correct_readout rx_ref D EPNone "1 01 00" true = Ok 0.
Proof.
  destruct (decoder_for_repetition true 3 1 ltac:(lia) eq_refl) as (D & ED & _). exists D. split; [done|]. split; [vm_compute; reflexivity|]. split.
  - eapply (C72_phase_flip 3 1 D rx_ref None "1 01 00" 1); [lia|done|exact ED|vm_compute; reflexivity].
  - assert (HC : match repetition_decoder (Some true) (Some (DNum 3)) (Some 1) with Ok D => correct_readout rx_ref D EPNone "1 01 00" true | Err e => Err e end = Ok 0) by (vm_compute; reflexivity).
    rewrite ED in HC. exact HC.
Qed.
