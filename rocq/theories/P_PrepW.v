(** Properties C66 and C67 with an error probability, from the circuit to the decoded value.  Real
    numbers stand for the floats of the library. *)
From Coq Require Import Reals Lra.
From Verif Require Import P_Code DecodeFacts RunFacts RxRef P_Decode P_Graph P_EndToEnd P_Prep Degen P_DegenDecode P_EndToEndProb P_RoundsW.
From stdpp Require Export list.
Open Scope Z_scope.

(** * C66 *)
Theorem C66_logical_weighted (A : Amp) isx s q dh dw pre l post s' is (k0 k1 : config A) rs rd T D rx p misread cs' :
  lat_ok s q dh dw -> 1 < dh * dw -> cregs s = [] ->
  run_evs q (Call (reset_op isx) :: pre ++ Call OStab :: l ++ Call OStab :: post ++ [Call (read_op isx)]) s = (s', Ok tt) ->
  emitted s s' is -> Forall (quiet_ev dh dw) pre -> Forall (body_ev dh dw) l -> Forall (quiet_ev dh dw) post ->
  syndromes_clean q k0.2 -> exec is k0 k1 -> possible k1 ->
  cregs s' = rs ++ [rd] ->
  observed isx dh dw rs.*1 misread k1.1 cs' -> cs' (rd.1, 0) = k1.1 (rd.1, 0) ->
  let N := Z.of_nat (length rs) in let c := lat_code (tq_lat q) in
  (forall m, m ∈ misread -> 1 <= m.1 < N - 1 /\ 0 <= m.2 < nsyn isx dh dw) ->
  Z.of_nat (length (flips_of isx c dh dw 0 l) + length misread) <= (extent isx dh dw - 1) / 2 ->
  decoder_for isx dh dw T D -> small_prob isx dh dw D p -> N - 1 <= T -> rx_ok rx ->
  correct_readout_p rx D (Some p) (counts_key cs' (cregs s')) isx =
    Ok (Z.b2z (xorb (Nat.odd (count (inverts isx) (calls (pre ++ l ++ post)))) (Nat.odd (side_faults isx c dh dw pre + side_faults isx c dh dw post)))).
Proof.
  intros Hok H1 Hcr Hr Hem Hpre Hl Hpost Hcl He Hp Hrs Hobs Hrd N c Hmis Hw HD (Hpr & g & rho & Hg & Hb & Hrare) HT Hrx.
  pose proof (lo_valid _ _ _ _ Hok) as Hv. destruct (lat_ok_cnt _ _ _ _ Hok) as [n Hn].
  destruct (ends_record A isx s q dh dw pre l post s' is k0 k1 rs rd misread cs' n Hok Hn Hcr Hr Hem Hpre Hl Hpost Hcl He Hp Hrs Hobs Hrd Hmis) as (HN & -> & HL & Hf & Hrep & Hlast).
  rewrite odd_add. eapply C46_corrects; [done|done|exact HD|exact Hg|done|done|exact Hb|exact Hrare|by rewrite HL|rewrite HL; exact Hf|exact Hrep|exact Hlast|done].
Qed.
Print Assumptions C66_logical_weighted.
Theorem C66_lattice_weighted (A : Amp) s q dh dw pre l s' is (k0 k1 : config A) rs rd T D rx p misread cs' :
  lat_ok s q dh dw -> 1 < dh * dw -> cregs s = [] ->
  run_evs q (Call OResetZ :: pre ++ Call OStab :: l ++ [Call OLatZ]) s = (s', Ok tt) ->
  emitted s s' is -> Forall (quiet_ev dh dw) pre -> Forall (body_ev dh dw) l ->
  syndromes_clean q k0.2 -> exec is k0 k1 -> possible k1 ->
  cregs s' = rs ++ [rd] ->
  observed false dh dw rs.*1 misread k1.1 cs' -> (forall j, 0 <= j < dh * dw -> cs' (rd.1, j) = k1.1 (rd.1, j)) ->
  let N := Z.of_nat (length rs) in let c := lat_code (tq_lat q) in
  (forall m, m ∈ misread -> 1 <= m.1 < N /\ 0 <= m.2 < nsyn false dh dw) ->
  Z.of_nat (length (flips_of false c dh dw 0 l) + length misread) <= (dh - 1) / 2 ->
  decoder_for false dh dw T D -> small_prob false dh dw D p -> N <= T -> rx_ok rx ->
  correct_readout_p rx D (Some p) (counts_key cs' (cregs s')) false =
    Ok (Z.b2z (xorb (Nat.odd (count is_x (calls (pre ++ l)))) (Nat.odd (side_faults false c dh dw pre)))).
Proof.
  intros Hok H1 Hcr Hr Hem Hpre Hl Hcl He Hp Hrs Hobs Hrd N c Hmis Hw HD (Hpr & g & rho & Hg & Hb & Hrare) HT Hrx.
  pose proof (lo_valid _ _ _ _ Hok) as Hv. destruct (lat_ok_cnt _ _ _ _ Hok) as [n Hn].
  destruct (ends_lattice A s q dh dw pre l s' is k0 k1 rs rd misread cs' n Hok Hn Hcr Hr Hem Hpre Hl Hcl He Hp Hrs Hobs Hrd Hmis) as (HN & names & nm & _ & -> & HL & Hf & Hrep & Hlast).
  eapply C46_corrects_lattice_z; [done|done|exact HD|exact Hg|done|done|exact Hb|exact Hrare|rewrite HL; fold N; lia|rewrite HL; exact Hf|exact Hrep|exact Hlast|done].
Qed.
Print Assumptions C66_lattice_weighted.

(** * C67 *)
(** A circuit on a 3x3 qubit: prepare, rounds and logical operations, one error on data qubit 5 of
    the kind the Z stabilizers detect, more rounds and logical operations, readout. *)
Theorem C67_circuit (A : Amp) s q x l1 l2 s' is (k0 k1 : config A) rs rd T D rx p :
  lat_ok s q 3 3 -> cregs s = [] -> fault_of (Fault x 5) = err_at false (lat_code (tq_lat q)) 3 3 5 ->
  run_evs q (Call OResetZ :: Call OStab :: ((Call <$> l1) ++ Fault x 5 :: (Call <$> l2)) ++ [Call OStab; Call (OReadZ None)]) s = (s', Ok tt) ->
  emitted s s' is -> Forall (body_ev 3 3) (Call <$> l1) -> Forall (body_ev 3 3) (Call <$> l2) ->
  syndromes_clean q k0.2 -> exec is k0 k1 -> possible k1 ->
  cregs s' = rs ++ [rd] ->
  decoder_for false 3 3 T D -> Z.of_nat (length rs) - 1 <= T -> rx_ok rx ->
  (0 < p <= / 3)%R -> (Rpower ((1 - p) / p) (3 + / 2500) < 2 * IZR (T + 1))%R ->
  let v := Nat.odd (count is_x (l1 ++ l2)) in
  correct_readout_p rx D None (counts_key k1.1 (cregs s')) false = Ok (Z.b2z v) /\
  correct_readout_p rx D (Some p) (counts_key k1.1 (cregs s')) false = Ok (Z.b2z (negb v)).
Proof.
  intros Hok Hcr Hx Hr Hem Hl1 Hl2 Hcl He Hpo Hrs HD HT Hrx Hp HB v. set (c := lat_code (tq_lat q)) in *.
  destruct (lat_ok_cnt _ _ _ _ Hok) as [n Hn]. set (l := (Call <$> l1) ++ Fault x 5 :: (Call <$> l2)) in *.
  assert (Hl : Forall (body_ev 3 3) l).
  { unfold l. apply list.Forall_app. split; [exact Hl1|]. constructor; [cbn; lia|exact Hl2]. }
  assert (Hcalls : calls l = l1 ++ l2).
  { unfold l. by rewrite calls_app, calls_cons, !P_Logical.calls_ops. }
  assert (Hflips : flips_of false c 3 3 0 l = [(Z.of_nat (count is_stab l1), 5)]).
  { assert (Hnil : forall k t, flips_of false c 3 3 t (Call <$> k) = []) by (induction k as [|o k IHk]; intros t; [done|]; apply IHk).
    assert (Hgen : forall k t, flips_of false c 3 3 t ((Call <$> k) ++ Fault x 5 :: (Call <$> l2)) = [(t + Z.of_nat (count is_stab k), 5)]).
    { induction k as [|o k IHk]; intros t.
      - cbn [fmap list_fmap app flips_of]. rewrite bool_decide_eq_true_2 by done. rewrite Hnil. do 2 f_equal. cbn. lia.
      - cbn [fmap list_fmap app flips_of]. rewrite IHk, count_step. destruct (is_stab o); do 2 f_equal; lia. }
    unfold l. rewrite Hgen. done. }
  destruct (logical_record A false s q 3 3 l s' is k0 k1 rs rd [] k1.1 n Hok Hn Hcr Hr Hem Hl Hcl He Hpo Hrs) as (HN & E & HL & Hf & Hrep & Hlast).
  - intros t nm loc _ _. cbn. by rewrite xorb_false_r.
  - done.
  - by intros m ?%elem_of_nil.
  - fold c in Hf, Hrep, Hlast. rewrite Hflips in Hf, Hrep, Hlast. rewrite Hcalls in Hlast. rewrite E.
    apply (C67_weighted c T D rx p (Z.of_nat (count is_stab l1)) v k1.1 _ _ (first_values false (lat_name (tq_lat q)) 3 3 n k1.1)); try done.
    + by rewrite HL.
    + rewrite HL. destruct Hf as [Hf _]. by destruct (Hf _ (elem_of_list_here _ _)).
Qed.
Print Assumptions C67_circuit.

(** ** Examples *)
(** The histories of the examples of C66, with every small enough error probability. *)
Example C66_ex_weighted : exists q s' is (k1 : config ZAmp) D,
  e2e_q.2 = Ok q /\
  run_evs q (Call OResetZ :: prep_pre ++ Call OStab :: e2e_hist ++ Call OStab :: [] ++ [Call (OReadZ None)]) e2e_q.1 = (s', Ok tt) /\
  emitted e2e_q.1 s' is /\ exec is (fun _ => false, zero_state) k1 /\ possible k1 /\
  rotated_decoder (Some (DTup [5; 3])) (Some 4) = Ok D /\
  exists p0, (0 < p0 < / 2)%R /\ forall p, (0 < p <= p0)%R -> correct_readout_p rx_ref D (Some p) (counts_key k1.1 (cregs s')) false = Ok 0.
Proof.
  destruct e2e_ok as (q & Hq & Hok & Hc).
  assert (Hrun : run_ok e2e_q (Call OResetZ :: prep_pre ++ Call OStab :: e2e_hist ++ Call OStab :: [] ++ [Call (OReadZ None)]) = true) by (vm_compute; reflexivity).
  destruct (run_ok_inv _ _ _ _ _ Hq Hok Hrun) as (s' & is & Hr & Hem).
  destruct (evs_possible _ _ _ _ _ _ _ ((fun _ => false), zero_state) Hok Hr Hem (zero_possible _)) as (k1 & He & Hp).
  destruct (decoder_for_rotated false 5 3 4 v53) as (D & ED & HD).
  destruct (C50_small false 5 3 4 D v53 eq_refl) as (p0 & Hp0 & Hsm); [clear; vm_compute; split; congruence|clear; lia|exact HD|].
  assert (Hregs : cregs s' = ((., 14) <$> e2e_names) ++ [("tq_readout_0"%string, 1)]).
  { rewrite <-(run_regs_eq _ _ _ _ Hq Hr). vm_compute. reflexivity. }
  exists q, s', is, k1, D. do 6 (split; [assumption|]). exists p0. split; [exact Hp0|]. intros p Hpp. specialize (Hsm p Hpp).
  pose proof (C66_logical_weighted ZAmp false _ q 5 3 prep_pre e2e_hist [] s' is (fun _ => false, zero_state) k1 _ _ 4 D rx_ref p [] k1.1 Hok eq_refl e2e_empty Hr Hem
    (proj1 prep_quiet) e2e_body (list.Forall_nil_2 _) (C10_initially_clean ZAmp q) He Hp Hregs (as_is _ _) eq_refl (no_misread _)) as E. cbv zeta in E.
  rewrite E; [rewrite Hc, (proj1 prep_side), (proj2 (proj2 prep_side)); reflexivity|..].
  - rewrite Hc, e2e_flips. clear. vm_compute. discriminate.
  - exact HD.
  - exact Hsm.
  - clear. cbn. lia.
  - exact rx_ref_ok.
Qed.
(** A 3x3 XZZX qubit: an error on data qubit 5 after the second of four rounds, one logical X.  With
    an error probability of 1/3 the decoder for four rounds answers 0 instead of 1. *)
Definition w33_q : st * res tqubit := new_tqubit TXZZX (Some 0%nat) "tq" (heap1 (with_d (DTup [3; 3]))).
Lemma w33_ok : exists q, w33_q.2 = Ok q /\ lat_ok w33_q.1 q 3 3 /\ lat_code (tq_lat q) = XZZX.
Proof.
  destruct (C04_constructed TXZZX 0 "tq" (heap1 (with_d (DTup [3; 3]))) (with_d (DTup [3; 3])) (DTup [3; 3]) 3 3)
    as (s' & q' & E & Hok & Hc & _); try done; [intros suf _; apply not_elem_of_nil|].
  unfold w33_q. rewrite E. exists q'. done.
Qed.
Lemma w33_empty : cregs w33_q.1 = []. Proof. vm_compute. reflexivity. Qed.
Definition w33_pre : list op := [OStab; OX].
Definition w33_post : list op := [OStab; OIdData].
Lemma w33_body : Forall (body_ev 3 3) (Call <$> w33_pre) /\ Forall (body_ev 3 3) (Call <$> w33_post).
Proof. split; repeat constructor. Qed.
Lemma w33_kind : exists x, fault_of (Fault x 5) = err_at false XZZX 3 3 5 /\ run_ok w33_q (Call OResetZ :: Call OStab :: ((Call <$> w33_pre) ++ Fault x 5 :: (Call <$> w33_post)) ++ [Call OStab; Call (OReadZ None)]) = true.
Proof. exists true. split; [apply (bool_decide_eq_true_1 (fault_of (Fault true 5) = err_at false XZZX 3 3 5)); vm_compute; reflexivity|vm_compute; reflexivity]. Qed.
Lemma third_bound : (Rpower ((1 - / 3) / / 3) (3 + / 2500) < 2 * IZR (4 + 1))%R.
Proof.
  replace ((1 - / 3) / / 3)%R with 2%R by field. rewrite Rpower_plus.
  pose proof (rpower_root 2 (6 / 5) 4 ltac:(lra) ltac:(lra) ltac:(lra) ltac:(cbn; lra) ltac:(cbn; lra)) as H.
  replace (Rpower 2 3) with (2 ^ 3)%R by (rewrite <- Rpower_pow by lra; f_equal; cbn; lra). change (4 + 1) with 5. lra.
Qed.
Example C67_ex_circuit : exists q x s' is (k1 : config ZAmp) D,
  w33_q.2 = Ok q /\
  run_evs q (Call OResetZ :: Call OStab :: ((Call <$> w33_pre) ++ Fault x 5 :: (Call <$> w33_post)) ++ [Call OStab; Call (OReadZ None)]) w33_q.1 = (s', Ok tt) /\
  emitted w33_q.1 s' is /\ exec is (fun _ => false, zero_state) k1 /\ possible k1 /\
  rotated_decoder (Some (DTup [3; 3])) (Some 4) = Ok D /\
  correct_readout_p rx_ref D None (counts_key k1.1 (cregs s')) false = Ok 1 /\
  correct_readout_p rx_ref D (Some (/ 3)%R) (counts_key k1.1 (cregs s')) false = Ok 0.
Proof.
  destruct w33_ok as (q & Hq & Hok & Hc). destruct w33_kind as (x & Hx & Hrun). rewrite <-Hc in Hx.
  destruct (run_ok_inv _ _ _ _ _ Hq Hok Hrun) as (s' & is & Hr & Hem).
  destruct (evs_possible _ _ _ _ _ _ _ ((fun _ => false), zero_state) Hok Hr Hem (zero_possible _)) as (k1 & He & Hp).
  destruct (decoder_for_rotated false 3 3 4 size33) as (D & ED & HD).
  assert (Hregs : cregs s' = ((., 8) <$> e2e_names) ++ [("tq_readout_0"%string, 1)]).
  { assert (E : run_regs w33_q (Call OResetZ :: Call OStab :: ((Call <$> w33_pre) ++ Fault x 5 :: (Call <$> w33_post)) ++ [Call OStab; Call (OReadZ None)]) = ((., 8) <$> e2e_names) ++ [("tq_readout_0"%string, 1)]) by (destruct x; vm_compute; reflexivity).
    by rewrite <-(run_regs_eq _ _ _ _ Hq Hr). }
  exists q, x, s', is, k1, D. do 6 (split; [assumption|]).
  refine (C67_circuit ZAmp _ q x w33_pre w33_post s' is (fun _ => false, zero_state) k1 _ _ 4 D rx_ref (/ 3) Hok w33_empty Hx Hr Hem (proj1 w33_body) (proj2 w33_body)
    (C10_initially_clean ZAmp q) He Hp Hregs HD _ rx_ref_ok _ third_bound).
  - clear. cbn. lia.
  - lra.
Qed.
