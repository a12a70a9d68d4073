(** Property C50: the end-to-end results for decoding with an error probability.  Real numbers
    stand for the floats of the library. *)
From Coq Require Import Reals Lra.
From Verif Require Import FrameDecode RxRef P_Decode P_CircuitFaults Degen DegenDecode P_DegenDecode.
From stdpp Require Export list.
Open Scope Z_scope.

(** * C50 *)
(** [p] is small enough for the degeneracies of the decoder's graph, in the sense of C46. *)
Definition small_prob (isx : bool) (dh dw : Z) (D : decoder) (p : R) : Prop :=
  (0 < p < / 2)%R /\ exists g rho, dec_graph D isx = Some g /\ degeneracy_bound isx g (virtual_nodes isx dh dw) rho /\ rare rho p (extent isx dh dw).
(** For every size below 19999 and number of rounds, all probabilities up to some bound are. *)
Theorem C50_small isx dh dw T D : valid_size dh dw -> 1 < dh * dw -> 3 <= extent isx dh dw < 19999 -> 1 <= T -> decoder_for isx dh dw T D ->
  exists p0, (0 < p0 < / 2)%R /\ forall p, (0 < p <= p0)%R -> small_prob isx dh dw D p.
Proof.
  intros Hv H1 Hext HT HD. destruct (decoder_inv isx dh dw T D HD) as (_ & _ & g & Hg & Eg).
  pose proof (C46_bound isx dh dw T g rx_ref Hv (proj1 Hext) HT Eg rx_ref_ok) as Hb.
  destruct (C46_rare _ (extent isx dh dw) (proj1 Hb) ltac:(lia)) as (p0 & Hp0 & Hr).
  exists p0. split; [done|]. intros p Hp. split; [lra|]. eexists g, _. split; [done|]. split; [exact Hb|by apply Hr].
Qed.
Print Assumptions C50_small.

(** C27 with an error probability. *)
Theorem C50_logical (A : Amp) isx s q dh dw l s' is (k0 k1 : config A) rs rd T D rx p misread cs' :
  lat_ok s q dh dw -> 1 < dh * dw -> cregs s = [] ->
  run_evs q (Call (reset_op isx) :: Call OStab :: l ++ [Call OStab; Call (read_op isx)]) s = (s', Ok tt) ->
  emitted s s' is -> Forall (body_ev dh dw) l ->
  syndromes_clean q k0.2 -> exec is k0 k1 -> possible k1 ->
  cregs s' = rs ++ [rd] ->
  observed isx dh dw rs.*1 misread k1.1 cs' -> cs' (rd.1, 0) = k1.1 (rd.1, 0) ->
  let N := Z.of_nat (length rs) in
  (forall m, m ∈ misread -> 1 <= m.1 < N - 1 /\ 0 <= m.2 < nsyn isx dh dw) ->
  Z.of_nat (length (flips_of isx (lat_code (tq_lat q)) dh dw 0 l) + length misread) <= (extent isx dh dw - 1) / 2 ->
  decoder_for isx dh dw T D -> small_prob isx dh dw D p -> N - 1 <= T -> rx_ok rx ->
  N = 2 + Z.of_nat (count is_stab (calls l)) /\
  correct_readout_p rx D (Some p) (counts_key cs' (cregs s')) isx = Ok (Z.b2z (Nat.odd (count (inverts isx) (calls l)))).
Proof.
  intros Hok H1 Hcr Hr Hem Hl Hcl He Hp Hrs Hobs Hrd N Hmis Hw HD (Hpr & g & rho & Hg & Hb & Hrare) HT Hrx.
  pose proof (lo_valid _ _ _ _ Hok) as Hv. destruct (lat_ok_cnt _ _ _ _ Hok) as [n Hn].
  destruct (logical_record A isx s q dh dw l s' is k0 k1 rs rd misread cs' n Hok Hn Hcr Hr Hem Hl Hcl He Hp Hrs Hobs Hrd Hmis) as (HN & -> & HL & Hf & Hrep & Hlast).
  split; [done|]. eapply C46_corrects; [done|done|exact HD|exact Hg|done|done|exact Hb|exact Hrare|by rewrite HL|rewrite HL; exact Hf|exact Hrep|exact Hlast|done].
Qed.
Print Assumptions C50_logical.
(** C44 with an error probability. *)
Theorem C50_lattice (A : Amp) s q dh dw l s' is (k0 k1 : config A) rs rd T D rx p misread cs' :
  lat_ok s q dh dw -> 1 < dh * dw -> cregs s = [] ->
  run_evs q (Call OResetZ :: Call OStab :: l ++ [Call OLatZ]) s = (s', Ok tt) ->
  emitted s s' is -> Forall (body_ev dh dw) l ->
  syndromes_clean q k0.2 -> exec is k0 k1 -> possible k1 ->
  cregs s' = rs ++ [rd] ->
  observed false dh dw rs.*1 misread k1.1 cs' -> (forall j, 0 <= j < dh * dw -> cs' (rd.1, j) = k1.1 (rd.1, j)) ->
  let N := Z.of_nat (length rs) in
  (forall m, m ∈ misread -> 1 <= m.1 < N /\ 0 <= m.2 < nsyn false dh dw) ->
  Z.of_nat (length (flips_of false (lat_code (tq_lat q)) dh dw 0 l) + length misread) <= (dh - 1) / 2 ->
  decoder_for false dh dw T D -> small_prob false dh dw D p -> N <= T -> rx_ok rx ->
  N = 1 + Z.of_nat (count is_stab (calls l)) /\
  correct_readout_p rx D (Some p) (counts_key cs' (cregs s')) false = Ok (Z.b2z (Nat.odd (count is_x (calls l)))).
Proof.
  intros Hok H1 Hcr Hr Hem Hl Hcl He Hp Hrs Hobs Hrd N Hmis Hw HD (Hpr & g & rho & Hg & Hb & Hrare) HT Hrx.
  pose proof (lo_valid _ _ _ _ Hok) as Hv. destruct (lat_ok_cnt _ _ _ _ Hok) as [n Hn].
  destruct (lattice_record A s q dh dw l s' is k0 k1 rs rd misread cs' n Hok Hn Hcr Hr Hem Hl Hcl He Hp Hrs Hobs Hrd Hmis) as (HN & names & nm & _ & -> & HL & Hf & Hrep & Hlast).
  split; [done|]. eapply C46_corrects_lattice_z; [done|done|exact HD|exact Hg|done|done|exact Hb|exact Hrare|rewrite HL; fold N; lia|rewrite HL; exact Hf|exact Hrep|exact Hlast|done].
Qed.
Print Assumptions C50_lattice.
(** C49 with an error probability: lattice readout ... *)
Theorem C50_faults_lattice (A : Amp) s q dh dw l sa is0 s' is1 js w (k0 k1 : config A) rs rd T D rx p misread cs' :
  lat_ok s q dh dw -> 1 < dh * dw -> cregs s = [] ->
  run_evs q [Call OResetZ; Call OStab] s = (sa, Ok tt) -> emitted s sa is0 ->
  run_evs q (Call <$> l ++ [OLatZ]) sa = (s', Ok tt) -> emitted sa s' is1 ->
  Forall body_op l -> inject is1 js w ->
  syndromes_clean q k0.2 -> exec (is0 ++ js) k0 k1 -> possible k1 ->
  cregs s' = rs ++ [rd] ->
  observed false dh dw rs.*1 misread k1.1 cs' -> (forall j, 0 <= j < dh * dw -> cs' (rd.1, j) = k1.1 (rd.1, j)) ->
  let N := Z.of_nat (length rs) in
  (forall m, m ∈ misread -> 1 <= m.1 < N /\ 0 <= m.2 < nsyn false dh dw) ->
  Z.of_nat (2 * w + length misread) <= (dh - 1) / 2 ->
  decoder_for false dh dw T D -> small_prob false dh dw D p -> N <= T -> rx_ok rx ->
  N = 1 + Z.of_nat (count is_stab l) /\
  correct_readout_p rx D (Some p) (counts_key cs' (cregs s')) false = Ok (Z.b2z (Nat.odd (count is_x l))).
Proof.
  intros Hok H1 Hcr Hra Hea Hrb Heb Hl Hinj Hcl He Hp Hrs Hobs Hrd N Hmis Hw HD (Hpr & g & rho & Hg & Hb & Hrare) HT Hrx.
  pose proof (lo_valid _ _ _ _ Hok) as Hv.
  destruct (noisy_lattice s q dh dw l sa is0 s' is1 js w k0 k1 rs rd misread cs' Hok Hcr Hra Hea Hrb Heb Hl Hinj Hcl He Hp Hrs Hobs Hrd Hmis)
    as (HN & base & names & nm & last & flips & mis & Hlen & -> & HL & Hf & Hrep & Hlast).
  split; [done|]. eapply C46_corrects_lattice_z; [done|done|exact HD|exact Hg|done|done|exact Hb|exact Hrare|rewrite HL; fold N; lia|rewrite HL; exact Hf|exact Hrep|exact Hlast|lia].
Qed.
Print Assumptions C50_faults_lattice.
(** ... and logical readout. *)
Theorem C50_faults_logical (A : Amp) isx s q dh dw l sa is0 sb is1 s' is2 js w (k0 k1 : config A) rs rd T D rx p misread cs' :
  lat_ok s q dh dw -> 1 < dh * dw -> cregs s = [] ->
  run_evs q [Call (reset_op isx); Call OStab] s = (sa, Ok tt) -> emitted s sa is0 ->
  run_evs q (Call <$> l) sa = (sb, Ok tt) -> emitted sa sb is1 ->
  run_evs q (Call <$> [OStab; OStab; read_op isx]) sb = (s', Ok tt) -> emitted sb s' is2 ->
  Forall body_op l -> inject is1 js w ->
  syndromes_clean q k0.2 -> exec (is0 ++ js ++ is2) k0 k1 -> possible k1 ->
  cregs s' = rs ++ [rd] ->
  observed isx dh dw rs.*1 misread k1.1 cs' -> cs' (rd.1, 0) = k1.1 (rd.1, 0) ->
  let N := Z.of_nat (length rs) in
  (forall m, m ∈ misread -> 1 <= m.1 < N - 1 /\ 0 <= m.2 < nsyn isx dh dw) ->
  Z.of_nat (2 * w + length misread) <= (extent isx dh dw - 1) / 2 ->
  decoder_for isx dh dw T D -> small_prob isx dh dw D p -> N - 1 <= T -> rx_ok rx ->
  N = 3 + Z.of_nat (count is_stab l) /\
  correct_readout_p rx D (Some p) (counts_key cs' (cregs s')) isx = Ok (Z.b2z (Nat.odd (count (inverts isx) l))).
Proof.
  intros Hok H1 Hcr Hra Hea Hrb Heb Hrc Hec Hl Hinj Hcl He Hp Hrs Hobs Hrd N Hmis Hw HD (Hpr & g & rho & Hg & Hb & Hrare) HT Hrx.
  pose proof (lo_valid _ _ _ _ Hok) as Hv.
  destruct (noisy_logical isx s q dh dw l sa is0 sb is1 s' is2 js w k0 k1 rs rd misread cs' Hok Hcr Hra Hea Hrb Heb Hrc Hec Hl Hinj Hcl He Hp Hrs Hobs Hrd Hmis)
    as (HN & base & names & last & flips & mis & Hlen & -> & HL & Hf & Hrep & Hlast).
  split; [done|]. eapply C46_corrects; [done|done|exact HD|exact Hg|done|done|exact Hb|exact Hrare|by rewrite HL|rewrite HL; exact Hf|exact Hrep|exact Hlast|lia].
Qed.
Print Assumptions C50_faults_logical.

(** * The runs of C27_ex, C44_ex and C49, for all probabilities up to some bound *)
Example C50_ex_logical : exists q s' is (k1 : config ZAmp) D cs',
  e2e_q.2 = Ok q /\ run_evs q (Call OResetZ :: Call OStab :: e2e_hist ++ [Call OStab; Call (OReadZ None)]) e2e_q.1 = (s', Ok tt) /\
  emitted e2e_q.1 s' is /\ exec is (fun _ => false, zero_state) k1 /\ possible k1 /\
  rotated_decoder (Some (DTup [5; 3])) (Some 4) = Ok D /\
  observed false 5 3 e2e_names [(1, 3)] k1.1 cs' /\ cs' ("tq_c1"%string, 3) <> k1.1 ("tq_c1"%string, 3) /\
  exists p0, (0 < p0 < / 2)%R /\ forall p, (0 < p <= p0)%R -> correct_readout_p rx_ref D (Some p) (counts_key cs' (cregs s')) false = Ok 1.
Proof.
  destruct e2e_ok as (q & Hq & Hok & Hc).
  assert (Hrun : run_ok e2e_q (Call OResetZ :: Call OStab :: e2e_hist ++ [Call OStab; Call (OReadZ None)]) = true) by (vm_compute; reflexivity).
  destruct (run_ok_inv _ _ _ _ _ Hq Hok Hrun) as (s' & is & Hr & Hem).
  destruct (evs_possible _ _ _ _ _ _ _ ((fun _ => false), zero_state) Hok Hr Hem (zero_possible _)) as (k1 & He & Hp).
  destruct (decoder_for_rotated false 5 3 4 v53) as (D & ED & HD).
  destruct (C50_small false 5 3 4 D v53 eq_refl) as (p0 & Hp0 & Hsm); [clear; vm_compute; split; congruence|clear; lia|exact HD|].
  assert (Hregs : cregs s' = ((., 14) <$> e2e_names) ++ [("tq_readout_0"%string, 1)]).
  { rewrite <-(run_regs_eq _ _ _ _ Hq Hr). vm_compute. reflexivity. }
  pose proof (observed_invert e2e_names 1 _ 3 k1.1 eq_refl (e2e_nodup 4)) as Hobs.
  exists q, s', is, k1, D, (invert k1.1 ("tq_c1"%string, 3)). do 7 (split; [assumption|]). split; [apply invert_same|].
  exists p0. split; [exact Hp0|]. intros p Hpp. specialize (Hsm p Hpp).
  refine (proj2 (C50_logical ZAmp false _ q 5 3 e2e_hist s' is (fun _ => false, zero_state) k1 _ _ 4 D rx_ref p [(1, 3)] _ Hok eq_refl e2e_empty Hr Hem e2e_body
    (C10_initially_clean ZAmp q) He Hp Hregs Hobs _ _ (e2e_weight q _ Hc) HD Hsm _ rx_ref_ok)).
  - apply invert_other. discriminate.
  - apply (misread_range 1 3 3); clear; lia.
  - clear. cbn. lia.
Qed.
Example C50_ex_lattice : exists q s' is (k1 : config ZAmp) D cs',
  e2e_q.2 = Ok q /\ run_evs q (Call OResetZ :: Call OStab :: e2e_hist ++ [Call OLatZ]) e2e_q.1 = (s', Ok tt) /\
  emitted e2e_q.1 s' is /\ exec is (fun _ => false, zero_state) k1 /\ possible k1 /\
  rotated_decoder (Some (DTup [5; 3])) (Some 3) = Ok D /\
  observed false 5 3 (take 3 e2e_names) [(2, 0)] k1.1 cs' /\ cs' ("tq_c2"%string, 0) <> k1.1 ("tq_c2"%string, 0) /\
  exists p0, (0 < p0 < / 2)%R /\ forall p, (0 < p <= p0)%R -> correct_readout_p rx_ref D (Some p) (counts_key cs' (cregs s')) false = Ok 1.
Proof.
  destruct e2e_ok as (q & Hq & Hok & Hc).
  assert (Hrun : run_ok e2e_q (Call OResetZ :: Call OStab :: e2e_hist ++ [Call OLatZ]) = true) by (vm_compute; reflexivity).
  destruct (run_ok_inv _ _ _ _ _ Hq Hok Hrun) as (s' & is & Hr & Hem).
  destruct (evs_possible _ _ _ _ _ _ _ ((fun _ => false), zero_state) Hok Hr Hem (zero_possible _)) as (k1 & He & Hp).
  destruct (decoder_for_rotated false 5 3 3 v53) as (D & ED & HD).
  destruct (C50_small false 5 3 3 D v53 eq_refl) as (p0 & Hp0 & Hsm); [clear; vm_compute; split; congruence|clear; lia|exact HD|].
  assert (Hregs : exists nm, cregs s' = ((., 14) <$> take 3 e2e_names) ++ [(nm, 15)] /\ nm <> "tq_c2"%string).
  { rewrite <-(run_regs_eq _ _ _ _ Hq Hr). eexists. split; [vm_compute; reflexivity|discriminate]. }
  destruct Hregs as (nm & Hregs & Hnm).
  pose proof (observed_invert (take 3 e2e_names) 2 _ 0 k1.1 eq_refl (e2e_nodup 3)) as Hobs.
  exists q, s', is, k1, D, (invert k1.1 ("tq_c2"%string, 0)). do 7 (split; [assumption|]). split; [apply invert_same|].
  exists p0. split; [exact Hp0|]. intros p Hpp. specialize (Hsm p Hpp).
  refine (proj2 (C50_lattice ZAmp _ q 5 3 e2e_hist s' is (fun _ => false, zero_state) k1 _ _ 3 D rx_ref p [(2, 0)] _ Hok eq_refl e2e_empty Hr Hem e2e_body
    (C10_initially_clean ZAmp q) He Hp Hregs Hobs _ _ (e2e_weight q _ Hc) HD Hsm _ rx_ref_ok)).
  - intros j _. apply invert_other. clear -Hnm. intros [= E]. exact (Hnm E).
  - apply (misread_range 2 0 3); clear; lia.
  - clear. cbn. lia.
Qed.
Example C50_ex_faults_lattice : exists q sa s' is0 is1 js (k1 : config ZAmp) D,
  e2e_q.2 = Ok q /\ run_evs q [Call OResetZ; Call OStab] e2e_q.1 = (sa, Ok tt) /\ emitted e2e_q.1 sa is0 /\
  run_evs q (Call <$> cf_ops ++ [OLatZ]) sa = (s', Ok tt) /\ emitted sa s' is1 /\
  js = take 30 is1 ++ [IX (dq "tq" 7); IZ (dq "tq" 7)] ++ drop 30 is1 /\ inject is1 js 1 /\
  exec (is0 ++ js) (fun _ => false, zero_state) k1 /\ possible k1 /\
  rotated_decoder (Some (DTup [5; 3])) (Some 3) = Ok D /\
  exists p0, (0 < p0 < / 2)%R /\ forall p, (0 < p <= p0)%R -> correct_readout_p rx_ref D (Some p) (counts_key k1.1 (cregs s')) false = Ok 1.
Proof.
  destruct e2e_ok as (q & Hq & Hok & Hc).
  assert (Hrun : run_ok e2e_q ([Call OResetZ; Call OStab] ++ (Call <$> cf_ops ++ [OLatZ])) = true) by (vm_compute; reflexivity).
  destruct (run_ok_inv _ _ _ _ _ Hq Hok Hrun) as (s' & is & Hr & Hem).
  destruct (run_split _ _ _ _ _ _ _ Hok Hr) as (sa & is0 & is1 & Hra & Hea & Hrb & Heb).
  assert (Hoka : lat_ok sa q 5 3) by (destruct (lat_ok_cnt _ _ _ _ Hok) as [n Hn]; exact (po_ok _ _ _ _ _ _ _ _ (run_evs_inv _ _ _ _ _ _ _ Hok Hn Hra))).
  pose proof (inject_at 30 GY (dq "tq" 7) is1) as Hinj. set (js := take 30 is1 ++ _) in Hinj.
  destruct (exec_possible_Z (is0 ++ js) (fun _ => false, zero_state)) as (k1 & He & Hp); [|apply zero_possible|].
  { intros i [Hi|Hi]%elem_of_app; [by eapply (evs_proper _ _ _ _ _ _ _ Hok Hra Hea)|]. eapply inject_proper; [exact Hinj| |done]. by apply (evs_proper _ _ _ _ _ _ _ Hoka Hrb Heb). }
  destruct (decoder_for_rotated false 5 3 3 v53) as (D & ED & HD).
  destruct (C50_small false 5 3 3 D v53 eq_refl) as (p0 & Hp0 & Hsm); [clear; vm_compute; split; congruence|clear; lia|exact HD|].
  assert (Hregs : cregs s' = ((., 14) <$> take 3 e2e_names) ++ [("tq_lattice_readout_0"%string, 15)]).
  { rewrite <-(run_regs_eq _ _ _ _ Hq Hr). vm_compute. reflexivity. }
  exists q, sa, s', is0, is1, js, k1, D. do 5 (split; [assumption|]). split; [reflexivity|]. do 4 (split; [assumption|]).
  exists p0. split; [exact Hp0|]. intros p Hpp. specialize (Hsm p Hpp).
  refine (proj2 (C50_faults_lattice ZAmp _ q 5 3 cf_ops sa is0 s' is1 js 1 (fun _ => false, zero_state) k1 _ _ 3 D rx_ref p [] k1.1 Hok eq_refl e2e_empty Hra Hea Hrb Heb cf_body Hinj
    (C10_initially_clean ZAmp q) He Hp Hregs (observed_id _ _ _ _ _) (fun _ _ => eq_refl) _ _ HD Hsm _ rx_ref_ok)).
  - clear. by intros m []%elem_of_nil.
  - clear. vm_compute. discriminate.
  - clear. vm_compute. discriminate.
Qed.
Example C50_ex_faults_logical : exists q sa sb s' is0 is1 is2 js (k1 : config ZAmp) D,
  e2e_q.2 = Ok q /\ run_evs q [Call OResetZ; Call OStab] e2e_q.1 = (sa, Ok tt) /\ emitted e2e_q.1 sa is0 /\
  run_evs q (Call <$> cf_ops) sa = (sb, Ok tt) /\ emitted sa sb is1 /\
  run_evs q (Call <$> [OStab; OStab; OReadZ None]) sb = (s', Ok tt) /\ emitted sb s' is2 /\
  js = take 30 is1 ++ [IX (dq "tq" 7); IZ (dq "tq" 7)] ++ drop 30 is1 /\ inject is1 js 1 /\
  exec (is0 ++ js ++ is2) (fun _ => false, zero_state) k1 /\ possible k1 /\
  rotated_decoder (Some (DTup [5; 3])) (Some 4) = Ok D /\
  exists p0, (0 < p0 < / 2)%R /\ forall p, (0 < p <= p0)%R -> correct_readout_p rx_ref D (Some p) (counts_key k1.1 (cregs s')) false = Ok 1.
Proof.
  destruct e2e_ok as (q & Hq & Hok & Hc).
  assert (Hrun : run_ok e2e_q ([Call OResetZ; Call OStab] ++ (Call <$> cf_ops) ++ (Call <$> [OStab; OStab; OReadZ None])) = true) by (vm_compute; reflexivity).
  destruct (run_ok_inv _ _ _ _ _ Hq Hok Hrun) as (s' & is & Hr & Hem).
  destruct (run_split _ _ _ _ _ _ _ Hok Hr) as (sa & is0 & isx & Hra & Hea & Hrx & Hex).
  assert (Hoka : lat_ok sa q 5 3) by (destruct (lat_ok_cnt _ _ _ _ Hok) as [n Hn]; exact (po_ok _ _ _ _ _ _ _ _ (run_evs_inv _ _ _ _ _ _ _ Hok Hn Hra))).
  destruct (run_split _ _ _ _ _ _ _ Hoka Hrx) as (sb & is1 & is2 & Hrb & Heb & Hrc & Hec).
  assert (Hokb : lat_ok sb q 5 3) by (destruct (lat_ok_cnt _ _ _ _ Hoka) as [n Hn]; exact (po_ok _ _ _ _ _ _ _ _ (run_evs_inv _ _ _ _ _ _ _ Hoka Hn Hrb))).
  pose proof (inject_at 30 GY (dq "tq" 7) is1) as Hinj. set (js := take 30 is1 ++ _) in Hinj.
  destruct (exec_possible_Z (is0 ++ js ++ is2) (fun _ => false, zero_state)) as (k1 & He & Hp); [|apply zero_possible|].
  { intros i [Hi|[Hi|Hi]%elem_of_app]%elem_of_app; [by eapply (evs_proper _ _ _ _ _ _ _ Hok Hra Hea)| |by eapply (evs_proper _ _ _ _ _ _ _ Hokb Hrc Hec)].
    eapply inject_proper; [exact Hinj| |done]. by apply (evs_proper _ _ _ _ _ _ _ Hoka Hrb Heb). }
  destruct (decoder_for_rotated false 5 3 4 v53) as (D & ED & HD).
  destruct (C50_small false 5 3 4 D v53 eq_refl) as (p0 & Hp0 & Hsm); [clear; vm_compute; split; congruence|clear; lia|exact HD|].
  assert (Hregs : cregs s' = ((., 14) <$> (e2e_names ++ ["tq_c4"%string])) ++ [("tq_readout_0"%string, 1)]).
  { rewrite <-(run_regs_eq _ _ _ _ Hq Hr). vm_compute. reflexivity. }
  exists q, sa, sb, s', is0, is1, is2, js, k1, D. do 7 (split; [assumption|]). split; [reflexivity|]. do 4 (split; [assumption|]).
  exists p0. split; [exact Hp0|]. intros p Hpp. specialize (Hsm p Hpp).
  refine (proj2 (C50_faults_logical ZAmp false _ q 5 3 cf_ops sa is0 sb is1 s' is2 js 1 (fun _ => false, zero_state) k1 _ _ 4 D rx_ref p [] k1.1 Hok eq_refl e2e_empty Hra Hea Hrb Heb Hrc Hec cf_body Hinj
    (C10_initially_clean ZAmp q) He Hp Hregs (observed_id _ _ _ _ _) eq_refl _ _ HD Hsm _ rx_ref_ok)).
  - clear. by intros m []%elem_of_nil.
  - clear. vm_compute. discriminate.
  - clear. vm_compute. discriminate.
Qed.
