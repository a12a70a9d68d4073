(** Property C49: faults anywhere in the circuit, within rounds and readouts included. *)
From Verif Require Import FrameDecode RxRef P_Decode.
From stdpp Require Export list.
Open Scope Z_scope.

(** * C49 *)
(** A fresh circuit with one lattice; reset and a first round without faults, then any rounds,
    logical gates and identities in any number and order, and the lattice readout.  [js] is the
    code of everything after the first round with [w] faults inserted: X, Y or Z on any qubit -
    data qubits, syndrome qubits, the readout ancilla, others - before or after any instruction.
    In addition syndrome bits may be misread.  If twice the number of faults and the misreadings
    are at most (d-1)/2, the decoded value is the logical value, whatever the outcomes. *)
Theorem C49_lattice (R : Amp) s q dh dw l sa is0 s' is1 js w (k0 k1 : config R) rs rd T D rx ep misread cs' :
  lat_ok s q dh dw -> 1 < dh * dw -> cregs s = [] ->
  run_evs q [Call OResetZ; Call OStab] s = (sa, Ok tt) -> emitted s sa is0 ->
  run_evs q (Call <$> l ++ [OLatZ]) sa = (s', Ok tt) -> emitted sa s' is1 ->
  Forall body_op l -> inject is1 js w ->
  syndromes_clean q k0.2 -> exec (is0 ++ js) k0 k1 -> possible k1 ->
  cregs s' = rs ++ [rd] ->
  observed false dh dw rs.*1 misread k1.1 cs' -> (forall j, 0 <= j < dh * dw -> cs' (rd.1, j) = k1.1 (rd.1, j)) ->
  let N := Z.of_nat (length rs) in
  (forall m, m ∈ misread -> 1 <= m.1 < N /\ 0 <= m.2 < nsyn false dh dw) ->
  Z.of_nat (2 * w + length misread) <= (dh - 1) / 2 ->
  decoder_for false dh dw T D -> N <= T -> rx_ok rx ->
  N = 1 + Z.of_nat (count is_stab l) /\
  correct_readout rx D ep (counts_key cs' (cregs s')) false = Ok (Z.b2z (Nat.odd (count is_x l))).
Proof.
  intros Hok H1 Hcr Hra Hea Hrb Heb Hl Hinj Hcl He Hp Hrs Hobs Hrd N Hmis Hw HD HT Hrx.
  pose proof (lo_valid _ _ _ _ Hok) as Hv.
  destruct (noisy_lattice s q dh dw l sa is0 s' is1 js w k0 k1 rs rd misread cs' Hok Hcr Hra Hea Hrb Heb Hl Hinj Hcl He Hp Hrs Hobs Hrd Hmis)
    as (HN & base & names & nm & last & flips & mis & Hlen & -> & HL & Hf & Hrep & Hlast).
  split; [done|]. eapply C26_corrects_lattice_z; [done|done|exact HD|done|rewrite HL; fold N; lia|rewrite HL; exact Hf|exact Hrep|exact Hlast|lia].
Qed.
Print Assumptions C49_lattice.
(** With the logical readout, in either basis: faults anywhere in the code of [l], which is
    followed by two rounds and the readout without faults. *)
Theorem C49_logical (R : Amp) isx s q dh dw l sa is0 sb is1 s' is2 js w (k0 k1 : config R) rs rd T D rx ep misread cs' :
  lat_ok s q dh dw -> 1 < dh * dw -> cregs s = [] ->
  run_evs q [Call (reset_op isx); Call OStab] s = (sa, Ok tt) -> emitted s sa is0 ->
  run_evs q (Call <$> l) sa = (sb, Ok tt) -> emitted sa sb is1 ->
  run_evs q (Call <$> [OStab; OStab; read_op isx]) sb = (s', Ok tt) -> emitted sb s' is2 ->
  Forall body_op l -> inject is1 js w ->
  syndromes_clean q k0.2 -> exec (is0 ++ js ++ is2) k0 k1 -> possible k1 ->
  cregs s' = rs ++ [rd] ->
  observed isx dh dw rs.*1 misread k1.1 cs' -> cs' (rd.1, 0) = k1.1 (rd.1, 0) ->
  let N := Z.of_nat (length rs) in
  (forall m, m ∈ misread -> 1 <= m.1 < N - 1 /\ 0 <= m.2 < nsyn isx dh dw) ->
  Z.of_nat (2 * w + length misread) <= (extent isx dh dw - 1) / 2 ->
  decoder_for isx dh dw T D -> N - 1 <= T -> rx_ok rx ->
  N = 3 + Z.of_nat (count is_stab l) /\
  correct_readout rx D ep (counts_key cs' (cregs s')) isx = Ok (Z.b2z (Nat.odd (count (inverts isx) l))).
Proof.
  intros Hok H1 Hcr Hra Hea Hrb Heb Hrc Hec Hl Hinj Hcl He Hp Hrs Hobs Hrd N Hmis Hw HD HT Hrx.
  pose proof (lo_valid _ _ _ _ Hok) as Hv.
  destruct (noisy_logical isx s q dh dw l sa is0 sb is1 s' is2 js w k0 k1 rs rd misread cs' Hok Hcr Hra Hea Hrb Heb Hrc Hec Hl Hinj Hcl He Hp Hrs Hobs Hrd Hmis)
    as (HN & base & names & last & flips & mis & Hlen & -> & HL & Hf & Hrep & Hlast).
  split; [done|]. eapply C26_corrects; [done|done|exact HD|done|by rewrite HL|rewrite HL; exact Hf|exact Hrep|exact Hlast|lia].
Qed.
Print Assumptions C49_logical.

(** * Runs meeting the hypotheses *)
Lemma inject_at i p q is : inject is (take i is ++ germ_gates p q ++ drop i is) 1.
Proof.
  revert i. induction is as [|a is IHis]; intros [|i]; try (cbn [take drop app]; apply InjFault, inject_refl).
  cbn [take drop app]. apply InjKeep, IHis.
Qed.
Lemma run_split q l1 l2 s s' dh dw : lat_ok s q dh dw -> run_evs q (l1 ++ l2) s = (s', Ok tt) ->
  exists s1 is1 is2, run_evs q l1 s = (s1, Ok tt) /\ emitted s s1 is1 /\ run_evs q l2 s1 = (s', Ok tt) /\ emitted s1 s' is2.
Proof.
  intros Hok Hr. apply mfor_app in Hr as (s1 & H1 & H2). destruct (lat_ok_cnt _ _ _ _ Hok) as [n Hn].
  pose proof (run_evs_inv _ _ _ _ _ _ _ Hok Hn H1) as HP1. pose proof (run_evs_inv _ _ _ _ _ _ _ (po_ok _ _ _ _ _ _ _ _ HP1) (po_cnt _ _ _ _ _ _ _ _ HP1) H2) as HP2.
  exists s1. eexists _, _. split; [done|]. split; [exact (po_code _ _ _ _ _ _ _ _ HP1)|]. split; [done|exact (po_code _ _ _ _ _ _ _ _ HP2)].
Qed.
Lemma evs_proper s q dh dw l s' is : lat_ok s q dh dw -> run_evs q l s = (s', Ok tt) -> emitted s s' is -> forall i, i ∈ is -> proper i.
Proof.
  intros Hok Hr Hem. destruct (lat_ok_cnt _ _ _ _ Hok) as [n Hn]. pose proof (lo_valid _ _ _ _ Hok) as Hv.
  pose proof (run_evs_inv _ _ _ _ _ _ _ Hok Hn Hr) as HP. unfold emitted in Hem. rewrite (po_code _ _ _ _ _ _ _ _ HP) in Hem.
  apply app_inv_head in Hem. subst is. clear -Hv.
  revert n. induction l as [|e l IHl]; intros n i Hi; cbn [evs_code] in Hi; [by apply elem_of_nil in Hi|].
  apply elem_of_app in Hi as [Hi|Hi]; [|by eapply IHl]. destruct e as [o|isx j]; cbn [ev_code] in Hi; [by eapply op_touch|].
  apply elem_of_list_singleton in Hi as ->. by destruct isx.
Qed.
Lemma inject_proper is js w : inject is js w -> (forall i, i ∈ is -> proper i) -> forall i, i ∈ js -> proper i.
Proof.
  induction 1 as [|i is js w H IHi|p q is js w H IHi]; intros Hp j Hj; [by apply elem_of_nil in Hj| |].
  - apply elem_of_cons in Hj as [-> |Hj]; [apply Hp; by left|]. apply IHi; [intros; apply Hp; by right|done].
  - apply elem_of_app in Hj as [Hj|Hj]; [|by apply IHi]. destruct p; cbn in Hj; repeat (apply elem_of_cons in Hj as [-> |Hj]; [done|]); by apply elem_of_nil in Hj.
Qed.

(** The 5 by 3 lattice of C27_ex: Y on data qubit 7 in the middle of the second round, after 30 of
    its instructions. *)
Definition cf_ops : list op := [OStab; OX; OStab; OIdData].
Lemma cf_body : Forall body_op cf_ops. Proof. repeat constructor. Qed.
Example C49_ex_lattice : exists q sa s' is0 is1 js (k1 : config ZAmp) D,
  e2e_q.2 = Ok q /\ run_evs q [Call OResetZ; Call OStab] e2e_q.1 = (sa, Ok tt) /\ emitted e2e_q.1 sa is0 /\
  run_evs q (Call <$> cf_ops ++ [OLatZ]) sa = (s', Ok tt) /\ emitted sa s' is1 /\
  js = take 30 is1 ++ [IX (dq "tq" 7); IZ (dq "tq" 7)] ++ drop 30 is1 /\ inject is1 js 1 /\
  exec (is0 ++ js) (fun _ => false, zero_state) k1 /\ possible k1 /\
  rotated_decoder (Some (DTup [5; 3])) (Some 3) = Ok D /\
  correct_readout rx_ref D EPNone (counts_key k1.1 (cregs s')) false = Ok 1.
Proof.
  destruct e2e_ok as (q & Hq & Hok & Hc).
  assert (Hrun : run_ok e2e_q ([Call OResetZ; Call OStab] ++ (Call <$> cf_ops ++ [OLatZ])) = true) by (vm_compute; reflexivity).
  destruct (run_ok_inv _ _ _ _ _ Hq Hok Hrun) as (s' & is & Hr & Hem).
  destruct (run_split _ _ _ _ _ _ _ Hok Hr) as (sa & is0 & is1 & Hra & Hea & Hrb & Heb).
  assert (Hoka : lat_ok sa q 5 3) by (destruct (lat_ok_cnt _ _ _ _ Hok) as [n Hn]; exact (po_ok _ _ _ _ _ _ _ _ (run_evs_inv _ _ _ _ _ _ _ Hok Hn Hra))).
  pose proof (inject_at 30 GY (dq "tq" 7) is1) as Hinj. set (js := take 30 is1 ++ _) in Hinj.
  destruct (exec_possible_Z (is0 ++ js) (fun _ => false, zero_state)) as (k1 & He & Hp); [|apply zero_possible|].
  { intros i [Hi|Hi]%elem_of_app; [by eapply (evs_proper _ _ _ _ _ _ _ Hok Hra Hea)|]. eapply inject_proper; [exact Hinj| |done]. by apply (evs_proper _ _ _ _ _ _ _ Hoka Hrb Heb). }
  destruct (decoder_for_rotated false 5 3 3 v53) as (D & ED & HD).
  assert (Hregs : cregs s' = ((., 14) <$> take 3 e2e_names) ++ [("tq_lattice_readout_0"%string, 15)]).
  { rewrite <-(run_regs_eq _ _ _ _ Hq Hr). vm_compute. reflexivity. }
  exists q, sa, s', is0, is1, js, k1, D. do 5 (split; [assumption|]). split; [reflexivity|]. do 4 (split; [assumption|]).
  refine (proj2 (C49_lattice ZAmp _ q 5 3 cf_ops sa is0 s' is1 js 1 (fun _ => false, zero_state) k1 _ _ 3 D rx_ref EPNone [] k1.1 Hok eq_refl e2e_empty Hra Hea Hrb Heb cf_body Hinj
    (C10_initially_clean ZAmp q) He Hp Hregs (observed_id _ _ _ _ _) (fun _ _ => eq_refl) _ _ HD _ rx_ref_ok)).
  - clear. by intros m []%elem_of_nil.
  - clear. vm_compute. discriminate.
  - clear. vm_compute. discriminate.
Qed.
Example C49_ex_logical : exists q sa sb s' is0 is1 is2 js (k1 : config ZAmp) D,
  e2e_q.2 = Ok q /\ run_evs q [Call OResetZ; Call OStab] e2e_q.1 = (sa, Ok tt) /\ emitted e2e_q.1 sa is0 /\
  run_evs q (Call <$> cf_ops) sa = (sb, Ok tt) /\ emitted sa sb is1 /\
  run_evs q (Call <$> [OStab; OStab; OReadZ None]) sb = (s', Ok tt) /\ emitted sb s' is2 /\
  js = take 30 is1 ++ [IX (dq "tq" 7); IZ (dq "tq" 7)] ++ drop 30 is1 /\ inject is1 js 1 /\
  exec (is0 ++ js ++ is2) (fun _ => false, zero_state) k1 /\ possible k1 /\
  rotated_decoder (Some (DTup [5; 3])) (Some 4) = Ok D /\
  correct_readout rx_ref D EPNone (counts_key k1.1 (cregs s')) false = Ok 1.
Proof.
  destruct e2e_ok as (q & Hq & Hok & Hc).
  assert (Hrun : run_ok e2e_q ([Call OResetZ; Call OStab] ++ (Call <$> cf_ops) ++ (Call <$> [OStab; OStab; OReadZ None])) = true) by (vm_compute; reflexivity).
  destruct (run_ok_inv _ _ _ _ _ Hq Hok Hrun) as (s' & is & Hr & Hem).
  destruct (run_split _ _ _ _ _ _ _ Hok Hr) as (sa & is0 & isx & Hra & Hea & Hrx & Hex).
  assert (Hoka : lat_ok sa q 5 3) by (destruct (lat_ok_cnt _ _ _ _ Hok) as [n Hn]; exact (po_ok _ _ _ _ _ _ _ _ (run_evs_inv _ _ _ _ _ _ _ Hok Hn Hra))).
  destruct (run_split _ _ _ _ _ _ _ Hoka Hrx) as (sb & is1 & is2 & Hrb & Heb & Hrc & Hec).
  assert (Hokb : lat_ok sb q 5 3) by (destruct (lat_ok_cnt _ _ _ _ Hoka) as [n Hn]; exact (po_ok _ _ _ _ _ _ _ _ (run_evs_inv _ _ _ _ _ _ _ Hoka Hn Hrb))).
  pose proof (inject_at 30 GY (dq "tq" 7) is1) as Hinj. set (js := take 30 is1 ++ _) in Hinj.
  destruct (exec_possible_Z (is0 ++ js ++ is2) (fun _ => false, zero_state)) as (k1 & He & Hp); [|apply zero_possible|].
  { intros i [Hi|[Hi|Hi]%elem_of_app]%elem_of_app; [by eapply (evs_proper _ _ _ _ _ _ _ Hok Hra Hea)| |by eapply (evs_proper _ _ _ _ _ _ _ Hokb Hrc Hec)].
    eapply inject_proper; [exact Hinj| |done]. by apply (evs_proper _ _ _ _ _ _ _ Hoka Hrb Heb). }
  destruct (decoder_for_rotated false 5 3 4 v53) as (D & ED & HD).
  assert (Hregs : cregs s' = ((., 14) <$> (e2e_names ++ ["tq_c4"%string])) ++ [("tq_readout_0"%string, 1)]).
  { rewrite <-(run_regs_eq _ _ _ _ Hq Hr). vm_compute. reflexivity. }
  exists q, sa, sb, s', is0, is1, is2, js, k1, D. do 7 (split; [assumption|]). split; [reflexivity|]. do 4 (split; [assumption|]).
  refine (proj2 (C49_logical ZAmp false _ q 5 3 cf_ops sa is0 sb is1 s' is2 js 1 (fun _ => false, zero_state) k1 _ _ 4 D rx_ref EPNone [] k1.1 Hok eq_refl e2e_empty Hra Hea Hrb Heb Hrc Hec cf_body Hinj
    (C10_initially_clean ZAmp q) He Hp Hregs (observed_id _ _ _ _ _) eq_refl _ _ HD _ rx_ref_ok)).
  - clear. by intros m []%elem_of_nil.
  - clear. vm_compute. discriminate.
  - clear. vm_compute. discriminate.
Qed.
