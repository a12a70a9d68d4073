(** Property C51: how far decoding reaches - along a chain of data qubits it is a majority vote. *)
From Verif Require Import FaultFacts Parse P_Parse P_Decode FrameCode RxRef DistanceFacts.
From stdpp Require Export list.
Open Scope Z_scope.

(** * C51 *)
(** A chain of data qubits from the readout side to the opposite side: a column for Z readouts, a
    row for X readouts. *)
Definition chain (isx : bool) (dh dw j : Z) : gset Z := if isx then row_set dh dw j else col_set dh dw j.
Definition n_chains (isx : bool) (dh dw : Z) : Z := if isx then dh else dw.

Lemma chain_size isx dh dw j : valid_size dh dw -> 0 <= j < n_chains isx dh dw -> Z.of_nat (size (chain isx dh dw j)) = extent isx dh dw.
Proof. intros Hv Hj. unfold valid_size in Hv. destruct isx; cbn in *; [apply size_row; lia|apply size_col; lia]. Qed.
Lemma chain_data isx dh dw j i : i ∈ chain isx dh dw j -> 0 <= i < dh * dw.
Proof. intros Hi. apply elem_of_data_set. destruct isx; [by apply elem_of_row_set in Hi as [? _]|by apply elem_of_col_set in Hi as [? _]]. Qed.
Lemma chain_stab isx dh dw j loc : valid_size dh dw -> 0 <= loc < P_Graph.nsyn isx dh dw -> dot (chain isx dh dw j) (tset dh dw (isx, loc)) = false.
Proof.
  intros Hv Hl. unfold tset, geomP. destruct isx; cbn [fst snd chain] in *; unfold P_Graph.nsyn in Hl.
  - pose proof (stab_x_XXZZ _ _ _ Hv Hl) as E. apply (f_equal px) in E. change (list_to_set (plaq_data (geom_x dh dw loc)) = box dh dw (xr dw loc) (xc dw loc)) in E. rewrite E. destruct (x_loc_corner _ _ _ Hv Hl) as (?&?&_). apply row_box_even; unfold valid_size in Hv; lia.
  - pose proof (stab_z_XXZZ _ _ _ Hv Hl) as E. apply (f_equal pz) in E. change (list_to_set (plaq_data (geom_z dh dw loc)) = box dh dw (zr dw loc) (zc dw loc)) in E. rewrite E. destruct (z_loc_corner _ _ _ Hv Hl) as (?&?&_). apply col_box_even; unfold valid_size in Hv; lia.
Qed.
Lemma chain_log isx dh dw j : valid_size dh dw -> 0 <= j < n_chains isx dh dw -> dot (chain isx dh dw j) (lset dh dw isx) = true.
Proof. intros Hv Hj. unfold valid_size in Hv. destruct isx; cbn in *; [apply row_col_odd; lia|rewrite dot_comm; apply row_col_odd; lia]. Qed.
Lemma xorl_dot (F A : gset Z) : xorl ((fun i => mem i A) <$> elements F) = dot F A.
Proof. rewrite <-(list_to_set_elements_L F) at 2. rewrite dot_comm, dot_list by apply NoDup_elements. done. Qed.
Lemma dot_rest (C F A : gset Z) : F ⊆ C -> dot F A = xorb (dot C A) (dot (C ∖ F) A).
Proof.
  intros H. assert (E : C = F ⊕ (C ∖ F)).
  { apply set_eq. intros x. unfold sd. destruct (decide (x ∈ F)); set_solver. }
  rewrite E at 1. rewrite dot_sd_l. by destruct (dot F A), (dot (C ∖ F) A).
Qed.
(** The flips of some qubits of a chain are reported like those of the others ... *)
Lemma rest_reported isx c dh dw j t (F : gset Z) base rounds : valid_size dh dw -> F ⊆ chain isx dh dw j ->
  reported isx c dh dw base ((t,.) <$> elements F) [] rounds -> reported isx c dh dw base ((t,.) <$> elements (chain isx dh dw j ∖ F)) [] rounds.
Proof.
  intros Hv HF H s r loc Hs Hl. rewrite (H s r loc Hs Hl). unfold SpecFault.syn_bit. do 2 f_equal. rewrite <-!list_fmap_compose.
  assert (E : forall G : gset Z, xorl (((fun f : Z * Z => bool_decide (f.1 < Z.of_nat s) && anti (err_at isx c dh dw f.2) (stabk isx c dh dw loc)) ∘ (t,.)) <$> elements G) = bool_decide (t < Z.of_nat s) && dot G (tset dh dw (isx, loc))).
  { intros G. rewrite <-xorl_dot. destruct (bool_decide (t < Z.of_nat s)) eqn:Eb.
    - apply xorl_ext. intros i _. cbn [compose fst snd]. unfold compose. cbn [fst snd]. rewrite Eb, (stabk_typed c dh dw Hv) by done. cbn [andb]. apply anti_err_typed.
    - cbn [andb]. apply xorl_false, Forall_fmap, list.Forall_forall. intros i _. unfold compose. cbn [fst snd]. by rewrite Eb. }
  rewrite !E. f_equal. rewrite (dot_rest (chain isx dh dw j) F) by done. by rewrite chain_stab, xorb_false_l.
Qed.
(** ... but they differ in the logical value. *)
Lemma rest_flip isx c dh dw j t (F : gset Z) : valid_size dh dw -> 0 <= j < n_chains isx dh dw -> F ⊆ chain isx dh dw j ->
  logical_flip isx c dh dw ((t,.) <$> elements F) = negb (logical_flip isx c dh dw ((t,.) <$> elements (chain isx dh dw j ∖ F))).
Proof.
  intros Hv Hj HF. assert (E : forall G : gset Z, logical_flip isx c dh dw ((t,.) <$> elements G) = dot G (lset dh dw isx)).
  { intros G. unfold logical_flip. rewrite <-xorl_dot, <-list_fmap_compose. apply xorl_ext. intros i _. unfold compose. cbn [fst snd]. rewrite logk_typed. apply anti_err_typed. }
  rewrite !E, (dot_rest (chain isx dh dw j) F) by done. rewrite chain_log by done. by destruct (dot _ _).
Qed.

(** If more than half of the data qubits of a chain are flipped at the same time, the decoded
    value is always wrong - while C26 shows that it is always right if fewer than half are. *)
Theorem C51_majority isx c dh dw T D rx ep cs names last base j t (F : gset Z) v :
  valid_size dh dw -> 1 < dh * dw -> decoder_for isx dh dw T D -> rx_ok rx ->
  0 <= j < n_chains isx dh dw -> F ⊆ chain isx dh dw j -> extent isx dh dw < 2 * Z.of_nat (size F) ->
  let N := Z.of_nat (length names) in
  N - 1 <= T -> 0 <= t < N - 1 ->
  reported isx c dh dw base ((t,.) <$> elements F) [] (recorded cs names) ->
  cs (last, 0) = xorb v (logical_flip isx c dh dw ((t,.) <$> elements F)) ->
  correct_readout rx D ep (counts_key cs (((., dh * dw - 1) <$> names) ++ [(last, 1)])) isx = Ok (Z.b2z (negb v)).
Proof.
  intros Hv H1 HD Hrx Hj HF Hsz N HN Ht Hrep Hlast.
  eapply (C26_corrects c isx dh dw T D rx ep cs names last base _ [] (negb v)); [done|done|exact HD|done|exact HN| |by eapply rest_reported| |].
  - split; [|by intros m []%elem_of_nil]. intros f (i & -> & Hi)%elem_of_list_fmap. split; [done|]. cbn [snd]. apply elem_of_elements, elem_of_difference in Hi as [Hi _]. by eapply chain_data.
  - rewrite Hlast, (rest_flip isx c dh dw j t F) by done. destruct v, (logical_flip isx c dh dw ((t,.) <$> elements (chain isx dh dw j ∖ F))); done.
  - rewrite fmap_length. change (length (elements (chain isx dh dw j ∖ F))) with (size (chain isx dh dw j ∖ F)). rewrite size_difference by done. pose proof (chain_size isx dh dw j Hv Hj) as E.
    pose proof (subseteq_size _ _ HF). cbn [length]. unfold extent in *. destruct isx; zmod.
Qed.
Print Assumptions C51_majority.
(** The same when all data qubits are read out in the Z basis. *)
Theorem C51_majority_lattice_z c dh dw T D rx ep cs names nm last base j t (F : gset Z) v :
  valid_size dh dw -> 1 < dh * dw -> decoder_for false dh dw T D -> rx_ok rx ->
  0 <= j < dw -> F ⊆ chain false dh dw j -> dh < 2 * Z.of_nat (size F) ->
  let rounds := recorded cs (names ++ [nm]) ++ [final_round dh dw (fun i => cs (last, i)) (fun i => cs (nm, i))] in
  let N := Z.of_nat (length rounds) in
  N - 1 <= T -> 0 <= t < N - 1 ->
  reported false c dh dw base ((t,.) <$> elements F) [] rounds ->
  xorl ((fun i => cs (last, i)) <$> seqZ 0 dw) = xorb v (logical_flip false c dh dw ((t,.) <$> elements F)) ->
  correct_readout rx D ep (counts_key cs (((., dh * dw - 1) <$> names ++ [nm]) ++ [(last, dh * dw)])) false = Ok (Z.b2z (negb v)).
Proof.
  intros Hv H1 HD Hrx Hj HF Hsz rounds N HN Ht Hrep Hlast.
  eapply (C26_corrects_lattice_z c dh dw T D rx ep cs names nm last base _ [] (negb v)); [done|done|exact HD|done|exact HN| |by eapply rest_reported| |].
  - split; [|by intros m []%elem_of_nil]. intros f (i & -> & Hi)%elem_of_list_fmap. split; [done|]. cbn [snd]. apply elem_of_elements, elem_of_difference in Hi as [Hi _]. by eapply chain_data.
  - rewrite Hlast, (rest_flip false c dh dw j t F) by done. destruct v, (logical_flip false c dh dw ((t,.) <$> elements (chain false dh dw j ∖ F))); done.
  - rewrite fmap_length. change (length (elements (chain false dh dw j ∖ F))) with (size (chain false dh dw j ∖ F)). rewrite size_difference by done. pose proof (chain_size false dh dw j Hv Hj) as E.
    pose proof (subseteq_size _ _ HF). cbn [length]. unfold extent in *. zmod.
Qed.
Print Assumptions C51_majority_lattice_z.
(** So the bound of C26 is sharp for every size: (d+1)/2 flips can be too many. *)
Theorem C51_sharp isx c dh dw T D rx ep : valid_size dh dw -> 1 < dh * dw -> decoder_for isx dh dw T D -> rx_ok rx -> 1 <= T ->
  exists cs names last base flips v,
    Z.of_nat (length names) - 1 <= T /\ faults_within isx dh dw (Z.of_nat (length names)) flips [] /\
    Z.of_nat (length flips) = (extent isx dh dw + 1) / 2 /\
    reported isx c dh dw base flips [] (recorded cs names) /\ cs (last, 0) = xorb v (logical_flip isx c dh dw flips) /\
    correct_readout rx D ep (counts_key cs (((., dh * dw - 1) <$> names) ++ [(last, 1)])) isx = Ok (Z.b2z (negb v)).
Proof.
  intros Hv H1 HD Hrx HT. assert (Hj : 0 <= 0 < n_chains isx dh dw) by (unfold valid_size in Hv; destruct isx; cbn; lia).
  pose proof (chain_size isx dh dw 0 Hv Hj) as Hs. set (C := chain isx dh dw 0) in *. set (d := extent isx dh dw) in *.
  assert (Hd : 1 <= d /\ Z.odd d = true) by (unfold valid_size in Hv; unfold d, extent; destruct isx; split; naive_solver lia).
  set (L := take (Z.to_nat ((d + 1) / 2)) (elements C)). set (F := list_to_set L : gset Z).
  assert (HL : NoDup L) by (unfold L; eapply (list.NoDup_app _ (drop (Z.to_nat ((d + 1) / 2)) (elements C))); rewrite take_drop; apply NoDup_elements).
  assert (HLn : Z.of_nat (length L) = (d + 1) / 2). { unfold L. rewrite take_length. change (length (elements C)) with (size C). zmod. }
  assert (HFn : Z.of_nat (size F) = (d + 1) / 2). { unfold F. by rewrite size_list_to_set. }
  assert (HF : F ⊆ C). { intros i Hi. apply elem_of_list_to_set in Hi. apply elem_of_elements. rewrite <-(take_drop (Z.to_nat ((d + 1) / 2)) (elements C)). apply elem_of_app. by left. }
  set (flips := (0,.) <$> elements F).
  set (cs := fun b : clbit => if bool_decide (b.1 = "r"%string) then logical_flip isx c dh dw flips else SpecFault.syn_bit isx c dh dw (fun _ => false) flips [] (if bool_decide (b.1 = "a"%string) then 0 else 1) (b.2 - syn_off isx dh dw)).
  assert (Hrep : reported isx c dh dw (fun _ => false) flips [] (recorded cs ["a"; "b"]%string)).
  { intros s r loc Hr Hl. destruct s as [|[|s]]; cbn in Hr; [injection Hr as <-..|done].
    - unfold cs. cbn [fst snd]. rewrite bool_decide_eq_false_2, bool_decide_eq_true_2 by done. f_equal. lia.
    - unfold cs. cbn [fst snd]. rewrite !bool_decide_eq_false_2 by done. f_equal. lia. }
  exists cs, ["a"; "b"]%string, "r"%string, (fun _ => false), flips, false.
  split; [cbn; lia|]. split.
  { split; [|by intros m []%elem_of_nil]. intros f (i & -> & Hi)%elem_of_list_fmap. cbn [fst snd length]. split; [lia|]. apply elem_of_elements in Hi. by eapply chain_data, HF. }
  split; [unfold flips; rewrite fmap_length; exact HFn|]. split; [exact Hrep|].
  assert (Hr : cs ("r"%string, 0) = xorb false (logical_flip isx c dh dw flips)) by (unfold cs; cbn [fst]; by rewrite bool_decide_eq_true_2, xorb_false_l by done).
  split; [exact Hr|].
  refine (C51_majority isx c dh dw T D rx ep cs ["a"; "b"]%string "r"%string (fun _ => false) 0 0 F false Hv H1 HD Hrx Hj HF _ _ _ Hrep Hr); cbn [length]; try lia.
  fold d. rewrite HFn. destruct Hd as [Hd Ho]. rewrite Z.odd_spec in Ho. destruct Ho as [k ->]. zmod.
Qed.
Print Assumptions C51_sharp.
(** 3x3 lattice, T = 1, two rounds: data qubits 1 and 4 of the middle column 1, 4, 7 are flipped
    after round 0.  A single flip of data qubit 7 would have been reported in the same way. *)
Definition sharp_bits : clbit -> bool := fun b => bool_decide (b ∈ [("a1", 3); ("r", 0)]%string).
Example C51_ex : let names := ["a0"; "a1"]%string in let F : gset Z := {[1; 4]} in
  decoder_for false 3 3 1 ex_dec1 /\ F ⊆ chain false 3 3 1 /\ extent false 3 3 < 2 * Z.of_nat (size F) /\
  reported false XXZZ 3 3 (fun _ => false) ((0,.) <$> elements F) [] (recorded sharp_bits names) /\
  logical_flip false XXZZ 3 3 ((0,.) <$> elements F) = true /\
  sharp_bits ("r"%string, 0) = xorb false true /\
  correct_readout rx_ref ex_dec1 EPNone "1 00001000 00000000" false = Ok 1.
Proof.
  intros names F. split; [split; [reflexivity|split; [reflexivity|left; exists (Some (DTup [3; 3])); vm_compute; reflexivity]]|].
  split; [apply (bool_decide_eq_true (F ⊆ chain false 3 3 1)); vm_compute; reflexivity|]. split; [vm_compute; reflexivity|]. split.
  { intros s r loc Hs Hl. change (P_Graph.nsyn false 3 3) with 4 in Hl.
    assert (loc = 0 \/ loc = 1 \/ loc = 2 \/ loc = 3) as Hloc by lia.
    destruct s as [|[|s]]; [injection Hs as <-..|done]; destruct Hloc as [-> | [-> | [-> | ->]]]; vm_compute; reflexivity. }
  split; [vm_compute; reflexivity|]. split; vm_compute; reflexivity.
Qed.
