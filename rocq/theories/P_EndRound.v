(** Property C43: a misread stabilizer in the first or last round. *)
From Verif Require Import FaultFacts Parse P_Parse RxRef P_Decode.
From stdpp Require Export list.
Open Scope Z_scope.

Section chain.
Context (isx : bool) (dh dw T : Z) (g : lgraph Z).
Hypothesis Hsize : valid_size dh dw.
Hypothesis Hnd : 3 <= extent isx dh dw.
Hypothesis HT : 1 <= T.
Hypothesis Hg : make_syndrome_graph isx dh dw T = Ok g.
Lemma step_cell p s : cell isx dh dw p -> s = 2 \/ s = -2 -> -1 <= level isx p + s <= 2 * extent isx dh dw - 1 ->
  exists q, cell isx dh dw q /\ adjacent p q /\ level isx q = level isx p + s.
Proof.
  intros Hc Hs Hl. pose proof (size_pos dh dw Hsize) as (G1 & G2 & G3 & G4).
  destruct p as [y x]. unfold cell, level, extent, adjacent in *. cbn [fst snd] in *. destruct isx.
  - destruct (decide (y = -1)) as [-> |Hy].
    + exists (1, x + s). cbn [fst snd]. zmod.
    + exists (y - 2, x + s). cbn [fst snd]. zmod.
  - destruct (decide (x = -1)) as [-> |Hx].
    + exists (y + s, 1). cbn [fst snd]. zmod.
    + exists (y + s, x - 2). cbn [fst snd]. zmod.
Qed.
(** A straight chain of k edges within one round. *)
Lemma chain t p s k : 0 <= t < T -> cell isx dh dw p -> s = 2 \/ s = -2 ->
  -1 <= level isx p + s * Z.of_nat k <= 2 * extent isx dh dw - 1 ->
  exists q P, cell isx dh dw q /\ level isx q = level isx p + s * Z.of_nat k /\
    lpath g (place isx dh dw t p) (place isx dh dw t q) P /\ length P = k.
Proof.
  intros Ht. revert p. induction k as [|k IH]; intros p Hc Hs Hl.
  - exists p, []. split; [done|]. split; [lia|]. split; [|done]. constructor. by apply (place_node isx dh dw T g Hsize Hnd HT Hg).
  - assert (Hb : -1 <= level isx p <= 2 * extent isx dh dw - 1).
    { unfold cell, level, extent in *. destruct isx; lia. }
    destruct (step_cell p s Hc Hs) as (q & Hq & Ha & Hlq); [lia|].
    destruct (IH q Hq Hs) as (q' & P & Hq' & Hl' & HP & HL); [lia|].
    exists q', ((place isx dh dw t p, place isx dh dw t q) :: P). split; [done|]. split; [lia|]. split; [|cbn; lia].
    econstructor; [|exact HP]. apply (sg_facts isx dh dw T g Hsize Hnd HT Hg). left. exists t, p, q. done.
Qed.
End chain.

(** With no data error, one stabilizer misread in the first or last of N >= 2 rounds.  Its
    single event is matched to the nearer boundary: the value read is inverted exactly when the
    stabilizer is nearer to the side of the readout (top row for Z, left column for X). *)
Theorem C43_end_round c isx dh dw T D rx ep cs names last base s loc :
  valid_size dh dw -> 1 < dh * dw -> decoder_for isx dh dw T D -> rx_ok rx ->
  let N := Z.of_nat (length names) in
  2 <= N -> N - 1 <= T -> s = 0 \/ s = N - 1 -> 0 <= loc < nsyn isx dh dw ->
  reported isx c dh dw base [] [(s, loc)] (recorded cs names) ->
  let near := bool_decide (level isx (coordk isx dw loc) - (-1) < (2 * extent isx dh dw - 1) - level isx (coordk isx dw loc)) in
  correct_readout rx D ep (counts_key cs (((., dh * dw - 1) <$> names) ++ [(last, 1)])) isx = Ok (Z.b2z (xorb (cs (last, 0)) near)).
Proof.
  intros Hv H1 HD Hrx N HN HNT Hs Hl Hrep near. unfold correct_readout.
  destruct (decoder_inv isx dh dw T D HD) as (Hh & Hw & g & Hg & Eg). rewrite Hh, Hw.
  destruct (parse_key dh dw cs names last isx (Some (type_string isx)) Hv H1) as ((X & Z') & -> & Hnd & Hev).
  change (if isx then X else Z') with (pick isx (X, Z')). set (ev := pick isx (X, Z')) in *. clearbody ev. clear X Z'.
  pose proof (nsyn_extent isx dh dw loc Hv Hl) as Hext. assert (HT : 1 <= T) by lia.
  set (t := if decide (s = 0) then 0 else N - 2).
  assert (Ht : 0 <= t < T) by (unfold t; destruct (decide _); lia).
  assert (HR : length (recorded cs names) = length names) by apply fmap_length.
  assert (Hlook : forall k r loc', recorded cs names !! k = Some r -> 0 <= loc' < nsyn isx dh dw ->
    r (syn_off isx dh dw + loc') = xorb (base loc') (bool_decide ((s, loc) = (Z.of_nat k, loc')))).
  { intros k r loc' Hk Hl'. rewrite (Hrep k r loc' Hk Hl'). unfold syn_bit. rewrite fmap_cons, xorl_cons, !fmap_nil. change (xorl []) with false. by rewrite xorb_false_l, xorb_false_r. }
  assert (Hone : forall e, e ∈ ev <-> e = at_loc isx dw t loc).
  { intros e. rewrite Hev. split.
    - intros (k & r & r' & loc' & Hr & Hr' & Hl' & Hne & ->). rewrite (Hlook _ _ _ Hr Hl'), (Hlook _ _ _ Hr' Hl') in Hne.
      apply lookup_lt_Some in Hr'. rewrite HR in Hr'.
      assert (loc' = loc /\ Z.of_nat k = t) as [-> <-]; [|done].
      assert (Hor : loc' = loc /\ (s = Z.of_nat k \/ s = Z.of_nat (S k))).
      { revert Hne. rewrite !(bool_decide_ext _ _ (pair_equal_spec _ _ _ _)). destruct (base loc'); repeat case_bool_decide; cbn; intros Hne; try done; split; lia. }
      split; [lia|]. unfold t. destruct (decide (s = 0)); lia.
    - intros ->. destruct (lookup_lt_is_Some_2 (recorded cs names) (Z.to_nat t)) as [r Hr]; [unfold t in *; destruct (decide _); lia|].
      destruct (lookup_lt_is_Some_2 (recorded cs names) (S (Z.to_nat t))) as [r' Hr']; [unfold t in *; destruct (decide _); lia|].
      exists (Z.to_nat t), r, r', loc. split; [done|]. split; [done|]. split; [done|]. split.
      + rewrite (Hlook _ _ _ Hr Hl), (Hlook _ _ _ Hr' Hl).
        replace (Z.of_nat (Z.to_nat t)) with t by lia. replace (Z.of_nat (S (Z.to_nat t))) with (t + 1) by lia.
        rewrite !(bool_decide_ext _ _ (pair_equal_spec _ _ _ _)).
        unfold t. destruct (decide (s = 0)), (base loc); repeat case_bool_decide; cbn; try done; lia.
      + unfold at_loc. by rewrite Z2Nat.id by lia. }
  assert (Hevl : event_list g ev).
  { split; [done|]. intros n ->%Hone. split; [by apply (at_loc_node isx dh dw T g Hv Hext HT Eg)|]. unfold n_time, at_loc. cbn. lia. }
  destruct (loc_cell isx dh dw Hv loc Hl) as [Hc Hi]. pose proof Hi as Hi'. unfold inside in Hi'.
  assert (Hodd : level isx (coordk isx dw loc) mod 2 = 1) by (destruct Hc as (E1 & E2 & _); unfold level; by destruct isx).
  assert (Hplace : place isx dh dw t (coordk isx dw loc) = at_loc isx dw t loc) by (unfold place; by rewrite decide_True).
  set (L := level isx (coordk isx dw loc)) in *.
  pose proof (size_pos dh dw Hv) as (_ & _ & G3 & G4).
  assert (Hxo : extent isx dh dw mod 2 = 1) by (unfold extent; by destruct isx).
  assert (Hgo : forall d k, d = 2 \/ d = -2 -> 2 * Z.of_nat k < extent isx dh dw ->
    L + d * Z.of_nat k = (if decide (d = 2) then 2 * extent isx dh dw - 1 else -1) ->
    (correct_events rx D ep isx (Z.b2z (cs (last, 0))) ev).2 = Ok (Z.b2z (xorb (cs (last, 0)) (bool_decide (d = -2))))).
  { intros d k Hd Hk Hlev.
    destruct (chain isx dh dw T g Hv Hext HT Eg t (coordk isx dw loc) d k Ht Hc Hd) as (q & P & Hq & Hlq & HP & HPL).
    { fold L. destruct (decide (d = 2)); lia. }
    rewrite Hplace in HP.
    assert (Hqn : ~ inside isx dh dw q) by (unfold inside; rewrite Hlq; fold L; destruct (decide (d = 2)); lia).
    rewrite (decode_value isx dh dw T g Hv Hext HT Eg rx Hrx D (conj Hh (conj Hw Hg)) ep _ ev P Hevl (lpath_edges _ _ _ _ HP)).
    - rewrite (lpath_xor _ _ _ _ _ HP). do 3 f_equal. unfold tops, readout_side, place, at_loc, n_time. cbn [fst snd].
      rewrite bool_decide_eq_false_2 by lia. rewrite xorb_false_l. apply bool_decide_ext. rewrite decide_False by done.
      change (level isx (n_row (-1, q.1, q.2), n_col (-1, q.1, q.2))) with (level isx (q.1, q.2)).
      rewrite <-surjective_pairing, Hlq. fold L. destruct (decide (d = 2)); lia.
    - intros n Hn. rewrite (lpath_par _ _ _ _ n HP).
      rewrite (bool_decide_eq_false_2 (place _ _ _ _ _ = n)).
      + rewrite xorb_false_r. apply bool_decide_ext. rewrite Hone. split; congruence.
      + intros <-. unfold n_time, place in Hn. cbn in Hn. by rewrite decide_False in Hn.
    - by rewrite HPL. }
  unfold near. case_bool_decide as Hnear.
  - rewrite (Hgo (-2) (Z.to_nat ((L + 1) / 2))); [done|by right|rewrite Z2Nat.id by zmod; zmod|].
    rewrite decide_False by done. rewrite Z2Nat.id by zmod. zmod.
  - rewrite (Hgo 2 (Z.to_nat ((2 * extent isx dh dw - 1 - L) / 2))); [done|by left|rewrite Z2Nat.id by zmod; zmod|].
    rewrite decide_True by done. rewrite Z2Nat.id by zmod. zmod.
Qed.
Print Assumptions C43_end_round.

(** Z stabilizer 0 of a 3x3 lattice touches the top row, stabilizer 3 does not.  Logical value 0
    was prepared and read; the last of two rounds misreads one stabilizer. *)
Definition end_bits (i : Z) : clbit -> bool := fun b => bool_decide (b = ("a1"%string, i)).
Lemma end_reported i : 0 <= i < 4 -> reported false XXZZ 3 3 (fun _ => false) [] [(1, i)] (recorded (end_bits i) ["a0"; "a1"]%string).
Proof.
  intros Hi s r loc Hs Hl. unfold syn_bit, syn_off. rewrite fmap_cons, xorl_cons, !fmap_nil. change (xorl []) with false.
  rewrite !xorb_false_l, xorb_false_r. unfold recorded in Hs.
  apply list_lookup_fmap_inv in Hs as (nm & -> & Hnm). apply bool_decide_ext.
  destruct s as [|[|s]]; [injection Hnm as <-..|done]; split; intros [=]; subst; f_equal; lia.
Qed.
(** So the expectation that one such error is harmless fails. *)
Theorem C43_single_misread_refuted : exists i,
  reported false XXZZ 3 3 (fun _ => false) [] [(1, i)] (recorded (end_bits i) ["a0"; "a1"]%string) /\
  end_bits i ("r"%string, 0) = false /\ decoder_for false 3 3 2 ex_dec /\
  correct_readout rx_ref ex_dec EPNone (counts_key (end_bits i) [("a0", 8); ("a1", 8); ("r", 1)]%string) false = Ok 1.
Proof.
  exists 0. split; [by apply end_reported|]. split; [done|]. split; [apply C26_ex|]. vm_compute. reflexivity.
Qed.
Print Assumptions C43_single_misread_refuted.
Example C43_ex : reported false XXZZ 3 3 (fun _ => false) [] [(1, 3)] (recorded (end_bits 3) ["a0"; "a1"]%string) /\
  coordk false 3 3 = (3, 3) /\ coordk false 3 0 = (1, 1) /\
  correct_readout rx_ref ex_dec EPNone (counts_key (end_bits 3) [("a0", 8); ("a1", 8); ("r", 1)]%string) false = Ok 0.
Proof. split; [by apply end_reported|]. vm_compute. auto. Qed.
(** A repetition code of distance 5: stabilizers 0 and 1 are misread with, 2 and 3 without
    consequence. *)
Definition rep_dec : decoder := match repetition_decoder None (Some (DNum 5)) (Some 1) with Ok D => D | Err _ => Dec 0 0 0 None None end.
Example C43_ex_repetition : decoder_for false 5 1 1 rep_dec /\
  (correct_readout rx_ref rep_dec EPZero "1 1000 0000" false, correct_readout rx_ref rep_dec EPZero "1 0100 0000" false,
   correct_readout rx_ref rep_dec EPZero "1 0010 0000" false, correct_readout rx_ref rep_dec EPZero "1 0001 0000" false) = (Ok 1, Ok 1, Ok 0, Ok 0).
Proof.
  split.
  - split; [vm_compute; reflexivity|]. split; [vm_compute; reflexivity|]. right. exists None, (Some (DNum 5)). split; [vm_compute; reflexivity|done].
  - vm_compute. reflexivity.
Qed.
