(** Pauli frames through the readouts, and the account of a set of faults in a run. *)
From Verif Require Export FrameRun.
From stdpp Require Export list.
Open Scope Z_scope.

Section read.
Context (c : code) (name : string) (dh dw : Z) (Hv : valid_size dh dw).
Notation typ isx A := (pmap (dq name) (typed c dh dw isx A)).
Notation lat n := (op_code c name dh dw n OLatZ).
Notation lbit n j := (lrname name (cL n + 1), j : Z).

(** ** The lattice readout *)
Lemma push_H (L : list Z) P F : NoDup L -> exists P', push (IH <$> (dq name <$> L)) (Fr P F) = Fr P' F /\
  forall j, mem (dq name j) (px P') = if decide (j ∈ L) then mem (dq name j) (pz P) else mem (dq name j) (px P).
Proof.
  intros Hn. revert P. induction Hn as [|i L Hi Hn IHL]; intros P.
  - exists P. split; [done|]. done.
  - rewrite !fmap_cons, push_cons. cbn [push1 fp ff]. destruct (IHL (hP (dq name i) P)) as (P' & -> & H). exists P'. split; [done|].
    assert (Hx : forall j, mem (dq name j) (px (hP (dq name i) P)) = if decide (j = i) then mem (dq name j) (pz P) else mem (dq name j) (px P)).
    { intros j. cbn [px hP]. rewrite mem_sd, mem_bitset. destruct (decide (j = i)) as [-> |Hne].
      - rewrite bool_decide_eq_true_2 by done. by destruct (mem _ (px P)), (mem _ (pz P)).
      - rewrite bool_decide_eq_false_2, andb_false_r, xorb_false_r by (intros E; by apply dq_inj in E). done. }
    assert (Hz : forall j, j <> i -> mem (dq name j) (pz (hP (dq name i) P)) = mem (dq name j) (pz P)).
    { intros j Hne. cbn [pz hP]. rewrite mem_sd, mem_bitset, bool_decide_eq_false_2, andb_false_r, xorb_false_r by (intros E; by apply dq_inj in E). done. }
    intros j. rewrite H. destruct (decide (j ∈ L)) as [Hj|Hj].
    + rewrite decide_True by (by right). apply Hz. by intros ->.
    + rewrite Hx. destruct (decide (j = i)) as [-> |Hne]; [by rewrite decide_True by (by left)|].
      rewrite decide_False; [done|]. rewrite elem_of_cons. tauto.
Qed.
Lemma push_lmeas x (L : list Z) P F : NoDup L -> exists F', push ((fun i => IMeas (dq name i) (lrname name x, i)) <$> L) (Fr P F) = Fr P F' /\
  (forall j, j ∈ L -> F' (lrname name x, j) = mem (dq name j) (px P)) /\
  (forall b, (forall j, j ∈ L -> b <> (lrname name x, j)) -> F' b = F b).
Proof.
  intros Hn. revert F. induction Hn as [|i L Hi Hn IHL]; intros F.
  - exists F. split_and!; try done. intros j Hj. by apply elem_of_nil in Hj.
  - rewrite fmap_cons, push_cons. cbn [push1 fp ff]. destruct (IHL (cupd F (lrname name x, i) (mem (dq name i) (px P)))) as (F' & -> & H1 & H2).
    exists F'. split_and!; [done| |].
    + intros j [-> |Hj]%elem_of_cons; [|by apply H1]. rewrite H2 by (intros j Hj [= ->]; done). unfold cupd. by rewrite bool_decide_eq_true_2.
    + intros b Hb. rewrite H2 by (intros j Hj; apply Hb; by right). unfold cupd. rewrite bool_decide_eq_false_2; [done|]. apply Hb. by left.
Qed.
Lemma lat_z_eq n : lat n = (IH <$> (dq name <$> hlist c dh dw false)) ++ ((fun i => IMeas (dq name i) (lrname name (cL n + 1), i)) <$> seqZ 0 (num_data dh dw)) ++ [IBarrier].
Proof. apply (lat_code_eq c name dh dw n false). Qed.
Lemma anti_typ_single P j : 0 <= j < dh * dw ->
  anti P (typ false {[j]}) = if decide (j ∈ hlist c dh dw false) then mem (dq name j) (pz P) else mem (dq name j) (px P).
Proof.
  intros Hj. unfold typed, hlist. assert (Hd : j ∈ data_set dh dw) by (by apply elem_of_data_set).
  destruct c; cbn [cconj].
  - rewrite decide_False by apply not_elem_of_nil. rewrite pmap_Zon1. apply (anti_single false).
  - destruct (hconj_single (even_set dh dw) j) as [_ ->]. pose proof (even_set_mod dh dw j Hd) as He.
    destruct (decide (j ∈ even_ix (seqZ 0 (num_data dh dw)))) as [Hi|Hi].
    + assert (mem j (even_set dh dw) = true) as -> by (apply mem_true, He; by apply elem_of_list_filter in Hi as [? _]).
      rewrite pmap_Xon1. apply (anti_single true).
    + assert (mem j (even_set dh dw) = false) as ->.
      { apply mem_false. intros H%He. apply Hi. apply elem_of_list_filter. split; [done|]. apply elem_of_seqZ. unfold num_data. lia. }
      rewrite pmap_Zon1. apply (anti_single false).
Qed.
Lemma hlist_nodup : NoDup (hlist c dh dw false).
Proof. unfold hlist. destruct c; [constructor|]. apply NoDup_filter, NoDup_seqZ. Qed.
Lemma push_lat n P F : exists P' F', push (lat n) (Fr P F) = Fr P' F' /\
  (forall j, 0 <= j < dh * dw -> F' (lbit n j) = anti P (typ false {[j]})) /\
  (forall b, (forall j, b <> lbit n j) -> F' b = F b).
Proof.
  rewrite lat_z_eq, !push_app. destruct (push_H (hlist c dh dw false) P F hlist_nodup) as (P' & -> & HP).
  destruct (push_lmeas (cL n + 1) (seqZ 0 (num_data dh dw)) P' F (NoDup_seqZ _ _)) as (F' & -> & H1 & H2).
  exists P', F'. split_and!; [done| |].
  - intros j Hj. rewrite H1 by (apply elem_of_seqZ; unfold num_data; lia). by rewrite HP, anti_typ_single.
  - intros b Hb. apply H2. intros j _. apply Hb.
Qed.
(** A fault during the readout. *)
Lemma push1_single i q P F : (exists a, i = IH a) \/ (exists a b, i = IMeas a b) \/ i = IBarrier -> single_on q P -> single_on q (fp (push1 i (Fr P F))).
Proof.
  intros [(a & ->)|[(a & b & ->)| -> ]] Hs; [|done|done]. cbn [push1 fp]. destruct (decide (a = q)) as [-> |Hne]; [by apply hP_single|].
  rewrite hP_off; [done|]. by eapply single_off.
Qed.
Lemma lat_kinds n i : i ∈ lat n -> (exists a, i = IH a) \/ (exists j, i = IMeas (dq name j) (lbit n j)) \/ i = IBarrier.
Proof.
  rewrite lat_z_eq. intros [Hi|[Hi|Hi]%elem_of_app]%elem_of_app.
  - left. apply elem_of_list_fmap in Hi as (a & -> & _). eauto.
  - right. left. apply elem_of_list_fmap in Hi as (j & -> & _). eauto.
  - apply elem_of_list_singleton in Hi. auto.
Qed.
Lemma lat_suffix n r q P F j : r `suffix_of` lat n -> single_on q P -> dq name j <> q -> ff (push r (Fr P F)) (lbit n j) = F (lbit n j) \/ ff (push r (Fr P F)) (lbit n j) = false.
Proof.
  intros [r0 Hr] Hs Hq. assert (Hk : forall i, i ∈ r -> (exists a, i = IH a) \/ (exists j, i = IMeas (dq name j) (lbit n j)) \/ i = IBarrier).
  { intros i Hi. apply lat_kinds. rewrite Hr. apply elem_of_app. by right. }
  clear Hr. revert P F Hs. induction r as [|i r IHr]; intros P F Hs; [by left|]. rewrite push_cons.
  assert (Hk' : forall i, i ∈ r -> (exists a, i = IH a) \/ (exists j, i = IMeas (dq name j) (lbit n j)) \/ i = IBarrier) by (intros; apply Hk; by right).
  assert (Hs' : single_on q (fp (push1 i (Fr P F)))).
  { apply push1_single; [|done]. destruct (Hk i) as [?|[(j' & ->)|?]]; [by left|auto|right; left; eauto|auto]. }
  destruct (Hk i) as [(a & ->)|[(j' & ->)| -> ]]; [by left|..]; cbn [push1 fp ff] in *.
  - by apply IHr.
  - destruct (IHr Hk' P (cupd F (lbit n j') (mem (dq name j') (px P))) Hs) as [E|E]; [|by right]. rewrite E. unfold cupd.
    case_bool_decide as Hj; [|by left]. right. injection Hj as ->. by apply Hs.
  - by apply IHr.
Qed.
Lemma lat_other n r P F b : r `suffix_of` lat n -> (forall j, b <> lbit n j) -> ff (push r (Fr P F)) b = F b.
Proof.
  intros [r0 Hr] Hb. apply push_unwritten. intros i Hi. destruct (lat_kinds n i) as [(a & ->)|[(j' & ->)| -> ]]; try apply not_elem_of_nil.
  - rewrite Hr. apply elem_of_app. by right.
  - cbn. intros E%elem_of_list_singleton. by apply (Hb j').
Qed.
(** Bits of a set of data qubits. *)
Lemma lat_sum n P F' (A : list Z) : NoDup A -> (forall j, j ∈ A -> 0 <= j < dh * dw) -> (forall j, 0 <= j < dh * dw -> F' (lbit n j) = anti P (typ false {[j]})) ->
  xorl ((fun j => F' (lbit n j)) <$> A) = anti P (typ false (list_to_set A)).
Proof.
  intros Hn Hr HF. induction Hn as [|i A Hi Hn IHA].
  - cbn [fmap list_fmap]. change (list_to_set []) with (∅ : gset Z). symmetry. unfold typed. change (Zon ∅) with (pid : pauli Z). by rewrite cconj_pid, pmap_pid, anti_pid_r.
  - rewrite fmap_cons, xorl_cons, IHA by (intros; apply Hr; by right). rewrite HF by (apply Hr; by left).
    assert (list_to_set (i :: A) = {[i]} ⊕ list_to_set A) as -> by (rewrite sd_disj by set_solver; done).
    rewrite typed_sd, pmap_pmul by apply _. by rewrite anti_pmul_r.
Qed.

(** ** The logical readout *)
Definition rd_bits (n : cnt) : clbit := (rdname name (cR n + 1), 0).
Lemma push_rd isx n P F : exists P' F', push (op_code c name dh dw n (read_op isx)) (Fr P F) = Fr P' F' /\
  F' (rd_bits n) = anti P (typ isx (lset dh dw isx)) /\ (forall b, b <> rd_bits n -> F' b = F b).
Proof.
  assert (HG : forall gs G, ancq name ∉ gqubits gs -> NoDup (gqubits gs) -> gpauli gs = pmap (dq name) G -> exists P' F',
    push ((IReset (ancq name) :: compile (ancq name) gs) ++ (IMeas (ancq name) <$> reg_bits (rdname name (cR n + 1), 1)) ++ [IBarrier]) (Fr P F) = Fr P' F' /\
    F' (rd_bits n) = anti P (pmap (dq name) G) /\ (forall b, b <> rd_bits n -> F' b = F b)).
  { intros gs G Ha Hn HG. rewrite push_app, push_cons. cbn [push1 fp ff]. rewrite push_compile by done. rewrite HG.
    change (reg_bits (rdname name (cR n + 1), 1)) with [rd_bits n]. cbn [fmap list_fmap app push foldl push1 fp ff]. do 2 eexists. split; [done|]. split.
    - unfold cupd. rewrite bool_decide_eq_true_2 by done. rewrite mem_par_x, mem_dropP_x, (bool_decide_eq_true_2 (ancq name = ancq name)) by done. cbn [negb andb].
      rewrite andb_true_r, xorb_false_l.
      assert (Ho : off (ancq name) (pmap (dq name) G)) by (apply off_data; intros i; apply ancq_dq).
      destruct Ho as [-> _]. rewrite andb_false_r, xorb_false_l. apply anti_agree. intros a. destruct (decide (a = ancq name)) as [-> |Hne].
      + left. apply off_data. intros i. apply ancq_dq.
      + right. rewrite mem_dropP_x, mem_dropP_z, bool_decide_eq_false_2 by done. done.
    - intros b Hb. unfold cupd. by rewrite bool_decide_eq_false_2. }
  destruct isx; cbn [read_op op_code]; unfold rd_target; cbn [eff].
  - apply HG; [apply anc_notin_col|by apply col_nodup|]. rewrite gpauli_col by done. done.
  - apply HG; [apply anc_notin_row|apply row_nodup|]. rewrite (gpauli_row _ _ dh) by done. done.
Qed.
End read.
