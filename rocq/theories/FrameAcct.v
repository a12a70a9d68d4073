(** The account of a set of faults in a run. *)
From Verif Require Export FrameRead.
From stdpp Require Export list.
Open Scope Z_scope.

Section acct.
Context (c : code) (name : string) (dh dw : Z) (Hv : valid_size dh dw) (isx : bool).
Notation typ isx A := (pmap (dq name) (typed c dh dw isx A)).
Notation nloc := (P_Graph.nsyn isx dh dw).
Notation hist n l := (evs_code c name dh dw n (Call <$> l)).
Notation rounds l := (Z.of_nat (count is_stab l)).

(** [imp]: the bits inverted.  Round 0 comes before the history, rounds 1 ... [N] are in it.
    [D] are the sets of data qubits whose parity [val] is read at the end. *)
Definition acct (n : cnt) (N hi : Z) (D : gset Z -> Prop) (val : (clbit -> bool) -> gset Z -> bool) (imp : clbit -> bool) (flips mis : list (Z * Z)) : Prop :=
  (forall e, e ∈ flips -> 0 <= e.1 <= hi /\ 0 <= e.2 < dh * dw) /\
  (forall m, m ∈ mis -> 1 <= m.1 <= hi /\ 0 <= m.2 < nloc) /\
  (forall j loc, 0 <= j < N -> 0 <= loc < nloc -> imp (cbit name dh dw (cT n + 1 + j) (isx, loc)) =
     xorb (xorl ((fun e => bool_decide (e.1 < 1 + j) && mem e.2 (tset dh dw (isx, loc))) <$> flips)) (xorl ((fun m => bool_decide (m = (1 + j, loc))) <$> mis))) /\
  (forall A, D A -> val imp A = xorl ((fun e => mem e.2 A) <$> flips)).
Lemma acct_sum {X} n N hi D (val : (clbit -> bool) -> gset Z -> bool) (fl : list X) (imp : X -> clbit -> bool) :
  (forall F G A, val (fun b => xorb (F b) (G b)) A = xorb (val F A) (val G A)) -> (forall A, val fnone A = false) ->
  (forall x, x ∈ fl -> exists flips mis, (length flips + length mis <= 2)%nat /\ acct n N hi D val (imp x) flips mis) ->
  exists flips mis, (length flips + length mis <= 2 * length fl)%nat /\ acct n N hi D val (fun b => xorl ((fun x => imp x b) <$> fl)) flips mis.
Proof.
  intros Hadd H0. induction fl as [|x fl IH]; intros Hx.
  - exists [], []. split; [cbn; lia|]. split_and!; [intros ? []%elem_of_nil|intros ? []%elem_of_nil|done|]. intros A HA. cbn. apply H0.
  - destruct IH as (f1 & m1 & L1 & A1 & A2 & A3 & A4); [intros; apply Hx; by right|].
    destruct (Hx x) as (f2 & m2 & L2 & B1 & B2 & B3 & B4); [by left|]. exists (f2 ++ f1), (m2 ++ m1). split; [rewrite !app_length; cbn; lia|]. split_and!.
    + intros e [?|?]%elem_of_app; auto.
    + intros e [?|?]%elem_of_app; auto.
    + intros j loc Hj Hl. rewrite fmap_cons, xorl_cons, B3, A3 by done. rewrite !fmap_app, !xorl_app.
      set (a := xorl _). set (b := xorl _). set (d := xorl _). set (e := xorl _). by destruct a, b, d, e.
    + intros A HA. rewrite fmap_app, xorl_app, <-B4, <-A4 by done. apply Hadd.
Qed.

(** ** Lattice readout *)
Definition val_lat (n : cnt) (F : clbit -> bool) (A : gset Z) : bool := xorl ((fun j => F (lrname name (cL n + 1), j)) <$> elements A).
Lemma val_lat_add n F G A : val_lat n (fun b => xorb (F b) (G b)) A = xorb (val_lat n F A) (val_lat n G A).
Proof. unfold val_lat. symmetry. generalize (elements A). intros l. induction l as [|x l IH]; [done|]. rewrite !fmap_cons, !xorl_cons, <-IH.
  set (a := xorl _). set (b := xorl _). by destruct a, b, (F (lrname name (cL n + 1), x)), (G (lrname name (cL n + 1), x)). Qed.
Lemma val_lat_0 n A : val_lat n fnone A = false.
Proof. apply xorl_false, Forall_fmap, list.Forall_forall. done. Qed.
End acct.

Section faults.
Context (c : code) (name : string) (dh dw : Z) (Hv : valid_size dh dw).
Notation typ isx A := (pmap (dq name) (typed c dh dw isx A)).
Notation hist n l := (evs_code c name dh dw n (Call <$> l)).
Notation rounds l := (Z.of_nat (count is_stab l)).
Notation lat n := (op_code c name dh dw n OLatZ).

Lemma cbit_lbit T k x j : cbit name dh dw T k <> (lrname name x, j).
Proof. unfold cbit. intros [= E _]. symmetry in E. by apply lrname_cname in E. Qed.
Lemma xorl_pick (i : Z) (b : bool) (A : gset Z) : xorl ((fun j => b && bool_decide (j = i)) <$> elements A) = b && mem i A.
Proof.
  destruct b; cbn [andb]; [|by apply xorl_false, Forall_fmap, list.Forall_forall]. rewrite xorl_mem by apply NoDup_elements. unfold mem. apply bool_decide_ext. apply elem_of_elements.
Qed.
(** A fault while the data qubits are read. *)
Lemma lat_only l n n1 r q P : single_on q P -> r `suffix_of` lat n1 ->
  exists flips mis, (length flips + length mis <= 2)%nat /\ acct name dh dw false n (rounds l) (rounds l) (obs dh dw false) (val_lat name n1) (impact r P) flips mis.
Proof.
  intros Hs Hr. assert (Hbit : exists i b, forall j, 0 <= j < dh * dw -> impact r P (lrname name (cL n1 + 1), j) = b && bool_decide (j = i)).
  { assert (Hoff : forall j, dq name j <> q -> impact r P (lrname name (cL n1 + 1), j) = false).
    { intros j Hj. unfold impact. by destruct (lat_suffix c name dh dw n1 r q P fnone j Hr Hs Hj) as [-> | ->]. }
    destruct (dq_cases name q) as [(i & ->)|Hn].
    - exists i, (impact r P (lrname name (cL n1 + 1), i)). intros j _. destruct (decide (j = i)) as [-> |Hne]; [by rewrite bool_decide_eq_true_2, andb_true_r|].
      rewrite bool_decide_eq_false_2, andb_false_r by done. apply Hoff. intros E. by apply dq_inj in E.
    - exists 0, false. intros j _. cbn [andb]. apply Hoff. intros E. by apply (Hn j). }
  destruct Hbit as (i & b & Hbit).
  assert (Hval : forall A, obs dh dw false A -> val_lat name n1 (impact r P) A = b && mem i A).
  { intros A HA. rewrite <-xorl_pick. apply xorl_ext. intros j Hj%elem_of_elements. apply Hbit. apply elem_of_data_set. by eapply (obs_data dh dw Hv false). }
  assert (Hrd : forall T k, impact r P (cbit name dh dw T k) = false).
  { intros T k. unfold impact. rewrite (lat_other c name dh dw n1); [done|done|]. intros j. apply cbit_lbit. }
  destruct (decide (b = true /\ 0 <= i < dh * dw)) as [[-> Hi]|Hn].
  - exists [(rounds l, i)], []. split; [cbn; lia|]. split_and!.
    + intros e ->%elem_of_list_singleton. cbn. split; [lia|done].
    + intros m []%elem_of_nil.
    + intros j loc Hj Hl. rewrite Hrd. cbn. rewrite bool_decide_eq_false_2 by lia. done.
    + intros A HA. rewrite Hval by done. cbn. by rewrite xorb_false_r.
  - exists [], []. split; [cbn; lia|]. split_and!; [intros ? []%elem_of_nil|intros ? []%elem_of_nil| |].
    + intros j loc Hj Hl. by rewrite Hrd.
    + intros A HA. rewrite Hval by done. destruct b; [|done]. cbn. apply mem_false. intros Hi%(obs_data dh dw Hv false A HA). apply elem_of_data_set in Hi. by apply Hn.
Qed.
Lemma lat_fault l n n1 r q P : Forall body_op l -> single_on q P -> r `suffix_of` hist n l ++ lat n1 ->
  exists flips mis, (length flips + length mis <= 2)%nat /\ acct name dh dw false n (rounds l) (rounds l) (obs dh dw false) (val_lat name n1) (impact r P) flips mis.
Proof.
  intros Hl Hs Hr. apply suffix_app_cases in Hr as [Hr|(r1 & -> & Hr)]; [by eapply lat_only|].
  destruct (hist_fault c name dh dw Hv false l n 0 r1 q P Hl Hs Hr) as [HF|(flips & mis & He)].
  - destruct (lat_only l n n1 (lat n1) q P Hs) as (flips & mis & Hlen & H1 & H2 & H3 & H4); [done|]. exists flips, mis. split; [done|].
    assert (E : forall b, impact (r1 ++ lat n1) P b = impact (lat n1) P b).
    { intros b. unfold impact. rewrite push_app. by apply push_feq. }
    split_and!; [done|done| |].
    + intros j loc Hj Hloc. rewrite E. by apply H3.
    + intros A HA. rewrite <-H4 by done. unfold val_lat. apply xorl_ext. intros j _. apply E.
  - destruct He as (Ho & Hlen & H1 & H2 & H3 & H4). exists flips, mis. split; [done|].
    destruct (push r1 (Fr P fnone)) as [P1 F1] eqn:E1. cbn [fp ff] in *.
    destruct (push_lat c name dh dw n1 P1 F1) as (P' & F' & E & HF1 & HF2).
    assert (Ei : forall b, impact (r1 ++ lat n1) P b = F' b) by (intros b; unfold impact; by rewrite push_app, E1, E).
    split_and!.
    + intros e He. apply H1 in He. rewrite !Z.add_0_l in He. done.
    + intros m Hm. apply H2 in Hm. split; [lia|apply Hm].
    + intros j loc Hj Hloc. rewrite Ei, HF2 by (intros j'; apply cbit_lbit). by rewrite H3.
    + intros A HA. rewrite <-H4 by done. unfold val_lat. rewrite <-(list_to_set_elements_L A) at 2. rewrite <-(lat_sum c name dh dw Hv n1 P1 F').
      * apply xorl_ext. intros j _. apply Ei.
      * apply NoDup_elements.
      * intros j Hj%elem_of_elements. apply elem_of_data_set. by eapply (obs_data dh dw Hv false).
      * done.
Qed.

(** ** Two more rounds and a logical readout *)
Definition tail2 (isx : bool) (n : cnt) : list instr :=
  round_instrs c name dh dw (cT n + 1) ++ round_instrs c name dh dw (cT n + 2) ++ op_code c name dh dw (bump_T (bump_T n)) (read_op isx).
Definition val_rd (n : cnt) (F : clbit -> bool) (A : gset Z) : bool := F (rd_bits name n).
Lemma rd_fault isx l n r q P : Forall body_op l -> single_on q P -> r `suffix_of` hist n l ->
  let n' := evs_next n (Call <$> l) in
  exists flips mis, (length flips + length mis <= 2)%nat /\
    acct name dh dw isx n (rounds l + 2) (rounds l + 1) (fun A => A = lset dh dw isx) (val_rd (bump_T (bump_T n'))) (impact (r ++ tail2 isx n') P) flips mis.
Proof.
  intros Hl Hs Hr n'. pose proof (hist_next l n Hl) as En. fold n' in En.
  destruct (hist_fault_round c name dh dw Hv isx l n 0 r q P Hl Hs Hr) as (flips & mis & He). fold n' in He. exists flips, mis.
  assert (Hb : forall e, e ∈ flips -> 0 <= e.1 <= rounds l + 1) by (intros e He'; apply He in He'; lia).
  assert (Hb' : forall e, e ∈ mis -> 1 <= e.1 <= rounds l + 1) by (intros e He'; apply He in He'; lia).
  pose proof (expl_run_round c name dh dw Hv isx 0 n (bump_T n') (rounds l + 1) _ flips mis ltac:(lia) ltac:(cbn; lia) He) as He2. clear He.
  destruct He2 as (Ho & Hlen & H1 & H2 & H3 & H4). split; [done|].
  change (cT (bump_T n') + 1) with (cT n' + 1 + 1) in *. replace (cT n' + 1 + 1) with (cT n' + 2) in * by lia. rewrite <-push_app, <-app_assoc in *.
  set (r2 := r ++ round_instrs c name dh dw (cT n' + 1) ++ round_instrs c name dh dw (cT n' + 2)) in *.
  assert (E2 : r ++ tail2 isx n' = r2 ++ op_code c name dh dw (bump_T (bump_T n')) (read_op isx)) by (unfold r2, tail2; by rewrite <-!app_assoc).
  rewrite E2. destruct (push r2 (Fr P fnone)) as [P1 F1] eqn:E1. cbn [fp ff] in *.
  destruct (push_rd c name dh dw Hv isx (bump_T (bump_T n')) P1 F1) as (P' & F' & E & HF1 & HF2).
  assert (Ei : forall b, impact (r2 ++ op_code c name dh dw (bump_T (bump_T n')) (read_op isx)) P b = F' b) by (intros b; unfold impact; by rewrite push_app, E1, E).
  split_and!.
  - intros e He. split; [by apply Hb|]. by apply H1.
  - intros m Hm. split; [by apply Hb'|]. by apply H2.
  - intros j loc Hj Hloc. rewrite Ei, HF2, H3 by (done || lia || (unfold rd_bits, cbit; intros [= E' _]; symmetry in E'; by apply rdname_cname in E')). done.
  - intros A ->. unfold val_rd. rewrite Ei, HF1. apply H4. by right.
Qed.

(** ** No classical control *)
Lemma compile_framed s gs : s ∉ gqubits gs -> Forall framed (compile s gs).
Proof.
  intros Hs. apply list.Forall_forall. intros i Hi. unfold compile in Hi. apply elem_of_list_join in Hi as (is & Hi & (g & -> & Hg)%elem_of_list_fmap).
  assert (Hq : s ∉ g.2).
  { intros H. apply Hs. unfold gqubits. apply elem_of_list_join. exists g.2. split; [done|]. apply elem_of_list_fmap. eauto. }
  destruct g as [[|] l]; cbn [group fst snd] in *.
  - apply elem_of_app in Hi as [->%elem_of_list_singleton|[(a & -> & Ha)%elem_of_list_fmap| ->%elem_of_list_singleton]%elem_of_app]; cbn; try done. by intros ->.
  - apply elem_of_list_fmap in Hi as (a & -> & Ha). cbn. by intros ->.
Qed.
Lemma round_framed T : Forall framed (round_instrs c name dh dw T).
Proof.
  rewrite round_instrs_of. repeat apply Forall_app_2.
  - apply list.Forall_forall. intros i Hi. apply elem_of_list_join in Hi as (is & Hi & (k' & -> & Hk')%elem_of_list_fmap). apply elem_of_syns in Hk'.
    unfold ent_k in Hi. rewrite ent_compile in Hi by done. apply elem_of_app in Hi as [Hi|Hi]; [|apply elem_of_list_singleton in Hi as ->; done].
    change (groups_of _ _) with (gsP c name dh dw k') in Hi. revert i Hi. apply list.Forall_forall. apply compile_framed. apply gsP_off. intros i. apply synq_dq.
  - apply Forall_fmap, list.Forall_forall. done.
  - apply Forall_fmap, list.Forall_forall. done.
  - by constructor.
Qed.
Lemma hist_framed l n : Forall body_op l -> Forall framed (hist n l).
Proof.
  intros Hl. revert n. induction Hl as [|o l Hb Hl IHl]; intros n; [constructor|]. rewrite hist_cons. apply Forall_app_2; [|apply IHl].
  destruct (is_stab o) eqn:Es; [destruct o; try done; apply round_framed|].
  apply list.Forall_forall. intros i Hi. destruct o; cbn [op_code] in Hi; try done.
  - unfold logx_instrs in Hi. apply elem_of_app in Hi as [(j & -> & _)%elem_of_list_fmap|Hi%elem_of_list_singleton]; [|by subst].
    unfold xgate. by repeat case_match.
  - unfold logz_instrs in Hi. apply elem_of_app in Hi as [(j & -> & _)%elem_of_list_fmap|Hi%elem_of_list_singleton]; [|by subst].
    unfold zgate. by repeat case_match.
  - unfold id_instrs in Hi. apply elem_of_app in Hi as [Hi|Hi%elem_of_list_singleton]; [|by subst].
    apply elem_of_list_join in Hi as (is & Hi & (h & -> & _)%elem_of_list_fmap). by apply elem_of_list_fmap in Hi as (? & -> & _).
  - unfold id_data_instrs in Hi. apply elem_of_app in Hi as [Hi|Hi%elem_of_list_singleton]; [|by subst].
    by apply elem_of_list_fmap in Hi as (? & -> & _).
Qed.
Lemma lat_framed n : Forall framed (lat n).
Proof. apply list.Forall_forall. intros i Hi. by destruct (lat_kinds c name dh dw n i Hi) as [(a & ->)|[(j & ->)| -> ]]. Qed.
Lemma tail2_framed isx n : Forall framed (tail2 isx n).
Proof.
  unfold tail2. apply Forall_app_2; [apply round_framed|]. apply Forall_app_2; [apply round_framed|].
  destruct isx; cbn [read_op op_code]; unfold rd_x, rd_z, into_x, into_z; repeat apply Forall_app_2.
  all: try (apply Forall_fmap, list.Forall_forall; done). all: try (by constructor).
  - constructor; [done|]. apply compile_framed, anc_notin_col.
  - constructor; [done|]. apply compile_framed, anc_notin_row.
Qed.
End faults.
