(** Events caused by a set of faults, as edges of the decoder's graph. *)
From Verif Require Export DecodeFacts SpecFault SyndromeFacts ParseFacts.
From stdpp Require Export list.
Open Scope Z_scope.

Lemma coordk_inj isx dh dw l1 l2 : valid_size dh dw -> 0 <= l1 < nsyn isx dh dw -> 0 <= l2 < nsyn isx dh dw ->
  coordk isx dw l1 = coordk isx dw l2 -> l1 = l2.
Proof. intros Hv. unfold nsyn, coordk. destruct isx; [by apply coord_x_inj|by apply coord_z_inj]. Qed.

Section faults.
Context (isx : bool) (c : code) (dh dw T : Z) (g : lgraph Z).
Hypothesis Hsize : valid_size dh dw.
Hypothesis Hnd : 3 <= extent isx dh dw.
Hypothesis HT : 1 <= T.
Hypothesis Hg : make_syndrome_graph isx dh dw T = Ok g.

Definition at_loc (t loc : Z) : node := (t, (coordk isx dw loc).1, (coordk isx dw loc).2).
Definition flip_edge (f : Z * Z) : node * node :=
  (place isx dh dw f.1 (ends isx dw f.2).1, place isx dh dw f.1 (ends isx dw f.2).2).
Definition misread_edge (m : Z * Z) : node * node := (at_loc (m.1 - 1) m.2, at_loc m.1 m.2).
Definition fault_edges (flips misread : list (Z * Z)) : list (node * node) :=
  (flip_edge <$> flips) ++ (misread_edge <$> misread).

Lemma loc_cell loc : 0 <= loc < nsyn isx dh dw -> cell isx dh dw (coordk isx dw loc) /\ inside isx dh dw (coordk isx dw loc).
Proof. intros H. apply coordk_cell; [done|]. by exists loc. Qed.
Lemma node_loc n : has_node g n -> 0 <= n_time n -> n_time n < T /\ exists loc, 0 <= loc < nsyn isx dh dw /\ n = at_loc (n_time n) loc.
Proof.
  intros Hn Ht. apply (sg_facts isx dh dw T g Hsize Hnd HT Hg) in Hn as [Hc Hd]. destruct n as [[t y] x]. unfold n_time in *. cbn [fst snd] in *.
  destruct (decide _) as [Hi|Hi]; [|lia]. split; [lia|].
  destruct (proj2 (coordk_cell isx dh dw (y, x) Hsize) (conj Hc Hi)) as (loc & Hl & E). exists loc. split; [done|].
  unfold at_loc. by rewrite E.
Qed.
Lemma at_loc_node t loc : 0 <= t < T -> 0 <= loc < nsyn isx dh dw -> has_node g (at_loc t loc).
Proof.
  intros Ht Hl. destruct (loc_cell loc Hl) as [Hc Hi].
  pose proof (place_node isx dh dw T g Hsize Hnd HT Hg t _ Ht Hc) as H. unfold place in H. by rewrite decide_True in H.
Qed.
Lemma at_loc_inj t loc t' loc' : 0 <= loc < nsyn isx dh dw -> 0 <= loc' < nsyn isx dh dw ->
  at_loc t loc = at_loc t' loc' <-> t = t' /\ loc = loc'.
Proof.
  intros Hl Hl'. unfold at_loc. split; [|by intros [-> ->]]. intros [= -> E1 E2]. split; [done|].
  apply (coordk_inj isx dh dw); [done..|]. by apply pair_eq_2 || (destruct (coordk isx dw loc), (coordk isx dw loc'); cbn in *; congruence).
Qed.
Lemma place_at_loc t t' p loc : 0 <= t' -> 0 <= loc < nsyn isx dh dw ->
  place isx dh dw t p = at_loc t' loc <-> t = t' /\ p = coordk isx dw loc.
Proof.
  intros Ht Hl. destruct (loc_cell loc Hl) as [Hc Hi]. unfold place, at_loc. split.
  - intros [= E1 E2 E3]. assert (p = coordk isx dw loc) as -> by (destruct p, (coordk isx dw loc); cbn in *; congruence).
    rewrite decide_True in E1 by done. done.
  - intros [-> ->]. by rewrite decide_True.
Qed.

Lemma flip_edge_ok f : 0 <= f.1 < T -> 0 <= f.2 < dh * dw -> edge_w g (flip_edge f).1 (flip_edge f).2 1.
Proof.
  intros Ht Hk. apply (sg_facts isx dh dw T g Hsize Hnd HT Hg). left.
  destruct (ends_cells isx dh dw f.2 Hsize Hk) as (H1 & H2 & H3).
  exists f.1, (ends isx dw f.2).1, (ends isx dw f.2).2. split; [done|]. split; [done|]. split; [done|]. split; [done|]. split; done.
Qed.
Lemma misread_edge_ok m : 1 <= m.1 < T -> 0 <= m.2 < nsyn isx dh dw -> edge_w g (misread_edge m).1 (misread_edge m).2 1.
Proof.
  intros Ht Hl. apply (sg_facts isx dh dw T g Hsize Hnd HT Hg). right. destruct (loc_cell _ Hl) as [Hc Hi].
  exists (m.1 - 1), (coordk isx dw m.2). split; [lia|]. split; [done|]. split; [done|]. left. split; [done|].
  unfold misread_edge, at_loc. cbn [snd fst]. repeat f_equal. lia.
Qed.

Lemma flip_lpar flips t loc : (forall f, f ∈ flips -> 0 <= f.2 < dh * dw) -> 0 <= t -> 0 <= loc < nsyn isx dh dw ->
  lpar (pends (flip_edge <$> flips)) (at_loc t loc) =
  xorl ((fun f => bool_decide (f.1 = t) && anti (err_at isx c dh dw f.2) (stabk isx c dh dw loc)) <$> flips).
Proof.
  intros Hf Ht Hl. induction flips as [|f flips IH]; [done|].
  rewrite !fmap_cons, pends_cons, !lpar_cons, xorl_cons, IH by (intros; apply Hf; by right).
  rewrite <- xorb_assoc. f_equal. unfold flip_edge. cbn [fst snd].
  pose proof (Hf f ltac:(left)) as Hk.
  pose proof (anti_err isx c dh dw f.2 loc Hsize Hk Hl) as Ha.
  destruct (ends_cells isx dh dw f.2 Hsize Hk) as (_ & _ & [Hne _]).
  assert (Hne' : (ends isx dw f.2).1 <> (ends isx dw f.2).2) by (intros E; rewrite E in Hne; lia).
  rewrite (bool_decide_ext _ _ (place_at_loc f.1 t _ loc Ht Hl)), (bool_decide_ext _ _ (place_at_loc f.1 t _ loc Ht Hl)).
  destruct (anti _ _); repeat case_bool_decide; cbn; try done; exfalso; naive_solver congruence.
Qed.
Lemma misread_lpar misread t loc : (forall m, m ∈ misread -> 0 <= m.2 < nsyn isx dh dw) -> 0 <= loc < nsyn isx dh dw ->
  lpar (pends (misread_edge <$> misread)) (at_loc t loc) =
  xorl ((fun m => xorb (bool_decide (m = (t + 1, loc))) (bool_decide (m = (t, loc)))) <$> misread).
Proof.
  intros Hm Hl. induction misread as [|m misread IH]; [done|].
  rewrite !fmap_cons, pends_cons, !lpar_cons, xorl_cons, IH by (intros; apply Hm; by right).
  rewrite <- xorb_assoc. f_equal. unfold misread_edge. cbn [fst snd]. pose proof (Hm m ltac:(left)) as Hk.
  f_equal; apply bool_decide_ext; rewrite at_loc_inj by done; destruct m as [s l]; cbn [fst snd]; rewrite pair_equal_spec; lia.
Qed.

(** The events of the reported rounds are the odd nodes of the fault edges. *)
Lemma fault_events base flips misread rounds (ev : list node) :
  let N := Z.of_nat (length rounds) in
  N - 1 <= T -> faults_within isx dh dw N flips misread ->
  reported isx c dh dw base flips misread rounds ->
  NoDup ev -> (forall e, e ∈ ev <-> changes rounds (nsyn isx dh dw) (syn_off isx dh dw) (coordk isx dw) e) ->
  event_list g ev /\ (forall e, e ∈ fault_edges flips misread -> edge_w g e.1 e.2 1) /\
  (forall n, 0 <= n_time n -> lpar (pends (fault_edges flips misread)) n = bool_decide (n ∈ ev)).
Proof.
  intros N HN [Hf Hm] Hrep Hnd' Hev.
  assert (Hed : forall e, e ∈ fault_edges flips misread -> edge_w g e.1 e.2 1).
  { intros e [(f & -> & Hin)%elem_of_list_fmap | (m & -> & Hin)%elem_of_list_fmap]%elem_of_app.
    - destruct (Hf f Hin). apply flip_edge_ok; lia.
    - destruct (Hm m Hin). apply misread_edge_ok; lia. }
  split; [split; [done|]|split; [done|]].
  - intros n Hn. apply Hev in Hn as (k & r & r' & loc & Hr & Hr' & Hl & _ & ->).
    apply lookup_lt_Some in Hr'. split; [|unfold n_time; cbn; lia]. apply at_loc_node; [lia|done].
  - intros n Hn.
    assert (Hform : n ∈ pends (fault_edges flips misread) \/ n ∈ ev -> exists t loc, 0 <= t < N - 1 /\ 0 <= loc < nsyn isx dh dw /\ n = at_loc t loc).
    { intros [Hin|Hin].
      - apply elem_of_pends in Hin as (e & He & Hor).
        assert (Hn' : has_node g n) by (apply Hed, edge_w_node in He as [? ?]; by destruct Hor as [-> | ->]).
        destruct (node_loc n Hn' Hn) as (_ & loc & Hl & En). exists (n_time n), loc. split; [|done]. split; [done|].
        apply elem_of_app in He as [(f & -> & Hin)%elem_of_list_fmap | (m & -> & Hin)%elem_of_list_fmap].
        + destruct (Hf f Hin) as [Hf1 _]. destruct Hor as [-> | ->]; unfold flip_edge, place, n_time; cbn [fst snd]; destruct (decide _); lia.
        + destruct (Hm m Hin) as [Hm1 _]. destruct Hor as [-> | ->]; unfold misread_edge, at_loc, n_time; cbn [fst snd]; lia.
      - apply Hev in Hin as (k & r & r' & loc & Hr & Hr' & Hl & _ & ->). apply lookup_lt_Some in Hr'.
        exists (Z.of_nat k), loc. split; [lia|done]. }
    destruct (decide (n ∈ pends (fault_edges flips misread) ++ ev)) as [Hin|Hin]; cycle 1.
    { rewrite not_elem_of_app in Hin. destruct Hin. rewrite lpar_not_in by done. by rewrite bool_decide_eq_false_2. }
    apply elem_of_app in Hin. destruct (Hform Hin) as (t & loc & Ht & Hl & ->). clear Hin Hform.
    unfold fault_edges. rewrite pends_app, lpar_app, flip_lpar, misread_lpar; [|intros m ?; by apply Hm|done|intros f ?; by apply Hf|lia|done].
    assert (Hb : bool_decide (at_loc t loc ∈ ev) =
      xorb (syn_bit isx c dh dw base flips misread t loc) (syn_bit isx c dh dw base flips misread (t + 1) loc)).
    { destruct (lookup_lt_is_Some_2 rounds (Z.to_nat t)) as [r Hr]; [lia|].
      destruct (lookup_lt_is_Some_2 rounds (S (Z.to_nat t))) as [r' Hr']; [lia|].
      pose proof (Hrep _ _ loc Hr Hl) as E1. pose proof (Hrep _ _ loc Hr' Hl) as E2.
      replace (Z.of_nat (Z.to_nat t)) with t in E1 by lia. replace (Z.of_nat (S (Z.to_nat t))) with (t + 1) in E2 by lia.
      rewrite <- E1, <- E2.
      assert (Hiff : at_loc t loc ∈ ev <-> r (syn_off isx dh dw + loc) <> r' (syn_off isx dh dw + loc)).
      { rewrite Hev. split.
        - intros (k & q & q' & loc' & Hq & Hq' & Hl' & Hne & E).
          change (at_loc t loc = at_loc (Z.of_nat k) loc') in E. apply at_loc_inj in E as [Et <-]; [|done..].
          assert (k = Z.to_nat t) as -> by lia. congruence.
        - intros Hne. exists (Z.to_nat t), r, r', loc. split_and!; try done; try lia. unfold at_loc. by rewrite Z2Nat.id by lia. }
      rewrite (bool_decide_ext _ _ Hiff). by destruct (r _), (r' _). }
    rewrite Hb. unfold syn_bit.
    transitivity (xorb
      (xorb (xorl ((fun f => bool_decide (f.1 < t) && anti (err_at isx c dh dw f.2) (stabk isx c dh dw loc)) <$> flips))
            (xorl ((fun f => bool_decide (f.1 < t + 1) && anti (err_at isx c dh dw f.2) (stabk isx c dh dw loc)) <$> flips)))
      (xorb (xorl ((fun m => bool_decide (m = (t, loc))) <$> misread)) (xorl ((fun m => bool_decide (m = (t + 1, loc))) <$> misread)))).
    + rewrite !xorl_xor. f_equal; apply xorl_ext; intros f _.
      * destruct (anti _ _); rewrite ?andb_true_r, ?andb_false_r; [|done]. repeat case_bool_decide; cbn; try done; lia.
      * apply xorb_comm.
    + generalize (xorl ((fun f => bool_decide (f.1 < t) && anti (err_at isx c dh dw f.2) (stabk isx c dh dw loc)) <$> flips)),
        (xorl ((fun f => bool_decide (f.1 < t + 1) && anti (err_at isx c dh dw f.2) (stabk isx c dh dw loc)) <$> flips)),
        (xorl ((fun m => bool_decide (m = (t, loc))) <$> misread)), (xorl ((fun m => bool_decide (m = (t + 1, loc))) <$> misread)), (base loc).
      by intros [] [] [] [] [].
Qed.

(** The fault edges on the readout side are the flips on the readout path. *)
Lemma fault_top flips misread : (forall f, f ∈ flips -> 0 <= f.2 < dh * dw) ->
  (forall m, m ∈ misread -> 1 <= m.1) ->
  xorl ((fun e => xorb (tops isx e.1) (tops isx e.2)) <$> fault_edges flips misread) = logical_flip isx c dh dw flips.
Proof.
  intros Hf Hm. unfold fault_edges. rewrite fmap_app, xorl_app.
  assert (E : xorl ((fun e => xorb (tops isx e.1) (tops isx e.2)) <$> (misread_edge <$> misread)) = false).
  { apply xorl_false. apply Forall_fmap, Forall_fmap, list.Forall_forall. intros m Hin. specialize (Hm m Hin). cbn.
    unfold tops, readout_side, at_loc, n_time. cbn [fst snd]. rewrite !bool_decide_eq_false_2 by lia. done. }
  rewrite E, xorb_false_r. unfold logical_flip. rewrite <- list_fmap_compose. apply xorl_ext. intros f Hin.
  specialize (Hf f Hin). cbn [compose].
  pose proof (ends_readout isx dh dw f.1 f.2 Hsize Hnd Hf) as Hr. rewrite <- (anti_err_log isx c dh dw f.2 Hsize Hf) in Hr.
  assert (Hnb : ~ (readout_side isx (flip_edge f).1 /\ readout_side isx (flip_edge f).2)).
  { destruct (ends_cells isx dh dw f.2 Hsize Hf) as (_ & _ & Ha). unfold readout_side, flip_edge, place, n_time, n_row, n_col, level. cbn [fst snd].
    unfold adjacent in Ha. intros [[_ H1] [_ H2]]. destruct isx; cbn [fst snd] in *; lia. }
  change (xorb (tops isx (flip_edge f).1) (tops isx (flip_edge f).2) = anti (err_at isx c dh dw f.2) (logk isx c dh dw)).
  change (readout_side isx (flip_edge f).1 \/ readout_side isx (flip_edge f).2 <-> anti (err_at isx c dh dw f.2) (logk isx c dh dw) = true) in Hr.
  revert Hr Hnb. unfold tops. generalize (flip_edge f). intros [a b]. cbn [fst snd].
  destruct (anti _ _); repeat case_bool_decide; cbn; intros Hr Hnb; try done; exfalso; naive_solver.
Qed.
End faults.
