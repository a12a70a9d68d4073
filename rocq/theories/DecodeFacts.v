(** From the matching to the logical value: the cut argument. *)
From Verif Require Export MwpmGraph.
From stdpp Require Export list.
Open Scope Z_scope.

Lemma xorl_xor {A} (f h : A -> bool) l : xorb (xorl (f <$> l)) (xorl (h <$> l)) = xorl ((fun x => xorb (f x) (h x)) <$> l).
Proof.
  induction l as [|x l IH]; [done|]. rewrite !fmap_cons, !xorl_cons, <- IH.
  by destruct (f x), (h x), (xorl (f <$> l)), (xorl (h <$> l)).
Qed.
Lemma xorl_ext {A} (f h : A -> bool) l : (forall x, x ∈ l -> f x = h x) -> xorl (f <$> l) = xorl (h <$> l).
Proof.
  induction l as [|x l IH]; intros H; [done|]. rewrite !fmap_cons, !xorl_cons, IH by (intros; apply H; by right).
  by rewrite H by left.
Qed.
Lemma xorl_true {A} (f : A -> bool) l : xorl (f <$> l) = true -> exists x, x ∈ l /\ f x = true.
Proof.
  induction l as [|x l IH]; [done|]. rewrite fmap_cons, xorl_cons. destruct (f x) eqn:E.
  - intros _. exists x. split; [left|done].
  - rewrite xorb_false_l. intros (y & Hy & Ey)%IH. exists y. split; [by right|done].
Qed.
Lemma xorl_pends {A} (f : A -> bool) (E : list (A * A)) : xorl (f <$> pends E) = xorl ((fun e => xorb (f e.1) (f e.2)) <$> E).
Proof.
  induction E as [|e E IH]; [done|]. rewrite pends_cons, !fmap_cons, !xorl_cons, IH. by rewrite xorb_assoc_reverse.
Qed.

Section cut.
Context (isx : bool) (dh dw T : Z) (g : lgraph Z).
Hypothesis Hsize : valid_size dh dw.
Hypothesis Hnd : 3 <= extent isx dh dw.
Hypothesis HT : 1 <= T.
Hypothesis Hg : make_syndrome_graph isx dh dw T = Ok g.
Definition nlevel (n : node) : Z := level isx (n_row n, n_col n).
Definition tops (n : node) : bool := bool_decide (readout_side isx n).

Lemma node_level n : has_node g n -> nlevel n mod 2 = 1 /\ -1 <= nlevel n <= 2 * extent isx dh dw - 1 /\
  (n_time n < 0 <-> nlevel n < 0 \/ 2 * extent isx dh dw - 2 < nlevel n).
Proof.
  intros H. apply (sg_facts isx dh dw T g Hsize Hnd HT Hg) in H as [Hc Ht].
  unfold nlevel, n_time, n_row, n_col, inside, cell, level, extent in *. destruct n as [[t y] x]. cbn [fst snd] in *.
  destruct isx; destruct (decide _); zmod.
Qed.
Lemma edge_level a b : edge_w g a b 1 -> nlevel a - 2 <= nlevel b <= nlevel a + 2.
Proof.
  intros H. apply (sg_facts isx dh dw T g Hsize Hnd HT Hg) in H as [(t & p & q & _ & _ & _ & [H1 H2] & -> & ->) | (t & p & _ & _ & _ & H)].
  - unfold nlevel, place, n_row, n_col, level. cbn [fst snd]. destruct isx; lia.
  - destruct H as [[-> ->] | [-> ->]]; unfold nlevel, n_row, n_col; cbn [fst snd]; lia.
Qed.

(** A set of edges that meets every stabilizer node evenly and is shorter than the distance
    meets the readout side evenly. *)
Lemma cut_parity (E : list (node * node)) : (forall e, e ∈ E -> edge_w g e.1 e.2 1) ->
  (forall n, 0 <= n_time n -> lpar (pends E) n = false) ->
  Z.of_nat (length E) < extent isx dh dw ->
  xorl ((fun e => xorb (tops e.1) (tops e.2)) <$> E) = false.
Proof.
  intros HE Hev HL. destruct (xorl _) eqn:Ex; [|done]. exfalso.
  pose (f := fun (s : Z) (n : node) => bool_decide (nlevel n <= 2 * s)).
  assert (Hnodes : forall n, n ∈ pends E -> has_node g n).
  { intros n (e & He & Hor)%elem_of_pends. apply HE, edge_w_node in He as [? ?]. by destruct Hor as [-> | ->]. }
  assert (H0 : xorl (f 0 <$> pends E) = true).
  { rewrite <- Ex, <- xorl_pends. apply xorl_ext. intros n Hn. pose proof (node_level n (Hnodes n Hn)) as (H1 & H2 & H3).
    unfold f, tops, readout_side. apply bool_decide_ext. change (nlevel n <= 2 * 0 <-> n_time n = -1 /\ nlevel n = -1).
    destruct (node_time isx dh dw T g Hsize Hnd HT Hg n (Hnodes n Hn)); zmod. }
  assert (Hstep : forall s, 0 <= s -> s + 1 < extent isx dh dw -> xorl (f s <$> pends E) = xorl (f (s + 1) <$> pends E)).
  { intros s Hs1 Hs2. apply xorb_eq. rewrite xorl_xor. apply xorl_even. intros n Hn.
    destruct (decide (n ∈ pends E)) as [Hin|Hin]; [|by apply lpar_not_in]. apply Hev.
    pose proof (node_level n (Hnodes n Hin)) as (H1 & H2 & H3).
    assert (~ n_time n < 0); [|lia]. intros Ht. apply H3 in Ht. unfold f in Hn.
    destruct Ht; [rewrite !bool_decide_eq_true_2 in Hn by lia|rewrite !bool_decide_eq_false_2 in Hn by lia]; done. }
  assert (Hall : forall s, 0 <= s -> s < extent isx dh dw -> xorl (f s <$> pends E) = true).
  { apply (natlike_ind (fun s => s < extent isx dh dw -> xorl (f s <$> pends E) = true)); [done|].
    intros s Hs IH Hlt. rewrite <- IH by lia. symmetry. apply Hstep; lia. }
  pose proof (cuts_need_edges (fun e s => xorb (f s e.1) (f s e.2)) E (seqZ 0 (extent isx dh dw)) (NoDup_seqZ _ _)) as Hc.
  rewrite seqZ_length in Hc.
  assert (Z.to_nat (extent isx dh dw) <= length E)%nat; [|lia]. apply Hc.
  - intros e s s' He H1 H2. pose proof (edge_level _ _ (HE e He)) as Hl.
    pose proof (edge_w_node _ _ _ _ (HE e He)) as [Ha Hb].
    pose proof (node_level _ Ha) as (Ha1 & _). pose proof (node_level _ Hb) as (Hb1 & _).
    unfold f in H1, H2. revert H1 H2. repeat case_bool_decide; cbn; try done; intros _ _; zmod.
  - intros s Hs. apply elem_of_seqZ in Hs. pose proof (Hall s ltac:(lia) ltac:(lia)) as H. rewrite xorl_pends in H.
    by apply xorl_true in H.
Qed.

Lemma crossing_top m : ~ (n_time m.1 = -1 /\ n_time m.2 = -1) -> is_crossing isx m = xorb (tops m.1) (tops m.2).
Proof.
  intros H. unfold is_crossing, tops, readout_side, level. destruct isx; repeat case_bool_decide; try done; exfalso; tauto.
Qed.
Lemma fold_crossing (ms : list (node * node)) b :
  foldl (fun v m => if is_crossing isx m then (v + 1) mod 2 else v) (Z.b2z b) ms = Z.b2z (xorb b (xorl (is_crossing isx <$> ms))).
Proof.
  revert b. induction ms as [|m ms IH]; intros b; [by rewrite xorb_false_r|].
  cbn [foldl]. rewrite fmap_cons, xorl_cons. destruct (is_crossing isx m).
  - replace ((Z.b2z b + 1) mod 2) with (Z.b2z (negb b)) by (by destruct b). rewrite IH. by destruct b, (xorl _).
  - by rewrite IH, xorb_false_l.
Qed.

Context (rx : retworkx) (Hrx : rx_ok rx).
Context (D : decoder).
Hypothesis HD : dec_h D = dh /\ dec_w D = dw /\ dec_graph D isx = Some g.
Definition scale (ep : err_plain) : Z := match ep with EPNone => 1 | EPZero => 10000 end.
Lemma scale_pos ep : 0 < scale ep. Proof. by destruct ep. Qed.
Lemma wfn_scale ep : forall es : gmap (nat * nat) Z, plain_wfn ep <$> es = (fun w => w * scale ep) <$> es.
Proof. intros es. apply map_fmap_ext. intros k w _. destruct ep; cbn; lia. Qed.
Lemma run_scale ep eg : run_mwpm rx (plain_wfn ep) eg = run_mwpm rx (fun w => w * scale ep) eg.
Proof. unfold run_mwpm. by rewrite wfn_scale. Qed.

(** If edges [F], fewer than half the distance, explain the events, decoding adds the parity
    of those on the readout side to the value read. *)
Theorem decode_value ep b ev (F : list (node * node)) : event_list g ev ->
  (forall e, e ∈ F -> edge_w g e.1 e.2 1) ->
  (forall n, 0 <= n_time n -> lpar (pends F) n = bool_decide (n ∈ ev)) ->
  2 * Z.of_nat (length F) < extent isx dh dw ->
  (correct_events rx D ep isx (Z.b2z b) ev).2 = Ok (Z.b2z (xorb b (xorl ((fun e => xorb (tops e.1) (tops e.2)) <$> F)))).
Proof.
  intros Hev HF Hpar HL. destruct HD as (Hh & Hw & HDg).
  unfold correct_events, corrections. cbn [snd].
  destruct ev as [|n0 ev0]; [|set (ev := n0 :: ev0) in *].
  - cbn [snd foldl]. rewrite (cut_parity F); [by rewrite xorb_false_r|done| |lia].
    intros n Hn. rewrite Hpar by done. apply bool_decide_eq_false. apply not_elem_of_nil.
  - destruct (matching_explains rx Hrx isx dh dw T g Hsize Hnd HT Hg ev F (scale ep) (scale_pos ep) Hev HF Hpar)
      as (eg & ms & P & E & Hr & Hms & HP & HPL & HPp & HPx).
    rewrite HDg, Hh, Hw. fold (virt isx dh dw). rewrite E. cbn [fst snd]. rewrite run_scale, Hr.
    rewrite fold_crossing. do 3 f_equal.
    assert (Ec : xorl (is_crossing isx <$> ms) = xorl ((fun m => xorb (tops m.1) (tops m.2)) <$> ms)).
    { apply xorl_ext. intros m Hm. apply crossing_top. by apply Hms. }
    rewrite Ec, <- HPx. apply xorb_eq. rewrite <- xorl_app, <- fmap_app. apply cut_parity.
    + intros e [He|He]%elem_of_app; auto.
    + intros n Hn. rewrite pends_app, lpar_app, HPp, Hpar by done. apply xorb_nilpotent.
    + rewrite app_length. lia.
Qed.

(** Decoding succeeds on every list of events of the graph. *)
Theorem decode_total ep b ev : event_list g ev -> exists b', (correct_events rx D ep isx (Z.b2z b) ev).2 = Ok (Z.b2z b').
Proof.
  intros Hev. destruct HD as (Hh & Hw & HDg). unfold correct_events, corrections. cbn [snd].
  destruct ev as [|n0 ev0]; [|set (ev := n0 :: ev0) in *]; [by exists b|].
  destruct (error_graph_spec rx Hrx isx dh dw T g Hsize Hnd HT Hg ev Hev) as (eg & E & Heg & Hnodes & Hwt & _).
  destruct (perfect_exists rx Hrx isx dh dw T g Hsize Hnd HT Hg ev eg Hev E) as (Mp & HMp & HMe).
  destruct (perfect_match eg Heg (scale ep) _ Hwt rx Mp Hrx (scale_pos ep) HMp ltac:(by rewrite HMe)) as (M & HM & _).
  rewrite HDg, Hh, Hw. fold (virt isx dh dw). rewrite E. cbn [fst snd]. rewrite run_scale, HM, fold_crossing. by eexists.
Qed.
End cut.
