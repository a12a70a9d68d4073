(** The matching problem of the decoder: its graph is connected, a perfect matching always
    exists, and the matching returned costs no more than any explanation of the events. *)
From Verif Require Export Mwpm P_Graph.
From stdpp Require Export list.
Open Scope Z_scope.

Section decode.
Context (rx : retworkx) (Hrx : rx_ok rx).
Context (isx : bool) (dh dw T : Z) (g : lgraph Z).
Hypothesis Hsize : valid_size dh dw.
Hypothesis Hnd : 3 <= extent isx dh dw.
Hypothesis HT : 1 <= T.
Hypothesis Hg : make_syndrome_graph isx dh dw T = Ok g.

Lemma sg_facts : lg_ok g /\ unit_weights g /\ (forall n, has_node g n <-> sg_node isx dh dw T n) /\
  (forall a b, edge_w g a b 1 <-> sg_edge isx dh dw T a b).
Proof.
  destruct (syndrome_graph_ok isx dh dw Hsize T) as (g' & E & H1 & H2 & H3). rewrite Hg in E. injection E as <-.
  destruct (H3 Hnd) as [H4 H5]. split_and!; [done|done| |done]. intros n. rewrite H4. intuition lia.
Qed.

Lemma place_node t p : 0 <= t < T -> cell isx dh dw p -> has_node g (place isx dh dw t p).
Proof.
  intros Ht Hc. apply sg_facts. unfold sg_node, place. cbn [fst snd]. destruct p as [y x]. cbn [fst snd].
  split; [done|]. by destruct (decide _).
Qed.

Lemma round_conn t n : 0 <= t < T -> in_round isx dh dw t n -> exists P, lpath g (at_time t (start_loc isx)) n P.
Proof.
  destruct sg_facts as (Hok & Hu & Hn & He). intros Ht. revert n.
  destruct (start_cell isx dh dw Hsize Hnd) as [Hsc Hsi].
  apply (closed_all isx dh dw Hsize t (fun n => exists P, lpath g (at_time t (start_loc isx)) n P)); [done|..].
  - exists []. constructor. apply Hn. unfold sg_node, at_time. cbn [fst snd]. split; [by destruct (start_loc isx)|].
    rewrite decide_True; [done|by destruct (start_loc isx)].
  - intros n m (P & HP) Hr Hm.
    pose proof (nbrs_round isx dh dw Hsize t n m Hr Hm) as Hrm.
    apply elem_nbrs in Hm as (Ha & Hc & _); [|done|by eapply in_round_parity].
    apply in_round_nondeg in Hr as [Hcn En]; [|done..]. apply in_round_nondeg in Hrm as [Hcm Em]; [|done..].
    exists (P ++ [(n, m)]). eapply lpath_app; [exact HP|].
    econstructor.
    + apply He. left. exists t, (n_row n, n_col n), (n_row m, n_col m). split_and!; try done; try apply Hcn; try apply Hcm; lia.
    + constructor. rewrite Em. by apply place_node.
Qed.
Lemma start_conn t : 0 <= t < T -> exists P, lpath g (at_time 0 (start_loc isx)) (at_time t (start_loc isx)) P.
Proof.
  destruct sg_facts as (Hok & Hu & Hn & He). destruct (start_cell isx dh dw Hsize Hnd) as [Hsc Hsi].
  assert (Hst : forall t, 0 <= t < T -> has_node g (at_time t (start_loc isx))).
  { intros t' Ht'. apply Hn. unfold sg_node, at_time. cbn [fst snd]. split; [by destruct (start_loc isx)|].
    rewrite decide_True; [done|by destruct (start_loc isx)]. }
  intros [H0 HtT]. revert t H0 HtT.
  apply (natlike_ind (fun t => t < T -> exists P, lpath g (at_time 0 (start_loc isx)) (at_time t (start_loc isx)) P)).
  - intros. exists []. constructor. by apply Hst.
  - intros t Ht IH HT'. destruct IH as [P HP]; [lia|].
    exists (P ++ [(at_time t (start_loc isx), at_time (Z.succ t) (start_loc isx))]). eapply lpath_app; [exact HP|].
    econstructor.
    + apply He. right. exists t, (start_loc isx). split; [lia|]. split; [done|]. split; [done|]. left. done.
    + constructor. apply Hst. lia.
Qed.
Lemma sg_conn a b : has_node g a -> has_node g b -> exists P, lpath g a b P.
Proof.
  destruct sg_facts as (Hok & Hu & Hn & He).
  assert (Hall : forall a, has_node g a -> exists P, lpath g (at_time 0 (start_loc isx)) a P).
  { intros [[t y] x] Ha. apply Hn in Ha as [Hc Ht]. cbn [fst snd] in Hc, Ht.
    assert (exists t', 0 <= t' < T /\ in_round isx dh dw t' (t, y, x)) as (t' & Ht' & Hr).
    { destruct (decide _) as [Hi|Hi].
      - exists t. split; [done|]. apply in_round_nondeg; [done..|]. split; [done|]. unfold place, n_row, n_col. cbn [fst snd]. by rewrite decide_True.
      - exists 0. split; [lia|]. apply in_round_nondeg; [done..|]. split; [done|]. unfold place, n_row, n_col. cbn [fst snd]. rewrite decide_False by done. by subst t. }
    destruct (start_conn t' Ht') as [P HP]. destruct (round_conn t' _ Ht' Hr) as [Q HQ].
    exists (P ++ Q). by eapply lpath_app. }
  intros Ha Hb. destruct (Hall a Ha) as [P HP]. destruct (Hall b Hb) as [Q HQ].
  apply lpath_rev in HP as (P' & HP' & _). exists (P' ++ Q). by eapply lpath_app.
Qed.

(** Virtual nodes *)
Definition virt : list node := virtual_nodes isx dh dw.
Lemma virt_node n : n ∈ virt <-> has_node g n /\ n_time n = -1.
Proof.
  destruct sg_facts as (_ & _ & Hn & _). unfold virt. rewrite elem_virtual by done. rewrite Hn. unfold sg_node.
  destruct n as [[t y] x]. unfold n_time, n_row, n_col. cbn [fst snd]. destruct (decide _); intuition lia.
Qed.
Lemma virt_NoDup : NoDup virt.
Proof.
  unfold virt, virtual_nodes. pose proof (size_pos dh dw Hsize) as (H1 & H2 & H3 & H4).
  assert (Hgen : forall n (f h : Z -> node), (forall i j, f i = f j -> i = j) -> (forall i j, h i = h j -> i = j) -> (forall i j, f i <> h j) ->
    NoDup (mjoin ((fun j => [f j; h j]) <$> py_range_step n 2))).
  { intros n f h Hf Hh Hfh. assert (HN : NoDup (py_range_step n 2)).
    { unfold py_range_step. apply NoDup_fmap_2; [|apply NoDup_seqZ]. intros ??. lia. }
    revert HN. generalize (py_range_step n 2). intros l. induction 1 as [|j l Hj Hl IH]; [constructor|].
    cbn [fmap list_fmap mjoin list_join app]. change (list_fmap _ _ ?f ?l) with (f <$> l) in *.
    assert (Hin : forall m, m ∈ mjoin ((fun j => [f j; h j]) <$> l) -> exists j, j ∈ l /\ (m = f j \/ m = h j)).
    { intros m (ls & Hm & (j' & -> & Hj')%elem_of_list_fmap)%elem_of_list_join. exists j'. split; [done|].
      apply elem_of_cons in Hm as [?|?%elem_of_list_singleton]; auto. }
    constructor; [|constructor; [|done]].
    - intros [E|Hm]%elem_of_cons; [by destruct (Hfh j j)|]. destruct (Hin _ Hm) as (j' & Hj' & [E|E]); [apply Hf in E; by subst|by apply Hfh in E].
    - intros Hm. destruct (Hin _ Hm) as (j' & Hj' & [E|E]); [by symmetry in E; apply Hfh in E|apply Hh in E; by subst]. }
  destruct isx; apply (Hgen _ (fun j => (-1, _, _)) (fun j => (-1, _, _))); unfold extent in Hnd; intros i j [=]; lia.
Qed.
Lemma virt_even : Nat.even (length virt) = true.
Proof.
  unfold virt, virtual_nodes.
  assert (Hgen : forall (f h : Z -> node) l, Nat.even (length (mjoin ((fun j => [f j; h j]) <$> l))) = true).
  { intros f h l. induction l as [|j l IH]; [done|]. exact IH. }
  destruct isx; apply (Hgen (fun j => (-1, _, _)) (fun j => (-1, _, _))).
Qed.
Lemma virt_nonempty : exists v vs, virt = v :: vs.
Proof.
  unfold virt, virtual_nodes. pose proof (size_pos dh dw Hsize) as (H1 & H2 & H3 & H4).
  assert (Hr : forall n, 0 < n -> exists l, py_range_step n 2 = 0 :: l).
  { intros n Hn. unfold py_range_step. change (bool_decide (0 < 2)) with true. cbn iota. rewrite seqZ_cons by zmod. eexists. done. }
  destruct isx; [destruct (Hr dh H1) as [l ->] | destruct (Hr dw H2) as [l ->]]; eexists _, _; reflexivity.
Qed.
Lemma extra_not_node : ~ has_node g extra_node.
Proof. destruct sg_facts as (_ & _ & Hn & _). rewrite Hn. unfold sg_node, cell, extra_node. cbn. intros [[H _] _]. done. Qed.

Notation D := (dz g rx).
Definition cost0 (a b : node) : Z := if decide (n_time a = -1 /\ n_time b = -1) then 0 else D a b.

Definition event_list (ev : list node) : Prop := NoDup ev /\ forall n, n ∈ ev -> has_node g n /\ 0 <= n_time n.
Definition is_odd (ev : list node) : bool := bool_decide (Z.of_nat (length ev) mod 2 <> 0).
Definition eg_nodes (ev : list node) : list node := ev ++ virt ++ (if is_odd ev then [extra_node] else []).
Lemma ev_virt ev n : event_list ev -> n ∈ ev ++ virt -> has_node g n.
Proof. intros [_ H] [Hn|Hn]%elem_of_app; [by apply H|by apply virt_node]. Qed.
Lemma ev_virt_NoDup ev : event_list ev -> NoDup (ev ++ virt).
Proof.
  intros [H1 H2]. apply NoDup_app. split_and!; [done| |apply virt_NoDup].
  intros n Hn Hv. apply H2 in Hn as [_ Hn]. apply virt_node in Hv as [_ Hv]. lia.
Qed.
Lemma is_odd_even ev : is_odd ev = negb (Nat.even (length ev)).
Proof.
  unfold is_odd. destruct (Nat.even (length ev)) eqn:E.
  - apply Nat.even_spec in E as [k ->]. apply bool_decide_eq_false. rewrite Nat2Z.inj_mul. zmod.
  - apply bool_decide_eq_true. intros H. assert (Nat.even (length ev) = true); [|congruence].
    apply Nat.even_spec. exists (Z.to_nat (Z.of_nat (length ev) / 2)). zmod.
Qed.

Lemma error_graph_spec ev : event_list ev ->
  exists eg, make_error_graph 0 (weigh_plain rx g) virt ev tt = (ev ++ virt, Ok eg) /\ lg_ok eg /\
    pg_nodes (lg_g eg) = eg_nodes ev /\
    (forall a b w, edge_w eg a b w -> w = - cost0 a b) /\
    (forall a b, a ∈ ev ++ virt -> b ∈ ev ++ virt -> a <> b -> exists w, edge_w eg a b w) /\
    (forall v, is_odd ev = true -> v ∈ virt -> exists w, edge_w eg extra_node v w) /\
    (forall a b w, edge_w eg a b w -> ~ (n_time a = -1 /\ n_time b = -1) -> a ∈ ev ++ virt /\ b ∈ ev ++ virt).
Proof.
  intros Hev. destruct sg_facts as (Hok & Hu & _ & _).
  pose proof (fun n => ev_virt ev n Hev) as Hnode. pose proof (ev_virt_NoDup ev Hev) as HN.
  assert (Hv1 : forall n, n ∈ ev ++ virt -> n ∈ virt <-> n_time n = -1).
  { intros n Hn. rewrite virt_node. pose proof (Hnode n Hn). tauto. }
  assert (Hpw : forall a b, a ∈ ev ++ virt -> b ∈ ev ++ virt -> pair_weight 0 virt (fun a b => - D a b) a b = - cost0 a b).
  { intros a b Ha Hb. unfold pair_weight, cost0. destruct (decide _) as [[H1 H2]|H].
    - rewrite !bool_decide_eq_true_2 by (by apply Hv1). done.
    - destruct (bool_decide (a ∈ virt)) eqn:E1, (bool_decide (b ∈ virt)) eqn:E2; cbn; try done.
      apply bool_decide_eq_true in E1, E2. apply Hv1 in E1, E2; [tauto|done..]. }
  assert (Hsym : forall a b, a ∈ ev ++ virt -> b ∈ ev ++ virt -> cost0 a b = cost0 b a).
  { intros a b Ha Hb. unfold cost0. destruct (decide _), (decide _); try tauto.
    apply (dz_sym g Hok Hu rx Hrx sg_conn); by apply Hnode. }
  destruct (make_error_graph_ok 0 (weigh_plain rx g) virt (fun a b => - D a b) (fun _ => True) ev tt) as (eg & E & Heg & Hnodes & Hhas & Hedge).
  - done.
  - intros a b Ha Hb. rewrite !Hpw by done. by rewrite Hsym.
  - intros a b c Hab _ _. apply elem_combinations in Hab as [Ha Hb]. exists tt. split; [|done].
    unfold weigh_plain. destruct (dz_spec g Hok Hu rx Hrx sg_conn a b) as (-> & _); [by apply Hnode..|]. by destruct c.
  - intros H. apply extra_not_node. by apply Hnode.
  - fold (is_odd ev) in Hnodes, Hhas, Hedge. exists eg. split; [done|]. split; [done|]. split; [apply (proj2 Hnodes); done|].
    split; [|split; [|split]].
    + intros a b w Hw. apply Hedge in Hw as [[H ->] | (_ & (v & Hv & Hs) & ->)].
      * assert (a ∈ ev ++ virt /\ b ∈ ev ++ virt) as [Ha Hb] by (destruct H as [H|H]; apply elem_combinations in H; tauto).
        by apply Hpw.
      * unfold cost0. rewrite decide_True; [done|]. apply virt_node in Hv as [_ Hv]. destruct Hs as [[-> ->] | [-> ->]]; by rewrite Hv.
    + intros a b Ha Hb Hab. eexists. apply Hedge. left. split; [|reflexivity]. by apply combinations_distinct.
    + intros v Ho Hv. eexists. apply Hedge. right. split; [done|]. split; [|reflexivity]. exists v. split; [done|]. by left.
    + intros a b w Hw Hnot. apply Hedge in Hw as [[H ->] | (_ & (v & Hv & Hs) & ->)].
      * destruct H as [H|H]; apply elem_combinations in H; tauto.
      * destruct Hnot. apply virt_node in Hv as [_ Hv]. destruct Hs as [[-> ->] | [-> ->]]; by rewrite Hv.
Qed.

(** Decoding again the list the decoder has already extended with the virtual nodes. *)
Definition vtimes (k : nat) : list node := mjoin (replicate k virt).
Lemma vtimes_elem k n : n ∈ vtimes k -> n ∈ virt.
Proof. unfold vtimes. rewrite elem_of_list_join. intros (l & Hn & Hl). apply elem_of_replicate_inv in Hl as ->. done. Qed.
Lemma vtimes_comm k : vtimes k ++ virt = virt ++ vtimes k.
Proof.
  induction k as [|k IH]; [by rewrite app_nil_r|]. change (vtimes (S k)) with (virt ++ vtimes k). by rewrite <- app_assoc, IH.
Qed.
Lemma vtimes_S k ev : (ev ++ vtimes k) ++ virt = ev ++ vtimes (S k).
Proof. rewrite <- app_assoc, vtimes_comm. done. Qed.
Lemma ensure_present (l : list node) (gr : lgraph Z) : lg_ok gr -> (forall n, n ∈ l -> has_node gr n) -> foldl (fun g n => lg_ensure n g) gr l = gr.
Proof.
  intros Hok. induction l as [|n l IH]; intros H; [done|]. cbn [foldl].
  assert (lg_ensure n gr = gr) as -> by (unfold lg_ensure; by rewrite bool_decide_eq_true_2 by (apply H; left)).
  apply IH. intros; apply H; by right.
Qed.
Lemma error_graph_rep k ev : event_list ev ->
  exists eg, make_error_graph 0 (weigh_plain rx g) virt (ev ++ vtimes k) tt = (ev ++ vtimes (S k), Ok eg) /\ lg_ok eg /\
    pg_nodes (lg_g eg) = eg_nodes ev /\
    (forall a b w, a <> b -> edge_w eg a b w <->
       (a ∈ ev ++ virt /\ b ∈ ev ++ virt /\ w = - cost0 a b) \/
       (is_odd ev = true /\ ((a = extra_node /\ b ∈ virt) \/ (b = extra_node /\ a ∈ virt)) /\ w = 0)).
Proof.
  intros Hev. destruct sg_facts as (Hok & Hu & _ & _).
  assert (Hin : forall n, n ∈ (ev ++ vtimes k) ++ virt <-> n ∈ ev ++ virt).
  { intros n. rewrite !elem_of_app. pose proof (vtimes_elem k n). tauto. }
  pose proof (fun n => ev_virt ev n Hev) as Hnode. pose proof (ev_virt_NoDup ev Hev) as HN.
  assert (Hv1 : forall n, n ∈ ev ++ virt -> n ∈ virt <-> n_time n = -1).
  { intros n Hn. rewrite virt_node. pose proof (Hnode n Hn). tauto. }
  assert (Hpw : forall a b, a ∈ ev ++ virt -> b ∈ ev ++ virt -> pair_weight 0 virt (fun a b => - D a b) a b = - cost0 a b).
  { intros a b Ha Hb. unfold pair_weight, cost0. destruct (decide _) as [[H1 H2]|H].
    - rewrite !bool_decide_eq_true_2 by (by apply Hv1). done.
    - destruct (bool_decide (a ∈ virt)) eqn:E1, (bool_decide (b ∈ virt)) eqn:E2; cbn; try done.
      apply bool_decide_eq_true in E1, E2. apply Hv1 in E1, E2; [tauto|done..]. }
  assert (Hsym : forall a b, a ∈ ev ++ virt -> b ∈ ev ++ virt -> cost0 a b = cost0 b a).
  { intros a b Ha Hb. unfold cost0. destruct (decide _), (decide _); try tauto.
    apply (dz_sym g Hok Hu rx Hrx sg_conn); by apply Hnode. }
  assert (Hodd : bool_decide (Z.of_nat (length (ev ++ vtimes k)) mod 2 <> 0) = is_odd ev).
  { change (is_odd (ev ++ vtimes k) = is_odd ev). rewrite !is_odd_even, app_length, Nat.even_add.
    assert (Nat.even (length (vtimes k)) = true) as ->; [|by destruct (Nat.even _)].
    induction k as [|k' IH]; [done|]. change (vtimes (S k')) with (virt ++ vtimes k'). rewrite app_length, Nat.even_add, virt_even, IH; [done|].
    intros n. rewrite !elem_of_app. pose proof (vtimes_elem k' n). tauto. }
  destruct (make_error_graph_ok 0 (weigh_plain rx g) virt (fun a b => - D a b) (fun _ => True) (ev ++ vtimes k) tt) as (eg & E & Heg & Hnodes & _ & Hedge).
  - done.
  - intros a b Ha%Hin Hb%Hin. rewrite !Hpw by done. by rewrite Hsym.
  - intros a b c Hab _ _. apply elem_combinations in Hab as [Ha%Hin Hb%Hin]. exists tt. split; [|done].
    unfold weigh_plain. destruct (dz_spec g Hok Hu rx Hrx sg_conn a b) as (-> & _); [by apply Hnode..|]. by destruct c.
  - rewrite Hin. intros H. apply extra_not_node. by apply Hnode.
  - rewrite Hodd in Hnodes, Hedge. exists eg. rewrite vtimes_S in E. split; [done|]. split; [done|]. split.
    + rewrite (proj1 Hnodes), vtimes_S. change (vtimes (S k)) with (virt ++ vtimes k). rewrite app_assoc, foldl_app.
      destruct (ensure_all (weigh_plain rx g) (fun _ _ => 0) (ev ++ virt) (@lg_empty Z) lg_empty_ok) as (G1 & G2 & _ & G4).
      rewrite ensure_present; [|done|].
      * rewrite G4 by done. unfold eg_nodes. cbn. by rewrite app_assoc.
      * intros n Hn%vtimes_elem. apply G2. right. apply elem_of_app. by right.
    + intros a b w Hab. rewrite Hedge. split.
      * intros [[H ->] | (Ho & (v & Hv & Hs) & ->)].
        -- left. assert (a ∈ ev ++ virt /\ b ∈ ev ++ virt) as [Ha Hb] by (rewrite <- !Hin; destruct H as [H|H]; apply elem_combinations in H; tauto).
           split; [done|]. split; [done|]. by apply Hpw.
        -- right. split; [done|]. split; [|done]. destruct Hs as [[-> ->] | [-> ->]]; auto.
      * intros [(Ha & Hb & ->) | (Ho & Hs & ->)].
        -- left. split; [by apply combinations_distinct; [|apply Hin..]|]. symmetry. by apply Hpw.
        -- right. split; [done|]. split; [|done]. destruct Hs as [[-> Hv] | [-> Hv]]; eexists; (split; [exact Hv|]); [by left|by right].
Qed.

(** The events can always be matched. *)
Lemma perfect_exists ev eg : event_list ev -> make_error_graph 0 (weigh_plain rx g) virt ev tt = (ev ++ virt, Ok eg) ->
  exists M, lmatching eg M /\ pends M ≡ₚ pg_nodes (lg_g eg).
Proof.
  intros Hev E. destruct (error_graph_spec ev Hev) as (eg' & E' & Heg & Hnodes & _ & Hall & Hex & _).
  rewrite E in E'. injection E' as <-. pose proof (ev_virt_NoDup ev Hev) as HN. rewrite Hnodes. unfold eg_nodes.
  assert (Hpair : forall l, NoDup l -> (forall n, n ∈ l -> n ∈ ev ++ virt) -> Nat.even (length l) = true ->
    lmatching eg (pairup l)).
  { intros l Hl Hsub Hlen. split; [by rewrite pairup_ends|]. intros p Hp.
    apply Hall; [by apply Hsub, pairup_sub|by apply Hsub, pairup_sub|].
    eapply NoDup_pairs; [|exact Hp]. by rewrite pairup_ends. }
  destruct (is_odd ev) eqn:Eo.
  - destruct virt_nonempty as (v & vs & Ev). rewrite Ev in *.
    assert (Hlen : Nat.even (length (ev ++ vs)) = true).
    { rewrite app_length, Nat.even_add. rewrite is_odd_even in Eo. apply negb_true_iff in Eo. rewrite Eo.
      pose proof virt_even as H. rewrite Ev in H. cbn [length] in H. rewrite Nat.even_succ, <- Nat.negb_even in H.
      by destruct (Nat.even (length vs)). }
    assert (HN' : NoDup (v :: (ev ++ vs))) by (by rewrite <- (Permutation_middle ev vs v) in HN).
    apply NoDup_cons in HN' as [Hv HN'].
    assert (Hxv : extra_node ∉ ev ++ v :: vs).
    { rewrite <- Ev. intros H. apply extra_not_node. by eapply ev_virt. }
    exists ((extra_node, v) :: pairup (ev ++ vs)). split; [split|].
    + rewrite pends_cons, pairup_ends by done. cbn [fst snd]. constructor; [|by constructor].
      intros H. apply Hxv. rewrite <- Permutation_middle. done.
    + intros p [-> | Hp]%elem_of_cons; [by apply Hex; [|left]|].
      apply (Hpair (ev ++ vs)); [done| |done|done]. intros n Hn. rewrite <- Permutation_middle. by right.
    + rewrite pends_cons, pairup_ends by done. cbn [fst snd].
      rewrite Permutation_middle, app_assoc. rewrite (Permutation_app_comm (ev ++ v :: vs)). done.
  - exists (pairup (ev ++ virt)). rewrite app_nil_r.
    assert (Hlen : Nat.even (length (ev ++ virt)) = true).
    { rewrite app_length, Nat.even_add, virt_even. rewrite is_odd_even in Eo. apply negb_false_iff in Eo. by rewrite Eo. }
    split; [by apply Hpair|]. by rewrite pairup_ends.
Qed.

Lemma node_time n : has_node g n -> 0 <= n_time n \/ n_time n = -1.
Proof.
  destruct sg_facts as (_ & _ & Hn & _). rewrite Hn. unfold sg_node, n_time. intros [_ H]. destruct (decide _); lia.
Qed.

(** Shortest paths realising a list of pairs. *)
Lemma paths_of (ms : list (node * node)) : (forall m, m ∈ ms -> has_node g m.1 /\ has_node g m.2) ->
  exists P, (forall e, e ∈ P -> edge_w g e.1 e.2 1) /\ Z.of_nat (length P) = cost D ms /\
    (forall f : node -> bool, xorl ((fun e => xorb (f e.1) (f e.2)) <$> P) = xorl ((fun m => xorb (f m.1) (f m.2)) <$> ms)) /\
    (forall n, lpar (pends P) n = lpar (pends ms) n).
Proof.
  destruct sg_facts as (Hok & Hu & _ & _).
  induction ms as [|m ms IH]; intros Hms.
  - exists []. split_and!; try done. intros e He. by apply elem_of_nil in He.
  - destruct IH as (P & HP1 & HP2 & HP3 & HP4); [intros m' Hm'; apply Hms; by right|].
    destruct (Hms m ltac:(left)) as [H1 H2].
    destruct (dz_spec g Hok Hu rx Hrx sg_conn m.1 m.2 H1 H2) as (_ & (Q & HQ & HL) & _).
    exists (Q ++ P). split_and!.
    + intros e [He|He]%elem_of_app; [by eapply lpath_edges|by apply HP1].
    + rewrite app_length, cost_cons. lia.
    + intros f. rewrite fmap_app, xorl_app, fmap_cons, xorl_cons, HP3. f_equal. by eapply lpath_xor.
    + intros n. rewrite pends_app, lpar_app, HP4, (lpath_par g _ _ _ n HQ), pends_cons, !lpar_cons. by rewrite xorb_assoc_reverse.
Qed.

Lemma lweight_cost (M : list (node * node)) : lweight (fun a b => - cost0 a b) M = - cost cost0 M.
Proof. induction M as [|m M IH]; [done|]. rewrite cost_cons. change (- cost0 m.1 m.2 + lweight (fun a b => - cost0 a b) M = - (cost0 m.1 m.2 + cost cost0 M)). lia. Qed.
Lemma cost0_le (Q : list (node * node)) : (forall m, m ∈ Q -> has_node g m.1 /\ has_node g m.2) -> cost cost0 Q <= cost D Q.
Proof.
  destruct sg_facts as (Hok & Hu & _ & _).
  induction Q as [|m Q IH]; intros H; [done|]. rewrite !cost_cons. specialize (IH ltac:(intros m' Hm'; apply H; by right)).
  destruct (H m ltac:(left)) as [H1 H2]. pose proof (dz_nonneg g Hok Hu rx Hrx sg_conn _ _ H1 H2).
  unfold cost0 at 1. destruct (decide _); lia.
Qed.
Lemma cost_edges (F : list (node * node)) : (forall e, e ∈ F -> edge_w g e.1 e.2 1) -> cost D F <= Z.of_nat (length F).
Proof.
  destruct sg_facts as (Hok & Hu & _ & _).
  induction F as [|e F IH]; intros H; [done|]. rewrite cost_cons. specialize (IH ltac:(intros m' Hm'; apply H; by right)).
  pose proof (dz_edge g Hok Hu rx Hrx sg_conn _ _ (H e ltac:(left))). cbn [length]. lia.
Qed.
Lemma cost_zero (Q : list (node * node)) : (forall m, m ∈ Q -> n_time m.1 = -1 /\ n_time m.2 = -1) -> cost cost0 Q = 0.
Proof.
  induction Q as [|m Q IH]; intros H; [done|]. rewrite cost_cons, IH by (intros m' Hm'; apply H; by right).
  unfold cost0. by rewrite decide_True by (apply H; left).
Qed.
Lemma cost_filter (M : list (node * node)) :
  cost cost0 M = cost D (filter (fun m => ~ (n_time m.1 = -1 /\ n_time m.2 = -1)) M).
Proof.
  induction M as [|m M IH]; [done|]. rewrite cost_cons, IH, filter_cons. unfold cost0 at 1.
  destruct (decide (n_time m.1 = -1 /\ n_time m.2 = -1)) as [H|H].
  - rewrite decide_False by tauto. lia.
  - rewrite decide_True by tauto. by rewrite cost_cons.
Qed.
Lemma lpar_filter (M : list (node * node)) n : 0 <= n_time n ->
  lpar (pends (filter (fun m => ~ (n_time m.1 = -1 /\ n_time m.2 = -1)) M)) n = lpar (pends M) n.
Proof.
  intros Hn. induction M as [|m M IH]; [done|]. rewrite filter_cons, pends_cons, !lpar_cons, <- IH.
  destruct (decide _) as [H|H].
  - by rewrite pends_cons, !lpar_cons.
  - apply dec_stable in H as [H1 H2]. rewrite !bool_decide_eq_false_2 by (intros E; rewrite E in *; lia). by rewrite !xorb_false_l.
Qed.

(** Whatever edges [F] produced the events, the pairs the matcher returns are joined by paths
    with at most as many edges that produce the same events. *)
Theorem matching_explains ev (F : list (node * node)) s : 0 < s -> event_list ev ->
  (forall e, e ∈ F -> edge_w g e.1 e.2 1) ->
  (forall n, 0 <= n_time n -> lpar (pends F) n = bool_decide (n ∈ ev)) ->
  exists eg ms P, make_error_graph 0 (weigh_plain rx g) virt ev tt = (ev ++ virt, Ok eg) /\
    run_mwpm rx (fun w => w * s) eg = Ok ms /\
    (forall m, m ∈ ms -> ~ (n_time m.1 = -1 /\ n_time m.2 = -1) /\ has_node g m.1 /\ has_node g m.2) /\
    (forall e, e ∈ P -> edge_w g e.1 e.2 1) /\ (length P <= length F)%nat /\
    (forall n, 0 <= n_time n -> lpar (pends P) n = bool_decide (n ∈ ev)) /\
    (forall f : node -> bool, xorl ((fun e => xorb (f e.1) (f e.2)) <$> P) = xorl ((fun m => xorb (f m.1) (f m.2)) <$> ms)).
Proof.
  intros Hs Hev HF Hpar. destruct sg_facts as (Hok & Hu & Hsn & _).
  destruct (error_graph_spec ev Hev) as (eg & E & Heg & Hnodes & Hw & Hall & Hex & Hreal).
  (* a pairing of the odd ends of F *)
  destruct (reduce D (has_node g)) with (Q := F) as (Q & HQd & HQn & HQs & HQp & HQc).
  { intros a b Ha Hb. by apply (dz_nonneg g Hok Hu rx Hrx sg_conn). }
  { intros a b Ha Hb. by apply (dz_sym g Hok Hu rx Hrx sg_conn). }
  { intros a b c Ha Hb Hc. by apply (dz_tri g Hok Hu rx Hrx sg_conn). }
  { intros n (p & Hp & Hor)%elem_of_pends. apply HF, edge_w_node in Hp as [? ?]. by destruct Hor as [-> | ->]. }
  pose proof (ev_virt_NoDup ev Hev) as HN.
  set (ex := if is_odd ev then [extra_node] else []) in *.
  assert (Hnodes' : pg_nodes (lg_g eg) = ev ++ virt ++ ex) by (rewrite Hnodes; done).
  assert (HNall : NoDup (ev ++ virt ++ ex)) by (rewrite <- Hnodes'; apply Heg).
  assert (HQev : forall n, 0 <= n_time n -> n ∈ pends Q <-> n ∈ ev).
  { intros n Hn. pose proof (lpar_NoDup _ n HQn) as H. rewrite HQp, Hpar in H by done.
    split; intros Hin; [|].
    - rewrite (bool_decide_eq_true_2 _ Hin) in H. by apply bool_decide_eq_true in H.
    - rewrite (bool_decide_eq_true_2 _ Hin) in H. symmetry in H. by apply bool_decide_eq_true in H. }
  set (rest := filter (fun n => n ∉ pends Q) (virt ++ ex)).
  assert (Hex1 : forall n, n ∈ virt ++ ex -> n_time n = -1).
  { intros n [Hn|Hn]%elem_of_app; [by apply virt_node|]. unfold ex in Hn. destruct (is_odd ev); [|by apply elem_of_nil in Hn].
    apply elem_of_list_singleton in Hn as ->. done. }
  assert (Hrest1 : NoDup rest).
  { apply NoDup_filter. apply NoDup_app in HNall. tauto. }
  assert (Hperm : pends Q ++ rest ≡ₚ ev ++ virt ++ ex).
  { apply NoDup_Permutation; [|done|].
    - apply NoDup_app. split_and!; [done| |done]. intros n Hn (Hn' & _)%elem_of_list_filter. done.
    - intros n. unfold rest. rewrite elem_of_app, elem_of_list_filter, (elem_of_app ev).
      split.
      + intros [Hn|[_ Hn]]; [|by right]. pose proof (HQd n Hn) as Hh. destruct (node_time n Hh) as [Ht|Ht].
        * left. by apply HQev.
        * right. apply elem_of_app. left. by apply virt_node.
      + intros [Hn|Hn].
        * left. apply HQev; [by apply Hev|done].
        * destruct (decide (n ∈ pends Q)); [by left|by right]. }
  assert (Hlen : Nat.even (length (ev ++ virt ++ ex)) = true).
  { rewrite !app_length, !Nat.even_add, virt_even. unfold ex. rewrite is_odd_even. by destruct (Nat.even (length ev)). }
  assert (Hrest2 : Nat.even (length rest) = true).
  { rewrite <- Hperm, app_length, pends_length, Nat.even_add, Nat.even_mul in Hlen. cbn in Hlen. by destruct (Nat.even (length rest)). }
  assert (Hedge_virt : forall a b, a ∈ virt ++ ex -> b ∈ virt ++ ex -> a <> b -> exists w, edge_w eg a b w).
  { intros a b [Ha|Ha]%elem_of_app [Hb|Hb]%elem_of_app Hab.
    - apply Hall; [apply elem_of_app; by right..|done].
    - unfold ex in Hb. destruct (is_odd ev) eqn:Eo; [|by apply elem_of_nil in Hb]. apply elem_of_list_singleton in Hb as ->.
      destruct (Hex a eq_refl Ha) as [w Hww]. exists w. by apply edge_w_sym.
    - unfold ex in Ha. destruct (is_odd ev) eqn:Eo; [|by apply elem_of_nil in Ha]. apply elem_of_list_singleton in Ha as ->.
      by apply Hex.
    - unfold ex in Ha, Hb. destruct (is_odd ev) eqn:Eo; [|by apply elem_of_nil in Ha].
      apply elem_of_list_singleton in Ha as ->, Hb as ->. done. }
  assert (Hpsub : forall p, p ∈ pairup rest -> p.1 ∈ virt ++ ex /\ p.2 ∈ virt ++ ex).
  { intros p [H1 H2]%pairup_sub. unfold rest in H1, H2. rewrite !elem_of_list_filter in *. tauto. }
  assert (HM0 : lmatching eg (Q ++ pairup rest)).
  { assert (HNp : NoDup (pends (Q ++ pairup rest))) by (rewrite pends_app, pairup_ends, Hperm by done; done).
    split; [done|]. intros p Hp. pose proof (NoDup_pairs _ p HNp Hp) as Hne.
    apply elem_of_app in Hp as [Hp|Hp].
    - apply Hall; [..|done].
      + assert (Hin : p.1 ∈ pends Q) by (apply elem_of_pends; eauto). pose proof (HQd _ Hin) as Hh. apply elem_of_app. destruct (node_time _ Hh) as [Ht|Ht].
        * left. by apply HQev.
        * right. by apply virt_node.
      + assert (Hin : p.2 ∈ pends Q) by (apply elem_of_pends; eauto). pose proof (HQd _ Hin) as Hh. apply elem_of_app. destruct (node_time _ Hh) as [Ht|Ht].
        * left. by apply HQev.
        * right. by apply virt_node.
    - apply Hpsub in Hp as [H1 H2]. by apply Hedge_virt. }
  destruct (perfect_match eg Heg s (fun a b => - cost0 a b) Hw rx (Q ++ pairup rest) Hrx Hs HM0) as (M & HM & HMm & HMp & HMw).
  { rewrite pends_app, pairup_ends by done. rewrite Hperm, Hnodes'. done. }
  set (ms := filter (fun m => ~ (n_time m.1 = -1 /\ n_time m.2 = -1)) M) in *.
  assert (Hms : forall m, m ∈ ms -> ~ (n_time m.1 = -1 /\ n_time m.2 = -1) /\ has_node g m.1 /\ has_node g m.2).
  { intros m [Hm1 Hm2]%elem_of_list_filter. split; [done|]. destruct (proj2 HMm m Hm2) as [w Hmw].
    destruct (Hreal _ _ _ Hmw Hm1) as [? ?]. split; by eapply ev_virt. }
  destruct (paths_of ms) as (P & HP1 & HP2 & HP3 & HP4).
  { intros m Hm. by apply Hms. }
  exists eg, ms, P. split; [done|]. split; [done|]. split; [done|]. split; [done|]. split; [|split; [|done]].
  - rewrite !lweight_cost in HMw. rewrite cost_app, (cost_zero (pairup rest)) in HMw.
    2: { intros m Hm. apply Hpsub in Hm as [? ?]. split; by apply Hex1. }
    rewrite (cost_filter M) in HMw. fold ms in HMw.
    assert (HQ0 : cost cost0 Q <= cost D Q).
    { apply cost0_le. intros m Hm. split; apply HQd, elem_of_pends; eauto. }
    pose proof (cost_edges F HF). lia.
  - intros n Hn. rewrite HP4. unfold ms. rewrite lpar_filter by done. rewrite (lpar_perm _ _ n HMp), Hnodes', lpar_NoDup by done.
    apply bool_decide_ext. rewrite elem_of_app. split; [|tauto]. intros [?|H]; [done|]. apply Hex1 in H. lia.
Qed.
End decode.
