(** The error graph handed to the matcher. *)
From Verif Require Export GraphFacts.
From stdpp Require Export list.
Open Scope Z_scope.

Lemma elem_combinations {A} (l : list A) a b : (a, b) ∈ combinations l ->
  a ∈ l /\ b ∈ l.
Proof.
  induction l as [|x l IH]; cbn; [by intros ?%elem_of_nil|].
  rewrite elem_of_app, elem_of_list_fmap. intros [(y & [= -> ->] & Hy) | H].
  - split; [left|by right].
  - apply IH in H as [? ?]. split; by right.
Qed.
Lemma combinations_distinct {A} `{EqDecision A} (l : list A) a b : a <> b -> a ∈ l -> b ∈ l ->
  (a, b) ∈ combinations l \/ (b, a) ∈ combinations l.
Proof.
  intros Hab. induction l as [|x l IH]; [by intros ?%elem_of_nil|].
  intros Ha Hb. cbn. rewrite !elem_of_app, !elem_of_list_fmap.
  apply elem_of_cons in Ha as [<- | Ha]; apply elem_of_cons in Hb as [<- | Hb]; [done|left; left; eauto|right; left; eauto|].
  destruct (IH Ha Hb); auto.
Qed.
Lemma combinations_self {A} (l : list A) a : NoDup l -> (a, a) ∉ combinations l.
Proof.
  induction 1 as [|x l Hx Hn IH]; cbn; [apply not_elem_of_nil|].
  rewrite elem_of_app, elem_of_list_fmap. intros [(y & [= <- <-] & Hy) | H]; done.
Qed.

Section errgraph.
Context {W C : Type} (zero : W) (weigh : node -> node -> C -> res (W * C)).
Context (virt : list node) (wt : node -> node -> W) (Inv : C -> Prop).
Definition pair_weight (a b : node) : W :=
  if bool_decide (a ∈ virt) && bool_decide (b ∈ virt) then zero else wt a b.
Lemma same_ends_dec (a b c d : node) : same_ends a b c d \/ ~ same_ends a b c d.
Proof. unfold same_ends. destruct (decide (a = c /\ b = d)), (decide (a = d /\ b = c)); tauto. Qed.

Lemma add_pairs_ok (ps : list (node * node)) : forall g c, lg_ok g -> Inv c ->
  (forall a b, (a, b) ∈ ps -> has_node g a /\ has_node g b) ->
  (forall a b, (a, b) ∈ ps -> pair_weight a b = pair_weight b a) ->
  (forall a b c, (a, b) ∈ ps -> ~ (a ∈ virt /\ b ∈ virt) -> Inv c -> exists c', weigh a b c = Ok (wt a b, c') /\ Inv c') ->
  exists g' c', rfold (add_pair zero weigh virt) (g, c) ps = Ok (g', c') /\ lg_ok g' /\ Inv c' /\
    pg_nodes (lg_g g') = pg_nodes (lg_g g) /\ lg_map g' = lg_map g /\
    (forall a b w, edge_w g' a b w <->
       (((a, b) ∈ ps \/ (b, a) ∈ ps) /\ w = pair_weight a b) \/
       (~ ((a, b) ∈ ps \/ (b, a) ∈ ps) /\ edge_w g a b w)).
Proof.
  induction ps as [|[a b] ps IH]; intros g c Hg Hc Hn Hs Hw.
  - exists g, c. cbn. split_and!; try done. intros a b w. split.
    + intros H. right. split; [|done]. intros [H'|H']; by apply elem_of_nil in H'.
    + intros [[[H|H] _] | [_ H]]; [by apply elem_of_nil in H..|done].
  - assert (exists g1 c1, add_pair zero weigh virt (g, c) (a, b) = Ok (g1, c1) /\ Inv c1 /\ lg_ok g1 /\ pg_nodes (lg_g g1) = pg_nodes (lg_g g) /\ lg_map g1 = lg_map g /\
      forall c0 d v, edge_w g1 c0 d v <-> (same_ends c0 d a b /\ v = pair_weight a b) \/ (~ same_ends c0 d a b /\ edge_w g c0 d v))
      as (g1 & c1 & E1 & Hc1 & Hg1 & Hn1 & Hm1 & He1).
    { destruct (Hn a b ltac:(left)) as [Ha Hb].
      destruct (lg_add_edge_ok g a b (pair_weight a b) Hg Ha Hb) as (g1 & E & H1 & H2 & H3 & H4).
      unfold add_pair. cbn [fst snd]. unfold pair_weight in E.
      destruct (bool_decide (a ∈ virt) && bool_decide (b ∈ virt)) eqn:Ev.
      - rewrite E. exists g1, c. done.
      - destruct (Hw a b c) as (c' & -> & Hc'); [left| |done|].
        { intros [Hva Hvb]. rewrite !bool_decide_eq_true_2 in Ev by done. done. }
        rewrite E. exists g1, c'. done. }
    destruct (IH g1 c1 Hg1 Hc1) as (g2 & c2 & E2 & Hg2 & Hc2 & Hn2 & Hm2 & He2).
    { intros a' b' H. unfold has_node. rewrite Hn1. apply Hn. by right. }
    { intros a' b' H. apply Hs. by right. }
    { intros a' b' c' H. apply Hw. by right. }
    exists g2, c2. cbn [rfold]. rewrite E1. split; [done|]. split; [done|]. split; [done|]. split; [congruence|]. split; [congruence|].
    assert (Hsym : pair_weight a b = pair_weight b a) by (apply Hs; left).
    intros x y w. rewrite He2, He1. rewrite !elem_of_cons.
    assert (Hse : same_ends x y a b <-> (x, y) = (a, b) \/ (y, x) = (a, b)).
    { unfold same_ends. rewrite !pair_equal_spec. tauto. }
    destruct (same_ends_dec x y a b) as [Hxy|Hxy].
    + assert (Hpw : pair_weight x y = pair_weight a b).
      { destruct Hxy as [[-> ->] | [-> ->]]; [done|by symmetry]. }
      rewrite Hpw. split.
      * intros [[H ->] | [Hn' [[_ ->] | [H _]]]]; [left; tauto|left; tauto|done].
      * intros [[H ->] | [H _]]; [|tauto].
        destruct (decide ((x, y) ∈ ps)) as [Hd1|Hd1]; [tauto|]. destruct (decide ((y, x) ∈ ps)) as [Hd2|Hd2]; [tauto|].
        right. tauto.
    + tauto.
Qed.

Lemma ensure_all (l : list node) : forall g : lgraph W, lg_ok g -> 
  let g' := foldl (fun g n => lg_ensure n g) g l in
  lg_ok g' /\ (forall n, has_node g' n <-> has_node g n \/ n ∈ l) /\ (forall a b w, edge_w g' a b w <-> edge_w g a b w) /\
  (NoDup (pg_nodes (lg_g g) ++ l) -> pg_nodes (lg_g g') = pg_nodes (lg_g g) ++ l).
Proof.
  induction l as [|n l IH]; intros g Hg; cbn.
  - split; [done|]. split; [|split; [done|by rewrite app_nil_r]]. intros n. rewrite elem_of_nil. tauto.
  - destruct (IH (lg_ensure n g)) as (H1 & H2 & H3 & H4); [by apply lg_ensure_ok|].
    split; [done|]. split; [|split].
    + intros m. rewrite H2, has_node_ensure, elem_of_cons. tauto.
    + intros a b w. by rewrite H3, edge_w_ensure.
    + intros Hnd. apply NoDup_app in Hnd as Hnd'. destruct Hnd' as (Hd1 & Hd2 & Hd3).
      assert (E : pg_nodes (lg_g (lg_ensure n g)) = pg_nodes (lg_g g) ++ [n]).
      { unfold lg_ensure. rewrite bool_decide_eq_false_2; [done|]. intros Hin. apply (Hd2 n Hin). left. }
      assert (Hl : pg_nodes (lg_g (lg_ensure n g)) ++ l = pg_nodes (lg_g g) ++ n :: l) by (by rewrite E, <- app_assoc).
      by rewrite H4, Hl by (by rewrite Hl).
Qed.

Lemma extra_ok (vs : list node) (e : node) : forall g : lgraph W, lg_ok g -> has_node g e -> (forall v, v ∈ vs -> has_node g v) ->
  exists g', rfold (fun g v => lg_add_edge e v zero g) g vs = Ok g' /\ lg_ok g' /\ pg_nodes (lg_g g') = pg_nodes (lg_g g) /\
    (forall a b w, edge_w g' a b w <->
      ((exists v, v ∈ vs /\ same_ends a b e v) /\ w = zero) \/ (~ (exists v, v ∈ vs /\ same_ends a b e v) /\ edge_w g a b w)).
Proof.
  induction vs as [|v vs IH]; intros g Hg He Hv.
  - exists g. cbn. split_and!; try done. intros a b w. split.
    + intros H. right. split; [|done]. intros (v & Hin & _). by apply elem_of_nil in Hin.
    + intros [[(v & Hin & _) _] | [_ H]]; [by apply elem_of_nil in Hin|done].
  - destruct (lg_add_edge_ok g e v zero Hg He (Hv v ltac:(left))) as (g1 & E1 & Hg1 & Hn1 & _ & He1).
    destruct (IH g1 Hg1) as (g2 & E2 & Hg2 & Hn2 & He2).
    { unfold has_node. by rewrite Hn1. }
    { intros v' Hv'. unfold has_node. rewrite Hn1. apply Hv. by right. }
    exists g2. cbn [rfold]. rewrite E1. split; [done|]. split; [done|]. split; [congruence|].
    intros a b w. rewrite He2, He1.
    assert (Hex : (exists v', v' ∈ v :: vs /\ same_ends a b e v') <-> same_ends a b e v \/ (exists v', v' ∈ vs /\ same_ends a b e v')).
    { split.
      - intros (v' & [-> | H]%elem_of_cons & Hs); [by left|]. right. eauto.
      - intros [H|(v' & H & Hs)]; [exists v; split; [left|done]|exists v'; split; [by right|done]]. }
    rewrite Hex.
    destruct (same_ends_dec a b e v) as [Hs|Hs].
    + split.
      * intros [[H ->] | [H [[_ ->] | [H' _]]]]; tauto.
      * intros [[_ ->] | [H _]]; [|tauto].
        destruct (decide (Exists (fun v' => (a = e /\ b = v') \/ (a = v' /\ b = e)) vs)) as [Hd|Hd];
          rewrite Exists_exists in Hd; [left|right]; (split; [exact Hd|tauto]) || tauto.
    + tauto.
Qed.

(** The result of [make_error_graph] on any list of nodes. *)
Lemma make_error_graph_ok (ev : list node) (c : C) :
  Inv c ->
  (forall a b, a ∈ ev ++ virt -> b ∈ ev ++ virt -> pair_weight a b = pair_weight b a) ->
  (forall a b c, (a, b) ∈ combinations (ev ++ virt) -> ~ (a ∈ virt /\ b ∈ virt) -> Inv c -> exists c', weigh a b c = Ok (wt a b, c') /\ Inv c') ->
  (extra_node ∉ ev ++ virt) ->
  let odd := bool_decide (Z.of_nat (length ev) mod 2 <> 0) in
  exists eg, make_error_graph zero weigh virt ev c = (ev ++ virt, Ok eg) /\ lg_ok eg /\
    (pg_nodes (lg_g eg) = pg_nodes (lg_g (foldl (fun g n => lg_ensure n g) (@lg_empty W) (ev ++ virt))) ++ (if odd then [extra_node] else []) /\
     (NoDup (ev ++ virt) -> pg_nodes (lg_g eg) = ev ++ virt ++ (if odd then [extra_node] else []))) /\
    (forall n, has_node eg n <-> n ∈ ev ++ virt \/ (odd = true /\ n = extra_node)) /\
    (forall a b w, edge_w eg a b w <->
       (((a, b) ∈ combinations (ev ++ virt) \/ (b, a) ∈ combinations (ev ++ virt)) /\ w = pair_weight a b) \/
       (odd = true /\ (exists v, v ∈ virt /\ same_ends a b extra_node v) /\ w = zero)).
Proof.
  intros Hc Hsym Hw Hextra odd. unfold make_error_graph. fold odd.
  destruct (ensure_all (ev ++ virt) lg_empty lg_empty_ok) as (H1 & H2 & H3 & H4).
  set (g0 := foldl (fun g n => lg_ensure n g) lg_empty (ev ++ virt)) in *.
  assert (H2' : forall n, has_node g0 n <-> n ∈ ev ++ virt).
  { intros n. rewrite H2. unfold has_node. cbn. rewrite elem_of_nil. tauto. }
  assert (H3' : forall a b w, ~ edge_w g0 a b w).
  { intros a b w. rewrite H3. intros (i & j & H & _). done. }
  destruct (add_pairs_ok (combinations (ev ++ virt)) g0 c H1 Hc) as (g1 & c1 & E1 & Hg1 & Hc1 & Hn1 & Hm1 & He1).
  - intros a b Hab. rewrite !H2'. by apply elem_combinations.
  - intros a b Hab. apply elem_combinations in Hab as [? ?]. by apply Hsym.
  - done.
  - rewrite E1. assert (He1' : forall a b w, edge_w g1 a b w <-> ((a, b) ∈ combinations (ev ++ virt) \/ (b, a) ∈ combinations (ev ++ virt)) /\ w = pair_weight a b).
    { intros a b w. rewrite He1. split; [|tauto]. intros [?|[_ H]]; [done|]. by apply H3' in H. }
    destruct odd eqn:Eo.
    + assert (Hne : ~ has_node g1 extra_node).
      { unfold has_node. rewrite Hn1. change (~ has_node g0 extra_node). rewrite H2'. done. }
      destruct (extra_ok virt extra_node (lg_add_node extra_node g1)) as (g2 & E2 & Hg2 & Hn2 & He2).
      * by apply lg_add_node_ok.
      * apply has_node_add_node. by right.
      * intros v Hv. apply has_node_add_node. left. unfold has_node. rewrite Hn1. apply H2'. apply elem_of_app. by right.
      * exists g2. rewrite E2. split; [done|]. split; [done|]. split; [|split].
        -- split; [rewrite Hn2; cbn; by rewrite Hn1|]. intros Hnd. rewrite Hn2. cbn. rewrite Hn1, H4 by done. cbn. by rewrite app_assoc.
        -- intros n. unfold has_node. rewrite Hn2. change (has_node (lg_add_node extra_node g1) n <-> n ∈ ev ++ virt \/ (true = true /\ n = extra_node)).
           rewrite has_node_add_node. unfold has_node. rewrite Hn1. change (has_node g0 n \/ n = extra_node <-> n ∈ ev ++ virt \/ (true = true /\ n = extra_node)).
           rewrite H2'. tauto.
        -- intros a b w. rewrite He2, (edge_w_add_node g1) by done. rewrite He1'. split.
           ++ intros [[Hex ->] | [_ H]]; [right|left]; done.
           ++ intros [H|(_ & Hex & ->)]; [|by left].
              right. split; [|done]. intros (v & Hv & Hs). destruct H as [H _].
              assert (a ∈ ev ++ virt /\ b ∈ ev ++ virt) as [Ha Hb].
              { destruct H as [H|H]; apply elem_combinations in H; tauto. }
              destruct Hs as [[-> _] | [_ ->]]; done.
    + exists g1. split; [done|]. split; [done|]. split; [|split].
      * split; [by rewrite app_nil_r|]. intros Hnd. rewrite Hn1, H4 by done. cbn. by rewrite app_nil_r.
      * intros n. unfold has_node. rewrite Hn1. change (has_node g0 n <-> n ∈ ev ++ virt \/ (false = true /\ n = extra_node)). rewrite H2'. naive_solver.
      * intros a b w. rewrite He1'. split; [tauto|]. intros [?|[? _]]; done.
Qed.
End errgraph.
