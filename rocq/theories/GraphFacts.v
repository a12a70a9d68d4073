(** Labelled graphs and the depth-first construction of the syndrome graph. *)
From Verif Require Export Decoder.
From stdpp Require Export list.
Open Scope Z_scope.

Lemma ekey_comm a b : ekey a b = ekey b a.
Proof. unfold ekey. f_equal; lia. Qed.
Lemma ekey_inj a b c d : ekey a b = ekey c d -> (a = c /\ b = d) \/ (a = d /\ b = c).
Proof. unfold ekey. intros [= H1 H2]. lia. Qed.

(** ** Well-formed labelled graphs *)
Record lg_ok {W} (g : lgraph W) : Prop := {
  ok_nodup : NoDup (pg_nodes (lg_g g));
  ok_map : forall n i, lg_map g !! n = Some i <-> pg_nodes (lg_g g) !! i = Some n;
  ok_edges : forall i j w, pg_edges (lg_g g) !! (i, j) = Some w -> (i <= j /\ j < length (pg_nodes (lg_g g)))%nat }.
Definition has_node {W} (g : lgraph W) (n : node) : Prop := n ∈ pg_nodes (lg_g g).
(** The weight of the edge between two labels. *)
Definition edge_w {W} (g : lgraph W) (a b : node) (w : W) : Prop :=
  exists i j, pg_nodes (lg_g g) !! i = Some a /\ pg_nodes (lg_g g) !! j = Some b /\ pg_edges (lg_g g) !! ekey i j = Some w.

Lemma edge_w_sym {W} (g : lgraph W) a b w : edge_w g a b w -> edge_w g b a w.
Proof. intros (i & j & Hi & Hj & He). exists j, i. rewrite ekey_comm. auto. Qed.
Lemma edge_w_node {W} (g : lgraph W) a b w : edge_w g a b w -> has_node g a /\ has_node g b.
Proof. intros (i & j & Hi & Hj & He). split; by eapply elem_of_list_lookup_2. Qed.

Lemma lg_empty_ok {W} : lg_ok (@lg_empty W).
Proof.
  split; cbn.
  - constructor.
  - intros n i. by rewrite lookup_empty.
  - intros i j w. by rewrite lookup_empty.
Qed.
Lemma lg_add_node_ok {W} (g : lgraph W) n : lg_ok g -> ~ has_node g n -> lg_ok (lg_add_node n g).
Proof.
  intros [H1 H2 H3] Hn. unfold has_node in Hn. split; cbn.
  - apply NoDup_app. split_and!; [done| |apply NoDup_singleton].
    intros x Hx ->%elem_of_list_singleton. done.
  - intros m i. rewrite lookup_insert_Some, lookup_app_Some.
    split.
    + intros [[-> <-] | [Hne Hm]].
      * right. by rewrite Nat.sub_diag.
      * left. by apply H2.
    + intros [Hm | [Hl Hm]].
      * right. split; [|by apply H2]. intros ->. apply Hn. by eapply elem_of_list_lookup_2.
      * left. apply list_lookup_singleton_Some in Hm as [Hi ->]. split; [done|]. lia.
  - intros i j w Hw. specialize (H3 i j w Hw). rewrite app_length. cbn. lia.
Qed.
Lemma has_node_add_node {W} (g : lgraph W) n m : has_node (lg_add_node n g) m <-> has_node g m \/ m = n.
Proof. unfold has_node. cbn. rewrite elem_of_app, elem_of_list_singleton. done. Qed.
Lemma edge_w_add_node {W} (g : lgraph W) n a b w : lg_ok g -> edge_w (lg_add_node n g) a b w <-> edge_w g a b w.
Proof.
  intros Hok. split.
  - intros (i & j & Hi & Hj & He). cbn in *.
    pose proof (ok_edges g Hok _ _ _ He) as Hl. 
    exists i, j. rewrite lookup_app_l in Hi, Hj by lia. done.
  - intros (i & j & Hi & Hj & He). exists i, j. cbn.
    split_and!; [by apply lookup_app_l_Some..|done].
Qed.

Lemma lg_ensure_ok {W} (g : lgraph W) n : lg_ok g -> lg_ok (lg_ensure n g).
Proof.
  intros Hg. unfold lg_ensure. case_bool_decide; [done|]. by apply lg_add_node_ok.
Qed.
Lemma has_node_ensure {W} (g : lgraph W) n m : has_node (lg_ensure n g) m <-> has_node g m \/ m = n.
Proof.
  unfold lg_ensure. case_bool_decide; [|apply has_node_add_node].
  split; [by left|]. intros [?| ->]; done.
Qed.
Lemma edge_w_ensure {W} (g : lgraph W) n a b w : lg_ok g -> edge_w (lg_ensure n g) a b w <-> edge_w g a b w.
Proof. intros Hg. unfold lg_ensure. case_bool_decide; [done|]. by apply edge_w_add_node. Qed.

Lemma has_node_map {W} (g : lgraph W) n : lg_ok g -> has_node g n -> exists i, lg_map g !! n = Some i /\ pg_nodes (lg_g g) !! i = Some n.
Proof.
  intros Hg Hn. apply elem_of_list_lookup in Hn as [i Hi]. exists i. split; [|done].
  by apply (ok_map g Hg).
Qed.
Lemma no_node_map {W} (g : lgraph W) n : lg_ok g -> ~ has_node g n -> lg_map g !! n = None.
Proof.
  intros Hg Hn. destruct (lg_map g !! n) as [i|] eqn:E; [|done].
  apply (ok_map g Hg) in E. exfalso. apply Hn. by eapply elem_of_list_lookup_2.
Qed.

Definition same_ends (a b c d : node) : Prop := (a = c /\ b = d) \/ (a = d /\ b = c).
Lemma lg_add_edge_ok {W} (g : lgraph W) a b (w : W) :
  lg_ok g -> has_node g a -> has_node g b ->
  exists g', lg_add_edge a b w g = Ok g' /\ lg_ok g' /\ pg_nodes (lg_g g') = pg_nodes (lg_g g) /\ lg_map g' = lg_map g /\
    forall c d v, edge_w g' c d v <-> (same_ends c d a b /\ v = w) \/ (~ same_ends c d a b /\ edge_w g c d v).
Proof.
  intros Hg Ha Hb.
  destruct (has_node_map g a Hg Ha) as (i & Hi & Hi').
  destruct (has_node_map g b Hg Hb) as (j & Hj & Hj').
  unfold lg_add_edge. rewrite Hi, Hj. eexists. split; [done|].
  split; [|split; [done|]; split; [done|]].
  - split; cbn.
    + apply Hg.
    + apply Hg.
    + intros i' j' w' [[E _] | [_ H]]%lookup_insert_Some; [|by apply Hg in H].
      apply lookup_lt_Some in Hi', Hj'. unfold ekey in E. injection E as <- <-. lia.
  - intros c d v. unfold edge_w. cbn. split.
    + intros (i' & j' & Hc & Hd & He). apply lookup_insert_Some in He as [[E ->] | [Hne He]].
      * left. split; [|done]. apply ekey_inj in E as [[-> ->] | [-> ->]].
        -- left. split; congruence.
        -- right. split; congruence.
      * right. split; [|by exists i', j'].
        intros [[-> ->] | [-> ->]]; apply Hne.
        -- rewrite (NoDup_lookup _ i i' a (ok_nodup g Hg) Hi' Hc), (NoDup_lookup _ j j' b (ok_nodup g Hg) Hj' Hd). done.
        -- rewrite (NoDup_lookup _ j i' b (ok_nodup g Hg) Hj' Hc), (NoDup_lookup _ i j' a (ok_nodup g Hg) Hi' Hd). apply ekey_comm.
    + intros [[Hs ->] | [Hs (i' & j' & Hc & Hd & He)]].
      * destruct Hs as [[-> ->] | [-> ->]].
        -- exists i, j. rewrite lookup_insert. done.
        -- exists j, i. rewrite (ekey_comm j i), lookup_insert. done.
      * exists i', j'. split_and!; [done..|]. rewrite lookup_insert_ne; [done|].
        intros E. apply Hs. apply ekey_inj in E as [[-> ->] | [-> ->]].
        -- left. split; congruence.
        -- right. split; congruence.
Qed.

Lemma rfold_app {A B} (f : A -> B -> res A) l1 l2 a :
  rfold f a (l1 ++ l2) = match rfold f a l1 with Ok a' => rfold f a' l2 | Err e => Err e end.
Proof. revert a. induction l1 as [|x l1 IH]; intros a; cbn; [done|]. destruct (f a x); [apply IH|done]. Qed.
Lemma rfold_map {A B C} (f : A -> B -> res A) (h : C -> B) l a :
  rfold f a (h <$> l) = rfold (fun a c => f a (h c)) a l.
Proof. revert a. induction l as [|x l IH]; intros a; [done|]. change ((match f a (h x) with Ok a' => rfold f a' (h <$> l) | Err e => Err e end) = rfold (fun a c => f a (h c)) a (x :: l)). cbn. destruct (f a (h x)); [apply IH|done]. Qed.
Lemma rfold_ext {A B} (f h : A -> B -> res A) l a :
  (forall a x, f a x = h a x) -> rfold f a l = rfold h a l.
Proof. intros E. revert a. induction l as [|x l IH]; intros a; cbn; [done|]. rewrite E. destruct (h a x); [apply IH|done]. Qed.

(** ** Depth-first search over an arbitrary neighbour function *)
Fixpoint dfs (nb : node -> list node) (fuel : nat) (cur : node) (s : list node * lgraph Z) : res (list node * lgraph Z) :=
  match fuel with
  | O => Err RecursionError
  | S fuel' =>
    let V := s.1 ++ [cur] in
    let ns := filter (fun n => n ∉ V) (nb cur) in
    match rfold (link cur) s.2 ns with
    | Err e => Err e
    | Ok g => rfold (fun s n => dfs nb fuel' n s) (V, g) ns
    end
  end.

(** The neighbours of [_populate_syndrome_graph] called with time [t]. *)
Definition nbrs (isx : bool) (dh dw t : Z) (n : node) : list node :=
  (at_time t <$> filter (fun p => valid_syndrome isx dh dw p = true) (diagonals n)) ++
  (at_time (-1) <$> filter (fun p => at_time (-1) p ∈ virtual_nodes isx dh dw) (diagonals n)).

Lemma filter_fmap {A B} (P : B -> Prop) `{!forall x, Decision (P x)} (h : A -> B) (l : list A) :
  filter P (h <$> l) = h <$> filter (fun x => P (h x)) l.
Proof.
  induction l as [|x l IH]; [done|]. change (h <$> x :: l) with (h x :: (h <$> l)). rewrite !filter_cons.
  destruct (decide (P (h x))).
  - change (h <$> x :: filter (fun x => P (h x)) l) with (h x :: (h <$> filter (fun x => P (h x)) l)).
    by rewrite IH.
  - done.
Qed.
Lemma filter_filter_and {A} (P Q : A -> Prop) `{!forall x, Decision (P x)} `{!forall x, Decision (Q x)} (l : list A) :
  filter Q (filter P l) = filter (fun x => P x /\ Q x) l.
Proof.
  induction l as [|x l IH]; [done|]. rewrite !(filter_cons _ x l).
  destruct (decide (P x)).
  - rewrite filter_cons. destruct (decide (Q x)).
    + rewrite decide_True by done. by rewrite IH.
    + rewrite decide_False by naive_solver. done.
  - rewrite decide_False by naive_solver. done.
Qed.

Lemma populate_dfs fuel isx dh dw cur t s :
  populate_graph fuel isx dh dw cur t s = dfs (nbrs isx dh dw t) fuel cur s.
Proof.
  revert cur s. induction fuel as [|fuel IH]; intros cur [V g]; [done|].
  cbn [populate_graph dfs fst snd].
  set (V1 := V ++ [cur]).
  assert (Ens : filter (fun n => n ∉ V1) (nbrs isx dh dw t cur) =
     (at_time t <$> filter (fun p => valid_syndrome isx dh dw p = true /\ at_time t p ∉ V1) (diagonals cur)) ++
     (at_time (-1) <$> filter (fun p => at_time (-1) p ∈ virtual_nodes isx dh dw /\ at_time (-1) p ∉ V1) (diagonals cur))).
  { unfold nbrs. by rewrite filter_app, !filter_fmap, !filter_filter_and. }
  rewrite Ens. clear Ens.
  set (no := filter (fun p => valid_syndrome isx dh dw p = true /\ _) _).
  set (vi := filter (fun p => at_time (-1) p ∈ _ /\ _) _).
  assert (E : match rfold (fun g p => link cur g (at_time t p)) g no with
      | Ok g1 =>
        match rfold (fun g p => link cur g (at_time (-1) p)) g1 vi with
        | Ok g2 =>
          match rfold (fun s p => populate_graph fuel isx dh dw (at_time t p) t s) (V1, g2) no with
          | Ok s3 => rfold (fun s p => populate_graph fuel isx dh dw (at_time (-1) p) t s) s3 vi
          | Err e => Err e
          end
        | Err e => Err e
        end
      | Err e => Err e
      end =
    match rfold (link cur) g ((at_time t <$> no) ++ (at_time (-1) <$> vi)) with
    | Ok g0 => rfold (fun s n => dfs (nbrs isx dh dw t) fuel n s) (V1, g0) ((at_time t <$> no) ++ (at_time (-1) <$> vi))
    | Err e => Err e
    end).
  { rewrite rfold_app, !rfold_map.
    destruct (rfold _ g no) as [g1|]; [|done]. rewrite rfold_map.
    destruct (rfold _ g1 vi) as [g2|]; [|done].
    rewrite rfold_app, !rfold_map.
    rewrite (rfold_ext _ (fun s p => dfs (nbrs isx dh dw t) fuel (at_time t p) s)) by (intros; apply IH).
    destruct (rfold _ (V1, g2) no) as [s3|]; [|done]. rewrite rfold_map.
    apply rfold_ext. intros; apply IH. }
  rewrite <- E. destruct no as [|? ?]; [|done]. destruct vi; [|done]. done.
Qed.

(** ** What a search does *)
Definition unit_weights (g : lgraph Z) : Prop := forall a b w, edge_w g a b w -> w = 1.
Definition new_nodes (g g' : lgraph Z) (N : node -> Prop) : Prop :=
  forall n, has_node g' n <-> has_node g n \/ N n.
Definition new_edges (g g' : lgraph Z) (E : node -> node -> Prop) : Prop :=
  forall a b, edge_w g' a b 1 <-> edge_w g a b 1 \/ E a b.

Lemma link_ok cur g n :
  lg_ok g -> unit_weights g -> has_node g cur ->
  exists g', link cur g n = Ok g' /\ lg_ok g' /\ unit_weights g' /\
    new_nodes g g' (fun m => m = n) /\ new_edges g g' (fun a b => same_ends a b cur n).
Proof.
  intros Hg Hw Hc. unfold link.
  destruct (lg_add_edge_ok (lg_ensure n g) cur n 1) as (g' & Hg' & Hok & Hn & Hm & He).
  - by apply lg_ensure_ok.
  - apply has_node_ensure. by left.
  - apply has_node_ensure. by right.
  - exists g'. split; [done|]. split; [done|]. split; [|split].
    + intros a b w. rewrite He. intros [[_ ?] | [_ H]]; [done|]. rewrite edge_w_ensure in H by done. by apply Hw in H.
    + intros m. unfold has_node at 1. rewrite Hn. apply has_node_ensure.
    + intros a b. rewrite He, edge_w_ensure by done. split; [tauto|].
      intros [H|H]; [|tauto]. destruct (decide (a = cur /\ b = n \/ a = n /\ b = cur)) as [Hs|Hs]; [left|right]; done.
Qed.
Lemma links_ok cur ns : forall g,
  lg_ok g -> unit_weights g -> has_node g cur ->
  exists g', rfold (link cur) g ns = Ok g' /\ lg_ok g' /\ unit_weights g' /\
    new_nodes g g' (fun m => m ∈ ns) /\ new_edges g g' (fun a b => exists n, n ∈ ns /\ same_ends a b cur n).
Proof.
  induction ns as [|n ns IH]; intros g Hg Hw Hc.
  - exists g. cbn. split_and!; try done.
    + intros m. split; [by left|]. intros [?|H]; [done|]. by apply elem_of_nil in H.
    + intros a b. split; [by left|]. intros [?|(n & H & _)]; [done|]. by apply elem_of_nil in H.
  - destruct (link_ok cur g n Hg Hw Hc) as (g1 & E1 & Hg1 & Hw1 & Hn1 & He1).
    destruct (IH g1 Hg1 Hw1) as (g2 & E2 & Hg2 & Hw2 & Hn2 & He2).
    { apply Hn1. by left. }
    exists g2. cbn. rewrite E1. split_and!; try done.
    + intros m. rewrite (Hn2 m), (Hn1 m), elem_of_cons. tauto.
    + intros a b. rewrite (He2 a b), (He1 a b). split.
      * intros [[?|?]|(m & Hm & Hs)]; [by left|right; exists n; split; [left|done]|right; exists m; split; [by right|done]].
      * intros [?|(m & [-> | Hm]%elem_of_cons & Hs)]; [by left; left|by left; right|]. right. by exists m.
Qed.

Section dfs.
Context (nb : node -> list node) (U : gset node).
Hypothesis nb_U : forall n m, n ∈ U -> m ∈ nb n -> m ∈ U.
Hypothesis nb_irr : forall n, n ∉ nb n.

(** The invariant of a search that started from graph [g0]: graph [g], visited [V]. *)
Record dinv (g0 : lgraph Z) (V : list node) (g : lgraph Z) : Prop := {
  d_ok : lg_ok g;
  d_unit : unit_weights g;
  d_V : forall n, n ∈ V -> n ∈ U /\ has_node g n;
  d_nodes : forall n, has_node g n -> has_node g0 n \/ n ∈ U;
  d_keep : forall n, has_node g0 n -> has_node g n;
  d_linked : forall y x, y ∈ V -> x ∈ nb y -> y ∈ nb x -> edge_w g y x 1;
  d_edges : forall a b, edge_w g a b 1 -> edge_w g0 a b 1 \/ (a ∈ U /\ b ∈ nb a) \/ (b ∈ U /\ a ∈ nb b);
  d_ekeep : forall a b, edge_w g0 a b 1 -> edge_w g a b 1 }.

Definition missing (V : list node) : nat := size (U ∖ list_to_set V).
Lemma missing_lt V W c : c ∈ U -> c ∉ V -> (forall x, x ∈ V -> x ∈ W) -> c ∈ W -> (missing W < missing V)%nat.
Proof.
  intros Hc HcV Hsub HcW. unfold missing. apply subset_size.
  split.
  - intros x. rewrite !elem_of_difference, !elem_of_list_to_set. naive_solver.
  - intros H. assert (Hx : c ∈ U ∖ list_to_set V) by (rewrite elem_of_difference, elem_of_list_to_set; done).
    apply H in Hx. rewrite elem_of_difference, elem_of_list_to_set in Hx. naive_solver.
Qed.

Lemma dfs_spec g0 fuel : forall cur V g,
  dinv g0 V g -> cur ∈ U -> has_node g cur -> (missing (V ++ [cur]) < fuel)%nat ->
  exists V' g', dfs nb fuel cur (V, g) = Ok (V', g') /\ dinv g0 V' g' /\
    (forall x, x ∈ V ++ [cur] -> x ∈ V') /\ (forall n, has_node g n -> has_node g' n) /\
    (forall y x, y ∈ V' -> y = cur \/ y ∉ V -> x ∈ nb y -> x ∈ V').
Proof.
  induction fuel as [|fuel IH]; intros cur V g Hinv HcU Hcg Hf; [lia|].
  cbn [dfs fst snd]. set (V1 := V ++ [cur]) in *.
  set (ns := filter (fun n => n ∉ V1) (nb cur)).
  destruct Hinv as [Hok Hun HV Hnodes Hkeep Hlink Hed Hek].
  destruct (links_ok cur ns g Hok Hun Hcg) as (g1 & E1 & Hok1 & Hun1 & Hn1 & He1).
  rewrite E1.
  assert (Hns : forall n, n ∈ ns -> n ∈ U /\ n ∈ nb cur /\ n ∉ V1).
  { intros n [H1 H2]%elem_of_list_filter. split_and!; [by eapply nb_U|done|done]. }
  assert (Hinv1 : dinv g0 V1 g1).
  { split; try done.
    - intros n [Hn| ->%elem_of_list_singleton]%elem_of_app.
      + destruct (HV n Hn). split; [done|]. apply Hn1. by left.
      + split; [done|]. apply Hn1. by left.
    - intros n [Hn|Hn]%Hn1; [by apply Hnodes|]. right. by apply Hns.
    - intros n Hn. apply Hn1. left. by apply Hkeep.
    - intros y x [Hy| ->%elem_of_list_singleton]%elem_of_app Hx Hx'.
      + apply He1. left. by apply Hlink.
      + destruct (decide (x ∈ V1)) as [HxV|HxV].
        * apply elem_of_app in HxV as [HxV| ->%elem_of_list_singleton].
          -- apply He1. left. apply edge_w_sym. by apply Hlink.
          -- by destruct (nb_irr cur).
        * apply He1. right. exists x. split; [|by left]. by apply elem_of_list_filter.
    - intros a b [Hab|(n & Hn & Hs)]%He1; [by apply Hed|]. right. apply Hns in Hn as (HnU & Hnb & _).
      destruct Hs as [[-> ->]|[-> ->]]; [by left|by right].
    - intros a b Hab. apply He1. left. by apply Hek. }
  (* the recursive calls *)
  assert (Hrec : forall l, (forall n, n ∈ l -> n ∈ ns) -> forall V2 g2,
     dinv g0 V2 g2 -> (forall x, x ∈ V1 -> x ∈ V2) -> (forall n, has_node g1 n -> has_node g2 n) ->
     exists V' g', rfold (fun s n => dfs nb fuel n s) (V2, g2) l = Ok (V', g') /\ dinv g0 V' g' /\
       (forall x, x ∈ V2 -> x ∈ V') /\ (forall n, n ∈ l -> n ∈ V') /\ (forall n, has_node g2 n -> has_node g' n) /\
       (forall y x, y ∈ V' -> y ∉ V2 -> x ∈ nb y -> x ∈ V')).
  { induction l as [|n l IHl]; intros Hl V2 g2 Hinv2 HV12 Hg12.
    - exists V2, g2. cbn. split_and!; try done. intros n Hn. by apply elem_of_nil in Hn.
    - destruct (Hns n) as (HnU & Hnnb & HnV); [apply Hl; left|].
      destruct (IH n V2 g2 Hinv2 HnU) as (V3 & g3 & E3 & Hinv3 & HV3 & Hg3 & Hc3).
      { apply Hg12, Hn1. right. apply Hl. left. }
      { assert (missing (V2 ++ [n]) < missing V1)%nat; [|lia].
        apply (missing_lt V1 (V2 ++ [n]) n HnU HnV).
        - intros x Hx. apply elem_of_app. left. by apply HV12.
        - apply elem_of_app. right. by apply elem_of_list_singleton. }
      destruct (IHl (fun m Hm => Hl m (elem_of_list_further m n l Hm)) V3 g3 Hinv3) as (V4 & g4 & E4 & Hinv4 & HV4 & Hl4 & Hg4 & Hc4).
      { intros x Hx. apply HV3. apply elem_of_app. left. by apply HV12. }
      { intros m Hm. apply Hg3. by apply Hg12. }
      exists V4, g4. cbn. rewrite E3. split_and!; try done.
      + intros x Hx. apply HV4, HV3. apply elem_of_app. by left.
      + intros m [-> | Hm]%elem_of_cons; [|by apply Hl4]. apply HV4, HV3. apply elem_of_app. right. by apply elem_of_list_singleton.
      + intros m Hm. by apply Hg4, Hg3.
      + intros y x Hy HyV Hx. destruct (decide (y ∈ V3)) as [Hy3|Hy3].
        * apply HV4. apply (Hc3 y x Hy3); [by right|done].
        * apply (Hc4 y x Hy Hy3 Hx). }
  destruct (Hrec ns ltac:(done) V1 g1 Hinv1 ltac:(done) ltac:(done)) as (V' & g' & E' & Hinv' & HV' & Hl' & Hg' & Hc').
  exists V', g'. split; [done|]. split; [done|]. split; [done|]. split.
  - intros n Hn. apply Hg', Hn1. by left.
  - intros y x Hy Hor Hx.
    destruct (decide (y = cur)) as [-> | Hne].
    + destruct (decide (x ∈ V1)) as [HxV|HxV]; [by apply HV'|]. apply Hl'. by apply elem_of_list_filter.
    + destruct Hor as [?|HyV]; [done|]. apply (Hc' y x Hy); [|done].
      intros [?|?%elem_of_list_singleton]%elem_of_app; done.
Qed.
End dfs.
