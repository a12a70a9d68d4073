(** Properties C29 and C30: the numbers of error paths. *)
From Verif Require Import DegenFacts FirstNode DecodeFacts P_Decode RxRef.
From stdpp Require Export list.
Open Scope Z_scope.

(** The library asks for the degeneracies of many pairs, one after the other, with one
    dictionary of path numbers that starts empty. *)
Fixpoint ask (rx : retworkx) (g : lgraph Z) (virt : list node) (qs : list (node * node)) (c : pcache) : res (list Z * pcache) :=
  match qs with
  | [] => Ok ([], c)
  | q :: qs =>
    match path_degeneracy rx g virt q.1 q.2 c with
    | Err e => Err e
    | Ok (n, c) => match ask rx g virt qs c with Err e => Err e | Ok (ns, c) => Ok (n :: ns, c) end
    end
  end.

(** The degeneracy of two nodes of the graph, in words: between two ancillas, the number of
    shortest paths; between an ancilla and a boundary node, the number of shortest paths to any
    boundary node at that distance, unless the ancilla is the start of the graph, the first
    one of the first round: then only the paths to that one boundary node count. *)
Definition degeneracy (isx : bool) (g : lgraph Z) (virt : list node) (a b : node) (n : Z) : Prop :=
  if bool_decide (n_time a = -1) then
    if bool_decide (b = at_time 0 (start_loc isx)) then counts (shortest_path g b a) n else counts (boundary_path g virt b a) n
  else if bool_decide (n_time b = -1) then
    if bool_decide (a = at_time 0 (start_loc isx)) then counts (shortest_path g a b) n else counts (boundary_path g virt a b) n
  else counts (shortest_path g a b) n.
Definition proper_pair (g : lgraph Z) (q : node * node) : Prop :=
  q.1 ∈ pg_nodes (lg_g g) /\ q.2 ∈ pg_nodes (lg_g g) /\ q.1 <> q.2 /\ ~ (n_time q.1 = -1 /\ n_time q.2 = -1).

Section degen.
Context (isx : bool) (dh dw T : Z) (g : lgraph Z) (rx : retworkx).
Hypothesis Hv : valid_size dh dw.
Hypothesis Hext : 3 <= extent isx dh dw.
Hypothesis HT : 1 <= T.
Hypothesis Hg : make_syndrome_graph isx dh dw T = Ok g.
Hypothesis Hrx : rx_ok rx.
Let virt := virtual_nodes isx dh dw.
Let Hfacts := sg_facts isx dh dw T g Hv Hext HT Hg.
Let Hconn := sg_conn isx dh dw T g Hv Hext HT Hg.
Lemma virt_facts v : v ∈ virt -> has_node g v /\ n_time v = -1.
Proof. apply (virt_node isx dh dw T g Hv Hext HT Hg). Qed.
Lemma index_zero n : lg_map g !! n = Some 0%nat <-> n = at_time 0 (start_loc isx).
Proof.
  destruct Hfacts as (Hok & _). rewrite (ok_map g Hok), (first_node isx dh dw T g HT Hg). split; [by intros [= ->]|by intros ->].
Qed.
Lemma dg_degeneracy q : proper_pair g q -> degeneracy isx g virt q.1 q.2 (dg g rx virt q.1 q.2).
Proof.
  intros (Ha & Hb & Hab & Hvv). destruct q as [a b]. cbn [fst snd] in *. destruct Hfacts as (Hok & Hu & _).
  assert (HN : NoDup virt) by (by apply (virt_NoDup isx dh dw T g Hv Hext Hg)).
  assert (Hbd : forall u v, has_node g u -> has_node g v -> n_time v = -1 ->
    if bool_decide (u = at_time 0 (start_loc isx)) then counts (shortest_path g u v) (bdeg g rx virt u v) else counts (boundary_path g virt u v) (bdeg g rx virt u v)).
  { intros u v Hnu Hnv Ht. pose proof (index_zero u) as Hz. case_bool_decide as E.
    - unfold bdeg. rewrite bool_decide_eq_true_2 by (by apply Hz). by apply np_counts.
    - apply bdeg_counts; try done; [apply virt_facts| |by rewrite Hz]. apply (virt_node isx dh dw T g Hv Hext HT Hg). done. }
  unfold degeneracy, dg. case_bool_decide as Ea; [by apply Hbd|]. case_bool_decide as Eb; [by apply Hbd|]. by apply np_counts.
Qed.
Lemma ask_ok qs : (forall q, q ∈ qs -> proper_pair g q) -> forall c, cache_ok g rx c ->
  exists c', ask rx g virt qs c = Ok ((fun q => dg g rx virt q.1 q.2) <$> qs, c') /\ cache_ok g rx c'.
Proof.
  intros Hqs. destruct Hfacts as (Hok & Hu & _). induction qs as [|q qs IH]; intros c Hc; [by exists c|]. cbn [ask].
  destruct (Hqs q ltac:(left)) as (Ha & Hb & Hab & Hvv).
  destruct (path_degeneracy_ok g Hok Hu rx Hrx Hconn virt virt_facts q.1 q.2 c Ha Hb Hab Hvv Hc) as (c1 & -> & Hc1).
  destruct (IH ltac:(intros; apply Hqs; by right) c1 Hc1) as (c2 & -> & Hc2). exists c2. done.
Qed.
End degen.

(** * C29, C30 *)
(** Whatever was asked before, every answer is the degeneracy of its pair. *)
Theorem C30_degeneracy isx dh dw T g rx qs : valid_size dh dw -> 3 <= extent isx dh dw -> 1 <= T ->
  make_syndrome_graph isx dh dw T = Ok g -> rx_ok rx -> (forall q, q ∈ qs -> proper_pair g q) ->
  exists ns c, ask rx g (virtual_nodes isx dh dw) qs ∅ = Ok (ns, c) /\
    Forall2 (fun q n => degeneracy isx g (virtual_nodes isx dh dw) q.1 q.2 n /\ 1 <= n) qs ns.
Proof.
  intros Hv Hext HT Hg Hrx Hqs.
  destruct (ask_ok isx dh dw T g rx Hv Hext HT Hg Hrx qs Hqs ∅ (cache_empty g rx)) as (c & E & _).
  eexists _, c. split; [exact E|]. apply Forall2_fmap_r, Forall_Forall2_diag, Forall_forall. intros q Hq.
  split; [by apply (dg_degeneracy isx dh dw T g rx Hv Hext HT Hg Hrx), Hqs|].
  destruct (Hqs q Hq) as (Ha & Hb & Hab & Hvv). destruct (sg_facts isx dh dw T g Hv Hext HT Hg) as (Hok & Hu & _).
  pose proof (sg_conn isx dh dw T g Hv Hext HT Hg) as Hconn. pose proof (virt_NoDup isx dh dw T g Hv Hext Hg) as HN.
  unfold dg. repeat case_bool_decide; [apply (bdeg_pos g Hok Hu rx Hrx Hconn)..|by apply (np_pos g Hok Hu rx Hrx Hconn)]; try done; 
    try (apply (virt_facts isx dh dw T g); done); by apply (virt_node isx dh dw T g Hv Hext HT Hg).
Qed.
Print Assumptions C30_degeneracy.
(** Two histories ending with a question about the same two nodes, in either order, end with
    the same answer. *)
Theorem C29_history isx dh dw T g rx qs qs' a b q' ns n c ns' n' c' : valid_size dh dw -> 3 <= extent isx dh dw -> 1 <= T ->
  make_syndrome_graph isx dh dw T = Ok g -> rx_ok rx ->
  (forall q, q ∈ qs ++ [(a, b)] -> proper_pair g q) -> (forall q, q ∈ qs' ++ [q'] -> proper_pair g q) ->
  q' = (a, b) \/ q' = (b, a) ->
  ask rx g (virtual_nodes isx dh dw) (qs ++ [(a, b)]) ∅ = Ok (ns ++ [n], c) ->
  ask rx g (virtual_nodes isx dh dw) (qs' ++ [q']) ∅ = Ok (ns' ++ [n'], c') -> n = n'.
Proof.
  intros Hv Hext HT Hg Hrx Hqs Hqs' Hq' E E'.
  destruct (ask_ok isx dh dw T g rx Hv Hext HT Hg Hrx _ Hqs ∅ (cache_empty g rx)) as (c1 & E1 & _).
  destruct (ask_ok isx dh dw T g rx Hv Hext HT Hg Hrx _ Hqs' ∅ (cache_empty g rx)) as (c2 & E2 & _).
  rewrite E in E1. injection E1 as E1 _. rewrite E' in E2. injection E2 as E2 _. rewrite fmap_app in E1, E2.
  apply app_inj_2 in E1 as [_ [= ->]]; [|done]. apply app_inj_2 in E2 as [_ [= ->]]; [|done].
  destruct Hq' as [-> | ->]; [done|]. cbn [fst snd]. destruct (sg_facts isx dh dw T g Hv Hext HT Hg) as (Hok & Hu & _).
  destruct (Hqs (a, b)) as (Ha & Hb & _ & Hvv); [apply elem_of_app; right; left|].
  apply (dg_sym g Hok Hu rx Hrx (sg_conn isx dh dw T g Hv Hext HT Hg)); done.
Qed.
Print Assumptions C29_history.

(** Examples: d = 3, two rounds, Z.  From the start of the second round there are two shortest
    paths to the upper boundary, from the first ancilla only one is counted. *)
Definition g33 : lgraph Z := match make_syndrome_graph false 3 3 2 with Ok g => g | Err _ => lg_empty end.
Lemma g33_ok : make_syndrome_graph false 3 3 2 = Ok g33. Proof. vm_compute. reflexivity. Qed.
Definition asked (qs : list (node * node)) : res (list Z) :=
  match ask rx_ref g33 (virtual_nodes false 3 3) qs ∅ with Ok r => Ok r.1 | Err e => Err e end.
Example C30_ex : asked [((1, 1, 1), (-1, -1, -1)); ((-1, -1, 3), (1, 1, 1)); ((0, 1, 1), (1, 3, 3)); ((1, 3, 3), (0, 1, 1))] = Ok [2; 2; 2; 2].
Proof. vm_compute. reflexivity. Qed.
Lemma edge_path (g : lgraph Z) a b i j : pg_nodes (lg_g g) !! i = Some a -> pg_nodes (lg_g g) !! j = Some b -> pg_edges (lg_g g) !! ekey i j = Some 1 ->
  a <> b -> shortest_path g a b [(a, b)].
Proof.
  intros Hi Hj He Hab. split.
  - econstructor; [exists i, j; done|]. constructor. by eapply elem_of_list_lookup_2.
  - intros Q HQ. inversion HQ; subst; [done|]. cbn. lia.
Qed.
Lemma not_one {A} (P : A -> Prop) x y : P x -> P y -> x <> y -> ~ counts P 1.
Proof.
  intros Hx Hy Hxy (l & _ & Hl & HL). apply Hl in Hx, Hy. destruct l as [|z [|z' l]]; cbn in HL; try lia.
  apply elem_of_list_singleton in Hx, Hy. congruence.
Qed.
Lemma answers_inv {A B} (r : res (A * B)) a : (match r with Ok p => Ok p.1 | Err e => Err e end) = Ok a -> exists b, r = Ok (a, b).
Proof. destruct r as [[a' b]|]; [|done]. intros [= ->]. by exists b. Qed.
Lemma asked_first : exists c, ask rx_ref g33 (virtual_nodes false 3 3) [((0, 1, 1), (-1, -1, -1))] ∅ = Ok ([1], c).
Proof. apply answers_inv. vm_compute. reflexivity. Qed.
(** The docstring's number, paths to any boundary node at that distance, is not what is
    returned for the first ancilla. *)
Theorem C30_first_ancilla_refuted : exists isx dh dw T g rx u v n c, valid_size dh dw /\ 3 <= extent isx dh dw /\ 1 <= T /\
  make_syndrome_graph isx dh dw T = Ok g /\ rx_ok rx /\ proper_pair g (u, v) /\ v ∈ virtual_nodes isx dh dw /\
  ask rx g (virtual_nodes isx dh dw) [(u, v)] ∅ = Ok ([n], c) /\ ~ counts (boundary_path g (virtual_nodes isx dh dw) u v) n.
Proof.
  assert (Hv : valid_size 3 3) by (by vm_compute). assert (He : 3 <= extent false 3 3) by (by vm_compute). assert (HT : 1 <= 2) by lia.
  assert (Hs1 : shortest_path g33 (0, 1, 1) (-1, -1, -1) [((0, 1, 1), (-1, -1, -1))]).
  { apply (edge_path g33 _ _ 0 3); [vm_compute; reflexivity..|discriminate]. }
  assert (Hs2 : shortest_path g33 (0, 1, 1) (-1, -1, 3) [((0, 1, 1), (-1, -1, 3))]).
  { apply (edge_path g33 _ _ 0 4); [vm_compute; reflexivity..|discriminate]. }
  pose proof asked_first as Ha.
  assert (Hn : pg_nodes (lg_g g33) !! 0%nat = Some (0, 1, 1) /\ pg_nodes (lg_g g33) !! 3%nat = Some (-1, -1, -1)) by (split; vm_compute; reflexivity).
  pose proof g33_ok as Hg. revert Ha Hs1 Hs2 Hn Hg. generalize g33. intros g Ha Hs1 Hs2 Hn Hg.
  destruct Ha as [c E].
  exists false, 3, 3, 2, g, rx_ref, (0, 1, 1), (-1, -1, -1), 1, c.
  split; [exact Hv|]. split; [exact He|]. split; [exact HT|]. split; [exact Hg|]. split; [apply rx_ref_ok|]. split; [|split; [|split; [exact E|]]].
  - destruct Hn as [H1 H2]. split; [exact (elem_of_list_lookup_2 _ _ _ H1)|]. split; [exact (elem_of_list_lookup_2 _ _ _ H2)|]. split; [discriminate|]. intros [H _]. discriminate H.
  - left.
  - apply (not_one _ [((0, 1, 1), (-1, -1, -1))] [((0, 1, 1), (-1, -1, 3))]); [| |discriminate].
    + exists (-1, -1, -1). split; [left|]. split; [exact Hs1|]. exists [((0, 1, 1), (-1, -1, -1))]. split; [exact Hs1|reflexivity].
    + exists (-1, -1, 3). split; [do 2 right; left|]. split; [exact Hs2|]. exists [((0, 1, 1), (-1, -1, -1))]. split; [exact Hs1|reflexivity].
Qed.
Print Assumptions C30_first_ancilla_refuted.
