(** The syndrome graph of a repetition code with one round of events is a line: shortest paths
    are unique, and every set of events has an explanation by fewer than half of the qubits. *)
From Verif Require Export DegenFacts DecodeFacts FaultFacts P_Sharp.
From stdpp Require Export list.
Open Scope Z_scope.

Lemma xorl_at {A} `{EqDecision A} (f : A -> bool) k (l : list A) : NoDup l ->
  xorl ((fun x => f x && bool_decide (x = k)) <$> l) = bool_decide (k ∈ l) && f k.
Proof.
  induction 1 as [|x l Hx Hl IHl]; [done|]. rewrite fmap_cons, xorl_cons, IHl.
  destruct (decide (x = k)) as [-> |Hne].
  - rewrite (bool_decide_eq_false_2 (k ∈ l)), (bool_decide_eq_true_2 (k = k)), (bool_decide_eq_true_2 (k ∈ k :: l)) by (done || left). by destruct (f k).
  - rewrite (bool_decide_eq_false_2 (x = k)), andb_false_r, xorb_false_l by done. f_equal. apply bool_decide_ext. rewrite elem_of_cons. naive_solver.
Qed.
Lemma counts_one {A} (P : A -> Prop) n : counts P n -> (forall x y, P x -> P y -> x = y) -> (exists x, P x) -> n = 1.
Proof.
  intros (l & Hnd & Hl & ->) Hu (x & Hx). apply Hl in Hx. destruct l as [|a [|b l]]; [by apply elem_of_nil in Hx|done|].
  exfalso. assert (a = b) as <- by (apply Hu; apply Hl; [left|right; left]). apply NoDup_cons in Hnd as [H _]. apply H. left.
Qed.

Lemma extent_odd' isx dh dw : valid_size dh dw -> exists e, extent isx dh dw = 2 * e + 1.
Proof. intros (Ha & Hb & Hc & Hd). apply Z.odd_spec in Hc as [x Hx], Hd as [y Hy]. unfold extent. destruct isx; [exists y|exists x]; lia. Qed.

Section line.
Context (isx : bool) (dh dw : Z) (g : lgraph Z).
Hypothesis Hsize : valid_size dh dw.
Hypothesis Hnd : 3 <= extent isx dh dw.
Hypothesis Hg : make_syndrome_graph isx dh dw 1 = Ok g.
Hypothesis Hone : n_chains isx dh dw = 1.
Notation d := (extent isx dh dw).
Notation lev := (nlevel isx).
Let HT : 1 <= 1. Proof. done. Qed.

Lemma line_inj u v : has_node g u -> has_node g v -> lev u = lev v -> u = v.
Proof.
  intros [Cu Tu]%(sg_facts isx dh dw 1 g Hsize Hnd HT Hg) [Cv Tv]%(sg_facts isx dh dw 1 g Hsize Hnd HT Hg) E.
  destruct u as [[tu yu] xu], v as [[tv yv] xv]. unfold nlevel, cell, inside, level, n_chains, extent, n_row, n_col in *. cbn [fst snd] in *.
  destruct isx; subst; [assert (yu = yv) as -> by zmod|assert (xu = xv) as -> by zmod]; do 2 f_equal; repeat destruct (decide _); zmod.
Qed.
Lemma line_step a b : edge_w g a b 1 -> lev b = lev a - 2 \/ lev b = lev a + 2.
Proof.
  intros He%(sg_facts isx dh dw 1 g Hsize Hnd HT Hg). destruct He as [(t & p & q & _ & _ & _ & Ha & -> & ->)|(t & p & Ht & _)]; [|lia].
  unfold adjacent, place, nlevel, level, n_row, n_col in *. cbn [fst snd]. destruct isx; tauto.
Qed.
Lemma line_far a b P : lpath g a b P -> lev a - 2 * Z.of_nat (length P) <= lev b <= lev a + 2 * Z.of_nat (length P).
Proof. induction 1 as [a Ha|a b c P He HP IHP]; cbn [length]; [lia|]. apply line_step in He. lia. Qed.
(** The edge of data qubit [k]. *)
Lemma line_data k : 0 <= k < d -> 0 <= k < dh * dw.
Proof. unfold n_chains, extent in *. destruct isx; rewrite ?Hone in *; lia. Qed.
Definition link (k : Z) : node * node := flip_edge isx dh dw (0, k).
Lemma link_ok k : 0 <= k < d -> edge_w g (link k).1 (link k).2 1.
Proof. intros Hk. apply (flip_edge_ok isx dh dw 1 g Hsize Hnd HT Hg); cbn; [lia|by apply line_data]. Qed.
Lemma link_lev k : 0 <= k < d -> (lev (link k).1 = 2 * k - 1 /\ lev (link k).2 = 2 * k + 1) \/ (lev (link k).1 = 2 * k + 1 /\ lev (link k).2 = 2 * k - 1).
Proof.
  intros Hk. unfold link, flip_edge, place, nlevel, level, n_row, n_col, ends. cbn [fst snd]. unfold n_chains, extent in *.
  destruct isx; subst.
  - rewrite (Z.div_small k dw), (Z.mod_small k dw) by lia. destruct (xorb _ _); cbn [fst snd]; lia.
  - rewrite Z.div_1_r, Z.mod_1_r. destruct (xorb _ _); cbn [fst snd]; lia.
Qed.
Lemma line_edge k : 0 <= k < d -> exists a b, edge_w g a b 1 /\ lev a = 2 * k - 1 /\ lev b = 2 * k + 1.
Proof.
  intros Hk. destruct (link_lev k Hk) as [[E1 E2]|[E1 E2]].
  - exists (link k).1, (link k).2. split; [by apply link_ok|done].
  - exists (link k).2, (link k).1. split; [by apply edge_w_sym, link_ok|done].
Qed.
Lemma line_up n : forall a b, has_node g a -> has_node g b -> lev b = lev a + 2 * Z.of_nat n -> exists P, lpath g a b P /\ length P = n.
Proof.
  induction n as [|n IHn]; intros a b Ha Hb E.
  - assert (a = b) as <- by (apply line_inj; [done..|lia]). exists []. split; [by constructor|done].
  - pose proof (node_level isx dh dw 1 g Hsize Hnd HT Hg a Ha) as La. pose proof (node_level isx dh dw 1 g Hsize Hnd HT Hg b Hb) as Lb.
    destruct (line_edge ((lev a + 1) / 2)) as (u & v & He & Eu & Ev); [zmod|].
    pose proof (edge_w_node _ _ _ _ He) as [Hu Hv].
    assert (u = a) as -> by (apply line_inj; [done..|zmod]).
    destruct (IHn v b Hv Hb) as (P & HP & HL); [zmod|]. exists ((a, v) :: P). split; [by econstructor|cbn; lia].
Qed.
Lemma line_path a b : has_node g a -> has_node g b -> exists P, lpath g a b P /\ 2 * Z.of_nat (length P) = Z.abs (lev a - lev b).
Proof.
  intros Ha Hb. pose proof (node_level isx dh dw 1 g Hsize Hnd HT Hg a Ha) as La. pose proof (node_level isx dh dw 1 g Hsize Hnd HT Hg b Hb) as Lb.
  destruct (decide (lev a <= lev b)).
  - destruct (line_up (Z.to_nat ((lev b - lev a) / 2)) a b Ha Hb) as (P & HP & HL); [zmod|]. exists P. split; [done|zmod].
  - destruct (line_up (Z.to_nat ((lev a - lev b) / 2)) b a Hb Ha) as (P & HP & HL); [zmod|].
    destruct (lpath_rev g _ _ _ HP) as (Q & HQ & HQL). exists Q. split; [done|zmod].
Qed.
Lemma line_unique a b P : lpath g a b P -> 2 * Z.of_nat (length P) = Z.abs (lev a - lev b) ->
  forall Q, lpath g a b Q -> length Q = length P -> Q = P.
Proof.
  induction 1 as [a Ha|a c b P He HP IHP]; intros HL Q HQ HQL.
  - by apply nil_length_inv in HQL.
  - destruct HQ as [a' Ha'|a' c' b' Q He' HQ]; [done|]. cbn [length] in *.
    pose proof (line_far _ _ _ HP) as F1. pose proof (line_far _ _ _ HQ) as F2. pose proof (line_step _ _ He) as S1. pose proof (line_step _ _ He') as S2.
    assert (c' = c) as ->.
    { apply line_inj; [by apply edge_w_node in He' as [_ ?]|by apply edge_w_node in He as [_ ?]|lia]. }
    f_equal. apply IHP; [lia|done|lia].
Qed.

Context (rx : retworkx).
Hypothesis Hrx : rx_ok rx.
Notation Dz := (dz g rx).
Notation virt := (virtual_nodes isx dh dw).
Lemma line_dz a b : has_node g a -> has_node g b -> 2 * Dz a b = Z.abs (lev a - lev b).
Proof.
  intros Ha Hb. destruct (sg_facts isx dh dw 1 g Hsize Hnd HT Hg) as (Hok & Hu & _). pose proof (sg_conn isx dh dw 1 g Hsize Hnd HT Hg) as Hconn.
  destruct (dz_spec g Hok Hu rx Hrx Hconn a b Ha Hb) as (_ & (P & HP & HPL) & Hmin).
  destruct (line_path a b Ha Hb) as (Q & HQ & HQL). pose proof (Hmin Q HQ). pose proof (line_far _ _ _ HP). lia.
Qed.
Lemma line_shortest a b P Q : shortest_path g a b P -> shortest_path g a b Q -> P = Q.
Proof.
  destruct (sg_facts isx dh dw 1 g Hsize Hnd HT Hg) as (Hok & Hu & _). pose proof (sg_conn isx dh dw 1 g Hsize Hnd HT Hg) as Hconn.
  intros [HP HPL]%(shortest_path_length g Hok Hu rx Hrx Hconn) [HQ HQL]%(shortest_path_length g Hok Hu rx Hrx Hconn).
  destruct (lpath_nodes g _ _ _ HP) as [Ha Hb]. pose proof (line_dz a b Ha Hb). apply (line_unique a b Q HQ); [lia|done|lia].
Qed.
Lemma line_np a b : has_node g a -> has_node g b -> np g rx a b = 1.
Proof.
  intros Ha Hb. destruct (sg_facts isx dh dw 1 g Hsize Hnd HT Hg) as (Hok & Hu & _). pose proof (sg_conn isx dh dw 1 g Hsize Hnd HT Hg) as Hconn.
  apply (counts_one (shortest_path g a b)).
  - by apply (np_counts g Hok Hu rx Hrx Hconn).
  - intros P Q. apply line_shortest.
  - destruct (dz_spec g Hok Hu rx Hrx Hconn a b Ha Hb) as (_ & (P & HP & HPL) & _). exists P. by apply (shortest_path_length g Hok Hu rx Hrx Hconn).
Qed.
(** No ancilla is equally far from the two ends. *)
Lemma line_bdeg u v : has_node g u -> n_time u <> -1 -> v ∈ virt -> bdeg g rx virt u v = 1.
Proof.
  intros Hu Ht Hv. destruct (sg_facts isx dh dw 1 g Hsize Hnd HT Hg) as (Hok & Hun & _). pose proof (sg_conn isx dh dw 1 g Hsize Hnd HT Hg) as Hconn.
  pose proof (virt_node isx dh dw 1 g Hsize Hnd HT Hg) as Hvn. change (MwpmGraph.virt isx dh dw) with virt in Hvn.
  assert (Hvirt : forall v, v ∈ virt -> has_node g v /\ n_time v = -1) by (intros w; apply Hvn).
  destruct (Hvirt v Hv) as [Hv1 Hv2].
  destruct (decide (lg_map g !! u = Some 0%nat)) as [H0|H0].
  - unfold bdeg. rewrite bool_decide_eq_true_2 by done. by apply line_np.
  - apply (counts_one (boundary_path g virt u v)).
    + apply (bdeg_counts g Hok Hun rx Hrx Hconn virt Hvirt u v Hu Hv); [|done]. by apply (virt_NoDup isx dh dw 1 g).
    + assert (Hx : forall P, boundary_path g virt u v P -> shortest_path g u v P).
      { intros P (w & Hw & HP & Q & HQ & HL). destruct (Hvirt w Hw) as [Hw1 Hw2]. assert (w = v) as ->; [|done].
        apply (shortest_path_length g Hok Hun rx Hrx Hconn) in HP as [_ HP], HQ as [_ HQ].
        pose proof (line_dz u v Hu Hv1) as D1. pose proof (line_dz u w Hu Hw1) as D2.
        pose proof (node_level isx dh dw 1 g Hsize Hnd HT Hg u Hu) as Lu.
        pose proof (node_level isx dh dw 1 g Hsize Hnd HT Hg v Hv1) as Lv. pose proof (node_level isx dh dw 1 g Hsize Hnd HT Hg w Hw1) as Lw.
        apply line_inj; [done..|]. destruct (extent_odd' isx dh dw Hsize) as [e He]. zmod. }
      intros P Q HP HQ. by eapply line_shortest; apply Hx.
    + destruct (dz_spec g Hok Hun rx Hrx Hconn u v Hu Hv1) as (_ & (P & HP & HPL) & _).
      assert (HS : shortest_path g u v P) by (by apply (shortest_path_length g Hok Hun rx Hrx Hconn)).
      exists P, v. split; [done|]. split; [done|]. by exists P.
Qed.
Lemma line_dg a b : has_node g a -> has_node g b -> ~ (n_time a = -1 /\ n_time b = -1) -> dg g rx virt a b = 1.
Proof.
  intros Ha Hb Hvv. pose proof (virt_node isx dh dw 1 g Hsize Hnd HT Hg) as Hvn. change (MwpmGraph.virt isx dh dw) with virt in Hvn.
  unfold dg. case_bool_decide; [|case_bool_decide].
  - apply line_bdeg; [done|tauto|by apply Hvn].
  - apply line_bdeg; [done|tauto|by apply Hvn].
  - by apply line_np.
Qed.

(** ** Explanations *)
Lemma node_link n k : has_node g n -> 0 <= n_time n -> 0 <= k < d ->
  xorb (bool_decide ((link k).1 = n)) (bool_decide ((link k).2 = n)) = xorb (bool_decide (k = (lev n - 1) / 2)) (bool_decide (k = (lev n - 1) / 2 + 1)).
Proof.
  intros Hn Ht Hk. pose proof (edge_w_node _ _ _ _ (link_ok k Hk)) as [H1 H2]. pose proof (node_level isx dh dw 1 g Hsize Hnd HT Hg n Hn) as Ln.
  assert (Hb : forall m, has_node g m -> bool_decide (m = n) = bool_decide (lev m = lev n)).
  { intros m Hm. apply bool_decide_ext. split; [by intros ->|by apply line_inj]. }
  rewrite !Hb by done. destruct (link_lev k Hk) as [[-> ->]|[-> ->]].
  - rewrite xorb_comm. f_equal; apply bool_decide_ext; zmod.
  - f_equal; apply bool_decide_ext; zmod.
Qed.
Definition below (ev : list node) (k : Z) : bool := xorl ((fun n => bool_decide (lev n < 2 * k)) <$> ev).
Definition links (ev : list node) (b : bool) : list (node * node) := link <$> filter (fun k => below ev k = b) (seqZ 0 d).
Lemma links_edge ev b e : e ∈ links ev b -> edge_w g e.1 e.2 1.
Proof. intros (k & -> & [_ Hk%elem_of_seqZ]%elem_of_list_filter)%elem_of_list_fmap. apply link_ok. lia. Qed.
Lemma links_par ev b n : event_list g ev -> 0 <= n_time n -> lpar (pends (links ev b)) n = bool_decide (n ∈ ev).
Proof.
  intros [Hev1 Hev2] Ht. destruct (decide (n ∈ pg_nodes (lg_g g))) as [Hn|Hn]; [change (has_node g n) in Hn|change (~ has_node g n) in Hn].
  2:{ rewrite (bool_decide_eq_false_2 (n ∈ ev)) by (intros H; by apply Hn, Hev2).
      assert (Hx : forall F, (forall e, e ∈ F -> edge_w g e.1 e.2 1) -> lpar (pends F) n = false).
      { induction F as [|e F IHF]; intros HF; [done|]. rewrite pends_cons, !lpar_cons, IHF by (intros; apply HF; by right).
        destruct (edge_w_node _ _ _ _ (HF e ltac:(left))) as [H1 H2].
        rewrite !bool_decide_eq_false_2 by (intros <-; done). done. }
      apply Hx. apply links_edge. }
  pose proof (node_level isx dh dw 1 g Hsize Hnd HT Hg n Hn) as Ln.
  assert (E1 : lpar (pends (links ev b)) n = xorb (xorl ((fun k => bool_decide (below ev k = b) && bool_decide (k = (lev n - 1) / 2)) <$> seqZ 0 d)) (xorl ((fun k => bool_decide (below ev k = b) && bool_decide (k = (lev n - 1) / 2 + 1)) <$> seqZ 0 d))).
  { rewrite xorl_xor. unfold links. assert (HL : Forall (fun k => 0 <= k < d) (seqZ 0 d)) by (apply list.Forall_forall; intros k Hk%elem_of_seqZ; lia).
    revert HL. generalize (seqZ 0 d). induction 1 as [|k l Hk Hl IHl]; [done|]. rewrite fmap_cons, xorl_cons, <- IHl, filter_cons. destruct (decide (below ev k = b)) as [Hb|Hb].
    - rewrite fmap_cons, pends_cons, !lpar_cons, <- xorb_assoc, (node_link n k Hn Ht Hk). rewrite !(bool_decide_eq_true_2 (below ev k = b)) by done. done.
    - rewrite !(bool_decide_eq_false_2 (below ev k = b)) by done. by rewrite !andb_false_l, !xorb_false_l. }
  rewrite E1, !xorl_at by apply NoDup_seqZ. rewrite (bool_decide_eq_true_2 ((lev n - 1) / 2 ∈ seqZ 0 d)), (bool_decide_eq_true_2 ((lev n - 1) / 2 + 1 ∈ seqZ 0 d)) by (apply elem_of_seqZ; zmod). rewrite !andb_true_l.
  assert (E2 : xorb (below ev ((lev n - 1) / 2)) (below ev ((lev n - 1) / 2 + 1)) = bool_decide (n ∈ ev)).
  { unfold below. rewrite xorl_xor. assert (Ex : xorl ((fun x => xorb (bool_decide (lev x < 2 * ((lev n - 1) / 2))) (bool_decide (lev x < 2 * ((lev n - 1) / 2 + 1)))) <$> ev) = xorl ((fun x => true && bool_decide (x = n)) <$> ev)).
    { apply xorl_ext. intros x Hx. destruct (Hev2 x Hx) as [Hx1 Hx2]. pose proof (node_level isx dh dw 1 g Hsize Hnd HT Hg x Hx1) as Lx.
      destruct (decide (x = n)) as [-> |Hne].
      - rewrite (bool_decide_eq_true_2 (n = n)) by done. rewrite bool_decide_eq_false_2, bool_decide_eq_true_2 by zmod. done.
      - rewrite (bool_decide_eq_false_2 (x = n)) by done. assert (lev x <> lev n) by (intros E; by apply Hne, line_inj).
        assert (Hc : (lev x < 2 * ((lev n - 1) / 2)) <-> (lev x < 2 * ((lev n - 1) / 2 + 1))) by zmod.
        rewrite (bool_decide_ext _ _ Hc). apply xorb_nilpotent. }
    rewrite Ex, xorl_at by done. by rewrite andb_true_r. }
  rewrite <- E2. generalize (below ev ((lev n - 1) / 2)), (below ev ((lev n - 1) / 2 + 1)). intros b1 b2. destruct b1, b2, b; reflexivity.
Qed.
(** One of the two explanations takes fewer than half of the qubits. *)
Lemma links_short ev : exists b, 2 * Z.of_nat (length (links ev b)) < d.
Proof.
  assert (E : (length (links ev true) + length (links ev false))%nat = length (seqZ 0 d)).
  { unfold links. rewrite !fmap_length. generalize (seqZ 0 d). intros l. induction l as [|k l IHl]; [done|]. rewrite !filter_cons.
    destruct (below ev k); repeat (destruct (decide _); try done); cbn [length]; lia. }
  rewrite seqZ_length in E. destruct (extent_odd' isx dh dw Hsize) as [e He].
  destruct (decide (2 * Z.of_nat (length (links ev true)) < d)); [by exists true|exists false; lia].
Qed.
End line.
