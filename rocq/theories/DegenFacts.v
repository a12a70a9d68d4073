(** Numbers of shortest paths, and what the decoder's cache of them returns. *)
From Verif Require Export Degen Mwpm MwpmGraph SpecDegen.
From stdpp Require Export list.
Open Scope Z_scope.

(** ** Sums *)
Definition zsum (l : list Z) : Z := foldr Z.add 0 l.
Lemma zsum_app l1 l2 : zsum (l1 ++ l2) = zsum l1 + zsum l2.
Proof. induction l1 as [|x l1 IH]; [done|]. change (x + zsum (l1 ++ l2) = x + zsum l1 + zsum l2). lia. Qed.
Lemma zsum_add {A} (f h : A -> Z) l : zsum ((fun x => f x + h x) <$> l) = zsum (f <$> l) + zsum (h <$> l).
Proof. induction l as [|x l IH]; [done|]. change (f x + h x + zsum ((fun x => f x + h x) <$> l) = f x + zsum (f <$> l) + (h x + zsum (h <$> l))). lia. Qed.
Lemma zsum_zero {A} (l : list A) : zsum ((fun _ => 0) <$> l) = 0.
Proof. induction l as [|x l IH]; [done|]. exact IH. Qed.
Lemma zsum_swap {A B} (f : A -> B -> Z) la lb :
  zsum ((fun a => zsum ((fun b => f a b) <$> lb)) <$> la) = zsum ((fun b => zsum ((fun a => f a b) <$> la)) <$> lb).
Proof.
  induction la as [|a la IH]; [by rewrite zsum_zero|].
  rewrite fmap_cons. change (zsum (?x :: ?l)) with (x + zsum l). rewrite IH, <- zsum_add. f_equal.
Qed.
Lemma zsum_ext {A} (f h : A -> Z) l : (forall x, x ∈ l -> f x = h x) -> zsum (f <$> l) = zsum (h <$> l).
Proof. intros H. f_equal. apply list_fmap_ext. intros i x Hx. apply H. by eapply elem_of_list_lookup_2. Qed.
Lemma zsum_ind l j : NoDup l -> zsum ((fun x : nat => if bool_decide (x = j) then 1 else 0) <$> l) = if bool_decide (j ∈ l) then 1 else 0.
Proof.
  induction 1 as [|x l Hx Hl IH]; [done|]. rewrite fmap_cons. change (zsum (?x :: ?l)) with (x + zsum l). rewrite IH.
  rewrite (bool_decide_ext (j ∈ x :: l) (j = x \/ j ∈ l)) by apply elem_of_cons.
  repeat case_bool_decide; try lia; naive_solver.
Qed.

(** ** Numbers of walks *)
Section walks.
Context (g : pygraph node Z).
Hypothesis Hwf : pg_wf g.
Lemma neighbours_elem i j : j ∈ neighbours g i <-> is_Some (pg_edges g !! ekey i j).
Proof.
  unfold neighbours. rewrite elem_of_list_filter, elem_of_seq. split; [tauto|]. intros H. split; [done|].
  destruct H as [w H]. unfold ekey in H. apply Hwf in H. lia.
Qed.
Lemma neighbours_sym i j : j ∈ neighbours g i <-> i ∈ neighbours g j.
Proof. rewrite !neighbours_elem, (ekey_comm i j). done. Qed.
Lemma neighbours_NoDup i : NoDup (neighbours g i). Proof. apply NoDup_filter, NoDup_seq. Qed.
Lemma nwalks_S k i j : nwalks g (S k) i j = zsum ((fun l => nwalks g k l j) <$> neighbours g i).
Proof. done. Qed.
Lemma nwalks_last k i j : nwalks g (S k) i j = zsum ((fun l => nwalks g k i l) <$> neighbours g j).
Proof.
  revert i j. induction k as [|k IH]; intros i j.
  - rewrite nwalks_S. cbn [nwalks]. rewrite zsum_ind by apply neighbours_NoDup.
    transitivity (zsum ((fun x : nat => if bool_decide (x = i) then 1 else 0) <$> neighbours g j)).
    + rewrite zsum_ind by apply neighbours_NoDup. by rewrite (bool_decide_ext _ _ (neighbours_sym i j)).
    + apply zsum_ext. intros x _. by rewrite (bool_decide_ext (x = i) (i = x)) by done.
  - rewrite nwalks_S. rewrite (zsum_ext _ (fun l => zsum ((fun m => nwalks g k l m) <$> neighbours g j))) by (intros; apply IH).
    rewrite zsum_swap. apply zsum_ext. intros m _. done.
Qed.
Lemma nwalks_sym k i j : nwalks g k i j = nwalks g k j i.
Proof.
  revert i j. induction k as [|k IH]; intros i j; [cbn; by rewrite (bool_decide_ext (i = j) (j = i)) by done|].
  rewrite nwalks_S, nwalks_last. apply zsum_ext. intros l _. apply IH.
Qed.
Lemma walk_snoc k i j l : walk g k i j -> is_Some (pg_edges g !! ekey j l) -> walk g (S k) i l.
Proof.
  intros Hw. revert l. induction Hw as [i Hi|k i j m He Hw IH]; intros l Hl.
  - econstructor; [done|]. constructor. destruct Hl as [w Hl]. apply Hwf in Hl. lia.
  - econstructor; [exact He|]. by apply IH.
Qed.
Lemma walk_rev k i j : walk g k i j -> walk g k j i.
Proof.
  induction 1 as [i Hi|k i j l He Hw IH]; [by constructor|]. eapply walk_snoc; [exact IH|]. by rewrite ekey_comm.
Qed.
Lemma shortest_sym i j k : shortest g i j k -> shortest g j i k.
Proof. intros [H1 H2]. split; [by apply walk_rev|]. intros k' Hk. by apply H2, walk_rev. Qed.
End walks.

(** ** Enumerating paths *)
Section enum.
Context (g : lgraph Z).
Hypothesis Hok : lg_ok g.
Hypothesis Hunit : unit_weights g.
Let Hwf : pg_wf (lg_g g). Proof. intros i j w. apply (ok_edges g Hok). Qed.
Definition lbl (i : nat) : node := default (0, 0, 0) (pg_nodes (lg_g g) !! i).
Fixpoint enum_paths (k i j : nat) : list (list (node * node)) :=
  match k with
  | O => if bool_decide (i = j) then [[]] else []
  | S k' => neighbours (lg_g g) i ≫= (fun l => cons (lbl i, lbl l) <$> enum_paths k' l j)
  end.
Lemma enum_length k i j : Z.of_nat (length (enum_paths k i j)) = nwalks (lg_g g) k i j.
Proof.
  revert i. induction k as [|k IH]; intros i; [cbn; by case_bool_decide|].
  rewrite nwalks_S. cbn [enum_paths]. induction (neighbours (lg_g g) i) as [|l ls IHl]; [done|].
  rewrite bind_cons, app_length, fmap_length, fmap_cons, Nat2Z.inj_add, IH, IHl. done.
Qed.
Lemma lbl_inj i j a : pg_nodes (lg_g g) !! i = Some a -> (j < length (pg_nodes (lg_g g)))%nat -> lbl j = a -> j = i.
Proof.
  intros Hi Hj E. destruct (lookup_lt_is_Some_2 _ _ Hj) as [b Hb]. unfold lbl in E. rewrite Hb in E. cbn in E. subst b.
  eapply (NoDup_lookup _ _ _ a (ok_nodup g Hok)); done.
Qed.
Lemma neighbours_lt i j : j ∈ neighbours (lg_g g) i -> (j < length (pg_nodes (lg_g g)))%nat.
Proof. intros [_ H]%elem_of_list_filter. apply elem_of_seq in H. lia. Qed.
Lemma enum_NoDup k i j : NoDup (enum_paths k i j).
Proof.
  revert i. induction k as [|k IH]; intros i; cbn [enum_paths].
  - case_bool_decide; [apply NoDup_singleton|constructor].
  - pose proof (neighbours_NoDup (lg_g g) i) as HN. pose proof (neighbours_lt i) as Hlt.
    induction (neighbours (lg_g g) i) as [|l ls IHl]; [constructor|]. apply NoDup_cons in HN as [Hl HN].
    rewrite bind_cons. apply NoDup_app. split_and!.
    + apply NoDup_fmap_2; [|done]. by intros ?? [= ->].
    + intros P (Q & -> & _)%elem_of_list_fmap (l' & (Q' & E & _)%elem_of_list_fmap & Hl')%elem_of_list_bind.
      injection E as E _. apply Hl.
      destruct (lookup_lt_is_Some_2 (pg_nodes (lg_g g)) l) as [a Ha]; [apply Hlt; left|].
      rewrite (lbl_inj l l' a Ha) in Hl'; [done| |].
      * apply Hlt. by right.
      * rewrite <- E. unfold lbl. by rewrite Ha.
    + apply IHl; [done|]. intros m Hm. apply Hlt. by right.
Qed.
Lemma enum_elem k i j a b P : pg_nodes (lg_g g) !! i = Some a -> pg_nodes (lg_g g) !! j = Some b ->
  P ∈ enum_paths k i j <-> lpath g a b P /\ length P = k.
Proof.
  intros Hi Hj. revert i a Hi P. induction k as [|k IH]; intros i a Hi P; cbn [enum_paths].
  - split.
    + case_bool_decide as E; [|by intros ?%elem_of_nil]. subst j. assert (a = b) as -> by congruence.
      intros ->%elem_of_list_singleton. split; [|done]. constructor. by eapply elem_of_list_lookup_2.
    + intros [HP HL]. destruct P; [|done]. inversion HP; subst.
      assert (i = j) as -> by (eapply (NoDup_lookup _ _ _ b (ok_nodup g Hok)); done).
      rewrite bool_decide_eq_true_2 by done. left.
  - rewrite elem_of_list_bind. split.
    + intros (l & (Q & -> & HQ)%elem_of_list_fmap & Hl). pose proof (neighbours_lt _ _ Hl) as Hlt.
      destruct (lookup_lt_is_Some_2 _ _ Hlt) as [c Hc]. apply (IH l c Hc) in HQ as [HQ HL]. split; [|cbn; lia].
      apply (neighbours_elem _ Hwf) in Hl as [w Hw].
      assert (lbl i = a) as -> by (unfold lbl; by rewrite Hi). assert (lbl l = c) as -> by (unfold lbl; by rewrite Hc).
      assert (He : edge_w g a c w) by (by exists i, l). rewrite (Hunit _ _ _ He) in He. by econstructor.
    + intros [HP HL]. inversion HP as [|? c ? Q He HQ]; subst; [done|].
      destruct He as (i' & l & Hi' & Hl & He).
      assert (i' = i) as -> by (eapply (NoDup_lookup _ _ _ a (ok_nodup g Hok)); done).
      exists l. split; [|apply (neighbours_elem _ Hwf); by eexists].
      apply elem_of_list_fmap. exists Q. split.
      * unfold lbl. by rewrite Hi, Hl.
      * apply (IH l c Hl). split; [done|]. cbn in HL. lia.
Qed.
End enum.

(** ** The cache *)
Section cache.
Context (g : lgraph Z).
Hypothesis Hok : lg_ok g.
Hypothesis Hunit : unit_weights g.
Context (rx : retworkx).
Hypothesis Hrx : rx_ok rx.
Hypothesis Hconn : forall a b, has_node g a -> has_node g b -> exists P, lpath g a b P.
Let Hwf : pg_wf (lg_g g). Proof. intros i j w. apply (ok_edges g Hok). Qed.
Notation D := (dz g rx).

(** The number of shortest paths between two nodes. *)
Definition np (a b : node) : Z :=
  match lg_map g !! a, lg_map g !! b with
  | Some i, Some j => nwalks (lg_g g) (Z.to_nat (D a b)) i j
  | _, _ => 0
  end.
Lemma np_index a b i j : lg_map g !! a = Some i -> lg_map g !! b = Some j -> np a b = nwalks (lg_g g) (Z.to_nat (D a b)) i j.
Proof. intros Hi Hj. unfold np. by rewrite Hi, Hj. Qed.
Lemma shortest_path_length a b P : shortest_path g a b P <-> lpath g a b P /\ Z.of_nat (length P) = D a b.
Proof.
  split.
  - intros [HP Hmin]. split; [done|]. destruct (lpath_nodes g _ _ _ HP) as [Ha Hb].
    destruct (dz_spec g Hok Hunit rx Hrx Hconn a b Ha Hb) as (_ & (Q & HQ & E) & H). specialize (Hmin Q HQ). specialize (H P HP). lia.
  - intros [HP HL]. split; [done|]. destruct (lpath_nodes g _ _ _ HP) as [Ha Hb].
    destruct (dz_spec g Hok Hunit rx Hrx Hconn a b Ha Hb) as (_ & _ & H). intros Q HQ. specialize (H Q HQ). lia.
Qed.
Lemma np_counts a b : has_node g a -> has_node g b -> counts (shortest_path g a b) (np a b).
Proof.
  intros Ha Hb. destruct (has_node_map g a Hok Ha) as (i & Hi & Hi'). destruct (has_node_map g b Hok Hb) as (j & Hj & Hj').
  rewrite (np_index a b i j Hi Hj). exists (enum_paths g (Z.to_nat (D a b)) i j). split_and!.
  - by apply enum_NoDup.
  - intros P. rewrite (enum_elem g Hok Hunit _ i j a b P Hi' Hj'), shortest_path_length.
    pose proof (dz_nonneg g Hok Hunit rx Hrx Hconn a b Ha Hb). split; intros [? ?]; (split; [done|lia]).
  - by rewrite enum_length.
Qed.
Lemma np_sym a b : has_node g a -> has_node g b -> np a b = np b a.
Proof.
  intros Ha Hb. destruct (has_node_map g a Hok Ha) as (i & Hi & _). destruct (has_node_map g b Hok Hb) as (j & Hj & _).
  rewrite (np_index a b i j), (np_index b a j i) by done. rewrite (dz_sym g Hok Hunit rx Hrx Hconn a b) by done. by apply nwalks_sym.
Qed.
Lemma np_pos a b : has_node g a -> has_node g b -> 1 <= np a b.
Proof.
  intros Ha Hb. destruct (np_counts a b Ha Hb) as (l & _ & Hl & ->).
  destruct (dz_spec g Hok Hunit rx Hrx Hconn a b Ha Hb) as (_ & (P & HP & HL) & _).
  destruct l as [|Q l]; [|cbn; lia]. assert (P ∈ []) as H by (apply Hl, shortest_path_length; done). by apply elem_of_nil in H.
Qed.
Lemma rx_dist_dz a b i j : lg_map g !! a = Some i -> lg_map g !! b = Some j -> rx_dist rx (lg_g g) i j = Some (D a b).
Proof.
  intros Hi Hj.
  assert (Ha : has_node g a) by (apply (ok_map g Hok) in Hi; by eapply elem_of_list_lookup_2).
  assert (Hb : has_node g b) by (apply (ok_map g Hok) in Hj; by eapply elem_of_list_lookup_2).
  destruct (dz_spec g Hok Hunit rx Hrx Hconn a b Ha Hb) as (H & _). unfold graph_dist in H. rewrite Hi, Hj in H.
  destruct (rx_dist rx (lg_g g) i j); [congruence|done].
Qed.
Lemma rx_paths_np a b i j : lg_map g !! a = Some i -> lg_map g !! b = Some j -> a <> b -> rx_paths rx (lg_g g) i !! j = Some (np a b).
Proof.
  intros Hi Hj Hab. pose proof (rx_dist_dz a b i j Hi Hj) as Hd. rewrite (np_index a b i j) by done.
  pose proof (proj1 (ok_map g Hok _ _) Hi) as Hi'. pose proof (proj1 (ok_map g Hok _ _) Hj) as Hj'.
  pose proof (rx_dist_ok rx Hrx (lg_g g) i j Hwf (lookup_lt_Some _ _ _ Hi') (lookup_lt_Some _ _ _ Hj')) as H. rewrite Hd in H.
  destruct H as (k & E & Hs). rewrite E, Nat2Z.id. apply (rx_paths_ok rx Hrx); [done|by eapply lookup_lt_Some| |done].
  intros ->. congruence.
Qed.

(** Every entry of the cache is what retworkx returns for its key. *)
Definition cache_ok (c : pcache) : Prop := forall i m, c !! i = Some m -> m = rx_paths rx (lg_g g) i.
Lemma cache_empty : cache_ok ∅. Proof. intros i m H. by rewrite lookup_empty in H. Qed.
Lemma helper_ok a b i j c : lg_map g !! a = Some i -> lg_map g !! b = Some j -> a <> b -> cache_ok c ->
  exists c', degeneracy_helper rx g i j c = Ok (np a b, c') /\ cache_ok c'.
Proof.
  intros Hi Hj Hab Hc. unfold degeneracy_helper, dict_get.
  assert (Hn : has_node g a /\ has_node g b).
  { split; [apply (ok_map g Hok) in Hi|apply (ok_map g Hok) in Hj]; by eapply elem_of_list_lookup_2. }
  destruct (c !! i) as [m|] eqn:Em.
  - apply Hc in Em as ->. rewrite (rx_paths_np a b i j) by done. eauto.
  - destruct (c !! j) as [m|] eqn:Em'.
    + apply Hc in Em' as ->. rewrite (rx_paths_np b a j i) by done. rewrite (np_sym a b) by tauto. eauto.
    + rewrite (rx_paths_np a b i j) by done. eexists. split; [done|]. intros k m. rewrite lookup_insert_Some. naive_solver.
Qed.

Context (virt : list node).
Hypothesis Hvirt : forall v, v ∈ virt -> has_node g v /\ n_time v = -1.
(** What [path_degeneracy] computes between a node and a boundary node ... *)
Definition bdeg (u v : node) : Z :=
  if bool_decide (lg_map g !! u = Some 0%nat) then np u v
  else zsum ((fun v' => if bool_decide (D u v' = D u v) then np u v' else 0) <$> virt).
(** ... and between any two nodes. *)
Definition dg (a b : node) : Z :=
  if bool_decide (n_time a = -1) then bdeg b a else if bool_decide (n_time b = -1) then bdeg a b else np a b.
Lemma path_degeneracy_ok a b c : has_node g a -> has_node g b -> a <> b -> ~ (n_time a = -1 /\ n_time b = -1) -> cache_ok c ->
  exists c', path_degeneracy rx g virt a b c = Ok (dg a b, c') /\ cache_ok c'.
Proof.
  intros Ha Hb Hab Hv Hc. destruct (has_node_map g a Hok Ha) as (i & Hi & Hi'). destruct (has_node_map g b Hok Hb) as (j & Hj & Hj').
  assert (Hsum : forall u v s t, lg_map g !! u = Some (S s) -> lg_map g !! v = Some t -> n_time u <> -1 ->
    forall acc c, cache_ok c -> exists c', rfold (fun s0 v0 =>
            match lg_map g !! v0 with
            | None => Err KeyError
            | Some vi =>
              if bool_decide (rx_dist rx (lg_g g) (S s) vi = rx_dist rx (lg_g g) (S s) t) then
                match degeneracy_helper rx g (S s) vi s0.2 with
                | Err e => Err e
                | Ok (n, c) => Ok (s0.1 + n, c)
                end
              else Ok s0
            end) (acc, c) virt = Ok (acc + bdeg u v, c') /\ cache_ok c').
  { intros u v s t Hu Hvt Htu. unfold bdeg. rewrite bool_decide_eq_false_2 by congruence. clear c Hc.
    induction virt as [|v' vs IH]; intros acc c Hc.
    - exists c. cbn. by rewrite Z.add_0_r.
    - cbn [rfold]. destruct (Hvirt v' ltac:(left)) as [Hv1 Hv2]. destruct (has_node_map g v' Hok Hv1) as (k & Hk & _). rewrite Hk.
      assert (Ed : rx_dist rx (lg_g g) (S s) k = rx_dist rx (lg_g g) (S s) t <-> D u v' = D u v).
      { rewrite (rx_dist_dz u v' (S s) k), (rx_dist_dz u v (S s) t) by done. split; [by intros [= ->]|by intros ->]. }
      rewrite fmap_cons. change (zsum (?x :: ?l)) with (x + zsum l).
      rewrite (bool_decide_ext _ _ Ed).
      cbn [fst snd]. case_bool_decide as Hd.
      + destruct (helper_ok u v' (S s) k c Hu Hk) as (c1 & -> & Hc1); [congruence|done|]. cbn [fst snd].
        destruct (IH ltac:(intros w Hw; apply Hvirt; by right) (acc + np u v') c1 Hc1) as (c2 & -> & Hc2). exists c2. split; [|done]. do 2 f_equal. lia.
      + destruct (IH ltac:(intros w Hw; apply Hvirt; by right) acc c Hc) as (c2 & -> & Hc2). exists c2. split; [|done]. done. }
  unfold path_degeneracy, source_target, dg. rewrite Hi, Hj.
  destruct (bool_decide (n_time a = -1)) eqn:Ea; [apply bool_decide_eq_true in Ea|apply bool_decide_eq_false in Ea].
  - destruct j as [|j].
    + unfold bdeg. rewrite bool_decide_eq_true_2 by done. rewrite (np_sym b a) by done. by apply helper_ok.
    + destruct (Hsum b a j i Hj Hi ltac:(tauto) 0 c Hc) as (c' & E & Hc'). rewrite Z.add_0_l in E. eauto.
  - destruct (bool_decide (n_time b = -1)) eqn:Eb; [apply bool_decide_eq_true in Eb|apply bool_decide_eq_false in Eb].
    + destruct i as [|i].
      * unfold bdeg. rewrite bool_decide_eq_true_2 by done. by apply helper_ok.
      * destruct (Hsum a b i j Hi Hj Ea 0 c Hc) as (c' & E & Hc'). rewrite Z.add_0_l in E. eauto.
    + by apply helper_ok.
Qed.
Lemma dg_sym a b : has_node g a -> has_node g b -> ~ (n_time a = -1 /\ n_time b = -1) -> dg a b = dg b a.
Proof.
  intros Ha Hb Hv. unfold dg. repeat case_bool_decide; try tauto; try done. by apply np_sym.
Qed.
Lemma bdeg_counts u v : has_node g u -> v ∈ virt -> NoDup virt -> lg_map g !! u <> Some 0%nat ->
  counts (boundary_path g virt u v) (bdeg u v).
Proof.
  intros Hu Hv HN H0. unfold bdeg. rewrite bool_decide_eq_false_2 by done.
  destruct (Hvirt v Hv) as [Hnv _].
  assert (Hb : forall P, boundary_path g virt u v P <-> exists v', v' ∈ virt /\ shortest_path g u v' P /\ D u v' = D u v).
  { intros P. unfold boundary_path. split; intros (v' & Hv' & HP & H); exists v'; (split; [done|]); (split; [done|]).
    - destruct H as (Q & HQ & HL). apply shortest_path_length in HQ, HP. destruct HQ, HP. lia.
    - destruct (dz_spec g Hok Hunit rx Hrx Hconn u v Hu Hnv) as (_ & (Q & HQ & HL) & _). exists Q. split.
      + by apply shortest_path_length.
      + apply shortest_path_length in HP as [_ HP]. lia. }
  apply (counts_ext (fun P => exists v', v' ∈ virt /\ shortest_path g u v' P /\ D u v' = D u v)); [intros P; by rewrite Hb|]. clear Hb Hv.
  assert (Hend : forall P x y, shortest_path g u x P -> shortest_path g u y P -> x = y).
  { intros P x y [H1 _] [H2 _]. clear -H1 H2. revert y H2. induction H1 as [a Ha|a b c P He HP IH]; intros y H2.
    - by inversion H2.
    - inversion H2; subst. by apply IH. }
  induction virt as [|w vs IH].
  - exists []. split_and!; [constructor| |done]. intros P. split; [by intros ?%elem_of_nil|]. by intros (v' & ?%elem_of_nil & _).
  - apply NoDup_cons in HN as [Hw HN].
    destruct (IH ltac:(intros; apply Hvirt; by right) HN) as (l & L1 & L2 & L3).
    rewrite fmap_cons. change (zsum (?x :: ?l)) with (x + zsum l). rewrite L3. case_bool_decide as Hd.
    + destruct (np_counts u w Hu) as (l' & K1 & K2 & ->); [by apply Hvirt; left|]. exists (l' ++ l). split_and!.
      * apply NoDup_app. split_and!; [done| |done]. intros P HP%K2 (v' & Hv' & HP' & _)%L2. apply Hw. by rewrite (Hend _ _ _ HP HP').
      * intros P. rewrite elem_of_app, K2, L2. split.
        -- intros [HP|(v' & Hv' & HP)]; [exists w; split; [left|done]|exists v'; split; [by right|done]].
        -- intros (v' & [-> | Hv']%elem_of_cons & HP); [left; tauto|right; eauto].
      * rewrite app_length. lia.
    + exists l. split_and!; [done| |done]. intros P. rewrite L2. split.
      * intros (v' & Hv' & HP). exists v'. split; [by right|done].
      * intros (v' & [-> | Hv']%elem_of_cons & HP); [tauto|eauto].
Qed.
Lemma bdeg_pos u v : has_node g u -> v ∈ virt -> NoDup virt -> 1 <= bdeg u v.
Proof.
  intros Hu Hv HN. destruct (Hvirt v Hv) as [Hnv _]. destruct (decide (lg_map g !! u = Some 0%nat)) as [H0|H0].
  - unfold bdeg. rewrite bool_decide_eq_true_2 by done. by apply np_pos.
  - destruct (bdeg_counts u v Hu Hv HN H0) as (l & _ & Hl & ->).
    destruct (dz_spec g Hok Hunit rx Hrx Hconn u v Hu Hnv) as (_ & (P & HP & HL) & _).
    destruct l as [|Q l]; [|cbn; lia]. assert (P ∈ []) as H; [|by apply elem_of_nil in H].
    apply Hl. assert (shortest_path g u v P) by (by apply shortest_path_length). exists v. eauto.
Qed.
End cache.
