(** Property C67, second part: with an error probability, decoding does depend on the number of
    rounds the decoder was made for.  Real numbers stand for the floats of the library. *)
From Coq Require Import Reals Lra.
From Verif Require Import FaultFacts Parse P_Parse DegenDecode P_Degen P_DegenDecode P_Decode RxRef.
From stdpp Require Export list.
Open Scope Z_scope.

(** ** The graph for d = 3 *)
Section graph33.
Context (T : Z) (g : lgraph Z) (rx : retworkx).
Hypothesis HT : 1 <= T.
Hypothesis Hg : make_syndrome_graph false 3 3 T = Ok g.
Hypothesis Hrx : rx_ok rx.
Lemma size33 : valid_size 3 3. Proof. by vm_compute. Qed.
Lemma ext33 : 3 <= extent false 3 3. Proof. by vm_compute. Qed.
Let Hf := sg_facts false 3 3 T g size33 ext33 HT Hg.
Let Hok : lg_ok g := proj1 Hf.
Let Hu : unit_weights g := proj1 (proj2 Hf).
Let Hc := sg_conn false 3 3 T g size33 ext33 HT Hg.
Notation virt := (virtual_nodes false 3 3).
Lemma virt33 : virt = [(-1, -1, -1); (-1, 5, 1); (-1, -1, 3); (-1, 5, 5)]. Proof. by vm_compute. Qed.

Definition around (s t y : Z) : Prop := (0 < y < 4 -> t = s) /\ (~ 0 < y < 4 -> t = -1).
Lemma edge_out t y x t' y' x' : edge_w g (t, y, x) (t', y', x') 1 ->
  (y' = y /\ x' = x) \/
  ((y' = y - 2 \/ y' = y + 2) /\ (x' = x - 2 \/ x' = x + 2) /\ -1 <= y' <= 5 /\ -1 <= x' <= 5 /\ exists s, 0 <= s < T /\ around s t y /\ around s t' y').
Proof.
  intros He. apply Hf in He as [(s & [py px] & [qy qx] & Hs & (_ & _ & P1 & P2 & _) & (_ & _ & Q1 & Q2 & _) & [A1 A2] & E1 & E2) | (s & [py px] & Hs & _ & _ & H)].
  - right. unfold place, inside, level, extent in E1, E2. cbn [fst snd] in *. injection E1 as -> -> ->. injection E2 as -> -> ->.
    split; [lia|]. split; [lia|]. split; [lia|]. split; [lia|]. exists s. split; [done|]. unfold around. split; destruct (decide _); lia.
  - left. cbn [fst snd] in H. destruct H as [[E1 E2]|[E1 E2]]; injection E1 as -> -> ->; injection E2 as -> -> ->; done.
Qed.
Lemma edge_in s t y x t' y' x' : 0 <= s < T -> cell false 3 3 (y, x) -> cell false 3 3 (y', x') -> (y' = y - 2 \/ y' = y + 2) -> (x' = x - 2 \/ x' = x + 2) ->
  around s t y -> around s t' y' -> edge_w g (t, y, x) (t', y', x') 1.
Proof.
  intros Hs H1 H2 Hy Hx A1 A2. apply Hf. left. exists s, (y, x), (y', x'). split; [done|]. split; [done|]. split; [done|]. split; [done|].
  unfold place, inside, level, extent, around in *. cbn [fst snd]. split; do 2 f_equal; destruct (decide _); lia.
Qed.
Lemma path_far a b P : lpath g a b P -> Z.abs (n_col a - n_col b) <= 2 * Z.of_nat (length P) /\ Z.abs (n_row a - n_row b) <= 2 * Z.of_nat (length P).
Proof.
  induction 1 as [a Ha|[[t y] x] [[t' y'] x'] [[t2 y2] x2] P He _ IHP]; [lia|]. unfold n_col, n_row in *. cbn [fst snd length] in *.
  apply edge_out in He. lia.
Qed.
Lemma path1 a b P : lpath g a b P /\ length P = 1%nat <-> P = [(a, b)] /\ edge_w g a b 1.
Proof.
  split.
  - intros [H HL]. inversion H as [|? n ? P' He HP]; subst; [done|]. inversion HP; subst; [done|]. done.
  - intros [-> He]. split; [|done]. constructor; [done|]. constructor. by apply edge_w_node in He as [_ ?].
Qed.
Lemma path2 a b P : lpath g a b P /\ length P = 2%nat <-> exists n, P = [(a, n); (n, b)] /\ edge_w g a n 1 /\ edge_w g n b 1.
Proof.
  split.
  - intros [H HL]. inversion H as [|? n ? P' He HP]; subst; [done|]. injection HL as HL. destruct (proj1 (path1 n b P') (conj HP HL)) as [-> ?]. by exists n.
  - intros (n & -> & H1 & H2). split; [|done]. constructor; [done|]. by apply path1.
Qed.
Lemma path3 a b P : lpath g a b P /\ length P = 3%nat <-> exists n m, P = [(a, n); (n, m); (m, b)] /\ edge_w g a n 1 /\ edge_w g n m 1 /\ edge_w g m b 1.
Proof.
  split.
  - intros [H HL]. inversion H as [|? n ? P' He HP]; subst; [done|]. injection HL as HL. destruct (proj1 (path2 n b P') (conj HP HL)) as (m & -> & ?). by exists n, m.
  - intros (n & m & -> & H1 & H2 & H3). split; [|done]. constructor; [done|]. apply path2. by exists m.
Qed.
(** A path of the length that the coordinates require is a shortest one. *)
Lemma dist_of a b P : lpath g a b P -> (2 * Z.of_nat (length P) <= Z.abs (n_col a - n_col b) \/ 2 * Z.of_nat (length P) <= Z.abs (n_row a - n_row b)) ->
  dz g rx a b = Z.of_nat (length P).
Proof.
  intros HP Hfar. destruct (lpath_nodes g _ _ _ HP) as [Ha Hb].
  destruct (dz_spec g Hok Hu rx Hrx Hc a b Ha Hb) as (_ & (Q & HQ & <-) & Hmin). apply Hmin in HP as Hle. apply path_far in HQ. lia.
Qed.
Lemma boundary_iff u v P : has_node g u -> has_node g v ->
  boundary_path g virt u v P <-> exists v', v' ∈ virt /\ lpath g u v' P /\ Z.of_nat (length P) = dz g rx u v' /\ dz g rx u v' = dz g rx u v.
Proof.
  intros Hnu Hnv. unfold boundary_path. split.
  - intros (v' & Hv' & HP & Q & HQ & HL). apply (shortest_path_length g Hok Hu rx Hrx Hc) in HP as [H1 H2], HQ as [H3 H4]. exists v'. split_and!; try done. lia.
  - intros (v' & Hv' & HP & HL & E). destruct (dz_spec g Hok Hu rx Hrx Hc u v Hnu Hnv) as (_ & (Q & HQ & EQ) & _).
    exists v'. split; [done|]. split; [by apply (shortest_path_length g Hok Hu rx Hrx Hc)|]. exists Q. split; [by apply (shortest_path_length g Hok Hu rx Hrx Hc)|lia].
Qed.

(** The two events of an X error on data qubit 5 between rounds [t] and [t + 1]. *)
Context (t : Z).
Hypothesis Ht : 0 <= t < T.
Notation a := (t, 1, 5).
Notation b := (t, 3, 3).
Notation tl := (-1, -1, -1).
Notation tr := (-1, -1, 3).
Notation bl := (-1, 5, 1).
Notation br := (-1, 5, 5).
Ltac edge s := apply (edge_in s); [lia|by vm_compute|by vm_compute|lia|lia|unfold around; lia|unfold around; lia].
Lemma e_ab : edge_w g a b 1. Proof. edge t. Qed.
Lemma e_atr : edge_w g a tr 1. Proof. edge t. Qed.
Lemma e_bbl : edge_w g b bl 1. Proof. edge t. Qed.
Lemma e_bbr : edge_w g b br 1. Proof. edge t. Qed.
Lemma e_ba : edge_w g b a 1. Proof. edge t. Qed.
Lemma e_bc : edge_w g b (t, 1, 1) 1. Proof. edge t. Qed.
Lemma e_ctl s : 0 <= s < T -> edge_w g (s, 1, 1) tl 1. Proof. intros. edge s. Qed.
Lemma e_ctr s : 0 <= s < T -> edge_w g (s, 1, 1) tr 1. Proof. intros. edge s. Qed.
Lemma e_trc s : 0 <= s < T -> edge_w g tr (s, 1, 1) 1. Proof. intros. edge s. Qed.

Lemma d_ab : dz g rx a b = 1.
Proof. apply (dist_of a b [(a, b)]); [|left; cbn; lia]. by apply path1, (conj eq_refl), e_ab. Qed.
Lemma d_atr : dz g rx a tr = 1.
Proof. apply (dist_of a tr [(a, tr)]); [|left; cbn; lia]. by apply path1, (conj eq_refl), e_atr. Qed.
Lemma d_abl : dz g rx a bl = 2.
Proof. apply (dist_of a bl [(a, b); (b, bl)]); [|left; cbn; lia]. apply path2. exists b. split; [done|]. split; [apply e_ab|apply e_bbl]. Qed.
Lemma d_abr : dz g rx a br = 2.
Proof. apply (dist_of a br [(a, b); (b, br)]); [|right; cbn; lia]. apply path2. exists b. split; [done|]. split; [apply e_ab|apply e_bbr]. Qed.
Lemma d_atl : dz g rx a tl = 3.
Proof.
  apply (dist_of a tl [(a, b); (b, (t, 1, 1)); ((t, 1, 1), tl)]); [|left; cbn; lia]. apply path3. exists b, (t, 1, 1).
  split; [done|]. split; [apply e_ab|]. split; [apply e_bc|by apply e_ctl].
Qed.
Lemma d_bbl : dz g rx b bl = 1.
Proof. apply (dist_of b bl [(b, bl)]); [|left; cbn; lia]. by apply path1, (conj eq_refl), e_bbl. Qed.
Lemma d_bbr : dz g rx b br = 1.
Proof. apply (dist_of b br [(b, br)]); [|left; cbn; lia]. by apply path1, (conj eq_refl), e_bbr. Qed.
Lemma d_btl : dz g rx b tl = 2.
Proof. apply (dist_of b tl [(b, (t, 1, 1)); ((t, 1, 1), tl)]); [|left; cbn; lia]. apply path2. exists (t, 1, 1). split; [done|]. split; [apply e_bc|by apply e_ctl]. Qed.
Lemma d_btr : dz g rx b tr = 2.
Proof. apply (dist_of b tr [(b, a); (a, tr)]); [|right; cbn; lia]. apply path2. exists a. split; [done|]. split; [apply e_ba|apply e_atr]. Qed.
Lemma has_ab : has_node g a /\ has_node g b. Proof. apply (edge_w_node _ _ _ _ e_ab). Qed.
Lemma has_virt v : v ∈ virt -> has_node g v /\ n_time v = -1.
Proof. apply (virt_node false 3 3 T g size33 ext33 HT Hg). Qed.

(** Numbers of paths. *)
Lemma dg_bound_count u v n : u = a \/ u = b -> v ∈ virt -> counts (boundary_path g virt u v) n -> dg g rx virt u v = n /\ dg g rx virt v u = n.
Proof.
  intros Hu' Hv Hn. destruct (has_virt v Hv) as [Hnv Htv]. assert (Hnu : has_node g u) by (destruct has_ab; destruct Hu' as [-> | ->]; done).
  assert (Htu : n_time u <> -1) by (unfold n_time; destruct Hu' as [-> | ->]; cbn; lia).
  assert (Hne : u <> v) by (intros ->; done).
  assert (Hst : u <> at_time 0 (start_loc false)) by (destruct Hu' as [-> | ->]; done).
  pose proof (dg_degeneracy false 3 3 T g rx size33 ext33 HT Hg Hrx (u, v)) as D1. pose proof (dg_degeneracy false 3 3 T g rx size33 ext33 HT Hg Hrx (v, u)) as D2.
  unfold degeneracy in D1, D2. cbn [fst snd] in *.
  rewrite (bool_decide_eq_false_2 (n_time u = -1)), (bool_decide_eq_true_2 (n_time v = -1)), (bool_decide_eq_false_2 (u = _)) in D1 by done.
  rewrite (bool_decide_eq_true_2 (n_time v = -1)), (bool_decide_eq_false_2 (u = _)) in D2 by done.
  split; eapply counts_unique; [apply D1|exact Hn|apply D2|exact Hn]; unfold proper_pair; cbn [fst snd]; split_and!; try done; intros [? ?]; done.
Qed.
Lemma dg_ab : dg g rx virt a b = 1 /\ dg g rx virt b a = 1.
Proof.
  destruct has_ab as [Ha Hb].
  pose proof (dg_degeneracy false 3 3 T g rx size33 ext33 HT Hg Hrx (a, b)) as D1. pose proof (dg_degeneracy false 3 3 T g rx size33 ext33 HT Hg Hrx (b, a)) as D2.
  unfold degeneracy in D1, D2. cbn [fst snd] in *.
  rewrite !bool_decide_eq_false_2 in D1, D2 by (unfold n_time; cbn; lia).
  assert (Hcount : forall u v, edge_w g u v 1 -> dz g rx u v = 1 -> counts (shortest_path g u v) 1).
  { intros u v He Hd. exists [[(u, v)]]. split; [apply NoDup_singleton|]. split; [|done]. intros P.
    rewrite elem_of_list_singleton, (shortest_path_length g Hok Hu rx Hrx Hc), Hd. pose proof (path1 u v P) as Hp. split.
    - intros ->. destruct (proj2 Hp (conj eq_refl He)) as [? ?]. done.
    - intros [? ?]. apply Hp. split; [done|lia]. }
  split; eapply counts_unique.
  - apply D1. unfold proper_pair, n_time. cbn [fst snd]. split_and!; try done. lia.
  - apply Hcount; [apply e_ab|apply d_ab].
  - apply D2. unfold proper_pair, n_time. cbn [fst snd]. split_and!; try done. lia.
  - apply Hcount; [apply e_ba|]. rewrite (dz_sym g Hok Hu rx Hrx Hc) by done. apply d_ab.
Qed.
Lemma elem_virt v : v ∈ virt -> v = tl \/ v = bl \/ v = tr \/ v = br.
Proof. rewrite virt33, !elem_of_cons, elem_of_nil. tauto. Qed.
Lemma tl_in : tl ∈ virt. Proof. rewrite virt33. left. Qed.
Lemma bl_in : bl ∈ virt. Proof. rewrite virt33. right. left. Qed.
Lemma tr_in : tr ∈ virt. Proof. rewrite virt33. right. right. left. Qed.
Lemma br_in : br ∈ virt. Proof. rewrite virt33. right. right. right. left. Qed.
Lemma dg_atr : dg g rx virt a tr = 1 /\ dg g rx virt tr a = 1.
Proof.
  apply dg_bound_count; [by left|apply tr_in|]. exists [[(a, tr)]]. split; [apply NoDup_singleton|]. split; [|done]. intros P.
  rewrite elem_of_list_singleton, boundary_iff by (apply has_ab || apply has_virt, tr_in). rewrite d_atr. split.
  - intros ->. exists tr. split; [apply tr_in|]. rewrite d_atr. split; [|done]. by apply path1, (conj eq_refl), e_atr.
  - intros (v' & Hv' & HP & HL & E). rewrite E in HL. apply elem_virt in Hv' as [-> |[-> |[-> | ->]]]; rewrite ?d_atl, ?d_abl, ?d_abr in E; try lia.
    apply (path1 a tr P). split; [done|lia].
Qed.
Lemma dg_abot v : v = bl \/ v = br -> dg g rx virt a v = 2 /\ dg g rx virt v a = 2.
Proof.
  intros Hv. assert (Hin : v ∈ virt) by (destruct Hv as [-> | ->]; [apply bl_in|apply br_in]). assert (Hd : dz g rx a v = 2) by (destruct Hv as [-> | ->]; [apply d_abl|apply d_abr]).
  apply dg_bound_count; [by left|done|]. exists [[(a, b); (b, bl)]; [(a, b); (b, br)]].
  split; [apply NoDup_cons; split; [by intros [=]%elem_of_list_singleton|apply NoDup_singleton]|]. split; [|done]. intros P.
  rewrite elem_of_cons, elem_of_list_singleton, boundary_iff by (apply has_ab || by apply has_virt). rewrite Hd. split.
  - intros [-> | ->].
    + exists bl. split; [apply bl_in|]. rewrite d_abl. split; [|done]. apply path2. exists b. split; [done|]. split; [apply e_ab|apply e_bbl].
    + exists br. split; [apply br_in|]. rewrite d_abr. split; [|done]. apply path2. exists b. split; [done|]. split; [apply e_ab|apply e_bbr].
  - intros (v' & Hv' & HP & HL & E). rewrite E in HL.
    assert (H : v' = bl \/ v' = br). { apply elem_virt in Hv' as [-> |[-> |[-> | ->]]]; rewrite ?d_atl, ?d_atr in E; try lia; auto. }
    destruct (proj1 (path2 a v' P)) as ([[s y] x] & -> & H1 & H2); [split; [done|lia]|].
    assert ((s, y, x) = b) as ->.
    { apply edge_out in H1. destruct H as [-> | ->]; apply edge_out in H2; unfold around in *;
      (destruct H1 as [H1|(H1 & H1' & _ & ? & r & ? & H1a & H1b)]; [lia|]); assert (y = 3 /\ x = 3) as [-> ->] by lia; do 2 f_equal; lia. }
    destruct H as [-> | ->]; auto.
Qed.
Lemma dg_bbot v : v = bl \/ v = br -> dg g rx virt b v = 2 /\ dg g rx virt v b = 2.
Proof.
  intros Hv. assert (Hin : v ∈ virt) by (destruct Hv as [-> | ->]; [apply bl_in|apply br_in]). assert (Hd : dz g rx b v = 1) by (destruct Hv as [-> | ->]; [apply d_bbl|apply d_bbr]).
  apply dg_bound_count; [by right|done|]. exists [[(b, bl)]; [(b, br)]].
  split; [apply NoDup_cons; split; [by intros [=]%elem_of_list_singleton|apply NoDup_singleton]|]. split; [|done]. intros P.
  rewrite elem_of_cons, elem_of_list_singleton, boundary_iff by (apply has_ab || by apply has_virt). rewrite Hd. split.
  - intros [-> | ->].
    + exists bl. split; [apply bl_in|]. rewrite d_bbl. split; [|done]. by apply path1, (conj eq_refl), e_bbl.
    + exists br. split; [apply br_in|]. rewrite d_bbr. split; [|done]. by apply path1, (conj eq_refl), e_bbr.
  - intros (v' & Hv' & HP & HL & E). rewrite E in HL.
    destruct (proj1 (path1 b v' P)) as [-> _]; [split; [done|lia]|].
    apply elem_virt in Hv' as [-> |[-> |[-> | ->]]]; rewrite ?d_btl, ?d_btr in E; try lia; auto.
Qed.
Lemma dg_btop v : v = tl \/ v = tr -> dg g rx virt b v = 3 /\ dg g rx virt v b = 3.
Proof.
  intros Hv. assert (Hin : v ∈ virt) by (destruct Hv as [-> | ->]; [apply tl_in|apply tr_in]). assert (Hd : dz g rx b v = 2) by (destruct Hv as [-> | ->]; [apply d_btl|apply d_btr]).
  apply dg_bound_count; [by right|done|]. exists [[(b, (t, 1, 1)); ((t, 1, 1), tl)]; [(b, (t, 1, 1)); ((t, 1, 1), tr)]; [(b, a); (a, tr)]].
  split. { apply NoDup_cons. rewrite elem_of_cons, elem_of_list_singleton. split; [by intros [[=]|[=]]|]. apply NoDup_cons. split; [by intros [=]%elem_of_list_singleton|apply NoDup_singleton]. }
  split; [|done]. intros P.
  rewrite !elem_of_cons, elem_of_nil, boundary_iff by (apply has_ab || by apply has_virt). rewrite Hd. split.
  - intros [-> |[-> |[-> |[]]]].
    + exists tl. split; [apply tl_in|]. rewrite d_btl. split; [|done]. apply path2. exists (t, 1, 1). split; [done|]. split; [apply e_bc|by apply e_ctl].
    + exists tr. split; [apply tr_in|]. rewrite d_btr. split; [|done]. apply path2. exists (t, 1, 1). split; [done|]. split; [apply e_bc|by apply e_ctr].
    + exists tr. split; [apply tr_in|]. rewrite d_btr. split; [|done]. apply path2. exists a. split; [done|]. split; [apply e_ba|apply e_atr].
  - intros (v' & Hv' & HP & HL & E). rewrite E in HL.
    assert (H : v' = tl \/ v' = tr). { apply elem_virt in Hv' as [-> |[-> |[-> | ->]]]; rewrite ?d_bbl, ?d_bbr in E; try lia; auto. }
    destruct (proj1 (path2 b v' P)) as ([[s y] x] & -> & H1 & H2); [split; [done|lia]|].
    apply edge_out in H1. destruct H1 as [H1|(H1 & H1' & _ & ? & r & ? & H1a & H1b)]; [destruct H as [-> | ->]; apply edge_out in H2; lia|]. unfold around in *.
    destruct H as [-> | ->]; apply edge_out in H2.
    + assert (y = 1 /\ x = 1) as [-> ->] by lia. assert (s = t) as -> by lia. auto.
    + assert (y = 1) as -> by lia. assert (s = t) as -> by lia. destruct H1' as [-> | ->]; auto.
Qed.
Lemma dg_atl : dg g rx virt a tl = T + 1 /\ dg g rx virt tl a = T + 1.
Proof.
  apply dg_bound_count; [by left|apply tl_in|].
  exists ([(a, b); (b, (t, 1, 1)); ((t, 1, 1), tl)] :: ((fun s => [(a, tr); (tr, (s, 1, 1)); ((s, 1, 1), tl)]) <$> seqZ 0 T)).
  split; [|split].
  - apply NoDup_cons. split; [by intros (s & [=] & _)%elem_of_list_fmap|]. apply NoDup_fmap_2; [|apply NoDup_seqZ]. by intros s s' [= ->].
  - intros P. rewrite elem_of_cons, elem_of_list_fmap, boundary_iff by (apply has_ab || apply has_virt, tl_in). rewrite d_atl. split.
    + intros H. exists tl. split; [apply tl_in|]. rewrite d_atl. destruct H as [-> |(s & -> & Hs%elem_of_seqZ)].
      * split; [|done]. apply path3. exists b, (t, 1, 1). split; [done|]. split; [apply e_ab|]. split; [apply e_bc|by apply e_ctl].
      * split; [|done]. apply path3. exists tr, (s, 1, 1). split; [done|]. split; [apply e_atr|]. split; [apply e_trc; lia|apply e_ctl; lia].
    + intros (v' & Hv' & HP & HL & E). rewrite E in HL.
      apply elem_virt in Hv' as [-> |[-> |[-> | ->]]]; rewrite ?d_atr, ?d_abl, ?d_abr in E; try lia.
      destruct (proj1 (path3 a tl P)) as ([[s y] x] & [[s' y'] x'] & -> & H1 & H2 & H3); [split; [done|lia]|].
      apply edge_out in H1 as [H1|(H1 & H1' & ? & ? & r & Hr & H1a & H1b)]; [apply edge_out in H2, H3; lia|].
      apply edge_out in H2 as [H2|(H2 & H2' & ? & ? & r2 & Hr2 & H2a & H2b)]; [apply edge_out in H3; lia|].
      apply edge_out in H3 as [H3|(H3 & H3' & ? & ? & r3 & Hr3 & H3a & H3b)]; [lia|]. unfold around in *.
      assert (x = 3 /\ x' = 1) as [-> ->] by lia. assert (y' = 1) as -> by lia. destruct H1 as [-> | ->].
      * right. exists s'. assert (s = -1) as -> by lia. split; [done|]. apply elem_of_seqZ. lia.
      * left. assert (s = t) as -> by lia. assert (s' = t) as -> by lia. done.
  - cbn [length]. rewrite fmap_length, seqZ_length. lia.
Qed.
End graph33.

(** ** Pairings of two events *)
Lemma pairing_two (a b : node) (virt ev : list node) ms : a <> b -> n_time a <> -1 -> n_time b <> -1 -> (forall v, v ∈ virt -> n_time v = -1) ->
  (forall n, n ∈ ev <-> n = a \/ n = b) -> pairing ev virt ms ->
  ms = [(a, b)] \/ ms = [(b, a)] \/
  exists m1 m2 v v', ms ≡ₚ [m1; m2] /\ v ∈ virt /\ v' ∈ virt /\ (m1 = (a, v) \/ m1 = (v, a)) /\ (m2 = (b, v') \/ m2 = (v', b)).
Proof.
  intros Hab Ha Hb Hv Hev (HN & Hin & Hall & Hvv).
  assert (Hend : forall n, n ∈ pends ms -> n = a \/ n = b \/ n ∈ virt).
  { intros n [Hn|Hn]%Hin%elem_of_app; [|auto]. apply Hev in Hn. tauto. }
  assert (Hpick : forall u (l : list (node * node)), u ∈ pends l -> exists w m l', l ≡ₚ m :: l' /\ (m = (u, w) \/ m = (w, u)) /\ w ∈ pends l).
  { intros u l (m & Hm & Hu)%elem_of_pends. apply elem_of_Permutation in Hm as [l' Hl]. destruct m as [x y]. cbn [fst snd] in Hu.
    assert (Hxy : x ∈ pends l /\ y ∈ pends l) by (rewrite (pends_perm _ _ Hl), pends_cons; cbn [fst snd]; split; [left|right; left]).
    destruct Hu as [-> | ->]; [exists y|exists x]; exists (x, y), l'; split_and!; try tauto. }
  assert (Hrest : forall l, (forall m, m ∈ l -> m ∈ ms) -> a ∉ pends l -> b ∉ pends l -> l = []).
  { intros l Hl Hna Hnb. destruct l as [|[x y] l]; [done|]. exfalso. apply (Hvv (x, y)); [apply Hl; left|].
    assert (Hxy : forall z, z ∈ pends ((x, y) :: l) -> n_time z = -1).
    { intros z Hz. apply Hv. destruct (Hend z) as [-> |[-> |?]]; try done.
      apply elem_of_pends in Hz as (m & Hm & Hz). apply elem_of_pends. exists m. split; [by apply Hl|done]. }
    split; apply Hxy; rewrite pends_cons; cbn [fst snd]; [left|right; left]. }
  destruct (Hpick a ms) as (w & m & l & Hms & Hm & Hw); [by apply Hall, Hev; left|].
  assert (HN' : NoDup (pends (m :: l))) by (by rewrite <-(pends_perm _ _ Hms)).
  assert (Hsub : forall x, x ∈ l -> x ∈ ms) by (intros x Hx; rewrite Hms; by right).
  assert (Hna : a ∉ pends l /\ w ∉ pends l /\ a <> w).
  { rewrite pends_cons, !NoDup_cons, elem_of_cons in HN'. destruct Hm as [-> | ->]; cbn [fst snd] in HN'; split_and!; try tauto; intros ->; tauto. }
  destruct Hna as (Hna & Hnw & Haw). destruct (Hend w Hw) as [-> |[-> |Hwv]]; [done| |].
  - rewrite (Hrest l Hsub Hna Hnw) in Hms. apply Permutation_singleton_r in Hms. destruct Hm as [-> | ->]; auto.
  - right. right. assert (Hbl : b ∈ pends l).
    { assert (H : b ∈ pends ms) by (apply Hall, Hev; auto). rewrite (pends_perm _ _ Hms), pends_cons in H.
      assert (b <> w) by (intros ->; by apply Hb, Hv). destruct Hm as [-> | ->]; cbn [fst snd] in H; rewrite !elem_of_cons in H; destruct H as [?|[?|?]]; congruence. }
    destruct (Hpick b l Hbl) as (w' & m' & l' & Hl & Hm' & Hw').
    assert (HN2 : NoDup (pends (m' :: l'))). { rewrite <-(pends_perm _ _ Hl). rewrite pends_cons, !NoDup_cons in HN'. tauto. }
    assert (Hsub' : forall x, x ∈ l' -> x ∈ ms) by (intros x Hx; apply Hsub; rewrite Hl; by right).
    assert (Hnb : b ∉ pends l' /\ b <> w').
    { rewrite pends_cons, !NoDup_cons, elem_of_cons in HN2. destruct Hm' as [-> | ->]; cbn [fst snd] in HN2; split; try tauto; intros ->; tauto. }
    assert (Hna' : a ∉ pends l'). { intros H. apply Hna. rewrite (pends_perm _ _ Hl), pends_cons. by do 2 right. }
    destruct (Hend w') as [-> |[-> |Hwv']]; [|done|tauto|].
    + apply elem_of_pends in Hw' as (x & Hx & H). apply elem_of_pends. exists x. auto.
    + rewrite (Hrest l' Hsub' Hna' (proj1 Hnb)) in Hl. exists m, m', w, w'. split_and!; try done. by rewrite Hms, Hl.
Qed.

(** ** The arithmetic *)
Lemma rounding_small (R : R) : (2 <= R)%R -> (0 < Rpower R (2 / 5000) /\ 3 * Rpower R (2 / 5000) < 2 * R)%R.
Proof.
  intros HR. set (F := Rpower R (2 / 5000)). assert (HF : (0 < F)%R) by apply exp_pos. split; [done|].
  assert (H4 : (F ^ 4 <= R)%R).
  { unfold F. rewrite <- Rpower_pow by apply exp_pos. rewrite Rpower_mult. rewrite <- (Rpower_1 R) at 2 by lra. apply Rle_Rpower; [lra|]. cbn. lra. }
  apply Rnot_le_lt. intros H. assert (Hb : (2 / 3 * R <= F)%R) by lra.
  assert (H1 : (16 / 81 * R ^ 4 <= R)%R). { apply Rle_trans with (2 := H4). replace (16 / 81 * R ^ 4)%R with ((2 / 3 * R) ^ 4)%R by field. apply pow_incr. lra. }
  assert (H8 : (8 <= R ^ 3)%R). { replace 8%R with (2 ^ 3)%R by lra. apply pow_incr. lra. }
  assert (H5 : (16 / 81 * R ^ 3 <= 1)%R). { apply (Rmult_le_reg_r R); [lra|]. replace (16 / 81 * R ^ 3 * R)%R with (16 / 81 * R ^ 4)%R by ring. lra. }
  lra.
Qed.

Lemma elem_virt33 v : v ∈ virtual_nodes false 3 3 -> v = (-1, -1, -1) \/ v = (-1, 5, 1) \/ v = (-1, -1, 3) \/ v = (-1, 5, 5).
Proof. rewrite virt33, !elem_of_cons, elem_of_nil. tauto. Qed.
Section flip33.
Context (T : Z) (D : decoder) (g : lgraph Z) (rx : retworkx) (p : R) (t : Z).
Hypothesis HD : decoder_for false 3 3 T D.
Hypothesis Hrx : rx_ok rx.
Hypothesis Hp : (0 < p <= / 3)%R.
Hypothesis HT : (Rpower ((1 - p) / p) (3 + / 2500) < 2 * IZR (T + 1))%R.
Hypothesis Ht : 0 <= t < T.
Notation virt := (virtual_nodes false 3 3).
Notation a := (t, 1, 5).
Notation b := (t, 3, 3).
Notation r := (p / (1 - p))%R.
Notation Q := ((1 - p) / p)%R.
Lemma wrong_value v ev : NoDup ev -> (forall n, n ∈ ev <-> n = a \/ n = b) ->
  (correct_events_p rx D (Some p) false (Z.b2z v) ev).2 = Ok (Z.b2z (negb v)).
Proof.
  clear g. intros Hnd Hev. destruct (decoder_inv false 3 3 T D HD) as (Hh & Hw & g & Hg & Eg).
  assert (HT1 : 1 <= T) by lia. pose proof size33 as Hv. pose proof ext33 as Hext.
  destruct (sg_facts false 3 3 T g Hv Hext HT1 Eg) as (Hok & Hu & _). pose proof (sg_conn false 3 3 T g Hv Hext HT1 Eg) as Hc.
  destruct (has_ab T g HT1 Eg t Ht) as [Hna Hnb].
  assert (Hta : n_time a <> -1) by (unfold n_time; cbn; lia). assert (Htb : n_time b <> -1) by (unfold n_time; cbn; lia). assert (Hab : a <> b) by done.
  destruct (C31_most_likely false 3 3 T D rx p v ev g Hv Hext HT1 HD Hrx ltac:(lra) Hg Hnd) as (ms & xs & Hpair & Hxs & E & Hopt).
  { intros n [-> | ->]%Hev; (split; [done|]); unfold n_time; cbn; lia. }
  assert (HL : length ev = 2%nat).
  { assert (ev ≡ₚ [a; b]) as ->; [|done]. apply NoDup_Permutation; [done| |].
    - apply NoDup_cons. split; [by intros [=]%elem_of_list_singleton|apply NoDup_singleton].
    - intros n. by rewrite Hev, elem_of_cons, elem_of_list_singleton. }
  rewrite HL in Hopt. change (INR 2) with (1 + 1)%R in Hopt. replace ((1 + 1) / 5000)%R with (2 / 5000)%R in Hopt by lra.
  assert (Hvt : forall x, x ∈ virt -> has_node g x /\ n_time x = -1) by apply (has_virt T g HT1 Eg).
  assert (Hpp : forall l, pairing ev virt l -> forall m, m ∈ l -> proper_pair g m).
  { intros l (P1 & P2 & P3 & P4) m Hm.
    assert (Hn : forall n, n ∈ ev ++ virt -> has_node g n).
    { intros n [[-> | ->]%Hev|Hn]%elem_of_app; [done|done|by apply Hvt]. }
    split_and!; [apply Hn, P2, elem_of_pends; exists m; auto|apply Hn, P2, elem_of_pends; exists m; auto| |by apply P4].
    intros Eq. apply elem_of_Permutation in Hm as [l' Hl]. rewrite (pends_perm _ _ Hl), pends_cons, Eq in P1. apply NoDup_cons in P1 as [P1 _]. apply P1. left. }
  set (L := lik false 3 3 g rx p). set (F := Rpower Q (2 / 5000)) in *.
  assert (HQ2 : (2 <= Q)%R). { apply (Rmult_le_reg_r p); [lra|]. unfold Rdiv. rewrite Rmult_assoc, Rinv_l by lra. lra. }
  assert (HrQ : (r * Q = 1)%R) by (field; lra).
  destruct (rounding_small Q HQ2) as [HF0 HF]. fold F in HF0, HF.
  assert (Hr0 : (0 < r)%R) by (apply Rdiv_lt_0_compat; lra).
  set (N := IZR (T + 1)) in *.
  assert (HN : (F < 2 * (N * r ^ 3))%R).
  { rewrite Rpower_plus in HT. replace (Rpower Q (/ 2500)) with F in HT by (unfold F; f_equal; lra).
    replace 3%R with (INR 3) in HT by (cbn; lra). rewrite Rpower_pow in HT by lra.
    apply (Rmult_lt_reg_r (Q ^ 3)); [apply pow_lt; lra|]. replace (2 * (N * r ^ 3) * Q ^ 3)%R with (2 * N * (r * Q) ^ 3)%R by ring. rewrite HrQ. lra. }
  assert (Hsym : forall u x, has_node g u -> has_node g x -> dg g rx virt x u = dg g rx virt u x -> L x u = L u x).
  { intros u x H1 H2 H3. unfold L, lik. rewrite H3, (dz_sym g Hok Hu rx Hrx Hc x u) by done. done. }
  assert (Vab : L a b = r). { unfold L, lik. rewrite (proj1 (dg_ab T g rx HT1 Eg Hrx t Ht)), (d_ab T g rx HT1 Eg Hrx t Ht). change (Z.to_nat 1) with 1%nat. by rewrite pow_1, Rmult_1_l. }
  assert (Vba : L b a = r). { rewrite (Hsym a b); try done. destruct (dg_ab T g rx HT1 Eg Hrx t Ht) as [-> ->]. done. }
  assert (Vatr : L a (-1, -1, 3) = r /\ L (-1, -1, 3) a = r).
  { destruct (dg_atr T g rx HT1 Eg Hrx t Ht) as [E1 E2]. rewrite (Hsym a (-1, -1, 3)); [|done|apply Hvt, tr_in|by rewrite E1, E2].
    unfold L, lik. rewrite E1, (d_atr T g rx HT1 Eg Hrx t Ht). change (Z.to_nat 1) with 1%nat. by rewrite pow_1, Rmult_1_l. }
  assert (Vatl : L a (-1, -1, -1) = (N * r ^ 3)%R /\ L (-1, -1, -1) a = (N * r ^ 3)%R).
  { destruct (dg_atl T g rx HT1 Eg Hrx t Ht) as [E1 E2]. rewrite (Hsym a (-1, -1, -1)); [|done|apply Hvt, tl_in|by rewrite E1, E2].
    unfold L, lik. rewrite E1, (d_atl T g rx HT1 Eg Hrx t Ht). done. }
  assert (Vabot : forall x, x = (-1, 5, 1) \/ x = (-1, 5, 5) -> L a x = (2 * r ^ 2)%R /\ L x a = (2 * r ^ 2)%R).
  { intros x Hx. destruct (dg_abot T g rx HT1 Eg Hrx t Ht x Hx) as [E1 E2]. rewrite (Hsym a x); [|done|apply Hvt; destruct Hx as [-> | ->]; [apply bl_in|apply br_in]|by rewrite E1, E2].
    unfold L, lik. rewrite E1. destruct Hx as [-> | ->]; [rewrite (d_abl T g rx HT1 Eg Hrx t Ht)|rewrite (d_abr T g rx HT1 Eg Hrx t Ht)]; done. }
  assert (Vbbot : forall x, x = (-1, 5, 1) \/ x = (-1, 5, 5) -> L b x = (2 * r)%R /\ L x b = (2 * r)%R).
  { intros x Hx. destruct (dg_bbot T g rx HT1 Eg Hrx t Ht x Hx) as [E1 E2]. rewrite (Hsym b x); [|done|apply Hvt; destruct Hx as [-> | ->]; [apply bl_in|apply br_in]|by rewrite E1, E2].
    unfold L, lik. rewrite E1. destruct Hx as [-> | ->]; [rewrite (d_bbl T g rx HT1 Eg Hrx t Ht)|rewrite (d_bbr T g rx HT1 Eg Hrx t Ht)]; change (Z.to_nat 1) with 1%nat; by rewrite pow_1. }
  assert (Vbtop : forall x, x = (-1, -1, -1) \/ x = (-1, -1, 3) -> L b x = (3 * r ^ 2)%R /\ L x b = (3 * r ^ 2)%R).
  { intros x Hx. destruct (dg_btop T g rx HT1 Eg Hrx t Ht x Hx) as [E1 E2]. rewrite (Hsym b x); [|done|apply Hvt; destruct Hx as [-> | ->]; [apply tl_in|apply tr_in]|by rewrite E1, E2].
    unfold L, lik. rewrite E1. destruct Hx as [-> | ->]; [rewrite (d_btl T g rx HT1 Eg Hrx t Ht)|rewrite (d_btr T g rx HT1 Eg Hrx t Ht)]; done. }
  assert (Hbest : pairing ev virt [(a, (-1, -1, -1)); (b, (-1, 5, 1))]).
  { split; [|split; [|split]].
    - rewrite !pends_cons. cbn [fst snd]. apply NoDup_cons. split; [rewrite !elem_of_cons, elem_of_nil; intros [[=]|[[=]|[[=]|[]]]]; lia|].
      apply NoDup_cons. split; [rewrite !elem_of_cons, elem_of_nil; intros [[=]|[[=]|[]]]; lia|].
      apply NoDup_cons. split; [|apply NoDup_singleton]. intros [=]%elem_of_list_singleton.
    - intros n. rewrite !pends_cons. cbn [fst snd]. rewrite !elem_of_cons, elem_of_app, Hev. intros [-> |[-> |[-> |[-> |[]%elem_of_nil]]]]; [auto| |auto|]; right; [apply tl_in|apply bl_in].
    - intros n Hn%Hev. rewrite !pends_cons. cbn [fst snd]. rewrite !elem_of_cons. tauto.
    - intros m [-> |[-> |[]%elem_of_nil]%elem_of_cons]%elem_of_cons [? ?]; done. }
  specialize (Hopt _ _ Hbest (proj2 (likelihoods false 3 3 T g rx Hv Hext HT1 Eg Hrx p _ _ (Hpp _ Hbest)) eq_refl)).
  apply (likelihoods false 3 3 T g rx Hv Hext HT1 Eg Hrx) in Hxs; [|by apply Hpp]. subst xs. fold L in Hopt. cbn [fmap list_fmap fst snd rprod foldr] in Hopt.
  rewrite (proj1 Vatl), (proj1 (Vbbot (-1, 5, 1) ltac:(auto))) in Hopt.
  set (side := fun n => bool_decide (readout_side false n)) in *.
  assert (Sa : side a = false) by (apply bool_decide_eq_false_2; intros [? ?]; done).
  assert (Sb : side b = false) by (apply bool_decide_eq_false_2; intros [? ?]; done).
  rewrite E. clear E. do 2 f_equal. change (xorb v (xorl ((fun m => xorb (side m.1) (side m.2)) <$> ms)) = negb v).
  assert (Hpar : xorl ((fun m => xorb (side m.1) (side m.2)) <$> ms) = true); [|by rewrite Hpar, xorb_true_r].
  assert (Htwo : forall x y z : R, (x * (y * 1) = x * y)%R) by (intros; lra).
  destruct (pairing_two a b virt ev ms Hab Hta Htb (fun x Hx => proj2 (Hvt x Hx)) Hev Hpair) as [-> |[-> |(m1 & m2 & x & y & Hms & Hx & Hy & Hm1 & Hm2)]].
  - exfalso. cbn [fmap list_fmap fst snd rprod foldr] in Hopt. rewrite Vab in Hopt. nra.
  - exfalso. cbn [fmap list_fmap fst snd rprod foldr] in Hopt. rewrite Vba in Hopt. nra.
  - assert (Ho : (N * r ^ 3 * (2 * r * 1) <= L m1.1 m1.2 * (L m2.1 m2.2 * 1) * F)%R).
    { symmetry in Hms; apply Permutation_length_2_inv in Hms as [-> | ->]; cbn [fmap list_fmap fst snd rprod foldr] in Hopt; lra. }
    assert (Hs : xorl ((fun m => xorb (side m.1) (side m.2)) <$> ms) = xorb (side x) (side y)).
    { assert (G1 : xorb (side m1.1) (side m1.2) = side x) by (destruct Hm1 as [-> | ->]; cbn [fst snd]; rewrite Sa; by destruct (side x)).
      assert (G2 : xorb (side m2.1) (side m2.2) = side y) by (destruct Hm2 as [-> | ->]; cbn [fst snd]; rewrite Sb; by destruct (side y)).
      symmetry in Hms; apply Permutation_length_2_inv in Hms as [-> | ->]; cbn [fmap list_fmap xorl foldr]; rewrite G1, G2, xorb_false_r; [done|apply xorb_comm]. }
    rewrite Hs. clear Hs Hopt.
    assert (L1 : L m1.1 m1.2 = L a x \/ L m1.1 m1.2 = L x a) by (destruct Hm1 as [-> | ->]; auto).
    assert (L2 : L m2.1 m2.2 = L b y \/ L m2.1 m2.2 = L y b) by (destruct Hm2 as [-> | ->]; auto).
    clear Hm1 Hm2 Hms.
    assert (LL1 : L m1.1 m1.2 = L a x).
    { destruct L1 as [L1|L1]; [done|]. rewrite L1. apply elem_virt33 in Hx as [-> |[-> |[-> | ->]]]; [by destruct Vatl as [-> ->]| |by destruct Vatr as [-> ->]|].
      - by destruct (Vabot (-1, 5, 1) ltac:(auto)) as [-> ->].
      - by destruct (Vabot (-1, 5, 5) ltac:(auto)) as [-> ->]. }
    assert (LL2 : L m2.1 m2.2 = L b y).
    { destruct L2 as [L2|L2]; [done|]. rewrite L2. apply elem_virt33 in Hy as [-> |[-> |[-> | ->]]].
      - by destruct (Vbtop (-1, -1, -1) ltac:(auto)) as [-> ->].
      - by destruct (Vbbot (-1, 5, 1) ltac:(auto)) as [-> ->].
      - by destruct (Vbtop (-1, -1, 3) ltac:(auto)) as [-> ->].
      - by destruct (Vbbot (-1, 5, 5) ltac:(auto)) as [-> ->]. }
    rewrite LL1, LL2 in Ho. clear L1 L2 LL1 LL2 m1 m2.
    assert (Hr2 : (r <= / 2)%R) by nra. assert (Hr2' : (r ^ 2 <= / 4)%R) by nra.
    assert (HFr : (r * F * 3 < 2)%R) by nra.
    assert (HNp : (0 < N * r ^ 3)%R) by lra.
    assert (Cbot : (4 * r ^ 3 * F < N * r ^ 3 * (2 * r))%R).
    { apply Rle_lt_trans with (r * F)%R; [|nra]. replace (4 * r ^ 3 * F)%R with (4 * r ^ 2 * (r * F))%R by ring. assert (0 < r * F)%R by nra. nra. }
    assert (Cnear : (3 * r ^ 3 * F < N * r ^ 3 * (2 * r))%R).
    { apply Rle_lt_trans with (r * F)%R; [|nra]. replace (3 * r ^ 3 * F)%R with (3 * r ^ 2 * (r * F))%R by ring. assert (0 < r * F)%R by nra. nra. }
    assert (Cfar : (N * r ^ 3 * (3 * r ^ 2) * F < N * r ^ 3 * (2 * r))%R).
    { replace (N * r ^ 3 * (3 * r ^ 2) * F)%R with (N * r ^ 3 * (r * (r * F * 3)))%R by ring. apply Rmult_lt_compat_l; [done|]. nra. }
    apply elem_virt33 in Hx as [-> |[-> |[-> | ->]]]; apply elem_virt33 in Hy as [-> |[-> |[-> | ->]]]; try reflexivity; exfalso;
      rewrite ?(proj1 Vatl), ?(proj1 Vatr), ?(proj1 (Vabot (-1, 5, 1) ltac:(auto))), ?(proj1 (Vabot (-1, 5, 5) ltac:(auto))),
        ?(proj1 (Vbbot (-1, 5, 1) ltac:(auto))), ?(proj1 (Vbbot (-1, 5, 5) ltac:(auto))), ?(proj1 (Vbtop (-1, -1, -1) ltac:(auto))), ?(proj1 (Vbtop (-1, -1, 3) ltac:(auto))) in Ho; nra.
Qed.
End flip33.

(** * C67 *)
(** A 3x3 code, X error on data qubit 5 between rounds [t] and [t + 1] and nothing else: given an
    error probability up to 1/3, a decoder made for so many rounds that
    2 (T + 1) > ((1-p)/p)^(3 + 1/2500) returns the wrong value, whichever matcher retworkx is. *)
Theorem C67_weighted_events T D rx p t v ev : decoder_for false 3 3 T D -> rx_ok rx -> (0 < p <= / 3)%R ->
  (Rpower ((1 - p) / p) (3 + / 2500) < 2 * IZR (T + 1))%R -> 0 <= t < T ->
  NoDup ev -> (forall n, n ∈ ev <-> n = (t, 1, 5) \/ n = (t, 3, 3)) ->
  (correct_events_p rx D (Some p) false (Z.b2z v) ev).2 = Ok (Z.b2z (negb v)).
Proof. intros HD Hrx Hp HT Ht. by apply (wrong_value T D rx p t). Qed.
Print Assumptions C67_weighted_events.
(** The same from the counts of a run, for any number of rounds it has; without the error
    probability the value is the right one. *)
Theorem C67_weighted c T D rx p t v cs names last base : decoder_for false 3 3 T D -> rx_ok rx -> (0 < p <= / 3)%R ->
  (Rpower ((1 - p) / p) (3 + / 2500) < 2 * IZR (T + 1))%R ->
  let N := Z.of_nat (length names) in
  N - 1 <= T -> 0 <= t < N - 1 ->
  reported false c 3 3 base [(t, 5)] [] (recorded cs names) ->
  cs (last, 0) = xorb v (logical_flip false c 3 3 [(t, 5)]) ->
  let s := counts_key cs (((., 8) <$> names) ++ [(last, 1)]) in
  correct_readout_p rx D None s false = Ok (Z.b2z v) /\ correct_readout_p rx D (Some p) s false = Ok (Z.b2z (negb v)).
Proof.
  intros HD Hrx Hp HT N HN Ht Hrep Hlast s. pose proof size33 as Hv. pose proof ext33 as Hext.
  assert (Hf : faults_within false 3 3 N [(t, 5)] []).
  { split; [|by intros m ?%elem_of_nil]. intros f ->%elem_of_list_singleton. cbn [fst snd]. lia. }
  split.
  { destruct (C45_plain rx D false 0 [] s) as (_ & _ & -> & _).
    apply (C26_corrects c false 3 3 T D rx EPNone cs names last base [(t, 5)] [] v); try done; vm_compute; discriminate. }
  assert (Hflip : logical_flip false c 3 3 [(t, 5)] = false) by (destruct c; vm_compute; reflexivity). rewrite Hflip, xorb_false_r in Hlast.
  unfold s, correct_readout_p. destruct (decoder_inv false 3 3 T D HD) as (Hh & Hw & g & Hg & Eg). rewrite Hh, Hw.
  destruct (parse_key 3 3 cs names last false (Some (type_string false)) Hv ltac:(lia)) as ((X & Z') & E & Hnd & Hev). change (3 * 3 - 1) with 8 in E. rewrite E, Hlast.
  assert (HR : length (recorded cs names) = length names) by apply fmap_length.
  assert (HN' : Z.of_nat (length (recorded cs names)) - 1 <= T) by (rewrite HR; done).
  assert (Hf' : faults_within false 3 3 (Z.of_nat (length (recorded cs names))) [(t, 5)] []) by (rewrite HR; done).
  destruct (fault_events false c 3 3 T g Hv Hext ltac:(lia) Eg base [(t, 5)] [] (recorded cs names) Z' HN' Hf' Hrep Hnd Hev) as ([_ He1] & _ & He3).
  apply (C67_weighted_events T D rx p t); try done; [lia|]. intros n.
  assert (Ee : fault_edges false 3 3 [(t, 5)] [] = [((t, 1, 5), (t, 3, 3))]) by reflexivity. rewrite Ee in He3.
  assert (Hlp : lpar (pends [((t, 1, 5), (t, 3, 3))]) n = bool_decide (n = (t, 1, 5) \/ n = (t, 3, 3))).
  { change (pends _) with [(t, 1, 5); (t, 3, 3)]. rewrite lpar_NoDup.
    - apply bool_decide_ext. by rewrite elem_of_cons, elem_of_list_singleton.
    - apply NoDup_cons. split; [by intros [=]%elem_of_list_singleton|apply NoDup_singleton]. }
  assert (Hiff : 0 <= n_time n -> n ∈ Z' <-> n = (t, 1, 5) \/ n = (t, 3, 3)).
  { intros H. specialize (He3 n H). rewrite Hlp in He3. split; intros HH.
    - apply (bool_decide_eq_true (n = (t, 1, 5) \/ n = (t, 3, 3))). rewrite He3. by apply bool_decide_eq_true_2.
    - apply (bool_decide_eq_true (n ∈ Z')). rewrite <- He3. by apply bool_decide_eq_true_2. }
  split; [intros Hn; apply Hiff; [by apply He1|done]|]. intros Hn. apply Hiff; [|done]. destruct Hn as [-> | ->]; unfold n_time; cbn; lia.
Qed.
Print Assumptions C67_weighted.
(** For every such probability all decoders made for enough rounds are of this kind. *)
Theorem C67_threshold p : (0 < p <= / 3)%R -> exists T0, forall T, T0 <= T -> (Rpower ((1 - p) / p) (3 + / 2500) < 2 * IZR (T + 1))%R.
Proof.
  intros Hp. set (B := Rpower ((1 - p) / p) (3 + / 2500)). assert (HB : (0 < B)%R) by apply exp_pos.
  exists (up B). intros T HT. apply IZR_le in HT. destruct (archimed B) as [H _]. rewrite plus_IZR. lra.
Qed.
Print Assumptions C67_threshold.

(** ** Examples *)
(** An X error on data qubit 5 after round 0: Z stabilizers 1 and 3 change; the bit read is 1.
    With an error probability of 1/3 a decoder made for four rounds answers 0. *)
Definition exw_bits : clbit -> bool := fun b => bool_decide (b ∈ [("a1", 1); ("a1", 3); ("a2", 1); ("a2", 3); ("r", 0)]%string).
Lemma exw_run : let names := ["a0"; "a1"; "a2"]%string in
  reported false XXZZ 3 3 (fun _ => false) [(0, 5)] [] (recorded exw_bits names) /\
  exw_bits ("r"%string, 0) = xorb true (logical_flip false XXZZ 3 3 [(0, 5)]) /\
  counts_key exw_bits (((., 8) <$> names) ++ [("r"%string, 1)]) = "1 00001010 00001010 00000000"%string.
Proof.
  intros names. split.
  { intros s r loc Hs Hl. change (nsyn false 3 3) with 4 in Hl.
    assert (loc = 0 \/ loc = 1 \/ loc = 2 \/ loc = 3) as Hloc by lia.
    destruct s as [|[|[|s]]]; [injection Hs as <-..|done]; destruct Hloc as [-> | [-> | [-> | ->]]]; vm_compute; reflexivity. }
  split; vm_compute; reflexivity.
Qed.
Lemma exw_wrong T D p : decoder_for false 3 3 T D -> (0 < p <= / 3)%R -> 2 <= T -> (Rpower ((1 - p) / p) (3 + / 2500) < 2 * IZR (T + 1))%R ->
  correct_readout_p rx_ref D None "1 00001010 00001010 00000000" false = Ok 1 /\
  correct_readout_p rx_ref D (Some p) "1 00001010 00001010 00000000" false = Ok 0.
Proof.
  intros HD Hp HT HB. destruct exw_run as (H1 & H2 & <-).
  apply (C67_weighted XXZZ T D rx_ref p 0 true exw_bits ["a0"; "a1"; "a2"]%string "r"%string (fun _ => false)); try done. apply rx_ref_ok.
Qed.
Lemma exw_faults : faults_within false 3 3 3 [(0, 5)] [].
Proof. split; [|by intros m ?%elem_of_nil]. intros f ->%elem_of_list_singleton. cbn. lia. Qed.
Lemma rpower_root x y n : (0 < x)%R -> (1 < y)%R -> (x <= y ^ n)%R -> (INR n <= 2500)%R -> (0 < INR n)%R -> (Rpower x (/ 2500) <= y)%R.
Proof.
  intros Hx Hy H Hn H0. assert (E : (Rpower (y ^ n) (/ 2500) <= y)%R).
  { rewrite <- Rpower_pow, Rpower_mult by lra. rewrite <- (Rpower_1 y) at 2 by lra. apply Rle_Rpower; lra. }
  apply Rle_trans with (2 := E). apply Rle_Rpower_l; lra.
Qed.
Example C67_ex : exists D, rotated_decoder (Some (DTup [3; 3])) (Some 4) = Ok D /\
  correct_readout_p rx_ref D None "1 00001010 00001010 00000000" false = Ok 1 /\
  correct_readout_p rx_ref D (Some (/ 3)%R) "1 00001010 00001010 00000000" false = Ok 0.
Proof.
  destruct (decoder_for_rotated false 3 3 4 size33) as (D & E & HD). exists D. split; [done|]. apply (exw_wrong 4); [done|lra|lia|].
  replace ((1 - / 3) / / 3)%R with 2%R by field. rewrite Rpower_plus.
  pose proof (rpower_root 2 (6 / 5) 4 ltac:(lra) ltac:(lra) ltac:(lra) ltac:(cbn; lra) ltac:(cbn; lra)) as H.
  replace (Rpower 2 3) with (2 ^ 3)%R by (rewrite <- Rpower_pow by lra; f_equal; cbn; lra). change (4 + 1) with 5. lra.
Qed.
(** With an error probability of 1/10 the decoder made for two rounds corrects the error, and the
    one made for 400 rounds does not. *)
Example C67_ex2 : exists D, rotated_decoder (Some (DTup [3; 3])) (Some 400) = Ok D /\
  correct_readout_p rx_ref ex_dec (Some (/ 10)%R) "1 00001010 00001010 00000000" false = Ok 1 /\
  correct_readout_p rx_ref D (Some (/ 10)%R) "1 00001010 00001010 00000000" false = Ok 0.
Proof.
  destruct (decoder_for_rotated false 3 3 400 size33) as (D & E & HD). exists D. split; [done|]. split.
  - destruct C26_ex as (HD2 & _). pose proof C46_ex_bound as Hb. pose proof ex_dec_graph as Hg. pose proof C46_ex_rare as Hrare. destruct exw_run as (H1 & H2 & <-).
    revert HD2 Hb Hg. generalize g33. generalize ex_dec. intros D2 g2 HD2 Hb Hg.
    apply (C46_corrects XXZZ false 3 3 2 D2 g2 rx_ref (/ 10) 2 exw_bits ["a0"; "a1"; "a2"]%string "r"%string (fun _ => false) [(0, 5)] [] true);
      [apply size33|done|done|done|apply rx_ref_ok|lra|done|done|vm_compute; discriminate|exact exw_faults|exact H1|exact H2|vm_compute; discriminate].
  - apply (exw_wrong 400); [done|lra|lia|]. replace ((1 - / 10) / / 10)%R with 9%R by field. rewrite Rpower_plus.
    pose proof (rpower_root 9 (11 / 10) 25 ltac:(lra) ltac:(lra) ltac:(lra) ltac:(cbn; lra) ltac:(cbn; lra)) as H.
    replace (Rpower 9 3) with (9 ^ 3)%R by (rewrite <- Rpower_pow by lra; f_equal; cbn; lra). change (400 + 1) with 401. lra.
Qed.
