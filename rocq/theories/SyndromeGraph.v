(** The syndrome graph built by the decoder. *)
From Verif Require Export SpecGraph GraphFacts.
From stdpp Require Export list.
Open Scope Z_scope.

Ltac zmod := Z.div_mod_to_equations; lia.

Section lattice.
Context (isx : bool) (dh dw : Z).
Hypothesis Hsize : valid_size dh dw.

Lemma size_pos : 0 < dh /\ 0 < dw /\ dh mod 2 = 1 /\ dw mod 2 = 1.
Proof. destruct Hsize as (? & ? & H1 & H2). by rewrite !Zmod_odd, H1, H2. Qed.

Lemma elem_virtual n : n ∈ virtual_nodes isx dh dw <->
  n_time n = -1 /\ cell isx dh dw (n_row n, n_col n) /\ ~ inside isx dh dw (n_row n, n_col n).
Proof.
  pose proof size_pos as (H1 & H2 & H3 & H4).
  destruct n as [[t y] x]. unfold virtual_nodes, cell, inside, level, extent, n_time, n_row, n_col. cbn [fst snd].
  destruct isx; rewrite elem_of_list_join; unfold py_range_step; change (bool_decide (0 < 2)) with true; cbn iota.
  - split.
    + intros (l & Hl & HL). apply elem_of_list_fmap in HL as (j & -> & Hj).
      apply elem_of_list_fmap in Hj as (m & -> & Hm). apply elem_of_seqZ in Hm.
      apply elem_of_cons in Hl as [[= -> -> ->] | [[= -> -> ->] | []%elem_of_nil]%elem_of_cons]; zmod.
    + intros (-> & (Hy & Hx & Ry & Rx & Hp) & Hin).
      assert (x = -1 \/ x = 2 * dw - 1) as [-> | ->] by zmod.
      * exists [(-1, 2 * (((y - 1) / 4) * 2) + 1, -1); (-1, 2 * (((y - 1) / 4) * 2) - 1, 2 * dw - 1)].
        split; [apply elem_of_cons; left; repeat f_equal; zmod|].
        apply elem_of_list_fmap. exists ((y - 1) / 4 * 2). split; [done|].
        apply elem_of_list_fmap. exists ((y - 1) / 4). split; [done|]. apply elem_of_seqZ. zmod.
      * exists [(-1, 2 * (((y + 1) / 4) * 2) + 1, -1); (-1, 2 * (((y + 1) / 4) * 2) - 1, 2 * dw - 1)].
        split; [apply elem_of_cons; right; apply elem_of_list_singleton; repeat f_equal; zmod|].
        apply elem_of_list_fmap. exists ((y + 1) / 4 * 2). split; [done|].
        apply elem_of_list_fmap. exists ((y + 1) / 4). split; [done|]. apply elem_of_seqZ. zmod.
  - split.
    + intros (l & Hl & HL). apply elem_of_list_fmap in HL as (j & -> & Hj).
      apply elem_of_list_fmap in Hj as (m & -> & Hm). apply elem_of_seqZ in Hm.
      apply elem_of_cons in Hl as [[= -> -> ->] | [[= -> -> ->] | []%elem_of_nil]%elem_of_cons]; zmod.
    + intros (-> & (Hy & Hx & Ry & Rx & Hp) & Hin).
      assert (y = -1 \/ y = 2 * dh - 1) as [-> | ->] by zmod.
      * exists [(-1, -1, 2 * (((x + 1) / 4) * 2) - 1); (-1, 2 * dh - 1, 2 * (((x + 1) / 4) * 2) + 1)].
        split; [apply elem_of_cons; left; repeat f_equal; zmod|].
        apply elem_of_list_fmap. exists ((x + 1) / 4 * 2). split; [done|].
        apply elem_of_list_fmap. exists ((x + 1) / 4). split; [done|]. apply elem_of_seqZ. zmod.
      * exists [(-1, -1, 2 * (((x - 1) / 4) * 2) - 1); (-1, 2 * dh - 1, 2 * (((x - 1) / 4) * 2) + 1)].
        split; [apply elem_of_cons; right; apply elem_of_list_singleton; repeat f_equal; zmod|].
        apply elem_of_list_fmap. exists ((x - 1) / 4 * 2). split; [done|].
        apply elem_of_list_fmap. exists ((x - 1) / 4). split; [done|]. apply elem_of_seqZ. zmod.
Qed.

Lemma elem_diagonals n p : p ∈ diagonals n <-> adjacent (n_row n, n_col n) p.
Proof.
  destruct p as [y x]. unfold diagonals, adjacent. cbn [fst snd].
  rewrite !elem_of_cons, elem_of_nil. split.
  - intros [[= -> ->] | [[= -> ->] | [[= -> ->] | [[= -> ->] | []]]]]; lia.
  - intros [[-> | ->] [-> | ->]]; auto.
Qed.

(** The positions a search in round [t] may visit: the start position, the stabilizers and the
    boundary nodes. *)
Definition parity_ok (p : loc2) : Prop := p.1 mod 2 = 1 /\ p.2 mod 2 = 1 /\ (p.1 + p.2) mod 4 = (if isx then 0 else 2).
Lemma cell_parity p : cell isx dh dw p -> parity_ok p.
Proof. unfold cell, parity_ok. tauto. Qed.
Lemma start_parity : parity_ok (start_loc isx).
Proof. unfold parity_ok, start_loc. by destruct isx. Qed.
Lemma valid_inside p q : parity_ok p -> adjacent p q ->
  valid_syndrome isx dh dw q = true <-> cell isx dh dw q /\ inside isx dh dw q.
Proof.
  pose proof size_pos as (H1 & H2 & H3 & H4).
  unfold parity_ok, adjacent, valid_syndrome, cell, inside, level, extent. intros (Hy & Hx & Hp) Ha.
  destruct isx; rewrite bool_decide_eq_true; zmod.
Qed.

Definition normal_cell (p : loc2) : Prop := p = start_loc isx \/ (cell isx dh dw p /\ inside isx dh dw p).
Definition in_round (t : Z) (n : node) : Prop :=
  (n_time n = t /\ normal_cell (n_row n, n_col n)) \/
  (n_time n = -1 /\ cell isx dh dw (n_row n, n_col n) /\ ~ inside isx dh dw (n_row n, n_col n)).
Lemma in_round_parity t n : in_round t n -> parity_ok (n_row n, n_col n).
Proof.
  intros [[_ [E | [H _]]] | (_ & H & _)]; [|by apply cell_parity..].
  rewrite E. apply start_parity.
Qed.

Lemma elem_nbrs t n m : parity_ok (n_row n, n_col n) ->
  m ∈ nbrs isx dh dw t n <->
  adjacent (n_row n, n_col n) (n_row m, n_col m) /\ cell isx dh dw (n_row m, n_col m) /\
  (if decide (inside isx dh dw (n_row m, n_col m)) then n_time m = t else n_time m = -1).
Proof.
  intros Hn. unfold nbrs. rewrite elem_of_app, !elem_of_list_fmap. destruct m as [[tm y] x]. unfold n_row at 2 4 5, n_col at 2 4 5, n_time. cbn [fst snd].
  split.
  - intros [(p & E & Hp) | (p & E & Hp)]; apply elem_of_list_filter in Hp as [Hv Ha%elem_diagonals];
      destruct p as [py px]; unfold at_time in E; cbn [fst snd] in E; injection E as -> -> ->.
    + apply (valid_inside _ _ Hn Ha) in Hv as [Hc Hi]. by rewrite decide_True.
    + apply elem_virtual in Hv as (_ & Hc & Hi). unfold n_row, n_col, at_time in Hc, Hi. cbn [fst snd] in Hc, Hi. by rewrite decide_False.
  - intros (Ha & Hc & Ht). destruct (decide _) as [Hi|Hi]; subst tm.
    + left. exists (y, x). split; [done|]. apply elem_of_list_filter. split; [|by apply elem_diagonals].
      by apply (valid_inside _ _ Hn Ha).
    + right. exists (y, x). split; [done|]. apply elem_of_list_filter. split; [|by apply elem_diagonals].
      by apply elem_virtual.
Qed.
Lemma nbrs_round t n m : in_round t n -> m ∈ nbrs isx dh dw t n -> in_round t m.
Proof.
  intros Hn Hm. apply elem_nbrs in Hm as (Ha & Hc & Ht); [|by eapply in_round_parity].
  destruct (decide _); [left|right]; unfold normal_cell; auto.
Qed.
Lemma nbrs_irr t n : n ∉ nbrs isx dh dw t n.
Proof.
  unfold nbrs. rewrite elem_of_app, !elem_of_list_fmap. destruct n as [[tn y] x].
  intros [(p & E & Hp) | (p & E & Hp)]; apply elem_of_list_filter in Hp as [_ Ha%elem_diagonals];
    destruct p as [py px]; unfold at_time in E; cbn [fst snd] in E; injection E as -> -> ->;
    unfold adjacent, n_row, n_col in Ha; cbn in Ha; lia.
Qed.

(** A finite set holding the nodes of a round. *)
Definition round_list (t : Z) : list node :=
  at_time t (start_loc isx) ::
  (y ← seqZ (-1) (2 * dh + 1); x ← seqZ (-1) (2 * dw + 1); [(t, y, x); (-1, y, x)]).
Definition in_round_dec t n : Decision (in_round t n).
Proof. unfold in_round, normal_cell. apply _. Defined.
Definition round_set (t : Z) : gset node :=
  list_to_set (@filter _ _ list_filter (in_round t) (in_round_dec t) (round_list t)).
Lemma elem_round_set t n : n ∈ round_set t <-> in_round t n.
Proof.
  unfold round_set. rewrite elem_of_list_to_set, elem_of_list_filter.
  split; [tauto|]. intros H. split; [done|]. unfold round_list.
  destruct n as [[tn y] x].
  assert (Hgo : forall t', (t' = t \/ t' = -1) -> cell isx dh dw (y, x) ->
    (t', y, x) ∈ y ← seqZ (-1) (2 * dh + 1); x ← seqZ (-1) (2 * dw + 1); [(t, y, x); (-1, y, x)]).
  { intros t' Ht' (_ & _ & Hy & Hx & _). cbn [fst snd] in Hy, Hx.
    apply elem_of_list_bind. exists y. split; [|apply elem_of_seqZ; lia].
    apply elem_of_list_bind. exists x. split; [|apply elem_of_seqZ; lia].
    destruct Ht' as [-> | ->]; [left|right; left]. }
  unfold in_round, n_time, n_row, n_col in H. cbn [fst snd] in H.
  destruct H as [[-> [E | [Hc _]]] | (-> & Hc & _)].
  - apply elem_of_cons. left. unfold at_time. by rewrite <- E.
  - apply elem_of_cons. right. apply Hgo; auto.
  - apply elem_of_cons. right. apply Hgo; auto.
Qed.
Lemma mbind_length_const {A B} (f : A -> list B) (k : nat) (l : list A) :
  (forall x, length (f x) = k) -> length (l ≫= f) = (length l * k)%nat.
Proof. intros Hf. induction l as [|x l IH]; [done|]. change ((x :: l) ≫= f) with (f x ++ (l ≫= f)). rewrite app_length, Hf, IH. cbn. lia. Qed.
Lemma round_set_size t : (size (round_set t) < dfs_fuel dh dw)%nat.
Proof.
  pose proof size_pos as (H1 & H2 & H3 & H4).
  assert (size (round_set t) <= length (round_list t))%nat.
  { unfold round_set.
    etrans; [|apply (@filter_length _ (in_round t) (in_round_dec t))].
    generalize (@filter _ _ list_filter (in_round t) (in_round_dec t) (round_list t)). intros l.
    clear. induction l as [|x l IH]; cbn; [by rewrite size_empty|].
    rewrite size_union_alt. etrans; [apply Nat.add_le_mono_l, subseteq_size, subseteq_difference_l; done|]. rewrite size_singleton. lia. }
  enough (length (round_list t) < dfs_fuel dh dw)%nat by lia.
  unfold round_list, dfs_fuel. cbn [length].
  rewrite (mbind_length_const _ (Z.to_nat (2 * dw + 1) * 2)).
  2:{ intros y. rewrite (mbind_length_const _ 2) by done. by rewrite seqZ_length. }
  rewrite seqZ_length. nia.
Qed.

(** ** Reachability *)
Definition nondeg : Prop := 3 <= extent isx dh dw.
Lemma start_cell : nondeg -> cell isx dh dw (start_loc isx) /\ inside isx dh dw (start_loc isx).
Proof.
  pose proof size_pos as (H1 & H2 & H3 & H4).
  unfold nondeg, cell, inside, level, extent, start_loc. destruct isx; cbn; intros; split_and!; try done; lia.
Qed.
Lemma in_round_nondeg t n : nondeg -> in_round t n <-> 
  cell isx dh dw (n_row n, n_col n) /\ n = place isx dh dw t (n_row n, n_col n).
Proof.
  intros Hnd. unfold in_round, place, normal_cell. destruct n as [[tn y] x]. unfold n_row, n_col, n_time. cbn [fst snd].
  pose proof (start_cell Hnd) as [Hc Hi].
  split.
  - intros [[-> [E | [H1 H2]]] | (-> & H1 & H2)].
    + rewrite E. split; [done|]. rewrite decide_True by done. done.
    + rewrite decide_True by done. done.
    + rewrite decide_False by done. done.
  - intros [H1 H2]. destruct (decide _) as [Hd|Hd]; injection H2 as ->; [left|right]; auto.
Qed.

(** A set of nodes of round [t] closed under [nbrs] and holding the start is everything. *)
Lemma closed_all t (V : node -> Prop) : nondeg ->
  V (at_time t (start_loc isx)) ->
  (forall n m, V n -> in_round t n -> m ∈ nbrs isx dh dw t n -> V m) ->
  forall n, in_round t n -> V n.
Proof.
  intros Hnd Hstart Hcl.
  pose proof size_pos as (H1 & H2 & H3 & H4).
  pose (ps := fun r c : Z => (2 * r + 1, 2 * c + 1)).
  pose (P := fun r c : Z => V (place isx dh dw t (ps r c))).
  pose (c0 := if isx then 1 else 0).
  assert (Hcell : forall r c, cell isx dh dw (ps r c) <-> -1 <= r <= dh - 1 /\ -1 <= c <= dw - 1 /\ (r + c + c0) mod 2 = 0).
  { intros r c. unfold cell, ps, c0. cbn [fst snd]. destruct isx; zmod. }
  assert (Hstep : forall r c r' c', P r c -> cell isx dh dw (ps r c) -> cell isx dh dw (ps r' c') ->
     (r' = r - 1 \/ r' = r + 1) -> (c' = c - 1 \/ c' = c + 1) -> P r' c').
  { intros r c r' c' HP Hc Hc' Hr Hcc. unfold P in *. eapply Hcl; [exact HP|..].
    - apply in_round_nondeg; [done|]. unfold place, n_row, n_col. cbn [fst snd]. split; done.
    - apply elem_nbrs; [by apply cell_parity|].
      unfold place, n_row, n_col, n_time, ps, adjacent. cbn [fst snd].
      split; [lia|]. split; [exact Hc'|]. destruct (decide _); done. }
  assert (P00 : P 0 c0).
  { unfold P, ps, place. destruct (start_cell Hnd) as [Hc Hi].
    assert (E : (2 * 0 + 1, 2 * c0 + 1) = start_loc isx) by (unfold c0, start_loc; by destruct isx).
    rewrite E. rewrite decide_True by done. exact Hstart. }
  assert (Hc0 : 0 <= c0 <= 1) by (unfold c0; destruct isx; lia).
  assert (Hc0dw : c0 <= dw - 1).
  { destruct (start_cell Hnd) as [(_ & _ & _ & Hx & _) _]. unfold c0. unfold start_loc in Hx. destruct isx; cbn in Hx; lia. }
  (* along the first row *)
  assert (Prow : forall k, 0 <= k -> c0 + 2 * k <= dw - 1 -> P 0 (c0 + 2 * k)).
  { intros k Hk. pattern k. apply natlike_ind; [|clear k Hk; intros k Hk IH Hle|done].
    - intros _. by replace (c0 + 2 * 0) with c0 by lia.
    - assert (Hp : P 0 (c0 + 2 * k)) by (apply IH; lia).
      apply (Hstep (-1) (c0 + 2 * k + 1)).
      + apply (Hstep 0 (c0 + 2 * k)); [done|..]; rewrite ?Hcell; try zmod.
      + apply Hcell. zmod.
      + apply Hcell. zmod.
      + lia.
      + lia. }
  assert (Prow' : forall c, -1 <= c <= dw - 1 -> (c + c0) mod 2 = 0 -> P 0 c).
  { intros c Hc Hp. destruct (decide (c < c0)) as [Hlt|Hge].
    - (* only c = -1 for X *)
      assert (c = -1 /\ c0 = 1) as [-> E1] by zmod.
      apply (Hstep (-1) 0).
      + apply (Hstep 0 c0); [done|..]; rewrite ?Hcell; try zmod.
      + apply Hcell. zmod.
      + apply Hcell. zmod.
      + lia.
      + lia.
    - replace c with (c0 + 2 * ((c - c0) / 2)) by zmod. apply Prow; zmod. }
  assert (Pcol : forall k c, 0 <= k -> 2 * k <= dh - 1 -> -1 <= c <= dw - 1 -> (c + c0) mod 2 = 0 -> P (2 * k) c).
  { intros k c Hk. pattern k. apply natlike_ind; [|clear k Hk; intros k Hk IH Hle Hc Hp|done].
    - intros. by apply Prow'.
    - assert (Hq : P (2 * k) c) by (apply IH; [lia|done..]).
      destruct (decide (c + 1 <= dw - 1)) as [Hr|Hr].
      + apply (Hstep (2 * k + 1) (c + 1)).
        * apply (Hstep (2 * k) c); [done|..]; rewrite ?Hcell; zmod.
        * apply Hcell. zmod.
        * apply Hcell. zmod.
        * lia.
        * lia.
      + apply (Hstep (2 * k + 1) (c - 1)).
        * apply (Hstep (2 * k) c); [done|..]; rewrite ?Hcell; zmod.
        * apply Hcell. zmod.
        * apply Hcell. zmod.
        * lia.
        * lia. }
  intros n Hn. apply in_round_nondeg in Hn as [Hc ->]; [|done].
  assert (E : (n_row n, n_col n) = ps ((n_row n - 1) / 2) ((n_col n - 1) / 2)).
  { destruct Hc as (Hy & Hx & _). cbn [fst snd] in Hy, Hx. unfold ps. f_equal; zmod. }
  rewrite E in Hc |- *. revert Hc. generalize ((n_row n - 1) / 2), ((n_col n - 1) / 2). intros r c Hc. clear E.
  change (P r c). pose proof Hc as (Hr & Hcc & Hp)%Hcell.
  destruct (decide (r mod 2 = 0)) as [He|Ho].
  - replace r with (2 * (r / 2)) by zmod. apply Pcol; zmod.
  - destruct (decide (c + 1 <= dw - 1)) as [Hd|Hd].
    + apply (Hstep (r + 1) (c + 1)); [|apply Hcell; zmod|done|lia|lia].
      replace (r + 1) with (2 * ((r + 1) / 2)) by zmod. apply Pcol; zmod.
    + apply (Hstep (r + 1) (c - 1)); [|apply Hcell; zmod|done|lia|lia].
      replace (r + 1) with (2 * ((r + 1) / 2)) by zmod. apply Pcol; zmod.
Qed.

(** ** One round *)
Lemma unit_add_node g n : lg_ok g -> unit_weights g -> unit_weights (lg_add_node n g).
Proof. intros Hg Hu a b w. rewrite edge_w_add_node by done. apply Hu. Qed.

Lemma make_layer_ok g t : lg_ok g -> unit_weights g -> ~ has_node g (at_time t (start_loc isx)) ->
  exists g', make_layer isx dh dw g t = Ok g' /\ lg_ok g' /\ unit_weights g' /\
    (forall n, has_node g n -> has_node g' n) /\ has_node g' (at_time t (start_loc isx)) /\
    (forall n, has_node g' n -> has_node g n \/ in_round t n) /\
    (nondeg ->
       (forall n, has_node g' n <-> has_node g n \/ in_round t n) /\
       (forall a b, edge_w g' a b 1 <-> edge_w g a b 1 \/ (in_round t a /\ in_round t b /\ adjacent (n_row a, n_col a) (n_row b, n_col b)))).
Proof.
  intros Hg Hu Hs. set (st := at_time t (start_loc isx)) in *.
  pose (g0 := lg_add_node st g).
  assert (Hg0 : lg_ok g0) by (by apply lg_add_node_ok).
  assert (Hstart : in_round t st).
  { left. split; [done|]. left. unfold st, at_time, n_row, n_col. cbn. by destruct (start_loc isx). }
  destruct (dfs_spec (nbrs isx dh dw t) (round_set t)) with (g0 := g0) (fuel := dfs_fuel dh dw) (cur := st) (V := @nil node) (g := g0)
    as (V' & g' & E & Hinv & HV & Hkeep & Hcl).
  - intros n m Hn%elem_round_set Hm. apply elem_round_set. by eapply nbrs_round.
  - intros n. apply nbrs_irr.
  - split; try done.
    + by apply unit_add_node.
    + intros n Hn. by apply elem_of_nil in Hn.
    + by left.
    + intros y x Hy. by apply elem_of_nil in Hy.
    + by left.
  - by apply elem_round_set.
  - apply has_node_add_node. by right.
  - eapply Nat.le_lt_trans; [|apply (round_set_size t)]. unfold missing.
    apply subseteq_size. apply subseteq_difference_l. done.
  - unfold make_layer. fold st. rewrite populate_dfs. change (lg_add_node st g) with g0. rewrite E. cbn [snd].
    exists g'. destruct Hinv as [Hok Hun HVU Hnodes Hk Hlink Hed Hek].
    split; [done|]. split; [done|]. split; [done|].
    assert (Hstg : has_node g' st).
    { apply Hk. apply has_node_add_node. by right. }
    split. { intros n Hn. apply Hk. apply has_node_add_node. by left. }
    split; [done|].
    assert (Hup : forall n, has_node g' n -> has_node g n \/ in_round t n).
    { intros n Hn. apply Hnodes in Hn as [Hn|Hn%elem_round_set]; [|by right].
      apply has_node_add_node in Hn as [Hn| ->]; [by left|by right]. }
    split; [done|].
    intros Hnd.
    assert (Hall : forall n, in_round t n -> n ∈ V').
    { apply (closed_all t (fun n => n ∈ V')); [done|..].
      - apply HV. left.
      - intros n m Hn Hr Hm. apply (Hcl n m Hn); [right; apply not_elem_of_nil|done]. }
    split.
    + intros n. split; [apply Hup|]. intros [Hn|Hn].
      * apply Hk. apply has_node_add_node. by left.
      * by apply HVU, Hall.
    + intros a b. split.
      * intros Hab. apply Hed in Hab as [Hab|Hab].
        -- left. exact (proj1 (edge_w_add_node g st a b 1 Hg) Hab).
        -- right. assert (Hsym : forall p q, adjacent p q -> adjacent q p) by (unfold adjacent; intros; lia).
           destruct Hab as [[Ha%elem_round_set Hb] | [Hb%elem_round_set Ha]].
           ++ split; [done|]. split; [by eapply nbrs_round|]. apply elem_nbrs in Hb; [tauto|by eapply in_round_parity].
           ++ split; [by eapply nbrs_round|]. split; [done|]. apply elem_nbrs in Ha as [Ha _]; [|by eapply in_round_parity]. by apply Hsym.
      * intros [Hab|(Ha & Hb & Hadj)].
        -- apply Hek. exact (proj2 (edge_w_add_node g st a b 1 Hg) Hab).
        -- assert (Hnb : forall x y, in_round t x -> in_round t y -> adjacent (n_row x, n_col x) (n_row y, n_col y) -> y ∈ nbrs isx dh dw t x).
           { intros x y Hx Hy Hxy. apply elem_nbrs; [by eapply in_round_parity|]. split; [done|].
             apply in_round_nondeg in Hy as [Hyc Hy]; [|done]. split; [done|].
             unfold place in Hy. destruct (decide _); rewrite Hy; done. }
           apply Hlink; [by apply Hall|by apply Hnb|]. apply Hnb; [done..|]. unfold adjacent in *. lia.
Qed.

(** ** All rounds *)
Lemma layers_ok l : NoDup l -> forall g, lg_ok g -> unit_weights g ->
  (forall t, t ∈ l -> ~ has_node g (at_time t (start_loc isx))) -> (forall t, t ∈ l -> 0 <= t) ->
  exists g', rfold (make_layer isx dh dw) g l = Ok g' /\ lg_ok g' /\ unit_weights g' /\
    (forall n, has_node g n -> has_node g' n) /\ (forall t, t ∈ l -> has_node g' (at_time t (start_loc isx))) /\
    (forall n, has_node g' n -> has_node g n \/ exists t, t ∈ l /\ in_round t n) /\
    (nondeg ->
       (forall n, has_node g' n <-> has_node g n \/ exists t, t ∈ l /\ in_round t n) /\
       (forall a b, edge_w g' a b 1 <-> edge_w g a b 1 \/
          exists t, t ∈ l /\ in_round t a /\ in_round t b /\ adjacent (n_row a, n_col a) (n_row b, n_col b))).
Proof.
  induction l as [|t l IH]; intros Hnd g Hg Hu Hs Hpos.
  - exists g. cbn. split_and!; try done.
    + intros t Ht. by apply elem_of_nil in Ht.
    + by left.
    + intros _. split.
      * intros n. split; [by left|]. intros [?|(t & Ht & _)]; [done|]. by apply elem_of_nil in Ht.
      * intros a b. split; [by left|]. intros [?|(t & Ht & _)]; [done|]. by apply elem_of_nil in Ht.
  - apply NoDup_cons in Hnd as [Htl Hnd].
    destruct (make_layer_ok g t Hg Hu) as (g1 & E1 & Hg1 & Hu1 & Hk1 & Hs1 & Hup1 & Hx1).
    { apply Hs. left. }
    destruct (IH Hnd g1 Hg1 Hu1) as (g2 & E2 & Hg2 & Hu2 & Hk2 & Hs2 & Hup2 & Hx2).
    { intros t' Ht' Hn. apply Hup1 in Hn as [Hn|Hn].
      - revert Hn. apply Hs. by right.
      - destruct Hn as [[Ht _] | [Ht _]].
        + cbn in Ht. subst t'. done.
        + cbn in Ht. specialize (Hpos t' (elem_of_list_further _ _ _ Ht')). lia. }
    { intros t' Ht'. apply Hpos. by right. }
    exists g2. cbn. rewrite E1. split_and!; try done.
    + intros n Hn. by apply Hk2, Hk1.
    + intros t' [-> | Ht']%elem_of_cons; [by apply Hk2|by apply Hs2].
    + intros n [Hn|(t' & Ht' & Hn)]%Hup2.
      * apply Hup1 in Hn as [?|?]; [by left|]. right. exists t. split; [left|done].
      * right. exists t'. split; [by right|done].
    + intros Hn. destruct (Hx1 Hn) as [Hn1 He1]. destruct (Hx2 Hn) as [Hn2 He2]. split.
      * intros n. rewrite Hn2, Hn1. split.
        -- intros [[?|?]|(t' & Ht' & ?)]; [by left|right; exists t; split; [left|done]|right; exists t'; split; [by right|done]].
        -- intros [?|(t' & [-> | Ht']%elem_of_cons & ?)]; [by left; left|by left; right|]. right. by exists t'.
      * intros a b. rewrite He2, He1. split.
        -- intros [[?|?]|(t' & Ht' & ?)]; [by left|right; exists t; split; [left|done]|right; exists t'; split; [by right|done]].
        -- intros [?|(t' & [-> | Ht']%elem_of_cons & ?)]; [by left; left|by left; right|]. right. by exists t'.
Qed.

(** ** Edges between rounds *)
Definition time_edge (ps : list loc2) (ts : list Z) (a b : node) : Prop :=
  exists p t, p ∈ ps /\ t ∈ ts /\ same_ends a b (at_time t p) (at_time (t + 1) p).
Lemma add_unit_edge g a b : lg_ok g -> unit_weights g -> has_node g a -> has_node g b ->
  exists g', lg_add_edge a b 1 g = Ok g' /\ lg_ok g' /\ unit_weights g' /\ (forall n, has_node g' n <-> has_node g n) /\
    (forall c d, edge_w g' c d 1 <-> edge_w g c d 1 \/ same_ends c d a b).
Proof.
  intros Hg Hu Ha Hb. destruct (lg_add_edge_ok g a b 1 Hg Ha Hb) as (g' & E & Hg' & Hn & _ & He).
  exists g'. split_and!; try done.
  - intros c d w. rewrite He. intros [[_ ?] | [_ H]]; [done|]. by apply Hu in H.
  - intros n. unfold has_node. by rewrite Hn.
  - intros c d. rewrite He. split; [tauto|]. intros [H|H]; [|tauto].
    destruct (decide (c = a /\ d = b \/ c = b /\ d = a)) as [Hs|Hs]; [left|right]; done.
Qed.
Lemma time_edges_1 p ts : forall g, lg_ok g -> unit_weights g ->
  (forall t, t ∈ ts -> has_node g (at_time t p) /\ has_node g (at_time (t + 1) p)) ->
  exists g', rfold (fun g t => lg_add_edge (at_time t p) (at_time (t + 1) p) 1 g) g ts = Ok g' /\
    lg_ok g' /\ unit_weights g' /\ (forall n, has_node g' n <-> has_node g n) /\
    (forall a b, edge_w g' a b 1 <-> edge_w g a b 1 \/ time_edge [p] ts a b).
Proof.
  induction ts as [|t ts IH]; intros g Hg Hu Hn.
  - exists g. cbn. split_and!; try done. intros a b. split; [by left|]. intros [?|(p' & t & _ & Ht & _)]; [done|]. by apply elem_of_nil in Ht.
  - destruct (add_unit_edge g (at_time t p) (at_time (t + 1) p) Hg Hu) as (g1 & E1 & Hg1 & Hu1 & Hn1 & He1); [apply Hn; left..|].
    destruct (IH g1 Hg1 Hu1) as (g2 & E2 & Hg2 & Hu2 & Hn2 & He2).
    { intros t' Ht'. rewrite !Hn1. apply Hn. by right. }
    exists g2. cbn. rewrite E1. split_and!; try done.
    + intros n. by rewrite Hn2, Hn1.
    + intros a b. rewrite He2, He1. unfold time_edge. split.
      * intros [[?|?]|(p' & t' & Hp' & Ht' & ?)]; [by left|right; exists p, t; split_and!; [left|left|done]|].
        right. exists p', t'. split_and!; [done|by right|done].
      * intros [?|(p' & t' & Hp' & [-> | Ht']%elem_of_cons & Hs)]; [by left; left| |].
        -- apply elem_of_list_singleton in Hp' as ->. by left; right.
        -- right. exists p', t'. done.
Qed.
Lemma time_edges_all ns ts : forall g, lg_ok g -> unit_weights g ->
  (forall n t, n ∈ ns -> t ∈ ts -> has_node g (at_time t (n_row n, n_col n)) /\ has_node g (at_time (t + 1) (n_row n, n_col n))) ->
  exists g', rfold (fun g n => rfold (fun g t => lg_add_edge (at_time t (n_row n, n_col n)) (at_time (t + 1) (n_row n, n_col n)) 1 g) g ts) g ns = Ok g' /\
    lg_ok g' /\ unit_weights g' /\ (forall n, has_node g' n <-> has_node g n) /\
    (forall a b, edge_w g' a b 1 <-> edge_w g a b 1 \/ time_edge ((fun n => (n_row n, n_col n)) <$> ns) ts a b).
Proof.
  induction ns as [|n ns IH]; intros g Hg Hu Hn.
  - exists g. cbn. split_and!; try done. intros a b. split; [by left|]. intros [?|(p' & t & Ht & _)]; [done|]. by apply elem_of_nil in Ht.
  - destruct (time_edges_1 (n_row n, n_col n) ts g Hg Hu) as (g1 & E1 & Hg1 & Hu1 & Hn1 & He1).
    { intros t Ht. apply Hn; [left|done]. }
    destruct (IH g1 Hg1 Hu1) as (g2 & E2 & Hg2 & Hu2 & Hn2 & He2).
    { intros n' t' Hn' Ht'. rewrite !Hn1. apply Hn; [by right|done]. }
    exists g2. cbn [rfold]. rewrite E1. split_and!; try done.
    + intros m. by rewrite Hn2, Hn1.
    + intros a b. rewrite He2, He1. unfold time_edge. split.
      * intros [[?|(p' & t' & Hp' & Ht' & ?)]|(p' & t' & Hp' & Ht' & ?)]; [by left| |].
        -- apply elem_of_list_singleton in Hp' as ->. right. exists (n_row n, n_col n), t'. split_and!; [left|done|done].
        -- right. exists p', t'. split_and!; [by right|done|done].
      * intros [?|(p' & t' & [-> | Hp']%elem_of_cons & Ht' & Hs)]; [by left; left| |].
        -- left. right. exists (n_row n, n_col n), t'. split_and!; [left|done|done].
        -- right. exists p', t'. done.
Qed.

(** ** The whole graph *)
Theorem syndrome_graph_ok T : exists g, make_syndrome_graph isx dh dw T = Ok g /\ lg_ok g /\ unit_weights g /\
  (nondeg ->
    (forall n, has_node g n <-> 0 < T /\ sg_node isx dh dw T n) /\
    (forall a b, edge_w g a b 1 <-> sg_edge isx dh dw T a b)).
Proof.
  destruct (layers_ok (py_range T) (NoDup_seqZ 0 T) lg_empty lg_empty_ok) as (g & E & Hg & Hu & _ & Hs & Hup & Hx).
  { intros a b w (i & j & _ & _ & H). cbn in H. by rewrite lookup_empty in H. }
  { intros t _ H. by apply elem_of_nil in H. }
  { intros t Ht%elem_of_seqZ. lia. }
  assert (Hempty : forall n, ~ has_node (@lg_empty Z) n) by (intros n Hn; by apply elem_of_nil in Hn).
  assert (Hempty_e : forall a b, ~ edge_w (@lg_empty Z) a b 1).
  { intros a b (i & j & H & _). done. }
  unfold make_syndrome_graph. rewrite E.
  set (ns := filter (fun n => n_time n = 0) (pg_nodes (lg_g g))).
  assert (Hns : forall n, n ∈ ns <-> n_time n = 0 /\ has_node g n) by (intros n; unfold ns; by rewrite elem_of_list_filter).
  assert (Hrow : forall n t, has_node g n -> n_time n = 0 -> 0 <= t < T -> has_node g (at_time t (n_row n, n_col n))).
  { intros n t Hn Ht0 Ht. apply Hup in Hn as [Hn|(t' & Ht' & Hr)]; [by destruct (Hempty n)|].
    destruct Hr as [[Htn Hr] | [Htn _]]; [|lia].
    destruct Hr as [Hr|[Hc Hi]].
    - rewrite Hr. apply Hs. apply elem_of_seqZ. lia.
    - assert (Hnd : nondeg).
      { clear - Hc Hi Hsize. pose proof size_pos as (H1 & H2 & H3 & H4). unfold nondeg, inside, cell, level, extent in *. destruct isx; cbn in *; zmod. }
      apply (Hx Hnd). right. exists t. split; [apply elem_of_seqZ; lia|]. left. split; [done|]. right. done. }
  destruct (time_edges_all ns (py_range (T - 1)) g Hg Hu) as (g' & E' & Hg' & Hu' & Hn' & He').
  { intros n t Hn Ht. apply Hns in Hn as [Ht0 Hn]. apply elem_of_seqZ in Ht. split; apply Hrow; (done || lia). }
  exists g'. split; [exact E'|]. split; [done|]. split; [done|].
  intros Hnd. destruct (Hx Hnd) as [Hxn Hxe].
  assert (Hnode : forall n, has_node g' n <-> 0 < T /\ sg_node isx dh dw T n).
  { intros n. rewrite Hn', Hxn. unfold sg_node. split.
    - intros [Hn|(t & Ht & Hr)]; [by destruct (Hempty n)|]. apply elem_of_seqZ in Ht.
      apply in_round_nondeg in Hr as [Hc Hr]; [|done]. split; [lia|]. split; [exact Hc|].
      unfold place in Hr. change (n.1.2, n.2) with (n_row n, n_col n). destruct (decide _); rewrite Hr; cbn; lia.
    - intros (HT & Hc & Ht). right. change (n.1.2, n.2) with (n_row n, n_col n) in *.
      destruct (decide _) as [Hi|Hi].
      + exists (n.1.1). split; [apply elem_of_seqZ; lia|]. apply in_round_nondeg; [done|]. split; [done|].
        unfold place. rewrite decide_True by done. by destruct n as [[? ?] ?].
      + exists 0. split; [apply elem_of_seqZ; lia|]. apply in_round_nondeg; [done|]. split; [done|].
        unfold place. rewrite decide_False by done. rewrite <- Ht. by destruct n as [[? ?] ?]. }
  split; [done|].
  intros a b. rewrite He', Hxe. unfold sg_edge. split.
  - intros [[H|(t & Ht & Ha & Hb & Hadj)] | (p & t & Hp & Ht & Hs')]; [by destruct (Hempty_e a b)| |].
    + left. apply elem_of_seqZ in Ht. apply in_round_nondeg in Ha as [Hac Ha]; [|done]. apply in_round_nondeg in Hb as [Hbc Hb]; [|done].
      exists t, (n_row a, n_col a), (n_row b, n_col b). split_and!; (done || lia).
    + right. apply elem_of_list_fmap in Hp as (n & -> & Hn). apply elem_of_seqZ in Ht.
      apply Hns in Hn as [Ht0 Hn]. apply Hn', Hnode in Hn as (_ & Hc & Hi).
      change (n.1.2, n.2) with (n_row n, n_col n) in *.
      destruct (decide _) as [Hin|Hin]; [|unfold n_time in Ht0; lia].
      exists t, (n_row n, n_col n). split; [lia|]. split; [done|]. split; [done|].
      unfold same_ends, at_time in Hs'. cbn [fst snd] in *. tauto.
  - intros [(t & p & q & Ht & Hp & Hq & Hadj & -> & ->) | (t & p & Ht & Hc & Hi & Hs')].
    + left. right. exists t. split; [apply elem_of_seqZ; lia|].
      split; [|split].
      * apply in_round_nondeg; [done|]. unfold place, n_row, n_col. cbn [fst snd]. by destruct p.
      * apply in_round_nondeg; [done|]. unfold place, n_row, n_col. cbn [fst snd]. by destruct q.
      * unfold place, n_row, n_col. cbn [fst snd]. by destruct p, q.
    + right. exists p, t. split; [|split].
      * apply elem_of_list_fmap. exists (0, p.1, p.2). split; [by destruct p|]. apply Hns. split; [done|].
        apply Hn', Hnode. split; [lia|]. unfold sg_node. cbn [fst snd]. destruct p as [y x]. cbn [fst snd].
        split; [done|]. rewrite decide_True by done. lia.
      * apply elem_of_seqZ. lia.
      * unfold same_ends, at_time. destruct p as [y x]. cbn [fst snd] in *. tauto.
Qed.
End lattice.
