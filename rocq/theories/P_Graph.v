(** Properties C23 and C24: the decoder's syndrome graph. *)
From Verif Require Import ConstructFacts.
From Verif Require Export SyndromeGraph.
From stdpp Require Export list.
Open Scope Z_scope.

(** Stabilizers of one type: number, doubled coordinates, operator, and the single-qubit error
    that flips them (for XXZZ: X errors flip Z stabilizers; for XZZX the roles of X and Z are
    exchanged on the data qubits with an even index). *)
Definition nsyn (isx : bool) (dh dw : Z) : Z := if isx then num_syn_x dh dw else num_syn_z dh dw.
Definition coordk (isx : bool) (dw loc : Z) : Z * Z := if isx then coord_x dw loc else coord_z dw loc.
Definition stabk (isx : bool) (c : code) (dh dw loc : Z) : pauli Z := if isx then stab_x c dh dw loc else stab_z c dh dw loc.
Definition err_at (isx : bool) (c : code) (dh dw k : Z) : pauli Z :=
  cconj c (even_set dh dw) (if isx then Zon {[k]} else Xon {[k]}).
(** Data qubits on the logical readout path: the top row for Z, the left column for X. *)
Definition on_readout (isx : bool) (dw k : Z) : Prop := if isx then k mod dw = 0 else k / dw = 0.
(** Positions of the boundary nodes on the readout side. *)
Definition readout_side (isx : bool) (n : node) : Prop := n_time n = -1 /\ level isx (n_row n, n_col n) = -1.

Lemma coordk_cell isx dh dw p : valid_size dh dw ->
  (exists loc, 0 <= loc < nsyn isx dh dw /\ coordk isx dw loc = p) <-> cell isx dh dw p /\ inside isx dh dw p.
Proof.
  intros Hv. destruct p as [y x]. unfold cell, inside, level, extent, nsyn, coordk. cbn [fst snd].
  pose proof (size_pos dh dw Hv) as (H1 & H2 & H3 & H4).
  destruct isx.
  - split.
    + intros (loc & Hl & E). rewrite (coord_x_corner dh) in E by done. injection E as <- <-.
      destruct (x_loc_corner _ _ _ Hv Hl) as (Hr & Hc & Hm). zmod.
    + intros [(Hy & Hx & Ry & Rx & Hp) Hi].
      destruct (coord_x_surj dh dw ((y - 1) / 2) ((x - 1) / 2) Hv) as (loc & Hl & E).
      { unfold x_corner. zmod. }
      exists loc. split; [done|]. rewrite E. f_equal; zmod.
  - split.
    + intros (loc & Hl & E). rewrite (coord_z_corner dh) in E by done. injection E as <- <-.
      destruct (z_loc_corner _ _ _ Hv Hl) as (Hr & Hc & Hm). zmod.
    + intros [(Hy & Hx & Ry & Rx & Hp) Hi].
      destruct (coord_z_surj dh dw ((y - 1) / 2) ((x - 1) / 2) Hv) as (loc & Hl & E).
      { unfold z_corner. zmod. }
      exists loc. split; [done|]. rewrite E. f_equal; zmod.
Qed.

(** * C23 *)
Theorem C23_syndrome_graph isx dh dw T : valid_size dh dw -> 3 <= extent isx dh dw -> 1 <= T ->
  exists g, make_syndrome_graph isx dh dw T = Ok g /\
    (* one node per round and stabilizer, and one per boundary position *)
    NoDup (pg_nodes (lg_g g)) /\
    (forall n, n ∈ pg_nodes (lg_g g) <->
       (exists t loc, 0 <= t < T /\ 0 <= loc < nsyn isx dh dw /\ n = (t, (coordk isx dw loc).1, (coordk isx dw loc).2)) \/
       (exists p, cell isx dh dw p /\ ~ inside isx dh dw p /\ n = (-1, p.1, p.2))) /\
    (forall n i, lg_map g !! n = Some i <-> pg_nodes (lg_g g) !! i = Some n) /\
    (* the edges, all of weight one *)
    (forall a b w, edge_w g a b w <-> w = 1 /\ sg_edge isx dh dw T a b).
Proof.
  intros Hv H3 HT. destruct (syndrome_graph_ok isx dh dw Hv T) as (g & E & Hok & Hu & Hx).
  destruct (Hx H3) as [Hn He]. exists g. split; [done|]. split; [apply Hok|]. split; [|split; [apply Hok|]].
  - intros n. rewrite (Hn n). unfold sg_node. split.
    + intros (_ & Hc & Ht). destruct (decide _) as [Hi|Hi].
      * left. destruct (proj2 (coordk_cell isx dh dw (n.1.2, n.2) Hv) (conj Hc Hi)) as (loc & Hl & El).
        exists (n.1.1), loc. split; [done|]. split; [done|]. rewrite El. by destruct n as [[? ?] ?].
      * right. exists (n.1.2, n.2). split; [done|]. split; [done|]. rewrite <- Ht. by destruct n as [[? ?] ?].
    + intros [(t & loc & Ht & Hl & ->) | (p & Hc & Hi & ->)]; cbn [fst snd].
      * assert (Hci : cell isx dh dw (coordk isx dw loc) /\ inside isx dh dw (coordk isx dw loc)) by (apply coordk_cell; eauto).
        destruct (coordk isx dw loc) as [y x]. destruct Hci. split; [lia|]. split; [done|]. by rewrite decide_True.
      * destruct p as [y x]. split; [lia|]. split; [done|]. by rewrite decide_False.
  - intros a b w. split.
    + intros H. pose proof (Hu _ _ _ H) as ->. split; [done|]. by apply He.
    + intros [-> H]. by apply He.
Qed.
Print Assumptions C23_syndrome_graph.

(** Construction succeeds for every odd size and any T, also for one-wide lattices. *)
Theorem C23_total dh dw T : valid_size dh dw ->
  exists D, rotated_decoder (Some (DTup [dh; dw])) (Some T) = Ok D /\ dec_h D = dh /\ dec_w D = dw /\ dec_T D = T /\
    (exists gx, dec_X D = Some gx /\ make_syndrome_graph true dh dw T = Ok gx) /\
    (exists gz, dec_Z D = Some gz /\ make_syndrome_graph false dh dw T = Ok gz).
Proof.
  intros Hv. destruct (syndrome_graph_ok true dh dw Hv T) as (gx & Ex & _).
  destruct (syndrome_graph_ok false dh dw Hv T) as (gz & Ez & _).
  pose proof (size_pos dh dw Hv) as (H1 & H2 & H3 & H4).
  unfold rotated_decoder, decoder_d. rewrite H3, H4. cbn [orb bool_decide].
  rewrite !bool_decide_eq_false_2 by lia. cbn [orb]. rewrite Ex, Ez. eexists. split; [reflexivity|].
  cbn. eauto 10.
Qed.
Print Assumptions C23_total.

(** The number of boundary nodes. *)
Example C23_ex : valid_size 3 5 /\ 3 <= extent true 3 5 /\ 3 <= extent false 3 5 /\
  match make_syndrome_graph false 3 5 2 with
  | Ok g => length (pg_nodes (lg_g g)) = 18%nat /\ size (pg_edges (lg_g g)) = 36%nat
  | _ => False end.
Proof. split; [done|]. split; [done|]. split; [done|]. vm_compute. split; reflexivity. Qed.

(** * C24 *)
(** The two positions of type [isx] next to data qubit k. *)
Definition ends (isx : bool) (dw k : Z) : (Z * Z) * (Z * Z) :=
  let i := k / dw in let j := k mod dw in
  if xorb isx (Z.even (i + j)) then ((2*i-1, 2*j-1), (2*i+1, 2*j+1)) else ((2*i-1, 2*j+1), (2*i+1, 2*j-1)).
Lemma ends_diag isx dw k p : p = (ends isx dw k).1 \/ p = (ends isx dw k).2 <->
  p ∈ (if isx then diag_x (k / dw) (k mod dw) else diag_z (k / dw) (k mod dw)).
Proof.
  unfold ends, diag_x, diag_z, diag_main, diag_anti. destruct isx, (Z.even _); cbn [xorb fst snd];
    rewrite !elem_of_cons, elem_of_nil; tauto.
Qed.
Lemma data_ij dh dw k : 0 < dw -> 0 <= k < dh * dw -> 0 <= k / dw < dh /\ 0 <= k mod dw < dw /\ k = k / dw * dw + k mod dw.
Proof.
  intros Hw Hk. pose proof (Z.mod_pos_bound k dw Hw). pose proof (Z.div_mod k dw ltac:(lia)). nia.
Qed.
Lemma ends_cells isx dh dw k : valid_size dh dw -> 0 <= k < dh * dw ->
  cell isx dh dw (ends isx dw k).1 /\ cell isx dh dw (ends isx dw k).2 /\ adjacent (ends isx dw k).1 (ends isx dw k).2.
Proof.
  intros Hv Hk. pose proof (size_pos dh dw Hv) as (H1 & H2 & _). destruct (data_ij dh dw k H2 Hk) as (Hi & Hj & _).
  unfold ends, cell, adjacent. pose proof (even_mod2 (k / dw + k mod dw)) as He.
  revert He Hi Hj. generalize (k / dw), (k mod dw). intros i j He Hi Hj.
  destruct isx, (Z.even (i + j)); cbn [xorb fst snd];
    (assert (Hp : (i + j) mod 2 = 0) by (apply He; done)) || (assert (Hp : (i + j) mod 2 <> 0) by (intros ?; assert (false = true) by (by apply He); done));
    clear He; zmod.
Qed.
Lemma ends_touching isx dh dw k p : valid_size dh dw -> 0 <= k < dh * dw -> cell isx dh dw p ->
  k ∈ touching dh dw p.1 p.2 <-> p = (ends isx dw k).1 \/ p = (ends isx dw k).2.
Proof.
  intros Hv Hk Hc. unfold touching. rewrite elem_of_filter, elem_of_data_set. destruct p as [y x].
  unfold ends, cell in *. cbn [fst snd] in *. pose proof (even_mod2 (k / dw + k mod dw)) as He.
  revert He. generalize (k / dw), (k mod dw). intros i j He.
  destruct isx, (Z.even (i + j)); cbn [xorb fst snd]; rewrite !pair_equal_spec;
    (assert (Hp : (i + j) mod 2 = 0) by (apply He; done)) || (assert (Hp : (i + j) mod 2 <> 0) by (intros ?; assert (false = true) by (by apply He); done));
    clear He; destruct Hc as (Hy & Hx & _ & _ & Hp'); split; intros H; zmod.
Qed.
Lemma anti_err isx c dh dw k loc : valid_size dh dw -> 0 <= k < dh * dw -> 0 <= loc < nsyn isx dh dw ->
  anti (err_at isx c dh dw k) (stabk isx c dh dw loc) = true <->
  coordk isx dw loc = (ends isx dw k).1 \/ coordk isx dw loc = (ends isx dw k).2.
Proof.
  intros Hv Hk Hl. rewrite ends_diag. unfold err_at, stabk, coordk, nsyn in *. apply elem_of_data_set in Hk.
  destruct isx.
  - assert (E : stab_x c dh dw loc = cconj c (even_set dh dw) (stab_x XXZZ dh dw loc)) by (destruct c; [done|by apply stab_x_hconj]).
    rewrite E, anti_cconj, stab_x_XXZZ, anti_Xon by done. cbn [pz Zon]. rewrite dot_singleton_l. by apply x_box_diag.
  - assert (E : stab_z c dh dw loc = cconj c (even_set dh dw) (stab_z XXZZ dh dw loc)) by (destruct c; [done|by apply stab_z_hconj]).
    rewrite E, anti_cconj, stab_z_XXZZ, anti_Zon by done. cbn [px Xon]. rewrite dot_singleton_l. by apply z_box_diag.
Qed.
Definition logk (isx : bool) (c : code) (dh dw : Z) : pauli Z := if isx then log_x c dh dw else log_z c dh dw.
Lemma anti_err_log isx c dh dw k : valid_size dh dw -> 0 <= k < dh * dw ->
  anti (err_at isx c dh dw k) (logk isx c dh dw) = true <-> on_readout isx dw k.
Proof.
  intros Hv Hk. unfold err_at, logk, on_readout. apply elem_of_data_set in Hk. destruct isx.
  - assert (E : log_x c dh dw = cconj c (even_set dh dw) (Xon (col_set dh dw 0))) by (by destruct c).
    rewrite E, anti_cconj, anti_Xon. cbn [pz Zon]. rewrite dot_singleton_l, mem_true, elem_of_col_set. tauto.
  - assert (E : log_z c dh dw = cconj c (even_set dh dw) (Zon (row_set dh dw 0))) by (by destruct c).
    rewrite E, anti_cconj, anti_Zon. cbn [px Xon]. rewrite dot_singleton_l, mem_true, elem_of_row_set. tauto.
Qed.
Lemma ends_readout isx dh dw t k : valid_size dh dw -> 3 <= extent isx dh dw -> 0 <= k < dh * dw ->
  readout_side isx (place isx dh dw t (ends isx dw k).1) \/ readout_side isx (place isx dh dw t (ends isx dw k).2) <-> on_readout isx dw k.
Proof.
  intros Hv H3 Hk. pose proof (size_pos dh dw Hv) as (H1 & H2 & _). destruct (data_ij dh dw k H2 Hk) as (Hi & Hj & _).
  unfold readout_side, place, n_time, n_row, n_col, ends, on_readout. cbn [fst snd].
  revert Hi Hj. generalize (k / dw), (k mod dw). intros i j Hi Hj.
  destruct isx, (Z.even (i + j)); unfold inside, level, extent in *; cbn [xorb fst snd] in *;
    destruct (decide _), (decide _); lia.
Qed.

(** Each single-qubit error between rounds t and t+1 is one edge: its stabilizer endpoints are
    exactly the events the error causes, and it ends on the readout boundary iff the error
    flips the logical readout. *)
Theorem C24_edge_of_flip c isx dh dw T g t k : valid_size dh dw -> 3 <= extent isx dh dw ->
  make_syndrome_graph isx dh dw T = Ok g -> 0 <= t < T -> 0 <= k < dh * dw ->
  exists a b, edge_w g a b 1 /\
    (forall loc, 0 <= loc < nsyn isx dh dw ->
       (anti (err_at isx c dh dw k) (stabk isx c dh dw loc) = true <->
        (t, (coordk isx dw loc).1, (coordk isx dw loc).2) = a \/ (t, (coordk isx dw loc).1, (coordk isx dw loc).2) = b)) /\
    (anti (err_at isx c dh dw k) (logk isx c dh dw) = true <-> readout_side isx a \/ readout_side isx b) /\
    (forall p, cell isx dh dw p -> (k ∈ touching dh dw p.1 p.2 <-> place isx dh dw t p = a \/ place isx dh dw t p = b)).
Proof.
  intros Hv H3 Eg Ht Hk. destruct (syndrome_graph_ok isx dh dw Hv T) as (g' & E & _ & _ & Hx).
  rewrite E in Eg. injection Eg as ->. destruct (Hx H3) as [_ He].
  destruct (ends_cells isx dh dw k Hv Hk) as (Hc1 & Hc2 & Hadj).
  exists (place isx dh dw t (ends isx dw k).1), (place isx dh dw t (ends isx dw k).2).
  split; [|split; [|split]].
  - apply He. left. eauto 10.
  - intros loc Hl. rewrite anti_err by done.
    assert (Hci : cell isx dh dw (coordk isx dw loc) /\ inside isx dh dw (coordk isx dw loc)) by (apply coordk_cell; eauto).
    assert (Hpl : forall p, (t, (coordk isx dw loc).1, (coordk isx dw loc).2) = place isx dh dw t p <-> coordk isx dw loc = p).
    { intros p. unfold place. split.
      - destruct (coordk isx dw loc), p. cbn [fst snd]. destruct (decide _); intros [= ]; subst; (done || lia).
      - intros <-. rewrite decide_True by tauto. done. }
    by rewrite !Hpl.
  - rewrite anti_err_log by done. symmetry. by apply ends_readout.
  - intros p Hp. rewrite (ends_touching isx) by done. unfold place. split.
    + intros [-> | ->]; auto.
    + intros [[= _ ? ?] | [= _ ? ?]]; [left|right]; destruct p; destruct (ends isx dw k) as [[? ?] [? ?]]; cbn in *; congruence.
Qed.
Print Assumptions C24_edge_of_flip.

(** Conversely, each edge within a round comes from exactly one data qubit. *)
Theorem C24_flip_of_edge isx dh dw p q : valid_size dh dw ->
  cell isx dh dw p -> cell isx dh dw q -> adjacent p q ->
  exists k, 0 <= k < dh * dw /\ k ∈ touching dh dw p.1 p.2 /\ k ∈ touching dh dw q.1 q.2 /\
    forall k', 0 <= k' < dh * dw -> k' ∈ touching dh dw p.1 p.2 -> k' ∈ touching dh dw q.1 q.2 -> k' = k.
Proof.
  intros Hv Hp Hq Ha. pose proof (size_pos dh dw Hv) as (H1 & H2 & _).
  destruct p as [y x], q as [y' x']. unfold cell, adjacent in *. cbn [fst snd] in *.
  set (i := (y + y') / 4). set (j := (x + x') / 4).
  assert (Hi : 0 <= i < dh /\ 4 * i = y + y') by (unfold i; zmod).
  assert (Hj : 0 <= j < dw /\ 4 * j = x + x') by (unfold j; zmod).
  assert (Hd : (i * dw + j) / dw = i) by (apply idx_div; lia).
  assert (Hm : (i * dw + j) mod dw = j) by (apply idx_mod; lia).
  exists (i * dw + j). unfold touching. split; [nia|]. rewrite !elem_of_filter, !elem_of_data_set, Hd, Hm.
  split; [|split].
  - split; [lia|nia].
  - split; [lia|nia].
  - intros k' Hk'. rewrite !elem_of_filter. intros [Ht1 _] [Ht2 _].
    destruct (data_ij dh dw k' H2 Hk') as (_ & _ & E).
    assert (k' / dw = i) by lia. assert (k' mod dw = j) by lia. nia.
Qed.
Print Assumptions C24_flip_of_edge.
(** The edge of data qubit 0 at time 1 of the Z graph touches the readout boundary. *)
Example C24_ex : valid_size 3 5 /\ 3 <= extent false 3 5 /\ anti (err_at false XZZX 3 5 0) (logk false XZZX 3 5) = true /\
  ends false 5 0 = ((-1, -1), (1, 1)) /\ place false 3 5 1 (1, 1) = (1, 1, 1).
Proof. split; [done|]. split; [done|]. vm_compute. done. Qed.
