(** Single data-qubit errors; the plaquette lists. *)
From Verif Require Export LatOps.
Open Scope Z_scope.

Lemma mem_box dh dw r c k : 0 < dw -> k ∈ data_set dh dw ->
  mem k (box dh dw r c) = true <-> (k / dw = r \/ k / dw = r + 1) /\ (k mod dw = c \/ k mod dw = c + 1).
Proof. intros. rewrite mem_true, elem_of_box by done. tauto. Qed.

(** Doubled coordinates of the two diagonals through data qubit (i, j). *)
Definition diag_main (i j : Z) : list (Z * Z) := [(2*i-1, 2*j-1); (2*i+1, 2*j+1)].
Definition diag_anti (i j : Z) : list (Z * Z) := [(2*i-1, 2*j+1); (2*i+1, 2*j-1)].
Definition diag_z (i j : Z) : list (Z * Z) := if Z.even (i + j) then diag_main i j else diag_anti i j.
Definition diag_x (i j : Z) : list (Z * Z) := if Z.even (i + j) then diag_anti i j else diag_main i j.

Lemma even_mod2 a : Z.even a = true <-> a mod 2 = 0.
Proof. rewrite mod2_even, bool_decide_eq_true. done. Qed.

Lemma z_box_diag dh dw k loc : valid_size dh dw -> k ∈ data_set dh dw -> 0 <= loc < num_syn_z dh dw ->
  mem k (box dh dw (zr dw loc) (zc dw loc)) = true <-> coord_z dw loc ∈ diag_z (k / dw) (k mod dw).
Proof.
  intros Hv Hk Hl. assert (Hw : 0 < dw) by (unfold valid_size in Hv; lia).
  rewrite mem_box by done. rewrite (coord_z_corner dh) by done.
  destruct (z_loc_corner _ _ _ Hv Hl) as (_&_&Hm). unfold diag_z, diag_main, diag_anti.
  pose proof (Z.div_mod (zr dw loc + zc dw loc) 2 ltac:(lia)).
  pose proof (Z.div_mod (k / dw + k mod dw) 2 ltac:(lia)).
  pose proof (Z.mod_pos_bound (k / dw + k mod dw) 2 ltac:(lia)).
  destruct (Z.even (k / dw + k mod dw)) eqn:E.
  - apply even_mod2 in E. rewrite !elem_of_cons, elem_of_nil, !pair_equal_spec. lia.
  - assert ((k / dw + k mod dw) mod 2 <> 0) by (rewrite <-even_mod2; congruence).
    rewrite !elem_of_cons, elem_of_nil, !pair_equal_spec. lia.
Qed.
Lemma x_box_diag dh dw k loc : valid_size dh dw -> k ∈ data_set dh dw -> 0 <= loc < num_syn_x dh dw ->
  mem k (box dh dw (xr dw loc) (xc dw loc)) = true <-> coord_x dw loc ∈ diag_x (k / dw) (k mod dw).
Proof.
  intros Hv Hk Hl. assert (Hw : 0 < dw) by (unfold valid_size in Hv; lia).
  rewrite mem_box by done. rewrite (coord_x_corner dh) by done.
  destruct (x_loc_corner _ _ _ Hv Hl) as (_&_&Hm). unfold diag_x, diag_main, diag_anti.
  pose proof (Z.div_mod (xr dw loc + xc dw loc) 2 ltac:(lia)).
  pose proof (Z.div_mod (k / dw + k mod dw) 2 ltac:(lia)).
  pose proof (Z.mod_pos_bound (k / dw + k mod dw) 2 ltac:(lia)).
  destruct (Z.even (k / dw + k mod dw)) eqn:E.
  - apply even_mod2 in E. rewrite !elem_of_cons, elem_of_nil, !pair_equal_spec. lia.
  - assert ((k / dw + k mod dw) mod 2 <> 0) by (rewrite <-even_mod2; congruence).
    rewrite !elem_of_cons, elem_of_nil, !pair_equal_spec. lia.
Qed.

(** A coordinate is inside the lattice of Z (X) plaquettes iff it is some stabilizer's. *)
Lemma coord_z_surj dh dw r c : valid_size dh dw -> z_corner dh dw r c ->
  exists loc, 0 <= loc < num_syn_z dh dw /\ coord_z dw loc = (2*r+1, 2*c+1).
Proof.
  intros Hv Hc. destruct (corner_z_loc _ _ _ _ Hv Hc) as (?&Hr&Hcc). exists (zloc dw r c).
  split; [done|]. by rewrite (coord_z_corner dh), Hr, Hcc by done.
Qed.
Lemma coord_x_surj dh dw r c : valid_size dh dw -> x_corner dh dw r c ->
  exists loc, 0 <= loc < num_syn_x dh dw /\ coord_x dw loc = (2*r+1, 2*c+1).
Proof.
  intros Hv Hc. destruct (corner_x_loc _ _ _ _ Hv Hc) as (?&Hr&Hcc). exists (xloc dw r c).
  split; [done|]. by rewrite (coord_x_corner dh), Hr, Hcc by done.
Qed.
Lemma coord_z_inj dh dw l1 l2 : valid_size dh dw -> 0 <= l1 < num_syn_z dh dw -> 0 <= l2 < num_syn_z dh dw ->
  coord_z dw l1 = coord_z dw l2 -> l1 = l2.
Proof.
  intros Hv H1 H2. rewrite !(coord_z_corner dh) by done. intros [=]. eapply (z_loc_inj dh dw); (done || lia).
Qed.
Lemma coord_x_inj dh dw l1 l2 : valid_size dh dw -> 0 <= l1 < num_syn_x dh dw -> 0 <= l2 < num_syn_x dh dw ->
  coord_x dw l1 = coord_x dw l2 -> l1 = l2.
Proof.
  intros Hv H1 H2. rewrite !(coord_x_corner dh) by done. intros [=]. eapply (x_loc_inj dh dw); (done || lia).
Qed.

Lemma diag_z_inside dh dw i j : valid_size dh dw -> 0 <= i < dh -> 0 <= j < dw ->
  forall y x, (y, x) ∈ diag_z i j -> (exists loc, 0 <= loc < num_syn_z dh dw /\ coord_z dw loc = (y, x)) <-> 0 < y < 2 * (dh - 1).
Proof.
  intros Hv Hi Hj y x Hin.
  assert (Hc : exists r c, y = 2*r+1 /\ x = 2*c+1 /\ (r + c) mod 2 = 0 /\ -1 <= c <= dw - 1).
  { unfold diag_z, diag_main, diag_anti in Hin.
    pose proof (Z.div_mod (i+j) 2 ltac:(lia)). destruct (Z.even (i+j)) eqn:E.
    - apply even_mod2 in E. rewrite !elem_of_cons, elem_of_nil, !pair_equal_spec in Hin.
      destruct Hin as [[-> ->]|[[-> ->]|[]]]; [exists (i-1), (j-1)|exists i, j]; split_and!; try lia; try done.
      replace (i - 1 + (j - 1)) with (i + j + (-1) * 2) by lia. by rewrite Z.mod_add by lia.
    - assert (E' : (i+j) mod 2 = 1).
      { destruct (mod2_cases (i+j)) as [E'|E']; [|done]. apply even_mod2 in E'. congruence. }
      rewrite !elem_of_cons, elem_of_nil, !pair_equal_spec in Hin.
      destruct Hin as [[-> ->]|[[-> ->]|[]]]; [exists (i-1), j|exists i, (j-1)]; split_and!; try lia.
      + replace (i - 1 + j) with (i + j - 1) by lia. rewrite Zminus_mod, E'. done.
      + replace (i + (j - 1)) with (i + j - 1) by lia. rewrite Zminus_mod, E'. done. }
  destruct Hc as (r & c & -> & -> & Hm & Hc). split.
  - intros (loc & Hl & He). rewrite (coord_z_corner dh) in He by done.
    destruct (z_loc_corner _ _ _ Hv Hl) as (?&_&_). injection He as ??. lia.
  - intros Hy. apply coord_z_surj; [done|]. split_and!; lia || done.
Qed.
Lemma diag_x_inside dh dw i j : valid_size dh dw -> 0 <= i < dh -> 0 <= j < dw ->
  forall y x, (y, x) ∈ diag_x i j -> (exists loc, 0 <= loc < num_syn_x dh dw /\ coord_x dw loc = (y, x)) <-> 0 < x < 2 * (dw - 1).
Proof.
  intros Hv Hi Hj y x Hin.
  assert (Hc : exists r c, y = 2*r+1 /\ x = 2*c+1 /\ (r + c) mod 2 = 1 /\ -1 <= r <= dh - 1).
  { unfold diag_x, diag_main, diag_anti in Hin.
    pose proof (Z.div_mod (i+j) 2 ltac:(lia)). destruct (Z.even (i+j)) eqn:E.
    - apply even_mod2 in E. rewrite !elem_of_cons, elem_of_nil, !pair_equal_spec in Hin.
      destruct Hin as [[-> ->]|[[-> ->]|[]]]; [exists (i-1), j|exists i, (j-1)]; split_and!; try lia.
      + replace (i - 1 + j) with (i + j - 1) by lia. rewrite Zminus_mod, E. done.
      + replace (i + (j - 1)) with (i + j - 1) by lia. rewrite Zminus_mod, E. done.
    - assert (E' : (i+j) mod 2 = 1).
      { destruct (mod2_cases (i+j)) as [E'|E']; [|done]. apply even_mod2 in E'. congruence. }
      rewrite !elem_of_cons, elem_of_nil, !pair_equal_spec in Hin.
      destruct Hin as [[-> ->]|[[-> ->]|[]]]; [exists (i-1), (j-1)|exists i, j]; split_and!; try lia; try done.
      replace (i - 1 + (j - 1)) with (i + j + (-1) * 2) by lia. by rewrite Z.mod_add by lia. }
  destruct Hc as (r & c & -> & -> & Hm & Hc). split.
  - intros (loc & Hl & He). rewrite (coord_x_corner dh) in He by done.
    destruct (x_loc_corner _ _ _ Hv Hl) as (_&?&_). injection He as ??. lia.
  - intros Hy. apply coord_x_surj; [done|]. split_and!; lia || done.
Qed.

(** Error and stabilizer of the XZZX code. *)
Lemma hconj_single S (k : Z) :
  hconj S (Xon {[k]}) = (if mem k S then Zon {[k]} else Xon {[k]}) /\
  hconj S (Zon {[k]}) = (if mem k S then Xon {[k]} else Zon {[k]}).
Proof.
  split; apply pauli_eq; apply mem_ext; intros a; rewrite ?mem_hconj_x, ?mem_hconj_z; cbn [Xon Zon px pz];
   destruct (decide (a = k)) as [->|Hne];
   try (destruct (mem k S); done);
   destruct (mem a S), (mem k S); cbn [Xon Zon px pz]; rewrite ?mem_empty, ?mem_singleton, ?bool_decide_eq_false_2; done.
Qed.

(** C02: plaquette lists *)
Lemma plaq_data_x dh dw loc : valid_size dh dw -> 0 <= loc < num_syn_x dh dw ->
  let p := geom_x dh dw loc in
  list_to_set (plaq_data p) = touching dh dw (coord_x dw loc).1 (coord_x dw loc).2 /\
  NoDup (plaq_data p) /\ (length (plaq_data p) = 2%nat \/ length (plaq_data p) = 4%nat) /\
  (forall k, k ∈ plaq_data p -> 0 <= k < dh * dw).
Proof.
  intros Hv Hl p. assert (Hw : 0 < dw) by (unfold valid_size in Hv; lia).
  rewrite (coord_x_corner dh) by done. cbn [fst snd]. rewrite <-box_touching by done.
  unfold p. rewrite geom_x_pt by done. unfold plaq_data, plaq_idx. cbn [top_l top_r bot_l bot_r].
  split; [done|]. split; [by apply box_pts_NoDup|]. split.
  - destruct (x_loc_corner _ _ _ Hv Hl) as (?&?&_). unfold valid_size in Hv. unfold pt.
    repeat case_bool_decide; cbn; try lia; auto.
  - intros k Hk. apply elem_of_list_omap in Hk as (o & Ho & He). unfold id in He. subst o.
    rewrite !elem_of_cons, elem_of_nil in Ho. destruct_or?; try done; symmetry in Ho; eapply pt_in; done.
Qed.
Lemma plaq_data_z dh dw loc : valid_size dh dw -> 0 <= loc < num_syn_z dh dw ->
  let p := geom_z dh dw loc in
  list_to_set (plaq_data p) = touching dh dw (coord_z dw loc).1 (coord_z dw loc).2 /\
  NoDup (plaq_data p) /\ (length (plaq_data p) = 2%nat \/ length (plaq_data p) = 4%nat) /\
  (forall k, k ∈ plaq_data p -> 0 <= k < dh * dw).
Proof.
  intros Hv Hl p. assert (Hw : 0 < dw) by (unfold valid_size in Hv; lia).
  rewrite (coord_z_corner dh) by done. cbn [fst snd]. rewrite <-box_touching by done.
  unfold p. rewrite geom_z_pt by done. unfold plaq_data, plaq_idx. cbn [top_l top_r bot_l bot_r].
  split; [done|]. split; [by apply box_pts_NoDup|]. split.
  - destruct (z_loc_corner _ _ _ Hv Hl) as (?&?&_). unfold valid_size in Hv. unfold pt.
    repeat case_bool_decide; cbn; try lia; auto.
  - intros k Hk. apply elem_of_list_omap in Hk as (o & Ho & He). unfold id in He. subst o.
    rewrite !elem_of_cons, elem_of_nil in Ho. destruct_or?; try done; symmetry in Ho; eapply pt_in; done.
Qed.
