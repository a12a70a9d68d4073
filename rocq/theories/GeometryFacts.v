(** The plaquettes of the model in coordinates, and their GF(2) relations. *)
From Verif Require Export PauliFacts.
Open Scope Z_scope.

(** Data qubit at row i, column j, if there is one. *)
Definition pt (dh dw i j : Z) : option Z :=
  if bool_decide (0 <= i < dh /\ 0 <= j < dw) then Some (i * dw + j) else None.
(** Upper-left corner of the loc-th X / Z plaquette. *)
Definition xr (dw loc : Z) : Z := loc / ((dw - 1) / 2) - 1.
Definition xc (dw loc : Z) : Z := 2 * (loc mod ((dw - 1) / 2)) + (loc / ((dw - 1) / 2)) mod 2.
Definition zr (dw loc : Z) : Z := loc / ((dw + 1) / 2).
Definition zc (dw loc : Z) : Z := 2 * (loc mod ((dw + 1) / 2)) - (loc / ((dw + 1) / 2)) mod 2.

Lemma odd_half n : Z.odd n = true -> n = 2 * (n / 2) + 1.
Proof. intros Ho. pose proof (Zmod_odd n) as Hm. rewrite Ho in Hm. pose proof (Z.div_mod n 2). lia. Qed.
Lemma valid_size_inv dh dw : valid_size dh dw -> exists h w, dh = 2 * h + 1 /\ dw = 2 * w + 1 /\ 0 <= h /\ 0 <= w.
Proof.
  intros (? & ? & Hh & Hw). exists (dh / 2), (dw / 2).
  pose proof (odd_half _ Hh). pose proof (odd_half _ Hw). lia.
Qed.
Lemma valid_size_intro h w : 0 <= h -> 0 <= w -> valid_size (2 * h + 1) (2 * w + 1).
Proof. intros. split_and!; [lia|lia|..]; rewrite Z.odd_add, Z.odd_mul; done. Qed.

(** Coordinates of X plaquettes. *)
Lemma x_range h w loc : 0 <= h -> 0 <= w -> 0 <= loc < num_syn_x (2*h+1) (2*w+1) ->
  0 < w /\ -1 <= xr (2*w+1) loc <= 2*h /\ 0 <= xc (2*w+1) loc <= 2*w-1 /\
  (xr (2*w+1) loc + xc (2*w+1) loc) mod 2 = 1.
Proof.
  unfold num_syn_x, xr, xc. intros Hh Hw Hl.
  replace ((2 * h + 1 + 1) / 2) with (h + 1) in Hl by (replace (2*h+1+1) with ((h+1)*2) by lia; by rewrite Z.div_mul).
  replace ((2 * w + 1 - 1) / 2) with w by (replace (2*w+1-1) with (w*2) by lia; by rewrite Z.div_mul).
  assert (0 < w) by nia. split; [done|].
  pose proof (Z.div_mod loc w ltac:(lia)). pose proof (Z.mod_pos_bound loc w ltac:(lia)).
  pose proof (Z.mod_pos_bound (loc / w) 2 ltac:(lia)). pose proof (Z.div_mod (loc / w) 2 ltac:(lia)).
  assert (0 <= loc / w) by (apply Z.div_pos; lia).
  assert (loc / w < 2 * h + 2) by (apply Z.div_lt_upper_bound; nia).
  split; [lia|]. split; [lia|].
  replace (loc / w - 1 + (2 * (loc mod w) + (loc / w) mod 2))
    with (1 + (loc / w / 2 + (loc/w) mod 2 + loc mod w - 1) * 2) by lia.
  rewrite Z.mod_add by lia. done.
Qed.
Lemma z_range h w loc : 0 <= h -> 0 <= w -> 0 <= loc < num_syn_z (2*h+1) (2*w+1) ->
  0 < h /\ 0 <= zr (2*w+1) loc <= 2*h-1 /\ -1 <= zc (2*w+1) loc <= 2*w /\
  (zr (2*w+1) loc + zc (2*w+1) loc) mod 2 = 0.
Proof.
  unfold num_syn_z, zr, zc. intros Hh Hw Hl.
  replace ((2 * w + 1 + 1) / 2) with (w + 1) in * by (replace (2*w+1+1) with ((w+1)*2) by lia; by rewrite Z.div_mul).
  assert (0 < h) by nia. split; [done|].
  pose proof (Z.div_mod loc (w+1) ltac:(lia)). pose proof (Z.mod_pos_bound loc (w+1) ltac:(lia)).
  pose proof (Z.mod_pos_bound (loc / (w+1)) 2 ltac:(lia)). pose proof (Z.div_mod (loc / (w+1)) 2 ltac:(lia)).
  assert (0 <= loc / (w+1)) by (apply Z.div_pos; lia).
  assert (loc / (w+1) < 2 * h) by (apply Z.div_lt_upper_bound; nia).
  split; [lia|]. split; [lia|].
  replace (loc / (w+1) + (2 * (loc mod (w+1)) - (loc / (w+1)) mod 2))
    with (0 + (loc / (w+1) / 2 + loc mod (w+1)) * 2) by lia.
  rewrite Z.mod_add by lia. done.
Qed.

Local Ltac bd := repeat match goal with
  | |- context [bool_decide ?P] =>
     first [ rewrite (bool_decide_eq_true_2 P) by lia
           | rewrite (bool_decide_eq_false_2 P) by lia ] end.

(** The four neighbours are the four grid points around the corner. *)
Lemma geom_x_pt dh dw loc : valid_size dh dw -> 0 <= loc < num_syn_x dh dw ->
  geom_x dh dw loc = Plaq loc (pt dh dw (xr dw loc) (xc dw loc)) (pt dh dw (xr dw loc) (xc dw loc + 1))
    (pt dh dw (xr dw loc + 1) (xc dw loc)) (pt dh dw (xr dw loc + 1) (xc dw loc + 1)).
Proof.
  intros Hv Hl. destruct (valid_size_inv _ _ Hv) as (h & w & -> & -> & ? & ?).
  destruct (x_range h w loc) as (Hw & Hr & Hc & _); [done..|].
  unfold geom_x, pt. unfold xr, xc in *.
  replace ((2 * w + 1 - 1) / 2) with w in * by (replace (2*w+1-1) with (w*2) by lia; by rewrite Z.div_mul).
  pose proof (Z.div_mod loc w ltac:(lia)). pose proof (Z.mod_pos_bound loc w ltac:(lia)).
  pose proof (Z.mod_pos_bound (loc / w) 2 ltac:(lia)). pose proof (Z.div_mod (loc / w) 2 ltac:(lia)).
  destruct (decide (loc / w = 0)) as [E0|E0].
  - rewrite (bool_decide_eq_true_2 (loc / w = 0)) by done. rewrite E0 in *. bd.
    rewrite Z.mod_0_l by lia. f_equal; first [done | (apply f_equal; lia)].
  - rewrite (bool_decide_eq_false_2 (loc / w = 0)) by done.
    destruct (decide (loc / w = 2 * h + 1)) as [E1|E1].
    + rewrite (bool_decide_eq_true_2 (loc / w = 2 * h + 1)) by done. bd. f_equal; first [done | (apply f_equal; lia)].
    + rewrite (bool_decide_eq_false_2 (loc / w = 2*h+1)) by done. bd. f_equal; first [done | (apply f_equal; lia)].
Qed.
Lemma geom_z_pt dh dw loc : valid_size dh dw -> 0 <= loc < num_syn_z dh dw ->
  geom_z dh dw loc = Plaq loc (pt dh dw (zr dw loc) (zc dw loc)) (pt dh dw (zr dw loc) (zc dw loc + 1))
    (pt dh dw (zr dw loc + 1) (zc dw loc)) (pt dh dw (zr dw loc + 1) (zc dw loc + 1)).
Proof.
  intros Hv Hl. destruct (valid_size_inv _ _ Hv) as (h & w & -> & -> & ? & ?).
  destruct (z_range h w loc) as (Hw & Hr & Hc & _); [done..|].
  unfold geom_z, pt. unfold zr, zc in *.
  replace ((2 * w + 1 + 1) / 2) with (w + 1) in * by (replace (2*w+1+1) with ((w+1)*2) by lia; by rewrite Z.div_mul).
  pose proof (Z.div_mod loc (w+1) ltac:(lia)). pose proof (Z.mod_pos_bound loc (w+1) ltac:(lia)).
  pose proof (Z.mod_pos_bound (loc / (w+1)) 2 ltac:(lia)). pose proof (Z.div_mod (loc / (w+1)) 2 ltac:(lia)).
  assert (Hm : (loc / (w+1)) mod 2 = 0 \/ (loc / (w+1)) mod 2 = 1) by lia.
  destruct Hm as [Hm|Hm]; rewrite Hm in *.
  - rewrite (bool_decide_eq_true_2 (0 = 0)) by done. rewrite (bool_decide_eq_false_2 (0 = 1)) by done. cbn [andb].
    destruct (decide (loc mod (w+1) = w)).
    + rewrite (bool_decide_eq_true_2 (loc mod (w + 1) = w + 1 - 1)) by lia. bd. f_equal; first [done | (apply f_equal; lia)].
    + rewrite (bool_decide_eq_false_2 (loc mod (w + 1) = w + 1 - 1)) by lia. bd. f_equal; first [done | (apply f_equal; lia)].
  - rewrite (bool_decide_eq_true_2 (1 = 1)) by done. rewrite (bool_decide_eq_false_2 (1 = 0)) by done. cbn [andb].
    destruct (decide (loc mod (w+1) = 0)) as [E0|E0].
    + rewrite E0 in *. rewrite (bool_decide_eq_true_2 (0 = 0)) by lia. bd. f_equal; first [done | (apply f_equal; lia)].
    + rewrite (bool_decide_eq_false_2 (loc mod (w + 1) = 0)) by lia. bd. f_equal; first [done | (apply f_equal; lia)].
Qed.

(** Indices and coordinates. *)
Lemma idx_div dw i j : 0 <= j < dw -> (i * dw + j) / dw = i.
Proof. intros. rewrite Z.add_comm, Z.div_add by lia. rewrite Z.div_small; lia. Qed.
Lemma idx_mod dw i j : 0 <= j < dw -> (i * dw + j) mod dw = j.
Proof. intros. rewrite Z.add_comm, Z.mod_add by lia. apply Z.mod_small; lia. Qed.
Lemma elem_of_data_set dh dw k : k ∈ data_set dh dw <-> 0 <= k < dh * dw.
Proof. unfold data_set. rewrite elem_of_list_to_set, elem_of_seqZ. lia. Qed.
Lemma data_set_coord dh dw k : 0 < dw ->
  k ∈ data_set dh dw <-> 0 <= k / dw < dh /\ 0 <= k mod dw < dw /\ k = (k / dw) * dw + k mod dw.
Proof.
  intros. rewrite elem_of_data_set.
  pose proof (Z.div_mod k dw ltac:(lia)). pose proof (Z.mod_pos_bound k dw ltac:(lia)).
  split; intros.
  - split; [|split; lia]. split; [apply Z.div_pos; lia|apply Z.div_lt_upper_bound; lia].
  - nia.
Qed.
Lemma idx_in_data dh dw i j : 0 <= i < dh -> 0 <= j < dw -> i * dw + j ∈ data_set dh dw.
Proof. intros. rewrite elem_of_data_set. nia. Qed.
Lemma idx_inj dw i j i' j' : 0 <= j < dw -> 0 <= j' < dw -> i * dw + j = i' * dw + j' -> i = i' /\ j = j'.
Proof.
  intros ?? He. split; [rewrite <-(idx_div dw i j), He, idx_div by lia|rewrite <-(idx_mod dw i j), He, idx_mod by lia]; done.
Qed.

Lemma pt_Some dh dw i j k : 0 < dw ->
  pt dh dw i j = Some k <-> k ∈ data_set dh dw /\ k / dw = i /\ k mod dw = j.
Proof.
  intros. unfold pt. split.
  - intros He. case_bool_decide as Hb; [|done]. injection He as <-.
    rewrite idx_div, idx_mod by lia. split; [apply idx_in_data; lia|done].
  - intros (Hk & <- & <-). apply data_set_coord in Hk as (?&?&?); [|lia].
    rewrite bool_decide_eq_true_2 by lia. f_equal. lia.
Qed.
Lemma elem_of_oset k l : k ∈ oset l <-> Some k ∈ l.
Proof.
  unfold oset. rewrite elem_of_list_to_set, elem_of_list_omap. split.
  - intros (o & Ho & He). unfold id in He. by subst.
  - intros. by exists (Some k).
Qed.
(** The set of data qubits around a corner. *)
Definition box (dh dw r c : Z) : gset Z :=
  oset [pt dh dw r c; pt dh dw r (c+1); pt dh dw (r+1) c; pt dh dw (r+1) (c+1)].
Lemma elem_of_box dh dw r c k : 0 < dw ->
  k ∈ box dh dw r c <-> k ∈ data_set dh dw /\ (k / dw = r \/ k / dw = r + 1) /\ (k mod dw = c \/ k mod dw = c + 1).
Proof.
  intros. unfold box. rewrite elem_of_oset.
  rewrite !elem_of_cons, elem_of_nil.
  assert (forall i j, Some k = pt dh dw i j <-> k ∈ data_set dh dw /\ k / dw = i /\ k mod dw = j) as Hp
    by (intros; rewrite <-pt_Some by done; split; congruence).
  rewrite !Hp. clear Hp. intuition auto.
Qed.
Lemma elem_of_row_set dh dw i k : k ∈ row_set dh dw i <-> k ∈ data_set dh dw /\ k / dw = i.
Proof. unfold row_set. rewrite elem_of_filter. tauto. Qed.
Lemma elem_of_col_set dh dw j k : k ∈ col_set dh dw j <-> k ∈ data_set dh dw /\ k mod dw = j.
Proof. unfold col_set. rewrite elem_of_filter. tauto. Qed.

Lemma oset_perm l1 l2 : l1 ≡ₚ l2 -> oset l1 = oset l2.
Proof. intros Hp. apply set_eq. intros k. by rewrite !elem_of_oset, Hp. Qed.

Lemma stab_x_XXZZ dh dw loc : valid_size dh dw -> 0 <= loc < num_syn_x dh dw ->
  stab_x XXZZ dh dw loc = Xon (box dh dw (xr dw loc) (xc dw loc)).
Proof. intros. unfold stab_x. by rewrite geom_x_pt. Qed.
Lemma stab_z_XXZZ dh dw loc : valid_size dh dw -> 0 <= loc < num_syn_z dh dw ->
  stab_z XXZZ dh dw loc = Zon (box dh dw (zr dw loc) (zc dw loc)).
Proof. intros. unfold stab_z. by rewrite geom_z_pt. Qed.
