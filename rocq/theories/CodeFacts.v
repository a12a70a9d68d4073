(** Commutation, independence, distance, single-error syndromes, XZZX vs XXZZ. *)
From Verif Require Export GeometryFacts.
Open Scope Z_scope.

Lemma half_m w : (2 * w + 1 - 1) / 2 = w.
Proof. replace (2*w+1-1) with (w*2) by lia. by rewrite Z.div_mul. Qed.
Lemma half_p w : (2 * w + 1 + 1) / 2 = w + 1.
Proof. replace (2*w+1+1) with ((w+1)*2) by lia. by rewrite Z.div_mul. Qed.
Lemma half_0 w : (2 * w + 1) / 2 = w.
Proof. replace (2*w+1) with (1 + w*2) by lia. rewrite Z.div_add by lia. done. Qed.
Lemma mod2_cases a : a mod 2 = 0 \/ a mod 2 = 1.
Proof. pose proof (Z.mod_pos_bound a 2). lia. Qed.
Lemma mod2_even a : Z.even a = bool_decide (a mod 2 = 0).
Proof.
  rewrite Zmod_even. destruct (Z.even a); [rewrite bool_decide_eq_true_2|rewrite bool_decide_eq_false_2]; done.
Qed.

(** Ranges of coordinates. *)
Definition x_corner (dh dw r c : Z) : Prop := -1 <= r <= dh - 1 /\ 0 <= c <= dw - 2 /\ (r + c) mod 2 = 1.
Definition z_corner (dh dw r c : Z) : Prop := 0 <= r <= dh - 2 /\ -1 <= c <= dw - 1 /\ (r + c) mod 2 = 0.

Lemma x_loc_corner dh dw loc : valid_size dh dw -> 0 <= loc < num_syn_x dh dw ->
  x_corner dh dw (xr dw loc) (xc dw loc).
Proof.
  intros Hv Hl. destruct (valid_size_inv _ _ Hv) as (h & w & -> & -> & ? & ?).
  destruct (x_range h w loc) as (Hw & Hr & Hc & ?); [done..|]. unfold x_corner. split_and!; lia || done.
Qed.
Lemma z_loc_corner dh dw loc : valid_size dh dw -> 0 <= loc < num_syn_z dh dw ->
  z_corner dh dw (zr dw loc) (zc dw loc).
Proof.
  intros Hv Hl. destruct (valid_size_inv _ _ Hv) as (h & w & -> & -> & ? & ?).
  destruct (z_range h w loc) as (Hw & Hr & Hc & ?); [done..|]. unfold z_corner. split_and!; lia || done.
Qed.
Definition xloc (dw r c : Z) : Z := (r + 1) * ((dw - 1) / 2) + c / 2.
Definition zloc (dw r c : Z) : Z := r * ((dw + 1) / 2) + (c + r mod 2) / 2.

Lemma corner_x_loc dh dw r c : valid_size dh dw -> x_corner dh dw r c ->
  0 <= xloc dw r c < num_syn_x dh dw /\ xr dw (xloc dw r c) = r /\ xc dw (xloc dw r c) = c.
Proof.
  intros Hv (Hr & Hc & Hm). destruct (valid_size_inv _ _ Hv) as (h & w & -> & -> & ? & ?).
  unfold xloc, xr, xc, num_syn_x. rewrite half_m, half_p.
  pose proof (Z.div_mod c 2 ltac:(lia)). pose proof (Z.mod_pos_bound c 2 ltac:(lia)).
  assert (0 <= c / 2 < w) by lia.
  split; [nia|].
  rewrite idx_div, idx_mod by lia. split; [lia|].
  assert ((r + 1) mod 2 = c mod 2) as ->; [|lia].
  rewrite Z.add_mod in Hm |- * by lia. change (1 mod 2) with 1.
  destruct (mod2_cases r) as [Er|Er], (mod2_cases c) as [Ec|Ec]; rewrite Er, ?Ec in *; try done.
Qed.
Lemma corner_z_loc dh dw r c : valid_size dh dw -> z_corner dh dw r c ->
  0 <= zloc dw r c < num_syn_z dh dw /\ zr dw (zloc dw r c) = r /\ zc dw (zloc dw r c) = c.
Proof.
  intros Hv (Hr & Hc & Hm). destruct (valid_size_inv _ _ Hv) as (h & w & -> & -> & ? & ?).
  unfold zloc, zr, zc, num_syn_z. rewrite half_p.
  pose proof (Z.div_mod (c + r mod 2) 2 ltac:(lia)). pose proof (Z.mod_pos_bound r 2 ltac:(lia)).
  assert (Hcm : (c + r mod 2) mod 2 = 0) by (rewrite Zplus_mod_idemp_r, Z.add_comm; done).
  assert (0 <= (c + r mod 2) / 2 < w + 1).
  { assert (c = -1 -> r mod 2 = 1) by (intros ->; destruct (mod2_cases r) as [E|E]; rewrite E in *; [done|lia]).
    lia. }
  split; [nia|].
  rewrite idx_div, idx_mod by lia. split; lia.
Qed.
Lemma x_loc_inj dh dw l1 l2 : valid_size dh dw -> 0 <= l1 < num_syn_x dh dw -> 0 <= l2 < num_syn_x dh dw ->
  xr dw l1 = xr dw l2 -> xc dw l1 = xc dw l2 -> l1 = l2.
Proof.
  intros Hv H1 H2 Er Ec. destruct (valid_size_inv _ _ Hv) as (h & w & -> & -> & ? & ?).
  destruct (x_range h w l1) as (Hw & _); [done..|].
  unfold xr, xc in *. rewrite half_m in *.
  pose proof (Z.div_mod l1 w ltac:(lia)). pose proof (Z.div_mod l2 w ltac:(lia)).
  assert (l1 / w = l2 / w) as E by lia. rewrite E in *. lia.
Qed.
Lemma z_loc_inj dh dw l1 l2 : valid_size dh dw -> 0 <= l1 < num_syn_z dh dw -> 0 <= l2 < num_syn_z dh dw ->
  zr dw l1 = zr dw l2 -> zc dw l1 = zc dw l2 -> l1 = l2.
Proof.
  intros Hv H1 H2 Er Ec. destruct (valid_size_inv _ _ Hv) as (h & w & -> & -> & ? & ?).
  unfold zr, zc in *. rewrite half_p in *.
  pose proof (Z.div_mod l1 (w+1) ltac:(lia)). pose proof (Z.div_mod l2 (w+1) ltac:(lia)).
  rewrite Er in *. lia.
Qed.
Lemma coord_x_corner dh dw loc : valid_size dh dw -> coord_x dw loc = (2 * xr dw loc + 1, 2 * xc dw loc + 1).
Proof.
  intros Hv. destruct (valid_size_inv _ _ Hv) as (h & w & -> & -> & ? & ?).
  unfold coord_x, xr, xc. rewrite half_m, half_0. f_equal; lia.
Qed.
Lemma coord_z_corner dh dw loc : valid_size dh dw -> coord_z dw loc = (2 * zr dw loc + 1, 2 * zc dw loc + 1).
Proof.
  intros Hv. destruct (valid_size_inv _ _ Hv) as (h & w & -> & -> & ? & ?).
  unfold coord_z, zr, zc. rewrite half_p, half_0. f_equal; lia.
Qed.

(** C02 *)
Lemma box_touching dh dw r c : 0 < dw -> box dh dw r c = touching dh dw (2*r+1) (2*c+1).
Proof.
  intros. apply set_eq. intros k. rewrite elem_of_box by done. unfold touching.
  rewrite elem_of_filter. split.
  - intros (?&?&?). split; [lia|done].
  - intros (Ha&?). split; [done|]. lia.
Qed.
Lemma pt_in dh dw i j k : 0 < dw -> pt dh dw i j = Some k -> 0 <= k < dh * dw.
Proof. intros ? (He&_)%pt_Some; [|done]. by apply elem_of_data_set. Qed.
Lemma NoDup_omap_pts dh dw (l : list (Z * Z)) : 0 < dw -> NoDup l ->
  NoDup (omap id ((fun p => pt dh dw p.1 p.2) <$> l)).
Proof.
  intros Hd. induction 1 as [|[i j] l Hn _ IH]; [constructor|]. cbn.
  destruct (pt dh dw i j) as [k|] eqn:E; cbn; [|done]. constructor; [|done].
  rewrite elem_of_list_omap. intros (o & Ho & He). unfold id in He. subst o.
  apply elem_of_list_fmap in Ho as ([i' j'] & He & Hin). cbn in *.
  symmetry in He. apply pt_Some in E as (_&<-&<-); [|done]. apply pt_Some in He as (_&<-&<-); [|done]. done.
Qed.
Lemma box_pts_NoDup dh dw r c : 0 < dw ->
  NoDup (omap id [pt dh dw r c; pt dh dw r (c+1); pt dh dw (r+1) c; pt dh dw (r+1) (c+1)]).
Proof.
  intros. apply (NoDup_omap_pts dh dw [(r,c);(r,c+1);(r+1,c);(r+1,c+1)]); [done|].
  repeat constructor; rewrite ?elem_of_cons, ?elem_of_nil;
    intros ?; destruct_or?; simplify_eq; try done; lia.
Qed.

(** Commutation of boxes. *)
Lemma box_dot_even dh dw r c r' c' : 0 < dw ->
  (r' = r /\ 0 <= r <= dh - 2) \/ (c' = c /\ 0 <= c <= dw - 2) \/ Z.abs (r - r') > 1 \/ Z.abs (c - c') > 1 ->
  dot (box dh dw r c) (box dh dw r' c') = false.
Proof.
  intros Hw Hc. unfold dot.
  destruct Hc as [[-> Hr]|[[-> Hc]|Hd]].
  - apply (par_involution (fun k => if bool_decide (k / dw = r) then k + dw else k - dw)).
    + intros k Hk. apply elem_of_intersection in Hk as [H1 H2].
      apply elem_of_box in H1 as (Hd&Hk&?), H2 as (_&_&?); [|done..].
      apply data_set_coord in Hd as (?&?&Hkk); [|done].
      apply elem_of_intersection. rewrite !elem_of_box by done.
      case_bool_decide as Hb.
      * replace (k + dw) with ((k / dw + 1) * dw + k mod dw) by lia.
        rewrite idx_div, idx_mod by lia. pose proof (idx_in_data dh dw (k / dw + 1) (k mod dw) ltac:(lia) ltac:(lia)).
        split_and!; done || lia.
      * replace (k - dw) with ((k / dw - 1) * dw + k mod dw) by lia.
        rewrite idx_div, idx_mod by lia. pose proof (idx_in_data dh dw (k / dw - 1) (k mod dw) ltac:(lia) ltac:(lia)).
        split_and!; done || lia.
    + intros k Hk. apply elem_of_intersection in Hk as [H1 H2].
      apply elem_of_box in H1 as (Hd&Hk&?), H2 as (_&_&?); [|done..].
      apply data_set_coord in Hd as (?&?&Hkk); [|done].
      destruct (decide (k / dw = r)) as [Hb|Hb]; [rewrite (bool_decide_eq_true_2 (k / dw = r)) by done|rewrite (bool_decide_eq_false_2 (k / dw = r)) by done].
      * assert ((k + dw) / dw = k / dw + 1) as ->.
        { replace (k + dw) with ((k / dw + 1) * dw + k mod dw) by lia. by rewrite idx_div by lia. }
        rewrite bool_decide_eq_false_2 by lia. lia.
      * assert ((k - dw) / dw = k / dw - 1) as ->.
        { replace (k - dw) with ((k / dw - 1) * dw + k mod dw) by lia. by rewrite idx_div by lia. }
        rewrite bool_decide_eq_true_2 by lia. lia.
    + intros k Hk. case_bool_decide; lia.
  - apply (par_involution (fun k => if bool_decide (k mod dw = c) then k + 1 else k - 1)).
    + intros k Hk. apply elem_of_intersection in Hk as [H1 H2].
      apply elem_of_box in H1 as (Hd&Hk&?), H2 as (_&?&_); [|done..].
      apply data_set_coord in Hd as (?&?&Hkk); [|done].
      apply elem_of_intersection. rewrite !elem_of_box by done.
      case_bool_decide as Hb.
      * replace (k + 1) with ((k / dw) * dw + (k mod dw + 1)) by lia.
        rewrite idx_div, idx_mod by lia. pose proof (idx_in_data dh dw (k / dw) (k mod dw + 1) ltac:(lia) ltac:(lia)).
        split_and!; done || lia.
      * replace (k - 1) with ((k / dw) * dw + (k mod dw - 1)) by lia.
        rewrite idx_div, idx_mod by lia. pose proof (idx_in_data dh dw (k / dw) (k mod dw - 1) ltac:(lia) ltac:(lia)).
        split_and!; done || lia.
    + intros k Hk. apply elem_of_intersection in Hk as [H1 H2].
      apply elem_of_box in H1 as (Hd&Hk&?), H2 as (_&?&_); [|done..].
      apply data_set_coord in Hd as (?&?&Hkk); [|done].
      destruct (decide (k mod dw = c)) as [Hb|Hb]; [rewrite (bool_decide_eq_true_2 (k mod dw = c)) by done|rewrite (bool_decide_eq_false_2 (k mod dw = c)) by done].
      * assert ((k + 1) mod dw = k mod dw + 1) as ->.
        { replace (k + 1) with ((k / dw) * dw + (k mod dw + 1)) by lia. by rewrite idx_mod by lia. }
        rewrite bool_decide_eq_false_2 by lia. lia.
      * assert ((k - 1) mod dw = k mod dw - 1) as ->.
        { replace (k - 1) with ((k / dw) * dw + (k mod dw - 1)) by lia. by rewrite idx_mod by lia. }
        rewrite bool_decide_eq_true_2 by lia. lia.
    + intros k Hk. case_bool_decide; lia.
  - apply (dot_disj (box dh dw r c) (box dh dw r' c')). intros k.
    rewrite !elem_of_box by done. lia.
Qed.
Lemma box_xz_even dh dw r c r' c' : 0 < dw -> x_corner dh dw r c -> z_corner dh dw r' c' ->
  dot (box dh dw r c) (box dh dw r' c') = false.
Proof.
  intros Hw (?&?&Hx) (?&?&Hz). apply box_dot_even; [done|].
  pose proof (Z.div_mod (r + c) 2 ltac:(lia)). pose proof (Z.div_mod (r' + c') 2 ltac:(lia)). lia.
Qed.
(** Rows and columns against boxes. *)
Lemma row_box_even dh dw i r c : 0 < dw -> 0 <= c <= dw - 2 -> dot (row_set dh dw i) (box dh dw r c) = false.
Proof.
  intros Hw Hc. unfold dot.
  apply (par_involution (fun k => if bool_decide (k mod dw = c) then k + 1 else k - 1)).
  - intros k [H1 H2]%elem_of_intersection. apply elem_of_box in H2 as (Hd&?&Hk); [|done].
    apply elem_of_row_set in H1 as [_ ?]. apply data_set_coord in Hd as (?&?&Hkk); [|done].
    apply elem_of_intersection. rewrite !elem_of_box, elem_of_row_set by done.
    case_bool_decide as Hb.
    * replace (k + 1) with ((k / dw) * dw + (k mod dw + 1)) by lia.
      rewrite idx_div, idx_mod by lia. pose proof (idx_in_data dh dw (k / dw) (k mod dw + 1) ltac:(lia) ltac:(lia)).
      split_and!; done || lia.
    * replace (k - 1) with ((k / dw) * dw + (k mod dw - 1)) by lia.
      rewrite idx_div, idx_mod by lia. pose proof (idx_in_data dh dw (k / dw) (k mod dw - 1) ltac:(lia) ltac:(lia)).
      split_and!; done || lia.
  - intros k [H1 H2]%elem_of_intersection. apply elem_of_box in H2 as (Hd&?&Hk); [|done].
    apply data_set_coord in Hd as (?&?&Hkk); [|done].
    destruct (decide (k mod dw = c)) as [Hb|Hb]; [rewrite (bool_decide_eq_true_2 (k mod dw = c)) by done|rewrite (bool_decide_eq_false_2 (k mod dw = c)) by done].
    * assert ((k + 1) mod dw = k mod dw + 1) as ->.
      { replace (k + 1) with ((k / dw) * dw + (k mod dw + 1)) by lia. by rewrite idx_mod by lia. }
      rewrite bool_decide_eq_false_2 by lia. lia.
    * assert ((k - 1) mod dw = k mod dw - 1) as ->.
      { replace (k - 1) with ((k / dw) * dw + (k mod dw - 1)) by lia. by rewrite idx_mod by lia. }
      rewrite bool_decide_eq_true_2 by lia. lia.
  - intros k Hk. case_bool_decide; lia.
Qed.
Lemma col_box_even dh dw j r c : 0 < dw -> 0 <= r <= dh - 2 -> dot (col_set dh dw j) (box dh dw r c) = false.
Proof.
  intros Hw Hr. unfold dot.
  apply (par_involution (fun k => if bool_decide (k / dw = r) then k + dw else k - dw)).
  - intros k [H1 H2]%elem_of_intersection. apply elem_of_box in H2 as (Hd&?&Hk); [|done].
    apply elem_of_col_set in H1 as [_ ?]. apply data_set_coord in Hd as (?&?&Hkk); [|done].
    apply elem_of_intersection. rewrite !elem_of_box, elem_of_col_set by done.
    case_bool_decide as Hb.
    * replace (k + dw) with ((k / dw + 1) * dw + k mod dw) by lia.
      rewrite idx_div, idx_mod by lia. pose proof (idx_in_data dh dw (k / dw + 1) (k mod dw) ltac:(lia) ltac:(lia)).
      split_and!; done || lia.
    * replace (k - dw) with ((k / dw - 1) * dw + k mod dw) by lia.
      rewrite idx_div, idx_mod by lia. pose proof (idx_in_data dh dw (k / dw - 1) (k mod dw) ltac:(lia) ltac:(lia)).
      split_and!; done || lia.
  - intros k [H1 H2]%elem_of_intersection. apply elem_of_box in H2 as (Hd&?&Hk); [|done].
    apply data_set_coord in Hd as (?&?&Hkk); [|done].
    destruct (decide (k / dw = r)) as [Hb|Hb]; [rewrite (bool_decide_eq_true_2 (k / dw = r)) by done|rewrite (bool_decide_eq_false_2 (k / dw = r)) by done].
    * assert ((k + dw) / dw = k / dw + 1) as ->.
      { replace (k + dw) with ((k / dw + 1) * dw + k mod dw) by lia. by rewrite idx_div by lia. }
      rewrite bool_decide_eq_false_2 by lia. lia.
    * assert ((k - dw) / dw = k / dw - 1) as ->.
      { replace (k - dw) with ((k / dw - 1) * dw + k mod dw) by lia. by rewrite idx_div by lia. }
      rewrite bool_decide_eq_true_2 by lia. lia.
  - intros k Hk. case_bool_decide; lia.
Qed.
Lemma row_col_odd dh dw i j : 0 <= i < dh -> 0 <= j < dw -> dot (row_set dh dw i) (col_set dh dw j) = true.
Proof.
  intros Hi Hj. unfold dot. replace (row_set dh dw i ∩ col_set dh dw j) with ({[ i * dw + j ]} : gset Z).
  - apply par_singleton.
  - apply set_eq. intros k. rewrite elem_of_singleton, elem_of_intersection, elem_of_row_set, elem_of_col_set.
    split.
    + intros ->. rewrite idx_div, idx_mod by lia. split_and!; try done; apply idx_in_data; lia.
    + intros [(Hd&<-) (_&<-)]. apply data_set_coord in Hd as (?&?&?); lia.
Qed.

(** XZZX is the Hadamard conjugate of XXZZ. *)
Lemma even_set_idx dh dw k : valid_size dh dw -> k ∈ data_set dh dw ->
  k ∈ even_set dh dw <-> (k / dw + k mod dw) mod 2 = 0.
Proof.
  intros Hv Hk. destruct (valid_size_inv _ _ Hv) as (h & w & -> & -> & ? & ?).
  unfold even_set. rewrite elem_of_filter. rewrite mod2_even, bool_decide_eq_true.
  apply data_set_coord in Hk as Hk'; [|lia]. destruct Hk' as (?&?&Hkk).
  assert (k mod 2 = (k / (2*w+1) + k mod (2*w+1)) mod 2) as ->; [|tauto].
  rewrite Hkk at 1.
  replace (k / (2 * w + 1) * (2 * w + 1) + k mod (2 * w + 1)) with
    (k / (2*w+1) + k mod (2*w+1) + (k / (2*w+1) * w) * 2) by lia.
  by rewrite Z.mod_add by lia.
Qed.
Lemma hconj_box dh dw r c P : valid_size dh dw ->
  P = Xon (box dh dw r c) /\ (r + c) mod 2 = 1 \/ P = Zon (box dh dw r c) /\ (r + c) mod 2 = 0 ->
  hconj (even_set dh dw) P =
    Pauli (oset [pt dh dw r c; pt dh dw (r+1) (c+1)]) (oset [pt dh dw r (c+1); pt dh dw (r+1) c]).
Proof.
  intros Hv Hp. assert (Hw : 0 < dw) by (unfold valid_size in Hv; lia).
  assert (Hpt : forall i j k, Some k = pt dh dw i j <-> k ∈ data_set dh dw /\ k / dw = i /\ k mod dw = j)
    by (intros; rewrite <-pt_Some by done; split; congruence).
  assert (Hx : forall k, k ∈ oset [pt dh dw r c; pt dh dw (r+1) (c+1)] <->
     k ∈ box dh dw r c /\ (k / dw + k mod dw) mod 2 = (r + c) mod 2).
  { intros k. rewrite elem_of_oset, !elem_of_cons, elem_of_nil, elem_of_box, !Hpt by done.
    pose proof (Z.div_mod (r + c) 2 ltac:(lia)). pose proof (Z.div_mod (k / dw + k mod dw) 2 ltac:(lia)).
    split; [|intuition lia].
    intros [(?&<-&<-)|[(?&Hr&Hc)|[]]]; [tauto|]. rewrite Hr, Hc.
    replace (r + 1 + (c + 1)) with (r + c + 1 * 2) by lia. rewrite Z.mod_add by lia. tauto. }
  assert (Hz : forall k, k ∈ oset [pt dh dw r (c+1); pt dh dw (r+1) c] <->
     k ∈ box dh dw r c /\ (k / dw + k mod dw) mod 2 <> (r + c) mod 2).
  { intros k. rewrite elem_of_oset, !elem_of_cons, elem_of_nil, elem_of_box, !Hpt by done.
    pose proof (Z.div_mod (r + c) 2 ltac:(lia)). pose proof (Z.div_mod (k / dw + k mod dw) 2 ltac:(lia)).
    pose proof (Z.mod_pos_bound (r + c) 2 ltac:(lia)). pose proof (Z.mod_pos_bound (k / dw + k mod dw) 2 ltac:(lia)).
    intuition lia. }
  assert (He : forall k, k ∈ box dh dw r c -> k ∈ even_set dh dw <-> (k / dw + k mod dw) mod 2 = 0).
  { intros k Hk. apply even_set_idx; [done|]. by apply elem_of_box in Hk as (?&_). }
  apply pauli_eq; apply set_eq; intros k; cbn [px pz].
  - rewrite Hx. unfold hconj; cbn [px pz]. rewrite elem_of_union, elem_of_difference, elem_of_intersection.
    destruct (decide (k ∈ box dh dw r c)) as [Hk|Hk].
    + specialize (He k Hk). pose proof (mod2_cases (k / dw + k mod dw)).
      destruct Hp as [[-> Hm]|[-> Hm]]; rewrite Hm; unfold Xon, Zon; cbn [px pz]; rewrite elem_of_empty; intuition lia.
    + destruct Hp as [[-> Hm]|[-> Hm]]; unfold Xon, Zon; cbn [px pz]; rewrite elem_of_empty; tauto.
  - rewrite Hz. unfold hconj; cbn [px pz]. rewrite elem_of_union, elem_of_difference, elem_of_intersection.
    destruct (decide (k ∈ box dh dw r c)) as [Hk|Hk].
    + specialize (He k Hk). pose proof (mod2_cases (k / dw + k mod dw)).
      destruct Hp as [[-> Hm]|[-> Hm]]; rewrite Hm; unfold Xon, Zon; cbn [px pz]; rewrite elem_of_empty; intuition lia.
    + destruct Hp as [[-> Hm]|[-> Hm]]; unfold Xon, Zon; cbn [px pz]; rewrite elem_of_empty; tauto.
Qed.
Lemma stab_x_hconj dh dw loc : valid_size dh dw -> 0 <= loc < num_syn_x dh dw ->
  stab_x XZZX dh dw loc = hconj (even_set dh dw) (stab_x XXZZ dh dw loc).
Proof.
  intros Hv Hl. destruct (x_loc_corner _ _ _ Hv Hl) as (_&_&Hm).
  rewrite stab_x_XXZZ by done. erewrite hconj_box by eauto. unfold stab_x. by rewrite geom_x_pt.
Qed.
Lemma stab_z_hconj dh dw loc : valid_size dh dw -> 0 <= loc < num_syn_z dh dw ->
  stab_z XZZX dh dw loc = hconj (even_set dh dw) (stab_z XXZZ dh dw loc).
Proof.
  intros Hv Hl. destruct (z_loc_corner _ _ _ Hv Hl) as (_&_&Hm).
  rewrite stab_z_XXZZ by done. erewrite hconj_box by eauto. unfold stab_z. by rewrite geom_z_pt.
Qed.
