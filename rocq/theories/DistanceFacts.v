(** Independence of the stabilizers and the code distance. *)
From Verif Require Export CodeFacts.
Open Scope Z_scope.

Lemma elem_of_stabilizers c dh dw P :
  P ∈ stabilizers c dh dw <->
  (exists loc, 0 <= loc < num_syn_x dh dw /\ P = stab_x c dh dw loc) \/
  (exists loc, 0 <= loc < num_syn_z dh dw /\ P = stab_z c dh dw loc).
Proof.
  unfold stabilizers, geometry_mx, geometry_mz, py_range, stab_x, stab_z.
  rewrite elem_of_app, !elem_of_list_fmap. split.
  - intros [(p & -> & Hp)|(p & -> & Hp)]; apply elem_of_list_fmap in Hp as (loc & -> & Hl);
      apply elem_of_seqZ in Hl; [left|right]; exists loc; (split; [lia|done]).
  - intros [(loc & Hl & ->)|(loc & Hl & ->)]; [left|right]; eexists; (split; [done|]);
      apply elem_of_list_fmap; eexists; (split; [done|]); apply elem_of_seqZ; lia.
Qed.
Lemma stabilizers_XZZX dh dw : valid_size dh dw ->
  stabilizers XZZX dh dw = hconj (even_set dh dw) <$> stabilizers XXZZ dh dw.
Proof.
  intros Hv. unfold stabilizers, geometry_mx, geometry_mz, py_range. rewrite fmap_app, <-!list_fmap_compose.
  f_equal; apply list_fmap_ext; intros i x Hx; apply lookup_seqZ in Hx as [Hx ?]; unfold compose.
  - apply (stab_x_hconj dh dw x Hv). lia.
  - apply (stab_z_hconj dh dw x Hv). lia.
Qed.

(** C03 *)
Lemma stabilizers_commute c dh dw P Q : valid_size dh dw ->
  P ∈ stabilizers c dh dw -> Q ∈ stabilizers c dh dw -> commute P Q.
Proof.
  intros Hv. assert (Hw : 0 < dw) by (unfold valid_size in Hv; lia).
  assert (HX : forall P Q, P ∈ stabilizers XXZZ dh dw -> Q ∈ stabilizers XXZZ dh dw -> commute P Q).
  { clear P Q. intros P Q HP HQ. apply elem_of_stabilizers in HP as [(l1 & H1 & ->)|(l1 & H1 & ->)],
      HQ as [(l2 & H2 & ->)|(l2 & H2 & ->)]; rewrite ?stab_x_XXZZ, ?stab_z_XXZZ by done; unfold commute.
    - rewrite anti_Xon. apply dot_empty_l.
    - rewrite anti_Zon. apply box_xz_even; [done|by apply x_loc_corner|by apply z_loc_corner].
    - rewrite anti_Xon, dot_comm. apply box_xz_even; [done|by apply x_loc_corner|by apply z_loc_corner].
    - rewrite anti_Zon. apply dot_empty_l. }
  destruct c; [apply HX|]. rewrite stabilizers_XZZX by done.
  intros (P' & -> & HP)%elem_of_list_fmap (Q' & -> & HQ)%elem_of_list_fmap.
  unfold commute. rewrite anti_hconj. by apply HX.
Qed.

(** C04 *)
Lemma logical_commute c dh dw P : valid_size dh dw -> P ∈ stabilizers c dh dw ->
  commute P (log_x c dh dw) /\ commute P (log_z c dh dw).
Proof.
  intros Hv. assert (Hw : 0 < dw) by (unfold valid_size in Hv; lia).
  assert (HX : forall P, P ∈ stabilizers XXZZ dh dw ->
     commute P (Xon (col_set dh dw 0)) /\ commute P (Zon (row_set dh dw 0))).
  { clear P. intros P HP. apply elem_of_stabilizers in HP as [(l1 & H1 & ->)|(l1 & H1 & ->)];
      rewrite ?stab_x_XXZZ, ?stab_z_XXZZ by done; unfold commute; rewrite anti_Xon, anti_Zon; cbn [px pz Xon Zon].
    - destruct (x_loc_corner _ _ _ Hv H1) as (?&?&_). split; [apply dot_empty_l|]. rewrite dot_comm. by apply row_box_even.
    - destruct (z_loc_corner _ _ _ Hv H1) as (?&?&_). split; [|apply dot_empty_l]. rewrite dot_comm. by apply col_box_even. }
  destruct c; [apply HX|]. rewrite stabilizers_XZZX by done.
  intros (P' & -> & HP)%elem_of_list_fmap. unfold commute, log_x, log_z. rewrite !anti_hconj. by apply HX.
Qed.
Lemma logical_anticommute c dh dw : valid_size dh dw -> anti (log_x c dh dw) (log_z c dh dw) = true.
Proof.
  intros Hv. assert (anti (Xon (col_set dh dw 0)) (Zon (row_set dh dw 0)) = true).
  { rewrite anti_Xon_Zon, dot_comm. unfold valid_size in Hv. apply row_col_odd; lia. }
  destruct c; [done|]. unfold log_x, log_z. by rewrite anti_hconj.
Qed.

(** C05.  A subset of the stabilizers is a duplicate-free list of X indices and one of Z indices. *)
Lemma xorl_unique {A} (f : A -> bool) (l : list A) (x : A) :
  NoDup l -> x ∈ l -> f x = true -> (forall y, y ∈ l -> y <> x -> f y = false) -> xorl (f <$> l) = true.
Proof.
  intros Hn Hx Hf Ho. induction Hn as [|y l Hy Hn IH]; [by apply elem_of_nil in Hx|].
  rewrite fmap_cons, xorl_cons. apply elem_of_cons in Hx as [->|Hx].
  - rewrite Hf, xorl_false; [done|]. apply Forall_fmap, Forall_forall. intros z Hz. cbn.
    apply Ho; [by right|]. intros ->. done.
  - assert (f y = false) as -> by (apply Ho; [by left|by intros ->]).
    rewrite IH; [done|done|]. intros z Hz. apply Ho. by right.
Qed.
(** An element minimising a function. *)
Lemma list_min {A} (f : A -> Z) (l : list A) : l <> [] -> exists x, x ∈ l /\ forall y, y ∈ l -> f x <= f y.
Proof.
  induction l as [|a l IH]; [done|]. intros _. destruct l as [|b l].
  - exists a. split; [by left|]. intros y ->%elem_of_list_singleton. lia.
  - destruct IH as (x & Hx & Hm); [done|]. destruct (decide (f a <= f x)).
    + exists a. split; [by left|]. intros y [->|Hy]%elem_of_cons; [lia|]. specialize (Hm y Hy). lia.
    + exists x. split; [by right|]. intros y [->|Hy]%elem_of_cons; [lia|]. by apply Hm.
Qed.

Lemma x_boxes_independent dh dw (S : list Z) : valid_size dh dw -> NoDup S ->
  (forall loc, loc ∈ S -> 0 <= loc < num_syn_x dh dw) ->
  xsum ((fun loc => box dh dw (xr dw loc) (xc dw loc)) <$> S) = ∅ -> S = [].
Proof.
  intros Hv Hn Hr Hs. assert (Hw : 0 < dw) by (unfold valid_size in Hv; lia).
  destruct (decide (S = [])) as [|Hne]; [done|exfalso].
  destruct (list_min (xc dw) S Hne) as (m & Hm & Hmin).
  destruct (x_loc_corner _ _ _ Hv (Hr m Hm)) as (?&?&Hp).
  set (i := if bool_decide (xr dw m = -1) then 0 else xr dw m).
  assert (Hi : 0 <= i < dh /\ (i = xr dw m \/ i = xr dw m + 1)).
  { unfold i. case_bool_decide; unfold valid_size in *; lia. }
  assert (Ht : mem (i * dw + xc dw m) (xsum ((fun loc => box dh dw (xr dw loc) (xc dw loc)) <$> S)) = true).
  { rewrite mem_xsum, <-list_fmap_compose. apply (xorl_unique _ _ m); [done|done|..].
    - unfold compose. apply mem_true. apply elem_of_box; [done|]. rewrite idx_div, idx_mod by lia.
      split; [apply idx_in_data; lia|lia].
    - intros y Hy Hne'. unfold compose. apply mem_false. rewrite elem_of_box by done.
      rewrite idx_div, idx_mod by lia. intros (_ & Hri & Hci). apply Hne'.
      specialize (Hmin y Hy). destruct (x_loc_corner _ _ _ Hv (Hr y Hy)) as (?&?&Hpy).
      assert (xc dw y = xc dw m) by lia.
      apply (x_loc_inj dh dw); [done|by apply Hr|by apply Hr| |done].
      pose proof (Z.div_mod (xr dw y + xc dw y) 2 ltac:(lia)). pose proof (Z.div_mod (xr dw m + xc dw m) 2 ltac:(lia)).
      lia. }
  rewrite Hs, mem_empty in Ht. done.
Qed.
Lemma z_boxes_independent dh dw (S : list Z) : valid_size dh dw -> NoDup S ->
  (forall loc, loc ∈ S -> 0 <= loc < num_syn_z dh dw) ->
  xsum ((fun loc => box dh dw (zr dw loc) (zc dw loc)) <$> S) = ∅ -> S = [].
Proof.
  intros Hv Hn Hr Hs. assert (Hw : 0 < dw) by (unfold valid_size in Hv; lia).
  destruct (decide (S = [])) as [|Hne]; [done|exfalso].
  destruct (list_min (zr dw) S Hne) as (m & Hm & Hmin).
  destruct (z_loc_corner _ _ _ Hv (Hr m Hm)) as (?&?&Hp).
  set (j := if bool_decide (zc dw m = -1) then 0 else zc dw m).
  assert (Hi : 0 <= j < dw /\ (j = zc dw m \/ j = zc dw m + 1)).
  { unfold j. case_bool_decide; unfold valid_size in *; lia. }
  assert (Ht : mem (zr dw m * dw + j) (xsum ((fun loc => box dh dw (zr dw loc) (zc dw loc)) <$> S)) = true).
  { rewrite mem_xsum, <-list_fmap_compose. apply (xorl_unique _ _ m); [done|done|..].
    - unfold compose. apply mem_true. apply elem_of_box; [done|]. rewrite idx_div, idx_mod by lia.
      split; [apply idx_in_data; lia|lia].
    - intros y Hy Hne'. unfold compose. apply mem_false. rewrite elem_of_box by done.
      rewrite idx_div, idx_mod by lia. intros (_ & Hri & Hci). apply Hne'.
      specialize (Hmin y Hy). destruct (z_loc_corner _ _ _ Hv (Hr y Hy)) as (?&?&Hpy).
      assert (zr dw y = zr dw m) by lia.
      apply (z_loc_inj dh dw); [done|by apply Hr|by apply Hr|done|].
      pose proof (Z.div_mod (zr dw y + zc dw y) 2 ltac:(lia)). pose proof (Z.div_mod (zr dw m + zc dw m) 2 ltac:(lia)).
      lia. }
  rewrite Hs, mem_empty in Ht. done.
Qed.

Lemma pprod_XXZZ dh dw (Sx Sz : list Z) : valid_size dh dw ->
  (forall loc, loc ∈ Sx -> 0 <= loc < num_syn_x dh dw) -> (forall loc, loc ∈ Sz -> 0 <= loc < num_syn_z dh dw) ->
  pprod ((stab_x XXZZ dh dw <$> Sx) ++ (stab_z XXZZ dh dw <$> Sz)) =
  Pauli (xsum ((fun loc => box dh dw (xr dw loc) (xc dw loc)) <$> Sx))
        (xsum ((fun loc => box dh dw (zr dw loc) (zc dw loc)) <$> Sz)).
Proof.
  intros Hv HX HZ.
  assert (H1 : pprod (stab_x XXZZ dh dw <$> Sx) = Xon (xsum ((fun loc => box dh dw (xr dw loc) (xc dw loc)) <$> Sx))).
  { clear HZ. induction Sx as [|l Sx IH]; [done|]. rewrite !fmap_cons.
    change (pmul (stab_x XXZZ dh dw l) (pprod (stab_x XXZZ dh dw <$> Sx)) =
      Xon (box dh dw (xr dw l) (xc dw l) ⊕ xsum ((fun loc => box dh dw (xr dw loc) (xc dw loc)) <$> Sx))).
    rewrite IH, stab_x_XXZZ; [|done|apply HX; by left|intros; apply HX; by right].
    apply pauli_eq; cbn; [done|apply sd_empty_r]. }
  assert (H2 : pprod (stab_z XXZZ dh dw <$> Sz) = Zon (xsum ((fun loc => box dh dw (zr dw loc) (zc dw loc)) <$> Sz))).
  { clear HX H1. induction Sz as [|l Sz IH]; [done|]. rewrite !fmap_cons.
    change (pmul (stab_z XXZZ dh dw l) (pprod (stab_z XXZZ dh dw <$> Sz)) =
      Zon (box dh dw (zr dw l) (zc dw l) ⊕ xsum ((fun loc => box dh dw (zr dw loc) (zc dw loc)) <$> Sz))).
    rewrite IH, stab_z_XXZZ; [|done|apply HZ; by left|intros; apply HZ; by right].
    apply pauli_eq; cbn; [apply sd_empty_r|done]. }
  rewrite pprod_app, H1, H2. apply pauli_eq; cbn; [apply sd_empty_r|apply sd_empty_l].
Qed.
Lemma stabilizers_independent c dh dw (Sx Sz : list Z) : valid_size dh dw -> NoDup Sx -> NoDup Sz ->
  (forall loc, loc ∈ Sx -> 0 <= loc < num_syn_x dh dw) -> (forall loc, loc ∈ Sz -> 0 <= loc < num_syn_z dh dw) ->
  pprod ((stab_x c dh dw <$> Sx) ++ (stab_z c dh dw <$> Sz)) = pid -> Sx = [] /\ Sz = [].
Proof.
  intros Hv Hnx Hnz HX HZ Hp.
  assert (HP : pprod ((stab_x XXZZ dh dw <$> Sx) ++ (stab_z XXZZ dh dw <$> Sz)) = pid).
  { destruct c; [done|].
    rewrite <-(hconj_inv (even_set dh dw) (pprod _)), hconj_pprod, fmap_app, <-!list_fmap_compose.
    rewrite <-(hconj_pid (even_set dh dw)). f_equal. rewrite <-Hp. f_equal. f_equal.
    - apply list_fmap_ext. intros i x Hx. unfold compose. symmetry. apply stab_x_hconj; [done|].
      apply HX. by eapply elem_of_list_lookup_2.
    - apply list_fmap_ext. intros i x Hx. unfold compose. symmetry. apply stab_z_hconj; [done|].
      apply HZ. by eapply elem_of_list_lookup_2. }
  rewrite pprod_XXZZ in HP by done. injection HP as Ex Ez.
  split; [by eapply x_boxes_independent|by eapply z_boxes_independent].
Qed.

(** C06: rows differ by Z boxes, columns by X boxes. *)
Lemma rows_differ dh dw i : valid_size dh dw -> 0 <= i < dh - 1 ->
  row_set dh dw i ⊕ row_set dh dw (i + 1) =
  xsum ((fun o => box dh dw i (2 * o - i mod 2)) <$> seqZ 0 ((dw + 1) / 2)).
Proof.
  intros Hv Hi. assert (Hw : 0 < dw) by (unfold valid_size in Hv; lia).
  apply mem_ext. intros k. rewrite mem_sd, mem_xsum, <-list_fmap_compose.
  destruct (decide (k ∈ data_set dh dw /\ (k / dw = i \/ k / dw = i + 1))) as [[Hd Hk]|Hk].
  - transitivity true.
    + destruct Hk as [Hk|Hk].
      * assert (mem k (row_set dh dw i) = true) as -> by (apply mem_true, elem_of_row_set; done).
        assert (mem k (row_set dh dw (i+1)) = false) as -> by (apply mem_false; rewrite elem_of_row_set; lia). done.
      * assert (mem k (row_set dh dw i) = false) as -> by (apply mem_false; rewrite elem_of_row_set; lia).
        assert (mem k (row_set dh dw (i+1)) = true) as -> by (apply mem_true, elem_of_row_set; done). done.
    + symmetry. destruct (valid_size_inv _ _ Hv) as (h & w & -> & -> & ? & ?).
      rewrite half_p. apply data_set_coord in Hd as Hd'; [|done]. destruct Hd' as (?&?&?).
      pose proof (Z.mod_pos_bound i 2 ltac:(lia)).
      pose proof (Z.div_mod (k mod (2*w+1) + i mod 2) 2 ltac:(lia)).
      pose proof (Z.mod_pos_bound (k mod (2*w+1) + i mod 2) 2 ltac:(lia)).
      apply (xorl_unique _ _ ((k mod (2*w+1) + i mod 2) / 2)).
      * apply NoDup_seqZ.
      * apply elem_of_seqZ. lia.
      * unfold compose. apply mem_true, elem_of_box; [done|]. split; [done|]. split; [done|]. lia.
      * intros o Ho Hne. unfold compose. apply mem_false. rewrite elem_of_box by done. lia.
  - transitivity false.
    + assert (mem k (row_set dh dw i) = false) as -> by (apply mem_false; rewrite elem_of_row_set; tauto).
      assert (mem k (row_set dh dw (i+1)) = false) as -> by (apply mem_false; rewrite elem_of_row_set; tauto). done.
    + symmetry. apply xorl_false, Forall_fmap, Forall_forall. intros o _. unfold compose.
      apply mem_false. rewrite elem_of_box by done. tauto.
Qed.
Lemma cols_differ dh dw j : valid_size dh dw -> 0 <= j < dw - 1 ->
  col_set dh dw j ⊕ col_set dh dw (j + 1) =
  xsum ((fun o => box dh dw (2 * o + j mod 2 - 1) j) <$> seqZ 0 ((dh + 1) / 2)).
Proof.
  intros Hv Hj. assert (Hw : 0 < dw) by (unfold valid_size in Hv; lia).
  apply mem_ext. intros k. rewrite mem_sd, mem_xsum, <-list_fmap_compose.
  destruct (decide (k ∈ data_set dh dw /\ (k mod dw = j \/ k mod dw = j + 1))) as [[Hd Hk]|Hk].
  - transitivity true.
    + destruct Hk as [Hk|Hk].
      * assert (mem k (col_set dh dw j) = true) as -> by (apply mem_true, elem_of_col_set; done).
        assert (mem k (col_set dh dw (j+1)) = false) as -> by (apply mem_false; rewrite elem_of_col_set; lia). done.
      * assert (mem k (col_set dh dw j) = false) as -> by (apply mem_false; rewrite elem_of_col_set; lia).
        assert (mem k (col_set dh dw (j+1)) = true) as -> by (apply mem_true, elem_of_col_set; done). done.
    + symmetry. destruct (valid_size_inv _ _ Hv) as (h & w & -> & -> & ? & ?).
      rewrite half_p. apply data_set_coord in Hd as Hd'; [|done]. destruct Hd' as (?&?&?).
      pose proof (Z.mod_pos_bound j 2 ltac:(lia)).
      pose proof (Z.div_mod (k / (2*w+1) - j mod 2 + 1) 2 ltac:(lia)).
      pose proof (Z.mod_pos_bound (k / (2*w+1) - j mod 2 + 1) 2 ltac:(lia)).
      apply (xorl_unique _ _ ((k / (2*w+1) - j mod 2 + 1) / 2)).
      * apply NoDup_seqZ.
      * apply elem_of_seqZ. lia.
      * unfold compose. apply mem_true, elem_of_box; [done|]. split; [done|]. split; [lia|done].
      * intros o Ho Hne. unfold compose. apply mem_false. rewrite elem_of_box by done. lia.
  - transitivity false.
    + assert (mem k (col_set dh dw j) = false) as -> by (apply mem_false; rewrite elem_of_col_set; tauto).
      assert (mem k (col_set dh dw (j+1)) = false) as -> by (apply mem_false; rewrite elem_of_col_set; tauto). done.
    + symmetry. apply xorl_false, Forall_fmap, Forall_forall. intros o _. unfold compose.
      apply mem_false. rewrite elem_of_box by done. tauto.
Qed.

Lemma mod2_sub_self i o : (i + (2 * o - i mod 2)) mod 2 = 0.
Proof.
  pose proof (Z.div_mod i 2 ltac:(lia)). replace (i + (2 * o - i mod 2)) with (0 + (i / 2 + o) * 2) by lia.
  by rewrite Z.mod_add by lia.
Qed.
Lemma mod2_add_self j o : (2 * o + j mod 2 - 1 + j) mod 2 = 1.
Proof.
  pose proof (Z.div_mod j 2 ltac:(lia)). replace (2 * o + j mod 2 - 1 + j) with (1 + (j / 2 + o + j mod 2 - 1) * 2) by lia.
  by rewrite Z.mod_add by lia.
Qed.
Lemma row_z_corner dh dw i o : valid_size dh dw -> 0 <= i < dh - 1 -> 0 <= o < (dw + 1) / 2 ->
  z_corner dh dw i (2 * o - i mod 2).
Proof.
  intros Hv Hi Ho. destruct (valid_size_inv _ _ Hv) as (h & w & -> & -> & ? & ?). rewrite half_p in Ho.
  pose proof (Z.mod_pos_bound i 2 ltac:(lia)). split_and!; [lia..|apply mod2_sub_self].
Qed.
Lemma col_x_corner dh dw j o : valid_size dh dw -> 0 <= j < dw - 1 -> 0 <= o < (dh + 1) / 2 ->
  x_corner dh dw (2 * o + j mod 2 - 1) j.
Proof.
  intros Hv Hi Ho. destruct (valid_size_inv _ _ Hv) as (h & w & -> & -> & ? & ?). rewrite half_p in Ho.
  pose proof (Z.mod_pos_bound j 2 ltac:(lia)). split_and!; [lia..|apply mod2_add_self].
Qed.

(** E meets every Z box evenly: then it meets all rows with the same parity. *)
Lemma rows_same dh dw (E : gset Z) i : valid_size dh dw ->
  (forall r c, z_corner dh dw r c -> dot E (box dh dw r c) = false) ->
  0 <= i < dh -> dot E (row_set dh dw i) = dot E (row_set dh dw 0).
Proof.
  intros Hv HE Hi. rewrite <-(Z2Nat.id i) by lia. assert (Hn : (Z.to_nat i < Z.to_nat dh)%nat) by lia.
  clear Hi. revert Hn. generalize (Z.to_nat i) as n. clear i.
  induction n as [|n IH]; intros Hn; [done|].
  rewrite <-IH by lia. replace (Z.of_nat (S n)) with (Z.of_nat n + 1) by lia.
  assert (Hx : dot E (row_set dh dw (Z.of_nat n) ⊕ row_set dh dw (Z.of_nat n + 1)) = false).
  { rewrite rows_differ by (done || lia). rewrite dot_xsum_r. apply xorl_false.
    rewrite Forall_fmap, Forall_fmap. apply Forall_forall. intros o Ho%elem_of_seqZ. cbn.
    apply HE, row_z_corner; (done || lia). }
  rewrite dot_sd_r in Hx. symmetry. by apply xorb_eq.
Qed.
Lemma cols_same dh dw (E : gset Z) j : valid_size dh dw ->
  (forall r c, x_corner dh dw r c -> dot E (box dh dw r c) = false) ->
  0 <= j < dw -> dot E (col_set dh dw j) = dot E (col_set dh dw 0).
Proof.
  intros Hv HE Hi. rewrite <-(Z2Nat.id j) by lia. assert (Hn : (Z.to_nat j < Z.to_nat dw)%nat) by lia.
  clear Hi. revert Hn. generalize (Z.to_nat j) as n. clear j.
  induction n as [|n IH]; intros Hn; [done|].
  rewrite <-IH by lia. replace (Z.of_nat (S n)) with (Z.of_nat n + 1) by lia.
  assert (Hx : dot E (col_set dh dw (Z.of_nat n) ⊕ col_set dh dw (Z.of_nat n + 1)) = false).
  { rewrite cols_differ by (done || lia). rewrite dot_xsum_r. apply xorl_false.
    rewrite Forall_fmap, Forall_fmap. apply Forall_forall. intros o Ho%elem_of_seqZ. cbn.
    apply HE, col_x_corner; (done || lia). }
  rewrite dot_sd_r in Hx. symmetry. by apply xorb_eq.
Qed.

Lemma size_list_to_set_le {A} `{Countable A} (l : list A) : (size (list_to_set l : gset A) <= length l)%nat.
Proof.
  induction l as [|x l IH]; cbn; [by rewrite size_empty|]. rewrite size_union_alt, size_singleton.
  pose proof (subseteq_size ((list_to_set l : gset A) ∖ {[x]}) (list_to_set l) ltac:(set_solver)). lia.
Qed.
Lemma size_set_map_le {A B} `{Countable A} `{Countable B} (f : A -> B) (X : gset A) :
  (size (set_map f X : gset B) <= size X)%nat.
Proof.
  unfold set_map. etrans; [apply size_list_to_set_le|]. by rewrite fmap_length.
Qed.
Lemma size_seqZ_set n : size (list_to_set (seqZ 0 n) : gset Z) = Z.to_nat n.
Proof. rewrite size_list_to_set by apply NoDup_seqZ. by rewrite seqZ_length. Qed.
(** A set with an element at every value of [f] in 0..n-1 has at least n elements. *)
Lemma size_levels (f : Z -> Z) (E : gset Z) n :
  (forall i, 0 <= i < n -> exists k, k ∈ E /\ f k = i) -> n <= Z.of_nat (size E).
Proof.
  intros Hf. pose proof (size_set_map_le f E).
  assert (Hsub : (list_to_set (seqZ 0 n) : gset Z) ⊆ set_map f E).
  { intros i Hi. rewrite elem_of_list_to_set, elem_of_seqZ in Hi. destruct (Hf i ltac:(lia)) as (k & Hk & He).
    apply elem_of_map. by exists k. }
  apply subseteq_size in Hsub. rewrite size_seqZ_set in Hsub. lia.
Qed.

Lemma distance_z dh dw (E : gset Z) : valid_size dh dw ->
  (forall r c, z_corner dh dw r c -> dot E (box dh dw r c) = false) ->
  dot E (row_set dh dw 0) = true -> dh <= Z.of_nat (size E).
Proof.
  intros Hv HE Hr. apply (size_levels (fun k => k / dw)). intros i Hi.
  pose proof (rows_same dh dw E i Hv HE Hi) as Hs. rewrite Hr in Hs.
  apply dot_true_elem in Hs as (k & Hk & (?&?)%elem_of_row_set). by exists k.
Qed.
Lemma distance_x dh dw (E : gset Z) : valid_size dh dw ->
  (forall r c, x_corner dh dw r c -> dot E (box dh dw r c) = false) ->
  dot E (col_set dh dw 0) = true -> dw <= Z.of_nat (size E).
Proof.
  intros Hv HE Hr. apply (size_levels (fun k => k mod dw)). intros i Hi.
  pose proof (cols_same dh dw E i Hv HE Hi) as Hs. rewrite Hr in Hs.
  apply dot_true_elem in Hs as (k & Hk & (?&?)%elem_of_col_set). by exists k.
Qed.

Lemma size_col dh dw j : 0 <= dh -> 0 <= j < dw -> Z.of_nat (size (col_set dh dw j)) = dh.
Proof.
  intros Hh Hj. assert (col_set dh dw j = set_map (fun i => i * dw + j) (list_to_set (seqZ 0 dh) : gset Z)) as ->.
  { apply set_eq. intros k. rewrite elem_of_col_set, elem_of_map. split.
    - intros [Hd <-]. apply data_set_coord in Hd as (?&?&?); [|lia]. exists (k / dw). split; [done|].
      rewrite elem_of_list_to_set, elem_of_seqZ. lia.
    - intros (i & -> & Hi). rewrite elem_of_list_to_set, elem_of_seqZ in Hi. rewrite idx_mod by lia.
      split; [apply idx_in_data; lia|done]. }
  assert (Inj (=) (=) (fun i => i * dw + j)) by (intros a b ?; nia).
  pose proof (size_img (fun i => i * dw + j) (list_to_set (seqZ 0 dh))) as Hs. unfold img in Hs. rewrite Hs, size_seqZ_set. lia.
Qed.
Lemma size_row dh dw i : 0 <= i < dh -> 0 < dw -> Z.of_nat (size (row_set dh dw i)) = dw.
Proof.
  intros Hh Hj. assert (row_set dh dw i = set_map (fun j => i * dw + j) (list_to_set (seqZ 0 dw) : gset Z)) as ->.
  { apply set_eq. intros k. rewrite elem_of_row_set, elem_of_map. split.
    - intros [Hd <-]. apply data_set_coord in Hd as (?&?&?); [|lia]. exists (k mod dw). split; [done|].
      rewrite elem_of_list_to_set, elem_of_seqZ. lia.
    - intros (j & -> & Hi). rewrite elem_of_list_to_set, elem_of_seqZ in Hi. rewrite idx_div by lia.
      split; [apply idx_in_data; lia|done]. }
  assert (Inj (=) (=) (fun j => i * dw + j)) by (intros a b ?; lia).
  pose proof (size_img (fun j => i * dw + j) (list_to_set (seqZ 0 dw))) as Hs. unfold img in Hs. rewrite Hs, size_seqZ_set. lia.
Qed.
