(** Properties C01-C07, C40-C42: construction, geometry and the stabilizer codes. *)
From Verif Require Import ConstructFacts.
Open Scope Z_scope.

(** * C01 *)
(** With positive dimensions, construction succeeds iff both are odd; the counts reported
    in the params dictionary are the stated ones. *)
Theorem C01_construction t l name s p d dh dw :
  t <> TRepetition -> s_heap s !! l = Some p -> d_of p = Some d -> dims (Some d) = Some (dh, dw) ->
  0 < dh -> 0 < dw -> fresh_lattice s name ->
  ((exists s' q, new_tqubit t (Some l) name s = (s', Ok q)) <-> Z.odd dh = true /\ Z.odd dw = true) /\
  (forall s' q, new_tqubit t (Some l) name s = (s', Ok q) ->
     exists p' nd nx nz, s_heap s' !! lat_params (tq_lat q) = Some p' /\
       num_data_of p' = Some nd /\ num_syn_of p' = Some (nx, nz) /\
       nd = dh * dw /\ 0 <= nx /\ 0 <= nz /\ nx + nz = nd - 1).
Proof.
  intros Ht Hp Hd Hdim Hh Hw Hf.
  assert (Hok : forall s' q, new_tqubit t (Some l) name s = (s', Ok q) -> Z.odd dh = true /\ Z.odd dw = true).
  { intros s' q Hs. destruct (Z.odd dh) eqn:Eh, (Z.odd dw) eqn:Ew; try done;
      pose proof (new_surface_even t l name s p d dh dw Ht Hp Hd Hdim) as He; rewrite Hs in He;
      discriminate He; auto. }
  split.
  - split; [intros (s' & q & Hs); by eapply Hok|]. intros [Oh Ow].
    assert (Hv : valid_size dh dw) by done.
    destruct (new_surface_ok t l name s p d dh dw Ht Hp Hd Hdim Hv Hf) as (dl & _ & _ & ->). eauto.
  - intros s' q Hs. destruct (Hok s' q Hs) as [Oh Ow]. assert (Hv : valid_size dh dw) by done.
    destruct (new_surface_ok t l name s p d dh dw Ht Hp Hd Hdim Hv Hf) as (dl & H0 & H1 & Hn).
    rewrite Hn in Hs. injection Hs as <- <-. cbn.
    destruct (valid_counts _ _ Hv) as (?&?&?&?).
    eexists _, _, _, _. rewrite lookup_insert. split_and!; try reflexivity; done.
Qed.
Print Assumptions C01_construction.
(** An even dimension (of any sign, whatever else is in the circuit) raises LatticeError. *)
Theorem C01_even_rejected t l name s p d dh dw :
  t <> TRepetition -> s_heap s !! l = Some p -> d_of p = Some d -> dims (Some d) = Some (dh, dw) ->
  Z.odd dh = false \/ Z.odd dw = false ->
  (new_tqubit t (Some l) name s).2 = Err LatticeError.
Proof. exact (new_surface_even t l name s p d dh dw). Qed.
Print Assumptions C01_even_rejected.
(** Without "d" the lattice is 3 x 3. *)
Theorem C01_default t name s :
  t <> TRepetition -> fresh_lattice s name ->
  exists s' q p', new_tqubit t None name s = (s', Ok q) /\ s_heap s' !! lat_params (tq_lat q) = Some p' /\
    num_data_of p' = Some 9 /\ num_syn_of p' = Some (4, 4).
Proof.
  intros Ht Hf. unfold new_tqubit. cbn [or_new].
  set (s1 := (new_params empty_params s).1).
  erewrite mbind_ok by (instantiate (2 := s1); reflexivity).
  assert (forall (m : M unit), (match t with TRepetition => m | _ => mret tt end) s1 = (s1, Ok tt)) as Hm by (by destruct t).
  erewrite mbind_ok by apply Hm.
  erewrite mbind_ok.
  2:{ eapply (new_lattice_ok _ _ _ _ empty_params [3;3] 3 3); [apply lookup_insert|done..|]. exact Hf. }
  eexists _, _, _. split; [reflexivity|]. cbn. rewrite lookup_insert. done.
Qed.
Print Assumptions C01_default.
(** Negative odd dimensions pass the validation: d = -1 is accepted, and d = -3 fails with an
    IndexError rather than a LatticeError. *)
Definition heap1 (p : params) : st := St {[ 0%nat := p ]} 1 [] [] "treg" 0 [] [] [].
Definition with_d (d : dval) : params := Params (Some d) None None None None None None.
Theorem C01_negative_refuted : exists d s' q, d < 0 /\
  new_tqubit TXXZZ (Some 0%nat) "tq" (heap1 (with_d (DNum d))) = (s', Ok q).
Proof.
  exists (-1).
  assert (H : exists q, (new_tqubit TXXZZ (Some 0%nat) "tq" (heap1 (with_d (DNum (-1))))).2 = Ok q) by (eexists; vm_compute; reflexivity).
  destruct H as [q Hq]. destruct (new_tqubit _ _ _ _) as [s' r] eqn:E. cbn in Hq. subst r. by exists s', q.
Qed.
Print Assumptions C01_negative_refuted.
Example C01_negative_index : (new_tqubit TXXZZ (Some 0%nat) "tq" (heap1 (with_d (DNum (-3))))).2 = Err IndexError.
Proof. vm_compute. reflexivity. Qed.
Example C01_ex : exists s' q, new_tqubit TXZZX (Some 0%nat) "tq" (heap1 (with_d (DTup [3; 5]))) = (s', Ok q).
Proof.
  apply (C01_construction TXZZX 0 "tq" _ (with_d (DTup [3;5])) (DTup [3;5]) 3 5); try done.
  intros suf _. apply not_elem_of_nil.
Qed.

(** * C02 *)
Theorem C02_plaquettes dh dw i p : valid_size dh dw ->
  (geometry_mx dh dw !! i = Some p ->
     p_syn p = Z.of_nat i /\
     list_to_set (plaq_data p) = touching dh dw (coord_x dw (Z.of_nat i)).1 (coord_x dw (Z.of_nat i)).2 /\
     NoDup (plaq_data p) /\ (length (plaq_data p) = 2%nat \/ length (plaq_data p) = 4%nat) /\
     (forall k, k ∈ plaq_data p -> 0 <= k < dh * dw)) /\
  (geometry_mz dh dw !! i = Some p ->
     p_syn p = Z.of_nat i /\
     list_to_set (plaq_data p) = touching dh dw (coord_z dw (Z.of_nat i)).1 (coord_z dw (Z.of_nat i)).2 /\
     NoDup (plaq_data p) /\ (length (plaq_data p) = 2%nat \/ length (plaq_data p) = 4%nat) /\
     (forall k, k ∈ plaq_data p -> 0 <= k < dh * dw)).
Proof.
  intros Hv. split; intros Hi; apply list_lookup_fmap_Some in Hi as (loc & Hi & ->);
    apply lookup_seqZ in Hi as [-> Hi]; rewrite Z.add_0_l.
  - split; [rewrite geom_x_pt by (done || lia); done|]. apply plaq_data_x; (done || lia).
  - split; [rewrite geom_z_pt by (done || lia); done|]. apply plaq_data_z; (done || lia).
Qed.
Print Assumptions C02_plaquettes.
(** Distinct stabilizers have distinct coordinates. *)
Theorem C02_coordinates_distinct dh dw l1 l2 : valid_size dh dw ->
  (0 <= l1 < num_syn_x dh dw -> 0 <= l2 < num_syn_x dh dw -> coord_x dw l1 = coord_x dw l2 -> l1 = l2) /\
  (0 <= l1 < num_syn_z dh dw -> 0 <= l2 < num_syn_z dh dw -> coord_z dw l1 = coord_z dw l2 -> l1 = l2).
Proof. intros Hv. split; [by apply coord_x_inj|by apply coord_z_inj]. Qed.
Print Assumptions C02_coordinates_distinct.
Example C02_ex : valid_size 3 5 /\ exists p, geometry_mz 3 5 !! 4%nat = Some p /\ plaq_data p = [6; 7; 11; 12].
Proof. split; [done|]. eexists. vm_compute. done. Qed.

(** * C03 *)
Theorem C03_stabilizers_commute c dh dw P Q : valid_size dh dw ->
  P ∈ stabilizers c dh dw -> Q ∈ stabilizers c dh dw -> commute P Q.
Proof. exact (stabilizers_commute c dh dw P Q). Qed.
Print Assumptions C03_stabilizers_commute.
Example C03_ex : valid_size 5 3 /\ length (stabilizers XZZX 5 3) = 14%nat.
Proof. done. Qed.

(** * C04: the operators that x() and z() append to the circuit *)
Theorem C04_logical_operators s q dh dw : lat_ok s q dh dw ->
  exists gx gz Px Pz,
    logical_x q s = (app_instrs s gx, Ok tt) /\ gates_pauli gx = Some Px /\
    logical_z q s = (app_instrs s gz, Ok tt) /\ gates_pauli gz = Some Pz /\
    anti Px Pz = true /\
    forall P, P ∈ stabilizers (lat_code (tq_lat q)) dh dw ->
      commute (pmap (dq (lat_name (tq_lat q))) P) Px /\ commute (pmap (dq (lat_name (tq_lat q))) P) Pz.
Proof.
  intros Hok. pose proof (lo_valid _ _ _ _ Hok) as Hv. eexists _, _, _, _.
  split; [by apply logical_x_ok|]. split; [by apply logx_pauli|].
  split; [by eapply logical_z_ok|]. split; [by apply (logz_pauli _ _ dh)|].
  unfold commute. rewrite anti_pmap by apply _. split; [by apply logical_anticommute|].
  intros P HP. rewrite !anti_pmap by apply _. by apply logical_commute.
Qed.
Print Assumptions C04_logical_operators.
(** Every successfully constructed qubit of positive size satisfies [lat_ok]. *)
Theorem C04_constructed t l name s p d dh dw :
  t <> TRepetition -> s_heap s !! l = Some p -> d_of p = Some d -> dims (Some d) = Some (dh, dw) ->
  valid_size dh dw -> fresh_lattice s name ->
  exists s' q, new_tqubit t (Some l) name s = (s', Ok q) /\ lat_ok s' q dh dw /\
    lat_code (tq_lat q) = code_of t /\ lat_name (tq_lat q) = name.
Proof.
  intros Ht Hp Hd Hdim Hv Hf. destruct (new_surface_ok t l name s p d dh dw Ht Hp Hd Hdim Hv Hf) as (dl & H0 & H1 & ->).
  eexists _, _. split; [done|]. split; [by apply new_params_lat_ok|done].
Qed.
Print Assumptions C04_constructed.
Example C04_ex : exists s q, lat_ok s q 3 5 /\ lat_code (tq_lat q) = XZZX.
Proof.
  destruct (C04_constructed TXZZX 0 "tq" (heap1 (with_d (DTup [3;5]))) (with_d (DTup [3;5])) (DTup [3;5]) 3 5)
    as (s' & q & _ & Hok & Hc & _); try done; [intros suf _; apply not_elem_of_nil|]. eauto.
Qed.

(** * C05 *)
Theorem C05_independent c dh dw (Sx Sz : list Z) : valid_size dh dw -> NoDup Sx -> NoDup Sz ->
  (forall loc, loc ∈ Sx -> 0 <= loc < num_syn_x dh dw) -> (forall loc, loc ∈ Sz -> 0 <= loc < num_syn_z dh dw) ->
  pprod ((stab_x c dh dw <$> Sx) ++ (stab_z c dh dw <$> Sz)) = pid -> Sx = [] /\ Sz = [].
Proof. exact (stabilizers_independent c dh dw Sx Sz). Qed.
Print Assumptions C05_independent.
(** There are one fewer of them than data qubits. *)
Theorem C05_count c dh dw : valid_size dh dw -> Z.of_nat (length (stabilizers c dh dw)) = dh * dw - 1.
Proof.
  intros Hv. destruct (valid_counts _ _ Hv) as (?&?&?&Hc). unfold num_data in *.
  unfold stabilizers, geometry_mx, geometry_mz, py_range.
  rewrite app_length, !fmap_length, !seqZ_length. lia.
Qed.
Print Assumptions C05_count.
Example C05_ex : valid_size 3 3 /\ NoDup [0; 2] /\ (forall loc, loc ∈ [0; 2] -> 0 <= loc < num_syn_x 3 3).
Proof.
  split_and!; [done| |].
  - apply (bool_decide_unpack _). vm_compute. done.
  - intros loc. rewrite !elem_of_cons, elem_of_nil. change (num_syn_x 3 3) with 4. lia.
Qed.

(** * C06 *)
(** The component of an error that flips the logical Z (resp. X) readout of the code. *)
Definition flips_z (c : code) (dh dw : Z) (E : pauli Z) : gset Z := px (cconj c (even_set dh dw) E).
Definition flips_x (c : code) (dh dw : Z) (E : pauli Z) : gset Z := pz (cconj c (even_set dh dw) E).
Theorem C06_distance c dh dw (E : pauli Z) : valid_size dh dw ->
  (forall P, P ∈ stabilizers c dh dw -> commute E P) ->
  (anti E (log_z c dh dw) = true -> dh <= Z.of_nat (size (flips_z c dh dw E)) /\
                                    dh <= Z.of_nat (size (px E ∪ pz E))) /\
  (anti E (log_x c dh dw) = true -> dw <= Z.of_nat (size (flips_x c dh dw E)) /\
                                    dw <= Z.of_nat (size (px E ∪ pz E))).
Proof.
  intros Hv HE. set (S := even_set dh dw). set (E' := cconj c S E).
  assert (HE' : forall P, P ∈ stabilizers XXZZ dh dw -> anti E' P = false).
  { intros P HP. rewrite <-(cconj_inv c S P). unfold E'. rewrite anti_cconj. apply HE. by apply stab_cconj. }
  assert (Hz : anti E (log_z c dh dw) = anti E' (Zon (row_set dh dw 0))).
  { unfold E'. rewrite <-(cconj_inv c S (Zon _)), anti_cconj. by destruct c. }
  assert (Hx : anti E (log_x c dh dw) = anti E' (Xon (col_set dh dw 0))).
  { unfold E'. rewrite <-(cconj_inv c S (Xon _)), anti_cconj. by destruct c. }
  assert (Hsub : px E' ⊆ px E ∪ pz E /\ pz E' ⊆ px E ∪ pz E).
  { unfold E', cconj. destruct c; cbn; set_solver. }
  rewrite Hz, Hx. rewrite anti_Zon, anti_Xon. split; intros Ha.
  - assert (dh <= Z.of_nat (size (px E'))).
    { apply (distance_z dh dw); [done| |done]. intros r c' Hc.
      destruct (corner_z_loc _ _ _ _ Hv Hc) as (Hl & Hr & Hcc).
      specialize (HE' (stab_z XXZZ dh dw (zloc dw r c'))).
      rewrite stab_z_XXZZ, anti_Zon, Hr, Hcc in HE' by done. apply HE'.
      apply elem_of_stabilizers. right. exists (zloc dw r c'). split; [done|]. by rewrite stab_z_XXZZ, Hr, Hcc by done. }
    split; [done|]. destruct Hsub as [Hsub _]. apply subseteq_size in Hsub. lia.
  - assert (dw <= Z.of_nat (size (pz E'))).
    { apply (distance_x dh dw); [done| |done]. intros r c' Hc.
      destruct (corner_x_loc _ _ _ _ Hv Hc) as (Hl & Hr & Hcc).
      specialize (HE' (stab_x XXZZ dh dw (xloc dw r c'))).
      rewrite stab_x_XXZZ, anti_Xon, Hr, Hcc in HE' by done. apply HE'.
      apply elem_of_stabilizers. left. exists (xloc dw r c'). split; [done|]. by rewrite stab_x_XXZZ, Hr, Hcc by done. }
    split; [done|]. destruct Hsub as [_ Hsub]. apply subseteq_size in Hsub. lia.
Qed.
Print Assumptions C06_distance.
(** The bound is attained by the logical operators. *)
Theorem C06_attained c dh dw : valid_size dh dw ->
  ((forall P, P ∈ stabilizers c dh dw -> commute (log_x c dh dw) P) /\ anti (log_x c dh dw) (log_z c dh dw) = true /\
   Z.of_nat (size (flips_z c dh dw (log_x c dh dw))) = dh) /\
  ((forall P, P ∈ stabilizers c dh dw -> commute (log_z c dh dw) P) /\ anti (log_z c dh dw) (log_x c dh dw) = true /\
   Z.of_nat (size (flips_x c dh dw (log_z c dh dw))) = dw).
Proof.
  intros Hv. assert (Hpos := Hv). unfold valid_size in Hpos.
  assert (HX : log_x c dh dw = cconj c (even_set dh dw) (Xon (col_set dh dw 0))) by (by destruct c).
  assert (HZ : log_z c dh dw = cconj c (even_set dh dw) (Zon (row_set dh dw 0))) by (by destruct c).
  split; (split; [intros P HP; unfold commute; rewrite anti_comm; by apply (logical_commute c dh dw P Hv HP)|]);
    (split; [by rewrite ?logical_anticommute, 1?anti_comm, ?logical_anticommute|]).
  - unfold flips_z. rewrite HX, cconj_inv. cbn. apply size_col; lia.
  - unfold flips_x. rewrite HZ, cconj_inv. cbn. apply size_row; lia.
Qed.
Print Assumptions C06_attained.
Example C06_ex : valid_size 3 5 /\ anti (log_x XZZX 3 5) (log_z XZZX 3 5) = true.
Proof. split; [done|]. vm_compute. done. Qed.

(** * C07 *)
Theorem C07_single_error_XXZZ dh dw k : valid_size dh dw -> 0 <= k < dh * dw ->
  (* a bit flip: Z stabilizers on one diagonal, no X stabilizer *)
  (forall loc, 0 <= loc < num_syn_z dh dw ->
     (anti (Xon {[k]}) (stab_z XXZZ dh dw loc) = true <-> coord_z dw loc ∈ diag_z (k / dw) (k mod dw))) /\
  (forall loc, 0 <= loc < num_syn_x dh dw -> anti (Xon {[k]}) (stab_x XXZZ dh dw loc) = false) /\
  (* a phase flip: dually *)
  (forall loc, 0 <= loc < num_syn_x dh dw ->
     (anti (Zon {[k]}) (stab_x XXZZ dh dw loc) = true <-> coord_x dw loc ∈ diag_x (k / dw) (k mod dw))) /\
  (forall loc, 0 <= loc < num_syn_z dh dw -> anti (Zon {[k]}) (stab_z XXZZ dh dw loc) = false).
Proof.
  intros Hv Hk. apply elem_of_data_set in Hk. split_and!; intros loc Hl.
  - rewrite stab_z_XXZZ, anti_Zon by done. cbn [px Xon]. rewrite dot_singleton_l. by apply z_box_diag.
  - rewrite stab_x_XXZZ, anti_Xon by done. apply dot_empty_l.
  - rewrite stab_x_XXZZ, anti_Xon by done. cbn [pz Zon]. rewrite dot_singleton_l. by apply x_box_diag.
  - rewrite stab_z_XXZZ, anti_Zon by done. apply dot_empty_l.
Qed.
Print Assumptions C07_single_error_XXZZ.
(** A diagonal coordinate belongs to a stabilizer iff it lies strictly between the first and
    the last row (column); so at most two are flipped, and at least one when dh (dw) >= 3. *)
Theorem C07_inside dh dw i j : valid_size dh dw -> 0 <= i < dh -> 0 <= j < dw ->
  (forall y x, (y, x) ∈ diag_z i j ->
     ((exists loc, 0 <= loc < num_syn_z dh dw /\ coord_z dw loc = (y, x)) <-> 0 < y < 2 * (dh - 1))) /\
  (forall y x, (y, x) ∈ diag_x i j ->
     ((exists loc, 0 <= loc < num_syn_x dh dw /\ coord_x dw loc = (y, x)) <-> 0 < x < 2 * (dw - 1))) /\
  (3 <= dh -> exists loc, 0 <= loc < num_syn_z dh dw /\ coord_z dw loc ∈ diag_z i j) /\
  (3 <= dw -> exists loc, 0 <= loc < num_syn_x dh dw /\ coord_x dw loc ∈ diag_x i j).
Proof.
  intros Hv Hi Hj. pose proof (diag_z_inside dh dw i j Hv Hi Hj) as Hz. pose proof (diag_x_inside dh dw i j Hv Hi Hj) as Hx.
  split; [done|]. split; [done|]. split; intros H3.
  - assert (exists y x, (y, x) ∈ diag_z i j /\ 0 < y < 2 * (dh - 1)) as (y & x & Hin & Hy).
    { unfold diag_z, diag_main, diag_anti. destruct (Z.even (i + j)); destruct (decide (i = 0));
        eexists _, _; rewrite !elem_of_cons; first [split; [right; left; reflexivity|lia]|split; [left; reflexivity|lia]]. }
    destruct (Hz y x Hin) as [_ Hb]. destruct (Hb Hy) as (loc & Hl & He). exists loc. split; [done|]. by rewrite He.
  - assert (exists y x, (y, x) ∈ diag_x i j /\ 0 < x < 2 * (dw - 1)) as (y & x & Hin & Hy).
    { unfold diag_x, diag_main, diag_anti. destruct (Z.even (i + j)); destruct (decide (j = 0));
        eexists _, _; rewrite !elem_of_cons; first [split; [right; left; reflexivity|lia]|split; [left; reflexivity|lia]]. }
    destruct (Hx y x Hin) as [_ Hb]. destruct (Hb Hy) as (loc & Hl & He). exists loc. split; [done|]. by rewrite He.
Qed.
Print Assumptions C07_inside.
(** XZZX: a Z error flips the stabilizers on the main diagonal, an X error those on the other. *)
Theorem C07_single_error_XZZX dh dw k : valid_size dh dw -> 0 <= k < dh * dw ->
  forall loc,
  (0 <= loc < num_syn_z dh dw ->
     (anti (Zon {[k]}) (stab_z XZZX dh dw loc) = true <-> coord_z dw loc ∈ diag_main (k / dw) (k mod dw)) /\
     (anti (Xon {[k]}) (stab_z XZZX dh dw loc) = true <-> coord_z dw loc ∈ diag_anti (k / dw) (k mod dw))) /\
  (0 <= loc < num_syn_x dh dw ->
     (anti (Zon {[k]}) (stab_x XZZX dh dw loc) = true <-> coord_x dw loc ∈ diag_main (k / dw) (k mod dw)) /\
     (anti (Xon {[k]}) (stab_x XZZX dh dw loc) = true <-> coord_x dw loc ∈ diag_anti (k / dw) (k mod dw))).
Proof.
  intros Hv Hk loc. assert (Hw : 0 < dw) by (unfold valid_size in Hv; lia). apply elem_of_data_set in Hk.
  assert (Hpt : forall i j, Some k = pt dh dw i j <-> k / dw = i /\ k mod dw = j).
  { intros i j. split.
    - intros He. symmetry in He. apply pt_Some in He; tauto.
    - intros. symmetry. apply pt_Some; tauto. }
  assert (Hdx : forall Q : pauli Z, anti (Zon {[k]}) Q = mem k (px Q)).
  { intros Q. unfold anti; cbn. rewrite dot_empty_l, dot_singleton_l. by destruct (mem k (px Q)). }
  assert (Hdz : forall Q : pauli Z, anti (Xon {[k]}) Q = mem k (pz Q)).
  { intros Q. unfold anti; cbn. rewrite dot_empty_l, dot_singleton_l. by destruct (mem k (pz Q)). }
  split; intros Hl; rewrite Hdx, Hdz; unfold diag_main, diag_anti, stab_z, stab_x.
  - rewrite geom_z_pt by done. cbn [plaq_pauli shortname_mz px pz top_l top_r bot_l bot_r].
    rewrite !mem_true, !elem_of_oset, !elem_of_cons, !elem_of_nil, !Hpt, (coord_z_corner dh), !pair_equal_spec by done.
    split; intuition lia.
  - rewrite geom_x_pt by done. cbn [plaq_pauli shortname_mx px pz top_l top_r bot_l bot_r].
    rewrite !mem_true, !elem_of_oset, !elem_of_cons, !elem_of_nil, !Hpt, (coord_x_corner dh), !pair_equal_spec by done.
    split; intuition lia.
Qed.
Print Assumptions C07_single_error_XZZX.
Example C07_ex : anti (Xon {[7]}) (stab_z XXZZ 3 5 4) = true /\ coord_z 5 4 = (3, 3) /\ diag_z (7 / 5) (7 mod 5) = [(1, 5); (3, 3)].
Proof. vm_compute. done. Qed.

(** * C42 *)
Theorem C42_entangle_never_raises s q dh dw : lat_ok s q dh dw ->
  (forall sp, sp ∈ lat_stabs (tq_lat q) -> exists is, entangle_plaq sp.1 sp.2 = Ok is) /\
  (entangle (tq_lat q) None s).2 = Ok tt.
Proof.
  intros Hok. split.
  - intros sp Hsp. rewrite (lat_stabs_ok _ _ _ _ Hok) in Hsp. eexists. eapply entangle_stab_ok; [apply Hok|done].
  - by rewrite (entangle_ok _ _ _ _ Hok).
Qed.
Print Assumptions C42_entangle_never_raises.
Example C42_ex : exists s q, lat_ok s q 3 5 /\ length (lat_stabs (tq_lat q)) = 14%nat.
Proof.
  destruct (C04_constructed TXZZX 0 "tq" (heap1 (with_d (DTup [3;5]))) (with_d (DTup [3;5])) (DTup [3;5]) 3 5)
    as (s' & q & _ & Hok & Hc & _); try done; [intros suf _; apply not_elem_of_nil|].
  exists s', q. split; [done|]. rewrite (lat_stabs_ok _ _ _ _ Hok), Hc. vm_compute. done.
Qed.

(** * C41 *)
Theorem C41_shape l name s p s' q :
  s_heap s !! l = Some p -> params_empty p = false -> fresh_lattice s name ->
  new_tqubit TRepetition (Some l) name s = (s', Ok q) ->
  exists dh dw, lat_ok s' q dh dw /\ lat_code (tq_lat q) = XXZZ /\
    (if default false (pfp_of p) then dh = 1 else dw = 1).
Proof.
  intros Hp He Hf. rewrite (new_rep_unfold l name s p Hp He).
  set (b := default false (pfp_of p)).
  destruct (rep_d b (d_of p)) as [dl|e] eqn:Erd; [|done].
  set (p1 := set_d (set_pfp p b) (Some (DTup dl))).
  set (s1 := set_heap s (<[l := p1]> (s_heap s))).
  assert (Hp1 : s_heap s1 !! l = Some p1) by (cbn; apply lookup_insert).
  destruct (py_index dl 0) as [dh|e0] eqn:E0.
  2:{ intros Hs. exfalso. revert Hs. unfold new_lattice.
      erewrite mbind_err; [done|]. unfold params_validate_and_generate.
      erewrite mbind_ok by (by apply get_params_ok). erewrite mbind_ok by (by apply mlift_ok).
      erewrite mbind_ok by done. apply mbind_err. unfold mlift, check_d. rewrite E0. reflexivity. }
  destruct (py_index dl 1) as [dw|e1] eqn:E1.
  2:{ intros Hs. exfalso. revert Hs. unfold new_lattice.
      erewrite mbind_err; [done|]. unfold params_validate_and_generate.
      erewrite mbind_ok by (by apply get_params_ok). erewrite mbind_ok by (by apply mlift_ok).
      erewrite mbind_ok by done. apply mbind_err. unfold mlift, check_d. rewrite E0, E1. reflexivity. }
  pose proof (rep_d_dims _ _ _ _ _ Erd E0 E1) as Hdim.
  destruct (decide (Z.odd dh = true /\ Z.odd dw = true)) as [[Oh Ow]|Hne].
  2:{ intros Hs. exfalso. revert Hs. unfold new_lattice.
      erewrite mbind_err; [done|]. unfold params_validate_and_generate.
      erewrite mbind_ok by (by apply get_params_ok). erewrite mbind_ok by (by apply mlift_ok).
      erewrite mbind_ok by done. apply mbind_err. unfold mlift, check_d. rewrite E0, E1.
      pose proof (Zmod_odd dh). pose proof (Zmod_odd dw).
      assert (bool_decide (dh mod 2 <> 1) || bool_decide (dw mod 2 <> 1) = true) as ->; [|done].
      apply orb_true_iff. rewrite !bool_decide_eq_true.
      destruct (Z.odd dh), (Z.odd dw); lia || (exfalso; tauto). }
  destruct (decide (0 < dh /\ 0 < dw)) as [[Ph Pw]|Hneg].
  - assert (Hv : valid_size dh dw) by done.
    erewrite new_lattice_ok; [|exact Hp1|done|done|done|done|exact Hf].
    intros [= <- <-]. exists dh, dw. split; [by apply new_params_lat_ok|]. done.
  - (* a negative length gives a register of negative size *)
    intros Hs. exfalso. revert Hs. unfold new_lattice.
    assert (Hpv : exists s2, params_validate_and_generate l s1 = (s2, Ok (dh, dw))).
    { unfold params_validate_and_generate.
      erewrite mbind_ok by (by apply get_params_ok). erewrite mbind_ok by (by apply mlift_ok).
      erewrite mbind_ok by done. eexists.
      erewrite mbind_ok by (apply mlift_ok; unfold check_d; rewrite E0, E1;
        pose proof (Zmod_odd dh) as M1; pose proof (Zmod_odd dw) as M2; rewrite Oh in M1; rewrite Ow in M2;
        rewrite !bool_decide_eq_false_2 by lia; reflexivity).
      erewrite mbind_ok by done. reflexivity. }
    destruct Hpv as [s2 Hpv]. erewrite mbind_ok by exact Hpv. cbn [fst snd app mfor].
    erewrite mbind_err; [done|]. cbn [mfor app]. apply mbind_err. unfold add_reg. cbn [r_size snd].
    rewrite bool_decide_eq_true_2; [reflexivity|]. cbn. unfold num_data. unfold b in *.
    assert (dh <> 0) by (intros ->; done). assert (dw <> 0) by (intros ->; done).
    destruct (default false (pfp_of p)); subst; lia.
Qed.
Print Assumptions C41_shape.
(** Numbers give the stated shape; tuples of the wrong shape and other values raise LatticeError. *)
Theorem C41_number l name s p z :
  s_heap s !! l = Some p -> d_of p = Some (DNum z) -> 0 < z -> Z.odd z = true -> fresh_lattice s name ->
  exists s' q, new_tqubit TRepetition (Some l) name s = (s', Ok q) /\
    if default false (pfp_of p) then lat_ok s' q 1 z else lat_ok s' q z 1.
Proof.
  intros Hp Hd Hz Ho Hf. rewrite (new_rep_unfold l name s p Hp) by (by eapply d_not_empty). rewrite Hd.
  destruct (default false (pfp_of p)) eqn:Eb; cbn [rep_d].
  - erewrite (new_lattice_ok XXZZ l name _ _ [1; z] 1 z); [|apply lookup_insert|done|done|done|done|exact Hf].
    eexists _, _. split; [done|]. by apply new_params_lat_ok.
  - erewrite (new_lattice_ok XXZZ l name _ _ [z; 1] z 1); [|apply lookup_insert|done|done|done|done|exact Hf].
    eexists _, _. split; [done|]. by apply new_params_lat_ok.
Qed.
Print Assumptions C41_number.
Theorem C41_rejected l name s p d :
  s_heap s !! l = Some p -> d_of p = Some d ->
  d = DOther \/ (exists h w r, d = DTup (h :: w :: r) /\ (if default false (pfp_of p) then h <> 1 else w <> 1)) ->
  (new_tqubit TRepetition (Some l) name s).2 = Err LatticeError.
Proof.
  intros Hp Hd Hc. rewrite (new_rep_unfold l name s p Hp) by (by eapply d_not_empty). rewrite Hd.
  assert (rep_d (default false (pfp_of p)) (Some d) = Err LatticeError) as ->; [|done].
  destruct Hc as [->|(h & w & r & -> & Hne)]; [by destruct (default false (pfp_of p))|].
  unfold rep_d. rewrite py_index_0, py_index_1. cbn.
  destruct (default false (pfp_of p)); rewrite bool_decide_eq_true_2; done.
Qed.
Print Assumptions C41_rejected.
Example C41_ex : exists s' q, new_tqubit TRepetition (Some 0%nat) "tq" (heap1 (with_d (DNum 5))) = (s', Ok q) /\ lat_ok s' q 5 1.
Proof.
  apply (C41_number 0 "tq" (heap1 (with_d (DNum 5))) (with_d (DNum 5)) 5); try done. intros suf _. apply not_elem_of_nil.
Qed.

(** * C40 *)
(** Every syndrome qubit of the register is used. *)
Definition covers (r : rhandle) (is : list instr) : Prop :=
  forall k, 0 <= k < r.2 -> exists i, i ∈ is /\ (r.1, k) ∈ instr_qubits i.

(** On lattices with a plaquette of the requested kind and an "mx" register, entangle_x/_z
    use only data qubits and syndrome qubits of their own kind, and use all of the latter. *)
Lemma ent_uses_syn c name sreg dh dw loc (isx : bool) : valid_size dh dw ->
  0 <= loc < (if isx then num_syn_x dh dw else num_syn_z dh dw) ->
  exists i, i ∈ ent (if isx then shortname_mx c else shortname_mz c)
                    (lift_plaq name sreg (if isx then geom_x dh dw loc else geom_z dh dw loc)) /\ (sreg, loc) ∈ instr_qubits i.
Proof.
  intros Hv Hl. destruct isx.
  - destruct (x_loc_corner _ _ _ Hv Hl) as (Hr&Hc&_). rewrite geom_x_pt by done. unfold lift_plaq. cbn [p_syn top_l top_r bot_l bot_r].
    unfold ent, entangle_plaq, entangle_xxxx, entangle_xzzx, pt. cbn [q_syn q_tl q_tr q_bl q_br].
    unfold valid_size in Hv. destruct c; cbn [shortname_mx]; repeat case_bool_decide; try lia; cbn; eexists; (split; [apply elem_of_cons; left; reflexivity|cbn; rewrite !elem_of_cons; tauto]).
  - destruct (z_loc_corner _ _ _ Hv Hl) as (Hr&Hc&_). rewrite geom_z_pt by done. unfold lift_plaq. cbn [p_syn top_l top_r bot_l bot_r].
    unfold ent, entangle_plaq, entangle_zzzz, entangle_xzzx, pt. cbn [q_syn q_tl q_tr q_bl q_br].
    unfold valid_size in Hv. destruct c; cbn [shortname_mz]; repeat case_bool_decide; try lia; cbn; eexists; (split; [apply elem_of_cons; left; reflexivity|cbn; rewrite !elem_of_cons; tauto]).
Qed.
Theorem C40_entangle_x_z s q dh dw : lat_ok s q dh dw -> 3 <= dw ->
  let n := lat_name (tq_lat q) in
  (exists is, entangle_x (tq_lat q) s = (app_instrs s is, Ok tt) /\
     only_on [(n +:+ "_data")%string; (n +:+ "_mx")%string] is /\ covers (mx_reg n dh dw) is) /\
  (3 <= dh -> exists is, entangle_z (tq_lat q) s = (app_instrs s is, Ok tt) /\
     only_on [(n +:+ "_data")%string; (n +:+ "_mz")%string] is /\ covers (mz_reg n dh dw) is) /\
  (dh = 1 -> entangle_z (tq_lat q) s = entangle_x (tq_lat q) s).
Proof.
  intros Hok Hw n. assert (Hh : 0 < dh) by (apply (lo_valid _ _ _ _ Hok)). pose proof (lo_valid _ _ _ _ Hok) as Hv.
  pose proof (lat_stabs_ok _ _ _ _ Hok) as Hst. fold n in Hst.
  assert (Hmx : lat_mx (tq_lat q) = Some (mx_reg n dh dw)).
  { rewrite (lo_lat _ _ _ _ Hok). cbn. unfold opt_reg. rewrite bool_decide_eq_true_2; [done|].
    cbn. unfold num_syn_x. apply Z.lt_gt, Z.mul_pos_pos; [|lia]. apply Z.div_str_pos; lia. }
  assert (Hnx : 0 < num_syn_x dh dw) by (unfold num_syn_x; apply Z.mul_pos_pos; [|lia]; apply Z.div_str_pos; lia).
  assert (Hlen : length (pair (shortname_mx (lat_code (tq_lat q))) <$> (lift_plaq n (n +:+ "_mx") <$> geometry_mx dh dw)) = Z.to_nat (num_syn_x dh dw)).
  { rewrite !fmap_length. unfold geometry_mx, py_range. by rewrite fmap_length, seqZ_length. }
  assert (HL : lat_stabs (tq_lat q) =
      (pair (shortname_mx (lat_code (tq_lat q))) <$> (lift_plaq n (n +:+ "_mx") <$> geometry_mx dh dw)) ++
      (pair (shortname_mz (lat_code (tq_lat q))) <$> (lift_plaq n (n +:+ "_mz") <$> geometry_mz dh dw))) by (by rewrite Hst).
  assert (Hraise : forall sp, sp ∈ lat_stabs (tq_lat q) -> entangle_plaq sp.1 sp.2 = Ok (ent sp.1 sp.2)).
  { intros sp Hsp. rewrite Hst in Hsp. eapply entangle_stab_ok; done. }
  assert (Hcov : forall cls sreg (g : Z -> plaq) N, (forall k, 0 <= k < N -> exists i, i ∈ ent cls (lift_plaq n sreg (g k)) /\ (sreg, k) ∈ instr_qubits i) ->
     covers (sreg, N) (ent_instrs (pair cls <$> (lift_plaq n sreg <$> (g <$> py_range N))))).
  { intros cls sreg g N Hg k Hk. cbn in Hk. destruct (Hg k Hk) as (i & Hi & Hq). exists i. split; [|done].
    unfold ent_instrs. apply elem_of_list_join. exists (ent cls (lift_plaq n sreg (g k)) ++ [IBarrier]). split; [apply elem_of_app; by left|].
    apply elem_of_list_fmap. exists (cls, lift_plaq n sreg (g k)). split; [done|]. apply elem_of_list_fmap. eexists. split; [done|].
    apply elem_of_list_fmap. eexists. split; [done|]. apply elem_of_list_fmap. exists k. split; [done|].
    apply elem_of_seqZ. lia. }
  unfold entangle_x, entangle_z. rewrite Hmx. split; [eexists|split; [intros Hh3; eexists|intros ->]].
  - split; [|split; [apply (ent_instrs_only (shortname_mx (lat_code (tq_lat q))))|]].
    + erewrite mbind_ok by done. cbn [snd mx_reg]. rewrite HL, take_app_alt by done. unfold entangle.
      destruct (pair _ <$> _) as [|sp L] eqn:E; [cbn in Hlen; lia|]. rewrite <-E in *. apply mfor_entangle.
      intros sp' Hsp. apply Hraise. rewrite HL. apply elem_of_app. by left.
    + apply Hcov. intros k Hk. by apply (ent_uses_syn _ _ _ _ _ k true).
  - assert (Hnz : 0 < num_syn_z dh dw) by (unfold num_syn_z; apply Z.mul_pos_pos; [|lia]; apply Z.div_str_pos; lia).
    split; [|split; [apply (ent_instrs_only (shortname_mz (lat_code (tq_lat q))))|]].
    + erewrite mbind_ok by done. cbn [snd mx_reg]. rewrite HL, drop_app_alt by done. unfold entangle.
      destruct (pair (shortname_mz _) <$> _) as [|sp L] eqn:E.
      { apply (f_equal length) in E. unfold geometry_mz, py_range in E. rewrite !fmap_length, seqZ_length in E. cbn in E. lia. }
      rewrite <-E in *. apply mfor_entangle.
      intros sp' Hsp. apply Hraise. rewrite HL. apply elem_of_app. by right.
    + apply Hcov. intros k Hk. by apply (ent_uses_syn _ _ _ _ _ k false).
  - erewrite !mbind_ok by done. cbn [snd mx_reg]. rewrite HL, take_app_alt, drop_app_alt by done. unfold entangle.
    assert (Hg : geometry_mz 1 dw = []).
    { unfold geometry_mz. assert (num_syn_z 1 dw = 0) as -> by (unfold num_syn_z; lia). done. }
    rewrite HL, Hg. cbn [fmap list_fmap]. rewrite app_nil_r.
    destruct (pair _ <$> _) as [|sp L] eqn:E; [cbn in Hlen; lia|done].
Qed.
Print Assumptions C40_entangle_x_z.
(** Height 1: entangle_z emits gates on X syndrome qubits, an instance of the last clause.
    Width 1: entangle_x and entangle_z raise KeyError. *)
Definition mk (t : qtype) (d : dval) : st * res tqubit := new_tqubit t (Some 0%nat) "tq" (heap1 (with_d d)).
Theorem C40_height_one_refuted : exists q is qb,
  (mk TXXZZ (DTup [1; 3])).2 = Ok q /\
  s_instrs (entangle_z (tq_lat q) (mk TXXZZ (DTup [1; 3])).1).1 = is /\
  (entangle_z (tq_lat q) (mk TXXZZ (DTup [1; 3])).1).2 = Ok tt /\
  qb.1 = "tq_mx" /\ exists i, i ∈ is /\ qb ∈ instr_qubits i.
Proof.
  do 2 eexists. exists ("tq_mx", 0). split; [vm_compute; reflexivity|]. split; [vm_compute; reflexivity|].
  split; [vm_compute; reflexivity|]. split; [done|]. eexists. split; [left|]. cbn. left.
Qed.
Print Assumptions C40_height_one_refuted.
Theorem C40_width_one s q dh : lat_ok s q dh 1 ->
  (entangle_x (tq_lat q) s) = (s, Err KeyError) /\ (entangle_z (tq_lat q) s) = (s, Err KeyError).
Proof.
  intros Hok. unfold entangle_x, entangle_z. rewrite (lo_lat _ _ _ _ Hok). cbn -[num_syn_x].
  assert (opt_reg (mx_reg (lat_name (tq_lat q)) dh 1) = None) as ->.
  { unfold opt_reg. rewrite bool_decide_eq_false_2; [done|]. cbn -[num_syn_x]. unfold num_syn_x. lia. }
  done.
Qed.
Print Assumptions C40_width_one.
Example C40_ex : exists s q, lat_ok s q 3 5 /\ lat_code (tq_lat q) = XZZX.
Proof. exact C04_ex. Qed.
