(** A round of stabilizer measurements. *)
From Verif Require Export QWave ReadOps DistanceFacts.
From stdpp Require Export list.
Open Scope Z_scope.

(** ** Syndrome qubits: (true, loc) is the loc-th "mx", (false, loc) the loc-th "mz" *)
Definition sreg (name : string) (isx : bool) : string := (name +:+ (if isx then "_mx" else "_mz"))%string.
Definition synq (name : string) (k : bool * Z) : qubit := (sreg name k.1, k.2).
Definition nsyn (dh dw : Z) (isx : bool) : Z := if isx then num_syn_x dh dw else num_syn_z dh dw.
Definition is_syn (dh dw : Z) (k : bool * Z) : Prop := 0 <= k.2 < nsyn dh dw k.1.
Definition syns (dh dw : Z) : list (bool * Z) :=
  (pair true <$> seqZ 0 (num_syn_x dh dw)) ++ (pair false <$> seqZ 0 (num_syn_z dh dw)).
Definition stabP (c : code) (dh dw : Z) (k : bool * Z) : pauli Z :=
  if k.1 then stab_x c dh dw k.2 else stab_z c dh dw k.2.
Definition clsP (c : code) (k : bool * Z) : stabcls := if k.1 then shortname_mx c else shortname_mz c.
Definition geomP (dh dw : Z) (k : bool * Z) : plaq := if k.1 then geom_x dh dw k.2 else geom_z dh dw k.2.
(** The classical bit of round T in which syndrome k is recorded. *)
Definition cbit (name : string) (dh dw T : Z) (k : bool * Z) : clbit :=
  (cname name T, if k.1 then num_syn_z dh dw + k.2 else k.2).
Definition entry (c : code) (name : string) (dh dw : Z) (k : bool * Z) : stabcls * qplaq :=
  (clsP c k, lift_plaq name (sreg name k.1) (geomP dh dw k)).

Lemma elem_of_syns dh dw k : k ∈ syns dh dw <-> is_syn dh dw k.
Proof.
  unfold syns, is_syn, nsyn. destruct k as [b l]. rewrite elem_of_app, !elem_of_list_fmap. cbn. split.
  - intros [(x & [= -> ->] & Hx%elem_of_seqZ)|(x & [= -> ->] & Hx%elem_of_seqZ)]; lia.
  - intros Hl. destruct b; [left|right]; exists l; (split; [done|]); apply elem_of_seqZ; lia.
Qed.
Lemma syns_NoDup dh dw : NoDup (syns dh dw).
Proof.
  unfold syns. apply NoDup_app. split_and!.
  - apply NoDup_fmap; [by intros ?? [=]|apply NoDup_seqZ].
  - intros k (x & -> & _)%elem_of_list_fmap (y & [=] & _)%elem_of_list_fmap.
  - apply NoDup_fmap; [by intros ?? [=]|apply NoDup_seqZ].
Qed.
Lemma lat_stabs_syns c name l dh dw : lat_stabs (the_lattice c name l dh dw) = entry c name dh dw <$> syns dh dw.
Proof.
  cbn. unfold syns, geometry_mx, geometry_mz, py_range. rewrite fmap_app, <-!list_fmap_compose. done.
Qed.
Lemma synq_inj name k k' : synq name k = synq name k' -> k = k'.
Proof.
  destruct k as [b l], k' as [b' l']. unfold synq, sreg. cbn. intros [= E ->]. apply append_inj_l in E. by destruct b, b'.
Qed.
Lemma synq_dq name k i : synq name k <> dq name i.
Proof. unfold synq, sreg, dq. intros [= E _]. apply append_inj_l in E. by destruct k as [[|] ?]. Qed.
Lemma ancq_dq name i : ancq name <> dq name i.
Proof. unfold ancq, dq. intros [= E _]. apply append_inj_l in E. done. Qed.
Lemma ancq_synq name k : ancq name <> synq name k.
Proof. unfold ancq, synq, sreg. intros [= E _]. apply append_inj_l in E. by destruct k as [[|] ?]. Qed.
Lemma stabP_elem c dh dw k : is_syn dh dw k -> stabP c dh dw k ∈ stabilizers c dh dw.
Proof.
  destruct k as [b l]. unfold is_syn, nsyn, stabP, stabilizers, stab_x, stab_z. cbn. intros Hl. apply elem_of_app.
  destruct b; [left|right]; apply elem_of_list_fmap; eexists; (split; [done|]); apply elem_of_list_fmap; exists l; (split; [done|]);
    apply elem_of_seqZ; lia.
Qed.
Lemma stabilizers_syn c dh dw P : P ∈ stabilizers c dh dw -> exists k, is_syn dh dw k /\ P = stabP c dh dw k.
Proof.
  unfold stabilizers. intros [(? & -> & (l & -> & Hl%elem_of_seqZ)%elem_of_list_fmap)%elem_of_list_fmap
    |(? & -> & (l & -> & Hl%elem_of_seqZ)%elem_of_list_fmap)%elem_of_list_fmap]%elem_of_app;
    [exists (true, l)|exists (false, l)]; (split; [unfold is_syn, nsyn; cbn; lia|done]).
Qed.

(** ** Plaquette circuits as parity-measurement circuits *)
Definition opt_group (x : bool) (o : option qubit) : list (bool * list qubit) :=
  match o with Some q => [(x, [q])] | None => [] end.
Definition groups_of (cls : stabcls) (p : qplaq) : list (bool * list qubit) :=
  match cls with
  | SXXXX => [(true, omap id [q_tr p; q_tl p; q_br p; q_bl p])]
  | SZZZZ => [(false, omap id [q_tr p; q_br p; q_tl p; q_bl p])]
  | SXZZX => opt_group true (q_tl p) ++ opt_group false (q_tr p) ++ opt_group false (q_bl p) ++ opt_group true (q_br p)
  end.
Lemma corner_of dh dw k : valid_size dh dw -> is_syn dh dw k -> exists r c,
  geomP dh dw k = Plaq k.2 (pt dh dw r c) (pt dh dw r (c+1)) (pt dh dw (r+1) c) (pt dh dw (r+1) (c+1)) /\
  forall cd, x_like dh dw (clsP cd k) r c.
Proof.
  intros Hv. destruct k as [[|] loc]; unfold is_syn, nsyn, geomP, clsP; cbn [fst snd]; intros Hl.
  - exists (xr dw loc), (xc dw loc). rewrite geom_x_pt by done. split; [done|]. intros cd.
    destruct (x_loc_corner _ _ _ Hv Hl) as (?&?&_). by destruct cd.
  - exists (zr dw loc), (zc dw loc). rewrite geom_z_pt by done. split; [done|]. intros cd.
    destruct (z_loc_corner _ _ _ Hv Hl) as (?&?&_). by destruct cd.
Qed.
Lemma ent_compile c name dh dw k : valid_size dh dw -> is_syn dh dw k ->
  ent (entry c name dh dw k).1 (entry c name dh dw k).2 = compile (synq name k) (groups_of (entry c name dh dw k).1 (entry c name dh dw k).2).
Proof.
  intros Hv Hk. destruct (corner_of _ _ _ Hv Hk) as (r & cc & Hg & Hx). unfold entry. cbn [fst snd]. rewrite Hg.
  specialize (Hx c). destruct (clsP c k); cbn in Hx; unfold ent, entangle_plaq, lift_plaq; cbn [p_syn top_l top_r bot_l bot_r q_syn q_tl q_tr q_bl q_br].
  - unfold entangle_xxxx, pt. repeat case_bool_decide; try lia; reflexivity.
  - unfold entangle_zzzz, pt. repeat case_bool_decide; try lia; reflexivity.
  - unfold entangle_xzzx, pt. repeat case_bool_decide; try lia; reflexivity.
Qed.
Lemma gprod_set x (l : list qubit) : NoDup l -> gprod (x, l) = if x then Xon (list_to_set l) else Zon (list_to_set l).
Proof.
  induction 1 as [|q l Hq Hn IH]; [by destruct x|]. rewrite gprod_cons, IH.
  destruct x; apply pauli_eq; cbn [px pz pmul single Xon Zon list_to_set]; rewrite ?sd_empty_l; try done;
    apply sd_insert; by rewrite elem_of_list_to_set.
Qed.
Lemma list_to_set_img name (l : list Z) : list_to_set (dq name <$> l) = img (dq name) (list_to_set l).
Proof. unfold img. apply set_eq. intros q. rewrite elem_of_list_to_set, elem_of_list_fmap, elem_of_map. set_solver. Qed.
Lemma omap_lift name (l : list (option Z)) : omap id ((fun o => dq name <$> o) <$> l) = dq name <$> omap id l.
Proof. induction l as [|[x|] l IH]; cbn; [done| |done]. f_equal. apply IH. Qed.
Lemma gprod_app x l1 l2 : gprod (x, l1 ++ l2) = pmul (gprod (x, l1)) (gprod (x, l2)).
Proof. unfold gprod. cbn [fst snd]. rewrite fmap_app. apply pprod_app. Qed.
Lemma gpauli_app g1 g2 : gpauli (g1 ++ g2) = pmul (gpauli g1) (gpauli g2).
Proof. unfold gpauli. rewrite fmap_app. apply pprod_app. Qed.
Lemma gpauli_opt x o : gpauli (opt_group x o) = gprod (x, omap id [o]).
Proof. destruct o; cbn; [apply pmul_id_r|done]. Qed.
Lemma gqubits_app g1 g2 : gqubits (g1 ++ g2) = gqubits g1 ++ gqubits g2.
Proof. induction g1 as [|g g1 IH]; [done|]. cbn [app]. rewrite !gqubits_cons, IH. apply app_assoc. Qed.
Lemma gqubits_opt x o : gqubits (opt_group x o) = omap id [o].
Proof. by destruct o. Qed.
Lemma omap_perm {A} (l1 l2 : list (option A)) : l1 ≡ₚ l2 -> omap id l1 ≡ₚ omap id l2.
Proof. intros Hp. by rewrite Hp. Qed.
Definition quad (p : qplaq) : list (option qubit) := [q_tl p; q_tr p; q_bl p; q_br p].
Lemma groups_qubits cls p : gqubits (groups_of cls p) ≡ₚ omap id (quad p).
Proof.
  destruct cls; cbn [groups_of quad].
  - unfold gqubits. cbn [fmap list_fmap mjoin list_join snd]. rewrite app_nil_r. apply omap_perm. unfold quad.
    etrans; [apply perm_swap|]. do 2 constructor. apply perm_swap.
  - unfold gqubits. cbn [fmap list_fmap mjoin list_join snd]. rewrite app_nil_r. apply omap_perm. unfold quad.
    rewrite (Permutation_app_comm [q_tr p; q_br p] [q_tl p; q_bl p]). cbn [app]. constructor. etrans; [apply perm_swap|]. done.
  - rewrite !gqubits_app, !gqubits_opt, <-!omap_app. done.
Qed.
Lemma oset_list (l : list (option Z)) : oset l = list_to_set (omap id l).
Proof. done. Qed.
Lemma pmap_XZ name (A B : gset Z) : pmap (dq name) (Pauli A B) = pmul (Xon (img (dq name) A)) (Zon (img (dq name) B)).
Proof. apply pauli_eq; cbn; by rewrite ?sd_empty_r, ?sd_empty_l. Qed.
Lemma groups_pauli cls name sr g : NoDup (omap id (plaq_idx g)) ->
  gpauli (groups_of cls (lift_plaq name sr g)) = pmap (dq name) (plaq_pauli cls g).
Proof.
  destruct g as [syn tl tr bl br]. unfold plaq_idx. cbn [top_l top_r bot_l bot_r]. intros Hnd.
  assert (HP : forall l, l ≡ₚ [tl; tr; bl; br] -> NoDup (dq name <$> omap id l)).
  { intros l Hl. apply NoDup_fmap; [apply _|]. by rewrite Hl. }
  unfold lift_plaq. destruct cls; cbn [groups_of q_tl q_tr q_bl q_br plaq_pauli top_l top_r bot_l bot_r plaq_idx p_syn].
  - rewrite gpauli_1.
    change (omap id [dq name <$> tr; dq name <$> tl; dq name <$> br; dq name <$> bl]) with
      (omap id ((fun o => dq name <$> o) <$> [tr; tl; br; bl])). rewrite omap_lift.
    assert (Hp : [tr; tl; br; bl] ≡ₚ [tl; tr; bl; br]) by (etrans; [apply perm_swap|]; do 2 constructor; apply perm_swap).
    rewrite gprod_set by (by apply HP). rewrite list_to_set_img. rewrite <-oset_list, (oset_perm _ _ Hp).
    apply pauli_eq; cbn; by rewrite ?img_empty.
  - rewrite gpauli_1.
    change (omap id [dq name <$> tr; dq name <$> br; dq name <$> tl; dq name <$> bl]) with
      (omap id ((fun o => dq name <$> o) <$> [tr; br; tl; bl])). rewrite omap_lift.
    assert (Hp : [tr; br; tl; bl] ≡ₚ [tl; tr; bl; br]).
    { rewrite (Permutation_app_comm [tr; br] [tl; bl]). cbn [app]. constructor. etrans; [apply perm_swap|]. done. }
    rewrite gprod_set by (by apply HP). rewrite list_to_set_img. rewrite <-oset_list, (oset_perm _ _ Hp).
    apply pauli_eq; cbn; by rewrite ?img_empty.
  - rewrite !gpauli_app, !gpauli_opt, pmap_XZ.
    transitivity (pmul (gprod (true, dq name <$> omap id [tl; br])) (gprod (false, dq name <$> omap id [tr; bl]))).
    + rewrite <-!(omap_lift name). cbn [fmap list_fmap]. change [dq name <$> tl; dq name <$> br] with ([dq name <$> tl] ++ [dq name <$> br]).
      change [dq name <$> tr; dq name <$> bl] with ([dq name <$> tr] ++ [dq name <$> bl]). rewrite !omap_app, !gprod_app.
      rewrite <-!pmul_assoc. f_equal. rewrite (pmul_assoc _ _ (gprod (true, _))), (pmul_comm _ (gprod (true, _))). done.
    + assert (Hp : [tl; br] ++ [tr; bl] ≡ₚ [tl; tr; bl; br]).
      { cbn [app]. constructor. rewrite (Permutation_app_comm [br] [tr; bl]). done. }
      pose proof (HP _ Hp) as Hn. rewrite omap_app, fmap_app in Hn. apply NoDup_app in Hn as (N1 & _ & N2).
      rewrite !gprod_set, !list_to_set_img; done.
Qed.
Lemma plaq_nodup dh dw k : valid_size dh dw -> is_syn dh dw k -> NoDup (plaq_data (geomP dh dw k)).
Proof.
  intros Hv Hk. destruct k as [[|] l].
  - apply (plaq_data_x dh dw l Hv Hk).
  - apply (plaq_data_z dh dw l Hv Hk).
Qed.
Definition gsP (c : code) (name : string) (dh dw : Z) (k : bool * Z) : list (bool * list qubit) :=
  groups_of (entry c name dh dw k).1 (entry c name dh dw k).2.
Lemma gsP_pauli c name dh dw k : valid_size dh dw -> is_syn dh dw k ->
  gpauli (gsP c name dh dw k) = pmap (dq name) (stabP c dh dw k).
Proof.
  intros Hv Hk. unfold gsP, entry. cbn [fst snd]. rewrite groups_pauli by (by apply plaq_nodup).
  by destruct k as [[|] l].
Qed.
Lemma gsP_qubits c name dh dw k : gqubits (gsP c name dh dw k) ≡ₚ dq name <$> plaq_data (geomP dh dw k).
Proof. unfold gsP. rewrite groups_qubits. unfold entry. cbn [fst snd]. unfold plaq_data. by rewrite <-omap_lift. Qed.
Lemma gsP_nodup c name dh dw k : valid_size dh dw -> is_syn dh dw k -> NoDup (gqubits (gsP c name dh dw k)).
Proof. intros Hv Hk. rewrite gsP_qubits. apply NoDup_fmap; [apply _|]. by apply plaq_nodup. Qed.
Lemma gsP_off c name dh dw k q : (forall i, q <> dq name i) -> q ∉ gqubits (gsP c name dh dw k).
Proof. intros Hq. rewrite gsP_qubits. intros (i & -> & _)%elem_of_list_fmap. by apply (Hq i). Qed.

Lemma mjoin_app' {A} (l1 l2 : list (list A)) : mjoin (l1 ++ l2) = mjoin l1 ++ mjoin l2.
Proof. induction l1 as [|x l1 IH]; [done|]. cbn. rewrite <-app_assoc. f_equal. exact IH. Qed.
Lemma compile_plain s gs i : i ∈ compile s gs -> forall q k, i <> IMeas q k.
Proof.
  unfold compile. intros (is & Hi & (g & -> & _)%elem_of_list_fmap)%elem_of_list_join q k ->.
  destruct g as [[|] l]; cbn in Hi.
  - apply elem_of_cons in Hi as [Hi|Hi]; [done|]. apply elem_of_app in Hi as [(?&?&_)%elem_of_list_fmap|Hi%elem_of_list_singleton]; done.
  - by apply elem_of_list_fmap in Hi as (?&?&_).
Qed.

(** ** Pauli operators through a round *)
Section round.
Context (c : code) (name : string) (dh dw : Z) (Hv : valid_size dh dw).
Let P (k : bool * Z) : pauli qubit := pmap (dq name) (stabP c dh dw k).

Lemma off_P (q : qubit) (k : bool * Z) : is_syn dh dw k -> (forall i, q <> dq name i) -> off q (P k).
Proof. intros Hk Hq. unfold P. rewrite <-gsP_pauli by done. apply off_gpauli. by apply gsP_off. Qed.
Lemma P_commute (k k' : bool * Z) : is_syn dh dw k -> is_syn dh dw k' -> commute (P k) (P k').
Proof.
  intros Hk Hk'. unfold commute, P. rewrite anti_pmap by apply _.
  apply (stabilizers_commute c dh dw); [done|by apply stabP_elem..].
Qed.
Lemma anti_Z_off (q : qubit) (Q : pauli qubit) : mem q (px Q) = false -> commute (Zon {[q]}) Q.
Proof. intros Hq. unfold commute. rewrite anti_comm, anti_Zon, dot_singleton_r. done. Qed.

Definition ent_k (k : bool * Z) : list instr := ent (entry c name dh dw k).1 (entry c name dh dw k).2 ++ [IBarrier].
Lemma ent_instrs_eq l : ent_instrs (entry c name dh dw <$> l) = mjoin (ent_k <$> l).
Proof. unfold ent_instrs. rewrite <-list_fmap_compose. done. Qed.
Lemma ent_k_keep (k : bool * Z) (Q : pauli qubit) : is_syn dh dw k -> off (synq name k) Q -> commute Q (P k) -> prop (ent_k k) Q = Some (Q, false).
Proof.
  intros Hk Ho Hc. unfold ent_k. rewrite ent_compile by done. change false with (xorb false false). eapply prop_app; [|done].
  apply prop_compile_commute; [done| |].
  - apply gsP_off. intros i. apply synq_dq.
  - change (groups_of _ _) with (gsP c name dh dw k). by rewrite gsP_pauli by done.
Qed.
Lemma ent_k_Z (k : bool * Z) : is_syn dh dw k -> prop (ent_k k) (Zon {[synq name k]}) = Some (pmul (Zon {[synq name k]}) (P k), false).
Proof.
  intros Hk. unfold ent_k. rewrite ent_compile by done. change false with (xorb false false).
  change (groups_of _ _) with (gsP c name dh dw k).
  eapply prop_app; [apply prop_measured|].
  - apply gsP_off. intros i. apply synq_dq.
  - by apply gsP_nodup.
  - rewrite gsP_pauli by done. done.
Qed.
Definition synd_off (Q : pauli qubit) : Prop := forall k, is_syn dh dw k -> off (synq name k) Q.
Definition synd_comm (Q : pauli qubit) : Prop := forall k, is_syn dh dw k -> commute Q (P k).
Lemma ents_keep (l : list (bool * Z)) (Q : pauli qubit) : (forall k, k ∈ l -> is_syn dh dw k /\ off (synq name k) Q /\ commute Q (P k)) ->
  prop (mjoin (ent_k <$> l)) Q = Some (Q, false).
Proof.
  intros Hl. apply prop_mjoin. intros is Hi. apply elem_of_list_fmap in Hi as (k & -> & Hk).
  destruct (Hl k Hk) as (?&?&?). by apply ent_k_keep.
Qed.
Lemma off_Z (q q' : qubit) : q <> q' -> off q (Zon {[q']}).
Proof. intros. split; cbn; rewrite ?mem_empty, ?mem_singleton, ?bool_decide_eq_false_2; done. Qed.
Lemma ents_Z (k : bool * Z) : is_syn dh dw k ->
  prop (ent_instrs (lat_stabs (the_lattice c name 0 dh dw))) (Zon {[synq name k]}) = Some (pmul (Zon {[synq name k]}) (P k), false).
Proof.
  intros Hk. rewrite lat_stabs_syns, ent_instrs_eq.
  pose proof (proj2 (elem_of_syns dh dw k) Hk) as Hin. apply elem_of_list_split in Hin as (l1 & l2 & Hs).
  pose proof (syns_NoDup dh dw) as Hnd. rewrite Hs in Hnd.
  assert (Hall : forall k', k' ∈ l1 \/ k' ∈ l2 -> is_syn dh dw k' /\ k' <> k).
  { intros k' Hk'. split.
    - apply elem_of_syns. rewrite Hs, elem_of_app, elem_of_cons. tauto.
    - intros ->. rewrite <-Permutation_middle in Hnd. apply NoDup_cons in Hnd as [Hn _]. apply Hn, elem_of_app. tauto. }
  rewrite Hs, fmap_app, fmap_cons, mjoin_app'. change (mjoin (ent_k k :: (ent_k <$> l2))) with (ent_k k ++ mjoin (ent_k <$> l2)).
  change false with (xorb false (xorb false false)).
  eapply prop_app; [|eapply prop_app; [by apply ent_k_Z|]].
  - apply ents_keep. intros k' Hk'. destruct (Hall k' (or_introl Hk')) as [Hs' Hne]. split_and!; [done| |].
    + apply off_Z. intros E. by apply synq_inj in E.
    + apply anti_Z_off. apply off_P; [done|]. intros i. apply synq_dq.
  - apply ents_keep. intros k' Hk'. destruct (Hall k' (or_intror Hk')) as [Hs' Hne]. split_and!; [done| |].
    + apply off_pmul; [apply off_Z; intros E; by apply synq_inj in E|]. apply off_P; [done|]. intros i. apply synq_dq.
    + unfold commute. rewrite anti_pmul_l. rewrite P_commute by done. rewrite anti_Z_off; [done|].
      apply off_P; [done|]. intros i. apply synq_dq.
Qed.
Lemma ents_keep_all (Q : pauli qubit) : synd_off Q -> synd_comm Q ->
  prop (ent_instrs (lat_stabs (the_lattice c name 0 dh dw))) Q = Some (Q, false).
Proof.
  intros Ho Hc. rewrite lat_stabs_syns, ent_instrs_eq. apply ents_keep. intros k Hk%elem_of_syns. auto.
Qed.

Definition syn_order : list (bool * Z) :=
  (pair false <$> seqZ 0 (num_syn_z dh dw)) ++ (pair true <$> seqZ 0 (num_syn_x dh dw)).
Lemma syn_order_elem (k : bool * Z) : k ∈ syn_order <-> is_syn dh dw k.
Proof. rewrite <-elem_of_syns. unfold syn_order, syns. rewrite !elem_of_app. tauto. Qed.
Lemma meas_instrs_eq T : meas_instrs name dh dw T = (fun qb => IMeas qb.1 qb.2) <$> ((fun k => (synq name k, cbit name dh dw T k)) <$> syn_order).
Proof. unfold meas_instrs, syn_order. rewrite !fmap_app, <-!list_fmap_compose. done. Qed.
Lemma reset_instrs_eq : reset_instrs name dh dw = IReset <$> (synq name <$> syn_order).
Proof. unfold reset_instrs, syn_order. rewrite !fmap_app, <-!list_fmap_compose. done. Qed.
Lemma syn_order_NoDup : NoDup syn_order.
Proof.
  unfold syn_order. apply NoDup_app. split_and!.
  - apply NoDup_fmap; [by intros ?? [=]|apply NoDup_seqZ].
  - intros k (x & -> & _)%elem_of_list_fmap (y & [=] & _)%elem_of_list_fmap.
  - apply NoDup_fmap; [by intros ?? [=]|apply NoDup_seqZ].
Qed.
Lemma cbit_inj T (k k' : bool * Z) : is_syn dh dw k -> is_syn dh dw k' -> cbit name dh dw T k = cbit name dh dw T k' -> k = k'.
Proof.
  destruct k as [[|] l], k' as [[|] l']; unfold is_syn, nsyn, cbit; cbn; intros ? ? [=]; try lia; f_equal; lia.
Qed.
Lemma meas_keep (T : Z) (Q : pauli qubit) : (forall k, is_syn dh dw k -> mem (synq name k) (px Q) = false) -> prop (meas_instrs name dh dw T) Q = Some (Q, false).
Proof.
  intros HQ. rewrite meas_instrs_eq. apply prop_keep. intros i Hi.
  apply elem_of_list_fmap in Hi as ([q b] & -> & Hi). apply elem_of_list_fmap in Hi as (k & [= -> ->] & Hk%syn_order_elem).
  cbn. rewrite HQ by done. done.
Qed.
Lemma reset_keep (Q : pauli qubit) : synd_off Q -> prop (reset_instrs name dh dw) Q = Some (Q, false).
Proof.
  intros HQ. rewrite reset_instrs_eq. apply prop_keep. intros i Hi.
  apply elem_of_list_fmap in Hi as (q & -> & Hi). apply elem_of_list_fmap in Hi as (k & -> & Hk%syn_order_elem).
  cbn. destruct (HQ k Hk) as [-> ->]. done.
Qed.
Lemma round_keep (T : Z) (Q : pauli qubit) : synd_off Q -> synd_comm Q -> prop (round_instrs c name dh dw T) Q = Some (Q, false).
Proof.
  intros Ho Hc. unfold round_instrs. change false with (xorb false (xorb false (xorb false false))).
  eapply prop_app; [by apply ents_keep_all|]. eapply prop_app; [apply meas_keep; intros; by apply Ho|].
  eapply prop_app; [by apply reset_keep|done].
Qed.
Lemma synd_off_P (k : bool * Z) : is_syn dh dw k -> synd_off (P k).
Proof. intros Hk k' Hk'. apply off_P; [done|]. intros i. apply synq_dq. Qed.
Lemma synd_comm_P (k : bool * Z) : is_syn dh dw k -> synd_comm (P k).
Proof. intros Hk k' Hk'. by apply P_commute. Qed.

Lemma writes_plain (is : list instr) (b : clbit) : (forall i, i ∈ is -> forall q k, i <> IMeas q k) -> forall i : instr, i ∈ is -> b ∉ writes i.
Proof. intros Hi i Hin. destruct i; cbn; try apply not_elem_of_nil. exfalso. by eapply Hi. Qed.

Context {R : Amp}.
Theorem round_spec (T : Z) (k0 k1 : config R) :
  (forall k, is_syn dh dw k -> clean (synq name k) k0.2) ->
  exec (round_instrs c name dh dw T) k0 k1 ->
  (forall k, is_syn dh dw k -> stab k1.2 (P k) (k1.1 (cbit name dh dw T k))) /\
  (forall k, is_syn dh dw k -> clean (synq name k) k1.2) /\
  (forall (Q : pauli qubit) t, synd_off Q -> synd_comm Q -> stab k0.2 Q t -> stab k1.2 Q t) /\
  (forall b, (forall k, is_syn dh dw k -> b <> cbit name dh dw T k) -> k1.1 b = k0.1 b).
Proof.
  intros Hcl Hex. assert (Hex' := Hex). unfold round_instrs in Hex'.
  apply exec_app in Hex' as (ka & He1 & Hex'). apply exec_app in Hex' as (kb & He2 & Hex').
  apply exec_app in Hex' as (kc & He3 & He4).
  assert (kc = k1) as ->.
  { inversion He4 as [|? ? ? k' ? Hst He]; subst. inversion He; subst. by inversion Hst; subst. }
  assert (Hcb : forall b, k1.1 b = kb.1 b).
  { intros b. eapply exec_frame; [exact He3|]. apply writes_plain. rewrite reset_instrs_eq.
    intros i (q & -> & _)%elem_of_list_fmap. done. }
  split_and!.
  - intros k Hk.
    assert (Ha : stab ka.2 (pmul (Zon {[synq name k]}) (P k)) false).
    { change false with (xorb false false). eapply prop_sound; [by apply ents_Z|exact He1|]. apply clean_stab. by apply Hcl. }
    assert (Hb : stab kb.2 (pmul (Zon {[synq name k]}) (P k)) false).
    { change false with (xorb false false). eapply prop_sound; [apply (meas_keep T)|exact He2|exact Ha].
      intros k' Hk'. cbn. rewrite sd_empty_l. apply (synd_off_P k Hk k' Hk'). }
    assert (Hm : stab kb.2 (Zon {[synq name k]}) (kb.1 (cbit name dh dw T k))).
    { rewrite meas_instrs_eq in He2. eapply exec_meas; [exact He2| |].
      - rewrite <-list_fmap_compose. apply NoDup_fmap_2_strong; [|apply syn_order_NoDup].
        intros x y Hx%syn_order_elem Hy%syn_order_elem. by apply cbit_inj.
      - apply elem_of_list_fmap. exists k. split; [done|]. by apply syn_order_elem. }
    pose proof (stab_mul _ _ _ _ _ Hm Hb) as HP. rewrite pmul_assoc, pmul_self, pmul_id_l in HP.
    cbn [px Zon] in HP. rewrite dot_empty_l, !xorb_false_r in HP.
    rewrite Hcb, <-(xorb_false_r (kb.1 _)). eapply prop_sound; [|exact He3|exact HP]. apply reset_keep. by apply synd_off_P.
  - intros k Hk. apply clean_stab. rewrite reset_instrs_eq in He3. eapply exec_resets; [exact He3|].
    apply elem_of_list_fmap. exists k. split; [done|]. by apply syn_order_elem.
  - intros Q t Ho Hc Hs. rewrite <-(xorb_false_r t). eapply prop_sound; [|exact Hex|exact Hs]. by apply round_keep.
  - intros b Hb. rewrite Hcb. transitivity (ka.1 b).
    + eapply exec_frame; [exact He2|]. rewrite meas_instrs_eq.
      intros i Hi. apply elem_of_list_fmap in Hi as ([q b'] & -> & Hi). apply elem_of_list_fmap in Hi as (k & [= -> ->] & Hk%syn_order_elem).
      cbn. intros ->%elem_of_list_singleton. by apply (Hb k Hk).
    + eapply exec_frame; [exact He1|]. apply writes_plain. rewrite lat_stabs_syns, ent_instrs_eq.
      intros i Hi. apply elem_of_list_join in Hi as (is & Hi & (k & -> & Hk%elem_of_syns)%elem_of_list_fmap).
      unfold ent_k in Hi. rewrite ent_compile in Hi by done. apply elem_of_app in Hi as [Hi|Hi].
      * by eapply compile_plain.
      * apply elem_of_list_singleton in Hi. by subst.
Qed.
End round.
