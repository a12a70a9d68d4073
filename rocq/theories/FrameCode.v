(** Errors of one type on the data qubits, as sets. *)
From Verif Require Export FrameCirc P_Code FaultFacts RunFacts.
From stdpp Require Export list.
Open Scope Z_scope.

Section code.
Context (c : code) (name : string) (dh dw : Z) (Hv : valid_size dh dw).
(** The operator of type [isx] on a set of data qubits. *)
Definition typed (isx : bool) (A : gset Z) : pauli Z := cconj c (even_set dh dw) (if isx then Xon A else Zon A).
Definition tset (k : bool * Z) : gset Z := list_to_set (plaq_data (geomP dh dw k)).
Definition lset (isx : bool) : gset Z := if isx then col_set dh dw 0 else row_set dh dw 0.
(** Sets of data qubits whose operators of type [isx] are stabilizers or the logical operator. *)
Definition obs (isx : bool) (A : gset Z) : Prop := (exists loc, 0 <= loc < P_Graph.nsyn isx dh dw /\ A = tset (isx, loc)) \/ A = lset isx.

Lemma stabP_typed k : is_syn dh dw k -> stabP c dh dw k = typed k.1 (tset k).
Proof.
  destruct k as [isx loc]. unfold is_syn, nsyn, stabP, typed, tset, geomP. cbn [fst snd]. intros Hl. destruct isx.
  - assert (E : stab_x c dh dw loc = cconj c (even_set dh dw) (stab_x XXZZ dh dw loc)) by (destruct c; [done|by apply stab_x_hconj]). by rewrite E.
  - assert (E : stab_z c dh dw loc = cconj c (even_set dh dw) (stab_z XXZZ dh dw loc)) by (destruct c; [done|by apply stab_z_hconj]). by rewrite E.
Qed.
Lemma stabk_typed isx loc : 0 <= loc < P_Graph.nsyn isx dh dw -> stabk isx c dh dw loc = typed isx (tset (isx, loc)).
Proof.
  intros Hl. assert (E : stabP c dh dw (isx, loc) = typed isx (tset (isx, loc))) by (apply (stabP_typed (isx, loc)); unfold is_syn; by destruct isx).
  rewrite <-E. by destruct isx.
Qed.
Lemma logk_typed isx : logk isx c dh dw = typed isx (lset isx).
Proof. unfold logk, log_x, log_z, typed, lset, cconj. destruct isx; case_match; reflexivity. Qed.
Lemma err_at_typed isx i : err_at isx c dh dw i = typed (negb isx) {[i]}.
Proof. unfold err_at, typed. destruct isx; reflexivity. Qed.
Lemma anti_typed isx A B : anti (typed (negb isx) B) (typed isx A) = dot B A.
Proof. unfold typed. rewrite anti_cconj. destruct isx; cbn [negb]; [rewrite anti_Xon; cbn; done|rewrite anti_Zon; done]. Qed.
Lemma anti_typed_same isx A B : anti (typed isx B) (typed isx A) = false.
Proof. unfold typed. rewrite anti_cconj. destruct isx; [rewrite anti_Xon|rewrite anti_Zon]; cbn; apply dot_empty_l. Qed.
Lemma anti_err_typed isx i A : anti (err_at isx c dh dw i) (typed isx A) = mem i A.
Proof. rewrite err_at_typed, anti_typed. apply dot_singleton_l. Qed.
Lemma typed_sd isx A B : typed isx (A ⊕ B) = pmul (typed isx A) (typed isx B).
Proof.
  unfold typed. rewrite <-cconj_pmul. f_equal. destruct isx; apply pauli_eq; cbn [px pz Xon Zon pmul]; by rewrite ?sd_empty_r.
Qed.
Lemma mem_typed_off isx A i : i ∉ A -> mem i (px (typed isx A)) = false /\ mem i (pz (typed isx A)) = false.
Proof.
  intros Hi. apply mem_false in Hi. unfold typed, cconj. destruct c.
  - destruct isx; cbn; rewrite ?mem_empty; done.
  - rewrite mem_hconj_x, mem_hconj_z. destruct isx; cbn [px pz Xon Zon]; rewrite ?mem_empty, ?Hi; destruct (mem i (even_set dh dw)); rewrite ?mem_empty, ?Hi; done.
Qed.
Lemma tset_data k : is_syn dh dw k -> tset k ⊆ data_set dh dw.
Proof.
  intros Hk i Hi. apply elem_of_list_to_set in Hi. apply elem_of_data_set. destruct k as [[|] loc]; unfold is_syn, nsyn in Hk; cbn in *.
  - destruct (plaq_data_x dh dw loc Hv Hk) as (_&_&_&H). by apply H.
  - destruct (plaq_data_z dh dw loc Hv Hk) as (_&_&_&H). by apply H.
Qed.
Lemma is_syn_loc isx loc : is_syn dh dw (isx, loc) <-> 0 <= loc < P_Graph.nsyn isx dh dw.
Proof. unfold is_syn. by destruct isx. Qed.
Lemma obs_data isx A : obs isx A -> A ⊆ data_set dh dw.
Proof.
  intros [(loc & Hl & ->)| -> ]; [by apply tset_data, is_syn_loc|]. intros i. unfold lset. destruct isx.
  - by intros [H _]%elem_of_col_set.
  - by intros [H _]%elem_of_row_set.
Qed.
Lemma obs_commute isx k A : is_syn dh dw k -> obs isx A -> anti (stabP c dh dw k) (typed isx A) = false.
Proof.
  intros Hk [(loc & Hl & ->)| -> ].
  - rewrite <-(stabP_typed (isx, loc) : _ -> _ = typed isx _) by (by apply is_syn_loc). apply (stabilizers_commute c dh dw); [done|by apply stabP_elem|]. apply stabP_elem. by apply is_syn_loc.
  - rewrite <-logk_typed. destruct (logical_commute c dh dw (stabP c dh dw k) Hv (stabP_elem _ _ _ _ Hk)) as [H1 H2].
    destruct isx; [apply H1|apply H2].
Qed.
(** A data qubit lies in at most two stabilizers of one type. *)
Lemma touched isx i : 0 <= i < dh * dw -> exists tl, NoDup tl /\ (length tl <= 2)%nat /\
  forall loc, loc ∈ tl <-> 0 <= loc < P_Graph.nsyn isx dh dw /\ mem i (tset (isx, loc)) = true.
Proof.
  intros Hi. set (tl := filter (fun loc => mem i (tset (isx, loc)) = true) (seqZ 0 (P_Graph.nsyn isx dh dw))).
  assert (Htl : forall loc, loc ∈ tl <-> 0 <= loc < P_Graph.nsyn isx dh dw /\ mem i (tset (isx, loc)) = true).
  { intros loc. unfold tl. rewrite elem_of_list_filter, elem_of_seqZ. rewrite Z.add_0_l. tauto. }
  assert (Hnd : NoDup tl) by (apply NoDup_filter, NoDup_seqZ).
  exists tl. split_and!; [done| |done].
  set (dg := (if isx then diag_x else diag_z) (i / dw) (i mod dw)).
  assert (Hlen : length dg = 2%nat) by (unfold dg, diag_x, diag_z; destruct isx, (Z.even _); done).
  rewrite <-Hlen, <-(fmap_length (coordk isx dw) tl). apply submseteq_length, NoDup_submseteq.
  - apply NoDup_fmap_2_strong; [|done]. intros l1 l2 [H1 _]%Htl [H2 _]%Htl. by apply (coordk_inj isx dh).
  - intros p (loc & -> & [Hl Hm]%Htl)%elem_of_list_fmap.
    assert (Ha : anti (err_at isx XXZZ dh dw i) (stabk isx XXZZ dh dw loc) = true).
    { rewrite <-Hm. unfold err_at, stabk, tset, geomP, cconj. cbn [fst snd]. destruct isx.
      - unfold stab_x. cbn [shortname_mx plaq_pauli]. rewrite anti_Xon. cbn. apply dot_singleton_l.
      - unfold stab_z. cbn [shortname_mz plaq_pauli]. rewrite anti_Zon. cbn. apply dot_singleton_l. }
    destruct (C07_single_error_XXZZ dh dw i Hv Hi) as (Hz & _ & Hx & _). unfold dg, coordk, P_Graph.nsyn in *. destruct isx; [by apply Hx|by apply Hz].
Qed.

(** ** Single-qubit errors *)
Lemma dot_agree {A} `{Countable A} (X X' Y : gset A) : (forall a, mem a Y = true -> mem a X = mem a X') -> dot X Y = dot X' Y.
Proof.
  intros HX. unfold dot. f_equal. apply mem_ext. intros a. rewrite !mem_cap. destruct (mem a Y) eqn:E; [|by rewrite !andb_false_r]. by rewrite HX.
Qed.
Lemma anti_agree (P P' Q : pauli qubit) : (forall a, off a Q \/ mem a (px P) = mem a (px P') /\ mem a (pz P) = mem a (pz P')) -> anti P Q = anti P' Q.
Proof.
  intros Ha. unfold anti. f_equal; apply dot_agree; intros a Hm; destruct (Ha a) as [[H1 H2]|[H1 H2]]; congruence.
Qed.
Lemma anti_single_off (q : qubit) (P Q : pauli qubit) : single_on q P -> off q Q -> anti P Q = false.
Proof.
  intros Hs Ho. rewrite <-(anti_pid_l Q). apply anti_agree. intros a. destruct (decide (a = q)) as [-> |Hne]; [by left|]. right.
  destruct (Hs a Hne) as [-> ->]. cbn. by rewrite mem_empty.
Qed.
Lemma off_data q Q : (forall i, q <> dq name i) -> off q (pmap (dq name) Q).
Proof.
  intros Hq. split; cbn; apply mem_false; unfold img; intros (i & -> & _)%elem_of_map; by apply (Hq i).
Qed.
Lemma off_typed i isx A : i ∉ A -> off (dq name i) (pmap (dq name) (typed isx A)).
Proof. intros Hi. destruct (mem_typed_off isx A i Hi). split; cbn; by rewrite (mem_img (dq name)). Qed.
Definition like (isx : bool) (P : pauli qubit) (i : Z) (b : bool) : Prop :=
  forall A, anti P (pmap (dq name) (typed isx A)) = b && mem i A.
Lemma like_data isx P i : single_on (dq name i) P -> exists b, like isx P i b.
Proof.
  intros Hs. exists (anti P (pmap (dq name) (typed isx {[i]}))). intros A.
  destruct (decide (i ∈ A)) as [Hi|Hi].
  - rewrite (proj2 (mem_true _ _) Hi), andb_true_r.
    assert (A = {[i]} ⊕ (A ∖ {[i]})) as -> by (rewrite sd_disj by set_solver; apply union_difference_L; set_solver).
    rewrite typed_sd, pmap_pmul, anti_pmul_r by apply _. rewrite (anti_single_off _ _ _ Hs (off_typed i isx (A ∖ {[i]}) ltac:(set_solver))).
    apply xorb_false_r.
  - rewrite (anti_single_off _ _ _ Hs (off_typed i isx A Hi)). rewrite (proj2 (mem_false _ _) Hi), andb_false_r. done.
Qed.
Lemma like_other isx P q : single_on q P -> (forall i, q <> dq name i) -> like isx P 0 false.
Proof. intros Hs Hq A. cbn. eapply anti_single_off; [done|]. by apply off_data. Qed.
End code.
